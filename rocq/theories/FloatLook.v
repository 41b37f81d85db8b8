(** Where a swap of the f64 pool heads, and what its passes do to the liquidity in force: lemmas. *)
From Coq Require Import ZArith Reals Lia List Bool String Sorted Floats.SpecFloat.
From Verif Require Import Base FloatBase FloatModel FloatFacts FloatWf FloatSwap FloatLp FloatStuck FloatFlow FloatBook FloatTerm.
Import ListNotations.
Open Scope Z_scope.

(** *** looking up *)
Lemma rev_sorted l : StronglySorted Z.lt l -> StronglySorted (fun a b => b < a) (rev l).
Proof.
  induction 1 as [|a l S IH F]; [constructor|]. cbn [rev]. rewrite Forall_forall in F.
  assert (G : forall x, In x (rev l) -> a < x) by (intros x X; apply F, in_rev, X). clear F S.
  induction (rev l) as [|b m IHm]; cbn [app]; [repeat constructor|].
  inversion IH as [|x y S F]; subst. constructor; [apply IHm; [exact S|intros x X; apply G; now right]|].
  rewrite Forall_forall in *. intros x X. apply in_app_or in X as [X|[<-|[]]]; [now apply F|apply G; now left].
Qed.
Lemma find_down l x : StronglySorted (fun a b => b < a) l ->
  match find (fun k => k <=? x) l with
  | Some g => In g l /\ g <= x /\ forall k, In k l -> k <= x -> k <= g
  | None => forall k, In k l -> x < k
  end.
Proof.
  induction 1 as [|a l S IH F]; cbn [find]; [intros k []|]. rewrite Forall_forall in F. destruct (Z.leb_spec a x).
  - split; [now left|]. split; [assumption|]. intros k [<-|K] L; [lia|]. specialize (F k K). lia.
  - destruct (find _ l).
    + destruct IH as (A & B & C). split; [now right|]. split; [exact B|]. intros k [<-|K] L; [lia|auto].
    + intros k [<-|K]; [lia|auto].
Qed.
Lemma find_up l x : StronglySorted Z.lt l ->
  match find (fun k => x <? k) l with
  | Some g => In g l /\ x < g /\ forall k, In k l -> x < k -> g <= k
  | None => forall k, In k l -> k <= x
  end.
Proof.
  induction 1 as [|a l S IH F]; cbn [find]; [intros k []|]. rewrite Forall_forall in F. destruct (Z.ltb_spec x a).
  - split; [now left|]. split; [assumption|]. intros k [<-|K] L; [lia|]. specialize (F k K). lia.
  - destruct (find _ l).
    + destruct IH as (A & B & C). split; [now right|]. split; [exact B|]. intros k [<-|K] L; [lia|auto].
    + intros k [<-|K]; [lia|auto].
Qed.
Definition grid (p : fpool) : Prop := forall k, In k (keys p) -> (fspacing p | k).
Lemma align_ge s k t : 0 < s -> (s | k) -> k <= t -> k <= t / s * s.
Proof. intros S [q ->] L. apply Z.mul_le_mono_nonneg_r; [lia|]. apply Z.div_le_lower_bound; lia. Qed.
Lemma align_le s t : 0 < s -> t / s * s <= t.
Proof. intros S. rewrite Z.mul_comm. now apply Z.mul_div_le. Qed.
(** the ticks that are in use *)
Definition nearest_below (p : fpool) (t : Z) (o : option Z) : Prop :=
  match o with
  | Some g => In g (keys p) /\ g <= t /\ forall k, In k (keys p) -> k <= t -> k <= g
  | None => forall k, In k (keys p) -> t < k
  end.
Definition nearest_above (p : fpool) (t : Z) (o : option Z) : Prop :=
  match o with
  | Some g => In g (keys p) /\ t < g /\ forall k, In k (keys p) -> t < k -> g <= k
  | None => forall k, In k (keys p) -> k <= t
  end.
Lemma left_near p t : fpool_ok p -> pool_u p -> grid p -> 0 < fspacing p -> u32 t -> nearest_below p (Z.min t (fglbl_tick p)) (fget_left_limit p t).
Proof.
  intros K (U1 & U2 & U3) G S T. set (m := Z.min t (fglbl_tick p)).
  assert (M : u32 m) by (unfold u32, m in *; lia).
  assert (A : f_tick_to_possible_tick p m false = m / fspacing p * fspacing p) by (apply possible_exact; unfold u32 in *; lia).
  unfold fget_left_limit, ftick_keys. fold m. rewrite A. assert (Q := find_down _ (m / fspacing p * fspacing p) (rev_sorted _ (ok_sorted _ K))).
  pose proof (align_le (fspacing p) m S) as L. unfold nearest_below, keys. destruct (find _ _).
  - destruct Q as (Q1 & Q2 & Q3). split; [now apply in_rev|]. split; [lia|]. intros k I J. apply Q3; [now apply in_rev in I|]. apply align_ge; [exact S|apply G, I|exact J].
  - intros k I. assert (N := Q k (proj1 (in_rev _ _) I)). destruct (Z.le_gt_cases k m) as [J|J]; [|lia]. pose proof (align_ge (fspacing p) k m S (G k I) J). lia.
Qed.
Lemma right_near p o : fpool_ok p -> pool_u p -> fget_right_limit p (fglbl_tick p) (fglbl_tick p) = Ok o -> nearest_above p (fglbl_tick p) o.
Proof.
  intros K (U1 & U2 & U3) H. unfold fget_right_limit, ftick_keys in H. pose proof (aligned _ _ U2 U1) as A. unfold f_tick_to_possible_tick in H.
  destruct (Z.eqb_spec (f_tk_to_possible_tk (fglbl_tick p) (fspacing p) false) (fglbl_tick p)) as [E|N].
  - injection H as <-. rewrite E. exact (find_up _ _ (ok_sorted _ K)).
  - destruct (Z.ltb_spec (fglbl_tick p) (f_tk_to_possible_tk (fglbl_tick p) (fspacing p) false)); [lia|discriminate].
Qed.

(** *** totals inside *)
Definition ordered (zs : zbook) : Prop := Forall (fun kz : fkey * Z => snd (fst (fst kz)) < snd (fst kz)) zs.
Lemma gross_nn zs t : znn zs -> 0 <= zsum (ends t) zs.
Proof. intros N. apply (znn_gross zs t N). Qed.
Lemma inside_move zs a b : znn zs -> a <= b -> (forall k, a < k <= b -> zsum (ends k) zs = 0) -> zsum (inside a) zs = zsum (inside b) zs.
Proof.
  induction 1 as [|[[[u lo] up] z] zs A N IH]; intros L H; [reflexivity|]. cbn [zsum]. cbn [snd] in A.
  assert (Q : forall k, a < k <= b -> ends k (u, lo, up) * z = 0 /\ zsum (ends k) zs = 0).
  { intros k R. specialize (H k R). cbn [zsum] in H. pose proof (gross_nn zs k N). assert (0 <= ends k (u, lo, up) * z); [|lia].
    apply Z.mul_nonneg_nonneg; [|exact A]. unfold ends. cbn. destruct (lo =? k), (up =? k); lia. }
  rewrite IH; [|exact L|intros k R; apply Q, R]. destruct (Z.eq_dec z 0) as [->|Z0]; [lia|].
  assert (Q1 : ~ a < lo <= b).
  { intros R. destruct (Q _ R) as [E _]. unfold ends in E. cbn in E. rewrite Z.eqb_refl in E. destruct (up =? lo); lia. }
  assert (Q2 : ~ a < up <= b).
  { intros R. destruct (Q _ R) as [E _]. unfold ends in E. cbn in E. rewrite Z.eqb_refl in E. destruct (lo =? up); lia. }
  unfold inside; cbn. destruct (Z.leb_spec lo a), (Z.leb_spec lo b), (Z.ltb_spec a up), (Z.ltb_spec b up); cbn; lia.
Qed.
Lemma inside_step zs t : ordered zs -> zsum (inside t) zs = zsum (inside (t - 1)) zs + zsum (signs t) zs.
Proof.
  induction 1 as [|[[[u lo] up] z] zs A N IH]; [reflexivity|]. cbn [zsum]. cbn in A. rewrite IH. generalize (zsum (inside (t - 1)) zs) (zsum (signs t) zs). intros i j.
  unfold inside, signs; cbn [fst snd].
  destruct (Z.leb_spec lo t), (Z.leb_spec lo (t - 1)), (Z.ltb_spec t up), (Z.ltb_spec (t - 1) up), (Z.eqb_spec lo t), (Z.eqb_spec up t); cbn [andb]; lia.
Qed.

(** *** what stays the same during a swap *)
Record still (zs : zbook) (p : fpool) : Prop := mkStill
  { st_ok : fpool_ok p; st_u : pool_u p; st_pos : 0 < fspacing p; st_grid : grid p; st_book : book_ok p zs; st_tot : ztotal zs < 2 ^ 52; st_ord : ordered zs }.
Definition force (zs : zbook) (p : fpool) : Prop := fint (fglbl_liq p) (zsum (inside (fglbl_tick p)) zs).
Lemma still_same zs p q : still zs p -> fpool_ok q -> same_book p q -> u32 (fglbl_tick q) -> still zs q.
Proof.
  intros [A1 A2 A3 A4 A5 A6 A7] K B T. constructor; auto.
  - exact (pool_u_same p q B A2 T).
  - destruct B as [_ _ (-> & _)]. exact A3.
  - unfold grid. rewrite (same_keys _ _ B). destruct B as [_ _ (-> & _)]. exact A4.
  - destruct B as [B1 B2 _]. destruct A5 as [C1 C2]. split; [now rewrite B1|]. intros t. apply (book_get (fticks p)); [exact B2|apply C2].
Qed.
Lemma unused zs p k : book_ok p zs -> ~ In k (keys p) -> zsum (ends k) zs = 0.
Proof.
  intros [_ B] N. specialize (B k). destruct (ftm_get k (fticks p)) eqn:G; [|apply B].
  exfalso. apply N. exact (ftm_get_in _ _ _ G).
Qed.
Lemma book_nn p zs : book_ok p zs -> znn zs.
Proof. intros [W _]. exact (wholes_nn _ _ W). Qed.
(** the tick moves and no tick in use is passed *)
Lemma force_down zs p q : still zs p -> force zs p -> fglbl_liq q = fglbl_liq p -> fglbl_tick q <= fglbl_tick p ->
  (forall k, In k (keys p) -> fglbl_tick q < k <= fglbl_tick p -> False) -> force zs q.
Proof.
  intros S F L T N. unfold force. rewrite L. rewrite (inside_move zs (fglbl_tick q) (fglbl_tick p)); [exact F|exact (book_nn _ _ (st_book _ _ S))|exact T|].
  intros k R. apply (unused _ _ _ (st_book _ _ S)). intros I. exact (N k I R).
Qed.
Lemma force_up zs p q : still zs p -> force zs p -> fglbl_liq q = fglbl_liq p -> fglbl_tick p <= fglbl_tick q ->
  (forall k, In k (keys p) -> fglbl_tick p < k <= fglbl_tick q -> False) -> force zs q.
Proof.
  intros S F L T N. unfold force. rewrite L. rewrite <- (inside_move zs (fglbl_tick p) (fglbl_tick q)); [exact F|exact (book_nn _ _ (st_book _ _ S))|exact T|].
  intros k R. apply (unused _ _ _ (st_book _ _ S)). intros I. exact (N k I R).
Qed.
Lemma cross_liq p t d p' : fcross_tick p t d = Ok p' -> exists ts, ftm_get t (fticks p) = Some ts /\
  fglbl_liq p' = fadd (fglbl_liq p) (if d then ft_net ts else fneg (ft_net ts)).
Proof.
  intros H. unfold fcross_tick in H. destruct (negb d && _); [discriminate|]. destruct (ftm_get t (fticks p)) as [ts|] eqn:G; [|discriminate].
  mb H. unfold fadd_glbl_liq in H. mb H. injection H as <-. unfold fg_add_liq in E0. destruct (flt _ f_zero); [discriminate|]. injection E0 as <-.
  exists ts. split; [reflexivity|]. destruct d; reflexivity.
Qed.
Lemma net_at zs p t ts : still zs p -> ftm_get t (fticks p) = Some ts -> fint (ft_net ts) (zsum (signs t) zs).
Proof. intros S G. pose proof (proj2 (st_book _ _ S) t) as B. rewrite G in B. apply B. Qed.
(** crossing from right to left *)
Lemma force_cross_l zs p t p' : still zs p -> fint (fglbl_liq p) (zsum (inside t) zs) -> fcross_tick p t false = Ok p' ->
  still zs p' /\ force zs p' /\ fglbl_tick p' < t /\ forall k, In k (keys p) -> fglbl_tick p' < k < t -> False.
Proof.
  intros S F H. destruct (fcross_ok _ _ _ _ (st_ok _ _ S) H) as (K' & B & _). destruct (cross_l _ _ _ H) as (C1 & C2 & C3 & C4).
  destruct (cross_liq _ _ _ _ H) as (ts & G & L). assert (N := net_at _ _ _ _ S G). destruct S as [A1 (U1 & U2 & U3) A3 A4 A5 A6 A7].
  assert (UT := U3 t C2). assert (A := aligned (t - 1) (fspacing p) ltac:(unfold u32 in *; lia) U1).
  assert (E : fglbl_tick p' = (t - 1) / fspacing p * fspacing p) by (rewrite C4; apply possible_exact; unfold u32 in *; lia).
  assert (NO : forall k, In k (keys p) -> fglbl_tick p' < k <= t - 1 -> False).
  { intros k I R. pose proof (align_ge (fspacing p) k (t - 1) A3 (A4 k I)). lia. }
  split; [|split; [|split]].
  - apply (still_same zs p p'); [constructor; auto; split; auto|exact K'|exact B|unfold u32 in *; lia].
  - unfold force. rewrite (inside_move zs (fglbl_tick p') (t - 1)); [|exact (book_nn _ _ A5)|lia|intros k R; apply (unused _ _ _ A5); intros I; exact (NO k I R)].
    rewrite L. replace (zsum (inside (t - 1)) zs) with (zsum (inside t) zs + - zsum (signs t) zs) by (rewrite (inside_step zs t A7); lia).
    apply fint_add; [exact F|apply fint_neg; exact N|].
    pose proof (znn_in zs t (book_nn _ _ A5)). pose proof (znn_net zs t (book_nn _ _ A5)). assert (2 ^ 53 = 2 * 2 ^ 52) by reflexivity. lia.
  - lia.
  - intros k I R. apply (NO k I). lia.
Qed.
(** ... and from left to right *)
Lemma force_cross_r zs p t p' : still zs p -> fint (fglbl_liq p) (zsum (inside (t - 1)) zs) -> fcross_tick p t true = Ok p' ->
  still zs p' /\ force zs p' /\ fglbl_tick p' = t.
Proof.
  intros S F H. destruct (fcross_ok _ _ _ _ (st_ok _ _ S) H) as (K' & B & _). destruct (cross_r _ _ _ H) as (C2 & C4).
  destruct (cross_liq _ _ _ _ H) as (ts & G & L). assert (N := net_at _ _ _ _ S G).
  split; [|split; [|exact C4]].
  - apply (still_same zs p p' S K' B). rewrite C4. apply (st_u _ _ S), C2.
  - unfold force. rewrite C4, L, (inside_step zs t (st_ord _ _ S)). apply fint_add; [exact F|exact N|].
    pose proof (znn_in zs (t - 1) (book_nn _ _ (st_book _ _ S))). pose proof (znn_net zs t (book_nn _ _ (st_book _ _ S))). pose proof (st_tot _ _ S).
    assert (2 ^ 53 = 2 * 2 ^ 52) by reflexivity. lia.
Qed.

Section Lm.
Variable lm : libm.
Hypothesis LM : libm_ok lm.

(** *** getting into range *)
Lemma gir_left_f zs ks : forall p p' o, still zs p -> force zs p -> StronglySorted (fun a b => b < a) ks -> (forall k, In k ks -> In k (keys p)) ->
  (forall k, In k (keys p) -> k <= fglbl_tick p -> In k ks) -> fgir_left lm p ks = Ok (p', o) ->
  still zs p' /\ force zs p' /\ (forall g r, o = Some (g, r) -> nearest_below p' (fglbl_tick p') g).
Proof.
  induction ks as [|tk ks IH]; intros p p' o S F SS IN CO H; cbn [fgir_left] in H.
  - injection H as <- <-. split; [exact S|]. split; [exact F|discriminate].
  - inversion SS as [|x y SS' FA]; subst. rewrite Forall_forall in FA.
    destruct (Z.ltb_spec (fglbl_tick p) tk) as [L|L].
    { apply (IH p p' o S F SS'); [intros k I; apply IN; now right| |exact H]. intros k I J. destruct (CO k I J) as [<-|X]; [lia|exact X]. }
    destruct (set_ok lm LM p tk (st_ok _ _ S)) as (K2 & S2 & T2). assert (L2 : fglbl_liq (fset_rp (fset_tick p tk) (f_tick_to_rp lm tk)) = fglbl_liq p) by reflexivity.
    set (p2 := fset_rp _ _) in *. mb H. rename a into q.
    assert (IT : In tk (keys p)) by (apply IN; now left).
    assert (U2 : u32 (fglbl_tick p2)) by (rewrite T2; apply (st_u _ _ S), IT).
    assert (S2' := still_same zs p p2 S K2 S2 U2).
    assert (F2 : force zs p2).
    { apply (force_down zs p p2 S F L2); [rewrite T2; exact L|]. rewrite T2. intros k I R. destruct (CO k I (proj2 R)) as [<-|X]; [lia|]. specialize (FA k X). lia. }
    unfold force in F2. rewrite T2 in F2. destruct (force_cross_l zs p2 tk q S2' F2 E) as (S3 & F3 & T3 & N3).
    assert (KQ : keys q = keys p).
    { destruct (fcross_ok _ _ _ _ K2 E) as (_ & B3 & _). rewrite (same_keys _ _ B3). apply (same_keys _ _ S2). }
    destruct (flt (fglbl_liq q) f_zero); [discriminate|]. destruct (flt f_zero (fglbl_liq q)).
    + mb H. injection H as <- <-. split; [exact S3|]. split; [exact F3|]. intros g r [= ->].
      unfold fgir_new in E0. destruct (flt _ _); [discriminate|]. injection E0 as <- _.
      pose proof (left_near q (fglbl_tick q) (st_ok _ _ S3) (st_u _ _ S3) (st_grid _ _ S3) (st_pos _ _ S3) (proj1 (proj2 (st_u _ _ S3)))) as Q.
      now rewrite Z.min_id in Q.
    + apply (IH q p' o S3 F3 SS'); [intros k I; rewrite KQ; apply IN; now right| |exact H]. rewrite KQ. intros k I J. destruct (CO k I ltac:(lia)) as [<-|X]; [lia|exact X].
Qed.
Lemma gir_right_f zs ks : forall p p' o, still zs p -> force zs p -> StronglySorted Z.lt ks -> (forall k, In k ks -> In k (keys p)) ->
  (forall k, In k (keys p) -> fglbl_tick p < k -> In k ks) -> fgir_right lm p ks = Ok (p', o) ->
  still zs p' /\ force zs p' /\ (forall g r, o = Some (g, r) -> nearest_above p' (fglbl_tick p') g).
Proof.
  induction ks as [|tk ks IH]; intros p p' o S F SS IN CO H; cbn [fgir_right] in H.
  - injection H as <- <-. split; [exact S|]. split; [exact F|discriminate].
  - inversion SS as [|x y SS' FA]; subst. rewrite Forall_forall in FA.
    destruct (Z.leb_spec tk (fglbl_tick p)) as [L|L].
    { apply (IH p p' o S F SS'); [intros k I; apply IN; now right| |exact H]. intros k I J. destruct (CO k I J) as [<-|X]; [lia|exact X]. }
    destruct (set_ok lm LM p tk (st_ok _ _ S)) as (K2 & S2 & T2). assert (L2 : fglbl_liq (fset_rp (fset_tick p tk) (f_tick_to_rp lm tk)) = fglbl_liq p) by reflexivity.
    set (p2 := fset_rp _ _) in *. mb H. rename a into q.
    assert (IT : In tk (keys p)) by (apply IN; now left).
    assert (U2 : u32 (fglbl_tick p2)) by (rewrite T2; apply (st_u _ _ S), IT).
    assert (S2' := still_same zs p p2 S K2 S2 U2).
    assert (F2 : fint (fglbl_liq p2) (zsum (inside (tk - 1)) zs)).
    { rewrite L2. rewrite <- (inside_move zs (fglbl_tick p) (tk - 1)); [exact F|exact (book_nn _ _ (st_book _ _ S))|lia|].
      intros k R. apply (unused _ _ _ (st_book _ _ S)). intros I. destruct (CO k I (proj1 R)) as [<-|X]; [lia|]. specialize (FA k X). lia. }
    destruct (force_cross_r zs p2 tk q S2' F2 E) as (S3 & F3 & T3).
    assert (KQ : keys q = keys p).
    { destruct (fcross_ok _ _ _ _ K2 E) as (_ & B3 & _). rewrite (same_keys _ _ B3). apply (same_keys _ _ S2). }
    mb H. destruct (flt (fglbl_liq q) f_zero); [discriminate|]. destruct (flt f_zero (fglbl_liq q)).
    + mb H. injection H as <- <-. split; [exact S3|]. split; [exact F3|]. intros g r [= ->].
      unfold fgir_new in E1. destruct (flt _ _); [discriminate|]. injection E1 as <- _. rewrite <- T3 in E0.
      exact (right_near q _ (st_ok _ _ S3) (st_u _ _ S3) E0).
    + apply (IH q p' o S3 F3 SS'); [intros k I; rewrite KQ; apply IN; now right| |exact H]. rewrite KQ. intros k I J. destruct (CO k I ltac:(lia)) as [<-|X]; [lia|exact X].
Qed.
Lemma get_left_f zs p p' g r : still zs p -> force zs p -> ftry_get_in_range lm p false = Ok (p', g, r) ->
  still zs p' /\ force zs p' /\ (forall t, g = Some t -> nearest_below p' (fglbl_tick p') (Some t)).
Proof.
  intros S F H. unfold ftry_get_in_range in H. destruct (flt f_zero _); [discriminate|]. mb H. destruct a as [q o].
  destruct (gir_left_f zs (ftick_keys p true) p q o S F (rev_sorted _ (ok_sorted _ (st_ok _ _ S))) (fun k I => proj2 (in_rev _ k) I) (fun k I _ => proj1 (in_rev _ k) I) E) as (A & B & C).
  destruct o as [[g' r']|].
  - injection H as <- <- <-. split; [exact A|]. split; [exact B|]. intros t ->. exact (C _ _ eq_refl).
  - mb H. destruct a as [g' r']. injection H as <- <- <-. split; [exact A|]. split; [exact B|].
    unfold fgir_new in E0. destruct (flt _ _); [discriminate|]. injection E0 as <- _. discriminate.
Qed.
Lemma get_right_f zs p p' g r : still zs p -> force zs p -> ftry_get_in_range lm p true = Ok (p', g, r) ->
  still zs p' /\ force zs p' /\ (forall t, g = Some t -> nearest_above p' (fglbl_tick p') (Some t)).
Proof.
  intros S F H. unfold ftry_get_in_range in H. destruct (flt f_zero _); [discriminate|]. mb H. destruct a as [q o].
  destruct (gir_right_f zs (ftick_keys p false) p q o S F (ok_sorted _ (st_ok _ _ S)) (fun k I => I) (fun k I _ => I) E) as (A & B & C).
  destruct o as [[g' r']|].
  - injection H as <- <- <-. split; [exact A|]. split; [exact B|]. intros t ->. exact (C _ _ eq_refl).
  - mb H. destruct a as [g' r']. injection H as <- <- <-. split; [exact A|]. split; [exact B|].
    unfold fgir_new in E0. destruct (flt _ _); [discriminate|]. injection E0 as <- _. discriminate.
Qed.

(** *** one pass *)
Definition x_lands (p : fpool) (s : floopst) (g : Z) (dx o : f64) : bool :=
  match fswap_within_x lm p (fl_rp s) g (fglbl_liq p) (fsub dx (fl_in s)) o with
  | Ok w => fw_cross w || ((g <=? fw_tick w) && (fw_tick w <=? fglbl_tick p))
  | _ => false
  end.
Definition y_lands (p : fpool) (s : floopst) (g : Z) (dy o : f64) : bool :=
  match fswap_within_y lm p (fl_rp s) g (fglbl_liq p) (fsub dy (fl_in s)) o with
  | Ok w => fw_cross w || ((fglbl_tick p <=? fw_tick w) && (fw_tick w <? g))
  | _ => false
  end.
Lemma step_x_f zs p s g dx o p' s' : still zs p -> force zs p -> s_ok s -> f64_ok dx -> f64_ok o -> nearest_below p (fglbl_tick p) (Some g) ->
  fswap_x_step lm p s g dx o = Ok (p', s') -> x_lands p s g dx o = true -> still zs p' /\ force zs p' /\ s_ok s' /\ fglbl_tick p' <= fl_t s'.
Proof.
  intros S F SK D O (N1 & N2 & N3) H X. assert (K := st_ok _ _ S). destruct (fstep_x_ok lm LM _ _ _ _ _ _ _ K SK D O H) as (K' & SB & SK' & _).
  destruct (step_x lm LM _ _ _ _ _ _ _ K SK D O (st_u _ _ S) N1 H) as (_ & _ & _ & U' & TL & _).
  assert (S' := still_same zs p p' S K' SB (proj1 (proj2 U'))). split; [exact S'|]. split; [|split; [exact SK'|exact TL]]. clear TL.
  unfold x_lands in X. unfold fswap_x_step in H. mb H. rename a into w. rewrite E in X.
  mb H. clear E0. mb H. clear E0. mb H. rename a1 into q. injection H as <- <-.
  match type of E0 with (if _ then (let* _ := _ in match ftm_get _ (fticks ?rr) with _ => _ end) else _) = _ => set (r := rr) in E0 end.
  assert (R : fglbl_tick r = fw_tick w /\ fglbl_liq r = fglbl_liq p) by (subst r; destruct (flt f_zero _); split; reflexivity).
  assert (RB : fpool_ok r /\ same_book p r).
  { assert (W : w_ok w) by (eapply (fwithin_x_ok lm LM); [exact K| | | | |exact E]; auto; try apply SK; try apply K; apply sub_ok; [exact D|apply SK]).
    destruct W as (W1 & W2 & W3 & W4 & W5 & _). destruct K as [(K1 & K2 & K3) B C D' (F1 & F2 & F3 & F4 & F5 & F6) G].
    subst r. destruct (flt f_zero _).
    - destruct K3 as (K3 & K4 & K5 & K6). unfold fglbl_liq, fglbl_fees.
      split; [constructor; cbn; unfold gs_ok, f4_ok; cbn; auto 20 with fok|repeat split].
    - split; [constructor; cbn; auto 20 with fok|repeat split]. unfold gs_ok; cbn; auto. }
  destruct R as (R1 & R2). destruct RB as [RK RB]. assert (RT : fticks r = fticks p) by (subst r; destruct (flt f_zero _); reflexivity). clearbody r.
  destruct (within_x lm _ _ _ _ _ _ _ E) as [(C & T)|(C & T & _)]; rewrite C in E0, X.
  - mb E0. destruct (in_get g (fticks p) N1) as [v V]. rewrite RT, V in E0.
    assert (SR : still zs r) by (apply (still_same zs p r S RK RB); rewrite R1, T; apply (st_u _ _ S), N1).
    assert (FR : force zs r).
    { apply (force_down zs p r S F R2); [lia|]. rewrite R1, T. intros k I Q. specialize (N3 k I (proj2 Q)). lia. }
    unfold force in FR. rewrite R1, T in FR. apply (force_cross_l zs r g q SR FR E0).
  - injection E0 as <-. cbn [orb] in X. apply andb_prop in X as [X1 X2]. apply Z.leb_le in X1, X2.
    apply (force_down zs p r S F R2); [lia|]. rewrite R1. intros k I Q. specialize (N3 k I (proj2 Q)). lia.
Qed.
Lemma step_y_f zs p s g dx o p' s' : still zs p -> force zs p -> s_ok s -> f64_ok dx -> f64_ok o -> nearest_above p (fglbl_tick p) (Some g) ->
  fswap_y_step lm p s g dx o = Ok (p', s') -> y_lands p s g dx o = true -> still zs p' /\ force zs p' /\ s_ok s' /\ fglbl_tick p' = fl_t s'.
Proof.
  intros S F SK D O (N1 & N2 & N3) H X. assert (K := st_ok _ _ S). destruct (fstep_y_ok lm LM _ _ _ _ _ _ _ K SK D O H) as (K' & SB & SK' & _).
  destruct (step_y lm LM _ _ _ _ _ _ _ K SK D O (st_u _ _ S) N1 H) as (_ & _ & _ & U' & _).
  assert (S' := still_same zs p p' S K' SB (proj1 (proj2 U'))). split; [exact S'|]. cut (force zs p' /\ fglbl_tick p' = fl_t s'); [tauto|].
  unfold y_lands in X. unfold fswap_y_step in H. mb H. rename a into w. rewrite E in X.
  mb H. clear E0. mb H. clear E0. mb H. rename a1 into q. injection H as <- <-. cbn [fl_t].
  match type of E0 with (if _ then (let* _ := _ in match ftm_get _ (fticks ?rr) with _ => _ end) else _) = _ => set (r := rr) in E0 end.
  assert (R : fglbl_tick r = fw_tick w /\ fglbl_liq r = fglbl_liq p) by (subst r; destruct (flt f_zero _); split; reflexivity).
  assert (RB : fpool_ok r /\ same_book p r).
  { assert (W : w_ok w) by (eapply (fwithin_y_ok lm LM); [exact K| | | | |exact E]; auto; try apply SK; try apply K; apply sub_ok; [exact D|apply SK]).
    destruct W as (W1 & W2 & W3 & W4 & W5 & _). destruct K as [(K1 & K2 & K3) B C D' (F1 & F2 & F3 & F4 & F5 & F6) G].
    subst r. destruct (flt f_zero _).
    - destruct K3 as (K3 & K4 & K5 & K6). unfold fglbl_liq, fglbl_fees.
      split; [constructor; cbn; unfold gs_ok, f4_ok; cbn; auto 20 with fok|repeat split].
    - split; [constructor; cbn; auto 20 with fok|repeat split]. unfold gs_ok; cbn; auto. }
  destruct R as (R1 & R2). destruct RB as [RK RB]. assert (RT : fticks r = fticks p) by (subst r; destruct (flt f_zero _); reflexivity). clearbody r.
  destruct (within_y lm _ _ _ _ _ _ _ E) as [(C & T)|(C & T & _)]; rewrite C in E0, X.
  - mb E0. destruct (in_get g (fticks p) N1) as [v V]. rewrite RT, V in E0.
    assert (SR : still zs r) by (apply (still_same zs p r S RK RB); rewrite R1, T; apply (st_u _ _ S), N1).
    assert (FR : fint (fglbl_liq r) (zsum (inside (g - 1)) zs)).
    { rewrite R2. rewrite <- (inside_move zs (fglbl_tick p) (g - 1)); [exact F|exact (book_nn _ _ (st_book _ _ S))|lia|].
      intros k Q. apply (unused _ _ _ (st_book _ _ S)). intros I. specialize (N3 k I (proj1 Q)). lia. }
    destruct (force_cross_r zs r g q SR FR E0) as (_ & A & B). split; [exact A|]. rewrite B, T. reflexivity.
  - injection E0 as <-. cbn [orb] in X. apply andb_prop in X as [X1 X2]. apply Z.leb_le in X1. apply Z.ltb_lt in X2. split; [|exact R1].
    apply (force_up zs p r S F R2); [lia|]. rewrite R1. intros k I Q. specialize (N3 k I (proj1 Q)). lia.
Qed.

(** *** whole swaps *)
Fixpoint all_land_x (n : nat) (p : fpool) (s : floopst) (dx o : f64) : bool :=
  match n with
  | O => true
  | S n =>
      if negb (flt (fl_in s) dx) then true
      else match (if flt f_zero (fglbl_liq p) then Ok (p, fget_left_limit p (fl_t s), fl_rp s) else ftry_get_in_range lm p false) with
           | Ok (q, Some g, rp) =>
               let s := mkFL (fl_in s) (fl_out s) (fl_adj s) (fl_fee s) (fl_t s) rp in
               match fswap_x_step lm q s g dx o with
               | Ok (p', s') => x_lands q s g dx o && all_land_x n p' s' dx o
               | _ => true
               end
           | _ => true
           end
  end.
Fixpoint all_land_y (n : nat) (p : fpool) (s : floopst) (dy o : f64) : bool :=
  match n with
  | O => true
  | S n =>
      if negb (flt (fl_in s) dy) then true
      else match (if flt f_zero (fglbl_liq p) then let* g := fget_right_limit p (fl_t s) (fglbl_tick p) in Ok (p, g, fl_rp s) else ftry_get_in_range lm p true) with
           | Ok (q, Some g, rp) =>
               let s := mkFL (fl_in s) (fl_out s) (fl_adj s) (fl_fee s) (fl_t s) rp in
               match fswap_y_step lm q s g dy o with
               | Ok (p', s') => y_lands q s g dy o && all_land_y n p' s' dy o
               | _ => true
               end
           | _ => true
           end
  end.
Lemma loop_x_f zs n : forall p s dx o p' out, still zs p -> force zs p -> s_ok s -> f64_ok dx -> f64_ok o -> fglbl_tick p <= fl_t s -> u32 (fl_t s) ->
  fswap_x_loop lm n p s dx o = Ok (p', out) -> all_land_x n p s dx o = true -> still zs p' /\ force zs p'.
Proof.
  induction n as [|n IH]; intros p s dx o p' out S F SK D O T UT H X; [discriminate|]. cbn [fswap_x_loop] in H. cbn [all_land_x] in X.
  destruct (flt (fl_in s) dx) eqn:L; cbn [negb] in H, X; [|apply fend_x_ok in H as [-> _]; auto].
  mb H. rewrite E in X. destruct a as [[q g] rp].
  assert (Q : still zs q /\ force zs q /\ f64_ok rp /\ (forall t, g = Some t -> nearest_below q (fglbl_tick q) (Some t))).
  { destruct (flt f_zero _).
    - injection E as <- <- <-. split; [exact S|]. split; [exact F|]. split; [apply SK|]. intros t <-.
      pose proof (left_near p (fl_t s) (st_ok _ _ S) (st_u _ _ S) (st_grid _ _ S) (st_pos _ _ S) UT) as Q. now rewrite Z.min_r in Q by exact T.
    - destruct (fgir_ok lm LM _ _ _ _ _ (st_ok _ _ S) E) as (_ & _ & Q3). destruct (get_left_f zs _ _ _ _ S F E) as (Q4 & Q5 & Q6). auto. }
  destruct Q as (Q1 & Q2 & Q3 & Q4). set (s1 := mkFL _ _ _ _ _ _) in H, X.
  assert (S1 : s_ok s1) by (destruct SK as (A1 & A2 & A3 & A4 & A5); repeat split; assumption).
  destruct g as [g|]; [|apply fend_x_ok in H as [-> _]; auto]. mb H. destruct a as [q2 s2]. rewrite E0 in X. apply andb_prop in X as [X1 X2].
  destruct (step_x_f zs _ _ _ _ _ _ _ Q1 Q2 S1 D O (Q4 g eq_refl) E0 X1) as (A & B & C & G).
  assert (U2 : u32 (fl_t s2)).
  { clear - E0 LM Q1 Q4. unfold fswap_x_step in E0. mb E0. mb E0. mb E0. mb E0. injection E0 as _ <-. cbn [fl_t].
    destruct (within_x lm _ _ _ _ _ _ _ E) as [(_ & ->)|(_ & T & _)]; [apply (st_u _ _ Q1), (Q4 g eq_refl)|exact T]. }
  exact (IH _ _ _ _ _ _ A B C D O G U2 H X2).
Qed.
Lemma loop_y_f zs n : forall p s dx o p' out, still zs p -> force zs p -> s_ok s -> f64_ok dx -> f64_ok o -> fglbl_tick p = fl_t s ->
  fswap_y_loop lm n p s dx o = Ok (p', out) -> all_land_y n p s dx o = true -> still zs p' /\ force zs p'.
Proof.
  induction n as [|n IH]; intros p s dx o p' out S F SK D O T H X; [discriminate|]. cbn [fswap_y_loop] in H. cbn [all_land_y] in X.
  destruct (flt (fl_in s) dx) eqn:L; cbn [negb] in H, X; [|apply fend_y_ok in H as [-> _]; auto].
  mb H. rewrite E in X. destruct a as [[q g] rp].
  assert (Q : still zs q /\ force zs q /\ f64_ok rp /\ (forall t, g = Some t -> nearest_above q (fglbl_tick q) (Some t))).
  { destruct (flt f_zero _).
    - mb E. injection E as <- <- <-. split; [exact S|]. split; [exact F|]. split; [apply SK|]. intros t ->. rewrite <- T in E0.
      exact (right_near p _ (st_ok _ _ S) (st_u _ _ S) E0).
    - destruct (fgir_ok lm LM _ _ _ _ _ (st_ok _ _ S) E) as (_ & _ & Q3). destruct (get_right_f zs _ _ _ _ S F E) as (Q4 & Q5 & Q6). auto. }
  destruct Q as (Q1 & Q2 & Q3 & Q4). set (s1 := mkFL _ _ _ _ _ _) in H, X.
  assert (S1 : s_ok s1) by (destruct SK as (A1 & A2 & A3 & A4 & A5); repeat split; assumption).
  destruct g as [g|]; [|apply fend_y_ok in H as [-> _]; auto]. mb H. destruct a as [q2 s2]. rewrite E0 in X. apply andb_prop in X as [X1 X2].
  destruct (step_y_f zs _ _ _ _ _ _ _ Q1 Q2 S1 D O (Q4 g eq_refl) E0 X1) as (A & B & C & G).
  exact (IH _ _ _ _ _ _ A B C D O G H X2).
Qed.

(** *** reachable pools *)
Lemma possible_grid p rp : 0 < fspacing p -> u32 (fspacing p) -> (fspacing p | f_rp_to_possible_tick lm p rp false).
Proof.
  intros S U. unfold f_rp_to_possible_tick, f_rp_to_possible_tk. rewrite possible_exact; [apply Z.divide_factor_r|apply to_u32|unfold u32 in *; lia].
Qed.
Lemma position_grid p u lo up d p' fe : fpool_ok p -> f64_ok d -> (fspacing p | lo) -> (fspacing p | up) -> fset_position p u lo up d = Ok (p', fe) -> grid p -> grid p'.
Proof.
  intros K D L P H G. destruct (fset_position_spec _ _ _ _ _ _ _ K D H) as (_ & _ & R & ps & p1 & p2 & _ & _ & _ & K1 & T1 & _ & E1 & p3 & K2 & _ & E2 & T3).
  destruct R as [(S & _) _ _]. unfold grid, keys. rewrite S, T3. intros k I. apply (update_keys _ _ _ _ _ k K2 D E2) in I as [->|I]; [exact P|].
  apply (update_keys _ _ _ _ _ k K1 D E1) in I as [->|I]; [exact L|]. unfold keys in I. rewrite T1 in I. exact (G k I).
Qed.
Lemma reach_grid p : freach lm p -> 0 < fspacing p < 2 ^ 32 -> grid p.
Proof.
  induction 1 as [rp s c r p C R H|p u x y a b p' xd yd F IH X Y H|p u l a b p' xs ys F IH X H|p n dx o p' out F IH D O H|p n dx o p' out F IH D O H]; intros SP.
  - unfold fpool_new in H. mb H. injection H as <-. intros k [].
  - assert (K := freach_ok lm LM p F). unfold fdeposit in H. destruct (_ || _); [discriminate|]. destruct (flt x _); [discriminate|]. destruct (flt y _); [discriminate|].
    fold (dep_liq lm p x y a b) in H. assert (DL := dep_liq_ok lm LM p x y a b K X Y). mb H. destruct a0 as [q fe]. injection H as <- _ _.
    destruct (fset_position_spec _ _ _ _ _ _ _ K DL E) as (_ & _ & [(S & _) _ _] & _). cbn in SP. rewrite S in SP. assert (U : u32 (fspacing p)) by (unfold u32; lia).
    exact (position_grid _ _ _ _ _ _ _ K DL (possible_grid p a (proj1 SP) U) (possible_grid p b (proj1 SP) U) E (IH SP)).
  - assert (K := freach_ok lm LM p F). unfold fwithdraw in H. destruct (flt l f_zero); [discriminate|].
    assert (DL := neg_ok l X). mb H. destruct a0 as [q fe]. injection H as <- _ _.
    destruct (fset_position_spec _ _ _ _ _ _ _ K DL E) as (_ & _ & [(S & _) _ _] & _). cbn in SP. rewrite S in SP. assert (U : u32 (fspacing p)) by (unfold u32; lia).
    exact (position_grid _ _ _ _ _ _ _ K DL (possible_grid p a (proj1 SP) U) (possible_grid p b (proj1 SP) U) E (IH SP)).
  - assert (K := freach_ok lm LM p F). destruct (fswap_x_good lm LM _ _ _ _ _ _ K D O H) as (_ & B & _). unfold grid. rewrite (same_keys _ _ B).
    destruct B as [_ _ (S & _)]. rewrite S in *. exact (IH SP).
  - assert (K := freach_ok lm LM p F). destruct (fswap_y_good lm LM _ _ _ _ _ _ K D O H) as (_ & B & _). unfold grid. rewrite (same_keys _ _ B).
    destruct B as [_ _ (S & _)]. rewrite S in *. exact (IH SP).
Qed.
Lemma look_left p t : freach lm p -> 0 < fspacing p < 2 ^ 32 -> 0 <= t < 2 ^ 32 -> nearest_below p (Z.min t (fglbl_tick p)) (fget_left_limit p t).
Proof.
  intros F S T. assert (U := reach_u lm LM p F ltac:(unfold u32; lia)).
  exact (left_near p t (freach_ok lm LM p F) U (reach_grid p F S) (proj1 S) T).
Qed.
Lemma look_right p o : freach lm p -> 0 < fspacing p < 2 ^ 32 -> fget_right_limit p (fglbl_tick p) (fglbl_tick p) = Ok o -> nearest_above p (fglbl_tick p) o.
Proof.
  intros F S H. assert (U := reach_u lm LM p F ltac:(unfold u32; lia)).
  exact (right_near p o (freach_ok lm LM p F) U H).
Qed.
Definition ordered_p (p : fpool) : Prop := Forall (fun kv : fkey * fpstate => snd (fst (fst kv)) < snd (fst kv)) (fpositions p).
Lemma wholes_ordered ps zs : wholes ps zs -> Forall (fun kv : fkey * fpstate => snd (fst (fst kv)) < snd (fst kv)) ps -> ordered zs.
Proof.
  induction 1 as [|kv kz ps zs (E & _) W IH]; intros F; [constructor|]. inversion F; subst. constructor; [now rewrite <- E|now apply IH].
Qed.
Lemma still_reach p T : wreach lm p T -> 0 < fspacing p < 2 ^ 32 -> ordered_p p -> backed p -> exists zs, still zs p /\ force zs p.
Proof.
  intros W S OR (zs0 & W0 & FO). assert (F := wreach_freach lm _ _ W). destruct (wreach_book lm LM _ _ W) as (TB & zs & BK & TZ).
  rewrite (wholes_det _ _ W0 _ (proj1 BK)) in FO. exists zs. split; [|exact FO].
  constructor; [exact (freach_ok lm LM p F)|exact (reach_u lm LM p F ltac:(unfold u32; lia))|apply S|exact (reach_grid p F S)|exact BK|lia|].
  exact (wholes_ordered _ _ (proj1 BK) OR).
Qed.
Lemma swap_x_backed p T n dx o p' out : wreach lm p T -> 0 < fspacing p < 2 ^ 32 -> ordered_p p -> backed p -> f64_ok dx -> f64_ok o ->
  fexecute_swap_x lm n p dx o = Ok (p', out) ->
  all_land_x n p (mkFL f_zero f_zero f_zero f_zero (fglbl_tick p) (fglbl_rp p)) dx o = true -> backed p'.
Proof.
  intros W S OR B D O H X. destruct (still_reach _ _ W S OR B) as (zs & ST & FO). unfold fexecute_swap_x in H. destruct (fle dx f_zero); [discriminate|].
  destruct (loop_x_f zs n p _ dx o p' out ST FO (start_ok p (st_ok _ _ ST)) D O (Z.le_refl _) (proj1 (proj2 (st_u _ _ ST))) H X) as [A C].
  exists zs. split; [exact (proj1 (st_book _ _ A))|exact C].
Qed.
Lemma swap_y_backed p T n dx o p' out : wreach lm p T -> 0 < fspacing p < 2 ^ 32 -> ordered_p p -> backed p -> f64_ok dx -> f64_ok o ->
  fexecute_swap_y lm n p dx o = Ok (p', out) ->
  all_land_y n p (mkFL f_zero f_zero f_zero f_zero (fglbl_tick p) (fglbl_rp p)) dx o = true -> backed p'.
Proof.
  intros W S OR B D O H X. destruct (still_reach _ _ W S OR B) as (zs & ST & FO). unfold fexecute_swap_y in H. destruct (fle dx f_zero); [discriminate|].
  destruct (loop_y_f zs n p _ dx o p' out ST FO (start_ok p (st_ok _ _ ST)) D O eq_refl H X) as [A C].
  exists zs. split; [exact (proj1 (st_book _ _ A))|exact C].
Qed.
End Lm.
