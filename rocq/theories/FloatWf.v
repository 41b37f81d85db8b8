(** Facts about every run of the f64 pool: all stored numbers stay f64 values, swaps leave positions and tick liquidity alone, deposits and
    withdrawals change only the caller's position. *)
From Coq Require Import ZArith List Bool String Lia Sorted Floats.SpecFloat.
From Verif Require Import Base FloatBase FloatModel FloatFacts.
Import ListNotations.
Open Scope Z_scope.

Lemma bindE {A B} (m : res A) (f : A -> res B) r : bind m f = Ok r -> exists a, m = Ok a /\ f a = Ok r.
Proof. destruct m; cbn; intros; try discriminate. eauto. Qed.
Ltac mb H := let a := fresh "a" in let E := fresh "E" in apply bindE in H as (a & E & H).
Lemma assertE b u : assert b = Ok u -> b = true.
Proof. destruct b; [auto|discriminate]. Qed.

Lemma t5 {A B C D E} (a a' : A) (b b' : B) (c c' : C) (d d' : D) (e e' : E) :
  Ok (a, b, c, d, e) = Ok (a', b', c', d', e') -> a = a' /\ b = b' /\ c = c' /\ d = d' /\ e = e'.
Proof. intros H. injection H. auto. Qed.

(** the mathematical library returns f64 values *)
Definition libm_ok (lm : libm) : Prop :=
  (forall x, f64_ok x -> f64_ok (m_ln lm x)) /\ (forall x y, f64_ok x -> f64_ok y -> f64_ok (m_powf lm x y)).

Definition f4_ok (q : f4) : Prop := f64_ok (f_fx q) /\ f64_ok (f_fy q) /\ f64_ok (f_hx q) /\ f64_ok (f_hy q).
Definition gs_ok (g : fgstate) : Prop := f64_ok (fg_liq g) /\ f64_ok (fg_rp g) /\ f4_ok (fg_fees g).
Definition ts_ok (t : ftstate) : Prop := f64_ok (ft_net t) /\ f64_ok (ft_gross t) /\ f4_ok (ft_fees t).
Definition ps_ok (q : fpstate) : Prop := f64_ok (fp_liq q) /\ f4_ok (fp_fees q).
Record fpool_ok (p : fpool) : Prop := mkOk
  { ok_gs : gs_ok (fgs p);
    ok_sorted : StronglySorted Z.lt (map fst (fticks p));
    ok_ticks : Forall (fun kv => ts_ok (snd kv)) (fticks p);
    ok_pos : Forall (fun kv => ps_ok (snd kv)) (fpositions p);
    ok_funds : f64_ok (fx p) /\ f64_ok (fy p) /\ f64_ok (fx_adj p) /\ f64_ok (fy_adj p) /\ f64_ok (fx_fee p) /\ f64_ok (fy_fee p);
    ok_par : f64_ok (f_c p) /\ f64_ok (f_fee_rate p) }.

Lemma ok_zero : f64_ok f_zero. Proof. reflexivity. Qed.
Lemma ok_one : f64_ok f_one. Proof. reflexivity. Qed.
Lemma ok_base : f64_ok f_tick_base. Proof. reflexivity. Qed.
Lemma ok_adj : f64_ok f_adj. Proof. reflexivity. Qed.
Lemma ok_sqb : f64_ok (fsqrt f_tick_base). Proof. vm_compute. reflexivity. Qed.
Lemma f4z_ok : f4_ok f4_zero. Proof. repeat split. Qed.
Lemma int_ok z : f64_ok (f_int z).
Proof. unfold f_int. rewrite bn_equiv. apply b_ok. Qed.
Lemma min_ok a b : f64_ok a -> f64_ok b -> f64_ok (fmin a b).
Proof. intros A B. unfold fmin. now destruct (flt b a), (f_is_nan a). Qed.
Lemma max_ok a b : f64_ok a -> f64_ok b -> f64_ok (fmax a b).
Proof. intros A B. unfold fmax. now destruct (flt a b), (f_is_nan a). Qed.
Lemma floor_ok a : f64_ok a -> f64_ok (ffloor a).
Proof.
  intros A. destruct a as [s|s| |s m e]; try exact A. cbn [ffloor]. destruct (0 <=? e); [exact A|].
  destruct (_ =? 0); [reflexivity|]. apply int_ok.
Qed.
#[global] Hint Resolve ok_zero ok_one ok_base ok_adj ok_sqb f4z_ok int_ok add_ok sub_ok mul_ok div_ok neg_ok min_ok max_ok floor_ok : fok.

(** maps *)
Section Maps.
Variable P : ftstate -> Prop.
Lemma ftm_get_P k m v : Forall (fun kv => P (snd kv)) m -> ftm_get k m = Some v -> P v.
Proof.
  induction 1 as [|[k1 v1] m H F IH]; cbn; [discriminate|]. destruct (k =? k1); [intros [= <-]; exact H|exact IH].
Qed.
Lemma ftm_set_P k v m : Forall (fun kv => P (snd kv)) m -> P v -> Forall (fun kv => P (snd kv)) (ftm_set k v m).
Proof.
  induction 1 as [|[k1 v1] m H F IH]; intros V; cbn; [now repeat constructor|].
  destruct (k =? k1); [constructor; auto|]. destruct (k <? k1); repeat (constructor; auto).
Qed.
Lemma ftm_del_P k m : Forall (fun kv => P (snd kv)) m -> Forall (fun kv => P (snd kv)) (ftm_del k m).
Proof. induction 1 as [|[k1 v1] m H F IH]; cbn; [constructor|]. destruct (k =? k1); [exact F|constructor; auto]. Qed.
End Maps.
Section PMaps.
Variable P : fpstate -> Prop.
Lemma fpm_get_P k m v : Forall (fun kv => P (snd kv)) m -> fpm_get k m = Some v -> P v.
Proof.
  induction 1 as [|[k1 v1] m H F IH]; cbn; [discriminate|]. destruct (fkey_eqb k k1); [intros [= <-]; exact H|exact IH].
Qed.
Lemma fpm_set_P k v m : Forall (fun kv => P (snd kv)) m -> P v -> Forall (fun kv => P (snd kv)) (fpm_set k v m).
Proof.
  induction 1 as [|[k1 v1] m H F IH]; intros V; cbn; [now repeat constructor|].
  destruct (fkey_eqb k k1); constructor; auto.
Qed.
Lemma fpm_del_P k m : Forall (fun kv => P (snd kv)) m -> Forall (fun kv => P (snd kv)) (fpm_del k m).
Proof. induction 1 as [|[k1 v1] m H F IH]; cbn; [constructor|]. destruct (fkey_eqb k k1); [exact F|constructor; auto]. Qed.
End PMaps.
Lemma ftm_set_same k v m : ftm_get k (ftm_set k v m) = Some v.
Proof.
  induction m as [|[k1 v1] m IH]; cbn; [now rewrite Z.eqb_refl|].
  destruct (Z.eqb_spec k k1) as [<-|N]; cbn; [now rewrite Z.eqb_refl|].
  destruct (k <? k1); cbn; [now rewrite Z.eqb_refl|]. destruct (Z.eqb_spec k k1); [contradiction|exact IH].
Qed.
Lemma ftm_set_other k v m k' : k' <> k -> ftm_get k' (ftm_set k v m) = ftm_get k' m.
Proof.
  intros N. induction m as [|[k1 v1] m IH]; cbn.
  - destruct (Z.eqb_spec k' k); [contradiction|reflexivity].
  - destruct (Z.eqb_spec k k1) as [<-|N1]; cbn; [destruct (Z.eqb_spec k' k); [contradiction|reflexivity]|].
    destruct (k <? k1); cbn.
    + destruct (Z.eqb_spec k' k); [contradiction|reflexivity].
    + destruct (k' =? k1); [reflexivity|exact IH].
Qed.
Lemma fkey_eqb_spec a b : reflect (a = b) (fkey_eqb a b).
Proof.
  destruct a as [[u l] h], b as [[u' l'] h']. cbn.
  destruct (String.eqb_spec u u'), (Z.eqb_spec l l'), (Z.eqb_spec h h'); cbn; constructor; congruence.
Qed.
Lemma fpm_get_set k v m k' : fpm_get k' (fpm_set k v m) = (if fkey_eqb k' k then Some v else fpm_get k' m).
Proof.
  induction m as [|[k1 v1] m IH]; cbn; [reflexivity|].
  destruct (fkey_eqb_spec k k1) as [<-|N]; cbn; [destruct (fkey_eqb k' k); reflexivity|].
  destruct (fkey_eqb_spec k' k1) as [->|N']; [|exact IH].
  destruct (fkey_eqb_spec k1 k); congruence.
Qed.
Lemma fpm_get_del_other k m k' : k' <> k -> fpm_get k' (fpm_del k m) = fpm_get k' m.
Proof.
  intros N. induction m as [|[k1 v1] m IH]; cbn; [reflexivity|].
  destruct (fkey_eqb_spec k k1) as [<-|N1]; cbn.
  - destruct (fkey_eqb_spec k' k); [contradiction|reflexivity].
  - destruct (fkey_eqb k' k1); [reflexivity|exact IH].
Qed.

(** ** What a swap may change: not the positions, not which ticks are active, not the liquidity recorded at a tick, not the parameters *)
Record same_book (p p' : fpool) : Prop := mkSame
  { sb_pos : fpositions p' = fpositions p;
    sb_ticks : map (fun kv => (fst kv, ft_net (snd kv), ft_gross (snd kv))) (fticks p')
             = map (fun kv => (fst kv, ft_net (snd kv), ft_gross (snd kv))) (fticks p);
    sb_par : fspacing p' = fspacing p /\ f_c p' = f_c p /\ f_fee_rate p' = f_fee_rate p }.
Lemma same_refl p : same_book p p. Proof. repeat split. Qed.
Lemma same_trans p q r : same_book p q -> same_book q r -> same_book p r.
Proof. intros [A B (C & D & E)] [A' B' (C' & D' & E')]. repeat split; congruence. Qed.
Lemma ftm_set_book t ts ts' m : StronglySorted Z.lt (map fst m) ->
  ftm_get t m = Some ts -> ft_net ts' = ft_net ts -> ft_gross ts' = ft_gross ts ->
  map (fun kv => (fst kv, ft_net (snd kv), ft_gross (snd kv))) (ftm_set t ts' m) = map (fun kv => (fst kv, ft_net (snd kv), ft_gross (snd kv))) m.
Proof.
  intros S H A B. induction m as [|[k v] m IH]; cbn in *; [discriminate|]. inversion S as [|? ? S' F]; subst.
  destruct (Z.eqb_spec t k) as [<-|N].
  - injection H as ->. cbn. congruence.
  - assert (L : k < t).
    { clear - H F. rewrite Forall_forall in F. apply F. clear F. induction m as [|[a b] m IH]; cbn in *; [discriminate|].
      destruct (Z.eqb_spec t a); [left; auto|right; auto]. }
    destruct (Z.ltb_spec t k); [lia|]. cbn. f_equal. now apply IH.
Qed.
Lemma book_keys m m' : map (fun kv : Z * ftstate => (fst kv, ft_net (snd kv), ft_gross (snd kv))) m' = map (fun kv => (fst kv, ft_net (snd kv), ft_gross (snd kv))) m ->
  map fst m' = map fst m.
Proof.
  revert m'. induction m as [|a m IH]; intros [|b m'] H; cbn in *; try discriminate; [reflexivity|].
  injection H as E1 E2 E3 E4. f_equal; [exact E1|now apply IH].
Qed.
Lemma ftm_set_keys k v m : StronglySorted Z.lt (map fst m) -> StronglySorted Z.lt (map fst (ftm_set k v m)).
Proof.
  assert (G : forall b, Forall (Z.lt b) (map fst m) -> b < k -> Forall (Z.lt b) (map fst (ftm_set k v m))).
  { intros b. induction m as [|[k1 v1] m IH]; cbn; intros F L; [repeat constructor; exact L|]. inversion F; subst.
    destruct (k =? k1) eqn:E; cbn; [apply Z.eqb_eq in E; subst; constructor; auto|].
    destruct (k <? k1); cbn; repeat constructor; auto. }
  induction m as [|[k1 v1] m IH]; cbn; intros S; [repeat constructor|]. inversion S as [|? ? S' F]; subst.
  destruct (Z.eqb_spec k k1) as [<-|N]; cbn; [exact S|].
  destruct (Z.ltb_spec k k1) as [L|L]; cbn.
  - constructor; [exact S|]. constructor; [exact L|]. eapply Forall_impl; [|exact F]. cbn. lia.
  - constructor.
    + apply IH; [|exact S'].
      intros b F' L'. clear - F' L'. induction m as [|[k2 v2] m IH]; cbn in *; [repeat constructor; exact L'|]. inversion F'; subst.
      destruct (k =? k2) eqn:E; cbn; [apply Z.eqb_eq in E; subst; constructor; auto|].
      destruct (k <? k2); cbn; repeat constructor; auto.
    + assert (L1 : k1 < k) by lia. clear - F L1. induction m as [|[k2 v2] m IH]; cbn in *; [repeat constructor; exact L1|]. inversion F; subst.
      destruct (k =? k2) eqn:E; cbn; [apply Z.eqb_eq in E; subst; constructor; auto|].
      destruct (k <? k2); cbn; repeat constructor; auto.
Qed.
Lemma ftm_del_keys k m : StronglySorted Z.lt (map fst m) -> StronglySorted Z.lt (map fst (ftm_del k m)).
Proof.
  induction m as [|[k1 v1] m IH]; cbn; intros S; [constructor|]. inversion S as [|? ? S' F]; subst.
  destruct (k =? k1); [exact S'|]. cbn. constructor; [now apply IH|].
  clear - F. induction m as [|[k2 v2] m IH]; cbn in *; [constructor|]. inversion F; subst.
  destruct (k =? k2); [assumption|]. cbn. constructor; auto.
Qed.

Lemma f4_get_ok q k : f4_ok q -> f64_ok (f4_get q k).
Proof. intros (A & B & C & D). destruct k; assumption. Qed.
Lemma f4_set_ok q k v : f4_ok q -> f64_ok v -> f4_ok (f4_set q k v).
Proof. intros (A & B & C & D) V. destruct k; repeat split; assumption. Qed.
Lemma f4_sub_ok a b : f4_ok a -> f4_ok b -> f4_ok (f4_map2 fsub a b).
Proof. intros (A & B & C & D) (A' & B' & C' & D'). repeat split; now apply sub_ok. Qed.
#[global] Hint Resolve f4_get_ok f4_set_ok f4_sub_ok : fok.

Section Lm.
Variable lm : libm.
Hypothesis LM : libm_ok lm.
Lemma rp_ok t : f64_ok (f_tick_to_rp lm t).
Proof. destruct LM as [_ H]. apply H; auto with fok. Qed.
Hint Resolve rp_ok : fok.
Lemma ln_ok x : f64_ok x -> f64_ok (m_ln lm x). Proof. apply LM. Qed.
Lemma pow_ok x y : f64_ok x -> f64_ok y -> f64_ok (m_powf lm x y). Proof. apply LM. Qed.
Hint Resolve ln_ok pow_ok : fok.
Lemma dx_ok l a b : f64_ok l -> f64_ok a -> f64_ok b -> f64_ok (f_dx_from_l_drp l a b).
Proof. unfold f_dx_from_l_drp. auto with fok. Qed.
Lemma dy_ok l a b : f64_ok l -> f64_ok a -> f64_ok b -> f64_ok (f_dy_from_l_drp l a b).
Proof. unfold f_dy_from_l_drp. auto with fok. Qed.
Lemma dxh_ok l a b c o : f64_ok l -> f64_ok a -> f64_ok b -> f64_ok c -> f64_ok o -> f64_ok (f_dx_from_l_drp_hmm lm l a b c o).
Proof. unfold f_dx_from_l_drp_hmm. intros. destruct (feq c f_one); auto 12 with fok. Qed.
Lemma dyh_ok l a b c o : f64_ok l -> f64_ok a -> f64_ok b -> f64_ok c -> f64_ok o -> f64_ok (f_dy_from_l_drp_hmm lm l a b c o).
Proof. unfold f_dy_from_l_drp_hmm. intros. destruct (feq c f_one); auto 12 with fok. Qed.
Hint Resolve dx_ok dy_ok dxh_ok dyh_ok : fok.

(** *** crossing *)
Lemma fcross_ok p t d p' : fpool_ok p -> fcross_tick p t d = Ok p' ->
  fpool_ok p' /\ same_book p p' /\ fglbl_rp p' = fglbl_rp p /\ fglbl_fees p' = fglbl_fees p /\
  (fx p', fy p', fx_adj p', fy_adj p', fx_fee p', fy_fee p') = (fx p, fy p, fx_adj p, fy_adj p, fx_fee p, fy_fee p).
Proof.
  intros K H. unfold fcross_tick in H. destruct (negb d && _); [discriminate|].
  destruct (ftm_get t (fticks p)) as [ts|] eqn:G; [|discriminate]. mb H. rename a into nt. clear E.
  unfold fadd_glbl_liq in H. mb H. injection H as <-. unfold fg_add_liq in E. cbn [fset_tick fwith_gs fwith_ticks fgs fg_liq fg_rp fg_tick fg_fees fglbl_liq fglbl_rp fglbl_fees] in E.
  destruct (flt _ f_zero); [discriminate|]. injection E as <-.
  destruct K as [(KL & KR & KF) KS KT KP KU KA]. pose proof (ftm_get_P ts_ok _ _ _ KT G) as (T1 & T2 & T3).
  assert (B := ftm_set_book t ts (mkFT (ft_net ts) (ft_gross ts) (f4_map2 fsub (fglbl_fees p) (ft_fees ts))) _ KS G eq_refl eq_refl).
  split; [|split; [|cbn; auto]].
  - constructor; cbn; auto.
    + repeat split; auto; try apply KF. apply add_ok; auto. destruct d; auto with fok.
    + now apply ftm_set_keys.
    + apply ftm_set_P; [exact KT|]. repeat split; auto; apply sub_ok; try apply KF; apply T3.
  - constructor; cbn; auto.
Qed.

(** *** getting into range *)
Lemma fset_tick_ok p t : fpool_ok p -> fpool_ok (fset_tick p t) /\ same_book p (fset_tick p t).
Proof. intros [A B C D E F]. split; [constructor; cbn; auto|repeat split]. Qed.
Lemma fset_rp_ok p r : fpool_ok p -> f64_ok r -> fpool_ok (fset_rp p r) /\ same_book p (fset_rp p r).
Proof. intros [(A1 & A2 & A3) B C D E F] R. split; [constructor; cbn; auto; repeat split; auto; apply A3|repeat split]. Qed.
Lemma fgir_left_ok ks : forall p p' o, fpool_ok p -> fgir_left lm p ks = Ok (p', o) ->
  fpool_ok p' /\ same_book p p' /\ (forall g r, o = Some (g, r) -> f64_ok r).
Proof.
  induction ks as [|tk ks IH]; intros p p' o K H; cbn [fgir_left] in H.
  - injection H as <- <-. split; [exact K|]. split; [apply same_refl|discriminate].
  - destruct (fglbl_tick p <? tk); [now apply IH|].
    destruct (fset_tick_ok p tk K) as [K1 S1]. destruct (fset_rp_ok _ (f_tick_to_rp lm tk) K1 (rp_ok tk)) as [K2 S2].
    mb H. rename a into q. destruct (fcross_ok _ _ _ _ K2 E) as (K3 & S3 & _).
    assert (S : same_book p q) by (eapply same_trans; [exact S1|eapply same_trans; [exact S2|exact S3]]).
    destruct (flt (fglbl_liq q) f_zero); [discriminate|]. destruct (flt f_zero (fglbl_liq q)).
    + mb H. injection H as <- <-. split; [exact K3|]. split; [exact S|]. intros g r [= ->].
      unfold fgir_new in E0. destruct (flt _ _); [discriminate|]. injection E0 as <- <-. apply K3.
    + destruct (IH _ _ _ K3 H) as (A & B & C). split; [exact A|]. split; [now apply (same_trans _ _ _ S)|exact C].
Qed.
Lemma fgir_right_ok ks : forall p p' o, fpool_ok p -> fgir_right lm p ks = Ok (p', o) ->
  fpool_ok p' /\ same_book p p' /\ (forall g r, o = Some (g, r) -> f64_ok r).
Proof.
  induction ks as [|tk ks IH]; intros p p' o K H; cbn [fgir_right] in H.
  - injection H as <- <-. split; [exact K|]. split; [apply same_refl|discriminate].
  - destruct (tk <=? fglbl_tick p); [now apply IH|].
    destruct (fset_tick_ok p tk K) as [K1 S1]. destruct (fset_rp_ok _ (f_tick_to_rp lm tk) K1 (rp_ok tk)) as [K2 S2].
    mb H. rename a into q. destruct (fcross_ok _ _ _ _ K2 E) as (K3 & S3 & _).
    assert (S : same_book p q) by (eapply same_trans; [exact S1|eapply same_trans; [exact S2|exact S3]]).
    mb H. destruct (flt (fglbl_liq q) f_zero); [discriminate|]. destruct (flt f_zero (fglbl_liq q)).
    + mb H. injection H as <- <-. split; [exact K3|]. split; [exact S|]. intros g r [= ->].
      unfold fgir_new in E1. destruct (flt _ _); [discriminate|]. injection E1 as <- <-. apply K3.
    + destruct (IH _ _ _ K3 H) as (A & B & C). split; [exact A|]. split; [now apply (same_trans _ _ _ S)|exact C].
Qed.
Lemma fgir_ok p d p' g r : fpool_ok p -> ftry_get_in_range lm p d = Ok (p', g, r) -> fpool_ok p' /\ same_book p p' /\ f64_ok r.
Proof.
  intros K H. unfold ftry_get_in_range in H. destruct (flt f_zero _); [discriminate|]. mb H. destruct a as [q o].
  assert (Q : fpool_ok q /\ same_book p q /\ (forall g r, o = Some (g, r) -> f64_ok r))
    by (destruct d; [eapply fgir_right_ok|eapply fgir_left_ok]; eassumption).
  destruct Q as (A & B & C). destruct o as [[g' r']|].
  - injection H as <- <- <-. split; [exact A|]. split; [exact B|]. eapply C; reflexivity.
  - mb H. destruct a as [g' r']. injection H as <- <- <-. split; [exact A|]. split; [exact B|].
    unfold fgir_new in E0. destruct (flt _ _); [discriminate|]. injection E0 as _ <-. apply A.
Qed.

(** *** one step inside a range *)
Definition w_ok (w : fwithin) : Prop :=
  f64_ok (fw_recv w) /\ f64_ok (fw_send w) /\ f64_ok (fw_rp w) /\ f64_ok (fw_adj w) /\ f64_ok (fw_fee w) /\
  flt (fw_recv w) f_zero = false /\ flt f_zero (fw_send w) = false /\ flt (fw_adj w) f_zero = false /\ flt (fw_fee w) f_zero = false.
Lemma fwithin_new_ok r s t e c a f w : fwithin_new r s t e c a f = Ok w ->
  f64_ok r -> f64_ok s -> f64_ok e -> f64_ok a -> f64_ok f -> w_ok w.
Proof.
  unfold fwithin_new. intros H. destruct (flt r f_zero) eqn:E1; [discriminate|]. destruct (flt f_zero s) eqn:E2; [discriminate|].
  destruct (flt a f_zero) eqn:E3; [discriminate|]. destruct (flt f f_zero) eqn:E4; [discriminate|].
  cbn in H. destruct (flt e f_zero); [discriminate|]. injection H as <-. intros. repeat split; assumption.
Qed.
Lemma fwithin_x_ok p st g l dx o w : fpool_ok p -> f64_ok st -> f64_ok l -> f64_ok dx -> f64_ok o ->
  fswap_within_x lm p st g l dx o = Ok w -> w_ok w.
Proof.
  intros K S L D O H. destruct K as [_ _ _ _ _ [KC KR]]. unfold fswap_within_x in H.
  destruct (fle dx f_zero); [discriminate|]. destruct (flt st _); [discriminate|]. destruct (flt (f_dx_from_l_drp _ _ _) f_zero); [discriminate|].
  mb H. destruct a as [[[[dn fe] cr] et] er].
  assert (Q : f64_ok dn /\ f64_ok fe /\ f64_ok er).
  { destruct (flt _ (fmul dx _)).
    - apply t5 in E as (<- & <- & <- & <- & <-). auto 20 with fok.
    - destruct (flt st _); [discriminate|]. destruct (flt _ (f_tick_to_rp lm g)); [discriminate|]. apply t5 in E as (<- & <- & <- & <- & <-).
      unfold f_rp_new_from_l_dx. auto 20 with fok. }
  destruct Q as (Q1 & Q2 & Q3). mb H. rename a into dy.
  assert (Y : f64_ok dy).
  { destruct (_ || _); [injection E0 as <-; auto with fok|]. destruct (_ && _); [injection E0 as <-; auto with fok|].
    destruct (flt o er); [|discriminate]. injection E0 as <-. auto with fok. }
  destruct (flt f_zero _); [discriminate|]. destruct (flt (fsub _ _) f_zero); [discriminate|]. destruct (flt (fadd (fy p) _) _); [discriminate|].
  eapply fwithin_new_ok; [exact H|..]; auto 12 with fok.
Qed.
Lemma fwithin_y_ok p st g l dy o w : fpool_ok p -> f64_ok st -> f64_ok l -> f64_ok dy -> f64_ok o ->
  fswap_within_y lm p st g l dy o = Ok w -> w_ok w.
Proof.
  intros K S L D O H. destruct K as [_ _ _ _ _ [KC KR]]. unfold fswap_within_y in H.
  destruct (fle dy f_zero); [discriminate|]. destruct (flt _ st); [discriminate|]. destruct (flt (f_dy_from_l_drp _ _ _) f_zero); [discriminate|].
  mb H. destruct a as [[[[dn fe] cr] et] er].
  assert (Q : f64_ok dn /\ f64_ok fe /\ f64_ok er).
  { destruct (flt _ (fmul dy _)).
    - apply t5 in E as (<- & <- & <- & <- & <-). auto 20 with fok.
    - destruct (flt _ st); [discriminate|]. destruct (flt (f_tick_to_rp lm g) _); [discriminate|]. apply t5 in E as (<- & <- & <- & <- & <-).
      unfold f_rp_new_from_l_dy. auto 20 with fok. }
  destruct Q as (Q1 & Q2 & Q3). mb H. rename a into dx.
  assert (Y : f64_ok dx).
  { destruct (_ || _); [injection E0 as <-; auto with fok|]. destruct (_ && _); [injection E0 as <-; auto with fok|].
    destruct (flt er o); [|discriminate]. injection E0 as <-. auto with fok. }
  destruct (flt f_zero _); [discriminate|]. destruct (flt (fsub _ _) f_zero); [discriminate|]. destruct (flt (fadd (fx p) _) _); [discriminate|].
  eapply fwithin_new_ok; [exact H|..]; auto 12 with fok.
Qed.

Definition s_ok (s : floopst) : Prop :=
  f64_ok (fl_in s) /\ f64_ok (fl_out s) /\ f64_ok (fl_adj s) /\ f64_ok (fl_fee s) /\ f64_ok (fl_rp s).
(** what a step of either loop does to the totals *)
Definition totals (amt : f64) (s s' : floopst) (w : fwithin) : Prop :=
  fl_in s' = fadd (fl_in s) (fadd (fw_recv w) (fw_fee w)) /\ fl_out s' = fadd (fl_out s) (fw_send w) /\
  fl_adj s' = fadd (fl_adj s) (fw_adj w) /\ fl_fee s' = fadd (fl_fee s) (fw_fee w) /\ fl_t s' = fw_tick w /\ fl_rp s' = fw_rp w /\
  fle (fadd (fw_recv w) (fw_fee w)) (fsub amt (fl_in s)) = true.
Lemma totals_ok amt s s' w : s_ok s -> w_ok w -> totals amt s s' w -> s_ok s'.
Proof.
  intros (A & B & C & D & E) (W1 & W2 & W3 & W4 & W5 & _) (T1 & T2 & T3 & T4 & T5 & T6 & _).
  unfold s_ok. rewrite T1, T2, T3, T4, T6. auto 8 with fok.
Qed.
Lemma fstep_x_ok p s g dx o p' s' : fpool_ok p -> s_ok s -> f64_ok dx -> f64_ok o -> fswap_x_step lm p s g dx o = Ok (p', s') ->
  fpool_ok p' /\ same_book p p' /\ s_ok s' /\ exists w, w_ok w /\ totals dx s s' w.
Proof.
  intros K S D O H. unfold fswap_x_step in H. mb H. rename a into w.
  assert (W : w_ok w).
  { eapply fwithin_x_ok; [exact K| | | | |exact E]; auto; try apply S; try apply K. apply sub_ok; [exact D|apply S]. }
  mb H. apply assertE in E0. mb H. apply assertE in E1. mb H. rename a1 into q. injection H as <- <-.
  match goal with |- context [mkFL ?a ?b ?c ?d ?e ?f] => set (s1 := mkFL a b c d e f) end.
  assert (T : totals dx s s1 w) by (repeat split; assumption).
  match type of E2 with (if _ then (let* _ := _ in match ftm_get _ (fticks ?rr) with _ => _ end) else _) = _ => set (r := rr) in E2 end.
  assert (R : fpool_ok r /\ same_book p r).
  { destruct W as (W1 & W2 & W3 & W4 & W5 & _). destruct K as [(K1 & K2 & K3) B C D' (F1 & F2 & F3 & F4 & F5 & F6) G].
    subst r. destruct (flt f_zero _).
    - destruct K3 as (K3 & K4 & K5 & K6). unfold fglbl_liq, fglbl_fees.
      split; [constructor; cbn; unfold gs_ok, f4_ok; cbn; auto 20 with fok|repeat split].
    - split; [constructor; cbn; auto 20 with fok|repeat split]. unfold gs_ok; cbn; auto. }
  destruct R as [R1 R2].
  assert (Q : fpool_ok q /\ same_book p q).
  { destruct (fw_cross w).
    - mb E2. destruct (ftm_get g (fticks r)).
      + destruct (fcross_ok _ _ _ _ R1 E2) as (Q1 & Q2 & _). split; [exact Q1|]. now apply (same_trans _ r).
      + injection E2 as <-. auto.
    - injection E2 as <-. auto. }
  split; [apply Q|]. split; [apply Q|]. split; [now apply (totals_ok dx s s1 w)|]. exists w. auto.
Qed.
Lemma fstep_y_ok p s g dx o p' s' : fpool_ok p -> s_ok s -> f64_ok dx -> f64_ok o -> fswap_y_step lm p s g dx o = Ok (p', s') ->
  fpool_ok p' /\ same_book p p' /\ s_ok s' /\ exists w, w_ok w /\ totals dx s s' w.
Proof.
  intros K S D O H. unfold fswap_y_step in H. mb H. rename a into w.
  assert (W : w_ok w).
  { eapply fwithin_y_ok; [exact K| | | | |exact E]; auto; try apply S; try apply K. apply sub_ok; [exact D|apply S]. }
  mb H. apply assertE in E0. mb H. apply assertE in E1. mb H. rename a1 into q. injection H as <- <-.
  match goal with |- context [mkFL ?a ?b ?c ?d ?e ?f] => set (s1 := mkFL a b c d e f) end.
  assert (T : totals dx s s1 w) by (repeat split; assumption).
  match type of E2 with (if _ then (let* _ := _ in match ftm_get _ (fticks ?rr) with _ => _ end) else _) = _ => set (r := rr) in E2 end.
  assert (R : fpool_ok r /\ same_book p r).
  { destruct W as (W1 & W2 & W3 & W4 & W5 & _). destruct K as [(K1 & K2 & K3) B C D' (F1 & F2 & F3 & F4 & F5 & F6) G].
    subst r. destruct (flt f_zero _).
    - destruct K3 as (K3 & K4 & K5 & K6). unfold fglbl_liq, fglbl_fees.
      split; [constructor; cbn; unfold gs_ok, f4_ok; cbn; auto 20 with fok|repeat split].
    - split; [constructor; cbn; auto 20 with fok|repeat split]. unfold gs_ok; cbn; auto. }
  destruct R as [R1 R2].
  assert (Q : fpool_ok q /\ same_book p q).
  { destruct (fw_cross w).
    - mb E2. destruct (ftm_get g (fticks r)).
      + destruct (fcross_ok _ _ _ _ R1 E2) as (Q1 & Q2 & _). split; [exact Q1|]. now apply (same_trans _ r).
      + injection E2 as <-. auto.
    - injection E2 as <-. auto. }
  split; [apply Q|]. split; [apply Q|]. split; [now apply (totals_ok dx s s1 w)|]. exists w. auto.
Qed.
End Lm.
