(** Oracle prices that cannot improve on the pool's price leave a swap as it is. *)
From Coq Require Import ZArith QArith Qminmax List Bool Lia Lqa String Sorted.
From Verif Require Import Base BaseLemmas DecimalModel DecimalSpec DecimalProofs PowProofs WfProofs MathModel MathProofs TickProofs TickLoop PoolModel PoolWf SwapLoop SwapProofs LpProofs PoolInv PoolNonneg PoolLp PoolRange PoolFees PoolGain PoolScale SwapAmounts SwapCover SwapWorth SwapFair PowAccuracy HmmUse.
Import ListNotations.
Open Scope Z_scope.

(** ** One step *)
Ltac nb x := match goal with |- bind ?m _ = bind ?m _ => let E := fresh in destruct m as [x | | |] eqn:E; cbn [bind]; [| reflexivity ..] end.
Lemma plain_x : forall c ro srp, d_gte ro srp = Ok true -> (if is_zero c || is_zero ro then Ok true else unwrap (d_gte ro srp)) = Ok true.
Proof. intros c ro srp G. rewrite G. destruct (_ || _)%bool; reflexivity. Qed.
Lemma plain_y : forall c ro srp, d_lte ro srp = Ok true -> (if is_zero c || is_zero ro then Ok true else unwrap (d_lte ro srp)) = Ok true.
Proof. intros c ro srp G. rewrite G. destruct (_ || _)%bool; reflexivity. Qed.
Lemma within_x_off : forall orc p srp goal liq dx ro, d_gte ro srp = Ok true -> swap_within_x orc p srp goal liq dx ro = swap_within_x orc p srp goal liq dx zero12.
Proof.
  intros orc p srp goal liq dx ro G. unfold swap_within_x. destruct (is_negative dx); [reflexivity |]. nb rg. nb b. destruct b; [reflexivity |].
  nb one. nb ff. nb dm. nb d. destruct (is_negative d); [reflexivity |]. nb part. nb t. destruct t as [[[[ddx fee] cross] et] erp]. nb cp.
  rewrite (plain_x _ _ _ G). change (is_zero zero12) with true. rewrite orb_true_r. reflexivity.
Qed.
Lemma within_y_off : forall orc p srp goal liq dx ro, d_lte ro srp = Ok true -> swap_within_y orc p srp goal liq dx ro = swap_within_y orc p srp goal liq dx zero12.
Proof.
  intros orc p srp goal liq dx ro G. unfold swap_within_y. destruct (is_negative dx); [reflexivity |]. nb rg. nb b. destruct b; [reflexivity |].
  nb one. nb ff. nb dm. nb d. destruct (is_negative d); [reflexivity |]. nb part. nb t. destruct t as [[[[ddx fee] cross] et] erp]. nb cp.
  rewrite (plain_y _ _ _ G). change (is_zero zero12) with true. rewrite orb_true_r. reflexivity.
Qed.
Lemma step_x_off : forall orc p s dx ro gtk, d_gte ro (s_rp s) = Ok true -> step_x orc p s dx ro gtk = step_x orc p s dx zero12 gtk.
Proof. intros orc p s dx ro gtk G. unfold step_x. nb rest. rewrite (within_x_off _ _ _ _ _ _ _ G). reflexivity. Qed.
Lemma step_y_off : forall orc p s dx ro gtk, d_lte ro (s_rp s) = Ok true -> step_y orc p s dx ro gtk = step_y orc p s dx zero12 gtk.
Proof. intros orc p s dx ro gtk G. unfold step_y. nb rest. rewrite (within_y_off _ _ _ _ _ _ _ G). reflexivity. Qed.

(** ** The loops: the same run, if every step is the same *)
Lemma loop_x_same : forall (P : pool * swp -> Prop) orc dx ro ro', wf dx -> wf ro -> (forall a b, inv_x a -> P a -> mv_x orc dx ro a b -> P b) ->
  (forall p s gtk, inv_x (p, s) -> P (p, s) -> step_x orc p s dx ro' gtk = step_x orc p s dx ro gtk) ->
  forall fuel p s r, inv_x (p, s) -> P (p, s) -> loop_x orc fuel p s dx ro = Ok r -> loop_x orc fuel p s dx ro' = Ok r.
Proof.
  intros P orc dx ro ro' Wd Wo Pm Ps. induction fuel as [| fuel IH]; intros p s [p' o] I HP H; [discriminate |]. cbn [loop_x] in H |- *.
  pose proof I as (I1 & I2 & I3 & I4). cbn [fst snd] in I1, I2, I3, I4. pose proof I1 as (Hsp & (_ & _ & Hgt & _) & _).
  bd H more E1. rewrite E1. cbn [bind unwrap]. destruct more; cbn [negb] in H |- *; [| exact H].
  destruct (if is_positive (glbl_liq p) then _ else _) as [gg | | |] eqn:E2; cbn [bind] in H |- *; [| discriminate ..]. destruct gg as [[p1 goal] crp].
  destruct goal as [gtk |]; [| exact H]. bd H ps E4. destruct ps as [p2 s2].
  assert (X : chain (mv_x orc dx ro) (p, s) (p1, with_rp s crp) /\ is_positive (glbl_liq p1) = true /\ exists f, tk_to_possible_tk (glbl_tick p1) (spacing p1) false = Ok f /\ find (fun tk => tk <=? f) (rev (keys p1)) = Some gtk).
  { destruct (is_positive (glbl_liq p)) eqn:Pl.
    - bd E2 g E3. injection E2 as <- -> <-. rewrite with_rp_id. split; [constructor |]. split; auto. destruct (left_limit_inv _ _ _ E3 I4 Hgt Hsp) as (f & F1 & F2 & F3 & F4). eauto.
    - unfold try_get_in_range in E2. rewrite Pl in E2. bd E2 pr E3. destruct pr as [q2 r].
      destruct (gir_left_chain orc dx ro _ _ s _ _ E3 I1) as (C1 & C2 & C3 & C4 & C5); auto. { intros k Hk. apply in_rev in Hk. auto. } { apply sorted_rev, keys_sorted; auto. } { intros k Hk. left. unfold tick_keys. rewrite <- in_rev. auto. }
      assert (I' : inv_x (q2, with_rp s (glbl_rp q2))) by (exact (chain_inv _ _ inv_x (fun a b Ha Hm => mv_x_inv _ _ _ _ _ Wd Wo Ha Hm) _ _ C1 I)).
      pose proof I' as (J1 & J2 & J3 & J4). cbn [fst snd] in J1, J2, J3, J4. pose proof J1 as (Jsp & (_ & _ & Jgt & _) & _).
      destruct r as [[g rp] |]; [| destruct (is_negative (glbl_rp q2)); discriminate].
      injection E2 as <- -> <-. destruct C5 as [-> [C6 C7]]. split; [exact C1 |]. split; auto.
      destruct (left_limit_inv _ _ _ C7 (Z.le_refl _) Jgt Jsp) as (f & F1 & F2 & F3 & F4). eauto. }
  destruct X as (C & G1 & f & G2 & G3). fold (with_rp s crp) in E4 |- *.
  assert (Inv : inv_x (p1, with_rp s crp) /\ P (p1, with_rp s crp)).
  { refine (chain_inv _ _ (fun c => inv_x c /\ P c) _ _ _ C (conj I HP)). intros a b (Ha & Hb) M. split; [exact (mv_x_inv _ _ _ _ _ Wd Wo Ha M) | exact (Pm _ _ Ha Hb M)]. }
  destruct Inv as (Ia & Pa). rewrite (Ps _ _ gtk Ia Pa), E4. cbn [bind].
  assert (MV : mv_x orc dx ro (p1, with_rp s crp) (p2, s2)) by (eapply X_step; eauto).
  apply IH; auto. { exact (mv_x_inv _ _ _ _ _ Wd Wo Ia MV). } exact (Pm _ _ Ia Pa MV).
Qed.
Lemma loop_y_same : forall (P : pool * swp -> Prop) orc dx ro ro', wf dx -> wf ro -> (forall a b, inv_y a -> P a -> mv_y orc dx ro a b -> P b) ->
  (forall p s gtk, inv_y (p, s) -> P (p, s) -> step_y orc p s dx ro' gtk = step_y orc p s dx ro gtk) ->
  forall fuel p s r, inv_y (p, s) -> P (p, s) -> loop_y orc fuel p s dx ro = Ok r -> loop_y orc fuel p s dx ro' = Ok r.
Proof.
  intros P orc dx ro ro' Wd Wo Pm Ps. induction fuel as [| fuel IH]; intros p s [p' o] I HP H; [discriminate |]. cbn [loop_y] in H |- *.
  pose proof I as (I1 & I2 & I3 & I4). cbn [fst snd] in I1, I2, I3, I4. pose proof I1 as (Hsp & (_ & _ & Hgt & _) & _).
  bd H more E1. rewrite E1. cbn [bind unwrap]. destruct more; cbn [negb] in H |- *; [| exact H].
  destruct (if is_positive (glbl_liq p) then _ else _) as [gg | | |] eqn:E2; cbn [bind] in H |- *; [| discriminate ..]. destruct gg as [[p1 goal] crp].
  destruct goal as [gtk |]; [| exact H]. bd H ps E4. destruct ps as [p2 s2].
  assert (X : exists t, chain (mv_y orc dx ro) (p, s) (p1, with_t_rp s t crp) /\ is_positive (glbl_liq p1) = true /\ tk_to_possible_tk (glbl_tick p1) (spacing p1) false = Ok (glbl_tick p1) /\ find (fun tk => glbl_tick p1 <? tk) (keys p1) = Some gtk).
  { destruct (is_positive (glbl_liq p)) eqn:Pl.
    - bd E2 g E3. injection E2 as <- -> <-. exists (s_t s). rewrite with_t_rp_id. split; [constructor |]. split; auto. rewrite <- I4 in E3. destruct (right_limit_inv _ _ E3 Hgt Hsp) as (F1 & F2). auto.
    - unfold try_get_in_range in E2. rewrite Pl in E2. bd E2 pr E3. destruct pr as [q2 r].
      destruct (gir_right_chain orc dx ro _ _ s _ _ E3 I1) as (C1 & C2 & C3 & C4 & C5); auto. { apply keys_sorted; auto. }
      assert (I' : inv_y (q2, with_t_rp s (glbl_tick q2) (glbl_rp q2))) by (exact (chain_inv _ _ inv_y (fun a b Ha Hm => mv_y_inv _ _ _ _ _ Wd Wo Ha Hm) _ _ C1 I)).
      pose proof I' as (J1 & J2 & J3 & J4). cbn [fst snd] in J1, J2, J3, J4. pose proof J1 as (Jsp & (_ & _ & Jgt & _) & _).
      destruct r as [[g rp] |]; [| destruct (is_negative (glbl_rp q2)); discriminate].
      injection E2 as <- -> <-. destruct C5 as [-> [C6 C7]]. exists (glbl_tick q2). split; [exact C1 |]. split; auto.
      destruct (right_limit_inv _ _ C7 Jgt Jsp) as (F1 & F2). auto. }
  destruct X as (t & C & G1 & G2 & G3).
  assert (Inv : inv_y (p1, with_t_rp s t crp) /\ P (p1, with_t_rp s t crp)).
  { refine (chain_inv _ _ (fun c => inv_y c /\ P c) _ _ _ C (conj I HP)). intros a b (Ha & Hb) M. split; [exact (mv_y_inv _ _ _ _ _ Wd Wo Ha M) | exact (Pm _ _ Ha Hb M)]. }
  destruct Inv as (Ia & Pa). pose proof (Ps _ _ gtk Ia Pa) as Eq.
  change (step_y orc p1 (with_t_rp s t crp) dx ro' gtk) with (step_y orc p1 (mkSwp (s_in s) (s_out s) (s_adj s) (s_fee s) (s_t s) crp) dx ro' gtk) in Eq.
  change (step_y orc p1 (with_t_rp s t crp) dx ro gtk) with (step_y orc p1 (mkSwp (s_in s) (s_out s) (s_adj s) (s_fee s) (s_t s) crp) dx ro gtk) in Eq.
  rewrite Eq, E4. cbn [bind].
  assert (MV : mv_y orc dx ro (p1, with_t_rp s t crp) (p2, s2)) by (eapply Y_step; eauto).
  apply IH; auto. { exact (mv_y_inv _ _ _ _ _ Wd Wo Ia MV). } exact (Pm _ _ Ia Pa MV).
Qed.

(** ** Whole swaps *)
Lemma gte_true : forall a b, at_s 12 a -> at_s 12 b -> (num b <= num a)%Q -> d_gte a b = Ok true /\ d_lte b a = Ok true.
Proof.
  intros a b A B L. pose proof (num_s_le _ _ _ B A) as C. apply C in L. destruct A as (_ & Sa & Na), B as (_ & Sb & Nb). unfold d_gte, d_lte. rewrite Sa, Sb, Na, Nb. cbn.
  split; f_equal; apply Z.leb_le; auto.
Qed.
Lemma srp_at : forall dx p s, inv_x (p, s) \/ inv_y (p, s) -> carried dx (p, s) -> at_s 12 (s_rp s) /\ s_rp s = glbl_rp p.
Proof.
  intros dx p s I (T & N & A & _). cbn [fst snd] in *. assert (E : glbl_rp p = s_rp s) by (destruct I as [I | I]; apply I). split; [| auto]. rewrite <- E.
  pose proof (rp_one _ N) as S1. assert (W : wf (glbl_rp p)) by (apply T). destruct (pos_dec _ W ltac:(lra)) as [Ng _]. split; auto. split; auto. destruct N as (_ & _ & _ & _ & (_ & S12) & _). exact S12.
Qed.
Theorem swap_x_off : forall orc p dx ro r, reachable orc p -> settled p -> wf dx -> at_s 12 ro -> (num (glbl_rp p) <= num ro)%Q -> execute_swap_from_x orc p dx zero12 = Ok r -> execute_swap_from_x orc p dx ro = Ok r.
Proof.
  intros orc p dx ro [p' o] Hr St Wd Ao G H. pose proof (reachable_nn _ _ Hr) as (W & _). destruct (swap_x_chain _ _ _ _ _ _ H W Wd zero12_wf) as (Pd & _).
  unfold execute_swap_from_x in *. destruct (negb (is_positive dx)); [discriminate |]. rewrite zero_eq in *. cbn [bind] in *.
  refine (loop_x_same (fun c => carried dx c /\ (num (glbl_rp (fst c)) <= num ro)%Q /\ (settled (fst c) \/ spent dx c)) orc dx zero12 ro Wd zero12_wf _ _ _ _ _ _ _ _ H).
  - intros a b I (Ca & Le & S) M. destruct S as [S | S]; [| destruct (spent_stop_x _ _ _ _ _ Wd zero12_wf Pd I M S)]. split; [exact (carried_x _ _ _ _ _ Wd zero12_wf I Ca M) |].
    pose proof (mv_x_records _ _ _ _ _ Wd zero12_wf I M) as R. destruct Ca as (T & N & A & So & To).
    pose proof (mv_x_cases _ _ _ _ _ Wd zero12_wf I T N A To M) as (g & rg & Hg & Lg & Nx & Eg & D).
    pose proof (proj1 (settled_keys _) S g Hg) as [Pg _]. specialize (Pg Lg). rewrite (price_q_ok _ _ Eg) in Pg.
    destruct D as [(Er & (Wt & Wl) & _) | (_ & D2 & D3 & D4 & D5 & _ & (_ & _ & D9 & _))].
    + rewrite Er. split; [lra |]. left. exact (proj1 (cross_settled_down _ _ g rg T So R Hg Lg Eg Er Wt)).
    + split; [lra |]. right. split; auto.
  - intros q s gtk I (Ca & Le & _). destruct (srp_at dx q s (or_introl I) Ca) as [As E]. cbn [fst] in Le. apply step_x_off. apply gte_true; auto. rewrite E. exact Le.
  - apply (inv_start p W).
  - split; [exact (carried0 _ _ _ Hr) |]. cbn [fst]. auto.
Qed.
Theorem swap_y_off : forall orc p dy ro r, reachable orc p -> settled p -> wf dy -> at_s 12 ro -> (num ro <= num (glbl_rp p))%Q -> execute_swap_from_y orc p dy zero12 = Ok r -> execute_swap_from_y orc p dy ro = Ok r.
Proof.
  intros orc p dx ro [p' o] Hr St Wd Ao G H. pose proof (reachable_nn _ _ Hr) as (W & _). destruct (swap_y_chain _ _ _ _ _ _ H W Wd zero12_wf) as (Pd & _).
  unfold execute_swap_from_y in *. destruct (negb (is_positive dx)); [discriminate |]. rewrite zero_eq in *. cbn [bind] in *.
  refine (loop_y_same (fun c => carried dx c /\ (num ro <= num (glbl_rp (fst c)))%Q /\ (settled (fst c) \/ spent dx c)) orc dx zero12 ro Wd zero12_wf _ _ _ _ _ _ _ _ H).
  - intros a b I (Ca & Le & S) M. destruct S as [S | S]; [| destruct (spent_stop_y _ _ _ _ _ Wd zero12_wf Pd I M S)]. split; [exact (carried_y _ _ _ _ _ Wd zero12_wf I Ca M) |].
    pose proof (mv_y_records _ _ _ _ _ Wd zero12_wf I M) as R. destruct Ca as (T & N & A & So & To).
    pose proof (mv_y_cases _ _ _ _ _ Wd zero12_wf I T N A M) as (g & rg & Hg & Lg & Nx & Eg & D).
    pose proof (proj1 (settled_keys _) S g Hg) as [_ Pg]. specialize (Pg Lg). rewrite (price_q_ok _ _ Eg) in Pg.
    destruct D as [(Er & (Wt & Wl) & _) | (_ & D2 & D3 & D4 & D5 & (_ & D9 & _))].
    + rewrite Er. split; [lra |]. left. exact (proj1 (cross_settled_up _ _ g rg T So R Hg Lg Eg Er Wt)).
    + split; [lra |]. right. split; auto.
  - intros q s gtk I (Ca & Le & _). destruct (srp_at dx q s (or_intror I) Ca) as [As E]. cbn [fst] in Le. apply step_y_off. apply gte_true; auto. rewrite E. exact Le.
  - apply (inv_start p W).
  - split; [exact (carried0 _ _ _ Hr) |]. cbn [fst]. auto.
Qed.
