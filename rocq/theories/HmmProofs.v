(** Two pools that differ only in the HMM parameter and the adjustment bookkeeping run the same swap in lockstep. *)
From Coq Require Import ZArith QArith List Bool Lia String Sorted.
From Verif Require Import Base BaseLemmas DecimalModel DecimalSpec DecimalProofs PowProofs WfProofs MathModel TickProofs TickLoop PoolModel PoolWf SwapLoop SwapProofs.
Import ListNotations.
Open Scope Z_scope.

(** Same number at the same scale. *)
Definition veq (a b : decimal) : Prop := dscale a = dscale b /\ (num a == num b)%Q.
Definition tick_sim (a b : Z * tstate) : Prop :=
  fst a = fst b /\ t_net (snd a) = t_net (snd b) /\ t_gross (snd a) = t_gross (snd b) /\ t_fx (snd a) = t_fx (snd b) /\ t_fy (snd a) = t_fy (snd b).
(** [hmm_c], [x_adj], [y_adj] and the adjustment-growth counters are unconstrained. *)
Definition pool_sim (p q : pool) : Prop :=
  spacing p = spacing q /\ fee_rate p = fee_rate q /\
  (glbl_liq p = glbl_liq q /\ glbl_rp p = glbl_rp q /\ glbl_tick p = glbl_tick q /\ g_fx (gs p) = g_fx (gs q) /\ g_fy (gs p) = g_fy (gs q)) /\
  Forall2 tick_sim (ticks p) (ticks q) /\
  veq (rx p) (rx q) /\ veq (ry p) (ry q) /\ x_fee p = x_fee q /\ y_fee p = y_fee q.
Definition swp_sim (s t : swp) : Prop :=
  s_in s = s_in t /\ s_fee s = s_fee t /\ s_t s = s_t t /\ s_rp s = s_rp t /\
  dscale (s_out s) = dscale (s_out t) /\ dscale (s_adj s) = dscale (s_adj t) /\ (num (s_out s) - num (s_adj s) == num (s_out t) - num (s_adj t))%Q.

Lemma sim_keys : forall p q, pool_sim p q -> keys p = keys q.
Proof. intros p q (_ & _ & _ & F & _). unfold keys. induction F as [| a b l l' H F IH]; cbn; auto. destruct H as [-> _]. rewrite IH. auto. Qed.
Lemma sim_get : forall t l l', Forall2 tick_sim l l' ->
  match tm_get t l, tm_get t l' with
  | Some a, Some b => t_net a = t_net b /\ t_gross a = t_gross b /\ t_fx a = t_fx b /\ t_fy a = t_fy b
  | None, None => True
  | _, _ => False
  end.
Proof.
  intros t l l' F. induction F as [| [k a] [k' b] l l' (E & H) F IH]; cbn in *; auto. subst k'. destruct (t =? k); auto.
Qed.
Lemma sim_set : forall t a b l l', Forall2 tick_sim l l' -> tick_sim (t, a) (t, b) -> Forall2 tick_sim (tm_set t a l) (tm_set t b l').
Proof.
  intros t a b l l' F H. induction F as [| [k u] [k' v] l l' (E & G) F IH]; cbn [tm_set fst] in *. { constructor; [exact H | constructor]. } subst k'.
  assert (Hc : tick_sim (k, u) (k, v)) by (split; auto). destruct (t =? k); [constructor; auto |]. destruct (t <? k); constructor; auto. 
Qed.
Lemma cross_sim : forall p q t d p' q', pool_sim p q -> cross_tick p t d = Ok p' -> cross_tick q t d = Ok q' -> pool_sim p' q'.
Proof.
  intros p q t d p' q' S Hp Hq. pose proof S as (S1 & S2 & (S3 & S4 & S5 & S6 & S7) & S8 & S9 & S10 & S11 & S12). pose proof (sim_get t _ _ S8) as G.
  destruct (cross_inv _ _ _ _ Hp) as (ts & fx & fy & hx & hy & nt & L & C1 & C2 & C3 & C4 & C5 & C6 & C7 & C8 & C9 & ->).
  destruct (cross_inv _ _ _ _ Hq) as (ts' & fx' & fy' & hx' & hy' & nt' & L' & D1 & D2 & D3 & D4 & D5 & D6 & D7 & D8 & D9 & ->).
  rewrite C2, D2 in G. destruct G as (G1 & G2 & G3 & G4). unfold glbl_liq in S3. rewrite <- G1, <- S3 in D8. rewrite <- S6, <- G3 in D3. rewrite <- S7, <- G4 in D4.
  rewrite C8 in D8. rewrite C3 in D3. rewrite C4 in D4. injection D8 as <-. injection D3 as <-. injection D4 as <-.
  assert (N : nt = nt'). { destruct d; [congruence |]. destruct C7 as (t1 & X1 & X2). destruct D7 as (t1' & Y1 & Y2). rewrite X1 in Y1. injection Y1 as <-. rewrite <- S1, X2 in Y2. congruence. }
  unfold pool_sim, glbl_liq, glbl_rp, glbl_tick. cbn. csplit; auto. apply sim_set; auto. unfold tick_sim, crossed. cbn. auto.
Qed.
Lemma seat_sim : forall p q tk rp, pool_sim p q -> pool_sim (seat p tk rp) (seat q tk rp).
Proof. intros p q tk rp (S1 & S2 & (S3 & S4 & S5 & S6 & S7) & S8 & S9 & S10 & S11 & S12). unfold pool_sim, seat, glbl_liq, glbl_rp, glbl_tick in *. cbn. csplit; auto. Qed.
Lemma left_sim : forall p q st, pool_sim p q -> get_left_limit p st = get_left_limit q st.
Proof. intros p q st S. pose proof (sim_keys _ _ S) as K. destruct S as (S1 & _ & (_ & _ & S5 & _) & _). unfold get_left_limit, tick_to_possible_tick, tick_keys. fold (keys p) (keys q). rewrite K, S1, S5. auto. Qed.
Lemma right_sim : forall p q st g, pool_sim p q -> get_right_limit p st g = get_right_limit q st g.
Proof. intros p q st g S. pose proof (sim_keys _ _ S) as K. destruct S as (S1 & _). unfold get_right_limit, tick_to_possible_tick, tick_keys. fold (keys p) (keys q). rewrite K, S1. auto. Qed.

Lemma gir_left_sim : forall ks p q p' q' r r', pool_sim p q -> gir_left p ks = Ok (p', r) -> gir_left q ks = Ok (q', r') -> pool_sim p' q' /\ r = r'.
Proof.
  induction ks as [| k ks IH]; intros p q p' q' r r' S Hp Hq; cbn [gir_left] in *. { injection Hp as <- <-. injection Hq as <- <-. auto. }
  assert (E : glbl_tick p = glbl_tick q) by apply S. rewrite E in Hp. destruct (glbl_tick q <? k); [eauto |].
  bd Hp rp E1. bd Hp p1 E2. rewrite E1 in Hq. bd Hq rp' E1'. injection E1' as <-. bd Hq q1 E2'.
  fold (seat p k rp) in E2. fold (seat q k rp) in E2'. pose proof (cross_sim _ _ _ _ _ _ (seat_sim _ _ k rp S) E2 E2') as S'.
  assert (E3 : glbl_tick p1 = glbl_tick q1) by apply S'. assert (E4 : glbl_liq p1 = glbl_liq q1) by apply S'. assert (E5 : glbl_rp p1 = glbl_rp q1) by apply S'.
  rewrite E3, (left_sim _ _ _ S') in Hp. bd Hp g E6. rewrite E6 in Hq. bd Hq g' E6'. injection E6' as <-. rewrite E4, E5 in Hp.
  destruct (is_negative (glbl_liq q1)); [discriminate |]. destruct (is_positive (glbl_liq q1)); [| eauto].
  destruct (is_negative (glbl_rp q1)); [discriminate |]. injection Hp as <- <-. injection Hq as <- <-. auto.
Qed.
Lemma gir_right_sim : forall ks p q p' q' r r', pool_sim p q -> gir_right p ks = Ok (p', r) -> gir_right q ks = Ok (q', r') -> pool_sim p' q' /\ r = r'.
Proof.
  induction ks as [| k ks IH]; intros p q p' q' r r' S Hp Hq; cbn [gir_right] in *. { injection Hp as <- <-. injection Hq as <- <-. auto. }
  assert (E : glbl_tick p = glbl_tick q) by apply S. rewrite E in Hp. destruct (k <=? glbl_tick q); [eauto |].
  bd Hp rp E1. bd Hp p1 E2. rewrite E1 in Hq. bd Hq rp' E1'. injection E1' as <-. bd Hq q1 E2'.
  fold (seat p k rp) in E2. fold (seat q k rp) in E2'. pose proof (cross_sim _ _ _ _ _ _ (seat_sim _ _ k rp S) E2 E2') as S'.
  assert (E3 : glbl_tick p1 = glbl_tick q1) by apply S'. assert (E4 : glbl_liq p1 = glbl_liq q1) by apply S'. assert (E5 : glbl_rp p1 = glbl_rp q1) by apply S'.
  rewrite (right_sim _ _ _ _ S') in Hp. bd Hp g E6. rewrite E6 in Hq. bd Hq g' E6'. injection E6' as <-. rewrite E4, E5 in Hp.
  destruct (is_negative (glbl_liq q1)); [discriminate |]. destruct (is_positive (glbl_liq q1)); [| eauto].
  destruct (is_negative (glbl_rp q1)); [discriminate |]. injection Hp as <- <-. injection Hq as <- <-. auto.
Qed.
Lemma try_sim : forall p q d p' q' g g' r r', pool_sim p q -> try_get_in_range p d = Ok (p', g, r) -> try_get_in_range q d = Ok (q', g', r') -> pool_sim p' q' /\ g = g' /\ r = r'.
Proof.
  intros p q d p' q' g g' r r' S Hp Hq. unfold try_get_in_range in *. assert (E : glbl_liq p = glbl_liq q) by apply S. rewrite E in Hp.
  destruct (is_positive (glbl_liq q)); [discriminate |]. bd Hp a E1. destruct a as [p1 o]. bd Hq b E2. destruct b as [q1 o'].
  assert (X : pool_sim p1 q1 /\ o = o'). { unfold tick_keys in E1, E2. fold (keys p) in E1. fold (keys q) in E2. rewrite (sim_keys _ _ S) in E1. destruct d; [eapply gir_right_sim | eapply gir_left_sim]; eauto. }
  destruct X as [S' <-]. destruct o as [[gg rr] |]. { injection Hp as <- <- <-. injection Hq as <- <- <-. auto. }
  assert (E3 : glbl_rp p1 = glbl_rp q1) by apply S'. rewrite E3 in Hp. destruct (is_negative (glbl_rp q1)); [discriminate |]. injection Hp as <- <- <-. injection Hq as <- <- <-. auto.
Qed.

Definition within_sim (w v : within) : Prop :=
  w_recv w = w_recv v /\ w_tick w = w_tick v /\ w_rp w = w_rp v /\ w_cross w = w_cross v /\ w_fee w = w_fee v /\
  dscale (w_send w) = dscale (w_send v) /\ dscale (w_adj w) = dscale (w_adj v) /\ (num (w_send w) - num (w_adj w) == num (w_send v) - num (w_adj v))%Q.
Lemma within_new_eq : forall a b c d e f g w, within_new a b c d e f g = Ok w -> w = mkW a b c d e f g.
Proof. intros a b c d e f g w H. unfold within_new in H. repeat match type of H with (if ?b then _ else _) = _ => destruct b; try discriminate end. congruence. Qed.
Lemma within_x_sim : forall orc orc' p q srp goal liq dx ro ro' w v, pool_sim p q ->
  swap_within_x orc p srp goal liq dx ro = Ok w -> swap_within_x orc' q srp goal liq dx ro' = Ok v -> within_sim w v.
Proof.
  intros orc orc' p q srp goal liq dx ro ro' w v S Hp Hq.
  destruct (within_x_core _ _ _ _ _ _ _ _ Hp) as (ddx & fee & cr & et & erp & cp & ddy & adj & ny & C1 & C2 & _ & _ & C3 & _ & _ & C4 & _ & C5).
  destruct (within_x_core _ _ _ _ _ _ _ _ Hq) as (ddx' & fee' & cr' & et' & erp' & cp' & ddy' & adj' & ny' & D1 & D2 & _ & _ & D3 & _ & _ & D4 & _ & D5).
  assert (X : core_x p srp goal liq dx = core_x q srp goal liq dx). { unfold core_x. destruct S as (_ & -> & _). auto. }
  rewrite X, D1 in C1. injection C1 as -> -> -> -> ->. rewrite C2 in D2. injection D2 as <-. apply within_new_eq in C5, D5. subst w v.
  pose proof (sub_m _ _ _ C3). pose proof (sub_m _ _ _ D3). pose proof (sub_q _ _ _ C3) as Q1. pose proof (sub_q _ _ _ D3) as Q2.
  unfold within_sim. cbn. csplit; auto; try (intuition congruence). rewrite Q1, Q2. ring.
Qed.
Lemma within_y_sim : forall orc orc' p q srp goal liq dx ro ro' w v, pool_sim p q ->
  swap_within_y orc p srp goal liq dx ro = Ok w -> swap_within_y orc' q srp goal liq dx ro' = Ok v -> within_sim w v.
Proof.
  intros orc orc' p q srp goal liq dx ro ro' w v S Hp Hq.
  destruct (within_y_core _ _ _ _ _ _ _ _ Hp) as (ddx & fee & cr & et & erp & cp & ddy & adj & ny & C1 & C2 & _ & _ & C3 & _ & _ & C4 & _ & C5).
  destruct (within_y_core _ _ _ _ _ _ _ _ Hq) as (ddx' & fee' & cr' & et' & erp' & cp' & ddy' & adj' & ny' & D1 & D2 & _ & _ & D3 & _ & _ & D4 & _ & D5).
  assert (X : core_y p srp goal liq dx = core_y q srp goal liq dx). { unfold core_y, tick_to_possible_tick. destruct S as (-> & -> & (_ & _ & -> & _) & _). auto. }
  rewrite X, D1 in C1. injection C1 as -> -> -> -> ->. rewrite C2 in D2. injection D2 as <-. apply within_new_eq in C5, D5. subst w v.
  pose proof (sub_m _ _ _ C3). pose proof (sub_m _ _ _ D3). pose proof (sub_q _ _ _ C3) as Q1. pose proof (sub_q _ _ _ D3) as Q2.
  unfold within_sim. cbn. csplit; auto; try (intuition congruence). rewrite Q1, Q2. ring.
Qed.

Lemma add_s : forall a b c, d_add a b = Ok c -> dscale c = dscale a /\ dscale a = dscale b.
Proof. intros a b c H. apply add_m in H. intuition congruence. Qed.
Lemma sub_s : forall a b c, d_sub a b = Ok c -> dscale c = dscale a /\ dscale a = dscale b.
Proof. intros a b c H. apply sub_m in H. intuition congruence. Qed.
Ltac q_of := repeat match goal with
  | H : d_add _ _ = Ok _ |- _ => let S := fresh "S" in pose proof (add_s _ _ _ H) as S; apply add_q in H
  | H : d_sub _ _ = Ok _ |- _ => let S := fresh "S" in pose proof (sub_s _ _ _ H) as S; apply sub_q in H end.
Ltac same H H' := rewrite H in H'; injection H' as <-.

Lemma tally_sim : forall dx s s' w v t t', swp_sim s t -> within_sim w v -> tally dx s w s' -> tally dx t v t' -> swp_sim s' t'.
Proof.
  intros dx s s' w v t t' (A1 & A2 & A3 & A4 & A5 & A6 & A7) (B1 & B2 & B3 & B4 & B5 & B6 & B7 & B8) (rest & c1 & ck & i1 & i2 & o2 & a2 & f2 & T1 & T2 & T3 & T4 & T5 & T6 & T7 & T8 & T9 & ->)
    (rest' & c1' & ck' & i1' & i2' & o2' & a2' & f2' & U1 & U2 & U3 & U4 & U5 & U6 & U7 & U8 & U9 & ->).
  rewrite A1, B1 in T5. same T5 U5. rewrite B5 in T6. same T6 U6. rewrite A2, B5 in T9. same T9 U9. clear T1 T2 T3 U1 U2 U3.
  unfold swp_sim. cbn. q_of. csplit; auto; try (intuition congruence).
  assert (num o2 - num a2 == (num (s_out s) - num (s_adj s)) + (num (w_send w) - num (w_adj w)))%Q as -> by (rewrite T7, T8; ring).
  assert (num o2' - num a2' == (num (s_out t) - num (s_adj t)) + (num (w_send v) - num (w_adj v)))%Q as -> by (rewrite U7, U8; ring).
  rewrite A7, B8. reflexivity.
Qed.
Lemma mid_x_sim : forall p q w v p1 q1, pool_sim p q -> within_sim w v -> mid_x p w p1 -> mid_x q v q1 -> pool_sim p1 q1.
Proof.
  intros p q w v p1 q1 (S1 & S2 & (S3 & S4 & S5 & S6 & S7) & S8 & (S9 & S9') & (S10 & S10') & S11 & S12) (B1 & B2 & B3 & B4 & B5 & B6 & B7 & B8)
    (nx & y1 & ny & nya & nxf & fx & hy & M1 & M2 & M3 & M4 & M5 & M6 & M7 & ->) (nx' & y1' & ny' & nya' & nxf' & fx' & hy' & N1 & N2 & N3 & N4 & N5 & N6 & N7 & ->).
  assert (F : fx = fx'). { rewrite <- S3 in N7. destruct (is_positive (glbl_liq p)).
    - destruct M7 as (q1 & q2 & P1 & P2 & _). destruct N7 as (q1' & q2' & R1 & R2 & _). rewrite B5 in P1. same P1 R1. rewrite S6 in P2. same P2 R2. auto.
    - destruct M7 as [-> _]. destruct N7 as [-> _]. auto. }
  rewrite S11, B5 in M6. same M6 N6. clear M5 N5 M7 N7. q_of. rewrite B1 in *.
  unfold pool_sim, veq, glbl_liq, glbl_rp, glbl_tick in *. cbn. csplit; auto; try (intuition congruence).
  - rewrite M1, N1, S9'. reflexivity.
  - assert (num ny == num (ry p) + (num (w_send w) - num (w_adj w)))%Q as -> by (rewrite M3, M2; ring).
    assert (num ny' == num (ry q) + (num (w_send v) - num (w_adj v)))%Q as -> by (rewrite N3, N2; ring). rewrite S10', B8. reflexivity.
Qed.
Lemma mid_y_sim : forall p q w v p1 q1, pool_sim p q -> within_sim w v -> mid_y p w p1 -> mid_y q v q1 -> pool_sim p1 q1.
Proof.
  intros p q w v p1 q1 (S1 & S2 & (S3 & S4 & S5 & S6 & S7) & S8 & (S9 & S9') & (S10 & S10') & S11 & S12) (B1 & B2 & B3 & B4 & B5 & B6 & B7 & B8)
    (nx & y1 & ny & nya & nxf & fx & hy & M1 & M2 & M3 & M4 & M5 & M6 & M7 & ->) (nx' & y1' & ny' & nya' & nxf' & fx' & hy' & N1 & N2 & N3 & N4 & N5 & N6 & N7 & ->).
  assert (F : fx = fx'). { rewrite <- S3 in N7. destruct (is_positive (glbl_liq p)).
    - destruct M7 as (q1 & q2 & P1 & P2 & _). destruct N7 as (q1' & q2' & R1 & R2 & _). rewrite B5 in P1. same P1 R1. rewrite S7 in P2. same P2 R2. auto.
    - destruct M7 as [-> _]. destruct N7 as [-> _]. auto. }
  rewrite S12, B5 in M6. same M6 N6. clear M5 N5 M7 N7. q_of. rewrite B1 in *.
  unfold pool_sim, veq, glbl_liq, glbl_rp, glbl_tick in *. cbn. csplit; auto; try (intuition congruence).
  - assert (num ny == num (rx p) + (num (w_send w) - num (w_adj w)))%Q as -> by (rewrite M3, M2; ring).
    assert (num ny' == num (rx q) + (num (w_send v) - num (w_adj v)))%Q as -> by (rewrite N3, N2; ring). rewrite S9', B8. reflexivity.
  - rewrite M1, N1, S10'. reflexivity.
Qed.
Lemma after_sim : forall w v gtk d p q p' q', pool_sim p q -> within_sim w v -> after_mid w gtk d p p' -> after_mid v gtk d q q' -> pool_sim p' q'.
Proof.
  intros w v gtk d p q p' q' S (_ & _ & _ & B & _) Hp Hq. unfold after_mid in *. rewrite <- B in Hq. destruct (w_cross w); [| subst; auto].
  destruct Hp as [_ Hp]. destruct Hq as [_ Hq]. assert (F : Forall2 tick_sim (ticks p) (ticks q)) by apply S. pose proof (sim_get gtk _ _ F) as G.
  destruct (tm_get gtk (ticks p)), (tm_get gtk (ticks q)); try contradiction; [| subst; auto]. eapply cross_sim; eauto.
Qed.
Lemma step_x_sim : forall orc orc' p q s t dx ro ro' gtk p' q' s' t', pool_sim p q -> swp_sim s t ->
  step_x orc p s dx ro gtk = Ok (p', s') -> step_x orc' q t dx ro' gtk = Ok (q', t') -> pool_sim p' q' /\ swp_sim s' t'.
Proof.
  intros orc orc' p q s t dx ro ro' gtk p' q' s' t' S T Hp Hq.
  destruct (step_x_inv _ _ _ _ _ _ _ _ Hp) as (rest & w & p1 & A1 & A2 & A3 & A4 & A5). destruct (step_x_inv _ _ _ _ _ _ _ _ Hq) as (rest' & v & q1 & D1 & D2 & D3 & D4 & D5).
  assert (E1 : s_in s = s_in t) by apply T. assert (E2 : s_rp s = s_rp t) by apply T. assert (E3 : glbl_liq p = glbl_liq q) by apply S.
  rewrite E1 in A1. same A1 D1. rewrite E2, E3 in A2. pose proof (within_x_sim _ _ _ _ _ _ _ _ _ _ _ _ S A2 D2) as W.
  split; [eapply after_sim; [| exact W | exact A5 | exact D5]; eapply mid_x_sim; eauto | eapply tally_sim; eauto].
Qed.
Lemma step_y_sim : forall orc orc' p q s t dx ro ro' gtk p' q' s' t', pool_sim p q -> swp_sim s t ->
  step_y orc p s dx ro gtk = Ok (p', s') -> step_y orc' q t dx ro' gtk = Ok (q', t') -> pool_sim p' q' /\ swp_sim s' t'.
Proof.
  intros orc orc' p q s t dx ro ro' gtk p' q' s' t' S T Hp Hq.
  destruct (step_y_inv _ _ _ _ _ _ _ _ Hp) as (rest & w & p1 & A1 & A2 & A3 & A4 & A5). destruct (step_y_inv _ _ _ _ _ _ _ _ Hq) as (rest' & v & q1 & D1 & D2 & D3 & D4 & D5).
  assert (E1 : s_in s = s_in t) by apply T. assert (E2 : s_rp s = s_rp t) by apply T. assert (E3 : glbl_liq p = glbl_liq q) by apply S.
  rewrite E1 in A1. same A1 D1. rewrite E2, E3 in A2. pose proof (within_y_sim _ _ _ _ _ _ _ _ _ _ _ _ S A2 D2) as W.
  split; [eapply after_sim; [| exact W | exact A5 | exact D5]; eapply mid_y_sim; eauto | eapply tally_sim; eauto].
Qed.

(** What the two runs report. *)
Definition out_sim (o o' : swap_out) : Prop :=
  so_recv o = so_recv o' /\ so_fee o = so_fee o' /\ so_end o = so_end o' /\ (num (so_send o) - num (so_adj o) == num (so_send o') - num (so_adj o'))%Q.
Lemma finish_x_sim : forall p q s t p' q' o o', pool_sim p q -> swp_sim s t -> finish_x p s = Ok (p', o) -> finish_x q t = Ok (q', o') -> pool_sim p' q' /\ out_sim o o'.
Proof.
  intros p q s t p' q' o o' S (A1 & A2 & A3 & A4 & A5 & A6 & A7) Hp Hq. pose proof (finish_x_same _ _ _ _ Hp). pose proof (finish_x_same _ _ _ _ Hq). subst p' q'.
  split; auto. unfold finish_x in *. bd Hp a E1. bd Hp e E2. bd Hp x E3. injection Hp as <-. bd Hq a' E1'. bd Hq e' E2'. bd Hq x' E3'. injection Hq as <-.
  assert (E : glbl_rp p = glbl_rp q) by apply S. rewrite E in E2. same E2 E2'. apply swap_out_inv in E3, E3'. destruct E3 as [-> _]. destruct E3' as [-> _]. unfold out_sim. cbn. auto.
Qed.
Lemma finish_y_sim : forall p q s t p' q' o o', pool_sim p q -> swp_sim s t -> finish_y p s = Ok (p', o) -> finish_y q t = Ok (q', o') -> pool_sim p' q' /\ out_sim o o'.
Proof.
  intros p q s t p' q' o o' S (A1 & A2 & A3 & A4 & A5 & A6 & A7) Hp Hq. pose proof (finish_y_same _ _ _ _ Hp). pose proof (finish_y_same _ _ _ _ Hq). subst p' q'.
  split; auto. unfold finish_y in *. bd Hp a E1. bd Hp e E2. bd Hp x E3. injection Hp as <-. bd Hq a' E1'. bd Hq e' E2'. bd Hq x' E3'. injection Hq as <-.
  assert (E : glbl_rp p = glbl_rp q) by apply S. rewrite E in E2. same E2 E2'. apply swap_out_inv in E3, E3'. destruct E3 as [-> _]. destruct E3' as [-> _]. unfold out_sim. cbn. auto.
Qed.
Lemma swp_sim_rp : forall s t crp, swp_sim s t ->
  swp_sim (mkSwp (s_in s) (s_out s) (s_adj s) (s_fee s) (s_t s) crp) (mkSwp (s_in t) (s_out t) (s_adj t) (s_fee t) (s_t t) crp).
Proof. intros s t crp (A1 & A2 & A3 & A4 & A5 & A6 & A7). unfold swp_sim. cbn. auto 10. Qed.
Lemma loop_x_sim : forall orc orc' dx ro ro' fuel p q s t p' q' o o', pool_sim p q -> swp_sim s t ->
  loop_x orc fuel p s dx ro = Ok (p', o) -> loop_x orc' fuel q t dx ro' = Ok (q', o') -> pool_sim p' q' /\ out_sim o o'.
Proof.
  intros orc orc' dx ro ro'. induction fuel as [| fuel IH]; intros p q s t p' q' o o' S T Hp Hq; cbn [loop_x] in *; [discriminate |].
  assert (E1 : s_in s = s_in t) by apply T. rewrite E1 in Hp. bd Hp more M. rewrite M in Hq. bd Hq more' M'. injection M' as <-.
  destruct more; cbn [negb] in *; [| eapply finish_x_sim; eauto]. bd Hp a G1. destruct a as [[p1 goal] crp]. bd Hq b G2. destruct b as [[q1 goal'] crp'].
  assert (X : pool_sim p1 q1 /\ goal = goal' /\ crp = crp').
  { assert (E2 : glbl_liq p = glbl_liq q) by apply S. rewrite E2 in G1. destruct (is_positive (glbl_liq q)); [| eapply try_sim; eauto].
    assert (E3 : s_t s = s_t t) by apply T. assert (E4 : s_rp s = s_rp t) by apply T. rewrite (left_sim _ _ _ S), E3, E4 in G1.
    bd G1 g G3. injection G1 as <- <- <-. rewrite G3 in G2. bd G2 g' G4. injection G4 as <-. injection G2 as <- <- <-. auto. }
  destruct X as (S' & <- & <-). destruct goal as [gtk |]; [| eapply finish_x_sim; eauto].
  bd Hp a F1. destruct a as [p2 s2]. rewrite <- E1 in F1. bd Hq b F2. destruct b as [q2 t2]. destruct (step_x_sim _ _ _ _ _ _ _ _ _ _ _ _ _ _ S' (swp_sim_rp _ _ crp T) F1 F2) as [S2 T2]. eapply IH; eauto.
Qed.
Lemma loop_y_sim : forall orc orc' dx ro ro' fuel p q s t p' q' o o', pool_sim p q -> swp_sim s t ->
  loop_y orc fuel p s dx ro = Ok (p', o) -> loop_y orc' fuel q t dx ro' = Ok (q', o') -> pool_sim p' q' /\ out_sim o o'.
Proof.
  intros orc orc' dx ro ro'. induction fuel as [| fuel IH]; intros p q s t p' q' o o' S T Hp Hq; cbn [loop_y] in *; [discriminate |].
  assert (E1 : s_in s = s_in t) by apply T. rewrite E1 in Hp. bd Hp more M. rewrite M in Hq. bd Hq more' M'. injection M' as <-.
  destruct more; cbn [negb] in *; [| eapply finish_y_sim; eauto]. bd Hp a G1. destruct a as [[p1 goal] crp]. bd Hq b G2. destruct b as [[q1 goal'] crp'].
  assert (X : pool_sim p1 q1 /\ goal = goal' /\ crp = crp').
  { assert (E2 : glbl_liq p = glbl_liq q) by apply S. rewrite E2 in G1. destruct (is_positive (glbl_liq q)); [| eapply try_sim; eauto].
    assert (E3 : s_t s = s_t t) by apply T. assert (E4 : s_rp s = s_rp t) by apply T. assert (E5 : glbl_tick p = glbl_tick q) by apply S. rewrite (right_sim _ _ _ _ S), E3, E4, E5 in G1.
    bd G1 g G3. injection G1 as <- <- <-. rewrite G3 in G2. bd G2 g' G4. injection G4 as <-. injection G2 as <- <- <-. auto. }
  destruct X as (S' & <- & <-). destruct goal as [gtk |]; [| eapply finish_y_sim; eauto].
  bd Hp a F1. destruct a as [p2 s2]. rewrite <- E1 in F1. bd Hq b F2. destruct b as [q2 t2]. destruct (step_y_sim _ _ _ _ _ _ _ _ _ _ _ _ _ _ S' (swp_sim_rp _ _ crp T) F1 F2) as [S2 T2]. eapply IH; eauto.
Qed.

Lemma sim_len : forall p q, pool_sim p q -> swap_fuel p = swap_fuel q.
Proof. intros p q S. unfold swap_fuel. pose proof (sim_keys _ _ S) as K. apply (f_equal (@List.length Z)) in K. unfold keys in K. rewrite !map_length in K. rewrite K. auto. Qed.
Lemma sim_start : forall p q z, pool_sim p q -> swp_sim (mkSwp z z z z (glbl_tick p) (glbl_rp p)) (mkSwp z z z z (glbl_tick q) (glbl_rp q)).
Proof. intros p q z (_ & _ & (_ & E1 & E2 & _) & _). unfold swp_sim. cbn. csplit; auto. reflexivity. Qed.
Theorem swap_x_hmm : forall orc orc' p q dx ro ro' p' q' o o', pool_sim p q ->
  execute_swap_from_x orc p dx ro = Ok (p', o) -> execute_swap_from_x orc' q dx ro' = Ok (q', o') -> pool_sim p' q' /\ out_sim o o'.
Proof.
  intros orc orc' p q dx ro ro' p' q' o o' S Hp Hq. unfold execute_swap_from_x in *. destruct (negb (is_positive dx)); [discriminate |].
  bd Hp z E0. rewrite E0 in Hq. bd Hq z' E0'. injection E0' as <-. rewrite (sim_len _ _ S) in Hp. eapply loop_x_sim; [exact S | apply sim_start; exact S | exact Hp | exact Hq].
Qed.
Theorem swap_y_hmm : forall orc orc' p q dx ro ro' p' q' o o', pool_sim p q ->
  execute_swap_from_y orc p dx ro = Ok (p', o) -> execute_swap_from_y orc' q dx ro' = Ok (q', o') -> pool_sim p' q' /\ out_sim o o'.
Proof.
  intros orc orc' p q dx ro ro' p' q' o o' S Hp Hq. unfold execute_swap_from_y in *. destruct (negb (is_positive dx)); [discriminate |].
  bd Hp z E0. rewrite E0 in Hq. bd Hq z' E0'. injection E0' as <-. rewrite (sim_len _ _ S) in Hp. eapply loop_y_sim; [exact S | apply sim_start; exact S | exact Hp | exact Hq].
Qed.

(** ** With the HMM switched off (C = 0) or no oracle price, there is no adjustment at all. *)
Definition hmm_off (p : pool) (ro : decimal) : Prop := is_zero (hmm_c p) = true \/ is_zero ro = true.
Theorem swap_x_no_hmm : forall orc p dx ro p' o, pool_wf p -> wf dx -> wf ro -> hmm_off p ro -> execute_swap_from_x orc p dx ro = Ok (p', o) ->
  (num (so_adj o) == 0 /\ num (y_adj p') == num (y_adj p))%Q.
Proof.
  intros orc p dx ro p' o W Wd Wo Hz H. destruct (swap_x_accounting _ _ _ _ _ _ W Wd Wo H) as (_ & _ & _ & A & _).
  assert (Z0 : (num (so_adj o) == 0)%Q); [| split; [exact Z0 | rewrite A, Z0; ring]].
  destruct (swap_x_chain _ _ _ _ _ _ H W Wd Wo) as (Pd & s' & C & I & F & N). destruct (finish_x_out _ _ _ _ F) as (_ & _ & -> & _).
  pose (P := fun c : pool * swp => inv_x c /\ mant (s_adj (snd c)) = 0 /\ hmm_off (fst c) ro).
  assert (G : P (p', s')).
  { apply (chain_inv _ _ P) with (2 := C); [| split; [apply inv_start; auto | split; [reflexivity | exact Hz]]].
    clear - Wd Wo. intros a b (Ia & Z0 & Hz) M. pose proof (mv_x_records _ _ _ _ _ Wd Wo Ia M) as (_ & _ & Ec & _). split; [exact (mv_x_inv _ _ _ _ _ Wd Wo Ia M) |].
    split; [| unfold hmm_off in *; rewrite Ec; exact Hz]. destruct Ia as (I1 & I2 & I3 & I4).
    inversion M as [p s tk rp p' H1 H2 H3 H4 H5 | p s f gtk p' s' H1 H2 H3 H4 H5]; subst; cbn [fst snd] in *; [exact Z0 |].
    destruct (find_left _ _ _ H4) as [K1 K2]. destruct (step_x_facts _ _ _ _ _ _ _ _ H5 I1 I2 Wd Wo K1) as (w & p1 & (rest & R1 & R2 & R3) & F2 & F3 & F4 & F5 & F6 & F7 & F8).
    destruct (within_x_facts _ _ _ _ _ _ _ _ R3 I1 (srp_wf _ I2) (liq_wf _ I1) R2 Wo (key_nn _ _ I1 K1)) as (rpg & cp & G1 & G2 & G3 & G4 & G5 & G6 & G7 & G8 & G9 & G10 & G11 & _).
    destruct F4 as (r' & c1 & ck & i1 & i2 & o2 & a2 & f2 & T1 & T2 & T3 & T4 & T5 & T6 & T7 & T8 & T9 & ->). cbn [s_adj]. apply add_m in T8. rewrite (G11 Hz) in G7. lia. }
  destruct G as ((_ & S & _) & Z0 & _). cbn [snd] in *. apply num_sign; auto. apply S.
Qed.
Theorem swap_y_no_hmm : forall orc p dx ro p' o, pool_wf p -> wf dx -> wf ro -> hmm_off p ro -> execute_swap_from_y orc p dx ro = Ok (p', o) ->
  (num (so_adj o) == 0 /\ num (x_adj p') == num (x_adj p))%Q.
Proof.
  intros orc p dx ro p' o W Wd Wo Hz H. destruct (swap_y_accounting _ _ _ _ _ _ W Wd Wo H) as (_ & _ & _ & A & _).
  assert (Z0 : (num (so_adj o) == 0)%Q); [| split; [exact Z0 | rewrite A, Z0; ring]].
  destruct (swap_y_chain _ _ _ _ _ _ H W Wd Wo) as (Pd & s' & C & I & F & N). destruct (finish_y_out _ _ _ _ F) as (_ & _ & -> & _).
  pose (P := fun c : pool * swp => inv_y c /\ mant (s_adj (snd c)) = 0 /\ hmm_off (fst c) ro).
  assert (G : P (p', s')).
  { apply (chain_inv _ _ P) with (2 := C); [| split; [apply inv_start; auto | split; [reflexivity | exact Hz]]].
    clear - Wd Wo. intros a b (Ia & Z0 & Hz) M. pose proof (mv_y_records _ _ _ _ _ Wd Wo Ia M) as (_ & _ & Ec & _). split; [exact (mv_y_inv _ _ _ _ _ Wd Wo Ia M) |].
    split; [| unfold hmm_off in *; rewrite Ec; exact Hz]. destruct Ia as (I1 & I2 & I3 & I4).
    inversion M as [p s tk rp p' H1 H2 H3 H4 H5 | p s gtk p' s' H1 H2 H3 H4 H5]; subst; cbn [fst snd] in *; [exact Z0 |].
    destruct (find_right _ _ _ H4) as [K1 K2]. destruct (step_y_facts _ _ _ _ _ _ _ _ H5 I1 I2 Wd Wo K1) as (w & p1 & (rest & R1 & R2 & R3) & F2 & F3 & F4 & F5 & F6 & F7 & F8).
    destruct (within_y_facts _ _ _ _ _ _ _ _ R3 I1 (srp_wf _ I2) (liq_wf _ I1) R2 Wo (key_nn _ _ I1 K1)) as (rpg & cp & G1 & G2 & G3 & G4 & G5 & G6 & G7 & G8 & G9 & G10 & G11 & _).
    destruct F4 as (r' & c1 & ck & i1 & i2 & o2 & a2 & f2 & T1 & T2 & T3 & T4 & T5 & T6 & T7 & T8 & T9 & ->). cbn [s_adj]. apply add_m in T8. rewrite (G11 Hz) in G7. lia. }
  destruct G as ((_ & S & _) & Z0 & _). cbn [snd] in *. apply num_sign; auto. apply S.
Qed.
