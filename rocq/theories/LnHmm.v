(** The HMM adjustment at C = 1 (cl_math.rs:275-358), where it is a difference of logarithms. *)
From Coq Require Import ZArith QArith Qreals Reals Lra Lia List Bool Psatz.
From Verif Require Import Base BaseLemmas DecimalModel DecimalSpec DecimalProofs WfProofs MathModel MathProofs PoolModel PoolWf PowAccuracy PowDec HmmUse LnSeries LnAccuracy LnUse.
Open Scope R_scope.

Lemma at12_wf : forall d, at_s 12 d -> wf d /\ dneg d = false /\ dscale d = 12%Z. Proof. intros d (A & B & C). auto. Qed.
(** The arguments the logarithm handles. *)
Definition in_range (orc : log2_oracle) (d : decimal) : Prop := (1 # 64 <= num d)%Q /\ (num d < ln_room)%Q /\ log2_right orc d.

Lemma ln_range : forall orc d, at_s 12 d -> in_range orc d -> exists r, d_ln orc d = Ok r /\ wf r /\ dscale r = 12%Z /\ 0 < Q2R (num d) /\ IZR (mant r) - 7 <= units12 (Q2R (num d)) <= IZR (mant r) + 168.
Proof.
  intros orc d A (L & U & b & E & F). destruct (at12_wf _ A) as (W & N & S). pose proof (exponent_range _ _ E L U) as B.
  destruct (ln_at12 orc d b W N S B E U F) as (r & R1 & R2 & R3 & _ & _ & R5 & R6). exists r. split; [exact R1|]. split; [exact R2|]. split; [exact R3|]. split; [exact R5|].
  assert (B1 : IZR (Z.max 0 b) <= 48) by (apply IZR_le; lia). assert (B2 : IZR (Z.max 0 (- b)) <= 6) by (apply IZR_le; lia). lra.
Qed.
Definition log_drop (a b : decimal) : R := ln (Q2R (num a)) - ln (Q2R (num b)).

Lemma is_one : forall c c12 (lt1 is1 : bool), wf c -> dneg c = false -> (num c == 1)%Q -> to_compute_scale c = Ok c12 -> d_lt c12 one12 = Ok lt1 -> lt1 = false -> d_eq c12 one12 = Ok is1 -> is1 = true.
Proof.
  intros c c12 lt1 is1 W N E H1 H2 L H3. destruct (c12_cmp _ _ _ W N H1 H2) as (_ & _ & _ & _ & _ & K). destruct is1; [reflexivity|]. exfalso. specialize (K H3 L). rewrite E in K. apply (Qlt_irrefl _ K).
Qed.
Lemma log_parts_x : forall orc l a b c o r, wf c -> dneg c = false -> (num c == 1)%Q -> dx_from_l_drp_hmm orc l a b c o = Ok r -> a = b /\ dval r = 0%Z \/
  exists la lb lr q, d_ln orc a = Ok la /\ d_ln orc b = Ok lb /\ d_sub la lb = Ok lr /\ dval o <> 0%Z /\ d_div l o = Ok q /\ d_mul q lr = Ok r.
Proof.
  intros orc l a b c o r W N E H. destruct (d_eq a b) as [[|] | | |] eqn:Eab.
  { left. apply eq_true in Eab. subst b. split; [reflexivity|]. exact (dx_hmm_same _ _ _ _ _ _ H). }
  all: right; unfold dx_from_l_drp_hmm in H; rewrite one_eq in H; bd H one Eo; injection Eo as <-; fold one12 in H; bd H c12 G1; bd H lt1 G2; destruct lt1; [discriminate |]; bd H same G3; rewrite G3 in Eab; try discriminate.
  injection Eab as ->. bd H is1 G4. rewrite (is_one _ _ _ _ W N E G1 G2 eq_refl G4) in H. bd H la F1. bd H lb F2. bd H lr F3. destruct (is_zero o) eqn:Z0; [discriminate|]. bd H q F4.
  exists la, lb, lr, q. unfold is_zero in Z0. apply Z.eqb_neq in Z0. auto 10.
Qed.
Lemma log_parts_y : forall orc l a b c o r, wf c -> dneg c = false -> (num c == 1)%Q -> dy_from_l_drp_hmm orc l a b c o = Ok r -> a = b /\ dval r = 0%Z \/
  exists la lb lr q, d_ln orc a = Ok la /\ d_ln orc b = Ok lb /\ d_sub la lb = Ok lr /\ d_mul l o = Ok q /\ d_mul q lr = Ok r.
Proof.
  intros orc l a b c o r W N E H. destruct (d_eq a b) as [[|] | | |] eqn:Eab.
  { left. apply eq_true in Eab. subst b. split; [reflexivity|]. exact (dy_hmm_same _ _ _ _ _ _ H). }
  all: right; unfold dy_from_l_drp_hmm in H; rewrite one_eq in H; bd H one Eo; injection Eo as <-; fold one12 in H; bd H c12 G1; bd H lt1 G2; destruct lt1; [discriminate |]; bd H same G3; rewrite G3 in Eab; try discriminate.
  injection Eab as ->. destruct (is_zero a || is_zero b)%bool; [discriminate|]. bd H is1 G4. rewrite (is_one _ _ _ _ W N E G1 G2 eq_refl G4) in H. bd H la F1. bd H lb F2. bd H lr F3. bd H q F4.
  exists la, lb, lr, q. auto 10.
Qed.
Lemma q2r_abs : forall q, Q2R (Qabs.Qabs q) = Rabs (Q2R q).
Proof.
  intros q. destruct (Qlt_le_dec q 0) as [H | H].
  - rewrite (Qeq_eqR _ _ (Qabs.Qabs_neg q (Qlt_le_weak _ _ H))). rewrite Q2R_opp. apply Qlt_Rlt in H. rewrite RMicromega.Q2R_0 in H. rewrite Rabs_left by lra. reflexivity.
  - rewrite (Qeq_eqR _ _ (Qabs.Qabs_pos q H)). apply Qle_Rle in H. rewrite RMicromega.Q2R_0 in H. rewrite Rabs_right by lra. reflexivity.
Qed.
Lemma ulp12_r : Q2R (ulp 12) = 1 / 1000000000000.
Proof. unfold ulp. rewrite Q2R_div, q2r_1, q2r_z by (intros F; vm_compute in F; discriminate). reflexivity. Qed.
(** Truncation of a signed product. *)
Lemma mul_near : forall a b c, wf a -> wf b -> dscale a = 12%Z -> d_mul a b = Ok c -> Rabs (Q2R (num c) - Q2R (num a) * Q2R (num b)) <= 1 / 1000000000000.
Proof.
  intros a b c Wa Wb S H. pose proof (mul_spec a b Wa Wb) as M. rewrite H in M. destruct M as (_ & Sc & T1 & T2 & T3). rewrite S in T2. 
  apply Qle_Rle in T1. apply Qlt_Rlt in T2. unfold same_sign in T3. apply Qle_Rle in T3. rewrite RMicromega.Q2R_0, Q2R_mult in T3. rewrite Q2R_plus, ulp12_r, !q2r_abs, Q2R_mult in T2. rewrite !q2r_abs, Q2R_mult in T1. rewrite Q2R_mult in T3.
  set (x := Q2R (num c)) in *. set (y := Q2R (num a) * Q2R (num b)) in *. clearbody x y.
  unfold Rabs in *. destruct (Rcase_abs x), (Rcase_abs y), (Rcase_abs (x - y)); nra.
Qed.
Lemma log_combine : forall K q y D r, 0 <= q -> 0 <= K -> Rabs (q - K) <= 1 / 1000000000000 -> q <= K -> Rabs (y - D) <= 175 / 1000000000000 -> Rabs (r - q * y) <= 1 / 1000000000000 ->
  Rabs (r - K * D) <= (1 + 175 * K + Rabs D) / 1000000000000.
Proof.
  intros K q y D r Q0 K0 A B C E.
  replace (r - K * D) with ((r - q * y) + (q * (y - D) + (q - K) * D)) by ring.
  eapply Rle_trans; [apply Rabs_triang|]. eapply Rle_trans; [apply Rplus_le_compat_l; apply Rabs_triang|]. rewrite !Rabs_mult. rewrite (Rabs_right q) by lra.
  assert (q * Rabs (y - D) <= K * (175 / 1000000000000)). { apply Rmult_le_compat; try lra. apply Rabs_pos. }
  assert (Rabs (q - K) * Rabs D <= 1 / 1000000000000 * Rabs D). { apply Rmult_le_compat_r; [apply Rabs_pos | exact A]. }
  lra.
Qed.
Lemma log_diff : forall orc a b la lb lr, at_s 12 a -> at_s 12 b -> in_range orc a -> in_range orc b -> d_ln orc a = Ok la -> d_ln orc b = Ok lb -> d_sub la lb = Ok lr ->
  wf lr /\ dscale lr = 12%Z /\ Rabs (Q2R (num lr) - log_drop a b) <= 175 / 1000000000000.
Proof.
  intros orc a b la lb lr A B Ra Rb Ha Hb H. destruct (ln_range orc a A Ra) as (x & X1 & X2 & X3 & X4 & X5). destruct (ln_range orc b B Rb) as (z & Z1 & Z2 & Z3 & Z4 & Z5).
  assert (x = la) by congruence. assert (z = lb) by congruence. subst x z.
  pose proof (sub_spec la lb X2 Z2) as SS. rewrite H in SS. destruct SS as (_ & W & S & _). split; [exact W|]. split; [congruence|].
  destruct (sub_m _ _ _ H) as (M & _). rewrite q2r_num by (destruct W; lia). rewrite S, X3, M, minus_IZR. change (IZR (10 ^ 12)) with 1000000000000. unfold log_drop, units12 in *.
  apply Rabs_le. split; lra.
Qed.
Theorem hmm_log_x : forall orc l a b c o r, wf c -> dneg c = false -> (num c == 1)%Q -> at_s 12 l -> at_s 12 a -> at_s 12 b -> at_s 12 o -> (0 < num o)%Q -> in_range orc a -> in_range orc b ->
  dx_from_l_drp_hmm orc l a b c o = Ok r ->
  Rabs (Q2R (num r) - Q2R (num l) / Q2R (num o) * log_drop a b) <= (1 + 175 * (Q2R (num l) / Q2R (num o)) + Rabs (log_drop a b)) / 10 ^ 12.
Proof.
  intros orc l a b c o r W N E Al Aa Ab Ao O0 Ra Rb H. replace (10 ^ 12) with 1000000000000 by (cbn [pow]; lra).
  assert (Lnn : 0 <= Q2R (num l)). { rewrite <- RMicromega.Q2R_0. apply Qle_Rle. exact (at_nn _ _ Al). }
  assert (Op : 0 < Q2R (num o)). { rewrite <- RMicromega.Q2R_0. apply Qlt_Rlt. exact O0. }
  assert (K0 : 0 <= Q2R (num l) / Q2R (num o)) by (apply Rmult_le_pos; [exact Lnn | left; apply Rinv_0_lt_compat; exact Op]).
  destruct (log_parts_x _ _ _ _ _ _ _ W N E H) as [(-> & Z) | (la & lb & lr & q & H1 & H2 & H3 & H4 & H5 & H6)].
  - unfold log_drop. assert (R0 : Q2R (num r) = 0). { rewrite (Qeq_eqR _ _ (num_zero r Z)). apply RMicromega.Q2R_0. } rewrite R0. replace (ln (Q2R (num b)) - ln (Q2R (num b))) with 0 by ring. rewrite Rmult_0_r, Rminus_0_r, Rabs_R0. lra.
  - destruct (log_diff orc a b la lb lr Aa Ab Ra Rb H1 H2 H3) as (D1 & D2 & D3).
    assert (An : forall d, at_s 12 d -> nonneg d) by (intros d (A1 & A2 & A3); split; auto).
    destruct (divq l o q (An _ Al) (An _ Ao) H5) as (Q1 & Q2 & Q3). pose proof (at12_wf _ Al) as (Wl & Nl & Sl).
    assert (Sq : dscale q = 12%Z) by congruence.
    pose proof (mul_near q lr r (proj1 Q1) D1 Sq H6) as M.
    destruct Q3 as (_ & Q3 & Q4). rewrite Sl in Q4. apply Qle_Rle in Q3. apply Qlt_Rlt in Q4. rewrite Q2R_mult in Q3, Q4. rewrite Q2R_plus, ulp12_r in Q4.
    assert (Qnn : 0 <= Q2R (num q)). { rewrite <- RMicromega.Q2R_0. apply Qle_Rle. apply nonneg_num. exact Q1. }
    assert (QK : Q2R (num q) <= Q2R (num l) / Q2R (num o)). { apply Rmult_le_reg_r with (Q2R (num o)); [exact Op|]. unfold Rdiv. rewrite Rmult_assoc, Rinv_l by lra. lra. }
    assert (QG : Q2R (num l) / Q2R (num o) <= Q2R (num q) + 1 / 1000000000000). { apply Rmult_le_reg_r with (Q2R (num o)); [exact Op|]. unfold Rdiv at 1. rewrite Rmult_assoc, Rinv_l by lra. lra. }
    apply log_combine with (q := Q2R (num q)) (y := Q2R (num lr)); auto. apply Rabs_le. split; lra.
Qed.
(** The code's value on the Y side is the negative of the adjustment. *)
Theorem hmm_log_y : forall orc l a b c o r, wf c -> dneg c = false -> (num c == 1)%Q -> at_s 12 l -> at_s 12 a -> at_s 12 b -> at_s 12 o -> in_range orc a -> in_range orc b ->
  dy_from_l_drp_hmm orc l a b c o = Ok r ->
  Rabs (Q2R (num r) - Q2R (num l) * Q2R (num o) * log_drop a b) <= (1 + 175 * (Q2R (num l) * Q2R (num o)) + Rabs (log_drop a b)) / 10 ^ 12.
Proof.
  intros orc l a b c o r W N E Al Aa Ab Ao Ra Rb H. replace (10 ^ 12) with 1000000000000 by (cbn [pow]; lra).
  assert (Lnn : 0 <= Q2R (num l)). { rewrite <- RMicromega.Q2R_0. apply Qle_Rle. exact (at_nn _ _ Al). }
  assert (Onn : 0 <= Q2R (num o)). { rewrite <- RMicromega.Q2R_0. apply Qle_Rle. exact (at_nn _ _ Ao). }
  assert (K0 : 0 <= Q2R (num l) * Q2R (num o)) by (apply Rmult_le_pos; assumption).
  destruct (log_parts_y _ _ _ _ _ _ _ W N E H) as [(-> & Z) | (la & lb & lr & q & H1 & H2 & H3 & H5 & H6)].
  - unfold log_drop. assert (R0 : Q2R (num r) = 0). { rewrite (Qeq_eqR _ _ (num_zero r Z)). apply RMicromega.Q2R_0. } rewrite R0. replace (ln (Q2R (num b)) - ln (Q2R (num b))) with 0 by ring. rewrite Rmult_0_r, Rminus_0_r, Rabs_R0. lra.
  - destruct (log_diff orc a b la lb lr Aa Ab Ra Rb H1 H2 H3) as (D1 & D2 & D3).
    assert (An : forall d, at_s 12 d -> nonneg d) by (intros d (A1 & A2 & A3); split; auto).
    destruct (mulq l o q (An _ Al) (An _ Ao) H5) as (Q1 & Q2 & Q3 & Q4). pose proof (at12_wf _ Al) as (Wl & Nl & Sl).
    assert (Sq : dscale q = 12%Z) by congruence.
    pose proof (mul_near q lr r (proj1 Q1) D1 Sq H6) as M. rewrite Sl in Q4. apply Qle_Rle in Q3. apply Qlt_Rlt in Q4. rewrite Q2R_mult in Q3, Q4. rewrite Q2R_plus, ulp12_r in Q4.
    assert (Qnn : 0 <= Q2R (num q)). { rewrite <- RMicromega.Q2R_0. apply Qle_Rle. apply nonneg_num. exact Q1. }
    apply log_combine with (q := Q2R (num q)) (y := Q2R (num lr)); auto. apply Rabs_le. split; lra.
Qed.
(** So a swap step paid in X towards the oracle completes at C = 1 only if it hardly moves the price. *)
Theorem log_step_x : forall orc p srp goal liq dx ro w, swap_within_x orc p srp goal liq dx ro = Ok w -> wf (hmm_c p) -> dneg (hmm_c p) = false -> (num (hmm_c p) == 1)%Q ->
  at_s 12 srp -> at_s 12 liq -> at_s 12 ro -> at_s 12 (w_rp w) -> (0 < num ro)%Q -> (num ro < num srp)%Q -> (1 <= num liq * num ro)%Q ->
  in_range orc srp -> in_range orc ro -> in_range orc (w_rp w) -> log_drop srp ro <= 2 / 10 ^ 10 \/ log_drop srp (w_rp w) <= 2 / 10 ^ 10.
Proof.
  intros orc p srp goal liq dx ro w H Wc Nc C1 As Al Ao Aw O0 OS LO Rs Ro Rw.
  destruct (pos_dec ro (proj1 Ao) O0) as (_ & Zo).
  assert (Zc : dval (hmm_c p) <> 0%Z). { intros Z. rewrite (num_zero _ Z) in C1. discriminate. }
  destruct (within_x_adjusts _ _ _ _ _ _ _ _ H Zc Zo (proj1 (gte_false _ _ Ao As OS))) as (new & dy & D & P & Cs).
  assert (G : forall b, at_s 12 b -> in_range orc b -> dy_from_l_drp_hmm orc liq srp b (hmm_c p) ro = Ok dy -> log_drop srp b <= 2 / 10 ^ 10).
  { intros b Ab Rb Hb. pose proof (hmm_log_y _ _ _ _ _ _ _ Wc Nc C1 Al As Ab Ao Rs Rb Hb) as K. replace (10 ^ 12) with 1000000000000 in K by (cbn [pow]; lra). replace (10 ^ 10) with 10000000000 by (cbn [pow]; lra).
    assert (Dn : Q2R (num dy) <= 0).
    { rewrite <- RMicromega.Q2R_0. apply Qle_Rle. apply Qnot_lt_le. intros F. assert (Wd : wf dy). { apply (dy_hmm_wf _ _ _ _ _ _ _ Hb); auto; apply at12_wf; assumption. } destruct (pos_dec dy Wd F) as (Nd & Zd). unfold is_positive, is_zero in P. rewrite Nd in P. apply Z.eqb_neq in Zd. rewrite Zd in P. discriminate. }
    apply Qle_Rle in LO. rewrite q2r_1, Q2R_mult in LO. set (k := Q2R (num liq) * Q2R (num ro)) in *. set (dl := log_drop srp b) in *. set (y := Q2R (num dy)) in *. clearbody k dl y.
    destruct (Rle_lt_dec dl 0) as [Ng | Ps]; [lra|]. rewrite (Rabs_right dl) in K by lra.
    assert (K2 : - (y - k * dl) <= (1 + 175 * k + dl) / 1000000000000). { eapply Rle_trans; [|exact K]. rewrite <- Rabs_Ropp. apply Rle_abs. }
    assert (K3 : k * dl <= (1 + 175 * k + dl) / 1000000000000) by lra. nra. }
  destruct Cs as [-> | (-> & _)]; [left | right]; apply G; assumption.
Qed.
