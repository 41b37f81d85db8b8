(** Deposits and withdrawals from the liquidity provider's side. *)
From Coq Require Import ZArith QArith Qminmax List Bool Lia Lqa String Sorted.
From Verif Require Import Base BaseLemmas DecimalModel DecimalSpec DecimalProofs PowProofs WfProofs MathModel MathProofs TickProofs TickLoop PoolModel PoolWf SwapLoop SwapProofs LpProofs PoolInv PoolNonneg PoolLp PoolRange PoolFees ChainLemmas PoolGain PoolScale SwapAmounts SwapCover SwapWorth LpWorth SwapFair.
Import ListNotations.
Open Scope Z_scope.

(** ** Amounts *)
Theorem deposit_fair : forall orc p user x y rpa rpb p' o, reachable orc p -> wf x -> wf y -> wf rpa -> wf rpb -> deposit p user x y rpa rpb = Ok (p', o) ->
  ((num (rx p') - num (rx p)) * (1 - ulp12) <= owed_x p' - owed_x p /\ num (ry p') - num (ry p) <= owed_y p' - owed_y p)%Q.
Proof.
  intros orc p user x y rpa rpb p' o R Wx Wy Wa Wb H. pose proof (reachable_nn _ _ R) as N. pose proof (proj1 N) as W. destruct (reachable_12 _ _ R) as (T1 & T2 & _).
  destruct (deposit_wf _ _ _ _ _ _ _ _ H W Wx Wy Wa Wb) as [_ (V1 & V2 & V3 & V4 & V5 & V6 & V7 & V8 & V9)].
  destruct (deposit_inv _ _ _ _ _ _ _ _ H) as (lo & up & a & b & p1 & nx & ny & nxf & nxa & nyf & nya & D1 & D2 & D3 & D4 & D5 & D6 & D7 & D8 & _ & D10 & _ & D12 & _ & _ & D18 & D19 & _ & _ & _ & _ & _ & _ & ->).
  pose proof (range_ok _ _ _ _ _ (proj1 W) Wa Wb D1 D2 D3) as RG.
  apply set_position_inv in D12. destruct (set_pos_same _ _ _ _ _ _ _ D12) as (E0 & _ & E1 & _ & E2 & E3 & _).
  destruct (range_prices _ _ _ _ _ _ _ _ R RG D4 D5) as (P1 & P2 & P3 & P4 & P5 & P6 & P7 & P8 & P9 & P10 & P11 & P12).
  pose proof (x_from_scale _ _ _ _ _ D8) as [Sx _]. pose proof (y_from_scale _ _ _ _ _ D10) as [Sy _].
  pose proof (add_m _ _ _ D18) as (_ & _ & M3). rewrite E2 in M3.
  assert (Sl : dscale (io_liq o) = 12) by congruence.
  destruct (unit_worth _ _ _ _ _ _ _ _ _ R RG D4 D5 V1 Sl D7) as (_ & U2 & _ & U4).
  assert (X : mant (io_x o) = amount_x (dval (glbl_rp p)) (dval a) (dval b) (mant (io_liq o))) by (eapply amt_x; eauto; lia).
  assert (Y : mant (io_y o) = amount_y (dval (glbl_rp p)) (dval a) (dval b) (mant (io_liq o))) by (eapply amt_y; eauto; lia).
  rewrite <- X in U2. rewrite <- Y in U4. apply add_q in D18, D19.
  assert (Qx : (num (io_x o) == vq (mant (io_x o)))%Q) by (rewrite (num12 (io_x o)) by congruence; reflexivity). assert (Qy : (num (io_y o) == vq (mant (io_y o)))%Q) by (rewrite (num12 (io_y o)) by congruence; reflexivity).
  destruct D12 as (nfx & nfy & nhx & nhy & pos' & base & ofx & ofy & ohx & ohy & m1 & m2 & L & _ & _ & _ & _ & PU & _ & _ & _ & _ & EP).
  assert (Pp : positions p1 = pos') by (rewrite EP; auto).
  unfold owed_x, owed_y, glbl_rp in *. cbn [positions gs with_funds rx ry] in *. rewrite E1, Pp. rewrite !(pos_upd_sum _ _ _ _ _ _ _ _ PU). cbn [kw]. rewrite D18, D19, E2, E3. rewrite <- Qx in U2. rewrite <- Qy in U4. split; lra.
Qed.
Theorem withdraw_fair : forall orc p user l rpa rpb p' o, reachable orc p -> wf l -> wf rpa -> wf rpb -> withdraw p user l rpa rpb = Ok (p', o) ->
  ((owed_x p - owed_x p') * (1 - ulp12) <= num (rx p) - num (rx p') + (3#1) * ulp12 /\ (owed_y p - owed_y p') * (1 - ulp12) <= num (ry p) - num (ry p') + (2#1) * ulp12)%Q.
Proof.
  intros orc p user l rpa rpb p' o R Wl Wa Wb H. pose proof (reachable_nn _ _ R) as N. pose proof (proj1 N) as W. destruct (reachable_12 _ _ R) as (T1 & T2 & _).
  destruct (withdraw_wf _ _ _ _ _ _ _ H W Wl Wa Wb) as [_ (V1 & V2 & V3 & V4 & V5 & V6 & V7 & V8 & V9)].
  destruct (withdraw_inv _ _ _ _ _ _ _ H) as (lo & up & a & b & p1 & x0 & y0 & nx & ny & nxf & nxa & nyf & nya & D1 & D2 & D3 & D4 & D5 & D6 & D7 & D8 & D9 & D10 & D11 & D12 & _ & _ & _ & D18 & D19 & _ & _ & _ & _ & ->).
  pose proof (range_ok _ _ _ _ _ (proj1 W) Wa Wb D1 D2 D3) as RG.
  apply set_position_inv in D8. destruct (set_pos_same _ _ _ _ _ _ _ D8) as (E0 & _ & E1 & _ & E2 & E3 & _).
  destruct (range_prices _ _ _ _ _ _ _ _ R RG D4 D5) as (P1 & P2 & P3 & P4 & P5 & P6 & P7 & P8 & P9 & P10 & P11 & P12).
  rewrite E1 in D9, D10.
  pose proof (x_from_scale _ _ _ _ _ D9) as [Sx _]. pose proof (y_from_scale _ _ _ _ _ D10) as [Sy _].
  pose proof (sub_m _ _ _ D18) as (_ & _ & M3). rewrite E2 in M3.
  assert (Sz : forall c d e, d_mul c d = Ok e -> dscale e = dscale c) by (intros c d e E; unfold d_mul in E; bd E v I1; bd E r I2; bd E u I3; injection E as <-; auto).
  pose proof (Sz _ _ _ D11) as S1. pose proof (Sz _ _ _ D12) as S2. assert (Sl : dscale l = 12) by congruence.
  destruct (unit_worth _ _ _ _ _ _ _ _ _ R RG D4 D5 Wl Sl D6) as (U1 & _ & U3 & _).
  assert (X : mant x0 = amount_x (dval (glbl_rp p)) (dval a) (dval b) (mant l)) by (eapply amt_x; eauto; lia).
  assert (Y : mant y0 = amount_y (dval (glbl_rp p)) (dval a) (dval b) (mant l)) by (eapply amt_y; eauto; lia).
  rewrite <- X in U1. rewrite <- Y in U3. 
  assert (Nl' : 0 <= mant l) by (apply is_neg_f; auto; apply wf_nn; auto).
  destruct (amount_nn (dval (glbl_rp p)) (dval a) (dval b) (mant l) Nl' P7 ltac:(lia)) as [X0 Y0]. rewrite <- X in X0. rewrite <- Y in Y0.
  assert (Wx0 : wf x0) by (eapply x_from_wf; [exact D9 | | | |]; auto; [apply P1 | apply P5 | apply P8]). assert (Wy0 : wf y0) by (eapply y_from_wf; [exact D10 | | | |]; auto; [apply P1 | apply P5 | apply P8]).
  assert (Qx : (num x0 == vq (mant x0))%Q) by (rewrite (num12 x0) by congruence; reflexivity). assert (Qy : (num y0 == vq (mant y0))%Q) by (rewrite (num12 y0) by congruence; reflexivity).
  assert (Nx0 : (0 <= num x0)%Q) by (apply num_sign; auto). assert (Ny0 : (0 <= num y0)%Q) by (apply num_sign; auto).
  destruct (cut_q x0 (io_x o) Wx0 ltac:(congruence) Nx0 D11) as (_ & Ix & _). destruct (cut_q y0 (io_y o) Wy0 ltac:(congruence) Ny0 D12) as (_ & Iy & _).
  rewrite <- Qx in U1. rewrite <- Qy in U3. assert (U : (0 < 1 - ulp12)%Q) by reflexivity. assert (U' : (0 < ulp12)%Q) by reflexivity.
  apply (Qmult_le_r _ _ _ U) in U1. apply (Qmult_le_r _ _ _ U) in U3. assert (UU : (0 <= ulp12 * ulp12)%Q) by discriminate.
  apply sub_q in D18, D19. assert (Eg : (num (d_neg l) == - num l)%Q) by (apply num_neg; auto).
  destruct D8 as (nfx & nfy & nhx & nhy & pos' & base & ofx & ofy & ohx & ohy & m1 & m2 & L & _ & _ & _ & _ & PU & _ & _ & _ & _ & EP).
  assert (Pp : positions p1 = pos') by (rewrite EP; auto).
  unfold owed_x, owed_y, glbl_rp in *. cbn [positions gs with_funds rx ry] in *. rewrite E1, Pp. rewrite !(pos_upd_sum _ _ _ _ _ _ _ _ PU). cbn [kw]. rewrite D18, D19, E2, E3, Eg. split; lra.
Qed.

(** ** Liquidity granted *)
Section Liq.
Local Open Scope Q_scope.
Lemma liq_x_lo : forall x c b l, liq_x_only x c b = Ok l -> wf x -> wf c -> wf b -> dscale l = 12%Z -> 0 <= num x -> 1 <= num c ->
  num c < num b /\ num x - (2#1) * ulp12 <= (/ num c - / num b) * num l.
Proof.
  intros x c b l H Wx Wc Wb Sl Hx Hc. unfold liq_x_only in H. bd H w E1. destruct (is_negative w || is_zero w)%bool eqn:G; [discriminate |]. bd H m E2. bd H n E3.
  assert (Sz : forall c d e, d_mul c d = Ok e -> dscale e = dscale c) by (intros c0 d e E; unfold d_mul in E; bd E v I1; bd E r I2; bd E u I3; injection E as <-; auto).
  assert (Ww : wf w) by (eapply sub_wf; eauto). apply orb_false_iff in G. destruct G as [G1 G2]. apply is_neg_f in G1; [| apply wf_nn; auto]. apply is_zero_f in G2.
  assert (Wp : 0 < num w). { assert (0 <= num w) by (apply num_sign; auto). assert (~ num w == 0) by (intros Z0; apply num_sign in Z0; auto). lra. }
  apply sub_q in E1. pose proof (Sz _ _ _ E2) as S2. pose proof (Sz _ _ _ E3) as S3.
  assert (Wm : wf m) by (pose proof (mul_spec _ _ Wx Wc) as Z0; rewrite E2 in Z0; apply Z0). assert (Wn : wf n) by (pose proof (mul_spec _ _ Wm Wb) as Z0; rewrite E3 in Z0; apply Z0).
  pose proof (div_spec _ _ Wn Ww) as Z0. rewrite H in Z0. destruct Z0 as (_ & _ & S4 & _). assert (Sx : dscale x = 12%Z) by congruence.
  destruct (mul_t _ _ _ E2 Wx Wc Sx) as (_ & Sm & Tm). destruct (mul_t _ _ _ E3 Wm Wb Sm) as (_ & Sn & Tn). destruct (div_t _ _ _ H Wn Ww Sn) as (_ & _ & _ & Td).
  assert (B : num c < num b) by lra. split; auto. pose proof u_pos as U.
  apply trunc_pos in Tm; [| apply Qmult_le_0_compat; lra]. destruct Tm as (M1 & _ & M3). apply trunc_pos in Tn; [| apply Qmult_le_0_compat; lra]. destruct Tn as (N1 & _ & N3).
  apply trunc_pos in Td; [| apply Qle_shift_div_l; lra]. destruct Td as (D1 & _ & D3). rewrite ulp_12 in *. apply q_lo in D3; auto.
  assert (C1 : num x * num c * num b <= (num m + ulp12) * num b) by (apply Qmult_le_compat_r; lra).
  assert (P : 0 < num c * num b) by (apply Qmult_lt_0_compat; lra).
  assert (E : (/ num c - / num b) * num l == (num l * (num b - num c)) / (num c * num b)) by (field; split; lra). rewrite E. apply Qle_shift_div_l; auto.
  assert (C2 : ulp12 * num b <= ulp12 * (num c * num b)). { apply mul_mono; [lra |]. rewrite (Qmult_comm (num c)). apply le_mul; lra. }
  assert (C3 : ulp12 * 1 <= ulp12 * num c) by (apply mul_mono; lra).
  rewrite E1 in D3. lra.
Qed.
Lemma liq_y_lo : forall y a c l, liq_y_only y a c = Ok l -> wf y -> wf a -> wf c -> dscale l = 12%Z -> 0 <= num y ->
  num a < num c /\ num y - ulp12 * (num c - num a) <= (num c - num a) * num l.
Proof.
  intros y a c l H Wy Wa Wc Sl Hy. unfold liq_y_only in H. bd H w E1. destruct (is_negative w || is_zero w)%bool eqn:G; [discriminate |].
  assert (Ww : wf w) by (eapply sub_wf; eauto). apply orb_false_iff in G. destruct G as [G1 G2]. apply is_neg_f in G1; [| apply wf_nn; auto]. apply is_zero_f in G2.
  assert (Wp : 0 < num w). { assert (0 <= num w) by (apply num_sign; auto). assert (~ num w == 0) by (intros Z0; apply num_sign in Z0; auto). lra. }
  apply sub_q in E1. pose proof (div_spec _ _ Wy Ww) as Z0. rewrite H in Z0. destruct Z0 as (_ & _ & S4 & _). assert (Sy : dscale y = 12%Z) by congruence.
  destruct (div_t _ _ _ H Wy Ww Sy) as (_ & _ & _ & Td). split; [lra |].
  apply trunc_pos in Td; [| apply Qle_shift_div_l; lra]. destruct Td as (D1 & _ & D3). rewrite ulp_12 in *. apply q_lo in D3; auto. rewrite E1 in D3. lra.
Qed.
End Liq.
(** A deposit takes (all but a few units in the last place of) at least one of the two amounts offered. *)
Theorem deposit_uses_one : forall orc p user x y rpa rpb p' o, reachable orc p -> wf x -> wf y -> wf rpa -> wf rpb -> deposit p user x y rpa rpb = Ok (p', o) ->
  (num x - (4#1) * ulp12 <= num (io_x o) \/ num y - ulp12 * (num (glbl_rp p) + 1) <= num (io_y o))%Q.
Proof.
  intros orc p user x y rpa rpb p' o R Wx Wy Wa Wb H. pose proof (reachable_nn _ _ R) as N. pose proof (proj1 N) as W. destruct (reachable_12 _ _ R) as (T1 & T2 & _).
  destruct (deposit_wf _ _ _ _ _ _ _ _ H W Wx Wy Wa Wb) as [_ (V1 & V2 & V3 & V4 & V5 & V6 & V7 & V8 & V9)].
  destruct (deposit_inv _ _ _ _ _ _ _ _ H) as (lo & up & a & b & p1 & nx & ny & nxf & nxa & nyf & nya & D1 & D2 & D3 & D4 & D5 & D6 & D7 & D8 & _ & D10 & _ & D12 & _ & _ & D18 & D19 & _ & _ & _ & _ & Nx & Ny & ->).
  pose proof (range_ok _ _ _ _ _ (proj1 W) Wa Wb D1 D2 D3) as RG.
  apply set_position_inv in D12. destruct (set_pos_same _ _ _ _ _ _ _ D12) as (E0 & _ & E1 & _ & E2 & E3 & _).
  destruct (range_prices _ _ _ _ _ _ _ _ R RG D4 D5) as (P1 & P2 & P3 & P4 & P5 & P6 & P7 & P8 & P9 & P10 & P11 & P12).
  pose proof (x_from_scale _ _ _ _ _ D8) as [Sx _]. pose proof (y_from_scale _ _ _ _ _ D10) as [Sy _].
  pose proof (add_m _ _ _ D18) as (_ & _ & M3). rewrite E2 in M3.
  assert (Sl : dscale (io_liq o) = 12) by congruence.
  destruct (unit_worth _ _ _ _ _ _ _ _ _ R RG D4 D5 V1 Sl D7) as (U1 & _ & U3 & _).
  assert (X : mant (io_x o) = amount_x (dval (glbl_rp p)) (dval a) (dval b) (mant (io_liq o))) by (eapply amt_x; eauto; lia).
  assert (Y : mant (io_y o) = amount_y (dval (glbl_rp p)) (dval a) (dval b) (mant (io_liq o))) by (eapply amt_y; eauto; lia).
  rewrite <- X in U1. rewrite <- Y in U3.
  assert (Qx : (num (io_x o) == vq (mant (io_x o)))%Q) by (rewrite (num12 (io_x o)) by congruence; reflexivity). assert (Qy : (num (io_y o) == vq (mant (io_y o)))%Q) by (rewrite (num12 (io_y o)) by congruence; reflexivity).
  rewrite <- Qx in U1. rewrite <- Qy in U3. clear X Y Qx Qy D12 D18 D19 D8 D10.
  rewrite (price_q_ok _ _ D4), (price_q_ok _ _ D5) in U1, U3.
  assert (Hx : (0 <= num x)%Q) by (apply notneg_q; auto). assert (Hy : (0 <= num y)%Q) by (apply notneg_q; auto).
  destruct (tick_price_ok _ _ D4) as [A1 _]. pose proof (rp_one _ N) as R1. pose proof ulp_pos as U.
  set (r := glbl_rp p) in *. assert (Wr : wf r) by apply P1. assert (Wa' : wf a) by apply P5. assert (Wb' : wf b) by apply P8.
  assert (AB : (num a <= num b)%Q) by (apply num_le; auto; [congruence |]; destruct P5 as [_ F1]; destruct P8 as [_ F2]; unfold mant; rewrite F1, F2; lia).
  unfold liq_from_x_y_rp_rng in D6. bd D6 c1 K1. destruct (lteq _ _ _ P1 P5 K1) as [_ L1]. destruct c1.
  - left. destruct (liq_x_lo _ _ _ _ D6 Wx Wa' Wb' Sl Hx A1) as [_ B]. unfold unit_x in U1. rewrite clamp_lo in U1; auto; [lra |]. apply L1; auto.
  - assert (G : (num a < num r)%Q). { destruct (Qlt_le_dec (num a) (num r)) as [| C]; auto. apply L1 in C. discriminate. }
    bd D6 c2 K2. destruct (lt_m _ _ _ (wf_nn _ Wr) (wf_nn _ Wb') K2) as (_ & L2 & L3 & _). destruct c2.
    + assert (G2 : (num r <= num b)%Q) by (apply num_le; auto; congruence). bd D6 lx K3. bd D6 ly K4. unfold d_min in D6. bd D6 c K5. injection D6 as D6. destruct c.
      * left. rewrite D6 in K3. destruct (liq_x_lo _ _ _ _ K3 Wx Wr Wb' Sl Hx R1) as [_ B]. unfold unit_x in U1. rewrite clamp_in in U1 by lra. lra.
      * right. rewrite D6 in K4. destruct (liq_y_lo _ _ _ _ K4 Wy Wa' Wr Sl Hy) as [_ B]. unfold unit_y in U3. rewrite clamp_in in U3 by lra.
        assert (0 <= ulp12 * num a)%Q by (apply Qmult_le_0_compat; lra). lra.
    + right. assert (G2 : (num b <= num r)%Q) by (apply num_le; auto; congruence). destruct (liq_y_lo _ _ _ _ D6 Wy Wa' Wb' Sl Hy) as [_ B]. unfold unit_y in U3. rewrite clamp_hi in U3; auto.
      assert (0 <= ulp12 * num a)%Q by (apply Qmult_le_0_compat; lra). assert (ulp12 * num b <= ulp12 * num r)%Q by (apply mul_mono; lra). lra.
Qed.
