(** Deposits, withdrawals and whole histories against the exact curve. *)
From Coq Require Import ZArith QArith Qminmax List Bool Lia Lqa String Sorted.
From Verif Require Import Base BaseLemmas DecimalModel DecimalSpec DecimalProofs PowProofs WfProofs MathModel MathProofs TickProofs TickLoop PoolModel PoolWf SwapLoop SwapProofs LpProofs PoolInv PoolNonneg PoolLp PoolRange PoolFees ChainLemmas PoolGain PoolScale SwapAmounts SwapCover SwapWorth.
Import ListNotations.
Open Scope Z_scope.

(** ** Amounts of one position *)
Lemma worth_z : forall r a b l, SC <= a -> a <= b -> 0 <= l -> let c := cl r a b in
  l * (b - c) * SC <= (amount_x r a b l + 2) * (c * b) /\ amount_x r a b l * (SC - 1) * (c * b) <= l * (b - c) * SC * SC /\
  l * (c - a) <= (amount_y r a b l + 1) * SC /\ amount_y r a b l * SC <= l * (c - a).
Proof.
  intros r a b l Ha Hb Hl c. pose proof SCpos as S. pose proof (cl_bounds r a b Hb) as Bc. rewrite amount_x_cl, amount_y_cl. fold c in Bc |- *. set (N := l * (b - c) / SC). set (q := c * b / SC).
  assert (Pq : SC <= q) by (apply Z.div_le_lower_bound; nia).
  pose proof (Z.div_mod (l * (b - c)) SC ltac:(lia)) as N1. pose proof (Z.mod_pos_bound (l * (b - c)) SC S) as N2. fold N in N1.
  pose proof (Z.div_mod (c * b) SC ltac:(lia)) as Q1. pose proof (Z.mod_pos_bound (c * b) SC S) as Q2. fold q in Q1.
  pose proof (Z.div_mod (N * SC) q ltac:(lia)) as A1. pose proof (Z.mod_pos_bound (N * SC) q ltac:(lia)) as A2. set (A := N * SC / q) in *.
  pose proof (Z.div_mod (l * (c - a)) SC ltac:(lia)) as Y1. pose proof (Z.mod_pos_bound (l * (c - a)) SC S) as Y2. set (Y := l * (c - a) / SC) in *.
  assert (N0 : 0 <= N) by (apply Z.div_pos; nia). assert (A0 : 0 <= A) by (apply Z.div_pos; nia).
  assert (CB : SC * SC <= c * b) by nia. set (P := c * b) in *. set (E := l * (b - c)) in *. set (F := l * (c - a)) in *. clearbody N q P E F A Y. csplit; [| | nia | nia].
  - assert (E <= (N + 1) * SC) by nia. assert (N * SC <= (A + 1) * q) by nia. assert (E * SC <= (N + 1) * SC * SC) by nia. assert (N * SC * SC <= (A + 1) * (q * SC)) by nia. assert ((A + 1) * (q * SC) <= (A + 1) * P) by nia. nia.
  - assert (A * q <= E) by nia. assert (P <= (q + 1) * SC) by nia. assert ((SC - 1) * P <= q * SC * SC) by nia.
    assert (A * ((SC - 1) * P) <= A * (q * SC * SC)) by (apply Z.mul_le_mono_nonneg_l; auto). assert (A * q * (SC * SC) <= E * (SC * SC)) by (apply Z.mul_le_mono_nonneg_r; nia). nia.
Qed.
Lemma ulp_sc : (ulp12 * inject_Z SC == 1)%Q. Proof. reflexivity. Qed.
Section WorthQ.
Local Open Scope Q_scope.
Lemma worth_arith : forall u qc qb ql qa qx qy, 0 < u -> 0 < qc -> 0 < qb ->
  ql * (qb - qc) * / u <= (qx + 2) * (qc * qb) -> qx * (/ u - 1) * (qc * qb) <= ql * (qb - qc) * / u * / u -> ql * (qc - qa) <= (qy + 1) * / u -> qy * / u <= ql * (qc - qa) ->
  ql * u * (/ (qc * u) - / (qb * u)) <= qx * u + (2#1) * u /\ qx * u * (1 - u) <= ql * u * (/ (qc * u) - / (qb * u)) /\
  ql * u * (qc * u - qa * u) <= qy * u + u /\ qy * u <= ql * u * (qc * u - qa * u).
Proof.
  intros u qc qb ql qa qx qy U C0 B0 Z1 Z2 Z3 Z4.
  assert (P : 0 < qc * qb) by (apply Qmult_lt_0_compat; auto).
  assert (E : ql * u * (/ (qc * u) - / (qb * u)) == (ql * (qb - qc)) / (qc * qb)) by (field; repeat split; lra).
  apply (Qmult_le_r _ _ u U) in Z1. apply (Qmult_le_r _ _ u U) in Z2. apply (Qmult_le_r _ _ u U) in Z2. apply (Qmult_le_r _ _ u U) in Z3. apply (Qmult_le_r _ _ u U) in Z3. apply (Qmult_le_r _ _ u U) in Z4. apply (Qmult_le_r _ _ u U) in Z4.
  assert (K1 : ql * (qb - qc) * / u * u == ql * (qb - qc)) by (field; lra). rewrite K1 in Z1.
  assert (K2 : ql * (qb - qc) * / u * / u * u * u == ql * (qb - qc)) by (field; lra). rewrite K2 in Z2.
  assert (K3 : qx * (/ u - 1) * (qc * qb) * u * u == qx * u * (1 - u) * (qc * qb)) by (field; lra). rewrite K3 in Z2.
  assert (K4 : (qy + 1) * / u * u * u == qy * u + u) by (field; lra). rewrite K4 in Z3.
  assert (K5 : qy * / u * u * u == qy * u) by (field; lra). rewrite K5 in Z4.
  split; [rewrite E; apply Qle_shift_div_r; auto; lra |]. split; [rewrite E; apply Qle_shift_div_l; auto |]. split; lra.
Qed.
End WorthQ.
Definition vq (z : Z) : Q := (inject_Z z * ulp12)%Q.
Lemma inj_minus : forall a b, (inject_Z (a - b) == inject_Z a - inject_Z b)%Q.
Proof. intros. unfold Z.sub, Qminus. rewrite inject_Z_plus, inject_Z_opp. reflexivity. Qed.
Lemma worth_q : forall r a b l, SC <= a -> a <= b -> 0 <= l ->
  (vq l * (/ vq (cl r a b) - / vq b) <= vq (amount_x r a b l) + (2#1) * ulp12 /\ vq (amount_x r a b l) * (1 - ulp12) <= vq l * (/ vq (cl r a b) - / vq b) /\
   vq l * (vq (cl r a b) - vq a) <= vq (amount_y r a b l) + ulp12 /\ vq (amount_y r a b l) <= vq l * (vq (cl r a b) - vq a))%Q.
Proof.
  intros r a b l Ha Hb Hl. destruct (worth_z r a b l Ha Hb Hl) as (Z1 & Z2 & Z3 & Z4). pose proof (cl_bounds r a b Hb) as Bc. pose proof SCpos as S.
  set (c := cl r a b) in *. set (X := amount_x r a b l) in *. set (Y := amount_y r a b l) in *. rewrite Zle_Qle in Z1, Z2, Z3, Z4.
  assert (C0 : (0 < inject_Z c)%Q) by (change 0%Q with (inject_Z 0); rewrite <- Zlt_Qlt; lia). assert (B0 : (0 < inject_Z b)%Q) by (change 0%Q with (inject_Z 0); rewrite <- Zlt_Qlt; lia).
  assert (ES : (inject_Z SC == / ulp12)%Q) by reflexivity.
  unfold vq. apply worth_arith; auto; try reflexivity.
  - rewrite !inject_Z_mult, inj_minus, inject_Z_plus, ES in Z1. exact Z1.
  - rewrite !inject_Z_mult, !inj_minus, ES in Z2. exact Z2.
  - rewrite !inject_Z_mult, inj_minus, inject_Z_plus, ES in Z3. exact Z3.
  - rewrite !inject_Z_mult, inj_minus, ES in Z4. exact Z4.
Qed.
Lemma num_vq : forall d, nonneg d -> dscale d = 12 -> (num d == vq (dval d))%Q.
Proof. intros d [W N] S. rewrite (num12 d S). unfold vq, mant. rewrite N. reflexivity. Qed.
Lemma vq_le : forall a b, a <= b -> (vq a <= vq b)%Q.
Proof. intros a b H. unfold vq. apply Qmult_le_compat_r; [rewrite <- Zle_Qle; auto | discriminate]. Qed.
Lemma clamp_vq : forall r a b, a <= b -> (clampq (vq r) (vq a) (vq b) == vq (cl r a b))%Q.
Proof.
  intros r a b H. unfold cl. destruct (Z.le_gt_cases r a) as [L | L].
  - rewrite clamp_lo by (apply vq_le; lia). rewrite Z.min_l, Z.max_r by lia. reflexivity.
  - destruct (Z.le_gt_cases r b) as [L' | L'].
    + rewrite clamp_in by (apply vq_le; lia). rewrite Z.min_l, Z.max_l by lia. reflexivity.
    + rewrite clamp_hi by (apply vq_le; lia). rewrite Z.min_r, Z.max_l by lia. reflexivity.
Qed.
Lemma clampq_comp : forall r r' a a' b b', (r == r' -> a == a' -> b == b' -> clampq r a b == clampq r' a' b')%Q.
Proof. intros r r' a a' b b' H1 H2 H3. unfold clampq. rewrite H1, H2, H3. reflexivity. Qed.
Lemma unit_worth : forall orc p rpa rpb lo up a b l, reachable orc p -> range_of p rpa rpb lo up -> tick_to_rp lo = Ok a -> tick_to_rp up = Ok b -> wf l -> dscale l = 12 -> is_negative l = false ->
  let r := num (glbl_rp p) in let X := vq (amount_x (dval (glbl_rp p)) (dval a) (dval b) (mant l)) in let Y := vq (amount_y (dval (glbl_rp p)) (dval a) (dval b) (mant l)) in
  (unit_x r (price_q lo) (price_q up) * num l <= X + (2#1) * ulp12 /\ X * (1 - ulp12) <= unit_x r (price_q lo) (price_q up) * num l /\
   unit_y r (price_q lo) (price_q up) * num l <= Y + ulp12 /\ Y <= unit_y r (price_q lo) (price_q up) * num l)%Q.
Proof.
  intros orc p rpa rpb lo up a b l R RG Ea Eb Wl Sl Nl r X Y.
  destruct (range_prices _ _ _ _ _ _ _ _ R RG Ea Eb) as (P1 & P2 & P3 & P4 & P5 & P6 & P7 & P8 & P9 & P10 & P11 & P12).
  assert (M : 0 <= mant l) by (apply is_neg_f; auto; apply wf_nn; auto).
  destruct (worth_q (dval (glbl_rp p)) (dval a) (dval b) (mant l) P7 ltac:(lia) M) as (W1 & W2 & W3 & W4).
  assert (El : (num l == vq (mant l))%Q) by (rewrite (num12 l Sl); reflexivity).
  assert (Ep : (price_q lo == vq (dval a))%Q) by (rewrite (price_q_ok _ _ Ea); apply num_vq; auto). assert (Eq : (price_q up == vq (dval b))%Q) by (rewrite (price_q_ok _ _ Eb); apply num_vq; auto).
  assert (Er : (r == vq (dval (glbl_rp p)))%Q) by (apply num_vq; auto).
  assert (Ec : (clampq r (price_q lo) (price_q up) == vq (cl (dval (glbl_rp p)) (dval a) (dval b)))%Q) by (rewrite (clampq_comp _ _ _ _ _ _ Er Ep Eq); apply clamp_vq; lia).
  unfold unit_x, unit_y. rewrite Ec, Eq, Ep, El. rewrite !(Qmult_comm _ (vq (mant l))). auto.
Qed.

(** ** One deposit, one withdrawal *)
Theorem deposit_cover : forall orc p user x y rpa rpb p' o, reachable orc p -> wf x -> wf y -> wf rpa -> wf rpb -> deposit p user x y rpa rpb = Ok (p', o) ->
  (owed_x p' - owed_x p <= num (rx p') - num (rx p) + (2#1) * ulp12 /\ owed_y p' - owed_y p <= num (ry p') - num (ry p) + ulp12)%Q.
Proof.
  intros orc p user x y rpa rpb p' o R Wx Wy Wa Wb H. pose proof (reachable_nn _ _ R) as N. pose proof (proj1 N) as W. destruct (reachable_12 _ _ R) as (T1 & T2 & _).
  destruct (deposit_wf _ _ _ _ _ _ _ _ H W Wx Wy Wa Wb) as [_ (V1 & V2 & V3 & V4 & V5 & V6 & V7 & V8 & V9)].
  destruct (deposit_inv _ _ _ _ _ _ _ _ H) as (lo & up & a & b & p1 & nx & ny & nxf & nxa & nyf & nya & D1 & D2 & D3 & D4 & D5 & D6 & D7 & D8 & _ & D10 & _ & D12 & _ & _ & D18 & D19 & _ & _ & _ & _ & _ & _ & ->).
  pose proof (range_ok _ _ _ _ _ (proj1 W) Wa Wb D1 D2 D3) as RG.
  apply set_position_inv in D12. destruct (set_pos_same _ _ _ _ _ _ _ D12) as (E0 & _ & E1 & _ & E2 & E3 & _).
  destruct (range_prices _ _ _ _ _ _ _ _ R RG D4 D5) as (P1 & P2 & P3 & P4 & P5 & P6 & P7 & P8 & P9 & P10 & P11 & P12).
  pose proof (x_from_scale _ _ _ _ _ D8) as [Sx _]. pose proof (y_from_scale _ _ _ _ _ D10) as [Sy _].
  pose proof (add_m _ _ _ D18) as (_ & _ & M3). rewrite E2 in M3.
  assert (Sl : dscale (io_liq o) = 12) by congruence.
  destruct (unit_worth _ _ _ _ _ _ _ _ _ R RG D4 D5 V1 Sl D7) as (U1 & _ & U3 & _).
  assert (X : mant (io_x o) = amount_x (dval (glbl_rp p)) (dval a) (dval b) (mant (io_liq o))) by (eapply amt_x; eauto; lia).
  assert (Y : mant (io_y o) = amount_y (dval (glbl_rp p)) (dval a) (dval b) (mant (io_liq o))) by (eapply amt_y; eauto; lia).
  rewrite <- X in U1. rewrite <- Y in U3. apply add_q in D18, D19.
  assert (Qx : (num (io_x o) == vq (mant (io_x o)))%Q) by (rewrite (num12 (io_x o)) by congruence; reflexivity). assert (Qy : (num (io_y o) == vq (mant (io_y o)))%Q) by (rewrite (num12 (io_y o)) by congruence; reflexivity).
  destruct D12 as (nfx & nfy & nhx & nhy & pos' & base & ofx & ofy & ohx & ohy & m1 & m2 & L & _ & _ & _ & _ & PU & _ & _ & _ & _ & EP).
  assert (Pp : positions p1 = pos') by (rewrite EP; auto).
  unfold owed_x, owed_y, glbl_rp in *. cbn [positions gs with_funds rx ry] in *. rewrite E1, Pp. rewrite !(pos_upd_sum _ _ _ _ _ _ _ _ PU). cbn [kw]. rewrite D18, D19, E2, E3. split; lra.
Qed.
Theorem withdraw_cover : forall orc p user l rpa rpb p' o, reachable orc p -> wf l -> wf rpa -> wf rpb -> withdraw p user l rpa rpb = Ok (p', o) ->
  (owed_x p' - owed_x p <= num (rx p') - num (rx p) /\ owed_y p' - owed_y p <= num (ry p') - num (ry p))%Q.
Proof.
  intros orc p user l rpa rpb p' o R Wl Wa Wb H. pose proof (reachable_nn _ _ R) as N. pose proof (proj1 N) as W. destruct (reachable_12 _ _ R) as (T1 & T2 & _).
  destruct (withdraw_wf _ _ _ _ _ _ _ H W Wl Wa Wb) as [_ (V1 & V2 & V3 & V4 & V5 & V6 & V7 & V8 & V9)].
  destruct (withdraw_inv _ _ _ _ _ _ _ H) as (lo & up & a & b & p1 & x0 & y0 & nx & ny & nxf & nxa & nyf & nya & D1 & D2 & D3 & D4 & D5 & D6 & D7 & D8 & D9 & D10 & D11 & D12 & _ & _ & _ & D18 & D19 & _ & _ & _ & _ & ->).
  pose proof (range_ok _ _ _ _ _ (proj1 W) Wa Wb D1 D2 D3) as RG.
  apply set_position_inv in D8. destruct (set_pos_same _ _ _ _ _ _ _ D8) as (E0 & _ & E1 & _ & E2 & E3 & _).
  destruct (range_prices _ _ _ _ _ _ _ _ R RG D4 D5) as (P1 & P2 & P3 & P4 & P5 & P6 & P7 & P8 & P9 & P10 & P11 & P12).
  rewrite E1 in D9, D10.
  pose proof (x_from_scale _ _ _ _ _ D9) as [Sx _]. pose proof (y_from_scale _ _ _ _ _ D10) as [Sy _].
  pose proof (sub_m _ _ _ D18) as (_ & _ & M3). rewrite E2 in M3.
  assert (Sz : forall c d e, d_mul c d = Ok e -> dscale e = dscale c) by (intros c d e E; unfold d_mul in E; bd E v I1; bd E r I2; bd E u I3; injection E as <-; auto).
  pose proof (Sz _ _ _ D11) as S1. pose proof (Sz _ _ _ D12) as S2. assert (Sl : dscale l = 12) by congruence.
  destruct (unit_worth _ _ _ _ _ _ _ _ _ R RG D4 D5 Wl Sl D6) as (_ & U2 & _ & U4).
  assert (X : mant x0 = amount_x (dval (glbl_rp p)) (dval a) (dval b) (mant l)) by (eapply amt_x; eauto; lia).
  assert (Y : mant y0 = amount_y (dval (glbl_rp p)) (dval a) (dval b) (mant l)) by (eapply amt_y; eauto; lia).
  rewrite <- X in U2. rewrite <- Y in U4. 
  assert (Nl' : 0 <= mant l) by (apply is_neg_f; auto; apply wf_nn; auto).
  destruct (amount_nn (dval (glbl_rp p)) (dval a) (dval b) (mant l) Nl' P7 ltac:(lia)) as [X0 Y0]. rewrite <- X in X0. rewrite <- Y in Y0.
  assert (Wx0 : wf x0) by (eapply x_from_wf; [exact D9 | | | |]; auto; [apply P1 | apply P5 | apply P8]). assert (Wy0 : wf y0) by (eapply y_from_wf; [exact D10 | | | |]; auto; [apply P1 | apply P5 | apply P8]).
  assert (Qx : (num x0 == vq (mant x0))%Q) by (rewrite (num12 x0) by congruence; reflexivity). assert (Qy : (num y0 == vq (mant y0))%Q) by (rewrite (num12 y0) by congruence; reflexivity).
  assert (Nx0 : (0 <= num x0)%Q) by (apply num_sign; auto). assert (Ny0 : (0 <= num y0)%Q) by (apply num_sign; auto).
  destruct (cut_q x0 (io_x o) Wx0 ltac:(congruence) Nx0 D11) as (Ix & _). destruct (cut_q y0 (io_y o) Wy0 ltac:(congruence) Ny0 D12) as (Iy & _).
  rewrite <- Qx in U2. rewrite <- Qy in U4. assert (Iy' : (num (io_y o) <= num y0)%Q) by (assert (0 <= num y0 * ulp12)%Q by (apply Qmult_le_0_compat; [auto | discriminate]); lra).
  apply sub_q in D18, D19. assert (Eg : (num (d_neg l) == - num l)%Q) by (apply num_neg; auto).
  destruct D8 as (nfx & nfy & nhx & nhy & pos' & base & ofx & ofy & ohx & ohy & m1 & m2 & L & _ & _ & _ & _ & PU & _ & _ & _ & _ & EP).
  assert (Pp : positions p1 = pos') by (rewrite EP; auto).
  unfold owed_x, owed_y, glbl_rp in *. cbn [positions gs with_funds rx ry] in *. rewrite E1, Pp. rewrite !(pos_upd_sum _ _ _ _ _ _ _ _ PU). cbn [kw]. rewrite D18, D19, E2, E3, Eg. split; lra.
Qed.

(** ** Histories *)
(** Everything that can happen to a pool, with the rounding allowances [ex], [ey] (in X and Y) that the steps use up.  Swaps
    must start in a state whose tick and liquidity agree with the price. *)
Inductive history (orc : log2_oracle) : pool -> Q -> Q -> Prop :=
| hs_new : forall rp sp c rate p, wf rp -> wf c -> wf rate -> 0 <= sp -> pool_new rp sp c rate = Ok p -> history orc p 0 0
| hs_deposit : forall p ex ey u x y a b p' o, history orc p ex ey -> wf x -> wf y -> wf a -> wf b -> deposit p u x y a b = Ok (p', o) ->
    history orc p' (ex + (2#1) * ulp12) (ey + ulp12)
| hs_withdraw : forall p ex ey u l a b p' o, history orc p ex ey -> wf l -> wf a -> wf b -> withdraw p u l a b = Ok (p', o) -> history orc p' ex ey
| hs_swap_x : forall p ex ey dx ro p' o, history orc p ex ey -> settled p -> liq_inv p -> wf dx -> wf ro -> execute_swap_from_x orc p dx ro = Ok (p', o) ->
    history orc p' (ex + ulp12 * ((2#1) * qlen (ticks p) + 1 + num (glbl_liq p') + num dx)) ey
| hs_swap_y : forall p ex ey dy ro p' o, history orc p ex ey -> settled p -> liq_inv p -> wf dy -> wf ro -> execute_swap_from_y orc p dy ro = Ok (p', o) ->
    history orc p' (ex + ulp12 * (num (rx p) - num (rx p'))) (ey + ulp12 * qlen (ticks p)).
Lemma history_reachable : forall orc p ex ey, history orc p ex ey -> reachable orc p.
Proof.
  intros orc p ex ey H. induction H as [rp sp c rate p W1 W2 W3 Hs E | p ex ey u x y a b p' o H IH W1 W2 W3 W4 E | p ex ey u l a b p' o H IH W1 W2 W3 E | p ex ey d o p' r H IH S L W1 W2 E | p ex ey d o p' r H IH S L W1 W2 E].
  - exact (r_new orc rp sp c rate p W1 W2 W3 Hs E).
  - apply (r_call orc p (CDeposit u x y a b) p' IH); [cbn; auto | cbn; rewrite E; auto].
  - apply (r_call orc p (CWithdraw u l a b) p' IH); [cbn; auto | cbn; rewrite E; auto].
  - apply (r_call orc p (CSwapX d o) p' IH); [cbn; auto | cbn; rewrite E; auto].
  - apply (r_call orc p (CSwapY d o) p' IH); [cbn; auto | cbn; rewrite E; auto].
Qed.
Theorem history_cover : forall orc p ex ey, history orc p ex ey -> (owed_x p <= num (rx p) + ex /\ owed_y p <= num (ry p) + ey)%Q.
Proof.
  intros orc p ex ey H. induction H as [rp sp c rate p W1 W2 W3 Hs E | p ex ey u x y a b p' o H IH W1 W2 W3 W4 E | p ex ey u l a b p' o H IH W1 W2 W3 E | p ex ey d o p' r H IH S L W1 W2 E | p ex ey d o p' r H IH S L W1 W2 E].
  - destruct (new_ok _ _ _ _ _ W1 W2 W3 Hs E) as (_ & P & X & Y). destruct (pool_new_wf _ _ _ _ _ E W1 W2 W3 Hs) as (W & _). pose proof W as (_ & _ & _ & _ & (Wx & Wy & _) & _).
    unfold owed_x, owed_y. rewrite P. cbn [weighted]. apply (num_sign _ Wx) in X. apply (num_sign _ Wy) in Y. lra.
  - pose proof (deposit_cover _ _ _ _ _ _ _ _ _ (history_reachable _ _ _ _ H) W1 W2 W3 W4 E). lra.
  - pose proof (withdraw_cover _ _ _ _ _ _ _ _ (history_reachable _ _ _ _ H) W1 W2 W3 E). lra.
  - pose proof (swap_x_cover _ _ _ _ _ _ (history_reachable _ _ _ _ H) S L W1 W2 E). lra.
  - pose proof (swap_y_cover _ _ _ _ _ _ (history_reachable _ _ _ _ H) S L W1 W2 E). lra.
Qed.

(** ** Sequences of swaps *)
Inductive trades (orc : log2_oracle) (p0 : pool) : pool -> Q -> Q -> Prop :=
| tr_none : trades orc p0 p0 0 0
| tr_x : forall p ex ey dx ro p' o, trades orc p0 p ex ey -> settled p -> liq_inv p -> wf dx -> wf ro -> execute_swap_from_x orc p dx ro = Ok (p', o) ->
    trades orc p0 p' (ex + ulp12 * ((2#1) * qlen (ticks p) + 1 + num (glbl_liq p') + num dx)) ey
| tr_y : forall p ex ey dy ro p' o, trades orc p0 p ex ey -> settled p -> liq_inv p -> wf dy -> wf ro -> execute_swap_from_y orc p dy ro = Ok (p', o) ->
    trades orc p0 p' (ex + ulp12 * (num (rx p) - num (rx p'))) (ey + ulp12 * qlen (ticks p)).
Lemma trades_facts : forall orc p0 p ex ey, reachable orc p0 -> trades orc p0 p ex ey ->
  reachable orc p /\ positions p = positions p0 /\ (owed_x p - owed_x p0 <= num (rx p) - num (rx p0) + ex /\ owed_y p - owed_y p0 <= num (ry p) - num (ry p0) + ey)%Q.
Proof.
  intros orc p0 p ex ey R H. induction H as [| p ex ey d o p' r H IH S L W1 W2 E | p ex ey d o p' r H IH S L W1 W2 E].
  - csplit; auto; lra.
  - destruct IH as (I1 & I2 & I3 & I4). csplit.
    + apply (r_call orc p (CSwapX d o) p' I1); [cbn; auto | cbn; rewrite E; auto].
    + pose proof (reachable_nn _ _ I1) as (W & _). destruct (swap_x_records _ _ _ _ _ _ W W1 W2 E) as [(Q & _) _]. congruence.
    + pose proof (swap_x_cover _ _ _ _ _ _ I1 S L W1 W2 E). lra.
    + pose proof (swap_x_cover _ _ _ _ _ _ I1 S L W1 W2 E). lra.
  - destruct IH as (I1 & I2 & I3 & I4). csplit.
    + apply (r_call orc p (CSwapY d o) p' I1); [cbn; auto | cbn; rewrite E; auto].
    + pose proof (reachable_nn _ _ I1) as (W & _). destruct (swap_y_records _ _ _ _ _ _ W W1 W2 E) as [(Q & _) _]. congruence.
    + pose proof (swap_y_cover _ _ _ _ _ _ I1 S L W1 W2 E). lra.
    + pose proof (swap_y_cover _ _ _ _ _ _ I1 S L W1 W2 E). lra.
Qed.
Lemma weighted_ext : forall f g m, (forall lo up, (f lo up == g lo up)%Q) -> (weighted f m == weighted g m)%Q.
Proof. intros f g m H. induction m as [| [[[u lo] up] q] m IH]; cbn [weighted]; [reflexivity |]. rewrite IH, H. reflexivity. Qed.
Lemma owed_at : forall p p', positions p' = positions p -> (num (glbl_rp p') == num (glbl_rp p))%Q -> (owed_x p' == owed_x p /\ owed_y p' == owed_y p)%Q.
Proof.
  intros p p' P E. unfold owed_x, owed_y. rewrite P. split; apply weighted_ext; intros lo up; unfold unit_x, unit_y; rewrite (clampq_comp _ _ _ _ _ _ E (Qeq_refl _) (Qeq_refl _)); reflexivity.
Qed.
Theorem round_trips : forall orc p0 p ex ey, reachable orc p0 -> trades orc p0 p ex ey -> (num (glbl_rp p) == num (glbl_rp p0))%Q ->
  (num (rx p0) <= num (rx p) + ex /\ num (ry p0) <= num (ry p) + ey)%Q.
Proof. intros orc p0 p ex ey R H E. destruct (trades_facts _ _ _ _ _ R H) as (_ & P & X & Y). destruct (owed_at _ _ P E) as [EX EY]. lra. Qed.

(** ** When tick and price agree *)
Lemma clear_settled : forall orc p, reachable orc p -> clear_of_ticks p -> settled p.
Proof.
  intros orc p R C. apply settled_keys. intros k Hk. pose proof (reachable_ticks _ _ R) as T. destruct (key_mod _ _ T Hk) as [K0 Km]. destruct (price_near_tick _ _ R k K0 Km) as [N1 N2].
  destruct (key_price _ _ T (reachable_sound _ _ R) Hk) as [rk Ek]. destruct (C k Hk) as [(K1 & r & Er & X) | (r & Er & X)].
  - assert (price_q (k - 1) <= price_q k)%Q as L by (apply price_q_le; [lia | eauto]). rewrite (price_q_ok _ _ Er) in L. split; intros G; [specialize (N1 G r K1 Er); lra | lra].
  - assert (price_q k <= price_q (k + 1))%Q as L by (apply price_q_le; [lia | eauto]). rewrite (price_q_ok _ _ Er) in L. split; intros G; [lra | specialize (N2 G r Er); lra].
Qed.
