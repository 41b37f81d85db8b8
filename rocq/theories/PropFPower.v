(** C126: what the f64 pool quotes with C other than 1. *)
From Coq Require Import ZArith QArith Reals Qreals Lra Lia List Bool String Floats.SpecFloat.
From Flocq Require Import Core.
From Verif Require Import Base FloatBase FloatModel FloatFacts FloatWf FloatLp FloatFee FloatLog FloatLib FloatMove FloatCurve FloatPower PropFlow PropFMove PropFCurve.
Import ListNotations.
Open Scope R_scope.

(** ** C126: with C other than 1 the pool quotes by the power curve *)
(** The curve: while the root price moves from [a] to [b], at root price [r] the amount changes by [K * r^e] per unit of root price.  For X, [K] is the liquidity over [o^C] and [e] is
    [C - 2]; for Y, [K] is the liquidity times [o^C] and [e] is [- C] ([o]: the oracle's root price).  C = 0 would be the constant product. *)
Definition pow_curve (K e a b amount : R) : Prop := exists F : R -> R, F a = 0 /\ (forall r, 0 < r -> derivable_pt_lim F r (K * Rpower r e)) /\ amount = F b.
(** C from 1/2 to 2 and not 1 (every f64 there other than 1 is 2^-60 away from it) *)
Definition power_c (c : f64) : Prop := fok c /\ / 2 <= fval c <= 2 /\ bpow radix2 (-60) <= Rabs (1 - fval c).

Lemma pcurve_is K e a b : e + 1 <> 0 -> 0 < a -> 0 < b -> pow_curve K e a b (K * (Rpower b (e + 1) - Rpower a (e + 1)) / (e + 1)).
Proof.
  intros E A B. exists (fun r => K / (e + 1) * (Rpower r (e + 1) - Rpower a (e + 1))). split; [ring|]. split; [|field; exact E].
  intros r R0. replace (K * Rpower r e) with (K / (e + 1) * ((e + 1) * Rpower r (e + 1 - 1) - 0)) by (replace (e + 1 - 1) with e by ring; field; exact E).
  apply (derivable_pt_lim_scal (fun r => Rpower r (e + 1) - Rpower a (e + 1))). apply (derivable_pt_lim_minus (fun r => Rpower r (e + 1)) (fun _ => Rpower a (e + 1))); [now apply derivable_pt_lim_power|apply derivable_pt_lim_const].
Qed.
Lemma rp_mid a e n : usual a -> (0 <= n)%Z -> Rabs e <= IZR n -> bpow radix2 (- (100 * n)) <= Rpower a e <= bpow radix2 (100 * n).
Proof.
  intros AU N EN. destruct (usual_small _ AU) as [_ A0]. destruct AU as [A1 A2]. assert (L2 := ln2_in). pose proof (bpow_gt_0 radix2 (-100)) as P.
  assert (LA : Rabs (ln a) <= 100 * ln 2).
  { apply Rabs_le. assert (G1 := ln_bpow (-100)). assert (G2 := ln_bpow 100). assert (ln (bpow radix2 (-100)) <= ln a) by (destruct (Rle_lt_or_eq_dec _ _ A1) as [H|<-]; [left; now apply ln_increasing|lra]).
    assert (ln a <= ln (bpow radix2 100)) by (destruct (Rle_lt_or_eq_dec _ _ A2) as [H'|<-]; [left; now apply ln_increasing|lra]). lra. }
  assert (EL : Rabs (e * ln a) <= IZR n * (100 * ln 2)) by (rewrite Rabs_mult; apply Rmult_le_compat; auto using Rabs_pos).
  assert (B : forall k, bpow radix2 k = exp (IZR k * ln 2)) by (intros k; rewrite <- ln_bpow, exp_ln; [reflexivity|apply bpow_gt_0]).
  apply Rabs_le_inv in EL. rewrite !B, opp_IZR, mult_IZR. unfold Rpower.
  assert (X : forall x y, x <= y -> exp x <= exp y) by (intros x y [H|E0]; [left; now apply exp_increasing|rewrite E0; lra]). split; apply X; lra.
Qed.
Lemma pow_of lm a e n : libm_pow lm -> fok a -> usual (fval a) -> fok e -> (0 <= n <= 3)%Z -> Rabs (fval e) <= IZR n ->
  fok (m_powf lm a e) /\ Rabs (fval (m_powf lm a e) - Rpower (fval a) (fval e)) <= 2 * u53 * Rpower (fval a) (fval e) /\ bpow radix2 (- (100 * n)) <= Rpower (fval a) (fval e) <= bpow radix2 (100 * n).
Proof.
  intros LP A AU E N EN. assert (M := rp_mid _ _ n AU (proj1 N) EN). assert (bpow radix2 (-1022) <= bpow radix2 (- (100 * n))) by (apply bpow_le; lia). assert (bpow radix2 (100 * n) <= bpow radix2 1023) by (apply bpow_le; lia).
  destruct (LP a e A E (proj2 (usual_small _ AU)) ltac:(lra)) as [P1 P2]. rewrite ulp52 in P2. auto.
Qed.
(** the quote, from what it is made of *)
Lemma pquote k K m1 m2 X1 X2 c : power_c c -> fok k -> usual K -> Rabs (fval k - K) <= 3.2 * u53 * K -> fok m1 -> fok m2 ->
  Rabs (fval m1 - X1) <= 2 * u53 * X1 -> Rabs (fval m2 - X2) <= 2 * u53 * X2 -> usual X1 -> usual X2 ->
  fok (fdiv (fmul k (fsub m1 m2)) (fsub f_one c)) /\
  Rabs (fval (fdiv (fmul k (fsub m1 m2)) (fsub f_one c)) - K * (X1 - X2) / (1 - fval c)) <= 10 * u53 * (K * (X1 + X2) / Rabs (1 - fval c)).
Proof.
  intros (CF & CB & CD) KF KU KE M1 M2 E1 E2 U1 U2. destruct (one_minus c CF CB) as [W1 W2]. rewrite <- W2 in *. set (w := fsub f_one c) in *.
  destruct (usual_small _ KU) as [KS K0], (usual_small _ U1) as [_ X10], (usual_small _ U2) as [_ X20]. pose proof (bpow_gt_0 radix2 (-60)) as P60.
  assert (MB : bpow radix2 (-100) <= X1 + X2 <= bpow radix2 101). { replace 101%Z with (1 + 100)%Z by reflexivity. rewrite bpow_plus. change (bpow radix2 1) with 2. destruct U1, U2. lra. }
  pose proof (bpow_gt_0 radix2 (-100)) as P100. assert (ZB : bpow radix2 (-200) <= K * (X1 + X2) <= bpow radix2 201).
  { replace (-200)%Z with (-100 + -100)%Z by reflexivity. replace 201%Z with (100 + 101)%Z by reflexivity. rewrite !bpow_plus. destruct KU. split; apply Rmult_le_compat; lra. }
  assert (S1 : FloatMove.small <= bpow radix2 (-200)) by (apply bpow_le; lia). assert (S2 : bpow radix2 201 <= big) by (apply bpow_le; lia). assert (S3 : bpow radix2 101 <= big) by (apply bpow_le; lia).
  apply pow_quote; auto; try lra.
  - split; [lra|]. rewrite W2. apply Rabs_le. lra.
  - assert (I : / Rabs (fval w) <= bpow radix2 60). { assert (X : bpow radix2 60 = / bpow radix2 (-60)) by exact (bpow_opp radix2 (-60)). rewrite X. apply Rinv_le_contravar; lra. }
    assert (0 < / Rabs (fval w)) by (apply Rinv_0_lt_compat; lra). pose proof small_pos. apply Rle_trans with (bpow radix2 201 * bpow radix2 60); [unfold Rdiv; apply Rmult_le_compat; lra|]. rewrite <- bpow_plus. apply bpow_le. lia.
Qed.

Lemma amount_le K X1 X2 w : 0 < K -> 0 < X1 -> 0 < X2 -> Rabs (K * (X1 - X2) / w) <= K * (X1 + X2) / Rabs w.
Proof.
  intros K0 A B. unfold Rdiv. rewrite !Rabs_mult, Rabs_inv, (Rabs_pos_eq K) by lra. apply Rmult_le_compat_r; [|apply Rmult_le_compat_l; [lra|apply Rabs_le; lra]].
  destruct (Req_dec (Rabs w) 0) as [E|E]; [rewrite E, Rinv_0; lra|]. left. apply Rinv_0_lt_compat. pose proof (Rabs_pos w). lra.
Qed.
(** X, for a move of the price from [a] to [b]: up to 10 rounding units of what the two ends of the range count for *)
Theorem C126_f64_power_quote_x : forall lm l o c a b, libm_pow lm -> power_c c -> fok l -> fok o -> fok a -> fok b -> 0 < fval l -> usual (fval o) -> usual (fval a) -> usual (fval b) ->
  let K := fval l / Rpower (fval o) (fval c) in usual K -> let q := f_dx_from_l_drp_hmm lm l a b c o in
  let S := K * (Rpower (fval b) (fval c - 1) + Rpower (fval a) (fval c - 1)) / Rabs (1 - fval c) in
  fok q /\ exists x, pow_curve K (fval c - 2) (fval a) (fval b) x /\ Rabs x <= S /\ Rabs (- fval q - x) <= 10 * unit53 * S.
Proof.
  intros lm l o c a b LP PC L O A B L0 OU AU BU K KU. cbv zeta. destruct PC as (CF & CB & CD). destruct (one_minus c CF CB) as [W1 W2]. pose proof (bpow_gt_0 radix2 (-60)) as P60.
  assert (C1 : fval c <> 1) by (intros E; rewrite E, Rminus_diag_eq, Rabs_R0 in CD by reflexivity; lra). assert (FC : feq c f_one = false) by (rewrite feq_R by auto using fok_one; rewrite fval_one; now apply Req_bool_false).
  unfold f_dx_from_l_drp_hmm. rewrite FC. cbv zeta. assert (E1 : fok (fneg (fsub f_one c))) by now apply fok_neg. assert (EV : fval (fneg (fsub f_one c)) = fval c - 1) by (rewrite fval_opp, W2; ring).
  destruct (usual_small _ KU) as [KS K0], (usual_small _ AU) as [_ A0], (usual_small _ BU) as [_ B0]. pose proof small_pos. assert (U := u53_tiny). assert (UK := ule K ltac:(lra)).
  destruct (pow_of lm o c 2 LP O OU CF ltac:(lia) ltac:(apply Rabs_le; lra)) as (P1 & P2 & P3).
  destruct (pow_of lm b (fneg (fsub f_one c)) 1 LP B BU E1 ltac:(lia) ltac:(rewrite EV; apply Rabs_le; lra)) as (Q1 & Q2 & Q3).
  destruct (pow_of lm a (fneg (fsub f_one c)) 1 LP A AU E1 ltac:(lia) ltac:(rewrite EV; apply Rabs_le; lra)) as (R1 & R2 & R3). rewrite EV in *.
  assert (KE : fok (fdiv l (m_powf lm o c)) /\ Rabs (fval (fdiv l (m_powf lm o c)) - K) <= 3.2 * u53 * K).
  { set (po := m_powf lm o c) in *. set (OC := Rpower (fval o) (fval c)) in *. assert (O0 : 0 < OC) by apply exp_pos. assert (UO := ule OC ltac:(lra)). apply Rabs_le_inv in P2. assert (PO : 0 < fval po) by lra.
    assert (LK : fval l = K * OC) by (unfold K; field; lra). assert (QQ : Rabs (fval l / fval po - K) <= 2.1 * (u53 * K)).
    { replace (fval l / fval po - K) with (K * (OC - fval po) * / fval po) by (rewrite LK; field; lra). rewrite !Rabs_mult, (Rabs_pos_eq K), (Rabs_pos_eq (/ fval po)) by (try (left; apply Rinv_0_lt_compat); lra).
      apply Rmult_le_reg_r with (fval po); [exact PO|]. rewrite Rmult_assoc, Rinv_l, Rmult_1_r by lra. assert (D : Rabs (OC - fval po) <= 2 * u53 * OC) by (apply Rabs_le; lra).
      apply Rle_trans with (K * (2 * u53 * OC)); [apply Rmult_le_compat_l; lra|]. replace (K * (2 * u53 * OC)) with (u53 * K * (2 * OC)) by ring. replace (2.1 * (u53 * K) * fval po) with (u53 * K * (2.1 * fval po)) by ring. apply Rmult_le_compat_l; lra. }
    apply Rabs_le_inv in QQ. destruct (div_err l po L P1 PO ltac:(lra)) as [D1 D2]. split; [exact D1|]. assert (u53 * (fval l / fval po) <= u53 * (1.01 * K)) by (apply Rmult_le_compat_l; lra). apply Rabs_le_inv in D2. apply Rabs_le. lra. }
  destruct KE as [K1 K2]. destruct (pquote _ K _ _ _ _ c (conj CF (conj CB CD)) K1 KU K2 Q1 R1 Q2 R2 Q3 R3) as [N1 N2]. split; [exact N1|].
  exists (K * (Rpower (fval b) (fval c - 1) - Rpower (fval a) (fval c - 1)) / (fval c - 1)). split.
  - assert (X := pcurve_is K (fval c - 2) (fval a) (fval b) ltac:(lra) A0 B0). replace (fval c - 2 + 1) with (fval c - 1) in X by ring. exact X.
  - split; [rewrite <- (Rabs_Ropp (1 - fval c)), Ropp_minus_distr; apply amount_le; [lra|apply exp_pos..]|].
    set (v := fval (fdiv (fmul _ _) _)) in *. set (D := Rpower (fval b) (fval c - 1) - Rpower (fval a) (fval c - 1)) in *. replace (- v - K * D / (fval c - 1)) with (- (v - K * D / (1 - fval c))) by (field; lra). rewrite Rabs_Ropp. exact N2.
Qed.
(** Y, for a move of the price from [a] down to [b] *)
Theorem C126_f64_power_quote_y : forall lm l o c a b, libm_pow lm -> power_c c -> fok l -> fok o -> fok a -> fok b -> 0 < fval l -> usual (fval o) -> usual (fval a) -> usual (fval b) ->
  let K := fval l * Rpower (fval o) (fval c) in usual K -> let q := f_dy_from_l_drp_hmm lm l a b c o in
  let S := K * (Rpower (fval b) (1 - fval c) + Rpower (fval a) (1 - fval c)) / Rabs (1 - fval c) in
  fok q /\ exists y, pow_curve K (- fval c) (fval b) (fval a) y /\ Rabs y <= S /\ Rabs (- fval q - y) <= 10 * unit53 * S.
Proof.
  intros lm l o c a b LP PC L O A B L0 OU AU BU K KU. cbv zeta. destruct PC as (CF & CB & CD). destruct (one_minus c CF CB) as [W1 W2]. pose proof (bpow_gt_0 radix2 (-60)) as P60.
  assert (C1 : fval c <> 1) by (intros E; rewrite E, Rminus_diag_eq, Rabs_R0 in CD by reflexivity; lra). assert (FC : feq c f_one = false) by (rewrite feq_R by auto using fok_one; rewrite fval_one; now apply Req_bool_false).
  unfold f_dy_from_l_drp_hmm. rewrite FC. cbv zeta.
  destruct (usual_small _ KU) as [KS K0], (usual_small _ AU) as [_ A0], (usual_small _ BU) as [_ B0]. pose proof small_pos. pose proof big_ge. assert (U := u53_tiny). assert (UK := ule K ltac:(lra)).
  destruct (pow_of lm o c 2 LP O OU CF ltac:(lia) ltac:(apply Rabs_le; lra)) as (P1 & P2 & P3).
  destruct (pow_of lm b (fsub f_one c) 1 LP B BU W1 ltac:(lia) ltac:(rewrite W2; apply Rabs_le; lra)) as (Q1 & Q2 & Q3).
  destruct (pow_of lm a (fsub f_one c) 1 LP A AU W1 ltac:(lia) ltac:(rewrite W2; apply Rabs_le; lra)) as (R1 & R2 & R3). rewrite W2 in *.
  assert (KE : fok (fmul l (m_powf lm o c)) /\ Rabs (fval (fmul l (m_powf lm o c)) - K) <= 3.2 * u53 * K).
  { set (po := m_powf lm o c) in *. set (OC := Rpower (fval o) (fval c)) in *. assert (QQ : Rabs (fval l * fval po - K) <= 2 * (u53 * K)).
    { unfold K. replace (fval l * fval po - fval l * OC) with (fval l * (fval po - OC)) by ring. rewrite Rabs_mult, (Rabs_pos_eq (fval l)) by lra. replace (2 * (u53 * (fval l * OC))) with (fval l * (2 * u53 * OC)) by ring. apply Rmult_le_compat_l; lra. }
    apply Rabs_le_inv in QQ. destruct (mul_err l po L P1) as [D1 D2]; [apply Rabs_le; lra|]. split; [exact D1|]. pose proof (eta_small K ltac:(lra)). rewrite (Rabs_pos_eq (fval l * fval po)) in D2 by lra.
    assert (u53 * (fval l * fval po) <= u53 * (1.01 * K)) by (apply Rmult_le_compat_l; lra). apply Rabs_le_inv in D2. apply Rabs_le. lra. }
  destruct KE as [K1 K2]. destruct (pquote _ K _ _ _ _ c (conj CF (conj CB CD)) K1 KU K2 Q1 R1 Q2 R2 Q3 R3) as [N1 N2]. split; [exact N1|].
  exists (K * (Rpower (fval a) (1 - fval c) - Rpower (fval b) (1 - fval c)) / (1 - fval c)). split.
  - assert (X := pcurve_is K (- fval c) (fval b) (fval a) ltac:(lra) B0 A0). replace (- fval c + 1) with (1 - fval c) in X by ring. exact X.
  - split; [rewrite (Rplus_comm (Rpower (fval b) _)); apply amount_le; [lra|apply exp_pos..]|].
    set (v := fval (fdiv (fmul _ _) _)) in *. set (X := Rpower (fval a) (1 - fval c)) in *. set (Y := Rpower (fval b) (1 - fval c)) in *. replace (- v - K * (X - Y) / (1 - fval c)) with (- (v - K * (Y - X) / (1 - fval c))) by (field; lra).
    rewrite Rabs_Ropp. exact N2.
Qed.

(** One step of a swap that ends before it reaches the oracle price sends what the curve frees, less the pool's allowance of 10^-12. *)
Lemma kept_of q x S : fok q -> FloatMove.small <= S <= big -> Rabs x <= S -> Rabs (- fval q - x) <= 10 * u53 * S ->
  Rabs (- fval (fmul q (fsub f_one f_adj)) - (1 - / 1000000000000) * x) <= 14 * u53 * S.
Proof.
  intros N1 SB XB N2. pose proof small_pos. pose proof big_ge. assert (U := u53_tiny). assert (US := ule S ltac:(lra)).
  destruct keep_val as [C1 C2]. change unit53 with u53 in *. set (k := fval (fsub f_one f_adj)) in *. set (e := / 1000000000000) in *. assert (E0 : 0 < e < / 1000) by (unfold e; lra).
  assert (QB : Rabs (fval q) <= 1.1 * S). { replace (fval q) with (- ((- fval q - x) + x)) by ring. rewrite Rabs_Ropp. eapply Rle_trans; [apply Rabs_triang|]. lra. }
  assert (K1 : Rabs k <= 1.01) by (apply Rabs_le_inv in C2; apply Rabs_le; lra).
  assert (P1 : Rabs (- (fval q * k) - (1 - e) * x) <= 10 * u53 * S * 1.01 + S * u53).
  { replace (- (fval q * k) - (1 - e) * x) with ((- fval q - x) * k + x * (k - (1 - e))) by ring. eapply Rle_trans; [apply Rabs_triang|]. rewrite !Rabs_mult. apply Rplus_le_compat; apply Rmult_le_compat; auto using Rabs_pos. }
  assert (P2 : Rabs (fval q * k) <= 1.2 * S). { rewrite Rabs_mult. apply Rle_trans with (1.1 * S * 1.01); [apply Rmult_le_compat; auto using Rabs_pos|]. lra. }
  destruct (mul_err q (fsub f_one f_adj) N1 C1) as [M1 M2]; [fold k; lra|]. fold k in M2. pose proof (eta_small S ltac:(lra)) as ET.
  assert (P3 : u53 * Rabs (fval q * k) <= u53 * (1.2 * S)) by (apply Rmult_le_compat_l; lra). set (v := fval (fmul q (fsub f_one f_adj))) in *.
  replace (- v - (1 - e) * x) with (- (v - fval q * k) + (- (fval q * k) - (1 - e) * x)) by ring. eapply Rle_trans; [apply Rabs_triang|]. rewrite Rabs_Ropp. lra.
Qed.
Lemma scale_mid K X1 X2 w : usual K -> usual X1 -> usual X2 -> bpow radix2 (-60) <= Rabs w <= 1 -> FloatMove.small <= K * (X1 + X2) / Rabs w <= big.
Proof.
  intros KU U1 U2 W. pose proof (bpow_gt_0 radix2 (-60)) as P60. pose proof (bpow_gt_0 radix2 (-100)) as P100.
  assert (MB : bpow radix2 (-100) <= X1 + X2 <= bpow radix2 101). { replace 101%Z with (1 + 100)%Z by reflexivity. rewrite bpow_plus. change (bpow radix2 1) with 2. destruct U1, U2. lra. }
  assert (ZB : bpow radix2 (-200) <= K * (X1 + X2) <= bpow radix2 201).
  { replace (-200)%Z with (-100 + -100)%Z by reflexivity. replace 201%Z with (100 + 101)%Z by reflexivity. rewrite !bpow_plus. destruct KU. split; apply Rmult_le_compat; lra. }
  assert (S1 : FloatMove.small <= bpow radix2 (-200)) by (apply bpow_le; lia). pose proof small_pos. assert (I1 : 1 <= / Rabs w) by (rewrite <- Rinv_1; apply Rinv_le_contravar; lra).
  assert (I2 : / Rabs w <= bpow radix2 60). { assert (X : bpow radix2 60 = / bpow radix2 (-60)) by exact (bpow_opp radix2 (-60)). rewrite X. apply Rinv_le_contravar; lra. }
  unfold Rdiv. split; [rewrite <- (Rmult_1_r FloatMove.small); apply Rmult_le_compat; lra|]. apply Rle_trans with (bpow radix2 201 * bpow radix2 60); [apply Rmult_le_compat; lra|]. rewrite <- bpow_plus. apply bpow_le. lia.
Qed.
Lemma not_zero c : power_c c -> feq c f_zero = false.
Proof. intros (CF & CB & _). rewrite feq_R by auto using fok_zero. apply Req_bool_false. rewrite fval_zero. lra. Qed.
Theorem C126_f64_power_step_y : forall lm p st g l d o w, let c := f_c p in libm_pow lm -> power_c c -> fok st -> fok l -> fok o -> fok (fw_rp w) -> 0 < fval l -> usual (fval o) -> usual (fval st) -> usual (fval (fw_rp w)) ->
  let K := fval l / Rpower (fval o) (fval c) in usual K -> fswap_within_y lm p st g l d o = Ok w -> fval st < fval o -> fval (fw_rp w) < fval o ->
  exists x, pow_curve K (fval c - 2) (fval st) (fval (fw_rp w)) x /\
    Rabs (- fval (fw_send w) - (1 - / 1000000000000) * x) <= 14 * unit53 * (K * (Rpower (fval (fw_rp w)) (fval c - 1) + Rpower (fval st) (fval c - 1)) / Rabs (1 - fval c)).
Proof.
  intros lm p st g l d o w c LP PC ST L O E L0 OU SU EU K KU H SO OW. rewrite (within_y_before lm p st g l d o w ST O E (not_zero _ PC) H SO OW). clear H.
  destruct (C126_f64_power_quote_x lm l o c st (fw_rp w) LP PC L O ST E L0 OU SU EU KU) as (N1 & x & N2 & N3 & N4). destruct PC as (CF & CB & CD). fold c. exists x. split; [exact N2|]. apply kept_of; auto.
  apply scale_mid; [exact KU|apply (rp_mid _ _ 1 EU); [lia|apply Rabs_le; lra]|apply (rp_mid _ _ 1 SU); [lia|apply Rabs_le; lra]|]. split; [exact CD|apply Rabs_le; lra].
Qed.
Theorem C126_f64_power_step_x : forall lm p st g l d o w, let c := f_c p in libm_pow lm -> power_c c -> fok st -> fok l -> fok o -> fok (fw_rp w) -> 0 < fval l -> usual (fval o) -> usual (fval st) -> usual (fval (fw_rp w)) ->
  let K := fval l * Rpower (fval o) (fval c) in usual K -> fswap_within_x lm p st g l d o = Ok w -> fval o < fval st -> fval o < fval (fw_rp w) ->
  exists y, pow_curve K (- fval c) (fval (fw_rp w)) (fval st) y /\
    Rabs (- fval (fw_send w) - (1 - / 1000000000000) * y) <= 14 * unit53 * (K * (Rpower (fval (fw_rp w)) (1 - fval c) + Rpower (fval st) (1 - fval c)) / Rabs (1 - fval c)).
Proof.
  intros lm p st g l d o w c LP PC ST L O E L0 OU SU EU K KU H SO OW. rewrite (within_x_before lm p st g l d o w ST O E (not_zero _ PC) H SO OW). clear H.
  destruct (C126_f64_power_quote_y lm l o c st (fw_rp w) LP PC L O ST E L0 OU SU EU KU) as (N1 & y & N2 & N3 & N4). destruct PC as (CF & CB & CD). fold c. exists y. split; [exact N2|]. apply kept_of; auto.
  apply scale_mid; [exact KU|apply (rp_mid _ _ 1 EU); [lia|apply Rabs_le; lra]|apply (rp_mid _ _ 1 SU); [lia|apply Rabs_le; lra]|]. split; [exact CD|apply Rabs_le; lra].
Qed.

(** a case: the correctly rounding library, C = 2, liquidity 1000, oracle price 2 and 1, price between 1 and 2 *)
Example C126_case : libm_pow ideal /\ power_c (f_int 2) /\ fok (f_int 1000) /\ 0 < fval (f_int 1000) /\ fok f_one /\ fok (f_int 2) /\ usual (fval f_one) /\ usual (fval (f_int 2)) /\
  usual (fval (f_int 1000) / Rpower (fval (f_int 2)) (fval (f_int 2))) /\ usual (fval (f_int 1000) * Rpower (fval f_one) (fval (f_int 2))).
Proof.
  assert (T : fval (f_int 2) = 2) by (rewrite (frat (f_int 2) 2 eq_refl); unfold Q2R; cbn; lra). assert (T' : fval (f_int 1000) = 1000) by (rewrite (frat (f_int 1000) 1000 eq_refl); unfold Q2R; cbn; lra).
  assert (B0 : bpow radix2 (-100) <= 1) by (change 1 with (bpow radix2 0); apply bpow_le; lia). assert (B1 : 1024 <= bpow radix2 100) by (change 1024 with (bpow radix2 10); apply bpow_le; lia). assert (B2 : bpow radix2 (-60) <= 1) by (change 1 with (bpow radix2 0); apply bpow_le; lia).
  split; [exact ideal_pow|]. rewrite T, T', fval_one. split. { unfold power_c. rewrite T. split; [split; reflexivity|]. split; [lra|]. rewrite Rabs_left; lra. }
  split; [split; reflexivity|]. split; [lra|]. split; [exact fok_one|]. split; [split; reflexivity|]. split; [unfold usual; lra|]. split; [unfold usual; lra|].
  replace 2 with (INR 2) by (cbn; lra). rewrite !Rpower_pow by (cbn; lra). cbn. unfold usual. split; lra.
Qed.
Print Assumptions C126_f64_power_quote_x.
Print Assumptions C126_f64_power_quote_y.
Print Assumptions C126_f64_power_step_y.
Print Assumptions C126_f64_power_step_x.
(** cases of the steps: C = 2, liquidity 1000; from 0.5 up to tick 2 (about 1.0001) with the oracle at 2, and from 2 down to tick 2 with the oracle at 1 *)
Definition f_minus : f64 := fneg f_one.
Definition g_inv : f64 := Eval vm_compute in fdiv f_one g_p2.
Definition pw : libm := patch_pow (patch_pow (patch_pow (patch_pow (patch_pow (patch_pow gnu (f_int 2) (f_int 2) (f_int 4)) f_half f_one f_half) g_p2 f_one g_p2) f_one (f_int 2) f_one) (f_int 2) f_minus f_half) g_p2 f_minus g_inv.
Lemma exact_in x y r : fval r = Rpower (fval x) (fval y) -> Rabs (fval r - Rpower (fval x) (fval y)) <= / 4503599627370496 * Rpower (fval x) (fval y).
Proof. intros ->. rewrite Rminus_diag_eq, Rabs_R0 by reflexivity. pose proof (exp_pos (fval y * ln (fval x))). fold (Rpower (fval x) (fval y)) in H. lra. Qed.
Lemma pw_pow : libm_pow pw.
Proof.
  assert (T : fval (f_int 2) = 2) by (rewrite (frat (f_int 2) 2 eq_refl); unfold Q2R; cbn; lra). assert (T4 : fval (f_int 4) = 4) by (rewrite (frat (f_int 4) 4 eq_refl); unfold Q2R; cbn; lra).
  assert (H : fval f_half = / 2) by (rewrite (frat f_half (1 # 2) eq_refl); unfold Q2R; cbn; lra). assert (M : fval f_minus = -1) by (rewrite (frat f_minus (-1) eq_refl); unfold Q2R; cbn; lra).
  assert (G0 : 1 <= fval g_p2) by (assert (X := qle 1 g_p2 eq_refl); rewrite q1 in X; exact X). assert (G1 : fval g_p2 <= 2) by (assert (X := qge 2 g_p2 eq_refl); rewrite q2 in X; exact X).
  assert (P2 : forall x, 0 < x -> Rpower x 2 = x * x) by (intros x X; replace 2 with (INR 2) by (cbn; lra); rewrite Rpower_pow by exact X; cbn; ring).
  unfold pw. apply patch_pow_pow; [|split; reflexivity|].
  2: { rewrite M. replace (-1) with (- (1)) by ring. rewrite Rpower_Ropp, Rpower_1 by lra. pose proof small_pos. pose proof big_ge. assert (S1 : FloatMove.small <= 1) by (change 1 with (bpow radix2 0); apply bpow_le; lia).
    destruct (inv_f g_p2 ltac:(split; reflexivity) ltac:(lra)) as [_ I]. change (fdiv f_one g_p2) with g_inv in I. rewrite ulp52. eapply Rle_trans; [exact I|]. assert (U := u53_pos). assert (0 < / fval g_p2) by (apply Rinv_0_lt_compat; lra). apply Rmult_le_compat_r; lra. }
  apply patch_pow_pow; [|split; reflexivity|apply exact_in; rewrite M, T, H; replace (-1) with (- (1)) by ring; rewrite Rpower_Ropp, Rpower_1 by lra; reflexivity].
  apply patch_pow_pow; [|split; reflexivity|apply exact_in; rewrite fval_one, T, P2 by lra; ring].
  apply patch_pow_pow; [|split; reflexivity|apply exact_in; rewrite fval_one, Rpower_1 by lra; reflexivity].
  apply patch_pow_pow; [|split; reflexivity|apply exact_in; rewrite fval_one, Rpower_1 by lra; reflexivity].
  apply patch_pow_pow; [exact gnu_pow|split; reflexivity|apply exact_in; rewrite T, T4, P2 by lra; ring].
Qed.
Definition two_p : fpool := mkFPool 1 (mkFG (f_int 1000) f_half 0 (mkF4 f_zero f_zero f_zero f_zero)) [] [] (f_int 5000) (f_int 5000) f_zero f_zero f_zero f_zero (f_int 2) f_zero.
Example C126_step_case : libm_pow pw /\ f_c two_p = f_int 2 /\
  (exists w, fswap_within_y pw two_p f_half 2 (f_int 1000) (f_int 1000) (f_int 2) = Ok w /\ fw_rp w = g_p2 /\ 125.02 < - fval (fw_send w) < 125.03) /\
  (exists w, fswap_within_x pw two_p (f_int 2) 2 (f_int 1000) (f_int 1000) f_one = Ok w /\ fw_rp w = g_p2 /\ 499.9 < - fval (fw_send w) < 499.901).
Proof.
  split; [exact pw_pow|]. split; [reflexivity|]. split; (eexists; split; [vm_compute; reflexivity|]; split; [reflexivity|]; cbn [fw_send]).
  - match goal with |- _ < - fval ?a < _ => assert (W1 := qle (-125029 # 1000) a eq_refl); assert (W2 := qge (-125021 # 1000) a eq_refl) end. unfold Q2R in W1, W2. cbn [Qnum Qden] in W1, W2. lra.
  - match goal with |- _ < - fval ?a < _ => assert (W1 := qle (-49990099 # 100000) a eq_refl); assert (W2 := qge (-499900001 # 1000000) a eq_refl) end. unfold Q2R in W1, W2. cbn [Qnum Qden] in W1, W2. lra.
Qed.
