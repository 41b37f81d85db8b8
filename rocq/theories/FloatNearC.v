(** f64: when the HMM quote (C from 1/2 to 2, not 1) of the f64 pool is seen to be below the constant product quote.  For C127. *)
From Coq Require Import ZArith QArith Reals Qreals Lra Lia List Bool String Floats.SpecFloat.
From Flocq Require Import Core.
From Verif Require Import Base FloatBase FloatModel FloatFacts FloatWf FloatLp FloatFee FloatLog FloatLib FloatMove FloatCurve FloatPower PropFlow PropFMove PropFCurve PropFPower FloatNear.
Import ListNotations.
Open Scope R_scope.

Lemma ln_le_sub x : 0 < x -> ln x <= x - 1.
Proof. intros X. assert (H := exp_ineq1_le (ln x)). rewrite exp_ln in H by exact X. lra. Qed.
Lemma bernoulli x a : 0 < x -> 0 <= a <= 1 -> Rpower x a <= 1 + a * (x - 1).
Proof.
  intros X A. set (m := 1 + a * (x - 1)). assert (M : 0 < m). { unfold m. assert (0 <= a * x) by (apply Rmult_le_pos; lra). destruct (Req_dec a 1) as [->|N]; lra. }
  assert (H1 := ln_le_sub (x / m) ltac:(apply Rdiv_lt_0_compat; lra)). assert (H2 := ln_le_sub (/ m) ltac:(apply Rinv_0_lt_compat; lra)).
  unfold Rdiv in H1. rewrite ln_mult in H1 by (try apply Rinv_0_lt_compat; lra). rewrite ln_Rinv in H1, H2 by exact M.
  assert (B1 : a * (ln x + - ln m) <= a * (x * / m - 1)) by (apply Rmult_le_compat_l; lra). assert (B2 : (1 - a) * (- ln m) <= (1 - a) * (/ m - 1)) by (apply Rmult_le_compat_l; lra).
  assert (B3 : a * (x * / m - 1) + (1 - a) * (/ m - 1) = 0). { replace (a * (x * / m - 1) + (1 - a) * (/ m - 1)) with (m * / m - 1) by (unfold m; ring). rewrite Rinv_r by lra. ring. }
  assert (E : a * ln x <= ln m) by lra. unfold Rpower. rewrite <- (exp_ln m M). destruct E as [E| ->]; [left; now apply exp_increasing|lra].
Qed.
Lemma rpow_le x y c : 0 < x -> x <= y -> 0 <= c -> Rpower x c <= Rpower y c.
Proof. intros X Y C. apply Rle_Rpower_l; lra. Qed.
(** a ratio below 1 *)
Lemma below_half x c : 0 < x < 1 -> / 2 <= c -> Rpower x c <= 1 - (1 - x) / 2.
Proof.
  intros X C. assert (LX : ln x < 0) by (rewrite <- ln_1; apply ln_increasing; lra). apply Rle_trans with (Rpower x (/ 2)).
  - unfold Rpower. assert (H : c * ln x <= / 2 * ln x). { assert ((c - / 2) * ln x <= 0) by (rewrite <- (Rmult_0_r (c - / 2)); apply Rmult_le_compat_l; lra). lra. } destruct H as [H| ->]; [left; now apply exp_increasing|lra].
  - assert (H := bernoulli x (/ 2) ltac:(lra) ltac:(lra)). lra.
Qed.
Lemma ratio_pow x y c : 0 < x -> 0 < y -> Rpower (x / y) c = Rpower x c * / Rpower y c.
Proof. intros X Y. unfold Rdiv. rewrite <- Rpower_mult_distr by (try apply Rinv_0_lt_compat; lra). f_equal. unfold Rpower. rewrite ln_Rinv by exact Y. replace (c * - ln y) with (- (c * ln y)) by ring. apply exp_Ropp. Qed.

Section Y.
Variables (L s e o c : R).
Hypotheses (L0 : 0 < L) (S0 : 0 < s) (SE : s < e) (EO : e < o) (CB : / 2 <= c <= 2) (C1 : c <> 1).
Let K := L / Rpower o c.
Lemma k_size x : 0 < x -> x <= o -> K * Rpower x (c - 1) <= L / x.
Proof.
  intros X XO. replace (c - 1) with (c + - (1)) by ring. rewrite Rpower_plus, Rpower_Ropp, Rpower_1 by exact X. unfold K. assert (P : 0 < Rpower o c) by apply exp_pos. assert (Q := rpow_le x o c X XO ltac:(lra)).
  replace (L / Rpower o c * (Rpower x c * / x)) with (L / x * (Rpower x c / Rpower o c)) by (field; lra). rewrite <- (Rmult_1_r (L / x)) at 2. apply Rmult_le_compat_l; [left; apply Rdiv_lt_0_compat; lra|].
  apply Rmult_le_reg_r with (Rpower o c); [exact P|]. unfold Rdiv. rewrite Rmult_assoc, Rinv_l by lra. lra.
Qed.
Lemma curve_below : K * (Rpower e (c - 1) - Rpower s (c - 1)) / (c - 1) <= (1 - (1 - e / o) / 2) * (L * (/ s - / e)).
Proof.
  set (la := Rpower (e / o) c). assert (LA : la <= 1 - (1 - e / o) / 2).
  { apply below_half; [|lra]. split; [apply Rdiv_lt_0_compat; lra|]. apply Rmult_lt_reg_r with o; [lra|]. unfold Rdiv. rewrite Rmult_assoc, Rinv_l by lra. lra. }
  assert (D : 0 < / s - / e) by (assert (/ e < / s) by (apply Rinv_lt_contravar; [apply Rmult_lt_0_compat; lra|lra]); lra).
  apply Rle_trans with (la * (L * (/ s - / e))); [|apply Rmult_le_compat_r; [left; apply Rmult_lt_0_compat; lra|exact LA]].
  destruct (MVT_cor2 (fun x => K / (c - 1) * Rpower x (c - 1) + la * L * Rpower x (-1)) (fun x => K / (c - 1) * ((c - 1) * Rpower x (c - 1 - 1)) + la * L * (-1 * Rpower x (-1 - 1))) s e SE) as (x & M & XB).
  { intros x XB. apply (derivable_pt_lim_plus (fun x => K / (c - 1) * Rpower x (c - 1)) (fun x => la * L * Rpower x (-1))).
    - apply (derivable_pt_lim_scal (fun x => Rpower x (c - 1))). apply derivable_pt_lim_power. lra.
    - apply (derivable_pt_lim_scal (fun x => Rpower x (-1))). apply derivable_pt_lim_power. lra. }
  assert (N : K / (c - 1) * ((c - 1) * Rpower x (c - 1 - 1)) + la * L * (-1 * Rpower x (-1 - 1)) <= 0).
  { replace (c - 1 - 1) with (c + (-1 - 1)) by ring. rewrite Rpower_plus. assert (Z : 0 < Rpower x (-1 - 1)) by apply exp_pos. set (z := Rpower x (-1 - 1)) in *.
    unfold la. rewrite ratio_pow by lra. assert (Q := rpow_le x e c ltac:(lra) ltac:(lra) ltac:(lra)). assert (P : 0 < Rpower o c) by apply exp_pos. unfold K.
    replace (L / Rpower o c / (c - 1) * ((c - 1) * (Rpower x c * z)) + Rpower e c * / Rpower o c * L * (-1 * z)) with (- (L / Rpower o c * z * (Rpower e c - Rpower x c))) by (field; lra).
    assert (0 <= L / Rpower o c * z * (Rpower e c - Rpower x c)); [|lra]. apply Rmult_le_pos; [|lra]. apply Rmult_le_pos; [left; apply Rdiv_lt_0_compat; lra|lra]. }
  assert (N2 : K / (c - 1) * Rpower e (c - 1) + la * L * Rpower e (-1) - (K / (c - 1) * Rpower s (c - 1) + la * L * Rpower s (-1)) <= 0).
  { rewrite M. rewrite <- (Rmult_0_l (e - s)). apply Rmult_le_compat_r; lra. }
  replace (-1) with (- (1)) in N2 by ring. rewrite !Rpower_Ropp, !Rpower_1 in N2 by lra.
  replace (K * (Rpower e (c - 1) - Rpower s (c - 1)) / (c - 1)) with (K / (c - 1) * Rpower e (c - 1) - K / (c - 1) * Rpower s (c - 1)) by (field; lra). lra.
Qed.
End Y.
(** the difference of two powers against their sum *)
Lemma diff_sum s e b u : 0 < s -> s < e -> b <> 0 -> Rabs b <= 1 -> 0 < u -> 20 * u * e <= Rabs b * (e - s) -> 10 * u * ((Rpower e b + Rpower s b) / Rabs b) <= (Rpower e b - Rpower s b) / b.
Proof.
  intros S SE B0 B1 U H. assert (R : 0 < s / e < 1). { split; [apply Rdiv_lt_0_compat; lra|]. apply Rmult_lt_reg_r with e; [lra|]. unfold Rdiv. rewrite Rmult_assoc, Rinv_l by lra. lra. }
  assert (A0 : 0 < Rabs b) by (now apply Rabs_pos_lt). set (a := Rabs b) in *.
  assert (RV : 20 * u <= a * (1 - s / e)). { apply Rmult_le_reg_r with e; [lra|]. replace (a * (1 - s / e) * e) with (a * (e - s)) by (field; lra). lra. }
  assert (BN := bernoulli (s / e) a ltac:(lra) ltac:(lra)). rewrite ratio_pow in BN by lra.
  assert (Pe : 0 < Rpower e a) by apply exp_pos. assert (Ps : 0 < Rpower s a) by apply exp_pos. set (t := Rpower s a * / Rpower e a) in *. assert (T0 : 0 < t) by (apply Rmult_lt_0_compat; [exact Ps|apply Rinv_0_lt_compat; exact Pe]).
  assert (TS : Rpower s a = t * Rpower e a) by (unfold t; field; lra).
  assert (G : 10 * u * (1 + t) <= 1 - t). { assert (u * t <= u * 1) by (apply Rmult_le_compat_l; lra). lra. }
  destruct (Rle_or_lt 0 b) as [BP|BN'].
  - assert (AB : b = a) by (symmetry; apply Rabs_pos_eq; exact BP). clearbody a. subst b. rewrite TS. replace (10 * u * ((Rpower e a + t * Rpower e a) / a)) with (Rpower e a / a * (10 * u * (1 + t))) by (field; lra).
    replace ((Rpower e a - t * Rpower e a) / a) with (Rpower e a / a * (1 - t)) by (field; lra). apply Rmult_le_compat_l; [left; apply Rdiv_lt_0_compat; lra|exact G].
  - assert (AB : b = - a) by (unfold a; rewrite Rabs_left by exact BN'; ring). clearbody a. subst b. rewrite !Rpower_Ropp, TS. replace (10 * u * ((/ Rpower e a + / (t * Rpower e a)) / a)) with (/ (t * Rpower e a * a) * (10 * u * (1 + t))) by (field; lra).
    replace ((/ Rpower e a - / (t * Rpower e a)) / - a) with (/ (t * Rpower e a * a) * (1 - t)) by (field; lra). apply Rmult_le_compat_l; [|exact G]. left. apply Rinv_0_lt_compat. apply Rmult_lt_0_compat; [apply Rmult_lt_0_compat; assumption|exact A0].
Qed.
Section X.
Variables (L s e o c : R).
Hypotheses (L0 : 0 < L) (O0 : 0 < o) (OE : o < e) (ES : e < s) (CB : / 2 <= c <= 2) (C1 : c <> 1).
Let K := L * Rpower o c.
Lemma k_size_y x : o <= x -> K * Rpower x (1 - c) <= L * x.
Proof.
  intros XO. replace (1 - c) with (1 + - c) by ring. rewrite Rpower_plus, Rpower_Ropp, Rpower_1 by lra. unfold K. assert (P : 0 < Rpower x c) by apply exp_pos. assert (Q := rpow_le o x c O0 XO ltac:(lra)).
  replace (L * Rpower o c * (x * / Rpower x c)) with (L * x * (Rpower o c / Rpower x c)) by (field; lra). rewrite <- (Rmult_1_r (L * x)) at 2. apply Rmult_le_compat_l; [apply Rmult_le_pos; lra|].
  apply Rmult_le_reg_r with (Rpower x c); [exact P|]. unfold Rdiv. rewrite Rmult_assoc, Rinv_l by lra. lra.
Qed.
Lemma curve_below_y : K * (Rpower s (1 - c) - Rpower e (1 - c)) / (1 - c) <= (1 - (1 - o / e) / 2) * (L * (s - e)).
Proof.
  set (la := Rpower (o / e) c). assert (LA : la <= 1 - (1 - o / e) / 2).
  { apply below_half; [|lra]. split; [apply Rdiv_lt_0_compat; lra|]. apply Rmult_lt_reg_r with e; [lra|]. unfold Rdiv. rewrite Rmult_assoc, Rinv_l by lra. lra. }
  apply Rle_trans with (la * (L * (s - e))); [|apply Rmult_le_compat_r; [left; apply Rmult_lt_0_compat; lra|exact LA]].
  destruct (MVT_cor2 (fun x => K / (1 - c) * Rpower x (1 - c) + - (la * L) * Rpower x 1) (fun x => K / (1 - c) * ((1 - c) * Rpower x (1 - c - 1)) + - (la * L) * (1 * Rpower x (1 - 1))) e s ES) as (x & M & XB).
  { intros x XB. apply (derivable_pt_lim_plus (fun x => K / (1 - c) * Rpower x (1 - c)) (fun x => - (la * L) * Rpower x 1)).
    - apply (derivable_pt_lim_scal (fun x => Rpower x (1 - c))). apply derivable_pt_lim_power. lra.
    - apply (derivable_pt_lim_scal (fun x => Rpower x 1)). apply derivable_pt_lim_power. lra. }
  assert (N : K / (1 - c) * ((1 - c) * Rpower x (1 - c - 1)) + - (la * L) * (1 * Rpower x (1 - 1)) <= 0).
  { replace (1 - 1) with 0 by ring. rewrite Rpower_O by lra. replace (1 - c - 1) with (- c) by ring. rewrite Rpower_Ropp.
    unfold la. rewrite ratio_pow by lra. assert (Q := rpow_le e x c ltac:(lra) ltac:(lra) ltac:(lra)). assert (P : 0 < Rpower o c) by apply exp_pos. assert (Pe : 0 < Rpower e c) by apply exp_pos. assert (I : / Rpower x c <= / Rpower e c) by (apply Rinv_le_contravar; lra). assert (Px : 0 < Rpower x c) by apply exp_pos. unfold K.
    replace (L * Rpower o c / (1 - c) * ((1 - c) * / Rpower x c) + - (Rpower o c * / Rpower e c * L) * (1 * 1)) with (- (L * Rpower o c * (/ Rpower e c - / Rpower x c))) by (field; lra).
    assert (0 <= L * Rpower o c * (/ Rpower e c - / Rpower x c)); [|lra]. apply Rmult_le_pos; [|lra]. apply Rmult_le_pos; lra. }
  assert (N2 : K / (1 - c) * Rpower s (1 - c) + - (la * L) * Rpower s 1 - (K / (1 - c) * Rpower e (1 - c) + - (la * L) * Rpower e 1) <= 0).
  { rewrite M. rewrite <- (Rmult_0_l (s - e)). apply Rmult_le_compat_r; lra. }
  rewrite !Rpower_1 in N2 by lra.
  replace (K * (Rpower s (1 - c) - Rpower e (1 - c)) / (1 - c)) with (K / (1 - c) * Rpower s (1 - c) - K / (1 - c) * Rpower e (1 - c)) by (field; lra). lra.
Qed.
End X.
Lemma near_y_c lm l o st e c : libm_pow lm -> power_c c -> fok st -> fok l -> fok o -> fok e -> 0 < fval l -> usual (fval o) -> usual (fval st) -> usual (fval e) ->
  usual (fval l / Rpower (fval o) (fval c)) -> usual (fval l / fval st) -> fval st < fval e -> fval e < fval o -> 64 * u53 * (fval o * fval o) <= Rabs (1 - fval c) * ((fval e - fval st) * (fval o - fval e)) ->
  let q := f_dx_from_l_drp_hmm lm l st e c o in let r := f_dx_from_l_drp l st e in fok q /\ fok r /\ fval r <= fval q <= 0 /\ - big <= fval r.
Proof.
  intros LP PC ST L O E L0 OU SU EU KU LU SE EO H. cbv zeta. destruct (usual_small _ OU) as [OS O0], (usual_small _ SU) as [SS S0], (usual_small _ EU) as [ES E0], (usual_small _ LU) as [LS LS0], (usual_small _ KU) as [_ K0].
  assert (U := u53_tiny). destruct (C126_f64_power_quote_x lm l o c st e LP PC L O ST E L0 OU SU EU KU) as (Q1 & x & Q2 & _ & Q3). destruct PC as (CF & CB & CD). pose proof (bpow_gt_0 radix2 (-60)) as P60.
  assert (C1 : fval c <> 1) by (intros Z; rewrite Z, Rminus_diag_eq, Rabs_R0 in CD by reflexivity; lra). destruct (product_x l st e L ST E L0 SS ltac:(lra) LS) as [R1 R2].
  assert (CI := pcurve_is (fval l / Rpower (fval o) (fval c)) (fval c - 2) (fval st) (fval e) ltac:(lra) S0 E0). replace (fval c - 2 + 1) with (fval c - 1) in CI by ring. assert (XV := curve_one _ _ _ _ _ _ S0 SE Q2 CI). clear Q2 CI.
  assert (CBW := curve_below (fval l) (fval st) (fval e) (fval o) (fval c) L0 S0 SE EO CB C1). rewrite <- XV in CBW.
  assert (Z1 := k_size (fval l) (fval o) (fval c) L0 CB (fval e) E0 ltac:(lra)). assert (Z2 := k_size (fval l) (fval o) (fval c) L0 CB (fval st) S0 ltac:(lra)).
  set (K := fval l / Rpower (fval o) (fval c)) in *. change unit53 with u53 in Q3. assert (AB : Rabs (1 - fval c) = Rabs (fval c - 1)) by apply Rabs_minus_sym. rewrite AB in *. set (a := Rabs (fval c - 1)) in *. assert (A1 : a <= 1) by (apply Rabs_le; lra). assert (A0 : 0 < a) by lra.
  assert (EL : fval l / fval e <= fval l / fval st) by (unfold Rdiv; apply Rmult_le_compat_l; [lra|apply Rinv_le_contravar; lra]).
  set (T := fval l / fval st) in *. set (o' := fval o) in *. set (s := fval st) in *. set (e' := fval e) in *. set (S := K * (Rpower e' (fval c - 1) + Rpower s (fval c - 1)) / a) in *.
  assert (DS : 0 < (e' - s) * (o' - e')) by (apply Rmult_lt_0_compat; lra).
  assert (H1 : 64 * u53 * o' <= a * (e' - s)). { apply Rmult_le_reg_r with o'; [lra|]. apply Rle_trans with (a * ((e' - s) * (o' - e'))); [lra|]. rewrite <- Rmult_assoc. apply Rmult_le_compat_l; [apply Rmult_le_pos; lra|lra]. }
  assert (U0 : u53 * e' <= u53 * o') by (apply Rmult_le_compat_l; lra). assert (U1 : 0 < u53 * o') by (apply Rmult_lt_0_compat; lra).
  assert (SX : 10 * u53 * S <= x).
  { assert (DF := diff_sum s e' (fval c - 1) u53 S0 SE ltac:(lra) A1 ltac:(lra) ltac:(fold a; lra)). fold a in DF. rewrite XV. unfold S.
    replace (10 * u53 * (K * (Rpower e' (fval c - 1) + Rpower s (fval c - 1)) / a)) with (K * (10 * u53 * ((Rpower e' (fval c - 1) + Rpower s (fval c - 1)) / a))) by (field; lra).
    replace (K * (Rpower e' (fval c - 1) - Rpower s (fval c - 1)) / (fval c - 1)) with (K * ((Rpower e' (fval c - 1) - Rpower s (fval c - 1)) / (fval c - 1))) by (field; lra). apply Rmult_le_compat_l; lra. }
  assert (ST2 : S <= 2 * T / a). { unfold S, Rdiv. apply Rmult_le_compat_r; [left; now apply Rinv_0_lt_compat|]. lra. }
  assert (IA : 1 <= / a) by (rewrite <- Rinv_1; apply Rinv_le_contravar; lra). assert (TA : T <= T / a) by (unfold Rdiv; rewrite <- (Rmult_1_r T) at 1; apply Rmult_le_compat_l; lra).
  assert (GAP : 26 * u53 * (T / a) <= (1 - e' / o') / 2 * (fval l * (/ s - / e'))).
  { replace ((1 - e' / o') / 2 * (fval l * (/ s - / e'))) with (T / a * (a * ((e' - s) * (o' - e')) / (2 * (e' * o')))) by (unfold T; field; lra). replace (26 * u53 * (T / a)) with (T / a * (26 * u53)) by ring.
    apply Rmult_le_compat_l; [lra|]. assert (EP : 0 < e' * o') by (apply Rmult_lt_0_compat; lra). apply Rmult_le_reg_r with (2 * (e' * o')); [lra|].
    replace (a * ((e' - s) * (o' - e')) / (2 * (e' * o')) * (2 * (e' * o'))) with (a * ((e' - s) * (o' - e'))) by (field; lra). eapply Rle_trans; [|exact H].
    assert (u53 * (e' * o') <= u53 * (o' * o')) by (apply Rmult_le_compat_l; [lra|apply Rmult_le_compat_r; lra]). assert (0 < u53 * (o' * o')) by (apply Rmult_lt_0_compat; [lra|apply Rmult_lt_0_compat; lra]). lra. }
  assert (US : u53 * S <= u53 * (2 * T / a)) by (apply Rmult_le_compat_l; lra). assert (UT : u53 * T <= u53 * (T / a)) by (apply Rmult_le_compat_l; lra).
  replace (u53 * (2 * T / a)) with (2 * (u53 * (T / a))) in US by (field; lra). split; [exact Q1|]. split; [exact R1|]. apply Rabs_le_inv in Q3. apply Rabs_le_inv in R2. split; [split; lra|].
  assert (X : fval l * (/ e' - / s) >= - T). { unfold T, Rdiv. rewrite Rmult_minus_distr_l. assert (0 < fval l * / e') by (apply Rmult_lt_0_compat; [lra|apply Rinv_0_lt_compat; lra]). lra. }
  assert (UL := ule T ltac:(lra)). destruct LU as [_ LU]. assert (bpow radix2 100 * 2 <= big). { assert (X1 : bpow radix2 101 = bpow radix2 100 * bpow radix2 1) by exact (bpow_plus radix2 100 1). change (bpow radix2 1) with 2 in X1. rewrite <- X1. apply bpow_le. lia. } lra.
Qed.
Lemma near_x_c lm l o st e c : libm_pow lm -> power_c c -> fok st -> fok l -> fok o -> fok e -> 0 < fval l -> usual (fval o) -> usual (fval st) -> usual (fval e) ->
  usual (fval l * Rpower (fval o) (fval c)) -> usual (fval l * fval st) -> fval e < fval st -> fval o < fval e -> 64 * u53 * (fval st * fval st) <= Rabs (1 - fval c) * ((fval st - fval e) * (fval e - fval o)) ->
  let q := f_dy_from_l_drp_hmm lm l st e c o in let r := f_dy_from_l_drp l st e in fok q /\ fok r /\ fval r <= fval q <= 0 /\ - big <= fval r.
Proof.
  intros LP PC ST L O E L0 OU SU EU KU LU ES OE H. cbv zeta. destruct (usual_small _ OU) as [OS O0], (usual_small _ SU) as [SS S0], (usual_small _ EU) as [ES' E0], (usual_small _ LU) as [LS LS0], (usual_small _ KU) as [_ K0].
  assert (U := u53_tiny). destruct (C126_f64_power_quote_y lm l o c st e LP PC L O ST E L0 OU SU EU KU) as (Q1 & x & Q2 & _ & Q3). destruct PC as (CF & CB & CD). pose proof (bpow_gt_0 radix2 (-60)) as P60.
  assert (C1 : fval c <> 1) by (intros Z; rewrite Z, Rminus_diag_eq, Rabs_R0 in CD by reflexivity; lra). destruct (product_y l st e L ST E L0 SS ltac:(lra) LS) as [R1 R2].
  assert (CI := pcurve_is (fval l * Rpower (fval o) (fval c)) (- fval c) (fval e) (fval st) ltac:(lra) E0 S0). replace (- fval c + 1) with (1 - fval c) in CI by ring. assert (XV := curve_one _ _ _ _ _ _ E0 ES Q2 CI). clear Q2 CI.
  assert (CBW := curve_below_y (fval l) (fval st) (fval e) (fval o) (fval c) L0 O0 OE ES CB C1). rewrite <- XV in CBW.
  assert (Z1 := k_size_y (fval l) (fval o) (fval c) L0 O0 CB (fval e) ltac:(lra)). assert (Z2 := k_size_y (fval l) (fval o) (fval c) L0 O0 CB (fval st) ltac:(lra)).
  set (K := fval l * Rpower (fval o) (fval c)) in *. change unit53 with u53 in Q3. set (a := Rabs (1 - fval c)) in *. assert (A1 : a <= 1) by (apply Rabs_le; lra). assert (A0 : 0 < a) by lra.
  assert (EL : fval l * fval e <= fval l * fval st) by (apply Rmult_le_compat_l; lra).
  set (T := fval l * fval st) in *. set (o' := fval o) in *. set (s := fval st) in *. set (e' := fval e) in *. set (S := K * (Rpower e' (1 - fval c) + Rpower s (1 - fval c)) / a) in *.
  assert (DS : 0 < (s - e') * (e' - o')) by (apply Rmult_lt_0_compat; lra).
  assert (H1 : 64 * u53 * s <= a * (s - e')). { apply Rmult_le_reg_r with s; [lra|]. apply Rle_trans with (a * ((s - e') * (e' - o'))); [lra|]. rewrite <- Rmult_assoc. apply Rmult_le_compat_l; [apply Rmult_le_pos; lra|lra]. }
  assert (U1 : 0 < u53 * s) by (apply Rmult_lt_0_compat; lra).
  assert (SX : 10 * u53 * S <= x).
  { assert (DF := diff_sum e' s (1 - fval c) u53 E0 ES ltac:(lra) A1 ltac:(lra) ltac:(fold a; lra)). fold a in DF. rewrite XV. unfold S.
    replace (10 * u53 * (K * (Rpower e' (1 - fval c) + Rpower s (1 - fval c)) / a)) with (K * (10 * u53 * ((Rpower s (1 - fval c) + Rpower e' (1 - fval c)) / a))) by (field; lra).
    replace (K * (Rpower s (1 - fval c) - Rpower e' (1 - fval c)) / (1 - fval c)) with (K * ((Rpower s (1 - fval c) - Rpower e' (1 - fval c)) / (1 - fval c))) by (field; lra). apply Rmult_le_compat_l; lra. }
  assert (ST2 : S <= 2 * T / a). { unfold S, Rdiv. apply Rmult_le_compat_r; [left; now apply Rinv_0_lt_compat|]. lra. }
  assert (IA : 1 <= / a) by (rewrite <- Rinv_1; apply Rinv_le_contravar; lra). assert (TA : T <= T / a) by (unfold Rdiv; rewrite <- (Rmult_1_r T) at 1; apply Rmult_le_compat_l; lra).
  assert (GAP : 26 * u53 * (T / a) <= (1 - o' / e') / 2 * (fval l * (s - e'))).
  { replace ((1 - o' / e') / 2 * (fval l * (s - e'))) with (T / a * (a * ((s - e') * (e' - o')) / (2 * (e' * s)))) by (unfold T; field; lra). replace (26 * u53 * (T / a)) with (T / a * (26 * u53)) by ring.
    apply Rmult_le_compat_l; [lra|]. assert (EP : 0 < e' * s) by (apply Rmult_lt_0_compat; lra). apply Rmult_le_reg_r with (2 * (e' * s)); [lra|].
    replace (a * ((s - e') * (e' - o')) / (2 * (e' * s)) * (2 * (e' * s))) with (a * ((s - e') * (e' - o'))) by (field; lra). eapply Rle_trans; [|exact H].
    assert (u53 * (e' * s) <= u53 * (s * s)) by (apply Rmult_le_compat_l; [lra|apply Rmult_le_compat_r; lra]). assert (0 < u53 * (s * s)) by (apply Rmult_lt_0_compat; [lra|apply Rmult_lt_0_compat; lra]). lra. }
  assert (US : u53 * S <= u53 * (2 * T / a)) by (apply Rmult_le_compat_l; lra). assert (UT : u53 * T <= u53 * (T / a)) by (apply Rmult_le_compat_l; lra).
  replace (u53 * (2 * T / a)) with (2 * (u53 * (T / a))) in US by (field; lra). split; [exact Q1|]. split; [exact R1|]. apply Rabs_le_inv in Q3. apply Rabs_le_inv in R2. split; [split; lra|].
  assert (X : fval l * (e' - s) >= - T). { unfold T. rewrite Rmult_minus_distr_l. assert (0 < fval l * e') by (apply Rmult_lt_0_compat; lra). fold s. lra. }
  assert (UL := ule T ltac:(lra)). destruct LU as [_ LU]. assert (bpow radix2 100 * 2 <= big). { assert (X1 : bpow radix2 101 = bpow radix2 100 * bpow radix2 1) by exact (bpow_plus radix2 100 1). change (bpow radix2 1) with 2 in X1. rewrite <- X1. apply bpow_le. lia. } lra.
Qed.
