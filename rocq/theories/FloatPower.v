(** The quotes of the f64 pool with C other than 1: lemmas. *)
From Coq Require Import ZArith Reals Lra Lia List Bool Floats.SpecFloat.
From Flocq Require Import Core BinarySingleNaN Sterbenz.
From Verif Require Import Base FloatBase FloatModel FloatFacts FloatWf FloatSwap FloatLp FloatFlow FloatFee FloatLog FloatLib FloatMove FloatCurve.
Open Scope R_scope.

Lemma ulp52 : / 4503599627370496 = 2 * u53.
Proof. unfold u53. change (/ 4503599627370496) with (bpow radix2 (-52)). change 2 with (bpow radix2 1). rewrite <- bpow_plus. reflexivity. Qed.
(** [1 - c] is exact for [c] from 1/2 to 2 *)
Lemma one_minus c : fok c -> / 2 <= fval c <= 2 -> fok (fsub f_one c) /\ fval (fsub f_one c) = 1 - fval c.
Proof.
  intros C B. destruct (sub_R' f_one c fok_one C) as [A E].
  { apply top_big. rewrite fval_one. pose proof big_ge. apply Rabs_le. lra. }
  split; [exact A|]. rewrite E, fval_one. assert (F1 : generic_format radix2 fexp64 1) by (rewrite <- fval_one; apply fval_fmt; apply fok_one).
  apply round_generic; [apply valid_rnd_N|]. apply sterbenz; [apply FLT_exp_valid; reflexivity|apply FLT_exp_monotone|exact F1|apply fval_fmt; apply C|]. lra.
Qed.
(** [k] approximates [K], [m1] and [m2] approximate [X1] and [X2], [W] is exact *)
Lemma pow_quote k m1 m2 w K X1 X2 : fok k -> fok m1 -> fok m2 -> fok w -> small <= K <= big -> 0 < X1 -> 0 < X2 ->
  Rabs (fval k - K) <= 3.2 * u53 * K -> Rabs (fval m1 - X1) <= 2 * u53 * X1 -> Rabs (fval m2 - X2) <= 2 * u53 * X2 -> X1 + X2 <= big ->
  small <= K * (X1 + X2) <= big -> 0 < Rabs (fval w) <= 1 -> K * (X1 + X2) / Rabs (fval w) <= big ->
  fok (fdiv (fmul k (fsub m1 m2)) w) /\ Rabs (fval (fdiv (fmul k (fsub m1 m2)) w) - K * (X1 - X2) / fval w) <= 10 * u53 * (K * (X1 + X2) / Rabs (fval w)).
Proof.
  intros KF A1 A2 WF KB X10 X20 KE E1 E2 MB KM W KMW. pose proof small_pos as SP. pose proof big_ge as BG. assert (U := u53_tiny). set (M := X1 + X2) in *.
  assert (UM := ule M ltac:(unfold M; lra)). assert (UX1 := ule X1 ltac:(lra)). assert (UX2 := ule X2 ltac:(lra)).
  assert (DE : Rabs ((fval m1 - fval m2) - (X1 - X2)) <= 2 * (u53 * M)). { replace ((fval m1 - fval m2) - (X1 - X2)) with ((fval m1 - X1) - (fval m2 - X2)) by ring. eapply Rle_trans; [apply Rabs_triang|]. rewrite Rabs_Ropp. unfold M. lra. }
  assert (XB : Rabs (X1 - X2) <= M) by (apply Rabs_le; unfold M; lra).
  assert (DB : Rabs (fval m1 - fval m2) <= 1.01 * M). { replace (fval m1 - fval m2) with (((fval m1 - fval m2) - (X1 - X2)) + (X1 - X2)) by ring. eapply Rle_trans; [apply Rabs_triang|]. lra. }
  destruct (sub_err m1 m2 A1 A2 ltac:(lra)) as [S1 S2]. set (s := fval (fsub m1 m2)) in *.
  assert (S3 : u53 * Rabs (fval m1 - fval m2) <= u53 * (1.01 * M)) by (apply Rmult_le_compat_l; lra).
  assert (SE : Rabs (s - (X1 - X2)) <= 3.02 * (u53 * M)). { replace (s - (X1 - X2)) with ((s - (fval m1 - fval m2)) + ((fval m1 - fval m2) - (X1 - X2))) by ring. eapply Rle_trans; [apply Rabs_triang|]. lra. }
  assert (SB : Rabs s <= 1.01 * M). { replace s with ((s - (X1 - X2)) + (X1 - X2)) by ring. eapply Rle_trans; [apply Rabs_triang|]. lra. }
  assert (K0 : 0 < K) by lra. assert (UK := ule K ltac:(lra)). set (Z := K * M) in *. assert (UZ := ule Z ltac:(lra)).
  assert (P1 : Rabs (fval k * s - K * (X1 - X2)) <= 6.3 * (u53 * Z)).
  { replace (fval k * s - K * (X1 - X2)) with ((fval k - K) * s + K * (s - (X1 - X2))) by ring. eapply Rle_trans; [apply Rabs_triang|]. rewrite !Rabs_mult, (Rabs_pos_eq K) by lra.
    assert (H1 : Rabs (fval k - K) * Rabs s <= 3.2 * u53 * K * (1.01 * M)) by (apply Rmult_le_compat; auto using Rabs_pos). assert (H2 : K * Rabs (s - (X1 - X2)) <= K * (3.02 * (u53 * M))) by (apply Rmult_le_compat_l; lra). unfold Z in *. lra. }
  assert (P2 : Rabs (K * (X1 - X2)) <= Z). { rewrite Rabs_mult, (Rabs_pos_eq K) by lra. apply Rmult_le_compat_l; lra. }
  assert (P3 : Rabs (fval k * s) <= 1.01 * Z). { replace (fval k * s) with ((fval k * s - K * (X1 - X2)) + K * (X1 - X2)) by ring. eapply Rle_trans; [apply Rabs_triang|]. lra. }
  destruct (mul_err k (fsub m1 m2) KF S1 ltac:(fold s; lra)) as [T1 T2]. fold s in T2. pose proof (eta_small Z ltac:(lra)) as ET. set (t := fval (fmul k (fsub m1 m2))) in *.
  assert (T3 : u53 * Rabs (fval k * s) <= u53 * (1.01 * Z)) by (apply Rmult_le_compat_l; lra).
  assert (TE : Rabs (t - K * (X1 - X2)) <= 7.4 * (u53 * Z)). { replace (t - K * (X1 - X2)) with ((t - fval k * s) + (fval k * s - K * (X1 - X2))) by ring. eapply Rle_trans; [apply Rabs_triang|]. lra. }
  assert (TB : Rabs t <= 1.01 * Z). { replace t with ((t - K * (X1 - X2)) + K * (X1 - X2)) by ring. eapply Rle_trans; [apply Rabs_triang|]. lra. }
  (* the division *)
  assert (W0 : fval w <> 0) by (intros E; rewrite E, Rabs_R0 in W; lra). assert (IW : 1 <= / Rabs (fval w)) by (rewrite <- Rinv_1; apply Rinv_le_contravar; lra).
  set (Q := Z / Rabs (fval w)) in *. assert (QZ : Z <= Q) by (unfold Q, Rdiv; rewrite <- (Rmult_1_r Z) at 1; apply Rmult_le_compat_l; lra). assert (UQ := ule Q ltac:(lra)).
  assert (AD : forall x, Rabs (x / fval w) = Rabs x * / Rabs (fval w)) by (intros x; unfold Rdiv; rewrite Rabs_mult, Rabs_inv; reflexivity).
  assert (V1 : Rabs (t / fval w) <= 1.01 * Q). { rewrite AD. unfold Q, Rdiv. rewrite <- Rmult_assoc. apply Rmult_le_compat_r; lra. }
  assert (V2 : Rabs (t / fval w - K * (X1 - X2) / fval w) <= 7.4 * (u53 * Q)).
  { replace (t / fval w - K * (X1 - X2) / fval w) with ((t - K * (X1 - X2)) / fval w) by (unfold Rdiv; ring). rewrite AD. replace (7.4 * (u53 * Q)) with (7.4 * (u53 * Z) * / Rabs (fval w)) by (unfold Q, Rdiv; ring). apply Rmult_le_compat_r; lra. }
  destruct (div_R' (fmul k (fsub m1 m2)) w T1 WF W0) as [D1 D2]. { apply top_big. fold t. lra. } fold t in D2. split; [exact D1|]. rewrite D2.
  pose proof (rnd_err (t / fval w)) as RE. pose proof (eta_small Q ltac:(lra)) as EQ. assert (V3 : u53 * Rabs (t / fval w) <= u53 * (1.01 * Q)) by (apply Rmult_le_compat_l; lra).
  replace (rnd (t / fval w) - K * (X1 - X2) / fval w) with ((rnd (t / fval w) - t / fval w) + (t / fval w - K * (X1 - X2) / fval w)) by ring. eapply Rle_trans; [apply Rabs_triang|]. lra.
Qed.

(** steps that end before the oracle price, with any C other than 0 *)
Lemma within_y_before lm p st g l d o w : fok st -> fok o -> fok (fw_rp w) -> feq (f_c p) f_zero = false -> fswap_within_y lm p st g l d o = Ok w -> fval st < fval o -> fval (fw_rp w) < fval o ->
  fw_send w = fmul (f_dx_from_l_drp_hmm lm l st (fw_rp w) (f_c p) o) (fsub f_one f_adj).
Proof.
  intros ST O EF C0 H SO OW. unfold fswap_within_y in H.
  destruct (fle d f_zero); [discriminate|]. destruct (flt (f_tick_to_rp lm g) st); [discriminate|]. destruct (flt (f_dy_from_l_drp _ _ _) f_zero); [discriminate|].
  mb H. destruct a as [[[[dn fe] cr] et] er]. clear E. mb H. rename a into dx.
  assert (ER : fw_rp w = er /\ fw_send w = fmul dx (fsub f_one f_adj)).
  { destruct (flt f_zero _); [discriminate|]. destruct (flt (fsub _ _) f_zero); [discriminate|]. destruct (flt (fadd (fx p) _) _); [discriminate|].
    unfold fwithin_new in H. repeat match type of H with (if ?b then Panic else _) = _ => destruct b; [discriminate|] end. injection H as <-. auto. }
  clear H. destruct ER as [ER ->]. rewrite ER in *. clear ER.
  assert (L1 : fle o st = false) by (rewrite fle_R by assumption; apply Rle_bool_false; lra).
  assert (L2 : fle o er = false) by (rewrite fle_R by assumption; apply Rle_bool_false; lra).
  rewrite C0, L1, L2, andb_false_r in E. cbn [orb] in E. destruct (flt er o); [|discriminate]. injection E as <-. reflexivity.
Qed.
Lemma within_x_before lm p st g l d o w : fok st -> fok o -> fok (fw_rp w) -> feq (f_c p) f_zero = false -> fswap_within_x lm p st g l d o = Ok w -> fval o < fval st -> fval o < fval (fw_rp w) ->
  fw_send w = fmul (f_dy_from_l_drp_hmm lm l st (fw_rp w) (f_c p) o) (fsub f_one f_adj).
Proof.
  intros ST O EF C0 H SO OW. unfold fswap_within_x in H.
  destruct (fle d f_zero); [discriminate|]. destruct (flt st (f_tick_to_rp lm g)); [discriminate|]. destruct (flt (f_dx_from_l_drp _ _ _) f_zero); [discriminate|].
  mb H. destruct a as [[[[dn fe] cr] et] er]. clear E. mb H. rename a into dy.
  assert (ER : fw_rp w = er /\ fw_send w = fmul dy (fsub f_one f_adj)).
  { destruct (flt f_zero _); [discriminate|]. destruct (flt (fsub _ _) f_zero); [discriminate|]. destruct (flt (fadd (fy p) _) _); [discriminate|].
    unfold fwithin_new in H. repeat match type of H with (if ?b then Panic else _) = _ => destruct b; [discriminate|] end. injection H as <-. auto. }
  clear H. destruct ER as [ER ->]. rewrite ER in *. clear ER.
  assert (L1 : fle st o = false) by (rewrite fle_R by assumption; apply Rle_bool_false; lra).
  assert (L2 : fle er o = false) by (rewrite fle_R by assumption; apply Rle_bool_false; lra).
  rewrite C0, L1, L2, andb_false_r in E. cbn [orb] in E. destruct (flt o er); [|discriminate]. injection E as <-. reflexivity.
Qed.
