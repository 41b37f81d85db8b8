(** C125: what the f64 pool pays with C = 1. *)
From Coq Require Import ZArith QArith Reals Qreals Lra Lia List Bool String Floats.SpecFloat.
From Flocq Require Import Core.
From Verif Require Import Base FloatBase FloatModel FloatFacts FloatWf FloatLp FloatFee FloatLog FloatLib FloatMove FloatCurve PropFlow PropFMove.
Import ListNotations.
Open Scope R_scope.

(** ** C125: with C = 1 the pool pays by the logarithmic curve *)
(** The curve: while the root price moves from [a] to [b], at root price [r] the amount changes by [K / r] per unit of root price.  For X, [K] is the liquidity over the oracle's
    root price; for Y it is the liquidity times that price (with the opposite direction). *)
Definition log_curve (K a b amount : R) : Prop := exists F : R -> R, F a = 0 /\ (forall r, 0 < r -> derivable_pt_lim F r (K / r)) /\ amount = F b.
(** numbers of ordinary size *)
Definition usual (x : R) : Prop := bpow radix2 (-100) <= x <= bpow radix2 100.
Definition unit53 : R := bpow radix2 (-53).

Lemma frat a v : Qeq_bool (fq a) v = true -> fval a = Q2R v. Proof. intros H. rewrite fq_val. apply Qeq_eqR, Qeq_bool_iff, H. Qed.
Lemma curve_is K a b : 0 < a -> 0 < b -> log_curve K a b (K * ln (b / a)).
Proof.
  intros A B. exists (fun r => K * (ln r - ln a)). split; [ring|]. split.
  - intros r R0. replace (K / r) with (K * (/ r - 0)) by (unfold Rdiv; ring). apply (derivable_pt_lim_scal (fun r => ln r - ln a) K r (/ r - 0)).
    apply (derivable_pt_lim_minus ln (fun _ => ln a)); [now apply derivable_pt_lim_ln|apply derivable_pt_lim_const].
  - unfold Rdiv. rewrite ln_mult, ln_Rinv by (auto using Rinv_0_lt_compat). ring.
Qed.
Lemma usual_small x : usual x -> FloatMove.small <= x <= big /\ 0 < x.
Proof.
  intros [A B]. assert (bpow radix2 (-400) <= bpow radix2 (-100)) by (apply bpow_le; lia). assert (bpow radix2 100 <= bpow radix2 400) by (apply bpow_le; lia).
  pose proof (bpow_gt_0 radix2 (-400)). unfold FloatMove.small, big. lra.
Qed.
Lemma usual_div x y : usual x -> usual y -> bpow radix2 (-200) <= x / y <= bpow radix2 200.
Proof.
  intros X Y. destruct (usual_small x X) as [_ X0], (usual_small y Y) as [_ Y0]. destruct X as [X1 X2], Y as [Y1 Y2]. pose proof (bpow_gt_0 radix2 (-100)) as P. pose proof (bpow_gt_0 radix2 100) as P'.
  assert (I1 : / y <= bpow radix2 100). { assert (X : bpow radix2 100 = / bpow radix2 (-100)) by exact (bpow_opp radix2 (-100)). rewrite X. apply Rinv_le_contravar; lra. }
  assert (I2 : bpow radix2 (-100) <= / y). { assert (X : bpow radix2 (-100) = / bpow radix2 100) by exact (bpow_opp radix2 100). rewrite X. apply Rinv_le_contravar; lra. }
  replace (-200)%Z with (-100 + -100)%Z by reflexivity. replace 200%Z with (100 + 100)%Z by reflexivity. rewrite !bpow_plus. unfold Rdiv. split; apply Rmult_le_compat; lra.
Qed.
Lemma quote_of lm k K a b : libm_ln lm -> fok k -> usual K -> Rabs (fval k - K) <= 1.02 * u53 * K -> fok a -> fok b -> usual (fval a) -> usual (fval b) ->
  fok (fmul k (m_ln lm (fdiv a b))) /\ Rabs (fval (fmul k (m_ln lm (fdiv a b))) - K * ln (fval a / fval b)) <= 6 * u53 * (K * (1 + Rabs (ln (fval a / fval b)))) /\
  K * Rabs (ln (fval a / fval b)) <= bpow radix2 300.
Proof.
  intros LN KF KU KE A B AU BU. destruct (usual_small _ KU) as [KS K0], (usual_small _ AU) as [_ A0], (usual_small _ BU) as [_ B0].
  pose proof (usual_div _ _ AU BU) as Q. pose proof (usual_div _ _ BU AU) as Q'. assert (S1 : FloatMove.small <= bpow radix2 (-200)) by (apply bpow_le; lia). assert (S2 : bpow radix2 200 <= big) by (apply bpow_le; lia).
  assert (Z : Rabs (ln (fval a / fval b)) <= bpow radix2 200).
  { pose proof small_pos. apply Rabs_le. pose proof (ln_le (fval a / fval b) ltac:(lra)). pose proof (ln_le (fval b / fval a) ltac:(lra)) as R. replace (fval b / fval a) with (/ (fval a / fval b)) in R at 1 by (field; lra).
    rewrite ln_Rinv in R by lra. lra. }
  assert (KZ : K * Rabs (ln (fval a / fval b)) <= bpow radix2 300). { replace 300%Z with (100 + 200)%Z by reflexivity. rewrite bpow_plus. apply Rmult_le_compat; try apply Rabs_pos; try lra; apply KU. }
  assert (S3 : bpow radix2 300 <= big) by (apply bpow_le; lia).
  destruct (log_quote lm k K a b LN KF ltac:(lra) KE A B A0 B0 ltac:(lra) ltac:(lra) ltac:(lra)) as [N1 N2]. auto.
Qed.

(** The quote for X (paid by Y swaps): right up to 6 rounding units. *)
Theorem C125_f64_log_quote_x : forall lm l o a b, libm_ln lm -> fok l -> fok o -> fok a -> fok b -> 0 < fval l -> 0 < fval o -> usual (fval l / fval o) -> usual (fval a) -> usual (fval b) ->
  let q := f_dx_from_l_drp_hmm lm l a b f_one o in
  fok q /\ exists x, log_curve (fval l / fval o) (fval a) (fval b) x /\ Rabs (- fval q - x) <= 6 * unit53 * (fval l / fval o + Rabs x).
Proof.
  intros lm l o a b LN L O A B L0 O0 KU AU BU. cbv zeta. unfold f_dx_from_l_drp_hmm. change (feq f_one f_one) with true. cbn iota.
  destruct (usual_small _ KU) as [KS K0], (usual_small _ AU) as [_ A0], (usual_small _ BU) as [_ B0]. pose proof small_pos.
  destruct (div_err l o L O O0 ltac:(lra)) as [D1 D2]. assert (UK := ule _ (Rlt_le _ _ K0)).
  destruct (quote_of lm (fdiv l o) (fval l / fval o) a b LN D1 KU ltac:(lra) A B AU BU) as (N1 & N2 & _). split; [exact N1|].
  exists (fval l / fval o * ln (fval b / fval a)). split; [now apply curve_is|]. set (K := fval l / fval o) in *.
  assert (E : ln (fval b / fval a) = - ln (fval a / fval b)). { replace (fval b / fval a) with (/ (fval a / fval b)) by (field; lra). apply ln_Rinv. now apply Rdiv_lt_0_compat. }
  rewrite E. set (z := ln (fval a / fval b)) in *. set (v := fval (fmul _ _)) in *. replace (- v - K * - z) with (- (v - K * z)) by ring. rewrite Rabs_Ropp.
  rewrite Rabs_mult, Rabs_Ropp, (Rabs_pos_eq K) by lra. change unit53 with u53. replace (6 * u53 * (K + K * Rabs z)) with (6 * u53 * (K * (1 + Rabs z))) by ring. exact N2.
Qed.
(** The quote for Y (paid by X swaps) is the curve with the wrong sign: the pool would pay minus what the curve frees. *)
Theorem C125_f64_log_quote_y_sign : forall lm l o a b, libm_ln lm -> fok l -> fok o -> fok a -> fok b -> 0 < fval l -> 0 < fval o -> usual (fval l * fval o) -> usual (fval a) -> usual (fval b) ->
  let q := f_dy_from_l_drp_hmm lm l a b f_one o in
  fok q /\ exists y, log_curve (fval l * fval o) (fval b) (fval a) y /\ Rabs (fval q - y) <= 6 * unit53 * (fval l * fval o + Rabs y).
Proof.
  intros lm l o a b LN L O A B L0 O0 KU AU BU. cbv zeta. unfold f_dy_from_l_drp_hmm. change (feq f_one f_one) with true. cbn iota.
  destruct (usual_small _ KU) as [KS K0], (usual_small _ AU) as [_ A0], (usual_small _ BU) as [_ B0]. pose proof small_pos. pose proof big_ge.
  assert (UK := ule _ (Rlt_le _ _ K0)). destruct (mul_err l o L O) as [D1 D2]; [rewrite Rabs_pos_eq; lra|]. pose proof (eta_small (fval l * fval o) ltac:(lra)). rewrite (Rabs_pos_eq (fval l * fval o)) in D2 by lra.
  destruct (quote_of lm (fmul l o) (fval l * fval o) a b LN D1 KU ltac:(lra) A B AU BU) as (N1 & N2 & _). split; [exact N1|].
  exists (fval l * fval o * ln (fval a / fval b)). split; [now apply curve_is|]. set (K := fval l * fval o) in *. rewrite Rabs_mult, (Rabs_pos_eq K) by lra. change unit53 with u53.
  set (z := ln (fval a / fval b)) in *. replace (6 * u53 * (K + K * Rabs z)) with (6 * u53 * (K * (1 + Rabs z))) by ring. exact N2.
Qed.
(** So the counterpart of the first theorem is false for Y, with every accurate library: liquidity 1, oracle 1, price from 2 to 1.  The curve frees ln 2 of Y (about 0.69). *)
Theorem C125_f64_log_quote_y_refuted : forall lm, libm_ln lm -> exists l o a b y, fok l /\ fok o /\ fok a /\ fok b /\ usual (fval l * fval o) /\ usual (fval a) /\ usual (fval b) /\ fval b < fval a /\
  log_curve (fval l * fval o) (fval b) (fval a) y /\ 0.5 < y /\ 0.5 < fval (f_dy_from_l_drp_hmm lm l a b f_one o).
Proof.
  intros lm LN. assert (T : fval (f_int 2) = 2) by (rewrite (frat (f_int 2) 2 eq_refl); unfold Q2R; cbn; lra). assert (F2 : fok (f_int 2)) by (split; reflexivity).
  assert (B0 : bpow radix2 (-100) <= 1) by (change 1 with (bpow radix2 0); apply bpow_le; lia). assert (B1 : 2 <= bpow radix2 100) by (change 2 with (bpow radix2 1); apply bpow_le; lia).
  assert (U1 : usual (fval f_one)) by (rewrite fval_one; unfold usual; lra). assert (U2 : usual (fval (f_int 2))) by (rewrite T; unfold usual; lra).
  assert (UK : usual (fval f_one * fval f_one)) by (rewrite fval_one, Rmult_1_r; unfold usual; lra).
  destruct (quote_of lm (fmul f_one f_one) 1 (f_int 2) f_one LN) as (_ & N & _); auto using fok_one.
  all: try (unfold usual; lra). { change (fmul f_one f_one) with f_one. rewrite fval_one, Rminus_diag_eq, Rabs_R0 by reflexivity. pose proof u53_pos. lra. }
  assert (L2 := ln2_in).
  rewrite T, fval_one in N. replace (2 / 1) with 2 in N by field. rewrite (Rabs_pos_eq (ln 2)) in N by lra.
  exists f_one, f_one, (f_int 2), f_one, (1 * ln (2 / 1)). do 4 (split; [first [exact fok_one|exact F2]|]). do 3 (split; [assumption|]). split; [rewrite T, fval_one; lra|].
  split; [rewrite T, fval_one, Rmult_1_r; apply curve_is; lra|]. replace (2 / 1) with 2 by field. split; [lra|]. unfold f_dy_from_l_drp_hmm. change (feq f_one f_one) with true. cbn iota.
  assert (U := u53_tiny). apply Rabs_le_inv in N. assert (u53 * ln 2 <= / 1000) by (apply Rle_trans with (u53 * 1); [apply Rmult_le_compat_l|]; lra). lra.
Qed.

(** One step of a Y swap with C = 1 that ends below the oracle price sends what the curve frees, less the pool's allowance of 10^-12, up to 9 rounding units. *)
Lemma keep_val : fok (fsub f_one f_adj) /\ Rabs (fval (fsub f_one f_adj) - (1 - / 1000000000000)) <= unit53.
Proof.
  split; [split; reflexivity|]. assert (A : Rabs (fval (fsub f_one f_adj) - (1 - / 1000000000000)) <= Q2R (1 # 9007199254740992)).
  { rewrite fq_val. set (q := fq (fsub f_one f_adj)). vm_compute in q. unfold q, Q2R. cbn [Qnum Qden]. apply Rabs_le. lra. }
  eapply Rle_trans; [exact A|]. unfold unit53, Q2R. cbn [Qnum Qden]. change (bpow radix2 (-53)) with (/ IZR 9007199254740992). lra.
Qed.
Theorem C125_f64_log_step_y : forall lm p st g l d o w, libm_ln lm -> feq (f_c p) f_one = true -> fok st -> fok l -> fok o -> fok (fw_rp w) -> 0 < fval l -> 0 < fval o ->
  usual (fval l / fval o) -> usual (fval st) -> usual (fval (fw_rp w)) -> fswap_within_y lm p st g l d o = Ok w -> fval (fw_rp w) < fval o ->
  exists x, log_curve (fval l / fval o) (fval st) (fval (fw_rp w)) x /\ 0 <= x /\ Rabs (- fval (fw_send w) - (1 - / 1000000000000) * x) <= 9 * unit53 * (fval l / fval o + x).
Proof.
  intros lm p st g l d o w LN C ST L O E L0 O0 KU SU EU H OW. destruct (within_y_one lm p st g l d o w ST O E C H OW) as [LE ->]. clear H.
  destruct (usual_small _ KU) as [KS K0], (usual_small _ SU) as [_ A0], (usual_small _ EU) as [_ B0]. pose proof small_pos. pose proof big_ge. assert (U := u53_tiny).
  assert (Q := C125_f64_log_quote_x lm l o st (fw_rp w) LN L O ST E L0 O0 KU SU EU). cbv zeta in Q. destruct Q as (N1 & _).
  assert (UK := ule _ (Rlt_le _ _ K0)). destruct (div_err l o L O O0 ltac:(lra)) as [D1 D2].
  destruct (quote_of lm (fdiv l o) (fval l / fval o) st (fw_rp w) LN D1 KU ltac:(lra) ST E SU EU) as (_ & N2 & N3).
  unfold f_dx_from_l_drp_hmm in *. change (feq f_one f_one) with true in *. cbn iota in *. set (q := fmul (fdiv l o) (m_ln lm (fdiv st (fw_rp w)))) in *. set (K := fval l / fval o) in *.
  assert (R : 1 <= fval (fw_rp w) / fval st) by (apply Rmult_le_reg_r with (fval st); [exact A0|]; unfold Rdiv; rewrite Rmult_assoc, Rinv_l by lra; lra).
  assert (Z0 : 0 <= ln (fval (fw_rp w) / fval st)) by (rewrite <- ln_1; destruct (Rle_lt_or_eq_dec _ _ R) as [|<-]; [left; apply ln_increasing; lra|lra]).
  assert (EZ : ln (fval st / fval (fw_rp w)) = - ln (fval (fw_rp w) / fval st)). { replace (fval st / fval (fw_rp w)) with (/ (fval (fw_rp w) / fval st)) by (field; lra). apply ln_Rinv. lra. }
  rewrite EZ, Rabs_Ropp in N2, N3. set (z := ln (fval (fw_rp w) / fval st)) in *. rewrite (Rabs_pos_eq z) in N2, N3 by exact Z0. exists (K * z). split; [now apply curve_is|].
  assert (X0 : 0 <= K * z) by (apply Rmult_le_pos; lra). split; [exact X0|]. destruct keep_val as [C1 C2]. change unit53 with u53 in *. set (c := fval (fsub f_one f_adj)) in *. set (x := K * z) in *.
  replace (K * (1 + z)) with (K + x) in N2 by (unfold x; ring). replace (fval q - K * - z) with (fval q + x) in N2 by (unfold x; ring). set (e := / 1000000000000) in *.
  assert (E0 : 0 < e < / 1000) by (unfold e; lra). assert (UX := ule x X0). assert (S3 : bpow radix2 300 <= big) by (apply bpow_le; lia).
  assert (QB : Rabs (fval q) <= 1.01 * x + 0.01 * K). { replace (fval q) with ((fval q + x) - x) by ring. eapply Rle_trans; [apply Rabs_triang|]. rewrite Rabs_Ropp, (Rabs_pos_eq x) by exact X0. lra. }
  assert (CB : Rabs c <= 1.001). { apply Rabs_le_inv in C2. apply Rabs_le. lra. }
  assert (P1 : Rabs (fval q * c + (1 - e) * x) <= 7.1 * (u53 * x) + 6.1 * (u53 * K)).
  { replace (fval q * c + (1 - e) * x) with ((fval q + x) * c - x * (c - (1 - e))) by ring. eapply Rle_trans; [apply Rabs_triang|]. rewrite Rabs_Ropp, !Rabs_mult, (Rabs_pos_eq x) by exact X0.
    assert (H1 : Rabs (fval q + x) * Rabs c <= 6 * u53 * (K + x) * 1.001) by (apply Rmult_le_compat; auto using Rabs_pos). assert (H2 : x * Rabs (c - (1 - e)) <= x * u53) by (apply Rmult_le_compat_l; lra). lra. }
  assert (P2 : Rabs (fval q * c) <= 1.1 * x + 0.1 * K).
  { replace (fval q * c) with ((fval q * c + (1 - e) * x) - (1 - e) * x) by ring. eapply Rle_trans; [apply Rabs_triang|]. assert (0 <= (1 - e) * x <= x) by (split; [apply Rmult_le_pos; lra|rewrite <- (Rmult_1_l x) at 2; apply Rmult_le_compat_r; lra]).
    rewrite Rabs_Ropp, (Rabs_pos_eq ((1 - e) * x)) by lra. lra. }
  destruct (mul_err q (fsub f_one f_adj) N1 C1) as [M1 M2]; [fold c; lra|]. fold c in M2. pose proof (eta_small K ltac:(lra)) as ET.
  assert (P3 : u53 * Rabs (fval q * c) <= u53 * (1.1 * x + 0.1 * K)) by (apply Rmult_le_compat_l; lra). set (v := fval (fmul q (fsub f_one f_adj))) in *.
  replace (- v - (1 - e) * x) with (- ((v - fval q * c) + (fval q * c + (1 - e) * x))) by ring. rewrite Rabs_Ropp. eapply Rle_trans; [apply Rabs_triang|]. lra.
Qed.

(** A step that passes the oracle price [o] sends what the logarithmic curve frees up to [o] and what the constant product curve frees from there on: above [o] the reserve of X at
    root price [r] is [L / r].  Up to 24 rounding units. *)
Lemma kept q x K c : fok q -> 0 <= x <= bpow radix2 302 -> usual K -> 0 <= c <= 20 -> Rabs (fval q + x) <= c * (u53 * (K + x)) ->
  Rabs (- fval (fmul q (fsub f_one f_adj)) - (1 - / 1000000000000) * x) <= (c + 4) * u53 * (K + x).
Proof.
  intros N1 [X0 XB] KU CB N2. destruct (usual_small _ KU) as [KS K0]. pose proof FloatMove.small_pos. pose proof big_ge. assert (U := u53_tiny). assert (UK := ule (K + x) ltac:(lra)).
  destruct keep_val as [C1 C2]. change unit53 with u53 in *. set (k := fval (fsub f_one f_adj)) in *. set (e := / 1000000000000) in *. assert (E0 : 0 < e < / 1000) by (unfold e; lra).
  assert (S3 : 4 * bpow radix2 302 <= big) by (change 4 with (bpow radix2 2); rewrite <- bpow_plus; apply bpow_le; lia). set (s := K + x) in *. set (us := u53 * s) in *.
  assert (CU : 0 <= c * us <= 20 * us) by (split; [apply Rmult_le_pos|apply Rmult_le_compat_r]; lra).
  assert (QB : Rabs (fval q) <= 1.1 * s). { replace (fval q) with ((fval q + x) - x) by ring. eapply Rle_trans; [apply Rabs_triang|]. rewrite Rabs_Ropp, (Rabs_pos_eq x) by exact X0. unfold s in *. lra. }
  assert (KB : Rabs (k - 1) <= u53 + e). { replace (k - 1) with ((k - (1 - e)) - e) by ring. eapply Rle_trans; [apply Rabs_triang|]. rewrite Rabs_Ropp, (Rabs_pos_eq e) by lra. lra. }
  assert (K1 : Rabs k <= 1.01). { replace k with ((k - 1) + 1) by ring. eapply Rle_trans; [apply Rabs_triang|]. rewrite Rabs_R1. lra. }
  assert (P1 : Rabs (fval q * k + (1 - e) * x) <= c * us * 1.01 + us).
  { replace (fval q * k + (1 - e) * x) with ((fval q + x) * k - x * (k - (1 - e))) by ring. eapply Rle_trans; [apply Rabs_triang|]. rewrite Rabs_Ropp, !Rabs_mult, (Rabs_pos_eq x) by exact X0.
    assert (H1 : Rabs (fval q + x) * Rabs k <= c * us * 1.01) by (apply Rmult_le_compat; auto using Rabs_pos). assert (H2 : x * Rabs (k - (1 - e)) <= s * u53) by (apply Rmult_le_compat; try apply Rabs_pos; unfold s; lra). unfold us in *. lra. }
  assert (P2 : Rabs (fval q * k) <= 1.2 * s). { rewrite Rabs_mult. apply Rle_trans with (1.1 * s * 1.01); [apply Rmult_le_compat; auto using Rabs_pos|]. unfold s. lra. }
  assert (SB : s <= 2 * big) by (unfold s; lra). destruct (mul_err q (fsub f_one f_adj) N1 C1) as [M1 M2]; [fold k; lra|]. fold k in M2. pose proof (eta_small s ltac:(unfold s; lra)) as ET.
  assert (P3 : u53 * Rabs (fval q * k) <= u53 * (1.2 * s)) by (apply Rmult_le_compat_l; lra). set (v := fval (fmul q (fsub f_one f_adj))) in *.
  replace (- v - (1 - e) * x) with (- ((v - fval q * k) + (fval q * k + (1 - e) * x))) by ring. rewrite Rabs_Ropp. eapply Rle_trans; [apply Rabs_triang|].
  replace ((c + 4) * u53 * s) with (c * us + 4 * us) by (unfold us; ring). replace (u53 * (1.2 * s)) with (1.2 * us) in P3 by (unfold us; ring). replace (/ 100 * u53 * s) with (/ 100 * us) in ET by (unfold us; ring). lra.
Qed.
Theorem C125_f64_log_past_y : forall lm p st g l d o w, libm_ln lm -> feq (f_c p) f_one = true -> fok st -> fok l -> fok o -> fok (fw_rp w) -> 0 < fval l ->
  usual (fval l / fval o) -> usual (fval st) -> usual (fval o) -> usual (fval (fw_rp w)) -> fswap_within_y lm p st g l d o = Ok w -> fval st < fval o <= fval (fw_rp w) ->
  exists x1, log_curve (fval l / fval o) (fval st) (fval o) x1 /\ 0 <= x1 /\ let x := x1 + (fval l / fval o - fval l / fval (fw_rp w)) in
  Rabs (- fval (fw_send w) - (1 - / 1000000000000) * x) <= 24 * unit53 * (fval l / fval o + x).
Proof.
  intros lm p st g l d o w LN C ST L O E L0 KU SU OU EU H OW. rewrite (within_y_past lm p st g l d o w ST O E C H OW). clear H.
  destruct (usual_small _ KU) as [KS K0], (usual_small _ SU) as [_ A0], (usual_small _ EU) as [ES B0], (usual_small _ OU) as [OS O0]. pose proof FloatMove.small_pos. pose proof big_ge. assert (U := u53_tiny).
  assert (UK := ule _ (Rlt_le _ _ K0)). destruct (div_err l o L O O0 ltac:(lra)) as [D1 D2].
  destruct (quote_of lm (fdiv l o) (fval l / fval o) st o LN D1 KU ltac:(lra) ST O SU OU) as (N1 & N2 & N3). destruct (flat_quote l o (fw_rp w) L O E L0 ltac:(lra) ltac:(lra) ltac:(lra)) as [F1 F2].
  unfold f_dx_from_l_drp_hmm. change (feq f_one f_one) with true. cbn iota. set (q := fmul (fdiv l o) (m_ln lm (fdiv st o))) in *. set (f := f_dx_from_l_drp l o (fw_rp w)) in *.
  assert (R : 1 < fval o / fval st) by (apply Rmult_lt_reg_r with (fval st); [exact A0|]; unfold Rdiv; rewrite Rmult_assoc, Rinv_l by lra; lra).
  assert (Z0 : 0 < ln (fval o / fval st)) by (rewrite <- ln_1; apply ln_increasing; lra).
  assert (EZ : ln (fval st / fval o) = - ln (fval o / fval st)). { replace (fval st / fval o) with (/ (fval o / fval st)) by (field; lra). apply ln_Rinv. lra. }
  rewrite EZ, Rabs_Ropp in N2, N3. assert (CI := curve_is (fval l / fval o) (fval st) (fval o) A0 O0). set (z := ln (fval o / fval st)) in *. rewrite (Rabs_pos_eq z) in N2, N3 by lra.
  assert (I : 0 < / fval (fw_rp w) <= / fval o) by (split; [apply Rinv_0_lt_compat; lra|apply Rinv_le_contravar; lra]).
  assert (FX : 0 <= fval l / fval o - fval l / fval (fw_rp w) <= fval l / fval o).
  { unfold Rdiv. assert (0 <= fval l * / fval (fw_rp w)) by (apply Rmult_le_pos; lra). assert (fval l * / fval (fw_rp w) <= fval l * / fval o) by (apply Rmult_le_compat_l; lra). lra. }
  replace (fval l * (/ fval (fw_rp w) - / fval o)) with (- (fval l / fval o - fval l / fval (fw_rp w))) in F2 by (unfold Rdiv; ring).
  set (x2 := fval l / fval o - fval l / fval (fw_rp w)) in *. set (K := fval l / fval o) in *. assert (X0 : 0 <= K * z) by (apply Rmult_le_pos; lra).
  exists (K * z). split; [exact CI|]. split; [exact X0|]. cbv zeta. set (x1 := K * z) in *. replace (K * (1 + z)) with (K + x1) in N2 by (unfold x1; ring). replace (fval q - K * - z) with (fval q + x1) in N2 by (unfold x1; ring).
  replace (fval f - - x2) with (fval f + x2) in F2 by ring. assert (UX := ule x1 X0). assert (UX2 := ule x2 ltac:(lra)). change unit53 with u53.
  assert (S3 : bpow radix2 300 * 4 = bpow radix2 302) by (change 4 with (bpow radix2 2); rewrite <- bpow_plus; reflexivity). assert (S4 : bpow radix2 302 <= big) by (apply bpow_le; lia).
  assert (S5 : K <= bpow radix2 300) by (apply Rle_trans with (bpow radix2 100); [apply KU|apply bpow_le; lia]).
  assert (T1 : Rabs (fval q + fval f + (x1 + x2)) <= 12 * (u53 * K) + 6 * (u53 * x1)). { replace (fval q + fval f + (x1 + x2)) with ((fval q + x1) + (fval f + x2)) by ring. eapply Rle_trans; [apply Rabs_triang|]. lra. }
  assert (T2 : Rabs (fval q + fval f) <= 1.1 * (K + x1 + x2)). { replace (fval q + fval f) with ((fval q + fval f + (x1 + x2)) - (x1 + x2)) by ring. eapply Rle_trans; [apply Rabs_triang|]. rewrite Rabs_Ropp, (Rabs_pos_eq (x1 + x2)) by lra. lra. }
  destruct (sum_err q f N1 F1) as [A1 A2]; [lra|]. pose proof (eta_small K ltac:(lra)) as ET.
  assert (T3 : u53 * Rabs (fval q + fval f) <= u53 * (1.1 * (K + x1 + x2))) by (apply Rmult_le_compat_l; lra).
  replace 24 with (20 + 4) by lra. apply kept; [exact A1|lra|exact KU|lra|]. replace (fval (fadd q f) + (x1 + x2)) with ((fval (fadd q f) - (fval q + fval f)) + (fval q + fval f + (x1 + x2))) by ring.
  eapply Rle_trans; [apply Rabs_triang|]. lra.
Qed.

(** a case: a library as accurate as demanded, price from about 0.50005 up to tick 2 (about 1.0001), oracle 2, liquidity 1000: the step is made and sends about 346.57, which is 500 ln 2 *)
Definition f_half : f64 := S754_finite false 4503599627370496 (-53).
Definition gnu2 : libm := patch_ln gnu f_half (fneg g_ln2).
Lemma gnu2_ln : libm_ln gnu2.
Proof.
  assert (H : fval f_half = / 2) by (rewrite (frat f_half (1 # 2) eq_refl); unfold Q2R; cbn; lra). assert (T := ln2_near). destruct two_val as [_ TV]. rewrite TV in T.
  apply patch_ln_ln; [exact gnu_ln|discriminate|split; reflexivity|]. rewrite H, ln_Rinv, Rabs_Ropp by lra.
  replace (fval (fneg g_ln2)) with (- fval g_ln2) by (rewrite !fq_val, <- Q2R_opp; apply Qeq_eqR, Qeq_bool_iff; reflexivity). replace (- fval g_ln2 - - ln 2) with (- (fval g_ln2 - ln 2)) by ring. rewrite Rabs_Ropp. exact T.
Qed.
Definition one_st : f64 := S754_finite false 4504049987333232 (-53).
Definition one_p : fpool := mkFPool 1 (mkFG (f_int 1000) one_st 0 (mkF4 f_zero f_zero f_zero f_zero)) [] [] (f_int 5000) (f_int 5000) f_zero f_zero f_zero f_zero f_one f_zero.
Example C125_case : libm_ln gnu2 /\ feq (f_c one_p) f_one = true /\ usual (1000 / 2) /\ exists w, fswap_within_y gnu2 one_p one_st 2 (f_int 1000) (f_int 1000) (f_int 2) = Ok w /\
  fw_rp w = g_p2 /\ usual (fval one_st) /\ usual (fval g_p2) /\ fval g_p2 < fval (f_int 2) /\ 346 < - fval (fw_send w) < 347.
Proof.
  assert (B0 : bpow radix2 (-100) <= / 1048576) by (change (/ 1048576) with (bpow radix2 (-20)); apply bpow_le; lia). assert (B1 : 1048576 <= bpow radix2 100) by (change 1048576 with (bpow radix2 20); apply bpow_le; lia).
  split; [exact gnu2_ln|]. split; [reflexivity|]. split; [unfold usual; lra|]. eexists. split; [vm_compute; reflexivity|]. split; [reflexivity|].
  assert (S1 := qle (1 # 4) one_st eq_refl). assert (S2 := qge 1 one_st eq_refl). assert (G1 := qle 1 g_p2 eq_refl). assert (G2 := qge (3 # 2) g_p2 eq_refl).
  rewrite (frat (f_int 2) 2 eq_refl). unfold Q2R in *. cbn [Qnum Qden] in S1, S2, G1, G2. split; [unfold usual; lra|]. split; [unfold usual; lra|]. split; [cbn [Qnum Qden]; lra|]. cbn [fw_send].
  match goal with |- 346 < - fval ?a < 347 => assert (W1 := qle (-346999 # 1000) a eq_refl); assert (W2 := qge (-346001 # 1000) a eq_refl) end. unfold Q2R in W1, W2. cbn [Qnum Qden] in W1, W2. lra.
Qed.
Print Assumptions C125_f64_log_quote_x.
Print Assumptions C125_f64_log_quote_y_sign.
Print Assumptions C125_f64_log_quote_y_refuted.
Print Assumptions C125_f64_log_step_y.
(** a case past the oracle price: from 0.5 over the oracle at 1 to tick 2; 1000 ln 2 and about 0.1 are sent *)
Example C125_past_case : libm_ln gnu2 /\ exists w, fswap_within_y gnu2 one_p f_half 2 (f_int 1000) (f_int 1000) f_one = Ok w /\ fval f_half < fval f_one < fval (fw_rp w) /\ 693.24 < - fval (fw_send w) < 693.25.
Proof.
  split; [exact gnu2_ln|]. eexists. split; [vm_compute; reflexivity|]. rewrite fval_one, (frat f_half (1 # 2) eq_refl). assert (G1 := qle (100005 # 100000) g_p2 eq_refl). cbn [fw_send fw_rp].
  match goal with |- _ /\ 693.24 < - fval ?a < 693.25 => assert (W1 := qle (-693249 # 1000) a eq_refl); assert (W2 := qge (-693241 # 1000) a eq_refl) end. unfold Q2R in *. cbn [Qnum Qden] in *.
  split; [|lra]. change (1 * / 2 < 1 < fval g_p2). lra.
Qed.
Print Assumptions C125_f64_log_past_y.
