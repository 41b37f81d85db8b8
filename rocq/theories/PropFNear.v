(** C127: swaps of the f64 pool that end close to the oracle price. *)
From Coq Require Import ZArith QArith Reals Qreals Lra Lia List Bool String Floats.SpecFloat.
From Flocq Require Import Core.
From Verif Require Import Base FloatBase FloatModel FloatFacts FloatWf FloatLp FloatFee FloatLog FloatLib FloatWit FloatMove FloatCurve FloatPower PropFlow PropFMove PropFPay PropFCurve PropFPower FloatNear FloatNearC.
Import ListNotations.
Open Scope R_scope.

(** ** C127: a swap is not refused because its adjustment is small *)
(** The curves for C = 2: moving the root price up from [s] to [e] at liquidity [L], the constant product pays [L / s - L / e] of X; the HMM curve with oracle root price [o] pays
    [L / o^2 * (e - s)].  Below the oracle price the second is the smaller one, always, so that the adjustment (what is held back) is positive. *)
Definition pays_product (L s e : R) : R := L / s - L / e.
Definition pays_hmm2 (L s e o : R) : R := L / (o * o) * (e - s).
Theorem C127_curve_holds_back : forall L s e o, 0 < L -> 0 < s -> s < e -> e <= o -> pays_hmm2 L s e o < pays_product L s e.
Proof.
  intros L s e o L0 S SE EO. unfold pays_hmm2, pays_product. replace (L / s - L / e) with (L * (e - s) * / (s * e)) by (field; lra).
  replace (L / (o * o) * (e - s)) with (L * (e - s) * / (o * o)) by (field; lra). apply Rmult_lt_compat_l; [apply Rmult_lt_0_compat; lra|].
  assert (P : 0 < s * e) by (apply Rmult_lt_0_compat; lra). assert (Q : s * e < o * o) by (apply Rlt_le_trans with (o * e); [apply Rmult_lt_compat_r; lra|apply Rmult_le_compat_l; lra]).
  apply Rinv_lt_contravar; [apply Rmult_lt_0_compat; lra|exact Q].
Qed.

(** The other way, the root price falling from [s] to [e]: [L * (s - e)] of Y against [L * o^2 * (1 / e - 1 / s)]. *)
Definition pays_product_y (L s e : R) : R := L * (s - e).
Definition pays_hmm2_y (L s e o : R) : R := L * (o * o) * (/ e - / s).
Theorem C127_curve_holds_back_y : forall L s e o, 0 < L -> 0 < o -> o <= e -> e < s -> pays_hmm2_y L s e o < pays_product_y L s e.
Proof.
  intros L s e o L0 O OE ES. unfold pays_hmm2_y, pays_product_y. replace (L * (o * o) * (/ e - / s)) with (L * (s - e) * (o * o * / (e * s))) by (field; lra).
  rewrite <- (Rmult_1_r (L * (s - e))) at 2. apply Rmult_lt_compat_l; [apply Rmult_lt_0_compat; lra|].
  assert (P : 0 < e * s) by (apply Rmult_lt_0_compat; lra). assert (Q : o * o < e * s) by (apply Rle_lt_trans with (e * o); [apply Rmult_le_compat_r; lra|apply Rmult_lt_compat_l; lra]).
  apply Rmult_lt_reg_r with (e * s); [exact P|]. rewrite Rmult_assoc, Rinv_l by lra. lra.
Qed.

Lemma inv_sq r : 0 < r -> Rpower r (-1 - 1) = / (r * r).
Proof. intros R. replace (-1 - 1) with (- (2)) by ring. rewrite Rpower_Ropp, pow2 by exact R. reflexivity. Qed.
Lemma below_one x c : 0 < x < 1 -> 0 < c -> Rpower x c < 1.
Proof. intros X C. assert (LX : ln x < 0) by (rewrite <- ln_1; apply ln_increasing; lra). unfold Rpower. rewrite <- exp_0. apply exp_increasing. assert (0 < c * - ln x) by (apply Rmult_lt_0_compat; lra). lra. Qed.
(** The same for every positive C (1 included), on the curves of C126. *)
Theorem C127_curve_holds_back_c : forall L s e o c x, 0 < L -> 0 < s -> s < e -> e <= o -> 0 < c -> pow_curve (L / Rpower o c) (c - 2) s e x -> x < pays_product L s e.
Proof.
  intros L s e o c x L0 S SE EO C (F & F1 & F2 & ->). unfold pays_product.
  destruct (MVT_cor2 (fun r => F r + L * Rpower r (-1)) (fun r => L / Rpower o c * Rpower r (c - 2) + L * (-1 * Rpower r (-1 - 1))) s e SE) as (r & M & RB).
  { intros r RB. apply (derivable_pt_lim_plus F (fun r => L * Rpower r (-1))); [apply F2; lra|]. apply (derivable_pt_lim_scal (fun r => Rpower r (-1))). apply derivable_pt_lim_power. lra. }
  rewrite inv_sq in M by lra. assert (I : forall y, 0 < y -> Rpower y (-1) = / y) by (intros y Y; replace (-1) with (- (1)) by ring; rewrite Rpower_Ropp, Rpower_1 by exact Y; reflexivity). rewrite !I in M by lra.
  replace (c - 2) with (c + (-1 - 1)) in M by ring. rewrite Rpower_plus, inv_sq in M by lra.
  assert (B := below_one (r / o) c). rewrite ratio_pow in B by lra. assert (R : 0 < r / o < 1). { split; [apply Rdiv_lt_0_compat; lra|]. apply Rmult_lt_reg_r with o; [lra|]. unfold Rdiv. rewrite Rmult_assoc, Rinv_l by lra. lra. }
  specialize (B R C). set (t := Rpower r c * / Rpower o c) in *. assert (Q : 0 < / (r * r)) by (apply Rinv_0_lt_compat; apply Rmult_lt_0_compat; lra).
  replace (L / Rpower o c * (Rpower r c * / (r * r)) + L * (-1 * / (r * r))) with (- (L * / (r * r) * (1 - t))) in M by (unfold t, Rdiv; ring).
  assert (N : 0 < L * / (r * r) * (1 - t) * (e - s)) by (repeat apply Rmult_lt_0_compat; lra). unfold Rdiv. lra.
Qed.
Theorem C127_curve_holds_back_y_c : forall L s e o c y, 0 < L -> 0 < o -> o <= e -> e < s -> 0 < c -> pow_curve (L * Rpower o c) (- c) e s y -> y < pays_product_y L s e.
Proof.
  intros L s e o c y L0 O OE ES C (F & F1 & F2 & ->). unfold pays_product_y.
  destruct (MVT_cor2 (fun r => F r - L * id r) (fun r => L * Rpower o c * Rpower r (- c) - L * 1) e s ES) as (r & M & RB).
  { intros r RB. apply (derivable_pt_lim_minus F (fun r => L * id r)); [apply F2; lra|]. apply (derivable_pt_lim_scal id). apply derivable_pt_lim_id. }
  unfold id in M. rewrite Rpower_Ropp in M.
  assert (B := below_one (o / r) c). rewrite ratio_pow in B by lra. assert (R : 0 < o / r < 1). { split; [apply Rdiv_lt_0_compat; lra|]. apply Rmult_lt_reg_r with r; [lra|]. unfold Rdiv. rewrite Rmult_assoc, Rinv_l by lra. lra. }
  specialize (B R C). set (t := Rpower o c * / Rpower r c) in *.
  replace (L * Rpower o c * / Rpower r c - L * 1) with (- (L * (1 - t))) in M by (unfold t; ring).
  assert (N : 0 < L * (1 - t) * (s - e)) by (repeat apply Rmult_lt_0_compat; lra). lra.
Qed.
Example C127_curve_case : exists x y, pow_curve (1000 / Rpower 3 (3 / 2)) (3 / 2 - 2) 1 2 x /\ x < pays_product 1000 1 2 /\ pow_curve (1000 * Rpower 1 (3 / 2)) (- (3 / 2)) 2 3 y /\ y < pays_product_y 1000 3 2.
Proof.
  assert (X := pcurve_is (1000 / Rpower 3 (3 / 2)) (3 / 2 - 2) 1 2 ltac:(lra) ltac:(lra) ltac:(lra)). assert (Y := pcurve_is (1000 * Rpower 1 (3 / 2)) (- (3 / 2)) 2 3 ltac:(lra) ltac:(lra) ltac:(lra)).
  eexists. eexists. split; [exact X|]. split; [eapply C127_curve_holds_back_c; [| | | | |exact X]; lra|]. split; [exact Y|]. eapply C127_curve_holds_back_y_c; [| | | | |exact Y]; lra.
Qed.
(** A swap that goes past the oracle price is paid on the HMM curve up to it and by the constant product from there: still less than by the constant product alone. *)
Theorem C127_curve_past_oracle : forall L s e o c x, 0 < L -> 0 < s -> s < o -> o < e -> 0 < c -> pow_curve (L / Rpower o c) (c - 2) s o x -> x + pays_product L o e < pays_product L s e.
Proof. intros L s e o c x L0 S SO OE C X. assert (H := C127_curve_holds_back_c L s o o c x L0 S SO ltac:(lra) C X). unfold pays_product in *. lra. Qed.
Theorem C127_curve_past_oracle_y : forall L s e o c y, 0 < L -> 0 < e -> e < o -> o < s -> 0 < c -> pow_curve (L * Rpower o c) (- c) o s y -> y + pays_product_y L o e < pays_product_y L s e.
Proof. intros L s e o c y L0 E EO OS C Y. assert (H := C127_curve_holds_back_y_c L s o o c y L0 ltac:(lra) ltac:(lra) OS C Y). unfold pays_product_y in *. lra. Qed.
Example C127_past_curve_case : exists x y, pow_curve (1000 / Rpower 2 (3 / 2)) (3 / 2 - 2) 1 2 x /\ x + pays_product 1000 2 3 < pays_product 1000 1 3 /\ pow_curve (1000 * Rpower 2 (3 / 2)) (- (3 / 2)) 2 3 y /\ y + pays_product_y 1000 2 1 < pays_product_y 1000 3 1.
Proof.
  assert (X := pcurve_is (1000 / Rpower 2 (3 / 2)) (3 / 2 - 2) 1 2 ltac:(lra) ltac:(lra) ltac:(lra)). assert (Y := pcurve_is (1000 * Rpower 2 (3 / 2)) (- (3 / 2)) 2 3 ltac:(lra) ltac:(lra) ltac:(lra)).
  eexists. eexists. split; [exact X|]. split; [eapply C127_curve_past_oracle; [| | | | |exact X]; lra|]. split; [exact Y|]. eapply C127_curve_past_oracle_y; [| | | | |exact Y]; lra.
Qed.

(** The library: [wlm] with five more logarithms, and the powers 1, -1 and 2 correctly rounded. *)
Definition near_ln : libm := more_ln (more_ln (more_ln (more_ln (more_ln wlm (F 9006912581133275 (-52)) (F 6243028089995541 (-53))) (F 9006912586731777 (-52)) (F 6243028095594222 (-53)))
  (F 9006912423260943 (-52)) (F 6243027932118183 (-53))) (F 9006912425500200 (-52)) (F 6243027934357512 (-53))) (F 9006912421021683 (-52)) (F 6243027929878852 (-53)).
Definition near_lm : libm :=
  mkLibm (m_ln near_ln) (fun a b => if f_same b f_one then a else if f_same (fneg b) f_one then fdiv f_one a else if f_same b (f_int 2) then fmul a a else m_powf near_ln a b).
Lemma near_lm_ok : libm_ok near_lm.
Proof.
  assert (T : libm_ok near_ln) by (repeat (apply more_ok; [|vm_compute; reflexivity]); exact wlm_ok).
  destruct T as [A B]. split; [exact A|]. intros a b HA HB. cbn [near_lm m_powf]. destruct (f_same b f_one); [exact HA|].
  destruct (f_same (fneg b) f_one); [now apply div_ok|]. destruct (f_same b (f_int 2)); [now apply mul_ok|exact (B a b HA HB)].
Qed.
(** The pool: root price 1.9999363 (tick 13863), fee 0.003, C = 2, one position of 10^9 X and almost 4 * 10^9 Y. *)
Definition near_new : res fpool := fpool_new near_lm (f_int 2) 1 (f_int 2) (F 6917529027641082 (-61)).
Definition near_p0 : fpool := Eval vm_compute in match near_new with Ok p => p | _ => nopool end.
Definition near_p : fpool := Eval vm_compute in match fdeposit near_lm near_p0 "a" (f_int 1000000000) (f_int 5000000000) pay_a pay_b with Ok (p, _, _) => p | _ => nopool end.
Lemma near_reach : freach near_lm near_p.
Proof.
  assert (E : exists xd yd, fdeposit near_lm near_p0 "a" (f_int 1000000000) (f_int 5000000000) pay_a pay_b = Ok (near_p, xd, yd)) by (eexists; eexists; vm_compute; reflexivity). destruct E as (xd & yd & E).
  refine (fr_dep near_lm _ _ _ _ _ _ _ _ _ _ _ _ E); try (vm_compute; reflexivity). assert (N : near_new = Ok near_p0) by (vm_compute; reflexivity). refine (fr_new near_lm _ _ _ _ _ _ _ N); vm_compute; reflexivity.
Qed.
(** what the theorems below say of the library: the three powers that a swap at C = 2 takes are the nearest floats *)
Definition exact_powers (lm : libm) : Prop := forall a, m_powf lm a f_one = a /\ m_powf lm a (fneg f_one) = fdiv f_one a /\ m_powf lm a (f_int 2) = fmul a a.
Lemma near_powers : exact_powers near_lm.
Proof.
  intros a. assert (A : f_same f_one f_one = true) by (vm_compute; reflexivity). assert (B : f_same (fneg f_one) f_one = false) by (vm_compute; reflexivity).
  assert (C : f_same (fneg (fneg f_one)) f_one = true) by (vm_compute; reflexivity). assert (D : f_same (f_int 2) f_one = false) by (vm_compute; reflexivity).
  assert (E : f_same (fneg (f_int 2)) f_one = false) by (vm_compute; reflexivity). assert (G : f_same (f_int 2) (f_int 2) = true) by (vm_compute; reflexivity).
  cbn [near_lm m_powf]. rewrite A, B, C, D, E, G. repeat split.
Qed.
(** the oracle root prices 1.99993635 and 1.99993631, one hundred-millionth away from that of the pool *)
Definition near_up : f64 := F 9006912600624710 (-52).
Definition near_down : f64 := F 9006912420480725 (-52).
(** Full claim: a swap that the pool has the liquidity for goes through.  False: of 6500 and 7000 Y the first is refused, whatever number of steps is allowed, and the second goes through;
    6500 Y go through too when the oracle price is one and nothing is held back.  The pool has over 9 * 10^8 X. *)
Theorem C127_f64_small_adjustment_y_refuted : exists lm p o, libm_ok lm /\ exact_powers lm /\ freach lm p /\ f_c p = f_int 2 /\ fval (fglbl_rp p) < fval o /\ 900000000 < fval (fx p) /\
  (forall n, fexecute_swap_y lm (S n) p (f_int 6500) o = Panic) /\
  (exists q r, fexecute_swap_y lm 2 p (f_int 7000) o = Ok (q, r) /\ fso_recv r = f_int 7000 /\ fval (fglbl_rp q) < fval o) /\
  (exists q r, fexecute_swap_y lm 2 p (f_int 6500) f_one = Ok (q, r) /\ fso_recv r = f_int 6500).
Proof.
  exists near_lm, near_p, near_up. split; [exact near_lm_ok|]. split; [exact near_powers|]. split; [exact near_reach|]. split; [reflexivity|].
  split; [rewrite !fq_val; apply Qlt_Rlt; vm_compute; reflexivity|]. split.
  { assert (A : (900000000 # 1 < fq (fx near_p))%Q) by (vm_compute; reflexivity). apply Qlt_Rlt in A. rewrite <- fq_val in A. unfold Q2R in A; cbn [Qnum Qden] in A. lra. }
  split; [intros n; vm_compute; reflexivity|]. split; [|eexists; eexists; split; vm_compute; reflexivity].
  eexists. eexists. split; [vm_compute; reflexivity|]. split; [vm_compute; reflexivity|]. rewrite !fq_val. apply Qlt_Rlt. vm_compute. reflexivity.
Qed.
(** 1850 X and 1950 X go through, 1900 X do not. *)
Theorem C127_f64_small_adjustment_x_refuted : exists lm p o, libm_ok lm /\ exact_powers lm /\ freach lm p /\ f_c p = f_int 2 /\ fval o < fval (fglbl_rp p) /\ 3000000000 < fval (fy p) /\
  (forall n, fexecute_swap_x lm (S n) p (f_int 1900) o = Panic) /\
  (forall d, d = f_int 1850 \/ d = f_int 1950 -> exists q r, fexecute_swap_x lm 2 p d o = Ok (q, r) /\ fso_recv r = d /\ fval o < fval (fglbl_rp q)).
Proof.
  exists near_lm, near_p, near_down. split; [exact near_lm_ok|]. split; [exact near_powers|]. split; [exact near_reach|]. split; [reflexivity|].
  split; [rewrite !fq_val; apply Qlt_Rlt; vm_compute; reflexivity|]. split.
  { assert (A : (3000000000 # 1 < fq (fy near_p))%Q) by (vm_compute; reflexivity). apply Qlt_Rlt in A. rewrite <- fq_val in A. unfold Q2R in A; cbn [Qnum Qden] in A. lra. }
  split; [intros n; vm_compute; reflexivity|].
  intros d [-> | ->]; eexists; eexists; (split; [vm_compute; reflexivity|]; split; [vm_compute; reflexivity|]; rewrite !fq_val; apply Qlt_Rlt; vm_compute; reflexivity).
Qed.
(** case: the curves between the prices of those swaps *)
Example C127_case : pays_hmm2 401008066362 1.9999363 1.99993634 1.99993635 < pays_product 401008066362 1.9999363 1.99993634 /\
  pays_hmm2_y 401008066362 1.99993632 1.99993631 1.9999363 < pays_product_y 401008066362 1.99993632 1.99993631.
Proof. split; [apply C127_curve_holds_back|apply C127_curve_holds_back_y]; lra. Qed.

(** What holds, for C from 1/2 to 2 other than 1: a step that goes through when nothing is held back (oracle price [o'] already passed) also goes through when the oracle price is [o], if the
    two distances, from the start to the end of the step and from there to the oracle price, have a product, times the distance of C from 1, of 64 rounding units of the squared price or
    more (for C = 2, 2^-23 of the price each will do).  The same amount is taken in, the price moves to the same place, and no more is sent than without the adjustment. *)
Theorem C127_f64_adjusted_step_y_partial : forall lm p st g l d o o' w, let c := f_c p in libm_pow lm -> power_c c -> fok st -> fok l -> fok o -> fok o' -> fok (fw_rp w) -> 0 < fval l ->
  usual (fval o) -> usual (fval st) -> usual (fval (fw_rp w)) -> usual (fval l / Rpower (fval o) (fval c)) -> usual (fval l / fval st) ->
  fval o' <= fval st -> fswap_within_y lm p st g l d o' = Ok w -> fval st < fval (fw_rp w) < fval o ->
  64 * unit53 * (fval o * fval o) <= Rabs (1 - fval c) * ((fval (fw_rp w) - fval st) * (fval o - fval (fw_rp w))) ->
  exists w', fswap_within_y lm p st g l d o = Ok w' /\ fw_recv w' = fw_recv w /\ fw_rp w' = fw_rp w /\ fw_tick w' = fw_tick w /\ fw_cross w' = fw_cross w /\ fw_fee w' = fw_fee w /\
    0 <= - fval (fw_send w') <= - fval (fw_send w).
Proof.
  intros lm p st g l d o o' w c LP C ST L O O' E L0 OU SU EU KU LU OL H [SE EO] N. destruct (near_y_c lm l o st (fw_rp w) c LP C ST L O E L0 OU SU EU KU LU SE EO N) as (Q & R0 & QR & B).
  destruct (kept_order _ _ Q R0 QR B) as (K1 & K2 & K3 & K4 & K5). destruct (within_y_swap lm p st g l d o o' w ST O O' E (not_zero _ C) OL ltac:(lra) EO H K4 K5) as [W1 W2].
  eexists. split; [exact W2|]. cbn [fw_recv fw_rp fw_tick fw_cross fw_fee fw_send]. rewrite W1. fold c. repeat (split; [reflexivity|]). lra.
Qed.
Theorem C127_f64_adjusted_step_x_partial : forall lm p st g l d o o' w, let c := f_c p in libm_pow lm -> power_c c -> fok st -> fok l -> fok o -> fok o' -> fok (fw_rp w) -> 0 < fval l ->
  usual (fval o) -> usual (fval st) -> usual (fval (fw_rp w)) -> usual (fval l * Rpower (fval o) (fval c)) -> usual (fval l * fval st) ->
  fval st <= fval o' -> fswap_within_x lm p st g l d o' = Ok w -> fval o < fval (fw_rp w) < fval st ->
  64 * unit53 * (fval st * fval st) <= Rabs (1 - fval c) * ((fval st - fval (fw_rp w)) * (fval (fw_rp w) - fval o)) ->
  exists w', fswap_within_x lm p st g l d o = Ok w' /\ fw_recv w' = fw_recv w /\ fw_rp w' = fw_rp w /\ fw_tick w' = fw_tick w /\ fw_cross w' = fw_cross w /\ fw_fee w' = fw_fee w /\
    0 <= - fval (fw_send w') <= - fval (fw_send w).
Proof.
  intros lm p st g l d o o' w c LP C ST L O O' E L0 OU SU EU KU LU OL H [OE ES] N. destruct (near_x_c lm l o st (fw_rp w) c LP C ST L O E L0 OU SU EU KU LU ES OE N) as (Q & R0 & QR & B).
  destruct (kept_order _ _ Q R0 QR B) as (K1 & K2 & K3 & K4 & K5). destruct (within_x_swap lm p st g l d o o' w ST O O' E (not_zero _ C) OL ltac:(lra) OE H K4 K5) as [W1 W2].
  eexists. split; [exact W2|]. cbn [fw_recv fw_rp fw_tick fw_cross fw_fee fw_send]. rewrite W1. fold c. repeat (split; [reflexivity|]). lra.
Qed.
(** cases: C = 2, liquidity 1000; from 0.5 up to tick 2 (about 1.0001) with the oracle at 2, and from 2 down to tick 2 with the oracle at 1 *)
Example C127_step_case : libm_pow pw /\ power_c (f_c two_p) /\
  (exists w, fswap_within_y pw two_p f_half 2 (f_int 1000) (f_int 1000) f_half = Ok w /\ fval f_half < fval (fw_rp w) < fval (f_int 2) /\
     64 * unit53 * (fval (f_int 2) * fval (f_int 2)) <= Rabs (1 - fval (f_int 2)) * ((fval (fw_rp w) - fval f_half) * (fval (f_int 2) - fval (fw_rp w))) /\ usual (fval (f_int 1000) / Rpower (fval (f_int 2)) (fval (f_int 2))) /\ usual (fval (f_int 1000) / fval f_half)) /\
  (exists w, fswap_within_x pw two_p (f_int 2) 2 (f_int 1000) (f_int 1000) (f_int 2) = Ok w /\ fval f_one < fval (fw_rp w) < fval (f_int 2) /\
     64 * unit53 * (fval (f_int 2) * fval (f_int 2)) <= Rabs (1 - fval (f_int 2)) * ((fval (f_int 2) - fval (fw_rp w)) * (fval (fw_rp w) - fval f_one)) /\ usual (fval (f_int 1000) * Rpower (fval f_one) (fval (f_int 2))) /\ usual (fval (f_int 1000) * fval (f_int 2))).
Proof.
  assert (T : fval (f_int 2) = 2) by exact two_val. assert (T' : fval (f_int 1000) = 1000) by (rewrite (frat (f_int 1000) 1000 eq_refl); unfold Q2R; cbn; lra).
  assert (H : fval f_half = / 2) by (rewrite (frat f_half (1 # 2) eq_refl); unfold Q2R; cbn; lra).
  assert (G0 : 1.00009 <= fval g_p2) by (assert (X := qle (100009 # 100000) g_p2 eq_refl); unfold Q2R in X; cbn [Qnum Qden] in X; lra).
  assert (G1 : fval g_p2 <= 1.1) by (assert (X := qge (11 # 10) g_p2 eq_refl); unfold Q2R in X; cbn [Qnum Qden] in X; lra).
  assert (B0 : bpow radix2 (-100) <= 1) by (change 1 with (bpow radix2 0); apply bpow_le; lia). assert (B1 : 4096 <= bpow radix2 100) by (change 4096 with (bpow radix2 12); apply bpow_le; lia).
  assert (U : unit53 <= / 1000000000000) by (unfold unit53; change (bpow radix2 (-53)) with (/ IZR 9007199254740992); lra).
  assert (R2 : Rabs (1 - 2) = 1) by (rewrite Rabs_left; lra).
  split; [exact pw_pow|]. split; [exact two_c|]. split; (eexists; split; [vm_compute; reflexivity|]; cbn [fw_rp]).
  - match goal with |- context [fval (S754_finite ?a ?b ?c)] => change (S754_finite a b c) with g_p2 end. rewrite T, T', H, R2, pow2, Rmult_1_l by lra. unfold usual. split; [lra|]. split; [|lra].
    apply Rle_trans with (/ 2 * / 2); [lra|]. apply Rmult_le_compat; lra.
  - match goal with |- context [fval (S754_finite ?a ?b ?c)] => change (S754_finite a b c) with g_p2 end. rewrite T, T', fval_one, R2, pow2, Rmult_1_l by lra. unfold usual. split; [lra|]. split; [|lra].
    apply Rle_trans with (/ 2 * / 100000); [lra|]. apply Rmult_le_compat; lra.
Qed.

Print Assumptions C127_curve_holds_back.
Print Assumptions C127_curve_holds_back_y.
Print Assumptions C127_f64_small_adjustment_y_refuted.
Print Assumptions C127_f64_small_adjustment_x_refuted.
Print Assumptions C127_f64_adjusted_step_y_partial.
Print Assumptions C127_f64_adjusted_step_x_partial.
Print Assumptions C127_curve_holds_back_c.
Print Assumptions C127_curve_holds_back_y_c.
Print Assumptions C127_curve_past_oracle.
Print Assumptions C127_curve_past_oracle_y.
