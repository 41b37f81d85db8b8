(** The f64 part of [bit_length] (decimal.rs:912-919) and the conversion of a [Decimal] to f64 (decimal.rs:547-551), on the f64 operations of
    FloatBase.v.  With them the logarithm of the library no longer depends on an arbitrary oracle but on the function [ln] of the platform only. *)
From Coq Require Import ZArith QArith Qreals Reals Lra Lia Bool Psatz Floats.SpecFloat.
From Flocq Require Import Core BinarySingleNaN Relative.
From Verif Require Import Base BaseLemmas DecimalModel DecimalSpec FloatBase FloatFacts LnSeries LnAccuracy LnUse.
Open Scope R_scope.

(** [as u128]: truncates, saturates, NaN becomes 0 *)
Definition f_to_u128 (x : f64) : Z :=
  match x with
  | S754_finite false m e => Z.min (2 ^ 128 - 1) (if 0 <=? e then Z.shiftl (Zpos m) e else Z.shiftr (Zpos m) (- e))
  | S754_infinity false => 2 ^ 128 - 1
  | _ => 0
  end%Z.
(** [f64::abs], [f64::is_sign_negative] (the sign of a NaN is not specified; taken as positive) *)
Definition f_abs (x : f64) : f64 :=
  match x with
  | S754_finite _ m e => S754_finite false m e
  | S754_infinity _ => S754_infinity false
  | S754_zero _ => S754_zero false
  | S754_nan => S754_nan
  end.
Definition f_sign (x : f64) : bool := match x with S754_finite s _ _ | S754_infinity s | S754_zero s => s | S754_nan => false end.
Definition f_two : f64 := S754_finite false 4503599627370496 (-51).
(** decimal.rs:547-551: [value as f64 / denominator as f64]; the sign is not used *)
Definition into_f64 (v s : Z) : f64 := fdiv (f_int v) (f_int (10 ^ s)).
(** decimal.rs:912-918 *)
Definition f64_log2 (lm : libm) : log2_oracle := fun v s =>
  let l := flog lm (into_f64 v s) f_two in
  (f_to_u128 (fmul (f_abs l) (f_int (10 ^ s))), f_sign l).

(** A library whose [ln] is right within one unit in the last place (and exact at 1). *)
Definition libm_ln (lm : libm) : Prop :=
  m_ln lm f_one = f_zero /\
  forall x, fok x -> 0 < fval x -> fok (m_ln lm x) /\ Rabs (fval (m_ln lm x) - ln (fval x)) <= / 4503599627370496 * Rabs (ln (fval x)).

(** *** relative error of one operation *)
Lemma rnd_rel x : bpow radix2 (-1022) <= Rabs x -> Rabs (rnd x - x) <= u53 * Rabs x.
Proof.
  intros H. pose proof (relative_error_N_FLT radix2 (SpecFloat.emin 53 1024) 53 prec53 (fun z => negb (Z.even z)) x H) as E.
  change (FLT_exp (SpecFloat.emin 53 1024) 53) with fexp64 in E. unfold rnd.
  eapply Rle_trans; [exact E|]. apply Rmult_le_compat_r; [apply Rabs_pos|]. right. unfold u53.
  change (/ 2) with (bpow radix2 (-1)). rewrite <- bpow_plus. reflexivity.
Qed.
Lemma tiny_small : bpow radix2 (-1022) <= / 10 ^ 40.
Proof.
  apply Rle_trans with (bpow radix2 (-200)); [apply bpow_le; lia|]. unfold bpow.
  apply Rinv_le_contravar; [apply pow_lt; lra|]. rewrite pow_IZR. apply IZR_le. apply Z.leb_le. vm_compute. reflexivity.
Qed.
Lemma big_top : 10 ^ 60 <= bpow radix2 1000.
Proof.
  apply Rle_trans with (bpow radix2 200); [|apply bpow_le; lia]. unfold bpow. rewrite pow_IZR. apply IZR_le. apply Z.leb_le. vm_compute. reflexivity.
Qed.
Lemma rnd_rel' x : / 10 ^ 40 <= Rabs x <= 10 ^ 60 -> Rabs (rnd x - x) <= u53 * Rabs x /\ Rabs (rnd x) < top.
Proof.
  intros [L U]. assert (E := rnd_rel x (Rle_trans _ _ _ tiny_small L)). split; [exact E|].
  apply Rle_lt_trans with (rnd (bpow radix2 1000)).
  - unfold rnd. rewrite <- round_NE_abs by auto with typeclass_instances. apply rnd_le. eapply Rle_trans; [exact U|exact big_top].
  - unfold rnd. rewrite round_generic; auto with typeclass_instances.
    + apply bpow_lt. lia.
    + apply generic_format_bpow. unfold SpecFloat.fexp, SpecFloat.emin. lia.
Qed.

(** *** integers *)
Lemma f_int_big z : (0 < z < 10 ^ 60)%Z -> fok (f_int z) /\ fval (f_int z) = rnd (IZR z) /\ Rabs (fval (f_int z) - IZR z) <= u53 * IZR z.
Proof.
  intros H. unfold f_int. rewrite bn_equiv.
  pose proof (binary_normalize_correct 53 1024 _ _ mode_NE z 0 false) as C.
  cbv zeta in C. replace (F2R (Float radix2 z 0)) with (IZR z) in C by (unfold F2R; cbn; ring).
  change (round radix2 fexp64 (round_mode mode_NE) (IZR z)) with (rnd (IZR z)) in C.
  assert (Z1 : 1 <= IZR z) by (apply (IZR_le 1); lia).
  assert (ZU : IZR z <= 10 ^ 60) by (rewrite pow_IZR; apply IZR_le; change (Z.of_nat 60) with 60%Z; lia).
  assert (T : / 10 ^ 40 <= 1) by (rewrite <- Rinv_1; apply Rinv_le_contravar; [lra|]; rewrite pow_IZR; apply (IZR_le 1); apply Z.leb_le; vm_compute; reflexivity).
  assert (AB : Rabs (IZR z) = IZR z) by (apply Rabs_pos_eq; lra).
  destruct (rnd_rel' (IZR z)) as [R1 R2]; [rewrite AB; lra|].
  rewrite Rlt_bool_true in C by exact R2. destruct C as (C1 & C2 & _). rewrite AB in R1.
  split; [split; [apply b_ok|now rewrite b_fin]|]. rewrite b_val, C1. split; [reflexivity|exact R1].
Qed.
Lemma u128_floor x : fok x -> 0 <= fval x -> fval x < IZR (2 ^ 128) -> f_to_u128 x = Zfloor (fval x).
Proof.
  intros [V F] P U. destruct x as [s|s| |s m e]; try discriminate.
  - cbn. symmetry. apply Zfloor_IZR.
  - destruct s.
    + exfalso. unfold fval, SF2R, F2R in P. cbn [Fnum Fexp cond_Zopp] in P. assert (0 < bpow radix2 e) by apply bpow_gt_0.
      assert (IZR (- Zpos m) < 0) by (apply (IZR_lt _ 0); lia). nra.
    + cbn [f_to_u128]. assert (Q : Zfloor (fval (S754_finite false m e)) = if (0 <=? e)%Z then Z.shiftl (Zpos m) e else Z.shiftr (Zpos m) (- e)).
      { unfold fval, SF2R, F2R. cbn [Fnum Fexp cond_Zopp]. destruct (Z.leb_spec 0 e) as [L|L].
        - rewrite <- IZR_Zpower by exact L. rewrite <- mult_IZR, Zfloor_IZR. now rewrite Z.shiftl_mul_pow2.
        - rewrite Z.shiftr_div_pow2 by lia. rewrite <- Zfloor_div by (apply Z.pow_nonzero; lia). f_equal. unfold Rdiv. f_equal.
          rewrite <- (Z.opp_involutive e) at 1. rewrite bpow_opp. f_equal. rewrite <- IZR_Zpower by lia. reflexivity. }
      rewrite <- Q. apply Z.min_r. assert (Zfloor (fval (S754_finite false m e)) < 2 ^ 128)%Z; [|lia].
      apply lt_IZR. eapply Rle_lt_trans; [apply Zfloor_lb|exact U].
Qed.
Lemma abs_R x : fok x -> fok (f_abs x) /\ fval (f_abs x) = Rabs (fval x).
Proof.
  intros [V F]. destruct x as [s|s| |s m e]; try discriminate.
  - split; [split; reflexivity|]. cbn. now rewrite Rabs_R0.
  - split; [split; [exact V|reflexivity]|]. unfold fval, SF2R. cbn [f_abs]. rewrite <- F2R_Zabs. f_equal. f_equal. now destruct s.
Qed.
Lemma sign_R x : fok x -> fval x <> 0 -> f_sign x = Rlt_bool (fval x) 0.
Proof.
  intros [V F] N. destruct x as [s|s| |s m e]; try discriminate.
  - now destruct N.
  - unfold fval, SF2R, F2R in *. cbn [Fnum Fexp f_sign] in *. assert (0 < bpow radix2 e) by apply bpow_gt_0.
    destruct s; cbn [cond_Zopp] in *.
    + assert (IZR (- Zpos m) < 0) by (apply (IZR_lt _ 0); lia). rewrite Rlt_bool_true; [reflexivity|nra].
    + assert (0 < IZR (Zpos m)) by (apply (IZR_lt 0); lia). rewrite Rlt_bool_false; [reflexivity|nra].
Qed.

(** *** the f64 logarithm to base 2 *)
Lemma ln2_in : 693 / 1000 < ln 2 < 694 / 1000.
Proof. destruct ln2_units as [A B]. unfold units12 in A, B. lra. Qed.
Lemma ln_shift x X h : 0 < X -> 0 <= h <= / 2 -> Rabs (x - X) <= h * X -> 0 < x /\ Rabs (ln x - ln X) <= 2 * h.
Proof.
  intros P [H0 H1] E. apply Rabs_le_inv in E. assert (x0 : 0 < x) by nra. split; [exact x0|].
  destruct (Rle_or_lt X x) as [L|L].
  - destruct (ln_close x X P L) as [A B]. rewrite Rabs_pos_eq by exact A. eapply Rle_trans; [exact B|].
    apply Rmult_le_reg_r with X; [exact P|]. unfold Rdiv. rewrite Rmult_assoc, Rinv_l by lra. nra.
  - destruct (ln_close X x x0 ltac:(lra)) as [A B]. rewrite Rabs_left1 by lra. replace (- (ln x - ln X)) with (ln X - ln x) by ring. eapply Rle_trans; [exact B|].
    apply Rmult_le_reg_r with x; [exact x0|]. unfold Rdiv. rewrite Rmult_assoc, Rinv_l by lra. nra.
Qed.
Definition e12 : R := 1000000000000.
Lemma den12 : fok (f_int (10 ^ 12)) /\ fval (f_int (10 ^ 12)) = e12.
Proof. apply (f_int_R (10 ^ 12)). vm_compute. reflexivity. Qed.
Lemma two_val : fok f_two /\ fval f_two = 2.
Proof.
  split; [split; reflexivity|]. unfold fval, f_two, SF2R, F2R. cbn [cond_Zopp Fnum Fexp bpow]. change (Z.pow_pos radix2 51) with 2251799813685248%Z. field.
Qed.
Lemma inv40 y : / 10 ^ 20 <= y -> / 10 ^ 40 <= y.
Proof.
  intros H. eapply Rle_trans; [|exact H]. apply Rinv_le_contravar; [apply pow_lt; lra|]. apply Rle_pow; [lra|lia].
Qed.
Lemma up60 y : y <= 10 ^ 40 -> y <= 10 ^ 60.
Proof. intros H. eapply Rle_trans; [exact H|]. apply Rle_pow; [lra|lia]. Qed.
Lemma pos_ge y : 1 <= y -> / 10 ^ 20 <= y.
Proof.
  intros H. apply Rle_trans with (2 := H). rewrite <- Rinv_1. apply Rinv_le_contravar; [lra|]. apply pow_R1_Rle. lra.
Qed.
(** the number as f64 *)
Lemma conv12 v : (0 < v < 2 ^ 128)%Z -> let X := IZR v / e12 in
  fok (into_f64 v 12) /\ 0 < fval (into_f64 v 12) /\ Rabs (fval (into_f64 v 12) - X) <= 3 * u53 * X.
Proof.
  intros V X. assert (V1 : 1 <= IZR v) by (apply (IZR_le 1); lia). assert (VU : IZR v <= 10 ^ 39).
  { rewrite pow_IZR. apply IZR_le. apply Z.lt_le_incl. eapply Z.lt_le_trans; [apply V|]. vm_compute. discriminate. }
  assert (T : 10 ^ 40 = 10 * 10 ^ 39) by (cbn; ring). assert (T20 : 10 ^ 20 = 100000000 * e12) by (unfold e12; cbn; ring). assert (E0 : 0 < e12) by (unfold e12; lra).
  assert (P39 : 0 < 10 ^ 39) by (apply pow_lt; lra).
  destruct (f_int_big v) as (A1 & _ & A2). { split; [lia|]. apply Z.lt_trans with (1 := proj2 V). vm_compute. reflexivity. }
  destruct den12 as [D1 D2]. set (a := fval (f_int v)) in *.
  assert (UB := u53_pos). assert (US : u53 <= / 1000000000) by (rewrite u53_val; lra).
  apply Rabs_le_inv in A2. assert (aL : IZR v * (1 - u53) <= a) by lra. assert (aU : a <= IZR v * (1 + u53)) by lra.
  assert (aP : / 2 <= a) by nra.
  assert (q0 : / 10 ^ 40 <= Rabs (a / e12) <= 10 ^ 60).
  { assert (Q : 0 < a / e12) by (apply Rmult_lt_0_compat; [lra|now apply Rinv_0_lt_compat]). rewrite Rabs_pos_eq by lra. split.
    - apply inv40. rewrite T20. rewrite Rinv_mult. apply Rmult_le_compat_r; [left; now apply Rinv_0_lt_compat|]. lra.
    - apply up60. rewrite T. apply Rle_trans with (a * 1); [apply Rmult_le_compat_l; [lra|]; unfold e12; lra|]. nra. }
  destruct (rnd_rel' _ q0) as [R1 R2].
  destruct (div_R' (f_int v) (f_int (10 ^ 12)) A1 D1) as [F1 F2]; [rewrite D2; unfold e12; lra|rewrite D2; exact R2|].
  change (fdiv (f_int v) (f_int (10 ^ 12))) with (into_f64 v 12) in *. split; [exact F1|]. rewrite F2, D2. fold a.
  assert (QP : 0 < a / e12) by (apply Rmult_lt_0_compat; [lra|now apply Rinv_0_lt_compat]). rewrite (Rabs_pos_eq (a / e12)) in R1 by lra.
  apply Rabs_le_inv in R1. assert (qL : X * (1 - u53) <= a / e12) by (unfold X, Rdiv in *; assert (0 < / e12) by (now apply Rinv_0_lt_compat); nra).
  assert (qU : a / e12 <= X * (1 + u53)) by (unfold X, Rdiv in *; assert (0 < / e12) by (now apply Rinv_0_lt_compat); nra).
  assert (XP : 0 < X) by (unfold X, Rdiv; apply Rmult_lt_0_compat; [lra|now apply Rinv_0_lt_compat]).
  split; [nra|]. apply Rabs_le. split; nra.
Qed.
Lemma log2_12 lm v : libm_ln lm -> (0 < v < 2 ^ 128)%Z -> let l := ln (IZR v / e12) / ln 2 in / e12 <= Rabs l <= 50 ->
  snd (f64_log2 lm v 12%Z) = Rlt_bool l 0 /\ exists T, fst (f64_log2 lm v 12%Z) = Zfloor T /\ Rabs (T - e12 * Rabs l) <= 4 / 100.
Proof.
  intros [_ LM] V l [B0 B1]. destruct (conv12 v V) as (C1 & C2 & C3). set (x := into_f64 v 12) in *. set (X := IZR v / e12) in *.
  assert (E0 : 0 < e12) by (unfold e12; lra). assert (U := u53_val). assert (L2 := ln2_in).
  assert (XP : 0 < X) by (unfold X, Rdiv; apply Rmult_lt_0_compat; [apply (IZR_lt 0); lia|now apply Rinv_0_lt_compat]).
  destruct (ln_shift (fval x) X (3 * u53) XP) as [_ S]; [rewrite U; lra|exact C3|].
  destruct (LM x C1 C2) as [N1 N2]. destruct two_val as [W1 W2]. destruct (LM f_two W1 ltac:(rewrite W2; lra)) as [D1 D2]. rewrite W2 in D2.
  set (n := fval (m_ln lm x)) in *. set (d := fval (m_ln lm f_two)) in *. set (g := ln X) in *.
  assert (GL : g = l * ln 2) by (unfold l; fold X; fold g; field; lra).
  rewrite (Rabs_pos_eq (ln 2)) in D2 by lra. apply Rabs_le_inv in D2, S.
  assert (u2 : / 4503599627370496 = 2 * u53) by (rewrite U; lra). rewrite u2 in *.
  assert (dL : 69 / 100 <= d) by (rewrite U in D2; lra).
  assert (GA : Rabs g <= 35). { rewrite GL, Rabs_mult, (Rabs_pos_eq (ln 2)) by lra. assert (0 <= Rabs l) by apply Rabs_pos. nra. }
  assert (xA : Rabs (ln (fval x)) <= Rabs g + 6 * u53).
  { replace (ln (fval x)) with (g + (ln (fval x) - g)) by ring. eapply Rle_trans; [apply Rabs_triang|]. apply Rplus_le_compat_l. apply Rabs_le. lra. }
  assert (nE : Rabs (n - g) <= 77 * u53).
  { replace (n - g) with ((n - ln (fval x)) + (ln (fval x) - g)) by ring. eapply Rle_trans; [apply Rabs_triang|].
    assert (Rabs (ln (fval x) - g) <= 6 * u53) by (apply Rabs_le; lra). rewrite U in *. lra. }
  assert (qE : Rabs (n / d - l) <= 220 * u53).
  { replace (n / d - l) with (((n - g) * ln 2 - g * (d - ln 2)) / (d * ln 2)) by (rewrite GL; field; lra).
    unfold Rdiv. rewrite Rabs_mult. rewrite (Rabs_pos_eq (/ (d * ln 2))) by (left; apply Rinv_0_lt_compat; nra).
    apply Rmult_le_reg_r with (d * ln 2); [nra|]. rewrite Rmult_assoc, Rinv_l by nra. rewrite Rmult_1_r.
    eapply Rle_trans; [apply Rabs_triang|]. rewrite Rabs_Ropp, !Rabs_mult, (Rabs_pos_eq (ln 2)) by lra.
    assert (K : Rabs (d - ln 2) <= 2 * u53 * ln 2) by (apply Rabs_le; lra).
    assert (K1 : Rabs (n - g) * ln 2 <= 77 * u53 * ln 2) by (apply Rmult_le_compat_r; lra).
    assert (K2 : Rabs g * Rabs (d - ln 2) <= 35 * (2 * u53 * ln 2)) by (apply Rmult_le_compat; try apply Rabs_pos; lra).
    apply Rle_trans with (147 * u53 * ln 2); [lra|]. assert (0 < u53) by apply u53_pos. assert (0 < u53 * ln 2) by nra. nra. }
  assert (lP : 0 <= Rabs l) by apply Rabs_pos.
  assert (qA : Rabs (n / d) <= Rabs l + 220 * u53).
  { replace (n / d) with (l + (n / d - l)) by ring. eapply Rle_trans; [apply Rabs_triang|]. lra. }
  assert (qB : Rabs l - 220 * u53 <= Rabs (n / d)).
  { replace l with (n / d - (n / d - l)) at 1 by ring. eapply Rle_trans; [apply Rplus_le_compat_r; apply Rabs_triang|]. rewrite Rabs_Ropp. lra. }
  assert (e12i : / e12 = / 1000000000000) by reflexivity. rewrite e12i in *.
  assert (P20 : 10 ^ 20 = 100000000000000000000) by (cbn; ring). assert (P40 : 60 <= 10 ^ 40) by (apply Rle_trans with (10 ^ 20); [lra|apply Rle_pow; [lra|lia]]).
  assert (q0 : / 10 ^ 40 <= Rabs (n / d) <= 10 ^ 60).
  { split; [apply inv40; rewrite P20; rewrite U in qB; lra|apply up60; rewrite U in qA; lra]. }
  destruct (rnd_rel' _ q0) as [R1 R2].
  destruct (div_R' _ _ N1 D1) as [F1 F2]; [fold d; lra|fold n d; exact R2|]. fold n d in F2.
  change (fdiv (m_ln lm x) (m_ln lm f_two)) with (flog lm x f_two) in *. set (L := flog lm x f_two) in *.
  assert (LE : Rabs (fval L - l) <= 275 * u53).
  { replace (fval L - l) with ((rnd (n / d) - n / d) + (n / d - l)) by (rewrite F2; ring). eapply Rle_trans; [apply Rabs_triang|].
    assert (u53 * Rabs (n / d) <= 55 * u53); [|lra]. rewrite (Rmult_comm u53). apply Rmult_le_compat_r; [left; apply u53_pos|]. rewrite U in qA. lra. }
  assert (Ll := Rabs_le_inv _ _ LE).
  assert (LN : fval L <> 0 /\ Rlt_bool (fval L) 0 = Rlt_bool l 0).
  { rewrite U in Ll. destruct (Rle_or_lt 0 l) as [P|P].
    - rewrite Rabs_pos_eq in B0 by exact P. split; [lra|]. rewrite !Rlt_bool_false by lra. reflexivity.
    - rewrite Rabs_left in B0 by exact P. split; [lra|]. rewrite !Rlt_bool_true by lra. reflexivity. }
  destruct (abs_R L F1) as [A1 A2]. destruct den12 as [G1 G2].
  assert (AE : Rabs (Rabs (fval L) - Rabs l) <= 275 * u53) by (eapply Rle_trans; [apply Rabs_triang_inv2|exact LE]).
  assert (AL := Rabs_le_inv _ _ AE).
  assert (t0 : / 10 ^ 40 <= Rabs (Rabs (fval L) * e12) <= 10 ^ 60).
  { rewrite Rabs_pos_eq by (apply Rmult_le_pos; [apply Rabs_pos|lra]). assert (P30 : 100 * e12 <= 10 ^ 40) by (apply Rle_trans with (10 ^ 20); [rewrite P20; unfold e12; lra|apply Rle_pow; [lra|lia]]).
    split; [apply inv40; rewrite P20|apply up60]; rewrite U in AL; unfold e12 in *; lra. }
  destruct (rnd_rel' _ t0) as [R3 R4].
  destruct (mul_R' _ _ A1 G1) as [M1 M2]; [rewrite A2, G2; exact R4|]. rewrite A2, G2 in M2.
  unfold f64_log2. cbn [fst snd]. fold x. fold L. split; [rewrite (sign_R L F1 (proj1 LN)); apply LN|].
  set (T := fval (fmul (f_abs L) (f_int (10 ^ 12)))) in *.
  rewrite (Rabs_pos_eq (Rabs (fval L) * e12)) in R3 by (apply Rmult_le_pos; [apply Rabs_pos|lra]).
  assert (TE : Rabs (T - e12 * Rabs l) <= 4 / 100).
  { replace (T - e12 * Rabs l) with ((T - Rabs (fval L) * e12) + e12 * (Rabs (fval L) - Rabs l)) by ring. eapply Rle_trans; [apply Rabs_triang|].
    rewrite M2. rewrite (Rabs_mult e12), (Rabs_pos_eq e12) by lra. 
    apply Rle_trans with (u53 * (55 * e12) + e12 * (275 * u53)); [|rewrite U; unfold e12; lra].
    apply Rplus_le_compat; [|apply Rmult_le_compat_l; lra]. eapply Rle_trans; [exact R3|]. apply Rmult_le_compat_l; [left; apply u53_pos|].
    apply Rmult_le_compat_r; [lra|]. rewrite U in AL. lra. }
  exists T. split; [|exact TE]. apply Rabs_le_inv in TE. assert (EL : 1 <= e12 * Rabs l) by (unfold e12 in *; lra).
  assert (EU : e12 * Rabs l <= e12 * 50) by (apply Rmult_le_compat_l; lra).
  apply u128_floor; [exact M1|fold T; lra|]. fold T. apply Rlt_le_trans with (e12 * 50 + 1); [lra|]. replace (e12 * 50 + 1) with (IZR 50000000000001) by (unfold e12; lra). apply IZR_le. apply Z.leb_le. vm_compute. reflexivity.
Qed.

(** *** the bit length *)
Lemma q2r_two b : 0 < Q2R (Qpower 2 b) /\ ln (Q2R (Qpower 2 b)) = IZR b * ln 2.
Proof.
  assert (N : forall k, (0 <= k)%Z -> 0 < Q2R (Qpower 2 k) /\ ln (Q2R (Qpower 2 k)) = IZR k * ln 2).
  { intros k K. change 2%Q with (inject_Z 2). rewrite <- (Qpower.Zpower_Qpower 2 k K) by exact K.
    assert (E : Q2R (inject_Z (2 ^ k)) = 2 ^ (Z.to_nat k)).
    { rewrite q2r_z. rewrite <- (Z2Nat.id k K) at 1. rewrite <- pow_IZR. reflexivity. }
    rewrite E. split; [apply pow_lt; lra|]. rewrite ln_pow by lra. rewrite INR_IZR_INZ, Z2Nat.id by exact K. reflexivity. }
  destruct (Z.le_gt_cases 0 b) as [H|H]; [now apply N|].
  destruct (N (- b)%Z ltac:(lia)) as [P E]. rewrite <- (Z.opp_involutive b). rewrite (Qpower.Qpower_opp 2 (- b)).
  rewrite Q2R_inv. 2: { intros Z0. apply Qeq_eqR in Z0. rewrite Z0 in P. rewrite RMicromega.Q2R_0 in P. lra. }
  split; [now apply Rinv_0_lt_compat|]. rewrite ln_Rinv by exact P. rewrite E, !opp_IZR. ring.
Qed.
(** at least 10^-12 (relative) away from the powers of two *)
Definition clear_of (x : Q) (b : Z) : Prop := (Qpower 2 b * (1 + (1 # 1000000000000)) <= x /\ x <= Qpower 2 (b + 1) * (1 - (1 # 1000000000000)))%Q.
Lemma clear_exponent x b : clear_of x b -> exponent x b.
Proof.
  intros [A B]. assert (P : forall k, (0 < Qpower 2 k)%Q). { intros k. apply Rlt_Qlt. rewrite RMicromega.Q2R_0. apply q2r_two. }
  pose proof (P b) as P1. pose proof (P (b + 1)%Z) as P2. split.
  - eapply Qle_trans; [|exact A]. setoid_replace (Qpower 2 b) with (Qpower 2 b * 1)%Q at 1 by ring. apply Qmult_le_l; [exact P1|]. discriminate.
  - eapply Qle_lt_trans; [exact B|]. setoid_replace (Qpower 2 (b + 1)) with (Qpower 2 (b + 1) * 1)%Q at 2 by ring. apply Qmult_lt_l; [exact P2|]. reflexivity.
Qed.
Lemma clear_log x b : clear_of x b -> let l := ln (Q2R x) / ln 2 in IZR b + 14 / 10 * / e12 <= l <= IZR b + 1 - 14 / 10 * / e12.
Proof.
  intros [A B] l. apply Qle_Rle in A, B. rewrite Q2R_mult in A, B. rewrite Q2R_plus in A. rewrite Q2R_minus in B.
  assert (O : Q2R 1 = 1) by apply q2r_1. assert (H : Q2R (1 # 1000000000000) = / e12) by (unfold Q2R, e12; cbn; lra). rewrite O, H in *.
  destruct (q2r_two b) as [P1 E1]. destruct (q2r_two (b + 1)) as [P2 E2]. rewrite plus_IZR in E2. assert (L2 := ln2_in). assert (EI : / e12 = / 1000000000000) by reflexivity.
  assert (XP : 0 < Q2R x) by (eapply Rlt_le_trans; [|exact A]; apply Rmult_lt_0_compat; [exact P1|rewrite EI; lra]).
  assert (G1 : IZR b * ln 2 + ln (1 + / e12) <= ln (Q2R x)).
  { rewrite <- E1, <- ln_mult by (rewrite ?EI; lra). destruct A as [A|A]; [left; apply ln_increasing; [apply Rmult_lt_0_compat; [exact P1|rewrite EI; lra]|exact A]|right; now rewrite A]. }
  assert (G2 : ln (Q2R x) <= (IZR b + 1) * ln 2 + ln (1 - / e12)).
  { rewrite <- E2, <- ln_mult by (rewrite ?EI; lra). destruct B as [B|B]; [left; apply ln_increasing; [exact XP|exact B]|right; now rewrite B]. }
  assert (S1 : / (1 + / e12) * / e12 <= ln (1 + / e12)).
  { pose proof (ln_le_sub (/ (1 + / e12)) ltac:(apply Rinv_0_lt_compat; rewrite EI; lra)) as S. rewrite ln_Rinv in S by (rewrite EI; lra).
    assert (1 - / (1 + / e12) = / (1 + / e12) * / e12) by (field; unfold e12; lra). lra. }
  assert (S2 : ln (1 - / e12) <= - / e12) by (pose proof (ln_le_sub (1 - / e12) ltac:(rewrite EI; lra)); lra).
  assert (S3 : 999 / 1000 * / e12 <= / (1 + / e12) * / e12) by (rewrite EI; lra).
  assert (LX : ln (Q2R x) = l * ln 2) by (unfold l; field; lra). rewrite LX in *.
  assert (EP : 0 < / e12) by (rewrite EI; lra). split; nra.
Qed.

Lemma scale0 v : (0 <= v < U128 - U12)%Z -> to_scale (mkD v 12 false) 0 = Ok (mkD (v / U12) 0 false) /\
  exists n, to_scale_up (mkD v 12 true) 0 = Ok (mkD ((v + (U12 - 1)) / U12) 0 n).
Proof.
  intros H. split.
  - unfold to_scale. change (0 <? dscale (mkD v 12 false))%Z with true. cbn iota. cbn [dscale]. change (pow10 (12 - 0)) with (Ok U12 : res Z). cbn [bind].
    first [reflexivity | unfold cdiv; reflexivity].
  - unfold to_scale_up. change (0 <=? dscale (mkD v 12 true))%Z with true. cbn iota. cbn [dscale]. change (pow10 (12 - 0)) with (Ok U12 : res Z). cbn [bind].
    unfold d_div_up. change (denominator (mkD U12 0 _)) with (Ok 1%Z : res Z). cbn [bind dval dscale dneg].
    rewrite cmul_Ok by (unfold U12 in *; lia). cbn [bind]. rewrite Z.mul_1_r. change (csub U12 1) with (Ok (U12 - 1)%Z : res Z). cbn [bind].
    rewrite cadd_Ok by (unfold U12 in *; lia). cbn [bind]. change (cdiv ?a U12) with (Ok (a / U12)%Z : res Z). cbn [bind]. eexists. reflexivity.
Qed.
Theorem f64_found lm d b : libm_ln lm -> wf d -> dneg d = false -> dscale d = 12%Z -> (-40 <= b <= 48)%Z -> clear_of (num d) b -> found (f64_log2 lm) d b.
Proof.
  destruct d as [v s n]. intros LM [[W1 W2] _] N S B C. cbn [dval dscale dneg] in *. subst s n.
  assert (XE : Q2R (num (mkD v 12 false)) = IZR v / e12).
  { rewrite q2r_num by (cbn; lia). unfold mant. cbn [dval dneg dscale]. reflexivity. }
  assert (V0 : (0 < v)%Z).
  { destruct (Z.eq_dec v 0) as [->|]; [|lia]. exfalso. destruct C as [A _]. apply Qle_Rle in A. rewrite XE in A. unfold Rdiv in A. rewrite Rmult_0_l, Q2R_mult in A.
    destruct (q2r_two b) as [P _]. assert (0 < Q2R (1 + (1 # 1000000000000))) by (rewrite <- RMicromega.Q2R_0; apply Qlt_Rlt; reflexivity). nra. }
  pose proof (clear_log _ _ C) as K. cbv zeta in K. rewrite XE in K. set (l := ln (IZR v / e12) / ln 2) in *.
  assert (EI : / e12 = / 1000000000000) by reflexivity. assert (B1 : -40 <= IZR b) by (apply (IZR_le (-40)); lia). assert (B2 : IZR b <= 48) by (apply (IZR_le _ 48); lia).
  assert (LS : (0 <= b)%Z /\ 0 < l /\ Rabs l = l \/ (b < 0)%Z /\ l < 0 /\ Rabs l = - l).
  { destruct (Z.le_gt_cases 0 b) as [H|H]; [left|right]; (split; [exact H|]).
    - assert (0 <= IZR b) by (apply (IZR_le 0); exact H). assert (0 < l) by (rewrite EI in K; lra). split; [assumption|]. apply Rabs_pos_eq. lra.
    - assert (IZR b <= -1) by (apply (IZR_le _ (-1)); lia). assert (l < 0) by (rewrite EI in K; lra). split; [assumption|]. now apply Rabs_left. }
  destruct (log2_12 lm v LM (conj V0 W2)) as (SG & T & TF & TE).
  { fold l. rewrite EI in *. destruct LS as [(H & P & ->)|(H & P & ->)].
    - assert (0 <= IZR b) by (apply (IZR_le 0); exact H). lra.
    - assert (IZR b <= -1) by (apply (IZR_le _ (-1)); lia). lra. }
  fold l in SG, TE. apply Rabs_le_inv in TE. unfold found, bit_length.
  change (is_negative (mkD v 12 false)) with false. cbn iota. assert (Z0 : is_zero (mkD v 12 false) = false) by (unfold is_zero; cbn [dval]; apply Z.eqb_neq; lia). rewrite Z0. cbn [dval dscale].
  destruct (f64_log2 lm v 12%Z) as [tv sg]. cbn [fst snd] in *. subst tv sg.
  assert (EE : e12 * / e12 = 1) by (unfold e12; lra).
  destruct LS as [(H & P & A)|(H & P & A)].
  - rewrite Rlt_bool_false by lra. rewrite A in TE.
    assert (TL : IZR b * e12 + 1 <= T). { assert ((IZR b + 14 / 10 * / e12) * e12 <= l * e12) by (apply Rmult_le_compat_r; [unfold e12|]; lra). lra. }
    assert (TU : T < (IZR b + 1) * e12). { assert (l * e12 <= (IZR b + 1 - 14 / 10 * / e12) * e12) by (apply Rmult_le_compat_r; [unfold e12|]; lra). lra. }
    assert (F1 : (b * U12 <= Zfloor T)%Z). { apply Zfloor_lub. rewrite mult_IZR. change (IZR U12) with e12. lra. }
    assert (F2 : (Zfloor T < (b + 1) * U12)%Z). { apply lt_IZR. eapply Rle_lt_trans; [apply Zfloor_lb|]. rewrite mult_IZR, plus_IZR. exact TU. }
    assert (U12v : U12 = 1000000000000%Z) by reflexivity. assert (U128v := u128_num).
    assert (SZ : sat_u128 (Zfloor T) = Zfloor T) by (unfold sat_u128; rewrite U128v in *; lia). rewrite SZ.
    destruct (scale0 (Zfloor T)) as [E _]; [rewrite U128v, U12v in *; lia|]. rewrite E. cbn [bind dval].
    replace (Zfloor T / U12)%Z with b. { rewrite Z.abs_eq by exact H. replace (b <? 0)%Z with false by (symmetry; apply Z.ltb_ge; lia). reflexivity. }
    apply Z.div_unique with (Zfloor T - b * U12)%Z; lia.
  - rewrite Rlt_bool_true by lra. rewrite A in TE.
    assert (TL : (- IZR b - 1) * e12 + 1 <= T). { assert (l * e12 <= (IZR b + 1 - 14 / 10 * / e12) * e12) by (apply Rmult_le_compat_r; [unfold e12|]; lra). lra. }
    assert (TU : T < - IZR b * e12). { assert ((IZR b + 14 / 10 * / e12) * e12 <= l * e12) by (apply Rmult_le_compat_r; [unfold e12|]; lra). lra. }
    assert (F1 : ((- b - 1) * U12 + 1 <= Zfloor T)%Z). { apply Zfloor_lub. rewrite plus_IZR, mult_IZR, minus_IZR, opp_IZR. exact TL. }
    assert (F2 : (Zfloor T < - b * U12)%Z). { apply lt_IZR. eapply Rle_lt_trans; [apply Zfloor_lb|]. rewrite mult_IZR, opp_IZR. exact TU. }
    assert (U12v : U12 = 1000000000000%Z) by reflexivity. assert (U128v := u128_num).
    assert (SZ : sat_u128 (Zfloor T) = Zfloor T) by (unfold sat_u128; rewrite U128v in *; lia). rewrite SZ.
    destruct (scale0 (Zfloor T)) as [_ [n E]]; [rewrite U128v, U12v in *; lia|]. rewrite E. cbn [bind dval].
    replace ((Zfloor T + (U12 - 1)) / U12)%Z with (- b)%Z. { rewrite Z.abs_neq by lia. replace (b <? 0)%Z with true by (symmetry; apply Z.ltb_lt; lia). reflexivity. }
    apply Z.div_unique with (Zfloor T + (U12 - 1) - - b * U12)%Z; lia.
Qed.
Theorem f64_found_one lm : libm_ln lm -> found (f64_log2 lm) (mkD (10 ^ 12) 12 false) 0.
Proof.
  intros [L1 L2]. assert (E : f64_log2 lm (10 ^ 12)%Z 12%Z = (0%Z, false)).
  { unfold f64_log2, flog. replace (into_f64 (10 ^ 12) 12) with f_one by (vm_compute; reflexivity). rewrite L1.
    destruct two_val as [W1 W2]. destruct (L2 f_two W1 ltac:(rewrite W2; lra)) as [D1 D2]. rewrite W2 in D2. assert (K := ln2_in). rewrite (Rabs_pos_eq (ln 2)) in D2 by lra. apply Rabs_le_inv in D2.
    assert (P : 0 < fval (m_ln lm f_two)) by lra. destruct (m_ln lm f_two) as [s|s| |s m e]; try (cbn in P; lra); try (destruct D1; discriminate).
    destruct s; [|reflexivity]. exfalso. unfold fval, SF2R, F2R in P. cbn [Fnum Fexp cond_Zopp] in P. assert (0 < bpow radix2 e) by apply bpow_gt_0.
    assert (IZR (- Zpos m) < 0) by (apply (IZR_lt _ 0); lia). nra. }
  unfold found, bit_length. change (is_negative (mkD (10 ^ 12) 12 false)) with false. cbn iota. change (is_zero (mkD (10 ^ 12) 12 false)) with false. cbn iota. cbn [dval dscale]. rewrite E. reflexivity.
Qed.
