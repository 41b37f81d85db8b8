(** Converting a decimal to f64 ([Into<f64>]), and tick -> price -> tick in the f64 pool, for every accurate library. *)
From Coq Require Import ZArith QArith Qreals Reals Lra Lia Bool Psatz List Floats.SpecFloat.
From Flocq Require Import Core BinarySingleNaN.
From Verif Require Import Base BaseLemmas DecimalModel DecimalSpec MathModel FloatBase FloatFacts FloatModel FloatWf FloatStuck LnSeries LnAccuracy FloatLog FloatLib FloatTick.
Import ListNotations.
Open Scope R_scope.

(** decimal.rs:547-551 with its panic: the denominator of a scale above 38 overflows *)
Definition d_into_f64 (d : decimal) : res f64 := let* q := denominator d in Ok (fdiv (f_int (dval d)) (f_int q)).

Lemma into_close v s : (0 < v < 2 ^ 128)%Z -> (0 <= s <= 38)%Z -> let X := IZR v / IZR (10 ^ s) in
  fok (into_f64 v s) /\ 0 < fval (into_f64 v s) /\ Rabs (fval (into_f64 v s) - X) <= 5 / 9007199254740992 * X.
Proof.
  intros V S X. assert (V1 : 1 <= IZR v) by (apply (IZR_le 1); lia). assert (VU : IZR v <= 10 ^ 39).
  { rewrite pow_IZR. apply IZR_le. apply Z.lt_le_incl. eapply Z.lt_le_trans; [apply V|]. vm_compute. discriminate. }
  set (t := (10 ^ s)%Z) in *. assert (TP : (1 <= t <= 10 ^ 38)%Z). { unfold t. split; [change 1%Z with (10 ^ 0)%Z|]; apply Z.pow_le_mono_r; lia. }
  assert (T1 : 1 <= IZR t) by (apply (IZR_le 1); lia). assert (TU : IZR t <= 10 ^ 38) by (rewrite pow_IZR; apply IZR_le; change (Z.of_nat 38) with 38%Z; lia).
  assert (E39 : 10 ^ 39 = 10 * 10 ^ 38) by (cbn; ring). assert (E40 : 10 ^ 40 = 100 * 10 ^ 38) by (cbn; ring).
  assert (P38 : 0 < 10 ^ 38) by (apply pow_lt; lra).
  destruct (f_int_big v) as (A1 & _ & A2). { split; [lia|]. apply Z.lt_trans with (1 := proj2 V). vm_compute. reflexivity. }
  destruct (f_int_big t) as (D1 & _ & D2). { split; [lia|]. apply Z.le_lt_trans with (1 := proj2 TP). vm_compute. reflexivity. }
  set (a := fval (f_int v)) in *. set (d := fval (f_int t)) in *.
  assert (UP := u53_pos). assert (UV := u53_val). assert (US : u53 <= / 1000000000) by (rewrite UV; lra).
  apply Rabs_le_inv in A2, D2. assert (aP : / 2 <= a) by nra. assert (dP : / 2 <= d) by nra.
  assert (XP : 0 < X) by (unfold X, Rdiv; apply Rmult_lt_0_compat; [lra|apply Rinv_0_lt_compat; lra]).
  assert (XT : X * IZR t = IZR v) by (unfold X; field; lra).
  assert (qd : a / d * d = a) by (field; lra). set (q := a / d) in *. assert (q0 : 0 < q) by (unfold q, Rdiv; apply Rmult_lt_0_compat; [lra|apply Rinv_0_lt_compat; lra]).
  assert (qU : q <= X * (1 + 3 * u53)).
  { apply Rmult_le_reg_r with d; [lra|]. rewrite qd. apply Rle_trans with (IZR v * (1 + u53)); [lra|]. rewrite <- XT.
    apply Rle_trans with (X * (1 + 3 * u53) * (IZR t * (1 - u53))); [|apply Rmult_le_compat_l; [nra|lra]].
    replace (X * IZR t * (1 + u53)) with (X * (IZR t * (1 + u53))) by ring. rewrite Rmult_assoc. apply Rmult_le_compat_l; [lra|]. nra. }
  assert (qL : X * (1 - 3 * u53) <= q).
  { apply Rmult_le_reg_r with d; [lra|]. rewrite qd. apply Rle_trans with (IZR v * (1 - u53)); [|lra]. rewrite <- XT.
    apply Rle_trans with (X * (1 - 3 * u53) * (IZR t * (1 + u53))); [apply Rmult_le_compat_l; [nra|lra]|].
    replace (X * IZR t * (1 - u53)) with (X * (IZR t * (1 - u53))) by ring. rewrite Rmult_assoc. apply Rmult_le_compat_l; [lra|]. nra. }
  assert (XU : X <= 10 ^ 39). { unfold X. apply Rle_trans with (IZR v * 1); [|lra]. unfold Rdiv. apply Rmult_le_compat_l; [lra|]. rewrite <- Rinv_1. apply Rinv_le_contravar; lra. }
  assert (XL : / 10 ^ 38 <= X). { apply Rmult_le_reg_r with (10 ^ 38); [exact P38|]. rewrite Rinv_l by lra. apply Rle_trans with (X * IZR t); [lra|]. apply Rmult_le_compat_l; lra. }
  assert (qR : / 10 ^ 40 <= Rabs q <= 10 ^ 60).
  { rewrite Rabs_pos_eq by lra. split.
    - apply Rle_trans with (X * / 100); [rewrite E40, Rinv_mult; lra|]. assert (X * u53 <= X * / 1000000000) by (apply Rmult_le_compat_l; lra). lra.
    - apply up60. rewrite E40. assert (X * u53 <= X * / 1000000000) by (apply Rmult_le_compat_l; lra). lra. }
  destruct (rnd_rel' _ qR) as [R1 R2]. destruct (div_R' (f_int v) (f_int t) A1 D1) as [F1 F2]; [fold d; lra|exact R2|].
  change (fdiv (f_int v) (f_int t)) with (into_f64 v s) in *. split; [exact F1|]. rewrite F2. fold a d q.
  rewrite (Rabs_pos_eq q) in R1 by lra. apply Rabs_le_inv in R1. split; [nra|]. replace (5 / 9007199254740992) with (5 * u53) by (rewrite UV; lra).
  apply Rabs_le. split.
  - apply Rle_trans with (q * (1 - u53) - X); [|lra]. assert (X * (1 - 3 * u53) * (1 - u53) <= q * (1 - u53)) by (apply Rmult_le_compat_r; lra). assert (0 <= X * (u53 * u53)) by (apply Rmult_le_pos; [lra|nra]). assert (0 <= X * u53) by nra. lra.
  - apply Rle_trans with (q * (1 + u53) - X); [lra|]. assert (q * (1 + u53) <= X * (1 + 3 * u53) * (1 + u53)) by (apply Rmult_le_compat_r; lra).
    assert (X * (u53 * u53) <= X * (u53 * / 1000000000)) by (apply Rmult_le_compat_l; [lra|nra]). assert (0 <= X * u53) by nra. lra.
Qed.
Lemma into_is d : (dscale d <= 38)%Z -> d_into_f64 d = Ok (into_f64 (dval d) (dscale d)).
Proof. intros S. unfold d_into_f64, denominator, pow10. rewrite (proj2 (Z.leb_le _ _) S). reflexivity. Qed.
Lemma q2r_mag d : wf d -> Q2R (num (mkD (dval d) (dscale d) false)) = IZR (dval d) / IZR (10 ^ dscale d).
Proof. intros (W1 & W2). rewrite q2r_num by (cbn; lia). reflexivity. Qed.
(** The conversion gives the magnitude within five half-units in the last place; it fails only on overflow of the denominator. *)
Theorem into_f64_magnitude d : wf d -> (dscale d <= 38)%Z -> exists f, d_into_f64 d = Ok f /\ fok f /\ Rabs (fval f - Rabs (Q2R (num d))) <= 5 / 9007199254740992 * Rabs (Q2R (num d)).
Proof.
  intros W S. exists (into_f64 (dval d) (dscale d)). split; [now apply into_is|]. destruct W as (W1 & W2).
  assert (P : (0 < 10 ^ dscale d)%Z) by (apply Z.pow_pos_nonneg; lia). assert (PR : 0 < IZR (10 ^ dscale d)) by (now apply (IZR_lt 0)).
  assert (A : Rabs (Q2R (num d)) = IZR (dval d) / IZR (10 ^ dscale d)).
  { rewrite q2r_num by lia. unfold Rdiv. rewrite Rabs_mult, (Rabs_pos_eq (/ _)) by (left; now apply Rinv_0_lt_compat). f_equal. unfold mant. destruct (dneg d).
    - rewrite opp_IZR, Rabs_Ropp. apply Rabs_pos_eq. apply (IZR_le 0). lia.
    - apply Rabs_pos_eq. apply (IZR_le 0). lia. }
  rewrite A. destruct (Z.eq_dec (dval d) 0) as [Z|Z].
  - rewrite Z. destruct (f_int_big (10 ^ dscale d)) as (D1 & _ & D2).
    { split; [exact P|]. apply Z.le_lt_trans with (10 ^ 38)%Z; [apply Z.pow_le_mono_r; lia|]. vm_compute. reflexivity. }
    set (t := (10 ^ dscale d)%Z) in *. assert (UV := u53_val). apply Rabs_le_inv in D2. assert (DP : 0 < fval (f_int t)) by (rewrite UV in D2; lra).
    destruct (f_int_R 0 ltac:(lia)) as [Z1 Z2].
    assert (R0 : rnd (fval (f_int 0) / fval (f_int t)) = 0) by (rewrite Z2; unfold Rdiv; rewrite Rmult_0_l; unfold rnd; apply round_0; auto with typeclass_instances).
    destruct (div_R' (f_int 0) (f_int t) Z1 D1) as [F1 F2]; [lra|rewrite R0, Rabs_R0; apply bpow_gt_0|].
    unfold into_f64. fold t. split; [exact F1|]. rewrite F2, R0. unfold Rdiv. rewrite Rmult_0_l, Rminus_0_r, Rabs_R0. lra.
  - destruct (into_close (dval d) (dscale d)) as (I1 & _ & I2); [lia|lia|]. now split.
Qed.
(** A negative number comes out positive. *)
Theorem into_f64_sign d f : wf d -> (dval d <> 0)%Z -> d_into_f64 d = Ok f -> 0 < fval f.
Proof.
  intros (W1 & W2) N H. unfold d_into_f64, denominator, pow10 in H. destruct (Z.leb_spec (dscale d) 38) as [L|L]; [|discriminate H].
  cbn [bind] in H. injection H as H. destruct (into_close (dval d) (dscale d)) as (_ & I & _); [lia|lia|]. unfold into_f64 in I. now rewrite H in I.
Qed.

(** *** tick -> price -> tick in the f64 pool *)
Lemma sb_is : fsqrt f_tick_base = g_sb. Proof. vm_compute. reflexivity. Qed.
Lemma sb_R : fval g_sb = IZR 4503824801722646 / IZR 4503599627370496.
Proof. unfold g_sb. rewrite fin_Q. reflexivity. Qed.
Lemma sb_ok : fok g_sb. Proof. split; reflexivity. Qed.
Lemma sb_ln : 49997 / 1000000000 <= ln (fval g_sb) <= 5 / 100000.
Proof.
  assert (Q : Q2R (49997 # 1000000000) <= ln (IZR 4503824801722646 / IZR 4503599627370496) <= Q2R (5 # 100000)) by (apply (ln_near_ok 2); [lia|now vm_compute]).
  rewrite sb_R. unfold Q2R in Q. cbn [Qnum Qden] in Q. lra.
Qed.
Lemma u32_bounds x z : fok x -> fval x = IZR z -> (z < 2 ^ 32)%Z -> f_to_u32 x = Z.max 0 z.
Proof.
  intros V E B. destruct (Z.le_gt_cases 0 z) as [L|L].
  - rewrite Z.max_r by exact L. apply fint_u32; [now split|lia].
  - rewrite Z.max_l by lia. destruct x as [s|s| |s m e]; try reflexivity; [now destruct V|]. destruct s; [reflexivity|]. exfalso.
    unfold fval, SF2R, F2R in E. cbn [Fnum Fexp cond_Zopp] in E. apply IZR_lt in L. assert (0 < IZR (Zpos m) * bpow radix2 e) by (apply Rmult_lt_0_compat; [apply (IZR_lt 0); lia|apply bpow_gt_0]). lra.
Qed.
Section Acc.
Variable lm : libm.
Hypothesis LN : libm_ln lm.
Hypothesis LP : libm_pow lm.
Let h : R := / 4503599627370496.
Lemma h_val : h = / 4503599627370496. Proof. reflexivity. Qed.
Lemma tick_price_R t : (0 <= t <= 14000000)%Z -> fok (f_tick_to_rp lm t) /\ 0 < fval (f_tick_to_rp lm t) /\ Rabs (ln (fval (f_tick_to_rp lm t)) - IZR t * ln (fval g_sb)) <= 2 * h.
Proof.
  intros T. assert (L := sb_ln). assert (L2 := ln2_in). unfold f_tick_to_rp. rewrite sb_is. destruct (f_int_R t) as [I1 I2]; [change (2 ^ 53)%Z with 9007199254740992%Z; lia|]. fold (f_u32 t) in I1, I2.
  assert (T0 : 0 <= IZR t <= 14000000) by (split; [apply (IZR_le 0)|apply IZR_le]; lia).
  assert (S0 : 0 < fval g_sb) by (rewrite sb_R; lra).
  set (X := Rpower (fval g_sb) (fval (f_u32 t))). assert (LX : ln X = IZR t * ln (fval g_sb)) by (unfold X, Rpower; rewrite ln_exp, I2; reflexivity).
  assert (XP : 0 < X) by apply exp_pos. set (y := IZR t * ln (fval g_sb)) in *.
  assert (yB : 0 <= y <= 700) by (unfold y; nra).
  assert (XE : X = exp y) by (rewrite <- LX; symmetry; now apply exp_ln).
  assert (XB : bpow radix2 (-1022) <= X <= bpow radix2 1023).
  { split.
    - apply Rle_trans with (bpow radix2 0); [apply bpow_le; lia|]. cbn [bpow]. rewrite XE. destruct (proj1 yB) as [G|G]; [left; rewrite <- exp_0; now apply exp_increasing|rewrite <- G, exp_0; lra].
    - rewrite <- (exp_ln (bpow radix2 1023)) by apply bpow_gt_0. rewrite ln_bpow, XE. left. apply exp_increasing. lra. }
  destruct (LP g_sb (f_u32 t) sb_ok I1 S0 XB) as [P1 P2]. fold X in P2.
  destruct (ln_shift _ X (/ 4503599627370496) XP ltac:(lra) P2) as [Q1 Q2]. rewrite LX in Q2. split; [exact P1|]. split; [exact Q1|exact Q2].
Qed.
Lemma half_fmt t : (Z.abs t <= 14000001)%Z -> rnd (IZR t + / 2) = IZR t + / 2.
Proof.
  intros T. destruct (f_int_R (2 * t + 1)) as [A B]; [change (2 ^ 53)%Z with 9007199254740992%Z; lia|].
  apply round_generic; auto with typeclass_instances.
  replace (IZR t + / 2) with (F2R (Float radix2 (2 * t + 1) (-1))).
  - apply generic_format_FLT. exists (Float radix2 (2 * t + 1) (-1)); [reflexivity|cbn [Fnum]; change (Zpower radix2 53) with 9007199254740992%Z; lia|cbn [Fexp]; unfold SpecFloat.emin; lia].
  - unfold F2R. cbn [Fnum Fexp bpow]. change (Z.pow_pos radix2 1) with 2%Z. rewrite plus_IZR, mult_IZR. lra.
Qed.
Lemma log_tick_R t : (0 <= t <= 14000000)%Z -> let q := flog lm (f_tick_to_rp lm t) (fsqrt f_tick_base) in fok q /\ IZR t - / 2 <= fval q <= IZR t + / 2.
Proof.
  intros T q. destruct (tick_price_R t T) as (P1 & P2 & P3). assert (L := sb_ln). assert (H := h_val).
  assert (T0 : 0 <= IZR t <= 14000000) by (split; [apply (IZR_le 0)|apply IZR_le]; lia).
  destruct LN as [_ LA]. destruct (LA _ P1 P2) as [N1 N2]. destruct (LA g_sb sb_ok ltac:(rewrite sb_R; lra)) as [D1 D2].
  set (lam := ln (fval g_sb)) in *. set (g := ln (fval (f_tick_to_rp lm t))) in *. set (N := fval (m_ln lm (f_tick_to_rp lm t))) in *. set (D := fval (m_ln lm g_sb)) in *.
  set (y := IZR t * lam) in *. assert (yB : 0 <= y <= 700) by (unfold y; nra). rewrite (Rabs_pos_eq lam) in D2 by lra. apply Rabs_le_inv in P3, D2.
  assert (G : Rabs g <= 701) by (apply Rabs_le; rewrite H in P3; lra).
  assert (N3 : Rabs (N - g) <= 701 * / 4503599627370496) by (eapply Rle_trans; [exact N2|]; lra). apply Rabs_le_inv in N3.
  assert (DP : 49996 / 1000000000 <= D) by lra.
  assert (DU : D <= lam * (1 + / 4503599627370496)) by lra. assert (DL : lam * (1 - / 4503599627370496) <= D) by lra.
  assert (Q : IZR t - / 2 <= N / D <= IZR t + / 2).
  { assert (E : N / D * D = N) by (field; lra). rewrite H in P3. assert (tD1 : y * (1 - / 4503599627370496) <= IZR t * D) by (unfold y; nra). assert (tD2 : IZR t * D <= y * (1 + / 4503599627370496)) by (unfold y; nra).
    split; apply Rmult_le_reg_r with D; try lra; rewrite E; lra. }
  assert (Q2 : IZR t - / 2 <= rnd (N / D) <= IZR t + / 2).
  { split.
    - replace (IZR t - / 2) with (IZR (t - 1) + / 2) in * by (rewrite minus_IZR; lra). rewrite <- (half_fmt (t - 1)) by lia. apply rnd_le. apply Q.
    - rewrite <- (half_fmt t) by lia. apply rnd_le. apply Q. }
  destruct (div_R' (m_ln lm (f_tick_to_rp lm t)) (m_ln lm g_sb) N1 D1) as [F1 F2]; [fold D; lra| |].
  { fold N D. apply Rle_lt_trans with (bpow radix2 30); [|apply bpow_lt; lia]. change (bpow radix2 30) with 1073741824. apply Rabs_le. lra. }
  unfold q, flog. rewrite sb_is. split; [exact F1|]. rewrite F2. exact Q2.
Qed.
Theorem float_tick_trip t : (0 <= t <= 14000000)%Z ->
  (t - 1 <= f_rp_to_tick lm (f_tick_to_rp lm t) false <= t)%Z /\ (t <= f_rp_to_tick lm (f_tick_to_rp lm t) true <= t + 1)%Z.
Proof.
  intros T. destruct (log_tick_R t T) as [Q1 Q2]. unfold f_rp_to_tick. set (q := flog lm (f_tick_to_rp lm t) (fsqrt f_tick_base)) in *. cbv zeta. split.
  - destruct (floor_R q Q1) as [F1 F2]. set (z := Zfloor (fval q)) in *.
    assert (Z1 : (t - 1 <= z)%Z) by (apply Zfloor_lub; rewrite minus_IZR; lra). assert (Z2 : (z < t + 1)%Z) by (apply lt_IZR; rewrite plus_IZR; apply Rle_lt_trans with (fval q); [apply Zfloor_lb|lra]).
    rewrite (u32_bounds _ z F1 F2) by lia. lia.
  - unfold fceil. destruct (floor_R (fneg q) (fok_neg q Q1)) as [F1 F2]. rewrite fval_opp in F2. set (z := Zfloor (- fval q)) in *.
    assert (Z1 : (- t - 1 <= z)%Z) by (apply Zfloor_lub; rewrite minus_IZR, opp_IZR; lra). assert (Z2 : (z < - t + 1)%Z) by (apply lt_IZR; rewrite plus_IZR, opp_IZR; apply Rle_lt_trans with (- fval q); [apply Zfloor_lb|lra]).
    rewrite (u32_bounds _ (- z) (fok_neg _ F1)); [lia| |lia]. now rewrite fval_opp, F2, opp_IZR.
Qed.
End Acc.
Theorem gnu_tick_two : libm_ok gnu /\ libm_ln gnu /\ libm_pow gnu /\ f_rp_to_tick gnu (f_tick_to_rp gnu 2) false = 1%Z.
Proof.
  split; [exact gnu_ok|]. split; [exact gnu_ln|]. split; [exact gnu_pow|]. unfold f_rp_to_tick, f_tick_to_rp, flog. rewrite sb_is. fold f_2.
  destruct gnu_values as (_ & _ & V1 & V2 & ->). rewrite V1, V2. vm_compute. reflexivity.
Qed.
(** *** the same, aligned to the tick spacing, as a deposit does with its price bounds *)
Lemma u32_nonneg x : (0 <= f_to_u32 x)%Z.
Proof.
  unfold f_to_u32. destruct x as [s|[|]| |[|] m e]; try lia. destruct (0 <=? e)%Z.
  - assert (0 <= Z.shiftl (Z.pos m) e)%Z by (apply Z.shiftl_nonneg; lia). lia.
  - assert (0 <= Z.shiftr (Z.pos m) (- e))%Z by (apply Z.shiftr_nonneg; lia). lia.
Qed.
Theorem float_possible_trip lm t s : libm_ln lm -> libm_pow lm -> (0 <= t <= 14000000)%Z -> (0 < s < 2 ^ 32)%Z -> (t mod s = 0)%Z ->
  let r := f_rp_to_possible_tk lm (f_tick_to_rp lm t) s false in r = t \/ r = (t - s)%Z.
Proof.
  intros L P T S M r. destruct (float_tick_trip lm L P t T) as [[A B] _]. unfold r, f_rp_to_possible_tk. set (u := f_rp_to_tick lm (f_tick_to_rp lm t) false) in *.
  assert (U0 : (0 <= u)%Z) by apply u32_nonneg.
  rewrite possible_exact by lia. apply Z.mod_divide in M; [|lia]. destruct M as [k ->].
  destruct (Z.eq_dec u (k * s)) as [->|N]; [left; rewrite Z.div_mul by lia; reflexivity|].
  right. assert (u = k * s - 1)%Z as -> by lia. assert (k * s - 1 = (k - 1) * s + (s - 1))%Z by ring. assert ((k * s - 1) / s = k - 1)%Z as ->; [symmetry; apply Z.div_unique with (s - 1)%Z; lia|ring].
Qed.
Theorem gnu_possible_two : f_rp_to_possible_tk gnu (f_tick_to_rp gnu 2) 2 false = 0%Z.
Proof. unfold f_rp_to_possible_tk. rewrite (proj2 (proj2 (proj2 gnu_tick_two))). vm_compute. reflexivity. Qed.
