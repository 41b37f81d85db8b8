(** Mathematical libraries that are right within one unit in the last place: they exist (correct rounding), and changing single values within that
    tolerance gives another one. *)
From Coq Require Import ZArith QArith Qreals Reals Lra Lia Bool Psatz Floats.SpecFloat.
From Flocq Require Import Core BinarySingleNaN Relative.
From Verif Require Import FloatBase FloatFacts FloatModel FloatWf LnSeries LnAccuracy FloatLog.
Open Scope R_scope.

(** the correctly rounded f64 of a real number *)
Definition to_f64 (r : R) : f64 := SpecFloat.binary_normalize 53 1024 (ZnearestE (scaled_mantissa radix2 fexp64 r)) (cexp radix2 fexp64 r) false.
Lemma to_f64_R r : Rabs (rnd r) < top -> fok (to_f64 r) /\ fval (to_f64 r) = rnd r.
Proof.
  intros H. unfold to_f64. rewrite bn_equiv.
  pose proof (binary_normalize_correct 53 1024 _ _ mode_NE (ZnearestE (scaled_mantissa radix2 fexp64 r)) (cexp radix2 fexp64 r) false) as C.
  cbv zeta in C. change (F2R (Float radix2 (ZnearestE (scaled_mantissa radix2 fexp64 r)) (cexp radix2 fexp64 r))) with (rnd r) in C.
  change (round radix2 fexp64 (round_mode mode_NE) (rnd r)) with (rnd (rnd r)) in C.
  assert (I : rnd (rnd r) = rnd r) by (apply round_generic; auto with typeclass_instances; apply generic_format_round; auto with typeclass_instances).
  rewrite I in C. rewrite Rlt_bool_true in C by exact H. destruct C as (C1 & C2 & _).
  split; [split; [apply b_ok|now rewrite b_fin]|now rewrite b_val].
Qed.
Lemma to_f64_valid r : f64_ok (to_f64 r).
Proof. unfold to_f64. rewrite bn_equiv. apply b_ok. Qed.
Lemma to_f64_0 : to_f64 0 = f_zero.
Proof.
  unfold to_f64. unfold scaled_mantissa. rewrite Rmult_0_l. replace (ZnearestE 0) with 0%Z; [reflexivity|].
  symmetry. apply (Znearest_imp _ 0 0). rewrite Rminus_0_r, Rabs_R0. lra.
Qed.

(** an f64 other than 1 is at least 2^-53 away from 1 *)
Lemma apart x : fok x -> 0 < fval x -> fval x <> 1 -> u53 <= Rabs (fval x - 1).
Proof.
  intros [V F] P N. destruct x as [s|s| |s m e]; try discriminate; [cbn in P; lra|].
  pose proof (bound_mant _ _ _ V) as M. set (X := fval (S754_finite s m e)) in *.
  assert (U := u53_val). assert (UP := u53_pos).
  destruct (Rlt_or_le X (/ 2)) as [L|L]; [rewrite Rabs_left by lra; rewrite U; lra|].
  assert (S : s = false). { destruct s; [|reflexivity]. exfalso. unfold X, fval, SF2R, F2R in P. cbn [Fnum Fexp cond_Zopp] in P. assert (0 < bpow radix2 e) by apply bpow_gt_0. assert (IZR (- Zpos m) < 0) by (apply (IZR_lt _ 0); lia). nra. }
  subst s. assert (XE : X = IZR (Zpos m) * bpow radix2 e) by reflexivity.
  assert (E : (-53 <= e)%Z).
  { destruct (Z.le_gt_cases (-53) e) as [|G]; [assumption|]. exfalso. assert (B : bpow radix2 e <= bpow radix2 (-54)) by (apply bpow_le; lia).
    assert (MB : IZR (Zpos m) < IZR (2 ^ 53)) by (apply IZR_lt; exact M). assert (0 < IZR (Zpos m)) by (apply (IZR_lt 0); lia).
    assert (X < IZR (2 ^ 53) * bpow radix2 (-54)). { rewrite XE. apply Rlt_le_trans with (IZR (2 ^ 53) * bpow radix2 e); [apply Rmult_lt_compat_r; [apply bpow_gt_0|exact MB]|apply Rmult_le_compat_l; [|exact B]]. lra. }
    replace (IZR (2 ^ 53) * bpow radix2 (-54)) with (/ 2) in H0; [lra|]. unfold bpow. change (Z.pow_pos radix2 54) with (2 * 2 ^ 53)%Z. rewrite mult_IZR. field. apply IZR_neq. lia. }
  set (k := (Zpos m * 2 ^ (e + 53))%Z). assert (XK : X = IZR k * u53).
  { rewrite XE. unfold k, u53. rewrite mult_IZR. change (2 ^ (e + 53))%Z with (Zpower radix2 (e + 53)). rewrite IZR_Zpower by lia. rewrite Rmult_assoc, <- bpow_plus. f_equal. f_equal. lia. }
  assert (ONE : 1 = IZR 9007199254740992 * u53) by (rewrite U; lra).
  assert (K : (k <> 9007199254740992)%Z) by (intros K; rewrite K in XK; lra).
  replace (X - 1) with (IZR (k - 9007199254740992) * u53) by (rewrite minus_IZR, XK, Rmult_minus_distr_r, <- ONE; ring).
  rewrite Rabs_mult, (Rabs_pos_eq u53) by lra. rewrite <- abs_IZR. assert (1 <= IZR (Z.abs (k - 9007199254740992))) by (apply (IZR_le 1); lia). nra.
Qed.
Lemma ln_le_1 x y : 0 < x -> x <= y -> ln x <= ln y.
Proof. intros P [H|H]; [left; now apply ln_increasing|right; now rewrite H]. Qed.
Lemma ln_bpow k : ln (bpow radix2 k) = IZR k * ln 2.
Proof.
  destruct k as [|p|p]; cbn [bpow]; [rewrite ln_1; ring| |].
  - rewrite <- (Z2Nat.id (Z.pow_pos radix2 p)) by (apply Zle_0_pos || (change (0 <= Z.pow radix2 (Zpos p))%Z; apply Z.pow_nonneg; cbn; lia)).
    rewrite Z2Nat.id by (change (0 <= Z.pow radix2 (Zpos p))%Z; apply Z.pow_nonneg; cbn; lia).
    change (Z.pow_pos radix2 p) with (2 ^ (Zpos p))%Z. rewrite <- (positive_nat_Z p). rewrite <- pow_IZR. rewrite ln_pow by lra. now rewrite INR_IZR_INZ.
  - rewrite ln_Rinv by (change (0 < bpow radix2 (Zpos p)); apply bpow_gt_0).
    change (Z.pow_pos radix2 p) with (2 ^ (Zpos p))%Z. rewrite <- (positive_nat_Z p) at 1. rewrite <- pow_IZR. rewrite ln_pow by lra. rewrite INR_IZR_INZ, positive_nat_Z.
    change (Zneg p) with (- Zpos p)%Z. rewrite opp_IZR. ring.
Qed.
(** its logarithm is neither tiny nor large *)
Lemma ln_size x : fok x -> 0 < fval x -> fval x <> 1 -> u53 / 2 <= Rabs (ln (fval x)) <= 1000.
Proof.
  intros V P N. assert (A := apart x V P N). assert (L2 := ln2_in). assert (U := u53_val). split.
  - destruct (Rle_or_lt (fval x) 1) as [L|L].
    + rewrite Rabs_left1 in A by lra. pose proof (ln_le_sub (fval x) P). rewrite Rabs_left1 by lra. lra.
    + rewrite Rabs_pos_eq in A by lra. pose proof (ln_le_sub (/ fval x) ltac:(now apply Rinv_0_lt_compat)) as S. rewrite ln_Rinv in S by lra.
      assert (0 < ln (fval x)) by (rewrite <- ln_1; apply ln_increasing; lra). rewrite Rabs_pos_eq by lra.
      destruct (Rle_or_lt (fval x) 2) as [Q|Q].
      * apply Rle_trans with (1 - / fval x); [|lra]. apply Rmult_le_reg_r with (fval x); [lra|]. rewrite Rmult_minus_distr_r, Rinv_l by lra. nra.
      * assert (ln 2 <= ln (fval x)) by (apply ln_le_1; lra). rewrite U. lra.
  - destruct V as [V F]. assert (T := fval_top x V). rewrite Rabs_pos_eq in T by lra.
    assert (LO : bpow radix2 (-1074) <= fval x).
    { destruct x as [s|s| |s m e]; try discriminate; [cbn in P; lra|].
      assert (E : (-1074 <= e)%Z).
      { pose proof (as_b _ V) as [b E]. destruct b as [| | |s' m' e' B]; try discriminate. injection E as <- <- <-.
        unfold SpecFloat.bounded in B. apply andb_prop in B as [B _]. unfold SpecFloat.canonical_mantissa in B.
        apply Zeq_bool_eq in B. unfold SpecFloat.fexp, SpecFloat.emin in B. lia. }
      destruct s.
      { exfalso. unfold fval, SF2R, F2R in P. cbn [Fnum Fexp cond_Zopp] in P. assert (0 < bpow radix2 e) by apply bpow_gt_0. assert (IZR (- Zpos m) < 0) by (apply (IZR_lt _ 0); lia). nra. }
      change (fval (S754_finite false m e)) with (IZR (Zpos m) * bpow radix2 e).
      assert (bpow radix2 (-1074) <= bpow radix2 e) by (apply bpow_le; lia). assert (1 <= IZR (Zpos m)) by (apply (IZR_le 1); lia). assert (0 < bpow radix2 e) by apply bpow_gt_0. nra. }
    assert (B : 0 < bpow radix2 (-1074)) by apply bpow_gt_0.
    pose proof (ln_le_1 _ _ B LO) as L1. pose proof (ln_le_1 _ _ P (Rlt_le _ _ T)) as L3. unfold top in L3. rewrite ln_bpow in L1, L3. apply Rabs_le. lra.
Qed.

(** A library whose [powf] is right within one unit in the last place when the result is far from overflow and underflow. *)
Definition libm_pow (lm : libm) : Prop :=
  forall a b, fok a -> fok b -> 0 < fval a -> bpow radix2 (-1022) <= Rpower (fval a) (fval b) <= bpow radix2 1023 ->
    fok (m_powf lm a b) /\ Rabs (fval (m_powf lm a b) - Rpower (fval a) (fval b)) <= / 4503599627370496 * Rpower (fval a) (fval b).

(** the library that rounds the real functions correctly *)
Definition ideal : libm := mkLibm (fun x => to_f64 (ln (fval x))) (fun a b => to_f64 (Rpower (fval a) (fval b))).
Lemma ulp_two : / 4503599627370496 = 2 * u53. Proof. rewrite u53_val. lra. Qed.
Lemma ideal_ok : libm_ok ideal.
Proof. split; intros; apply to_f64_valid. Qed.
Lemma u53_rel r : bpow radix2 (-1022) <= Rabs r <= bpow radix2 1023 -> Rabs (rnd r) < top /\ Rabs (rnd r - r) <= u53 * Rabs r.
Proof.
  intros [L U]. assert (E := rnd_rel r L). split; [|exact E]. assert (UV := u53_val).
  replace (rnd r) with ((rnd r - r) + r) by ring. eapply Rle_lt_trans; [apply Rabs_triang|].
  unfold top. change 1024%Z with (1 + 1023)%Z. rewrite bpow_plus. change (bpow radix2 1) with 2. assert (0 < bpow radix2 1023) by apply bpow_gt_0.
  apply Rle_lt_trans with (u53 * bpow radix2 1023 + bpow radix2 1023); [|rewrite UV; lra].
  apply Rplus_le_compat; [|exact U]. eapply Rle_trans; [exact E|]. apply Rmult_le_compat_l; [rewrite UV; lra|exact U].
Qed.
Lemma ideal_ln : libm_ln ideal.
Proof.
  split; [cbn [m_ln ideal]; rewrite fval_one, ln_1; apply to_f64_0|].
  intros x V P. cbn [m_ln ideal]. rewrite ulp_two. assert (UV := u53_val). destruct (Req_dec (fval x) 1) as [E|N].
  - rewrite E, ln_1, to_f64_0. split; [split; reflexivity|]. cbn [fval SF2R f_zero]. change (fval f_zero) with 0. rewrite Rminus_0_r, Rabs_R0. lra.
  - destruct (ln_size x V P N) as [L U].
    assert (A : bpow radix2 (-1022) <= Rabs (ln (fval x)) <= bpow radix2 1023).
    { split; [apply Rle_trans with (u53 / 2); [|exact L]|apply Rle_trans with (bpow radix2 10); [|apply bpow_le; lia]].
      - replace (u53 / 2) with (bpow radix2 (-54)); [apply bpow_le; lia|]. unfold u53. change (-53)%Z with (1 + -54)%Z. rewrite bpow_plus. change (bpow radix2 1) with 2. field.
      - change (bpow radix2 10) with 1024. lra. }
    destruct (u53_rel _ A) as [B C]. destruct (to_f64_R _ B) as [D E]. split; [exact D|]. rewrite E. assert (0 <= Rabs (ln (fval x))) by apply Rabs_pos. nra.
Qed.
Lemma ideal_pow : libm_pow ideal.
Proof.
  intros a b Va Vb P A. cbn [m_powf ideal]. rewrite ulp_two. assert (UV := u53_val). set (r := Rpower (fval a) (fval b)) in *.
  assert (R0 : 0 < r) by apply exp_pos. assert (AR : Rabs r = r) by (apply Rabs_pos_eq; lra).
  destruct (u53_rel r) as [B C]; [rewrite AR; exact A|]. destruct (to_f64_R _ B) as [D E]. split; [exact D|]. rewrite E. rewrite AR in C. nra.
Qed.

(** *** replacing single values *)
Definition f_eq_dec (x y : f64) : {x = y} + {x <> y}.
Proof. decide equality; try apply Bool.bool_dec; try apply Z.eq_dec; apply Pos.eq_dec. Defined.
Definition patch_ln (lm : libm) (x y : f64) : libm := mkLibm (fun z => if f_eq_dec z x then y else m_ln lm z) (m_powf lm).
Definition patch_pow (lm : libm) (x y r : f64) : libm := mkLibm (m_ln lm) (fun a b => if f_eq_dec a x then if f_eq_dec b y then r else m_powf lm a b else m_powf lm a b).
Lemma patch_ln_ok lm x y : libm_ok lm -> f64_ok y -> libm_ok (patch_ln lm x y).
Proof. intros [A B] Y. split; cbn [patch_ln patch_pow m_ln m_powf]; [|exact B]. intros z Z. destruct (f_eq_dec z x); auto. Qed.
Lemma patch_pow_ok lm x y r : libm_ok lm -> f64_ok r -> libm_ok (patch_pow lm x y r).
Proof. intros [A B] Y. split; cbn [patch_ln patch_pow m_ln m_powf]; [exact A|]. intros a b HA HB. destruct (f_eq_dec a x); [destruct (f_eq_dec b y)|]; auto. Qed.
Lemma patch_ln_ln lm x y : libm_ln lm -> x <> f_one -> fok y -> Rabs (fval y - ln (fval x)) <= / 4503599627370496 * Rabs (ln (fval x)) -> libm_ln (patch_ln lm x y).
Proof.
  intros [A B] N Y E. split; cbn [patch_ln patch_pow m_ln m_powf]; [destruct (f_eq_dec f_one x); [congruence|exact A]|].
  intros z V P. destruct (f_eq_dec z x) as [->|]; [now split|now apply B].
Qed.
Lemma patch_ln_pow lm x y : libm_pow lm -> libm_pow (patch_ln lm x y). Proof. intros H. exact H. Qed.
Lemma patch_pow_ln lm x y r : libm_ln lm -> libm_ln (patch_pow lm x y r). Proof. intros H. exact H. Qed.
Lemma patch_pow_pow lm x y r : libm_pow lm -> fok r -> Rabs (fval r - Rpower (fval x) (fval y)) <= / 4503599627370496 * Rpower (fval x) (fval y) -> libm_pow (patch_pow lm x y r).
Proof.
  intros H R E a b HA HB P L. cbn [patch_pow m_powf]. destruct (f_eq_dec a x) as [->|]; [destruct (f_eq_dec b y) as [->|]|]; [now split| |]; now apply H.
Qed.

(** *** a library that computes the values of the GNU library at the points used by the counterexamples *)
(* values returned by the GNU library *)
Definition g_sb : f64 := S754_finite false 4503824801722646 (-52).
Definition g_p2 : f64 := S754_finite false 4504049987333232 (-52).
Definition g_lnsb : f64 := S754_finite false 7378328719181482 (-67).
Definition g_lnp2 : f64 := S754_finite false 7378328719178966 (-66).
Definition g_x : f64 := S754_finite false 9007199254740988 (-42).
Definition g_lnx : f64 := S754_finite false 8584557806227368 (-50).
Definition g_ln2 : f64 := S754_finite false 6243314768165359 (-53).
Definition f_2 : f64 := f_u32 2.
Definition gnu : libm := patch_pow (patch_ln (patch_ln (patch_ln (patch_ln ideal g_sb g_lnsb) g_p2 g_lnp2) g_x g_lnx) f_two g_ln2) g_sb f_2 g_p2.

Lemma fin_R m e : fval (S754_finite false m e) = IZR (Zpos m) * bpow radix2 e. Proof. reflexivity. Qed.
Lemma fin_Q m k : fval (S754_finite false m (Zneg k)) = Q2R (Zpos m # (2 ^ k)).
Proof. rewrite fin_R. unfold Q2R. cbn [Qnum Qden bpow]. f_equal. f_equal. f_equal. now rewrite Pos2Z.inj_pow. Qed.
(** the stated tolerance, from an enclosure of the logarithm *)
Lemma within_ulp (v : R) (lo hi w : Q) : Q2R lo <= v <= Q2R hi -> (0 < lo)%Q -> (4503599627370496 * (hi - w) <= lo)%Q -> (4503599627370496 * (w - lo) <= lo)%Q ->
  Rabs (Q2R w - v) <= / 4503599627370496 * Rabs v.
Proof.
  intros [L U] P A B. apply Qlt_Rlt in P. apply Qle_Rle in A, B. rewrite RMicromega.Q2R_0 in P.
  rewrite Q2R_mult, Q2R_minus in A, B. change 4503599627370496%Q with (inject_Z 4503599627370496) in A, B. rewrite q2r_z in A, B.
  rewrite (Rabs_pos_eq v) by lra. apply Rabs_le. lra.
Qed.
Lemma ln2_tight : Q2R (693147180559945309417 # 1000000000000000000000) <= ln 2 <= Q2R (693147180559945309418 # 1000000000000000000000).
Proof. replace 2 with (IZR 2 / IZR 1) by lra. apply (ln_near_ok 23); [lia|now vm_compute]. Qed.

Lemma lnsb_in : Rabs (fval g_lnsb - ln (fval g_sb)) <= / 4503599627370496 * Rabs (ln (fval g_sb)).
Proof.
  unfold g_lnsb. rewrite fin_Q. apply (within_ulp _ (4999750016655470273273 # 100000000000000000000000000) (4999750016655470273274 # 100000000000000000000000000)); try now vm_compute.
  replace (fval g_sb) with (IZR 4503824801722646 / IZR 4503599627370496); [apply (ln_near_ok 3); [lia|now vm_compute]|].
  unfold g_sb. rewrite fin_Q. unfold Q2R. cbn [Qnum Qden]. reflexivity.
Qed.
Lemma lnp2_in : Rabs (fval g_lnp2 - ln (fval g_p2)) <= / 4503599627370496 * Rabs (ln (fval g_p2)).
Proof.
  unfold g_lnp2. rewrite fin_Q. apply (within_ulp _ (9999500033307530061930 # 100000000000000000000000000) (9999500033307530061931 # 100000000000000000000000000)); try now vm_compute.
  replace (fval g_p2) with (IZR 4504049987333232 / IZR 4503599627370496); [apply (ln_near_ok 3); [lia|now vm_compute]|].
  unfold g_p2. rewrite fin_Q. unfold Q2R. cbn [Qnum Qden]. reflexivity.
Qed.
Lemma ln2_near : Rabs (fval g_ln2 - ln (fval f_two)) <= / 4503599627370496 * Rabs (ln (fval f_two)).
Proof. unfold g_ln2. rewrite fin_Q. rewrite (proj2 two_val). eapply within_ulp; [exact ln2_tight|now vm_compute..]. Qed.
Lemma lnx_near : Rabs (fval g_lnx - ln (fval g_x)) <= / 4503599627370496 * Rabs (ln (fval g_x)).
Proof.
  unfold g_lnx. rewrite fin_Q.
  assert (T := ln2_tight).
  assert (D : Q2R (444 # 1000000000000000000) <= ln (IZR 9007199254740992 / IZR 9007199254740988) <= Q2R (445 # 1000000000000000000)) by (apply (ln_near_ok 1); [lia|now vm_compute]).
  assert (E : ln (fval g_x) = 11 * ln 2 - ln (IZR 9007199254740992 / IZR 9007199254740988)).
  { replace (fval g_x) with (2 ^ 11 * / (IZR 9007199254740992 / IZR 9007199254740988)).
    - rewrite ln_mult by lra. rewrite ln_Rinv by lra. rewrite ln_pow by lra. rewrite INR_IZR_INZ. change (Z.of_nat 11) with 11%Z. lra.
    - unfold g_x. rewrite fin_Q. unfold Q2R. cbn [Qnum Qden]. change (Z.pos (2 ^ 42)) with 4398046511104%Z. lra. }
  apply (within_ulp _ (11 * (693147180559945309417 # 1000000000000000000000) - (445 # 1000000000000000000)) (11 * (693147180559945309418 # 1000000000000000000000) - (444 # 1000000000000000000)));
    [|now vm_compute..].
  rewrite E, !Q2R_minus, !Q2R_mult. replace (Q2R 11) with 11 by (unfold Q2R; cbn; lra). lra.
Qed.
Lemma f2_val : fok f_2 /\ fval f_2 = 2.
Proof. replace f_2 with f_two by (vm_compute; reflexivity). apply two_val. Qed.
Lemma p2_near : Rabs (fval g_p2 - Rpower (fval g_sb) (fval f_2)) <= / 4503599627370496 * Rpower (fval g_sb) (fval f_2).
Proof.
  rewrite (proj2 f2_val). assert (P : 0 < fval g_sb) by (unfold g_sb; rewrite fin_R; apply Rmult_lt_0_compat; [apply (IZR_lt 0); lia|apply bpow_gt_0]).
  replace 2 with (INR 2) by (cbn; lra). rewrite Rpower_pow by exact P. rewrite <- (Rabs_pos_eq (fval g_sb ^ 2)) at 2 by nra.
  unfold g_p2, g_sb. rewrite !fin_Q. set (q := (4503824801722646 # 2 ^ 52)%Q).
  apply (within_ulp _ (q * q) (q * q)); [rewrite Q2R_mult; cbn; lra|now vm_compute..].
Qed.
Lemma gnu_ok : libm_ok gnu.
Proof. apply patch_pow_ok; [|reflexivity]. repeat (apply patch_ln_ok; [|reflexivity]). apply ideal_ok. Qed.
Lemma gnu_ln : libm_ln gnu.
Proof.
  apply patch_pow_ln. apply patch_ln_ln; [|discriminate|split; reflexivity|exact ln2_near]. apply patch_ln_ln; [|discriminate|split; reflexivity|exact lnx_near].
  apply patch_ln_ln; [|discriminate|split; reflexivity|exact lnp2_in]. apply patch_ln_ln; [|discriminate|split; reflexivity|exact lnsb_in]. apply ideal_ln.
Qed.
Lemma gnu_pow : libm_pow gnu.
Proof. apply patch_pow_pow; [|split; reflexivity|exact p2_near]. repeat apply patch_ln_pow. apply ideal_pow. Qed.
Lemma gnu_values : m_ln gnu f_two = g_ln2 /\ m_ln gnu g_x = g_lnx /\ m_ln gnu g_p2 = g_lnp2 /\ m_ln gnu g_sb = g_lnsb /\ m_powf gnu g_sb f_2 = g_p2.
Proof. repeat split; vm_compute; reflexivity. Qed.
