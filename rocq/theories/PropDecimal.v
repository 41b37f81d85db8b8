(** Claims C01-C07 and C10: decimal arithmetic. *)
From Coq Require Import ZArith QArith Qabs Qround Qpower Bool Lia.
From Verif Require Import Base DecimalModel DecimalSpec DecimalProofs SqrtProofs PowProofs.
Open Scope Z_scope.

(** ** C01 *)
Theorem C01_add_exact : forall a b, wf a -> wf b ->
  match d_add a b with
  | Ok c => dscale a = dscale b /\ wf c /\ dscale c = dscale a /\ (num c == num a + num b)%Q
  | Err e => e = DifferentScale /\ dscale a <> dscale b
  | Panic => dscale a = dscale b /\ 2 ^ 128 <= Z.abs (mant a + mant b)
  | NoFuel => False
  end.
Proof. exact add_spec. Qed.
Theorem C01_sub_exact : forall a b, wf a -> wf b ->
  match d_sub a b with
  | Ok c => dscale a = dscale b /\ wf c /\ dscale c = dscale a /\ (num c == num a - num b)%Q
  | Err e => e = DifferentScale /\ dscale a <> dscale b
  | Panic => dscale a = dscale b /\ 2 ^ 128 <= Z.abs (mant a - mant b)
  | NoFuel => False
  end.
Proof. exact sub_spec. Qed.
Example C01_case : wf (mkD 150 2 false) /\ wf (mkD 275 2 true) /\
  d_add (mkD 150 2 false) (mkD 275 2 true) = Ok (mkD 125 2 true) /\
  d_add (mkD 150 2 false) (mkD 275 3 true) = Err DifferentScale /\
  d_sub (mkD (2 ^ 128 - 1) 2 false) (mkD 1 2 true) = Panic.
Proof. unfold wf; cbn; repeat split; lia. Qed.

(** ** C02 *)
Theorem C02_mul_truncates : forall a b, wf a -> wf b ->
  returns_or_panics (d_mul a b)
    (fun c => wf c /\ dscale c = dscale a /\ truncated (dscale a) (num c) (num a * num b))
    (2 ^ 128 <= dval a * dval b \/ 38 < dscale b).
Proof. exact mul_spec. Qed.
Theorem C02_mul_up_rounds_away : forall a b, wf a -> wf b ->
  returns_or_panics (d_mul_up a b)
    (fun c => wf c /\ dscale c = dscale a /\ rounded_away (dscale a) (num c) (num a * num b))
    (2 ^ 128 <= dval a * dval b + (10 ^ dscale b - 1) \/ 38 < dscale b).
Proof. exact mul_up_spec. Qed.
Theorem C02_mul_u128_exact : forall a n, wf a -> 0 <= n < 2 ^ 128 ->
  returns_or_panics (d_mul_u128 a n)
    (fun c => wf c /\ dscale c = dscale a /\ (num c == num a * inject_Z n)%Q)
    (2 ^ 128 <= dval a * n).
Proof. exact mul_u128_spec. Qed.
Example C02_case : wf (mkD 1234 3 false) /\ wf (mkD 4321 5 true) /\
  d_mul (mkD 1234 3 false) (mkD 4321 5 true) = Ok (mkD 53 3 true) /\
  d_mul_up (mkD 1234 3 false) (mkD 4321 5 true) = Ok (mkD 54 3 true) /\
  d_mul (mkD (2 ^ 64) 3 false) (mkD (2 ^ 64) 5 true) = Panic.
Proof. unfold wf; cbn; repeat split; lia. Qed.

(** ** C03 *)
Theorem C03_div_truncates : forall a b, wf a -> wf b ->
  returns_or_panics (d_div a b)
    (fun c => dval b <> 0 /\ wf c /\ dscale c = dscale a /\ truncated (dscale a) (num c) (num a / num b))
    (dval b = 0 \/ 2 ^ 128 <= dval a * 10 ^ dscale b \/ 38 < dscale b).
Proof. exact div_spec. Qed.
Theorem C03_div_up_rounds_away : forall a b, wf a -> wf b ->
  returns_or_panics (d_div_up a b)
    (fun c => dval b <> 0 /\ wf c /\ dscale c = dscale a /\ rounded_away (dscale a) (num c) (num a / num b))
    (dval b = 0 \/ 2 ^ 128 <= dval a * 10 ^ dscale b + (dval b - 1) \/ 38 < dscale b).
Proof. exact div_up_spec. Qed.
Theorem C03_div_to_scale_truncates : forall a b s, wf a -> wf b -> 0 <= s <= 255 ->
  returns_or_panics (d_div_to_scale a b s)
    (fun c => dval b <> 0 /\ wf c /\ dscale c = s /\ truncated s (num c) (num a / num b))
    (dval b = 0 \/ 38 < Z.abs (dscale a - s - dscale b) \/ 2 ^ 128 <= dval a * 10 ^ (s + dscale b - dscale a)).
Proof. exact div_to_scale_spec. Qed.
Theorem C03_zero_divisor_panics : forall a b s, dval b = 0 ->
  d_div a b = Panic /\ d_div_up a b = Panic /\ d_div_to_scale a b s = Panic.
Proof. exact div_by_zero. Qed.
Example C03_case : wf (mkD 20 8 false) /\ wf (mkD 3 3 true) /\
  d_div (mkD 20 8 false) (mkD 3 3 true) = Ok (mkD 6666 8 true) /\
  d_div_up (mkD 20 8 false) (mkD 3 3 true) = Ok (mkD 6667 8 true) /\
  d_div_to_scale (mkD 20 8 false) (mkD 3 3 true) 6 = Ok (mkD 66 6 true) /\
  d_div (mkD 20 8 false) (mkD 0 3 true) = Panic.
Proof. unfold wf; cbn; repeat split; lia. Qed.

(** ** C04 *)
Theorem C04_to_scale : forall d s, wf d -> 0 <= s <= 255 ->
  returns_or_panics (to_scale d s)
    (fun c => wf c /\ dscale c = s /\ dneg c = dneg d /\ truncated s (num c) (num d) /\
              (dscale d <= s -> (num c == num d)%Q /\ to_scale c (dscale d) = Ok d))
    (38 < Z.abs (dscale d - s) \/ 2 ^ 128 <= dval d * 10 ^ (s - dscale d)).
Proof. exact to_scale_spec. Qed.
(** Full claim: [to_scale_up] rounds the magnitude up and keeps the sign.  Missing: the sign (see the refutation);
    the result is always non-negative. *)
Theorem C04_to_scale_up_partial : forall d s, wf d -> 0 <= s <= 255 ->
  returns_or_panics (to_scale_up d s)
    (fun c => wf c /\ dscale c = s /\ dneg c = false /\ ceil_mag s (num c) (num d))
    (38 < Z.abs (dscale d - s) \/ 2 ^ 128 <= dval d + (10 ^ (dscale d - s) - 1) \/ 2 ^ 128 <= dval d * 10 ^ (s - dscale d)).
Proof. exact to_scale_up_spec. Qed.
(** Finding: rounding -1.5 up to scale 0 gives +2. *)
Theorem C04_to_scale_up_sign_refuted : exists d s c, wf d /\ 0 <= s <= 255 /\ to_scale_up d s = Ok c /\
  (num d < 0)%Q /\ (0 < num c)%Q.
Proof. exists (mkD 15 1 true), 0, (mkD 2 0 false). unfold wf. repeat split; try (cbn; lia); vm_compute; reflexivity. Qed.
Example C04_case : wf (mkD 12345 3 true) /\ to_scale (mkD 12345 3 true) 1 = Ok (mkD 123 1 true) /\
  to_scale (mkD 12345 3 true) 5 = Ok (mkD 1234500 5 true) /\
  to_scale_up (mkD 12345 3 false) 1 = Ok (mkD 124 1 false).
Proof. unfold wf; cbn; repeat split; lia. Qed.

(** ** C05 *)
Theorem C05_different_scale_rejected : forall a b, dscale a <> dscale b ->
  d_eq a b = Err DifferentScale /\ d_lt a b = Err DifferentScale /\ d_gt a b = Err DifferentScale /\
  d_lte a b = Err DifferentScale /\ d_gte a b = Err DifferentScale /\ d_min a b = Panic /\ d_max a b = Panic.
Proof. exact cmp_scale. Qed.
(** Full claim: for all decimals of equal scale.  Missing: negative zero (see the refutation). *)
Theorem C05_comparisons_partial : forall a b, wf a -> wf b -> canonical a -> canonical b -> dscale a = dscale b ->
  (exists r, d_eq a b = Ok r /\ (r = true <-> (num a == num b)%Q)) /\
  (exists r, d_lt a b = Ok r /\ (r = true <-> (num a < num b)%Q)) /\
  (exists r, d_gt a b = Ok r /\ (r = true <-> (num b < num a)%Q)) /\
  (exists r, d_lte a b = Ok r /\ (r = true <-> (num a <= num b)%Q)) /\
  (exists r, d_gte a b = Ok r /\ (r = true <-> (num b <= num a)%Q)) /\
  (exists m, d_min a b = Ok m /\ (m = a \/ m = b) /\ (num m <= num a)%Q /\ (num m <= num b)%Q) /\
  (exists m, d_max a b = Ok m /\ (m = a \/ m = b) /\ (num a <= num m)%Q /\ (num b <= num m)%Q).
Proof. exact cmp_spec. Qed.
(** Finding: multiplication produces a negative zero, which compares below zero and not equal to it. *)
Theorem C05_comparisons_refuted : exists a b z, wf a /\ wf b /\ canonical a /\ canonical b /\
  d_mul a b = Ok z /\ (num z == 0)%Q /\
  d_eq z (mkD 0 0 false) = Ok false /\ d_lt z (mkD 0 0 false) = Ok true /\ d_gte z (mkD 0 0 false) = Ok false.
Proof.
  exists (mkD 1 0 true), (mkD 0 0 false), (mkD 0 0 true). unfold wf, canonical; cbn. repeat split; try lia; discriminate.
Qed.
Example C05_case : canonical (mkD 5 1 true) /\ canonical (mkD 7 1 false) /\
  d_lt (mkD 5 1 true) (mkD 7 1 false) = Ok true /\ d_lt (mkD 5 1 true) (mkD 7 1 true) = Ok false /\
  d_min (mkD 5 1 true) (mkD 7 1 true) = Ok (mkD 7 1 true).
Proof. unfold canonical; cbn; repeat split; lia. Qed.

(** ** C06: [n] is the radicand scaled to the result's precision *)
Theorem C06_sqrt : forall d, wf d ->
  match d_sqrt d with
  | Ok r => dscale r = dscale d /\ dneg r = dneg d /\ wf r /\
            exists s, is_isqrt (dval d * 10 ^ dscale d) s /\ s <= dval r <= s + 1
  | Err e => e = ExceedsPrecisionRange /\ 2 ^ 128 <= dval d * 10 ^ dscale d
  | Panic => 38 < dscale d
  | NoFuel => False
  end.
Proof. exact sqrt_spec. Qed.
(** The "+1" is attained: sqrt 8 = 3. *)
Example C06_case : d_sqrt (mkD 8 0 false) = Ok (mkD 3 0 false) /\
  d_sqrt (mkD (2 * 10 ^ 12) 12 false) = Ok (mkD 1414213562373 12 false) /\
  d_sqrt (mkD (2 ^ 100) 12 false) = Err ExceedsPrecisionRange.
Proof. repeat split; vm_compute; reflexivity. Qed.
(** Finding: a negative radicand is not rejected. *)
Theorem C06_negative_radicand_refuted : exists d r, wf d /\ (num d < 0)%Q /\ d_sqrt d = Ok r /\ (num r < 0)%Q.
Proof. exists (mkD 4 0 true), (mkD 2 0 true). unfold wf. repeat split; try (cbn; lia); vm_compute; reflexivity. Qed.

(** ** C07 *)
(** Full claim also covers the sign for negative bases; that part is refuted below. *)
Theorem C07_pow_partial : forall d n, wf d -> 0 <= n ->
  returns_or_panics (d_pow d n)
    (fun c => wf c /\ dscale c = dscale d /\ dneg c = (dneg d && Z.even n) /\ (Qabs (num c) <= Qabs (num d) ^ n)%Q)
    True.
Proof. exact pow_spec. Qed.
Theorem C07_pow_zero : forall d, wf d -> dneg d = false ->
  returns_or_panics (d_pow d 0) (fun c => (num c == 1)%Q) (38 < dscale d).
Proof. exact pow_zero. Qed.
Theorem C07_pow_one : forall d, wf d -> dneg d = false ->
  returns_or_panics (d_pow d 1) (fun c => c = d) (38 < dscale d \/ 2 ^ 128 <= dval d * Z.max (dval d) (10 ^ dscale d)).
Proof. exact pow_one. Qed.
Theorem C07_pow_at_most_one_total : forall d n, wf d -> dscale d <= 19 -> dval d <= 10 ^ dscale d -> exists c, d_pow d n = Ok c.
Proof. exact pow_le_one_total. Qed.
(** Finding: (-2)^2 = -4 and (-2)^3 = +8. *)
Theorem C07_negative_base_sign_refuted : exists d, wf d /\ (num d == - (2))%Q /\
  (exists c, d_pow d 2 = Ok c /\ (num c == - (4))%Q) /\ (exists c, d_pow d 3 = Ok c /\ (num c == 8)%Q).
Proof.
  exists (mkD 20 1 true). unfold wf. repeat split; try (cbn; lia).
  - eexists; split; vm_compute; reflexivity.
  - eexists; split; vm_compute; reflexivity.
Qed.
Example C07_case : wf (mkD 15 1 false) /\ d_pow (mkD 15 1 false) 3 = Ok (mkD 33 1 false) /\ d_pow (mkD 15 1 false) 1 = Ok (mkD 15 1 false).
Proof. unfold wf. repeat split; try (cbn; lia); vm_compute; reflexivity. Qed.

(** ** C10 *)
Theorem C10_abs_floor : forall d, wf d ->
  returns_or_panics (d_abs d) (fun n => n = Qfloor (Qabs (num d)) /\ 0 <= n < 2 ^ 64)
    (2 ^ 64 <= Qfloor (Qabs (num d)) \/ 38 < dscale d).
Proof. exact abs_spec. Qed.
Theorem C10_abs_up_ceiling : forall d, wf d ->
  returns_or_panics (d_abs_up d) (fun n => n = Qceiling (Qabs (num d)) /\ 0 <= n < 2 ^ 64)
    (2 ^ 64 <= Qceiling (Qabs (num d)) \/ 38 < dscale d \/ 2 ^ 128 <= dval d + (10 ^ dscale d - 1)).
Proof. exact abs_up_spec. Qed.
Theorem C10_raw : forall d, wf d ->
  returns_or_panics (to_u64 d) (fun n => n = dval d /\ n < 2 ^ 64) (2 ^ 64 <= dval d) /\
  returns_or_panics (into_u64 d) (fun n => n = dval d /\ n < 2 ^ 64) (2 ^ 64 <= dval d) /\
  into_u128 d = Ok (dval d).
Proof. exact raw_spec. Qed.
(** Full claim: [Into<i32>] is exact or panics.  Proved for magnitudes below 2^31; above, it wraps. *)
Theorem C10_into_i32_partial : forall d, wf d -> dval d < 2 ^ 31 -> into_i32 d = Ok (mant d).
Proof. exact into_i32_small. Qed.
Theorem C10_into_i32_refuted : exists d, wf d /\ (num d == 4294967297)%Q /\ into_i32 d = Ok 1.
Proof. exists (mkD 4294967297 0 false). unfold wf. repeat split; try (cbn; lia); vm_compute; reflexivity. Qed.
Example C10_case : d_abs (mkD 4269420 5 true) = Ok 42 /\ d_abs_up (mkD 4269420 5 true) = Ok 43 /\
  d_abs (mkD (2 ^ 80) 1 false) = Panic.
Proof. repeat split; vm_compute; reflexivity. Qed.

Print Assumptions C01_add_exact.
Print Assumptions C01_sub_exact.
Print Assumptions C02_mul_truncates.
Print Assumptions C02_mul_up_rounds_away.
Print Assumptions C02_mul_u128_exact.
Print Assumptions C03_div_truncates.
Print Assumptions C03_div_up_rounds_away.
Print Assumptions C03_div_to_scale_truncates.
Print Assumptions C03_zero_divisor_panics.
Print Assumptions C04_to_scale.
Print Assumptions C04_to_scale_up_partial.
Print Assumptions C04_to_scale_up_sign_refuted.
Print Assumptions C05_different_scale_rejected.
Print Assumptions C05_comparisons_partial.
Print Assumptions C05_comparisons_refuted.
Print Assumptions C06_sqrt.
Print Assumptions C06_negative_radicand_refuted.
Print Assumptions C07_pow_partial.
Print Assumptions C07_pow_zero.
Print Assumptions C07_pow_one.
Print Assumptions C07_pow_at_most_one_total.
Print Assumptions C07_negative_base_sign_refuted.
Print Assumptions C10_abs_floor.
Print Assumptions C10_abs_up_ceiling.
Print Assumptions C10_raw.
Print Assumptions C10_into_i32_partial.
Print Assumptions C10_into_i32_refuted.
