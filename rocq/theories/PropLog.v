(** Claims C89-C91: the f64 computations inside the decimal library, and ticks in the f64 pool, for mathematical libraries that are right within one unit in
    the last place ([libm_ln], [libm_pow]).  [fval] is the real number an f64 denotes, [fok] says it is a finite f64, [clear_of x b] is
    2^b (1 + 10^-12) <= x <= 2^(b+1) (1 - 10^-12), [exponent x b] is 2^b <= x < 2^(b+1), and [log2_right] says that the bit length found is the exponent. *)
From Coq Require Import ZArith QArith Qreals Reals Lra Lia List Bool Psatz Floats.SpecFloat.
From Verif Require Import Base BaseLemmas DecimalModel DecimalSpec DecimalProofs MathModel PowAccuracy PropPow Examples Concrete LnSeries LnAccuracy LnUse LnHmm LnFacts
  FloatBase FloatFacts FloatModel FloatWf FloatLog FloatLib FloatTick FloatConv.
Open Scope R_scope.

(** ** C89.  The bit length, computed as the f64 quotient ln x / ln 2. *)
Theorem C89_bit_length_partial : forall lm d b, libm_ln lm -> at_s 12 d -> (-40 <= b <= 48)%Z -> clear_of (num d) b -> exponent (num d) b /\ found (f64_log2 lm) d b.
Proof. intros lm d b L (W & S & N) B C. split; [exact (clear_exponent _ _ C)|exact (f64_found lm d b L W N S B C)]. Qed.
Theorem C89_bit_length_ticks : forall lm t p, libm_ln lm -> (0 <= t < 2 ^ 19)%Z -> tick_to_rp t = Ok p -> log2_right (f64_log2 lm) p.
Proof. exact f64_right_tick. Qed.
(** So the claims on the logarithm (C65), on ticks by logarithms (C66) and on the adjustment at C = 1 (C67) hold without an assumption on the bit length. *)
Theorem C89_ln_partial : forall lm d b, libm_ln lm -> at_s 12 d -> (-6 <= b <= 48)%Z -> clear_of (num d) b -> (num d < ln_room)%Q ->
  exists r, d_ln (f64_log2 lm) d = Ok r /\ wf r /\ dscale r = 12%Z /\
    ln (Q2R (num d)) - (120 + IZR (Z.max 0 b)) / 10 ^ 12 <= Q2R (num r) <= ln (Q2R (num d)) + (1 + IZR (Z.max 0 (- b))) / 10 ^ 12.
Proof.
  intros lm d b L (W & S & N) B C R. apply ln_accurate; [exact W|exact N|exact S|exact B|exact (clear_exponent _ _ C)|exact R|]. apply f64_found; auto. lia.
Qed.
Theorem C89_tick_round_trip : forall lm t p lr, libm_ln lm -> (0 <= t < 2 ^ 19)%Z -> tick_to_rp t = Ok p -> rp_to_tick (f64_log2 lm) p lr = Ok (if (t =? 2)%Z then 1%Z else t).
Proof. exact f64_tick_round_trip. Qed.
Theorem C89_in_range_partial : forall lm d b, libm_ln lm -> at_s 12 d -> (1 # 64 <= num d)%Q -> (num d < ln_room)%Q -> clear_of (num d) b -> in_range (f64_log2 lm) d.
Proof.
  intros lm d b L A G U C. split; [exact G|]. split; [exact U|]. pose proof (exponent_range _ _ (clear_exponent _ _ C) G U) as B. apply (f64_right lm d b L A); [lia|exact C].
Qed.
(** Not clear of a power of two: from 2^14 on, no library whatsoever gets both 2^k and 2^k - 10^-12 right, because they are the same f64. *)
Theorem C89_bit_length_refuted : forall lm k, (14 <= k <= 48)%Z -> let p := mkD (2 ^ k * 10 ^ 12) 12 false in let u := mkD (2 ^ k * 10 ^ 12 - 1) 12 false in
  ~ (log2_right (f64_log2 lm) p /\ log2_right (f64_log2 lm) u).
Proof. exact f64_never_right. Qed.
(** If 2^k is the one that is right, then the logarithm of 2^k - 10^-12 is wrong by more than 0.09. *)
Theorem C89_ln_below_refuted : forall lm k, (14 <= k <= 48)%Z -> let p := mkD (2 ^ k * 10 ^ 12) 12 false in let u := mkD (2 ^ k * 10 ^ 12 - 1) 12 false in
  found (f64_log2 lm) p k -> exists r, d_ln (f64_log2 lm) u = Ok r /\ Q2R (num r) > ln (Q2R (num u)) + 9 / 100.
Proof. exact f64_under_ln. Qed.
(** With the values of the GNU library this already happens at 2^11 - 10^-12, and that library is accurate. *)
Theorem C89_ln_gnu_refuted : exists lm r, libm_ok lm /\ libm_ln lm /\ d_ln (f64_log2 lm) below_pow = Ok r /\ Q2R (num r) > ln (Q2R (num below_pow)) + 9 / 100.
Proof. destruct gnu_under_ln as (A & B & r & C & D). exists gnu, r. split; [exact A|]. split; [exact B|]. split; [exact C|exact D]. Qed.
Theorem C89_library_exists : libm_ok ideal /\ libm_ln ideal /\ libm_pow ideal.
Proof. exact (conj ideal_ok (conj ideal_ln ideal_pow)). Qed.
Example C89_case : at_s 12 (units 10) /\ clear_of (num (units 10)) 3 /\ (num (units 10) < ln_room)%Q /\ (1 # 64 <= num (units 10))%Q /\
  found (f64_log2 ideal) (units 10) 3 /\ d_ln (f64_log2 ideal) (units 10) = Ok (D12 2302585092924) /\ tick_to_rp 1 = Ok root /\ rp_to_tick (f64_log2 ideal) root false = Ok 1%Z.
Proof.
  assert (A : at_s 12 (units 10)) by (split; [split; vm_compute; split; congruence|split; reflexivity]). assert (C : clear_of (num (units 10)) 3) by (apply clear_ofb_ok; vm_compute; reflexivity).
  assert (F : found (f64_log2 ideal) (units 10) 3) by (apply (C89_bit_length_partial ideal (units 10) 3 ideal_ln A); [lia|exact C]).
  split; [exact A|]. split; [exact C|]. split; [vm_compute; reflexivity|]. split; [vm_compute; congruence|]. split; [exact F|]. split.
  - rewrite (ln_oracle _ (fixed 3) _ 3 F); vm_compute; reflexivity.
  - assert (R : tick_to_rp 1 = Ok root) by (vm_compute; reflexivity). split; [exact R|]. apply (C89_tick_round_trip ideal 1 root false ideal_ln); [lia|exact R].
Qed.
(** The hypothesis of [C89_ln_below_refuted] is met by a library that rounds ln (2^14) and ln 2 to nearest. *)
Example C89_below_case : exists lm, libm_ok lm /\ found (f64_log2 lm) (mkD (2 ^ 14 * 10 ^ 12) 12 false) 14.
Proof.
  exists (mkLibm (fun x => if f_eq_dec x f_two then g_ln2 else S754_finite false 5462900422144689 (-49)) (fun x _ => x)).
  split; [split; intros; cbn [m_ln m_powf]; [destruct (f_eq_dec x f_two); reflexivity|assumption]|vm_compute; reflexivity].
Qed.

(** ** C90.  Converting a decimal to f64. *)
Theorem C90_magnitude : forall d, wf d -> (dscale d <= 38)%Z -> exists f, d_into_f64 d = Ok f /\ fok f /\ Rabs (fval f - Rabs (Q2R (num d))) <= 5 / 9007199254740992 * Rabs (Q2R (num d)).
Proof. exact into_f64_magnitude. Qed.
(** The sign is lost: every negative number comes out positive. *)
Theorem C90_sign_refuted : forall d f, wf d -> (num d < 0)%Q -> d_into_f64 d = Ok f -> Q2R (num d) < 0 < fval f.
Proof.
  intros d f W N H. split.
  - apply Qlt_Rlt in N. now rewrite RMicromega.Q2R_0 in N.
  - apply (into_f64_sign d f W); [|exact H]. intros Z. apply Qlt_not_eq in N. apply N. unfold num, mant. rewrite Z. destruct (dneg d); cbn; unfold Qdiv; now rewrite Qmult_0_l.
Qed.
Example C90_case : wf (mkD 1500000 6 true) /\ (num (mkD 1500000 6 true) < 0)%Q /\ d_into_f64 (mkD 1500000 6 true) = Ok (S754_finite false 6755399441055744 (-52)) /\
  wf (mkD (2 ^ 128 - 1) 38 false) /\ d_into_f64 (mkD (2 ^ 128 - 1) 38 false) <> Panic.
Proof. repeat split; try (vm_compute; reflexivity || congruence || discriminate). Qed.

(** ** C91.  Tick -> price -> tick in the f64 pool. *)
Theorem C91_round_trip_partial : forall lm t, libm_ln lm -> libm_pow lm -> (0 <= t <= 14000000)%Z ->
  (t - 1 <= f_rp_to_tick lm (f_tick_to_rp lm t) false <= t)%Z /\ (t <= f_rp_to_tick lm (f_tick_to_rp lm t) true <= t + 1)%Z.
Proof. intros lm t L P. exact (float_tick_trip lm L P t). Qed.
(** Aligned to the spacing, as deposits and withdrawals do with their price bounds: the tick or the one a whole spacing below. *)
Theorem C91_aligned_partial : forall lm t s, libm_ln lm -> libm_pow lm -> (0 <= t <= 14000000)%Z -> (0 < s < 2 ^ 32)%Z -> (t mod s = 0)%Z ->
  f_rp_to_possible_tk lm (f_tick_to_rp lm t) s false = t \/ f_rp_to_possible_tk lm (f_tick_to_rp lm t) s false = (t - s)%Z.
Proof. exact float_possible_trip. Qed.
(** The tick is not always recovered: with the values of the GNU library the price of tick 2 gives tick 1, and tick 0 at spacing 2. *)
Theorem C91_round_trip_refuted : exists lm, libm_ok lm /\ libm_ln lm /\ libm_pow lm /\ f_rp_to_tick lm (f_tick_to_rp lm 2) false = 1%Z /\ f_rp_to_possible_tk lm (f_tick_to_rp lm 2) 2 false = 0%Z.
Proof. destruct gnu_tick_two as (A & B & C & D). exists gnu. split; [exact A|]. split; [exact B|]. split; [exact C|]. split; [exact D|exact gnu_possible_two]. Qed.
Example C91_case : libm_ln ideal /\ libm_pow ideal /\ (13999990 mod 10 = 0)%Z /\ (f_rp_to_tick ideal (f_tick_to_rp ideal 13999990) false <= 13999990)%Z.
Proof. split; [exact ideal_ln|]. split; [exact ideal_pow|]. split; [reflexivity|]. apply (C91_round_trip_partial ideal 13999990 ideal_ln ideal_pow). lia. Qed.

Print Assumptions C89_bit_length_partial.
Print Assumptions C89_bit_length_ticks.
Print Assumptions C89_ln_partial.
Print Assumptions C89_tick_round_trip.
Print Assumptions C89_in_range_partial.
Print Assumptions C89_bit_length_refuted.
Print Assumptions C89_ln_below_refuted.
Print Assumptions C89_ln_gnu_refuted.
Print Assumptions C89_library_exists.
Print Assumptions C90_magnitude.
Print Assumptions C90_sign_refuted.
Print Assumptions C91_round_trip_partial.
Print Assumptions C91_aligned_partial.
Print Assumptions C91_round_trip_refuted.
