(** Claims C65-C67: the natural logarithm, the tick of a price, and the HMM adjustment at C = 1. *)
From Coq Require Import ZArith QArith Qreals Reals Lra Lia List Bool Psatz.
From Verif Require Import Base BaseLemmas DecimalModel DecimalSpec DecimalProofs MathModel PoolModel PoolInv PowAccuracy Examples PropPow Concrete LnSeries LnAccuracy LnUse LnHmm LnFacts.
Import ListNotations.
Open Scope R_scope.

(** ** C65.  The natural logarithm.  [exponent x b] is 2^b <= x < 2^(b+1); [found orc d b] says that the f64 computation of
    the bit length returned b; [ln_room] is 2^128 / 10^24, about 3.4 * 10^14. *)
Theorem C65_ln_accurate_partial : forall orc d b, wf d -> dneg d = false -> dscale d = 12%Z -> (-6 <= b <= 48)%Z -> exponent (num d) b -> (num d < ln_room)%Q -> found orc d b ->
  exists r, d_ln orc d = Ok r /\ wf r /\ dscale r = 12%Z /\
    ln (Q2R (num d)) - (120 + IZR (Z.max 0 b)) / 10 ^ 12 <= Q2R (num r) <= ln (Q2R (num d)) + (1 + IZR (Z.max 0 (- b))) / 10 ^ 12.
Proof. exact ln_accurate. Qed.
Theorem C65_ln_scaled_partial : forall orc d b, wf d -> dneg d = false -> (dscale d <= 12)%Z -> (-6 <= b <= 48)%Z -> exponent (num d) b -> (num d < ln_room)%Q -> found orc d b ->
  exists r, d_ln orc d = Ok r /\ wf r /\ dscale r = dscale d /\ Rabs (Q2R (num r) - ln (Q2R (num d))) <= 168 / 10 ^ 12 + Q2R (ulp (dscale d)).
Proof. exact ln_accurate_scaled. Qed.
(** Values from [ln_room] up, zero, and values below 2^-19 have no logarithm: the code does not return. *)
Theorem C65_ln_large_refuted : forall orc d r, wf d -> dneg d = false -> (dscale d <= 12)%Z -> (ln_room <= num d)%Q -> d_ln orc d <> Ok r.
Proof. exact ln_too_large. Qed.
Theorem C65_ln_zero : forall orc d r, dval d = 0%Z -> d_ln orc d <> Ok r.
Proof. exact ln_of_zero. Qed.
Theorem C65_ln_small_refuted : forall orc d b r, (-40 <= b <= -20)%Z -> found orc d b -> d_ln orc d <> Ok r.
Proof. exact ln_too_small. Qed.
(** ln 0.0000076 with the right bit length is wrong by more than 0.6. *)
Theorem C65_ln_inexact_refuted : exists r, d_ln exact_log2 tiny = Ok r /\ log2_right exact_log2 tiny /\ Q2R (num r) < ln (Q2R (num tiny)) - 6 / 10.
Proof. exact tiny_ln. Qed.
(** Just below 2^11 a bit length of 11, which is what rounding to f64 gives, makes the result wrong by 0.09. *)
Theorem C65_ln_bit_length_refuted : exists orc r, bit_length orc below_pow = Ok (mkD 11 0 false) /\ d_ln orc below_pow = Ok r /\ Q2R (num r) > ln (Q2R (num below_pow)) + 9 / 100.
Proof. exact below_pow_ln. Qed.
(** An oracle that is right for all positive arguments exists, and for instance ln 10 is computed. *)
Theorem C65_oracle_exists : forall d, at_s 12 d -> (0 < num d)%Q -> log2_right exact_log2 d.
Proof. exact exact_log2_right. Qed.
Example C65_case : wf (units 10) /\ exponent (num (units 10)) 3 /\ (num (units 10) < ln_room)%Q /\ found exact_log2 (units 10) 3 /\ d_ln exact_log2 (units 10) = Ok (D12 2302585092924) /\
  (ln_room <= num (units (10 ^ 15)))%Q /\ wf (units (10 ^ 15)) /\ found exact_log2 (D12 2) (-39).
Proof.
  split; [split; vm_compute; split; congruence|]. split; [split; vm_compute; congruence|]. split; [vm_compute; reflexivity|]. split; [vm_compute; reflexivity|]. split; [vm_compute; reflexivity|].
  split; [vm_compute; congruence|]. split; [split; vm_compute; split; congruence | vm_compute; reflexivity].
Qed.

(** ** C66.  The tick of a price by logarithms ([rp_to_tick]).  [log2_right orc d] says that the f64 bit length of d is right;
    [real_tick] is the real number ln rp / ln root. *)
Theorem C66_round_trip_partial : forall orc t r lr, (0 <= t < 2 ^ 19)%Z -> t <> 2%Z -> tick_to_rp t = Ok r -> log2_right orc r -> log2_right orc root -> rp_to_tick orc r lr = Ok t.
Proof.
  intros orc t r lr H N R L1 L2. rewrite (tick_round_trip orc t r lr H R L1 L2). destruct (Z.eqb_spec t 2); [contradiction | reflexivity].
Qed.
Theorem C66_tick_two_refuted : forall orc r lr, tick_to_rp 2 = Ok r -> log2_right orc r -> log2_right orc root -> rp_to_tick orc r lr = Ok 1%Z.
Proof. intros orc r lr R L1 L2. exact (tick_round_trip orc 2 r lr ltac:(lia) R L1 L2). Qed.
Theorem C66_estimate_partial : forall orc rp lr b, wf rp -> dneg rp = false -> dscale rp = 12%Z -> (0 <= b <= 48)%Z -> exponent (num rp) b -> (num rp < ln_room)%Q -> found orc rp b -> found orc root 0 ->
  exists t, rp_to_tick orc rp lr = Ok t /\ (0 <= t)%Z /\ real_tick (num rp) - 1 - 4 / 10 ^ 6 <= IZR t <= real_tick (num rp) * (1 + 1 / 10 ^ 6) + 1 / 10 ^ 7.
Proof. exact tick_estimate. Qed.
(** The flag that asks for rounding up or down changes nothing. *)
Theorem C66_direction_refuted : forall orc rp b, wf rp -> dneg rp = false -> dscale rp = 12%Z -> (-6 <= b <= 48)%Z -> exponent (num rp) b -> (num rp < ln_room)%Q -> found orc rp b -> found orc root 0 ->
  exists t, rp_to_tick orc rp false = Ok t /\ rp_to_tick orc rp true = Ok t.
Proof. exact tick_no_direction. Qed.
(** A root price of 1/2 gets the positive tick 13863, and 10^-9 below the price of tick 38 still gets 38. *)
Theorem C66_below_one_refuted : forall lr, rp_to_tick exact_log2 (D12 500000000000) lr = Ok 13863%Z.
Proof. intros [|]; vm_compute; reflexivity. Qed.
Theorem C66_floor_refuted : exists r rp, tick_to_rp 38 = Ok r /\ wf rp /\ log2_right exact_log2 rp /\ (num rp < num r)%Q /\ rp_to_tick exact_log2 rp false = Ok 38%Z.
Proof.
  exists (D12 1001901710936), (D12 1001901709936). split; [vm_compute; reflexivity|]. split; [split; vm_compute; split; congruence|].
  split; [apply exact_log2_right; [repeat split; vm_compute; congruence | reflexivity]|]. split; vm_compute; reflexivity.
Qed.
Example C66_case : exists r, tick_to_rp 1000 = Ok r /\ log2_right exact_log2 r /\ log2_right exact_log2 root /\ found exact_log2 root 0 /\ rp_to_tick exact_log2 r true = Ok 1000%Z.
Proof.
  eexists. split; [vm_compute; reflexivity|]. split; [apply exact_log2_right; [split; [split; vm_compute; split; congruence | split; reflexivity] | vm_compute; reflexivity]|].
  split; [apply exact_log2_right; [split; [split; vm_compute; split; congruence | split; reflexivity] | vm_compute; reflexivity]|]. split; vm_compute; reflexivity.
Qed.

(** ** C67.  The HMM adjustment at C = 1.  [log_drop a b] is ln a - ln b, and [in_range] asks for 1/64 <= x < ln_room with a
    right bit length.  The X amount is l/o * (ln a - ln b), up to rounding. *)
Theorem C67_log_x_partial : forall orc l a b c o r, wf c -> dneg c = false -> (num c == 1)%Q -> at_s 12 l -> at_s 12 a -> at_s 12 b -> at_s 12 o -> (0 < num o)%Q -> in_range orc a -> in_range orc b ->
  dx_from_l_drp_hmm orc l a b c o = Ok r ->
  Rabs (Q2R (num r) - Q2R (num l) / Q2R (num o) * log_drop a b) <= (1 + 175 * (Q2R (num l) / Q2R (num o)) + Rabs (log_drop a b)) / 10 ^ 12.
Proof. exact hmm_log_x. Qed.
(** The Y amount should be l*o*(ln b - ln a); what is computed is always its negative. *)
Theorem C67_log_y_negated : forall orc l a b c o r, wf c -> dneg c = false -> (num c == 1)%Q -> at_s 12 l -> at_s 12 a -> at_s 12 b -> at_s 12 o -> in_range orc a -> in_range orc b ->
  dy_from_l_drp_hmm orc l a b c o = Ok r ->
  Rabs (Q2R (num r) - Q2R (num l) * Q2R (num o) * log_drop a b) <= (1 + 175 * (Q2R (num l) * Q2R (num o)) + Rabs (log_drop a b)) / 10 ^ 12.
Proof. exact hmm_log_y. Qed.
(** For instance, raising the price from 1 to 2 with liquidity 1000 and oracle price 3 should take 3000 ln 2 > 2000 of Y. *)
Theorem C67_log_y_refuted : exists r, dy_from_l_drp_hmm exact_log2 (units 1000) (units 1) (units 2) (units 1) (units 3) = Ok r /\
  2000 < 1000 * 3 * (ln 2 - ln 1) /\ Q2R (num r) < -2000.
Proof.
  exists (mkD 2079441541677000 12 true). split; [vm_compute; reflexivity|]. rewrite ln_1. pose proof ln2_near as A. cbn [pow] in A. split; [lra|].
  rewrite q2r_num by (cbn; lia). change (mant (mkD 2079441541677000 12 true)) with (-2079441541677000)%Z. cbn [dscale]. change (10 ^ 12)%Z with 1000000000000%Z. lra.
Qed.
(** So a step of a swap that sells X towards the oracle price completes only if it hardly moves the price or hardly has to. *)
Theorem C67_log_step_refuted : forall orc p srp goal liq dx ro w, swap_within_x orc p srp goal liq dx ro = Ok w -> wf (hmm_c p) -> dneg (hmm_c p) = false -> (num (hmm_c p) == 1)%Q ->
  at_s 12 srp -> at_s 12 liq -> at_s 12 ro -> at_s 12 (w_rp w) -> (0 < num ro)%Q -> (num ro < num srp)%Q -> (1 <= num liq * num ro)%Q ->
  in_range orc srp -> in_range orc ro -> in_range orc (w_rp w) -> log_drop srp ro <= 2 / 10 ^ 10 \/ log_drop srp (w_rp w) <= 2 / 10 ^ 10.
Proof. exact log_step_x. Qed.
Definition ir_ok (d : decimal) : Prop := at_s 12 d /\ in_range exact_log2 d.
Lemma ir_of : forall v, (15625000000 <= v < 10 ^ 26)%Z -> ir_ok (D12 v).
Proof.
  intros v H. assert (A : at_s 12 (D12 v)). { split; [split; cbn [D12 dval dscale]; lia | split; reflexivity]. } split; [exact A|].
  assert (P : (1 # 64 <= num (D12 v))%Q). { unfold num, mant, D12, Qdiv, Qinv, inject_Z, Qle, Qmult. cbn [dval dscale dneg Qnum Qden]. change (10 ^ 12)%Z with 1000000000000%Z. cbn [Qnum Qden]. lia. }
  split; [exact P|]. split; [|apply exact_log2_right; [exact A | apply Qlt_le_trans with (2 := P); reflexivity]].
  apply Qlt_trans with (inject_Z (10 ^ 14)); [|vm_compute; reflexivity]. unfold num, mant, D12, Qdiv, Qinv, inject_Z, Qlt, Qmult. cbn [dval dscale dneg Qnum Qden]. change (10 ^ 12)%Z with 1000000000000%Z. cbn [Qnum Qden]. lia.
Qed.
Example C67_case : ir_ok (units 1000) /\ ir_ok (units 1) /\ ir_ok (units 2) /\ ir_ok (units 3) /\ (num (units 1) == 1)%Q /\
  dx_from_l_drp_hmm exact_log2 (units 1000) (units 2) (units 1) (units 1) (units 3) = Ok (D12 231049060186333).
Proof. do 4 (split; [apply ir_of; lia|]). split; vm_compute; reflexivity. Qed.
(** A step in [one_pool] that completes (it moves the price by one unit), and one of a single token that does not. *)
Example C67_step_case : ir_ok (glbl_rp one_pool) /\ at_s 12 (glbl_liq one_pool) /\ ir_ok (near 7) /\ (num (near 7) < num (glbl_rp one_pool))%Q /\ (num (hmm_c one_pool) == 1)%Q /\
  (exists w, swap_within_x exact_log2 one_pool (glbl_rp one_pool) 4 (glbl_liq one_pool) (D12 1000) (near 7) = Ok w /\ ir_ok (w_rp w) /\ (num (w_rp w) < num (glbl_rp one_pool))%Q) /\
  swap_within_x exact_log2 one_pool (glbl_rp one_pool) 4 (glbl_liq one_pool) (units 1) (near 7) = Panic.
Proof.
  assert (G : glbl_rp one_pool = D12 1000500100001) by (vm_compute; reflexivity). assert (N7 : near 7 = D12 1000350048747) by (vm_compute; reflexivity).
  split; [rewrite G; apply ir_of; lia|]. split; [split; [split; vm_compute; split; congruence | split; reflexivity]|]. split; [rewrite N7; apply ir_of; lia|]. split; [vm_compute; reflexivity|]. split; [vm_compute; reflexivity|].
  split; [|vm_compute; reflexivity]. eexists. split; [vm_compute; reflexivity|]. cbn [w_rp]. split; [change (ir_ok (D12 1000500100000)); apply ir_of; lia | vm_compute; reflexivity].
Qed.

Print Assumptions C65_ln_accurate_partial.
Print Assumptions C65_ln_scaled_partial.
Print Assumptions C65_ln_large_refuted.
Print Assumptions C65_ln_zero.
Print Assumptions C65_ln_small_refuted.
Print Assumptions C65_ln_inexact_refuted.
Print Assumptions C65_ln_bit_length_refuted.
Print Assumptions C65_oracle_exists.
Print Assumptions C66_round_trip_partial.
Print Assumptions C66_tick_two_refuted.
Print Assumptions C66_estimate_partial.
Print Assumptions C66_direction_refuted.
Print Assumptions C66_below_one_refuted.
Print Assumptions C66_floor_refuted.
Print Assumptions C67_log_x_partial.
Print Assumptions C67_log_y_negated.
Print Assumptions C67_log_y_refuted.
Print Assumptions C67_log_step_refuted.
