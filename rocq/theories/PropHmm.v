(** Properties C68 - C70: the HMM adjustment for the curve parameters 5/4, 3/2 and 2, what it leaves to the trader, and when
    it stops a swap. *)
From Coq Require Import ZArith QArith Qminmax Qreals Reals List Bool Lia Lqa String.
From Verif Require Import Base DecimalModel DecimalSpec MathModel PoolModel PoolWf WfProofs LpProofs PoolInv PoolLp PoolRange SwapAmounts PowAccuracy Concrete Examples PropPool SwapCover SwapWorth SwapFair LpWorth PropWorth FeePots FeeCredit PropFees HmmPrice HmmFacts HmmSwap HmmOff.
Import ListNotations.
Open Scope string_scope. Open Scope Z_scope.

(** ** C68.  The adjusted amounts for C = 5/4, 3/2 and 2.  [Rpower] is the real power function of the standard library; the
    amounts for a move of the root price from a to b are l / o^C * (a^(C-1) - b^(C-1)) / (C-1) of X and
    l * o^C * (a^(1-C) - b^(1-C)) / (C-1) of Y. *)
Theorem C68_curve_x : forall orc l a b c o r, curved c -> at_s 12 l -> at_s 12 a -> at_s 12 b -> at_s 12 o -> (1 <= Q2R (num a))%R -> (1 <= Q2R (num b))%R -> (1 <= Q2R (num o))%R ->
  dx_from_l_drp_hmm orc l a b c o = Ok r ->
  let '(C, L, W, A, B) := (Q2R (num c), Q2R (num l), Q2R (num o), Q2R (num a), Q2R (num b)) in
  let d := (Rpower A (C - 1) - Rpower B (C - 1))%R in
  (Rabs (Q2R (num r) - L / Rpower W C * d / (C - 1)) <= 1 / 1000000000000 * (1 + (2 + 5 * L + (1 + 4 * L) * Rabs d) / (C - 1)))%R.
Proof. exact hmm_follows_x. Qed.
Theorem C68_curve_y : forall orc l a b c o r, curved c -> at_s 12 l -> at_s 12 a -> at_s 12 b -> at_s 12 o -> (1 <= Q2R (num a))%R -> (1 <= Q2R (num b))%R -> (1 <= Q2R (num o))%R ->
  dy_from_l_drp_hmm orc l a b c o = Ok r ->
  let '(C, L, W, A, B) := (Q2R (num c), Q2R (num l), Q2R (num o), Q2R (num a), Q2R (num b)) in
  let d := (Rpower A (1 - C) - Rpower B (1 - C))%R in
  (Rabs (Q2R (num r) - L * Rpower W C * d / (C - 1)) <= 1 / 1000000000000 * (1 + (3 + 12 * (L * Rpower W C)) / (C - 1)))%R.
Proof. exact hmm_follows_y. Qed.
Lemma at_units : forall n, 0 <= n < 10 ^ 20 -> at_s 12 (units n).
Proof. intros n H. split; [split; cbn [units D12 dval dscale]; lia | split; reflexivity]. Qed.
Lemma one_r : forall n, 1 <= n -> (1 <= Q2R (num (units n)))%R.
Proof.
  intros n H. replace 1%R with (Q2R 1) by (unfold Q2R; cbn; apply Rmult_1_l || (rewrite Rinv_1; apply Rmult_1_l)). apply Qle_Rle. unfold num, mant, units, D12, Qdiv, Qinv, inject_Z, Qle, Qmult. cbn [dval dscale dneg Qnum Qden].
  change (10 ^ 12) with 1000000000000. cbn [Qnum Qden]. lia.
Qed.
(** 1000 * (2 - 1) / 9 = 111.1.. and 1000 * 9 * (1 - 1/2) = 4500 for C = 2. *)
Example C68_case : curved (D12 1250000000000) /\ curved (D12 1500000000000) /\ curved (D12 2000000000000) /\ at_s 12 (units 1000) /\ at_s 12 (units 1) /\ at_s 12 (units 2) /\ at_s 12 (units 3) /\
  (1 <= Q2R (num (units 1)))%R /\ (1 <= Q2R (num (units 2)))%R /\ (1 <= Q2R (num (units 3)))%R /\
  dx_from_l_drp_hmm no_orc (units 1000) (units 2) (units 1) (D12 1250000000000) (units 3) = Ok (D12 191688423943676) /\
  dy_from_l_drp_hmm no_orc (units 1000) (units 1) (units 2) (D12 1250000000000) (units 3) = Ok (D12 2512705119020600) /\
  dx_from_l_drp_hmm no_orc (units 1000) (units 2) (units 1) (D12 1500000000000) (units 3) = Ok (D12 159430874492110) /\
  dy_from_l_drp_hmm no_orc (units 1000) (units 1) (units 2) (D12 1500000000000) (units 3) = Ok (D12 3043835617067876) /\
  dx_from_l_drp_hmm no_orc (units 1000) (units 2) (units 1) (D12 2000000000000) (units 3) = Ok (D12 111111111111111) /\
  dy_from_l_drp_hmm no_orc (units 1000) (units 1) (units 2) (D12 2000000000000) (units 3) = Ok (D12 4500000000000000).
Proof.
  split; [split; [reflexivity | split; [reflexivity | left; vm_compute; reflexivity]] |]. split; [split; [reflexivity | split; [reflexivity | right; left; vm_compute; reflexivity]] |].
  split; [split; [reflexivity | split; [reflexivity | right; right; vm_compute; reflexivity]] |]. do 4 (split; [apply at_units; lia |]). do 3 (split; [apply one_r; lia |]).
  do 5 (split; [vm_compute; reflexivity |]). vm_compute; reflexivity.
Qed.

(** ** C69.  A swap with an oracle price pays at least the worse of the oracle price and the price it ends at: the input that
    is left after the fee, at the lower of the two prices (from Y: at the higher), is at most the payout, up to units of
    10^-12 in proportion to the liquidity [all_liq] of all positions and the number of active ticks. *)
Theorem C69_x_price_floor : forall orc p dx ro p' o, reachable orc p -> settled p -> liq_inv p -> wf dx -> at_s 12 ro -> (1 <= num ro)%Q -> dval (hmm_c p) = 0 \/ curved (hmm_c p) ->
  execute_swap_from_x orc p dx ro = Ok (p', o) ->
  let m := Qmin (num ro) (num (glbl_rp p')) in
  let slack := (ulp12 * (m * m + inject_Z 14 + inject_Z 48 * (all_liq p * (num ro * num ro))))%Q in
  (m * m * ((num (so_recv o) - num (so_fee o)) * (1 - ulp12)) <= - num (so_send o) + slack * (qlen (ticks p) + 1))%Q.
Proof. exact swap_x_price_floor. Qed.
Theorem C69_y_price_cap : forall orc p dy ro p' o, reachable orc p -> settled p -> liq_inv p -> wf dy -> at_s 12 ro -> (1 <= num ro)%Q -> dval (hmm_c p) = 0 \/ curved (hmm_c p) ->
  execute_swap_from_y orc p dy ro = Ok (p', o) ->
  let m := Qmax (num ro) (num (glbl_rp p')) in
  let slack := (ulp12 * (all_liq p + m * m * (inject_Z 11 + inject_Z 20 * all_liq p + (inject_Z 4 + inject_Z 16 * all_liq p) * num ro)))%Q in
  (num (so_recv o) - num (so_fee o) <= m * m * - num (so_send o) + slack * (qlen (ticks p) + 1))%Q.
Proof. exact swap_y_price_cap. Qed.
Lemma at_near : forall t v, near t = D12 v -> 0 <= v < 10 ^ 30 -> at_s 12 (near t).
Proof. intros t v -> H. split; [split; cbn [D12 dval dscale]; lia | split; reflexivity]. Qed.
(** The first swap ends below the oracle price, the second below it too; the allowance is below 0.01 while the payout is about 1197. *)
Example C69_case : reachable no_orc ex0 /\ settled ex0 /\ liq_inv ex0 /\ at_s 12 (near 7) /\ at_s 12 (near 11) /\ curved (hmm_c ex0) /\ curved (hmm_c calm1) /\
  execute_swap_from_x no_orc ex0 (units 1200) (near 7) = Ok (calm1, out1) /\ (1197 < - num (so_send out1))%Q /\ (num (glbl_rp calm1) < num (near 7))%Q /\ (0 < num (so_adj out1))%Q /\
  (ulp12 * (Qmin (num (near 7)) (num (glbl_rp calm1)) * Qmin (num (near 7)) (num (glbl_rp calm1)) + inject_Z 14 + inject_Z 48 * (all_liq ex0 * (num (near 7) * num (near 7)))) * (qlen (ticks ex0) + 1) < 1 # 100)%Q /\
  reachable no_orc calm1 /\ execute_swap_from_y no_orc calm1 (units 1200) (near 11) = Ok (calm2, out2) /\ (1195 < - num (so_send out2))%Q.
Proof.
  split; [exact ex0_reachable |]. split; [apply settled_ok; vm_compute; reflexivity |]. split; [apply liq_ok; vm_compute; reflexivity |].
  split; [apply (at_near 7 1000350048747); [vm_compute; reflexivity | lia] |]. split; [apply (at_near 11 1000550128755); [vm_compute; reflexivity | lia] |].
  do 2 (split; [split; [vm_compute; reflexivity | split; [vm_compute; reflexivity | right; left; vm_compute; reflexivity]] |]).
  split; [exact swap1_runs |]. do 4 (split; [vm_compute; reflexivity |]). split; [exact calm1_reachable |]. split; [exact swap2_runs |]. vm_compute; reflexivity.
Qed.

(** ** C70.  An oracle price never stops a swap that completes without one.  False: an oracle price just better than the
    pool's own price makes the rounding error of the curve larger than the adjustment itself, the adjustment comes out
    negative and the assertion on it panics. *)
Theorem C70_oracle_stops_x_refuted : exists orc p dx ro, reachable orc p /\ settled p /\ curved (hmm_c p) /\ at_s 12 ro /\ (num ro < num (glbl_rp p))%Q /\ (num (glbl_rp p) - num ro <= 1 # 1000000)%Q /\ (num dx == 100)%Q /\
  (exists r, execute_swap_from_x orc p dx zero12 = Ok r) /\ execute_swap_from_x orc p dx ro = Panic.
Proof.
  exists no_orc, ex0, (units 100), (D12 1000499100001). split; [exact ex0_reachable |]. split; [apply settled_ok; vm_compute; reflexivity |].
  split; [split; [vm_compute; reflexivity | split; [vm_compute; reflexivity | right; left; vm_compute; reflexivity]] |]. split; [split; [split; cbn [D12 dval dscale]; lia | split; reflexivity] |].
  split; [vm_compute; reflexivity |]. split; [vm_compute; congruence |]. split; [vm_compute; reflexivity |]. split; [eexists; vm_compute; reflexivity |]. vm_compute; reflexivity.
Qed.
Theorem C70_oracle_stops_y_refuted : exists orc p dy ro, reachable orc p /\ settled p /\ curved (hmm_c p) /\ at_s 12 ro /\ (num (glbl_rp p) < num ro)%Q /\ (num ro - num (glbl_rp p) <= 1 # 10000000)%Q /\ (num dy == 100)%Q /\
  (exists r, execute_swap_from_y orc p dy zero12 = Ok r) /\ execute_swap_from_y orc p dy ro = Panic.
Proof.
  exists no_orc, ex0, (units 100), (D12 1000500200001). split; [exact ex0_reachable |]. split; [apply settled_ok; vm_compute; reflexivity |].
  split; [split; [vm_compute; reflexivity | split; [vm_compute; reflexivity | right; left; vm_compute; reflexivity]] |]. split; [split; [split; cbn [D12 dval dscale]; lia | split; reflexivity] |].
  split; [vm_compute; reflexivity |]. split; [vm_compute; congruence |]. split; [vm_compute; reflexivity |]. split; [eexists; vm_compute; reflexivity |]. vm_compute; reflexivity.
Qed.
(** What holds: an oracle price that is not better than the pool's price changes nothing at all. *)
Theorem C70_x_unaffected_partial : forall orc p dx ro r, reachable orc p -> settled p -> wf dx -> at_s 12 ro -> (num (glbl_rp p) <= num ro)%Q ->
  execute_swap_from_x orc p dx zero12 = Ok r -> execute_swap_from_x orc p dx ro = Ok r.
Proof. exact swap_x_off. Qed.
Theorem C70_y_unaffected_partial : forall orc p dy ro r, reachable orc p -> settled p -> wf dy -> at_s 12 ro -> (num ro <= num (glbl_rp p))%Q ->
  execute_swap_from_y orc p dy zero12 = Ok r -> execute_swap_from_y orc p dy ro = Ok r.
Proof. exact swap_y_off. Qed.
Example C70_case : at_s 12 (near 11) /\ (num (glbl_rp ex0) <= num (near 11))%Q /\ (exists r, execute_swap_from_x no_orc ex0 (units 1500) zero12 = Ok r) /\
  at_s 12 (near 7) /\ (num (near 7) <= num (glbl_rp ex0))%Q /\ (exists r, execute_swap_from_y no_orc ex0 (units 100) zero12 = Ok r).
Proof.
  split; [apply (at_near 11 1000550128755); [vm_compute; reflexivity | lia] |]. split; [vm_compute; congruence |]. split; [eexists; vm_compute; reflexivity |].
  split; [apply (at_near 7 1000350048747); [vm_compute; reflexivity | lia] |]. split; [vm_compute; congruence |]. eexists; vm_compute; reflexivity.
Qed.

Print Assumptions C68_curve_x.
Print Assumptions C68_curve_y.
Print Assumptions C69_x_price_floor.
Print Assumptions C69_y_price_cap.
Print Assumptions C70_oracle_stops_x_refuted.
Print Assumptions C70_oracle_stops_y_refuted.
Print Assumptions C70_x_unaffected_partial.
Print Assumptions C70_y_unaffected_partial.
