(** Claims C18-C22, C26, C28: swaps.  [pool_wf] says only that the fields are possible Rust values (u128 mantissas, u8 scales,
    tick keys in ascending order ...); every reachable pool satisfies it.  [orc] is an arbitrary outcome of the f64 logarithm. *)
From Coq Require Import ZArith QArith List Bool Lia String.
From Verif Require Import Base DecimalModel DecimalSpec MathModel PoolModel PoolWf SwapLoop SwapProofs FinProofs HmmProofs LpProofs PoolInv PoolNonneg Concrete Examples.
Import ListNotations.
Open Scope string_scope. Open Scope Z_scope.

Theorem reachable_pool_wf : forall orc p, reachable orc p -> pool_wf p.
Proof. intros orc p R. exact (proj1 (reachable_nn _ _ R)). Qed.

(** ** C18, C19 *)
Theorem C18_swap_x_accounting : forall orc p dx ro p' o, pool_wf p -> wf dx -> wf ro -> execute_swap_from_x orc p dx ro = Ok (p', o) ->
  (num (rx p') + num (x_fee p') == num (rx p) + num (x_fee p) + num (so_recv o) /\
   num (x_fee p') == num (x_fee p) + num (so_fee o) /\
   num (ry p') + num (y_adj p') == num (ry p) + num (y_adj p) + num (so_send o) /\
   num (y_adj p') == num (y_adj p) + num (so_adj o))%Q /\
  y_fee p' = y_fee p /\ x_adj p' = x_adj p.
Proof. intros orc p dx ro p' o W Wd Wo H. pose proof (swap_x_accounting orc p dx ro p' o W Wd Wo H). tauto. Qed.
Theorem C19_swap_y_accounting : forall orc p dx ro p' o, pool_wf p -> wf dx -> wf ro -> execute_swap_from_y orc p dx ro = Ok (p', o) ->
  (num (ry p') + num (y_fee p') == num (ry p) + num (y_fee p) + num (so_recv o) /\
   num (y_fee p') == num (y_fee p) + num (so_fee o) /\
   num (rx p') + num (x_adj p') == num (rx p) + num (x_adj p) + num (so_send o) /\
   num (x_adj p') == num (x_adj p) + num (so_adj o))%Q /\
  x_fee p' = x_fee p /\ y_adj p' = y_adj p.
Proof. intros orc p dx ro p' o W Wd Wo H. pose proof (swap_y_accounting orc p dx ro p' o W Wd Wo H). tauto. Qed.

(** ** C20 *)
Theorem C20_swap_x_bounds : forall orc p dx ro p' o, pool_wf p -> wf dx -> wf ro -> execute_swap_from_x orc p dx ro = Ok (p', o) ->
  (0 <= num (so_fee o) /\ num (so_fee o) <= num (so_recv o) /\ num (so_recv o) <= num dx /\ num (so_send o) <= 0 /\ 0 <= num (so_adj o) /\
  (num (so_recv o) == 0 -> num (so_send o) == 0) /\ (0 < num (so_recv o) -> num (so_send o) < 0) /\
  (num (so_recv o) < num dx -> no_active_below p'))%Q.
Proof. exact swap_x_bounds. Qed.
Theorem C20_swap_y_bounds : forall orc p dy ro p' o, pool_wf p -> wf dy -> wf ro -> execute_swap_from_y orc p dy ro = Ok (p', o) ->
  (0 <= num (so_fee o) /\ num (so_fee o) <= num (so_recv o) /\ num (so_recv o) <= num dy /\ num (so_send o) <= 0 /\ 0 <= num (so_adj o) /\
  (num (so_recv o) == 0 -> num (so_send o) == 0) /\ (0 < num (so_recv o) -> num (so_send o) < 0) /\
  (num (so_recv o) < num dy -> no_active_above p'))%Q.
Proof. exact swap_y_bounds. Qed.

(** ** C21 *)
Theorem C21_swap_x_price_path : forall orc p dx ro p' o, pool_wf p -> wf dx -> wf ro -> execute_swap_from_x orc p dx ro = Ok (p', o) -> price_path_down p p'.
Proof. exact swap_x_price_path. Qed.
Theorem C21_swap_y_price_path : forall orc p dy ro p' o, pool_wf p -> wf dy -> wf ro -> execute_swap_from_y orc p dy ro = Ok (p', o) -> price_path_up p p'.
Proof. exact swap_y_price_path. Qed.

(** ** C22: the loops never run out of the budget [swap_fuel] = active ticks + 1 (per direction), and a larger budget changes nothing. *)
Theorem C22_swap_x_terminates : forall orc p dx ro, pool_wf p -> wf dx -> wf ro -> execute_swap_from_x orc p dx ro <> NoFuel.
Proof. exact swap_x_terminates. Qed.
Theorem C22_swap_y_terminates : forall orc p dy ro, pool_wf p -> wf dy -> wf ro -> execute_swap_from_y orc p dy ro <> NoFuel.
Proof. exact swap_y_terminates. Qed.
Theorem C22_budget_irrelevant_x : forall orc dx ro fuel extra p s, loop_x orc fuel p s dx ro <> NoFuel -> loop_x orc (fuel + extra) p s dx ro = loop_x orc fuel p s dx ro.
Proof. exact loop_x_more. Qed.
Theorem C22_budget_irrelevant_y : forall orc dy ro fuel extra p s, loop_y orc fuel p s dy ro <> NoFuel -> loop_y orc (fuel + extra) p s dy ro = loop_y orc fuel p s dy ro.
Proof. exact loop_y_more. Qed.

(** ** C26 *)
Theorem C26_swap_x_records : forall orc p dx ro p' o, pool_wf p -> wf dx -> wf ro -> execute_swap_from_x orc p dx ro = Ok (p', o) -> same_records p p'.
Proof. intros orc p dx ro p' o W Wd Wo H. exact (proj1 (swap_x_records orc p dx ro p' o W Wd Wo H)). Qed.
Theorem C26_swap_y_records : forall orc p dy ro p' o, pool_wf p -> wf dy -> wf ro -> execute_swap_from_y orc p dy ro = Ok (p', o) -> same_records p p'.
Proof. intros orc p dx ro p' o W Wd Wo H. exact (proj1 (swap_y_records orc p dx ro p' o W Wd Wo H)). Qed.

(** ** C28.  [pool_sim]: equal except for the HMM parameter and the adjustment pots and counters. *)
Theorem C28_swap_x_hmm : forall orc orc' p q dx ro ro' p' q' o o', pool_sim p q ->
  execute_swap_from_x orc p dx ro = Ok (p', o) -> execute_swap_from_x orc' q dx ro' = Ok (q', o') -> pool_sim p' q' /\ out_sim o o'.
Proof. exact swap_x_hmm. Qed.
Theorem C28_swap_y_hmm : forall orc orc' p q dy ro ro' p' q' o o', pool_sim p q ->
  execute_swap_from_y orc p dy ro = Ok (p', o) -> execute_swap_from_y orc' q dy ro' = Ok (q', o') -> pool_sim p' q' /\ out_sim o o'.
Proof. exact swap_y_hmm. Qed.
Theorem C28_no_adjustment_x : forall orc p dx ro p' o, pool_wf p -> wf dx -> wf ro -> hmm_off p ro -> execute_swap_from_x orc p dx ro = Ok (p', o) ->
  (num (so_adj o) == 0 /\ num (y_adj p') == num (y_adj p))%Q.
Proof. exact swap_x_no_hmm. Qed.
Theorem C28_no_adjustment_y : forall orc p dy ro p' o, pool_wf p -> wf dy -> wf ro -> hmm_off p ro -> execute_swap_from_y orc p dy ro = Ok (p', o) ->
  (num (so_adj o) == 0 /\ num (x_adj p') == num (x_adj p))%Q.
Proof. exact swap_y_no_hmm. Qed.

(** ** A concrete case for all of the above: a pool with two overlapping positions, a swap that crosses tick 8 downwards with
    fees and an adjustment, one back up across it, and the same two swaps with the HMM off. *)
Definition out_of (r : res (pool * swap_out)) : option (Z * Z * Z * Z * Z) :=
  match r with Ok (p, o) => Some (dval (so_recv o), dval (so_fee o), dval (so_send o), dval (so_adj o), glbl_tick p) | _ => None end.
Example swaps_case :
  pool_wf ex0 /\ pool_wf ex1 /\ glbl_tick ex0 = 10 /\ map fst (ticks ex0) = [4; 8; 12; 16] /\
  out_of (execute_swap_from_x no_orc ex0 (units 1500) (near 7)) = Some (1500000000000000, 4500000000000, 1496516911677470, 131240588207, 4) /\
  out_of (execute_swap_from_x no_orc ex0 (units 1500) (units 0)) = Some (1500000000000000, 4500000000000, 1496648152265677, 0, 4) /\
  out_of (execute_swap_from_y no_orc ex1 (units 1500) (near 11)) = Some (1500000000000000, 4500000000000, 1493980174536020, 372820421053, 9) /\
  out_of (execute_swap_from_y no_orc ex1 (units 1500) (units 0)) = Some (1500000000000000, 4500000000000, 1494352994957073, 0, 9) /\
  (* more than is left below tick 4: the rest is not taken *)
  out_of (execute_swap_from_x no_orc ex1 (units 100) (units 0)) = Some (3360585718069, 10081757154, 3351847734321, 0, 3).
Proof.
  split; [exact (reachable_pool_wf _ _ ex0_reachable) |]. split; [exact (reachable_pool_wf _ _ ex1_reachable) |].
  repeat split; vm_compute; reflexivity.
Qed.
(** The hypotheses of C28: the example pool and the same pool with another parameter C. *)
Example hmm_case : pool_sim ex0 (with_params ex0 zero12 (fee_rate ex0)) /\ hmm_off (with_params ex0 zero12 (fee_rate ex0)) (near 7) /\ hmm_off ex0 zero12 /\ ~ hmm_off ex0 (near 7).
Proof.
  split; [| split; [| split]].
  - unfold pool_sim, veq, tick_sim. repeat split; try reflexivity. vm_compute ticks. repeat constructor.
  - left. reflexivity.
  - right. reflexivity.
  - intros [H | H]; vm_compute in H; discriminate.
Qed.

Print Assumptions C18_swap_x_accounting.
Print Assumptions C19_swap_y_accounting.
Print Assumptions C20_swap_x_bounds.
Print Assumptions C20_swap_y_bounds.
Print Assumptions C21_swap_x_price_path.
Print Assumptions C21_swap_y_price_path.
Print Assumptions C22_swap_x_terminates.
Print Assumptions C22_swap_y_terminates.
Print Assumptions C22_budget_irrelevant_x.
Print Assumptions C22_budget_irrelevant_y.
Print Assumptions C26_swap_x_records.
Print Assumptions C26_swap_y_records.
Print Assumptions C28_swap_x_hmm.
Print Assumptions C28_swap_y_hmm.
Print Assumptions C28_no_adjustment_x.
Print Assumptions C28_no_adjustment_y.
Print Assumptions reachable_pool_wf.
