(** Properties C71 - C73: the prices a swap reports, where a new pool starts and which parameters pool creation accepts. *)
From Coq Require Import ZArith QArith Qpower List Bool Lia Lqa String.
From Verif Require Import Base DecimalModel DecimalSpec TickLoop MathModel PoolModel PoolWf LpProofs PoolInv PoolLp SwapAmounts Concrete Examples PropPool SwapCover SwapWorth SwapFair LpWorth PropWorth FeePots FeeCredit PropFees SwapReport PoolParams.
Import ListNotations.
Open Scope string_scope. Open Scope Z_scope.

(** ** C71.  The reported final price is the square of the pool's new root price and the reported average price is Y per X
    (amount of Y moved over amount of X moved), both cut off at 12 digits. *)
Theorem C71_x_prices : forall orc p dx ro p' o, reachable orc p -> wf dx -> wf ro -> execute_swap_from_x orc p dx ro = Ok (p', o) ->
  (num (so_end o) <= num (glbl_rp p') * num (glbl_rp p') /\ num (glbl_rp p') * num (glbl_rp p') < num (so_end o) + ulp12 /\
   (num (so_recv o) == 0 -> num (so_avg o) == 0) /\
   (0 < num (so_recv o) -> num (so_avg o) * num (so_recv o) <= - num (so_send o) /\ - num (so_send o) < (num (so_avg o) + ulp12) * num (so_recv o)))%Q.
Proof. exact swap_x_report. Qed.
Theorem C71_y_prices : forall orc p dy ro p' o, reachable orc p -> wf dy -> wf ro -> execute_swap_from_y orc p dy ro = Ok (p', o) ->
  (num (so_end o) <= num (glbl_rp p') * num (glbl_rp p') /\ num (glbl_rp p') * num (glbl_rp p') < num (so_end o) + ulp12 /\
   (num (so_recv o) == 0 -> num (so_avg o) == 0) /\
   (0 < num (so_recv o) -> num (so_avg o) * - num (so_send o) <= num (so_recv o) /\ num (so_recv o) < (num (so_avg o) + ulp12) * - num (so_send o)))%Q.
Proof. exact swap_y_report. Qed.
(** The swaps of PropFees: 1200 X in for 1197.2.. Y, reported at 0.9977..; 1200 Y in for 1195.1.. X, reported at 1.0040... *)
Example C71_case : reachable no_orc ex0 /\ execute_swap_from_x no_orc ex0 (units 1200) (near 7) = Ok (calm1, out1) /\ so_avg out1 = D12 997724822059 /\ so_end out1 = D12 1000581718422 /\ (0 < num (so_recv out1))%Q /\
  reachable no_orc calm1 /\ execute_swap_from_y no_orc calm1 (units 1200) (near 11) = Ok (calm2, out2) /\ so_avg out2 = D12 1004046695281 /\ so_end out2 = D12 1001000209647 /\ (0 < num (so_recv out2))%Q.
Proof.
  split; [exact ex0_reachable |]. split; [exact swap1_runs |]. do 3 (split; [vm_compute; reflexivity |]). split; [exact calm1_reachable |]. split; [exact swap2_runs |]. do 2 (split; [vm_compute; reflexivity |]). vm_compute; reflexivity.
Qed.

(** ** C72.  The full claim: a new pool starts within one tick spacing (and 1/100000 of rounding) of the price asked for.
    [tb] is the tick base 1.0001; prices are squares of root prices. *)
Definition starts_at (rp : decimal) (sp : Z) (p : pool) : Prop :=
  (num (glbl_rp p) * num (glbl_rp p) * (1 - (1 # 100000)) <= num rp * num rp /\
   num rp * num rp * (1 - (1 # 100000)) <= num (glbl_rp p) * num (glbl_rp p) * tb ^ sp)%Q.
(** False: a pool asked to start at the root price 0.5 (price 0.25) starts at price 1. *)
Theorem C72_starting_price_refuted : exists p, pool_new (D12 500000000000) 1 (D12 0) (D12 0) = Ok p /\ (num (glbl_rp p) == 1)%Q /\ ~ starts_at (D12 500000000000) 1 p.
Proof.
  destruct (pool_new (D12 500000000000) 1 (D12 0) (D12 0)) as [p | | |] eqn:E; [| vm_compute in E; discriminate E ..]. exists p. split; auto.
  assert (R : glbl_rp p = D12 1000000000000) by (vm_compute in E; injection E as <-; reflexivity). rewrite R. split; [reflexivity |]. unfold starts_at. rewrite R. intros [A _]. vm_compute in A. apply A. reflexivity.
Qed.
(** In fact every price below 1 is replaced by 1. *)
Theorem C72_low_prices_start_at_one : forall rp sp c rate p, wf rp -> 0 <= sp -> pool_new rp sp c rate = Ok p -> (num rp <= 1)%Q -> glbl_tick p = 0 /\ (num (glbl_rp p) == 1)%Q.
Proof. exact new_price_low. Qed.
Theorem C72_starting_price_partial : forall rp sp c rate p, wf rp -> 0 <= sp -> pool_new rp sp c rate = Ok p -> (1 <= num rp)%Q -> starts_at rp sp p.
Proof. exact new_price. Qed.
Example C72_case : wf (near 10) /\ (1 <= num (near 10))%Q /\ exists p, pool_new (near 10) 4 (D12 0) (D12 0) = Ok p /\ glbl_tick p = 8.
Proof.
  split; [apply wfb_wf; vm_compute; reflexivity |]. split; [vm_compute; discriminate |].
  destruct (pool_new (near 10) 4 (D12 0) (D12 0)) as [p | | |] eqn:E; [| vm_compute in E; discriminate E ..]. exists p. split; auto. vm_compute in E; injection E as <-; reflexivity.
Qed.

(** ** C73.  The full claim: pool creation rejects parameters with which the pool cannot be traded.  What it does enforce: *)
Theorem C73_parameters_partial : forall rp sp c rate p, wf rp -> wf c -> wf rate -> 0 <= sp -> pool_new rp sp c rate = Ok p ->
  (fee_rate p = rate /\ hmm_c p = c /\ spacing p = sp /\ 0 < sp /\ (0 <= num rp)%Q /\ (0 <= num c)%Q /\ (num c < 2 + ulp12)%Q /\ (0 <= num rate)%Q)%Z.
Proof. exact new_params. Qed.
(** False (1): a fee rate of 100% and more is accepted, and every swap that completes takes its whole input as the fee. *)
Theorem C73_whole_input_x : forall orc p dx ro p' o, reachable orc p -> wf dx -> wf ro -> (1 <= num (fee_rate p))%Q -> execute_swap_from_x orc p dx ro = Ok (p', o) -> (num (so_recv o) == num (so_fee o))%Q.
Proof. exact all_fee_x. Qed.
Theorem C73_whole_input_y : forall orc p dy ro p' o, reachable orc p -> wf dy -> wf ro -> (1 <= num (fee_rate p))%Q -> execute_swap_from_y orc p dy ro = Ok (p', o) -> (num (so_recv o) == num (so_fee o))%Q.
Proof. exact all_fee_y. Qed.
Definition greedy : pool := Eval vm_compute in get (start (pool_new (near 10) 1 (D12 0) (D12 1000000000000)) calls0).
Definition greedy' : pool := Eval vm_compute in match execute_swap_from_x no_orc greedy (units 100) zero12 with Ok (p, _) => p | _ => greedy end.
Definition greedy_out : swap_out := Eval vm_compute in match execute_swap_from_x no_orc greedy (units 100) zero12 with Ok (_, o) => o | _ => out1 end.
Theorem C73_fee_of_one_refuted : reachable no_orc greedy /\ fee_rate greedy = D12 1000000000000 /\ execute_swap_from_x no_orc greedy (units 100) zero12 = Ok (greedy', greedy_out) /\
  so_recv greedy_out = units 100 /\ so_fee greedy_out = units 100 /\ (- num (so_send greedy_out) < 1 # 100000)%Q.
Proof. split; [apply (start_reachable (near 10) 1 (D12 0) (D12 1000000000000) calls0); vm_compute; reflexivity |]. do 4 (split; [vm_compute; reflexivity |]). vm_compute; reflexivity. Qed.
(** False (2): a fee rate with other than 12 decimal places, such as 0.003 at scale 3, is accepted, and no swap takes or pays anything. *)
Theorem C73_no_swap_x : forall orc p dx ro p' o, reachable orc p -> wf dx -> wf ro -> dscale (fee_rate p) <> 12 -> execute_swap_from_x orc p dx ro = Ok (p', o) -> (num (so_recv o) == 0 /\ num (so_send o) == 0)%Q.
Proof. exact odd_fee_x. Qed.
Theorem C73_no_swap_y : forall orc p dy ro p' o, reachable orc p -> wf dy -> wf ro -> dscale (fee_rate p) <> 12 -> execute_swap_from_y orc p dy ro = Ok (p', o) -> (num (so_recv o) == 0 /\ num (so_send o) == 0)%Q.
Proof. exact odd_fee_y. Qed.
Definition stuck : pool := Eval vm_compute in get (start (pool_new (near 10) 1 (D12 0) (mkD 3 3 false)) calls0).
Theorem C73_fee_scale_refuted : reachable no_orc stuck /\ fee_rate stuck = mkD 3 3 false /\
  execute_swap_from_x no_orc stuck (units 100) zero12 = Panic /\ execute_swap_from_y no_orc stuck (units 100) zero12 = Panic.
Proof. split; [apply (start_reachable (near 10) 1 (D12 0) (mkD 3 3 false) calls0); vm_compute; reflexivity |]. do 2 (split; [vm_compute; reflexivity |]). vm_compute; reflexivity. Qed.
(** A completed swap in such a pool: nothing above the price is left to buy, so it takes nothing. *)
Definition empty3 : pool := Eval vm_compute in get (pool_new (near 10) 1 (D12 0) (mkD 3 3 false)).
Example C73_case : reachable no_orc empty3 /\ dscale (fee_rate empty3) <> 12 /\ (exists p o, execute_swap_from_x no_orc empty3 (units 1) zero12 = Ok (p, o)) /\ (exists p o, execute_swap_from_y no_orc empty3 (units 1) zero12 = Ok (p, o)).
Proof.
  split; [apply (start_reachable (near 10) 1 (D12 0) (mkD 3 3 false) []); vm_compute; reflexivity |]. split; [vm_compute; discriminate |]. split; eexists; eexists; vm_compute; reflexivity.
Qed.

Print Assumptions C71_x_prices.
Print Assumptions C71_y_prices.
Print Assumptions C72_starting_price_refuted.
Print Assumptions C72_low_prices_start_at_one.
Print Assumptions C72_starting_price_partial.
Print Assumptions C73_parameters_partial.
Print Assumptions C73_whole_input_x.
Print Assumptions C73_whole_input_y.
Print Assumptions C73_fee_of_one_refuted.
Print Assumptions C73_no_swap_x.
Print Assumptions C73_no_swap_y.
Print Assumptions C73_fee_scale_refuted.
