(** Properties C74 and C75: larger swaps are paid more, and splitting a swap changes nothing. *)
From Coq Require Import ZArith QArith List Bool Lia Lqa String.
From Verif Require Import Base DecimalModel DecimalSpec MathModel PoolModel PoolWf LpProofs PoolInv PoolLp PoolRange Concrete Examples PropPool SwapCover SwapWorth SwapFair LpWorth PropWorth PropFees HmmOff HmmProofs SwapMono SwapSplit.
Import ListNotations.
Open Scope string_scope. Open Scope Z_scope.

(** ** C74.  The full claim: of two swaps made from the same state, the one offering more is paid at least as much by the curve
    (payout plus the oracle adjustment kept back; without an oracle adjustment, the payout itself). *)
Theorem C74_x_more : forall orc p dx dx' ro p1 o1 p2 o2, reachable orc p -> wf dx -> wf dx' -> wf ro -> (num dx <= num dx')%Q ->
  execute_swap_from_x orc p dx ro = Ok (p1, o1) -> execute_swap_from_x orc p dx' ro = Ok (p2, o2) ->
  (num (so_adj o1) - num (so_send o1) <= num (so_adj o2) - num (so_send o2))%Q.
Proof. exact swap_x_more. Qed.
Theorem C74_x_more_paid : forall orc p dx dx' ro p1 o1 p2 o2, reachable orc p -> wf dx -> wf dx' -> wf ro -> hmm_off p ro -> (num dx <= num dx')%Q ->
  execute_swap_from_x orc p dx ro = Ok (p1, o1) -> execute_swap_from_x orc p dx' ro = Ok (p2, o2) ->
  (- num (so_send o1) <= - num (so_send o2))%Q.
Proof. exact swap_x_more_paid. Qed.
(** From Y the claim holds up to a relative 10^-12 and two units of 10^-12.  Missing: the claim without the allowance. *)
Theorem C74_y_more_partial : forall orc p dy dy' ro p1 o1 p2 o2, reachable orc p -> wf dy -> wf dy' -> wf ro -> (num dy <= num dy')%Q ->
  execute_swap_from_y orc p dy ro = Ok (p1, o1) -> execute_swap_from_y orc p dy' ro = Ok (p2, o2) ->
  ((num (so_adj o1) - num (so_send o1)) * (1 - ulp12) <= num (so_adj o2) - num (so_send o2) + (2#1) * ulp12)%Q.
Proof. exact swap_y_more. Qed.
Theorem C74_y_more_paid_partial : forall orc p dy dy' ro p1 o1 p2 o2, reachable orc p -> wf dy -> wf dy' -> wf ro -> hmm_off p ro -> (num dy <= num dy')%Q ->
  execute_swap_from_y orc p dy ro = Ok (p1, o1) -> execute_swap_from_y orc p dy' ro = Ok (p2, o2) ->
  (- num (so_send o1) * (1 - ulp12) <= - num (so_send o2) + (2#1) * ulp12)%Q.
Proof. exact swap_y_more_paid. Qed.
(** The allowance cannot be dropped from the formulas the swap from Y uses: with liquidity 0.987692480684 at root price 1.000099999999
    (tick 2), paying 1.076584808967 Y moves the price no less than paying 10^-12 Y less, but yields 10^-12 X less.
    ([rp_new_from_l_dy] gives the new root price, [dx_from_l_drp] the X paid out, with a minus sign.) *)
Definition fl : decimal := D12 987692480684.
Definition fs : decimal := D12 1000099999999.
Theorem C74_formula_refuted : exists rp1 rp2 out1 out2 : decimal, tick_to_rp 2 = Ok fs /\
  rp_new_from_l_dy fl fs (D12 1076584808966) = Ok rp1 /\ dx_from_l_drp fl fs rp1 = Ok out1 /\
  rp_new_from_l_dy fl fs (D12 1076584808967) = Ok rp2 /\ dx_from_l_drp fl fs rp2 = Ok out2 /\
  (num rp1 <= num rp2 /\ num out1 == - (515036198571 # 1000000000000) /\ num out2 == - (515036198570 # 1000000000000))%Q.
Proof. do 4 eexists. do 5 (split; [vm_compute; reflexivity |]). split; [vm_compute; discriminate |]. split; vm_compute; reflexivity. Qed.

(** The states and results of the cases: 1200 X (or Y) at once, and 600 followed by 600. *)
Definition run_x (p : pool) (n : Z) := match execute_swap_from_x no_orc p (units n) (D12 0) with Ok r => r | _ => (p, out1) end.
Definition run_y (p : pool) (n : Z) := match execute_swap_from_y no_orc p (units n) (D12 0) with Ok r => r | _ => (p, out1) end.
Definition x1 := Eval vm_compute in run_x ex0 1200.
Definition x2 := Eval vm_compute in run_x ex0 600.
Definition x3 := Eval vm_compute in run_x (fst x2) 600.
Definition y1 := Eval vm_compute in run_y calm1 1200.
Definition y2 := Eval vm_compute in run_y calm1 600.
Definition y3 := Eval vm_compute in run_y (fst y2) 600.
Example C74_case : reachable no_orc ex0 /\ wf (units 600) /\ wf (units 1200) /\ wf (D12 0) /\ hmm_off ex0 (D12 0) /\
  execute_swap_from_x no_orc ex0 (units 600) (D12 0) = Ok x2 /\ execute_swap_from_x no_orc ex0 (units 1200) (D12 0) = Ok x1 /\ (num (so_send (snd x2)) < -598 /\ num (so_send (snd x1)) < -1197)%Q /\
  reachable no_orc calm1 /\ hmm_off calm1 (D12 0) /\
  execute_swap_from_y no_orc calm1 (units 600) (D12 0) = Ok y2 /\ execute_swap_from_y no_orc calm1 (units 1200) (D12 0) = Ok y1 /\ (num (so_send (snd y2)) < -597 /\ num (so_send (snd y1)) < -1195)%Q.
Proof.
  split; [exact ex0_reachable |]. do 3 (split; [apply wfb_wf; vm_compute; reflexivity |]). split; [vm_compute; auto |]. do 2 (split; [vm_compute; reflexivity |]). split; [split; vm_compute; reflexivity |].
  split; [exact calm1_reachable |]. split; [vm_compute; auto |]. do 2 (split; [vm_compute; reflexivity |]). split; vm_compute; reflexivity.
Qed.

(** ** C75.  Splitting.  [sells_x orc p0 p a]: [a] is a sequence of X swaps leading from [p0] to [p], each starting with tick and
    liquidity in agreement with the price.  If two such sequences take the same total, what the first is paid (before the oracle
    adjustment) exceeds what the second is paid by no more than the rounding allowances: per swap, 10^-12 for every active tick, and
    10^-12 of the liquidity and of the amounts, converted at the final price. *)
Theorem C75_x_split : forall orc p0 p q a b, reachable orc p0 -> sells_x orc p0 p a -> sells_x orc p0 q b -> (total taken a == total taken b)%Q ->
  (total curve_paid a <= total curve_paid b + total slack_n b + num (glbl_rp q) * num (glbl_rp q) * (total slack_x a + total slack_x b))%Q.
Proof. exact split_x. Qed.
Theorem C75_y_split : forall orc p0 p q a b, reachable orc p0 -> sells_y orc p0 p a -> sells_y orc p0 q b -> (total taken a == total taken b)%Q ->
  (total curve_paid a * (1 - ulp12) <= total curve_paid b + (2#1) * total slack_n b + total slack_y a + total slack_y b)%Q.
Proof. exact split_y. Qed.
Definition two_x : list entry := [(fst x3, units 600, snd x3); (fst x2, units 600, snd x2)].
Definition one_x : list entry := [(fst x1, units 1200, snd x1)].
Definition two_y : list entry := [(fst y3, units 600, snd y3); (fst y2, units 600, snd y2)].
Definition one_y : list entry := [(fst y1, units 1200, snd y1)].
(** 1200 X in two halves are paid 0.0000067 Y more than in one piece; the allowance is below 0.0001. *)
Example C75_case_x : reachable no_orc ex0 /\ sells_x no_orc ex0 (fst x3) two_x /\ sells_x no_orc ex0 (fst x1) one_x /\ (total taken two_x == 1200 /\ total taken one_x == 1200)%Q /\
  (1197 < total curve_paid one_x /\ total curve_paid one_x < total curve_paid two_x /\ total slack_n one_x + num (glbl_rp (fst x1)) * num (glbl_rp (fst x1)) * (total slack_x two_x + total slack_x one_x) < 1 # 10000)%Q.
Proof.
  split; [exact ex0_reachable |].
  split. { apply (sx_more no_orc ex0 (fst x2) [(fst x2, units 600, snd x2)] (units 600) (D12 0) (fst x3) (snd x3)); [| apply settled_ok; vm_compute; reflexivity | apply liq_ok; vm_compute; reflexivity | apply wfb_wf; vm_compute; reflexivity | apply wfb_wf; vm_compute; reflexivity | vm_compute; reflexivity].
           apply (sx_more no_orc ex0 ex0 [] (units 600) (D12 0) (fst x2) (snd x2)); [apply sx_none | apply settled_ok; vm_compute; reflexivity | apply liq_ok; vm_compute; reflexivity | apply wfb_wf; vm_compute; reflexivity | apply wfb_wf; vm_compute; reflexivity | vm_compute; reflexivity]. }
  split. { apply (sx_more no_orc ex0 ex0 [] (units 1200) (D12 0) (fst x1) (snd x1)); [apply sx_none | apply settled_ok; vm_compute; reflexivity | apply liq_ok; vm_compute; reflexivity | apply wfb_wf; vm_compute; reflexivity | apply wfb_wf; vm_compute; reflexivity | vm_compute; reflexivity]. }
  split; [split; vm_compute; reflexivity |]. split; [vm_compute; reflexivity |]. split; vm_compute; reflexivity.
Qed.
Example C75_case_y : reachable no_orc calm1 /\ sells_y no_orc calm1 (fst y3) two_y /\ sells_y no_orc calm1 (fst y1) one_y /\ (total taken two_y == 1200 /\ total taken one_y == 1200)%Q /\
  (1195 < total curve_paid one_y /\ ~ total curve_paid one_y == total curve_paid two_y /\ (2#1) * total slack_n one_y + total slack_y two_y + total slack_y one_y < 1 # 10000)%Q.
Proof.
  split; [exact calm1_reachable |].
  split. { apply (sy_more no_orc calm1 (fst y2) [(fst y2, units 600, snd y2)] (units 600) (D12 0) (fst y3) (snd y3)); [| apply settled_ok; vm_compute; reflexivity | apply liq_ok; vm_compute; reflexivity | apply wfb_wf; vm_compute; reflexivity | apply wfb_wf; vm_compute; reflexivity | vm_compute; reflexivity].
           apply (sy_more no_orc calm1 calm1 [] (units 600) (D12 0) (fst y2) (snd y2)); [apply sy_none | apply settled_ok; vm_compute; reflexivity | apply liq_ok; vm_compute; reflexivity | apply wfb_wf; vm_compute; reflexivity | apply wfb_wf; vm_compute; reflexivity | vm_compute; reflexivity]. }
  split. { apply (sy_more no_orc calm1 calm1 [] (units 1200) (D12 0) (fst y1) (snd y1)); [apply sy_none | apply settled_ok; vm_compute; reflexivity | apply liq_ok; vm_compute; reflexivity | apply wfb_wf; vm_compute; reflexivity | apply wfb_wf; vm_compute; reflexivity | vm_compute; reflexivity]. }
  split; [split; vm_compute; reflexivity |]. split; [vm_compute; reflexivity |]. split; [vm_compute; discriminate | vm_compute; reflexivity].
Qed.

Print Assumptions C74_x_more.
Print Assumptions C74_x_more_paid.
Print Assumptions C74_y_more_partial.
Print Assumptions C74_y_more_paid_partial.
Print Assumptions C74_formula_refuted.
Print Assumptions C75_x_split.
Print Assumptions C75_y_split.
