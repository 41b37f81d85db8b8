(** Properties C53 - C55: swaps, deposits and withdrawals against the exact curve. *)
From Coq Require Import ZArith QArith Qminmax List Bool Lia Lqa String.
From Verif Require Import Base DecimalModel DecimalSpec MathModel PoolModel PoolWf LpProofs PoolInv PoolLp PoolRange Concrete Examples PropPool SwapCover SwapWorth LpWorth.
Import ListNotations.
Open Scope string_scope. Open Scope Z_scope.

(** Boolean versions used by the examples. *)
Definition settled_b (p : pool) : bool := forallb (fun k => if k <=? glbl_tick p then Qle_bool (price_q k) (num (glbl_rp p)) else Qle_bool (num (glbl_rp p)) (price_q k)) (map fst (ticks p)).
Lemma settled_ok : forall p, settled_b p = true -> settled p.
Proof.
  intros p H k ts Hi. unfold settled_b in H. rewrite forallb_forall in H. apply (in_map fst) in Hi. specialize (H _ Hi). cbn [fst] in H.
  destruct (Z.leb_spec k (glbl_tick p)); apply Qle_bool_iff in H; split; intros; auto; exfalso; lia.
Qed.
Definition liq_b (p : pool) : bool := Qeq_bool (num (glbl_liq p)) (covering p (glbl_tick p)).
Lemma liq_ok : forall p, liq_b p = true -> liq_inv p. Proof. intros p H. apply Qeq_bool_eq in H. exact H. Qed.

(** ** C53.  The full claim: a swap never pays out more than the amount taken (less fee) is worth at the price before the
    swap.  The square of the root price is the price of X in Y. *)
Definition worth_taken_x (p : pool) (o : swap_out) : Q := ((num (so_recv o) - num (so_fee o)) * (num (glbl_rp p) * num (glbl_rp p)))%Q.
(** Y for X: holds exactly, without any rounding allowance. *)
Theorem C53_swap_y_price : forall orc p dy ro p' o, reachable orc p -> settled p \/ (0 < num (glbl_liq p))%Q -> wf dy -> wf ro ->
  execute_swap_from_y orc p dy ro = Ok (p', o) ->
  (- num (so_send o) * (num (glbl_rp p) * num (glbl_rp p)) <= num (so_recv o) - num (so_fee o))%Q.
Proof. exact swap_y_price. Qed.
(** X for Y: false for tiny amounts.  A swap of 10^-12 X (all of which goes to the fee) moves the price by its least
    possible step and pays [liquidity * 10^-12] Y. *)
Theorem C53_swap_x_price_refuted : exists p p' o, reachable no_orc p /\ settled p /\ in_range_sum p /\ execute_swap_from_x no_orc p (D12 1) (units 0) = Ok (p', o) /\
  (num (so_recv o) == num (so_fee o) /\ worth_taken_x p o == 0 /\ - num (so_send o) == 8330334 # 1000000000000)%Q.
Proof.
  destruct (execute_swap_from_x no_orc ex0 (D12 1) (units 0)) as [[p' o] | | |] eqn:E; [| vm_compute in E; discriminate E ..].
  exists ex0, p', o. split; [exact ex0_reachable |]. split; [apply settled_ok; vm_compute; reflexivity |]. split; [vm_compute; reflexivity |]. split; [exact E |].
  vm_compute in E. injection E as <- <-. repeat split; vm_compute; reflexivity.
Qed.
(** What does hold: up to an allowance of about [10^-12 * (2 * ticks + 1 + liquidity + amount)] of X. *)
Theorem C53_swap_x_price_partial : forall orc p dx ro p' o, reachable orc p -> settled p \/ (0 < num (glbl_liq p))%Q -> wf dx -> wf ro ->
  execute_swap_from_x orc p dx ro = Ok (p', o) ->
  (- num (so_send o) <= (num (so_recv o) - num (so_fee o) + ulp12 * ((2#1) * qlen (ticks p) + 1 + num (glbl_liq p') + num dx)) * (num (glbl_rp p) * num (glbl_rp p)))%Q.
Proof. exact swap_x_price. Qed.
Example C53_case : reachable no_orc ex0 /\ settled ex0 /\ (0 < num (glbl_liq ex0))%Q /\ wf (units 100) /\
  (exists p' o, execute_swap_from_x no_orc ex0 (units 100) (near 7) = Ok (p', o) /\ dval (so_send o) = 99776997085288) /\
  (exists p' o, execute_swap_from_y no_orc ex0 (units 100) (near 7) = Ok (p', o) /\ dval (so_send o) = 99599160362971).
Proof.
  split; [exact ex0_reachable |]. split; [apply settled_ok; vm_compute; reflexivity |]. split; [vm_compute; reflexivity |]. split; [apply wfb_wf; vm_compute; reflexivity |].
  split; do 2 eexists; split; vm_compute; reflexivity.
Qed.

(** ** C54.  The full claim: no sequence of swaps takes X out of the pool without putting Y in.  Everything the pool holds,
    fees included: *)
Definition holds_x (p : pool) : Q := (num (rx p) + num (x_adj p) + num (x_fee p))%Q.
Definition holds_y (p : pool) : Q := (num (ry p) + num (y_adj p) + num (y_fee p))%Q.
(** False: two swaps of 10^-12 X, then selling back exactly the Y they paid, leaves the trader with X to spare. *)
Definition dust_loop : list call := [CSwapX (D12 1) (units 0); CSwapX (D12 1) (units 0); CSwapY (D12 16660668) (units 0)].
Theorem C54_no_free_trades_refuted : exists p p', reachable no_orc p /\ in_range_sum p /\ run_calls no_orc p dust_loop = Ok p' /\
  (holds_y p' == holds_y p /\ holds_x p' < holds_x p)%Q.
Proof.
  destruct (run_calls no_orc ex0 dust_loop) as [p' | | |] eqn:E; [| vm_compute in E; discriminate E ..].
  exists ex0, p'. split; [exact ex0_reachable |]. split; [vm_compute; reflexivity |]. split; [exact E |]. vm_compute in E. injection E as <-. repeat split; vm_compute; reflexivity.
Qed.
(** What does hold: swaps that bring the price back to where it was leave the reserves at least as large as they were, up to
    the allowances [ex], [ey] accumulated in [trades] (each of the order of 10^-12 times ticks, liquidity and amounts). *)
Theorem C54_round_trips_partial : forall orc p0 p ex ey, reachable orc p0 -> trades orc p0 p ex ey -> (num (glbl_rp p) == num (glbl_rp p0))%Q ->
  (num (rx p0) <= num (rx p) + ex /\ num (ry p0) <= num (ry p) + ey)%Q.
Proof. exact round_trips. Qed.
Definition half : pool := Eval vm_compute in get (run_calls no_orc ex0 [CSwapX (units 100) (near 7)]).
Definition back : pool := Eval vm_compute in get (run_calls no_orc half [CSwapY (D12 100098849715480) (near 7)]).
Example C54_case : exists ex ey, trades no_orc ex0 back ex ey /\ (num (glbl_rp back) == num (glbl_rp ex0))%Q /\ dval (glbl_rp half) <> dval (glbl_rp ex0).
Proof.
  destruct (execute_swap_from_x no_orc ex0 (units 100) (near 7)) as [[p1 o1] | | |] eqn:E1; [| vm_compute in E1; discriminate E1 ..].
  assert (H1 : p1 = half) by (vm_compute in E1; injection E1 as <- _; reflexivity). subst p1.
  destruct (execute_swap_from_y no_orc half (D12 100098849715480) (near 7)) as [[p2 o2] | | |] eqn:E2; [| vm_compute in E2; discriminate E2 ..].
  assert (H2 : p2 = back) by (vm_compute in E2; injection E2 as <- _; reflexivity). subst p2.
  do 2 eexists. split; [| split; [vm_compute; reflexivity | vm_compute; discriminate]].
  refine (tr_y no_orc ex0 half _ _ _ _ back _ (tr_x no_orc ex0 ex0 _ _ _ _ half _ (tr_none no_orc ex0) _ _ _ _ E1) _ _ _ _ E2);
    first [apply settled_ok; vm_compute; reflexivity | apply liq_ok; vm_compute; reflexivity | apply wfb_wf; vm_compute; reflexivity].
Qed.

(** ** C55.  The full claim: the reserves always cover what all positions are worth at the current price
    ([owed_x], [owed_y]: computed exactly, no rounding). *)
Definition covered (p : pool) : Prop := (owed_x p <= num (rx p) /\ owed_y p <= num (ry p))%Q.
(** False, and not only by rounding: [edge] is a pool whose recorded tick fell on the wrong side of an active tick (C25).
    One ordinary swap of 600 X later the positions are worth 398 X more than the pool has. *)
Theorem C55_reserves_cover_refuted : exists p, reachable no_orc p /\ (num (rx p) + 398 < owed_x p)%Q.
Proof.
  exists (get (run_calls no_orc edge [CSwapX (units 600) (units 0)])). split; [| vm_compute; reflexivity].
  apply (start_reachable (near 10) 1 (D12 0) (D12 3000000000) (edge_calls ++ [CSwapX (units 600) (units 0)])); vm_compute; reflexivity.
Qed.
(** What does hold: if every swap starts with tick and liquidity agreeing with the price, the reserves cover the positions
    up to the rounding allowances accumulated in [history]. *)
Theorem C55_reserves_cover_partial : forall orc p ex ey, history orc p ex ey -> (owed_x p <= num (rx p) + ex /\ owed_y p <= num (ry p) + ey)%Q.
Proof. exact history_cover. Qed.
(** The single steps. *)
Theorem C55_deposit_pays_for_itself : forall orc p user x y rpa rpb p' o, reachable orc p -> wf x -> wf y -> wf rpa -> wf rpb -> deposit p user x y rpa rpb = Ok (p', o) ->
  (owed_x p' - owed_x p <= num (rx p') - num (rx p) + (2#1) * ulp12 /\ owed_y p' - owed_y p <= num (ry p') - num (ry p) + ulp12)%Q.
Proof. exact deposit_cover. Qed.
Theorem C55_withdrawal_takes_at_most_its_worth : forall orc p user l rpa rpb p' o, reachable orc p -> wf l -> wf rpa -> wf rpb -> withdraw p user l rpa rpb = Ok (p', o) ->
  (num (rx p) - num (rx p') <= owed_x p - owed_x p' /\ num (ry p) - num (ry p') <= owed_y p - owed_y p')%Q.
Proof. intros orc p user l rpa rpb p' o R W1 W2 W3 H. destruct (withdraw_cover _ _ _ _ _ _ _ _ R W1 W2 W3 H). lra. Qed.
Theorem C55_swap_x_keeps_cover : forall orc p dx ro p' o, reachable orc p -> settled p -> liq_inv p -> wf dx -> wf ro -> execute_swap_from_x orc p dx ro = Ok (p', o) ->
  (owed_x p' - owed_x p <= num (rx p') - num (rx p) + ulp12 * ((2#1) * qlen (ticks p) + 1 + num (glbl_liq p') + num dx) /\ owed_y p' - owed_y p <= num (ry p') - num (ry p))%Q.
Proof. exact swap_x_cover. Qed.
Theorem C55_swap_y_keeps_cover : forall orc p dy ro p' o, reachable orc p -> settled p -> liq_inv p -> wf dy -> wf ro -> execute_swap_from_y orc p dy ro = Ok (p', o) ->
  (owed_x p' - owed_x p <= num (rx p') - num (rx p) + ulp12 * (num (rx p) - num (rx p')) /\ owed_y p' - owed_y p <= num (ry p') - num (ry p) + ulp12 * qlen (ticks p))%Q.
Proof. exact swap_y_cover. Qed.
(** A state whose price is more than one tick away from all active ticks is settled. *)
Theorem C55_clear_is_settled : forall orc p, reachable orc p -> clear_of_ticks p -> settled p.
Proof. exact clear_settled. Qed.
Example C55_case : exists ex ey, history no_orc ex1 ex ey /\ (0 < owed_x ex1 /\ 0 < owed_y ex1)%Q /\ (ex < 1 # 100000)%Q.
Proof.
  assert (Wn10 : wf (near 10)) by (apply wfb_wf; vm_compute; reflexivity).
  assert (Wn4 : wf (near 4)) by (apply wfb_wf; vm_compute; reflexivity).
  assert (Wn16 : wf (near 16)) by (apply wfb_wf; vm_compute; reflexivity).
  assert (Wn8 : wf (near 8)) by (apply wfb_wf; vm_compute; reflexivity).
  assert (Wn12 : wf (near 12)) by (apply wfb_wf; vm_compute; reflexivity).
  assert (Wn7 : wf (near 7)) by (apply wfb_wf; vm_compute; reflexivity).
  assert (Wu1000 : wf (units 1000)) by (apply wfb_wf; vm_compute; reflexivity).
  assert (Wu500 : wf (units 500)) by (apply wfb_wf; vm_compute; reflexivity).
  assert (Wu1500 : wf (units 1500)) by (apply wfb_wf; vm_compute; reflexivity).
  assert (Wdc : wf (D12 1500000000000)) by (apply wfb_wf; vm_compute; reflexivity).
  assert (Wdr : wf (D12 3000000000)) by (apply wfb_wf; vm_compute; reflexivity).
  destruct (pool_new (near 10) 1 (D12 1500000000000) (D12 3000000000)) as [q0 | | |] eqn:Q0; [| vm_compute in Q0; discriminate Q0 ..].
  assert (S0 : exists ex ey, history no_orc q0 ex ey /\ (ex <= 0)%Q).
  { exists 0%Q, 0%Q. split; [| discriminate]. refine (hs_new no_orc (near 10) 1 (D12 1500000000000) (D12 3000000000) q0 Wn10 Wdc Wdr _ Q0). lia. }
  destruct S0 as (x0 & y0 & S0 & B0).
  destruct (deposit q0 "ann" (units 1000) (units 1000) (near 4) (near 16)) as [[q1 o1] | | |] eqn:E1; [| vm_compute in Q0; injection Q0 as <-; vm_compute in E1; discriminate E1 ..].
  pose proof (hs_deposit no_orc q0 x0 y0 "ann" (units 1000) (units 1000) (near 4) (near 16) q1 o1 S0 Wu1000 Wu1000 Wn4 Wn16 E1) as S1.
  destruct (deposit q1 "bob" (units 500) (units 500) (near 8) (near 12)) as [[q2 o2] | | |] eqn:E2; [| clear S0 S1; vm_compute in Q0; injection Q0 as <-; vm_compute in E1; injection E1 as <- <-; vm_compute in E2; discriminate E2 ..].
  pose proof (hs_deposit no_orc q1 _ _ "bob" (units 500) (units 500) (near 8) (near 12) q2 o2 S1 Wu500 Wu500 Wn8 Wn12 E2) as S2.
  assert (H2 : q2 = ex0). { clear S0 S1 S2. vm_compute in Q0; injection Q0 as <-; vm_compute in E1; injection E1 as <- <-; vm_compute in E2; injection E2 as <- <-. reflexivity. } clear E1 E2 Q0 S0 S1. subst q2.
  destruct (execute_swap_from_x no_orc ex0 (units 1500) (near 7)) as [[q3 o3] | | |] eqn:E3; [| vm_compute in E3; discriminate E3 ..].
  assert (St : settled ex0) by (apply settled_ok; vm_compute; reflexivity). assert (L : liq_inv ex0) by (apply liq_ok; vm_compute; reflexivity).
  pose proof (hs_swap_x no_orc ex0 _ _ (units 1500) (near 7) q3 o3 S2 St L Wu1500 Wn7 E3) as S3.
  assert (H3 : q3 = ex1) by (vm_compute in E3; injection E3 as <- _; reflexivity). clear E3. subst q3.
  do 2 eexists. split; [exact S3 |]. split; [split; vm_compute; reflexivity |]. 
  assert (A : (ulp12 * ((2 # 1) * qlen (ticks ex0) + 1 + num (glbl_liq ex1) + num (units 1500)) < 1 # 200000)%Q) by (vm_compute; reflexivity). assert (U : (ulp12 == 1 # 1000000000000)%Q) by reflexivity. lra.
Qed.

Print Assumptions C53_swap_y_price.
Print Assumptions C53_swap_x_price_partial.
Print Assumptions C53_swap_x_price_refuted.
Print Assumptions C54_no_free_trades_refuted.
Print Assumptions C54_round_trips_partial.
Print Assumptions C55_reserves_cover_refuted.
Print Assumptions C55_reserves_cover_partial.
Print Assumptions C55_deposit_pays_for_itself.
Print Assumptions C55_withdrawal_takes_at_most_its_worth.
Print Assumptions C55_swap_x_keeps_cover.
Print Assumptions C55_swap_y_keeps_cover.
Print Assumptions C55_clear_is_settled.
