(** On-chain program: C37-C45, C52. *)
From Coq Require Import ZArith QArith List Bool Lia.
From Verif Require Import Base BaseLemmas DecimalModel MathModel BitmapModel BitmapProofs ChainModel ChainSpec ChainLemmas ChainProofs ChainInv ChainFlow ChainLive.
Import ListNotations.
Open Scope Z_scope.
Local Ltac csplit := repeat match goal with |- _ /\ _ => split end.

(** ** Concrete histories used beside the theorems: pool at tick 10, users 1 and 2 *)
Definition w0 : ledger := [(HUser 1, 1000000000); (HUser 2, 1000000000)].
Definition setup : list instr :=
  [IInitPool 10; IInitBitmap; IInitTick 5; IInitTick 10; IInitTick 20; ICreatePosition 1 5 20; ICreatePosition 2 5 20; ICreatePosition 1 5 10].
Definition dep1 : instr := IDeposit 1 5 20 10 1000 400 (HUser 1).
Definition dust : instr := IDeposit 2 5 20 10 1 1 (HUser 2).
Definition dep_at : instr := IDeposit 1 5 10 10 1000 1000 (HUser 1).
Definition attack : list instr := [dust; dust; dust; IWithdraw 2 5 20 10 6003].
Local Notation trace is := (run_txs (genesis w0 w0) (setup ++ is)).

(** The states along these histories, as literals (except for the bitmaps), linked to the runs one instruction at a time. *)
Definition with_bm (b : bitmap) (s : cstate) : cstate := mkCS (c_pool s) (Some b) (c_ticks s) (c_pos s) (c_x s) (c_y s) (c_lp s) (c_lp_supply s).
Definition no_bm (s : cstate) : cstate := mkCS (c_pool s) None (c_ticks s) (c_pos s) (c_x s) (c_y s) (c_lp s) (c_lp_supply s).
Definition bm_used : bitmap := match activate_tick bm_default 0 with Ok b => match activate_tick b 40000 with Ok b' => b' | _ => [] end | _ => [] end.
Definition bm_cleared : bitmap := match unset_tick bm_used 0 with Ok b => match unset_tick b 40000 with Ok b' => b' | _ => [] end | _ => [] end.
Definition l0 : cstate := Eval vm_compute in no_bm (trace []).
Definition l1 : cstate := Eval vm_compute in no_bm (trace [dep1]).
Definition l2 : cstate := Eval vm_compute in no_bm (trace [dep1; dep_at]).
Definition l3 : cstate := Eval vm_compute in no_bm (trace [dep1; dust]).
Definition l4 : cstate := Eval vm_compute in no_bm (trace [dep1; dust; dust]).
Definition l5 : cstate := Eval vm_compute in no_bm (trace [dep1; dust; dust; dust]).
Definition l6 : cstate := Eval vm_compute in no_bm (trace (dep1 :: attack)).
Definition s0 : cstate := with_bm bm_default l0.
Definition s1 : cstate := with_bm bm_used l1.
Definition s2 : cstate := with_bm bm_used l2.
Definition s3 : cstate := with_bm bm_used l3.
Definition s4 : cstate := with_bm bm_used l4.
Definition s5 : cstate := with_bm bm_used l5.
Definition s6 : cstate := with_bm bm_cleared l6.

Lemma e0 : trace [] = s0. Proof. vm_compute. reflexivity. Qed.
Lemma e1 : exec s0 dep1 = Ok s1. Proof. vm_compute. reflexivity. Qed.
Lemma e2 : exec s1 dep_at = Ok s2. Proof. vm_compute. reflexivity. Qed.
Lemma e3 : exec s1 dust = Ok s3. Proof. vm_compute. reflexivity. Qed.
Lemma e4 : exec s3 dust = Ok s4. Proof. vm_compute. reflexivity. Qed.
Lemma e5 : exec s4 dust = Ok s5. Proof. vm_compute. reflexivity. Qed.
Lemma e6 : exec s5 (IWithdraw 2 5 20 10 6003) = Ok s6. Proof. vm_compute. reflexivity. Qed.

Lemma trace_step : forall is i s s', trace is = s -> exec s i = Ok s' -> trace (is ++ [i]) = s'.
Proof. intros is i s s' H E. unfold run_txs in *. rewrite app_assoc, fold_left_app, H. cbn [fold_left]. unfold tx. rewrite E. reflexivity. Qed.
Lemma t1 : trace [dep1] = s1. Proof. exact (trace_step [] _ _ _ e0 e1). Qed.
Lemma t2 : trace [dep1; dep_at] = s2. Proof. exact (trace_step [dep1] _ _ _ t1 e2). Qed.
Lemma t3 : trace [dep1; dust] = s3. Proof. exact (trace_step [dep1] _ _ _ t1 e3). Qed.
Lemma t4 : trace [dep1; dust; dust] = s4. Proof. exact (trace_step [dep1; dust] _ _ _ t3 e4). Qed.
Lemma t5 : trace [dep1; dust; dust; dust] = s5. Proof. exact (trace_step [dep1; dust; dust] _ _ _ t4 e5). Qed.
Lemma t6 : trace (dep1 :: attack) = s6. Proof. exact (trace_step [dep1; dust; dust; dust] _ _ _ t5 e6). Qed.

Lemma w0_ok : balances_ok w0.
Proof. repeat constructor; cbn; lia. Qed.
Lemma reach : forall is s, trace is = s -> reached s.
Proof. intros is s <-. exists w0, w0, (setup ++ is). repeat split; try apply w0_ok; reflexivity. Qed.
Lemma reach_inv : forall x y is, balances_ok x -> balances_ok y -> cinv (run_txs (genesis x y) is).
Proof. intros. apply reached_inv. exists x, y, is. auto. Qed.

(** ** C37: the pool's tick, root price and fees never change after initialisation; all fees are zero *)
Theorem C37_price_constant : forall s is g, reached s -> c_pool s = Some g ->
  exists g', c_pool (run_txs s is) = Some g' /\ cg_tick g' = cg_tick g /\ cg_rp g' = cg_rp g /\ cg_fee g' = cg_fee g.
Proof. intros s is g R G. exact (run_same_price is s (reached_inv _ R) g G). Qed.
Print Assumptions C37_price_constant.
Theorem C37_no_fees : forall s, reached s ->
  (forall g, c_pool s = Some g -> no_fees (cg_fee g)) /\ (forall t x, ct_get t (c_ticks s) = Some x -> no_fees (ct_fee x)) /\ (forall k q, cp_get k (c_pos s) = Some q -> no_fees (cp_fee q)).
Proof. exact no_fees_anywhere. Qed.
Print Assumptions C37_no_fees.
(** The stored root price (12 decimals) is the price of the stored tick. *)
Theorem C37_price_of_tick : forall s g, reached s -> c_pool s = Some g -> tick_to_rp (cg_tick g) = Ok (mkD (cg_rp g) 12 false).
Proof. exact price_of_tick. Qed.
Print Assumptions C37_price_of_tick.
Example C37_ex : reached s1 /\ c_pool s1 <> None /\ run_txs s1 attack = s6 /\ c_ticks s1 <> [] /\ c_pos s1 <> [].
Proof. split; [exact (reach _ _ t1) |]. split; [discriminate |]. split; [| split; discriminate]. unfold run_txs, attack. cbn [fold_left]. unfold tx at 4. rewrite e3. unfold tx at 3. rewrite e4. unfold tx at 2. rewrite e5. unfold tx. rewrite e6. reflexivity. Qed.

(** ** C38: liquidity bookkeeping *)
Theorem C38_global_liquidity : forall s g, reached s -> c_pool s = Some g ->
  cg_liq g = over_positions s (fun k v => when ((lower k <=? cg_tick g) && (cg_tick g <? upper k)) v) /\ NoDup (map fst (c_pos s)).
Proof. exact global_liquidity. Qed.
Print Assumptions C38_global_liquidity.
(** Missing from the full claim: the account of the pool's current tick, see [C38_current_tick_zero]. *)
Theorem C38_tick_sums_partial : forall s g t x, reached s -> c_pool s = Some g -> ct_get t (c_ticks s) = Some x -> t <> cg_tick g ->
  ct_gross x = over_positions s (fun k v => when ((t =? lower k) || (t =? upper k)) v) /\
  net x = over_positions s (fun k v => when (t =? lower k) v - when (t =? upper k) v).
Proof. exact tick_sums. Qed.
Print Assumptions C38_tick_sums_partial.
(** What is true of the current tick's account instead: it never records any liquidity. *)
Theorem C38_current_tick_zero : forall s g x, reached s -> c_pool s = Some g -> ct_get (cg_tick g) (c_ticks s) = Some x -> ct_gross x = 0 /\ net x = 0.
Proof. exact current_tick_zero. Qed.
Print Assumptions C38_current_tick_zero.
Theorem C38_refuted : exists s g x, reached s /\ c_pool s = Some g /\ ct_get (cg_tick g) (c_ticks s) = Some x /\
  ct_gross x = 0 /\ over_positions s (fun k v => when ((cg_tick g =? lower k) || (cg_tick g =? upper k)) v) = 3998700358404312863.
Proof. exists s2. eexists. eexists. split; [exact (reach _ _ t2) |]. csplit; vm_compute; reflexivity. Qed.
Print Assumptions C38_refuted.
Example C38_ex : reached s2 /\ exists g x, c_pool s2 = Some g /\ 0 < cg_liq g /\ ct_get 5 (c_ticks s2) = Some x /\ 5 <> cg_tick g /\ 0 < ct_gross x.
Proof. split; [exact (reach _ _ t2) |]. eexists. eexists. csplit; vm_compute; try reflexivity; intros HH; discriminate HH. Qed.

(** ** C39: exact effect of a deposit *)
Theorem C39_deposit : forall s u l h c xa ya to s', reached s -> exec s (IDeposit u l h c xa ya to) = Ok s' ->
  exists d, deposit_effect s u l h c xa ya to s' d.
Proof. intros s u l h c xa ya to s' R H. destruct (exec_deposit _ _ _ _ _ _ _ _ _ (reached_inv _ R) H) as (_ & d & D & _). exists d. exact D. Qed.
Print Assumptions C39_deposit.
Example C39_ex : reached s0 /\ exec s0 dep1 = Ok s1 /\ pos_liq s0 (1, 5, 20) = 0 /\ pos_liq s1 (1, 5, 20) = 1599480143361725145 /\
  vault_x s1 = 799 /\ vault_y s1 = 399 /\ bal (HUser 1) (c_lp s1) = 1599480.
Proof. split; [exact (reach _ _ e0) |]. split; [exact e1 |]. csplit; vm_compute; reflexivity. Qed.

(** ** C40: conservation of tokens *)
Theorem C40_conservation : forall x y is, balances_ok x -> balances_ok y -> let s := run_txs (genesis x y) is in
  circulating (c_x s) = circulating x /\ circulating (c_y s) = circulating y /\ balances_ok (c_x s) /\ balances_ok (c_y s) /\ balances_ok (c_lp s) /\ circulating (c_lp s) = c_lp_supply s.
Proof. exact conservation. Qed.
Print Assumptions C40_conservation.
Example C40_ex : balances_ok w0 /\ circulating (c_x (trace (dep1 :: attack))) = 2000000000 /\ vault_x (trace (dep1 :: attack)) = 797.
Proof. split; [exact w0_ok |]. rewrite t6. split; vm_compute; reflexivity. Qed.

(** ** C41: LP tokens are backed by position liquidity *)
Theorem C41_backed : forall s, reached s -> 10 ^ 12 * c_lp_supply s <= over_positions s (fun _ v => v).
Proof. exact backed. Qed.
Print Assumptions C41_backed.
Example C41_ex : reached s2 /\ c_lp_supply s2 = 5598180.
Proof. split; [exact (reach _ _ t2) | reflexivity]. Qed.

(** ** C42: nobody takes out more than was put in *)
(** Full claim (false, see [C42_refuted]): the same without the [topups_of] term. *)
Theorem C42_position_x_partial : forall x y is k c, balances_ok x -> balances_ok y -> let s := run_txs (genesis x y) is in at_tick s c ->
  along (withdrawn vault_x k) (genesis x y) is + worth_x c k (pos_liq s k) <= along (deposited vault_x k) (genesis x y) is + along (topups_of k) (genesis x y) is /\
  0 <= worth_x c k (pos_liq s k).
Proof. exact position_x. Qed.
Print Assumptions C42_position_x_partial.
Theorem C42_position_y_partial : forall x y is k c, balances_ok x -> balances_ok y -> let s := run_txs (genesis x y) is in at_tick s c ->
  along (withdrawn vault_y k) (genesis x y) is + worth_y c k (pos_liq s k) <= along (deposited vault_y k) (genesis x y) is + along (topups_of k) (genesis x y) is /\
  0 <= worth_y c k (pos_liq s k).
Proof. exact position_y. Qed.
Print Assumptions C42_position_y_partial.
(** The vaults hold what all positions are worth, up to one token per top-up. *)
Theorem C42_vaults_partial : forall x y is c, balances_ok x -> balances_ok y -> let s := run_txs (genesis x y) is in at_tick s c ->
  over_positions s (worth_x c) <= vault_x s + along topups (genesis x y) is /\ over_positions s (worth_y c) <= vault_y s + along topups (genesis x y) is.
Proof. exact vaults. Qed.
Print Assumptions C42_vaults_partial.
(** User 2 pays nothing and leaves with 2 X and 1 Y of user 1's deposit. *)
Theorem C42_refuted : exists x y before is s s', balances_ok x /\ balances_ok y /\
  s = run_txs (genesis x y) before /\ s' = run_txs s is /\
  along (deposited vault_x (2, 5, 20)) s is = 0 /\ along (deposited vault_y (2, 5, 20)) s is = 0 /\
  along (withdrawn vault_x (2, 5, 20)) s is = 2 /\ along (withdrawn vault_y (2, 5, 20)) s is = 1 /\
  bal (HUser 2) (c_x s') = bal (HUser 2) (c_x s) + 2 /\ bal (HUser 2) (c_y s') = bal (HUser 2) (c_y s) + 1 /\
  vault_x s' < worth_x 10 (1, 5, 20) (pos_liq s' (1, 5, 20)).
Proof.
  assert (T3 : tx s1 dust = s3) by (unfold tx; rewrite e3; reflexivity). assert (T4 : tx s3 dust = s4) by (unfold tx; rewrite e4; reflexivity).
  assert (T5 : tx s4 dust = s5) by (unfold tx; rewrite e5; reflexivity). assert (T6 : tx s5 (IWithdraw 2 5 20 10 6003) = s6) by (unfold tx; rewrite e6; reflexivity).
  assert (D : forall v, along (deposited v (2, 5, 20)) s1 attack = v s5 - v s1).
  { intros v. unfold attack. cbn [along]. rewrite T3, T4, T5. unfold deposited, dust. fold dust. rewrite T3, T4, T5. cbn [cpkey_eqb Z.eqb Pos.eqb andb when]. ring. }
  assert (W : forall v, along (withdrawn v (2, 5, 20)) s1 attack = v s5 - v s6).
  { intros v. unfold attack. cbn [along]. rewrite T3, T4, T5. unfold withdrawn, dust. fold dust. rewrite T6. cbn [cpkey_eqb Z.eqb Pos.eqb andb when]. ring. }
  exists w0, w0, (setup ++ [dep1]), attack, s1, s6. split; [exact w0_ok |]. split; [exact w0_ok |].
  split; [symmetry; exact t1 |]. split; [symmetry; apply C37_ex |]. rewrite !D, !W. csplit; vm_compute; reflexivity.
Qed.
Print Assumptions C42_refuted.
Example C42_ex : balances_ok w0 /\ at_tick (trace [dep1]) 10 /\ along (deposited vault_x (1, 5, 20)) s0 [dep1] = 799 /\ worth_x 10 (1, 5, 20) (pos_liq (trace [dep1]) (1, 5, 20)) = 799.
Proof. split; [exact w0_ok |]. rewrite t1. split; [eexists; split; reflexivity |]. split; [cbn [along deposited dep1]; fold dep1; unfold tx; rewrite e1; vm_compute; reflexivity | vm_compute; reflexivity]. Qed.

(** ** C43: deposits can be withdrawn *)
(** Full claim (false, see [C43_refuted]): without [l <> c], [h <> c]. *)
Theorem C43_after_deposit_partial : forall s u l h c xa ya s' n, reached s -> exec s (IDeposit u l h c xa ya (HUser u)) = Ok s' -> l <> c -> h <> c ->
  0 < n -> bal (HUser u) (c_lp s) + n <= bal (HUser u) (c_lp s') -> exists s'', exec s' (IWithdraw u l h c n) = Ok s''.
Proof. intros s u l h c xa ya s' n R. exact (after_deposit s u l h c xa ya s' n (reached_inv _ R)). Qed.
Print Assumptions C43_after_deposit_partial.
(** At any later time, whatever anybody did in between, provided no position was topped up. *)
Theorem C43_any_time_partial : forall x y is u l h c n, balances_ok x -> balances_ok y -> along topups (genesis x y) is = 0 ->
  let s := run_txs (genesis x y) is in at_tick s c -> l <> c -> h <> c -> 0 < n ->
  n * 10 ^ 12 <= pos_liq s (u, l, h) -> n <= bal (HUser u) (c_lp s) ->
  bal (HUser u) (c_x s) + worth_x c (u, l, h) (n * 10 ^ 12) < 2 ^ 64 -> bal (HUser u) (c_y s) + worth_y c (u, l, h) (n * 10 ^ 12) < 2 ^ 64 ->
  exists s', exec s (IWithdraw u l h c n) = Ok s'.
Proof. exact any_time. Qed.
Print Assumptions C43_any_time_partial.
Example C43_any_time_ex : along topups (genesis w0 w0) (setup ++ [dep1]) = 0 /\ at_tick (trace [dep1]) 10 /\
  1599480 * 10 ^ 12 <= pos_liq (trace [dep1]) (1, 5, 20) /\ 1599480 <= bal (HUser 1) (c_lp (trace [dep1])).
Proof.
  assert (A : forall f a b s, along f s (a ++ b) = along f s a + along f (run_txs s a) b) by (intros f; induction a as [| i r IH]; intros b s; [reflexivity | cbn [app along]; rewrite IH; unfold run_txs; cbn [fold_left]; ring]).
  rewrite A, t1. pose proof e0 as Q. rewrite app_nil_r in Q. rewrite Q. split; [| split; [eexists; split; reflexivity | csplit; vm_compute; intros HH; discriminate HH]].
  cbn [setup along topups dep1]. fold dep1. unfold succeeds. rewrite e1. reflexivity.
Qed.
(** A position with a bound at the pool's tick can never be withdrawn from, whatever happens later. *)
Theorem C43_locked_forever : forall s is u l h c n t, reached s -> at_tick s t -> l = t \/ h = t -> 0 < n ->
  forall s', exec (run_txs s is) (IWithdraw u l h c n) <> Ok s'.
Proof. exact locked_always. Qed.
Print Assumptions C43_locked_forever.
Theorem C43_refuted : exists s s', reached s /\ exec s (IDeposit 1 5 10 10 1000 1000 (HUser 1)) = Ok s' /\ bal (HUser 1) (c_y s') = bal (HUser 1) (c_y s) - 999 /\
  bal (HUser 1) (c_lp s') = bal (HUser 1) (c_lp s) + 3998700 /\ forall is c n s'', 0 < n -> exec (run_txs s' is) (IWithdraw 1 5 10 c n) <> Ok s''.
Proof.
  exists s1, s2. split; [exact (reach _ _ t1) |]. split; [exact e2 |]. split; [vm_compute; reflexivity |]. split; [vm_compute; reflexivity |].
  intros is c n s'' Hn. apply (C43_locked_forever s2 is 1 5 10 c n 10 (reach _ _ t2)); auto. eexists. split; reflexivity.
Qed.
Print Assumptions C43_refuted.
Example C43_ex : reached s0 /\ exec s0 (IDeposit 1 5 20 10 1000 400 (HUser 1)) = Ok s1 /\ 5 <> 10 /\ 20 <> 10 /\ bal (HUser 1) (c_lp s0) + 1599480 <= bal (HUser 1) (c_lp s1).
Proof. split; [exact (reach _ _ e0) |]. split; [exact e1 |]. csplit; vm_compute; intros HH; discriminate HH. Qed.

(** ** C44: the bitmap *)
(** Full claim (false, see [C44_refuted]): bit t is set iff tick t's gross liquidity is not zero. *)
Theorem C44_only_mock_bits_partial : forall s b t, reached s -> c_bitmap s = Some b -> 0 <= t < 80000 -> tick_is_active b t = Ok true -> t = 0 \/ t = 40000.
Proof. exact only_mock_bits. Qed.
Print Assumptions C44_only_mock_bits_partial.
Theorem C44_withdraw_clears : forall s u l h c n s' b, reached s -> exec s (IWithdraw u l h c n) = Ok s' -> c_bitmap s' = Some b -> forall t, 0 <= t < 80000 -> tick_is_active b t = Ok false.
Proof. exact withdraw_clears. Qed.
Print Assumptions C44_withdraw_clears.
Theorem C44_refuted :
  (exists s x b, reached s /\ ct_get 5 (c_ticks s) = Some x /\ 0 < ct_gross x /\ c_bitmap s = Some b /\ tick_is_active b 5 = Ok false) /\
  (exists s b, reached s /\ ct_get 0 (c_ticks s) = None /\ c_bitmap s = Some b /\ tick_is_active b 0 = Ok true).
Proof.
  split.
  - exists s1. eexists. exists bm_used. split; [exact (reach _ _ t1) |]. split; [reflexivity |]. csplit; vm_compute; reflexivity.
  - exists s1, bm_used. split; [exact (reach _ _ t1) |]. csplit; vm_compute; reflexivity.
Qed.
Print Assumptions C44_refuted.

(** ** C45: exact effect of a withdrawal *)
Theorem C45_withdraw : forall s u l h c n s', reached s -> exec s (IWithdraw u l h c n) = Ok s' -> withdraw_effect s u l h c n s'.
Proof. intros s u l h c n s' R H. destruct (exec_withdraw _ _ _ _ _ _ _ (reached_inv _ R) H) as (_ & D & _). exact D. Qed.
Print Assumptions C45_withdraw.
Example C45_ex : reached s5 /\ exec s5 (IWithdraw 2 5 20 10 6003) = Ok s6 /\ pos_liq s5 (2, 5, 20) = 6004801716392973 /\ pos_liq s6 (2, 5, 20) = 1801716392973.
Proof. split; [exact (reach _ _ t5) |]. split; [exact e6 |]. split; vm_compute; reflexivity. Qed.

(** ** C52: only the signer of an instruction can lose tokens or have a position changed *)
Theorem C52_bystanders : forall s i s' v, reached s -> exec s i = Ok s' -> signer i <> Some v ->
  bal (HUser v) (c_x s) <= bal (HUser v) (c_x s') /\ bal (HUser v) (c_y s) <= bal (HUser v) (c_y s') /\ bal (HUser v) (c_lp s) <= bal (HUser v) (c_lp s') /\
  forall k, owner k = v -> cp_get k (c_pos s') = cp_get k (c_pos s).
Proof. intros s i s' v R. exact (bystander s i s' v (reached_inv _ R)). Qed.
Print Assumptions C52_bystanders.
Example C52_ex : reached s5 /\ exec s5 (IWithdraw 2 5 20 10 6003) = Ok s6 /\ signer (IWithdraw 2 5 20 10 6003) <> Some 1 /\ 0 < pos_liq s5 (1, 5, 20).
Proof. split; [exact (reach _ _ t5) |]. split; [exact e6 |]. split; [discriminate | vm_compute; reflexivity]. Qed.
