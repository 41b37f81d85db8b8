(** Claims C96-C98: the order of two providers' calls. *)
From Coq Require Import ZArith QArith List Bool Lia Lqa String.
From Verif Require Import Base DecimalModel DecimalSpec MathModel MathProofs PoolModel PoolWf PoolInv PoolLp PoolFees Concrete Examples PropPool WdSplit LpOrder LpOrder2.
Import ListNotations.
Open Scope string_scope. Open Scope Z_scope.

(** ** C96.  If two deposits into different positions complete in one order, they complete in the other, with the same figures
    ([same_out]) and the same resulting pool ([same_pool]). *)
Theorem C96_deposits_commute : forall orc p u1 x1 y1 a1 b1 u2 x2 y2 a2 b2 p1 o1 p12 o2 lo1 up1 lo2 up2, reachable orc p ->
  nonneg x1 -> nonneg y1 -> nonneg x2 -> nonneg y2 -> dscale x1 = 12 -> dscale y1 = 12 -> dscale x2 = 12 -> dscale y2 = 12 -> nonneg a1 -> nonneg b1 -> nonneg a2 -> nonneg b2 ->
  range_of p a1 b1 lo1 up1 -> range_of p a2 b2 lo2 up2 -> (u1, lo1, up1) <> (u2, lo2, up2) ->
  deposit p u1 x1 y1 a1 b1 = Ok (p1, o1) -> deposit p1 u2 x2 y2 a2 b2 = Ok (p12, o2) ->
  exists q2 o2' q21 o1', deposit p u2 x2 y2 a2 b2 = Ok (q2, o2') /\ deposit q2 u1 x1 y1 a1 b1 = Ok (q21, o1') /\ same_out o1 o1' /\ same_out o2 o2' /\ same_pool p12 q21.
Proof. exact deposits_commute. Qed.
(** ** C97.  The same for two withdrawals of positive amounts. *)
Theorem C97_withdrawals_commute : forall orc p u1 l1 a1 b1 u2 l2 a2 b2 p1 o1 p12 o2 lo1 up1 lo2 up2, reachable orc p ->
  wf l1 -> wf l2 -> dscale l1 = 12 -> dscale l2 = 12 -> (0 < num l1)%Q -> (0 < num l2)%Q -> wf a1 -> wf b1 -> wf a2 -> wf b2 ->
  range_of p a1 b1 lo1 up1 -> range_of p a2 b2 lo2 up2 -> (u1, lo1, up1) <> (u2, lo2, up2) ->
  withdraw p u1 l1 a1 b1 = Ok (p1, o1) -> withdraw p1 u2 l2 a2 b2 = Ok (p12, o2) ->
  exists q2 o2' q21 o1', withdraw p u2 l2 a2 b2 = Ok (q2, o2') /\ withdraw q2 u1 l1 a1 b1 = Ok (q21, o1') /\ same_out o1 o1' /\ same_out o2 o2' /\ same_pool p12 q21.
Proof. exact withdrawals_commute. Qed.
(** ** C98.  The full claim - the same for a deposit and a withdrawal - is false ([C98_deposit_withdraw_refuted]).  Proved: it
    holds if the depositor's position already holds liquidity.  (That the withdrawal also completes on its own must be assumed:
    the deposit may supply the reserves for it.) *)
Theorem C98_deposit_withdraw_partial : forall orc p u1 x y a1 b1 u2 l a2 b2 p1 o1 p12 o2 q2 o2' lo1 up1 lo2 up2, reachable orc p ->
  nonneg x -> nonneg y -> dscale x = 12 -> dscale y = 12 -> nonneg a1 -> nonneg b1 -> wf l -> dscale l = 12 -> (0 < num l)%Q -> wf a2 -> wf b2 ->
  range_of p a1 b1 lo1 up1 -> range_of p a2 b2 lo2 up2 -> (u1, lo1, up1) <> (u2, lo2, up2) -> (0 < liq_of p (u1, lo1, up1))%Q ->
  deposit p u1 x y a1 b1 = Ok (p1, o1) -> withdraw p1 u2 l a2 b2 = Ok (p12, o2) -> withdraw p u2 l a2 b2 = Ok (q2, o2') ->
  exists q21 o1', deposit q2 u1 x y a1 b1 = Ok (q21, o1') /\ same_out o1 o1' /\ same_out o2 o2' /\ same_pool p12 q21.
Proof. exact deposit_withdraw_commute. Qed.

(** Cases on [ex2]: ann holds [4, 16), bob [8, 12), cat opens [8, 12); all with fees outstanding. *)
Definition all_bob := match pm_get ("bob", 8, 12) (positions ex2) with Some q => p_liq q | None => D12 0 end.
Definition ann_in (p : pool) := deposit p "ann" (units 10) (units 10) (near 4) (near 16).
Definition cat_in (p : pool) := deposit p "cat" (units 20) (units 10) (near 8) (near 12).
Definition ann_out (p : pool) := withdraw p "ann" (D12 1000000000000000000) (near 4) (near 16).
Definition bob_out (p : pool) := withdraw p "bob" all_bob (near 8) (near 12).
Definition cat_out (p : pool) := withdraw p "cat" (D12 100097919789054444) (near 8) (near 12).
Definition and_then (f g : pool -> res (pool * lp_out)) (p : pool) : res (pool * lp_out) := match f p with Ok (p', _) => g p' | e => e end.
Definition completes (r : res (pool * lp_out)) : bool := match r with Ok _ => true | _ => false end.
Example order_cases : range_of ex2 (near 4) (near 16) 4 16 /\ range_of ex2 (near 8) (near 12) 8 12 /\ Qlt 0 (liq_of ex2 ("ann", 4, 16)) /\
  forallb completes [and_then ann_in cat_in ex2; and_then ann_out bob_out ex2; and_then ann_in bob_out ex2; bob_out ex2] = true.
Proof. split; [| split; [| split]]; [| | vm_compute; reflexivity | vm_compute; reflexivity]; (split; [vm_compute; reflexivity |]; split; [vm_compute; reflexivity |]; split; [lia |]; split; vm_compute; reflexivity). Qed.
(** If cat deposits before bob leaves, cat is later paid fees earned before cat came; if bob leaves first, cat is not:
    with bob's liquidity the record of the fees at the bounds of the range disappears. *)
Definition done (r : res (pool * lp_out)) : pool * lp_out := match r with Ok x => x | _ => (ex2, mkLO (D12 0) (D12 0) (D12 0) (D12 0) (D12 0) (D12 0) (D12 0) (D12 0) (D12 0)) end.
Definition st_c := Eval vm_compute in done (cat_in ex2).
Definition st_cb := Eval vm_compute in done (bob_out (fst st_c)).
Definition st_b := Eval vm_compute in done (bob_out ex2).
Definition st_bc := Eval vm_compute in done (cat_in (fst st_b)).
Definition st_cbo := Eval vm_compute in done (cat_out (fst st_cb)).
Definition st_bco := Eval vm_compute in done (cat_out (fst st_bc)).
Theorem C98_deposit_withdraw_refuted : exists p p1 o1 p12 o2 q2 o2' q21 o1' o3 o3' p3 q3, reachable no_orc p /\
  cat_in p = Ok (p1, o1) /\ bob_out p1 = Ok (p12, o2) /\ bob_out p = Ok (q2, o2') /\ cat_in q2 = Ok (q21, o1') /\
  cat_out p12 = Ok (p3, o3) /\ cat_out q21 = Ok (q3, o3') /\ (0 < num (io_fx o3) /\ num (io_fx o3') == 0)%Q.
Proof.
  exists ex2, (fst st_c), (snd st_c), (fst st_cb), (snd st_cb), (fst st_b), (snd st_b), (fst st_bc), (snd st_bc), (snd st_cbo), (snd st_bco), (fst st_cbo), (fst st_bco).
  split; [exact ex2_reachable |]. repeat (split; [vm_compute; reflexivity |]). vm_compute. reflexivity.
Qed.

Print Assumptions C96_deposits_commute.
Print Assumptions C97_withdrawals_commute.
Print Assumptions C98_deposit_withdraw_partial.
Print Assumptions C98_deposit_withdraw_refuted.
