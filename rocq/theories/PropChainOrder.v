(** On-chain program: C102, C103. *)
From Coq Require Import ZArith QArith List Bool Lia Permutation.
From Verif Require Import Base BaseLemmas DecimalModel MathModel BitmapModel BitmapProofs ChainModel ChainSpec ChainLemmas ChainProofs ChainInv ChainFlow ChainLive ChainOrder PropChain.
Import ListNotations.
Open Scope Z_scope.

(** States after user 1's deposit at the current tick and user 2's withdrawal, in both orders. *)
Definition wd2 : instr := IWithdraw 2 5 20 10 6003.
Definition l7 : cstate := Eval vm_compute in no_bm (tx s5 dep_at).
Definition l8 : cstate := Eval vm_compute in no_bm (tx (tx s5 dep_at) wd2).
Definition l9 : cstate := Eval vm_compute in no_bm (tx s6 dep_at).
Definition bm_again : bitmap := match activate_tick bm_cleared 40000 with Ok b => b | _ => [] end.
Definition s7 : cstate := with_bm bm_used l7.
Definition s8 : cstate := with_bm bm_cleared l8.
Definition s9 : cstate := with_bm bm_again l9.
Lemma e7 : exec s5 dep_at = Ok s7. Proof. vm_compute. reflexivity. Qed.
Lemma e8 : exec s7 wd2 = Ok s8. Proof. vm_compute. reflexivity. Qed.
Lemma e9 : exec s6 dep_at = Ok s9. Proof. vm_compute. reflexivity. Qed.
Lemma both78 : all_succeed s5 [dep_at; wd2] /\ run_txs s5 [dep_at; wd2] = s8.
Proof. assert (T : tx s5 dep_at = s7) by (unfold tx; rewrite e7; reflexivity). unfold run_txs. cbn [all_succeed fold_left]. rewrite T. unfold tx. rewrite e8. repeat split; eexists; [exact e7 | reflexivity]. Qed.
Lemma both69 : all_succeed s5 [wd2; dep_at] /\ run_txs s5 [wd2; dep_at] = s9.
Proof. assert (T : tx s5 wd2 = s6) by (unfold tx, wd2; rewrite e6; reflexivity). unfold run_txs. cbn [all_succeed fold_left]. rewrite T. unfold tx. rewrite e9. repeat split; eexists; [exact e6 | reflexivity]. Qed.

(** ** C102: what others do first changes neither the terms of a deposit nor, within the numeric limits, whether it is accepted *)
Theorem C102_same_terms : forall s1 s2 u l h c xa ya to s1' s2', reached s1 -> reached s2 ->
  exec s1 (IDeposit u l h c xa ya to) = Ok s1' -> exec s2 (IDeposit u l h c xa ya to) = Ok s2' ->
  exists d, deposit_effect s1 u l h c xa ya to s1' d /\ deposit_effect s2 u l h c xa ya to s2' d.
Proof. exact same_terms. Qed.
Print Assumptions C102_same_terms.
Theorem C102_not_blocked : forall s u l h c xa ya to s' is, reached s -> exec s (IDeposit u l h c xa ya to) = Ok s' ->
  (forall i, In i is -> signer i <> Some u) -> total (c_x s) < 2 ^ 64 -> total (c_y s) < 2 ^ 64 ->
  let t := run_txs s is in let d := pos_liq s' (u, l, h) - pos_liq s (u, l, h) in
  over_positions t (fun _ v => v) + d < 2 ^ 128 -> c_lp_supply t + d / 10 ^ 12 < 2 ^ 64 ->
  exists t', exec t (IDeposit u l h c xa ya to) = Ok t'.
Proof. exact not_blocked. Qed.
Print Assumptions C102_not_blocked.
(** User 2 deposits three times and withdraws before user 1's deposit. *)
Example C102_ex : reached s1 /\ reached s6 /\ run_txs s1 attack = s6 /\ exec s1 dep_at = Ok s2 /\ exec s6 dep_at = Ok s9 /\
  (forall i, In i attack -> signer i <> Some 1) /\ total (c_x s1) = 2000000000 /\ pos_liq s2 (1, 5, 10) - pos_liq s1 (1, 5, 10) = 3998700358404312863 /\
  over_positions s6 (fun _ v => v) = 1599481945078118118 /\ c_lp_supply s6 = 1599480.
Proof.
  split; [exact (reach _ _ t1) |]. split; [exact (reach _ _ t6) |]. split. { unfold run_txs, attack. cbn [fold_left]. unfold tx. rewrite e3, e4, e5, e6. reflexivity. }
  split; [exact e2 |]. split; [exact e9 |]. split. { intros i J. cbn in J. repeat destruct J as [<- | J]; try discriminate. contradiction. }
  repeat split; vm_compute; reflexivity.
Qed.

(** ** C103: the order in which transactions land does not matter, except for the bitmap *)
Theorem C103_any_order_partial : forall s is js, reached s -> Permutation is js -> all_succeed s is -> all_succeed s js -> same_accounts (run_txs s is) (run_txs s js).
Proof. exact any_order. Qed.
Print Assumptions C103_any_order_partial.
Example C103_ex : reached s5 /\ Permutation [dep_at; wd2] [wd2; dep_at] /\ all_succeed s5 [dep_at; wd2] /\ all_succeed s5 [wd2; dep_at] /\
  c_pos s8 <> c_pos s5 /\ bal HVault (c_x s8) <> bal HVault (c_x s5).
Proof. split; [exact (reach _ _ t5) |]. split; [apply perm_swap |]. split; [exact (proj1 both78) |]. split; [exact (proj1 both69) |]. split; vm_compute; discriminate. Qed.
(** The bitmap does depend on it. *)
Theorem C103_bitmap_order_refuted : ~ (forall s is js, reached s -> Permutation is js -> all_succeed s is -> all_succeed s js -> c_bitmap (run_txs s is) = c_bitmap (run_txs s js)).
Proof.
  intros H. specialize (H s5 _ _ (reach _ _ t5) (perm_swap wd2 dep_at []) (proj1 both78) (proj1 both69)). rewrite (proj2 both78), (proj2 both69) in H.
  assert (E : match c_bitmap s8 with Some b => mem b 40000 | None => true end = match c_bitmap s9 with Some b => mem b 40000 | None => true end) by (rewrite H; reflexivity). vm_compute in E. discriminate E.
Qed.
Print Assumptions C103_bitmap_order_refuted.
