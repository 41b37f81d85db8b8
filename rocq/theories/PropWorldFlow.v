(** C120: on the ledger nobody takes out of a position more than was put into it. *)
From Coq Require Import ZArith List Bool Lia.
From Verif Require Import Base DecimalModel MathModel BitmapModel ChainModel ChainSpec WorldModel WorldSpec WorldProofs WorldThm WorldFx WorldEx PropWorldLive PropWorldFx WorldFlow.
Import ListNotations.
Open Scope Z_scope.

(** Full claim (false, see [C120_refuted]): the same without the [added] terms. *)
Theorem C120_position_partial : forall w0 is is' m k g u l h, initial w0 -> born_empty w0 is m -> wget (PoolAt m) (wrun w0 is) = Some (CPool k g) -> pk_x k <> m -> pk_y k <> m ->
  let w := wrun w0 is in
  walong (got a_ux m u l h) w is' + worth_x (cg_tick g) (Zpos u, l, h) (position_liq (wrun w is') m u l h) <= walong (paid a_ux m u l h) w is' + walong (added m u l h) w is' + worth_x (cg_tick g) (Zpos u, l, h) (position_liq w m u l h) /\
  walong (got a_uy m u l h) w is' + worth_y (cg_tick g) (Zpos u, l, h) (position_liq (wrun w is') m u l h) <= walong (paid a_uy m u l h) w is' + walong (added m u l h) w is' + worth_y (cg_tick g) (Zpos u, l, h) (position_liq w m u l h).
Proof. exact ledger_flow. Qed.
Print Assumptions C120_position_partial.
Theorem C120_worth : forall w0 is m k g u l h, initial w0 -> born_empty w0 is m -> wget (PoolAt m) (wrun w0 is) = Some (CPool k g) -> pk_x k <> m -> pk_y k <> m ->
  0 <= worth_x (cg_tick g) (Zpos u, l, h) (position_liq (wrun w0 is) m u l h) /\ 0 <= worth_y (cg_tick g) (Zpos u, l, h) (position_liq (wrun w0 is) m u l h).
Proof. exact worths_nn. Qed.
Print Assumptions C120_worth.
(** User 10 of [after] tops up with 799 X and 399 Y and withdraws part; between that user 20 works in another pool. *)
Definition visits : list winstr := dep10 :: more ++ [wd10 1000000].
Definition w_v1 : world := Eval vm_compute in wrun after_dep more.
Definition w_v2 : world := Eval vm_compute in wtx w_v1 (wd10 1000000).
Lemma v1_eq : wrun after_dep more = w_v1. Proof. vm_compute. reflexivity. Qed.
Lemma v2_eq : wexec w_v1 (wd10 1000000) = Ok w_v2. Proof. vm_compute. reflexivity. Qed.
Lemma walong_app : forall f is js w, walong f w (is ++ js) = walong f w is + walong f (wrun w is) js.
Proof. induction is as [| i r IH]; intros js w; [reflexivity |]. cbn [app walong]. rewrite IH. change (wrun w (i :: r)) with (wrun (wtx w i) r). lia. Qed.
Lemma visits_sum : forall f, walong f after visits = f after dep10 + walong f after_dep more + f w_v1 (wd10 1000000).
Proof.
  intros f. unfold visits. cbn [walong]. assert (T : wtx after dep10 = after_dep) by (unfold wtx; rewrite dep10_ok; reflexivity). rewrite T, walong_app, v1_eq. cbn [walong]. lia.
Qed.
Lemma skip : forall f w is, Forall (fun i => forall w, f w i = 0) is -> walong f w is = 0.
Proof. intros f w is F. revert w. induction F as [| i r A _ IH]; intros w; [reflexivity |]. cbn [walong]. rewrite A, IH. reflexivity. Qed.
Example C120_case : walong (paid a_ux (Key 3) 10 5 20) after visits = 799 /\ walong (added (Key 3) 10 5 20) after visits = 1 /\ 0 < walong (got a_ux (Key 3) 10 5 20) after visits /\ 0 < walong (got a_uy (Key 3) 10 5 20) after visits.
Proof.
  rewrite !visits_sum. assert (T1 : wtx after dep10 = after_dep) by (unfold wtx; rewrite dep10_ok; reflexivity). assert (T2 : wtx w_v1 (wd10 1000000) = w_v2) by (unfold wtx; rewrite v2_eq; reflexivity).
  rewrite !skip by (repeat constructor; intros w; reflexivity). unfold paid, got, added. rewrite T1, T2, dep10_ok. repeat split; vm_compute; reflexivity.
Qed.
(** User 20 opens a position beside that of user 10, pays nothing for three deposits and leaves with 2 X and 1 Y. *)
Definition D20 : passed := right_accounts (Key 3) K3 20 5 20 10 (Key 21) (Key 22) (Key 23).
Definition dust20 : winstr := WDeposit D20 20 5 20 10 1 1.
Definition take20 : winstr := WWithdraw D20 20 5 20 10 6003.
Definition w_a : world := Eval vm_compute in wrun after [TNewAccount 22 (Key 2) (Key 20); new_pos (Key 3) 20 5 20].
Definition w_b : world := Eval vm_compute in wtx w_a dust20.
Definition w_c : world := Eval vm_compute in wtx w_b dust20.
Definition w_d : world := Eval vm_compute in wtx w_c dust20.
Definition w_e : world := Eval vm_compute in wtx w_d take20.
Lemma ab_eq : wtx w_a dust20 = w_b. Proof. vm_compute. reflexivity. Qed.
Lemma bc_eq : wtx w_b dust20 = w_c. Proof. vm_compute. reflexivity. Qed.
Lemma cd_eq : wtx w_c dust20 = w_d. Proof. vm_compute. reflexivity. Qed.
Lemma de_eq : wtx w_d take20 = w_e. Proof. vm_compute. reflexivity. Qed.
Theorem C120_refuted : exists w0 is is' m k g u l h, initial w0 /\ born_empty w0 is m /\ wget (PoolAt m) (wrun w0 is) = Some (CPool k g) /\ pk_x k <> m /\ pk_y k <> m /\
  let w := wrun w0 is in position_liq w m u l h = 0 /\ walong (paid a_ux m u l h) w is' = 0 /\ walong (paid a_uy m u l h) w is' = 0 /\ walong (got a_ux m u l h) w is' = 2 /\ walong (got a_uy m u l h) w is' = 1.
Proof.
  exists [], (story ++ [TNewAccount 22 (Key 2) (Key 20); new_pos (Key 3) 20 5 20]), [dust20; dust20; dust20; take20], (Key 3), K3, G3, 20%positive, 5, 20.
  assert (E : wrun [] (story ++ [TNewAccount 22 (Key 2) (Key 20); new_pos (Key 3) 20 5 20]) = w_a) by (rewrite wrun_app, after_eq; vm_compute; reflexivity).
  split; [exact initial_nil |]. split; [apply born_check_ok; vm_compute; reflexivity |]. rewrite E. split; [vm_compute; reflexivity |]. split; [discriminate |]. split; [discriminate |]. cbv zeta. cbn [walong]. rewrite !ab_eq, !bc_eq, !cd_eq.
  unfold paid, got. rewrite ab_eq, bc_eq, cd_eq, de_eq. repeat split; vm_compute; reflexivity.
Qed.
Print Assumptions C120_refuted.

(** ** C121: the vaults of a pool on the ledger hold what all its positions are worth *)
(** Full claim (false, see [C121_refuted]): the same without the [topup] terms. *)
Theorem C121_vaults_partial : forall w0 is m k g, initial w0 -> born_empty w0 is m -> wget (PoolAt m) (wrun w0 is) = Some (CPool k g) -> pk_x k <> m -> pk_y k <> m ->
  all_positions (worth_x (cg_tick g)) (wrun w0 is) m <= balance (wrun w0 is) (VaultAt (pk_x k) m) + walong (topup m) w0 is /\
  all_positions (worth_y (cg_tick g)) (wrun w0 is) m <= balance (wrun w0 is) (VaultAt (pk_y k) m) + walong (topup m) w0 is.
Proof. exact ledger_vaults. Qed.
Print Assumptions C121_vaults_partial.
Example C121_case : all_positions (worth_x 10) after (Key 3) = 799 /\ balance after (VaultAt (Key 1) (Key 3)) = 799 /\ walong (topup (Key 3)) [] story = 0 /\ cg_tick G3 = 10.
Proof. split; [vm_compute; reflexivity |]. split; [vm_compute; reflexivity |]. split; [| reflexivity]. vm_compute. reflexivity. Qed.
Lemma story20 : wrun [] (story ++ [TNewAccount 22 (Key 2) (Key 20); new_pos (Key 3) 20 5 20; dust20; dust20; dust20; take20]) = w_e.
Proof. rewrite wrun_app, after_eq. change (wrun after [TNewAccount 22 (Key 2) (Key 20); new_pos (Key 3) 20 5 20; dust20; dust20; dust20; take20]) with (wtx (wtx (wtx (wtx (wrun after [TNewAccount 22 (Key 2) (Key 20); new_pos (Key 3) 20 5 20]) dust20) dust20) dust20) take20). assert (E : wrun after [TNewAccount 22 (Key 2) (Key 20); new_pos (Key 3) 20 5 20] = w_a) by (vm_compute; reflexivity). rewrite E, ab_eq, bc_eq, cd_eq, de_eq. reflexivity. Qed.
(** After the withdrawal of user 20 the vaults hold less than the remaining position, user 10's, is worth. *)
Theorem C121_refuted : exists w0 is m k g, initial w0 /\ born_empty w0 is m /\ wget (PoolAt m) (wrun w0 is) = Some (CPool k g) /\ pk_x k <> m /\ pk_y k <> m /\
  balance (wrun w0 is) (VaultAt (pk_x k) m) < all_positions (worth_x (cg_tick g)) (wrun w0 is) m /\ balance (wrun w0 is) (VaultAt (pk_y k) m) < all_positions (worth_y (cg_tick g)) (wrun w0 is) m.
Proof.
  eexists [], _, (Key 3), K3, _. split; [exact initial_nil |]. rewrite story20. split; [apply born_check_ok; vm_compute; reflexivity |]. split; [vm_compute; reflexivity |]. split; [discriminate |]. split; [discriminate |]. split; vm_compute; reflexivity.
Qed.
Print Assumptions C121_refuted.
