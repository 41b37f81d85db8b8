(** C111-C113: what users can do on the whole ledger. *)
From Coq Require Import ZArith List Bool Lia.
From Verif Require Import Base DecimalModel MathModel BitmapModel ChainModel ChainSpec ChainOrder WorldModel WorldSpec WorldProofs WorldThm WorldLive WorldEx.
Import ListNotations.
Open Scope Z_scope.

Definition K3 : pkeys := mkPK (Key 1) (Key 2) (Key 3) (VaultAt (Key 1) (Key 3)) (VaultAt (Key 2) (Key 3)).
Definition G3 : cpool := Eval vm_compute in match wget P3 after with Some (CPool _ g) => g | _ => mkCPool 0 0 0 0 (mkFee 0 0 0 0 0) end.
Lemma born3 : born_empty [] story (Key 3). Proof. apply born_check_ok. vm_compute. reflexivity. Qed.
Lemma pool3 : wget (PoolAt (Key 3)) (wrun [] story) = Some (CPool K3 G3). Proof. rewrite after_eq. vm_compute. reflexivity. Qed.
Definition dep10 : winstr := WDeposit (right_accounts (Key 3) K3 10 5 20 10 (Key 11) (Key 12) (Key 13)) 10 5 20 10 1000 400.
Definition wd10 (n : Z) : winstr := WWithdraw (right_accounts (Key 3) K3 10 5 20 10 (Key 11) (Key 12) (Key 13)) 10 5 20 10 n.
Definition after_dep : world := Eval vm_compute in wtx after dep10.
Lemma dep10_ok : wexec after dep10 = Ok after_dep. Proof. vm_compute. reflexivity. Qed.

(** ** C111: by passing the right accounts everybody can do on the ledger what the single-pool program allows, now and later *)
Theorem C111_can_do : forall w0 is m k g, initial w0 -> born_empty w0 is m -> wget (PoolAt m) (wrun w0 is) = Some (CPool k g) -> pk_x k <> m -> pk_y k <> m ->
  exists s, reached s /\ agrees (wrun w0 is) m k s /\ can_do (wrun w0 is) m k s /\
    forall is', exists js, view_of m (wrun w0 is) is' js /\ all_succeed s js /\ agrees (wrun (wrun w0 is) is') m k (run_txs s js) /\ can_do (wrun (wrun w0 is) is') m k (run_txs s js).
Proof. exact world_can. Qed.
Print Assumptions C111_can_do.
(** The single-pool program allows a tick 77 in this state, so it can be made on the ledger. *)
Example C111_case : exists s s' w', agrees after (Key 3) K3 s /\ exec s (IInitTick 77) = Ok s' /\ wexec after (WInitTick P3 (TickAt P3 77) 77) = Ok w' /\ agrees w' (Key 3) K3 s'.
Proof.
  destruct (C111_can_do [] story (Key 3) K3 G3 initial_nil born3 pool3) as (s & R & A & (_ & C & _) & _); [discriminate | discriminate |]. rewrite after_eq in A, C.
  assert (E : exists s', exec s (IInitTick 77) = Ok s'). { destruct (ag_pool _ _ _ _ A) as (g & _ & E1). pose proof (ag_tick _ _ _ _ A 77) as E2. vm_compute in E2. unfold exec. cbn [args_ok]. change (negb (is_u64 77)) with false. cbv iota. unfold i_init_tick. rewrite E1. change (ct_get 77 (c_ticks s) = None) in E2. rewrite E2. eauto. }
  destruct E as [s' E]. destruct (C 77 s' E) as (w' & E2 & A2). exists s, s', w'. auto.
Qed.

(** ** C112: nobody else, with whatever pools and accounts, can block a deposit or change its terms *)
Theorem C112_not_blocked : forall w0 is m k g u l h c xa ya ux uy lp nl w' is' sup au, initial w0 -> born_empty w0 is m -> wget (PoolAt m) (wrun w0 is) = Some (CPool k g) -> pk_x k <> m -> pk_y k <> m ->
  let w := wrun w0 is in let t := wrun w is' in let dep := WDeposit (right_accounts m k u l h c ux uy lp) u l h c xa ya in
  wexec w dep = Ok w' -> wget lp w = Some (CToken m (Key u) nl) -> Forall (fun i => wsigner i <> Some u) is' ->
  let d := position_liq w' m u l h - position_liq w m u l h in
  wget m t = Some (CMint sup au) -> liquidity t m + d < 2 ^ 128 -> sup + d / 10 ^ 12 < 2 ^ 64 ->
  exists t', wexec t dep = Ok t' /\ position_liq t' m u l h = position_liq t m u l h + d /\
    balance t ux - balance t' ux = balance w ux - balance w' ux /\ balance t uy - balance t' uy = balance w uy - balance w' uy /\ balance t' lp - balance t lp = balance w' lp - balance w lp.
Proof. exact ledger_not_blocked. Qed.
Print Assumptions C112_not_blocked.
(** Before user 10 deposits for the second time, user 20 makes a pool of its own, pays into pool 3 and gives user 10 tokens, and the mint authority mints. *)
Definition meanwhile : list winstr := make_pool (Key 1) (Key 3) (Key 4) 30 25 40 ++ [new_pos (Key 3) 20 5 20; TNewAccount 22 (Key 2) (Key 20); TMint (Key 2) (Key 22) 9 900;
  WDeposit (accts (Key 1) (Key 2) (Key 3) 20 5 20 10 21 22 23) 20 5 20 10 1000 400; TTransfer (Key 21) (Key 11) 20 500; TMint (Key 2) (Key 12) 9 100].
Definition then_ : world := Eval vm_compute in wrun after meanwhile.
Lemma then_eq : wrun after meanwhile = then_. Proof. vm_compute. reflexivity. Qed.
Example C112_case : exists t', wexec then_ dep10 = Ok t' /\ balance then_ (Key 11) - balance t' (Key 11) = 799 /\ balance then_ (Key 12) - balance t' (Key 12) = 399 /\ balance then_ (Key 11) <> balance after (Key 11) /\ wget P3 then_ <> wget P3 after.
Proof.
  assert (M : exists s a, wget (Key 3) then_ = Some (CMint s a) /\ liquidity then_ (Key 3) + (position_liq after_dep (Key 3) 10 5 20 - position_liq after (Key 3) 10 5 20) < 2 ^ 128 /\ s + (position_liq after_dep (Key 3) 10 5 20 - position_liq after (Key 3) 10 5 20) / 10 ^ 12 < 2 ^ 64).
  { eexists. eexists. split; [vm_compute; reflexivity |]. split; vm_compute; reflexivity. }
  destruct M as (s & a & M1 & M2 & M3).
  destruct (C112_not_blocked [] story (Key 3) K3 G3 10 5 20 10 1000 400 (Key 11) (Key 12) (Key 13) (balance after (Key 13)) after_dep meanwhile s a initial_nil born3 pool3) as (t' & E & _ & D1 & D2 & _).
  - discriminate. - discriminate. - rewrite after_eq. exact dep10_ok. - rewrite after_eq. vm_compute. reflexivity. - repeat (constructor; [vm_compute; discriminate |]). constructor. - rewrite after_eq, then_eq. exact M1. - rewrite after_eq, then_eq. exact M2. - rewrite after_eq. exact M3.
  - rewrite after_eq, then_eq in *. exists t'. split; [exact E |]. rewrite D1, D2. split; [vm_compute; reflexivity |]. split; [vm_compute; reflexivity |]. split; vm_compute; discriminate.
Qed.

(** ** C113: a deposit on the ledger can be withdrawn at once, unless the pool is at a bound of the position; then never *)
Theorem C113_at_once_partial : forall w0 is m k g u l h c xa ya ux uy lp nl w' n, initial w0 -> born_empty w0 is m -> wget (PoolAt m) (wrun w0 is) = Some (CPool k g) -> pk_x k <> m -> pk_y k <> m ->
  let w := wrun w0 is in wexec w (WDeposit (right_accounts m k u l h c ux uy lp) u l h c xa ya) = Ok w' -> wget lp w = Some (CToken m (Key u) nl) -> l <> c -> h <> c -> 0 < n <= balance w' lp - nl ->
  exists w'', wexec w' (WWithdraw (right_accounts m k u l h c ux uy lp) u l h c n) = Ok w''.
Proof. exact ledger_after_deposit. Qed.
Print Assumptions C113_at_once_partial.
Theorem C113_never_at_a_bound : forall w0 is m k g is' d u l h c n w'', initial w0 -> born_empty w0 is m -> wget (PoolAt m) (wrun w0 is) = Some (CPool k g) -> pk_x k <> m -> pk_y k <> m ->
  a_pool d = PoolAt m -> l = cg_tick g \/ h = cg_tick g -> 0 < n -> wexec (wrun (wrun w0 is) is') (WWithdraw d u l h c n) <> Ok w''.
Proof. exact ledger_locked. Qed.
Print Assumptions C113_never_at_a_bound.
Example C113_case : exists w'', wexec after_dep (wd10 1599480) = Ok w'' /\ 1599480 = balance after_dep (Key 13) - balance after (Key 13).
Proof.
  destruct (C113_at_once_partial [] story (Key 3) K3 G3 10 5 20 10 1000 400 (Key 11) (Key 12) (Key 13) (balance after (Key 13)) after_dep 1599480 initial_nil born3 pool3) as [w'' E].
  - discriminate. - discriminate. - rewrite after_eq. exact dep10_ok. - rewrite after_eq. vm_compute. reflexivity. - discriminate. - discriminate. - split; [lia |]. vm_compute. discriminate.
  - exists w''. split; [exact E |]. vm_compute. reflexivity.
Qed.
(** User 10 pays 999 Y for a position up to the pool's tick and can never take anything out, whoever does whatever. *)
Definition dep_edge : list winstr := [new_pos (Key 3) 10 5 10; WDeposit (right_accounts (Key 3) K3 10 5 10 10 (Key 11) (Key 12) (Key 13)) 10 5 10 10 1000 1000].
Definition edge : world := Eval vm_compute in wrun after dep_edge.
Lemma edge_eq : wrun after dep_edge = edge. Proof. vm_compute. reflexivity. Qed.
Theorem C113_refuted : exists w0 is m k g u l h, initial w0 /\ born_empty w0 is m /\ wget (PoolAt m) (wrun w0 is) = Some (CPool k g) /\ pk_x k <> m /\ pk_y k <> m /\
  exists more, let w := wrun w0 is in let w' := wrun w more in balance w' (Key 12) = balance w (Key 12) - 999 /\ 0 < position_liq w' m u l h /\ position_liq w m u l h = 0 /\
  forall is' d c n w'', a_pool d = PoolAt m -> 0 < n -> wexec (wrun w' is') (WWithdraw d u l h c n) <> Ok w''.
Proof.
  exists [], story, (Key 3), K3, G3, 10%positive, 5, 10. split; [exact initial_nil |]. split; [exact born3 |]. split; [exact pool3 |]. split; [discriminate |]. split; [discriminate |]. exists dep_edge. cbv zeta.
  split; [rewrite after_eq, edge_eq; vm_compute; reflexivity |]. split; [rewrite after_eq, edge_eq; vm_compute; reflexivity |]. split; [rewrite after_eq; vm_compute; reflexivity |].
  intros is' d c n w'' PD Hn. rewrite <- wrun_app. apply (C113_never_at_a_bound [] story (Key 3) K3 G3); auto using initial_nil, born3, pool3; discriminate.
Qed.
Print Assumptions C113_refuted.
