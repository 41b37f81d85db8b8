(** Concrete pools used to show that the theorems' hypotheses can be met and as witnesses of refutations.
    Prices are close to 1 so that the kernel can recompute every run. *)
From Coq Require Import ZArith QArith List Bool Lia String.
From Verif Require Import Base DecimalModel DecimalSpec MathModel PoolModel PoolWf LpProofs PoolInv Concrete.
Import ListNotations.
Open Scope string_scope. Open Scope Z_scope.

(** A root price just above that of tick [t] (so that both tick computations agree on [t]). *)
Definition near (t : Z) : decimal := match tick_to_rp t with Ok p => D12 (dval p + 5000) | _ => D12 0 end.
(** Spacing 1, C = 1.5, fee 0.3 %, current tick 10. *)
Definition P0 : res pool := pool_new (near 10) 1 (D12 1500000000000) (D12 3000000000).
Definition calls0 : list call := [CDeposit "ann" (units 1000) (units 1000) (near 4) (near 16); CDeposit "bob" (units 500) (units 500) (near 8) (near 12)].
Definition swap1 : call := CSwapX (units 1500) (near 7).     (* crosses tick 8 downwards *)
Definition swap2 : call := CSwapY (units 1500) (near 11).    (* crosses it upwards again *)
Definition get (r : res pool) : pool := match r with Ok p => p | _ => mkPool 0 (mkG zero12 zero12 0 zero12 zero12 zero12 zero12) [] [] zero12 zero12 zero12 zero12 zero12 zero12 zero12 zero12 end.
Definition start (r : res pool) (cs : list call) : res pool := let* p := r in run_calls no_orc p cs.
Definition ex0 : pool := Eval vm_compute in get (start P0 calls0).
Definition ex1 : pool := Eval vm_compute in get (start P0 (calls0 ++ [swap1])).
Definition ex2 : pool := Eval vm_compute in get (start P0 (calls0 ++ [swap1; swap2])).

Definition wfb (d : decimal) : bool := (0 <=? dval d) && (dval d <? 2 ^ 128) && (0 <=? dscale d) && (dscale d <=? 255).
Lemma wfb_wf : forall d, wfb d = true -> wf d.
Proof. intros d H. unfold wfb in H. rewrite !andb_true_iff, !Z.leb_le, Z.ltb_lt in H. split; lia. Qed.
Definition call_wfb (c : call) : bool :=
  match c with
  | CDeposit _ x y a b => wfb x && wfb y && wfb a && wfb b
  | CWithdraw _ l a b => wfb l && wfb a && wfb b
  | CSwapX d o | CSwapY d o => wfb d && wfb o
  end.
Lemma calls_wf : forall cs, forallb call_wfb cs = true -> Forall call_wf cs.
Proof.
  intros cs H. rewrite forallb_forall in H. apply Forall_forall. intros c Hc. apply H in Hc.
  destruct c; cbn [call_wfb call_wf] in *; rewrite !andb_true_iff in Hc; repeat match goal with H : _ /\ _ |- _ => destruct H end; auto using wfb_wf.
Qed.
(** A computed run of a new pool is a reachable state. *)
Lemma start_reachable : forall rp sp c rate cs p, start (pool_new rp sp c rate) cs = Ok p -> wfb rp && wfb c && wfb rate && (0 <=? sp) && forallb call_wfb cs = true -> reachable no_orc p.
Proof.
  intros rp sp c rate cs p H F. rewrite !andb_true_iff, Z.leb_le in F. destruct F as ((((F1 & F2) & F3) & F4) & F5).
  unfold start in H. destruct (pool_new rp sp c rate) as [q | e | |] eqn:E; try discriminate. cbn [bind] in H.
  eapply reachable_run; [eapply r_new; [apply wfb_wf; exact F1 | apply wfb_wf; exact F2 | apply wfb_wf; exact F3 | exact F4 | exact E] | apply calls_wf; exact F5 | exact H].
Qed.
Lemma ex0_reachable : reachable no_orc ex0.
Proof. apply (start_reachable (near 10) 1 (D12 1500000000000) (D12 3000000000) calls0); vm_compute; reflexivity. Qed.
Lemma ex1_reachable : reachable no_orc ex1.
Proof. apply (start_reachable (near 10) 1 (D12 1500000000000) (D12 3000000000) (calls0 ++ [swap1])); vm_compute; reflexivity. Qed.
Lemma ex2_reachable : reachable no_orc ex2.
Proof. apply (start_reachable (near 10) 1 (D12 1500000000000) (D12 3000000000) (calls0 ++ [swap1; swap2])); vm_compute; reflexivity. Qed.
