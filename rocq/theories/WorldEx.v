(** Concrete histories of the whole ledger. *)
From Coq Require Import ZArith List Bool Lia.
From Verif Require Import Base DecimalModel MathModel BitmapModel ChainModel ChainSpec WorldModel WorldSpec WorldProofs WorldThm.
Import ListNotations.
Open Scope Z_scope.

Fixpoint born_check (w : world) (is : list winstr) (m : addr) : bool :=
  match is with
  | [] => true
  | i :: r => match wget (PoolAt m) w, wget (PoolAt m) (wtx w i) with None, Some _ => match wget m w with Some (CMint 0 _) => true | _ => false end | _, _ => true end && born_check (wtx w i) r m
  end.
Lemma born_check_ok : forall is w m, born_check w is m = true -> born_empty w is m.
Proof.
  induction is as [| i r IH]; intros w m H js j t E N S; [destruct js; discriminate E |]. cbn [born_check] in H. apply andb_true_iff in H. destruct H as [H1 H2]. destruct js as [| j0 js]; cbn [app] in E; injection E as <- E.
  - change (wrun w []) with w in *. change (wrun w ([] ++ [i])) with (wtx w i) in S. rewrite N in H1. destruct (wget (PoolAt m) (wtx w i)); [| contradiction]. destruct (wget m w) as [[| | | | | s a] |]; try discriminate H1. destruct s; try discriminate H1. eauto.
  - apply (IH (wtx w i) m H2 js j t E); assumption.
Qed.
Lemma initial_nil : initial []. Proof. split; [constructor | intros a c G; discriminate G]. Qed.

Definition P3 : addr := PoolAt (Key 3).
Definition P4 : addr := PoolAt (Key 4).
(** Two mints controlled by key 9, LP mints 3 and 4; user 10 trades in pool 3, and user 20 in pool 4, which trades mint 1 against the LP tokens of pool 3. *)
Definition tokens_made : list winstr := [TNewMint 1 (Some (Key 9)); TNewMint 2 (Some (Key 9)); TNewMint 3 (Some P3); TNewMint 4 (Some P4);
  TNewAccount 11 (Key 1) (Key 10); TNewAccount 12 (Key 2) (Key 10); TNewAccount 13 (Key 3) (Key 10); TNewAccount 21 (Key 1) (Key 20); TNewAccount 23 (Key 3) (Key 20); TNewAccount 24 (Key 4) (Key 20);
  TMint (Key 1) (Key 11) 9 5000; TMint (Key 2) (Key 12) 9 5000; TMint (Key 1) (Key 21) 9 7000].
Definition make_pool (x y lp : addr) (tick l h : Z) : list winstr :=
  [WInitPool (PoolAt lp) x y lp (VaultAt x lp) (VaultAt y lp) (LpVaultAt (PoolAt lp) lp) tick; WInitBitmap (PoolAt lp) (BitmapAt (PoolAt lp));
   WInitTick (PoolAt lp) (TickAt (PoolAt lp) l) l; WInitTick (PoolAt lp) (TickAt (PoolAt lp) tick) tick; WInitTick (PoolAt lp) (TickAt (PoolAt lp) h) h].
Definition accts (x y lp : addr) (u : positive) (l h c : Z) (ux uy ulp : positive) : passed :=
  mkPassed (PoolAt lp) (BitmapAt (PoolAt lp)) (PositionAt (PoolAt lp) (Key u) l h) (TickAt (PoolAt lp) l) (TickAt (PoolAt lp) h) (TickAt (PoolAt lp) c) lp
    (Key ux) (Key uy) (VaultAt x lp) (VaultAt y lp) (LpVaultAt (PoolAt lp) lp) (Key ulp).
Definition new_pos (lp : addr) (u : positive) (l h : Z) : winstr := WCreatePosition (PoolAt lp) (PositionAt (PoolAt lp) (Key u) l h) (TickAt (PoolAt lp) l) (TickAt (PoolAt lp) h) u l h.
Definition story : list winstr := tokens_made ++ make_pool (Key 1) (Key 2) (Key 3) 10 5 20 ++ [new_pos (Key 3) 10 5 20; WDeposit (accts (Key 1) (Key 2) (Key 3) 10 5 20 10 11 12 13) 10 5 20 10 1000 400].
Definition more : list winstr := make_pool (Key 1) (Key 3) (Key 4) 30 25 40 ++ [TTransfer (Key 13) (Key 23) 10 100000; new_pos (Key 4) 20 25 40;
  WDeposit (accts (Key 1) (Key 3) (Key 4) 20 25 40 30 21 23 24) 20 25 40 30 3000 1000].
Definition after : world := Eval vm_compute in wrun [] story.
Definition later : world := Eval vm_compute in wrun after more.
Lemma after_eq : wrun [] story = after. Proof. vm_compute. reflexivity. Qed.
Lemma later_eq : wrun after more = later. Proof. vm_compute. reflexivity. Qed.
(** The LP mint of pool 3 is first controlled by key 10, which mints 500 LP tokens for itself and only then hands the mint to the address of the pool. *)
Definition premint : list winstr := [TNewMint 1 (Some (Key 9)); TNewMint 2 (Some (Key 9)); TNewMint 3 (Some (Key 10)); TNewAccount 13 (Key 3) (Key 10); TMint (Key 3) (Key 13) 10 500; TSetAuthority (Key 3) 10 (Some P3);
  WInitPool P3 (Key 1) (Key 2) (Key 3) (VaultAt (Key 1) (Key 3)) (VaultAt (Key 2) (Key 3)) (LpVaultAt P3 (Key 3)) 10].
(** A pool whose token X is its own LP token; key 10 owns no token at all before its deposit. *)
Definition own_lp : list winstr := [TNewMint 2 (Some (Key 9)); TNewMint 3 (Some P3); TNewAccount 12 (Key 2) (Key 10); TNewAccount 13 (Key 3) (Key 10)] ++ make_pool (Key 3) (Key 2) (Key 3) 5 10 20 ++ [new_pos (Key 3) 10 10 20].
Definition own_dep : winstr := WDeposit (accts (Key 3) (Key 2) (Key 3) 10 10 20 5 13 12 13) 10 10 20 5 10 0.
Definition own_before : world := Eval vm_compute in wrun [] own_lp.
Definition own_after : world := Eval vm_compute in wrun own_before [own_dep].
Lemma own_before_eq : wrun [] own_lp = own_before. Proof. vm_compute. reflexivity. Qed.
Lemma own_after_eq : wrun own_before [own_dep] = own_after. Proof. vm_compute. reflexivity. Qed.
Lemma premint_case : exists w0 is m k g s a, initial w0 /\ wget (PoolAt m) (wrun w0 is) = Some (CPool k g) /\ pk_x k <> m /\ pk_y k <> m /\ wget m (wrun w0 is) = Some (CMint s a) /\ 0 < s /\ liquidity (wrun w0 is) m = 0.
Proof. exists [], premint, (Key 3). eexists. eexists. exists 500, (Some P3). split; [exact initial_nil |]. split; [vm_compute; reflexivity |]. split; [discriminate |]. split; [discriminate |]. split; [vm_compute; reflexivity |]. split; [reflexivity | vm_compute; reflexivity]. Qed.
Lemma own_tokens : forall m, tokens own_before m (fun _ _ => true) = 0.
Proof. intros m. unfold tokens, own_before. cbn [wsum fold_right fst snd]. repeat match goal with |- context [addr_eqb ?a m] => destruct (addr_eqb a m) end; reflexivity. Qed.
Lemma own_lp_case : exists w0 is d l h c xa ya w' k g s, initial w0 /\ (forall m, tokens (wrun w0 is) m (fun _ _ => true) = 0) /\ wexec (wrun w0 is) (WDeposit d 10 l h c xa ya) = Ok w' /\ wget (a_pool d) w' = Some (CPool k g) /\
  wget (pk_xv k) w' = Some (CToken (pk_x k) (a_pool d) 9) /\ wget (a_lp d) w' = Some (CToken (pk_lp k) (Key 10) s) /\ 0 < s /\ 0 < liquidity w' (pk_lp k).
Proof.
  exists [], own_lp, (accts (Key 3) (Key 2) (Key 3) 10 10 20 5 13 12 13), 10, 20, 5, 10, 0, own_after. eexists. eexists. exists 20007. split; [exact initial_nil |]. rewrite own_before_eq. split; [exact own_tokens |]. split; [vm_compute; reflexivity |]. split; [vm_compute; reflexivity |]. split; [vm_compute; reflexivity |]. split; [vm_compute; reflexivity |]. split; vm_compute; reflexivity.
Qed.
