(** On-chain program on the ledger of all accounts: C104-C109. *)
From Coq Require Import ZArith List Bool Lia.
From Verif Require Import Base DecimalModel MathModel BitmapModel ChainModel ChainSpec ChainOrder WorldModel WorldSpec WorldProofs WorldThm WorldEx.
Import ListNotations.
Open Scope Z_scope.

(** ** C104: each pool on the ledger behaves as the single-pool model *)
Theorem C104_one_pool : forall w0 is m k g, initial w0 -> born_empty w0 is m -> wget (PoolAt m) (wrun w0 is) = Some (CPool k g) -> pk_x k <> m -> pk_y k <> m ->
  exists s, reached s /\ agrees (wrun w0 is) m k s /\
    forall is', exists js, view_of m (wrun w0 is) is' js /\ all_succeed s js /\ agrees (wrun (wrun w0 is) is') m k (run_txs s js).
Proof. exact world_pool. Qed.
Print Assumptions C104_one_pool.
(** Two pools: the second one trades the LP tokens of the first. *)
Example C104_case : exists s, reached s /\ agrees after (Key 3) (mkPK (Key 1) (Key 2) (Key 3) (VaultAt (Key 1) (Key 3)) (VaultAt (Key 2) (Key 3))) s /\
  exists js, view_of (Key 3) after more js /\ all_succeed s js /\ agrees later (Key 3) (mkPK (Key 1) (Key 2) (Key 3) (VaultAt (Key 1) (Key 3)) (VaultAt (Key 2) (Key 3))) (run_txs s js).
Proof.
  assert (B : born_empty [] story (Key 3)) by (apply born_check_ok; vm_compute; reflexivity). destruct (wget P3 (wrun [] story)) as [[k g | | | | |] |] eqn:G; try (rewrite after_eq in G; discriminate G). assert (K : k = mkPK (Key 1) (Key 2) (Key 3) (VaultAt (Key 1) (Key 3)) (VaultAt (Key 2) (Key 3))) by (rewrite after_eq in G; vm_compute in G; injection G; auto). subst k.
  destruct (C104_one_pool [] story (Key 3) _ g initial_nil B G) as (s & R & A & F); [discriminate | discriminate |]. rewrite after_eq in A, F. exists s. split; [exact R |]. split; [exact A |]. destruct (F more) as (js & V & S & A2). rewrite later_eq in A2. eauto.
Qed.
Example C104_numbers : wget (Key 13) later = Some (CToken (Key 3) (Key 10) 1499480) /\ wget (VaultAt (Key 3) (Key 4)) later = Some (CToken (Key 3) P4 999) /\ wget (VaultAt (Key 1) (Key 4)) later = Some (CToken (Key 1) P4 1993) /\ wget (VaultAt (Key 1) (Key 3)) later = Some (CToken (Key 1) P3 799).
Proof. vm_compute. auto. Qed.

(** ** C105: pools do not touch each other *)
Theorem C105_keys : forall w p k g, ledger_reached w -> wget p w = Some (CPool k g) ->
  p = PoolAt (pk_lp k) /\ pk_x k <> pk_y k /\ (exists n, wget (VaultAt (pk_x k) (pk_lp k)) w = Some (CToken (pk_x k) p n)) /\ (exists n, wget (VaultAt (pk_y k) (pk_lp k)) w = Some (CToken (pk_y k) p n)) /\ exists s, wget (pk_lp k) w = Some (CMint s (Some p)).
Proof. exact hist_keys. Qed.
Print Assumptions C105_keys.
Theorem C105_accounts : forall w m is a, ledger_reached w -> Forall (fun i => pool_of i <> Some (PoolAt m)) is -> belongs m a -> wget a (wrun w is) = wget a w.
Proof. exact hist_accounts. Qed.
Print Assumptions C105_accounts.
Theorem C105_vaults : forall w m is a mt n, ledger_reached w -> Forall (fun i => forall d u l h c z, i = WWithdraw d u l h c z -> a_pool d <> PoolAt m) is -> wget a w = Some (CToken mt (PoolAt m) n) ->
  exists n', wget a (wrun w is) = Some (CToken mt (PoolAt m) n') /\ n <= n'.
Proof. exact hist_vault_tokens. Qed.
Print Assumptions C105_vaults.
Theorem C105_supply : forall w m is a s, ledger_reached w -> Forall (fun i => forall d u l h c x y, i = WDeposit d u l h c x y -> a_pool d <> PoolAt m) is -> wget a w = Some (CMint s (Some (PoolAt m))) ->
  exists s', wget a (wrun w is) = Some (CMint s' (Some (PoolAt m))) /\ s' <= s.
Proof. exact hist_supply. Qed.
Print Assumptions C105_supply.
Lemma after_reached : ledger_reached after. Proof. exists [], story. split; [exact initial_nil | symmetry; exact after_eq]. Qed.
Example C105_case : wget P3 later = wget P3 after /\ wget P3 after <> None /\ wget P4 later <> wget P4 after.
Proof. split; [| split; vm_compute; discriminate]. rewrite <- later_eq. apply (C105_accounts _ (Key 3)); [exact after_reached | | left; reflexivity]. repeat (constructor; [vm_compute; discriminate |]). constructor. Qed.
Example C105_case_vaults : exists n', wget (VaultAt (Key 1) (Key 3)) later = Some (CToken (Key 1) P3 n') /\ 799 <= n'.
Proof. rewrite <- later_eq. apply (C105_vaults _ (Key 3)); [exact after_reached | | vm_compute; reflexivity]. repeat (constructor; [intros d u l h c z E; discriminate E |]). constructor. Qed.

(** ** C106: nobody loses tokens, control of a mint or a position without signing *)
Theorem C106_tokens : forall w q is a mt n, ledger_reached w -> Forall (fun i => wsigner i <> Some q) is -> wget a w = Some (CToken mt (Key q) n) -> exists n', wget a (wrun w is) = Some (CToken mt (Key q) n') /\ n <= n'.
Proof. exact hist_user_tokens. Qed.
Print Assumptions C106_tokens.
Theorem C106_mints : forall w q is a s, ledger_reached w -> Forall (fun i => wsigner i <> Some q) is -> wget a w = Some (CMint s (Some (Key q))) -> exists s', wget a (wrun w is) = Some (CMint s' (Some (Key q))) /\ s' <= s.
Proof. exact hist_user_mints. Qed.
Print Assumptions C106_mints.
Theorem C106_positions : forall w q is p l h, ledger_reached w -> Forall (fun i => wsigner i <> Some q) is -> wget (PositionAt p (Key q) l h) (wrun w is) = wget (PositionAt p (Key q) l h) w.
Proof. exact hist_user_positions. Qed.
Print Assumptions C106_positions.
(** User 20 does not sign in [story]; user 10 signs only the transfer of its own LP tokens in [more]. *)
Example C106_case : exists n', wget (Key 11) later = Some (CToken (Key 1) (Key 10) n') /\ 4201 <= n'.
Proof.
  assert (E : later = wrun (wrun after (firstn 6 more)) (skipn 6 more)) by (rewrite <- later_eq, <- wrun_app, firstn_skipn; reflexivity). rewrite E. apply C106_tokens; [| | vm_compute; reflexivity].
  - exists [], (story ++ firstn 6 more). split; [exact initial_nil | rewrite wrun_app, after_eq; reflexivity].
  - repeat (constructor; [discriminate |]). constructor.
Qed.
Example C106_case_position : wget (PositionAt P3 (Key 10) 5 20) (wrun after (make_pool (Key 1) (Key 3) (Key 4) 30 25 40)) = wget (PositionAt P3 (Key 10) 5 20) after /\ wget (PositionAt P3 (Key 10) 5 20) after <> None.
Proof. split; [apply C106_positions; [exact after_reached | repeat (constructor; [discriminate |]); constructor] | vm_compute; discriminate]. Qed.

(** ** C107: LP tokens in existence are backed by the liquidity of the positions.  Refuted in general: nothing requires the LP mint to be empty when its pool is created. *)
Theorem C107_backed_partial : forall w0 is m k g s a, initial w0 -> born_empty w0 is m -> wget (PoolAt m) (wrun w0 is) = Some (CPool k g) -> pk_x k <> m -> pk_y k <> m -> wget m (wrun w0 is) = Some (CMint s a) ->
  10 ^ 12 * s <= liquidity (wrun w0 is) m.
Proof. exact world_backed. Qed.
Print Assumptions C107_backed_partial.
Example C107_case : wget (Key 3) later = Some (CMint 1599480 (Some P3)) /\ liquidity later (Key 3) = 1599480143361725145. Proof. vm_compute. auto. Qed.
Theorem C107_backed_refuted : exists w0 is m k g s a, initial w0 /\ wget (PoolAt m) (wrun w0 is) = Some (CPool k g) /\ pk_x k <> m /\ pk_y k <> m /\ wget m (wrun w0 is) = Some (CMint s a) /\ 0 < s /\ liquidity (wrun w0 is) m = 0.
Proof. exact premint_case. Qed.
Print Assumptions C107_backed_refuted.

(** ** C108: anybody can create the pool of an LP mint, with any tokens and any price; nobody can do so again, and the price never moves *)
Theorem C108_open : forall w m s xm ym sx ax sy ay t, ledger_reached w -> wget m w = Some (CMint s (Some (PoolAt m))) -> wget (PoolAt m) w = None -> wget xm w = Some (CMint sx ax) -> wget ym w = Some (CMint sy ay) -> xm <> ym -> 0 <= t < 2 ^ 19 ->
  exists w' g, wexec w (WInitPool (PoolAt m) xm ym m (VaultAt xm m) (VaultAt ym m) (LpVaultAt (PoolAt m) m) t) = Ok w' /\ wget (PoolAt m) w' = Some (CPool (mkPK xm ym m (VaultAt xm m) (VaultAt ym m)) g) /\ cg_tick g = t.
Proof. exact created_by_anybody. Qed.
Print Assumptions C108_open.
Theorem C108_once : forall w m k g p xm ym xv yv lpv t w', wget (PoolAt m) w = Some (CPool k g) -> wexec w (WInitPool p xm ym m xv yv lpv t) <> Ok w'.
Proof. exact created_once. Qed.
Print Assumptions C108_once.
Theorem C108_forever : forall w m k g is, ledger_reached w -> wget (PoolAt m) w = Some (CPool k g) -> exists g', wget (PoolAt m) (wrun w is) = Some (CPool k g') /\ cg_tick g' = cg_tick g /\ cg_rp g' = cg_rp g.
Proof. exact hist_forever. Qed.
Print Assumptions C108_forever.
(** After the tokens are made, LP mint 3 is for whoever comes first: a pool of mints 2 and 4 at tick 77, in place of the intended one of mints 1 and 2 at tick 10, which is then refused. *)
Example C108_case : exists w' g, wexec (wrun [] tokens_made) (WInitPool P3 (Key 2) (Key 4) (Key 3) (VaultAt (Key 2) (Key 3)) (VaultAt (Key 4) (Key 3)) (LpVaultAt P3 (Key 3)) 77) = Ok w' /\ wget P3 w' = Some (CPool (mkPK (Key 2) (Key 4) (Key 3) (VaultAt (Key 2) (Key 3)) (VaultAt (Key 4) (Key 3))) g) /\ cg_tick g = 77 /\
  forall w'', wexec w' (WInitPool P3 (Key 1) (Key 2) (Key 3) (VaultAt (Key 1) (Key 3)) (VaultAt (Key 2) (Key 3)) (LpVaultAt P3 (Key 3)) 10) <> Ok w''.
Proof.
  edestruct (C108_open (wrun [] tokens_made) (Key 3) 0 (Key 2) (Key 4) 5000 (Some (Key 9)) 0 (Some P4) 77) as (w' & g & A & B & C); [exists [], tokens_made; split; [exact initial_nil | reflexivity] | vm_compute; reflexivity | vm_compute; reflexivity | vm_compute; reflexivity | vm_compute; reflexivity | discriminate | lia |].
  exists w', g. split; [exact A |]. split; [exact B |]. split; [exact C |]. intros w''. exact (C108_once _ _ _ _ _ _ _ _ _ _ _ _ B).
Qed.

(** ** C109: a deposit is paid with tokens the depositor has.  Refuted when the LP token of the pool is one of its two tokens: the new LP tokens pay for the deposit. *)
Theorem C109_paid_partial : forall w d u l h c xa ya w' k g, ledger_reached w -> wexec w (WDeposit d u l h c xa ya) = Ok w' -> wget (a_pool d) w = Some (CPool k g) -> pk_x k <> pk_lp k -> pk_y k <> pk_lp k ->
  exists nx ny vx vy ax ay, 0 <= ax <= nx /\ 0 <= ay <= ny /\
    wget (a_ux d) w = Some (CToken (pk_x k) (Key u) nx) /\ wget (a_ux d) w' = Some (CToken (pk_x k) (Key u) (nx - ax)) /\
    wget (a_uy d) w = Some (CToken (pk_y k) (Key u) ny) /\ wget (a_uy d) w' = Some (CToken (pk_y k) (Key u) (ny - ay)) /\
    wget (pk_xv k) w = Some (CToken (pk_x k) (a_pool d) vx) /\ wget (pk_xv k) w' = Some (CToken (pk_x k) (a_pool d) (vx + ax)) /\
    wget (pk_yv k) w = Some (CToken (pk_y k) (a_pool d) vy) /\ wget (pk_yv k) w' = Some (CToken (pk_y k) (a_pool d) (vy + ay)).
Proof. exact hist_paid. Qed.
Print Assumptions C109_paid_partial.
Example C109_case : exists k g, wget P4 (wrun after (firstn 7 more)) = Some (CPool k g) /\ pk_x k <> pk_lp k /\ pk_y k <> pk_lp k /\ wexec (wrun after (firstn 7 more)) (nth 7 more (WInitBitmap P3 P3)) = Ok later /\
  wget (Key 21) after = Some (CToken (Key 1) (Key 20) 7000) /\ wget (Key 21) later = Some (CToken (Key 1) (Key 20) 5007).
Proof. eexists. eexists. split; [vm_compute; reflexivity |]. split; [discriminate |]. split; [discriminate |]. split; [vm_compute; reflexivity |]. split; vm_compute; reflexivity. Qed.
Theorem C109_paid_refuted : exists w0 is d l h c xa ya w' k g s, initial w0 /\ (forall m, tokens (wrun w0 is) m (fun _ _ => true) = 0) /\ wexec (wrun w0 is) (WDeposit d 10 l h c xa ya) = Ok w' /\ wget (a_pool d) w' = Some (CPool k g) /\
  wget (pk_xv k) w' = Some (CToken (pk_x k) (a_pool d) 9) /\ wget (a_lp d) w' = Some (CToken (pk_lp k) (Key 10) s) /\ 0 < s /\ 0 < liquidity w' (pk_lp k).
Proof. exact own_lp_case. Qed.
Print Assumptions C109_paid_refuted.
