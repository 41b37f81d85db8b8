(** C114-C116: the exact effect of deposits and withdrawals on the ledger; transactions of several instructions. *)
From Coq Require Import ZArith List Bool Lia.
From Verif Require Import Base DecimalModel MathModel BitmapModel ChainModel ChainSpec WorldModel WorldSpec WorldProofs WorldThm WorldFx WorldEx PropWorldLive.
Import ListNotations.
Open Scope Z_scope.

(** ** C114: a deposit is accepted with the right accounts only, takes what the granted liquidity is worth and no more than offered, and changes nothing else *)
Theorem C114_deposit : forall w0 is m k g d u l h c xa ya w', initial w0 -> born_empty w0 is m -> wget (PoolAt m) (wrun w0 is) = Some (CPool k g) -> pk_x k <> m -> pk_y k <> m ->
  let w := wrun w0 is in a_pool d = PoolAt m -> wexec w (WDeposit d u l h c xa ya) = Ok w' ->
  d = right_accounts m k u l h c (a_ux d) (a_uy d) (a_lp d) /\ c = cg_tick g /\
  exists o dl, 0 <= dl /\ 0 <= worth_x c (Zpos u, l, h) dl <= xa /\ 0 <= worth_y c (Zpos u, l, h) dl <= ya /\
    exchanged w w' m k g u l h c (a_ux d) (a_uy d) (a_lp d) o (worth_x c (Zpos u, l, h) dl) (worth_y c (Zpos u, l, h) dl) dl (dl / 10 ^ 12).
Proof. exact ledger_deposit. Qed.
Print Assumptions C114_deposit.
(** 1000 X and 400 Y are offered, 799 X and 399 Y are taken. *)
Example C114_case : exists dl, exchanged after after_dep (Key 3) K3 G3 10 5 20 10 (Key 11) (Key 12) (Key 13) (Key 10) 799 399 dl (dl / 10 ^ 12) /\ 0 < dl.
Proof.
  destruct (C114_deposit [] story (Key 3) K3 G3 (right_accounts (Key 3) K3 10 5 20 10 (Key 11) (Key 12) (Key 13)) 10 5 20 10 1000 400 after_dep initial_nil born3 pool3) as (_ & _ & o & dl & D0 & _ & _ & X); [discriminate | discriminate | reflexivity | rewrite after_eq; exact dep10_ok |].
  rewrite after_eq in X. cbn [right_accounts a_ux a_uy a_lp] in X. exists dl. pose proof X as (nx & ny & vx & vy & nl & s & g' & U1 & U2 & U3 & U4 & _ & _ & _ & _ & L1 & _ & _ & _ & P & _).
  assert (B : balance after_dep (Key 11) = balance after (Key 11) - worth_x 10 (10, 5, 20) dl /\ balance after_dep (Key 12) = balance after (Key 12) - worth_y 10 (10, 5, 20) dl) by (unfold balance; rewrite U1, U2, U3, U4; auto).
  assert (V : balance after_dep (Key 11) = balance after (Key 11) - 799 /\ balance after_dep (Key 12) = balance after (Key 12) - 399) by (split; vm_compute; reflexivity).
  assert (O : exists n, wget (Key 13) after = Some (CToken (Key 3) (Key 10) n)) by (eexists; vm_compute; reflexivity). destruct O as [n O]. rewrite L1 in O. injection O as -> _.
  replace 799 with (worth_x 10 (10, 5, 20) dl) by lia. replace 399 with (worth_y 10 (10, 5, 20) dl) by lia. split; [exact X |].
  assert (Q : position_liq after (Key 3) 10 5 20 < position_liq after_dep (Key 3) 10 5 20) by (vm_compute; reflexivity). lia.
Qed.

(** ** C115: a withdrawal burns the LP tokens named, from an account of the signer, pays what that liquidity is worth and changes nothing else *)
Theorem C115_withdrawal : forall w0 is m k g d u l h c n w', initial w0 -> born_empty w0 is m -> wget (PoolAt m) (wrun w0 is) = Some (CPool k g) -> pk_x k <> m -> pk_y k <> m ->
  let w := wrun w0 is in a_pool d = PoolAt m -> wexec w (WWithdraw d u l h c n) = Ok w' ->
  d = right_accounts m k u l h c (a_ux d) (a_uy d) (a_lp d) /\ c = cg_tick g /\ 0 <= n /\ n * 10 ^ 12 <= position_liq w m u l h /\ n <= balance w (a_lp d) /\
  0 <= worth_x c (Zpos u, l, h) (n * 10 ^ 12) /\ 0 <= worth_y c (Zpos u, l, h) (n * 10 ^ 12) /\
  exchanged w w' m k g u l h c (a_ux d) (a_uy d) (a_lp d) (Key u) (- worth_x c (Zpos u, l, h) (n * 10 ^ 12)) (- worth_y c (Zpos u, l, h) (n * 10 ^ 12)) (- (n * 10 ^ 12)) (- n).
Proof. exact ledger_withdraw. Qed.
Print Assumptions C115_withdrawal.
Definition after_wd : world := Eval vm_compute in wtx after_dep (wd10 1000000).
Lemma wd10_ok : wexec after_dep (wd10 1000000) = Ok after_wd. Proof. vm_compute. reflexivity. Qed.
Lemma story_dep : wrun [] (story ++ [dep10]) = after_dep. Proof. rewrite wrun_app, after_eq. change (wrun after [dep10]) with (wtx after dep10). unfold wtx. rewrite dep10_ok. reflexivity. Qed.
Definition G3' : cpool := Eval vm_compute in match wget P3 after_dep with Some (CPool _ g) => g | _ => mkCPool 0 0 0 0 (mkFee 0 0 0 0 0) end.
Example C115_case : exists dx dy, exchanged after_dep after_wd (Key 3) K3 G3' 10 5 20 10 (Key 11) (Key 12) (Key 13) (Key 10) (- dx) (- dy) (- 10 ^ 18) (- 1000000) /\ dx = balance after_wd (Key 11) - balance after_dep (Key 11) /\ 0 < dx /\ 0 < dy.
Proof.
  destruct (C115_withdrawal [] (story ++ [dep10]) (Key 3) K3 G3' (right_accounts (Key 3) K3 10 5 20 10 (Key 11) (Key 12) (Key 13)) 10 5 20 10 1000000 after_wd initial_nil) as (_ & _ & _ & _ & _ & _ & _ & X).
  - apply born_check_ok. vm_compute. reflexivity. - rewrite story_dep. vm_compute. reflexivity. - discriminate. - discriminate. - reflexivity. - rewrite story_dep. exact wd10_ok.
  - rewrite story_dep in X. cbn [right_accounts a_ux a_uy a_lp] in X. eexists. eexists. split; [exact X |]. destruct X as (nx & ny & vx & vy & nl & s & g' & U1 & U2 & U3 & U4 & _).
    assert (B : balance after_wd (Key 11) = balance after_dep (Key 11) + worth_x 10 (10, 5, 20) (1000000 * 10 ^ 12) /\ balance after_wd (Key 12) = balance after_dep (Key 12) + worth_y 10 (10, 5, 20) (1000000 * 10 ^ 12)) by (unfold balance; rewrite U1, U2, U3, U4; lia).
    assert (V : balance after_dep (Key 11) < balance after_wd (Key 11) /\ balance after_dep (Key 12) < balance after_wd (Key 12)) by (split; vm_compute; reflexivity). lia.
Qed.

(** ** C116: putting several instructions into one transaction gives nobody more power: it has the effect of all of them one by one, or none *)
Theorem C116_whole : forall w t, (exists w', wexec_all w t = Ok w' /\ wtxn w t = w' /\ w' = wrun w t /\ all_done w t) \/ wtxn w t = w /\ ~ all_done w t.
Proof. exact bundle_whole. Qed.
Print Assumptions C116_whole.
Theorem C116_bundles : forall ts w, exists is, whole_parts ts is /\ wrun_txns w ts = wrun w is /\ all_done w is.
Proof. exact bundles. Qed.
Print Assumptions C116_bundles.
(** So what is proved of histories holds of histories of transactions, for example C106: *)
Theorem C116_tokens : forall w0 ts0 ts q a m n, initial w0 -> Forall (Forall (fun i => wsigner i <> Some q)) ts -> wget a (wrun_txns w0 ts0) = Some (CToken m (Key q) n) ->
  exists n', wget a (wrun_txns (wrun_txns w0 ts0) ts) = Some (CToken m (Key q) n') /\ n <= n'.
Proof. exact txns_tokens. Qed.
Print Assumptions C116_tokens.
(** A deposit and the withdrawal of part of it in one transaction; with a withdrawal that is too large the deposit is undone too. *)
Example C116_case : wtxn after [dep10; wd10 1000000] = after_wd /\ wtxn after [dep10; wd10 1000000000] = after /\ wrun after [dep10; wd10 1000000000] <> after.
Proof.
  split; [| split].
  - unfold wtxn. cbn [wexec_all]. rewrite dep10_ok. cbn [bind]. rewrite wd10_ok. reflexivity.
  - destruct (C116_whole after [dep10; wd10 1000000000]) as [(w' & E & _) | [E _]]; [| exact E]. exfalso. cbn [wexec_all] in E. rewrite dep10_ok in E. cbn [bind] in E.
    assert (Z : wexec after_dep (wd10 1000000000) = Panic) by (vm_compute; reflexivity). rewrite Z in E. discriminate E.
  - intros E. apply (f_equal (fun w => balance w (Key 11))) in E. vm_compute in E. discriminate E.
Qed.
