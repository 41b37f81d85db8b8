(** Effect of each instruction in the vocabulary of ChainSpec, flows through the vaults, withdrawability. *)
From Coq Require Import ZArith QArith List Bool Lia.
From Verif Require Import Base BaseLemmas DecimalModel DecimalSpec DecimalProofs WfProofs MathModel MathProofs TickProofs BitmapModel BitmapProofs PoolWf LpProofs ChainModel ChainLemmas ChainProofs ChainSpec ChainInv.
Import ListNotations.
Open Scope Z_scope.

Lemma prices_price : forall c l h p a b, prices c l h p a b -> price c = p /\ price l = a /\ price h = b.
Proof. intros c l h p a b (H1 & H2 & H3 & _). unfold price. rewrite H1, H2, H3. auto. Qed.
Lemma worth_whole : forall c u l h p a b d, prices c l h p a b -> worth_x c (u, l, h) d = whole_x p a b d /\ worth_y c (u, l, h) d = whole_y p a b d.
Proof. intros c u l h p a b d PR. destruct (prices_price _ _ _ _ _ _ PR) as (E1 & E2 & E3). unfold worth_x, worth_y. cbn [lower upper]. rewrite E1, E2, E3. split; reflexivity. Qed.
Lemma worth_zero : forall c k, worth_x c k 0 = 0 /\ worth_y c k 0 = 0.
Proof. intros. unfold worth_x, worth_y. rewrite !Z.mul_0_l. split; apply Zdiv_0_l. Qed.

Definition same_price (s s' : cstate) : Prop :=
  forall g, c_pool s = Some g -> exists g', c_pool s' = Some g' /\ cg_tick g' = cg_tick g /\ cg_rp g' = cg_rp g /\ cg_fee g' = cg_fee g.

Lemma transfer_moves : forall l f t n l', f <> t -> 0 <= n -> spl_transfer l f t n = Ok l' -> moves l l' f t n.
Proof. intros l f t n l' N H E. destruct (transfer_ok _ _ _ _ _ E) as (A & _ & _ & B & C & _). destruct (C N) as (_ & C1 & C2). unfold moves. csplit; auto. Qed.

Lemma moved_pool : forall s u l h c e bm lx ly lp sup s', moved s u l h c e bm lx ly lp sup s' -> shape s ->
  at_tick s c /\ same_price s s' /\ pos_liq s' (u, l, h) = pos_liq s (u, l, h) + e /\ 0 <= pos_liq s' (u, l, h) < U128 /\
  (forall k, k <> (u, l, h) -> cp_get k (c_pos s') = cp_get k (c_pos s)) /\ c_x s' = lx /\ c_y s' = ly /\ c_lp s' = lp /\ c_lp_supply s' = sup /\ c_bitmap s' = Some bm /\
  (forall f, lsum f (c_pos s') = lsum f (c_pos s) + f (u, l, h) (pos_liq s (u, l, h) + e) - f (u, l, h) (pos_liq s (u, l, h))).
Proof.
  intros s u l h c e bm lx ly lp sup s' (g & bm0 & ps & lt & ut & cur & g' & ps' & lt' & ut' & A1 & A2 & A3 & A4 & A5 & A6 & A7 & A8 & (G1 & G2 & G3 & G4) & A9 & A10 & T1 & T2 & ->) (SG & _).
  unfold at_tick, same_price, pos_liq, write_back. cbn [c_pool c_pos c_x c_y c_lp c_lp_supply c_bitmap]. rewrite A3, cp_get_set, cpkey_eqb_refl, A9. cbn [cp_liq].
  csplit; auto; try lia.
  - eauto.
  - intros g0 E. rewrite A1 in E. injection E as <-. exists g'. destruct G3 as (_ & _ & G3). destruct (SG _ A1) as (_ & _ & S3). csplit; auto; congruence.
  - intros k K. rewrite cp_get_set, cpkey_eqb_neq by auto. reflexivity.
  - intros f. rewrite lsum_set, A3. reflexivity.
Qed.

Lemma exec_deposit : forall s u l h c xa ya to s', cinv s -> exec s (IDeposit u l h c xa ya to) = Ok s' ->
  same_price s s' /\ exists d, deposit_effect s u l h c xa ya to s' d /\ exists p a b, prices c l h p a b /\ 0 <= d < U128 /\
    (exists vx vy, x_from_l_rp_rng (d12 d) (d12 p) (d12 a) (d12 b) = Ok vx /\ y_from_l_rp_rng (d12 d) (d12 p) (d12 a) (d12 b) = Ok vy) /\
    (forall f, lsum f (c_pos s') = lsum f (c_pos s) + f (u, l, h) (pos_liq s (u, l, h) + d) - f (u, l, h) (pos_liq s (u, l, h))).
Proof.
  intros s u l h c xa ya to s' I H. unfold exec in H. destruct (args_ok _) eqn:AO; [| discriminate H]. cbn [negb args_ok] in *.
  assert (AO' : 0 <= l /\ 0 <= xa < U64 /\ 0 <= ya < U64) by (unfold is_u64 in AO; b2p; lia). destruct AO' as (B1 & B2 & B3).
  destruct (deposit_eff _ _ _ _ _ _ _ _ _ (i_shape _ I) B1 B2 B3 H) as (p & a & b & d & lx & ly & lp & bm & bm' & lt & ut & PR & BD & _ & VV & X & Y & M & TX & TY & _ & MV).
  destruct (moved_pool _ _ _ _ _ _ _ _ _ _ _ _ MV (i_shape _ I)) as (P1 & P2 & P3 & P4 & P5 & P6 & P7 & P8 & P9 & _ & P10).
  split; auto. exists d. split; [| exists p, a, b; csplit; auto; lia]. destruct (worth_whole c u l h p a b d PR) as [W1 W2].
  apply transfer_moves in TX, TY; try discriminate; try lia. apply mint_ok in M. destruct M as (_ & _ & _ & _ & _ & M1 & M2).
  unfold deposit_effect. rewrite W1, W2, P6, P7, P8, P9. csplit; auto; lia.
Qed.
Lemma exec_withdraw : forall s u l h c n s', cinv s -> exec s (IWithdraw u l h c n) = Ok s' ->
  same_price s s' /\ withdraw_effect s u l h c n s' /\ exists p a b, prices c l h p a b /\
    (forall f, lsum f (c_pos s') = lsum f (c_pos s) + f (u, l, h) (pos_liq s (u, l, h) - n * 10 ^ 12) - f (u, l, h) (pos_liq s (u, l, h))).
Proof.
  intros s u l h c n s' I H. unfold exec in H. destruct (args_ok _) eqn:AO; [| discriminate H]. cbn [negb args_ok] in *.
  assert (AO' : 0 <= l /\ 0 <= n < U64) by (unfold is_u64 in AO; b2p; lia). destruct AO' as (B1 & B2).
  destruct (withdraw_eff _ _ _ _ _ _ _ (i_shape _ I) B1 B2 H) as (p & a & b & lx & ly & lp & bm & bm' & PR & X & Y & M & TX & TY & _ & MV).
  destruct (moved_pool _ _ _ _ _ _ _ _ _ _ _ _ MV (i_shape _ I)) as (P1 & P2 & P3 & P4 & P5 & P6 & P7 & P8 & P9 & _ & P10).
  split; auto. split; [| exists p, a, b; split; auto]. destruct (worth_whole c u l h p a b (n * SC) PR) as [W1 W2].
  apply transfer_moves in TX, TY; try discriminate; try lia. apply burn_ok in M. destruct M as (_ & _ & _ & M0 & _ & M1 & M2).
  unfold withdraw_effect. change (10 ^ 12) with SC. rewrite W1, W2, P6, P7, P8, P9. csplit; auto; lia.
Qed.

(** Instructions other than deposit and withdrawal leave positions' liquidity, the price and the vaults (up to donations) alone. *)
Definition other (i : instr) : Prop := match i with IDeposit _ _ _ _ _ _ _ | IWithdraw _ _ _ _ _ => False | _ => True end.
Lemma exec_other : forall s i s', cinv s -> exec s i = Ok s' -> other i ->
  same_price s s' /\ (forall k, pos_liq s' k = pos_liq s k) /\ (forall k, signer i <> Some (owner k) -> cp_get k (c_pos s') = cp_get k (c_pos s)) /\
  (forall f, (forall k, f k 0 = 0) -> lsum f (c_pos s') = lsum f (c_pos s)) /\
  (forall v, v = HVault \/ (exists u, v = HUser u /\ signer i <> Some u) -> bal v (c_x s) <= bal v (c_x s') /\ bal v (c_y s) <= bal v (c_y s') /\ bal v (c_lp s) <= bal v (c_lp s')) /\
  total (c_x s') = total (c_x s) /\ total (c_y s') = total (c_y s) /\ (c_pool s = None -> c_pool s' = c_pool s \/ c_pos s' = []).
Proof.
  intros s i s' I H O. unfold exec in H. destruct (args_ok i) eqn:AO; [| discriminate H]. cbn [negb] in H. unfold same_price, pos_liq.
  assert (RF : forall g, c_pool s = Some g -> exists g', c_pool s = Some g' /\ cg_tick g' = cg_tick g /\ cg_rp g' = cg_rp g /\ cg_fee g' = cg_fee g) by eauto.
  assert (TR : forall l f to a l', 0 <= a -> spl_transfer l (HUser f) to a = Ok l' -> total l' = total l /\ forall v, v = HVault \/ (exists u, v = HUser u /\ Some f <> Some u) -> bal v l <= bal v l').
  { intros l f to a l' Ha E. destruct (transfer_ok _ _ _ _ _ E) as (_ & T & _ & B & C & D). split; auto. intros v Hv.
    assert (v <> HUser f) by (intros ->; destruct Hv as [Hv | (u0 & Hv & Hu)]; [discriminate | apply Hu; congruence]).
    destruct (holder_eqb v to) eqn:E1. { apply holder_eqb_eq in E1. subst to. destruct (C ltac:(congruence)) as (_ & _ & ->). lia. }
    rewrite B; auto; try lia. intros ->. rewrite holder_eqb_refl in E1. discriminate. }
  assert (LE : forall v l, bal v l <= bal v l) by (intros; lia).
  destruct i as [t | | t | u l h | u l h c xa ya to | u l h c n | f to a | f to a | f to a | f a]; cbn [args_ok signer] in *; try contradiction.
  - unfold i_init_pool in H. destruct (c_pool s) eqn:E; [discriminate H |]. bd H r E1. bd H r' E2. injection H as <-. cbn. csplit; auto. intros g HH; discriminate HH. intros _. right. apply (i_empty _ I). auto.
  - unfold i_init_bitmap in H. destruct (c_pool s) eqn:E; [| discriminate H]. destruct (c_bitmap s); [discriminate H |]. injection H as <-. cbn. csplit; auto.
  - unfold i_init_tick in H. destruct (c_pool s) eqn:E; [| discriminate H]. destruct (ct_get _ _); [discriminate H |]. injection H as <-. cbn. csplit; auto.
  - unfold i_create_position in H. destruct (c_pool s) as [g |] eqn:E; [| discriminate H]. destruct (cp_get (u, l, h) (c_pos s)) eqn:E1; [discriminate H |]. destruct (ct_get l (c_ticks s)) eqn:E2; [| discriminate H]. destruct (ct_get h (c_ticks s)) eqn:E3; [| discriminate H]. destruct (l <? h) eqn:E4; [| discriminate H]. injection H as <-. cbn [c_pool c_pos c_x c_y c_lp]. csplit; auto.
    + intros k. rewrite cp_get_set. destruct (cpkey_eqb k (u, l, h)) eqn:E5; auto. apply cpkey_eqb_eq in E5. subst k. rewrite E1. reflexivity.
    + intros k K. rewrite cp_get_set, cpkey_eqb_neq; auto. intros ->. apply K. reflexivity.
    + intros f F. rewrite lsum_set, E1. cbn [cp_liq]. rewrite F. lia.
  - bd H x E. injection H as <-. apply TR in E; [| unfold is_u64 in AO; b2p; lia]. destruct E as [E1 E2]. cbn. csplit; auto.
  - bd H x E. injection H as <-. apply TR in E; [| unfold is_u64 in AO; b2p; lia]. destruct E as [E1 E2]. cbn. csplit; auto.
  - bd H x E. injection H as <-. apply TR in E; [| unfold is_u64 in AO; b2p; lia]. destruct E as [E1 E2]. cbn. csplit; auto.
  - bd H x E. destruct x as [lp sup]. injection H as <-. apply burn_ok in E. destruct E as (_ & _ & _ & _ & _ & E & _). cbn. csplit; auto.
    intros v Hv. assert (v <> HUser f) by (intros ->; destruct Hv as [Hv | (u0 & Hv & Hu)]; [discriminate | apply Hu; congruence]). rewrite E by auto. csplit; auto.
Qed.

(** ** Flows *)
Definition ctk (s : cstate) : Z := match c_pool s with Some g => cg_tick g | None => 0 end.
Lemma at_ctk : forall s c, at_tick s c -> ctk s = c.
Proof. intros s c (g & E & <-). unfold ctk. rewrite E. reflexivity. Qed.
Lemma same_ctk : forall s s' c, at_tick s c -> same_price s s' -> ctk s' = c.
Proof. intros s s' c (g & E & <-) H. destruct (H _ E) as (g' & E' & T & _). unfold ctk. rewrite E'. auto. Qed.

Record flow (w : Z -> cpkey -> Z -> Z) (v : cstate -> Z) : Prop := mkFlow {
  fl_zero : forall c k, w c k 0 = 0;
  fl_split : forall c u l h p a b n m, prices c l h p a b -> 0 <= n -> 0 <= m -> w c (u, l, h) n + w c (u, l, h) m <= w c (u, l, h) (n + m) <= w c (u, l, h) n + w c (u, l, h) m + 1;
  fl_dep : forall s u l h c xa ya to s' d, deposit_effect s u l h c xa ya to s' d -> v s' = v s + w c (u, l, h) d;
  fl_wd : forall s u l h c n s', withdraw_effect s u l h c n s' -> v s' = v s - w c (u, l, h) (n * 10 ^ 12);
  fl_oth : forall s i s', cinv s -> exec s i = Ok s' -> other i -> v s <= v s' }.

Lemma flow_x : flow worth_x vault_x.
Proof.
  split.
  - intros. apply worth_zero.
  - intros c u l h p a b n m PR Hn Hm. rewrite !(proj1 (worth_whole c u l h p a b _ PR)). destruct PR as (_ & _ & _ & P). apply (whole_split p a b n m); lia.
  - intros s u l h c xa ya to s' d (_ & _ & _ & _ & _ & _ & (_ & _ & E & _) & _). exact E.
  - intros s u l h c n s' (_ & _ & _ & _ & _ & (_ & E & _) & _). exact E.
  - intros s i s' I H O. apply (exec_other _ _ _ I H O). auto.
Qed.
Lemma flow_y : flow worth_y vault_y.
Proof.
  split.
  - intros. apply worth_zero.
  - intros c u l h p a b n m PR Hn Hm. rewrite !(proj2 (worth_whole c u l h p a b _ PR)). destruct PR as (_ & _ & _ & P). apply (whole_split p a b n m); lia.
  - intros s u l h c xa ya to s' d (_ & _ & _ & _ & _ & _ & _ & (_ & _ & E & _) & _). exact E.
  - intros s u l h c n s' (_ & _ & _ & _ & _ & _ & (_ & E & _) & _). exact E.
  - intros s i s' I H O. apply (exec_other _ _ _ I H O). auto.
Qed.

Lemma tx_cases : forall s i, (exists s', exec s i = Ok s' /\ tx s i = s' /\ succeeds s i = true) \/ (tx s i = s /\ succeeds s i = false).
Proof. intros. unfold tx, succeeds. destruct (exec s i); eauto. Qed.
Lemma pos_none : forall s k, cinv s -> c_pool s = None -> pos_liq s k = 0.
Proof. intros s k I E. unfold pos_liq. rewrite (proj2 (i_empty _ I E)). reflexivity. Qed.
Lemma when_nn : forall b v, 0 <= v -> 0 <= when b v.
Proof. intros [] v H; cbn; lia. Qed.
Lemma pos_liq_nn : forall s k, cinv s -> 0 <= pos_liq s k < U128.
Proof. intros s k I. unfold pos_liq. destruct (cp_get k (c_pos s)) as [q |] eqn:E; [| unfold U128; lia]. destruct (i_shape _ I) as (_ & _ & SP & _). apply SP in E. unfold pos_shape in E. destruct k as [[u l] h]. lia. Qed.

Lemma ctk_other : forall s i s', cinv s -> exec s i = Ok s' -> other i -> (c_pos s = [] /\ c_pos s' = []) \/ ctk s' = ctk s.
Proof.
  intros s i s' I H O. destruct (exec_other _ _ _ I H O) as (A & _ & _ & _ & _ & _ & _ & B). unfold ctk. destruct (c_pool s) as [g |] eqn:E.
  - right. destruct (A _ E) as (g' & -> & <- & _). reflexivity.
  - destruct (B eq_refl) as [-> | B']; auto. left. split; auto. apply (i_empty _ I E).
Qed.

Lemma step_key : forall w v, flow w v -> forall s i k, cinv s ->
  withdrawn v k s i + w (ctk (tx s i)) k (pos_liq (tx s i) k) <= deposited v k s i + topups_of k s i + w (ctk s) k (pos_liq s k).
Proof.
  intros w v F s i k I. destruct (tx_cases s i) as [(s' & E & T & S) | (T & S)].
  2:{ unfold withdrawn, deposited, topups_of. rewrite T, S. destruct i; try lia; destruct (cpkey_eqb _ k); cbn; lia. }
  destruct i as [t | | t | u l h | u l h c xa ya to | u l h c n | f to a | f to a | f to a | f a]; unfold withdrawn, deposited, topups_of; rewrite T, ?S;
  try (destruct (exec_other _ _ _ I E Logic.I) as (_ & P & _); rewrite P; destruct (ctk_other _ _ _ I E Logic.I) as [[N1 N2] | ->]; [| lia];
    assert (Z0 : pos_liq s k = 0) by (unfold pos_liq; rewrite N1; reflexivity); rewrite Z0, !(fl_zero _ _ F); lia).
  - destruct (exec_deposit _ _ _ _ _ _ _ _ _ I E) as (SP & d & D & p & a & b & PR & D0 & _). pose proof (fl_dep _ _ F _ _ _ _ _ _ _ _ _ _ D) as V. destruct D as (AT & _ & P1 & P2 & _).
    rewrite (same_ctk _ _ _ AT SP), (at_ctk _ _ AT), V. destruct (cpkey_dec (u, l, h) k) as [<- | NE].
    + rewrite cpkey_eqb_refl, P1. cbn [andb when]. pose proof (pos_liq_nn s (u, l, h) I) as NN. pose proof (fl_split _ _ F c u l h p a b (pos_liq s (u, l, h)) d PR ltac:(lia) ltac:(lia)).
      destruct (0 <? pos_liq s (u, l, h)) eqn:EE; cbn [when]; [lia |]. b2p. assert (Z0 : pos_liq s (u, l, h) = 0) by lia. rewrite Z0, !Z.add_0_l, (fl_zero _ _ F). lia.
    + rewrite cpkey_eqb_neq by auto. unfold pos_liq. rewrite P2 by congruence. cbn; lia.
  - destruct (exec_withdraw _ _ _ _ _ _ _ I E) as (SP & D & p & a & b & PR & _). pose proof (fl_wd _ _ F _ _ _ _ _ _ _ D) as V. destruct D as (AT & N0 & N1 & P1 & P2 & _).
    rewrite (same_ctk _ _ _ AT SP), (at_ctk _ _ AT), V. destruct (cpkey_dec (u, l, h) k) as [<- | NE].
    + rewrite cpkey_eqb_refl, P1. cbn [when]. pose proof (fl_split _ _ F c u l h p a b (pos_liq s (u, l, h) - n * 10 ^ 12) (n * 10 ^ 12) PR ltac:(lia) ltac:(lia)) as SPL.
      replace (pos_liq s (u, l, h) - n * 10 ^ 12 + n * 10 ^ 12) with (pos_liq s (u, l, h)) in SPL by ring. lia.
    + rewrite cpkey_eqb_neq by auto. unfold pos_liq. rewrite P2 by congruence. cbn [when]; lia.
Qed.

Lemma flow_key : forall w v, flow w v -> forall is s k, cinv s ->
  along (withdrawn v k) s is + w (ctk (run_txs s is)) k (pos_liq (run_txs s is) k) <= along (deposited v k) s is + along (topups_of k) s is + w (ctk s) k (pos_liq s k).
Proof.
  intros w v F is. induction is as [| i r IH]; intros s k I; cbn [along run_txs fold_left]; [lia |].
  pose proof (step_key _ _ F s i k I). specialize (IH (tx s i) k (tx_inv _ _ I)). unfold run_txs in IH |- *. cbn [fold_left]. lia.
Qed.

Lemma step_all : forall w v, flow w v -> forall s i, cinv s ->
  lsum (w (ctk (tx s i))) (c_pos (tx s i)) <= lsum (w (ctk s)) (c_pos s) + (v (tx s i) - v s) + topups s i.
Proof.
  intros w v F s i I. destruct (tx_cases s i) as [(s' & E & T & S) | (T & S)].
  2:{ unfold topups. rewrite T, S. destruct i; cbn; lia. }
  destruct i as [t | | t | u l h | u l h c xa ya to | u l h c n | f to a | f to a | f to a | f a]; unfold topups; rewrite T, ?S;
  try (destruct (exec_other _ _ _ I E Logic.I) as (_ & _ & _ & P & _); pose proof (fl_oth _ _ F _ _ _ I E Logic.I); destruct (ctk_other _ _ _ I E Logic.I) as [[N1 N2] | ->]; [rewrite N1, N2; cbn; lia | rewrite P by (intros; apply (fl_zero _ _ F)); lia]).
  - destruct (exec_deposit _ _ _ _ _ _ _ _ _ I E) as (SP & d & D & p & a & b & PR & D0 & _ & LS). pose proof (fl_dep _ _ F _ _ _ _ _ _ _ _ _ _ D) as V. destruct D as (AT & _ & P1 & P2 & _).
    rewrite (same_ctk _ _ _ AT SP), (at_ctk _ _ AT), V, LS. cbn [andb].
    pose proof (pos_liq_nn s (u, l, h) I) as NN. pose proof (fl_split _ _ F c u l h p a b (pos_liq s (u, l, h)) d PR ltac:(lia) ltac:(lia)).
    destruct (0 <? pos_liq s (u, l, h)) eqn:EE; cbn [when]; [lia |]. b2p. assert (Z0 : pos_liq s (u, l, h) = 0) by lia. rewrite Z0, !Z.add_0_l, (fl_zero _ _ F). lia.
  - destruct (exec_withdraw _ _ _ _ _ _ _ I E) as (SP & D & p & a & b & PR & LS). pose proof (fl_wd _ _ F _ _ _ _ _ _ _ D) as V. destruct D as (AT & N0 & N1 & P1 & P2 & _).
    rewrite (same_ctk _ _ _ AT SP), (at_ctk _ _ AT), V, LS.
    pose proof (fl_split _ _ F c u l h p a b (pos_liq s (u, l, h) - n * 10 ^ 12) (n * 10 ^ 12) PR ltac:(lia) ltac:(lia)) as SPL.
    replace (pos_liq s (u, l, h) - n * 10 ^ 12 + n * 10 ^ 12) with (pos_liq s (u, l, h)) in SPL by ring. lia.
Qed.
Lemma flow_all : forall w v, flow w v -> forall is s, cinv s ->
  lsum (w (ctk (run_txs s is))) (c_pos (run_txs s is)) <= lsum (w (ctk s)) (c_pos s) + (v (run_txs s is) - v s) + along topups s is.
Proof.
  intros w v F is. induction is as [| i r IH]; intros s I; cbn [along]; [cbn; lia |].
  pose proof (step_all _ _ F s i I). specialize (IH (tx s i) (tx_inv _ _ I)). unfold run_txs in IH |- *. cbn [fold_left]. lia.
Qed.
