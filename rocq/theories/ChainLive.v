(** When liquidity can be withdrawn on chain, and when it never can. *)
From Coq Require Import ZArith QArith List Bool Lia.
From Verif Require Import Base BaseLemmas DecimalModel DecimalSpec DecimalProofs WfProofs MathModel MathProofs TickProofs BitmapModel BitmapProofs PoolWf LpProofs ChainModel ChainLemmas ChainProofs ChainSpec ChainInv ChainFlow.
Import ListNotations.
Open Scope Z_scope.

Lemma net_le_gross : forall t m, (forall k q, In (k, q) m -> 0 <= cp_liq q) -> Z.abs (lsum (f_net t) m) <= lsum (f_gross t) m.
Proof.
  intros t m. unfold lsum. induction m as [| [k q] r IH]; intros H; cbn; [lia |]. specialize (IH (fun k q J => H k q (or_intror J))).
  pose proof (H k q (or_introl eq_refl)). unfold f_net at 1. unfold f_gross at 1. unfold when. destruct (t =? lower k), (t =? upper k); cbn [orb]; lia.
Qed.
Lemma inv_liqs : forall s k q, cinv s -> In (k, q) (c_pos s) -> 0 <= cp_liq q.
Proof.
  intros s k q I J. apply (get_of_in (c_pos s) k q (i_nodup _ I)) in J. destruct (i_shape _ I) as (_ & _ & SP & _). apply SP in J. unfold pos_shape in J. destruct k as [[u l] h]. lia.
Qed.

(** Removing [n] from position [k] keeps the net below the gross at every tick. *)
Lemma net_room : forall s k ps n t, cinv s -> cp_get k (c_pos s) = Some ps -> 0 <= n <= cp_liq ps ->
  Z.abs (lsum (f_net t) (c_pos s) - f_net t k n) <= lsum (f_gross t) (c_pos s) - f_gross t k n.
Proof.
  intros s k ps n t I E H. set (q := mkCPos (cp_liq ps - n) (cp_scale ps) (cp_lower ps) (cp_upper ps) (cp_fee ps)).
  pose proof (net_le_gross t (cp_set k q (c_pos s))) as N. rewrite !lsum_set, E in N. unfold q in N. cbn [cp_liq] in N.
  assert (F1 : f_net t k (cp_liq ps - n) = f_net t k (cp_liq ps) - f_net t k n) by (unfold f_net, when; destruct (t =? lower k), (t =? upper k); lia).
  assert (F2 : f_gross t k (cp_liq ps - n) = f_gross t k (cp_liq ps) - f_gross t k n) by (unfold f_gross, when; destruct (_ || _); lia).
  rewrite F1, F2 in N. enough (P : forall j w, In (j, w) (cp_set k q (c_pos s)) -> 0 <= cp_liq w) by (specialize (N P); lia).
  intros j w J. apply cp_set_in in J. destruct J as [[_ ->] | J]; [cbn; lia | apply (inv_liqs _ _ _ I J)].
Qed.

(** The amount formulas do not overflow. *)
Definition computable (c : Z) (k : cpkey) (liq : Z) : Prop :=
  exists p a b, prices c (lower k) (upper k) p a b /\ (exists vx, x_from_l_rp_rng (d12 liq) (d12 p) (d12 a) (d12 b) = Ok vx) /\ (exists vy, y_from_l_rp_rng (d12 liq) (d12 p) (d12 a) (d12 b) = Ok vy).
Lemma computable_mono : forall c k l l', 0 <= l' <= l -> computable c k l -> computable c k l'.
Proof.
  intros c k l l' H (p & a & b & PR & [vx X] & [vy Y]). pose proof PR as (_ & _ & _ & B1 & B2 & B3). exists p, a, b. csplit; auto.
  - apply (x12_mono l l' p a b vx); auto; lia.
  - apply (y12_mono l l' p a b vy); auto; lia.
Qed.
Lemma worth_mono : forall c k l l', computable c k l -> 0 <= l' <= l -> worth_x c k l' <= worth_x c k l /\ worth_y c k l' <= worth_y c k l /\ 0 <= worth_x c k l' /\ 0 <= worth_y c k l'.
Proof.
  intros c [[u lo] hi] l l' (p & a & b & PR & _) H. destruct (worth_whole c u lo hi p a b l PR) as [-> ->]. destruct (worth_whole c u lo hi p a b l' PR) as [-> ->]. destruct PR as (_ & _ & _ & B1 & B2 & B3).
  pose proof (whole_mono p a b l l' H B2 ltac:(lia)). pose proof (whole_nn p a b l' ltac:(lia) B2 ltac:(lia)). tauto.
Qed.

(** Everything a withdrawal needs besides funds. *)
Definition ready (s : cstate) (k : cpkey) (liq : Z) : Prop :=
  is_u64 (lower k) = true /\ is_u64 (upper k) = true /\ (exists c, at_tick s c /\ is_u64 c = true /\ (exists t, ct_get c (c_ticks s) = Some t) /\ computable c k liq) /\ c_bitmap s <> None.

Lemma can_withdraw : forall s u l h c n, cinv s -> ready s (u, l, h) (n * 10 ^ 12) -> at_tick s c -> l <> c -> h <> c -> 0 < n ->
  n * 10 ^ 12 <= pos_liq s (u, l, h) -> n <= bal (HUser u) (c_lp s) ->
  worth_x c (u, l, h) (n * 10 ^ 12) <= vault_x s -> bal (HUser u) (c_x s) + worth_x c (u, l, h) (n * 10 ^ 12) < 2 ^ 64 ->
  worth_y c (u, l, h) (n * 10 ^ 12) <= vault_y s -> bal (HUser u) (c_y s) + worth_y c (u, l, h) (n * 10 ^ 12) < 2 ^ 64 ->
  exists s', exec s (IWithdraw u l h c n) = Ok s'.
Proof.
  intros s u l h c n I (R1 & R2 & (c' & AT' & R3 & [cur CT] & p & a & b & PR & [vx X] & [vy Y]) & R4) AT NL NH Hn HP HL VX UX VY UY. cbn [lower upper] in *.
  assert (c' = c) by (apply at_ctk in AT, AT'; congruence). subst c'. destruct AT as (g & G & GT). destruct (c_bitmap s) as [bm |] eqn:BM; [| contradiction].
  unfold pos_liq in HP. destruct (cp_get (u, l, h) (c_pos s)) as [ps |] eqn:PS; [| exfalso; change (10 ^ 12) with SC in HP; pose proof SCpos; nia].
  destruct (i_bounds _ I _ _ PS) as [[lt LT] [ut UT]]. cbn [lower upper] in *.
  destruct (i_ticks _ I _ _ _ G LT) as [GL TL]. destruct (i_ticks _ I _ _ _ G UT) as [GU TU]. rewrite GT in *. rewrite (proj2 (Z.eqb_neq l c)) in GL, TL by auto. rewrite (proj2 (Z.eqb_neq h c)) in GU, TU by auto.
  destruct (worth_whole c u l h p a b (n * 10 ^ 12) PR) as [W1 W2]. rewrite W1 in *. rewrite W2 in *. change (10 ^ 12) with SC in *. pose proof SCpos.
  pose proof (net_room s (u, l, h) ps (n * SC) l I PS ltac:(nia)) as NRl. pose proof (net_room s (u, l, h) ps (n * SC) h I PS ltac:(nia)) as NRh.
  assert (LH : l < h) by (destruct (i_shape _ I) as (_ & _ & SP & _); apply SP in PS; unfold pos_shape in PS; lia).
  assert (V1 : f_net l (u, l, h) (n * SC) = n * SC /\ f_gross l (u, l, h) (n * SC) = n * SC /\ f_net h (u, l, h) (n * SC) = - (n * SC) /\ f_gross h (u, l, h) (n * SC) = n * SC).
  { unfold f_net, f_gross, when. cbn [lower upper]. rewrite !Z.eqb_refl, (proj2 (Z.eqb_neq l h)), (proj2 (Z.eqb_neq h l)) by lia. cbn [orb]. lia. }
  destruct V1 as (V1 & V2 & V3 & V4). rewrite V1, V2 in NRl. rewrite V3, V4 in NRh.
  destruct (i_shape _ I) as (SG & ST & SP & SB). destruct (ST _ _ LT) as [(_ & _ & _ & _ & GL' & _) _]. destruct (ST _ _ UT) as [(_ & _ & _ & _ & GU' & _) _].
  assert (NLP : n < U64). { destruct (i_funds _ I) as (_ & _ & FL). pose proof (bal_nn _ (HUser u) FL). lia. }
  destruct (i_funds _ I) as (FX & FY & FL).
  unfold exec. cbn [args_ok]. rewrite R1, R2, R3. assert (is_u64 n = true) as -> by (unfold is_u64; apply andb_true_intro; split; [apply Z.leb_le | apply Z.ltb_lt]; lia). cbn [andb negb].
  eapply (withdraw_Ok s u l h c n g bm ps lt ut cur p a b vx vy (i_shape _ I)); eauto; try lia.
  - unfold is_u64 in R1. b2p. lia.
  - intros AC. rewrite (i_liq _ I _ G). rewrite GT. etransitivity; [exact HP |].
    pose proof (psum_ge (fun k q => f_act c k (cp_liq q)) (c_pos s) (u, l, h) ps (i_nodup _ I) PS) as Q. unfold f_act in Q. cbn [lower upper] in Q. rewrite AC in Q. apply Q.
    intros j q J. pose proof (inv_liqs _ _ _ I J). unfold when. cbv beta. destruct (active (lower j) (upper j) c); [assumption | lia].
  - destruct (i_lp _ I) as [-> _]. etransitivity; [exact HL |]. apply bal_le_total. auto.
  - exact (proj1 (bal_nn _ _ FX)).
  - exact (proj1 (bal_nn _ _ FY)).
Qed.

(** ** Just after a deposit *)
Lemma deposit_ready : forall s u l h c xa ya to s', cinv s -> exec s (IDeposit u l h c xa ya to) = Ok s' ->
  is_u64 l = true /\ is_u64 h = true /\ is_u64 c = true /\ c_bitmap s' <> None /\ exists t, ct_get c (c_ticks s') = Some t.
Proof.
  intros s u l h c xa ya to s' I H. unfold exec in H. destruct (args_ok _) eqn:AO; [| discriminate H]. cbn [negb args_ok] in *.
  rewrite !andb_true_iff in AO. destruct AO as ((((A1 & A2) & A3) & A4) & A5).
  assert (AO' : 0 <= l /\ 0 <= xa < U64 /\ 0 <= ya < U64) by (unfold is_u64 in *; b2p; lia). destruct AO' as (B1 & B2 & B3).
  destruct (deposit_eff _ _ _ _ _ _ _ _ _ (i_shape _ I) B1 B2 B3 H) as (p & a & b & d & lx & ly & lp & bm & bm' & lt & ut & _ & _ & _ & _ & _ & _ & _ & _ & _ & _ & MV).
  destruct MV as (g & bm0 & ps & lt0 & ut0 & cur & g' & ps' & lt' & ut' & _ & _ & _ & _ & _ & _ & _ & _ & _ & _ & _ & _ & _ & ->).
  csplit; auto. cbn; discriminate. exists cur. unfold write_back. cbn [c_ticks]. rewrite ct_get_set, Z.eqb_refl. reflexivity.
Qed.

Lemma after_deposit : forall s u l h c xa ya s' n, cinv s -> exec s (IDeposit u l h c xa ya (HUser u)) = Ok s' -> l <> c -> h <> c ->
  0 < n -> bal (HUser u) (c_lp s) + n <= bal (HUser u) (c_lp s') -> exists s'', exec s' (IWithdraw u l h c n) = Ok s''.
Proof.
  intros s u l h c xa ya s' n I H NL NH Hn HN. pose proof (exec_inv _ _ _ I H) as I'.
  destruct (deposit_ready _ _ _ _ _ _ _ _ _ I H) as (R1 & R2 & R3 & R4 & R5).
  destruct (exec_deposit _ _ _ _ _ _ _ _ _ I H) as (SP & d & D & p & a & b & PR & BD & (vx & vy & X & Y) & _).
  destruct D as (AT & _ & P1 & _ & _ & _ & (MX & MX1 & MX2 & _) & (MY & MY1 & MY2 & _) & L1 & _).
  assert (HND : n * 10 ^ 12 <= d). { assert (n <= d / 10 ^ 12) by lia. pose proof (Z.mul_div_le d (10 ^ 12) ltac:(lia)). nia. }
  assert (CP : computable c (u, l, h) d) by (exists p, a, b; csplit; eauto). change (10 ^ 12) with SC in *. pose proof SCpos.
  destruct (worth_mono c (u, l, h) d (n * SC) CP ltac:(nia)) as (WX & WY & _).
  assert (AT' : at_tick s' c). { destruct AT as (g & G & GT). destruct (SP _ G) as (g' & G' & T & _). exists g'. split; congruence. }
  pose proof (pos_liq_nn s (u, l, h) I). destruct (i_funds _ I) as (FX & FY & FL).
  pose proof (bal_nn _ (HUser u) FX). pose proof (bal_nn _ (HUser u) FY). pose proof (bal_nn _ HVault FX). pose proof (bal_nn _ HVault FY). pose proof (bal_nn _ (HUser u) FL). change U64 with (2 ^ 64) in *.
  apply can_withdraw; auto.
  - unfold ready. cbn [lower upper]. csplit; auto. exists c. csplit; auto. apply (computable_mono c (u, l, h) d); auto. change (10 ^ 12) with SC. nia.
  - rewrite P1. change (10 ^ 12) with SC. lia.
  - lia.
  - unfold vault_x. change (10 ^ 12) with SC. lia.
  - change (10 ^ 12) with SC. lia.
  - unfold vault_y. change (10 ^ 12) with SC. lia.
  - change (10 ^ 12) with SC. lia.
Qed.

(** ** Any time, in histories without top-ups *)
Definition funded (s : cstate) : Prop := forall k, 0 < pos_liq s k -> ready s k (pos_liq s k).

Lemma ready_keep : forall s s' k n, same_price s s' -> (c_bitmap s <> None -> c_bitmap s' <> None) -> (forall t x, ct_get t (c_ticks s) = Some x -> exists y, ct_get t (c_ticks s') = Some y) -> ready s k n -> ready s' k n.
Proof.
  intros s s' k n SP B T (R1 & R2 & (c & (g & G & GT) & R3 & [t CT] & R5) & R4). unfold ready. csplit; auto. exists c. destruct (SP _ G) as (g' & G' & T' & _). csplit; auto.
  - exists g'. split; congruence.
  - eapply T; eauto.
Qed.
Lemma ready_mono : forall s k n m, 0 <= m <= n -> ready s k n -> ready s k m.
Proof. intros s k n m H (R1 & R2 & (c & AT & R3 & CT & R5) & R4). unfold ready. csplit; auto. exists c. csplit; auto. eapply computable_mono; eauto. Qed.

(** No instruction removes the bitmap or a tick account. *)
Lemma accounts_stay : forall s i s', exec s i = Ok s' -> cinv s ->
  (c_bitmap s <> None -> c_bitmap s' <> None) /\ (forall t x, ct_get t (c_ticks s) = Some x -> exists y, ct_get t (c_ticks s') = Some y).
Proof.
  intros s i s' H I. unfold exec in H. destruct (args_ok i) eqn:AO; [| discriminate H]. cbn [negb] in H.
  assert (MV : forall u l h c e bm lx ly lp sup, moved s u l h c e bm lx ly lp sup s' -> (c_bitmap s <> None -> c_bitmap s' <> None) /\ (forall t x, ct_get t (c_ticks s) = Some x -> exists y, ct_get t (c_ticks s') = Some y)).
  { intros u l h c e bm lx ly lp sup (g & bm0 & ps & lt0 & ut0 & cur & g' & ps' & lt' & ut' & _ & _ & _ & _ & _ & _ & _ & _ & _ & _ & _ & _ & _ & ->). unfold write_back. cbn [c_bitmap c_ticks]. split; [discriminate |].
    intros t x E. rewrite !ct_get_set. destruct (t =? c), (t =? h), (t =? l); eauto. }
  destruct i as [t | | t | u l h | u l h c xa ya to | u l h c n | f to a | f to a | f to a | f a]; cbn [args_ok] in *.
  - unfold i_init_pool in H. destruct (c_pool s) eqn:E; [discriminate H |]. bd H r E1. bd H r' E2. injection H as <-. cbn. eauto.
  - unfold i_init_bitmap in H. destruct (c_pool s) eqn:E; [| discriminate H]. destruct (c_bitmap s); [discriminate H |]. injection H as <-. cbn. split; eauto.
  - unfold i_init_tick in H. destruct (c_pool s) eqn:E; [| discriminate H]. destruct (ct_get _ _); [discriminate H |]. injection H as <-. cbn [c_bitmap c_ticks]. split; auto. intros t0 x E0. rewrite ct_get_set. destruct (t0 =? t); eauto.
  - unfold i_create_position in H. destruct (c_pool s) as [g |] eqn:E; [| discriminate H]. destruct (cp_get (u, l, h) (c_pos s)) eqn:E1; [discriminate H |]. destruct (ct_get l (c_ticks s)) eqn:E2; [| discriminate H]. destruct (ct_get h (c_ticks s)) eqn:E3; [| discriminate H]. destruct (l <? h) eqn:E4; [| discriminate H]. injection H as <-. cbn. eauto.
  - assert (AO' : 0 <= l /\ 0 <= xa < U64 /\ 0 <= ya < U64) by (unfold is_u64 in AO; b2p; lia). destruct AO' as (B1 & B2 & B3).
    destruct (deposit_eff _ _ _ _ _ _ _ _ _ (i_shape _ I) B1 B2 B3 H) as (p & a & b & d & lx & ly & lp & bm & bm' & lt & ut & _ & _ & _ & _ & _ & _ & _ & _ & _ & _ & M). eapply MV; eauto.
  - assert (AO' : 0 <= l /\ 0 <= n < U64) by (unfold is_u64 in AO; b2p; lia). destruct AO' as (B1 & B2).
    destruct (withdraw_eff _ _ _ _ _ _ _ (i_shape _ I) B1 B2 H) as (p & a & b & lx & ly & lp & bm & bm' & _ & _ & _ & _ & _ & _ & _ & M). eapply MV; eauto.
  - bd H x E. injection H as <-. cbn. eauto.
  - bd H x E. injection H as <-. cbn. eauto.
  - bd H x E. injection H as <-. cbn. eauto.
  - bd H x E. destruct x as [lp sup]. injection H as <-. cbn. eauto.
Qed.

Lemma topups_nn : forall s i, 0 <= topups s i.
Proof. intros s i. destruct i; cbn; try lia. apply when_nn. lia. Qed.

Lemma step_funded : forall s i, cinv s -> funded s -> topups s i = 0 -> funded (tx s i).
Proof.
  intros s i I F T0 k K. destruct (tx_cases s i) as [(s' & E & T & S) | (T & S)]; rewrite T in *; [| apply F; auto].
  destruct (accounts_stay _ _ _ E I) as [AB AT].
  assert (KEEP : forall SP : same_price s s', pos_liq s' k = pos_liq s k -> ready s' k (pos_liq s' k)) by (intros SP P; apply (ready_keep s s'); auto; rewrite P in *; auto).
  destruct i as [t | | t | u l h | u l h c xa ya to | u l h c n | f to a | f to a | f to a | f a];
  try (destruct (exec_other _ _ _ I E Logic.I) as (SP & P & _); apply KEEP; auto; fail).
  - destruct (deposit_ready _ _ _ _ _ _ _ _ _ I E) as (R1 & R2 & R3 & R4 & R5).
    destruct (exec_deposit _ _ _ _ _ _ _ _ _ I E) as (SP & d & D & p & a & b & PR & BD & (vx & vy & X & Y) & _). destruct D as (AT0 & _ & P1 & P2 & _).
    destruct (cpkey_dec k (u, l, h)) as [-> | NE]. 2:{ apply KEEP; auto. unfold pos_liq. rewrite P2 by auto. reflexivity. }
    unfold topups in T0. rewrite S in T0. cbn [andb] in T0. pose proof (pos_liq_nn s (u, l, h) I). destruct (0 <? pos_liq s (u, l, h)) eqn:EE; [discriminate T0 |]. b2p. assert (Z0 : pos_liq s (u, l, h) = 0) by lia.
    rewrite P1, Z0, Z.add_0_l. unfold ready. cbn [lower upper]. csplit; auto. exists c. csplit; auto.
    + destruct AT0 as (g & G & GT). destruct (SP _ G) as (g' & G' & T' & _). exists g'. split; congruence.
    + exists p, a, b. csplit; eauto.
  - destruct (exec_withdraw _ _ _ _ _ _ _ I E) as (SP & D & p & a & b & PR & LS). destruct D as (AT0 & N0 & N1 & P1 & P2 & _).
    destruct (cpkey_dec k (u, l, h)) as [-> | NE]. 2:{ apply KEEP; auto. unfold pos_liq. rewrite P2 by auto. reflexivity. }
    apply (ready_keep s s'); auto. apply (ready_mono _ _ (pos_liq s (u, l, h))); [lia |]. apply F. lia.
Qed.
Lemma along_nn : forall f, (forall s i, 0 <= f s i) -> forall is s, 0 <= along f s is.
Proof. intros f H. induction is as [| i r IH]; intros s; cbn; [lia |]. pose proof (H s i). specialize (IH (tx s i)). lia. Qed.
Lemma run_funded : forall is s, cinv s -> funded s -> along topups s is = 0 -> funded (run_txs s is).
Proof.
  induction is as [| i r IH]; intros s I F A; [exact F |]. cbn [along] in A. pose proof (topups_nn s i). pose proof (along_nn topups topups_nn r (tx s i)).
  change (run_txs s (i :: r)) with (run_txs (tx s i) r). apply IH; [apply tx_inv; auto | apply step_funded; auto; lia | lia].
Qed.

Lemma lsum_ge : forall s f k, cinv s -> (forall k q, cp_get k (c_pos s) = Some q -> 0 <= f k (cp_liq q)) -> f k 0 = 0 -> f k (pos_liq s k) <= lsum f (c_pos s).
Proof.
  intros s f k I H F0. assert (NN : forall j q, In (j, q) (c_pos s) -> 0 <= f j (cp_liq q)) by (intros j q J; apply (get_of_in _ _ _ (i_nodup _ I)) in J; auto).
  unfold pos_liq. destruct (cp_get k (c_pos s)) as [q |] eqn:E.
  - exact (psum_ge (fun k q => f k (cp_liq q)) (c_pos s) k q (i_nodup _ I) E NN).
  - rewrite F0. unfold lsum. clear - NN. induction (c_pos s) as [| [j w] r IH]; cbn in *; [lia |]. pose proof (NN j w (or_introl eq_refl)). specialize (IH (fun j q J => NN j q (or_intror J))). lia.
Qed.

Lemma any_time : forall x y is u l h c n, funds_ok x -> funds_ok y -> along topups (genesis x y) is = 0 ->
  let s := run_txs (genesis x y) is in at_tick s c -> l <> c -> h <> c -> 0 < n ->
  n * 10 ^ 12 <= pos_liq s (u, l, h) -> n <= bal (HUser u) (c_lp s) ->
  bal (HUser u) (c_x s) + worth_x c (u, l, h) (n * 10 ^ 12) < 2 ^ 64 -> bal (HUser u) (c_y s) + worth_y c (u, l, h) (n * 10 ^ 12) < 2 ^ 64 ->
  exists s', exec s (IWithdraw u l h c n) = Ok s'.
Proof.
  intros x y is u l h c n FX FY A s AT NL NH Hn HP HL UX UY. pose proof (genesis_inv x y FX FY) as I0. pose proof (run_inv is _ I0) as I. fold s in I.
  assert (FU : funded s). { apply run_funded; auto. intros k K. cbn in K. lia. }
  assert (PP : 0 < pos_liq s (u, l, h)) by lia. pose proof (FU _ PP) as R.
  assert (WN : forall w v, flow w v -> (forall k q, cp_get k (c_pos s) = Some q -> 0 <= w c k (cp_liq q)) -> v (genesis x y) >= 0 -> w c (u, l, h) (pos_liq s (u, l, h)) <= v s).
  { intros w v F NN V0. pose proof (flow_all _ _ F is _ I0) as FA. fold s in FA. rewrite A in FA. rewrite (at_ctk _ _ AT) in FA. cbn [genesis c_pos lsum psum] in FA. change (lsum (w (ctk (genesis x y))) []) with 0 in FA.
    pose proof (lsum_ge s (w c) (u, l, h) I NN (fl_zero _ _ F c _)). lia. }
  assert (CPT : forall k q, cp_get k (c_pos s) = Some q -> 0 <= worth_x c k (cp_liq q) /\ 0 <= worth_y c k (cp_liq q)).
  { intros k q E. pose proof (pos_liq_nn s k I) as NN. unfold pos_liq in NN. rewrite E in NN. destruct (Z.eq_dec (cp_liq q) 0) as [-> | NZ]; [destruct (worth_zero c k); lia |].
    assert (K : 0 < pos_liq s k) by (unfold pos_liq; rewrite E; lia). destruct (FU k K) as (_ & _ & (c' & AT' & _ & _ & CP) & _). assert (c' = c) by (apply at_ctk in AT, AT'; congruence). subst c'.
    unfold pos_liq in CP. rewrite E in CP. destruct (worth_mono c k _ (cp_liq q) CP ltac:(lia)) as (_ & _ & W1 & W2). auto. }
  destruct R as (R1 & R2 & (c' & AT' & R3 & CT & CP) & R4). assert (c' = c) by (apply at_ctk in AT, AT'; congruence). subst c'.
  destruct (worth_mono c (u, l, h) _ (n * 10 ^ 12) CP ltac:(lia)) as (W1 & W2 & _).
  pose proof (WN _ _ flow_x (fun k q E => proj1 (CPT k q E)) ltac:(pose proof (bal_nn _ HVault FX); unfold vault_x, genesis; cbn [c_x]; lia)).
  pose proof (WN _ _ flow_y (fun k q E => proj2 (CPT k q E)) ltac:(pose proof (bal_nn _ HVault FY); unfold vault_y, genesis; cbn [c_y]; lia)).
  apply can_withdraw; auto; try lia. apply (ready_mono _ _ (pos_liq s (u, l, h))); [lia |]. unfold ready. csplit; auto. exists c. csplit; auto.
Qed.

(** ** Positions with a bound at the pool's tick are locked *)
Lemma locked : forall s u l h c n, cinv s -> l = ctk s \/ h = ctk s -> 0 < n -> forall s', exec s (IWithdraw u l h c n) <> Ok s'.
Proof.
  intros s u l h c n I B Hn s' H. unfold exec in H. destruct (args_ok _) eqn:AO; [| discriminate H]. cbn [negb args_ok] in *.
  assert (AO' : 0 <= l /\ 0 <= n < U64) by (unfold is_u64 in AO; b2p; lia). destruct AO' as (B1 & B2).
  destruct (withdraw_eff _ _ _ _ _ _ _ (i_shape _ I) B1 B2 H) as (p & a & b & lx & ly & lp & bm & bm' & _ & _ & _ & _ & _ & _ & _ & M).
  destruct M as (g & bm0 & ps & lt & ut & cur & g' & ps' & lt' & ut' & G & _ & _ & LT & UT & _ & _ & GT & _ & _ & _ & [(T1 & _ & T2) _] & [(T3 & _ & T4) _] & _).
  destruct (i_ticks _ I _ _ _ G LT) as [GL _]. destruct (i_ticks _ I _ _ _ G UT) as [GU _]. unfold ctk in B. rewrite G in B. pose proof SCpos.
  destruct T1 as (_ & _ & _ & _ & T1 & _). destruct T3 as (_ & _ & _ & _ & T3 & _).
  destruct B as [-> | ->]; rewrite Z.eqb_refl in *; nia.
Qed.

(** ** Constants and totals over histories *)
Lemma exec_same_price : forall s i s', cinv s -> exec s i = Ok s' -> same_price s s'.
Proof.
  intros s i s' I H. destruct i as [t | | t | u l h | u l h c xa ya to | u l h c n | f to a | f to a | f to a | f a];
  try (destruct (exec_other _ _ _ I H Logic.I) as (SP & _); exact SP).
  - destruct (exec_deposit _ _ _ _ _ _ _ _ _ I H) as (SP & _). exact SP.
  - destruct (exec_withdraw _ _ _ _ _ _ _ I H) as (SP & _). exact SP.
Qed.
Lemma tx_same_price : forall s i, cinv s -> same_price s (tx s i).
Proof. intros s i I. destruct (tx_cases s i) as [(s' & E & T & S) | (T & S)]; rewrite T; [eapply exec_same_price; eauto |]. intros g G. exists g. auto. Qed.
Lemma run_same_price : forall is s, cinv s -> same_price s (run_txs s is).
Proof.
  induction is as [| i r IH]; intros s I g G; [exists g; auto |]. destruct (tx_same_price s i I g G) as (g1 & G1 & A1 & A2 & A3).
  destruct (IH (tx s i) (tx_inv _ _ I) g1 G1) as (g2 & G2 & B1 & B2 & B3). exists g2. split; [exact G2 |]. csplit; congruence.
Qed.
Lemma locked_forever : forall s is u l h c n, cinv s -> (exists g, c_pool s = Some g) -> l = ctk s \/ h = ctk s -> 0 < n -> forall s', exec (run_txs s is) (IWithdraw u l h c n) <> Ok s'.
Proof.
  intros s is u l h c n I (g & G) B Hn. apply locked; auto; [apply run_inv; auto |]. destruct (run_same_price is s I g G) as (g' & G' & T & _). unfold ctk in *. rewrite G in B. rewrite G', T. auto.
Qed.

Lemma exec_total : forall s i s', cinv s -> exec s i = Ok s' -> total (c_x s') = total (c_x s) /\ total (c_y s') = total (c_y s).
Proof.
  intros s i s' I H.
  destruct i as [t | | t | u l h | u l h c xa ya to | u l h c n | f to a | f to a | f to a | f a];
  try (destruct (exec_other _ _ _ I H Logic.I) as (_ & _ & _ & _ & _ & TX & TY & _); auto; fail);
  unfold exec in H; destruct (args_ok _) eqn:AO; try discriminate H; cbn [negb args_ok] in *.
  - assert (AO' : 0 <= l /\ 0 <= xa < U64 /\ 0 <= ya < U64) by (unfold is_u64 in AO; b2p; lia). destruct AO' as (B1 & B2 & B3).
    destruct (deposit_eff _ _ _ _ _ _ _ _ _ (i_shape _ I) B1 B2 B3 H) as (p & a & b & d & lx & ly & lp & bm & bm' & lt & ut & _ & _ & _ & _ & _ & _ & _ & TX & TY & _ & M).
    destruct (moved_pool _ _ _ _ _ _ _ _ _ _ _ _ M (i_shape _ I)) as (_ & _ & _ & _ & _ & -> & -> & _).
    apply transfer_ok in TX, TY. tauto.
  - assert (AO' : 0 <= l /\ 0 <= n < U64) by (unfold is_u64 in AO; b2p; lia). destruct AO' as (B1 & B2).
    destruct (withdraw_eff _ _ _ _ _ _ _ (i_shape _ I) B1 B2 H) as (p & a & b & lx & ly & lp & bm & bm' & _ & _ & _ & _ & TX & TY & _ & M).
    destruct (moved_pool _ _ _ _ _ _ _ _ _ _ _ _ M (i_shape _ I)) as (_ & _ & _ & _ & _ & -> & -> & _).
    apply transfer_ok in TX, TY. tauto.
Qed.
Lemma run_total : forall is s, cinv s -> total (c_x (run_txs s is)) = total (c_x s) /\ total (c_y (run_txs s is)) = total (c_y s).
Proof.
  induction is as [| i r IH]; intros s I; [auto |]. change (run_txs s (i :: r)) with (run_txs (tx s i) r). destruct (IH (tx s i) (tx_inv _ _ I)) as [-> ->].
  destruct (tx_cases s i) as [(s' & E & T & S) | (T & S)]; rewrite T; auto. eapply exec_total; eauto.
Qed.

(** Only the signer's funds and positions can shrink or change. *)
Lemma bystander : forall s i s' v, cinv s -> exec s i = Ok s' -> signer i <> Some v ->
  bal (HUser v) (c_x s) <= bal (HUser v) (c_x s') /\ bal (HUser v) (c_y s) <= bal (HUser v) (c_y s') /\ bal (HUser v) (c_lp s) <= bal (HUser v) (c_lp s') /\
  forall k, owner k = v -> cp_get k (c_pos s') = cp_get k (c_pos s).
Proof.
  intros s i s' v I H N.
  destruct i as [t | | t | u l h | u l h c xa ya to | u l h c n | f to a | f to a | f to a | f a];
  try (destruct (exec_other _ _ _ I H Logic.I) as (_ & _ & P & _ & B & _); destruct (B (HUser v) (or_intror (ex_intro _ v (conj eq_refl N)))) as (B1 & B2 & B3); csplit; auto; intros k K; apply P; rewrite K; exact N; fail); cbn [signer] in N.
  - assert (u <> v) by congruence. destruct (exec_deposit _ _ _ _ _ _ _ _ _ I H) as (_ & d & D & _). destruct D as (_ & D0 & _ & P & _ & _ & (_ & _ & _ & X) & (_ & _ & _ & Y) & L1 & L2 & _).
    rewrite X, Y by congruence. csplit; try lia.
    + destruct (holder_eqb (HUser v) to) eqn:E; [apply holder_eqb_eq in E; subst to; rewrite L1; pose proof (Z.div_pos d (10 ^ 12) D0 ltac:(lia)); lia |]. rewrite L2; [lia |]. intros <-. rewrite holder_eqb_refl in E. discriminate E.
    + intros k K. apply P. intros ->. cbn in K. congruence.
  - assert (u <> v) by congruence. destruct (exec_withdraw _ _ _ _ _ _ _ I H) as (_ & D & _). destruct D as (_ & D0 & _ & _ & P & (_ & _ & _ & X) & (_ & _ & _ & Y) & _ & _ & L2 & _).
    rewrite X, Y, L2 by congruence. csplit; try lia. intros k K. apply P. intros ->. cbn in K. congruence.
Qed.

(** Liquid positions have computable bounds, so they are worth something non-negative. *)
Definition priced (s : cstate) : Prop := forall k, 0 < pos_liq s k -> exists c p a b, at_tick s c /\ prices c (lower k) (upper k) p a b.
Lemma priced_keep : forall s s' k, same_price s s' -> (exists c p a b, at_tick s c /\ prices c (lower k) (upper k) p a b) -> exists c p a b, at_tick s' c /\ prices c (lower k) (upper k) p a b.
Proof. intros s s' k SP (c & p & a & b & (g & G & GT) & PR). destruct (SP _ G) as (g' & G' & T & _). exists c, p, a, b. split; auto. exists g'. split; congruence. Qed.
Lemma step_priced : forall s i, cinv s -> priced s -> priced (tx s i).
Proof.
  intros s i I F k K. pose proof (tx_same_price s i I) as SP. destruct (tx_cases s i) as [(s' & E & T & S) | (T & S)]; rewrite T in *; [| apply F; auto].
  apply (priced_keep s s' k SP).
  destruct i as [t | | t | u l h | u l h c xa ya to | u l h c n | f to a | f to a | f to a | f a];
  try (destruct (exec_other _ _ _ I E Logic.I) as (_ & P & _); apply F; rewrite <- P; auto; fail).
  - destruct (exec_deposit _ _ _ _ _ _ _ _ _ I E) as (_ & d & D & p & a & b & PR & BD & _). destruct D as (AT0 & _ & P1 & P2 & _).
    destruct (cpkey_dec k (u, l, h)) as [-> | NE]; [exists c, p, a, b; auto |]. apply F. unfold pos_liq in *. rewrite <- P2; auto.
  - destruct (exec_withdraw _ _ _ _ _ _ _ I E) as (_ & D & p & a & b & PR & LS). destruct D as (AT0 & N0 & N1 & P1 & P2 & _).
    destruct (cpkey_dec k (u, l, h)) as [-> | NE]; [exists c, p, a, b; auto |]. apply F. unfold pos_liq in *. rewrite <- P2; auto.
Qed.
Lemma run_priced : forall is s, cinv s -> priced s -> priced (run_txs s is).
Proof. induction is as [| i r IH]; intros s I F; [exact F |]. change (run_txs s (i :: r)) with (run_txs (tx s i) r). apply IH; [apply tx_inv | apply step_priced]; auto. Qed.
Lemma worth_nn : forall x y is c k, funds_ok x -> funds_ok y -> let s := run_txs (genesis x y) is in at_tick s c -> 0 <= worth_x c k (pos_liq s k) /\ 0 <= worth_y c k (pos_liq s k).
Proof.
  intros x y is c k FX FY s AT. pose proof (genesis_inv x y FX FY) as I0. pose proof (run_inv is _ I0) as I. fold s in I. pose proof (pos_liq_nn s k I).
  assert (P : priced s) by (apply run_priced; auto; intros j J; cbn in J; lia).
  destruct (Z.eq_dec (pos_liq s k) 0) as [-> | NZ]; [destruct (worth_zero c k); lia |]. destruct (P k ltac:(lia)) as (c' & p & a & b & AT' & PR). assert (c' = c) by (apply at_ctk in AT, AT'; congruence). subst c'.
  destruct k as [[u l] h]. cbn [lower upper] in PR. destruct (worth_whole c u l h p a b (pos_liq s (u, l, h)) PR) as [-> ->]. destruct PR as (_ & _ & _ & B1 & B2 & B3). apply whole_nn; lia.
Qed.
Lemma wd_clears : forall s u l h c n s' b, cinv s -> exec s (IWithdraw u l h c n) = Ok s' -> c_bitmap s' = Some b -> mem b 0 = false /\ mem b 40000 = false.
Proof.
  intros s u l h c n s' b I H E. unfold exec in H. destruct (args_ok _) eqn:AO; [| discriminate H]. cbn [negb args_ok] in *.
  assert (AO' : 0 <= l /\ 0 <= n < U64) by (unfold is_u64 in AO; b2p; lia). destruct AO' as (B1 & B2).
  destruct (withdraw_eff _ _ _ _ _ _ _ (i_shape _ I) B1 B2 H) as (p & a & b0 & lx & ly & lp & bm & bm' & _ & _ & _ & _ & _ & _ & (_ & _ & M) & MV).
  destruct (moved_pool _ _ _ _ _ _ _ _ _ _ _ _ MV (i_shape _ I)) as (_ & _ & _ & _ & _ & _ & _ & _ & _ & BM & _). rewrite BM in E. injection E as <-.
  rewrite !M by (unfold in_range; lia). split; reflexivity.
Qed.
Lemma bits_wf : forall s b, cinv s -> c_bitmap s = Some b -> bm_wf b.
Proof. intros s b I H. destruct (i_shape _ I) as (_ & _ & _ & SB). apply SB; auto. Qed.

(** ** Statements as used in PropChain *)
Lemma no_fees_anywhere : forall s, reached s ->
  (forall g, c_pool s = Some g -> no_fees (cg_fee g)) /\ (forall t x, ct_get t (c_ticks s) = Some x -> no_fees (ct_fee x)) /\ (forall k q, cp_get k (c_pos s) = Some q -> no_fees (cp_fee q)).
Proof.
  intros s R. destruct (i_shape _ (reached_inv _ R)) as (SG & ST & SP & _). assert (Z0 : no_fees fee0) by (repeat split).
  csplit; intros.
  - destruct (SG _ H) as (_ & _ & ->). exact Z0.
  - destruct (ST _ _ H) as [(_ & _ & _ & _ & _ & ->) _]. exact Z0.
  - apply SP in H. unfold pos_shape in H. destruct k as [[u l] h]. destruct H as (_ & _ & _ & _ & -> & _). exact Z0.
Qed.
Lemma global_liquidity : forall s g, reached s -> c_pool s = Some g ->
  cg_liq g = over_positions s (fun k v => when ((lower k <=? cg_tick g) && (cg_tick g <? upper k)) v) /\ NoDup (map fst (c_pos s)).
Proof. intros s g R G. pose proof (reached_inv _ R) as I. split; [| apply (i_nodup _ I)]. rewrite (i_liq _ I _ G), over_lsum. reflexivity. Qed.
Lemma tick_sums : forall s g t x, reached s -> c_pool s = Some g -> ct_get t (c_ticks s) = Some x -> t <> cg_tick g ->
  ct_gross x = over_positions s (fun k v => when ((t =? lower k) || (t =? upper k)) v) /\ net x = over_positions s (fun k v => when (t =? lower k) v - when (t =? upper k) v).
Proof. intros s g t x R G T N. pose proof (reached_inv _ R) as I. destruct (i_ticks _ I _ _ _ G T) as [A B]. rewrite (proj2 (Z.eqb_neq _ _) N) in A, B. rewrite !over_lsum. rewrite net_tnet. auto. Qed.
Lemma current_tick_zero : forall s g x, reached s -> c_pool s = Some g -> ct_get (cg_tick g) (c_ticks s) = Some x -> ct_gross x = 0 /\ net x = 0.
Proof. intros s g x R G T. destruct (i_ticks _ (reached_inv _ R) _ _ _ G T) as [A B]. rewrite Z.eqb_refl in A, B. rewrite net_tnet. auto. Qed.
Lemma conservation : forall x y is, balances_ok x -> balances_ok y -> let s := run_txs (genesis x y) is in
  circulating (c_x s) = circulating x /\ circulating (c_y s) = circulating y /\ balances_ok (c_x s) /\ balances_ok (c_y s) /\ balances_ok (c_lp s) /\ circulating (c_lp s) = c_lp_supply s.
Proof.
  intros x y is X Y s. pose proof (genesis_inv x y X Y) as I0. pose proof (run_inv is _ I0) as I. fold s in I. destruct (run_total is _ I0) as [TX TY]. fold s in TX, TY.
  destruct (i_funds _ I) as (F1 & F2 & F3). destruct (i_lp _ I) as [L _]. rewrite !total_circ in *. cbn [genesis c_x c_y] in TX, TY. csplit; auto.
Qed.
Lemma backed : forall s, reached s -> 10 ^ 12 * c_lp_supply s <= over_positions s (fun _ v => v).
Proof. intros s R. rewrite over_lsum. exact (proj2 (i_lp _ (reached_inv _ R))). Qed.
Lemma gen_position : forall w v, flow w v -> forall x y is k c, balances_ok x -> balances_ok y -> let s := run_txs (genesis x y) is in at_tick s c ->
  along (withdrawn v k) (genesis x y) is + w c k (pos_liq s k) <= along (deposited v k) (genesis x y) is + along (topups_of k) (genesis x y) is.
Proof.
  intros w v F x y is k c X Y s AT. pose proof (flow_key w v F is (genesis x y) k (genesis_inv x y X Y)) as H. fold s in H. rewrite (at_ctk _ _ AT) in H. change (pos_liq (genesis x y) k) with 0 in H. rewrite (fl_zero _ _ F) in H. lia.
Qed.
Lemma position_x : forall x y is k c, balances_ok x -> balances_ok y -> let s := run_txs (genesis x y) is in at_tick s c ->
  along (withdrawn vault_x k) (genesis x y) is + worth_x c k (pos_liq s k) <= along (deposited vault_x k) (genesis x y) is + along (topups_of k) (genesis x y) is /\ 0 <= worth_x c k (pos_liq s k).
Proof. intros x y is k c X Y s AT. split; [exact (gen_position _ _ flow_x x y is k c X Y AT) | exact (proj1 (worth_nn x y is c k X Y AT))]. Qed.
Lemma position_y : forall x y is k c, balances_ok x -> balances_ok y -> let s := run_txs (genesis x y) is in at_tick s c ->
  along (withdrawn vault_y k) (genesis x y) is + worth_y c k (pos_liq s k) <= along (deposited vault_y k) (genesis x y) is + along (topups_of k) (genesis x y) is /\ 0 <= worth_y c k (pos_liq s k).
Proof. intros x y is k c X Y s AT. split; [exact (gen_position _ _ flow_y x y is k c X Y AT) | exact (proj2 (worth_nn x y is c k X Y AT))]. Qed.
Lemma vaults : forall x y is c, balances_ok x -> balances_ok y -> let s := run_txs (genesis x y) is in at_tick s c ->
  over_positions s (worth_x c) <= vault_x s + along topups (genesis x y) is /\ over_positions s (worth_y c) <= vault_y s + along topups (genesis x y) is.
Proof.
  intros x y is c X Y s AT. pose proof (flow_all _ _ flow_x is _ (genesis_inv x y X Y)) as HX. pose proof (flow_all _ _ flow_y is _ (genesis_inv x y X Y)) as HY. fold s in HX, HY.
  rewrite (at_ctk _ _ AT) in HX, HY. rewrite !over_lsum.
  change (lsum (worth_x (ctk (genesis x y))) (c_pos (genesis x y))) with 0 in HX. change (lsum (worth_y (ctk (genesis x y))) (c_pos (genesis x y))) with 0 in HY.
  assert (0 <= vault_x (genesis x y)) by (exact (proj1 (bal_nn _ HVault X))). assert (0 <= vault_y (genesis x y)) by (exact (proj1 (bal_nn _ HVault Y))). lia.
Qed.
Lemma locked_always : forall s is u l h c n t, reached s -> at_tick s t -> l = t \/ h = t -> 0 < n -> forall s', exec (run_txs s is) (IWithdraw u l h c n) <> Ok s'.
Proof. intros s is u l h c n t R AT B Hn. apply locked_forever; auto; [apply reached_inv; auto | destruct AT as (g & G & _); eauto |]. rewrite (at_ctk _ _ AT). exact B. Qed.
Lemma only_mock_bits : forall s b t, reached s -> c_bitmap s = Some b -> 0 <= t < 80000 -> tick_is_active b t = Ok true -> t = 0 \/ t = 40000.
Proof.
  intros s b t R B T A. pose proof (reached_inv _ R) as I. rewrite (active_mem b t (bits_wf _ _ I B) T) in A. injection A as A. exact (i_bits _ I b t B T A).
Qed.
Lemma withdraw_clears : forall s u l h c n s' b, reached s -> exec s (IWithdraw u l h c n) = Ok s' -> c_bitmap s' = Some b -> forall t, 0 <= t < 80000 -> tick_is_active b t = Ok false.
Proof.
  intros s u l h c n s' b R H B t T. pose proof (reached_inv _ R) as I. pose proof (exec_inv _ _ _ I H) as I'. rewrite (active_mem b t (bits_wf _ _ I' B) T).
  destruct (wd_clears _ _ _ _ _ _ _ _ I H B) as [M1 M2]. destruct (mem b t) eqn:E; auto. destruct (i_bits _ I' b t B T E); subst; congruence.
Qed.

(** The stored root price is that of the stored tick, to all 12 digits. *)
Lemma init_price : forall s i s' g, c_pool s = None -> exec s i = Ok s' -> c_pool s' = Some g -> tick_to_rp (cg_tick g) = Ok (d12 (cg_rp g)).
Proof.
  intros s i s' g N H G. unfold exec in H. destruct (args_ok i); [| discriminate H]. cbn [negb] in H.
  destruct i as [t | | t | u l h | u l h c xa ya to | u l h c n | f to a | f to a | f to a | f a].
  - unfold i_init_pool in H. rewrite N in H. bd H r E. bd H r' E1. injection H as <-. cbn [c_pool] in G. injection G as <-. cbn [cg_tick cg_rp]. destruct (tick_rp_wf _ _ E) as (A1 & A2 & A3 & A4).
    rewrite (d12_eta r) in E, E1 by auto. unfold ROOT_PRICE_SCALE in E1. rewrite E. f_equal. assert (r' = d12 (dval r)) as -> by (pose proof (compute12 (dval r) false (proj1 A1)) as C; unfold to_compute_scale in C; change COMPUTE_SCALE with 12 in C; unfold d12 in *; congruence). reflexivity.
  - unfold i_init_bitmap in H. rewrite N in H. discriminate H.
  - unfold i_init_tick in H. rewrite N in H. discriminate H.
  - unfold i_create_position in H. rewrite N in H. discriminate H.
  - unfold i_deposit, load_accounts in H. rewrite N in H. discriminate H.
  - unfold i_withdraw, load_accounts in H. rewrite N in H. discriminate H.
  - bd H l E. injection H as <-. cbn [c_pool] in G. congruence.
  - bd H l E. injection H as <-. cbn [c_pool] in G. congruence.
  - bd H l E. injection H as <-. cbn [c_pool] in G. congruence.
  - bd H l E. destruct l. injection H as <-. cbn [c_pool] in G. congruence.
Qed.
Lemma price_of_tick : forall s g, reached s -> c_pool s = Some g -> tick_to_rp (cg_tick g) = Ok (d12 (cg_rp g)).
Proof.
  intros s g (x & y & is & Bx & By & ->). revert g. induction is as [| i is IH] using rev_ind; intros g G; [discriminate G |].
  unfold run_txs in *. rewrite fold_left_app in G. cbn [fold_left] in G. set (s := fold_left tx is (genesis x y)) in *.
  assert (I : cinv s) by (apply reached_inv; exists x, y, is; auto). destruct (c_pool s) as [g0 |] eqn:P.
  - destruct (tx_same_price s i I g0 P) as (g1 & G1 & A1 & A2 & _). assert (g1 = g) by congruence. subst g1. rewrite A1, A2. apply IH. reflexivity.
  - destruct (tx_cases s i) as [(s' & E & T & S) | (T & S)]; rewrite T in G; [eapply init_price; eauto | congruence].
Qed.
