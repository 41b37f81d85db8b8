(** Histories of the whole ledger: what a pool sees, what the other pools and users cannot touch. *)
From Coq Require Import ZArith QArith List Bool Lia.
From Verif Require Import Base BaseLemmas DecimalModel MathModel BitmapModel TickLoop PoolWf ChainModel ChainLemmas ChainSpec ChainInv ChainOrder WorldModel WorldSpec WorldProofs WorldInv WorldSim WorldStep.
Import ListNotations.
Open Scope Z_scope.

(** ** Single steps *)
(** Accounts sit at the addresses made for them. *)
Definition placed (a : addr) (c : content) : Prop :=
  match a with
  | PoolAt _ => exists k g, c = CPool k g | BitmapAt _ => exists b, c = CBitmap b | TickAt _ _ => exists b, c = CTick b | PositionAt _ _ _ _ => exists b, c = CPos b
  | Key _ | VaultAt _ _ | LpVaultAt _ _ => (exists mt o n, c = CToken mt o n) \/ exists s o, c = CMint s o
  end.
Definition in_place (w : world) : Prop := forall a c, wget a w = Some c -> placed a c.
Definition no_new (w w' : world) : Prop := forall a, wget a w = None -> wget a w' = None.
Lemma placed_kept : forall a c c', placed a c -> kept (Some c) (Some c') -> placed a c'.
Proof. intros a c c' P K. destruct c, c'; try contradiction; destruct a; cbn in *; repeat match goal with H : exists _, _ |- _ => destruct H | H : _ \/ _ |- _ => destruct H end; try discriminate; eauto; left; eauto. Qed.
Lemma place_ext : forall w w', in_place w -> ext w w' -> (forall a c, wget a w = None -> wget a w' = Some c -> placed a c) -> in_place w'.
Proof.
  intros w w' P X N a c G. destruct (wget a w) as [c0 |] eqn:E; [| eauto]. specialize (X _ _ E). rewrite G in X. eapply placed_kept; [| exact X]. apply P. exact E.
Qed.
Lemma place_same : forall w w', in_place w -> ext w w' -> no_new w w' -> in_place w'.
Proof. intros w w' P X N. apply (place_ext w); auto. intros a c A B. rewrite (N _ A) in B. discriminate B. Qed.
Lemma moves_new : forall w w' mt f fo t to n, moves_tokens w w' mt f fo t to n -> no_new w w'.
Proof. intros w w' mt f fo t to n M a G. destruct (mt_from _ _ _ _ _ _ _ _ M) as (x & F & _). destruct (mt_to _ _ _ _ _ _ _ _ M) as (y & T). rewrite (mt_other _ _ _ _ _ _ _ _ M); [exact G | |]; intros ->; rewrite G in *; discriminate. Qed.
Lemma issues_new : forall w w' mt a o n, issues w w' mt a o n -> no_new w w'.
Proof. intros w w' mt a o n M b G. destruct (is_acct _ _ _ _ _ _ M) as (x & F & _). destruct (is_mint _ _ _ _ _ _ M) as (s & u & T & _). rewrite (is_other _ _ _ _ _ _ M); [exact G | |]; intros ->; rewrite G in *; discriminate. Qed.
Lemma new_trans : forall a b c, no_new a b -> no_new b c -> no_new a c. Proof. intros a b c A B x H. apply B, A, H. Qed.
Lemma set_new : forall w a c, wget a w <> None -> no_new w (wset a c w).
Proof. intros w a c G b E. rewrite get_other; [exact E |]. intros ->. exact (G E). Qed.
(** Only these accounts are written when Deposit and Withdraw end. *)
Lemma exit_only : forall w w0 d u l h c k g bm ps lt ut cur g' bm' ps' lt' ut' b, accepted w0 d u l h c k g bm ps lt ut cur ->
  b <> a_pool d -> b <> BitmapAt (a_pool d) -> (forall n, b <> TickAt (a_pool d) n) -> b <> PositionAt (a_pool d) u l h -> wget b (w_exit w d k g' bm' ps' lt' ut' cur) = wget b w.
Proof.
  intros w w0 d u l h c k g bm ps lt ut cur g' bm' ps' lt' ut' b AC N1 N2 N3 N4. destruct (ac_bm _ _ _ _ _ _ _ _ _ _ _ _ _ AC) as [B1 _]. destruct (ac_ps _ _ _ _ _ _ _ _ _ _ _ _ _ AC) as [S1 _].
  destruct (ac_lt _ _ _ _ _ _ _ _ _ _ _ _ _ AC) as [L1 _]. destruct (ac_ut _ _ _ _ _ _ _ _ _ _ _ _ _ AC) as [U1 _]. destruct (ac_cur _ _ _ _ _ _ _ _ _ _ _ _ _ AC) as [C1 _].
  unfold w_exit. rewrite !get_set, B1, S1, L1, U1, C1, !aneq by auto. reflexivity.
Qed.
Lemma exit_new : forall w w0 d u l h c k g bm ps lt ut cur g' bm' ps' lt' ut', accepted w0 d u l h c k g bm ps lt ut cur -> ext w0 w -> no_new w (w_exit w d k g' bm' ps' lt' ut' cur).
Proof.
  intros w w0 d u l h c k g bm ps lt ut cur g' bm' ps' lt' ut' AC X b G.
  destruct (ac_pool _ _ _ _ _ _ _ _ _ _ _ _ _ AC) as [_ A1]. destruct (ac_bm _ _ _ _ _ _ _ _ _ _ _ _ _ AC) as [_ A2]. destruct (ac_ps _ _ _ _ _ _ _ _ _ _ _ _ _ AC) as [_ A3].
  destruct (ac_lt _ _ _ _ _ _ _ _ _ _ _ _ _ AC) as [_ A4]. destruct (ac_ut _ _ _ _ _ _ _ _ _ _ _ _ _ AC) as [_ A5]. destruct (ac_cur _ _ _ _ _ _ _ _ _ _ _ _ _ AC) as [_ A6].
  destruct (ext_pool _ _ _ _ _ X A1) as [? B1]. destruct (ext_bitmap _ _ _ _ X A2) as [? B2]. destruct (ext_pos _ _ _ _ X A3) as [? B3]. destruct (ext_tick _ _ _ _ X A4) as [? B4]. destruct (ext_tick _ _ _ _ X A5) as [? B5]. destruct (ext_tick _ _ _ _ X A6) as [? B6].
  unfold w_exit. rewrite !get_set, !aneq; [exact G | | | | | |]; intros ->; rewrite G in *; discriminate.
Qed.
(** The program's accounts an instruction may write. *)
Definition touched (i : winstr) (a : addr) : Prop :=
  exists q, pool_of i = Some (PoolAt q) /\ (a = PoolAt q \/ a = BitmapAt (PoolAt q) \/ (exists n, a = TickAt (PoolAt q) n) \/ exists u l h, wsigner i = Some u /\ a = PositionAt (PoolAt q) (Key u) l h).
Definition ours (a : addr) : Prop := match a with Key _ | VaultAt _ _ | LpVaultAt _ _ => False | _ => True end.
Lemma ours_moves : forall w w' mt f fo t to n a, in_place w -> moves_tokens w w' mt f fo t to n -> ours a -> wget a w' = wget a w.
Proof.
  intros w w' mt f fo t to n a P M O. destruct (mt_from _ _ _ _ _ _ _ _ M) as (x & F & _). destruct (mt_to _ _ _ _ _ _ _ _ M) as (y & T). pose proof (P _ _ F) as PF. pose proof (P _ _ T) as PT.
  apply (mt_other _ _ _ _ _ _ _ _ M); intros <-; destruct a; cbn in O, PF, PT; try contradiction; repeat match goal with H : exists _, _ |- _ => destruct H end; discriminate.
Qed.
Lemma ours_issues : forall w w' mt f o n a, in_place w -> issues w w' mt f o n -> ours a -> wget a w' = wget a w.
Proof.
  intros w w' mt f o n a P M O. destruct (is_acct _ _ _ _ _ _ M) as (x & F & _). destruct (is_mint _ _ _ _ _ _ M) as (s & u & T & _). pose proof (P _ _ F) as PF. pose proof (P _ _ T) as PT.
  apply (is_other _ _ _ _ _ _ M); intros <-; destruct a; cbn in O, PF, PT; try contradiction; repeat match goal with H : exists _, _ |- _ => destruct H end; discriminate.
Qed.
Lemma ours_key : forall a k c w, ours a -> wget a (wset (Key k) c w) = wget a w. Proof. intros a k c w O. apply get_other. intros ->. exact O. Qed.

Record step_facts (w w' : world) (i : winstr) : Prop := mkSF
  { sf_place : in_place w';
    sf_ours : forall a, ours a -> ~ touched i a -> wget a w' = wget a w;
    sf_token : forall a mt o n, wget a w = Some (CToken mt o n) -> (exists n', wget a w' = Some (CToken mt o n') /\ n <= n') \/ (exists q, wsigner i = Some q /\ o = Key q) \/ exists d u l h c z, i = WWithdraw d u l h c z /\ o = a_pool d;
    sf_mint : forall a s o, wget a w = Some (CMint s o) -> (exists s', wget a w' = Some (CMint s' o) /\ s' <= s) \/ (exists q, wsigner i = Some q /\ o = Some (Key q)) \/ exists d u l h c x y, i = WDeposit d u l h c x y /\ o = Some (a_pool d) }.
Lemma created : forall w a c i, winv w -> in_place w -> wget a w = None -> placed a c -> (ours a -> touched i a) -> step_facts w (wset a c w) i.
Proof.
  intros w a c i I P N PL T. assert (OLD : forall b d, wget b w = Some d -> wget b (wset a c w) = Some d) by (intros b d G; rewrite get_other; [exact G | intros ->; rewrite N in G; discriminate G]). split.
  - apply (place_ext w); auto; [apply new_ext; auto |]. intros b d E G. rewrite get_set in G. destruct (addr_eqb b a) eqn:EB; [apply aeq in EB; subst b; injection G as <-; exact PL | rewrite E in G; discriminate G].
  - intros b O NT. apply get_other. intros ->. exact (NT (T O)).
  - intros b mt o n G. left. exists n. split; [auto | lia].
  - intros b s o G. left. exists s. split; [auto | lia].
Qed.
Lemma mint_moves : forall w w' mt f fo t to n a s u, moves_tokens w w' mt f fo t to n -> wget a w = Some (CMint s u) -> wget a w' = Some (CMint s u).
Proof. intros w w' mt f fo t to n a s u M G. destruct (mt_from _ _ _ _ _ _ _ _ M) as (x & F & _). destruct (mt_to _ _ _ _ _ _ _ _ M) as (y & T). rewrite (mt_other _ _ _ _ _ _ _ _ M); [exact G | |]; intros ->; rewrite G in *; discriminate. Qed.
Lemma exit_tm : forall w w0 d u l h c k g bm ps lt ut cur g' bm' ps' lt' ut' b x, in_place w -> accepted w0 d u l h c k g bm ps lt ut cur -> wget b w = Some x -> match x with CToken _ _ _ | CMint _ _ => True | _ => False end -> wget b (w_exit w d k g' bm' ps' lt' ut' cur) = Some x.
Proof.
  intros w w0 d u l h c k g bm ps lt ut cur g' bm' ps' lt' ut' b x P AC G X. destruct (ac_pool _ _ _ _ _ _ _ _ _ _ _ _ _ AC) as [E _]. specialize (P _ _ G).
  rewrite (exit_only _ _ _ _ _ _ _ _ _ _ _ _ _ _ _ _ _ _ _ b AC); [exact G | | | |]; intros; intros ->; rewrite ?E in P; cbn in P; repeat match goal with H : exists _, _ |- _ => destruct H end; subst x; exact X.
Qed.
Lemma step_all : forall w i w', winv w -> in_place w -> wexec w i = Ok w' -> step_facts w w' i.
Proof.
  intros w i w' I P H. unfold wexec in H. destruct (wargs_ok i) eqn:AO; [| discriminate H]. cbn [negb] in H. clear AO.
  destruct i as [pool xm ym lpm xv yv lpv t | pool bm | pool tk t | pool ps lt ut u l h | d u l h c xa ya | d u l h c n | a auth | a mt o | f t u n | mt t u n | mt f u n | a u o | mt u o].
  - destruct (init_pool_parts _ _ _ _ _ _ _ _ _ _ I H) as (-> & I' & X & M). clear H. split.
    + apply (place_ext w); auto. intros a c N G. destruct (pm_price _ _ _ _ _ _ M) as (rp & rp' & _ & _ & GP). destruct (pm_new _ _ _ _ _ _ M _ _ N G) as [-> | [K S]]; [rewrite GP in G; injection G as <-; cbn; eauto |]. destruct a; try contradiction; left; exact K.
    + intros a O NT. apply (pm_only _ _ _ _ _ _ M); [intros ->; apply NT; exists lpm; split; [reflexivity | auto] | |]; intros m0 l0 ->; exact O.
    + intros a mt o n G. left. exists n. split; [exact (pm_old _ _ _ _ _ _ M _ _ G) | lia].
    + intros a s o G. left. exists s. split; [exact (pm_old _ _ _ _ _ _ M _ _ G) | lia].
  - unfold w_init_bitmap in H. bd H r E. destruct r as [k2 g]. apply get_pool_Ok in E. destruct (wi_pool _ I _ _ _ E) as (EP & _). cbn [fst snd] in EP. subst pool. bd H r0 E0. apply need_Ok in E0. apply andb_true_iff in E0. destruct E0 as [_ E0]. apply aeq in E0. subst bm. apply create_Ok in H. destruct H as [N ->].
    apply created; auto; [cbn; eauto |]. intros _. exists (pk_lp k2). split; [reflexivity | auto].
  - unfold w_init_tick in H. bd H r E. destruct r as [k2 g]. apply get_pool_Ok in E. destruct (wi_pool _ I _ _ _ E) as (EP & _). cbn [fst snd] in EP. subst pool. bd H r0 E0. apply need_Ok in E0. apply andb_true_iff in E0. destruct E0 as [_ E0]. apply aeq in E0. subst tk. apply create_Ok in H. destruct H as [N ->].
    apply created; auto; [cbn; eauto |]. intros _. exists (pk_lp k2). split; [reflexivity | eauto].
  - unfold w_create_position in H. bd H r E. destruct r as [k2 g]. apply get_pool_Ok in E. destruct (wi_pool _ I _ _ _ E) as (EP & _). cbn [fst snd] in EP. subst pool. bd H r1 E1. bd H r2 E2. bd H r0 E0. apply need_Ok in E0. rewrite !andb_true_iff in E0. destruct E0 as ((((_ & E0) & LH) & EL) & EU). apply aeq in E0. subst ps. apply create_Ok in H. destruct H as [N ->].
    apply created; auto; [cbn; eauto |]. intros _. exists (pk_lp k2). split; [reflexivity |]. right. right. right. exists u, l, h. auto.
  - destruct (deposit_parts _ _ _ _ _ _ _ _ _ I H) as (k & g & bm & ps & lt & ut & cur & g' & bm' & ps' & lt' & ut' & n & ax & ay & xd & yd & lo & w1 & w2 & w3 & D). destruct D as [AC DB [DM Nn] [DX Nx] MX [DY Ny] MY (-> & I4 & X4 & T4 & X1 & X2 & X3)]. clear DB DX DY H.
    pose proof (place_same _ _ P X1 (issues_new _ _ _ _ _ _ DM)) as P1. pose proof (place_same _ _ P1 X2 (moves_new _ _ _ _ _ _ _ _ MX)) as P2. pose proof (place_same _ _ P2 X3 (moves_new _ _ _ _ _ _ _ _ MY)) as P3.
    destruct (ac_pool _ _ _ _ _ _ _ _ _ _ _ _ _ AC) as [Q1 Q2]. split.
    + apply (place_same w3); auto. apply (exit_new _ _ _ _ _ _ _ _ _ _ _ _ _ _ _ _ _ _ _ AC). eapply ext_trans; [exact X1 |]. eapply ext_trans; eauto.
    + intros a O NT. rewrite (exit_only _ _ _ _ _ _ _ _ _ _ _ _ _ _ _ _ _ _ _ a AC).
      * rewrite (ours_moves _ _ _ _ _ _ _ _ a P2 MY O), (ours_moves _ _ _ _ _ _ _ _ a P1 MX O). apply (ours_issues _ _ _ _ _ _ a P DM O).
      * intros ->. apply NT. exists (pk_lp k). cbn [pool_of]. rewrite Q1. split; [reflexivity | auto]. * intros ->. apply NT. exists (pk_lp k). cbn [pool_of]. rewrite Q1. split; [reflexivity | auto].
      * intros z ->. apply NT. exists (pk_lp k). cbn [pool_of]. rewrite Q1. split; [reflexivity | eauto]. * intros ->. apply NT. exists (pk_lp k). cbn [pool_of]. rewrite Q1. split; [reflexivity |]. right. right. right. exists u, l, h. auto.
    + intros a mt o x G. destruct (addr_dec o (Key u)) as [-> | NO]; [right; left; exists u; auto |]. left.
      destruct (is_kept _ _ _ _ _ _ DM _ _ _ _ G) as (x1 & G1 & _ & L1 & _). destruct (mt_kept _ _ _ _ _ _ _ _ MX _ _ _ _ G1) as (x2 & G2 & L2 & _). destruct (mt_kept _ _ _ _ _ _ _ _ MY _ _ _ _ G2) as (x3 & G3 & L3 & _).
      exists x3. split; [exact (exit_tm _ _ _ _ _ _ _ _ _ _ _ _ _ _ _ _ _ _ _ _ _ P3 AC G3 Logic.I) |].
      destruct (mt_from _ _ _ _ _ _ _ _ MX) as (z1 & F1 & _). destruct (mt_from _ _ _ _ _ _ _ _ MY) as (z2 & F2 & _). specialize (L1 (proj1 Nn)). assert (x1 <= x2) by (apply L2; intros ->; rewrite G1 in F1; injection F1 as _ -> _; auto). assert (x2 <= x3) by (apply L3; intros ->; rewrite G2 in F2; injection F2 as _ -> _; auto). lia.
    + intros a s o G. destruct (addr_dec a (pk_lp k)) as [-> | NA].
      * right. right. destruct (wi_pool _ I _ _ _ Q2) as (_ & _ & _ & _ & _ & _ & [s0 G0]). rewrite G in G0. injection G0 as _ ->. exists d, u, l, h, c, xa, ya. auto.
      * left. exists s. split; [| lia]. pose proof (mint_on _ _ _ _ _ _ _ _ _ DM G NA) as G1. pose proof (mint_moves _ _ _ _ _ _ _ _ _ _ _ MX G1) as G2. pose proof (mint_moves _ _ _ _ _ _ _ _ _ _ _ MY G2) as G3. exact (exit_tm _ _ _ _ _ _ _ _ _ _ _ _ _ _ _ _ _ _ _ _ _ P3 AC G3 Logic.I).
  - destruct (withdraw_parts _ _ _ _ _ _ _ _ I H) as (k & g & bm & ps & lt & ut & cur & g' & bm' & ps' & lt' & ut' & ax & ay & xd & yd & w1 & w2 & w3 & D). destruct D as [AC DB [DM Nn] [DX Nx] MX [DY Ny] MY (-> & I4 & X4 & T4 & X1 & X2 & X3)]. clear DB DX DY H.
    pose proof (place_same _ _ P X1 (issues_new _ _ _ _ _ _ DM)) as P1. pose proof (place_same _ _ P1 X2 (moves_new _ _ _ _ _ _ _ _ MX)) as P2. pose proof (place_same _ _ P2 X3 (moves_new _ _ _ _ _ _ _ _ MY)) as P3.
    destruct (ac_pool _ _ _ _ _ _ _ _ _ _ _ _ _ AC) as [Q1 Q2]. split.
    + apply (place_same w3); auto. apply (exit_new _ _ _ _ _ _ _ _ _ _ _ _ _ _ _ _ _ _ _ AC). eapply ext_trans; [exact X1 |]. eapply ext_trans; eauto.
    + intros a O NT. rewrite (exit_only _ _ _ _ _ _ _ _ _ _ _ _ _ _ _ _ _ _ _ a AC).
      * rewrite (ours_moves _ _ _ _ _ _ _ _ a P2 MY O), (ours_moves _ _ _ _ _ _ _ _ a P1 MX O). apply (ours_issues _ _ _ _ _ _ a P DM O).
      * intros ->. apply NT. exists (pk_lp k). cbn [pool_of]. rewrite Q1. split; [reflexivity | auto]. * intros ->. apply NT. exists (pk_lp k). cbn [pool_of]. rewrite Q1. split; [reflexivity | auto].
      * intros z ->. apply NT. exists (pk_lp k). cbn [pool_of]. rewrite Q1. split; [reflexivity | eauto]. * intros ->. apply NT. exists (pk_lp k). cbn [pool_of]. rewrite Q1. split; [reflexivity |]. right. right. right. exists u, l, h. auto.
    + intros a mt o x G. destruct (addr_dec o (Key u)) as [-> | NO]; [right; left; exists u; auto |]. destruct (addr_dec o (a_pool d)) as [-> | NP]; [right; right; exists d, u, l, h, c, n; auto |]. left.
      destruct (is_kept _ _ _ _ _ _ DM _ _ _ _ G) as (x1 & G1 & L1 & _). destruct (mt_kept _ _ _ _ _ _ _ _ MX _ _ _ _ G1) as (x2 & G2 & L2 & _). destruct (mt_kept _ _ _ _ _ _ _ _ MY _ _ _ _ G2) as (x3 & G3 & L3 & _).
      exists x3. split; [exact (exit_tm _ _ _ _ _ _ _ _ _ _ _ _ _ _ _ _ _ _ _ _ _ P3 AC G3 Logic.I) |]. rewrite Q1 in NP. destruct (is_acct _ _ _ _ _ _ DM) as (z0 & F0 & _).
      destruct (mt_from _ _ _ _ _ _ _ _ MX) as (z1 & F1 & _). destruct (mt_from _ _ _ _ _ _ _ _ MY) as (z2 & F2 & _). assert (x <= x1) by (apply L1; intros ->; rewrite G in F0; injection F0 as _ -> _; auto). assert (x1 <= x2) by (apply L2; intros ->; rewrite G1 in F1; injection F1 as _ -> _; auto). assert (x2 <= x3) by (apply L3; intros ->; rewrite G2 in F2; injection F2 as _ -> _; auto). lia.
    + intros a s o G. left. assert (G1 : exists s', wget a w1 = Some (CMint s' o) /\ s' <= s).
      { destruct (addr_dec a (pk_lp k)) as [-> | NA]; [| exists s; split; [exact (mint_on _ _ _ _ _ _ _ _ _ DM G NA) | lia]]. destruct (is_mint _ _ _ _ _ _ DM) as (s0 & u0 & E1 & E2 & _). rewrite G in E1. injection E1 as <- <-. exists (s + - n). split; [exact E2 | lia]. }
      destruct G1 as (s' & G1 & LE). exists s'. split; [| exact LE]. pose proof (mint_moves _ _ _ _ _ _ _ _ _ _ _ MX G1) as G2. pose proof (mint_moves _ _ _ _ _ _ _ _ _ _ _ MY G2) as G3. exact (exit_tm _ _ _ _ _ _ _ _ _ _ _ _ _ _ _ _ _ _ _ _ _ P3 AC G3 Logic.I).
  - apply create_Ok in H. destruct H as [N ->]. apply created; auto; [cbn; eauto | intros []].
  - bd H r E. destruct r as [s0 v]. apply create_Ok in H. destruct H as [N ->]. apply created; auto; [cbn; left; eauto | intros []].
  - destruct (transfer_inv _ _ _ _ _ _ I H) as (mt & to & M & Nn). split.
    + apply (place_same w); auto; [eapply moves_ext | eapply moves_new]; eauto.
    + intros a O _. eapply ours_moves; eauto.
    + intros a mt0 o x G. destruct (addr_dec o (Key u)) as [-> | NO]; [right; left; exists u; auto |]. left. destruct (mt_kept _ _ _ _ _ _ _ _ M _ _ _ _ G) as (x2 & G2 & L2 & _). exists x2. split; [exact G2 |]. destruct (mt_from _ _ _ _ _ _ _ _ M) as (z1 & F1 & _). apply L2. intros ->. rewrite G in F1. injection F1 as _ -> _. auto.
    + intros a s o G. left. exists s. split; [eapply mint_moves; eauto | lia].
  - destruct (t_mint_inv _ _ _ _ _ _ I H) as (o & M & Nn & sm & GM). split.
    + apply (place_same w); auto; [eapply issues_ext | eapply issues_new]; eauto.
    + intros a O _. eapply ours_issues; eauto.
    + intros a mt0 o0 x G. left. destruct (is_kept _ _ _ _ _ _ M _ _ _ _ G) as (x2 & G2 & _ & L2 & _). exists x2. split; [exact G2 | apply L2; lia].
    + intros a s o0 G. destruct (addr_dec a mt) as [-> | NA]; [rewrite GM in G; injection G as _ <-; right; left; exists u; auto |]. left. exists s. split; [eapply mint_on; eauto | lia].
  - destruct (t_burn_inv _ _ _ _ _ _ I H) as (M & Nn). split.
    + apply (place_same w); auto; [eapply issues_ext | eapply issues_new]; eauto.
    + intros a O _. eapply ours_issues; eauto.
    + intros a mt0 o x G. destruct (addr_dec o (Key u)) as [-> | NO]; [right; left; exists u; auto |]. left. destruct (is_kept _ _ _ _ _ _ M _ _ _ _ G) as (x2 & G2 & L2 & _). exists x2. split; [exact G2 |]. destruct (is_acct _ _ _ _ _ _ M) as (z1 & F1 & _). apply L2. intros ->. rewrite G in F1. injection F1 as _ -> _. auto.
    + intros a s o G. left. destruct (addr_dec a mt) as [-> | NA]; [| exists s; split; [eapply mint_on; eauto | lia]]. destruct (is_mint _ _ _ _ _ _ M) as (s0 & u0 & E1 & E2 & _). rewrite G in E1. injection E1 as <- <-. exists (s + - n). split; [exact E2 | lia].
  - bd H r E. destruct r as [[mt o'] n]. apply get_token_Ok in E. bd H q E0. apply need_Ok in E0. apply aeq in E0. subst o'. injection H as <-. destruct (set_owner_inv w a mt u o n I E) as (I' & X & T). pose proof (P _ _ E) as PA. split.
    + apply (place_same w); auto. apply set_new. rewrite E. discriminate.
    + intros b O _. apply get_other. intros ->. destruct a; cbn in O, PA; try contradiction; repeat match goal with H : exists _, _ |- _ => destruct H end; discriminate.
    + intros b mt0 o0 x G. destruct (addr_dec b a) as [-> | NA]; [rewrite E in G; injection G as _ <- _; right; left; exists u; auto |]. left. exists x. rewrite get_other by auto. split; [exact G | lia].
    + intros b s o0 G. left. exists s. rewrite get_other; [split; [exact G | lia] |]. intros ->. rewrite E in G. discriminate G.
  - bd H r E. destruct r as [s0 v]. apply get_mint_Ok in E. bd H q E0. apply need_Ok in E0. destruct v as [v |]; [| discriminate E0]. apply aeq in E0. subst v. injection H as <-. destruct (set_authority_inv w mt s0 u o I E) as (I' & X & T). pose proof (P _ _ E) as PA. split.
    + apply (place_same w); auto. apply set_new. rewrite E. discriminate.
    + intros b O _. apply get_other. intros ->. destruct mt; cbn in O, PA; try contradiction; repeat match goal with H : exists _, _ |- _ => destruct H end; discriminate.
    + intros b mt0 o0 x G. left. exists x. rewrite get_other; [split; [exact G | lia] |]. intros ->. rewrite E in G. discriminate G.
    + intros b s o0 G. destruct (addr_dec b mt) as [-> | NA]; [rewrite E in G; injection G as _ <-; right; left; exists u; auto |]. left. exists s. rewrite get_other by auto. split; [exact G | lia].
Qed.

(** ** Histories *)
Lemma initial_place : forall w, initial w -> in_place w.
Proof. intros w [_ H] a c G. destruct (H _ _ G) as [[k ->] X]. destruct c; try contradiction; cbn; [left | right]; eauto. Qed.
Lemma wtx_ok : forall w i, winv w -> in_place w -> winv (wtx w i) /\ ext w (wtx w i) /\ in_place (wtx w i).
Proof.
  intros w i I P. unfold wtx. destruct (wexec w i) as [w' | | |] eqn:E; try (split; [exact I |]; split; [intros a c G; rewrite <- G; apply kept_refl; exact I | exact P]; fail).
  destruct (wexec_inv _ _ _ I E) as [A B]. split; [exact A |]. split; [exact B |]. exact (sf_place _ _ _ (step_all _ _ _ I P E)).
Qed.
Lemma wrun_ok : forall is w, winv w -> in_place w -> winv (wrun w is) /\ ext w (wrun w is) /\ in_place (wrun w is).
Proof.
  induction is as [| i r IH]; intros w I P; [split; [exact I |]; split; [intros a c G; change (wrun w []) with w; rewrite <- G; apply kept_refl; exact I | exact P] |].
  destruct (wtx_ok w i I P) as (A & B & C). destruct (IH _ A C) as (D & E & F). split; [exact D |]. split; [exact (ext_trans _ _ _ B E) | exact F].
Qed.
Lemma wrun_app : forall is js w, wrun w (is ++ js) = wrun (wrun w is) js. Proof. intros. apply fold_left_app. Qed.
(** *** A new pool is made by InitializePool *)
Lemma new_pool : forall w i w' m k g, winv w -> in_place w -> wexec w i = Ok w' -> wget (PoolAt m) w = None -> wget (PoolAt m) w' = Some (CPool k g) ->
  exists p xm ym xv yv lpv t, i = WInitPool p xm ym m xv yv lpv t.
Proof.
  intros w i w' m k g I P H N G. assert (T : touched i (PoolAt m) -> exists p xm ym xv yv lpv t, i = WInitPool p xm ym m xv yv lpv t).
  { intros (q & E & [T | [T | [[n T] | (u & l & h & _ & T)]]]); try discriminate T. injection T as <-. unfold wexec in H. destruct (wargs_ok i); [| discriminate H]. cbn [negb] in H. destruct i as [pool xm ym lpm xv yv lpv t | pool bm | pool tk t | pool ps lt ut u l h | d u l h c xa ya | d u l h c n | | | | | | |]; try discriminate E; injection E as E.
    - destruct (init_pool_parts _ _ _ _ _ _ _ _ _ _ I H) as (EP & _). rewrite E in EP. injection EP as ->. repeat eexists.
    - unfold w_init_bitmap in H. bd H r F. destruct r. apply get_pool_Ok in F. cbn [fst snd] in F. subst pool. rewrite N in F. discriminate F.
    - unfold w_init_tick in H. bd H r F. destruct r. apply get_pool_Ok in F. cbn [fst snd] in F. subst pool. rewrite N in F. discriminate F.
    - unfold w_create_position in H. bd H r F. destruct r. apply get_pool_Ok in F. cbn [fst snd] in F. subst pool. rewrite N in F. discriminate F.
    - destruct (deposit_parts _ _ _ _ _ _ _ _ _ I H) as (k2 & g2 & bm & ps & lt & ut & cur & g' & bm' & ps' & lt' & ut' & n & ax & ay & xd & yd & lo & w1 & w2 & w3 & D). destruct (ac_pool _ _ _ _ _ _ _ _ _ _ _ _ _ (ds_acc _ _ _ _ _ _ _ _ _ _ _ _ _ _ _ _ _ _ _ _ _ _ _ _ _ _ _ _ _ _ D)) as [_ F]. rewrite E, N in F. discriminate F.
    - destruct (withdraw_parts _ _ _ _ _ _ _ _ I H) as (k2 & g2 & bm & ps & lt & ut & cur & g' & bm' & ps' & lt' & ut' & ax & ay & xd & yd & w1 & w2 & w3 & D). destruct (ac_pool _ _ _ _ _ _ _ _ _ _ _ _ _ (ws_acc _ _ _ _ _ _ _ _ _ _ _ _ _ _ _ _ _ _ _ _ _ _ _ _ _ _ _ D)) as [_ F]. rewrite E, N in F. discriminate F. }
  assert (D : touched i (PoolAt m) \/ pool_of i <> Some (PoolAt m)) by (destruct (pool_of i) as [p |] eqn:E; [destruct (addr_dec p (PoolAt m)) as [-> | NE]; [left; exists m; auto | right; congruence] | right; discriminate]).
  destruct D as [D | D]; [auto |]. rewrite (sf_ours _ _ _ (step_all _ _ _ I P H) (PoolAt m) Logic.I), N in G; [discriminate G |]. intros (q & E & [T1 | [T1 | [[n T1] | (u & l & h & _ & T1)]]]); try discriminate T1. injection T1 as <-. auto.
Qed.
Lemma prefix_born : forall w is i m, born_empty w (is ++ [i]) m -> born_empty w is m.
Proof. intros w is i m B js j r -> N S. apply (B js j (r ++ [i])); auto. rewrite <- app_assoc. reflexivity. Qed.
Lemma pool_sim : forall w0 is m k g, initial w0 -> born_empty w0 is m -> wget (PoolAt m) (wrun w0 is) = Some (CPool k g) -> pk_x k <> m -> pk_y k <> m -> exists s, sim (wrun w0 is) m k s.
Proof.
  intros w0 is m k g IN. revert k g. induction is as [| i is IH] using rev_ind; intros k g B G NX NY.
  - destruct (proj2 IN _ _ G) as [[q Q] _]. discriminate Q.
  - destruct (wrun_ok is w0 (initial_inv _ IN) (initial_place _ IN)) as (I & _ & P). pose proof (B is i [] eq_refl) as B1. rewrite wrun_app in *. cbn [wrun fold_left] in *. fold (wrun w0 is) in *. set (w := wrun w0 is) in *. unfold wtx in *. destruct (wexec w i) as [w' | | |] eqn:E; try (exact (IH _ _ (prefix_born _ _ _ _ B) G NX NY)).
    destruct (wexec_inv _ _ _ I E) as [I' X]. destruct (wget (PoolAt m) w) as [c |] eqn:GO.
    + destruct (P _ _ GO) as (k0 & g0 & ->). destruct (ext_pool _ _ _ _ _ X GO) as [g1 G1]. rewrite G in G1. injection G1 as <- _. destruct (IH _ _ (prefix_born _ _ _ _ B) eq_refl NX NY) as [s S].
      assert (W : poolw w m k) by (split; eauto). destruct (step _ _ _ _ _ _ W S E) as (js & _ & _ & A). exists (run_txs s js). exact (sim_run _ _ _ _ _ _ S A).
    + destruct (new_pool _ _ _ _ _ _ I P E GO G) as (p & xm & ym & xv & yv & lpv & t & ->). destruct B1 as [a Z]; [reflexivity | rewrite G; discriminate |].
      unfold wexec in E. destruct (wargs_ok _) eqn:AO; [| discriminate E]. cbn [negb] in E. cbn [wargs_ok] in AO. destruct (init_pool_parts _ _ _ _ _ _ _ _ _ _ I E) as (_ & _ & _ & M). destruct (birth _ _ _ _ _ _ I I' AO M) as (lx & ly & s & _ & S); [eauto |].
      destruct (pm_price _ _ _ _ _ _ M) as (rp & rp' & _ & _ & GP). rewrite G in GP. injection GP as -> _. eauto.
Qed.
Lemma all_succeed_app : forall is js s, all_succeed s is -> all_succeed (run_txs s is) js -> all_succeed s (is ++ js).
Proof. induction is as [| i r IH]; intros js s A B; [exact B |]. destruct A as [A1 A2]. split; [exact A1 |]. apply IH; auto. Qed.
Lemma pool_follows : forall is w m k s, poolw w m k -> sim w m k s -> exists js, view_of m w is js /\ all_succeed s js /\ agrees (wrun w is) m k (run_txs s js).
Proof.
  induction is as [| i r IH]; intros w m k s W S; [exists []; split; [constructor |]; split; [exact Logic.I | apply S] |].
  cbn [wrun fold_left]. fold (wrun (wtx w i) r). unfold wtx. destruct (wexec w i) as [w' | | |] eqn:E.
  - destruct (step _ _ _ _ _ _ W S E) as (j1 & V & A1 & A2). destruct (wexec_inv _ _ _ (pw_inv _ _ _ W) E) as [I' X]. destruct (IH w' m k _ (poolw_on _ _ _ _ W I' X) (sim_run _ _ _ _ _ _ S A2)) as (j2 & V2 & B1 & B2).
    exists (j1 ++ j2). split; [econstructor; eauto |]. split; [apply all_succeed_app; auto |]. unfold run_txs in *. rewrite fold_left_app. exact B2.
  - destruct (IH w m k s W S) as (j2 & V2 & B1 & B2). exists j2. split; [apply view_err; [intros w'; rewrite E; discriminate | exact V2] | auto].
  - destruct (IH w m k s W S) as (j2 & V2 & B1 & B2). exists j2. split; [apply view_err; [intros w'; rewrite E; discriminate | exact V2] | auto].
  - destruct (IH w m k s W S) as (j2 & V2 & B1 & B2). exists j2. split; [apply view_err; [intros w'; rewrite E; discriminate | exact V2] | auto].
Qed.
Lemma world_pool : forall w0 is m k g, initial w0 -> born_empty w0 is m -> wget (PoolAt m) (wrun w0 is) = Some (CPool k g) -> pk_x k <> m -> pk_y k <> m ->
  exists s, reached s /\ agrees (wrun w0 is) m k s /\ forall is', exists js, view_of m (wrun w0 is) is' js /\ all_succeed s js /\ agrees (wrun (wrun w0 is) is') m k (run_txs s js).
Proof.
  intros w0 is m k g IN B G NX NY. destruct (pool_sim _ _ _ _ _ IN B G NX NY) as [s S]. exists s. split; [apply S |]. split; [apply S |]. intros is'. apply pool_follows; [| exact S]. split; eauto. apply wrun_ok; [apply initial_inv | apply initial_place]; auto.
Qed.
(** *** What others cannot do *)
Lemma belongs_ours : forall m a, belongs m a -> ours a. Proof. intros m a [-> | [-> | [[n ->] | (u & l & h & ->)]]]; exact Logic.I. Qed.
Lemma none_touched : forall m i a, pool_of i <> Some (PoolAt m) -> belongs m a -> ~ touched i a.
Proof. intros m i a N M (p & E & T). apply N. rewrite E. f_equal. f_equal. destruct M as [-> | [-> | [[n ->] | (u & l & h & ->)]]]; destruct T as [T | [T | [[n' T] | (u' & l' & h' & _ & T)]]]; try discriminate T; injection T; auto. Qed.
(** Induction over a history of instructions with a property. *)
Lemma run_facts : forall (Q : winstr -> Prop) (R : world -> world -> Prop), (forall w, R w w) -> (forall a b c, R a b -> R b c -> R a c) ->
  (forall w i w', winv w -> in_place w -> Q i -> step_facts w w' i -> wexec w i = Ok w' -> R w w') -> forall is w, winv w -> in_place w -> Forall Q is -> R w (wrun w is).
Proof.
  intros Q R RF TR ST. induction is as [| i r IH]; intros w I P F; [apply RF |]. inversion F; subst. change (wrun w (i :: r)) with (wrun (wtx w i) r). destruct (wtx_ok w i I P) as (A & B & C). apply (TR _ (wtx w i)); [| apply IH; auto].
  unfold wtx. destruct (wexec w i) as [w' | | |] eqn:E; auto. apply (ST w i w'); auto. apply step_all; auto.
Qed.
Lemma hist_ok : forall w, ledger_reached w -> winv w /\ in_place w.
Proof. intros w (w0 & is & I & ->). destruct (wrun_ok is w0 (initial_inv _ I) (initial_place _ I)) as (A & _ & B). auto. Qed.
Lemma isolated_accounts : forall w m is a, winv w -> in_place w -> Forall (fun i => pool_of i <> Some (PoolAt m)) is -> belongs m a -> wget a (wrun w is) = wget a w.
Proof.
  intros w m is a I P F B. apply (run_facts (fun i => pool_of i <> Some (PoolAt m)) (fun w w' => wget a w' = wget a w)); auto; [intros; congruence |].
  intros w1 i w2 _ _ N S _. apply (sf_ours _ _ _ S); [eapply belongs_ours; eauto | eapply none_touched; eauto].
Qed.
Lemma pool_tokens : forall w m is a mt n, winv w -> in_place w -> Forall (fun i => forall d u l h c z, i = WWithdraw d u l h c z -> a_pool d <> PoolAt m) is -> wget a w = Some (CToken mt (PoolAt m) n) ->
  exists n', wget a (wrun w is) = Some (CToken mt (PoolAt m) n') /\ n <= n'.
Proof.
  intros w m is a mt n I P F G. apply (run_facts (fun i => forall d u l h c z, i = WWithdraw d u l h c z -> a_pool d <> PoolAt m) (fun w w' => forall n, wget a w = Some (CToken mt (PoolAt m) n) -> exists n', wget a w' = Some (CToken mt (PoolAt m) n') /\ n <= n')) with (w := w); auto.
  - intros w1 n1 G1. exists n1. split; [exact G1 | lia].
  - intros w1 w2 w3 A B n1 G1. destruct (A _ G1) as (n2 & G2 & L2). destruct (B _ G2) as (n3 & G3 & L3). exists n3. split; [exact G3 | lia].
  - intros w1 i w2 _ _ N S _ n1 G1. destruct (sf_token _ _ _ S _ _ _ _ G1) as [R | [(q & _ & R) | (d & u & l & h & c & z & E & R)]]; [exact R | discriminate R |]. symmetry in R. destruct (N _ _ _ _ _ _ E R).
Qed.
Lemma pool_supply : forall w m is a s, winv w -> in_place w -> Forall (fun i => forall d u l h c x y, i = WDeposit d u l h c x y -> a_pool d <> PoolAt m) is -> wget a w = Some (CMint s (Some (PoolAt m))) ->
  exists s', wget a (wrun w is) = Some (CMint s' (Some (PoolAt m))) /\ s' <= s.
Proof.
  intros w m is a s I P F G. apply (run_facts (fun i => forall d u l h c x y, i = WDeposit d u l h c x y -> a_pool d <> PoolAt m) (fun w w' => forall n, wget a w = Some (CMint n (Some (PoolAt m))) -> exists n', wget a w' = Some (CMint n' (Some (PoolAt m))) /\ n' <= n)) with (w := w); auto.
  - intros w1 n1 G1. exists n1. split; [exact G1 | lia].
  - intros w1 w2 w3 A B n1 G1. destruct (A _ G1) as (n2 & G2 & L2). destruct (B _ G2) as (n3 & G3 & L3). exists n3. split; [exact G3 | lia].
  - intros w1 i w2 _ _ N S _ n1 G1. destruct (sf_mint _ _ _ S _ _ _ G1) as [R | [(q & _ & R) | (d & u & l & h & c & x & y & E & R)]]; [exact R | discriminate R |]. injection R as R. symmetry in R. destruct (N _ _ _ _ _ _ _ E R).
Qed.
Lemma user_tokens : forall w q is a mt n, winv w -> in_place w -> Forall (fun i => wsigner i <> Some q) is -> wget a w = Some (CToken mt (Key q) n) -> exists n', wget a (wrun w is) = Some (CToken mt (Key q) n') /\ n <= n'.
Proof.
  intros w q is a mt n I P F G. apply (run_facts (fun i => wsigner i <> Some q) (fun w w' => forall n, wget a w = Some (CToken mt (Key q) n) -> exists n', wget a w' = Some (CToken mt (Key q) n') /\ n <= n')) with (w := w); auto.
  - intros w1 n1 G1. exists n1. split; [exact G1 | lia].
  - intros w1 w2 w3 A B n1 G1. destruct (A _ G1) as (n2 & G2 & L2). destruct (B _ G2) as (n3 & G3 & L3). exists n3. split; [exact G3 | lia].
  - intros w1 i w2 I1 P1 N S E1 n1 G1. destruct (sf_token _ _ _ S _ _ _ _ G1) as [R | [(q' & W & R) | (d & u & l & h & c & z & E & R)]]; [exact R | injection R as <-; contradiction |]. subst i.
    unfold wexec in E1. destruct (wargs_ok _); [| discriminate E1]. cbn [negb] in E1. destruct (withdraw_parts _ _ _ _ _ _ _ _ I1 E1) as (k2 & g2 & bm & ps & lt & ut & cur & g' & bm' & ps' & lt' & ut' & ax & ay & xd & yd & v1 & v2 & v3 & D). destruct (ac_pool _ _ _ _ _ _ _ _ _ _ _ _ _ (ws_acc _ _ _ _ _ _ _ _ _ _ _ _ _ _ _ _ _ _ _ _ _ _ _ _ _ _ _ D)) as [X _]. rewrite X in R. discriminate R.
Qed.
Lemma user_mints : forall w q is a s, winv w -> in_place w -> Forall (fun i => wsigner i <> Some q) is -> wget a w = Some (CMint s (Some (Key q))) -> exists s', wget a (wrun w is) = Some (CMint s' (Some (Key q))) /\ s' <= s.
Proof.
  intros w q is a n I P F G. apply (run_facts (fun i => wsigner i <> Some q) (fun w w' => forall n, wget a w = Some (CMint n (Some (Key q))) -> exists n', wget a w' = Some (CMint n' (Some (Key q))) /\ n' <= n)) with (w := w); auto.
  - intros w1 n1 G1. exists n1. split; [exact G1 | lia].
  - intros w1 w2 w3 A B n1 G1. destruct (A _ G1) as (n2 & G2 & L2). destruct (B _ G2) as (n3 & G3 & L3). exists n3. split; [exact G3 | lia].
  - intros w1 i w2 I1 P1 N S E1 n1 G1. destruct (sf_mint _ _ _ S _ _ _ G1) as [R | [(q' & W & R) | (d & u & l & h & c & x & y & E & R)]]; [exact R | injection R as <-; contradiction |]. subst i.
    unfold wexec in E1. destruct (wargs_ok _); [| discriminate E1]. cbn [negb] in E1. destruct (deposit_parts _ _ _ _ _ _ _ _ _ I1 E1) as (k2 & g2 & bm & ps & lt & ut & cur & g' & bm' & ps' & lt' & ut' & n9 & ax & ay & xd & yd & lo & v1 & v2 & v3 & D). destruct (ac_pool _ _ _ _ _ _ _ _ _ _ _ _ _ (ds_acc _ _ _ _ _ _ _ _ _ _ _ _ _ _ _ _ _ _ _ _ _ _ _ _ _ _ _ _ _ _ D)) as [X _]. rewrite X in R. discriminate R.
Qed.
Lemma user_positions : forall w q is p l h, winv w -> in_place w -> Forall (fun i => wsigner i <> Some q) is -> wget (PositionAt p (Key q) l h) (wrun w is) = wget (PositionAt p (Key q) l h) w.
Proof.
  intros w q is p l h I P F. apply (run_facts (fun i => wsigner i <> Some q) (fun w w' => wget (PositionAt p (Key q) l h) w' = wget (PositionAt p (Key q) l h) w)) with (w := w); auto; [intros; congruence |].
  intros w1 i w2 _ _ N S _. apply (sf_ours _ _ _ S); [exact Logic.I |]. intros (p' & E & [T1 | [T1 | [[n T1] | (u & l0 & h0 & W & T1)]]]); try discriminate T1. injection T1 as _ <- _ _. contradiction.
Qed.
(** *** The LP tokens and the positions of a pool *)
Definition pos_list (m : addr) (w : world) : list (cpkey * cpos) :=
  flat_map (fun ac => match fst ac, snd ac with PositionAt p (Key u) l h, CPos q => if addr_eqb p (PoolAt m) then [((Zpos u, l, h), q)] else [] | _, _ => [] end) w.
Lemma pos_in : forall m w k q, In (k, q) (pos_list m w) <-> exists u l h, k = (Zpos u, l, h) /\ In (PositionAt (PoolAt m) (Key u) l h, CPos q) w.
Proof.
  intros m w k q. unfold pos_list. rewrite in_flat_map. split.
  - intros ([a c] & J & X). cbn [fst snd] in X. destruct a as [| | | p u l h | | |]; try contradiction. destruct u as [u | | | | | |]; try contradiction. destruct c; try contradiction. destruct (addr_eqb p (PoolAt m)) eqn:E; [| contradiction]. apply aeq in E. subst p. destruct X as [X | []]. injection X as <- <-. exists u, l, h. auto.
  - intros (u & l & h & -> & J). eexists. split; [exact J |]. cbn [fst snd]. rewrite aeq_refl. left. reflexivity.
Qed.
Lemma pos_nodup : forall m w, NoDup (map fst w) -> NoDup (map fst (pos_list m w)).
Proof.
  intros m. induction w as [| [a c] r IH]; intros N; [constructor |]. inversion N as [| ? ? NI ND]; subst. specialize (IH ND). unfold pos_list. cbn [flat_map fst snd]. fold (pos_list m r).
  destruct a as [| | | p u l h | | |]; try exact IH. destruct u as [u | | | | | |]; try exact IH. destruct c; try exact IH. destruct (addr_eqb p (PoolAt m)) eqn:E; [| exact IH]. apply aeq in E. subst p. cbn [app map fst]. constructor; [| exact IH].
  intros J. apply in_map_iff in J. destruct J as ([k q] & E & J). cbn in E. subst k. apply pos_in in J. destruct J as (u' & l' & h' & E & J). injection E as <- <- <-. apply NI. apply in_map_iff. eexists. split; [| exact J]. reflexivity.
Qed.
Lemma pos_get : forall m w u l h, NoDup (map fst w) -> cp_get (u, l, h) (pos_list m w) = match u with Zpos q => match wget (PositionAt (PoolAt m) (Key q) l h) w with Some (CPos p) => Some p | _ => None end | _ => None end.
Proof.
  intros m w u l h N. destruct (cp_get (u, l, h) (pos_list m w)) as [q |] eqn:E.
  - apply cp_get_in in E. apply pos_in in E. destruct E as (u' & l' & h' & E & J). injection E as -> <- <-. rewrite (in_get _ _ _ N J). reflexivity.
  - destruct u as [| u | u]; try reflexivity. destruct (wget (PositionAt (PoolAt m) (Key u) l h) w) as [[] |] eqn:G; try reflexivity. apply get_in in G. assert (J : In ((Zpos u, l, h), p) (pos_list m w)) by (apply pos_in; exists u, l, h; auto). rewrite (get_of_in _ _ _ (pos_nodup m w N) J) in E. discriminate E.
Qed.
Lemma pos_sum : forall m w, liquidity w m = lsum f_all (pos_list m w).
Proof.
  intros m. unfold liquidity, wsum, lsum. induction w as [| [a c] r IH]; [reflexivity |]. unfold pos_list. cbn [flat_map fold_right fst snd]. fold (pos_list m r). rewrite IH.
  destruct a as [| | | p u l h | | |]; try reflexivity. destruct u as [u | | | | | |]; try reflexivity. destruct c; try reflexivity. destruct (addr_eqb p (PoolAt m)); reflexivity.
Qed.
Lemma world_backed : forall w0 is m k g s a, initial w0 -> born_empty w0 is m -> wget (PoolAt m) (wrun w0 is) = Some (CPool k g) -> pk_x k <> m -> pk_y k <> m -> wget m (wrun w0 is) = Some (CMint s a) -> 10 ^ 12 * s <= liquidity (wrun w0 is) m.
Proof.
  intros w0 is m k g s a IN B G NX NY GM. destruct (pool_sim _ _ _ _ _ IN B G NX NY) as [c (A & R & _)]. destruct (wrun_ok is w0 (initial_inv _ IN) (initial_place _ IN)) as (I & _ & _). pose proof (reached_inv _ R) as CI. destruct (i_lp _ CI) as [_ L].
  destruct (ag_supply _ _ _ _ A) as [a' S]. rewrite GM in S. injection S as -> _. rewrite pos_sum. rewrite (lsum_ext f_all (c_pos c) (pos_list m (wrun w0 is)) (i_nodup _ CI)) in L; [exact L | apply pos_nodup, (wi_nodup _ I) |].
  intros [[u l] h]. rewrite pos_get by apply (wi_nodup _ I). exact (ag_pos _ _ _ _ A u l h).
Qed.
(** *** Keys and price of a pool are those of its creation *)
Lemma update_price : forall g l h c d g', c_update_global g l h c d = Ok g' -> cg_tick g' = cg_tick g /\ cg_rp g' = cg_rp g.
Proof. intros g l h c d g' H. unfold c_update_global in H. destruct (_ && _); [| injection H as <-; auto]. bd H x E. destruct (dneg x); [discriminate H |]. injection H as <-. auto. Qed.
Lemma deposit_price : forall g bm ps lt ut l h c xa ya g' bm' ps' lt' ut' n xd yd, deposit_body g bm ps lt ut l h c xa ya = Ok (g', bm', ps', lt', ut', n, xd, yd) -> cg_tick g' = cg_tick g /\ cg_rp g' = cg_rp g.
Proof.
  intros g bm ps lt ut l h c xa ya g' bm' ps' lt' ut' n xd yd B. unfold deposit_body in B.
  destruct (to_compute_scale (from_u64 xa)) as [x | | |]; [| discriminate B | discriminate B | discriminate B]. cbn [bind] in B. destruct (to_compute_scale (from_u64 ya)) as [y | | |]; [| discriminate B | discriminate B | discriminate B]. cbn [bind] in B.
  destruct (tick_to_rp l) as [a | | |]; [| discriminate B | discriminate B | discriminate B]. cbn [bind] in B. destruct (tick_to_rp h) as [b | | |]; [| discriminate B | discriminate B | discriminate B]. cbn [bind] in B. destruct (tick_to_rp c) as [rp | | |]; [| discriminate B | discriminate B | discriminate B]. cbn [bind] in B.
  destruct (liq_from_x_y_rp_rng x y rp a b) as [d | | |]; [| discriminate B | discriminate B | discriminate B]. cbn [bind] in B. destruct (dneg d); [discriminate B |].
  match type of B with bind ?e _ = _ => destruct e as [b1 | | |]; [| discriminate B | discriminate B | discriminate B] end. cbn [bind] in B. match type of B with bind ?e _ = _ => destruct e as [b2 | | |]; [| discriminate B | discriminate B | discriminate B] end. cbn [bind] in B.
  destruct (x_from_l_rp_rng d rp a b) as [xi | | |]; [| discriminate B | discriminate B | discriminate B]. cbn [bind] in B. destruct (y_from_l_rp_rng d rp a b) as [yi | | |]; [| discriminate B | discriminate B | discriminate B]. cbn [bind] in B.
  destruct (compute_latest_fee l h c (cg_fee g) (ct_fee lt) (ct_fee ut) (fe_scale (cp_fee ps))) as [nf | | |]; [| discriminate B | discriminate B | discriminate B]. cbn [bind] in B.
  destruct (unwrap (c_update_position ps lt ut d l h nf)) as [[[p1 l1] u1] | | |]; [| discriminate B | discriminate B | discriminate B]. cbn [bind] in B. destruct (c_update_global g l h c d) as [g1 | | |] eqn:EG; [| discriminate B | discriminate B | discriminate B]. cbn [bind] in B.
  destruct (to_scale (mkD (wadd (fe_fx nf) (fe_hx nf)) (fe_scale nf) false) (dscale xi)) as [fx | | |]; [| discriminate B | discriminate B | discriminate B]. cbn [bind] in B. destruct (unwrap (d_sub xi fx)) as [x1 | | |]; [| discriminate B | discriminate B | discriminate B]. cbn [bind] in B.
  destruct (to_scale (mkD (wadd (fe_fy nf) (fe_hy nf)) (fe_scale nf) false) (dscale yi)) as [fy | | |]; [| discriminate B | discriminate B | discriminate B]. cbn [bind] in B. destruct (unwrap (d_sub yi fy)) as [y1 | | |]; [| discriminate B | discriminate B | discriminate B]. cbn [bind] in B.
  destruct (unwrap (d_gt x1 x)) as [[] | | |]; [discriminate B | | discriminate B | discriminate B | discriminate B]. cbn [bind] in B. destruct (unwrap (d_gt y1 y)) as [[] | | |]; [discriminate B | | discriminate B | discriminate B | discriminate B]. cbn [bind] in B.
  destruct (d_abs d) as [n1 | | |]; [| discriminate B | discriminate B | discriminate B]. cbn [bind] in B. injection B as <- _ _ _ _ _ _ _. exact (update_price _ _ _ _ _ _ EG).
Qed.
Lemma withdraw_price : forall g bm ps lt ut l h c n g' bm' ps' lt' ut' xc yc, withdraw_body g bm ps lt ut l h c n = Ok (g', bm', ps', lt', ut', xc, yc) -> cg_tick g' = cg_tick g /\ cg_rp g' = cg_rp g.
Proof.
  intros g bm ps lt ut l h c n g' bm' ps' lt' ut' xc yc B. unfold withdraw_body in B. cbv zeta in B.
  destruct (to_compute_scale (from_u64 n)) as [x | | |]; [| discriminate B | discriminate B | discriminate B]. cbn [bind] in B.
  destruct (tick_to_rp l) as [a | | |]; [| discriminate B | discriminate B | discriminate B]. cbn [bind] in B. destruct (tick_to_rp h) as [b | | |]; [| discriminate B | discriminate B | discriminate B]. cbn [bind] in B. destruct (tick_to_rp c) as [rp | | |]; [| discriminate B | discriminate B | discriminate B]. cbn [bind] in B.
  destruct (compute_latest_fee l h c (cg_fee g) (ct_fee lt) (ct_fee ut) (fe_scale (cp_fee ps))) as [nf | | |]; [| discriminate B | discriminate B | discriminate B]. cbn [bind] in B.
  destruct (unwrap (c_update_position ps lt ut (d_neg x) l h nf)) as [[[p1 l1] u1] | | |]; [| discriminate B | discriminate B | discriminate B]. cbn [bind] in B.
  destruct (BitmapModel.unset_tick bm 0) as [bm1 | | |]; [| discriminate B | discriminate B | discriminate B]. cbn [bind] in B. destruct (BitmapModel.unset_tick bm1 40000) as [bm2 | | |]; [| discriminate B | discriminate B | discriminate B]. cbn [bind] in B. destruct (c_update_global g l h c (d_neg x)) as [g1 | | |] eqn:EG; [| discriminate B | discriminate B | discriminate B]. cbn [bind] in B.
  destruct (x_from_l_rp_rng (d_neg (d_neg x)) rp a b) as [xi | | |]; [| discriminate B | discriminate B | discriminate B]. cbn [bind] in B. destruct (y_from_l_rp_rng (d_neg (d_neg x)) rp a b) as [yi | | |]; [| discriminate B | discriminate B | discriminate B]. cbn [bind] in B.
  destruct (to_scale (mkD (wadd (fe_fx nf) (fe_hx nf)) (fe_scale nf) false) (dscale xi)) as [fx | | |]; [| discriminate B | discriminate B | discriminate B]. cbn [bind] in B. destruct (unwrap (d_add xi fx)) as [x1 | | |]; [| discriminate B | discriminate B | discriminate B]. cbn [bind] in B.
  destruct (to_scale (mkD (wadd (fe_fy nf) (fe_hy nf)) (fe_scale nf) false) (dscale yi)) as [fy | | |]; [| discriminate B | discriminate B | discriminate B]. cbn [bind] in B. destruct (unwrap (d_add yi fy)) as [y1 | | |]; [| discriminate B | discriminate B | discriminate B]. cbn [bind] in B.
  injection B as <- _ _ _ _ _ _. exact (update_price _ _ _ _ _ _ EG).
Qed.
Lemma exit_pool : forall w w0 d u l h c k g bm ps lt ut cur g' bm' ps' lt' ut', accepted w0 d u l h c k g bm ps lt ut cur -> wget (a_pool d) (w_exit w d k g' bm' ps' lt' ut' cur) = Some (CPool k g').
Proof.
  intros w w0 d u l h c k g bm ps lt ut cur g' bm' ps' lt' ut' AC. destruct (ac_pool _ _ _ _ _ _ _ _ _ _ _ _ _ AC) as [E _]. destruct (ac_bm _ _ _ _ _ _ _ _ _ _ _ _ _ AC) as [B1 _]. destruct (ac_ps _ _ _ _ _ _ _ _ _ _ _ _ _ AC) as [S1 _].
  destruct (ac_lt _ _ _ _ _ _ _ _ _ _ _ _ _ AC) as [L1 _]. destruct (ac_ut _ _ _ _ _ _ _ _ _ _ _ _ _ AC) as [U1 _]. destruct (ac_cur _ _ _ _ _ _ _ _ _ _ _ _ _ AC) as [C1 _].
  unfold w_exit. rewrite !get_set, B1, S1, L1, U1, C1, E, !aneq, aeq_refl by discriminate. reflexivity.
Qed.
Definition same_pool (c c' : option content) : Prop := forall k g, c = Some (CPool k g) -> exists g', c' = Some (CPool k g') /\ cg_tick g' = cg_tick g /\ cg_rp g' = cg_rp g.
Lemma pool_step : forall w i w' m, winv w -> in_place w -> wexec w i = Ok w' -> same_pool (wget (PoolAt m) w) (wget (PoolAt m) w').
Proof.
  intros w i w' m I P H k g G. assert (D : pool_of i <> Some (PoolAt m) \/ pool_of i = Some (PoolAt m)) by (destruct (pool_of i) as [p |]; [destruct (addr_dec p (PoolAt m)) as [-> | NE]; [auto | left; congruence] | left; discriminate]).
  destruct D as [D | D]. { exists g. rewrite (sf_ours _ _ _ (step_all _ _ _ I P H) (PoolAt m) Logic.I); auto. eapply none_touched; [exact D | left; reflexivity]. }
  unfold wexec in H. destruct (wargs_ok i); [| discriminate H]. cbn [negb] in H. destruct i as [pool xm ym lpm xv yv lpv t | pool bm | pool tk t | pool ps lt ut u l h | d u l h c xa ya | d u l h c n | | | | | | |]; try discriminate D; injection D as D.
  - destruct (init_pool_parts _ _ _ _ _ _ _ _ _ _ I H) as (_ & _ & _ & M). exists g. rewrite (pm_old _ _ _ _ _ _ M _ _ G). auto.
  - unfold w_init_bitmap in H. bd H r F. destruct r. bd H r0 E0. apply create_Ok in H. destruct H as [N ->]. exists g. rewrite get_other; [auto | intros E; rewrite E, N in G; discriminate G].
  - unfold w_init_tick in H. bd H r F. destruct r. bd H r0 E0. apply create_Ok in H. destruct H as [N ->]. exists g. rewrite get_other; [auto | intros E; rewrite E, N in G; discriminate G].
  - unfold w_create_position in H. bd H r F. destruct r. bd H r1 E1. bd H r2 E2. bd H r0 E0. apply create_Ok in H. destruct H as [N ->]. exists g. rewrite get_other; [auto | intros E; rewrite E, N in G; discriminate G].
  - destruct (deposit_parts _ _ _ _ _ _ _ _ _ I H) as (k2 & g2 & bm & ps & lt & ut & cur & g' & bm' & ps' & lt' & ut' & n & ax & ay & xd & yd & lo & w1 & w2 & w3 & X). destruct X as [AC DB _ _ _ _ _ (-> & _)]. destruct (ac_pool _ _ _ _ _ _ _ _ _ _ _ _ _ AC) as [_ Q]. rewrite D, G in Q. injection Q as <- <-.
    exists g'. rewrite <- D, (exit_pool _ _ _ _ _ _ _ _ _ _ _ _ _ _ _ _ _ _ _ AC). split; [reflexivity |]. exact (deposit_price _ _ _ _ _ _ _ _ _ _ _ _ _ _ _ _ _ _ DB).
  - destruct (withdraw_parts _ _ _ _ _ _ _ _ I H) as (k2 & g2 & bm & ps & lt & ut & cur & g' & bm' & ps' & lt' & ut' & ax & ay & xd & yd & w1 & w2 & w3 & X). destruct X as [AC DB _ _ _ _ _ (-> & _)]. destruct (ac_pool _ _ _ _ _ _ _ _ _ _ _ _ _ AC) as [_ Q]. rewrite D, G in Q. injection Q as <- <-.
    exists g'. rewrite <- D, (exit_pool _ _ _ _ _ _ _ _ _ _ _ _ _ _ _ _ _ _ _ AC). split; [reflexivity |]. exact (withdraw_price _ _ _ _ _ _ _ _ _ _ _ _ _ _ _ _ DB).
Qed.
Lemma pool_forever : forall is w m k g, winv w -> in_place w -> wget (PoolAt m) w = Some (CPool k g) -> exists g', wget (PoolAt m) (wrun w is) = Some (CPool k g') /\ cg_tick g' = cg_tick g /\ cg_rp g' = cg_rp g.
Proof.
  intros is w m k g I P G. apply (run_facts (fun _ => True) (fun w w' => same_pool (wget (PoolAt m) w) (wget (PoolAt m) w'))) with (w := w); auto.
  - intros w1 k1 g1 G1. eauto.
  - intros w1 w2 w3 A B k1 g1 G1. destruct (A _ _ G1) as (g2 & G2 & L2 & L2'). destruct (B _ _ G2) as (g3 & G3 & L3 & L3'). exists g3. split; [exact G3 | split; congruence].
  - intros w1 i w2 I1 P1 _ _ E. exact (pool_step _ _ _ _ I1 P1 E).
  - apply Forall_forall. auto.
Qed.
(** *** Creation is open to everybody, once *)
Definition vaults_of (w : world) : Prop := forall m, wget (PoolAt m) w = None -> (forall x, wget (VaultAt x m) w = None) /\ forall p, wget (LpVaultAt p m) w = None.
Lemma vaults_step : forall w i w', winv w -> in_place w -> vaults_of w -> wexec w i = Ok w' -> vaults_of w'.
Proof.
  intros w i w' I P V H m N. destruct (wexec_inv _ _ _ I H) as [I' X]. assert (N0 : wget (PoolAt m) w = None). { destruct (wget (PoolAt m) w) as [c |] eqn:E; [| reflexivity]. specialize (X _ _ E). rewrite N in X. destruct c; contradiction. } destruct (V m N0) as [V1 V2].
  assert (K : forall a, wget a w = None -> match a with VaultAt _ l | LpVaultAt _ l => l = m | _ => False end -> wget a w' = None).
  { intros a NA S. unfold wexec in H. destruct (wargs_ok i); [| discriminate H]. cbn [negb] in H.
    destruct i as [pool xm ym lpm xv yv lpv t | pool bm | pool tk t | pool ps lt ut u l h | d u l h c xa ya | d u l h c n | a0 auth | a0 mt o | f t u n | mt t u n | mt f u n | a0 u o | mt u o].
    - destruct (init_pool_parts _ _ _ _ _ _ _ _ _ _ I H) as (-> & _ & _ & M). destruct (wget a w') as [c |] eqn:E; [| reflexivity]. destruct (pm_new _ _ _ _ _ _ M _ _ NA E) as [-> | [_ T]]; [contradiction |]. assert (lpm = m) by (destruct a; try contradiction; congruence). subst lpm. destruct (pm_price _ _ _ _ _ _ M) as (rp & rp' & _ & _ & GP). rewrite N in GP. discriminate GP.
    - unfold w_init_bitmap in H. bd H r F. destruct r. bd H r0 E0. apply need_Ok in E0. apply andb_true_iff in E0. destruct E0 as [_ E0]. apply aeq in E0. subst bm. apply create_Ok in H. destruct H as [_ ->]. rewrite get_other; [exact NA | intros ->; exact S].
    - unfold w_init_tick in H. bd H r F. destruct r. bd H r0 E0. apply need_Ok in E0. apply andb_true_iff in E0. destruct E0 as [_ E0]. apply aeq in E0. subst tk. apply create_Ok in H. destruct H as [_ ->]. rewrite get_other; [exact NA | intros ->; exact S].
    - unfold w_create_position in H. bd H r F. destruct r. bd H r1 E1. bd H r2 E2. bd H r0 E0. apply need_Ok in E0. rewrite !andb_true_iff in E0. destruct E0 as ((((_ & E0) & _) & _) & _). apply aeq in E0. subst ps. apply create_Ok in H. destruct H as [_ ->]. rewrite get_other; [exact NA | intros ->; exact S].
    - destruct (deposit_parts _ _ _ _ _ _ _ _ _ I H) as (k & g & bm & ps & lt & ut & cur & g' & bm' & ps' & lt' & ut' & n & ax & ay & xd & yd & lo & w1 & w2 & w3 & D). destruct D as [AC _ [DM _] _ MX _ MY (-> & _ & _ & _ & X1 & X2 & X3)]. apply (exit_new _ _ _ _ _ _ _ _ _ _ _ _ _ _ _ _ _ _ _ AC); [eapply ext_trans; [exact X1 |]; eapply ext_trans; eauto |]. apply (moves_new _ _ _ _ _ _ _ _ MY), (moves_new _ _ _ _ _ _ _ _ MX), (issues_new _ _ _ _ _ _ DM). exact NA.
    - destruct (withdraw_parts _ _ _ _ _ _ _ _ I H) as (k & g & bm & ps & lt & ut & cur & g' & bm' & ps' & lt' & ut' & ax & ay & xd & yd & w1 & w2 & w3 & D). destruct D as [AC _ [DM _] _ MX _ MY (-> & _ & _ & _ & X1 & X2 & X3)]. apply (exit_new _ _ _ _ _ _ _ _ _ _ _ _ _ _ _ _ _ _ _ AC); [eapply ext_trans; [exact X1 |]; eapply ext_trans; eauto |]. apply (moves_new _ _ _ _ _ _ _ _ MY), (moves_new _ _ _ _ _ _ _ _ MX), (issues_new _ _ _ _ _ _ DM). exact NA.
    - apply create_Ok in H. destruct H as [_ ->]. rewrite get_other; [exact NA | intros ->; exact S].
    - bd H r E. destruct r. apply create_Ok in H. destruct H as [_ ->]. rewrite get_other; [exact NA | intros ->; exact S].
    - destruct (transfer_inv _ _ _ _ _ _ I H) as (mt & to & M & _). exact (moves_new _ _ _ _ _ _ _ _ M _ NA).
    - destruct (t_mint_inv _ _ _ _ _ _ I H) as (o & M & _). exact (issues_new _ _ _ _ _ _ M _ NA).
    - destruct (t_burn_inv _ _ _ _ _ _ I H) as (M & _). exact (issues_new _ _ _ _ _ _ M _ NA).
    - bd H r E. destruct r as [[mt o'] n]. apply get_token_Ok in E. bd H q E0. injection H as <-. apply set_new; [rewrite E; discriminate | exact NA].
    - bd H r E. destruct r as [s0 v]. apply get_mint_Ok in E. bd H q E0. injection H as <-. apply set_new; [rewrite E; discriminate | exact NA]. }
  split; [intros x; apply K; [apply V1 | reflexivity] | intros p; apply K; [apply V2 | reflexivity]].
Qed.
Lemma hist_vaults : forall w, ledger_reached w -> vaults_of w.
Proof.
  intros w (w0 & is & IN & ->). assert (V0 : vaults_of w0). { intros m _. split; intros x; [destruct (wget (VaultAt x m) w0) eqn:E | destruct (wget (LpVaultAt x m) w0) eqn:E]; auto; destruct (proj2 IN _ _ E) as [[q Q] _]; discriminate Q. }
  pose proof (initial_inv _ IN) as I. pose proof (initial_place _ IN) as P. clear IN. revert w0 V0 I P. induction is as [| i r IH]; intros w0 V I P; [exact V |]. change (wrun w0 (i :: r)) with (wrun (wtx w0 i) r). destruct (wtx_ok w0 i I P) as (A & _ & C). apply IH; [| exact A | exact C].
  unfold wtx. destruct (wexec w0 i) eqn:E; [| exact V | exact V | exact V]. exact (vaults_step _ _ _ I P V E).
Qed.
Lemma created_by_anybody : forall w m s xm ym sx ax sy ay t, ledger_reached w -> wget m w = Some (CMint s (Some (PoolAt m))) -> wget (PoolAt m) w = None -> wget xm w = Some (CMint sx ax) -> wget ym w = Some (CMint sy ay) -> xm <> ym -> 0 <= t < 2 ^ 19 ->
  exists w' g, wexec w (WInitPool (PoolAt m) xm ym m (VaultAt xm m) (VaultAt ym m) (LpVaultAt (PoolAt m) m) t) = Ok w' /\ wget (PoolAt m) w' = Some (CPool (mkPK xm ym m (VaultAt xm m) (VaultAt ym m)) g) /\ cg_tick g = t.
Proof.
  intros w m s xm ym sx ax sy ay t R GM N GX GY XY T. destruct (hist_vaults _ R m N) as [V1 V2]. unfold wexec. cbn [wargs_ok]. assert (U : is_u64 t = true) by (apply u64_ok; unfold U64; lia). rewrite U. cbn [negb]. unfold w_init_pool, get_mint. rewrite GM, GX, GY. cbn [bind]. rewrite !aeq_refl. cbn [need andb bind].
  destruct (tick_price_ok t T) as (p & EP & _). destruct (tick_rp_wf _ _ EP) as (WF & SC & SN & _). rewrite EP. cbn [bind]. clear EP. assert (TS : exists q, to_scale p ROOT_PRICE_SCALE = Ok q). { unfold to_scale. rewrite SC. change (ROOT_PRICE_SCALE <? 12) with false. change (pow10 (ROOT_PRICE_SCALE - 12)) with (@Ok Z 1). cbn [bind]. rewrite cmul_Ok; [eexists; reflexivity |]. destruct WF as [WF _]. rewrite Z.mul_1_r. exact (proj2 WF). }
  destruct TS as [q ->]. cbn [bind]. unfold create. rewrite N. cbn [bind]. rewrite get_other, V1 by discriminate. cbn [bind]. rewrite !get_other, V1 by (try discriminate; intros [=]; auto). cbn [bind]. rewrite !get_other, V2 by discriminate.
  eexists. eexists. split; [reflexivity |]. rewrite !get_other by discriminate. rewrite get_same. split; reflexivity.
Qed.
Lemma created_once : forall w m k g p xm ym xv yv lpv t w', wget (PoolAt m) w = Some (CPool k g) -> wexec w (WInitPool p xm ym m xv yv lpv t) <> Ok w'.
Proof.
  intros w m k g p xm ym xv yv lpv t w' G H. unfold wexec in H. destruct (wargs_ok _); [| discriminate H]. cbn [negb] in H. unfold w_init_pool in H. bd H r1 E1. destruct r1. bd H r2 E2. destruct r2. bd H r3 E3. destruct r3. bd H r4 E4. bd H r5 E5. apply need_Ok in E5. rewrite !andb_true_iff in E5. destruct E5 as (((A1 & _) & _) & _). apply aeq in A1. subst p.
  destruct (tick_to_rp t) as [rp | | |]; [| discriminate H | discriminate H | discriminate H]. cbn [bind] in H. destruct (to_scale rp ROOT_PRICE_SCALE) as [rp' | | |]; [| discriminate H | discriminate H | discriminate H]. cbn [bind] in H. bd H w1 E8. apply create_Ok in E8. destruct E8 as [N _]. rewrite G in N. discriminate N.
Qed.
(** *** Who pays for a deposit *)
Lemma transfer_gets : forall w f t au n w' m o x m2 o2 y, t_transfer w f t au n = Ok w' -> f <> t -> wget f w = Some (CToken m o x) -> wget t w = Some (CToken m2 o2 y) ->
  0 <= n <= x /\ wget f w' = Some (CToken m o (x - n)) /\ wget t w' = Some (CToken m2 o2 (y + n)) /\ forall b, b <> f -> b <> t -> wget b w' = wget b w.
Proof.
  intros w f t au n w' m o x m2 o2 y H NE F T. unfold t_transfer, get_token in H. rewrite F, T in H. cbn [bind] in H. bd H q E. apply need_Ok in E. rewrite !andb_true_iff in E. destruct E as (((U & _) & _) & L). apply is_u64_ok in U. apply Z.leb_le in L.
  rewrite (aneq _ _ NE) in H. bd H q2 E2. injection H as <-. split; [lia |]. split; [rewrite get_other, get_same by auto; reflexivity |]. split; [apply get_same |]. intros b B1 B2. rewrite !get_other by auto. reflexivity.
Qed.
Lemma mint_gets : forall w mt a au n w' b, t_mint w mt a au n = Ok w' -> b <> a -> b <> mt -> wget b w' = wget b w.
Proof. intros w mt a au n w' b H B1 B2. unfold t_mint in H. bd H r E1. destruct r as [s0 au0]. bd H r E2. destruct r as [[m o] x]. bd H r E3. injection H as <-. rewrite !get_other by auto. reflexivity. Qed.
Lemma exit_gets : forall w w0 d u l h c k g bm ps lt ut cur g' bm' ps' lt' ut' a m o n, accepted w0 d u l h c k g bm ps lt ut cur -> wget a w0 = Some (CToken m o n) -> wget a (w_exit w d k g' bm' ps' lt' ut' cur) = wget a w.
Proof.
  intros w w0 d u l h c k g bm ps lt ut cur g' bm' ps' lt' ut' a m o n A G. destruct (ac_pool _ _ _ _ _ _ _ _ _ _ _ _ _ A) as [_ B1]. destruct (ac_bm _ _ _ _ _ _ _ _ _ _ _ _ _ A) as [_ B2]. destruct (ac_ps _ _ _ _ _ _ _ _ _ _ _ _ _ A) as [_ B3].
  destruct (ac_lt _ _ _ _ _ _ _ _ _ _ _ _ _ A) as [_ B4]. destruct (ac_ut _ _ _ _ _ _ _ _ _ _ _ _ _ A) as [_ B5]. destruct (ac_cur _ _ _ _ _ _ _ _ _ _ _ _ _ A) as [_ B6]. unfold w_exit. rewrite !get_other; [reflexivity | ..]; intros Z; congruence.
Qed.
Lemma deposit_paid : forall w d u l h c xa ya w' k g, winv w -> wexec w (WDeposit d u l h c xa ya) = Ok w' -> wget (a_pool d) w = Some (CPool k g) -> pk_x k <> pk_lp k -> pk_y k <> pk_lp k ->
  exists nx ny vx vy ax ay, 0 <= ax <= nx /\ 0 <= ay <= ny /\
    wget (a_ux d) w = Some (CToken (pk_x k) (Key u) nx) /\ wget (a_ux d) w' = Some (CToken (pk_x k) (Key u) (nx - ax)) /\
    wget (a_uy d) w = Some (CToken (pk_y k) (Key u) ny) /\ wget (a_uy d) w' = Some (CToken (pk_y k) (Key u) (ny - ay)) /\
    wget (pk_xv k) w = Some (CToken (pk_x k) (a_pool d) vx) /\ wget (pk_xv k) w' = Some (CToken (pk_x k) (a_pool d) (vx + ax)) /\
    wget (pk_yv k) w = Some (CToken (pk_y k) (a_pool d) vy) /\ wget (pk_yv k) w' = Some (CToken (pk_y k) (a_pool d) (vy + ay)).
Proof.
  intros w d u l h c xa ya w' k g I H GP NX NY. unfold wexec in H. destruct (wargs_ok _); [| discriminate H]. cbn [negb] in H. unfold w_deposit in H. bd H r E1. destruct r as [[[[[[k0 g0] bm] ps] lt] ut] cur]. apply checked_Ok in E1. bd H r E2. destruct r as [[[[[[[g' bm'] ps'] lt'] ut'] n] xd] yd].
  bd H w1 E3. bd H ax E4. bd H w2 E5. bd H ay E6. bd H w3 E7. injection H as <-. clear E2 E4 E6. destruct (ac_pool _ _ _ _ _ _ _ _ _ _ _ _ _ E1) as [P1 P2]. rewrite GP in P2. injection P2 as <- <-. destruct (wi_pool _ I _ _ _ GP) as (_ & _ & _ & XY & [vx Q5] & [vy Q6] & [s Q7]).
  destruct (ac_ux _ _ _ _ _ _ _ _ _ _ _ _ _ E1) as [nx UX]. destruct (ac_uy _ _ _ _ _ _ _ _ _ _ _ _ _ E1) as [ny UY]. destruct (ac_lp _ _ _ _ _ _ _ _ _ _ _ _ _ E1) as (lo & ln & UL). rewrite (ac_xv _ _ _ _ _ _ _ _ _ _ _ _ _ E1) in E5. rewrite (ac_yv _ _ _ _ _ _ _ _ _ _ _ _ _ E1) in E7. rewrite (ac_lpm _ _ _ _ _ _ _ _ _ _ _ _ _ E1) in E3.
  assert (M : forall b m o x, wget b w = Some (CToken m o x) -> m <> pk_lp k -> wget b w1 = Some (CToken m o x)). { intros b m o x B D. rewrite (mint_gets _ _ _ _ _ _ b E3); [exact B | |]; intros ->; congruence. }
  assert (D1 : a_ux d <> pk_xv k) by (intros Z; rewrite Z, Q5, P1 in UX; discriminate UX). destruct (transfer_gets _ _ _ _ _ _ _ _ _ _ _ _ E5 D1 (M _ _ _ _ UX NX) (M _ _ _ _ Q5 NX)) as (R1 & R2 & R3 & R4).
  assert (M2 : forall b o x, wget b w = Some (CToken (pk_y k) o x) -> wget b w2 = Some (CToken (pk_y k) o x)). { intros b o x B. rewrite R4; [exact (M _ _ _ _ B NY) | |]; intros ->; congruence. }
  assert (D2 : a_uy d <> pk_yv k) by (intros Z; rewrite Z, Q6, P1 in UY; discriminate UY). destruct (transfer_gets _ _ _ _ _ _ _ _ _ _ _ _ E7 D2 (M2 _ _ _ UY) (M2 _ _ _ Q6)) as (S1 & S2 & S3 & S4).
  exists nx, ny, vx, vy, ax, ay. split; [exact R1 |]. split; [exact S1 |]. split; [exact UX |]. split; [rewrite (exit_gets _ _ _ _ _ _ _ _ _ _ _ _ _ _ _ _ _ _ _ _ _ _ _ E1 UX), S4; [exact R2 | |]; intros Z; congruence |]. split; [exact UY |].
  split; [rewrite (exit_gets _ _ _ _ _ _ _ _ _ _ _ _ _ _ _ _ _ _ _ _ _ _ _ E1 UY); exact S2 |]. split; [exact Q5 |]. split; [rewrite (exit_gets _ _ _ _ _ _ _ _ _ _ _ _ _ _ _ _ _ _ _ _ _ _ _ E1 Q5), S4; [exact R3 | |]; intros Z; congruence |].
  split; [exact Q6 |]. rewrite (exit_gets _ _ _ _ _ _ _ _ _ _ _ _ _ _ _ _ _ _ _ _ _ _ _ E1 Q6). exact S3.
Qed.
(** ** The same for histories *)
Lemma hist_keys : forall w p k g, ledger_reached w -> wget p w = Some (CPool k g) ->
  p = PoolAt (pk_lp k) /\ pk_x k <> pk_y k /\ (exists n, wget (VaultAt (pk_x k) (pk_lp k)) w = Some (CToken (pk_x k) p n)) /\ (exists n, wget (VaultAt (pk_y k) (pk_lp k)) w = Some (CToken (pk_y k) p n)) /\ exists s, wget (pk_lp k) w = Some (CMint s (Some p)).
Proof. intros w p k g R G. destruct (hist_ok _ R) as [I _]. destruct (wi_pool _ I _ _ _ G) as (A & B & C & D & E & F & H). rewrite B in E. rewrite C in F. auto. Qed.
Lemma hist_accounts : forall w m is a, ledger_reached w -> Forall (fun i => pool_of i <> Some (PoolAt m)) is -> belongs m a -> wget a (wrun w is) = wget a w.
Proof. intros w m is a R. destruct (hist_ok _ R). apply isolated_accounts; assumption. Qed.
Lemma hist_vault_tokens : forall w m is a mt n, ledger_reached w -> Forall (fun i => forall d u l h c z, i = WWithdraw d u l h c z -> a_pool d <> PoolAt m) is -> wget a w = Some (CToken mt (PoolAt m) n) ->
  exists n', wget a (wrun w is) = Some (CToken mt (PoolAt m) n') /\ n <= n'.
Proof. intros w m is a mt n R. destruct (hist_ok _ R). apply pool_tokens; assumption. Qed.
Lemma hist_supply : forall w m is a s, ledger_reached w -> Forall (fun i => forall d u l h c x y, i = WDeposit d u l h c x y -> a_pool d <> PoolAt m) is -> wget a w = Some (CMint s (Some (PoolAt m))) ->
  exists s', wget a (wrun w is) = Some (CMint s' (Some (PoolAt m))) /\ s' <= s.
Proof. intros w m is a s R. destruct (hist_ok _ R). apply pool_supply; assumption. Qed.
Lemma hist_user_tokens : forall w q is a mt n, ledger_reached w -> Forall (fun i => wsigner i <> Some q) is -> wget a w = Some (CToken mt (Key q) n) -> exists n', wget a (wrun w is) = Some (CToken mt (Key q) n') /\ n <= n'.
Proof. intros w q is a mt n R. destruct (hist_ok _ R). apply user_tokens; assumption. Qed.
Lemma hist_user_mints : forall w q is a s, ledger_reached w -> Forall (fun i => wsigner i <> Some q) is -> wget a w = Some (CMint s (Some (Key q))) -> exists s', wget a (wrun w is) = Some (CMint s' (Some (Key q))) /\ s' <= s.
Proof. intros w q is a s R. destruct (hist_ok _ R). apply user_mints; assumption. Qed.
Lemma hist_user_positions : forall w q is p l h, ledger_reached w -> Forall (fun i => wsigner i <> Some q) is -> wget (PositionAt p (Key q) l h) (wrun w is) = wget (PositionAt p (Key q) l h) w.
Proof. intros w q is p l h R. destruct (hist_ok _ R). apply user_positions; assumption. Qed.
Lemma hist_forever : forall w m k g is, ledger_reached w -> wget (PoolAt m) w = Some (CPool k g) -> exists g', wget (PoolAt m) (wrun w is) = Some (CPool k g') /\ cg_tick g' = cg_tick g /\ cg_rp g' = cg_rp g.
Proof. intros w m k g is R G. destruct (hist_ok _ R). apply pool_forever; assumption. Qed.
Lemma hist_paid : forall w d u l h c xa ya w' k g, ledger_reached w -> wexec w (WDeposit d u l h c xa ya) = Ok w' -> wget (a_pool d) w = Some (CPool k g) -> pk_x k <> pk_lp k -> pk_y k <> pk_lp k ->
  exists nx ny vx vy ax ay, 0 <= ax <= nx /\ 0 <= ay <= ny /\
    wget (a_ux d) w = Some (CToken (pk_x k) (Key u) nx) /\ wget (a_ux d) w' = Some (CToken (pk_x k) (Key u) (nx - ax)) /\
    wget (a_uy d) w = Some (CToken (pk_y k) (Key u) ny) /\ wget (a_uy d) w' = Some (CToken (pk_y k) (Key u) (ny - ay)) /\
    wget (pk_xv k) w = Some (CToken (pk_x k) (a_pool d) vx) /\ wget (pk_xv k) w' = Some (CToken (pk_x k) (a_pool d) (vx + ax)) /\
    wget (pk_yv k) w = Some (CToken (pk_y k) (a_pool d) vy) /\ wget (pk_yv k) w' = Some (CToken (pk_y k) (a_pool d) (vy + ay)).
Proof. intros w d u l h c xa ya w' k g R. destruct (hist_ok _ R). apply deposit_paid. assumption. Qed.
