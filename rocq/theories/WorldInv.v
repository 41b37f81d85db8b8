(** The whole ledger: every instruction keeps the invariants. *)
From Coq Require Import ZArith QArith List Bool Lia.
From Verif Require Import Base BaseLemmas DecimalModel DecimalSpec DecimalProofs WfProofs MathModel MathProofs TickProofs BitmapModel BitmapProofs PoolWf LpProofs ChainModel ChainLemmas ChainProofs ChainSpec ChainInv ChainFlow ChainLive ChainOrder WorldModel WorldSpec WorldProofs.
Import ListNotations.
Open Scope Z_scope.

(** ** Accounts stay what they are *)
Definition ext (w w' : world) : Prop := forall a c, wget a w = Some c -> kept (Some c) (wget a w').
Lemma ext_refl : forall w, winv w -> ext w w. Proof. intros w I a c G. rewrite <- G. apply kept_refl. exact I. Qed.
Lemma kept_trans : forall a b c, kept a b -> kept b c -> kept a c.
Proof. intros [[] |] [[] |] [[] |]; cbn; intros H H0; try contradiction; subst; auto.
  - destruct H as (-> & A & B), H0 as (-> & C & D). split; [auto |]. split; [auto |]. destruct B as [B | ->]; auto.
  - destruct H as [H | ->]; auto.
Qed.
Lemma ext_trans : forall a b c, ext a b -> ext b c -> ext a c.
Proof. intros a b c A B x y G. specialize (A x y G). destruct (wget x b) as [z |] eqn:E; [| destruct y; contradiction]. eapply kept_trans; [exact A | apply B; exact E]. Qed.
Lemma ext_pool : forall w w' a k g, ext w w' -> wget a w = Some (CPool k g) -> exists g', wget a w' = Some (CPool k g').
Proof. intros w w' a k g X G. specialize (X _ _ G). destruct (wget a w') as [[] |]; try contradiction. cbn in X. subst. eauto. Qed.
Lemma ext_bitmap : forall w w' a b, ext w w' -> wget a w = Some (CBitmap b) -> exists b', wget a w' = Some (CBitmap b').
Proof. intros w w' a b X G. specialize (X _ _ G). destruct (wget a w') as [[] |]; try contradiction. eauto. Qed.
Lemma ext_pos : forall w w' a b, ext w w' -> wget a w = Some (CPos b) -> exists b', wget a w' = Some (CPos b').
Proof. intros w w' a b X G. specialize (X _ _ G). destruct (wget a w') as [[] |]; try contradiction. eauto. Qed.
Lemma ext_tick : forall w w' a b, ext w w' -> wget a w = Some (CTick b) -> exists b', wget a w' = Some (CTick b').
Proof. intros w w' a b X G. specialize (X _ _ G). destruct (wget a w') as [[] |]; try contradiction. eauto. Qed.
Lemma ext_token : forall w w' a m o n, ext w w' -> wget a w = Some (CToken m o n) -> exists o' n', wget a w' = Some (CToken m o' n') /\ ((exists k, o = Key k) \/ o' = o).
Proof. intros w w' a m o n X G. specialize (X _ _ G). destruct (wget a w') as [[] |]; try contradiction. destruct X as (-> & _ & X). eauto. Qed.
Lemma ext_mint : forall w w' a s u, ext w w' -> wget a w = Some (CMint s u) -> exists s' u', wget a w' = Some (CMint s' u') /\ ((exists k, u = Some (Key k)) \/ u' = u).
Proof. intros w w' a s u X G. specialize (X _ _ G). destruct (wget a w') as [[] |]; try contradiction. eauto. Qed.
Lemma moves_ext : forall w w' mt f fo t to n, winv w -> moves_tokens w w' mt f fo t to n -> ext w w'.
Proof.
  intros w w' mt f fo t to n I M a c G. destruct c as [| | | | m o x |]; try (rewrite (mt_other _ _ _ _ _ _ _ _ M), G; [cbn; auto | intros -> ; destruct (mt_from _ _ _ _ _ _ _ _ M) as (y & E & _); rewrite G in E; discriminate E | intros ->; destruct (mt_to _ _ _ _ _ _ _ _ M) as (y & E); rewrite G in E; discriminate E]).
  destruct (mt_kept _ _ _ _ _ _ _ _ M _ _ _ _ G) as (x' & -> & _ & P). cbn. auto.
Qed.
Lemma issues_ext : forall w w' mt a o n, winv w -> issues w w' mt a o n -> ext w w'.
Proof.
  intros w w' mt a o n I M b c G. destruct (is_acct _ _ _ _ _ _ M) as (y & E & _). destruct (is_mint _ _ _ _ _ _ M) as (s & u & E1 & E2 & _). destruct c as [| | | | m o' x | s' u'];
    try (rewrite (is_other _ _ _ _ _ _ M), G; [reflexivity | intros -> ; rewrite G in E; discriminate E | intros ->; rewrite G in E1; discriminate E1]).
  - destruct (is_kept _ _ _ _ _ _ M _ _ _ _ G) as (x' & -> & _ & _ & P). cbn. auto.
  - destruct (addr_eqb b mt) eqn:B; [apply aeq in B; subst b; rewrite E1 in G; injection G as <- <-; rewrite E2; cbn; auto |].
    rewrite (is_other _ _ _ _ _ _ M), G; [cbn; auto | intros -> ; rewrite G in E; discriminate E | intros ->; rewrite aeq_refl in B; discriminate B].
Qed.
Lemma set_ext : forall w a c c0, winv w -> wget a w = Some c0 -> kept (Some c0) (Some c) -> ext w (wset a c w).
Proof. intros w a c c0 I G K b d B. rewrite get_set. destruct (addr_eqb b a) eqn:E; [apply aeq in E; subst b; rewrite G in B; injection B as <-; exact K | rewrite B, <- B; apply kept_refl; exact I]. Qed.
Lemma new_ext : forall w a c, winv w -> wget a w = None -> ext w (wset a c w).
Proof. intros w a c I N b d B. rewrite get_other by (intros ->; rewrite N in B; discriminate B). rewrite <- B. apply kept_refl. exact I. Qed.

(** ** Which accounts Deposit and Withdraw accept *)
Record accepted (w : world) (d : passed) (user : addr) (l h c : Z) (k : pkeys) (g : cpool) (bm : bitmap) (ps : cpos) (lt ut cur : ctick) : Prop := mkAcc
  { ac_pool : a_pool d = PoolAt (pk_lp k) /\ wget (a_pool d) w = Some (CPool k g);
    ac_bm : a_bm d = BitmapAt (a_pool d) /\ wget (a_bm d) w = Some (CBitmap bm);
    ac_ps : a_ps d = PositionAt (a_pool d) user l h /\ wget (a_ps d) w = Some (CPos ps);
    ac_lt : a_lt d = TickAt (a_pool d) l /\ wget (a_lt d) w = Some (CTick lt);
    ac_ut : a_ut d = TickAt (a_pool d) h /\ wget (a_ut d) w = Some (CTick ut);
    ac_cur : a_cur d = TickAt (a_pool d) c /\ wget (a_cur d) w = Some (CTick cur);
    ac_lpm : a_lpm d = pk_lp k;
    ac_ux : exists n, wget (a_ux d) w = Some (CToken (pk_x k) user n);
    ac_uy : exists n, wget (a_uy d) w = Some (CToken (pk_y k) user n);
    ac_xv : a_xv d = pk_xv k;
    ac_yv : a_yv d = pk_yv k;
    ac_lpv : a_lpv d = LpVaultAt (a_pool d) (a_lpm d);
    ac_lp : exists o n, wget (a_lp d) w = Some (CToken (pk_lp k) o n);
    ac_args : (l <? h) && (ct_tick lt =? cp_lower ps) && (ct_tick ut =? cp_upper ps) && (ct_tick cur =? c) && (ct_tick cur =? cg_tick g) = true }.
Lemma checked_Ok : forall w d user l h c k g bm ps lt ut cur, checked w d user l h c = Ok (k, g, bm, ps, lt, ut, cur) -> accepted w d user l h c k g bm ps lt ut cur.
Proof.
  intros w d user l h c k g bm ps lt ut cur H. unfold checked in H. bd H a0 E0. destruct a0 as [k0 g0]. bd H a1 E1. bd H a2 E2. bd H a3 E3. bd H a4 E4. bd H a5 E5. bd H a6 E6. destruct a6 as [s6 u6]. bd H a7 E7. destruct a7 as [[mx ox] nx]. bd H a8 E8. destruct a8 as [[my oy] ny].
  bd H a9 E9. destruct a9 as [[m9 o9] n9]. bd H b0 F0. destruct b0 as [[m10 o10] n10]. bd H b1 F1. destruct b1 as [[m11 o11] n11]. bd H b2 F2. destruct b2 as [[ml ol] nl].
  bd H c0 G0. bd H c1 G1. bd H c2 G2. bd H c3 G3. bd H c4 G4. bd H c5 G5. bd H c6 G6. bd H c7 G7. bd H c8 G8. bd H c9 G9. injection H as <- <- <- <- <- <- <-.
  apply need_Ok in G0, G1, G2, G3, G4, G5, G6, G7, G8, G9. apply andb_true_iff in G0, G1, G2, G3, G7, G8, G9. rewrite !andb_true_iff in G4. rewrite !andb_true_iff in G6. destruct G0 as [P0 P1], G1 as [P2 P3], G2 as [P4 P5], G3 as [P6 P7], G4 as [[P8 P9] Q0], G6 as [[[Q1 Q2] Q3] Q4], G7 as [Q5 Q6], G8 as [Q7 Q8], G9 as [Q9 R0].
  apply aeq in P0, P1, P2, P4, P6, P8, G5, Q1, Q2, Q3, Q4, Q5, Q6, Q7, Q8, Q9, R0. apply get_pool_Ok in E0. apply get_bitmap_Ok in E1. apply get_pos_Ok in E2. apply get_tick_Ok in E3, E4, E5. apply get_token_Ok in E7, E8, F2. subst mx ox my oy ml. cbn [fst snd] in E0.
  split; eauto. rewrite P3, P5, P7, P9, Q0. reflexivity.
Qed.

(** ** The parts of a deposit and of a withdrawal *)
Lemma exit_inv : forall w d user l h c k g bm ps lt ut cur g' bm' ps' lt' ut' w0, winv w -> ext w0 w -> accepted w0 d user l h c k g bm ps lt ut cur -> winv (w_exit w d k g' bm' ps' lt' ut' cur) /\ ext w (w_exit w d k g' bm' ps' lt' ut' cur) /\ forall m sel, tokens (w_exit w d k g' bm' ps' lt' ut' cur) m sel = tokens w m sel.
Proof.
  intros w d user l h c k g bm ps lt ut cur g' bm' ps' lt' ut' w0 I X A. unfold w_exit. destruct (ac_pool _ _ _ _ _ _ _ _ _ _ _ _ _ A) as [_ B1]. destruct (ac_bm _ _ _ _ _ _ _ _ _ _ _ _ _ A) as [_ B2]. destruct (ac_ps _ _ _ _ _ _ _ _ _ _ _ _ _ A) as [_ B3].
  destruct (ac_lt _ _ _ _ _ _ _ _ _ _ _ _ _ A) as [_ B4]. destruct (ac_ut _ _ _ _ _ _ _ _ _ _ _ _ _ A) as [_ B5]. destruct (ac_cur _ _ _ _ _ _ _ _ _ _ _ _ _ A) as [_ B6].
  destruct (ext_pool _ _ _ _ _ X B1) as [x1 C1]. destruct (write_inv w (a_pool d) (CPool k g') _ I C1 Logic.I Logic.I eq_refl) as [I1 T1]. pose proof (set_ext w _ (CPool k g') _ I C1 eq_refl) as X1. set (w1 := wset _ (CPool k g') w) in *. clearbody w1.
  destruct (ext_bitmap _ _ _ _ (ext_trans _ _ _ X X1) B2) as [x2 C2]. destruct (write_inv w1 (a_bm d) (CBitmap bm') _ I1 C2 Logic.I Logic.I Logic.I) as [I2 T2]. pose proof (ext_trans _ _ _ X1 (set_ext w1 _ (CBitmap bm') _ I1 C2 Logic.I)) as X2. set (w2 := wset _ (CBitmap bm') w1) in *. clearbody w2.
  destruct (ext_pos _ _ _ _ (ext_trans _ _ _ X X2) B3) as [x3 C3]. destruct (write_inv w2 (a_ps d) (CPos ps') _ I2 C3 Logic.I Logic.I Logic.I) as [I3 T3]. pose proof (ext_trans _ _ _ X2 (set_ext w2 _ (CPos ps') _ I2 C3 Logic.I)) as X3. set (w3 := wset _ (CPos ps') w2) in *. clearbody w3.
  destruct (ext_tick _ _ _ _ (ext_trans _ _ _ X X3) B4) as [x4 C4]. destruct (write_inv w3 (a_lt d) (CTick lt') _ I3 C4 Logic.I Logic.I Logic.I) as [I4 T4]. pose proof (ext_trans _ _ _ X3 (set_ext w3 _ (CTick lt') _ I3 C4 Logic.I)) as X4. set (w4 := wset _ (CTick lt') w3) in *. clearbody w4.
  destruct (ext_tick _ _ _ _ (ext_trans _ _ _ X X4) B5) as [x5 C5]. destruct (write_inv w4 (a_ut d) (CTick ut') _ I4 C5 Logic.I Logic.I Logic.I) as [I5 T5]. pose proof (ext_trans _ _ _ X4 (set_ext w4 _ (CTick ut') _ I4 C5 Logic.I)) as X5. set (w5 := wset _ (CTick ut') w4) in *. clearbody w5.
  destruct (ext_tick _ _ _ _ (ext_trans _ _ _ X X5) B6) as [x6 C6]. destruct (write_inv w5 (a_cur d) (CTick cur) _ I5 C6 Logic.I Logic.I Logic.I) as [I6 T6]. pose proof (ext_trans _ _ _ X5 (set_ext w5 _ (CTick cur) _ I5 C6 Logic.I)) as X6.
  split; [exact I6 |]. split; [exact X6 |]. intros m sel. rewrite T6, T5, T4, T3, T2, T1. reflexivity.
Qed.
Record deposit_steps (w : world) (d : passed) (u : addr) (l h c xa ya : Z) (w' : world) (k : pkeys) (g : cpool) (bm : bitmap) (ps : cpos) (lt ut cur : ctick)
  (g' : cpool) (bm' : bitmap) (ps' : cpos) (lt' ut' : ctick) (n ax ay : Z) (xd yd : decimal) (lo : addr) (w1 w2 w3 : world) : Prop := mkDS
  { ds_acc : accepted w d u l h c k g bm ps lt ut cur;
    ds_body : deposit_body g bm ps lt ut l h c xa ya = Ok (g', bm', ps', lt', ut', n, xd, yd);
    ds_mint : issues w w1 (pk_lp k) (a_lp d) lo n /\ 0 <= n < U64;
    ds_ax : d_abs xd = Ok ax /\ 0 <= ax < U64;
    ds_x : moves_tokens w1 w2 (pk_x k) (a_ux d) u (pk_xv k) (PoolAt (pk_lp k)) ax;
    ds_ay : d_abs yd = Ok ay /\ 0 <= ay < U64;
    ds_y : moves_tokens w2 w3 (pk_y k) (a_uy d) u (pk_yv k) (PoolAt (pk_lp k)) ay;
    ds_exit : w' = w_exit w3 d k g' bm' ps' lt' ut' cur /\ winv w' /\ ext w3 w' /\ (forall m sel, tokens w' m sel = tokens w3 m sel) /\ ext w w1 /\ ext w1 w2 /\ ext w2 w3 }.
Lemma deposit_parts : forall w d u l h c xa ya w', winv w -> w_deposit w d u l h c xa ya = Ok w' ->
  exists k g bm ps lt ut cur g' bm' ps' lt' ut' n ax ay xd yd lo w1 w2 w3, deposit_steps w d u l h c xa ya w' k g bm ps lt ut cur g' bm' ps' lt' ut' n ax ay xd yd lo w1 w2 w3.
Proof.
  intros w d u l h c xa ya w' I H. unfold w_deposit in H. bd H r E1. destruct r as [[[[[[k g] bm] ps] lt] ut] cur]. apply checked_Ok in E1. bd H r E2. destruct r as [[[[[[[g' bm'] ps'] lt'] ut'] n] xd] yd].
  bd H w1 E3. bd H ax E4. bd H w2 E5. bd H ay E6. bd H w3 E7. injection H as H. symmetry in H.
  destruct (ac_pool _ _ _ _ _ _ _ _ _ _ _ _ _ E1) as [P1 P2]. destruct (wi_pool _ I _ _ _ P2) as (Q1 & Q2 & Q3 & Q4 & [v1 Q5] & [v2 Q6] & [s Q7]). rewrite P1 in Q5, Q6, Q7.
  rewrite (ac_lpm _ _ _ _ _ _ _ _ _ _ _ _ _ E1) in E3. destruct (t_mint_inv w (pk_lp k) (a_lp d) _ n w1 I E3) as (lo & M & Nn & _). pose proof (issues_ext _ _ _ _ _ _ I M) as X1. pose proof (is_inv _ _ _ _ _ _ M) as I1.
  destruct (ac_ux _ _ _ _ _ _ _ _ _ _ _ _ _ E1) as [nx UX]. destruct (ac_uy _ _ _ _ _ _ _ _ _ _ _ _ _ E1) as [ny UY]. rewrite (ac_xv _ _ _ _ _ _ _ _ _ _ _ _ _ E1) in E5. rewrite (ac_yv _ _ _ _ _ _ _ _ _ _ _ _ _ E1) in E7.
  assert (TK : forall a z z' m m' o o' x x', ext z z' -> wget a z = Some (CToken m o x) -> wget a z' = Some (CToken m' o' x') -> m' = m /\ ((exists k, o = Key k) \/ o' = o)) by (intros a z z' m m' o o' x x' X A B; destruct (ext_token _ _ _ _ _ _ X A) as (o1 & x1 & C & D); rewrite B in C; injection C as -> -> ->; auto).
  destruct (transfer_inv _ _ _ _ _ _ I1 E5) as (mt & to & M2 & N2). pose proof (moves_ext _ _ _ _ _ _ _ _ I1 M2) as X2. pose proof (mt_inv _ _ _ _ _ _ _ _ M2) as I2.
  destruct (transfer_inv _ _ _ _ _ _ I2 E7) as (mt' & to' & M3 & N3). pose proof (moves_ext _ _ _ _ _ _ _ _ I2 M3) as X3. pose proof (mt_inv _ _ _ _ _ _ _ _ M3) as I3.
  assert (mt = pk_x k /\ to = PoolAt (pk_lp k)) as [-> ->].
  { destruct (mt_to _ _ _ _ _ _ _ _ M2) as (y & E). destruct (TK _ _ _ _ _ _ _ _ _ X1 Q5 E) as [-> [[z B] | B]]; [discriminate B | auto]. }
  assert (mt' = pk_y k /\ to' = PoolAt (pk_lp k)) as [-> ->].
  { destruct (mt_to _ _ _ _ _ _ _ _ M3) as (y & E). destruct (TK _ _ _ _ _ _ _ _ _ (ext_trans _ _ _ X1 X2) Q6 E) as [-> [[z B] | B]]; [discriminate B | auto]. }
  destruct (exit_inv w3 d u l h c k g bm ps lt ut cur g' bm' ps' lt' ut' w I3 (ext_trans _ _ _ (ext_trans _ _ _ X1 X2) X3) E1) as (I4 & X4 & T4). rewrite <- H in I4, X4, T4.
  exists k, g, bm, ps, lt, ut, cur, g', bm', ps', lt', ut', n, ax, ay, xd, yd, lo, w1, w2, w3. split; auto 12.
Qed.
Record withdraw_steps (w : world) (d : passed) (u : addr) (l h c n : Z) (w' : world) (k : pkeys) (g : cpool) (bm : bitmap) (ps : cpos) (lt ut cur : ctick)
  (g' : cpool) (bm' : bitmap) (ps' : cpos) (lt' ut' : ctick) (ax ay : Z) (xd yd : decimal) (w1 w2 w3 : world) : Prop := mkWS
  { ws_acc : accepted w d u l h c k g bm ps lt ut cur;
    ws_body : withdraw_body g bm ps lt ut l h c n = Ok (g', bm', ps', lt', ut', xd, yd);
    ws_burn : issues w w1 (pk_lp k) (a_lp d) u (- n) /\ 0 <= n < U64;
    ws_ax : d_abs xd = Ok ax /\ 0 <= ax < U64;
    ws_x : moves_tokens w1 w2 (pk_x k) (pk_xv k) (PoolAt (pk_lp k)) (a_ux d) u ax;
    ws_ay : d_abs yd = Ok ay /\ 0 <= ay < U64;
    ws_y : moves_tokens w2 w3 (pk_y k) (pk_yv k) (PoolAt (pk_lp k)) (a_uy d) u ay;
    ws_exit : w' = w_exit w3 d k g' bm' ps' lt' ut' cur /\ winv w' /\ ext w3 w' /\ (forall m sel, tokens w' m sel = tokens w3 m sel) /\ ext w w1 /\ ext w1 w2 /\ ext w2 w3 }.
Lemma withdraw_parts : forall w d u l h c n w', winv w -> w_withdraw w d u l h c n = Ok w' ->
  exists k g bm ps lt ut cur g' bm' ps' lt' ut' ax ay xd yd w1 w2 w3, withdraw_steps w d u l h c n w' k g bm ps lt ut cur g' bm' ps' lt' ut' ax ay xd yd w1 w2 w3.
Proof.
  intros w d u l h c n w' I H. unfold w_withdraw in H. bd H r E1. destruct r as [[[[[[k g] bm] ps] lt] ut] cur]. apply checked_Ok in E1. bd H r E2. destruct r as [[[[[[g' bm'] ps'] lt'] ut'] xd] yd].
  bd H w1 E3. bd H ax E4. bd H w2 E5. bd H ay E6. bd H w3 E7. injection H as H. symmetry in H.
  destruct (ac_pool _ _ _ _ _ _ _ _ _ _ _ _ _ E1) as [P1 P2]. rewrite P1 in E5, E7.
  rewrite (ac_lpm _ _ _ _ _ _ _ _ _ _ _ _ _ E1) in E3. destruct (t_burn_inv w (pk_lp k) (a_lp d) _ n w1 I E3) as (M & Nn). pose proof (issues_ext _ _ _ _ _ _ I M) as X1. pose proof (is_inv _ _ _ _ _ _ M) as I1.
  destruct (ac_ux _ _ _ _ _ _ _ _ _ _ _ _ _ E1) as [nx UX]. destruct (ac_uy _ _ _ _ _ _ _ _ _ _ _ _ _ E1) as [ny UY]. rewrite (ac_xv _ _ _ _ _ _ _ _ _ _ _ _ _ E1) in E5. rewrite (ac_yv _ _ _ _ _ _ _ _ _ _ _ _ _ E1) in E7.
  destruct (transfer_inv _ _ _ _ _ _ I1 E5) as (mt & to & M2 & N2). pose proof (moves_ext _ _ _ _ _ _ _ _ I1 M2) as X2. pose proof (mt_inv _ _ _ _ _ _ _ _ M2) as I2.
  destruct (transfer_inv _ _ _ _ _ _ I2 E7) as (mt' & to' & M3 & N3). pose proof (moves_ext _ _ _ _ _ _ _ _ I2 M3) as X3. pose proof (mt_inv _ _ _ _ _ _ _ _ M3) as I3.
  assert (mt = pk_x k /\ to = u) as [-> ->].
  { destruct (mt_to _ _ _ _ _ _ _ _ M2) as (y & E). destruct (is_kept _ _ _ _ _ _ M _ _ _ _ UX) as (y' & E' & _). rewrite E in E'. injection E' as -> -> _. auto. }
  assert (mt' = pk_y k /\ to' = u) as [-> ->].
  { destruct (mt_to _ _ _ _ _ _ _ _ M3) as (y & E). destruct (is_kept _ _ _ _ _ _ M _ _ _ _ UY) as (y' & E' & _). destruct (mt_kept _ _ _ _ _ _ _ _ M2 _ _ _ _ E') as (y2 & E2' & _). rewrite E in E2'. injection E2' as -> -> _. auto. }
  destruct (exit_inv w3 d u l h c k g bm ps lt ut cur g' bm' ps' lt' ut' w I3 (ext_trans _ _ _ (ext_trans _ _ _ X1 X2) X3) E1) as (I4 & X4 & T4). rewrite <- H in I4, X4, T4.
  exists k, g, bm, ps, lt, ut, cur, g', bm', ps', lt', ut', ax, ay, xd, yd, w1, w2, w3. split; auto 12.
Qed.

(** ** Creating a pool *)
Record pool_made (w w' : world) (xm ym lpm : addr) (tick : Z) : Prop := mkPM
  { pm_price : exists rp rp', tick_to_rp tick = Ok rp /\ to_scale rp ROOT_PRICE_SCALE = Ok rp' /\
      wget (PoolAt lpm) w' = Some (CPool (mkPK xm ym lpm (VaultAt xm lpm) (VaultAt ym lpm)) (mkCPool 0 LIQUIDITY_SCALE (dval rp') tick (mkFee FEE_SCALE 0 0 0 0)));
    pm_fresh : wget (PoolAt lpm) w = None /\ xm <> ym;
    pm_vaults : wget (VaultAt xm lpm) w = None /\ wget (VaultAt ym lpm) w = None;
    pm_old : forall a c, wget a w = Some c -> wget a w' = Some c;
    pm_only : forall a, a <> PoolAt lpm -> (forall m l, a <> VaultAt m l) -> (forall p l, a <> LpVaultAt p l) -> wget a w' = wget a w;
    pm_new : forall a c, wget a w = None -> wget a w' = Some c -> a = PoolAt lpm \/ ((exists mt o n, c = CToken mt o n) /\ match a with VaultAt _ l => l = lpm | LpVaultAt _ l => l = lpm | _ => False end);
    pm_sum : forall m sel, tokens w' m sel = tokens w m sel;
    pm_lp : exists s, wget lpm w = Some (CMint s (Some (PoolAt lpm))) /\ (s = 0 -> forall sel, tokens w lpm sel = 0);
    pm_mints : (exists s u, wget xm w = Some (CMint s u)) /\ (exists s u, wget ym w = Some (CMint s u)) }.
Lemma init_pool_parts : forall w pool xm ym lpm xv yv lpv tick w', winv w -> w_init_pool w pool xm ym lpm xv yv lpv tick = Ok w' -> pool = PoolAt lpm /\ winv w' /\ ext w w' /\ pool_made w w' xm ym lpm tick.
Proof.
  intros w pool xm ym lpm xv yv lpv tick w' I H. unfold w_init_pool in H. bd H r E1. destruct r as [sx ux]. bd H r E2. destruct r as [sy uy]. bd H r E3. destruct r as [sl ul]. bd H r E4. bd H r0 E5. bd H rp E6. bd H rp' E7. remember (mkCPool 0 LIQUIDITY_SCALE (dval rp') tick (mkFee FEE_SCALE 0 0 0 0)) as gg eqn:EG.
  assert (PR : exists rp rp', tick_to_rp tick = Ok rp /\ to_scale rp ROOT_PRICE_SCALE = Ok rp' /\ gg = mkCPool 0 LIQUIDITY_SCALE (dval rp') tick (mkFee FEE_SCALE 0 0 0 0)) by (exists rp, rp'; exact (conj E6 (conj E7 EG))). clear E6 E7 EG rp rp'.
  bd H w1 E8. bd H w2 E9. bd H w3 F1.
  apply get_mint_Ok in E1, E2, E3. apply need_Ok in E5. rewrite !andb_true_iff in E5. destruct E5 as (((A1 & A2) & A3) & A4). apply aeq in A1, A2, A3, A4. subst pool xv yv lpv. destruct ul as [ul |]; [| discriminate E4]. apply need_Ok in E4. apply aeq in E4. subst ul. clear r r0.
  apply create_Ok in E8, E9, F1, H. destruct E8 as [N1 ->], E9 as [N2 ->], F1 as [N3 ->], H as [N4 ->].
  assert (XY : xm <> ym) by (intros ->; rewrite get_same in N3; discriminate N3).
  rewrite get_other in N2 by discriminate. rewrite !get_other in N3 by (try discriminate; intros [=]; auto). rewrite !get_other in N4 by discriminate.
  set (kk := mkPK xm ym lpm (VaultAt xm lpm) (VaultAt ym lpm)).
  set (w4 := wset (LpVaultAt (PoolAt lpm) lpm) _ _).
  assert (GET : forall b, wget b w4 = if addr_eqb b (LpVaultAt (PoolAt lpm) lpm) then Some (CToken lpm (PoolAt lpm) 0) else if addr_eqb b (VaultAt ym lpm) then Some (CToken ym (PoolAt lpm) 0)
    else if addr_eqb b (VaultAt xm lpm) then Some (CToken xm (PoolAt lpm) 0) else if addr_eqb b (PoolAt lpm) then Some (CPool kk gg) else wget b w) by (intros b; unfold w4; rewrite !get_set; reflexivity).
  assert (SUM : forall m sel, tokens w4 m sel = tokens w m sel).
  { intros m sel. unfold w4. rewrite tokens_set, !get_other, N4, tokens_set, !get_other, N3, tokens_set, get_other, N2, tokens_set, N1 by (try discriminate; intros [=]; auto). rewrite (tk_not _ _ _ (CPool _ _)) by exact Logic.I. unfold tk. destruct (_ && _), (_ && _), (_ && _); lia. }
  assert (OLD : forall b c, wget b w = Some c -> wget b w4 = Some c).
  { intros b c G. rewrite GET. rewrite !aneq; [exact G | | | |]; intros ->; [rewrite N1 in G | rewrite N2 in G | rewrite N3 in G | rewrite N4 in G]; discriminate G. }
  assert (ND : NoDup (map fst w4)) by (unfold w4; repeat apply set_nodup; exact (wi_nodup _ I)). clearbody w4.
  assert (NONE : forall b, wget b w4 = None -> wget b w = None) by (intros b H; destruct (wget b w) eqn:E; [rewrite (OLD _ _ E) in H; exact H | reflexivity]).
  assert (GX : wget (VaultAt xm lpm) w4 = Some (CToken xm (PoolAt lpm) 0)) by (rewrite GET, aneq, aneq, aeq_refl; [reflexivity | intros [=]; auto | discriminate]).
  assert (GY : wget (VaultAt ym lpm) w4 = Some (CToken ym (PoolAt lpm) 0)) by (rewrite GET, aneq, aeq_refl; [reflexivity | discriminate]).
  assert (GP : wget (PoolAt lpm) w4 = Some (CPool kk gg)) by (rewrite GET, aneq, aneq, aneq, aeq_refl by discriminate; reflexivity).
  assert (ONLY : forall a, a <> PoolAt lpm -> (forall m l, a <> VaultAt m l) -> (forall p l, a <> LpVaultAt p l) -> wget a w4 = wget a w) by (intros a B1 B2 B3; rewrite GET, !aneq by auto; reflexivity).
  destruct (wi_mint _ I _ _ _ E3) as (M1 & M2 & M3).
  split; [reflexivity |]. split; [| split].
  - split; [exact ND | | | | | |].
    + intros b k g G. pose proof G as G'. rewrite GET in G. destruct (addr_eqb b (LpVaultAt (PoolAt lpm) lpm)); [discriminate G |]. destruct (addr_eqb b (VaultAt ym lpm)); [discriminate G |]. destruct (addr_eqb b (VaultAt xm lpm)); [discriminate G |]. destruct (addr_eqb b (PoolAt lpm)) eqn:E.
      * apply aeq in E. subst b. injection G as <- <-. unfold kk. cbn [pk_x pk_y pk_lp pk_xv pk_yv]. repeat (split; [solve [auto | eauto] |]). eauto.
      * destruct (wi_pool _ I _ _ _ G) as (-> & F1 & F2 & F3 & [n1 F4] & [n2 F5] & [s F6]). repeat (split; [solve [auto | eauto] |]). eauto.
    + intros b m o n G. rewrite GET in G. assert (MT : forall m s u, wget m w = Some (CMint s u) -> exists s u, wget m w4 = Some (CMint s u)) by eauto.
      destruct (addr_eqb b (LpVaultAt (PoolAt lpm) lpm)); [injection G as <- <- <-; split; [lia | eauto] |]. destruct (addr_eqb b (VaultAt ym lpm)); [injection G as <- <- <-; split; [lia | eauto] |]. destruct (addr_eqb b (VaultAt xm lpm)); [injection G as <- <- <-; split; [lia | eauto] |]. destruct (addr_eqb b (PoolAt lpm)); [discriminate G |].
      destruct (wi_token _ I _ _ _ _ G) as (P & s & u & M). split; [exact P | eauto].
    + intros b s u G. rewrite GET in G. destruct (addr_eqb b (LpVaultAt (PoolAt lpm) lpm)); [discriminate G |]. destruct (addr_eqb b (VaultAt ym lpm)); [discriminate G |]. destruct (addr_eqb b (VaultAt xm lpm)); [discriminate G |]. destruct (addr_eqb b (PoolAt lpm)); [discriminate G |].
      rewrite SUM. exact (wi_mint _ I _ _ _ G).
    + intros p b Q G. rewrite ONLY in G by discriminate. exact (wi_bitmap _ I _ _ (NONE _ Q) G).
    + intros p n b Q G. rewrite ONLY in G by discriminate. exact (wi_tick _ I _ _ _ (NONE _ Q) G).
    + intros p u l h b Q G. rewrite ONLY in G by discriminate. exact (wi_pos _ I _ _ _ _ _ (NONE _ Q) G).
  - intros b c G. rewrite (OLD _ _ G), <- G. apply kept_refl. exact I.
  - destruct PR as (rp & rp' & R1 & R2 & R3). split; [exists rp, rp'; split; [exact R1 |]; split; [exact R2 |]; rewrite <- R3; exact GP | | | | | | | |]; clear R1 R2 R3; eauto.
    + intros b c Nb G. rewrite GET in G. destruct (addr_eqb b (LpVaultAt (PoolAt lpm) lpm)) eqn:K1; [apply aeq in K1; subst b; injection G as <-; right; split; [eauto | reflexivity] |]. destruct (addr_eqb b (VaultAt ym lpm)) eqn:K2; [apply aeq in K2; subst b; injection G as <-; right; split; [eauto | reflexivity] |].
      destruct (addr_eqb b (VaultAt xm lpm)) eqn:K3; [apply aeq in K3; subst b; injection G as <-; right; split; [eauto | reflexivity] |]. destruct (addr_eqb b (PoolAt lpm)) eqn:K4; [apply aeq in K4; auto |]. rewrite Nb in G. discriminate G.
    + exists sl. split; [exact E3 |]. intros Z0 sel. pose proof (tokens_le w lpm sel all (fun _ _ _ => eq_refl) (wi_nn _ I)). lia.
    + split; eauto.
Qed.
Lemma set_owner_inv : forall w a m u o n, winv w -> wget a w = Some (CToken m (Key u) n) -> winv (wset a (CToken m o n) w) /\ ext w (wset a (CToken m o n) w) /\
  forall mt sel, tokens (wset a (CToken m o n) w) mt sel = tokens w mt sel + one (addr_eqb m mt) (one (sel a o) n - one (sel a (Key u)) n).
Proof.
  intros w a m u o n I G. pose proof (wi_token _ I _ _ _ _ G) as [P _]. assert (K : kept (Some (CToken m (Key u) n)) (Some (CToken m o n))) by (cbn; eauto).
  assert (SUM : forall mt sel, tokens (wset a (CToken m o n) w) mt sel = tokens w mt sel + one (addr_eqb m mt) (one (sel a o) n - one (sel a (Key u)) n)) by (intros mt sel; rewrite tokens_set, G; unfold tk, one; destruct (addr_eqb m mt), (sel a o), (sel a (Key u)); cbn [andb]; lia).
  split; [| split; [exact (set_ext _ _ _ _ I G K) | exact SUM]]. apply (winv_kept w); auto.
  - apply set_nodup, (wi_nodup _ I).
  - intros b. rewrite get_set. destruct (addr_eqb b a) eqn:E; [apply aeq in E; subst b; rewrite G; exact K | apply kept_refl; auto].
  - intros b s v B. rewrite SUM. unfold all at 2 3. rewrite one_all, Z.add_0_r. rewrite get_set in B. destruct (addr_eqb b a); [discriminate B |]. destruct (wi_mint _ I _ _ _ B) as (M1 & M2 & _). split; [exact M1 | exact M2].
Qed.
Lemma set_authority_inv : forall w m s u o, winv w -> wget m w = Some (CMint s (Some (Key u))) -> winv (wset m (CMint s o) w) /\ ext w (wset m (CMint s o) w) /\ (forall mt sel, tokens (wset m (CMint s o) w) mt sel = tokens w mt sel).
Proof.
  intros w m s u o I G. assert (K : kept (Some (CMint s (Some (Key u)))) (Some (CMint s o))) by (cbn; eauto).
  assert (SUM : forall mt sel, tokens (wset m (CMint s o) w) mt sel = tokens w mt sel) by (intros mt sel; rewrite tokens_set, G, !tk_not by exact Logic.I; lia).
  split; [| split; [exact (set_ext _ _ _ _ I G K) | exact SUM]]. apply (winv_kept w); auto.
  - apply set_nodup, (wi_nodup _ I).
  - intros b. rewrite get_set. destruct (addr_eqb b m) eqn:E; [apply aeq in E; subst b; rewrite G; exact K | apply kept_refl; auto].
  - intros b s0 v B. rewrite SUM. rewrite get_set in B. destruct (addr_eqb b m) eqn:E; [apply aeq in E; subst b; injection B as <- <-; destruct (wi_mint _ I _ _ _ G) as (M1 & M2 & _); auto |]. destruct (wi_mint _ I _ _ _ B) as (M1 & M2 & _). split; [exact M1 | exact M2].
Qed.
