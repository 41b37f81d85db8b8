(** What the single-pool program allows can be done on the ledger by passing the right accounts. *)
From Coq Require Import ZArith List Bool Lia.
From Verif Require Import Base BaseLemmas DecimalModel MathModel BitmapModel PoolWf ChainModel ChainLemmas ChainSpec ChainInv ChainFlow ChainLive ChainOrder WorldModel WorldSpec WorldProofs WorldInv WorldSim WorldStep WorldThm.
Import ListNotations.
Open Scope Z_scope.

(** ** Every pool has its LP vault *)
Definition lpvs (w : world) : Prop := forall m k g, wget (PoolAt m) w = Some (CPool k g) -> exists mt o n, wget (LpVaultAt (PoolAt m) m) w = Some (CToken mt o n).
Lemma init_lpv : forall w pool xm ym lpm xv yv lpv t w', w_init_pool w pool xm ym lpm xv yv lpv t = Ok w' -> exists mt o n, wget (LpVaultAt (PoolAt lpm) lpm) w' = Some (CToken mt o n).
Proof.
  intros w pool xm ym lpm xv yv lpv t w' H. unfold w_init_pool in H. bd H r1 E1. destruct r1. bd H r2 E2. destruct r2. bd H r3 E3. destruct r3. bd H r4 E4. bd H r5 E5. apply need_Ok in E5. rewrite !andb_true_iff in E5. destruct E5 as (((A1 & _) & _) & A4). apply aeq in A1, A4. subst pool lpv.
  destruct (tick_to_rp t) as [rp | | |]; [| discriminate H | discriminate H | discriminate H]. cbn [bind] in H. destruct (to_scale rp ROOT_PRICE_SCALE) as [rp' | | |]; [| discriminate H | discriminate H | discriminate H]. cbn [bind] in H. bd H w1 E8. bd H w2 E9. bd H w3 E10.
  apply create_Ok in H. destruct H as [_ ->]. rewrite get_same. eauto.
Qed.
Lemma lpvs_step : forall w i w', winv w -> in_place w -> lpvs w -> wexec w i = Ok w' -> lpvs w'.
Proof.
  intros w i w' I P V H m k g G. destruct (wexec_inv _ _ _ I H) as [I' X]. destruct (wget (PoolAt m) w) as [c |] eqn:E.
  - destruct (P _ _ E) as (k0 & g0 & ->). destruct (V _ _ _ E) as (mt & o & n & L). destruct (ext_token _ _ _ _ _ _ X L) as (o' & n' & L' & _). eauto.
  - destruct (new_pool _ _ _ _ _ _ I P H E G) as (p & xm & ym & xv & yv & lpv & t & ->). unfold wexec in H. destruct (wargs_ok _); [| discriminate H]. cbn [negb] in H. exact (init_lpv _ _ _ _ _ _ _ _ _ _ H).
Qed.
Lemma lpvs_run : forall is w, winv w -> in_place w -> lpvs w -> lpvs (wrun w is).
Proof.
  induction is as [| i r IH]; intros w I P V; [exact V |]. change (wrun w (i :: r)) with (wrun (wtx w i) r). destruct (wtx_ok w i I P) as (A & _ & C). apply IH; [exact A | exact C |].
  unfold wtx. destruct (wexec w i) eqn:E; [| exact V | exact V | exact V]. exact (lpvs_step _ _ _ I P V E).
Qed.
Lemma lpvs_initial : forall w, initial w -> lpvs w.
Proof. intros w IN m k g G. destruct (proj2 IN _ _ G) as [[q Q] _]. discriminate Q. Qed.

(** ** The parts of a deposit and a withdrawal of the single-pool model *)
Lemma deposit_decompose : forall s u l h c xa ya to s', i_deposit s u l h c xa ya to = Ok s' ->
  exists g bm ps lt ut cur g' bm' ps' lt' ut' n xd yd lp sup ax ay lx ly,
  load_accounts s u l h c = Ok (g, bm, ps, lt, ut, cur) /\ deposit_body g bm ps lt ut l h c xa ya = Ok (g', bm', ps', lt', ut', n, xd, yd) /\ spl_mint (c_lp s) (c_lp_supply s) to n = Ok (lp, sup) /\
  d_abs xd = Ok ax /\ spl_transfer (c_x s) (HUser u) HVault ax = Ok lx /\ d_abs yd = Ok ay /\ spl_transfer (c_y s) (HUser u) HVault ay = Ok ly /\
  c_x s' = lx /\ c_y s' = ly /\ c_lp_supply s' = sup.
Proof.
  intros s u l h c xa ya to s' B. unfold i_deposit in B. destruct (load_accounts s u l h c) as [[[[[[g bm] ps] lt] ut] cur] | | |]; [| discriminate B | discriminate B | discriminate B]. cbn [bind] in B.
  exists g, bm, ps, lt, ut, cur. unfold deposit_body.
  destruct (to_compute_scale (from_u64 xa)) as [x | | |]; [| discriminate B | discriminate B | discriminate B]. cbn [bind] in B |- *. destruct (to_compute_scale (from_u64 ya)) as [y | | |]; [| discriminate B | discriminate B | discriminate B]. cbn [bind] in B |- *.
  destruct (tick_to_rp l) as [a | | |]; [| discriminate B | discriminate B | discriminate B]. cbn [bind] in B |- *. destruct (tick_to_rp h) as [b | | |]; [| discriminate B | discriminate B | discriminate B]. cbn [bind] in B |- *. destruct (tick_to_rp c) as [rp | | |]; [| discriminate B | discriminate B | discriminate B]. cbn [bind] in B |- *.
  destruct (liq_from_x_y_rp_rng x y rp a b) as [d | | |]; [| discriminate B | discriminate B | discriminate B]. cbn [bind] in B |- *. destruct (dneg d); [discriminate B |].
  destruct (if ct_gross lt =? 0 then activate_tick bm 0 else Ok bm) as [bm1 | | |]; [| discriminate B | discriminate B | discriminate B]. cbn [bind] in B |- *. destruct (if ct_gross ut =? 0 then activate_tick bm1 40000 else Ok bm1) as [bm2 | | |]; [| discriminate B | discriminate B | discriminate B]. cbn [bind] in B |- *.
  destruct (x_from_l_rp_rng d rp a b) as [xi | | |]; [| discriminate B | discriminate B | discriminate B]. cbn [bind] in B |- *. destruct (y_from_l_rp_rng d rp a b) as [yi | | |]; [| discriminate B | discriminate B | discriminate B]. cbn [bind] in B |- *.
  destruct (compute_latest_fee l h c (cg_fee g) (ct_fee lt) (ct_fee ut) (fe_scale (cp_fee ps))) as [nf | | |]; [| discriminate B | discriminate B | discriminate B]. cbn [bind] in B |- *.
  destruct (unwrap (c_update_position ps lt ut d l h nf)) as [[[p1 l1] u1] | | |]; [| discriminate B | discriminate B | discriminate B]. cbn [bind] in B |- *. destruct (c_update_global g l h c d) as [g1 | | |]; [| discriminate B | discriminate B | discriminate B]. cbn [bind] in B |- *.
  destruct (to_scale (mkD (wadd (fe_fx nf) (fe_hx nf)) (fe_scale nf) false) (dscale xi)) as [fx | | |]; [| discriminate B | discriminate B | discriminate B]. cbn [bind] in B |- *. destruct (unwrap (d_sub xi fx)) as [x1 | | |]; [| discriminate B | discriminate B | discriminate B]. cbn [bind] in B |- *.
  destruct (to_scale (mkD (wadd (fe_fy nf) (fe_hy nf)) (fe_scale nf) false) (dscale yi)) as [fy | | |]; [| discriminate B | discriminate B | discriminate B]. cbn [bind] in B |- *. destruct (unwrap (d_sub yi fy)) as [y1 | | |]; [| discriminate B | discriminate B | discriminate B]. cbn [bind] in B |- *.
  destruct (unwrap (d_gt x1 x)) as [[] | | |]; [discriminate B | | discriminate B | discriminate B | discriminate B]. cbn [bind] in B |- *. destruct (unwrap (d_gt y1 y)) as [[] | | |]; [discriminate B | | discriminate B | discriminate B | discriminate B]. cbn [bind] in B |- *.
  destruct (d_abs d) as [n1 | | |]; [| discriminate B | discriminate B | discriminate B]. cbn [bind] in B |- *. destruct (spl_mint (c_lp s) (c_lp_supply s) to n1) as [[lp sup] | | |] eqn:M; [| discriminate B | discriminate B | discriminate B]. cbn [bind] in B.
  destruct (d_abs x1) as [ax | | |] eqn:A1; [| discriminate B | discriminate B | discriminate B]. cbn [bind] in B. destruct (spl_transfer (c_x s) (HUser u) HVault ax) as [lx | | |] eqn:T1; [| discriminate B | discriminate B | discriminate B]. cbn [bind] in B.
  destruct (d_abs y1) as [ay | | |] eqn:A2; [| discriminate B | discriminate B | discriminate B]. cbn [bind] in B. destruct (spl_transfer (c_y s) (HUser u) HVault ay) as [ly | | |] eqn:T2; [| discriminate B | discriminate B | discriminate B]. cbn [bind] in B. injection B as <-.
  exists g1, bm2, p1, l1, u1, n1, x1, y1, lp, sup, ax, ay, lx, ly. repeat split; assumption.
Qed.
Lemma withdraw_decompose : forall s u l h c amt s', i_withdraw s u l h c amt = Ok s' ->
  exists g bm ps lt ut cur g' bm' ps' lt' ut' xd yd lp sup ax ay lx ly,
  load_accounts s u l h c = Ok (g, bm, ps, lt, ut, cur) /\ withdraw_body g bm ps lt ut l h c amt = Ok (g', bm', ps', lt', ut', xd, yd) /\ spl_burn (c_lp s) (c_lp_supply s) (HUser u) amt = Ok (lp, sup) /\
  d_abs xd = Ok ax /\ spl_transfer (c_x s) HVault (HUser u) ax = Ok lx /\ d_abs yd = Ok ay /\ spl_transfer (c_y s) HVault (HUser u) ay = Ok ly /\
  c_x s' = lx /\ c_y s' = ly.
Proof.
  intros s u l h c amt s' B. unfold i_withdraw in B. destruct (load_accounts s u l h c) as [[[[[[g bm] ps] lt] ut] cur] | | |]; [| discriminate B | discriminate B | discriminate B]. cbn [bind] in B.
  exists g, bm, ps, lt, ut, cur. unfold withdraw_body.
  destruct (to_compute_scale (from_u64 amt)) as [dp | | |]; [| discriminate B | discriminate B | discriminate B]. cbn [bind] in B |- *. cbv zeta in B |- *. set (d := d_neg dp) in *.
  destruct (tick_to_rp l) as [a | | |]; [| discriminate B | discriminate B | discriminate B]. cbn [bind] in B |- *. destruct (tick_to_rp h) as [b | | |]; [| discriminate B | discriminate B | discriminate B]. cbn [bind] in B |- *. destruct (tick_to_rp c) as [rp | | |]; [| discriminate B | discriminate B | discriminate B]. cbn [bind] in B |- *.
  destruct (compute_latest_fee l h c (cg_fee g) (ct_fee lt) (ct_fee ut) (fe_scale (cp_fee ps))) as [nf | | |]; [| discriminate B | discriminate B | discriminate B]. cbn [bind] in B |- *.
  destruct (unwrap (c_update_position ps lt ut d l h nf)) as [[[p1 l1] u1] | | |]; [| discriminate B | discriminate B | discriminate B]. cbn [bind] in B |- *.
  destruct (BitmapModel.unset_tick bm 0) as [bm1 | | |]; [| discriminate B | discriminate B | discriminate B]. cbn [bind] in B |- *. destruct (BitmapModel.unset_tick bm1 40000) as [bm2 | | |]; [| discriminate B | discriminate B | discriminate B]. cbn [bind] in B |- *.
  destruct (c_update_global g l h c d) as [g1 | | |]; [| discriminate B | discriminate B | discriminate B]. cbn [bind] in B |- *.
  destruct (x_from_l_rp_rng (d_neg d) rp a b) as [xi | | |]; [| discriminate B | discriminate B | discriminate B]. cbn [bind] in B |- *. destruct (y_from_l_rp_rng (d_neg d) rp a b) as [yi | | |]; [| discriminate B | discriminate B | discriminate B]. cbn [bind] in B |- *.
  destruct (to_scale (mkD (wadd (fe_fx nf) (fe_hx nf)) (fe_scale nf) false) (dscale xi)) as [fx | | |]; [| discriminate B | discriminate B | discriminate B]. cbn [bind] in B |- *. destruct (unwrap (d_add xi fx)) as [x1 | | |]; [| discriminate B | discriminate B | discriminate B]. cbn [bind] in B |- *.
  destruct (to_scale (mkD (wadd (fe_fy nf) (fe_hy nf)) (fe_scale nf) false) (dscale yi)) as [fy | | |]; [| discriminate B | discriminate B | discriminate B]. cbn [bind] in B |- *. destruct (unwrap (d_add yi fy)) as [y1 | | |]; [| discriminate B | discriminate B | discriminate B]. cbn [bind] in B |- *.
  destruct (spl_burn (c_lp s) (c_lp_supply s) (HUser u) amt) as [[lp sup] | | |] eqn:M; [| discriminate B | discriminate B | discriminate B]. cbn [bind] in B.
  destruct (d_abs x1) as [ax | | |] eqn:A1; [| discriminate B | discriminate B | discriminate B]. cbn [bind] in B. destruct (spl_transfer (c_x s) HVault (HUser u) ax) as [lx | | |] eqn:T1; [| discriminate B | discriminate B | discriminate B]. cbn [bind] in B.
  destruct (d_abs y1) as [ay | | |] eqn:A2; [| discriminate B | discriminate B | discriminate B]. cbn [bind] in B. destruct (spl_transfer (c_y s) HVault (HUser u) ay) as [ly | | |] eqn:T2; [| discriminate B | discriminate B | discriminate B]. cbn [bind] in B. injection B as <-.
  exists g1, bm2, p1, l1, u1, x1, y1, lp, sup, ax, ay, lx, ly. repeat split; assumption.
Qed.

(** ** What the token program allows *)
Lemma two_tokens : forall w mt f fo x t to y s u, winv w -> wget mt w = Some (CMint s u) -> wget f w = Some (CToken mt fo x) -> wget t w = Some (CToken mt to y) -> f <> t -> x + y <= s.
Proof.
  intros w mt f fo x t to y s u I GM GF GT N. destruct (wi_mint _ I _ _ _ GM) as (S1 & S2 & _). pose proof (wi_token _ I _ _ _ _ GF) as [PF _].
  pose proof (tokens_set w mt all f (CToken mt fo 0)) as T. rewrite GF in T. cbn [tk] in T. unfold tk in T. rewrite aeq_refl in T. change (all f fo) with true in T. cbn [andb] in T.
  assert (G : wget t (wset f (CToken mt fo 0) w) = Some (CToken mt to y)) by (rewrite get_other by auto; exact GT).
  assert (NN : forall a m o n, In (a, CToken m o n) (wset f (CToken mt fo 0) w) -> 0 <= n).
  { intros a m o n J. apply in_get in J; [| apply set_nodup, (wi_nodup _ I)]. rewrite get_set in J. destruct (addr_eqb a f); [injection J as <- <- <-; lia |]. apply (wi_token _ I _ _ _ _ J). }
  pose proof (tokens_ge _ mt all t to y NN G eq_refl). lia.
Qed.
Lemma transfer_can : forall w mt f fo x t to y n, winv w -> wget f w = Some (CToken mt fo x) -> wget t w = Some (CToken mt to y) -> f <> t -> 0 <= n <= x -> exists w', t_transfer w f t fo n = Ok w'.
Proof.
  intros w mt f fo x t to y n I GF GT N Hn. destruct (wi_token _ I _ _ _ _ GF) as (PF & s & u & GM). destruct (wi_token _ I _ _ _ _ GT) as (PT & _). pose proof (two_tokens _ _ _ _ _ _ _ _ _ _ I GM GF GT N) as T. destruct (wi_mint _ I _ _ _ GM) as (_ & S2 & _).
  unfold t_transfer, get_token. rewrite GF, GT. cbn [bind]. rewrite !aeq_refl, (u64_ok n), (proj2 (Z.leb_le n x)) by lia. cbn [need andb bind]. rewrite aneq by exact N. rewrite (proj2 (Z.ltb_lt _ _)) by lia. cbn [need bind]. eauto.
Qed.
Lemma mint_can : forall w mt a o x au s n, winv w -> wget mt w = Some (CMint s (Some au)) -> wget a w = Some (CToken mt o x) -> 0 <= n -> s + n < U64 -> exists w', t_mint w mt a au n = Ok w'.
Proof.
  intros w mt a o x au s n I GM GA Hn Hs. destruct (wi_token _ I _ _ _ _ GA) as (PA & _). destruct (wi_mint _ I _ _ _ GM) as (S1 & _). pose proof (tokens_ge w mt all a o x (wi_nn _ I) GA eq_refl) as T. fold all in S1.
  unfold t_mint, get_mint, get_token. rewrite GM, GA. cbn [bind]. rewrite !aeq_refl, (u64_ok n), !(proj2 (Z.ltb_lt _ _)) by lia. cbn [need andb bind]. eauto.
Qed.
Lemma burn_can : forall w mt a o x au s n, winv w -> wget mt w = Some (CMint s au) -> wget a w = Some (CToken mt o x) -> 0 <= n <= x -> exists w', t_burn w mt a o n = Ok w'.
Proof.
  intros w mt a o x au s n I GM GA Hn. destruct (wi_mint _ I _ _ _ GM) as (S1 & S2 & _). pose proof (tokens_ge w mt all a o x (wi_nn _ I) GA eq_refl) as T. fold all in S1.
  unfold t_burn, get_mint, get_token. rewrite GM, GA. cbn [bind]. rewrite !aeq_refl, (u64_ok n), !(proj2 (Z.leb_le _ _)) by lia. cbn [need andb bind]. eauto.
Qed.
Lemma vault_only : forall w mt v o n, NoDup (map fst w) -> wget v w = Some (CToken mt o n) -> held w mt (Some v) HVault = n.
Proof.
  intros w mt v o n N G. unfold held, tokens, wsum. revert N G. induction w as [| [b c] r IH]; intros N G; [discriminate G |]. cbn [fold_right fst snd wget map] in *. inversion N as [| b' r' N1 N2]; subst.
  assert (Z : addr_eqb v b = true -> fold_right (fun ac s => match snd ac with CToken mt0 o0 n0 => if addr_eqb mt0 mt && holder_eqb (holder_of (Some v) (fst ac) o0) HVault then n0 else 0 | _ => 0 end + s) 0 r = 0).
  { intros E. apply aeq in E. subst b. clear - N1. induction r as [| [b c] r IH]; [reflexivity |]. cbn [map fst fold_right snd] in *. assert (NE : addr_eqb b v = false) by (apply aneq; intros ->; apply N1; left; reflexivity). rewrite IH by (intros J; apply N1; right; exact J). destruct c; try reflexivity. cbn [holder_of]. rewrite NE. cbn [holder_eqb]. rewrite andb_false_r. reflexivity. }
  destruct (addr_eqb v b) eqn:E.
  - rewrite (Z eq_refl). injection G as ->. apply aeq in E. subst b. cbn [holder_of]. rewrite !aeq_refl. cbn [holder_eqb andb]. lia.
  - rewrite (IH N2 G). assert (NE : addr_eqb b v = false) by (apply aneq; intros ->; rewrite aeq_refl in E; discriminate E). destruct c; try lia. cbn [holder_of]. rewrite NE. cbn [holder_eqb]. rewrite andb_false_r. lia.
Qed.

(** ** The constraints are met *)
Lemma checked_right : forall w m k s u l h c ux uy lp nx ny o nl g bm ps lt ut cur, poolw w m k -> lpvs w -> agrees w m k s -> load_accounts s (Zpos u) l h c = Ok (g, bm, ps, lt, ut, cur) ->
  wget ux w = Some (CToken (pk_x k) (Key u) nx) -> wget uy w = Some (CToken (pk_y k) (Key u) ny) -> wget lp w = Some (CToken m o nl) ->
  checked w (right_accounts m k u l h c ux uy lp) (Key u) l h c = Ok (k, g, bm, ps, lt, ut, cur).
Proof.
  intros w m k s u l h c ux uy lp nx ny o nl g bm ps lt ut cur W LV A LO GX GY GL. pose proof (facts _ _ _ W) as F. destruct (ag_pool _ _ _ _ A) as (g1 & G1 & E1). unfold load_accounts in LO. rewrite E1, (ag_bitmap _ _ _ _ A), (ag_pos _ _ _ _ A), !(ag_tick _ _ _ _ A) in LO.
  destruct (wget (BitmapAt (PoolAt m)) w) as [[| b1 | | | |] |] eqn:EB; try discriminate LO. destruct (wget (PositionAt (PoolAt m) (Key u) l h) w) as [[| | p1 | | |] |] eqn:EP; try discriminate LO.
  destruct (wget (TickAt (PoolAt m) l) w) as [[| | | t1 | |] |] eqn:EL; try discriminate LO. destruct (wget (TickAt (PoolAt m) h) w) as [[| | | t2 | |] |] eqn:EU; try discriminate LO. destruct (wget (TickAt (PoolAt m) c) w) as [[| | | t3 | |] |] eqn:EC; try discriminate LO.
  destruct ((l <? h) && (ct_tick t1 =? cp_lower p1) && (ct_tick t2 =? cp_upper p1) && (ct_tick t3 =? c) && (ct_tick t3 =? cg_tick g1)) eqn:CK; [| discriminate LO]. injection LO as <- <- <- <- <- <-. rewrite !andb_true_iff in CK. destruct CK as ((((K1 & K2) & K3) & K4) & K5).
  destruct (pf_vx _ _ _ F) as [vx VX]. destruct (pf_vy _ _ _ F) as [vy VY]. destruct (pf_mint _ _ _ F) as [sl SL]. destruct (LV _ _ _ G1) as (m3 & o3 & n3 & G3). pose proof (pf_xv _ _ _ F) as FX. pose proof (pf_yv _ _ _ F) as FY. pose proof (pf_lp _ _ _ F) as FL. rewrite FX in VX. rewrite FY in VY.
  unfold checked, right_accounts. cbn [a_pool a_bm a_ps a_lt a_ut a_cur a_lpm a_ux a_uy a_xv a_yv a_lpv a_lp]. unfold get_pool, get_bitmap, get_pos, get_tick, get_mint, get_token.
  rewrite G1, EB, EP, EL, EU, EC, SL, GX, GY, VX, VY, G3, GL. cbn [bind]. rewrite FL, FX, FY, K1, K2, K3, K4, K5, !aeq_refl. reflexivity.
Qed.

(** ** Deposit and withdrawal *)
Lemma lift_deposit : forall w m k s u l h c xa ya ux uy lp nx ny o nl s', poolw w m k -> lpvs w -> sim w m k s ->
  wget ux w = Some (CToken (pk_x k) (Key u) nx) -> wget uy w = Some (CToken (pk_y k) (Key u) ny) -> wget lp w = Some (CToken m o nl) ->
  exec s (IDeposit (Zpos u) l h c xa ya (HUser (uid o))) = Ok s' ->
  bal (HUser (Zpos u)) (c_x s) - bal (HUser (Zpos u)) (c_x s') <= nx -> bal (HUser (Zpos u)) (c_y s) - bal (HUser (Zpos u)) (c_y s') <= ny ->
  exists w', wexec w (WDeposit (right_accounts m k u l h c ux uy lp) u l h c xa ya) = Ok w' /\ agrees w' m k s'.
Proof.
  intros w m k s u l h c xa ya ux uy lp nx ny o nl s' W LV S GX GY GL H NX NY. pose proof S as (A & R & TX & TY). pose proof (reached_inv _ R) as CI. pose proof (pw_inv _ _ _ W) as I. pose proof (facts _ _ _ W) as F.
  destruct (exec_deposit _ _ _ _ _ _ _ _ _ CI H) as (_ & d & DE & _). destruct DE as (_ & D0 & _ & _ & _ & _ & (MX0 & MX1 & MX2 & _) & (MY0 & MY1 & MY2 & _) & _ & _ & SUP).
  pose proof H as H0. unfold exec in H0. destruct (args_ok _) eqn:AO; [| discriminate H0]. cbn [negb args_ok] in *.
  destruct (deposit_decompose _ _ _ _ _ _ _ _ _ H0) as (g & bm & ps & lt & ut & cur & g' & bm' & ps' & lt' & ut' & n & xd & yd & lpl & sup & ax & ay & lx & ly & LO & DB & EM & A1 & T1 & A2 & T2 & CX & CY & CS).
  pose proof (checked_right _ _ _ _ _ _ _ _ _ _ _ _ _ _ _ _ _ _ _ _ _ W LV A LO GX GY GL) as CH.
  apply transfer_ok in T1, T2. destruct T1 as (_ & _ & _ & _ & T1 & _). destruct T2 as (_ & _ & _ & _ & T2 & _). destruct T1 as (_ & T11 & T12); [discriminate |]. destruct T2 as (_ & T21 & T22); [discriminate |]. apply mint_ok in EM. destruct EM as (M1 & _ & M3 & _).
  assert (Hn : 0 <= n) by (pose proof (Z.div_pos d (10 ^ 12) D0 ltac:(lia)); lia). rewrite <- CX in T11. rewrite <- CY in T21.
  destruct (ag_supply _ _ _ _ A) as [au SU]. destruct (pf_mint _ _ _ F) as [sl SL]. rewrite SL in SU. injection SU as -> <-.
  destruct (mint_can w m lp o nl (PoolAt m) (c_lp_supply s) n I SL GL Hn M3) as [w1 E1]. destruct (t_mint_inv _ _ _ _ _ _ I E1) as (o1 & IS & _). pose proof (is_inv _ _ _ _ _ _ IS) as I1.
  destruct (pf_vx _ _ _ F) as [vx VX]. destruct (pf_vy _ _ _ F) as [vy VY]. rewrite (pf_xv _ _ _ F) in VX. rewrite (pf_yv _ _ _ F) in VY.
  destruct (is_kept _ _ _ _ _ _ IS _ _ _ _ GX) as (nx1 & GX1 & _ & LX1 & _). specialize (LX1 Hn). destruct (is_kept _ _ _ _ _ _ IS _ _ _ _ GY) as (ny1 & GY1 & _ & LY1 & _). specialize (LY1 Hn).
  destruct (is_kept _ _ _ _ _ _ IS _ _ _ _ VX) as (vx1 & VX1 & _). destruct (is_kept _ _ _ _ _ _ IS _ _ _ _ VY) as (vy1 & VY1 & _).
  assert (NEX : ux <> VaultAt (pk_x k) m) by (intros E; rewrite E, VX1 in GX1; discriminate GX1). assert (NEY : uy <> VaultAt (pk_y k) m) by (intros E; rewrite E, VY1 in GY1; discriminate GY1).
  assert (Bx : 0 <= ax <= nx1) by lia. assert (By : 0 <= ay <= ny1) by lia.
  destruct (transfer_can w1 _ ux _ _ _ _ _ ax I1 GX1 VX1 NEX Bx) as [w2 E2]. destruct (transfer_inv _ _ _ _ _ _ I1 E2) as (mt & to & MX & _). pose proof (mt_inv _ _ _ _ _ _ _ _ MX) as I2.
  assert (XY : uy <> ux). { intros E. rewrite E, GX in GY. injection GY as E0 _. exact (pf_xy _ _ _ F E0). }
  destruct (mt_kept _ _ _ _ _ _ _ _ MX _ _ _ _ GY1) as (ny2 & GY2 & LY2 & _). specialize (LY2 XY). destruct (mt_kept _ _ _ _ _ _ _ _ MX _ _ _ _ VY1) as (vy2 & VY2 & _).
  destruct (transfer_can w2 _ uy _ _ _ _ _ ay I2 GY2 VY2 NEY) as [w3 E3]; [lia |].
  assert (EW : exists w', w_deposit w (right_accounts m k u l h c ux uy lp) (Key u) l h c xa ya = Ok w').
  { unfold w_deposit. rewrite CH. cbn [bind]. rewrite DB. cbn [bind]. unfold right_accounts at 1 2 3. cbn [a_lpm a_lp a_pool]. rewrite E1. cbn [bind]. rewrite A1. cbn [bind]. unfold right_accounts at 1 2. cbn [a_ux a_xv]. rewrite E2. cbn [bind]. rewrite A2. cbn [bind]. unfold right_accounts at 1 2. cbn [a_uy a_yv]. rewrite E3. cbn [bind]. eauto. }
  destruct EW as [w' EW]. destruct (own_deposit w m k s (right_accounts m k u l h c ux uy lp) u l h c xa ya w' W S eq_refl EW) as (o2 & n2 & s2 & G2 & ES & AG). cbn [right_accounts a_lp] in G2. rewrite GL in G2. injection G2 as <- <-. rewrite H0 in ES. injection ES as <-.
  exists w'. split; [| exact AG]. unfold wexec. cbn [wargs_ok]. rewrite AO. exact EW.
Qed.
Lemma lift_withdraw : forall w m k s u l h c n ux uy lp nx ny nl s', poolw w m k -> lpvs w -> sim w m k s ->
  wget ux w = Some (CToken (pk_x k) (Key u) nx) -> wget uy w = Some (CToken (pk_y k) (Key u) ny) -> wget lp w = Some (CToken m (Key u) nl) ->
  exec s (IWithdraw (Zpos u) l h c n) = Ok s' -> n <= nl ->
  exists w', wexec w (WWithdraw (right_accounts m k u l h c ux uy lp) u l h c n) = Ok w' /\ agrees w' m k s'.
Proof.
  intros w m k s u l h c n ux uy lp nx ny nl s' W LV S GX GY GL H NL. pose proof S as (A & R & TX & TY). pose proof (reached_inv _ R) as CI. pose proof (pw_inv _ _ _ W) as I. pose proof (facts _ _ _ W) as F.
  destruct (exec_withdraw _ _ _ _ _ _ _ CI H) as (_ & DE & _). destruct DE as (_ & D0 & _ & _ & _ & (MX0 & MX1 & MX2 & _) & (MY0 & MY1 & MY2 & _) & _).
  pose proof H as H0. unfold exec in H0. destruct (args_ok _) eqn:AO; [| discriminate H0]. cbn [negb args_ok] in *.
  destruct (withdraw_decompose _ _ _ _ _ _ _ H0) as (g & bm & ps & lt & ut & cur & g' & bm' & ps' & lt' & ut' & xd & yd & lpl & sup & ax & ay & lx & ly & LO & DB & EM & A1 & T1 & A2 & T2 & CX & CY).
  pose proof (checked_right _ _ _ _ _ _ _ _ _ _ _ _ _ _ _ _ _ _ _ _ _ W LV A LO GX GY GL) as CH.
  apply transfer_ok in T1, T2. destruct T1 as (_ & _ & _ & _ & T1 & _). destruct T2 as (_ & _ & _ & _ & T2 & _). destruct T1 as (_ & T11 & T12); [discriminate |]. destruct T2 as (_ & T21 & T22); [discriminate |]. rewrite <- CX in T11. rewrite <- CY in T21.
  destruct (pf_mint _ _ _ F) as [sl SL]. pose proof (pf_xm _ _ _ F) as XM. pose proof (pf_ym _ _ _ F) as YM.
  destruct (burn_can w m lp (Key u) nl _ sl n I SL GL) as [w1 E1]; [lia |]. destruct (t_burn_inv _ _ _ _ _ _ I E1) as (IS & _). pose proof (is_inv _ _ _ _ _ _ IS) as I1.
  destruct (pf_vx _ _ _ F) as [vx VX]. destruct (pf_vy _ _ _ F) as [vy VY]. pose proof (vault_only _ _ _ _ _ (wi_nodup _ I) VX) as HVX. pose proof (vault_only _ _ _ _ _ (wi_nodup _ I) VY) as HVY.
  pose proof (ag_x _ _ _ _ A HVault) as AX. pose proof (ag_y _ _ _ _ A HVault) as AY. unfold full in AX, AY. cbn [reserve holder_eqb] in AX, AY. rewrite HVX in AX. rewrite HVY in AY. rewrite (pf_xv _ _ _ F) in VX. rewrite (pf_yv _ _ _ F) in VY.
  assert (LPX : VaultAt (pk_x k) m <> lp) by (intros E; rewrite <- E, VX in GL; discriminate GL). assert (LPY : VaultAt (pk_y k) m <> lp) by (intros E; rewrite <- E, VY in GL; discriminate GL).
  destruct (is_kept _ _ _ _ _ _ IS _ _ _ _ GX) as (nx1 & GX1 & _). destruct (is_kept _ _ _ _ _ _ IS _ _ _ _ GY) as (ny1 & GY1 & _).
  destruct (is_kept _ _ _ _ _ _ IS _ _ _ _ VX) as (vx1 & VX1 & LVX & _). specialize (LVX LPX). destruct (is_kept _ _ _ _ _ _ IS _ _ _ _ VY) as (vy1 & VY1 & LVY & _). specialize (LVY LPY).
  assert (NEX : VaultAt (pk_x k) m <> ux) by (intros E; rewrite <- E, VX1 in GX1; discriminate GX1). assert (NEY : VaultAt (pk_y k) m <> uy) by (intros E; rewrite <- E, VY1 in GY1; discriminate GY1).
  destruct (transfer_can w1 _ _ _ _ ux _ _ ax I1 VX1 GX1 NEX) as [w2 E2]; [lia |]. destruct (transfer_inv _ _ _ _ _ _ I1 E2) as (mt & to & MX & _). pose proof (mt_inv _ _ _ _ _ _ _ _ MX) as I2.
  assert (XY : VaultAt (pk_y k) m <> VaultAt (pk_x k) m) by (intros [= E]; exact (pf_xy _ _ _ F (eq_sym E))).
  destruct (mt_kept _ _ _ _ _ _ _ _ MX _ _ _ _ GY1) as (ny2 & GY2 & _). destruct (mt_kept _ _ _ _ _ _ _ _ MX _ _ _ _ VY1) as (vy2 & VY2 & LVY2 & _). specialize (LVY2 XY).
  destruct (transfer_can w2 _ _ _ _ uy _ _ ay I2 VY2 GY2 NEY) as [w3 E3]; [lia |].
  assert (EW : exists w', w_withdraw w (right_accounts m k u l h c ux uy lp) (Key u) l h c n = Ok w').
  { unfold w_withdraw. rewrite CH. cbn [bind]. rewrite DB. cbn [bind]. unfold right_accounts at 1 2. cbn [a_lpm a_lp a_pool]. rewrite E1. cbn [bind]. rewrite A1. cbn [bind]. unfold right_accounts at 1 2 3. cbn [a_ux a_xv a_pool]. rewrite E2. cbn [bind]. rewrite A2. cbn [bind]. unfold right_accounts at 1 2 3. cbn [a_uy a_yv a_pool]. rewrite E3. cbn [bind]. eauto. }
  destruct EW as [w' EW]. destruct (own_withdraw w m k s (right_accounts m k u l h c ux uy lp) u l h c n w' W S eq_refl EW) as (s2 & ES & AG). rewrite H0 in ES. injection ES as <-.
  exists w'. split; [| exact AG]. unfold wexec. cbn [wargs_ok]. rewrite AO. exact EW.
Qed.

(** ** Creating accounts *)
Lemma lift_bitmap : forall w m k s s', poolw w m k -> in_place w -> sim w m k s -> exec s IInitBitmap = Ok s' -> exists w', wexec w (WInitBitmap (PoolAt m) (BitmapAt (PoolAt m))) = Ok w' /\ agrees w' m k s'.
Proof.
  intros w m k s s' W P S H. pose proof S as (A & R & _). unfold exec in H. cbn [args_ok negb] in H. pose proof H as H0. unfold i_init_bitmap in H. destruct (c_pool s); [| discriminate H]. destruct (c_bitmap s) eqn:E; [discriminate H |]. clear H.
  rewrite (ag_bitmap _ _ _ _ A) in E. assert (N : wget (BitmapAt (PoolAt m)) w = None). { destruct (wget (BitmapAt (PoolAt m)) w) as [x |] eqn:G; [| reflexivity]. destruct (P _ _ G) as [b ->]. discriminate E. }
  destruct (own_bitmap _ _ _ _ W A N) as (s2 & E2 & AG). rewrite H0 in E2. injection E2 as <-. eexists. split; [| exact AG]. destruct (ag_pool _ _ _ _ A) as (g & G & _). unfold wexec. cbn [wargs_ok negb]. unfold w_init_bitmap, get_pool. rewrite G. cbn [bind]. rewrite (pf_lp _ _ _ (facts _ _ _ W)), !aeq_refl. cbn [andb need bind]. unfold create. rewrite N. reflexivity.
Qed.
Lemma lift_tick : forall w m k s s' t, poolw w m k -> in_place w -> sim w m k s -> exec s (IInitTick t) = Ok s' -> exists w', wexec w (WInitTick (PoolAt m) (TickAt (PoolAt m) t) t) = Ok w' /\ agrees w' m k s'.
Proof.
  intros w m k s s' t W P S H. pose proof S as (A & R & _). unfold exec in H. destruct (args_ok _) eqn:AO; [| discriminate H]. cbn [negb args_ok] in *. pose proof H as H0. unfold i_init_tick in H. destruct (c_pool s); [| discriminate H]. destruct (ct_get t (c_ticks s)) eqn:E; [discriminate H |]. clear H.
  rewrite (ag_tick _ _ _ _ A) in E. assert (N : wget (TickAt (PoolAt m) t) w = None). { destruct (wget (TickAt (PoolAt m) t) w) as [x |] eqn:G; [| reflexivity]. destruct (P _ _ G) as [b ->]. discriminate E. }
  destruct (own_tick _ _ _ _ t W A N) as (s2 & E2 & AG). rewrite H0 in E2. injection E2 as <-. eexists. split; [| exact AG]. destruct (ag_pool _ _ _ _ A) as (g & G & _). unfold wexec. cbn [wargs_ok]. rewrite AO. cbn [negb]. unfold w_init_tick, get_pool. rewrite G. cbn [bind]. rewrite (pf_lp _ _ _ (facts _ _ _ W)), !aeq_refl. cbn [andb need bind]. unfold create. rewrite N. reflexivity.
Qed.
Lemma lift_position : forall w m k s s' u l h, poolw w m k -> in_place w -> sim w m k s -> exec s (ICreatePosition (Zpos u) l h) = Ok s' ->
  exists w', wexec w (WCreatePosition (PoolAt m) (PositionAt (PoolAt m) (Key u) l h) (TickAt (PoolAt m) l) (TickAt (PoolAt m) h) u l h) = Ok w' /\ agrees w' m k s'.
Proof.
  intros w m k s s' u l h W P S H. pose proof S as (A & R & _). unfold exec in H. destruct (args_ok _) eqn:AO; [| discriminate H]. cbn [negb args_ok] in *. pose proof H as H0. unfold i_create_position in H. destruct (c_pool s); [| discriminate H]. destruct (cp_get (Zpos u, l, h) (c_pos s)) eqn:E; [discriminate H |].
  destruct (ct_get l (c_ticks s)) eqn:EL; [| discriminate H]. destruct (ct_get h (c_ticks s)) eqn:EH; [| discriminate H]. destruct (l <? h) eqn:LH; [| discriminate H]. clear H. rewrite (ag_tick _ _ _ _ A) in EL, EH. rewrite (ag_pos _ _ _ _ A) in E.
  destruct (wget (TickAt (PoolAt m) l) w) as [[| | | t1 | |] |] eqn:GL; try discriminate EL. destruct (wget (TickAt (PoolAt m) h) w) as [[| | | t2 | |] |] eqn:GH; try discriminate EH.
  assert (N : wget (PositionAt (PoolAt m) (Key u) l h) w = None). { destruct (wget (PositionAt (PoolAt m) (Key u) l h) w) as [x |] eqn:G; [| reflexivity]. destruct (P _ _ G) as [b ->]. discriminate E. }
  destruct (own_position _ _ _ _ _ _ _ _ _ W A N GL GH LH) as (s2 & E2 & AG). rewrite H0 in E2. injection E2 as <-. eexists. split; [| exact AG]. destruct (ag_pool _ _ _ _ A) as (g & G & _). unfold wexec. cbn [wargs_ok]. rewrite AO. cbn [negb]. unfold w_create_position, get_pool, get_tick. rewrite G, GL, GH. cbn [bind]. rewrite (pf_lp _ _ _ (facts _ _ _ W)), LH, !aeq_refl. cbn [andb need bind]. unfold create. rewrite N. reflexivity.
Qed.
Lemma sim_can : forall w m k s, poolw w m k -> in_place w -> lpvs w -> sim w m k s -> can_do w m k s.
Proof.
  intros w m k s W P LV S. unfold can_do. split; [| split; [| split; [| split]]].
  - intros s'. exact (lift_bitmap _ _ _ _ _ W P S). - intros t s'. exact (lift_tick _ _ _ _ _ t W P S). - intros u l h s'. exact (lift_position _ _ _ _ _ u l h W P S).
  - intros u l h c xa ya ux uy lp nx ny o nl s' GX GY GL H. exact (lift_deposit _ _ _ _ _ _ _ _ _ _ _ _ _ _ _ _ _ _ W LV S GX GY GL H).
  - intros u l h c n ux uy lp nx ny nl s' GX GY GL H. exact (lift_withdraw _ _ _ _ _ _ _ _ _ _ _ _ _ _ _ _ W LV S GX GY GL H).
Qed.
Lemma world_can : forall w0 is m k g, initial w0 -> born_empty w0 is m -> wget (PoolAt m) (wrun w0 is) = Some (CPool k g) -> pk_x k <> m -> pk_y k <> m ->
  exists s, reached s /\ agrees (wrun w0 is) m k s /\ can_do (wrun w0 is) m k s /\
    forall is', exists js, view_of m (wrun w0 is) is' js /\ all_succeed s js /\ agrees (wrun (wrun w0 is) is') m k (run_txs s js) /\ can_do (wrun (wrun w0 is) is') m k (run_txs s js).
Proof.
  intros w0 is m k g IN B G NX NY. destruct (pool_sim _ _ _ _ _ IN B G NX NY) as [s S]. destruct (wrun_ok is w0 (initial_inv _ IN) (initial_place _ IN)) as (I & _ & P). pose proof (lpvs_run is w0 (initial_inv _ IN) (initial_place _ IN) (lpvs_initial _ IN)) as LV. set (w := wrun w0 is) in *. clearbody w. clear B IN is w0.
  assert (W : poolw w m k) by (split; eauto). exists s. split; [apply S |]. split; [apply S |]. split; [exact (sim_can _ _ _ _ W P LV S) |].
  intros is'. destruct (pool_follows is' w m k s W S) as (js & V & AS & AG). exists js. split; [exact V |]. split; [exact AS |]. split; [exact AG |].
  destruct (wrun_ok is' w I P) as (I' & X & P'). apply sim_can; [exact (poolw_on _ _ _ _ W I' X) | exact P' | exact (lpvs_run is' w I P LV) | exact (sim_run _ _ _ _ _ _ S AG)].
Qed.

(** ** Deposits of others *)
Lemma seen_signer : forall w m i js u, seen_as w m i js -> wsigner i <> Some u -> forall j, In j js -> signer j <> Some (Zpos u).
Proof.
  intros w m i js u V N j J. assert (EX : forall P, Forall (external P) js -> (forall f, P f -> f <> Zpos u) -> signer j <> Some (Zpos u)).
  { intros P F Q. rewrite Forall_forall in F. specialize (F _ J). destruct j; cbn in F |- *; try contradiction; intros [= E]; exact (Q _ F E). }
  destruct i; cbn [seen_as wsigner] in *.
  - subst js. destruct J.
  - subst js. destruct (addr_eqb _ _); [| destruct J]. destruct J as [<- | []]. discriminate.
  - subst js. destruct (addr_eqb _ _); [| destruct J]. destruct J as [<- | []]. discriminate.
  - subst js. destruct (addr_eqb _ _); [| destruct J]. destruct J as [<- | []]. cbn. congruence.
  - destruct (addr_eqb _ _). + destruct V as (o & n & _ & ->). destruct J as [<- | []]. cbn. congruence. + apply (EX _ V). intros f [-> | [-> | ->]]; congruence.
  - destruct (addr_eqb _ _). + subst js. destruct J as [<- | []]. cbn. congruence. + apply (EX _ V). intros f [-> | [-> | ->]]; congruence.
  - subst js. destruct J.
  - subst js. destruct J.
  - apply (EX _ V). intros f ->. congruence.
  - apply (EX _ V). intros f ->. discriminate.
  - apply (EX _ V). intros f ->. congruence.
  - apply (EX _ V). intros f ->. congruence.
  - subst js. destruct J.
Qed.
Lemma view_signer : forall m w is js u, view_of m w is js -> Forall (fun i => wsigner i <> Some u) is -> forall j, In j js -> signer j <> Some (Zpos u).
Proof.
  intros m w is js u V. induction V as [| w i w' js is r E SE V IH | w i is r E V IH]; intros F j J.
  - destruct J.
  - inversion F; subst. apply in_app_or in J. destruct J as [J | J]; [eapply seen_signer; eauto | auto].
  - inversion F; subst. auto.
Qed.
Lemma deposit_lp : forall w d u l h c xa ya w' k g o n s a, winv w -> wexec w (WDeposit d u l h c xa ya) = Ok w' -> wget (a_pool d) w = Some (CPool k g) -> pk_x k <> pk_lp k -> pk_y k <> pk_lp k ->
  wget (a_lp d) w = Some (CToken (pk_lp k) o n) -> wget (pk_lp k) w = Some (CMint s a) -> exists z, wget (a_lp d) w' = Some (CToken (pk_lp k) o (n + z)) /\ wget (pk_lp k) w' = Some (CMint (s + z) a).
Proof.
  intros w d u l h c xa ya w' k g o n s a I H GP NX NY GL GM. unfold wexec in H. destruct (wargs_ok _); [| discriminate H]. cbn [negb] in H.
  destruct (deposit_parts _ _ _ _ _ _ _ _ _ I H) as (k0 & g0 & bm & ps & lt & ut & cur & g' & bm' & ps' & lt' & ut' & z & ax & ay & xd & yd & lo & w1 & w2 & w3 & D). destruct D as [AC DB [DM Nn] [DX Nx] MX [DY Ny] MY (-> & I4 & X4 & T4 & X1 & X2 & X3)].
  destruct (ac_pool _ _ _ _ _ _ _ _ _ _ _ _ _ AC) as [P1 P2]. rewrite GP in P2. injection P2 as <- <-. exists z.
  destruct (is_acct _ _ _ _ _ _ DM) as (q & G1 & _). rewrite GL in G1. injection G1 as <- <-. destruct (is_mint _ _ _ _ _ _ DM) as (s0 & u0 & G2 & G3 & _). rewrite GM in G2. injection G2 as <- <-.
  assert (E1 : wget (a_lp d) w1 = Some (CToken (pk_lp k) o (n + z))).
  { destruct (is_kept _ _ _ _ _ _ DM _ _ _ _ GL) as (n' & E & _). rewrite E. f_equal. f_equal. pose proof (is_sum _ _ _ _ _ _ DM (pk_lp k) (fun b _ => addr_eqb b (a_lp d))) as SM.
    pose proof (vault_only w (pk_lp k) (a_lp d) o n (wi_nodup _ I) GL) as V1. pose proof (vault_only w1 (pk_lp k) (a_lp d) o n' (wi_nodup _ (is_inv _ _ _ _ _ _ DM)) E) as V2.
    pose proof (is_sum _ _ _ _ _ _ DM (pk_lp k) (fun a0 o0 => holder_eqb (holder_of (Some (a_lp d)) a0 o0) HVault)) as S2. unfold held in V1, V2. rewrite V1, V2, aeq_refl in S2. cbn [holder_of one] in S2. rewrite aeq_refl in S2. cbn [holder_eqb one] in S2. exact S2. }
  assert (KX : forall b m q x, wget b w1 = Some (CToken m q x) -> m = pk_lp k -> wget b w3 = Some (CToken m q x)).
  { intros b m q x Gb ->. destruct (mt_from _ _ _ _ _ _ _ _ MX) as (f1 & F1 & _). destruct (mt_to _ _ _ _ _ _ _ _ MX) as (t1 & F2). destruct (mt_from _ _ _ _ _ _ _ _ MY) as (f2 & F3 & _). destruct (mt_to _ _ _ _ _ _ _ _ MY) as (t2 & F4).
    assert (G : wget b w2 = Some (CToken (pk_lp k) q x)) by (rewrite (mt_other _ _ _ _ _ _ _ _ MX); [exact Gb | |]; intros ->; congruence).
    rewrite (mt_other _ _ _ _ _ _ _ _ MY); [exact G | |]; intros ->; congruence. }
  split.
  - rewrite (exit_gets _ _ _ _ _ _ _ _ _ _ _ _ _ _ _ _ _ _ _ _ _ _ _ AC GL). exact (KX _ _ _ _ E1 eq_refl).
  - assert (G5 : wget (pk_lp k) w3 = Some (CMint (s + z) a)) by (apply (mint_moves _ _ _ _ _ _ _ _ _ _ _ MY), (mint_moves _ _ _ _ _ _ _ _ _ _ _ MX); exact G3).
    destruct (wi_mint _ I _ _ _ GM) as (_ & _ & [q Q]). rewrite Q in *. unfold w_exit. destruct (ac_bm _ _ _ _ _ _ _ _ _ _ _ _ _ AC) as [B1 _]. destruct (ac_ps _ _ _ _ _ _ _ _ _ _ _ _ _ AC) as [B2 _]. destruct (ac_lt _ _ _ _ _ _ _ _ _ _ _ _ _ AC) as [B3 _]. destruct (ac_ut _ _ _ _ _ _ _ _ _ _ _ _ _ AC) as [B4 _]. destruct (ac_cur _ _ _ _ _ _ _ _ _ _ _ _ _ AC) as [B5 _].
    rewrite B1, B2, B3, B4, B5, P1. rewrite !get_other by discriminate. exact G5.
Qed.
Lemma own_dep : forall w m k s u l h c xa ya ux uy lp nl w', poolw w m k -> sim w m k s -> wget lp w = Some (CToken m (Key u) nl) -> wexec w (WDeposit (right_accounts m k u l h c ux uy lp) u l h c xa ya) = Ok w' ->
  exists s', exec s (IDeposit (Zpos u) l h c xa ya (HUser (Zpos u))) = Ok s' /\ agrees w' m k s'.
Proof.
  intros w m k s u l h c xa ya ux uy lp nl w' W S GL H. unfold wexec in H. destruct (wargs_ok _) eqn:AO; [| discriminate H]. cbn [negb wargs_ok] in *. destruct (own_deposit _ _ _ _ (right_accounts m k u l h c ux uy lp) _ _ _ _ _ _ _ W S eq_refl H) as (o & n & s' & G & E & A).
  cbn [right_accounts a_lp] in G. rewrite GL in G. injection G as <- <-. cbn [uid] in E. exists s'. split; [| exact A]. unfold exec. cbn [args_ok]. rewrite AO. exact E.
Qed.
Lemma pos_agree : forall w m k s u l h, agrees w m k s -> position_liq w m u l h = pos_liq s (Zpos u, l, h).
Proof. intros w m k s u l h A. unfold position_liq, pos_liq. rewrite (ag_pos _ _ _ _ A). destruct (wget _ w) as [[] |]; reflexivity. Qed.
Lemma liq_agree : forall w m k s, winv w -> agrees w m k s -> reached s -> liquidity w m = over_positions s (fun _ v => v).
Proof.
  intros w m k s I A R. rewrite pos_sum, over_lsum. symmetry. apply lsum_ext; [apply (i_nodup _ (reached_inv _ R)) | apply pos_nodup, (wi_nodup _ I) |]. intros [[u l] h]. rewrite pos_get by apply (wi_nodup _ I). exact (ag_pos _ _ _ _ A u l h).
Qed.
(** What a deposit does to the four token accounts, the mint and the position, by its effect in the single-pool model. *)
Lemma dep_terms : forall w m k s u l h c xa ya ux uy lp nl w' s' d, poolw w m k -> sim w m k s -> wget lp w = Some (CToken m (Key u) nl) -> wexec w (WDeposit (right_accounts m k u l h c ux uy lp) u l h c xa ya) = Ok w' -> agrees w' m k s' -> winv w' ->
  deposit_effect s (Zpos u) l h c xa ya (HUser (Zpos u)) s' d ->
  balance w' ux = balance w ux - worth_x c (Zpos u, l, h) d /\ balance w' uy = balance w uy - worth_y c (Zpos u, l, h) d /\ balance w' lp = balance w lp + d / 10 ^ 12 /\ position_liq w' m u l h = position_liq w m u l h + d.
Proof.
  intros w m k s u l h c xa ya ux uy lp nl w' s' d W S GL H A' I' DE. pose proof S as (A & _). pose proof (pw_inv _ _ _ W) as I. pose proof (facts _ _ _ W) as F. destruct DE as (_ & _ & PL & _ & _ & _ & (_ & _ & MX & _) & (_ & _ & MY & _) & _ & _ & SUP).
  destruct (pw_pool _ _ _ W) as [g G]. pose proof (pf_lp _ _ _ F) as LP. assert (NX : pk_x k <> pk_lp k) by (rewrite LP; exact (pf_xm _ _ _ F)). assert (NY : pk_y k <> pk_lp k) by (rewrite LP; exact (pf_ym _ _ _ F)).
  destruct (deposit_paid _ _ _ _ _ _ _ _ _ _ _ I H G NX NY) as (nx & ny & vx & vy & ax & ay & _ & _ & U1 & U2 & U3 & U4 & V1 & V2 & V3 & V4). cbn [right_accounts a_ux a_uy a_pool] in *.
  destruct (ag_supply _ _ _ _ A) as [au SU]. destruct (ag_supply _ _ _ _ A') as [au' SU']. rewrite <- LP in SU, SU', GL. destruct (deposit_lp w (right_accounts m k u l h c ux uy lp) _ _ _ _ _ _ _ _ _ _ _ _ _ I H G NX NY GL SU) as (z & Z1 & Z2). cbn [right_accounts a_lp] in Z1. rewrite SU' in Z2. injection Z2 as Z2 _.
  pose proof (ag_x _ _ _ _ A HVault) as B1. pose proof (ag_y _ _ _ _ A HVault) as B2. pose proof (ag_x _ _ _ _ A' HVault) as B3. pose proof (ag_y _ _ _ _ A' HVault) as B4. unfold full in B1, B2, B3, B4. cbn [reserve holder_eqb] in B1, B2, B3, B4.
  rewrite (vault_only _ _ _ _ _ (wi_nodup _ I) V1) in B1. rewrite (vault_only _ _ _ _ _ (wi_nodup _ I) V3) in B2. rewrite (vault_only _ _ _ _ _ (wi_nodup _ I') V2) in B3. rewrite (vault_only _ _ _ _ _ (wi_nodup _ I') V4) in B4.
  rewrite !(pos_agree _ _ _ _ _ _ _ A), !(pos_agree _ _ _ _ _ _ _ A'). unfold balance. rewrite U1, U2, U3, U4, GL, Z1. split; [lia |]. split; [lia |]. split; [lia |]. exact PL.
Qed.
Lemma ledger_not_blocked : forall w0 is m k g u l h c xa ya ux uy lp nl w' is' sup au, initial w0 -> born_empty w0 is m -> wget (PoolAt m) (wrun w0 is) = Some (CPool k g) -> pk_x k <> m -> pk_y k <> m ->
  let w := wrun w0 is in let t := wrun w is' in let dep := WDeposit (right_accounts m k u l h c ux uy lp) u l h c xa ya in
  wexec w dep = Ok w' -> wget lp w = Some (CToken m (Key u) nl) -> Forall (fun i => wsigner i <> Some u) is' ->
  let d := position_liq w' m u l h - position_liq w m u l h in
  wget m t = Some (CMint sup au) -> liquidity t m + d < 2 ^ 128 -> sup + d / 10 ^ 12 < 2 ^ 64 ->
  exists t', wexec t dep = Ok t' /\ position_liq t' m u l h = position_liq t m u l h + d /\
    balance t ux - balance t' ux = balance w ux - balance w' ux /\ balance t uy - balance t' uy = balance w uy - balance w' uy /\ balance t' lp - balance t lp = balance w' lp - balance w lp.
Proof.
  intros w0 is m k g u l h c xa ya ux uy lp nl w' is' sup au IN B G NX NY w t dep H GL NS d GM Q1 Q2. destruct (pool_sim _ _ _ _ _ IN B G NX NY) as [s S]. destruct (wrun_ok is w0 (initial_inv _ IN) (initial_place _ IN)) as (I & _ & P). pose proof (lpvs_run is w0 (initial_inv _ IN) (initial_place _ IN) (lpvs_initial _ IN)) as LV. fold w in G, S, I, P, LV. clearbody w. clear B IN is w0.
  assert (W : poolw w m k) by (split; eauto). pose proof S as (A & R & TX & TY). pose proof (reached_inv _ R) as CI. destruct (own_dep _ _ _ _ _ _ _ _ _ _ _ _ _ _ _ W S GL H) as (s' & ES & A'). destruct (wexec_inv _ _ _ I H) as [I' _].
  destruct (pool_follows is' w m k s W S) as (js & V & AS & AT). fold t in AT. pose proof (view_signer _ _ _ _ _ V NS) as VS. pose proof (sim_run _ _ _ _ _ _ S AT) as ST. set (r := run_txs s js) in *.
  destruct (wrun_ok is' w I P) as (IT & XT & PT). fold t in IT, XT, PT. pose proof (poolw_on _ _ _ _ W IT XT) as WT. pose proof (lpvs_run is' w I P LV) as LT. fold t in LT. pose proof ST as (_ & RR & _ & _).
  assert (DD : d = pos_liq s' (Zpos u, l, h) - pos_liq s (Zpos u, l, h)) by (unfold d; rewrite (pos_agree _ _ _ _ _ _ _ A), (pos_agree _ _ _ _ _ _ _ A'); reflexivity).
  destruct (not_blocked s (Zpos u) l h c xa ya (HUser (Zpos u)) s' js R ES VS TX TY) as [r' ER].
  { cbv zeta. fold r. rewrite <- DD, <- (liq_agree t m k r IT AT RR). exact Q1. } { cbv zeta. fold r. rewrite <- DD. destruct (ag_supply _ _ _ _ AT) as [a2 S2]. rewrite GM in S2. injection S2 as <- _. exact Q2. }
  fold r in ER. destruct (same_terms s r (Zpos u) l h c xa ya (HUser (Zpos u)) s' r' R RR ES ER) as (dd & D1 & D2).
  destruct (pw_pool _ _ _ W) as [g0 G0]. pose proof (pf_lp _ _ _ (facts _ _ _ W)) as LP. destruct (deposit_paid _ _ _ _ _ _ _ _ _ _ _ I H G0) as (nx & ny & vx & vy & ax & ay & AX & AY & U1 & U2 & U3 & U4 & _); [rewrite LP; auto | rewrite LP; auto |]. cbn [right_accounts a_ux a_uy a_pool] in *.
  destruct (dep_terms _ _ _ _ _ _ _ _ _ _ _ _ _ _ _ _ _ W S GL H A' I' D1) as (T1 & T2 & T3 & T4).
  destruct (user_tokens w u is' ux _ _ I P NS U1) as (nx' & X1 & X2). destruct (user_tokens w u is' uy _ _ I P NS U3) as (ny' & Y1 & Y2). destruct (user_tokens w u is' lp _ _ I P NS GL) as (nl' & L1 & _). fold t in X1, Y1, L1.
  assert (BX : bal (HUser (Zpos u)) (c_x r) - bal (HUser (Zpos u)) (c_x r') <= nx' /\ bal (HUser (Zpos u)) (c_y r) - bal (HUser (Zpos u)) (c_y r') <= ny').
  { destruct D2 as (_ & _ & _ & _ & _ & _ & (_ & D3 & _) & (_ & D4 & _) & _). unfold balance in T1, T2. rewrite U1, U2 in T1. rewrite U3, U4 in T2. lia. }
  destruct (lift_deposit t m k r u l h c xa ya ux uy lp nx' ny' (Key u) nl' r' WT LT ST X1 Y1 L1 ER (proj1 BX) (proj2 BX)) as (t' & ET & AT'). exists t'. split; [exact ET |]. destruct (wexec_inv _ _ _ IT ET) as [IT' _].
  destruct (dep_terms _ _ _ _ _ _ _ _ _ _ _ _ _ _ _ _ _ WT ST L1 ET AT' IT' D2) as (T5 & T6 & T7 & T8). assert (d = dd) by (unfold d; rewrite T4; lia). subst dd. lia.
Qed.
(** ** Withdrawals *)
Lemma ledger_after_deposit : forall w0 is m k g u l h c xa ya ux uy lp nl w' n, initial w0 -> born_empty w0 is m -> wget (PoolAt m) (wrun w0 is) = Some (CPool k g) -> pk_x k <> m -> pk_y k <> m ->
  let w := wrun w0 is in wexec w (WDeposit (right_accounts m k u l h c ux uy lp) u l h c xa ya) = Ok w' -> wget lp w = Some (CToken m (Key u) nl) -> l <> c -> h <> c -> 0 < n <= balance w' lp - nl ->
  exists w'', wexec w' (WWithdraw (right_accounts m k u l h c ux uy lp) u l h c n) = Ok w''.
Proof.
  intros w0 is m k g u l h c xa ya ux uy lp nl w' n IN B G NX NY w H GL LC HC Hn. destruct (pool_sim _ _ _ _ _ IN B G NX NY) as [s S]. destruct (wrun_ok is w0 (initial_inv _ IN) (initial_place _ IN)) as (I & _ & P). pose proof (lpvs_run is w0 (initial_inv _ IN) (initial_place _ IN) (lpvs_initial _ IN)) as LV. fold w in G, S, I, P, LV. clearbody w. clear B IN is w0.
  assert (W : poolw w m k) by (split; eauto). pose proof S as (A & R & TX & TY). pose proof (reached_inv _ R) as CI. destruct (own_dep _ _ _ _ _ _ _ _ _ _ _ _ _ _ _ W S GL H) as (s' & ES & A'). destruct (wexec_inv _ _ _ I H) as [I' X'].
  destruct (exec_deposit _ _ _ _ _ _ _ _ _ CI ES) as (_ & dd & DE & _). destruct (dep_terms _ _ _ _ _ _ _ _ _ _ _ _ _ _ _ _ _ W S GL H A' I' DE) as (T1 & T2 & T3 & T4).
  assert (BL : bal (HUser (Zpos u)) (c_lp s) + n <= bal (HUser (Zpos u)) (c_lp s')). { destruct DE as (_ & _ & _ & _ & _ & _ & _ & _ & D1 & _). unfold balance in T3 at 2. rewrite GL in T3. lia. }
  destruct (after_deposit s (Zpos u) l h c xa ya s' n CI ES LC HC (proj1 Hn) BL) as [s'' EW].
  assert (S' : sim w' m k s'). { pose proof (sim_run w w' m k s [IDeposit (Zpos u) l h c xa ya (HUser (Zpos u))] S) as SR. cbn [run_txs fold_left] in SR. unfold tx in SR. rewrite ES in SR. exact (SR A'). }
  destruct (pw_pool _ _ _ W) as [g0 G0]. pose proof (pf_lp _ _ _ (facts _ _ _ W)) as LP. destruct (deposit_paid _ _ _ _ _ _ _ _ _ _ _ I H G0) as (nx & ny & vx & vy & ax & ay & AX & AY & U1 & U2 & U3 & U4 & _); [rewrite LP; auto | rewrite LP; auto |]. cbn [right_accounts a_ux a_uy a_pool] in *.
  destruct (ag_supply _ _ _ _ A) as [au SU]. rewrite <- LP in SU, GL. destruct (deposit_lp w (right_accounts m k u l h c ux uy lp) _ _ _ _ _ _ _ _ _ _ _ _ _ I H G0 ltac:(rewrite LP; auto) ltac:(rewrite LP; auto) GL SU) as (z & Z1 & _). cbn [right_accounts a_lp] in Z1. rewrite LP in Z1.
  unfold balance in Hn. rewrite Z1 in Hn. pose proof (wi_token _ I _ _ _ _ GL) as [PL _].
  destruct (lift_withdraw w' m k s' u l h c n ux uy lp _ _ _ s'' (poolw_on _ _ _ _ W I' X') (lpvs_step _ _ _ I P LV H) S' U2 U4 Z1 EW) as (w'' & E & _); [lia |]. eauto.
Qed.
Lemma ledger_locked : forall w0 is m k g is' d u l h c n w'', initial w0 -> born_empty w0 is m -> wget (PoolAt m) (wrun w0 is) = Some (CPool k g) -> pk_x k <> m -> pk_y k <> m ->
  a_pool d = PoolAt m -> l = cg_tick g \/ h = cg_tick g -> 0 < n -> wexec (wrun (wrun w0 is) is') (WWithdraw d u l h c n) <> Ok w''.
Proof.
  intros w0 is m k g is' d u l h c n w'' IN B G NX NY PD T Hn H. destruct (pool_sim _ _ _ _ _ IN B G NX NY) as [s S]. destruct (wrun_ok is w0 (initial_inv _ IN) (initial_place _ IN)) as (I & _ & P). set (w := wrun w0 is) in *. clearbody w. clear B IN is w0.
  assert (W : poolw w m k) by (split; eauto). destruct (pool_follows is' w m k s W S) as (js & _ & _ & AT). pose proof (sim_run _ _ _ _ _ _ S AT) as ST. destruct (wrun_ok is' w I P) as (IT & XT & _).
  unfold wexec in H. destruct (wargs_ok _) eqn:AO; [| discriminate H]. cbn [negb wargs_ok] in *. destruct (own_withdraw _ _ _ _ _ _ _ _ _ _ _ (poolw_on _ _ _ _ W IT XT) ST PD H) as (s' & E & _).
  pose proof S as (A & R & _). destruct (ag_pool _ _ _ _ A) as (g1 & G1 & C1). rewrite G in G1. injection G1 as <-.
  apply (locked_always s js (Zpos u) l h c n (cg_tick g) R) with (s' := s'); [exists g; auto | exact T | exact Hn |]. unfold exec. cbn [args_ok]. rewrite AO. exact E.
Qed.
