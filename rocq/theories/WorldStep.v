(** The whole ledger: the pool's own instructions, and every step of the ledger as seen by a pool. *)
From Coq Require Import ZArith QArith List Bool Lia.
From Verif Require Import Base BaseLemmas DecimalModel DecimalSpec DecimalProofs WfProofs MathModel MathProofs TickProofs BitmapModel BitmapProofs PoolWf LpProofs ChainModel ChainLemmas ChainProofs ChainSpec ChainInv ChainFlow ChainLive ChainOrder WorldModel WorldSpec WorldProofs WorldInv WorldSim.
Import ListNotations.
Open Scope Z_scope.

(** ** The bodies put together *)
Lemma deposit_compose : forall s u l h c xa ya to g bm ps lt ut cur g' bm' ps' lt' ut' n xd yd lp sup ax ay lx ly,
  load_accounts s u l h c = Ok (g, bm, ps, lt, ut, cur) -> deposit_body g bm ps lt ut l h c xa ya = Ok (g', bm', ps', lt', ut', n, xd, yd) -> spl_mint (c_lp s) (c_lp_supply s) to n = Ok (lp, sup) ->
  d_abs xd = Ok ax -> spl_transfer (c_x s) (HUser u) HVault ax = Ok lx -> d_abs yd = Ok ay -> spl_transfer (c_y s) (HUser u) HVault ay = Ok ly ->
  i_deposit s u l h c xa ya to = Ok (write_back s g' bm' (u, l, h) ps' l h c lt' ut' cur lx ly lp sup).
Proof.
  intros s u l h c xa ya to g bm ps lt ut cur g' bm' ps' lt' ut' n xd yd lp sup ax ay lx ly L B M A1 T1 A2 T2. unfold i_deposit. rewrite L. cbn [bind]. unfold deposit_body in B.
  destruct (to_compute_scale (from_u64 xa)) as [x | | |]; [| discriminate B | discriminate B | discriminate B]. cbn [bind] in B |- *. destruct (to_compute_scale (from_u64 ya)) as [y | | |]; [| discriminate B | discriminate B | discriminate B]. cbn [bind] in B |- *.
  destruct (tick_to_rp l) as [a | | |]; [| discriminate B | discriminate B | discriminate B]. cbn [bind] in B |- *. destruct (tick_to_rp h) as [b | | |]; [| discriminate B | discriminate B | discriminate B]. cbn [bind] in B |- *. destruct (tick_to_rp c) as [rp | | |]; [| discriminate B | discriminate B | discriminate B]. cbn [bind] in B |- *.
  destruct (liq_from_x_y_rp_rng x y rp a b) as [d | | |]; [| discriminate B | discriminate B | discriminate B]. cbn [bind] in B |- *. destruct (dneg d); [discriminate B |].
  destruct (if ct_gross lt =? 0 then activate_tick bm 0 else Ok bm) as [bm1 | | |]; [| discriminate B | discriminate B | discriminate B]. cbn [bind] in B |- *. destruct (if ct_gross ut =? 0 then activate_tick bm1 40000 else Ok bm1) as [bm2 | | |]; [| discriminate B | discriminate B | discriminate B]. cbn [bind] in B |- *.
  destruct (x_from_l_rp_rng d rp a b) as [xi | | |]; [| discriminate B | discriminate B | discriminate B]. cbn [bind] in B |- *. destruct (y_from_l_rp_rng d rp a b) as [yi | | |]; [| discriminate B | discriminate B | discriminate B]. cbn [bind] in B |- *.
  destruct (compute_latest_fee l h c (cg_fee g) (ct_fee lt) (ct_fee ut) (fe_scale (cp_fee ps))) as [nf | | |]; [| discriminate B | discriminate B | discriminate B]. cbn [bind] in B |- *.
  destruct (unwrap (c_update_position ps lt ut d l h nf)) as [[[p1 l1] u1] | | |]; [| discriminate B | discriminate B | discriminate B]. cbn [bind] in B |- *. destruct (c_update_global g l h c d) as [g1 | | |]; [| discriminate B | discriminate B | discriminate B]. cbn [bind] in B |- *.
  destruct (to_scale (mkD (wadd (fe_fx nf) (fe_hx nf)) (fe_scale nf) false) (dscale xi)) as [fx | | |]; [| discriminate B | discriminate B | discriminate B]. cbn [bind] in B |- *. destruct (unwrap (d_sub xi fx)) as [x1 | | |]; [| discriminate B | discriminate B | discriminate B]. cbn [bind] in B |- *.
  destruct (to_scale (mkD (wadd (fe_fy nf) (fe_hy nf)) (fe_scale nf) false) (dscale yi)) as [fy | | |]; [| discriminate B | discriminate B | discriminate B]. cbn [bind] in B |- *. destruct (unwrap (d_sub yi fy)) as [y1 | | |]; [| discriminate B | discriminate B | discriminate B]. cbn [bind] in B |- *.
  destruct (unwrap (d_gt x1 x)) as [[] | | |]; [discriminate B | | discriminate B | discriminate B | discriminate B]. cbn [bind] in B |- *. destruct (unwrap (d_gt y1 y)) as [[] | | |]; [discriminate B | | discriminate B | discriminate B | discriminate B]. cbn [bind] in B |- *.
  destruct (d_abs d) as [n1 | | |]; [| discriminate B | discriminate B | discriminate B]. cbn [bind] in B |- *. injection B as <- <- <- <- <- <- <- <-. rewrite M. cbn [bind]. rewrite A1. cbn [bind]. rewrite T1. cbn [bind]. rewrite A2. cbn [bind]. rewrite T2. reflexivity.
Qed.
Lemma withdraw_compose : forall s u l h c n g bm ps lt ut cur g' bm' ps' lt' ut' xc yc lp sup ax ay lx ly,
  load_accounts s u l h c = Ok (g, bm, ps, lt, ut, cur) -> withdraw_body g bm ps lt ut l h c n = Ok (g', bm', ps', lt', ut', xc, yc) -> spl_burn (c_lp s) (c_lp_supply s) (HUser u) n = Ok (lp, sup) ->
  d_abs xc = Ok ax -> spl_transfer (c_x s) HVault (HUser u) ax = Ok lx -> d_abs yc = Ok ay -> spl_transfer (c_y s) HVault (HUser u) ay = Ok ly ->
  i_withdraw s u l h c n = Ok (write_back s g' bm' (u, l, h) ps' l h c lt' ut' cur lx ly lp sup).
Proof.
  intros s u l h c n g bm ps lt ut cur g' bm' ps' lt' ut' xc yc lp sup ax ay lx ly L B M A1 T1 A2 T2. unfold i_withdraw. rewrite L. cbn [bind]. unfold withdraw_body in B. cbv zeta in *.
  destruct (to_compute_scale (from_u64 n)) as [x | | |]; [| discriminate B | discriminate B | discriminate B]. cbn [bind] in B |- *.
  destruct (tick_to_rp l) as [a | | |]; [| discriminate B | discriminate B | discriminate B]. cbn [bind] in B |- *. destruct (tick_to_rp h) as [b | | |]; [| discriminate B | discriminate B | discriminate B]. cbn [bind] in B |- *. destruct (tick_to_rp c) as [rp | | |]; [| discriminate B | discriminate B | discriminate B]. cbn [bind] in B |- *.
  destruct (compute_latest_fee l h c (cg_fee g) (ct_fee lt) (ct_fee ut) (fe_scale (cp_fee ps))) as [nf | | |]; [| discriminate B | discriminate B | discriminate B]. cbn [bind] in B |- *.
  destruct (unwrap (c_update_position ps lt ut (d_neg x) l h nf)) as [[[p1 l1] u1] | | |]; [| discriminate B | discriminate B | discriminate B]. cbn [bind] in B |- *.
  destruct (BitmapModel.unset_tick bm 0) as [bm1 | | |]; [| discriminate B | discriminate B | discriminate B]. cbn [bind] in B |- *. destruct (BitmapModel.unset_tick bm1 40000) as [bm2 | | |]; [| discriminate B | discriminate B | discriminate B]. cbn [bind] in B |- *. destruct (c_update_global g l h c (d_neg x)) as [g1 | | |]; [| discriminate B | discriminate B | discriminate B]. cbn [bind] in B |- *.
  destruct (x_from_l_rp_rng (d_neg (d_neg x)) rp a b) as [xi | | |]; [| discriminate B | discriminate B | discriminate B]. cbn [bind] in B |- *. destruct (y_from_l_rp_rng (d_neg (d_neg x)) rp a b) as [yi | | |]; [| discriminate B | discriminate B | discriminate B]. cbn [bind] in B |- *.
  destruct (to_scale (mkD (wadd (fe_fx nf) (fe_hx nf)) (fe_scale nf) false) (dscale xi)) as [fx | | |]; [| discriminate B | discriminate B | discriminate B]. cbn [bind] in B |- *. destruct (unwrap (d_add xi fx)) as [x1 | | |]; [| discriminate B | discriminate B | discriminate B]. cbn [bind] in B |- *.
  destruct (to_scale (mkD (wadd (fe_fy nf) (fe_hy nf)) (fe_scale nf) false) (dscale yi)) as [fy | | |]; [| discriminate B | discriminate B | discriminate B]. cbn [bind] in B |- *. destruct (unwrap (d_add yi fy)) as [y1 | | |]; [| discriminate B | discriminate B | discriminate B]. cbn [bind] in B |- *.
  injection B as <- <- <- <- <- <- <-. rewrite M. cbn [bind]. rewrite A1. cbn [bind]. rewrite T1. cbn [bind]. rewrite A2. cbn [bind]. rewrite T2. reflexivity.
Qed.
(** What the accounts passed hold is what the single-pool model loads. *)
Lemma load_same : forall w m k s d u l h c k0 g bm ps lt ut cur, agrees w m k s -> a_pool d = PoolAt m -> accepted w d (Key u) l h c k0 g bm ps lt ut cur -> k0 = k /\ pk_lp k = m /\ load_accounts s (Zpos u) l h c = Ok (g, bm, ps, lt, ut, cur).
Proof.
  intros w m k s d u l h c k0 g bm ps lt ut cur A PM AC. destruct (ac_pool _ _ _ _ _ _ _ _ _ _ _ _ _ AC) as [P1 P2]. destruct (ac_bm _ _ _ _ _ _ _ _ _ _ _ _ _ AC) as [B1 B2]. destruct (ac_ps _ _ _ _ _ _ _ _ _ _ _ _ _ AC) as [S1 S2].
  destruct (ac_lt _ _ _ _ _ _ _ _ _ _ _ _ _ AC) as [L1 L2]. destruct (ac_ut _ _ _ _ _ _ _ _ _ _ _ _ _ AC) as [U1 U2]. destruct (ac_cur _ _ _ _ _ _ _ _ _ _ _ _ _ AC) as [C1 C2]. rewrite B1 in B2. rewrite S1 in S2. rewrite L1 in L2. rewrite U1 in U2. rewrite C1 in C2. rewrite PM in *. clear B1 S1 L1 U1 C1.
  destruct (ag_pool _ _ _ _ A) as (g1 & G1 & E1). rewrite P2 in G1. injection G1 as -> ->. injection P1 as P1. split; [reflexivity |]. split; [auto |].
  unfold load_accounts. rewrite E1, (ag_bitmap _ _ _ _ A), (ag_pos _ _ _ _ A), !(ag_tick _ _ _ _ A), B2, S2, L2, U2, C2, (ac_args _ _ _ _ _ _ _ _ _ _ _ _ _ AC). reflexivity.
Qed.
Lemma eqb_tick : forall p n c, addr_eqb (TickAt p n) (TickAt p c) = (n =? c).
Proof. intros p n c. destruct (n =? c) eqn:E. - apply Z.eqb_eq in E. subst. apply aeq_refl. - apply aneq. intros [=]. apply Z.eqb_neq in E. contradiction. Qed.
Lemma eqb_pos : forall p q l h q' l' h', addr_eqb (PositionAt p (Key q) l h) (PositionAt p (Key q') l' h') = cpkey_eqb (Zpos q, l, h) (Zpos q', l', h').
Proof. intros p q l h q' l' h'. destruct (cpkey_eqb (Zpos q, l, h) (Zpos q', l', h')) eqn:E. - apply cpkey_eqb_eq in E. injection E as -> -> ->. apply aeq_refl. - apply aneq. intros [=]. subst. rewrite cpkey_eqb_refl in E. discriminate E. Qed.
(** Writing back in the two models. *)
Lemma exit_same : forall w m k s d u l h c k0 g bm ps lt ut cur g' bm' ps' lt' ut' x y lp sup w3, agrees w m k s -> a_pool d = PoolAt m -> accepted w d (Key u) l h c k0 g bm ps lt ut cur -> same_program w w3 ->
  (forall h, bal h x = full w3 (pk_x k) (Some (pk_xv k)) h) -> (forall h, bal h y = full w3 (pk_y k) (Some (pk_yv k)) h) -> (forall h, bal h lp = held w3 m None h) -> (exists a, wget m w3 = Some (CMint sup a)) -> (exists k, m = Key k) ->
  (forall mt sel, tokens (w_exit w3 d k0 g' bm' ps' lt' ut' cur) mt sel = tokens w3 mt sel) ->
  agrees (w_exit w3 d k0 g' bm' ps' lt' ut' cur) m k (write_back s g' bm' (Zpos u, l, h) ps' l h c lt' ut' cur x y lp sup).
Proof.
  intros w m k s d u l h c k0 g bm ps lt ut cur g' bm' ps' lt' ut' x y lp sup w3 A PM AC SP HX HY HL [au HS] [km ->] T. destruct (load_same _ _ _ _ _ _ _ _ _ _ _ _ _ _ _ _ A PM AC) as (-> & _ & _). destruct (ac_bm _ _ _ _ _ _ _ _ _ _ _ _ _ AC) as [B1 _]. destruct (ac_ps _ _ _ _ _ _ _ _ _ _ _ _ _ AC) as [S1 _].
  destruct (ac_lt _ _ _ _ _ _ _ _ _ _ _ _ _ AC) as [L1 _]. destruct (ac_ut _ _ _ _ _ _ _ _ _ _ _ _ _ AC) as [U1 _]. destruct (ac_cur _ _ _ _ _ _ _ _ _ _ _ _ _ AC) as [C1 _]. rewrite PM in *.
  assert (GET : forall b, wget b (w_exit w3 d k g' bm' ps' lt' ut' cur) = if addr_eqb b (TickAt (PoolAt (Key km)) c) then Some (CTick cur) else if addr_eqb b (TickAt (PoolAt (Key km)) h) then Some (CTick ut') else if addr_eqb b (TickAt (PoolAt (Key km)) l) then Some (CTick lt')
    else if addr_eqb b (PositionAt (PoolAt (Key km)) (Key u) l h) then Some (CPos ps') else if addr_eqb b (BitmapAt (PoolAt (Key km))) then Some (CBitmap bm') else if addr_eqb b (PoolAt (Key km)) then Some (CPool k g') else wget b w3).
  { intros b. unfold w_exit. rewrite !get_set, PM, B1, S1, L1, U1, C1. reflexivity. }
  set (w4 := w_exit w3 d k g' bm' ps' lt' ut' cur) in *. clearbody w4. clear L1 U1 C1 S1 B1.
  split; cbn [write_back c_pool c_bitmap c_ticks c_pos c_x c_y c_lp c_lp_supply].
  - exists g'. split; [| reflexivity]. rewrite GET, !aneq, aeq_refl by discriminate. reflexivity.
  - rewrite GET, !(aneq (BitmapAt _)), aeq_refl by discriminate. reflexivity.
  - intros n. rewrite !ct_get_set. rewrite GET, !eqb_tick, !(aneq (TickAt _ _)) by discriminate. destruct (n =? c); [reflexivity |]. destruct (n =? h); [reflexivity |]. destruct (n =? l); [reflexivity |].
    rewrite (ag_tick _ _ _ _ A). symmetry. apply (pv_tick (wget (TickAt (PoolAt (Key km)) n) w)). apply SP.
  - intros q l0 h0. rewrite cp_get_set. rewrite (ag_pos _ _ _ _ A). destruct q as [| q | q]; [reflexivity | | reflexivity]. rewrite GET, eqb_pos, !(aneq (PositionAt _ _ _ _)) by discriminate. destruct (cpkey_eqb (Z.pos q, l0, h0) (Z.pos u, l, h)); [reflexivity |].
    symmetry. apply (pv_pos (wget (PositionAt (PoolAt (Key km)) (Key q) l0 h0) w)). apply SP.
  - intros h0. unfold full, held. rewrite !T. apply HX. - intros h0. unfold full, held. rewrite !T. apply HY. - intros h0. unfold held. rewrite T. apply HL.
  - exists au. rewrite GET, !aneq by discriminate. exact HS.
Qed.
Lemma mint_key : forall w m k, poolw w m k -> exists q, m = Key q.
Proof. intros w m k P. destruct (pf_mint _ _ _ (facts _ _ _ P)) as [s G]. destruct (wi_mint _ (pw_inv _ _ _ P) _ _ _ G) as (_ & _ & K). exact K. Qed.
Lemma mint_on : forall w w' mt a o n m s u, issues w w' mt a o n -> wget m w = Some (CMint s u) -> m <> mt -> wget m w' = Some (CMint s u).
Proof. intros w w' mt a o n m s u M G N. destruct (is_acct _ _ _ _ _ _ M) as (x & E & _). rewrite (is_other _ _ _ _ _ _ M); [exact G | intros ->; rewrite G in E; discriminate E | exact N]. Qed.
Lemma program_trans : forall a b c, same_program a b -> same_program b c -> same_program a c. Proof. intros a b c A B x. rewrite B. apply A. Qed.
Lemma held_move : forall w w' mt f fo t to n m v h, moves_tokens w w' mt f fo t to n -> held w' m v h = held w m v h + one (addr_eqb mt m) (one (holder_eqb (holder_of v t to) h) n - one (holder_eqb (holder_of v f fo) h) n).
Proof. intros. unfold held. rewrite (mt_sum _ _ _ _ _ _ _ _ H). reflexivity. Qed.
Lemma held_issue : forall w w' mt a o n m v h, issues w w' mt a o n -> held w' m v h = held w m v h + one (addr_eqb mt m) (one (holder_eqb (holder_of v a o) h) n).
Proof. intros. unfold held. rewrite (is_sum _ _ _ _ _ _ H). reflexivity. Qed.

Lemma own_deposit : forall w m k s d u l h c xa ya w', poolw w m k -> sim w m k s -> a_pool d = PoolAt m -> w_deposit w d (Key u) l h c xa ya = Ok w' ->
  exists o n s', wget (a_lp d) w = Some (CToken m o n) /\ i_deposit s (Zpos u) l h c xa ya (HUser (uid o)) = Ok s' /\ agrees w' m k s'.
Proof.
  intros w m k s d u l h c xa ya w' W (A & R & TX & TY) PM H. pose proof (pw_inv _ _ _ W) as I. pose proof (facts _ _ _ W) as F. pose proof (reached_inv _ R) as CI. destruct (i_funds _ CI) as (FX & FY & FL). destruct (i_lp _ CI) as [LS _].
  destruct (deposit_parts _ _ _ _ _ _ _ _ _ I H) as (k0 & g & bm & ps & lt & ut & cur & g' & bm' & ps' & lt' & ut' & n & ax & ay & xd & yd & lo & w1 & w2 & w3 & D). destruct D as [AC DB [DM Nn] [DX Nx] MX [DY Ny] MY (-> & I4 & X4 & T4 & X1 & X2 & X3)].
  destruct (load_same _ _ _ _ _ _ _ _ _ _ _ _ _ _ _ _ A PM AC) as (-> & LP & LO). rewrite LP in *. clear H.
  destruct (is_acct _ _ _ _ _ _ DM) as (z & Gz & Hz). exists lo, z. destruct (is_mint _ _ _ _ _ _ DM) as (s0 & au & M1 & M2 & M3). destruct (ag_supply _ _ _ _ A) as [au' SU]. rewrite SU in M1. injection M1 as <- <-.
  pose proof (ag_x _ _ _ _ A) as AX. pose proof (ag_y _ _ _ _ A) as AY. pose proof (ag_lp _ _ _ _ A) as AL. pose proof (pf_xy _ _ _ F) as XY. pose proof (pf_xm _ _ _ F) as XM. pose proof (pf_ym _ _ _ F) as YM.
  pose proof (is_inv _ _ _ _ _ _ DM) as I1. pose proof (mt_inv _ _ _ _ _ _ _ _ MX) as I2. destruct (mt_from _ _ _ _ _ _ _ _ MX) as (bx & BX & LX). destruct (mt_from _ _ _ _ _ _ _ _ MY) as (by_ & BY & LY).
  destruct (pf_vx _ _ _ F) as [vx VX]. destruct (pf_vy _ _ _ F) as [vy VY]. destruct (is_kept _ _ _ _ _ _ DM _ _ _ _ VX) as (vx1 & VX1 & _). destruct (is_kept _ _ _ _ _ _ DM _ _ _ _ VY) as (vy1 & VY1 & _). destruct (mt_kept _ _ _ _ _ _ _ _ MX _ _ _ _ VY1) as (vy2 & VY2 & _).
  assert (HX : holder_of (Some (pk_xv k)) (a_ux d) (Key u) = HUser (Zpos u)) by (apply holder_user; intros a [= <-] E; rewrite E, VX1 in BX; discriminate BX).
  assert (HY : holder_of (Some (pk_yv k)) (a_uy d) (Key u) = HUser (Zpos u)) by (apply holder_user; intros a [= <-] E; rewrite E, VY2 in BY; discriminate BY).
  assert (VHX : holder_of (Some (pk_xv k)) (pk_xv k) (PoolAt m) = HVault) by (cbn; rewrite aeq_refl; reflexivity). assert (VHY : holder_of (Some (pk_yv k)) (pk_yv k) (PoolAt m) = HVault) by (cbn; rewrite aeq_refl; reflexivity).
  destruct (mint_Ok (c_lp s) (c_lp_supply s) (HUser (uid lo)) n) as [[lp sup] EM]; [lia | pose proof (bal_le_total (c_lp s) (HUser (uid lo)) FL); lia |]. destruct (mint_ok _ _ _ _ _ _ EM) as (-> & _ & _ & _ & _ & ML1 & ML2).
  assert (AX1 : forall h0, bal h0 (c_x s) = full w1 (pk_x k) (Some (pk_xv k)) h0) by (intros h0; rewrite (full_issue _ _ _ _ _ _ _ _ _ DM), aneq by auto; rewrite one_false, Z.add_0_r; apply AX).
  pose proof (full_ge w1 _ (Some (pk_xv k)) _ _ _ I1 BX) as GX. rewrite HX in GX. destruct (follow (c_x s) _ (HUser (Zpos u)) HVault ax FX TX AX1) as (lx & EX & BLX); [lia |].

  assert (AY1 : forall h0, bal h0 (c_y s) = full w2 (pk_y k) (Some (pk_yv k)) h0) by (intros h0; rewrite (full_move _ _ _ _ _ _ _ _ _ _ _ (mt_sum _ _ _ _ _ _ _ _ MX)), (full_issue _ _ _ _ _ _ _ _ _ DM), !aneq by auto; rewrite !one_false, !Z.add_0_r; apply AY).
  pose proof (full_ge w2 _ (Some (pk_yv k)) _ _ _ I2 BY) as GY. rewrite HY in GY. destruct (follow (c_y s) _ (HUser (Zpos u)) HVault ay FY TY AY1) as (ly & EY & BLY); [lia |].
  eexists. split; [exact Gz |]. split; [exact (deposit_compose _ _ _ _ _ _ _ _ _ _ _ _ _ _ _ _ _ _ _ _ _ _ _ _ _ _ _ _ LO DB EM DX EX DY EY) |].
  apply (exit_same w m k s d u l h c k g bm ps lt ut cur); auto.
  - apply (program_trans _ w1); [eapply issues_program; eauto |]. apply (program_trans _ w2); eapply moves_program; eauto.
  - intros h0. rewrite (full_move _ _ _ _ _ _ _ _ _ _ _ (mt_sum _ _ _ _ _ _ _ _ MY)), (aneq (pk_y k)) by auto. rewrite one_false, Z.add_0_r. rewrite (full_move _ _ _ _ _ _ _ _ _ _ _ (mt_sum _ _ _ _ _ _ _ _ MX)), aeq_refl, HX, VHX. apply BLX.
  - intros h0. rewrite (full_move _ _ _ _ _ _ _ _ _ _ _ (mt_sum _ _ _ _ _ _ _ _ MY)), aeq_refl, HY, VHY. apply BLY.
  - intros h0. rewrite (held_move _ _ _ _ _ _ _ _ _ _ _ MY), (held_move _ _ _ _ _ _ _ _ _ _ _ MX), !(aneq _ m) by auto. rewrite !one_false, !Z.add_0_r. rewrite (held_issue _ _ _ _ _ _ _ _ _ DM), aeq_refl. cbn [one holder_of]. rewrite hsym. unfold one.
    destruct (holder_eqb h0 (HUser (uid lo))) eqn:EH; [apply holder_eqb_eq in EH; subst h0; rewrite ML2, AL; lia |]. rewrite ML1, AL; [lia |]. intros ->. rewrite holder_eqb_refl in EH. discriminate EH.
  - exists au'. destruct (mt_to _ _ _ _ _ _ _ _ MX) as (? & T1). destruct (mt_to _ _ _ _ _ _ _ _ MY) as (? & T2). rewrite (mt_other _ _ _ _ _ _ _ _ MY), (mt_other _ _ _ _ _ _ _ _ MX); [exact M2 | | | |].
    + intros E. rewrite E in M2. rewrite M2 in BX. discriminate BX. + intros E. rewrite E in M2. rewrite M2 in T1. discriminate T1.
    + intros E. destruct (ext_mint _ _ _ _ _ X2 M2) as (q & q' & Q & _). rewrite E, BY in Q. discriminate Q. + intros E. destruct (ext_mint _ _ _ _ _ X2 M2) as (q & q' & Q & _). rewrite E, T2 in Q. discriminate Q.
  - eapply mint_key; eauto.
Qed.
Lemma own_withdraw : forall w m k s d u l h c n w', poolw w m k -> sim w m k s -> a_pool d = PoolAt m -> w_withdraw w d (Key u) l h c n = Ok w' ->
  exists s', i_withdraw s (Zpos u) l h c n = Ok s' /\ agrees w' m k s'.
Proof.
  intros w m k s d u l h c n w' W (A & R & TX & TY) PM H. pose proof (pw_inv _ _ _ W) as I. pose proof (facts _ _ _ W) as F. pose proof (reached_inv _ R) as CI. destruct (i_funds _ CI) as (FX & FY & FL). destruct (i_lp _ CI) as [LS _].
  destruct (withdraw_parts _ _ _ _ _ _ _ _ I H) as (k0 & g & bm & ps & lt & ut & cur & g' & bm' & ps' & lt' & ut' & ax & ay & xd & yd & w1 & w2 & w3 & D). destruct D as [AC DB [DM Nn] [DX Nx] MX [DY Ny] MY (-> & I4 & X4 & T4 & X1 & X2 & X3)].
  destruct (load_same _ _ _ _ _ _ _ _ _ _ _ _ _ _ _ _ A PM AC) as (-> & LP & LO). rewrite LP in *. clear H.
  destruct (is_acct _ _ _ _ _ _ DM) as (z & Gz & Hz). destruct (is_mint _ _ _ _ _ _ DM) as (s0 & au & M1 & M2 & M3). destruct (ag_supply _ _ _ _ A) as [au' SU]. rewrite SU in M1. injection M1 as <- <-.
  pose proof (ag_x _ _ _ _ A) as AX. pose proof (ag_y _ _ _ _ A) as AY. pose proof (ag_lp _ _ _ _ A) as AL. pose proof (pf_xy _ _ _ F) as XY. pose proof (pf_xm _ _ _ F) as XM. pose proof (pf_ym _ _ _ F) as YM.
  pose proof (is_inv _ _ _ _ _ _ DM) as I1. pose proof (mt_inv _ _ _ _ _ _ _ _ MX) as I2. destruct (mt_from _ _ _ _ _ _ _ _ MX) as (bx & BX & LX). destruct (mt_from _ _ _ _ _ _ _ _ MY) as (by_ & BY & LY).
  destruct (mt_to _ _ _ _ _ _ _ _ MX) as (tx_ & T1). destruct (mt_to _ _ _ _ _ _ _ _ MY) as (ty_ & T2).
  assert (HX : holder_of (Some (pk_xv k)) (a_ux d) (Key u) = HUser (Zpos u)) by (apply holder_user; intros a [= <-] E; rewrite E, BX in T1; discriminate T1).
  assert (HY : holder_of (Some (pk_yv k)) (a_uy d) (Key u) = HUser (Zpos u)) by (apply holder_user; intros a [= <-] E; rewrite E, BY in T2; discriminate T2).
  assert (VHX : holder_of (Some (pk_xv k)) (pk_xv k) (PoolAt m) = HVault) by (cbn; rewrite aeq_refl; reflexivity). assert (VHY : holder_of (Some (pk_yv k)) (pk_yv k) (PoolAt m) = HVault) by (cbn; rewrite aeq_refl; reflexivity).
  destruct (burn_Ok (c_lp s) (c_lp_supply s) (HUser (Zpos u)) n) as [[lp sup] EM].
  { rewrite AL. unfold held. pose proof (tokens_ge w m (fun a o => holder_eqb (holder_of None a o) (HUser (Zpos u))) _ _ _ (wi_nn _ I) Gz) as Q. cbn [holder_of uid] in Q. rewrite holder_eqb_refl in Q. specialize (Q eq_refl). cbn [holder_of]. lia. } { lia. }
  destruct (burn_ok _ _ _ _ _ _ EM) as (-> & _ & _ & _ & _ & ML1 & ML2).
  assert (AX1 : forall h0, bal h0 (c_x s) = full w1 (pk_x k) (Some (pk_xv k)) h0) by (intros h0; rewrite (full_issue _ _ _ _ _ _ _ _ _ DM), aneq by auto; rewrite one_false, Z.add_0_r; apply AX).
  pose proof (full_ge w1 _ (Some (pk_xv k)) _ _ _ I1 BX) as GX. rewrite VHX in GX. destruct (follow (c_x s) _ HVault (HUser (Zpos u)) ax FX TX AX1) as (lx & EX & BLX); [lia |].

  assert (AY1 : forall h0, bal h0 (c_y s) = full w2 (pk_y k) (Some (pk_yv k)) h0) by (intros h0; rewrite (full_move _ _ _ _ _ _ _ _ _ _ _ (mt_sum _ _ _ _ _ _ _ _ MX)), (full_issue _ _ _ _ _ _ _ _ _ DM), !aneq by auto; rewrite !one_false, !Z.add_0_r; apply AY).
  pose proof (full_ge w2 _ (Some (pk_yv k)) _ _ _ I2 BY) as GY. rewrite VHY in GY. destruct (follow (c_y s) _ HVault (HUser (Zpos u)) ay FY TY AY1) as (ly & EY & BLY); [lia |].
  eexists. split; [exact (withdraw_compose _ _ _ _ _ _ _ _ _ _ _ _ _ _ _ _ _ _ _ _ _ _ _ _ _ LO DB EM DX EX DY EY) |].
  apply (exit_same w m k s d u l h c k g bm ps lt ut cur); auto.
  - apply (program_trans _ w1); [eapply issues_program; eauto |]. apply (program_trans _ w2); eapply moves_program; eauto.
  - intros h0. rewrite (full_move _ _ _ _ _ _ _ _ _ _ _ (mt_sum _ _ _ _ _ _ _ _ MY)), (aneq (pk_y k)) by auto. rewrite one_false, Z.add_0_r. rewrite (full_move _ _ _ _ _ _ _ _ _ _ _ (mt_sum _ _ _ _ _ _ _ _ MX)), aeq_refl, HX, VHX. apply BLX.
  - intros h0. rewrite (full_move _ _ _ _ _ _ _ _ _ _ _ (mt_sum _ _ _ _ _ _ _ _ MY)), aeq_refl, HY, VHY. apply BLY.
  - intros h0. rewrite (held_move _ _ _ _ _ _ _ _ _ _ _ MY), (held_move _ _ _ _ _ _ _ _ _ _ _ MX), !(aneq _ m) by auto. rewrite !one_false, !Z.add_0_r. rewrite (held_issue _ _ _ _ _ _ _ _ _ DM), aeq_refl. cbn [one holder_of uid]. rewrite hsym. unfold one.
    destruct (holder_eqb h0 (HUser (Zpos u))) eqn:EH; [apply holder_eqb_eq in EH; subst h0; rewrite ML2, AL; lia |]. rewrite ML1, AL; [lia |]. intros ->. rewrite holder_eqb_refl in EH. discriminate EH.
  - exists au'. rewrite (mt_other _ _ _ _ _ _ _ _ MY), (mt_other _ _ _ _ _ _ _ _ MX); [exact M2 | | | |].
    + intros E. rewrite E in M2. rewrite M2 in BX. discriminate BX. + intros E. rewrite E in M2. rewrite M2 in T1. discriminate T1.
    + intros E. destruct (ext_mint _ _ _ _ _ X2 M2) as (q & q' & Q & _). rewrite E, BY in Q. discriminate Q. + intros E. destruct (ext_mint _ _ _ _ _ X2 M2) as (q & q' & Q & _). rewrite E, T2 in Q. discriminate Q.
  - eapply mint_key; eauto.
Qed.

(** ** Instructions of other pools *)
Lemma exit_other : forall w w0 d u l h c k g bm ps lt ut cur g' bm' ps' lt' ut' m b, accepted w0 d u l h c k g bm ps lt ut cur -> a_pool d <> PoolAt m -> mine m b \/ (exists q, b = Key q) -> wget b (w_exit w d k g' bm' ps' lt' ut' cur) = wget b w.
Proof.
  intros w w0 d u l h c k g bm ps lt ut cur g' bm' ps' lt' ut' m b AC N M. destruct (ac_pool _ _ _ _ _ _ _ _ _ _ _ _ _ AC) as [P1 _]. destruct (ac_bm _ _ _ _ _ _ _ _ _ _ _ _ _ AC) as [B1 _]. destruct (ac_ps _ _ _ _ _ _ _ _ _ _ _ _ _ AC) as [S1 _].
  destruct (ac_lt _ _ _ _ _ _ _ _ _ _ _ _ _ AC) as [L1 _]. destruct (ac_ut _ _ _ _ _ _ _ _ _ _ _ _ _ AC) as [U1 _]. destruct (ac_cur _ _ _ _ _ _ _ _ _ _ _ _ _ AC) as [C1 _]. rewrite P1 in *.
  assert (NM : pk_lp k <> m) by congruence. unfold w_exit. rewrite !get_set, P1, B1, S1, L1, U1, C1. assert (NE : forall a, (exists n, a = TickAt (PoolAt (pk_lp k)) n) \/ a = PositionAt (PoolAt (pk_lp k)) u l h \/ a = BitmapAt (PoolAt (pk_lp k)) \/ a = PoolAt (pk_lp k) -> b <> a).
  { intros a Ha E. subst a. destruct M as [M | [q ->]]; [| destruct Ha as [[n Ha] | [Ha | [Ha | Ha]]]; discriminate Ha].
    destruct M as [-> | [-> | [[n ->] | (u0 & l0 & h0 & ->)]]]; destruct Ha as [[n' Ha] | [Ha | [Ha | Ha]]]; try discriminate Ha; injection Ha; intros; subst; apply NM; reflexivity. }
  rewrite !aneq; [reflexivity | | | | | |]; apply NE; eauto 6.
Qed.
Lemma other_deposit : forall w m k s d u l h c xa ya w', poolw w m k -> sim w m k s -> a_pool d <> PoolAt m -> w_deposit w d (Key u) l h c xa ya = Ok w' -> follows (fun f => f = Zpos u \/ f = 0 \/ f = -1) w m k s w'.
Proof.
  intros w m k s d u l h c xa ya w' W S PM H. pose proof (pw_inv _ _ _ W) as I.
  destruct (deposit_parts _ _ _ _ _ _ _ _ _ I H) as (k2 & g & bm & ps & lt & ut & cur & g' & bm' & ps' & lt' & ut' & n & ax & ay & xd & yd & lo & w1 & w2 & w3 & D). destruct D as [AC DB [DM Nn] [DX Nx] MX [DY Ny] MY (-> & I4 & X4 & T4 & X1 & X2 & X3)]. clear DB DX DY H.
  destruct (ac_pool _ _ _ _ _ _ _ _ _ _ _ _ _ AC) as [P1 P2]. rewrite P1 in P2. assert (NM : pk_lp k2 <> m) by congruence.
  pose proof (is_inv _ _ _ _ _ _ DM) as I1. pose proof (mt_inv _ _ _ _ _ _ _ _ MX) as I2. pose proof (mt_inv _ _ _ _ _ _ _ _ MY) as I3.
  pose proof (poolw_on _ _ _ _ W I1 X1) as W1. pose proof (poolw_on _ _ _ _ W1 I2 X2) as W2.
  apply (follows_trans _ w m k s w1 _ S); [apply (sim_issue _ _ _ _ _ _ _ _ _ _ W S DM); auto |]. intros s1 S1.
  apply (follows_trans _ w1 m k s1 w2 _ S1). { apply (sim_move _ _ _ _ _ _ (pk_x k2) (a_ux d) (Key u) (pk_xv k2) (PoolAt (pk_lp k2)) ax W1 S1); [apply moved_of; auto; lia | discriminate | left; reflexivity | lia]. } intros s2 S2.
  apply (follows_trans _ w2 m k s2 w3 _ S2). { apply (sim_move _ _ _ _ _ _ (pk_y k2) (a_uy d) (Key u) (pk_yv k2) (PoolAt (pk_lp k2)) ay W2 S2); [apply moved_of; auto; lia | discriminate | left; reflexivity | lia]. } intros s3 S3.
  apply follows_none. apply (agrees_same w3); [apply S3 | | auto | auto | auto |].
  - intros a Ma. rewrite (exit_other _ _ _ _ _ _ _ _ _ _ _ _ _ _ _ _ _ _ _ m a AC PM (or_introl Ma)). reflexivity.
  - apply (exit_other _ _ _ _ _ _ _ _ _ _ _ _ _ _ _ _ _ _ _ m m AC PM). right. eapply mint_key; eauto.
Qed.
Lemma other_withdraw : forall w m k s d u l h c n w', poolw w m k -> sim w m k s -> a_pool d <> PoolAt m -> w_withdraw w d (Key u) l h c n = Ok w' -> follows (fun f => f = Zpos u \/ f = 0 \/ f = -1) w m k s w'.
Proof.
  intros w m k s d u l h c n w' W S PM H. pose proof (pw_inv _ _ _ W) as I.
  destruct (withdraw_parts _ _ _ _ _ _ _ _ I H) as (k2 & g & bm & ps & lt & ut & cur & g' & bm' & ps' & lt' & ut' & ax & ay & xd & yd & w1 & w2 & w3 & D). destruct D as [AC DB [DM Nn] [DX Nx] MX [DY Ny] MY (-> & I4 & X4 & T4 & X1 & X2 & X3)]. clear DB DX DY H.
  destruct (ac_pool _ _ _ _ _ _ _ _ _ _ _ _ _ AC) as [P1 P2]. rewrite P1 in P2. assert (NM : pk_lp k2 <> m) by congruence.
  pose proof (is_inv _ _ _ _ _ _ DM) as I1. pose proof (mt_inv _ _ _ _ _ _ _ _ MX) as I2. pose proof (mt_inv _ _ _ _ _ _ _ _ MY) as I3.
  pose proof (poolw_on _ _ _ _ W I1 X1) as W1. pose proof (poolw_on _ _ _ _ W1 I2 X2) as W2. assert (NP : PoolAt (pk_lp k2) <> PoolAt m) by congruence.
  apply (follows_trans _ w m k s w1 _ S); [apply (sim_burn _ _ _ _ _ _ _ _ _ _ W S DM); auto |]. intros s1 S1.
  apply (follows_trans _ w1 m k s1 w2 _ S1). { apply (sim_move _ _ _ _ _ _ (pk_x k2) (pk_xv k2) (PoolAt (pk_lp k2)) (a_ux d) (Key u) ax W1 S1); [apply moved_of; auto; lia | exact NP | right; left; reflexivity | lia]. } intros s2 S2.
  apply (follows_trans _ w2 m k s2 w3 _ S2). { apply (sim_move _ _ _ _ _ _ (pk_y k2) (pk_yv k2) (PoolAt (pk_lp k2)) (a_uy d) (Key u) ay W2 S2); [apply moved_of; auto; lia | exact NP | right; left; reflexivity | lia]. } intros s3 S3.
  apply follows_none. apply (agrees_same w3); [apply S3 | | auto | auto | auto |].
  - intros a Ma. rewrite (exit_other _ _ _ _ _ _ _ _ _ _ _ _ _ _ _ _ _ _ _ m a AC PM (or_introl Ma)). reflexivity.
  - apply (exit_other _ _ _ _ _ _ _ _ _ _ _ _ _ _ _ _ _ _ _ m m AC PM). right. eapply mint_key; eauto.
Qed.
(** ** Creating accounts *)
Lemma sim_new : forall w m k s a c, agrees w m k s -> wget a w = None -> (forall mt sel, tokens (wset a c w) mt sel = tokens w mt sel) -> (mine m a -> pv (Some c) = None) -> agrees (wset a c w) m k s.
Proof.
  intros w m k s a c A N T P. apply (agrees_same w); auto.
  - intros b Mb. rewrite get_set. destruct (addr_eqb b a) eqn:E; [| reflexivity]. apply aeq in E. subst b. rewrite N, P by exact Mb. reflexivity.
  - destruct (ag_supply _ _ _ _ A) as [au SU]. apply get_other. intros ->. rewrite N in SU. discriminate SU.
Qed.
Lemma own_bitmap : forall w m k s, poolw w m k -> agrees w m k s -> wget (BitmapAt (PoolAt m)) w = None -> exists s', i_init_bitmap s = Ok s' /\ agrees (wset (BitmapAt (PoolAt m)) (CBitmap bm_default) w) m k s'.
Proof.
  intros w m k s W A N. destruct (ag_pool _ _ _ _ A) as (g & G & E). unfold i_init_bitmap. rewrite E, (ag_bitmap _ _ _ _ A), N. destruct (mint_key _ _ _ W) as [q ->]. pose proof (pw_inv _ _ _ W) as I. eexists. split; [reflexivity |].
  destruct (create_inv w _ (CBitmap bm_default) I N) as [_ T]; [exists (PoolAt (Key q)); rewrite G; split; [reflexivity | discriminate] |].
  split; cbn [c_pool c_bitmap c_ticks c_pos c_x c_y c_lp c_lp_supply].
  - exists g. rewrite get_other by discriminate. auto. - rewrite get_same. reflexivity. - intros n. rewrite get_other by discriminate. apply (ag_tick _ _ _ _ A). - intros [| u | u] l h; [exact (ag_pos _ _ _ _ A 0 l h) | rewrite get_other by discriminate; exact (ag_pos _ _ _ _ A (Zpos u) l h) | exact (ag_pos _ _ _ _ A (Zneg u) l h)].
  - intros h. unfold full, held. rewrite !T. apply (ag_x _ _ _ _ A h). - intros h. unfold full, held. rewrite !T. apply (ag_y _ _ _ _ A h). - intros h. unfold held. rewrite T. apply (ag_lp _ _ _ _ A h). - rewrite get_other by discriminate. apply (ag_supply _ _ _ _ A).
Qed.
Lemma own_tick : forall w m k s t, poolw w m k -> agrees w m k s -> wget (TickAt (PoolAt m) t) w = None ->
  exists s', i_init_tick s t = Ok s' /\ agrees (wset (TickAt (PoolAt m) t) (CTick (mkCTick 0 LIQUIDITY_SCALE 0 0 LIQUIDITY_SCALE t (mkFee FEE_SCALE 0 0 0 0))) w) m k s'.
Proof.
  intros w m k s t W A N. destruct (ag_pool _ _ _ _ A) as (g & G & E). unfold i_init_tick. rewrite E, (ag_tick _ _ _ _ A), N. destruct (mint_key _ _ _ W) as [q ->]. pose proof (pw_inv _ _ _ W) as I. eexists. split; [reflexivity |]. set (ct := mkCTick _ _ _ _ _ _ _).
  destruct (create_inv w _ (CTick ct) I N) as [_ T]; [exists (PoolAt (Key q)), t; rewrite G; split; [reflexivity | discriminate] |].
  split; cbn [c_pool c_bitmap c_ticks c_pos c_x c_y c_lp c_lp_supply].
  - exists g. rewrite get_other by discriminate. auto. - rewrite get_other by discriminate. apply (ag_bitmap _ _ _ _ A). - intros n. rewrite ct_get_set, get_set, eqb_tick. destruct (n =? t); [reflexivity | apply (ag_tick _ _ _ _ A)].
  - intros [| u | u] l h; [exact (ag_pos _ _ _ _ A 0 l h) | rewrite get_other by discriminate; exact (ag_pos _ _ _ _ A (Zpos u) l h) | exact (ag_pos _ _ _ _ A (Zneg u) l h)].
  - intros h. unfold full, held. rewrite !T. apply (ag_x _ _ _ _ A h). - intros h. unfold full, held. rewrite !T. apply (ag_y _ _ _ _ A h). - intros h. unfold held. rewrite T. apply (ag_lp _ _ _ _ A h). - rewrite get_other by discriminate. apply (ag_supply _ _ _ _ A).
Qed.
Lemma own_position : forall w m k s u l h lt ut, poolw w m k -> agrees w m k s -> wget (PositionAt (PoolAt m) (Key u) l h) w = None -> wget (TickAt (PoolAt m) l) w = Some (CTick lt) -> wget (TickAt (PoolAt m) h) w = Some (CTick ut) -> (l <? h) = true ->
  exists s', i_create_position s (Zpos u) l h = Ok s' /\ agrees (wset (PositionAt (PoolAt m) (Key u) l h) (CPos (mkCPos 0 LIQUIDITY_SCALE l h (mkFee FEE_SCALE 0 0 0 0))) w) m k s'.
Proof.
  intros w m k s u l h lt ut W A N TL TU LH. destruct (ag_pool _ _ _ _ A) as (g & G & E). unfold i_create_position. rewrite E, (ag_pos _ _ _ _ A), !(ag_tick _ _ _ _ A), N, TL, TU, LH. destruct (mint_key _ _ _ W) as [q ->]. pose proof (pw_inv _ _ _ W) as I. eexists. split; [reflexivity |]. set (cp := mkCPos _ _ _ _ _).
  destruct (create_inv w _ (CPos cp) I N) as [_ T]; [exists (PoolAt (Key q)), (Key u), l, h; rewrite G; split; [reflexivity | discriminate] |].
  split; cbn [c_pool c_bitmap c_ticks c_pos c_x c_y c_lp c_lp_supply].
  - exists g. rewrite get_other by discriminate. auto. - rewrite get_other by discriminate. apply (ag_bitmap _ _ _ _ A). - intros n. rewrite get_other by discriminate. apply (ag_tick _ _ _ _ A).
  - intros v l0 h0. rewrite cp_get_set, (ag_pos _ _ _ _ A). destruct v as [| v | v]; [reflexivity | | reflexivity]. rewrite get_set, eqb_pos. destruct (cpkey_eqb _ _); reflexivity.
  - intros h0. unfold full, held. rewrite !T. apply (ag_x _ _ _ _ A h0). - intros h0. unfold full, held. rewrite !T. apply (ag_y _ _ _ _ A h0). - intros h0. unfold held. rewrite T. apply (ag_lp _ _ _ _ A h0). - rewrite get_other by discriminate. apply (ag_supply _ _ _ _ A).
Qed.

(** ** One step of the ledger *)
Lemma mine_key : forall m q, ~ mine m (Key q). Proof. intros m q [H | [H | [[n H] | (u & l & h & H)]]]; discriminate H. Qed.
Definition step_ok (w : world) (m : addr) (k : pkeys) (i : winstr) (s : cstate) (w' : world) : Prop := exists is, seen_as w m i is /\ all_succeed s is /\ agrees w' m k (run_txs s is).
Lemma step_one : forall w m k i s w' j s', seen_as w m i [j] -> exec s j = Ok s' -> agrees w' m k s' -> step_ok w m k i s w'.
Proof. intros w m k i s w' j s' V E A. exists [j]. split; [exact V |]. cbn [all_succeed run_txs fold_left]. unfold tx. rewrite E. split; [split; [eauto | exact Logic.I] | exact A]. Qed.
Lemma step_nil : forall w m k i s w', seen_as w m i [] -> agrees w' m k s -> step_ok w m k i s w'.
Proof. intros w m k i s w' V A. exists []. split; [exact V |]. split; [exact Logic.I | exact A]. Qed.
Lemma step : forall w m k s i w', poolw w m k -> sim w m k s -> wexec w i = Ok w' -> step_ok w m k i s w'.
Proof.
  intros w m k s i w' W S H. pose proof S as (A & _). pose proof (pw_inv _ _ _ W) as I. unfold wexec in H. destruct (wargs_ok i) eqn:AO; [| discriminate H]. cbn [negb] in H.
  destruct i as [pool xm ym lpm xv yv lpv t | pool bm | pool tk t | pool ps lt ut u l h | d u l h c xa ya | d u l h c n | a auth | a mt o | f t u n | mt t u n | mt f u n | a u o | mt u o]; cbn [wargs_ok] in AO.
  - destruct (init_pool_parts _ _ _ _ _ _ _ _ _ _ I H) as (-> & I' & X & M). clear H. apply step_nil; [reflexivity |]. assert (NM : lpm <> m). { intros ->. destruct (pw_pool _ _ _ W) as [g G]. destruct (pm_fresh _ _ _ _ _ _ M) as [N _]. rewrite G in N. discriminate N. }
    apply (agrees_same w); auto; try (intros; apply (pm_sum _ _ _ _ _ _ M)).
    + intros b Mb. rewrite (pm_only _ _ _ _ _ _ M); [reflexivity | | |]; destruct Mb as [-> | [-> | [[n ->] | (u & l & h & ->)]]]; try discriminate. intros [=]. auto.
    + destruct (mint_key _ _ _ W) as [q ->]. apply (pm_only _ _ _ _ _ _ M); discriminate.
  - unfold w_init_bitmap in H. bd H r E. destruct r as [k2 g]. apply get_pool_Ok in E. cbn [fst snd] in E. bd H r0 E0. apply need_Ok in E0. apply andb_true_iff in E0. destruct E0 as [_ E0]. apply aeq in E0. subst bm. apply create_Ok in H. destruct H as [N ->].
    destruct (addr_eqb pool (PoolAt m)) eqn:EP.
    + apply aeq in EP. subst pool. destruct (own_bitmap _ _ _ _ W A N) as (s' & X1 & X2). apply (step_one w m k _ s _ IInitBitmap s'); [cbn [seen_as]; rewrite aeq_refl; reflexivity | exact X1 | exact X2].
    + apply step_nil; [cbn [seen_as]; rewrite EP; reflexivity |]. destruct (create_inv w _ (CBitmap bm_default) I N) as [_ T]; [exists pool; rewrite E; split; [reflexivity | discriminate] |]. apply sim_new; auto.
      intros [C | [C | [[n C] | (u & l & h & C)]]]; try discriminate C. injection C as ->. rewrite aeq_refl in EP. discriminate EP.
  - unfold w_init_tick in H. bd H r E. destruct r as [k2 g]. apply get_pool_Ok in E. cbn [fst snd] in E. bd H r0 E0. apply need_Ok in E0. apply andb_true_iff in E0. destruct E0 as [_ E0]. apply aeq in E0. subst tk. apply create_Ok in H. destruct H as [N ->].
    destruct (addr_eqb pool (PoolAt m)) eqn:EP.
    + apply aeq in EP. subst pool. destruct (own_tick _ _ _ _ _ W A N) as (s' & X1 & X2). apply (step_one w m k _ s _ (IInitTick t) s'); [cbn [seen_as]; rewrite aeq_refl; reflexivity | unfold exec; cbn [args_ok]; rewrite AO; exact X1 | exact X2].
    + apply step_nil; [cbn [seen_as]; rewrite EP; reflexivity |]. destruct (create_inv w _ (CTick (mkCTick 0 LIQUIDITY_SCALE 0 0 LIQUIDITY_SCALE t (mkFee FEE_SCALE 0 0 0 0))) I N) as [_ T]; [exists pool, t; rewrite E; split; [reflexivity | discriminate] |]. apply sim_new; auto.
      intros [C | [C | [[n C] | (u & l & h & C)]]]; try discriminate C. injection C as -> _. rewrite aeq_refl in EP. discriminate EP.
  - unfold w_create_position in H. bd H r E. destruct r as [k2 g]. apply get_pool_Ok in E. cbn [fst snd] in E. bd H r1 E1. bd H r2 E2. apply get_tick_Ok in E1, E2. bd H r0 E0. apply need_Ok in E0. rewrite !andb_true_iff in E0. destruct E0 as ((((_ & E0) & LH) & EL) & EU). apply aeq in E0, EL, EU. subst ps lt ut. apply create_Ok in H. destruct H as [N ->].
    destruct (addr_eqb pool (PoolAt m)) eqn:EP.
    + apply aeq in EP. subst pool. destruct (own_position _ _ _ _ _ _ _ _ _ W A N E1 E2 LH) as (s' & X1 & X2). apply (step_one w m k _ s _ (ICreatePosition (Zpos u) l h) s'); [cbn [seen_as]; rewrite aeq_refl; reflexivity | unfold exec; cbn [args_ok]; rewrite AO; exact X1 | exact X2].
    + apply step_nil; [cbn [seen_as]; rewrite EP; reflexivity |]. destruct (create_inv w _ (CPos (mkCPos 0 LIQUIDITY_SCALE l h (mkFee FEE_SCALE 0 0 0 0))) I N) as [_ T]; [exists pool, (Key u), l, h; rewrite E; split; [reflexivity | discriminate] |]. apply sim_new; auto.
      intros [C | [C | [[n C] | (u0 & l0 & h0 & C)]]]; try discriminate C. injection C as -> _ _ _. rewrite aeq_refl in EP. discriminate EP.
  - destruct (addr_eqb (a_pool d) (PoolAt m)) eqn:EP.
    + apply aeq in EP. destruct (own_deposit _ _ _ _ _ _ _ _ _ _ _ _ W S EP H) as (o & z & s' & G & X1 & X2). apply (step_one w m k _ s _ (IDeposit (Zpos u) l h c xa ya (HUser (uid o))) s'); [cbn [seen_as]; rewrite EP, aeq_refl; eauto | unfold exec; cbn [args_ok]; rewrite AO; exact X1 | exact X2].
    + assert (NP : a_pool d <> PoolAt m) by (intros C; rewrite C, aeq_refl in EP; discriminate EP). destruct (other_deposit _ _ _ _ _ _ _ _ _ _ _ _ W S NP H) as (is & F & A1 & A2). exists is. cbn [seen_as]. rewrite EP. auto.
  - destruct (addr_eqb (a_pool d) (PoolAt m)) eqn:EP.
    + apply aeq in EP. destruct (own_withdraw _ _ _ _ _ _ _ _ _ _ _ W S EP H) as (s' & X1 & X2). apply (step_one w m k _ s _ (IWithdraw (Zpos u) l h c n) s'); [cbn [seen_as]; rewrite EP, aeq_refl; reflexivity | unfold exec; cbn [args_ok]; rewrite AO; exact X1 | exact X2].
    + assert (NP : a_pool d <> PoolAt m) by (intros C; rewrite C, aeq_refl in EP; discriminate EP). destruct (other_withdraw _ _ _ _ _ _ _ _ _ _ _ W S NP H) as (is & F & A1 & A2). exists is. cbn [seen_as]. rewrite EP. auto.
  - apply create_Ok in H. destruct H as [N ->]. apply step_nil; [reflexivity |]. destruct (create_inv w (Key a) (CMint 0 auth) I N) as [_ T]; [eauto |]. apply sim_new; auto.
  - bd H r E. destruct r as [s0 v]. apply get_mint_Ok in E. apply create_Ok in H. destruct H as [N ->]. apply step_nil; [reflexivity |]. destruct (create_inv w (Key a) (CToken mt o 0) I N) as [_ T]; [eauto |]. apply sim_new; auto.
  - destruct (transfer_inv _ _ _ _ _ _ I H) as (mt & to & M & Nn). destruct (sim_move (fun v => v = Zpos u) w w' m k s mt f (Key u) t to n W S (moved_of _ _ _ _ _ _ _ _ I (proj1 Nn) M)) as (is & F & A1 & A2); [discriminate | reflexivity | lia |]. exists is. auto.
  - destruct (t_mint_inv _ _ _ _ _ _ I H) as (o & M & Nn & sm & GM). assert (NM : mt <> m) by (intros ->; destruct (pf_mint _ _ _ (facts _ _ _ W)) as [sl GL]; rewrite GL in GM; discriminate GM).
    destruct (sim_issue (fun v => v = -1) w w' m k s mt t o n W S M Nn NM eq_refl) as (is & F & A1 & A2). exists is. auto.
  - destruct (t_burn_inv _ _ _ _ _ _ I H) as (M & Nn). destruct (sim_burn (fun v => v = Zpos u) w w' m k s mt f u n W S M Nn eq_refl) as (is & F & A1 & A2). exists is. auto.
  - bd H r E. destruct r as [[mt o'] n]. apply get_token_Ok in E. bd H q E0. apply need_Ok in E0. apply aeq in E0. subst o'. injection H as <-. destruct (set_owner_inv w a mt u o n I E) as (I' & X & T). pose proof (wi_token _ I _ _ _ _ E) as (Pn & sm & um & GM).
    assert (Nn : n < U64). { pose proof (tokens_ge w mt all a _ n (wi_nn _ I) E eq_refl). destruct (wi_mint _ I _ _ _ GM) as (M1 & M2 & _). lia. }
    destruct (sim_move (fun v => v = Zpos u) w (wset a (CToken mt o n) w) m k s mt a (Key u) a o n W S) as (is & F & A1 & A2); [| discriminate | reflexivity | exact Nn | exists is; auto].
    split; [exists n; split; [exact E | lia] | eapply token_program; exact E | | exact T]. intros b sb ub G. rewrite get_other; [exact G |]. intros ->. rewrite G in E. discriminate E.
  - bd H r E. destruct r as [s0 v]. apply get_mint_Ok in E. bd H q E0. apply need_Ok in E0. destruct v as [v |]; [| discriminate E0]. apply aeq in E0. subst v. injection H as <-. destruct (set_authority_inv w mt s0 u o I E) as (_ & _ & T). apply step_nil; [reflexivity |].
    assert (NM : m <> mt) by (intros <-; destruct (pf_mint _ _ _ (facts _ _ _ W)) as [sl GL]; rewrite GL in E; discriminate E). apply (agrees_same w); auto.
    + intros b Mb. rewrite get_other; [reflexivity |]. intros ->. destruct (wi_mint _ I _ _ _ E) as (_ & _ & [q0 ->]). exact (mine_key _ _ Mb).
    + apply get_other. exact NM.
Qed.

(** ** The birth of a pool *)
Definition ledger_of (mt : addr) (v : option addr) (w : world) : ledger :=
  fold_right (fun ac l => match snd ac with CToken m o n => if addr_eqb m mt then let h := holder_of v (fst ac) o in set_bal h (bal h l + n) l else l | _ => l end) [] w.
Lemma ledger_of_ok : forall mt v w, (forall a m o n, In (a, CToken m o n) w -> 0 <= n) -> tokens w mt all < U64 ->
  (forall h, bal h (ledger_of mt v w) = held w mt v h) /\ total (ledger_of mt v w) = tokens w mt all /\ funds_ok (ledger_of mt v w).
Proof.
  intros mt v w N. unfold held, tokens, wsum. induction w as [| [a c] r IH]; intros T; [split; [reflexivity |]; split; [reflexivity | constructor] |]. cbn [ledger_of fold_right fst snd] in *. fold (ledger_of mt v r).
  assert (N' : forall a m o n, In (a, CToken m o n) r -> 0 <= n) by (intros b m o n J; exact (N b m o n (or_intror J))).
  pose proof (tokens_le r mt all all (fun _ _ H => H) N') as TL. unfold tokens, wsum in TL.
  destruct c as [| | | | m o n |]; try (destruct IH as (B & TT & F); [exact N' | lia | split; [intros h; rewrite B; lia | split; [lia | exact F]]]; fail).
  pose proof (N a m o n (or_introl eq_refl)) as Hn. unfold all in T at 1. destruct (addr_eqb m mt) eqn:EM; cbn [andb] in *.
  - destruct IH as (B & TT & F); [exact N' | lia |]. pose proof (bal_le_total (ledger_of mt v r) (holder_of v a o) F) as BL. pose proof (bal_nn (ledger_of mt v r) (holder_of v a o) F) as BN. split; [| split].
    + intros h. rewrite bal_set, hsym. destruct (holder_eqb (holder_of v a o) h) eqn:EH; [apply holder_eqb_eq in EH; rewrite <- EH, B; lia | rewrite B; lia].
    + rewrite total_set. unfold all in *. lia.
    + apply funds_set; [exact F | lia].
  - destruct IH as (B & TT & F); [exact N' | lia |]. split; [intros h; rewrite B; lia | split; [lia | exact F]].
Qed.
Lemma reserve_zero : forall w mt v, held w mt v reserve = 0.
Proof. intros w mt v. unfold held, tokens, wsum. induction w as [| [a c] r IH]; [reflexivity |]. cbn [fold_right fst snd]. rewrite IH. destruct c; try reflexivity. rewrite held_reserve, andb_false_r. reflexivity. Qed.
Lemma with_reserve : forall l w mt v, funds_ok l -> (forall h, bal h l = held w mt v h) -> total l = tokens w mt all -> tokens w mt all < U64 ->
  exists l', (forall h, bal h l' = full w mt v h) /\ total l' < U64 /\ funds_ok l'.
Proof.
  intros l w mt v F B T L. exists (set_bal reserve (2 ^ 64 - 1 - tokens w mt all) l). change (2 ^ 64) with U64. split; [| split].
  - intros h. rewrite bal_set. unfold full. destruct (holder_eqb h reserve); [reflexivity | apply B].
  - rewrite total_set, B, reserve_zero. lia.
  - apply funds_set; [exact F |]. pose proof (bal_le_total l HVault F). pose proof (bal_nn l HVault F). lia.
Qed.
Lemma birth : forall w w' xm ym lpm tick, winv w -> winv w' -> is_u64 tick = true -> pool_made w w' xm ym lpm tick -> (exists a, wget lpm w = Some (CMint 0 a)) ->
  exists lx ly s, exec (genesis lx ly) (IInitPool tick) = Ok s /\ sim w' lpm (mkPK xm ym lpm (VaultAt xm lpm) (VaultAt ym lpm)) s.
Proof.
  intros w w' xm ym lpm tick I I' TK M [al ZL]. destruct (pm_price _ _ _ _ _ _ M) as (rp & rp' & R1 & R2 & GP). destruct (pm_fresh _ _ _ _ _ _ M) as [FR XY]. destruct (pm_mints _ _ _ _ _ _ M) as [(sx & ux & MX) (sy & uy & MY)]. destruct (pm_lp _ _ _ _ _ _ M) as (sl & LP & LT). rewrite ZL in LP. injection LP as <- ->. specialize (LT eq_refl).
  pose proof (pm_old _ _ _ _ _ _ M _ _ MX) as MX'. pose proof (pm_old _ _ _ _ _ _ M _ _ MY) as MY'. destruct (wi_mint _ I' _ _ _ MX') as (SX & UX & _). destruct (wi_mint _ I' _ _ _ MY') as (SY & UY & _).
  destruct (ledger_of_ok xm (Some (VaultAt xm lpm)) w' (wi_nn _ I')) as (BX & TX & FX); [unfold all in *; lia |]. destruct (ledger_of_ok ym (Some (VaultAt ym lpm)) w' (wi_nn _ I')) as (BY & TY & FY); [unfold all in *; lia |].
  set (lx0 := ledger_of xm (Some (VaultAt xm lpm)) w') in *. set (ly0 := ledger_of ym (Some (VaultAt ym lpm)) w') in *. clearbody lx0 ly0.
  destruct (with_reserve lx0 w' xm (Some (VaultAt xm lpm))) as (lx & BX1 & TX1 & FX1); [exact FX | exact BX | exact TX | lia |]. destruct (with_reserve ly0 w' ym (Some (VaultAt ym lpm))) as (ly & BY1 & TY1 & FY1); [exact FY | exact BY | exact TY | lia |]. exists lx, ly.
  set (gg := mkCPool 0 LIQUIDITY_SCALE (dval rp') tick (mkFee FEE_SCALE 0 0 0 0)) in *. exists (mkCS (Some gg) None [] [] lx ly [] 0).
  assert (EX : exec (genesis lx ly) (IInitPool tick) = Ok (mkCS (Some gg) None [] [] lx ly [] 0)). { unfold exec. cbn [args_ok]. rewrite TK. cbn [negb]. unfold i_init_pool. cbn [genesis c_pool c_bitmap c_ticks c_pos c_x c_y c_lp c_lp_supply]. rewrite R1. cbn [bind]. rewrite R2. reflexivity. }
  split; [exact EX |]. clear R1 R2. clearbody gg. split; [| split; [| cbn [c_x c_y]; lia]].
  - split; cbn [c_pool c_bitmap c_ticks c_pos c_x c_y c_lp c_lp_supply pk_x pk_y pk_xv pk_yv].
    + eauto.
    + rewrite (pm_only _ _ _ _ _ _ M) by discriminate. destruct (wget (BitmapAt (PoolAt lpm)) w) eqn:E; [| reflexivity]. destruct (wi_bitmap _ I _ _ FR E).
    + intros n. rewrite (pm_only _ _ _ _ _ _ M) by discriminate. destruct (wget (TickAt (PoolAt lpm) n) w) eqn:E; [| reflexivity]. destruct (wi_tick _ I _ _ _ FR E).
    + intros [| u | u] l h; try reflexivity. rewrite (pm_only _ _ _ _ _ _ M) by discriminate. destruct (wget (PositionAt (PoolAt lpm) (Key u) l h) w) eqn:E; [| reflexivity]. destruct (wi_pos _ I _ _ _ _ _ FR E).
    + exact BX1. + exact BY1.
    + intros h. unfold held. rewrite (pm_sum _ _ _ _ _ _ M), LT. reflexivity.
    + exists (Some (PoolAt lpm)). exact (pm_old _ _ _ _ _ _ M _ _ ZL).
  - exists lx, ly, [IInitPool tick]. split; [exact FX1 |]. split; [exact FY1 |]. cbn [run_txs fold_left]. unfold tx. rewrite EX. reflexivity.
Qed.
