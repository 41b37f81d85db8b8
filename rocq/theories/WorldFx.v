(** The exact effect of deposits and withdrawals on the ledger, and transactions of several instructions. *)
From Coq Require Import ZArith List Bool Lia.
From Verif Require Import Base BaseLemmas DecimalModel MathModel BitmapModel PoolWf ChainModel ChainLemmas ChainSpec ChainInv ChainFlow ChainLive ChainOrder WorldModel WorldSpec WorldProofs WorldInv WorldSim WorldStep WorldThm WorldLive.
Import ListNotations.
Open Scope Z_scope.

Lemma burn_gets : forall w mt a au n w' b, t_burn w mt a au n = Ok w' -> b <> a -> b <> mt -> wget b w' = wget b w.
Proof. intros w mt a au n w' b H B1 B2. unfold t_burn in H. bd H r E1. destruct r as [s0 au0]. bd H r E2. destruct r as [[m o] x]. bd H r E3. injection H as <-. rewrite !get_other by auto. reflexivity. Qed.
Lemma burn_both : forall w mt a au n w' s u m o x, t_burn w mt a au n = Ok w' -> wget mt w = Some (CMint s u) -> wget a w = Some (CToken m o x) ->
  o = au /\ m = mt /\ wget a w' = Some (CToken m o (x - n)) /\ wget mt w' = Some (CMint (s - n) u).
Proof.
  intros w mt a au n w' s u m o x H GM GA. unfold t_burn, get_mint, get_token in H. rewrite GM, GA in H. cbn [bind] in H. bd H r E3. apply need_Ok in E3. rewrite !andb_true_iff in E3. destruct E3 as ((((_ & M) & O) & _) & _). apply aeq in M, O. injection H as <-.
  split; [exact O |]. split; [exact M |]. split; [apply get_same |]. rewrite get_other; [apply get_same |]. intros ->. rewrite GM in GA. discriminate GA.
Qed.

(** ** The right accounts *)
Lemma accepted_right : forall w d u l h c k g bm ps lt ut cur, winv w -> accepted w d (Key u) l h c k g bm ps lt ut cur -> d = right_accounts (pk_lp k) k u l h c (a_ux d) (a_uy d) (a_lp d).
Proof.
  intros w d u l h c k g bm ps lt ut cur I A. destruct A as [[A1 GP] [A2 _] [A3 _] [A4 _] [A5 _] [A6 _] A7 _ _ A8 A9 A10 _ _]. destruct (wi_pool _ I _ _ _ GP) as (_ & Q2 & Q3 & _). rewrite A7 in A10. rewrite Q2 in A8. rewrite Q3 in A9. destruct d; cbn in *. subst. reflexivity.
Qed.
(** ** Nothing else changes *)
Lemma exit_frame : forall w m k u l h c ux uy lp g bm ps lt ut cur a, wget (TickAt (PoolAt m) c) w = Some (CTick cur) -> ~ In a (involved m k u l h c ux uy lp) -> wget a (w_exit w (right_accounts m k u l h c ux uy lp) k g bm ps lt ut cur) = wget a w.
Proof.
  intros w m k u l h c ux uy lp g bm ps lt ut cur a G N. unfold involved in N. cbn [In] in N. unfold w_exit. cbn [right_accounts a_cur a_ut a_lt a_ps a_bm a_pool].
  rewrite get_set. destruct (addr_eqb a (TickAt (PoolAt m) c)) eqn:E; [apply aeq in E; subst a; rewrite G; reflexivity |]. rewrite !get_other by (intros ->; tauto). reflexivity.
Qed.
Lemma deposit_frame : forall w d u l h c xa ya w' a k g, winv w -> wexec w (WDeposit d u l h c xa ya) = Ok w' -> wget (a_pool d) w = Some (CPool k g) ->
  d = right_accounts (pk_lp k) k u l h c (a_ux d) (a_uy d) (a_lp d) /\ c = cg_tick g /\ (~ In a (involved (pk_lp k) k u l h c (a_ux d) (a_uy d) (a_lp d)) -> wget a w' = wget a w).
Proof.
  intros w d u l h c xa ya w' a k g I H GP. unfold wexec in H. destruct (wargs_ok _); [| discriminate H]. cbn [negb] in H.
  destruct (deposit_parts _ _ _ _ _ _ _ _ _ I H) as (k0 & g0 & bm & ps & lt & ut & cur & g' & bm' & ps' & lt' & ut' & n & ax & ay & xd & yd & lo & w1 & w2 & w3 & D). destruct D as [AC _ [DM _] _ MX _ MY (-> & _)].
  destruct (ac_pool _ _ _ _ _ _ _ _ _ _ _ _ _ AC) as [P1 P2]. rewrite GP in P2. injection P2 as <- <-. destruct (wi_pool _ I _ _ _ GP) as (_ & Q2 & Q3 & _). rewrite Q2 in MX. rewrite Q3 in MY.
  pose proof (accepted_right _ _ _ _ _ _ _ _ _ _ _ _ _ I AC) as R. split; [exact R |]. split. { pose proof (ac_args _ _ _ _ _ _ _ _ _ _ _ _ _ AC) as Q. rewrite !andb_true_iff, !Z.eqb_eq in Q. lia. }
  intros N. assert (T : forall b, b <> pk_lp k -> b <> a_lp d -> b <> a_ux d -> b <> a_uy d -> b <> VaultAt (pk_x k) (pk_lp k) -> b <> VaultAt (pk_y k) (pk_lp k) -> wget b w3 = wget b w).
  { intros b B1 B2 B3 B4 B5 B6. rewrite (mt_other _ _ _ _ _ _ _ _ MY), (mt_other _ _ _ _ _ _ _ _ MX), (is_other _ _ _ _ _ _ DM) by auto. reflexivity. }
  rewrite R at 1. rewrite exit_frame with (a := a); [| | exact N].
  - unfold involved in N. cbn [In] in N. apply T; intros ->; tauto.
  - destruct (ac_cur _ _ _ _ _ _ _ _ _ _ _ _ _ AC) as [C1 C2]. rewrite P1 in C1. rewrite C1 in C2. rewrite T; [exact C2 | ..]; intros Z.
    + destruct (wi_pool _ I _ _ _ GP) as (_ & _ & _ & _ & _ & _ & [s Q7]). rewrite <- Z in Q7. rewrite C2 in Q7. discriminate Q7.
    + destruct (ac_lp _ _ _ _ _ _ _ _ _ _ _ _ _ AC) as (o & x & G). rewrite <- Z in G. rewrite C2 in G. discriminate G.
    + destruct (ac_ux _ _ _ _ _ _ _ _ _ _ _ _ _ AC) as (x & G). rewrite <- Z in G. rewrite C2 in G. discriminate G.
    + destruct (ac_uy _ _ _ _ _ _ _ _ _ _ _ _ _ AC) as (x & G). rewrite <- Z in G. rewrite C2 in G. discriminate G.
    + discriminate Z. + discriminate Z.
Qed.
Lemma withdraw_frame : forall w d u l h c z w' a k g, winv w -> wexec w (WWithdraw d u l h c z) = Ok w' -> wget (a_pool d) w = Some (CPool k g) ->
  d = right_accounts (pk_lp k) k u l h c (a_ux d) (a_uy d) (a_lp d) /\ c = cg_tick g /\ (~ In a (involved (pk_lp k) k u l h c (a_ux d) (a_uy d) (a_lp d)) -> wget a w' = wget a w).
Proof.
  intros w d u l h c z w' a k g I H GP. unfold wexec in H. destruct (wargs_ok _); [| discriminate H]. cbn [negb] in H.
  destruct (withdraw_parts _ _ _ _ _ _ _ _ I H) as (k0 & g0 & bm & ps & lt & ut & cur & g' & bm' & ps' & lt' & ut' & ax & ay & xd & yd & w1 & w2 & w3 & D). destruct D as [AC _ [DM _] _ MX _ MY (-> & _)].
  destruct (ac_pool _ _ _ _ _ _ _ _ _ _ _ _ _ AC) as [P1 P2]. rewrite GP in P2. injection P2 as <- <-. destruct (wi_pool _ I _ _ _ GP) as (_ & Q2 & Q3 & _). rewrite Q2 in MX. rewrite Q3 in MY.
  pose proof (accepted_right _ _ _ _ _ _ _ _ _ _ _ _ _ I AC) as R. split; [exact R |]. split. { pose proof (ac_args _ _ _ _ _ _ _ _ _ _ _ _ _ AC) as Q. rewrite !andb_true_iff, !Z.eqb_eq in Q. lia. }
  intros N. assert (T : forall b, b <> pk_lp k -> b <> a_lp d -> b <> a_ux d -> b <> a_uy d -> b <> VaultAt (pk_x k) (pk_lp k) -> b <> VaultAt (pk_y k) (pk_lp k) -> wget b w3 = wget b w).
  { intros b B1 B2 B3 B4 B5 B6. rewrite (mt_other _ _ _ _ _ _ _ _ MY), (mt_other _ _ _ _ _ _ _ _ MX), (is_other _ _ _ _ _ _ DM) by auto. reflexivity. }
  rewrite R at 1. rewrite exit_frame with (a := a); [| | exact N].
  - unfold involved in N. cbn [In] in N. apply T; intros ->; tauto.
  - destruct (ac_cur _ _ _ _ _ _ _ _ _ _ _ _ _ AC) as [C1 C2]. rewrite P1 in C1. rewrite C1 in C2. rewrite T; [exact C2 | ..]; intros Z.
    + destruct (wi_pool _ I _ _ _ GP) as (_ & _ & _ & _ & _ & _ & [s Q7]). rewrite <- Z in Q7. rewrite C2 in Q7. discriminate Q7.
    + destruct (ac_lp _ _ _ _ _ _ _ _ _ _ _ _ _ AC) as (o & x & G). rewrite <- Z in G. rewrite C2 in G. discriminate G.
    + destruct (ac_ux _ _ _ _ _ _ _ _ _ _ _ _ _ AC) as (x & G). rewrite <- Z in G. rewrite C2 in G. discriminate G.
    + destruct (ac_uy _ _ _ _ _ _ _ _ _ _ _ _ _ AC) as (x & G). rewrite <- Z in G. rewrite C2 in G. discriminate G.
    + discriminate Z. + discriminate Z.
Qed.
(** ** Withdrawals: what the token accounts hold afterwards *)
Lemma withdraw_paid : forall w d u l h c n w' k g, winv w -> wexec w (WWithdraw d u l h c n) = Ok w' -> wget (a_pool d) w = Some (CPool k g) -> pk_x k <> pk_lp k -> pk_y k <> pk_lp k ->
  exists nx ny vx vy ax ay nl s, 0 <= ax <= vx /\ 0 <= ay <= vy /\
    wget (a_ux d) w = Some (CToken (pk_x k) (Key u) nx) /\ wget (a_ux d) w' = Some (CToken (pk_x k) (Key u) (nx + ax)) /\
    wget (a_uy d) w = Some (CToken (pk_y k) (Key u) ny) /\ wget (a_uy d) w' = Some (CToken (pk_y k) (Key u) (ny + ay)) /\
    wget (pk_xv k) w = Some (CToken (pk_x k) (a_pool d) vx) /\ wget (pk_xv k) w' = Some (CToken (pk_x k) (a_pool d) (vx - ax)) /\
    wget (pk_yv k) w = Some (CToken (pk_y k) (a_pool d) vy) /\ wget (pk_yv k) w' = Some (CToken (pk_y k) (a_pool d) (vy - ay)) /\
    wget (a_lp d) w = Some (CToken (pk_lp k) (Key u) nl) /\ wget (a_lp d) w' = Some (CToken (pk_lp k) (Key u) (nl - n)) /\
    wget (pk_lp k) w = Some (CMint s (Some (a_pool d))) /\ wget (pk_lp k) w' = Some (CMint (s - n) (Some (a_pool d))).
Proof.
  intros w d u l h c n w' k g I H GP NX NY. unfold wexec in H. destruct (wargs_ok _); [| discriminate H]. cbn [negb] in H. unfold w_withdraw in H. bd H r E1. destruct r as [[[[[[k0 g0] bm] ps] lt] ut] cur]. apply checked_Ok in E1. bd H r E2. destruct r as [[[[[[g' bm'] ps'] lt'] ut'] xd] yd].
  bd H w1 E3. bd H ax E4. bd H w2 E5. bd H ay E6. bd H w3 E7. injection H as <-. clear E2 E4 E6. destruct (ac_pool _ _ _ _ _ _ _ _ _ _ _ _ _ E1) as [P1 P2]. rewrite GP in P2. injection P2 as <- <-. destruct (wi_pool _ I _ _ _ GP) as (_ & _ & _ & XY & [vx Q5] & [vy Q6] & [s Q7]).
  destruct (ac_ux _ _ _ _ _ _ _ _ _ _ _ _ _ E1) as [nx UX]. destruct (ac_uy _ _ _ _ _ _ _ _ _ _ _ _ _ E1) as [ny UY]. destruct (ac_lp _ _ _ _ _ _ _ _ _ _ _ _ _ E1) as (lo & nl & UL). rewrite (ac_xv _ _ _ _ _ _ _ _ _ _ _ _ _ E1) in E5. rewrite (ac_yv _ _ _ _ _ _ _ _ _ _ _ _ _ E1) in E7. rewrite (ac_lpm _ _ _ _ _ _ _ _ _ _ _ _ _ E1) in E3.
  destruct (burn_both _ _ _ _ _ _ _ _ _ _ _ E3 Q7 UL) as (-> & _ & B1 & B2).
  assert (M : forall b m o x, wget b w = Some (CToken m o x) -> m <> pk_lp k -> wget b w1 = Some (CToken m o x)). { intros b m o x B D. rewrite (burn_gets _ _ _ _ _ _ b E3); [exact B | |]; intros ->; congruence. }
  assert (D1 : pk_xv k <> a_ux d) by (intros Z; rewrite <- Z, Q5, P1 in UX; discriminate UX). destruct (transfer_gets _ _ _ _ _ _ _ _ _ _ _ _ E5 D1 (M _ _ _ _ Q5 NX) (M _ _ _ _ UX NX)) as (R1 & R2 & R3 & R4).
  assert (M2 : forall b o x, wget b w = Some (CToken (pk_y k) o x) -> wget b w2 = Some (CToken (pk_y k) o x)). { intros b o x B. rewrite R4; [exact (M _ _ _ _ B NY) | |]; intros ->; congruence. }
  assert (D2 : pk_yv k <> a_uy d) by (intros Z; rewrite <- Z, Q6, P1 in UY; discriminate UY). destruct (transfer_gets _ _ _ _ _ _ _ _ _ _ _ _ E7 D2 (M2 _ _ _ Q6) (M2 _ _ _ UY)) as (S1 & S2 & S3 & S4).
  exists nx, ny, vx, vy, ax, ay, nl, s. split; [exact R1 |]. split; [exact S1 |]. split; [exact UX |]. split; [rewrite (exit_gets _ _ _ _ _ _ _ _ _ _ _ _ _ _ _ _ _ _ _ _ _ _ _ E1 UX), S4; [exact R3 | |]; intros Z; congruence |]. split; [exact UY |].
  split; [rewrite (exit_gets _ _ _ _ _ _ _ _ _ _ _ _ _ _ _ _ _ _ _ _ _ _ _ E1 UY); exact S3 |]. split; [exact Q5 |]. split; [rewrite (exit_gets _ _ _ _ _ _ _ _ _ _ _ _ _ _ _ _ _ _ _ _ _ _ _ E1 Q5), S4; [exact R2 | |]; intros Z; congruence |].
  split; [exact Q6 |]. split; [rewrite (exit_gets _ _ _ _ _ _ _ _ _ _ _ _ _ _ _ _ _ _ _ _ _ _ _ E1 Q6); exact S2 |]. split; [exact UL |].
  split. { rewrite (exit_gets _ _ _ _ _ _ _ _ _ _ _ _ _ _ _ _ _ _ _ _ _ _ _ E1 UL), S4, R4; [exact B1 | ..]; intros Z; congruence. }
  split; [exact Q7 |]. assert (G5 : wget (pk_lp k) w3 = Some (CMint (s - n) (Some (a_pool d)))) by (rewrite S4, R4; [exact B2 | ..]; intros Z; congruence).
  destruct (wi_mint _ I _ _ _ Q7) as (_ & _ & [q Q]). rewrite Q in *. unfold w_exit. destruct (ac_bm _ _ _ _ _ _ _ _ _ _ _ _ _ E1) as [C1 _]. destruct (ac_ps _ _ _ _ _ _ _ _ _ _ _ _ _ E1) as [C2 _]. destruct (ac_lt _ _ _ _ _ _ _ _ _ _ _ _ _ E1) as [C3 _]. destruct (ac_ut _ _ _ _ _ _ _ _ _ _ _ _ _ E1) as [C4 _]. destruct (ac_cur _ _ _ _ _ _ _ _ _ _ _ _ _ E1) as [C5 _].
  rewrite C1, C2, C3, C4, C5, P1. rewrite !get_other by discriminate. rewrite <- P1. exact G5.
Qed.
(** ** The exact effects *)
Lemma ledger_deposit : forall w0 is m k g d u l h c xa ya w', initial w0 -> born_empty w0 is m -> wget (PoolAt m) (wrun w0 is) = Some (CPool k g) -> pk_x k <> m -> pk_y k <> m ->
  let w := wrun w0 is in a_pool d = PoolAt m -> wexec w (WDeposit d u l h c xa ya) = Ok w' ->
  d = right_accounts m k u l h c (a_ux d) (a_uy d) (a_lp d) /\ c = cg_tick g /\
  exists o dl, 0 <= dl /\ 0 <= worth_x c (Zpos u, l, h) dl <= xa /\ 0 <= worth_y c (Zpos u, l, h) dl <= ya /\
    exchanged w w' m k g u l h c (a_ux d) (a_uy d) (a_lp d) o (worth_x c (Zpos u, l, h) dl) (worth_y c (Zpos u, l, h) dl) dl (dl / 10 ^ 12).
Proof.
  intros w0 is m k g d u l h c xa ya w' IN B G NX NY w PD H. destruct (pool_sim _ _ _ _ _ IN B G NX NY) as [s S]. destruct (wrun_ok is w0 (initial_inv _ IN) (initial_place _ IN)) as (I & _ & P). fold w in G, S, I, P. clearbody w. clear B IN is w0.
  assert (W : poolw w m k) by (split; eauto). pose proof S as (A & R & TX & TY). pose proof (reached_inv _ R) as CI. pose proof (facts _ _ _ W) as F. pose proof (pf_lp _ _ _ F) as LP. assert (GP : wget (a_pool d) w = Some (CPool k g)) by (rewrite PD; exact G).
  assert (NX' : pk_x k <> pk_lp k) by (rewrite LP; exact NX). assert (NY' : pk_y k <> pk_lp k) by (rewrite LP; exact NY). destruct (wexec_inv _ _ _ I H) as [I' _].
  destruct (deposit_frame _ _ _ _ _ _ _ _ _ (Key 1) _ _ I H GP) as (RA & C & _). rewrite LP in RA. split; [exact RA |]. split; [exact C |].
  assert (OD : exists o n s', wget (a_lp d) w = Some (CToken m o n) /\ exec s (IDeposit (Zpos u) l h c xa ya (HUser (uid o))) = Ok s' /\ agrees w' m k s').
  { pose proof H as H0. unfold wexec in H0. destruct (wargs_ok _) eqn:AO; [| discriminate H0]. cbn [negb wargs_ok] in *. destruct (own_deposit _ _ _ _ d _ _ _ _ _ _ _ W S PD H0) as (o & n & s' & G1 & E & A'). exists o, n, s'. split; [exact G1 |]. split; [| exact A']. unfold exec. cbn [args_ok]. rewrite AO. exact E. }
  destruct OD as (o & nl & s' & GL & ES & A'). destruct (exec_deposit _ _ _ _ _ _ _ _ _ CI ES) as (SP & dl & DE & _). exists o, dl.
  destruct DE as (_ & D0 & PL & _ & LX & LY & (MX0 & _ & MX & _) & (MY0 & _ & MY & _) & _ & _ & SUP). split; [exact D0 |]. split; [lia |]. split; [lia |].
  destruct (deposit_paid _ _ _ _ _ _ _ _ _ _ _ I H GP NX' NY') as (nx & ny & vx & vy & ax & ay & _ & _ & U1 & U2 & U3 & U4 & V1 & V2 & V3 & V4). rewrite PD in V1, V2, V3, V4.
  destruct (wi_pool _ I _ _ _ GP) as (_ & Q2 & Q3 & _ & _ & _ & [sp SU]). pose proof GL as GL0. rewrite <- LP in GL0. destruct (deposit_lp w d _ _ _ _ _ _ _ _ _ _ _ _ _ I H GP NX' NY' GL0 SU) as (z & Z1 & Z2). rewrite LP in Q2, Q3, SU, Z1, Z2. rewrite PD in SU, Z2.
  destruct (ag_supply _ _ _ _ A) as [au SA]. destruct (ag_supply _ _ _ _ A') as [au' SA']. rewrite SU in SA. injection SA as SA _. rewrite Z2 in SA'. injection SA' as SA' _.
  pose proof (ag_x _ _ _ _ A HVault) as B1. pose proof (ag_y _ _ _ _ A HVault) as B2. pose proof (ag_x _ _ _ _ A' HVault) as B3. pose proof (ag_y _ _ _ _ A' HVault) as B4. unfold full in B1, B2, B3, B4. cbn [reserve holder_eqb] in B1, B2, B3, B4.
  rewrite (vault_only _ _ _ _ _ (wi_nodup _ I) V1) in B1. rewrite (vault_only _ _ _ _ _ (wi_nodup _ I) V3) in B2. rewrite (vault_only _ _ _ _ _ (wi_nodup _ I') V2) in B3. rewrite (vault_only _ _ _ _ _ (wi_nodup _ I') V4) in B4.
  assert (EX : ax = worth_x c (Zpos u, l, h) dl) by lia. assert (EY : ay = worth_y c (Zpos u, l, h) dl) by lia. assert (EZ : z = dl / 10 ^ 12) by lia. rewrite <- EX, <- EY, <- EZ.
  destruct (ag_pool _ _ _ _ A) as (g1 & G1 & CP). rewrite G in G1. injection G1 as <-. destruct (SP g CP) as (g' & CP' & T1 & T2 & T3). destruct (ag_pool _ _ _ _ A') as (g2 & G2 & CP2). rewrite CP' in CP2. injection CP2 as <-.
  rewrite Q2 in V1, V2. rewrite Q3 in V3, V4.
  exists nx, ny, vx, vy, nl, sp, g'. repeat (split; [eassumption |]). split; [rewrite (pos_agree _ _ _ _ _ _ _ A), (pos_agree _ _ _ _ _ _ _ A'); exact PL |]. repeat (split; [eassumption |]).
  intros a N. destruct (deposit_frame _ _ _ _ _ _ _ _ _ a _ _ I H GP) as (_ & _ & FR). rewrite LP in FR. exact (FR N).
Qed.
Lemma ledger_withdraw : forall w0 is m k g d u l h c n w', initial w0 -> born_empty w0 is m -> wget (PoolAt m) (wrun w0 is) = Some (CPool k g) -> pk_x k <> m -> pk_y k <> m ->
  let w := wrun w0 is in a_pool d = PoolAt m -> wexec w (WWithdraw d u l h c n) = Ok w' ->
  d = right_accounts m k u l h c (a_ux d) (a_uy d) (a_lp d) /\ c = cg_tick g /\ 0 <= n /\ n * 10 ^ 12 <= position_liq w m u l h /\ n <= balance w (a_lp d) /\
  0 <= worth_x c (Zpos u, l, h) (n * 10 ^ 12) /\ 0 <= worth_y c (Zpos u, l, h) (n * 10 ^ 12) /\
  exchanged w w' m k g u l h c (a_ux d) (a_uy d) (a_lp d) (Key u) (- worth_x c (Zpos u, l, h) (n * 10 ^ 12)) (- worth_y c (Zpos u, l, h) (n * 10 ^ 12)) (- (n * 10 ^ 12)) (- n).
Proof.
  intros w0 is m k g d u l h c n w' IN B G NX NY w PD H. destruct (pool_sim _ _ _ _ _ IN B G NX NY) as [s S]. destruct (wrun_ok is w0 (initial_inv _ IN) (initial_place _ IN)) as (I & _ & P). fold w in G, S, I, P. clearbody w. clear B IN is w0.
  assert (W : poolw w m k) by (split; eauto). pose proof S as (A & R & TX & TY). pose proof (reached_inv _ R) as CI. pose proof (facts _ _ _ W) as F. pose proof (pf_lp _ _ _ F) as LP. assert (GP : wget (a_pool d) w = Some (CPool k g)) by (rewrite PD; exact G).
  assert (NX' : pk_x k <> pk_lp k) by (rewrite LP; exact NX). assert (NY' : pk_y k <> pk_lp k) by (rewrite LP; exact NY). destruct (wexec_inv _ _ _ I H) as [I' _].
  destruct (withdraw_frame _ _ _ _ _ _ _ _ (Key 1) _ _ I H GP) as (RA & C & _). rewrite LP in RA. split; [exact RA |]. split; [exact C |].
  assert (OD : exists s', exec s (IWithdraw (Zpos u) l h c n) = Ok s' /\ agrees w' m k s').
  { pose proof H as H0. unfold wexec in H0. destruct (wargs_ok _) eqn:AO; [| discriminate H0]. cbn [negb wargs_ok] in *. destruct (own_withdraw _ _ _ _ d _ _ _ _ _ _ W S PD H0) as (s' & E & A'). exists s'. split; [| exact A']. unfold exec. cbn [args_ok]. rewrite AO. exact E. }
  destruct OD as (s' & ES & A'). destruct (exec_withdraw _ _ _ _ _ _ _ CI ES) as (SP & DE & _).
  destruct DE as (_ & D0 & PN & PL & _ & (MX0 & MX & _ & _) & (MY0 & MY & _ & _) & _ & _ & _ & SUP).
  destruct (withdraw_paid _ _ _ _ _ _ _ _ _ _ I H GP NX' NY') as (nx & ny & vx & vy & ax & ay & nl & sp & _ & _ & U1 & U2 & U3 & U4 & V1 & V2 & V3 & V4 & L1 & L2 & L3 & L4). rewrite PD in V1, V2, V3, V4, L3, L4. rewrite LP in L1, L2, L3, L4.
  split; [exact D0 |]. split; [rewrite (pos_agree _ _ _ _ _ _ _ A); exact PN |]. split. { unfold balance. rewrite L1. pose proof (wi_token _ I' _ _ _ _ L2) as [Q _]. lia. } split; [lia |]. split; [lia |].
  destruct (wi_pool _ I _ _ _ GP) as (_ & Q2 & Q3 & _). rewrite LP in Q2, Q3.
  pose proof (ag_x _ _ _ _ A HVault) as B1. pose proof (ag_y _ _ _ _ A HVault) as B2. pose proof (ag_x _ _ _ _ A' HVault) as B3. pose proof (ag_y _ _ _ _ A' HVault) as B4. unfold full in B1, B2, B3, B4. cbn [reserve holder_eqb] in B1, B2, B3, B4.
  rewrite (vault_only _ _ _ _ _ (wi_nodup _ I) V1) in B1. rewrite (vault_only _ _ _ _ _ (wi_nodup _ I) V3) in B2. rewrite (vault_only _ _ _ _ _ (wi_nodup _ I') V2) in B3. rewrite (vault_only _ _ _ _ _ (wi_nodup _ I') V4) in B4.
  assert (EX : ax = worth_x c (Zpos u, l, h) (n * 10 ^ 12)) by lia. assert (EY : ay = worth_y c (Zpos u, l, h) (n * 10 ^ 12)) by lia. rewrite <- EX, <- EY.
  destruct (ag_pool _ _ _ _ A) as (g1 & G1 & CP). rewrite G in G1. injection G1 as <-. destruct (SP g CP) as (g' & CP' & T1 & T2 & T3). destruct (ag_pool _ _ _ _ A') as (g2 & G2 & CP2). rewrite CP' in CP2. injection CP2 as <-.
  rewrite Q2 in V1, V2. rewrite Q3 in V3, V4.
  exists nx, ny, vx, vy, nl, sp, g'. unfold Z.sub in *. rewrite !Z.opp_involutive. repeat (split; [eassumption |]). split; [rewrite (pos_agree _ _ _ _ _ _ _ A), (pos_agree _ _ _ _ _ _ _ A'); exact PL |]. repeat (split; [eassumption |]).
  intros a N. destruct (withdraw_frame _ _ _ _ _ _ _ _ a _ _ I H GP) as (_ & _ & FR). rewrite LP in FR. exact (FR N).
Qed.
(** ** Transactions of several instructions *)
Lemma exec_all_run : forall is w w', wexec_all w is = Ok w' -> w' = wrun w is /\ all_done w is.
Proof.
  induction is as [| i r IH]; intros w w' H; cbn [wexec_all] in H; [injection H as <-; split; [reflexivity | exact I] |].
  destruct (wexec w i) as [w1 | | |] eqn:E; [| discriminate H | discriminate H | discriminate H]. cbn [bind] in H. destruct (IH _ _ H) as [-> D]. split; [| exists w1; auto]. change (wrun w (i :: r)) with (wrun (wtx w i) r). unfold wtx. rewrite E. reflexivity.
Qed.
Lemma done_app : forall a w b, all_done w a -> all_done (wrun w a) b -> all_done w (a ++ b).
Proof.
  induction a as [| i r IH]; intros w b A B; [exact B |]. destruct A as (w1 & E & A). exists w1. split; [exact E |]. apply IH; [exact A |]. change (wrun w (i :: r)) with (wrun (wtx w i) r) in B. unfold wtx in B. rewrite E in B. exact B.
Qed.
Lemma bundles : forall ts w, exists is, whole_parts ts is /\ wrun_txns w ts = wrun w is /\ all_done w is.
Proof.
  induction ts as [| t ts IH]; intros w; [exists []; repeat split; constructor |]. change (wrun_txns w (t :: ts)) with (wrun_txns (wtxn w t) ts). unfold wtxn. destruct (wexec_all w t) as [w1 | | |] eqn:E; [| destruct (IH w) as (is & A & B & C); exists is; split; [constructor; exact A | auto] ..].
  destruct (exec_all_run _ _ _ E) as [-> D]. destruct (IH (wrun w t)) as (is & A & B & C). exists (t ++ is). split; [constructor; exact A |]. split; [rewrite B; unfold wrun; rewrite fold_left_app; reflexivity | apply done_app; assumption].
Qed.
Lemma bundle_whole : forall w t, (exists w', wexec_all w t = Ok w' /\ wtxn w t = w' /\ w' = wrun w t /\ all_done w t) \/ wtxn w t = w /\ ~ all_done w t.
Proof.
  intros w t. unfold wtxn. destruct (wexec_all w t) as [w1 | | |] eqn:E.
  1: left; exists w1; destruct (exec_all_run _ _ _ E); auto.
  all: right; split; [reflexivity |]; revert w E; induction t as [| i r IH]; intros w E D; [discriminate E |]; destruct D as (w1 & E1 & D); cbn [wexec_all] in E; rewrite E1 in E; cbn [bind] in E; exact (IH _ E D).
Qed.
Lemma parts_forall : forall (P : winstr -> Prop) ts is, whole_parts ts is -> Forall (Forall P) ts -> Forall P is.
Proof. intros P ts is W. induction W as [| t ts is W IH | t ts is W IH]; intros F; [constructor | inversion F; subst; apply Forall_app; auto | inversion F; subst; auto]. Qed.
Lemma txns_reached : forall w0 ts, initial w0 -> ledger_reached (wrun_txns w0 ts).
Proof. intros w0 ts I. destruct (bundles ts w0) as (is & _ & -> & _). exists w0, is. auto. Qed.
Lemma txns_tokens : forall w0 ts0 ts q a m n, initial w0 -> Forall (Forall (fun i => wsigner i <> Some q)) ts -> wget a (wrun_txns w0 ts0) = Some (CToken m (Key q) n) ->
  exists n', wget a (wrun_txns (wrun_txns w0 ts0) ts) = Some (CToken m (Key q) n') /\ n <= n'.
Proof.
  intros w0 ts0 ts q a m n I F G. pose proof (txns_reached w0 ts0 I) as R. destruct (bundles ts (wrun_txns w0 ts0)) as (is & W & -> & _). destruct (hist_ok _ R) as [J P]. exact (user_tokens _ q is a m n J P (parts_forall _ _ _ W F) G).
Qed.
