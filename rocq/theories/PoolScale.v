(** In every reachable pool all amounts, growth counters and liquidities are at scale 12 and their zeros carry no sign. *)
From Coq Require Import ZArith QArith List Bool Lia Lqa String Sorted.
From Verif Require Import Base BaseLemmas DecimalModel DecimalSpec DecimalProofs WfProofs MathModel MathProofs TickProofs PoolModel PoolWf LpProofs SwapLoop SwapProofs PoolInv PoolNonneg PoolLp PoolFees.
Import ListNotations.
Open Scope Z_scope.

Definition ok12 (d : decimal) : Prop := dscale d = 12 /\ canonical d.
Definition p_fee (q : pstate) (k : fkind) : decimal := match k with FX => p_fx q | FY => p_fy q | HX => p_hx q | HY => p_hy q end.
Definition g_12 (g : gstate) : Prop := ok12 (g_liq g) /\ forall k, ok12 (g_fee g k).
Definition ticks_12 (m : list (Z * tstate)) : Prop := forall t ts, In (t, ts) m -> ok12 (t_net ts) /\ ok12 (t_gross ts) /\ forall k, ok12 (t_fee ts k).
Definition pos_12 (m : list (pkey * pstate)) : Prop := forall k q, In (k, q) m -> dscale (p_liq q) = 12 /\ forall f, ok12 (p_fee q f).
Definition pots_12 (p : pool) : Prop := ok12 (rx p) /\ ok12 (ry p) /\ ok12 (x_adj p) /\ ok12 (y_adj p) /\ ok12 (x_fee p) /\ ok12 (y_fee p).
Definition all12 (p : pool) : Prop := g_12 (gs p) /\ ticks_12 (ticks p) /\ pos_12 (positions p) /\ pots_12 p.

Lemma zero_ok12 : ok12 zero12. Proof. split; [reflexivity | intros H; discriminate H]. Qed.
Lemma add_12 : forall a b c, d_add a b = Ok c -> wf a -> wf b -> ok12 a -> ok12 c.
Proof. intros a b c H Wa Wb [S C]. destruct (add_m _ _ _ H) as (_ & S1 & _). split; [congruence |]. eapply add_canon; eauto; apply wf_nn; auto. Qed.
Lemma add_12' : forall a b c, d_add a b = Ok c -> wf a -> wf b -> ok12 b -> ok12 c.
Proof. intros a b c H Wa Wb [S C]. destruct (add_m _ _ _ H) as (_ & S1 & S2). split; [congruence |]. eapply add_canon; eauto; apply wf_nn; auto. Qed.
Lemma sub_12 : forall a b c, d_sub a b = Ok c -> wf a -> wf b -> ok12 a -> ok12 c.
Proof. intros a b c H Wa Wb [S C]. destruct (sub_m _ _ _ H) as (_ & S1 & _). split; [congruence |]. eapply sub_canon; eauto; apply wf_nn; auto. Qed.
Lemma sub_12' : forall a b c, d_sub a b = Ok c -> ok12 a -> dscale b = 12. Proof. intros a b c H [S _]. destruct (sub_m _ _ _ H) as (_ & _ & ->). auto. Qed.

(** ** Deposits and withdrawals *)
Lemma fee_ba_12 : forall p t k b a, fee_below_above p t k = Ok (b, a) -> pool_wf p -> all12 p -> (wf a /\ wf b) /\ ok12 a /\ ok12 b.
Proof.
  intros p t k b a H W ((_ & G) & T & _). assert (Wg : wf (g_fee (gs p) k)) by (destruct W as (_ & (W1 & W2 & W3 & W4 & W5 & W6 & W7) & _); destruct k; auto).
  unfold fee_below_above in H. destruct (tm_get t (ticks p)) as [ts |] eqn:E.
  - apply tm_get_in in E. bd H r E1. destruct (T _ _ E) as (_ & _ & T3). assert (Wt : wf (t_fee ts k)). { destruct W as (_ & _ & (_ & Wt) & _). destruct (Wt _ _ E) as (_ & _ & _ & W3 & W4 & W5 & W6). destruct k; auto. }
    pose proof (sub_12 _ _ _ E1 Wg Wt (G k)). pose proof (sub_wf _ _ _ E1 Wg Wt). specialize (T3 k). destruct (t <=? glbl_tick p); injection H as <- <-; auto.
  - rewrite zero_eq in H. cbn [bind] in H. injection H as <- <-. pose proof zero_ok12. pose proof zero12_wf. specialize (G k). auto.
Qed.
Lemma fee_rng_12 : forall p lo up k f, fee_rng p lo up k = Ok f -> pool_wf p -> all12 p -> ok12 f.
Proof.
  intros p lo up k f H W A. unfold fee_rng in H. bd H r E1. destruct r as [bl al]. bd H r E2. destruct r as [bu au]. bd H sl E3. bd H su E4. bd H u E5. bd H x E6. bd H y E7. destruct (is_negative y); [discriminate H |]. injection H as <-.
  destruct (fee_ba_12 _ _ _ _ _ E1 W A) as ((W1 & W2) & B1 & B2). destruct (fee_ba_12 _ _ _ _ _ E2 W A) as ((W3 & W4) & B3 & B4).
  assert (wf sl) by (eapply add_wf; eauto). assert (ok12 sl) by (eapply add_12; eauto). assert (wf x) by (eapply sub_wf; eauto). eapply sub_12; eauto. eapply sub_12; eauto.
Qed.
Lemma tick_upd_12 : forall p t d up m m', tick_upd p t d up m m' -> pool_wf p -> wf d -> g_12 (gs p) -> ticks_wf m -> ticks_12 m -> ticks_12 m'.
Proof.
  intros p t d up m m' (ts0 & n & g & T0 & A1 & A2 & A3 & ->) W Wd (_ & G) Wm M.
  assert (X : (wf (t_net ts0) /\ wf (t_gross ts0)) /\ ok12 (t_net ts0) /\ ok12 (t_gross ts0) /\ forall k, ok12 (t_fee ts0 k)).
  { destruct T0 as [T0 | [_ ->]].
    - apply tm_get_in in T0. destruct (M _ _ T0) as (M1 & M2 & M3). destruct Wm as [_ Wm]. destruct (Wm _ _ T0) as (_ & W1 & W2 & _). auto.
    - pose proof zero_ok12. pose proof zero12_wf. unfold fresh. destruct (t <=? glbl_tick p); cbn [t_net t_gross]; csplit; auto; intros k; pose proof (G k); destruct k; auto. }
  destruct X as ((W1 & W2) & X1 & X2 & X3). intros t' ts' I. destruct (is_zero g); [apply tm_del_in in I; eauto |]. apply tm_set_in in I. destruct I as [[-> ->] | I]; [| eauto].
  cbn [t_net t_gross]. split; [eapply add_12; [exact A1 | | |]; auto; destruct up; auto; apply neg_wf; auto |]. split; [eapply add_12; [exact A2 | | |]; auto |]. intros k. specialize (X3 k). destruct k; auto.
Qed.
Lemma set_pos_12 : forall p u lo up d p' paid, set_pos p u lo up d p' paid -> pool_wf p -> all12 p -> wf d -> dscale d = 12 -> 0 <= lo -> all12 p' /\
  (let '(fx, fy, hx, hy) := paid in dscale fx = 12 /\ dscale fy = 12 /\ dscale hx = 12 /\ dscale hy = 12).
Proof.
  intros p u lo up d p' [[[fx fy] hx] hy] H W A Wd Sd Hl. pose proof A as ((G1 & G2) & T & P & O).
  destruct H as (nfx & nfy & nhx & nhy & pos' & base & ofx & ofy & ohx & ohy & m1 & m2 & L & R1 & R2 & R3 & R4 & Pu & (F1 & F2 & F3 & F4) & T1 & T2 & Gl & ->).
  pose proof (fee_rng_12 _ _ _ _ _ R1 W A). pose proof (fee_rng_12 _ _ _ _ _ R2 W A). pose proof (fee_rng_12 _ _ _ _ _ R3 W A). pose proof (fee_rng_12 _ _ _ _ _ R4 W A).
  assert (Wm1 : ticks_wf m1) by (eapply tick_upd_wf; eauto; apply W).
  assert (X : pos_12 pos' /\ dscale base = 12).
  { pose proof zero_ok12. unfold pos_upd in Pu. destruct (pm_get (u, lo, up) (positions p)) as [q |] eqn:Q.
    - destruct Pu as (nl & P1 & P2 & P3 & -> & -> & P4). apply pm_get_in in Q. pose proof (P _ _ Q) as [Q1 Q2]. destruct (add_m _ _ _ P2) as (_ & S1 & _). split; auto.
      destruct (is_zero nl); intros k' q' I; [apply pm_del_in in I; eauto |]. apply pm_set_in in I. destruct I as [[-> ->] | I]; [| eauto]. cbn [p_liq]. split; [congruence |]. intros f. destruct f; auto.
    - destruct Pu as (P1 & -> & -> & P4). split; [| reflexivity]. intros k' q' I. apply pm_set_in in I. destruct I as [[-> ->] | I]; [| eauto]. cbn [p_liq]. split; auto. intros f. destruct f; auto. }
  destruct X as [X1 X2].
  assert (Sz : forall n o f, fee_owed base n o f -> dscale f = 12). { intros n o f (v & _ & _ & V3). unfold d_mul in V3. bd V3 a I1. bd V3 r I2. bd V3 w I3. injection V3 as <-. auto. }
  split; [| csplit; eauto]. split; [| split; [| split; [exact X1 | exact O]]].
  - split; [cbn [gs g_liq] | intros k; specialize (G2 k); destruct k; auto]. destruct (_ && _); [destruct Gl as [Gl _]; eapply add_12; [exact Gl | | |]; auto; apply W | subst L; exact G1].
  - cbn [ticks]. eapply tick_upd_12; [exact T2 | | | | |]; auto; [split; auto |]. eapply tick_upd_12; [exact T1 | | | | |]; auto; [split; auto | apply W].
Qed.
Lemma deposit_12 : forall p user x y rpa rpb p' o, deposit p user x y rpa rpb = Ok (p', o) -> pool_wf p -> all12 p -> wf x -> wf y -> wf rpa -> wf rpb -> all12 p'.
Proof.
  intros p user x y rpa rpb p' o H W A Wx Wy Wa Wb. destruct (deposit_wf _ _ _ _ _ _ _ _ H W Wx Wy Wa Wb) as [W' (V1 & V2 & V3 & V4 & V5 & V6 & V7 & _)].
  destruct (deposit_inv _ _ _ _ _ _ _ _ H) as (lo & up & a & b & p1 & nx & ny & nxf & nxa & nyf & nya & D1 & D2 & D3 & D4 & D5 & _ & _ & D8 & _ & D10 & _ & D12 & _ & _ & D18 & D19 & D20 & D21 & D22 & D23 & _ & _ & ->).
  pose proof A as (_ & _ & _ & O1 & O2 & O3 & O4 & O5 & O6). pose proof (proj1 W) as Ws. destruct (rtp_nn _ _ _ _ Wa Ws (Z.le_refl 0) D1) as (L1 & _ & _).
  apply set_position_inv in D12. destruct (set_pos_same _ _ _ _ _ _ _ D12) as (_ & _ & _ & _ & X1 & X2 & X3 & X4 & X5 & X6). rewrite X1, X2, X3, X4, X5, X6 in *.
  destruct (x_from_scale _ _ _ _ _ D8) as [Sx _]. destruct (add_m _ _ _ D18) as (_ & _ & Sx'). assert (Sl : dscale (io_liq o) = 12) by (rewrite <- Sx, Sx'; apply O1).
  destruct (set_pos_12 _ _ _ _ _ _ _ D12 W A V1 Sl L1) as [(B1 & B2 & B3 & _) _]. pose proof W as (_ & _ & _ & _ & (U1 & U2 & U3 & U4 & U5 & U6) & _).
  split; [exact B1 |]. split; [exact B2 |]. split; [exact B3 |]. unfold pots_12. cbn [rx ry x_adj y_adj x_fee y_fee with_funds]. csplit; eauto using add_12, sub_12.
Qed.
Lemma withdraw_12 : forall p user l rpa rpb p' o, withdraw p user l rpa rpb = Ok (p', o) -> pool_wf p -> all12 p -> wf l -> wf rpa -> wf rpb -> all12 p'.
Proof.
  intros p user l rpa rpb p' o H W A Wl Wa Wb. destruct (withdraw_wf _ _ _ _ _ _ _ H W Wl Wa Wb) as [W' (V1 & V2 & V3 & V4 & V5 & V6 & V7 & _)].
  destruct (withdraw_inv _ _ _ _ _ _ _ H) as (lo & up & a & b & p1 & x0 & y0 & nx & ny & nxf & nxa & nyf & nya & D1 & D2 & D3 & D4 & D5 & _ & _ & D8 & D9 & _ & D11 & _ & _ & _ & _ & D18 & D19 & D20 & D21 & D22 & D23 & ->).
  pose proof A as (_ & _ & _ & O1 & O2 & O3 & O4 & O5 & O6). pose proof (proj1 W) as Ws. destruct (rtp_nn _ _ _ _ Wa Ws (Z.le_refl 0) D1) as (L1 & _ & _).
  apply set_position_inv in D8. destruct (set_pos_same _ _ _ _ _ _ _ D8) as (_ & _ & _ & _ & X1 & X2 & X3 & X4 & X5 & X6). rewrite X1, X2, X3, X4, X5, X6 in *.
  assert (Sz : dscale (io_x o) = dscale x0) by (unfold d_mul in D11; bd D11 v I1; bd D11 r I2; bd D11 u I3; injection D11 as <-; auto).
  destruct (x_from_scale _ _ _ _ _ D9) as [Sx _]. destruct (sub_m _ _ _ D18) as (_ & _ & Sx'). assert (Sl : dscale (d_neg l) = 12) by (rewrite neg_scale, <- Sx, <- Sz, Sx'; apply O1).
  destruct (set_pos_12 _ _ _ _ _ _ _ D8 W A (neg_wf _ Wl) Sl L1) as [(B1 & B2 & B3 & _) _]. pose proof W as (_ & _ & _ & _ & (U1 & U2 & U3 & U4 & U5 & U6) & _).
  split; [exact B1 |]. split; [exact B2 |]. split; [exact B3 |]. unfold pots_12. cbn [rx ry x_adj y_adj x_fee y_fee with_funds]. csplit; eauto using add_12, sub_12.
Qed.

(** ** Swaps *)
Lemma cross_12 : forall p t d p', cross_tick p t d = Ok p' -> pool_wf p -> all12 p -> all12 p'.
Proof.
  intros p t d p' H W ((G1 & G2) & T & P & O). destruct (cross_inv _ _ _ _ H) as (ts & fx & fy & hx & hy & nt & L & C1 & C2 & C3 & C4 & C5 & C6 & C7 & C8 & C9 & ->).
  pose proof W as (_ & (W1 & W2 & W3 & W4 & W5 & W6 & W7) & (_ & Wt) & _). apply tm_get_in in C2. destruct (Wt _ _ C2) as (_ & V1 & V2 & V3 & V4 & V5 & V6). destruct (T _ _ C2) as (T1 & T2 & T3).
  pose proof (G2 FX). pose proof (G2 FY). pose proof (G2 HX). pose proof (G2 HY). cbn [g_fee] in *.
  split; [| split; [| split; [exact P | exact O]]].
  - split; [cbn [gs g_liq]; eapply add_12; [exact C8 | | |]; auto; destruct d; auto; apply neg_wf; auto |]. intros k; destruct k; auto.
  - intros t' ts' I. cbn [ticks] in I. apply tm_set_in in I. destruct I as [[-> ->] | I]; [| eauto]. cbn [crossed t_net t_gross]. csplit; auto. intros k. destruct k; cbn [t_fee t_fx t_fy t_hx t_hy]; eauto using sub_12.
Qed.
Lemma after_12 : forall w gtk d p1 p', after_mid w gtk d p1 p' -> pool_wf p1 -> all12 p1 -> all12 p'.
Proof. intros w gtk d p1 p' H W A. unfold after_mid in H. destruct (w_cross w); [| subst; auto]. destruct H as [_ H]. destruct (tm_get gtk (ticks p1)); [eapply cross_12; eauto | subst; auto]. Qed.
Lemma mid_x_all : forall p w p1, mid_x p w p1 -> pool_wf p -> w_wf w -> all12 p -> all12 p1.
Proof.
  intros p w p1 (nx & y1 & ny & nya & nxf & fx & hy & M1 & M2 & M3 & M4 & M5 & M6 & M7 & ->) W (V1 & V2 & V3 & V4 & V5 & V6) ((G1 & G2) & T & P & (O1 & O2 & O3 & O4 & O5 & O6)).
  pose proof W as (_ & (W1 & W2 & W3 & W4 & W5 & W6 & W7) & _ & _ & (U1 & U2 & U3 & U4 & U5 & U6) & _).
  pose proof (G2 FX). pose proof (G2 FY). pose proof (G2 HX). pose proof (G2 HY). cbn [g_fee] in *.
  split; [split; [exact G1 |] | split; [exact T |]; split; [exact P |]].
  - destruct (is_positive (glbl_liq p)).
    + destruct M7 as (q1 & q2 & N1 & N2 & N3 & N4). assert (wf q1) by (eapply div_wf; eauto). assert (wf q2) by (eapply div_wf; eauto). intros k. destruct k; cbn [g_fee g_fx g_fy g_hx g_hy gs]; eauto using add_12'.
    + destruct M7 as [-> ->]. intros k. destruct k; auto.
  - unfold pots_12. cbn [rx ry x_adj y_adj x_fee y_fee]. assert (wf y1) by (eapply add_wf; eauto). assert (ok12 y1) by (eapply add_12; eauto). csplit; eauto using add_12, sub_12.
Qed.
Lemma mid_y_all : forall p w p1, mid_y p w p1 -> pool_wf p -> w_wf w -> all12 p -> all12 p1.
Proof.
  intros p w p1 (nx & y1 & ny & nya & nxf & fx & hy & M1 & M2 & M3 & M4 & M5 & M6 & M7 & ->) W (V1 & V2 & V3 & V4 & V5 & V6) ((G1 & G2) & T & P & (O1 & O2 & O3 & O4 & O5 & O6)).
  pose proof W as (_ & (W1 & W2 & W3 & W4 & W5 & W6 & W7) & _ & _ & (U1 & U2 & U3 & U4 & U5 & U6) & _).
  pose proof (G2 FX). pose proof (G2 FY). pose proof (G2 HX). pose proof (G2 HY). cbn [g_fee] in *.
  split; [split; [exact G1 |] | split; [exact T |]; split; [exact P |]].
  - destruct (is_positive (glbl_liq p)).
    + destruct M7 as (q1 & q2 & N1 & N2 & N3 & N4). assert (wf q1) by (eapply div_wf; eauto). assert (wf q2) by (eapply div_wf; eauto). intros k. destruct k; cbn [g_fee g_fx g_fy g_hx g_hy gs]; eauto using add_12'.
    + destruct M7 as [-> ->]. intros k. destruct k; auto.
  - unfold pots_12. cbn [rx ry x_adj y_adj x_fee y_fee]. assert (wf y1) by (eapply add_wf; eauto). assert (ok12 y1) by (eapply add_12; eauto). csplit; eauto using add_12, sub_12.
Qed.
Lemma seat_12 : forall p t r, all12 p -> all12 (seat p t r).
Proof. intros p t r ((G1 & G2) & T & P & O). split; [split; [exact G1 | intros k; specialize (G2 k); destruct k; exact G2] |]. split; [exact T |]. split; [exact P | exact O]. Qed.
Lemma mv_x_all : forall orc dx ro a b, wf dx -> wf ro -> inv_x a -> mv_x orc dx ro a b -> all12 (fst a) -> all12 (fst b).
Proof.
  intros orc dx ro a b Wd Wo I M A. destruct I as (I1 & I2 & I3 & I4).
  inversion M as [p s tk rp p' H1 H2 H3 H4 H5 | p s f gtk p' s' H1 H2 H3 H4 H5]; subst; cbn [fst snd] in *.
  - eapply cross_12; [exact H5 | | apply seat_12; auto]. apply seat_wf; auto; [eapply key_nn; eauto | apply (tick_rp_wf _ _ H4)].
  - destruct (find_left _ _ _ H4) as [K1 K2]. destruct (step_x_facts _ _ _ _ _ _ _ _ H5 I1 I2 Wd Wo K1) as (w & p1 & _ & F2 & F3 & F4 & F5 & F6 & F7 & F8).
    pose proof (mid_x_all _ _ _ F3 I1 F2 A) as A1. destruct (w_cross w); [| subst p'; auto]. destruct F8 as [_ F8]. eapply cross_12; eauto.
Qed.
Lemma mv_y_all : forall orc dx ro a b, wf dx -> wf ro -> inv_y a -> mv_y orc dx ro a b -> all12 (fst a) -> all12 (fst b).
Proof.
  intros orc dx ro a b Wd Wo I M A. destruct I as (I1 & I2 & I3 & I4).
  inversion M as [p s tk rp p' H1 H2 H3 H4 H5 | p s gtk p' s' H1 H2 H3 H4 H5]; subst; cbn [fst snd] in *.
  - eapply cross_12; [exact H5 | | apply seat_12; auto]. apply seat_wf; auto; [eapply key_nn; eauto | apply (tick_rp_wf _ _ H4)].
  - destruct (find_right _ _ _ H4) as [K1 K2]. destruct (step_y_facts _ _ _ _ _ _ _ _ H5 I1 I2 Wd Wo K1) as (w & p1 & _ & F2 & F3 & F4 & F5 & F6 & F7 & F8).
    pose proof (mid_y_all _ _ _ F3 I1 F2 A) as A1. destruct (w_cross w); [| subst p'; auto]. destruct F8 as [_ F8]. eapply cross_12; eauto.
Qed.

Lemma swap_x_12 : forall orc p dx ro p' o, pool_wf p -> all12 p -> wf dx -> wf ro -> execute_swap_from_x orc p dx ro = Ok (p', o) -> all12 p'.
Proof.
  intros orc p dx ro p' o W A Wd Wo H. destruct (swap_x_chain _ _ _ _ _ _ H W Wd Wo) as (_ & s' & C & _).
  assert (X : forall a b, chain (mv_x orc dx ro) a b -> inv_x a -> all12 (fst a) -> all12 (fst b)).
  { intros a b Hc. induction Hc as [a | a b c Hm Hc IH]; intros Ia Na; auto. apply IH; [exact (mv_x_inv _ _ _ _ _ Wd Wo Ia Hm) | exact (mv_x_all _ _ _ _ _ Wd Wo Ia Hm Na)]. }
  exact (X _ _ C (proj1 (inv_start p W)) A).
Qed.
Lemma swap_y_12 : forall orc p dx ro p' o, pool_wf p -> all12 p -> wf dx -> wf ro -> execute_swap_from_y orc p dx ro = Ok (p', o) -> all12 p'.
Proof.
  intros orc p dx ro p' o W A Wd Wo H. destruct (swap_y_chain _ _ _ _ _ _ H W Wd Wo) as (_ & s' & C & _).
  assert (X : forall a b, chain (mv_y orc dx ro) a b -> inv_y a -> all12 (fst a) -> all12 (fst b)).
  { intros a b Hc. induction Hc as [a | a b c Hm Hc IH]; intros Ia Na; auto. apply IH; [exact (mv_y_inv _ _ _ _ _ Wd Wo Ia Hm) | exact (mv_y_all _ _ _ _ _ Wd Wo Ia Hm Na)]. }
  exact (X _ _ C (proj2 (inv_start p W)) A).
Qed.
Lemma call_all : forall orc c p p', run_call orc p c = Ok p' -> pool_wf p -> all12 p -> call_wf c -> all12 p'.
Proof.
  intros orc [u x y a b | u l a b | d o | d o] p p' H W A C; cbn [run_call call_wf] in *; bd H r E; destruct r as [q out]; injection H as <-.
  - destruct C as (C1 & C2 & C3 & C4). exact (deposit_12 _ _ _ _ _ _ _ _ E W A C1 C2 C3 C4).
  - destruct C as (C1 & C2 & C3). exact (withdraw_12 _ _ _ _ _ _ _ E W A C1 C2 C3).
  - exact (swap_x_12 _ _ _ _ _ _ W A (proj1 C) (proj2 C) E).
  - exact (swap_y_12 _ _ _ _ _ _ W A (proj1 C) (proj2 C) E).
Qed.
Theorem reachable_all12 : forall orc p, reachable orc p -> all12 p.
Proof.
  intros orc p H. induction H as [rp sp c rate p W1 W2 W3 Hs H | p c p' H IH C R].
  - destruct (pool_new_wf _ _ _ _ _ H W1 W2 W3 Hs) as (W & T & P & S & (R1 & R2 & R3 & R4 & R5 & R6) & L & _ & (G1 & G2 & G3 & G4) & _).
    pose proof zero_ok12. unfold all12, g_12, ticks_12, pos_12, pots_12. rewrite T, P, R1, R2, R3, R4, R5, R6. unfold glbl_liq in L. rewrite L. csplit; auto; try (intros ? ? []).
    intros k; destruct k; cbn [g_fee]; rewrite ?G1, ?G2, ?G3, ?G4; auto.
  - exact (call_all _ _ _ _ R (proj1 (reachable_ticks _ _ H)) IH C).
Qed.

(** ** When operations succeed *)
Lemma add_Ok : forall a b, wf a -> wf b -> dscale a = dscale b -> - U128 < mant a + mant b < U128 -> exists c, d_add a b = Ok c /\ wf c /\ dscale c = dscale a /\ mant c = mant a + mant b.
Proof.
  intros a b Wa Wb S B. pose proof (add_spec _ _ Wa Wb) as X. destruct (d_add a b) as [c | | |] eqn:E; [| destruct X; congruence | destruct X; unfold U128 in *; lia | contradiction].
  exists c. destruct (add_m _ _ _ E) as (M & _). tauto.
Qed.
Lemma sub_Ok : forall a b, wf a -> wf b -> dscale a = dscale b -> - U128 < mant a - mant b < U128 -> exists c, d_sub a b = Ok c /\ wf c /\ dscale c = dscale a /\ mant c = mant a - mant b.
Proof.
  intros a b Wa Wb S B. pose proof (sub_spec _ _ Wa Wb) as X. destruct (d_sub a b) as [c | | |] eqn:E; [| destruct X; congruence | destruct X; unfold U128 in *; lia | contradiction].
  exists c. destruct (sub_m _ _ _ E) as (M & _). tauto.
Qed.
Lemma mant_bound : forall d, wf d -> - U128 < mant d < U128.
Proof. intros d [W _]. unfold mant, U128. destruct (dneg d); lia. Qed.
Lemma mant_inj : forall a b, wf a -> wf b -> ok12 a -> ok12 b -> mant a = mant b -> a = b.
Proof.
  intros [va sa na] [vb sb nb] Wa Wb [Sa Ca] [Sb Cb] M. apply wf_nn in Wa, Wb. unfold mant, canonical in *. cbn in *. subst. destruct na, nb; f_equal; try lia; try (specialize (Ca eq_refl)); try (specialize (Cb eq_refl)); lia.
Qed.
Lemma num_mant12 : forall a, dscale a = 12 -> (num a == inject_Z (mant a) * ulp12)%Q.
Proof. intros d S. unfold num. rewrite S. reflexivity. Qed.
Lemma nn_m : forall a, wf a -> (0 <= num a)%Q -> 0 <= mant a. Proof. intros; apply num_sign; auto. Qed.

(** The growth inside a range can be computed exactly if it is not negative. *)
Lemma fee_ba_Ok : forall orc p t k, reachable orc p -> exists b a, fee_below_above p t k = Ok (b, a) /\ wf a /\ wf b /\ ok12 a /\ ok12 b /\ 0 <= mant a /\ 0 <= mant b /\ mant a + mant b = mant (g_fee (gs p) k).
Proof.
  intros orc p t k R. pose proof (reachable_nn _ _ R) as (W & _ & G & T & _). pose proof (reachable_all12 _ _ R) as A.
  assert (Wg : wf (g_fee (gs p) k)) by (destruct W as (_ & (W1 & W2 & W3 & W4 & W5 & W6 & W7) & _); destruct k; auto).
  assert (X : exists b a, fee_below_above p t k = Ok (b, a) /\ 0 <= mant a /\ 0 <= mant b /\ mant a + mant b = mant (g_fee (gs p) k)).
  { unfold fee_below_above. pose proof (nn_m _ Wg (G k)) as Ng. destruct (tm_get t (ticks p)) as [ts |] eqn:E.
    - apply tm_get_in in E. destruct A as ((_ & G2) & T2 & _). destruct (T2 _ _ E) as (_ & _ & T3).
      assert (Wt : wf (t_fee ts k)). { destruct W as (_ & _ & (_ & Wt) & _). destruct (Wt _ _ E) as (_ & _ & _ & W3 & W4 & W5 & W6). destruct k; auto. }
      destruct (T _ _ E k) as [Q1 Q2]. apply nn_m in Q1; auto. apply num_le in Q2; auto; [| rewrite (proj1 (T3 k)), (proj1 (G2 k)); auto].
      pose proof (mant_bound _ Wg). pose proof (mant_bound _ Wt).
      destruct (sub_Ok (g_fee (gs p) k) (t_fee ts k) Wg Wt) as (r & E1 & _ & _ & M); [rewrite (proj1 (T3 k)), (proj1 (G2 k)); auto | lia |].
      rewrite E1. cbn [unwrap bind]. destruct (t <=? glbl_tick p); eexists; eexists; (split; [reflexivity |]); lia.
    - rewrite zero_eq. cbn [bind]. eexists; eexists. split; [reflexivity |]. unfold mant at 1 3. cbn. lia. }
  destruct X as (b & a & E & X). destruct (fee_ba_12 _ _ _ _ _ E W A) as ((W1 & W2) & X1 & X2). exists b, a. tauto.
Qed.
Theorem fee_rng_Ok : forall orc p lo up k, reachable orc p -> (0 <= inside p lo up k)%Q -> exists f, fee_rng p lo up k = Ok f.
Proof.
  intros orc p lo up k R H. destruct (fee_ba_Ok _ p lo k R) as (bl & al & E1 & A1 & A2 & A3 & A4 & A5 & A6 & A7). destruct (fee_ba_Ok _ p up k R) as (bu & au & E2 & B1 & B2 & B3 & B4 & B5 & B6 & B7).
  pose proof (fee_ba _ _ _ _ _ E1) as Q1. pose proof (fee_ba _ _ _ _ _ E2) as Q2. pose proof (reachable_nn _ _ R) as (W & _).
  assert (Wg : wf (g_fee (gs p) k)) by (destruct W as (_ & (W1 & W2 & W3 & W4 & W5 & W6 & W7) & _); destruct k; auto). pose proof (mant_bound _ Wg) as Bg.
  assert (Le : mant au <= mant al). { apply num_le; auto; [rewrite (proj1 A3), (proj1 B3); auto |]. unfold inside in H. lra. }
  unfold fee_rng. rewrite E1, E2. cbn [bind].
  destruct (add_Ok bl al A2 A1) as (sl & E3 & W3 & S3 & M3); [rewrite (proj1 A3), (proj1 A4); auto | lia |]. destruct (add_Ok bu au B2 B1) as (su & E4 & W4 & S4 & M4); [rewrite (proj1 B3), (proj1 B4); auto | lia |].
  rewrite E3, E4. cbn [unwrap bind]. assert (sl = su) as <- by (apply mant_inj; auto; [eapply add_12; eauto | eapply add_12; eauto | lia]).
  assert (d_struct_eqb sl sl = true) as -> by (unfold d_struct_eqb; rewrite !Z.eqb_refl, eqb_reflx; reflexivity). cbn [assert bind].
  destruct (sub_Ok sl bl W3 A2) as (x & E5 & W5 & S5 & M5); [congruence | lia |]. rewrite E5. cbn [unwrap bind].
  destruct (sub_Ok x au W5 B1) as (f & E6 & W6 & S6 & M6); [rewrite S5, S3, (proj1 A4), (proj1 B3); auto | lia |]. rewrite E6. cbn [unwrap bind].
  assert (is_negative f = false) as -> by (apply is_neg_f; [apply wf_nn; auto | lia]). eauto.
Qed.
Theorem fee_rng_fails : forall p lo up k f, fee_rng p lo up k = Ok f -> pool_wf p -> (0 <= inside p lo up k)%Q.
Proof. intros p lo up k f H W. rewrite <- (fee_rng_inside _ _ _ _ _ H). apply notneg_q; [eapply fee_rng_wf; eauto |]. unfold fee_rng in H. bd H r1 E1. destruct r1. bd H r2 E2. destruct r2. bd H a E3. bd H b E4. bd H c E5. bd H e E6. bd H g E7. destruct (is_negative g) eqn:N; [discriminate H |]. injection H as <-. auto. Qed.
