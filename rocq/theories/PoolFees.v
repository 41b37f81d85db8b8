(** What deposits and withdrawals pay out in fees and adjustments. *)
From Coq Require Import ZArith QArith List Bool Lia Lqa String Sorted.
From Verif Require Import Base BaseLemmas DecimalModel DecimalSpec DecimalProofs PowProofs WfProofs MathModel MathProofs TickProofs TickLoop PoolModel PoolWf SwapLoop SwapProofs LpProofs PoolInv PoolNonneg PoolLp.
Import ListNotations.
Open Scope Z_scope.

(** Growth of kind [k] per unit of liquidity recorded above tick [t], and inside a range, since the pool was created. *)
Definition above (p : pool) (t : Z) (k : fkind) : Q :=
  match tm_get t (ticks p) with
  | None => 0
  | Some ts => if t <=? glbl_tick p then num (g_fee (gs p) k) - num (t_fee ts k) else num (t_fee ts k)
  end%Q.
Definition inside (p : pool) (lo up : Z) (k : fkind) : Q := (above p lo k - above p up k)%Q.

Lemma fee_ba : forall p t k b a, fee_below_above p t k = Ok (b, a) -> (num a == above p t k)%Q.
Proof.
  intros p t k b a H. unfold fee_below_above, above in *. destruct (tm_get t (ticks p)) as [ts |].
  - bd H r E. apply sub_q in E. destruct (t <=? glbl_tick p); injection H as <- <-; [exact E | reflexivity].
  - rewrite zero_eq in H. cbn [bind] in H. injection H as <- <-. reflexivity.
Qed.
Lemma fee_rng_inside : forall p lo up k f, fee_rng p lo up k = Ok f -> (num f == inside p lo up k)%Q.
Proof.
  intros p lo up k f H. unfold fee_rng in H. bd H a E1. destruct a as [bl al]. bd H b E2. destruct b as [bu au]. bd H sl E3. bd H su E4. bd H u E5. bd H a E6. bd H f' E7. destruct (is_negative f'); [discriminate |]. injection H as <-.
  apply fee_ba in E1, E2. apply add_q in E3. apply sub_q in E6, E7. unfold inside. lra.
Qed.
(** Moving liquidity does not change the growth recorded above its bounds, as long as they stay in use. *)
Lemma tick_upd_fees : forall p t d up m m', tick_upd p t d up m m' -> tm_get t m' <> None -> StronglySorted Z.lt (map fst m) ->
  exists ts', tm_get t m' = Some ts' /\ forall k, t_fee ts' k = match tm_get t m with Some ts => t_fee ts k | None => if t <=? glbl_tick p then g_fee (gs p) k else zero12 end.
Proof.
  intros p t d up m m' (ts0 & n & g & T0 & E1 & E2 & N & ->) H S. destruct (is_zero g) eqn:Zg. { rewrite tm_get_del_same in H by auto. congruence. }
  rewrite tm_get_set_same. eexists. split; [reflexivity |]. intros k. destruct T0 as [-> | [-> ->]]; [destruct k; reflexivity |]. unfold fresh. destruct (t <=? glbl_tick p); destruct k; reflexivity.
Qed.
Lemma set_pos_above : forall p u lo up d p' paid t k, set_pos p u lo up d p' paid -> pool_wf p -> lo < up -> 0 <= lo -> wf d -> (t = lo \/ t = up) -> tm_get t (ticks p') <> None -> (above p' t k == above p t k)%Q.
Proof.
  intros p u lo up d p' paid t k (nfx & nfy & nhx & nhy & pos' & base & ofx & ofy & ohx & ohy & m1 & m2 & L & R1 & R2 & R3 & R4 & P & _ & T1 & T2 & _ & ->) W Lt Hl Wd Ht Hn. cbn [ticks] in Hn.
  pose proof W as (_ & _ & Wt & _). pose proof (tick_upd_wf _ _ _ _ _ _ T1 W Wt Wd Hl) as Wm1.
  assert (X : exists ts', tm_get t m2 = Some ts' /\ forall k, t_fee ts' k = match tm_get t (ticks p) with Some ts => t_fee ts k | None => if t <=? glbl_tick p then g_fee (gs p) k else zero12 end).
  { destruct Ht as [-> | ->].
    - rewrite (tick_upd_get _ _ _ _ _ _ lo T2) in Hn |- * by lia. exact (tick_upd_fees _ _ _ _ _ _ T1 Hn (proj1 Wt)).
    - pose proof (tick_upd_fees _ _ _ _ _ _ T2 Hn (proj1 Wm1)) as X. rewrite (tick_upd_get _ _ _ _ _ _ up T1) in X by lia. exact X. }
  destruct X as (ts' & X1 & X2). unfold above. cbn [ticks]. rewrite X1, X2. unfold glbl_tick at 1. cbn [gs g_tick].
  assert (G : g_fee (mkG L (glbl_rp p) (glbl_tick p) (g_fx (gs p)) (g_fy (gs p)) (g_hx (gs p)) (g_hy (gs p))) k = g_fee (gs p) k) by (destruct k; reflexivity). rewrite G.
  destruct (tm_get t (ticks p)); [reflexivity |]. destruct (t <=? glbl_tick p); [ring | reflexivity].
Qed.
Lemma weighted_ge : forall sp (w : Z -> Z -> Q) k q m, pos_ok sp m -> (forall k q, In (k, q) m -> p_wf q) -> (forall lo up, (0 <= w lo up)%Q) -> pm_get k m = Some q -> (kw w k * num (p_liq q) <= weighted w m)%Q.
Proof.
  intros sp w k q m H Hw Hp G. induction m as [| [a b] m IH]; cbn [pm_get] in G; [discriminate |].
  assert (P : forall k q, In (k, q) ((a, b) :: m) -> (0 <= kw w k * num (p_liq q))%Q).
  { intros [[u lo] up] r Hi. apply Qmult_le_0_compat; [apply Hp |]. destruct (H u lo up r Hi) as (_ & _ & _ & Hm). destruct (Hw _ _ Hi) as (Wq & _). apply nn_q; auto. }
  assert (N : (0 <= weighted w m)%Q).
  { clear IH G. assert (P' : forall k q, In (k, q) m -> (0 <= kw w k * num (p_liq q))%Q) by (intros; apply P; right; auto). clear P H Hw. induction m as [| [c d] m IH]; [cbn; lra |]. rewrite weighted_cons. pose proof (P' c d (or_introl eq_refl)). specialize (IH (fun x y Hi => P' x y (or_intror Hi))). lra. }
  rewrite weighted_cons. destruct (pkey_eqb k a) eqn:E.
  - apply pkey_eqb_eq in E. injection G as <-. subst a. lra.
  - pose proof (P a b (or_introl eq_refl)). assert (IH' : (kw w k * num (p_liq q) <= weighted w m)%Q); [| lra]. apply IH; auto.
    + intros x y z t Hi. apply (H x y z t). right; auto.
    + intros x y Hi. apply (Hw x y). right; auto.
Qed.
Lemma own_ticks : forall p u lo up q, tick_inv p -> pm_get (u, lo, up) (positions p) = Some q -> (0 < num (p_liq q))%Q -> tm_get lo (ticks p) <> None /\ tm_get up (ticks p) <> None.
Proof.
  intros p u lo up q (W & Sp & Po & I & _) G Hq. pose proof W as (_ & _ & _ & (_ & Wp) & _).
  assert (X : forall t, t = lo \/ t = up -> tm_get t (ticks p) <> None).
  { intros t Ht E. destruct (I t) as [I1 _]. unfold tick_gross in I1. rewrite E in I1.
    assert (B : forall a b : Z, (0 <= is_b (a =? t) + is_b (b =? t))%Q) by (intros a b; destruct (a =? t), (b =? t); cbn; lra).
    pose proof (weighted_ge _ (fun a b => is_b (a =? t) + is_b (b =? t))%Q _ _ _ Po Wp B G) as L. fold (gross_at p t) in L. rewrite <- I1 in L. cbn [kw] in L.
    assert (1 <= is_b (lo =? t) + is_b (up =? t))%Q. { destruct Ht as [-> | ->]; rewrite Z.eqb_refl; cbn; [destruct (up =? lo) | destruct (lo =? up)]; cbn; lra. } nra. }
  split; apply X; auto.
Qed.
Lemma mul_zero_q : forall a b c, d_mul a b = Ok c -> wf b -> (num b == 0)%Q -> (num c == 0)%Q.
Proof.
  intros a b c H W Z0. apply num_sign in Z0; auto. apply is_zero_m in Z0. unfold is_zero in Z0. b2p. unfold d_mul in H. bd H v E7. bd H r E8. bd H u E9. injection H as <-. apply cmul_ok in E7. apply cdiv_ok in E9. destruct E7 as [-> _]. destruct E9 as [-> Nz'].
  apply num_zero. cbn. rewrite Z0, Z.mul_0_r. reflexivity.
Qed.

(** ** C31, positive part: topping up an existing position and withdrawing at once pays no fees. *)
Theorem top_up_no_fees : forall orc p user x y l rpa rpb lower upper q0 p' o p2 o', reachable orc p -> wf x -> wf y -> wf l -> wf rpa -> wf rpb ->
  range_of p rpa rpb lower upper -> pm_get (user, lower, upper) (positions p) = Some q0 -> (0 < num (p_liq q0))%Q ->
  deposit p user x y rpa rpb = Ok (p', o) -> withdraw p' user l rpa rpb = Ok (p2, o') ->
  (num (io_fx o') == 0 /\ num (io_fy o') == 0 /\ num (io_hx o') == 0 /\ num (io_hy o') == 0)%Q.
Proof.
  intros orc p user x y l rpa rpb lo up q0 p' o p2 o' R Wx Wy Wl Wa Wb (Rg1 & Rg2 & Rg3 & Rg4 & Rg5) Hq Pq H H'.
  pose proof (reachable_ticks _ _ R) as I. pose proof (proj1 I) as W. pose proof (proj1 W) as Ws. pose proof (deposit_ticks _ _ _ _ _ _ _ _ H I Wx Wy Wa Wb) as I'. pose proof (proj1 I') as W'.
  destruct (deposit_wf _ _ _ _ _ _ _ _ H W Wx Wy Wa Wb) as [_ (V1 & _)]. destruct (deposit_nn _ _ _ _ _ _ _ _ H (reachable_nn _ _ R) Wx Wy Wa Wb) as (_ & _ & Nl & _).
  destruct (deposit_inv _ _ _ _ _ _ _ _ H) as (lo1 & up1 & a & b & p1 & nx & ny & nxf & nxa & nyf & nya & D1 & D2 & _ & _ & _ & _ & _ & _ & _ & _ & _ & D12 & _ & _ & _ & _ & _ & _ & _ & _ & _ & _ & E').
  rewrite Rg1 in D1. injection D1 as <-. rewrite Rg2 in D2. injection D2 as <-. apply set_position_inv in D12. pose proof (set_pos_same _ _ _ _ _ _ _ D12) as (Es & _).
  destruct (withdraw_inv _ _ _ _ _ _ _ H') as (lo2 & up2 & a' & b' & q1 & x0 & y0 & nx' & ny' & nxf' & nxa' & nyf' & nya' & E1 & E2 & _ & _ & _ & _ & _ & E8 & _).
  assert (Es' : spacing p' = spacing p) by (subst p'; exact Es). rewrite Es' in E1, E2. rewrite Rg1 in E1. injection E1 as <-. rewrite Rg2 in E2. injection E2 as <-. apply set_position_inv in E8.
  assert (Tk : ticks p' = ticks p1) by (subst p'; reflexivity). assert (Ps : positions p' = positions p1) by (subst p'; reflexivity).
  assert (Ab : forall t k, (above p' t k == above p1 t k)%Q) by (intros; subst p'; reflexivity).
  pose proof D12 as Dk. destruct Dk as (nfx & nfy & nhx & nhy & pos' & base & ofx & ofy & ohx & ohy & m1 & m2 & L & R1 & R2 & R3 & R4 & P & _ & _ & _ & _ & Ep1).
  pose proof W as (_ & _ & _ & (Nd & Wp) & _). pose proof (pos_upd_own _ _ _ _ _ _ _ P Nd) as O. rewrite Hq in O. destruct O as (nl & O1 & _ & O2).
  assert (Wq : wf (p_liq q0)) by (apply pm_get_in in Hq; apply Wp in Hq; apply Hq). assert (Wnl : wf nl) by (eapply add_wf; eauto).
  pose proof (add_q _ _ _ O1) as Oq. assert (Pn : (0 < num nl)%Q) by lra.
  assert (Zn : is_zero nl = false). { destruct (is_zero nl) eqn:Zn; auto. apply num_zero_m in Zn. lra. } rewrite Zn in O2. 
  assert (Gp : pm_get (user, lo, up) (positions p') = Some (mkP nl nfx nfy nhx nhy)) by (rewrite Ps; subst p1; exact O2).
  destruct (own_ticks _ _ _ _ _ I' Gp Pn) as [K1 K2]. rewrite Tk in K1, K2.
  assert (F : forall k, (inside p' lo up k == inside p lo up k)%Q).
  { intros k. unfold inside. rewrite !Ab. rewrite (set_pos_above _ _ _ _ _ _ _ lo k D12 W), (set_pos_above _ _ _ _ _ _ _ up k D12 W); auto; try lia. reflexivity. }
  destruct E8 as (mfx & mfy & mhx & mhy & pos2 & base2 & ox & oy & px & py & n1 & n2 & L2 & Q1 & Q2 & Q3 & Q4 & P2 & (F1 & F2 & F3 & F4) & _).
  unfold pos_upd in P2. rewrite Gp in P2. destruct P2 as (nl2 & _ & _ & _ & _ & -> & P2). injection P2 as -> -> -> ->. cbn [p_liq p_fx p_fy p_hx p_hy] in *.
  pose proof (fee_rng_wf _ _ _ _ _ R1 W). pose proof (fee_rng_wf _ _ _ _ _ R2 W). pose proof (fee_rng_wf _ _ _ _ _ R3 W). pose proof (fee_rng_wf _ _ _ _ _ R4 W).
  pose proof (fee_rng_wf _ _ _ _ _ Q1 W'). pose proof (fee_rng_wf _ _ _ _ _ Q2 W'). pose proof (fee_rng_wf _ _ _ _ _ Q3 W'). pose proof (fee_rng_wf _ _ _ _ _ Q4 W').
  apply fee_rng_inside in R1, R2, R3, R4, Q1, Q2, Q3, Q4. rewrite F in Q1, Q2, Q3, Q4.
  assert (Fz : forall m n f, wf m -> wf n -> (num m == num n)%Q -> fee_owed nl m n f -> (num f == 0)%Q).
  { intros m n f Wm Wn E (v & V & _ & M). eapply mul_zero_q; [exact M | eapply sub_wf; eauto |]. apply sub_q in V. lra. }
  assert (mfx = mfx) by auto. csplit; [eapply (Fz mfx nfx) | eapply (Fz mfy nfy) | eapply (Fz mhx nhx) | eapply (Fz mhy nhy)]; auto; lra.
Qed.

Lemma truncated_eq : forall s r e e', (e == e')%Q -> truncated s r e -> truncated s r e'.
Proof. intros s r e e' E (A & B & C). unfold truncated, same_sign in *. rewrite E in A, B. split; [exact A |]. split; [exact B |]. rewrite E in C. exact C. Qed.
(** ** A new position is paid as if it had been there from the start. *)
Definition paid_from_start (liq growth paid : Q) : Prop := truncated 12 paid (liq * growth).
Theorem new_position_fees : forall orc p user x y rpa rpb lower upper p' o p2 o', reachable orc p -> wf x -> wf y -> wf rpa -> wf rpb ->
  range_of p rpa rpb lower upper -> pm_get (user, lower, upper) (positions p) = None -> (0 < num (io_liq o))%Q ->
  deposit p user x y rpa rpb = Ok (p', o) -> withdraw p' user (io_liq o) rpa rpb = Ok (p2, o') ->
  (num (io_fx o) == 0 /\ num (io_fy o) == 0 /\ num (io_hx o) == 0 /\ num (io_hy o) == 0)%Q /\
  paid_from_start (num (io_liq o)) (inside p lower upper FX) (num (io_fx o')) /\ paid_from_start (num (io_liq o)) (inside p lower upper FY) (num (io_fy o')) /\
  paid_from_start (num (io_liq o)) (inside p lower upper HX) (num (io_hx o')) /\ paid_from_start (num (io_liq o)) (inside p lower upper HY) (num (io_hy o')).
Proof.
  intros orc p user x y rpa rpb lo up p' o p2 o' R Wx Wy Wa Wb (Rg1 & Rg2 & Rg3 & Rg4 & Rg5) Hq Pq H H'.
  pose proof (reachable_ticks _ _ R) as I. pose proof (proj1 I) as W. pose proof (proj1 W) as Ws. pose proof (deposit_ticks _ _ _ _ _ _ _ _ H I Wx Wy Wa Wb) as I'. pose proof (proj1 I') as W'.
  destruct (deposit_wf _ _ _ _ _ _ _ _ H W Wx Wy Wa Wb) as [_ (V1 & V2 & _)]. destruct (reachable_12 _ _ R) as (S12 & _).
  destruct (deposit_inv _ _ _ _ _ _ _ _ H) as (lo1 & up1 & a & b & p1 & nx & ny & nxf & nxa & nyf & nya & D1 & D2 & _ & _ & _ & _ & _ & D8 & _ & _ & _ & D12 & _ & _ & D18 & _ & _ & _ & _ & _ & _ & _ & E').
  rewrite Rg1 in D1. injection D1 as <-. rewrite Rg2 in D2. injection D2 as <-. apply set_position_inv in D12. pose proof (set_pos_same _ _ _ _ _ _ _ D12) as (Es & _ & _ & _ & X1 & _).
  assert (Sl : dscale (io_liq o) = 12). { destruct (x_from_scale _ _ _ _ _ D8) as [<- _]. apply add_m in D18. destruct D18 as (_ & _ & ->). congruence. }
  destruct (withdraw_inv _ _ _ _ _ _ _ H') as (lo2 & up2 & a' & b' & q1 & x0 & y0 & nx' & ny' & nxf' & nxa' & nyf' & nya' & E1 & E2 & _ & _ & _ & _ & _ & E8 & _).
  assert (Es' : spacing p' = spacing p) by (subst p'; exact Es). rewrite Es' in E1, E2. rewrite Rg1 in E1. injection E1 as <-. rewrite Rg2 in E2. injection E2 as <-. apply set_position_inv in E8.
  assert (Tk : ticks p' = ticks p1) by (subst p'; reflexivity). assert (Ps : positions p' = positions p1) by (subst p'; reflexivity).
  assert (Ab : forall t k, (above p' t k == above p1 t k)%Q) by (intros; subst p'; reflexivity).
  pose proof D12 as Dk. destruct Dk as (nfx & nfy & nhx & nhy & pos' & base & ofx & ofy & ohx & ohy & m1 & m2 & L & R1 & R2 & R3 & R4 & P & (Y1 & Y2 & Y3 & Y4) & _ & _ & _ & Ep1).
  pose proof W as (_ & _ & _ & (Nd & Wp) & _). pose proof (pos_upd_own _ _ _ _ _ _ _ P Nd) as O. rewrite Hq in O.
  assert (Gp : pm_get (user, lo, up) (positions p') = Some (mkP (io_liq o) zero12 zero12 zero12 zero12)) by (rewrite Ps; subst p1; exact O).
  destruct (own_ticks _ _ _ _ _ I' Gp Pq) as [K1 K2]. rewrite Tk in K1, K2.
  assert (F : forall k, (inside p' lo up k == inside p lo up k)%Q).
  { intros k. unfold inside. rewrite !Ab. rewrite (set_pos_above _ _ _ _ _ _ _ lo k D12 W), (set_pos_above _ _ _ _ _ _ _ up k D12 W); auto; try lia. reflexivity. }
  destruct E8 as (mfx & mfy & mhx & mhy & pos2 & base2 & ox & oy & px & py & n1 & n2 & L2 & Q1 & Q2 & Q3 & Q4 & P2 & (F1 & F2 & F3 & F4) & _).
  unfold pos_upd in P2. rewrite Gp in P2. destruct P2 as (nl2 & _ & _ & _ & _ & -> & P2). injection P2 as -> -> -> ->. cbn [p_liq p_fx p_fy p_hx p_hy] in *.
  pose proof (fee_rng_wf _ _ _ _ _ Q1 W'). pose proof (fee_rng_wf _ _ _ _ _ Q2 W'). pose proof (fee_rng_wf _ _ _ _ _ Q3 W'). pose proof (fee_rng_wf _ _ _ _ _ Q4 W').
  apply fee_rng_inside in Q1, Q2, Q3, Q4. rewrite F in Q1, Q2, Q3, Q4. pose proof zero12_wf as Wz.
  unfold pos_upd in P. rewrite Hq in P. destruct P as (_ & _ & -> & P4). injection P4 as -> -> -> ->.
  assert (Fz : forall m n f, fee_owed zero12 m n f -> (num f == 0)%Q).
  { intros m n f (v & _ & _ & M). unfold d_mul in M. bd M t T1. bd M r T2. bd M u T3. injection M as <-. apply cmul_ok in T1. apply cdiv_ok in T3. destruct T1 as [-> _]. destruct T3 as [-> _]. apply num_zero. reflexivity. }
  split; [csplit; [eapply Fz; exact Y1 | eapply Fz; exact Y2 | eapply Fz; exact Y3 | eapply Fz; exact Y4] |].
  assert (Ft : forall m g f, wf m -> (num m == g)%Q -> fee_owed (io_liq o) m zero12 f -> paid_from_start (num (io_liq o)) g (num f)).
  { intros m g f Wm E (v & V & _ & M). assert (Wv : wf v) by (eapply sub_wf; eauto). pose proof (mul_spec _ _ V1 Wv) as Sp. rewrite M in Sp. destruct Sp as (_ & _ & Sp). apply sub_q in V. rewrite Sl in Sp. unfold paid_from_start.
    assert (Eq : (num v == g)%Q) by (assert (Z0 : (num zero12 == 0)%Q) by reflexivity; lra). refine (truncated_eq _ _ _ _ _ Sp). rewrite Eq. reflexivity. }
  refine (conj _ (conj _ (conj _ _))); [exact (Ft mfx _ _ H0 Q1 F1) | exact (Ft mfy _ _ H1 Q2 F2) | exact (Ft mhx _ _ H2 Q3 F3) | exact (Ft mhy _ _ H3 Q4 F4)].
Qed.
(** In particular nothing is paid if the pool has never collected a fee or adjustment. *)
Theorem no_growth_no_fees : forall orc p, reachable orc p -> (forall k, (num (g_fee (gs p) k) == 0)%Q) -> forall lo up k, (inside p lo up k == 0)%Q.
Proof.
  intros orc p R G lo up k. destruct (reachable_nn _ _ R) as (_ & _ & _ & T & _). specialize (G k).
  assert (A : forall t, (above p t k == 0)%Q).
  { intros t. unfold above. destruct (tm_get t (ticks p)) as [ts |] eqn:E; [| reflexivity]. apply tm_get_in in E. specialize (T _ _ E k). destruct (t <=? glbl_tick p); lra. }
  unfold inside. rewrite !A. ring.
Qed.
