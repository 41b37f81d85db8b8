(** Deposits and withdrawals on reachable pools: exact accounting, frame conditions, round trips, fees. *)
From Coq Require Import ZArith QArith List Bool Lia Lqa String Sorted.
From Verif Require Import Base BaseLemmas DecimalModel DecimalSpec DecimalProofs PowProofs WfProofs MathModel MathProofs TickProofs TickLoop PoolModel PoolWf SwapLoop SwapProofs LpProofs PoolInv PoolNonneg.
Import ListNotations.
Open Scope Z_scope.

(** Liquidity the pool records for a position (zero if there is none). *)
Definition liq_of (p : pool) (k : pkey) : Q := match pm_get k (positions p) with Some q => num (p_liq q) | None => 0%Q end.
(** [lower, upper]: the tick range that root prices [rpa], [rpb] stand for in this pool. *)
Definition range_of (p : pool) (rpa rpb : decimal) (lower upper : Z) : Prop :=
  rp_to_possible_tk rpa (spacing p) false 0 = Ok lower /\ rp_to_possible_tk rpb (spacing p) false lower = Ok upper /\
  0 <= lower < upper /\ lower mod spacing p = 0 /\ upper mod spacing p = 0.
(** Exactly [d] liquidity was added to position [k] (and so to its two ticks, and to the liquidity in range if the range
    contains the current tick). *)
Definition liquidity_added (p p' : pool) (user : string) (lower upper : Z) (d : Q) : Prop :=
  (liq_of p' (user, lower, upper) == liq_of p (user, lower, upper) + d /\
   (forall k, k <> (user, lower, upper) -> pm_get k (positions p') = pm_get k (positions p)) /\
   (forall t, tick_gross p' t == tick_gross p t + (is_b (lower =? t) + is_b (upper =? t)) * d /\
              tick_net p' t == tick_net p t + (is_b (lower =? t) - is_b (upper =? t)) * d) /\
   num (glbl_liq p') == num (glbl_liq p) + is_b ((lower <=? glbl_tick p) && (glbl_tick p <? upper)) * d /\
   glbl_tick p' = glbl_tick p /\ glbl_rp p' = glbl_rp p /\ spacing p' = spacing p)%Q.

Lemma range_ok : forall p rpa rpb lo up, 0 <= spacing p -> wf rpa -> wf rpb -> rp_to_possible_tk rpa (spacing p) false 0 = Ok lo -> rp_to_possible_tk rpb (spacing p) false lo = Ok up -> lo < up ->
  range_of p rpa rpb lo up.
Proof.
  intros p rpa rpb lo up Ws Wa Wb D1 D2 L. destruct (rtp_nn _ _ _ _ Wa Ws (Z.le_refl 0) D1) as (L1 & M1 & _). destruct (rtp_nn _ _ _ _ Wb Ws L1 D2) as (L2 & M2 & _).
  unfold range_of. csplit; auto.
Qed.
Lemma pos_upd_other : forall key d nf m m' base old k, pos_upd key d nf m m' base old -> k <> key -> pm_get k m' = pm_get k m.
Proof.
  intros key d nf m m' base old k H N. unfold pos_upd in H. destruct (pm_get key m) as [q |] eqn:G.
  - destruct H as (nl & _ & _ & _ & -> & _). destruct (is_zero nl); [apply pm_get_del_other; auto |]. destruct nf as [[[a b] c] e]. apply pm_get_set_other; auto.
  - destruct H as (_ & -> & _). apply pm_get_set_other; auto.
Qed.
Lemma pos_upd_own : forall key d nf m m' base old, pos_upd key d nf m m' base old -> NoDup (map fst m) ->
  match pm_get key m with
  | None => pm_get key m' = Some (mkP d zero12 zero12 zero12 zero12)
  | Some q => exists nl, d_add (p_liq q) d = Ok nl /\ is_negative nl = false /\
      pm_get key m' = if is_zero nl then None else let '(a, b, c, e) := nf in Some (mkP nl a b c e)
  end.
Proof.
  intros key d nf m m' base old H N. unfold pos_upd in H. destruct (pm_get key m) as [q |] eqn:G.
  - destruct H as (nl & _ & E & N1 & -> & _). exists nl. csplit; auto. destruct (is_zero nl); [apply pm_get_del_same; auto |]. destruct nf as [[[a b] c] e]. apply pm_get_set_same.
  - destruct H as (_ & -> & _). apply pm_get_set_same.
Qed.
Lemma set_pos_added : forall p u lo up d p' paid, set_pos p u lo up d p' paid -> tick_inv p -> wf d -> 0 <= lo < up -> lo mod spacing p = 0 -> up mod spacing p = 0 ->
  liquidity_added p p' u lo up (num d) /\
  match pm_get (u, lo, up) (positions p) with
  | None => pm_get (u, lo, up) (positions p') <> None /\ (0 <= num d)%Q
  | Some q => (pm_get (u, lo, up) (positions p') = None <-> (num (p_liq q) + num d == 0)%Q) /\ (0 <= num (p_liq q) + num d)%Q
  end.
Proof.
  intros p u lo up d p' paid H I Wd B1 B2 B3. pose proof (set_pos_inv _ _ _ _ _ _ _ H I Wd B1 B2 B3) as I'. pose proof I as (W & _ & _ & S & _). pose proof I' as (W' & _ & _ & S' & _).
  pose proof (set_pos_same _ _ _ _ _ _ _ H) as (E1 & _ & E2 & E3 & _).
  destruct H as (nfx & nfy & nhx & nhy & pos' & base & ofx & ofy & ohx & ohy & m1 & m2 & L & R1 & R2 & R3 & R4 & P & _ & T1 & T2 & G & ->). cbn [positions].
  pose proof W as (_ & _ & _ & (Nd & Wp) & _). pose proof (pos_upd_own _ _ _ _ _ _ _ P Nd) as O.
  assert (Wq : forall q, pm_get (u, lo, up) (positions p) = Some q -> wf (p_liq q)). { intros q Q. apply pm_get_in in Q. apply Wp in Q. apply Q. }
  split; [unfold liquidity_added; cbn [positions]; csplit; auto |].
  - unfold liq_of. cbn [positions]. destruct (pm_get (u, lo, up) (positions p)) as [q |]; [| rewrite O; cbn [p_liq]; ring].
    destruct O as (nl & A & Nn & ->). apply add_q in A. destruct (is_zero nl) eqn:Zn; [apply num_zero_m in Zn; lra | cbn [p_liq]; exact A].
  - intros k Hk. eapply pos_upd_other; eauto.
  - intros t. destruct (S t) as [S1 S2]. destruct (S' t) as [S1' S2']. rewrite S1, S1', S2, S2'. unfold gross_at, net_at. cbn [positions]. rewrite !(pos_upd_sum _ _ _ _ _ _ _ _ P). split; reflexivity.
  - unfold glbl_liq at 1. cbn. destruct (_ && _); [destruct G as [G _]; apply add_q in G; rewrite G; cbn; ring | subst L; cbn; ring].
  - destruct (pm_get (u, lo, up) (positions p)) as [q |] eqn:Q.
    + destruct O as (nl & A & Nn & ->). assert (Wn : wf nl) by (eapply add_wf; eauto). apply notneg_q in Nn; auto. apply add_q in A. rewrite <- A. split; auto. destruct (is_zero nl) eqn:Zn.
      * apply num_zero_m in Zn. tauto.
      * split; [destruct nhy; discriminate |]. intros E. apply num_sign in E; auto. apply is_zero_m in E. congruence.
    + rewrite O. split; [discriminate |]. unfold pos_upd in P. rewrite Q in P. destruct P as (P & _). apply notneg_q; auto.
Qed.
Lemma funds_added : forall p p' u lo up d a b c e f g, liquidity_added p p' u lo up d -> liquidity_added p (with_funds p' a b c e f g) u lo up d.
Proof. intros p p' u lo up d a b c e f g H. exact H. Qed.

(** ** C29, C30 *)
Theorem deposit_exact : forall orc p user x y rpa rpb p' o, reachable orc p -> wf x -> wf y -> wf rpa -> wf rpb ->
  deposit p user x y rpa rpb = Ok (p', o) ->
  exists lower upper, range_of p rpa rpb lower upper /\ (0 <= num (io_liq o))%Q /\
    liquidity_added p p' user lower upper (num (io_liq o)) /\
    (num (rx p') == num (rx p) + num (io_x o) /\ num (ry p') == num (ry p) + num (io_y o))%Q /\
    (0 <= num (io_x o) <= num x /\ 0 <= num (io_y o) <= num y)%Q /\
    (num (x_fee p') == num (x_fee p) - num (io_fx o) /\ num (y_fee p') == num (y_fee p) - num (io_fy o) /\
     num (x_adj p') == num (x_adj p) - num (io_hx o) /\ num (y_adj p') == num (y_adj p) - num (io_hy o))%Q /\
    (num (io_netx o) == num (io_x o) - num (io_fx o) - num (io_hx o) /\ num (io_nety o) == num (io_y o) - num (io_fy o) - num (io_hy o))%Q.
Proof.
  intros orc p user x y rpa rpb p' o R Wx Wy Wa Wb H. pose proof (reachable_ticks _ _ R) as I. pose proof (reachable_nn _ _ R) as N. pose proof (proj1 I) as W. pose proof (proj1 W) as Ws.
  destruct (deposit_wf _ _ _ _ _ _ _ _ H W Wx Wy Wa Wb) as [W' (V1 & V2 & V3 & _)]. destruct (deposit_nn _ _ _ _ _ _ _ _ H N Wx Wy Wa Wb) as (_ & _ & Nl & Nx & Ny & _).
  destruct (deposit_inv _ _ _ _ _ _ _ _ H) as (lo & up & a & b & p1 & nx & ny & nxf & nxa & nyf & nya & D1 & D2 & D3 & _ & _ & _ & _ & D8 & D9 & D10 & D11 & D12 & (xd0 & yd0 & D13 & D14 & D15 & D16) & _ & D18 & D19 & D20 & D21 & D22 & D23 & _ & _ & ->).
  pose proof (range_ok _ _ _ _ _ Ws Wa Wb D1 D2 D3) as Rg. pose proof Rg as (_ & _ & B1 & B2 & B3). apply set_position_inv in D12. pose proof (set_pos_same _ _ _ _ _ _ _ D12) as (_ & _ & _ & _ & X1 & X2 & X3 & X4 & X5 & X6).
  destruct (set_pos_added _ _ _ _ _ _ _ D12 I V1 B1 B2 B3) as [A _]. exists lo, up. 
  apply sub_q in D13, D14, D15, D16, D20, D21, D22, D23. apply add_q in D18, D19. rewrite gt_lt in D9, D11. apply lt_false_q in D9, D11; auto. cbn [with_funds rx ry x_fee y_fee x_adj y_adj].
  rewrite <- X1, <- X2, <- X3, <- X4, <- X5, <- X6. csplit; auto; try lra. all: apply (funds_added _ _ _ _ _ _ _ _ _ _ _ _ A).
Qed.
Theorem withdraw_exact : forall orc p user liq rpa rpb p' o, reachable orc p -> wf liq -> wf rpa -> wf rpb ->
  withdraw p user liq rpa rpb = Ok (p', o) ->
  exists lower upper, range_of p rpa rpb lower upper /\ (0 <= num liq /\ num liq <= liq_of p (user, lower, upper))%Q /\
    liquidity_added p p' user lower upper (- num liq) /\
    (pm_get (user, lower, upper) (positions p) <> None -> (pm_get (user, lower, upper) (positions p') = None <-> (num liq == liq_of p (user, lower, upper))%Q)) /\
    (num (rx p') == num (rx p) - num (io_x o) /\ num (ry p') == num (ry p) - num (io_y o))%Q /\
    (0 <= num (io_x o) /\ 0 <= num (io_y o))%Q /\
    (num (x_fee p') == num (x_fee p) - num (io_fx o) /\ num (y_fee p') == num (y_fee p) - num (io_fy o) /\
     num (x_adj p') == num (x_adj p) - num (io_hx o) /\ num (y_adj p') == num (y_adj p) - num (io_hy o))%Q /\
    (num (io_netx o) == num (io_x o) + num (io_fx o) + num (io_hx o) /\ num (io_nety o) == num (io_y o) + num (io_fy o) + num (io_hy o))%Q.
Proof.
  intros orc p user liq rpa rpb p' o R Wl Wa Wb H. pose proof (reachable_ticks _ _ R) as I. pose proof (reachable_nn _ _ R) as N. pose proof (proj1 I) as W. pose proof (proj1 W) as Ws.
  destruct (withdraw_wf _ _ _ _ _ _ _ H W Wl Wa Wb) as [W' (V1 & V2 & V3 & _)]. destruct (withdraw_nn _ _ _ _ _ _ _ H N Wl Wa Wb) as (_ & _ & Nl & Nx & Ny & _).
  destruct (withdraw_inv _ _ _ _ _ _ _ H) as (lo & up & a & b & p1 & x0 & y0 & nx & ny & nxf & nxa & nyf & nya & D1 & D2 & D3 & _ & _ & _ & D7 & D8 & _ & _ & _ & _ & (xd0 & yd0 & D13 & D14 & D15 & D16) & _ & _ & D18 & D19 & D20 & D21 & D22 & D23 & ->).
  rewrite D7 in Nl. pose proof (range_ok _ _ _ _ _ Ws Wa Wb D1 D2 D3) as Rg. pose proof Rg as (_ & _ & B1 & B2 & B3). apply set_position_inv in D8. pose proof (set_pos_same _ _ _ _ _ _ _ D8) as (_ & _ & _ & _ & X1 & X2 & X3 & X4 & X5 & X6).
  destruct (set_pos_added _ _ _ _ _ _ _ D8 I (neg_wf _ Wl) B1 B2 B3) as [A Ap]. pose proof (num_neg _ Wl) as Ng. exists lo, up. 
  apply add_q in D13, D14, D15, D16. apply sub_q in D18, D19, D20, D21, D22, D23. cbn [with_funds rx ry x_fee y_fee x_adj y_adj].
  rewrite <- X1, <- X2, <- X3, <- X4, <- X5, <- X6. split; auto.
  assert (A' : liquidity_added p p1 user lo up (- num liq)).
  { destruct A as (A1 & A2 & A3 & A4 & A5). rewrite Ng in A1, A4. split; [exact A1 |]. split; [exact A2 |]. split; [| split; [exact A4 | exact A5]]. intros t. destruct (A3 t) as [A6 A7]. rewrite Ng in A6, A7. auto. }
  split; [| split; [apply (funds_added _ _ _ _ _ _ _ _ _ _ _ _ A') |]].
  - split; auto. unfold liq_of. destruct (pm_get (user, lo, up) (positions p)) as [q |]; [destruct Ap as [_ Ap] | destruct Ap as [_ Ap]]; rewrite Ng in Ap; lra.
  - split; [| csplit; auto; lra]. intros Nn. unfold liq_of. destruct (pm_get (user, lo, up) (positions p)) as [q |]; [| congruence]. destruct Ap as [Ap _]. cbn [positions with_funds].
    rewrite Ap. rewrite Ng. split; intros E; lra.
Qed.

(** ** Amounts are always at scale 12 *)
Definition at12 (p : pool) : Prop := dscale (rx p) = 12 /\ dscale (ry p) = 12 /\ dscale (x_adj p) = 12 /\ dscale (y_adj p) = 12 /\ dscale (x_fee p) = 12 /\ dscale (y_fee p) = 12.
Ltac scs := repeat match goal with
  | H : d_add ?a ?b = Ok ?c |- _ => apply add_m in H; destruct H as (_ & ? & _)
  | H : d_sub ?a ?b = Ok ?c |- _ => apply sub_m in H; destruct H as (_ & ? & _)
  end.
Lemma mv_x_12 : forall orc dx ro a b, mv_x orc dx ro a b -> at12 (fst a) -> at12 (fst b).
Proof.
  intros orc dx ro a b M (A1 & A2 & A3 & A4 & A5 & A6). inversion M as [p s tk rp p' H1 H2 H3 H4 H5 | p s f gtk p' s' H1 H2 H3 H4 H5]; subst; unfold at12; cbn [fst snd] in *.
  - destruct (cross_funds _ _ _ _ H5) as (-> & -> & -> & -> & -> & ->). cbn. csplit; auto.
  - destruct (step_x_inv _ _ _ _ _ _ _ _ H5) as (rest & w & p1 & E1 & E2 & E3 & E4 & E5). destruct (after_funds _ _ _ _ _ E5) as (-> & -> & -> & -> & -> & ->).
    destruct E3 as (nx & y1 & ny & nya & nxf & fx & hy & M1 & M2 & M3 & M4 & M5 & M6 & M7 & ->). cbn. scs. csplit; congruence.
Qed.
Lemma mv_y_12 : forall orc dx ro a b, mv_y orc dx ro a b -> at12 (fst a) -> at12 (fst b).
Proof.
  intros orc dx ro a b M (A1 & A2 & A3 & A4 & A5 & A6). inversion M as [p s tk rp p' H1 H2 H3 H4 H5 | p s gtk p' s' H1 H2 H3 H4 H5]; subst; unfold at12; cbn [fst snd] in *.
  - destruct (cross_funds _ _ _ _ H5) as (-> & -> & -> & -> & -> & ->). cbn. csplit; auto.
  - destruct (step_y_inv _ _ _ _ _ _ _ _ H5) as (rest & w & p1 & E1 & E2 & E3 & E4 & E5). destruct (after_funds _ _ _ _ _ E5) as (-> & -> & -> & -> & -> & ->).
    destruct E3 as (nx & y1 & ny & nya & nxf & fx & hy & M1 & M2 & M3 & M4 & M5 & M6 & M7 & ->). cbn. scs. csplit; congruence.
Qed.
Lemma call_12 : forall orc c p p', run_call orc p c = Ok p' -> pool_wf p -> call_wf c -> at12 p -> at12 p'.
Proof.
  intros orc [u x y a b | u l a b | d o | d o] p p' H W C A; cbn [run_call call_wf] in *; bd H r E; destruct r as [q out]; injection H as <-.
  - destruct (deposit_inv _ _ _ _ _ _ _ _ E) as (lo & up & ra & rb & p1 & nx & ny & nxf & nxa & nyf & nya & _ & _ & _ & _ & _ & _ & _ & _ & _ & _ & _ & D12 & _ & _ & D18 & D19 & D20 & D21 & D22 & D23 & _ & _ & ->).
    apply set_position_inv in D12. destruct (set_pos_same _ _ _ _ _ _ _ D12) as (_ & _ & _ & _ & X1 & X2 & X3 & X4 & X5 & X6). destruct A as (A1 & A2 & A3 & A4 & A5 & A6). scs. unfold at12. cbn. csplit; congruence.
  - destruct (withdraw_inv _ _ _ _ _ _ _ E) as (lo & up & ra & rb & p1 & x0 & y0 & nx & ny & nxf & nxa & nyf & nya & _ & _ & _ & _ & _ & _ & _ & D8 & _ & _ & _ & _ & _ & _ & _ & D18 & D19 & D20 & D21 & D22 & D23 & ->).
    apply set_position_inv in D8. destruct (set_pos_same _ _ _ _ _ _ _ D8) as (_ & _ & _ & _ & X1 & X2 & X3 & X4 & X5 & X6). destruct A as (A1 & A2 & A3 & A4 & A5 & A6). scs. unfold at12. cbn. csplit; congruence.
  - destruct C as [Wd Wo]. destruct (swap_x_chain _ _ _ _ _ _ E W Wd Wo) as (_ & s' & Ch & _). exact (chain_inv _ _ (fun c => at12 (fst c)) (fun a b Ha Hm => mv_x_12 _ _ _ _ _ Hm Ha) _ _ Ch A).
  - destruct C as [Wd Wo]. destruct (swap_y_chain _ _ _ _ _ _ E W Wd Wo) as (_ & s' & Ch & _). exact (chain_inv _ _ (fun c => at12 (fst c)) (fun a b Ha Hm => mv_y_12 _ _ _ _ _ Hm Ha) _ _ Ch A).
Qed.
Lemma reachable_12 : forall orc p, reachable orc p -> at12 p.
Proof.
  intros orc p H. induction H as [rp sp c rate p W1 W2 W3 Hs H | p c p' H IH C R].
  - destruct (pool_new_wf _ _ _ _ _ H W1 W2 W3 Hs) as (W & T & P & S & (R1 & R2 & R3 & R4 & R5 & R6) & _). unfold at12. rewrite R1, R2, R3, R4, R5, R6. csplit; auto.
  - exact (call_12 _ _ _ _ R (proj1 (reachable_ticks _ _ H)) C IH).
Qed.

(** ** C33: round trips *)
Lemma x_from_scale : forall l rp a b x, x_from_l_rp_rng l rp a b = Ok x -> dscale x = dscale l /\ (dval l = 0 -> dval x = 0).
Proof.
  intros l rp a b x H. unfold x_from_l_rp_rng in H. destruct (_ || _); [discriminate |]. bd H c E. bd H w E1. bd H m E2. bd H n E3.
  unfold d_div in H. bd H q E4. bd H v E5. bd H u E6. injection H as <-. apply cmul_ok in E5. apply cdiv_ok in E6. destruct E5 as [-> _]. destruct E6 as [-> Nz].
  unfold d_mul in E3. bd E3 v E7. bd E3 r E8. bd E3 u E9. injection E3 as <-. apply cmul_ok in E7. apply cdiv_ok in E9. destruct E7 as [-> _]. destruct E9 as [-> Nz']. cbn. split; auto. intros ->. cbn. reflexivity.
Qed.
Lemma y_from_scale : forall l rp a b x, y_from_l_rp_rng l rp a b = Ok x -> dscale x = dscale l /\ (dval l = 0 -> dval x = 0).
Proof.
  intros l rp a b x H. unfold y_from_l_rp_rng in H. bd H c E. bd H w E1. destruct (is_negative w); [discriminate |].
  unfold d_mul in H. bd H v E7. bd H r E8. bd H u E9. injection H as <-. apply cmul_ok in E7. apply cdiv_ok in E9. destruct E7 as [-> _]. destruct E9 as [-> Nz']. cbn. split; auto. intros ->. cbn. reflexivity.
Qed.
(** The final deduction of a withdrawal: between 0 and one part in 10^12, then truncated. *)
Definition ulp12 : Q := 1 # 1000000000000.
Lemma cut_q : forall x z, wf x -> dscale x = 12 -> (0 <= num x)%Q -> d_mul x (mkD 999999999999 12 false) = Ok z ->
  (num z <= num x * (1 - ulp12) /\ num x * (1 - ulp12) < num z + ulp12 /\ 0 <= num z)%Q.
Proof.
  intros x z W S Hx H. pose proof (mul_spec x _ W adjc_wf) as Sp. rewrite H in Sp. destruct Sp as [S1 [S2 S3]]. pose proof adjc_wf as Wc. assert (Nc : (0 <= num (mkD 999999999999 12 false))%Q) by (vm_compute; discriminate).
  pose proof (mul_q _ _ _ H W Wc Hx Nc) as Nz. assert (E : (num (mkD 999999999999 12 false) == 1 - ulp12)%Q) by (vm_compute; reflexivity).
  assert (Pr : (0 <= num x * num (mkD 999999999999 12 false))%Q) by (apply Qmult_le_0_compat; auto). destruct (trunc_nonneg _ _ _ S3 Nz Pr) as [T1 T2]. rewrite E in T1, T2. rewrite S in T2. split; auto.
Qed.
Lemma le_val : forall a b, nonneg a -> nonneg b -> dscale a = dscale b -> (num a <= num b)%Q -> dval a <= dval b.
Proof. intros a b Ha Hb S H. apply num_le in H; [| apply Ha | auto]. unfold mant in H. rewrite (proj2 Ha), (proj2 Hb) in H. exact H. Qed.
Lemma zero_or_nonneg : forall d, wf d -> (0 <= num d)%Q -> nonneg d \/ dval d = 0.
Proof. intros d W H. destruct (dneg d) eqn:F; [right | left; split; auto]. apply mant_flag; auto. apply q_nn; auto. Qed.
Lemma num_val0 : forall d, dval d = 0 -> (num d == 0)%Q. Proof. exact num_zero. Qed.

(** Whoever withdraws, at an unchanged price, no more liquidity than a deposit granted gets no more than the deposit used. *)
Theorem withdraw_le_deposit : forall orc p q user user' x y l rpa rpb p' o q' o', reachable orc p -> reachable orc q ->
  wf x -> wf y -> wf rpa -> wf rpb -> wf l ->
  deposit p user x y rpa rpb = Ok (p', o) -> withdraw q user' l rpa rpb = Ok (q', o') ->
  glbl_rp q = glbl_rp p -> spacing q = spacing p -> (num l <= num (io_liq o))%Q ->
  (num (io_x o') <= num (io_x o) /\ num (io_y o') <= num (io_y o))%Q.
Proof.
  intros orc p q user user' x y l rpa rpb p' o q' o' R R' Wx Wy Wa Wb Wl H H' Er Es Hl.
  pose proof (reachable_nn _ _ R) as N. pose proof (reachable_nn _ _ R') as N'. pose proof (proj1 N) as W. pose proof (proj1 N') as W'. destruct (reachable_12 _ _ R) as (T1 & T2 & _). destruct (reachable_12 _ _ R') as (T1' & T2' & _).
  destruct (deposit_wf _ _ _ _ _ _ _ _ H W Wx Wy Wa Wb) as [_ (V1 & V2 & V3 & _)]. destruct (deposit_nn _ _ _ _ _ _ _ _ H N Wx Wy Wa Wb) as (_ & _ & Nl & Nx & Ny & _).
  destruct (withdraw_wf _ _ _ _ _ _ _ H' W' Wl Wa Wb) as [_ (V1' & V2' & V3' & _)]. destruct (withdraw_nn _ _ _ _ _ _ _ H' N' Wl Wa Wb) as (_ & _ & Nl' & _).
  destruct (deposit_inv _ _ _ _ _ _ _ _ H) as (lo & up & a & b & p1 & nx & ny & nxf & nxa & nyf & nya & D1 & D2 & D3 & D4 & D5 & _ & _ & D8 & _ & D10 & _ & D12 & _ & _ & D18 & D19 & _ & _ & _ & _ & _ & _ & _).
  destruct (withdraw_inv _ _ _ _ _ _ _ H') as (lo' & up' & a' & b' & q1 & x0 & y0 & nx' & ny' & nxf' & nxa' & nyf' & nya' & E1 & E2 & E3 & E4 & E5 & _ & E7 & E8 & E9 & E10 & E11 & E12 & _ & (E16 & E17) & _).
  rewrite E7 in Nl'. rewrite Es in E1, E2. rewrite E1 in D1. injection D1 as <-. rewrite E2 in D2. injection D2 as <-. rewrite E4 in D4. injection D4 as <-. rewrite E5 in D5. injection D5 as <-.
  apply set_position_inv in D12, E8. destruct (set_pos_same _ _ _ _ _ _ _ D12) as (_ & _ & _ & _ & X1 & X2 & _). destruct (set_pos_same _ _ _ _ _ _ _ E8) as (_ & _ & Y0 & _ & Y1 & Y2 & _).
  rewrite Y0, Er in E9, E10. pose proof (tick_nn _ _ E4) as [Na _]. pose proof (tick_nn _ _ E5) as [Nb _]. pose proof (proj1 W') as Ws'. rewrite Es in Ws'. destruct (rtp_nn _ _ _ _ Wa Ws' (Z.le_refl 0) E1) as (L1 & _ & _).
  pose proof (tick_lt _ _ _ _ L1 E3 E4 E5) as Lab. assert (Nr : nonneg (glbl_rp p)) by (apply price_nonneg; [auto | apply N]).
  pose proof (x_from_scale _ _ _ _ _ D8) as [Sx Zx]. pose proof (y_from_scale _ _ _ _ _ D10) as [Sy Zy]. pose proof (x_from_scale _ _ _ _ _ E9) as [Sx' Zx']. pose proof (y_from_scale _ _ _ _ _ E10) as [Sy' Zy'].
  assert (M1 : dscale (io_x o) = 12) by (apply add_m in D18; destruct D18 as (_ & _ & ->); congruence).
  assert (M2 : dscale x0 = 12). { assert (dscale (io_x o') = dscale x0) as <- by (unfold d_mul in E11; bd E11 v F1; bd E11 r F2; bd E11 u F3; injection E11 as <-; auto). rewrite Y1 in E16. assert (Wrq : wf (rx q)) by apply W'. destruct (lt_m _ _ _ (wf_nn _ Wrq) (wf_nn _ V2') E16) as [Eq _]. congruence. }
  assert (Sl : dscale l = dscale (io_liq o)) by congruence.
  assert (Wx0 : wf x0) by (eapply x_from_wf; [exact E9 | | | |]; auto; [apply Nr | apply Na | apply Nb]). assert (Wy0 : wf y0) by (eapply y_from_wf; [exact E10 | | | |]; auto; [apply Nr | apply Na | apply Nb]).
  assert (Nx0 : (0 <= num x0)%Q) by (eapply x_from_nn; [exact E9 | | | | | |]; auto; lra). assert (Ny0 : (0 <= num y0)%Q) by (eapply y_from_nn; [exact E10 | | | | |]; auto; [apply Nr | apply Na | apply Nb]).
  assert (X : (num x0 <= num (io_x o) /\ num y0 <= num (io_y o))%Q).
  { destruct (zero_or_nonneg _ Wl Nl') as [K | K].
    - destruct (zero_or_nonneg _ V1 Nl) as [K' | K'].
      + destruct (amounts_monotone _ _ _ _ _ K' K Nr Na Nb ltac:(lra) Sl Hl) as [A1 A2]. destruct (A1 _ D8) as (z & Z1 & Z2). destruct (A2 _ D10) as (z' & Z1' & Z2'). rewrite E9 in Z1. injection Z1 as <-. rewrite E10 in Z1'. injection Z1' as <-. auto.
      + pose proof (num_val0 _ K') as K0. assert (Kl : (num l == 0)%Q) by lra. apply num_sign in Kl; auto. assert (dval l = 0) as Kv by (unfold mant in Kl; destruct (dneg l); lia).
        rewrite (num_val0 _ (Zx' Kv)), (num_val0 _ (Zy' Kv)). auto.
    - rewrite (num_val0 _ (Zx' K)), (num_val0 _ (Zy' K)). auto. }
  destruct (cut_q _ _ Wx0 M2 Nx0 E11) as (C1 & _ & _). destruct (cut_q _ _ Wy0 ltac:(congruence) Ny0 E12) as (C2 & _ & _). assert (U : (0 < ulp12)%Q) by reflexivity. split; nra.
Qed.
(** Immediately withdrawing the granted liquidity returns the used amounts less at most one part and one unit in 10^12. *)
Theorem round_trip : forall orc p user x y rpa rpb p' o q' o', reachable orc p -> wf x -> wf y -> wf rpa -> wf rpb ->
  deposit p user x y rpa rpb = Ok (p', o) -> withdraw p' user (io_liq o) rpa rpb = Ok (q', o') ->
  (num (io_x o) * (1 - ulp12) - ulp12 < num (io_x o') /\ num (io_x o') <= num (io_x o))%Q /\
  (num (io_y o) * (1 - ulp12) - ulp12 < num (io_y o') /\ num (io_y o') <= num (io_y o))%Q.
Proof.
  intros orc p user x y rpa rpb p' o q' o' R Wx Wy Wa Wb H H'. pose proof (reachable_nn _ _ R) as N. pose proof (proj1 N) as W.
  destruct (deposit_wf _ _ _ _ _ _ _ _ H W Wx Wy Wa Wb) as [_ (V1 & V2 & V3 & _)]. destruct (deposit_nn _ _ _ _ _ _ _ _ H N Wx Wy Wa Wb) as (_ & _ & Nl & Nx & Ny & _). destruct (reachable_12 _ _ R) as (T1 & T2 & _).
  assert (Rc : run_call orc p (CDeposit user x y rpa rpb) = Ok p') by (cbn [run_call]; rewrite H; reflexivity).
  assert (R' : reachable orc p') by (eapply r_call; [exact R | | exact Rc]; cbn; auto).
  destruct (deposit_exact _ _ _ _ _ _ _ _ _ R Wx Wy Wa Wb H) as (lo0 & up0 & _ & _ & (_ & _ & _ & _ & Et & Er & Es) & _).
  destruct (withdraw_le_deposit _ _ _ _ _ _ _ _ _ _ _ _ _ _ R R' Wx Wy Wa Wb V1 H H' Er Es ltac:(lra)) as [A1 A2].
  destruct (deposit_inv _ _ _ _ _ _ _ _ H) as (lo & up & a & b & p1 & nx & ny & nxf & nxa & nyf & nya & D1 & D2 & D3 & D4 & D5 & _ & _ & D8 & _ & D10 & _ & D12 & _ & _ & D18 & D19 & _ & _ & _ & _ & _ & _ & _).
  destruct (withdraw_inv _ _ _ _ _ _ _ H') as (lo' & up' & a' & b' & q1 & x0 & y0 & nx' & ny' & nxf' & nxa' & nyf' & nya' & E1 & E2 & E3 & E4 & E5 & _ & E7 & E8 & E9 & E10 & E11 & E12 & _ & (E16 & E17) & _).
  rewrite Es in E1, E2. rewrite E1 in D1. injection D1 as <-. rewrite E2 in D2. injection D2 as <-. rewrite E4 in D4. injection D4 as <-. rewrite E5 in D5. injection D5 as <-.
  apply set_position_inv in D12, E8. destruct (set_pos_same _ _ _ _ _ _ _ D12) as (_ & _ & _ & _ & X1 & X2 & _). destruct (set_pos_same _ _ _ _ _ _ _ E8) as (_ & _ & Y0 & _).
  rewrite Y0, Er in E9, E10. rewrite E9 in D8. injection D8 as ->. rewrite E10 in D10. injection D10 as ->.
  assert (M1 : dscale (io_x o) = 12) by (apply add_m in D18; destruct D18 as (_ & _ & ->); congruence). assert (M2 : dscale (io_y o) = 12) by (apply add_m in D19; destruct D19 as (_ & _ & ->); congruence).
  destruct (cut_q _ _ V2 M1 Nx E11) as (C1 & C2 & _). destruct (cut_q _ _ V3 M2 Ny E12) as (C3 & C4 & _). csplit; auto; lra.
Qed.
