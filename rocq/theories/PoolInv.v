(** Invariants of reachable pools: tick records are sums over positions; nothing becomes negative. *)
From Coq Require Import ZArith QArith List Bool Lia Lqa String Sorted.
From Verif Require Import Base BaseLemmas DecimalModel DecimalSpec DecimalProofs PowProofs WfProofs MathModel MathProofs TickProofs TickLoop PoolModel PoolWf SwapLoop SwapProofs LpProofs.
Import ListNotations.
Open Scope Z_scope.

(** ** Sums over positions *)
(** Total liquidity of the positions, each weighted by [w lower upper]. *)
Fixpoint weighted (w : Z -> Z -> Q) (m : list (pkey * pstate)) : Q :=
  match m with
  | [] => 0
  | ((_, lo, up), q) :: r => w lo up * num (p_liq q) + weighted w r
  end%Q.
Definition is_b (b : bool) : Q := if b then 1%Q else 0%Q.
(** Positions bounded by [t]; those starting at [t] minus those ending at [t]; those whose range contains [t]. *)
Definition gross_at (p : pool) (t : Z) : Q := weighted (fun lo up => is_b (lo =? t) + is_b (up =? t))%Q (positions p).
Definition net_at (p : pool) (t : Z) : Q := weighted (fun lo up => is_b (lo =? t) - is_b (up =? t))%Q (positions p).
Definition covering (p : pool) (t : Z) : Q := weighted (fun lo up => is_b ((lo <=? t) && (t <? up))) (positions p).
(** What the tick map says (a tick not in the map counts as zero). *)
Definition tick_gross (p : pool) (t : Z) : Q := match tm_get t (ticks p) with Some ts => num (t_gross ts) | None => 0%Q end.
Definition tick_net (p : pool) (t : Z) : Q := match tm_get t (ticks p) with Some ts => num (t_net ts) | None => 0%Q end.

Definition kw (w : Z -> Z -> Q) (k : pkey) : Q := let '(_, lo, up) := k in w lo up.
Lemma weighted_cons : forall w k q m, (weighted w ((k, q) :: m) == kw w k * num (p_liq q) + weighted w m)%Q.
Proof. intros w [[u lo] up] q m. reflexivity. Qed.
Lemma weighted_set_new : forall w k v m, pm_get k m = None -> (weighted w (pm_set k v m) == weighted w m + kw w k * num (p_liq v))%Q.
Proof.
  induction m as [| [a b] m IH]; intros H. { cbn [pm_set]. rewrite weighted_cons. cbn. ring. }
  cbn [pm_get pm_set] in *. destruct (pkey_eqb k a); [discriminate |]. rewrite !weighted_cons, IH by auto. ring.
Qed.
Lemma weighted_set_old : forall w k v q m, pm_get k m = Some q -> (weighted w (pm_set k v m) == weighted w m + kw w k * (num (p_liq v) - num (p_liq q)))%Q.
Proof.
  induction m as [| [a b] m IH]; intros H; cbn [pm_get pm_set] in *; [discriminate |].
  destruct (pkey_eqb k a) eqn:E.
  - apply pkey_eqb_eq in E. injection H as <-. subst a. rewrite !weighted_cons. ring.
  - rewrite !weighted_cons, IH by auto. ring.
Qed.
Lemma weighted_del : forall w k q m, pm_get k m = Some q -> (weighted w (pm_del k m) == weighted w m - kw w k * num (p_liq q))%Q.
Proof.
  induction m as [| [a b] m IH]; intros H; cbn [pm_get pm_del] in *; [discriminate |].
  destruct (pkey_eqb k a) eqn:E.
  - apply pkey_eqb_eq in E. injection H as <-. subst a. rewrite !weighted_cons. ring.
  - rewrite !weighted_cons, IH by auto. ring.
Qed.
Lemma num_zero_m : forall d, is_zero d = true -> (num d == 0)%Q.
Proof. intros d H. apply num_zero. unfold is_zero in H. b2p. auto. Qed.
Lemma pos_upd_sum : forall w key d nf m m' base old, pos_upd key d nf m m' base old -> (weighted w m' == weighted w m + kw w key * num d)%Q.
Proof.
  intros w key d nf m m' base old H. unfold pos_upd in H. destruct (pm_get key m) as [q |] eqn:G.
  - destruct H as (nl & _ & E & _ & -> & _). apply add_q in E. destruct (is_zero nl) eqn:Zn.
    + rewrite (weighted_del _ _ _ _ G). apply num_zero_m in Zn. assert (Eq : (num (p_liq q) == - num d)%Q) by lra. rewrite Eq. ring.
    + destruct nf as [[[a b] c] e]. rewrite (weighted_set_old _ _ _ _ _ G). cbn [p_liq]. rewrite E. ring.
  - destruct H as (_ & -> & _). rewrite weighted_set_new by auto. cbn [p_liq]. reflexivity.
Qed.

(** Every position: a proper range on the grid, with non-negative liquidity. *)
Definition pos_ok (sp : Z) (m : list (pkey * pstate)) : Prop :=
  forall u lo up q, In ((u, lo, up), q) m -> 0 <= lo < up /\ lo mod sp = 0 /\ up mod sp = 0 /\ 0 <= mant (p_liq q).
Lemma weighted_le : forall sp (w w' : Z -> Z -> Q) m, pos_ok sp m -> (forall k q, In (k, q) m -> p_wf q) -> (forall lo up, (lo < up)%Z -> (w lo up <= w' lo up)%Q) -> (weighted w m <= weighted w' m)%Q.
Proof.
  intros sp w w' m H Hw L. induction m as [| [[[u lo] up] q] m IH]; [cbn; lra |]. cbn [weighted].
  assert (IH' : (weighted w m <= weighted w' m)%Q) by (apply IH; [intros a b c d Hi; eapply H; right; eauto | intros a b Hi; eapply Hw; right; eauto]).
  destruct (H u lo up q (or_introl eq_refl)) as (H1 & _ & _ & H2). pose proof (Hw _ _ (or_introl eq_refl)) as (Wq & _). apply num_sign in H2; auto.
  specialize (L lo up ltac:(lia)). assert ((w lo up * num (p_liq q) <= w' lo up * num (p_liq q))%Q) by (apply Qmult_le_compat_r; auto). lra.
Qed.
Lemma weighted_opp : forall w m, (weighted (fun a b => - w a b) m == - weighted w m)%Q.
Proof. intros w m. induction m as [| [[[u lo] up] q] m IH]; cbn [weighted]; [reflexivity |]. rewrite IH. ring. Qed.
Lemma weighted_zero : forall m, (weighted (fun _ _ => 0) m == 0)%Q.
Proof. induction m as [| [[[u lo] up] q] m IH]; cbn [weighted]; [reflexivity |]. rewrite IH. ring. Qed.

(** ** The tick invariant *)
Definition tick_inv (p : pool) : Prop :=
  pool_wf p /\ 0 < spacing p /\ pos_ok (spacing p) (positions p) /\
  (forall t, tick_gross p t == gross_at p t /\ tick_net p t == net_at p t)%Q /\
  (forall t ts, In (t, ts) (ticks p) -> 0 < mant (t_gross ts)).

Lemma pos_upd_ok : forall sp u lo up d nf m m' base old, pos_upd (u, lo, up) d nf m m' base old -> pos_ok sp m -> (forall k q, In (k, q) m -> p_wf q) -> wf d ->
  0 <= lo < up -> lo mod sp = 0 -> up mod sp = 0 -> pos_ok sp m'.
Proof.
  intros sp u lo up d nf m m' base old H Hm Hw Wd B1 B2 B3. unfold pos_upd in H. destruct (pm_get (u, lo, up) m) as [q |] eqn:G.
  - destruct H as (nl & _ & E & Nn & -> & _). apply pm_get_in in G. pose proof (Hw _ _ G) as (Wq & _). destruct (is_zero nl).
    + intros a b c e Hi. apply pm_del_in in Hi. eapply Hm; eauto.
    + destruct nf as [[[a b] c] e]. intros a' b' c' e' Hi. apply pm_set_in in Hi. destruct Hi as [[E1 E2] | Hi]; [| eapply Hm; eauto]. injection E1 as -> -> ->. subst e'. cbn [p_liq].
      csplit; auto; try lia. apply is_neg_f; auto. apply wf_nn. eapply add_wf; eauto.
  - destruct H as (Nn & -> & _). intros a' b' c' e' Hi. apply pm_set_in in Hi. destruct Hi as [[E1 E2] | Hi]; [| eapply Hm; eauto]. injection E1 as -> -> ->. subst e'. cbn [p_liq].
    csplit; auto; try lia. apply is_neg_f; auto. apply wf_nn; auto.
Qed.

Lemma wq : forall (b c : bool), (- (is_b b + is_b c) <= is_b b - is_b c /\ is_b b - is_b c <= is_b b + is_b c)%Q.
Proof. intros [] []; cbn; split; lra. Qed.
(** With non-negative position liquidity, a tick bounding no liquidity has no net liquidity. *)
Lemma net_zero : forall sp m t, pos_ok sp m -> (forall k q, In (k, q) m -> p_wf q) ->
  (weighted (fun lo up => is_b (lo =? t) + is_b (up =? t)) m == 0 -> weighted (fun lo up => is_b (lo =? t) - is_b (up =? t)) m == 0)%Q.
Proof.
  intros sp m t H Hw E.
  pose proof (weighted_le sp (fun lo up => is_b (lo =? t) - is_b (up =? t))%Q (fun lo up => is_b (lo =? t) + is_b (up =? t))%Q m H Hw (fun lo up _ => proj2 (wq _ _))) as A.
  pose proof (weighted_le sp (fun lo up => - (is_b (lo =? t) + is_b (up =? t)))%Q (fun lo up => is_b (lo =? t) - is_b (up =? t))%Q m H Hw (fun lo up _ => proj1 (wq _ _))) as B.
  rewrite (weighted_opp (fun lo up => is_b (lo =? t) + is_b (up =? t))%Q) in B. lra.
Qed.

Definition gross_of (m : list (Z * tstate)) (t : Z) : Q := match tm_get t m with Some ts => num (t_gross ts) | None => 0%Q end.
Definition net_of (m : list (Z * tstate)) (t : Z) : Q := match tm_get t m with Some ts => num (t_net ts) | None => 0%Q end.
Lemma num_neg : forall d, wf d -> (num (d_neg d) == - num d)%Q.
Proof. intros d W. unfold num. rewrite neg_scale, neg_m by (apply wf_nn; auto). rewrite inject_Z_opp. unfold Qdiv. ring. Qed.
Lemma tick_upd_sums : forall p t d up m m', tick_upd p t d up m m' -> wf d -> pool_wf p -> ticks_wf m ->
  (gross_of m' t == gross_of m t + num d)%Q /\ (~ gross_of m t + num d == 0 -> net_of m' t == net_of m t + (if up then - num d else num d))%Q /\ (gross_of m t + num d == 0 -> net_of m' t == 0)%Q.
Proof.
  intros p t d up m m' (ts0 & n & g & T0 & E1 & E2 & Nn & ->) Wd W Wm.
  assert (t_wf ts0) as (_ & T2 & _). { destruct T0 as [T0 | [_ ->]]; [| apply fresh_wf; auto]. apply tm_get_in in T0. apply Wm in T0. tauto. }
  assert (Wg : wf g) by (eapply add_wf; eauto). apply add_q in E1, E2. destruct Wm as [S _].
  assert (Nd : (num (if up then d_neg d else d) == (if up then - num d else num d))%Q) by (destruct up; [apply num_neg; auto | reflexivity]). rewrite Nd in E1.
  assert (G : (num (t_gross ts0) == gross_of m t /\ num (t_net ts0) == net_of m t)%Q).
  { unfold gross_of, net_of. destruct T0 as [-> | [-> ->]]; [split; reflexivity |]. unfold fresh. destruct (t <=? glbl_tick p); split; reflexivity. }
  destruct G as [G1 G2]. rewrite G1 in E2. rewrite G2 in E1. unfold gross_of at 1, net_of at 1 3. destruct (is_zero g) eqn:Zg.
  - apply num_zero_m in Zg. rewrite tm_get_del_same by auto. csplit; [lra | lra | reflexivity].
  - rewrite tm_get_set_same. cbn [t_gross t_net]. csplit; [exact E2 | intros _; exact E1 |]. intros H. rewrite H in E2. apply num_sign in E2; auto. apply is_zero_m in E2. congruence.
Qed.

Lemma set_pos_inv : forall p u lo up d p' paid, set_pos p u lo up d p' paid -> tick_inv p -> wf d -> 0 <= lo < up -> lo mod spacing p = 0 -> up mod spacing p = 0 -> tick_inv p'.
Proof.
  intros p u lo up d p' paid H (W & Sp & Po & I & G) Wd B1 B2 B3. pose proof (set_pos_wf _ _ _ _ _ _ _ H W Wd ltac:(lia) ltac:(lia)) as [W' _].
  destruct H as (nfx & nfy & nhx & nhy & pos' & base & ofx & ofy & ohx & ohy & m1 & m2 & L & R1 & R2 & R3 & R4 & P & _ & T1 & T2 & _ & ->).
  pose proof W as (_ & _ & Wt & (_ & Wp) & _). pose proof (pos_upd_ok _ _ _ _ _ _ _ _ _ _ P Po Wp Wd B1 B2 B3) as Po'.
  pose proof (tick_upd_wf _ _ _ _ _ _ T1 W Wt Wd ltac:(lia)) as Wm1. unfold tick_inv. cbn [spacing positions ticks]. csplit; auto.
  - pose proof W' as (_ & _ & _ & (_ & Wp') & _). cbn [positions] in Wp'.
    destruct (tick_upd_sums _ _ _ _ _ _ T1 Wd W Wt) as (S1 & S2 & S3). destruct (tick_upd_sums _ _ _ _ _ _ T2 Wd W Wm1) as (S4 & S5 & S6).
    unfold gross_at, net_at, tick_gross, tick_net in *. cbn [positions ticks]. intros t. fold (gross_of m2 t) (net_of m2 t).
    destruct (I t) as [I1 I2]. fold (gross_of (ticks p) t) in I1. fold (net_of (ticks p) t) in I2.
    pose proof (pos_upd_sum (fun a b => is_b (a =? t) + is_b (b =? t))%Q _ _ _ _ _ _ _ P) as Q1. pose proof (pos_upd_sum (fun a b => is_b (a =? t) - is_b (b =? t))%Q _ _ _ _ _ _ _ P) as Q2.
    pose proof (net_zero _ _ t Po' Wp') as Nz. rewrite Q1, Q2 in Nz. rewrite Q1, Q2. clear Q1 Q2. rewrite <- I1, <- I2 in *. clear I1 I2. cbn [kw] in *.
    destruct (Z.eq_dec t lo) as [-> | N1]; [| destruct (Z.eq_dec t up) as [-> | N2]].
    + assert (E : tm_get lo m2 = tm_get lo m1) by (eapply tick_upd_get; [exact T2 | lia]). assert (gross_of m2 lo = gross_of m1 lo /\ net_of m2 lo = net_of m1 lo) as [-> ->] by (unfold gross_of, net_of; rewrite E; auto).
      rewrite Z.eqb_refl in *. replace (up =? lo) with false in * by (symmetry; apply Z.eqb_neq; lia). cbn [is_b] in *. rewrite S1.
      destruct (Qeq_dec (gross_of (ticks p) lo + num d) 0) as [E0 | E0]; [rewrite (S3 E0) | rewrite (S2 E0)]; split; try ring. symmetry. apply Nz. etransitivity; [| exact E0]. ring.
    + assert (E : tm_get up m1 = tm_get up (ticks p)) by (eapply tick_upd_get; [exact T1 | lia]). assert (X : gross_of m1 up = gross_of (ticks p) up /\ net_of m1 up = net_of (ticks p) up) by (unfold gross_of, net_of; rewrite E; auto).
      destruct X as [X1 X2]. rewrite X1 in S4, S5, S6. rewrite X2 in S5.
      rewrite Z.eqb_refl in *. replace (lo =? up) with false in * by (symmetry; apply Z.eqb_neq; lia). cbn [is_b] in *. rewrite S4.
      destruct (Qeq_dec (gross_of (ticks p) up + num d) 0) as [E0 | E0]; [rewrite (S6 E0) | rewrite (S5 E0)]; split; try ring. symmetry. apply Nz. etransitivity; [| exact E0]. ring.
    + assert (E : tm_get t m2 = tm_get t (ticks p)) by (rewrite (tick_upd_get _ _ _ _ _ _ _ T2 N2); eapply tick_upd_get; [exact T1 | lia]).
      replace (lo =? t) with false by (symmetry; apply Z.eqb_neq; lia). replace (up =? t) with false by (symmetry; apply Z.eqb_neq; lia). unfold gross_of, net_of. rewrite E. cbn [is_b]. split; ring.
  - assert (Y : forall t b m m', tick_upd p t d b m m' -> ticks_wf m -> (forall k ts, In (k, ts) m -> 0 < mant (t_gross ts)) -> forall k ts, In (k, ts) m' -> 0 < mant (t_gross ts)).
    { intros t b m m' (ts0 & n & g & T0 & E1 & E2 & Nn & ->) Wm Hm k ts Hi. destruct (is_zero g) eqn:Zg; [apply tm_del_in in Hi; eauto |].
      apply tm_set_in in Hi. destruct Hi as [[-> ->] | Hi]; [| eauto]. cbn [t_gross]. apply is_zero_f in Zg.
      assert (t_wf ts0) as (_ & T2' & _). { destruct T0 as [T0 | [_ ->]]; [| apply fresh_wf; auto]. apply tm_get_in in T0. apply Wm in T0. tauto. }
      apply is_neg_f in Nn; [lia |]. apply wf_nn. eapply add_wf; eauto. }
    eapply Y; [exact T2 | auto |]. eapply Y; [exact T1 | auto | auto].
Qed.

Lemma rec_get : forall m m', map (fun kt => (fst kt, t_net (snd kt), t_gross (snd kt))) m' = map (fun kt : Z * tstate => (fst kt, t_net (snd kt), t_gross (snd kt))) m ->
  forall t, gross_of m' t = gross_of m t /\ net_of m' t = net_of m t.
Proof.
  induction m as [| [k a] m IH]; intros [| [k' a'] m'] E t; cbn in E; try discriminate; [auto |]. injection E as -> E2 E3 E. unfold gross_of, net_of. cbn [tm_get]. destruct (t =? k); [rewrite E2, E3; auto |]. apply (IH _ E t).
Qed.
Lemma records_inv : forall p p', same_records p p' -> pool_wf p' -> tick_inv p -> tick_inv p'.
Proof.
  intros p p' (R1 & R2 & R3 & R4 & R5) W' (W & Sp & Po & I & G). unfold tick_inv, gross_at, net_at in *. rewrite R1, R2. csplit; auto.
  - intros t. destruct (rec_get _ _ R5 t) as [E1 E2]. unfold tick_gross, tick_net. fold (gross_of (ticks p') t) (net_of (ticks p') t). rewrite E1, E2. apply (I t).
  - intros t ts Hi. apply (in_map (fun kt => (fst kt, t_net (snd kt), t_gross (snd kt)))) in Hi. rewrite R5 in Hi. apply in_map_iff in Hi. destruct Hi as ([k u] & E & Hi). cbn in E. injection E as -> _ E. rewrite <- E. eauto.
Qed.
Lemma funds_inv : forall p a b c d e f, tick_inv p -> pool_wf (with_funds p a b c d e f) -> tick_inv (with_funds p a b c d e f).
Proof. intros p a b c d e f (W & I) W'. split; [auto | exact I]. Qed.
Lemma deposit_ticks : forall p user x y rpa rpb p' o, deposit p user x y rpa rpb = Ok (p', o) -> tick_inv p -> wf x -> wf y -> wf rpa -> wf rpb -> tick_inv p'.
Proof.
  intros p user x y rpa rpb p' o H I Wx Wy Wa Wb. pose proof (proj1 I) as W. pose proof (proj1 W) as Ws. destruct (deposit_wf _ _ _ _ _ _ _ _ H W Wx Wy Wa Wb) as [W' (Wl & _)].
  destruct (deposit_inv _ _ _ _ _ _ _ _ H) as (lo & up & a & b & p1 & nx & ny & nxf & nxa & nyf & nya & D1 & D2 & D3 & _ & _ & _ & _ & _ & _ & _ & _ & D12 & _ & _ & _ & _ & _ & _ & _ & _ & _ & _ & ->).
  destruct (rtp_nn _ _ _ _ Wa Ws (Z.le_refl 0) D1) as (L1 & M1 & _). destruct (rtp_nn _ _ _ _ Wb Ws L1 D2) as (L2 & M2 & _).
  apply funds_inv; auto. eapply set_pos_inv; [apply set_position_inv; exact D12 | | | | |]; auto.
Qed.
Lemma withdraw_ticks : forall p user liq rpa rpb p' o, withdraw p user liq rpa rpb = Ok (p', o) -> tick_inv p -> wf liq -> wf rpa -> wf rpb -> tick_inv p'.
Proof.
  intros p user liq rpa rpb p' o H I Wl Wa Wb. pose proof (proj1 I) as W. pose proof (proj1 W) as Ws. destruct (withdraw_wf _ _ _ _ _ _ _ H W Wl Wa Wb) as [W' _].
  destruct (withdraw_inv _ _ _ _ _ _ _ H) as (lo & up & a & b & p1 & x0 & y0 & nx & ny & nxf & nxa & nyf & nya & D1 & D2 & D3 & _ & _ & _ & _ & D8 & _ & _ & _ & _ & _ & _ & _ & _ & _ & _ & _ & _ & _ & ->).
  destruct (rtp_nn _ _ _ _ Wa Ws (Z.le_refl 0) D1) as (L1 & M1 & _). destruct (rtp_nn _ _ _ _ Wb Ws L1 D2) as (L2 & M2 & _).
  apply funds_inv; auto. eapply set_pos_inv; [apply set_position_inv; exact D8 | | | | |]; auto. apply neg_wf; auto.
Qed.
Lemma call_ticks : forall orc c p p', run_call orc p c = Ok p' -> tick_inv p -> call_wf c -> tick_inv p'.
Proof.
  intros orc [u x y a b | u l a b | d o | d o] p p' H I C; cbn [run_call call_wf] in *; bd H r E; destruct r as [q out]; injection H as <-.
  - eapply deposit_ticks; eauto; tauto.
  - eapply withdraw_ticks; eauto; tauto.
  - destruct (swap_x_records _ _ _ _ _ _ (proj1 I) (proj1 C) (proj2 C) E) as [R W]. eapply records_inv; eauto.
  - destruct (swap_y_records _ _ _ _ _ _ (proj1 I) (proj1 C) (proj2 C) E) as [R W]. eapply records_inv; eauto.
Qed.

(** ** Histories *)
(** [reachable p]: [p] is the state after some completed calls on a new pool, all arguments being possible Rust values. *)
Inductive reachable (orc : log2_oracle) : pool -> Prop :=
| r_new : forall rp sp c rate p, wf rp -> wf c -> wf rate -> 0 <= sp -> pool_new rp sp c rate = Ok p -> reachable orc p
| r_call : forall p c p', reachable orc p -> call_wf c -> run_call orc p c = Ok p' -> reachable orc p'.
Lemma new_ticks : forall rp sp c rate p, wf rp -> wf c -> wf rate -> 0 <= sp -> pool_new rp sp c rate = Ok p -> tick_inv p.
Proof.
  intros rp sp c rate p W1 W2 W3 Hs H. destruct (pool_new_wf _ _ _ _ _ H W1 W2 W3 Hs) as (W & T & P & S & _ & _ & _ & _ & Sp & _).
  unfold tick_inv, gross_at, net_at, tick_gross, tick_net. rewrite T, P, S. csplit; auto.
  - intros u lo up q [].
  - intros t. cbn. split; reflexivity.
  - intros t ts [].
Qed.
Lemma reachable_ticks : forall orc p, reachable orc p -> tick_inv p.
Proof. intros orc p H. induction H as [rp sp c rate p W1 W2 W3 Hs H | p c p' H IH C R]; [exact (new_ticks rp sp c rate p W1 W2 W3 Hs H) | exact (call_ticks orc c p p' R IH C)]. Qed.
Lemma reachable_run : forall orc cs p p', reachable orc p -> Forall call_wf cs -> run_calls orc p cs = Ok p' -> reachable orc p'.
Proof.
  intros orc. induction cs as [| c cs IH]; intros p p' H F R; cbn [run_calls] in R. { injection R as <-. auto. }
  inversion F; subst. bd R p1 E. eapply IH; [| | exact R]; auto. eapply r_call; eauto.
Qed.

Theorem tick_sums : forall orc p, reachable orc p -> forall t, (tick_gross p t == gross_at p t /\ tick_net p t == net_at p t)%Q.
Proof. intros orc p H. apply (reachable_ticks _ _ H). Qed.
Theorem tick_active : forall orc p, reachable orc p ->
  StronglySorted Z.lt (map fst (ticks p)) /\ forall t, In t (map fst (ticks p)) <-> (0 < gross_at p t)%Q.
Proof.
  intros orc p H. apply reachable_ticks in H. destruct H as (W & _ & _ & I & G). pose proof W as (_ & _ & (S & Wt) & _). split; auto.
  intros t. destruct (I t) as [I1 _]. rewrite <- I1. unfold tick_gross. split.
  - intros Hi. destruct (tm_get_some _ _ Hi) as [ts E]. rewrite E. apply tm_get_in in E. pose proof (G _ _ E) as P. apply Wt in E. destruct E as (_ & _ & Wg & _). pose proof (num_sign _ Wg) as (A & B & C).
    destruct (Qlt_le_dec 0 (num (t_gross ts))) as [L | L]; auto. apply B in L. lia.
  - intros L. destruct (tm_get t (ticks p)) eqn:E; [| lra]. apply tm_get_in in E. apply (in_map fst) in E. auto.
Qed.
