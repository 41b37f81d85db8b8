(** Invariants of every on-chain history. *)
From Coq Require Import ZArith QArith List Bool Lia.
From Verif Require Import Base BaseLemmas DecimalModel DecimalSpec DecimalProofs WfProofs MathModel MathProofs TickProofs BitmapModel BitmapProofs PoolWf LpProofs ChainModel ChainLemmas ChainProofs ChainSpec.
Import ListNotations.
Open Scope Z_scope.

Definition lsum (f : cpkey -> Z -> Z) (m : list (cpkey * cpos)) : Z := psum (fun k q => f k (cp_liq q)) m.
Lemma over_lsum : forall s f, over_positions s f = lsum f (c_pos s).
Proof. intros s f. unfold over_positions, lsum. induction (c_pos s) as [| [k q] r IH]; cbn; congruence. Qed.
Lemma net_tnet : forall t, net t = tnet t. Proof. reflexivity. Qed.
Lemma total_circ : forall l, circulating l = total l. Proof. induction l as [| [h v] r IH]; cbn; congruence. Qed.

Definition f_act (c : Z) (k : cpkey) (v : Z) : Z := when (active (lower k) (upper k) c) v.
Definition f_gross (t : Z) (k : cpkey) (v : Z) : Z := when ((t =? lower k) || (t =? upper k)) v.
Definition f_net (t : Z) (k : cpkey) (v : Z) : Z := when (t =? lower k) v - when (t =? upper k) v.
Definition f_all (_ : cpkey) (v : Z) : Z := v.

Lemma lsum_set : forall f m k q, lsum f (cp_set k q m) = lsum f m + f k (cp_liq q) - match cp_get k m with Some w => f k (cp_liq w) | None => 0 end.
Proof. intros. unfold lsum. rewrite psum_set. reflexivity. Qed.

Lemma get_of_in : forall m k q, NoDup (map fst m) -> In (k, q) m -> cp_get k m = Some q.
Proof.
  induction m as [| [k' w] r IH]; intros k q N H; cbn in *; [contradiction |]. inversion N; subst. destruct H as [H | H].
  - injection H as -> ->. rewrite cpkey_eqb_refl. reflexivity.
  - rewrite cpkey_eqb_neq; auto. intros ->. apply H2. apply in_map_iff. exists (k', q). auto.
Qed.

Record cinv (s : cstate) : Prop := mkInv
  { i_shape : shape s;
    i_empty : c_pool s = None -> c_ticks s = [] /\ c_pos s = [];
    i_nodup : NoDup (map fst (c_pos s));
    i_bounds : forall k q, cp_get k (c_pos s) = Some q -> (exists t, ct_get (lower k) (c_ticks s) = Some t) /\ (exists t, ct_get (upper k) (c_ticks s) = Some t);
    i_liq : forall g, c_pool s = Some g -> cg_liq g = lsum (f_act (cg_tick g)) (c_pos s);
    i_ticks : forall g t ct, c_pool s = Some g -> ct_get t (c_ticks s) = Some ct ->
      ct_gross ct = (if t =? cg_tick g then 0 else lsum (f_gross t) (c_pos s)) /\ tnet ct = (if t =? cg_tick g then 0 else lsum (f_net t) (c_pos s));
    i_lp : c_lp_supply s = total (c_lp s) /\ SC * c_lp_supply s <= lsum f_all (c_pos s);
    i_funds : funds_ok (c_x s) /\ funds_ok (c_y s) /\ funds_ok (c_lp s);
    i_bits : forall b k, c_bitmap s = Some b -> in_range k -> mem b k = true -> k = 0 \/ k = 40000 }.

Lemma lsum_nn : forall s f, cinv s -> (forall k v, 0 <= v -> 0 <= f k v) -> 0 <= lsum f (c_pos s).
Proof.
  intros s f I Hf. destruct I as [(_ & _ & SP & _) _ ND _ _ _ _ _ _].
  assert (H : forall k q, In (k, q) (c_pos s) -> 0 <= cp_liq q). { intros [[u l] h] q J. apply (get_of_in _ _ _ ND) in J. apply SP in J. unfold pos_shape in J. lia. }
  clear ND SP. unfold lsum. induction (c_pos s) as [| [k q] r IH]; cbn in *; [lia |]. pose proof (Hf k _ (H k q (or_introl eq_refl))). specialize (IH (fun k q J => H k q (or_intror J))). lia.
Qed.
Lemma supply_nn : forall s, cinv s -> 0 <= c_lp_supply s.
Proof.
  intros s I. destruct I as [_ _ _ _ _ _ [-> _] (_ & _ & F) _]. revert F. unfold funds_ok. induction (c_lp s) as [| [h v] r IH]; intros F; cbn; [lia |]. inversion F; subst. cbn in *. specialize (IH H2). lia.
Qed.

(** ** Preservation by deposit and withdrawal *)
Lemma f_add : forall c t k v e,
  f_act c k (v + e) = f_act c k v + when (active (lower k) (upper k) c) e /\ f_gross t k (v + e) = f_gross t k v + f_gross t k e /\
  f_net t k (v + e) = f_net t k v + f_net t k e.
Proof. intros. unfold f_act, f_gross, f_net, when. csplit; repeat match goal with |- context [if ?b then _ else _] => destruct b end; lia. Qed.

Lemma moved_inv : forall s u l h c e bm' lx ly lp sup s', cinv s -> moved s u l h c e bm' lx ly lp sup s' ->
  bm_wf bm' -> (forall k, in_range k -> mem bm' k = true -> k = 0 \/ k = 40000) ->
  funds_ok lx -> funds_ok ly -> funds_ok lp -> sup = total lp -> SC * sup <= SC * c_lp_supply s + e -> cinv s'.
Proof.
  intros s u l h c e bm' lx ly lp sup s' I (g & bm & ps & lt & ut & cur & g' & ps' & lt' & ut' & A1 & A2 & A3 & A4 & A5 & A6 & A7 & A8 & (G1 & G2 & G3 & G4) & A9 & A10 & (TL & CL) & (TU & CU) & ->) WB BB FX FY FL SUP LPB.
  destruct I as [(SG & ST & SP & SB) IE ND IB IL IT [ILP1 ILP2] IF IBT]. unfold write_back.
  assert (LS : forall f, lsum f (cp_set (u, l, h) ps' (c_pos s)) = lsum f (c_pos s) + f (u, l, h) (cp_liq ps + e) - f (u, l, h) (cp_liq ps)) by (intros f; rewrite lsum_set, A3, A9; cbn; lia).
  assert (GT : forall k, ct_get k (ct_set c cur (ct_set h ut' (ct_set l lt' (c_ticks s)))) = if k =? c then Some cur else if k =? h then Some ut' else if k =? l then Some lt' else ct_get k (c_ticks s)) by (intros k; rewrite !ct_get_set; reflexivity).
  constructor; cbn [c_pool c_bitmap c_ticks c_pos c_x c_y c_lp c_lp_supply].
  - unfold shape. cbn. csplit.
    + intros g0 [= <-]. auto.
    + intros k t. rewrite GT. destruct (k =? c) eqn:E1; [intros [= <-]; b2p; subst k; auto |]. destruct (k =? h) eqn:E2; [intros [= <-]; b2p; subst k; split; auto; apply TU |].
      destruct (k =? l) eqn:E3; [intros [= <-]; b2p; subst k; split; auto; apply TL | auto].
    + intros k p. rewrite cp_get_set. destruct (cpkey_eqb k (u, l, h)) eqn:E; auto. apply cpkey_eqb_eq in E. subst k. intros [= <-]. rewrite A9. unfold pos_shape. cbn. csplit; auto; lia.
    + intros b [= <-]. auto.
  - discriminate.
  - apply cp_set_keys. auto.
  - intros k q H. assert (HH : (exists t, ct_get (lower k) (c_ticks s) = Some t) /\ (exists t, ct_get (upper k) (c_ticks s) = Some t)).
    { rewrite cp_get_set in H. destruct (cpkey_eqb k (u, l, h)) eqn:E; [| eapply IB; eauto]. apply cpkey_eqb_eq in E. subst k. cbn. eauto. }
    rewrite !GT. destruct HH as [[t1 H1] [t2 H2]]. split; repeat match goal with |- context [if ?b then _ else _] => destruct b end; eauto.
  - intros g0 [= <-]. rewrite LS, G4, G2, (IL _ A1), A8. destruct (f_add c 0 (u, l, h) (cp_liq ps) e) as (-> & _). unfold when. cbn [lower upper]. destruct (active l h c); lia.
  - intros g0 t ct [= <-]. rewrite GT, G2. rewrite !LS. destruct (f_add c t (u, l, h) (cp_liq ps) e) as (_ & -> & ->).
    destruct (t =? c) eqn:E1.
    + intros [= <-]. b2p. subst t. destruct (IT _ _ _ A1 A6) as [I1 I2]. rewrite A8, Z.eqb_refl in I1, I2. auto.
    + destruct (t =? h) eqn:E2; [intros [= <-]; b2p; subst t |].
      * destruct (IT _ _ _ A1 A5) as [I1 I2]. rewrite A8 in I1, I2. rewrite (proj2 (Z.eqb_neq h c)) in I1, I2 by auto. destruct TU as (_ & -> & ->). rewrite I1, I2. unfold f_gross, f_net, when. cbn [lower upper].
        rewrite Z.eqb_refl, orb_true_r. rewrite (proj2 (Z.eqb_neq h l)) by lia. split; lia.
      * destruct (t =? l) eqn:E3; [intros [= <-]; b2p; subst t |].
        -- destruct (IT _ _ _ A1 A4) as [I1 I2]. rewrite A8 in I1, I2. rewrite (proj2 (Z.eqb_neq l c)) in I1, I2 by auto. destruct TL as (_ & -> & ->). rewrite I1, I2. unfold f_gross, f_net, when. cbn [lower upper].
           rewrite Z.eqb_refl. cbn [orb]. rewrite (proj2 (Z.eqb_neq l h)) by lia. split; lia.
        -- intros H. destruct (IT _ _ _ A1 H) as [I1 I2]. rewrite A8, E1 in I1, I2. rewrite I1, I2. unfold f_gross, f_net, when. cbn [lower upper]. rewrite E2, E3. cbn. split; lia.
  - split; auto. rewrite LS. unfold f_all at 2 3. lia.
  - auto.
  - intros b k [= <-]. auto.
Qed.

Lemma bal_ok_funds : forall l, balances_ok l -> funds_ok l. Proof. intros l H. exact H. Qed.

Lemma exec_inv : forall s i s', cinv s -> exec s i = Ok s' -> cinv s'.
Proof.
  intros s i s' I H. unfold exec in H. destruct (args_ok i) eqn:AO; [| discriminate H]. cbn [negb] in H. pose proof I as [SH IE ND IB IL IT ILP IF IBT].
  destruct i as [t | | t | u l h | u l h c xa ya to | u l h c n | f to a | f to a | f to a | f a]; cbn [args_ok] in AO.
  - unfold i_init_pool in H. destruct (c_pool s) eqn:E; [discriminate H |]. destruct (IE eq_refl) as [T0 P0]. bd H r E1. bd H r' E2. injection H as <-. clear E1 E2.
    constructor; cbn [c_pool c_bitmap c_ticks c_pos c_x c_y c_lp c_lp_supply]; auto; try (intros HH; discriminate HH).
    + destruct SH as (S1 & S2 & S3 & S4). unfold shape. cbn. csplit; auto. intros g [= <-]. unfold pool_shape, LIQUIDITY_SCALE. cbn. csplit; auto; try lia. reflexivity.
    + intros g [= <-]. rewrite P0. reflexivity.
    + intros g k ct [= <-]. rewrite T0. discriminate.
  - unfold i_init_bitmap in H. destruct (c_pool s) eqn:E; [| discriminate H]. destruct (c_bitmap s); [discriminate H |]. injection H as <-.
    constructor; cbn [c_pool c_bitmap c_ticks c_pos c_x c_y c_lp c_lp_supply]; auto; try (intros HH; discriminate HH).
    + destruct SH as (S1 & S2 & S3 & S4). unfold shape. cbn [c_pool c_bitmap c_ticks c_pos]. csplit; auto. intros g [= <-]. auto. intros b [= <-]. apply default_wf.
    + intros b k [= <-] R M. rewrite default_empty in M. discriminate.
  - unfold i_init_tick in H. destruct (c_pool s) as [g |] eqn:E; [| discriminate H]. destruct (ct_get t (c_ticks s)) eqn:E1; [discriminate H |]. injection H as <-.
    assert (Z0 : forall v, lsum (f_gross t) (c_pos s) = v -> v = 0 /\ lsum (f_net t) (c_pos s) = 0).
    { intros v <-. assert (K : forall k q, In (k, q) (c_pos s) -> t <> lower k /\ t <> upper k). { intros k q J. apply (get_of_in _ _ _ ND) in J. destruct (IB _ _ J) as [[t1 J1] [t2 J2]]. split; intros ->; congruence. }
      clear - K. unfold lsum, f_gross, f_net. induction (c_pos s) as [| [k q] r IH]; cbn in *; [auto |]. destruct (K k q (or_introl eq_refl)) as [K1 K2]. rewrite (proj2 (Z.eqb_neq t (lower k))), (proj2 (Z.eqb_neq t (upper k))) by auto. cbn. apply IH. intros. eapply K; eauto. }
    destruct (Z0 _ eq_refl) as [Z1 Z2].
    constructor; cbn [c_pool c_bitmap c_ticks c_pos c_x c_y c_lp c_lp_supply]; auto; try (intros HH; discriminate HH).
    + destruct SH as (S1 & S2 & S3 & S4). unfold shape. cbn [c_pool c_bitmap c_ticks c_pos]. csplit; auto; [rewrite E in S1; auto |]. intros k ct. rewrite ct_get_set. destruct (k =? t) eqn:E2; [| auto]. b2p. subst k. intros [= <-]. unfold tick_shape, net_canon, LIQUIDITY_SCALE. cbn. csplit; auto; try lia; reflexivity.
    + intros k q J. destruct (IB _ _ J) as [[t1 J1] [t2 J2]]. rewrite !ct_get_set. split; destruct (_ =? _); eauto.
    + intros g0 k ct [= <-]. rewrite ct_get_set. destruct (k =? t) eqn:E2; [| intros J; apply (IT _ _ _ eq_refl J)]. b2p. subst k. intros [= <-]. cbn. rewrite Z1, Z2. destruct (t =? cg_tick g); auto.
  - unfold i_create_position in H. destruct (c_pool s) as [g |] eqn:E; [| discriminate H]. destruct (cp_get (u, l, h) (c_pos s)) eqn:E1; [discriminate H |]. destruct (ct_get l (c_ticks s)) eqn:E2; [| discriminate H]. destruct (ct_get h (c_ticks s)) eqn:E3; [| discriminate H]. destruct (l <? h) eqn:E4; [| discriminate H]. b2p. injection H as <-.
    assert (LS : forall f q, cp_liq q = 0 -> f (u, l, h) 0 = 0 -> lsum f (cp_set (u, l, h) q (c_pos s)) = lsum f (c_pos s)) by (intros f q Q F; rewrite lsum_set, E1, Q; lia).
    constructor; cbn [c_pool c_bitmap c_ticks c_pos c_x c_y c_lp c_lp_supply]; auto; try (intros HH; discriminate HH).
    + destruct SH as (S1 & S2 & S3 & S4). unfold shape. cbn [c_pool c_bitmap c_ticks c_pos]. csplit; auto; [rewrite E in S1; auto |]. intros k q. rewrite cp_get_set. destruct (cpkey_eqb k (u, l, h)) eqn:E5; [| auto]. apply cpkey_eqb_eq in E5. subst k. intros [= <-]. unfold pos_shape, LIQUIDITY_SCALE. cbn. csplit; auto; try lia; reflexivity.
    + apply cp_set_keys; auto.
    + intros k q. rewrite cp_get_set. destruct (cpkey_eqb k (u, l, h)) eqn:E5; [| apply IB]. apply cpkey_eqb_eq in E5. subst k. intros _. cbn. eauto.
    + intros g0 [= <-]. rewrite LS; auto. unfold f_act, when. destruct (active _ _ _); auto.
    + intros g0 t ct [= <-] J. rewrite !LS; auto; unfold f_gross, f_net, when; repeat match goal with |- context [if ?b then _ else _] => destruct b end; auto.
    + rewrite LS; auto.
  - assert (AO' : 0 <= l /\ 0 <= xa < U64 /\ 0 <= ya < U64) by (unfold is_u64 in AO; b2p; lia). destruct AO' as (B1 & B2 & B3).
    destruct (deposit_eff _ _ _ _ _ _ _ _ _ SH B1 B2 B3 H) as (p & a & b & d & lx & ly & lp & bm & bm' & lt & ut & PR & BD & _ & _ & X & Y & M & TX & TY & (J1 & J2 & J3 & J4 & J5) & MV).
    destruct IF as (FX & FY & FL). pose proof SCpos. assert (0 <= d / SC) by (apply Z.div_pos; lia).
    apply transfer_ok in TX, TY. apply mint_ok in M. destruct TX as (_ & _ & TX & _), TY as (_ & _ & TY & _), M as (_ & M1 & _ & _ & M2 & _).
    eapply moved_inv; [exact I | exact MV | auto | | apply TX; auto; lia | apply TY; auto; lia | apply M2; auto | lia |].
    + intros k R. rewrite J5 by auto. intros HH. destruct (k =? 40000) eqn:K1; [b2p; auto |]. destruct (k =? 0) eqn:K2; [b2p; auto |]. rewrite !andb_false_r in HH. cbn in HH. eapply IBT; eauto.
    + pose proof (Z.mul_div_le d SC SCpos). lia.
  - assert (AO' : 0 <= l /\ 0 <= n < U64) by (unfold is_u64 in AO; b2p; lia). destruct AO' as (B1 & B2).
    destruct (withdraw_eff _ _ _ _ _ _ _ SH B1 B2 H) as (p & a & b & lx & ly & lp & bm & bm' & PR & X & Y & M & TX & TY & (J1 & J2 & J3) & MV).
    destruct IF as (FX & FY & FL). apply transfer_ok in TX, TY. apply burn_ok in M. destruct TX as (_ & _ & TX & _), TY as (_ & _ & TY & _), M as (_ & M1 & _ & _ & M2 & _).
    eapply moved_inv; [exact I | exact MV | auto | | apply TX; auto; lia | apply TY; auto; lia | apply M2; auto; lia | lia |].
    + intros k R. rewrite J3 by auto. intros HH. b2p. eapply IBT; eauto.
    + lia.
  - bd H x E. injection H as <-. apply transfer_ok in E. destruct E as (_ & _ & E & _). destruct IF as (F1 & F2 & F3). assert (0 <= a) by (unfold is_u64 in AO; b2p; lia).
    constructor; cbn [c_pool c_bitmap c_ticks c_pos c_x c_y c_lp c_lp_supply]; auto.
  - bd H x E. injection H as <-. apply transfer_ok in E. destruct E as (_ & _ & E & _). destruct IF as (F1 & F2 & F3). assert (0 <= a) by (unfold is_u64 in AO; b2p; lia).
    constructor; cbn [c_pool c_bitmap c_ticks c_pos c_x c_y c_lp c_lp_supply]; auto.
  - bd H x E. injection H as <-. apply transfer_ok in E. destruct E as (_ & E0 & E & _). destruct IF as (F1 & F2 & F3). assert (0 <= a) by (unfold is_u64 in AO; b2p; lia).
    constructor; cbn [c_pool c_bitmap c_ticks c_pos c_x c_y c_lp c_lp_supply]; auto. rewrite E0. auto.
  - bd H x E. destruct x as [lp sup]. injection H as <-. apply burn_ok in E. destruct E as (E1 & E2 & _ & _ & E3 & _). destruct IF as (F1 & F2 & F3). assert (0 <= a) by (unfold is_u64 in AO; b2p; lia).
    constructor; cbn [c_pool c_bitmap c_ticks c_pos c_x c_y c_lp c_lp_supply]; auto. pose proof SCpos. destruct ILP. split; [lia | nia].
Qed.
Lemma tx_inv : forall s i, cinv s -> cinv (tx s i).
Proof. intros s i I. unfold tx. destruct (exec s i) eqn:E; auto. eapply exec_inv; eauto. Qed.
Lemma genesis_inv : forall x y, balances_ok x -> balances_ok y -> cinv (genesis x y).
Proof.
  intros x y X Y. constructor; cbn; auto; try discriminate; try (split; auto; lia).
  - unfold shape. cbn. csplit; intros; discriminate.
  - constructor.
  - csplit; auto. constructor.
Qed.
Lemma run_inv : forall is s, cinv s -> cinv (run_txs s is).
Proof. unfold run_txs. induction is as [| i r IH]; intros s I; cbn; auto. apply IH. apply tx_inv; auto. Qed.
Lemma reached_inv : forall s, reached s -> cinv s.
Proof. intros s (x & y & is & X & Y & ->). apply run_inv. apply genesis_inv; auto. Qed.
