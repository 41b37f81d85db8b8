(** Histories of deposits and withdrawals only: what users can gain from rounding, and what the reserves cover. *)
From Coq Require Import ZArith QArith List Bool Lia Lqa String Sorted.
From Verif Require Import Base BaseLemmas DecimalModel DecimalSpec DecimalProofs WfProofs MathModel MathProofs TickProofs PoolModel PoolWf LpProofs SwapProofs PoolInv PoolNonneg PoolLp PoolFees ChainLemmas.
Import ListNotations.
Open Scope Z_scope.

(** ** Vocabulary.  Root prices, liquidity and amounts as integers, in 10^-12. *)
Definition tick_price (t : Z) : Z := match tick_to_rp t with Ok d => dval d | _ => 0 end.
(** [l * (1/m - 1/b)] and [l * (m - a)], rounded down as in the code, for [m] the price clamped to the range [a, b]. *)
Definition amount_x (p a b l : Z) : Z := let m := Z.max (Z.min p b) a in l * (b - m) / 10 ^ 12 * 10 ^ 12 / (m * b / 10 ^ 12).
Definition amount_y (p a b l : Z) : Z := let m := Z.max (Z.min p b) a in l * (m - a) / 10 ^ 12.
Definition held (p : pool) (k : pkey) : Z := match pm_get k (positions p) with Some q => mant (p_liq q) | None => 0 end.
Definition claim_x (p : pool) (k : pkey) (l : Z) : Z := let '(_, lo, up) := k in amount_x (mant (glbl_rp p)) (tick_price lo) (tick_price up) l.
Definition claim_y (p : pool) (k : pkey) (l : Z) : Z := let '(_, lo, up) := k in amount_y (mant (glbl_rp p)) (tick_price lo) (tick_price up) l.

(** A completed deposit ([e_in]) or withdrawal; [e_topup]: a deposit into a position that already held liquidity. *)
Record ev : Type := mkEv { e_user : string; e_in : bool; e_topup : bool; e_o : lp_out }.
Inductive lp_history (p0 : pool) : list ev -> pool -> Prop :=
| h_nil : lp_history p0 [] p0
| h_in : forall es p u x y a b lo up p' o, lp_history p0 es p -> wf x -> wf y -> wf a -> wf b -> range_of p a b lo up ->
    deposit p u x y a b = Ok (p', o) -> lp_history p0 (mkEv u true (negb (held p (u, lo, up) =? 0)) o :: es) p'
| h_out : forall es p u l a b lo up p' o, lp_history p0 es p -> wf l -> wf a -> wf b -> range_of p a b lo up ->
    withdraw p u l a b = Ok (p', o) -> lp_history p0 (mkEv u false false o :: es) p'.
(** Sum of a quantity over the events selected by [s]. *)
Definition sum_over (s : string -> bool) (f : ev -> Q) (es : list ev) : Q :=
  fold_right (fun e acc => if s (e_user e) then (f e + acc)%Q else acc) 0%Q es.
Definition given_x (e : ev) : Q := if e_in e then num (io_netx (e_o e)) else 0%Q.
Definition given_y (e : ev) : Q := if e_in e then num (io_nety (e_o e)) else 0%Q.
Definition taken_x (e : ev) : Q := if e_in e then 0%Q else num (io_netx (e_o e)).
Definition taken_y (e : ev) : Q := if e_in e then 0%Q else num (io_nety (e_o e)).
Definition topups (e : ev) : Q := if e_topup e then 1%Q else 0%Q.

(** ** Sums over positions *)
Definition psum (f : pkey -> Z -> Z) (m : list (pkey * pstate)) : Z := fold_right (fun kq acc => f (fst kq) (mant (p_liq (snd kq))) + acc) 0 m.
Definition heldm (m : list (pkey * pstate)) (k : pkey) : Z := match pm_get k m with Some q => mant (p_liq q) | None => 0 end.
Lemma psum_set : forall f k v m, f k 0 = 0 -> psum f (pm_set k v m) = psum f m + f k (mant (p_liq v)) - f k (heldm m k).
Proof.
  intros f k v m H. unfold heldm. induction m as [| [k' q] m IH]; cbn [pm_set pm_get psum fold_right fst snd]; [rewrite H; lia |].
  destruct (pkey_eqb k k') eqn:E; cbn [psum fold_right fst snd].
  - apply pkey_eqb_eq in E. subst k'. unfold psum. lia.
  - fold (psum f (pm_set k v m)). fold (psum f m). lia.
Qed.
Lemma psum_del : forall f k m, f k 0 = 0 -> psum f (pm_del k m) = psum f m - f k (heldm m k).
Proof.
  intros f k m H. unfold heldm. induction m as [| [k' q] m IH]; cbn [pm_del pm_get psum fold_right fst snd]; [rewrite H; lia |].
  destruct (pkey_eqb k k') eqn:E; cbn [psum fold_right fst snd].
  - apply pkey_eqb_eq in E. subst k'. unfold psum. lia.
  - fold (psum f (pm_del k m)). fold (psum f m). lia.
Qed.

(** ** Amounts *)
Lemma amount_x_cl : forall p a b l, amount_x p a b l = l * (b - cl p a b) / SC * SC / (cl p a b * b / SC). Proof. reflexivity. Qed.
Lemma amount_y_cl : forall p a b l, amount_y p a b l = l * (cl p a b - a) / SC. Proof. reflexivity. Qed.
Lemma amount_zero : forall p a b, amount_x p a b 0 = 0 /\ amount_y p a b 0 = 0.
Proof. intros. rewrite amount_x_cl, amount_y_cl, !Z.mul_0_l, !Zdiv_0_l. split; auto. Qed.
Lemma amount_split : forall p a b n m, SC <= a -> a <= b ->
  (amount_x p a b n + amount_x p a b m <= amount_x p a b (n + m) <= amount_x p a b n + amount_x p a b m + 2) /\
  (amount_y p a b n + amount_y p a b m <= amount_y p a b (n + m) <= amount_y p a b n + amount_y p a b m + 1).
Proof.
  intros p a b n m Ha Hb. pose proof SCpos. pose proof (cl_bounds p a b Hb). rewrite !amount_x_cl, !amount_y_cl. set (c := cl p a b) in *.
  assert (Q : SC <= c * b / SC) by (apply Z.div_le_lower_bound; nia). set (q := c * b / SC) in *. split; [| apply floor_split; lia].
  pose proof (floor_split n m (b - c) SC ltac:(lia)) as F. set (n1 := n * (b - c) / SC) in *. set (m1 := m * (b - c) / SC) in *. set (s := (n + m) * (b - c) / SC) in *.
  pose proof (floor_split n1 m1 SC q ltac:(lia)) as G. split.
  - apply Z.le_trans with ((n1 + m1) * SC / q); [lia |]. apply Z.div_le_mono; nia.
  - apply Z.le_trans with ((n1 + m1 + 1) * SC / q); [apply Z.div_le_mono; nia |].
    assert ((n1 + m1 + 1) * SC / q <= (n1 + m1) * SC / q + 1); [| lia].
    replace ((n1 + m1) * SC / q + 1) with (((n1 + m1) * SC + 1 * q) / q) by (apply Z.div_add; lia). apply Z.div_le_mono; nia.
Qed.
Lemma amount_nn : forall p a b l, 0 <= l -> SC <= a -> a <= b -> 0 <= amount_x p a b l /\ 0 <= amount_y p a b l.
Proof.
  intros p a b l Hl Ha Hb. pose proof SCpos. pose proof (cl_bounds p a b Hb). rewrite amount_x_cl, amount_y_cl. assert (SC <= cl p a b * b / SC) by (apply Z.div_le_lower_bound; nia).
  assert (0 <= l * (b - cl p a b) / SC) by (apply Z.div_pos; nia). split; apply Z.div_pos; nia.
Qed.

Lemma amt_x : forall l rp a b x, x_from_l_rp_rng l rp a b = Ok x -> wf l -> is_negative l = false -> dscale l = 12 -> nonneg rp -> dscale rp = 12 -> SC <= dval rp -> nonneg a -> dscale a = 12 -> SC <= dval a -> nonneg b -> dscale b = 12 -> dval a <= dval b ->
  mant x = amount_x (dval rp) (dval a) (dval b) (mant l).
Proof.
  intros l rp a b x H Wl Nl Sl [_ Nr] Sr Hr [_ Na] Sa Ha [_ Nb] Sb Hb. pose proof (x_from_scale _ _ _ _ _ H) as [_ Z0]. unfold mant at 2. destruct (dneg l) eqn:D.
  - assert (V : dval l = 0) by (unfold is_negative, is_zero in Nl; rewrite D in Nl; cbn in Nl; b2p; auto). rewrite V. change (-0) with 0. rewrite (proj1 (amount_zero _ _ _)). unfold mant. rewrite (Z0 V). destruct (dneg x); auto.
  - rewrite (d12_eta l), (d12_eta rp), (d12_eta a), (d12_eta b) in H by auto. rewrite x12 in H by auto. cbv zeta in H. rewrite amount_x_cl.
    destruct (_ <? U128); [| discriminate H]. destruct (_ <? U128); [| discriminate H]. destruct (_ <? U128); [| discriminate H]. injection H as <-. reflexivity.
Qed.
Lemma amt_y : forall l rp a b x, y_from_l_rp_rng l rp a b = Ok x -> wf l -> is_negative l = false -> dscale l = 12 -> nonneg rp -> dscale rp = 12 -> SC <= dval rp -> nonneg a -> dscale a = 12 -> SC <= dval a -> nonneg b -> dscale b = 12 -> dval a <= dval b ->
  mant x = amount_y (dval rp) (dval a) (dval b) (mant l).
Proof.
  intros l rp a b x H Wl Nl Sl [_ Nr] Sr Hr [_ Na] Sa Ha [_ Nb] Sb Hb. pose proof (y_from_scale _ _ _ _ _ H) as [_ Z0]. unfold mant at 2. destruct (dneg l) eqn:D.
  - assert (V : dval l = 0) by (unfold is_negative, is_zero in Nl; rewrite D in Nl; cbn in Nl; b2p; auto). rewrite V. change (-0) with 0. rewrite (proj2 (amount_zero _ _ _)). unfold mant. rewrite (Z0 V). destruct (dneg x); auto.
  - rewrite (d12_eta l), (d12_eta rp), (d12_eta a), (d12_eta b) in H by auto. rewrite y12 in H by auto. cbv zeta in H. rewrite amount_y_cl.
    destruct (_ <? U128); [| discriminate H]. injection H as <-. reflexivity.
Qed.

(** ** Pools that have collected no fees *)
Definition quiet_pos (q : pstate) : Prop := dscale (p_liq q) = 12 /\ is_negative (p_liq q) = false /\ (num (p_fx q) == 0 /\ num (p_fy q) == 0 /\ num (p_hx q) == 0 /\ num (p_hy q) == 0)%Q.
Definition quiet (p : pool) : Prop := (forall k, (num (g_fee (gs p) k) == 0)%Q) /\ forall k q, In (k, q) (positions p) -> quiet_pos q.

Lemma owed_zero : forall base m n f, fee_owed base m n f -> wf m -> wf n -> (num m == 0)%Q -> (num n == 0)%Q -> (num f == 0)%Q.
Proof. intros base m n f (u & E & _ & M) Wm Wn Hm Hn. assert (wf u) by (eapply sub_wf; eauto). apply sub_q in E. eapply mul_zero_q; eauto. lra. Qed.

Lemma set_pos_quiet : forall orc p u lo up d p' paid, reachable orc p -> quiet p -> set_pos p u lo up d p' paid -> wf d -> dscale d = 12 ->
  quiet p' /\ (let '(fx, fy, hx, hy) := paid in num fx == 0 /\ num fy == 0 /\ num hx == 0 /\ num hy == 0)%Q /\
  (forall f, f (u, lo, up) 0 = 0 -> psum f (positions p') = psum f (positions p) + f (u, lo, up) (held p (u, lo, up) + mant d) - f (u, lo, up) (held p (u, lo, up))) /\
  0 <= held p (u, lo, up) + mant d /\ held p' (u, lo, up) = held p (u, lo, up) + mant d /\ (forall k, k <> (u, lo, up) -> held p' k = held p k).
Proof.
  intros orc p u lo up d p' [[[fx fy] hx] hy] R (G & QP) (nfx & nfy & nhx & nhy & pos' & base & ofx & ofy & ohx & ohy & m1 & m2 & L & F1 & F2 & F3 & F4 & PU & (O1 & O2 & O3 & O4) & _ & _ & _ & ->) Wd Sd.
  pose proof (reachable_nn _ _ R) as N. pose proof (proj1 N) as W. pose proof W as (_ & _ & _ & (ND & PW) & _).
  pose proof (no_growth_no_fees _ _ R G lo up) as NG.
  pose proof (fee_rng_wf _ _ _ _ _ F1 W) as W1. pose proof (fee_rng_wf _ _ _ _ _ F2 W) as W2. pose proof (fee_rng_wf _ _ _ _ _ F3 W) as W3. pose proof (fee_rng_wf _ _ _ _ _ F4 W) as W4.
  assert (Z1 : (num nfx == 0)%Q) by (rewrite (fee_rng_inside _ _ _ _ _ F1); apply NG). assert (Z2 : (num nfy == 0)%Q) by (rewrite (fee_rng_inside _ _ _ _ _ F2); apply NG).
  assert (Z3 : (num nhx == 0)%Q) by (rewrite (fee_rng_inside _ _ _ _ _ F3); apply NG). assert (Z4 : (num nhy == 0)%Q) by (rewrite (fee_rng_inside _ _ _ _ _ F4); apply NG).
  pose proof zero12_wf as W0. assert (Z0 : (num zero12 == 0)%Q) by reflexivity.
  unfold pos_upd in PU. unfold held, quiet. cbn [positions gs g_fee g_fx g_fy g_hx g_hy]. destruct (pm_get (u, lo, up) (positions p)) as [q |] eqn:Q.
  - destruct PU as (nl & B1 & B2 & B3 & -> & -> & Eo). injection Eo as -> -> -> ->. pose proof (pm_get_in _ _ _ Q) as Qi. pose proof (PW _ _ Qi) as (P1 & P2 & P3 & P4 & P5). destruct (QP _ _ Qi) as (S1 & S0 & S2 & S3 & S4 & S5).
    assert (Wn : wf nl) by (eapply add_wf; eauto). pose proof (add_m _ _ _ B2) as (M1 & M2 & _).
    assert (Nn : 0 <= mant nl) by (apply is_neg_f; auto; apply wf_nn; auto).
    assert (H0 : heldm (positions p) (u, lo, up) = mant (p_liq q)) by (unfold heldm; rewrite Q; auto).
    split; [| split; [csplit; eapply owed_zero; eauto | split; [| split; [lia | split]]]].
    + split; [exact G |]. intros k q' I. destruct (is_zero nl) eqn:Zn; [apply pm_del_in in I; eauto |]. apply pm_set_in in I. destruct I as [[-> ->] | I]; [| eauto]. unfold quiet_pos. cbn. csplit; auto. congruence.
    + intros f H. destruct (is_zero nl) eqn:Zn.
      * rewrite psum_del, H0 by auto. assert (mant nl = 0) by (unfold is_zero in Zn; b2p; unfold mant; rewrite Zn; destruct (dneg nl); lia). rewrite <- M1, H1, H. lia.
      * rewrite psum_set, H0 by auto. cbn [p_liq]. rewrite M1. lia.
    + destruct (is_zero nl) eqn:Zn; [rewrite pm_get_del_same by auto | rewrite pm_get_set_same; auto]. unfold is_zero in Zn. b2p. unfold mant in M1 at 1. rewrite Zn in M1. destruct (dneg nl); lia.
    + intros k K. destruct (is_zero nl); [rewrite pm_get_del_other by auto | rewrite pm_get_set_other by auto]; auto.
  - destruct PU as (B1 & -> & -> & Eo). injection Eo as -> -> -> ->.
    assert (Nd : 0 <= mant d) by (apply is_neg_f; auto; apply wf_nn; auto).
    assert (H0 : heldm (positions p) (u, lo, up) = 0) by (unfold heldm; rewrite Q; auto).
    split; [| split; [csplit; eapply owed_zero; eauto | split; [| split; [lia | split]]]].
    + split; [exact G |]. intros k q' I. apply pm_set_in in I. destruct I as [[-> ->] | I]; [| eauto]. unfold quiet_pos. cbn. csplit; auto.
    + intros f H. rewrite psum_set, H0 by auto. reflexivity.
    + rewrite pm_get_set_same. auto.
    + intros k K. rewrite pm_get_set_other by auto. auto.
Qed.

Lemma set_pos_keys : forall p u lo up d p' paid, set_pos p u lo up d p' paid -> forall k q, In (k, q) (positions p') -> k = (u, lo, up) \/ exists q', In (k, q') (positions p).
Proof.
  intros p u lo up d p' paid (nfx & nfy & nhx & nhy & pos' & base & ofx & ofy & ohx & ohy & m1 & m2 & L & _ & _ & _ & _ & PU & _ & _ & _ & _ & ->) k q I. cbn [positions] in I.
  unfold pos_upd in PU. destruct (pm_get _ _) as [r |].
  - destruct PU as (nl & _ & _ & _ & -> & _). destruct (is_zero nl); [right; eauto using pm_del_in |]. apply pm_set_in in I. destruct I as [[-> _] | I]; eauto.
  - destruct PU as (_ & -> & _). apply pm_set_in in I. destruct I as [[-> _] | I]; eauto.
Qed.

(** The range of a position, as prices. *)
Lemma range_prices : forall orc p rpa rpb lo up a b, reachable orc p -> range_of p rpa rpb lo up -> tick_to_rp lo = Ok a -> tick_to_rp up = Ok b ->
  nonneg (glbl_rp p) /\ dscale (glbl_rp p) = 12 /\ SC <= dval (glbl_rp p) /\ mant (glbl_rp p) = dval (glbl_rp p) /\
  nonneg a /\ dscale a = 12 /\ SC <= dval a /\ nonneg b /\ dscale b = 12 /\ dval a < dval b /\ tick_price lo = dval a /\ tick_price up = dval b.
Proof.
  intros orc p rpa rpb lo up a b R (_ & _ & B1 & _) Ea Eb. pose proof (reachable_nn _ _ R) as N. pose proof (proj1 N) as W. assert (PO : price_ok p) by apply N. destruct PO as [P1 P2].
  assert (Nr : nonneg (glbl_rp p)) by (apply price_nonneg; auto; split; auto). pose proof Nr as [Wr Fr].
  destruct (tick_rp_wf _ _ Ea) as (A1 & A2 & A3 & A4). destruct (tick_rp_wf _ _ Eb) as (C1 & C2 & C3 & C4).
  pose proof (tick_lt _ _ _ _ (proj1 B1) (proj2 B1) Ea Eb) as Lt. unfold tick_price. rewrite Ea, Eb.
  apply one_le in P1; auto. assert (M : mant (glbl_rp p) = dval (glbl_rp p)) by (unfold mant; rewrite Fr; auto).
  csplit; auto; try (split; auto; fail); try (change SC with (10 ^ 12); lia).
  destruct (Z_lt_le_dec (dval a) (dval b)) as [| C]; auto. exfalso. assert (num b <= num a)%Q; [| lra]. apply num_le; auto; [congruence |]. unfold mant. rewrite A3, C3. lia.
Qed.
Lemma keep : forall p p' : pool, glbl_rp p' = glbl_rp p -> forall k l, claim_x p' k l = claim_x p k l /\ claim_y p' k l = claim_y p k l.
Proof. intros p p' E [[u lo] up] l. unfold claim_x, claim_y. rewrite E. auto. Qed.

(** ** One deposit, one withdrawal *)
Definition sound_key (k : pkey) : Prop := let '(_, lo, up) := k in SC <= tick_price lo /\ tick_price lo < tick_price up.
Definition lp_ok (p : pool) : Prop := quiet p /\ forall k q, In (k, q) (positions p) -> sound_key k.

Lemma claim_facts : forall p k n m, sound_key k ->
  (claim_x p k 0 = 0 /\ claim_y p k 0 = 0) /\
  (0 <= n -> 0 <= claim_x p k n /\ 0 <= claim_y p k n) /\
  (claim_x p k n + claim_x p k m <= claim_x p k (n + m) <= claim_x p k n + claim_x p k m + 2) /\
  (claim_y p k n + claim_y p k m <= claim_y p k (n + m) <= claim_y p k n + claim_y p k m + 1).
Proof.
  intros p [[u lo] up] n m [S1 S2]. unfold claim_x, claim_y. split; [apply amount_zero |]. split; [intros; apply amount_nn; lia |]. apply amount_split; lia.
Qed.
Lemma zero_mant : forall d, wf d -> (num d == 0)%Q -> mant d = 0. Proof. intros d W H. apply num_sign in H; auto. Qed.

Lemma deposit_step : forall orc p user x y rpa rpb lo up p' o, reachable orc p -> lp_ok p -> wf x -> wf y -> wf rpa -> wf rpb -> range_of p rpa rpb lo up ->
  deposit p user x y rpa rpb = Ok (p', o) -> let k := (user, lo, up) in
  lp_ok p' /\ sound_key k /\ glbl_rp p' = glbl_rp p /\ spacing p' = spacing p /\ dscale (io_liq o) = 12 /\ 0 <= mant (io_liq o) /\
  dscale (io_netx o) = 12 /\ dscale (io_nety o) = 12 /\
  mant (io_netx o) = claim_x p k (mant (io_liq o)) /\ mant (io_nety o) = claim_y p k (mant (io_liq o)) /\
  mant (rx p') = mant (rx p) + mant (io_netx o) /\ mant (ry p') = mant (ry p) + mant (io_nety o) /\
  (forall f, f k 0 = 0 -> psum f (positions p') = psum f (positions p) + f k (held p k + mant (io_liq o)) - f k (held p k)) /\ 0 <= held p k.
Proof.
  intros orc p user x y rpa rpb lo up p' o R (Q & SK) Wx Wy Wa Wb RG H k. pose proof (reachable_nn _ _ R) as N. pose proof (proj1 N) as W. destruct (reachable_12 _ _ R) as (T1 & T2 & _).
  destruct (deposit_wf _ _ _ _ _ _ _ _ H W Wx Wy Wa Wb) as [_ (V1 & V2 & V3 & V4 & V5 & V6 & V7 & V8 & V9)]. destruct (deposit_nn _ _ _ _ _ _ _ _ H N Wx Wy Wa Wb) as (_ & _ & Nl & _).
  destruct (deposit_inv _ _ _ _ _ _ _ _ H) as (lo' & up' & a & b & p1 & nx & ny & nxf & nxa & nyf & nya & D1 & D2 & D3 & D4 & D5 & D6 & D7 & D8 & _ & D10 & _ & D12 & (xd & yd & F1 & F2 & F3 & F4) & _ & D18 & D19 & _ & _ & _ & _ & _ & _ & ->).
  pose proof RG as (G1 & G2 & _). rewrite G1 in D1. injection D1 as <-. rewrite G2 in D2. injection D2 as <-.
  apply set_position_inv in D12. destruct (set_pos_same _ _ _ _ _ _ _ D12) as (E0 & _ & E1 & _ & E2 & E3 & _).
  destruct (range_prices _ _ _ _ _ _ _ _ R RG D4 D5) as (P1 & P2 & P3 & P4 & P5 & P6 & P7 & P8 & P9 & P10 & P11 & P12).
  pose proof (x_from_scale _ _ _ _ _ D8) as [Sx _]. pose proof (y_from_scale _ _ _ _ _ D10) as [Sy _].
  pose proof (add_m _ _ _ D18) as (M1 & M2 & M3). pose proof (add_m _ _ _ D19) as (M4 & M5 & M6).
  assert (Sl : dscale (io_liq o) = 12) by congruence.
  destruct (set_pos_quiet _ _ _ _ _ _ _ _ R Q D12 V1 Sl) as (Q' & (Z1 & Z2 & Z3 & Z4) & PS & Hn & _).
  assert (Nl' : 0 <= mant (io_liq o)) by (apply is_neg_f; auto; apply wf_nn; auto).
  assert (K : sound_key k) by (unfold k, sound_key; rewrite P11, P12; auto).
  apply zero_mant in Z1, Z2, Z3, Z4; auto.
  apply sub_m in F1, F2, F3, F4. destruct F1 as (F11 & F12 & F13). destruct F2 as (F21 & F22 & F23). destruct F3 as (F31 & F32 & F33). destruct F4 as (F41 & F42 & F43).
  assert (X : mant (io_x o) = claim_x p k (mant (io_liq o))) by (unfold claim_x, k; rewrite P4, P11, P12; eapply amt_x; eauto; lia).
  assert (Y : mant (io_y o) = claim_y p k (mant (io_liq o))) by (unfold claim_y, k; rewrite P4, P11, P12; eapply amt_y; eauto; lia).
  assert (Hk : 0 <= held p k).
  { unfold held. destruct (pm_get k (positions p)) as [q |] eqn:Eq; [| lia]. apply pm_get_in in Eq. destruct Q as [_ Q]. pose proof W as (_ & _ & _ & (_ & PW) & _). pose proof (PW _ _ Eq) as (Wl & _). destruct (Q _ _ Eq) as (_ & Qn & _). apply is_neg_f; auto. apply wf_nn; auto. }
  cbn [glbl_rp gs spacing with_funds rx ry positions]. split; [split; [exact Q' | intros k' q' I; destruct (set_pos_keys _ _ _ _ _ _ _ D12 _ _ I) as [-> | [q0 I0]]; [exact K | eauto]] |].
  csplit; auto; try congruence; try lia.
  - rewrite M1, E2. lia.
  - rewrite M4, E3. lia.
Qed.
Lemma cut_m : forall x z, wf x -> dscale x = 12 -> (0 <= mant x) -> d_mul x (mkD 999999999999 12 false) = Ok z -> mant z <= mant x /\ dscale z = 12 /\ 0 <= mant z /\ mant x <= mant z + 1 + mant x / SC.
Proof.
  intros x z W S Hx H. pose proof SCpos. unfold d_mul in H. bd H v F1. bd H r F2. bd H u F3. injection H as <-. apply cmul_ok in F1. apply cdiv_ok in F3. destruct F1 as [-> _]. destruct F3 as [-> _].
  cbn [dval dscale dneg] in *. assert (r = SC) as -> by (vm_compute in F2; injection F2 as <-; reflexivity). unfold mant in *. cbn [dval dneg]. pose proof (wf_nn _ W) as Wn.
  assert (B : dval x * 999999999999 / SC <= dval x) by (apply Z.div_le_upper_bound; [lia |]; change 999999999999 with (SC - 1); nia).
  assert (B0 : 0 <= dval x * 999999999999 / SC) by (apply Z.div_pos; lia).
  assert (B1 : dval x <= dval x * 999999999999 / SC + 1 + dval x / SC).
  { pose proof (Z.div_mod (dval x * 999999999999) SC ltac:(lia)) as A1. pose proof (Z.mod_pos_bound (dval x * 999999999999) SC ltac:(lia)). pose proof (Z.div_mod (dval x) SC ltac:(lia)) as A2. pose proof (Z.mod_pos_bound (dval x) SC ltac:(lia)).
    change 999999999999 with (SC - 1) in *. nia. }
  destruct (dneg x) eqn:F; cbn.
  - assert (dval x = 0) as E by lia. rewrite E. change (- 0) with 0. rewrite Z.mul_0_l, Zdiv_0_l. csplit; auto; lia.
  - csplit; auto; lia.
Qed.
Lemma neg_scale : forall d, dscale (d_neg d) = dscale d. Proof. intros d. unfold d_neg. destruct (is_negative d), (is_positive d); auto. Qed.
Lemma withdraw_step : forall orc p user l rpa rpb lo up p' o, reachable orc p -> lp_ok p -> wf l -> wf rpa -> wf rpb -> range_of p rpa rpb lo up ->
  withdraw p user l rpa rpb = Ok (p', o) -> let k := (user, lo, up) in
  lp_ok p' /\ sound_key k /\ glbl_rp p' = glbl_rp p /\ spacing p' = spacing p /\ dscale l = 12 /\ 0 <= mant l <= held p k /\
  dscale (io_netx o) = 12 /\ dscale (io_nety o) = 12 /\
  0 <= mant (io_netx o) <= claim_x p k (mant l) /\ 0 <= mant (io_nety o) <= claim_y p k (mant l) /\
  mant (rx p') = mant (rx p) - mant (io_netx o) /\ mant (ry p') = mant (ry p) - mant (io_nety o) /\
  (forall f, f k 0 = 0 -> psum f (positions p') = psum f (positions p) + f k (held p k - mant l) - f k (held p k)).
Proof.
  intros orc p user l rpa rpb lo up p' o R (Q & SK) Wl Wa Wb RG H k. pose proof (reachable_nn _ _ R) as N. pose proof (proj1 N) as W. destruct (reachable_12 _ _ R) as (T1 & T2 & _).
  destruct (withdraw_wf _ _ _ _ _ _ _ H W Wl Wa Wb) as [_ (V1 & V2 & V3 & V4 & V5 & V6 & V7 & V8 & V9)].
  destruct (withdraw_inv _ _ _ _ _ _ _ H) as (lo' & up' & a & b & p1 & x0 & y0 & nx & ny & nxf & nxa & nyf & nya & D1 & D2 & D3 & D4 & D5 & D6 & D7 & D8 & D9 & D10 & D11 & D12 & (xd & yd & F1 & F2 & F3 & F4) & _ & _ & D18 & D19 & _ & _ & _ & _ & ->).
  pose proof RG as (G1 & G2 & _). rewrite G1 in D1. injection D1 as <-. rewrite G2 in D2. injection D2 as <-.
  apply set_position_inv in D8. destruct (set_pos_same _ _ _ _ _ _ _ D8) as (E0 & _ & E1 & _ & E2 & E3 & _).
  destruct (range_prices _ _ _ _ _ _ _ _ R RG D4 D5) as (P1 & P2 & P3 & P4 & P5 & P6 & P7 & P8 & P9 & P10 & P11 & P12).
  rewrite E1 in D9, D10. pose proof (x_from_scale _ _ _ _ _ D9) as [Sx _]. pose proof (y_from_scale _ _ _ _ _ D10) as [Sy _].
  pose proof (sub_m _ _ _ D18) as (M1 & M2 & M3). pose proof (sub_m _ _ _ D19) as (M4 & M5 & M6).
  assert (Sz : forall c d e, d_mul c d = Ok e -> dscale e = dscale c) by (intros c d e E; unfold d_mul in E; bd E v I1; bd E r I2; bd E u I3; injection E as <-; auto).
  pose proof (Sz _ _ _ D11) as S1. pose proof (Sz _ _ _ D12) as S2.
  assert (Sl : dscale l = 12) by congruence.
  assert (Nl' : 0 <= mant l) by (apply is_neg_f; auto; apply wf_nn; auto).
  assert (Wn : wf (d_neg l)) by (apply neg_wf; auto). assert (Mn : mant (d_neg l) = - mant l) by (apply neg_m; apply wf_nn; auto).
  destruct (set_pos_quiet _ _ _ _ _ _ _ _ R Q D8 Wn ltac:(rewrite neg_scale; exact Sl)) as (Q' & (Z1 & Z2 & Z3 & Z4) & PS & Hn & _).
  assert (K : sound_key k) by (unfold k, sound_key; rewrite P11, P12; auto).
  apply zero_mant in Z1, Z2, Z3, Z4; auto.
  apply add_m in F1, F2, F3, F4. destruct F1 as (F11 & F12 & F13). destruct F2 as (F21 & F22 & F23). destruct F3 as (F31 & F32 & F33). destruct F4 as (F41 & F42 & F43).
  assert (X : mant x0 = claim_x p k (mant l)) by (unfold claim_x, k; rewrite P4, P11, P12; eapply amt_x; eauto; lia).
  assert (Y : mant y0 = claim_y p k (mant l)) by (unfold claim_y, k; rewrite P4, P11, P12; eapply amt_y; eauto; lia).
  destruct (claim_facts p k (mant l) 0 K) as (_ & CN & _). destruct (CN Nl') as [CX CY].
  assert (Wx0 : wf x0) by (eapply x_from_wf; [exact D9 | | | |]; auto; [apply P1 | apply P5 | apply P8]). assert (Wy0 : wf y0) by (eapply y_from_wf; [exact D10 | | | |]; auto; [apply P1 | apply P5 | apply P8]).
  destruct (cut_m _ _ Wx0 ltac:(congruence) ltac:(lia) D11) as (C1 & C2 & C3 & _). destruct (cut_m _ _ Wy0 ltac:(congruence) ltac:(lia) D12) as (C4 & C5 & C6 & _).
  cbn [glbl_rp gs spacing with_funds rx ry positions]. split; [split; [exact Q' | intros k' q' I; destruct (set_pos_keys _ _ _ _ _ _ _ D8 _ _ I) as [-> | [q0 I0]]; [exact K | eauto]] |].
  fold k in Hn, PS. rewrite Mn in Hn, PS.
  csplit; auto; try congruence; try lia.
  - rewrite M1, E2. lia.
  - rewrite M4, E3. lia.
Qed.

(** ** Histories *)
Definition zsum (s : string -> bool) (f : ev -> Z) (es : list ev) : Z := fold_right (fun e acc => if s (e_user e) then f e + acc else acc) 0 es.
Definition flow_x (e : ev) : Z := if e_in e then mant (io_netx (e_o e)) else - mant (io_netx (e_o e)).
Definition flow_y (e : ev) : Z := if e_in e then mant (io_nety (e_o e)) else - mant (io_nety (e_o e)).
Definition tops (e : ev) : Z := if e_topup e then 1 else 0.
Definition mine_x (p : pool) (s : string -> bool) (k : pkey) (l : Z) : Z := let '(u, _, _) := k in if s u then claim_x p k l else 0.
Definition mine_y (p : pool) (s : string -> bool) (k : pkey) (l : Z) : Z := let '(u, _, _) := k in if s u then claim_y p k l else 0.
Definition at_12 (e : ev) : Prop := dscale (io_netx (e_o e)) = 12 /\ dscale (io_nety (e_o e)) = 12.

Lemma new_ok : forall rp sp c rate p, wf rp -> wf c -> wf rate -> 0 <= sp -> pool_new rp sp c rate = Ok p -> lp_ok p /\ positions p = [] /\ mant (rx p) = 0 /\ mant (ry p) = 0.
Proof.
  intros rp sp c rate p W1 W2 W3 Hs H. destruct (pool_new_wf _ _ _ _ _ H W1 W2 W3 Hs) as (W & T & P & S & (R1 & R2 & R3 & R4 & R5 & R6) & F).
  destruct F as (_ & _ & (G1 & G2 & G3 & G4) & _).
  unfold lp_ok, quiet. rewrite P, R1, R2. csplit; auto; try (intros k q []). intros k. destruct k; cbn [g_fee]; rewrite ?G1, ?G2, ?G3, ?G4; reflexivity.
Qed.
Lemma zsum_cons : forall s f e es, zsum s f (e :: es) = (if s (e_user e) then f e else 0) + zsum s f es.
Proof. intros. cbn. fold (zsum s f es). destruct (s (e_user e)); lia. Qed.
Lemma mine_at : forall p s u lo up l, mine_x p s (u, lo, up) l = (if s u then claim_x p (u, lo, up) l else 0) /\ mine_y p s (u, lo, up) l = (if s u then claim_y p (u, lo, up) l else 0).
Proof. intros. split; reflexivity. Qed.
Lemma history_inv : forall orc rp sp c rate p0 es p, wf rp -> wf c -> wf rate -> 0 <= sp -> pool_new rp sp c rate = Ok p0 -> lp_history p0 es p ->
  reachable orc p /\ lp_ok p /\ glbl_rp p = glbl_rp p0 /\ Forall at_12 es /\
  (mant (rx p) = zsum (fun _ => true) flow_x es /\ mant (ry p) = zsum (fun _ => true) flow_y es) /\
  forall s, psum (mine_x p0 s) (positions p) <= zsum s flow_x es + 2 * zsum s tops es /\ psum (mine_y p0 s) (positions p) <= zsum s flow_y es + zsum s tops es.
Proof.
  intros orc rp sp c rate p0 es p W1 W2 W3 Hs H0 H. induction H as [| es p u x y a b lo up p' o H IH Wx Wy Wa Wb RG D | es p u l a b lo up p' o H IH Wl Wa Wb RG D].
  - destruct (new_ok _ _ _ _ _ W1 W2 W3 Hs H0) as (L & P & R1 & R2). split; [exact (r_new orc rp sp c rate p0 W1 W2 W3 Hs H0) |]. csplit; auto; intros s; rewrite P; cbn; lia.
  - destruct IH as (R & L & G & F & (RX & RY) & B). destruct (deposit_step _ _ _ _ _ _ _ _ _ _ _ R L Wx Wy Wa Wb RG D) as (L' & K & E1 & _ & _ & Nl & S1 & S2 & X & Y & NX & NY & PS & Hh).
    set (k := (u, lo, up)) in *. set (m := mant (io_liq o)) in *. csplit; auto.
    + eapply (r_call orc p (CDeposit u x y a b)); [exact R | cbn; auto |]. cbn [run_call]. rewrite D. reflexivity.
    + congruence.
    + constructor; auto. split; auto.
    + rewrite NX, RX. cbn [zsum fold_right]. unfold flow_x at 2. cbn [e_in e_o]. fold (zsum (fun _ => true) flow_x es). lia.
    + rewrite NY, RY. cbn [zsum fold_right]. unfold flow_y at 2. cbn [e_in e_o]. fold (zsum (fun _ => true) flow_y es). lia.
    + intros s. specialize (B s). destruct (claim_facts p0 k (held p k) m K) as ([Z1 Z2] & _ & CX & CY). destruct (keep p p0 (eq_sym G) k m) as [KX KY].
      assert (PX := PS (mine_x p0 s)). assert (PY := PS (mine_y p0 s)). unfold k in PX, PY. rewrite !(proj1 (mine_at _ _ _ _ _ _)) in PX. rewrite !(proj2 (mine_at _ _ _ _ _ _)) in PY. fold k in PX, PY.
      rewrite !zsum_cons, PX, PY by (destruct (s u); auto). cbn [e_user]. destruct (s u); [| lia].
      unfold flow_x at 1, flow_y at 1, tops at 1 3. cbn [e_in e_topup e_o]. destruct (held p k =? 0) eqn:Hz; cbn [negb]; [apply Z.eqb_eq in Hz; rewrite Hz in *; cbn [Z.add] in * |]; lia.
  - destruct IH as (R & L & G & F & (RX & RY) & B). destruct (withdraw_step _ _ _ _ _ _ _ _ _ _ R L Wl Wa Wb RG D) as (L' & K & E1 & _ & _ & Nl & S1 & S2 & X & Y & NX & NY & PS).
    set (k := (u, lo, up)) in *. set (m := mant l) in *. csplit; auto.
    + eapply (r_call orc p (CWithdraw u l a b)); [exact R | cbn; auto |]. cbn [run_call]. rewrite D. reflexivity.
    + congruence.
    + constructor; auto. split; auto.
    + rewrite NX, RX. cbn [zsum fold_right]. unfold flow_x at 2. cbn [e_in e_o]. fold (zsum (fun _ => true) flow_x es). lia.
    + rewrite NY, RY. cbn [zsum fold_right]. unfold flow_y at 2. cbn [e_in e_o]. fold (zsum (fun _ => true) flow_y es). lia.
    + intros s. specialize (B s). destruct (claim_facts p0 k (held p k - m) m K) as (_ & _ & CX & CY). destruct (keep p p0 (eq_sym G) k m) as [KX KY]. replace (held p k - m + m) with (held p k) in CX, CY by lia.
      destruct (claim_facts p0 k 0 0 K) as ([Z1 Z2] & _).
      assert (PX := PS (mine_x p0 s)). assert (PY := PS (mine_y p0 s)). unfold k in PX, PY. rewrite !(proj1 (mine_at _ _ _ _ _ _)) in PX. rewrite !(proj2 (mine_at _ _ _ _ _ _)) in PY. fold k in PX, PY.
      rewrite !zsum_cons, PX, PY by (destruct (s u); auto). cbn [e_user]. destruct (s u); [| lia].
      unfold flow_x at 1, flow_y at 1, tops at 1 3. cbn [e_in e_topup e_o]. lia.
Qed.
Lemma psum_nn : forall f m, (forall k q, In (k, q) m -> 0 <= f k (mant (p_liq q))) -> 0 <= psum f m.
Proof. intros f m H. induction m as [| [k q] m IH]; cbn; [lia |]. fold (psum f m). pose proof (H k q (or_introl eq_refl)). assert (0 <= psum f m) by (apply IH; intros; apply H; right; auto). lia. Qed.
Lemma mine_nn : forall orc p p0 s, reachable orc p -> lp_ok p -> 0 <= psum (mine_x p0 s) (positions p) /\ 0 <= psum (mine_y p0 s) (positions p).
Proof.
  intros orc p p0 s R [[_ Q] SK]. pose proof (reachable_nn _ _ R) as N. pose proof (proj1 N) as (_ & _ & _ & (_ & PW) & _).
  assert (A : forall k q, In (k, q) (positions p) -> 0 <= claim_x p0 k (mant (p_liq q)) /\ 0 <= claim_y p0 k (mant (p_liq q))).
  { intros k q I. destruct (Q _ _ I) as (_ & Qn & _). destruct (PW _ _ I) as (Wl & _). apply is_neg_f in Qn; [| apply wf_nn; auto]. destruct (claim_facts p0 k (mant (p_liq q)) 0 (SK _ _ I)) as (_ & C & _). auto. }
  split; apply psum_nn; intros [[u lo] up] q I; rewrite ?(proj1 (mine_at _ _ _ _ _ _)), ?(proj2 (mine_at _ _ _ _ _ _)); destruct (s u); try lia; apply (A _ _ I).
Qed.
Lemma num12 : forall d, dscale d = 12 -> (num d == inject_Z (mant d) * ulp12)%Q.
Proof. intros d S. unfold num. rewrite S. reflexivity. Qed.
Lemma sums_q : forall s es, Forall at_12 es ->
  (sum_over s given_x es - sum_over s taken_x es == inject_Z (zsum s flow_x es) * ulp12 /\
   sum_over s given_y es - sum_over s taken_y es == inject_Z (zsum s flow_y es) * ulp12 /\ sum_over s topups es == inject_Z (zsum s tops es))%Q.
Proof.
  intros s es F. induction F as [| e es [S1 S2] F (I1 & I2 & I3)]; [cbn; csplit; ring |]. rewrite !zsum_cons, !inject_Z_plus. cbn [sum_over fold_right].
  fold (sum_over s given_x es) (sum_over s taken_x es) (sum_over s given_y es) (sum_over s taken_y es) (sum_over s topups es).
  destruct (s (e_user e)); [| change (inject_Z 0) with 0%Q; csplit; lra].
  pose proof (num12 _ S1) as M1. pose proof (num12 _ S2) as M2. unfold given_x at 1, given_y at 1, taken_x at 1, taken_y at 1, topups at 1, flow_x at 1, flow_y at 1, tops at 1.
  destruct (e_in e), (e_topup e); rewrite ?inject_Z_opp; change (inject_Z 0) with 0%Q; change (inject_Z 1) with 1%Q; csplit; lra.
Qed.

(** C51, what holds: without swaps, no group of users takes out more than it put in, plus 2 (1) units of 10^-12 X (Y) for every
    deposit it made into a position that already held liquidity. *)
Theorem gain_bounded : forall rp sp c rate p0 es p s, wf rp -> wf c -> wf rate -> 0 <= sp -> pool_new rp sp c rate = Ok p0 -> lp_history p0 es p ->
  (sum_over s taken_x es <= sum_over s given_x es + (2#1) * ulp12 * sum_over s topups es /\
   sum_over s taken_y es <= sum_over s given_y es + ulp12 * sum_over s topups es)%Q.
Proof.
  intros rp sp c rate p0 es p s W1 W2 W3 Hs H0 H. destruct (history_inv (fun _ _ => (0, false)) _ _ _ _ _ _ _ W1 W2 W3 Hs H0 H) as (R & L & _ & F & _ & B). destruct (B s) as [B1 B2]. destruct (mine_nn _ _ p0 s R L) as [N1 N2].
  destruct (sums_q s es F) as (Q1 & Q2 & Q3). assert (C1 : (0 <= inject_Z (zsum s flow_x es) + (2#1) * inject_Z (zsum s tops es))%Q).
  { change (2#1)%Q with (inject_Z 2). rewrite <- inject_Z_mult, <- inject_Z_plus. change 0%Q with (inject_Z 0). rewrite <- Zle_Qle. lia. }
  assert (C2 : (0 <= inject_Z (zsum s flow_y es) + inject_Z (zsum s tops es))%Q). { rewrite <- inject_Z_plus. change 0%Q with (inject_Z 0). rewrite <- Zle_Qle. lia. }
  rewrite Q3. assert (U : (0 < ulp12)%Q) by reflexivity. split; nra.
Qed.

(** What the open positions could take out together, against the reserves. *)
Definition total_x (p : pool) : Z := fold_right (fun kq acc => claim_x p (fst kq) (mant (p_liq (snd kq))) + acc) 0 (positions p).
Definition total_y (p : pool) : Z := fold_right (fun kq acc => claim_y p (fst kq) (mant (p_liq (snd kq))) + acc) 0 (positions p).
Lemma psum_ext : forall f g m, (forall k l, f k l = g k l) -> psum f m = psum g m.
Proof. intros f g m H. induction m as [| [k q] m IH]; cbn; auto. fold (psum f m) (psum g m). rewrite IH, H. auto. Qed.
Theorem reserves_cover : forall rp sp c rate p0 es p, wf rp -> wf c -> wf rate -> 0 <= sp -> pool_new rp sp c rate = Ok p0 -> lp_history p0 es p ->
  (inject_Z (total_x p) * ulp12 <= num (rx p) + (2#1) * ulp12 * sum_over (fun _ => true) topups es /\
   inject_Z (total_y p) * ulp12 <= num (ry p) + ulp12 * sum_over (fun _ => true) topups es)%Q.
Proof.
  intros rp sp c rate p0 es p W1 W2 W3 Hs H0 H. destruct (history_inv (fun _ _ => (0, false)) _ _ _ _ _ _ _ W1 W2 W3 Hs H0 H) as (R & L & G & F & (R1 & R2) & B). destruct (B (fun _ => true)) as [B1 B2].
  destruct (reachable_12 _ _ R) as (T1 & T2 & _). destruct (sums_q (fun _ => true) es F) as (_ & _ & Q3). rewrite (num12 _ T1), (num12 _ T2), R1, R2, Q3.
  assert (E1 : total_x p = psum (mine_x p0 (fun _ => true)) (positions p)). { change (total_x p) with (psum (claim_x p) (positions p)). apply psum_ext. intros [[u lo] up] l. rewrite (proj1 (mine_at _ _ _ _ _ _)). symmetry. apply (keep p p0); auto. }
  assert (E2 : total_y p = psum (mine_y p0 (fun _ => true)) (positions p)). { change (total_y p) with (psum (claim_y p) (positions p)). apply psum_ext. intros [[u lo] up] l. rewrite (proj2 (mine_at _ _ _ _ _ _)). symmetry. apply (keep p p0); auto. }
  rewrite <- E1 in B1. rewrite <- E2 in B2. rewrite Zle_Qle in B1, B2. rewrite inject_Z_plus in B1, B2. rewrite inject_Z_mult in B1. change (inject_Z 2) with (2#1)%Q in B1. assert (U : (0 <= ulp12)%Q) by discriminate.
  apply Qmult_le_compat_r with (z := ulp12) in B1, B2; auto. split; lra.
Qed.

(** ** Computing histories (for the examples) *)
Definition range_b (p : pool) (a b : decimal) : res (Z * Z) :=
  let* lo := rp_to_possible_tk a (spacing p) false 0 in let* up := rp_to_possible_tk b (spacing p) false lo in
  if (0 <=? lo) && (lo <? up) && (lo mod spacing p =? 0) && (up mod spacing p =? 0) then Ok (lo, up) else Panic.
Definition play1 (p : pool) (c : call) : res (ev * pool) :=
  match c with
  | CDeposit u x y a b => let* r := range_b p a b in let '(lo, up) := r in let* q := deposit p u x y a b in Ok (mkEv u true (negb (held p (u, lo, up) =? 0)) (snd q), fst q)
  | CWithdraw u l a b => let* r := range_b p a b in let* q := withdraw p u l a b in Ok (mkEv u false false (snd q), fst q)
  | _ => Panic
  end.
Fixpoint play (p : pool) (es : list ev) (cs : list call) : res (list ev * pool) :=
  match cs with [] => Ok (es, p) | c :: cs => let* r := play1 p c in play (snd r) (fst r :: es) cs end.
Lemma play_history : forall p0 cs es p es' p', Forall call_wf cs -> lp_history p0 es p -> play p es cs = Ok (es', p') -> lp_history p0 es' p'.
Proof.
  intros p0 cs. induction cs as [| c cs IH]; intros es p es' p' F H P; cbn [play] in P; [injection P as <- <-; auto |]. inversion F as [| ? ? C F']; subst. bd P r E. destruct r as [e q]. cbn [fst snd] in P.
  apply (IH (e :: es) q); auto. clear IH P.
  assert (RB : forall a b lo up, range_b p a b = Ok (lo, up) -> range_of p a b lo up).
  { intros a b lo up X. unfold range_b in X. bd X l E1. bd X u E2. destruct (_ && _) eqn:B; [| discriminate X]. injection X as <- <-. rewrite !andb_true_iff in B. destruct B as [[[B1 B2] B3] B4]. apply Z.leb_le in B1. apply Z.ltb_lt in B2. apply Z.eqb_eq in B3, B4. exact (conj E1 (conj E2 (conj (conj B1 B2) (conj B3 B4)))). }
  destruct c as [u x y a b | u l a b | d w | d w]; unfold play1 in E; [| | discriminate E | discriminate E]; cbn [call_wf] in C.
  - bd E r E1; destruct r as [lo up]. bd E r E2. destruct r as [q' o]. injection E as <- <-. destruct C as (C1 & C2 & C3 & C4). exact (h_in p0 es p u x y a b lo up q' o H C1 C2 C3 C4 (RB _ _ _ _ E1) E2).
  - bd E r E1; destruct r as [lo up]. bd E r E2. destruct r as [q' o]. injection E as <- <-. destruct C as (C1 & C2 & C3). exact (h_out p0 es p u l a b lo up q' o H C1 C2 C3 (RB _ _ _ _ E1) E2).
Qed.
