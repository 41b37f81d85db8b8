(** What positions are worth on the exact curve, and how swaps move reserves against it. *)
From Coq Require Import ZArith QArith Qminmax List Bool Lia Lqa String Sorted.
From Verif Require Import Base BaseLemmas DecimalModel DecimalSpec DecimalProofs PowProofs WfProofs MathModel MathProofs TickProofs TickLoop PoolModel PoolWf SwapLoop SwapProofs LpProofs PoolInv PoolNonneg PoolLp PoolRange PoolFees PoolGain PoolScale SwapAmounts.
Import ListNotations.
Open Scope Z_scope.

(** ** Specification *)
(** The root price of a tick as a rational number. *)
Definition price_q (t : Z) : Q := match tick_to_rp t with Ok r => num r | _ => 0%Q end.
(** Liquidity [1] spread over root prices [a .. b] stands, at root price [r], for [1/r' - 1/b] of X and [r' - a] of Y, [r'] being [r] brought into the range. *)
Definition clampq (r a b : Q) : Q := Qmax a (Qmin r b).
Definition unit_x (r a b : Q) : Q := (/ clampq r a b - / b)%Q.
Definition unit_y (r a b : Q) : Q := (clampq r a b - a)%Q.
(** Exact worth of all positions at the current price. *)
Definition owed_x (p : pool) : Q := weighted (fun lo up => unit_x (num (glbl_rp p)) (price_q lo) (price_q up)) (positions p).
Definition owed_y (p : pool) : Q := weighted (fun lo up => unit_y (num (glbl_rp p)) (price_q lo) (price_q up)) (positions p).
(** The recorded tick and the price are on the same side of every active tick. *)
Definition settled (p : pool) : Prop := forall k ts, In (k, ts) (ticks p) ->
  (k <= glbl_tick p -> (price_q k <= num (glbl_rp p))%Q) /\ (glbl_tick p < k -> (num (glbl_rp p) <= price_q k)%Q).

(** ** Positions have proper price ranges *)
Definition sound (p : pool) : Prop := forall u lo up q, In ((u, lo, up), q) (positions p) -> exists a b, tick_to_rp lo = Ok a /\ tick_to_rp up = Ok b.
Lemma set_pos_sound : forall p u lo up d p' paid, set_pos p u lo up d p' paid -> sound p -> (exists a b, tick_to_rp lo = Ok a /\ tick_to_rp up = Ok b) -> sound p'.
Proof. intros p u lo up d p' paid H S E u' lo' up' q I. destruct (set_pos_keys _ _ _ _ _ _ _ H _ _ I) as [K | [q' I']]; [injection K as -> -> ->; auto | eauto]. Qed.
Theorem reachable_sound : forall orc p, reachable orc p -> sound p.
Proof.
  intros orc p H. induction H as [rp sp c rate p W1 W2 W3 Hs H | p c p' Hr IH C H].
  - destruct (pool_new_wf _ _ _ _ _ H W1 W2 W3 Hs) as (_ & _ & P & _). intros u lo up q I. rewrite P in I. destruct I.
  - pose proof (reachable_nn _ _ Hr) as (W & _). destruct c as [u x y a b | u l a b | d o | d o]; cbn [run_call call_wf] in *; bd H r E; destruct r as [q out]; injection H as <-.
    + destruct (deposit_inv _ _ _ _ _ _ _ _ E) as (lo' & up' & ra & rb & p1 & nx & ny & nxf & nxa & nyf & nya & D1 & D2 & D3 & D4 & D5 & D6 & D7 & D8 & _ & D10 & _ & D12 & _ & _ & D18 & D19 & _ & _ & _ & _ & _ & _ & ->).
      apply set_position_inv in D12. apply (set_pos_sound _ _ _ _ _ _ _ D12 IH). eauto.
    + destruct (withdraw_inv _ _ _ _ _ _ _ E) as (lo' & up' & ra & rb & p1 & x0 & y0 & nx & ny & nxf & nxa & nyf & nya & D1 & D2 & D3 & D4 & D5 & D6 & D7 & D8 & D9 & D10 & D11 & D12 & _ & _ & _ & D18 & D19 & _ & _ & _ & _ & ->).
      apply set_position_inv in D8. apply (set_pos_sound _ _ _ _ _ _ _ D8 IH). eauto.
    + destruct C as [C1 C2]. destruct (swap_x_records _ _ _ _ _ _ W C1 C2 E) as [(R & _) _]. unfold sound. rewrite R. exact IH.
    + destruct C as [C1 C2]. destruct (swap_y_records _ _ _ _ _ _ W C1 C2 E) as [(R & _) _]. unfold sound. rewrite R. exact IH.
Qed.
Lemma price_q_ok : forall t r, tick_to_rp t = Ok r -> price_q t = num r. Proof. intros t r H. unfold price_q. rewrite H. auto. Qed.
Lemma price_q_le : forall t u, 0 <= t <= u -> (exists r, tick_to_rp u = Ok r) -> (price_q t <= price_q u)%Q.
Proof.
  intros t u H [r E]. rewrite (price_q_ok u r E). unfold price_q. destruct (tick_to_rp t) as [s | | |] eqn:Et; try (destruct (tick_nn _ _ E); lra). eapply price_le; eauto.
Qed.
Lemma price_q_lt : forall t u r s, 0 <= t < u -> tick_to_rp t = Ok r -> tick_to_rp u = Ok s -> (1 <= price_q t /\ price_q t < price_q u)%Q.
Proof. intros t u r s H E1 E2. rewrite (price_q_ok t r E1), (price_q_ok u s E2). split; [apply (tick_price_ok _ _ E1) | eapply tick_lt; eauto; lia]. Qed.

(** Positive positions have active ends. *)
Lemma gross_pos : forall sp m t u lo up q, pos_ok sp m -> (forall k q, In (k, q) m -> p_wf q) -> In ((u, lo, up), q) m -> 0 < mant (p_liq q) -> lo = t \/ up = t ->
  (0 < weighted (fun lo up => is_b (lo =? t) + is_b (up =? t)) m)%Q.
Proof.
  intros sp m t u lo up q Po Wp I P E. induction m as [| [[[u' lo'] up'] q'] m IH]; [destruct I |]. cbn [weighted].
  assert (N : (0 <= weighted (fun lo up => is_b (lo =? t) + is_b (up =? t)) m)%Q).
  { assert (Po' : pos_ok sp m) by (intros a b c d Hi; eapply Po; right; eauto).
    pose proof (weighted_le sp (fun _ _ => 0%Q) (fun lo up => is_b (lo =? t) + is_b (up =? t))%Q m Po' (fun k q Hi => Wp k q (or_intror Hi))) as L. rewrite weighted_zero in L. apply L.
    intros a b _. destruct (a =? t), (b =? t); cbn; lra. }
  assert (B : forall a b, (0 <= is_b (a =? t) + is_b (b =? t))%Q) by (intros a b; destruct (a =? t), (b =? t); cbn; lra).
  destruct (Po _ _ _ _ (or_introl eq_refl)) as (_ & _ & _ & L0). destruct (Wp _ _ (or_introl eq_refl)) as (Wl & _). apply num_sign in L0; auto.
  pose proof (B lo' up') as B'. assert (N0 : (0 <= (is_b (lo' =? t) + is_b (up' =? t)) * num (p_liq q'))%Q) by (apply Qmult_le_0_compat; auto).
  destruct I as [I | I].
  - injection I as -> -> -> ->. assert (0 < num (p_liq q))%Q. { apply Qnot_le_lt. intros G. apply num_sign in G; auto. lia. }
    assert (1 <= is_b (lo =? t) + is_b (up =? t))%Q. { destruct E as [-> | ->]; rewrite Z.eqb_refl; [destruct (up =? t) | destruct (lo =? t)]; cbn; lra. }
    assert (1 * num (p_liq q) <= (is_b (lo =? t) + is_b (up =? t)) * num (p_liq q))%Q by (apply Qmult_le_compat_r; lra). lra.
  - assert (0 < weighted (fun lo up => is_b (lo =? t) + is_b (up =? t)) m)%Q; [| lra]. apply IH; auto.
    + intros a b c d Hi. eapply Po. right; eauto.
    + intros k q0 Hi. eapply Wp. right; eauto.
Qed.
Lemma pos_key : forall p u lo up q, tick_inv p -> In ((u, lo, up), q) (positions p) -> 0 < mant (p_liq q) -> In lo (keys p) /\ In up (keys p).
Proof.
  intros p u lo up q (W & Sp & Po & I & _) Hi P. pose proof W as (_ & _ & _ & (_ & Wp) & _).
  assert (K : forall t, lo = t \/ up = t -> In t (keys p)).
  { intros t E. pose proof (gross_pos _ _ t _ _ _ _ Po Wp Hi P E) as G. fold (gross_at p t) in G. destruct (I t) as [I1 _]. rewrite <- I1 in G. unfold tick_gross in G.
    destruct (tm_get t (ticks p)) eqn:T; [| lra]. apply tm_get_in, (in_map fst) in T. exact T. }
  auto.
Qed.
Lemma key_price : forall p k, tick_inv p -> sound p -> In k (keys p) -> exists r, tick_to_rp k = Ok r.
Proof.
  intros p k (W & Sp & Po & I & G) So Hk.
  destruct (tm_get_some k (ticks p) Hk) as [ts E]. destruct (I k) as [I1 _]. unfold tick_gross in I1. rewrite E in I1. apply tm_get_in in E. pose proof (G _ _ E) as Pg.
  pose proof W as (_ & _ & (_ & Wt) & _). apply Wt in E. destruct E as (_ & _ & Wg & _).
  assert (P : (0 < gross_at p k)%Q). { rewrite <- I1. apply Qnot_le_lt. intros L. apply num_sign in L; auto. lia. }
  unfold gross_at in P. unfold sound in So. clear - P So. revert So P. generalize (positions p) as m. induction m as [| [[[u lo] up] q] m IH]; intros So P; cbn [weighted] in P; [lra |].
  destruct (So u lo up q (or_introl eq_refl)) as (a & b & Ea & Eb).
  destruct (Z.eqb_spec lo k) as [<- | N1]; eauto. destruct (Z.eqb_spec up k) as [<- | N2]; eauto.
  apply IH. { intros c d e f Hi. apply (So c d e f). right; auto. } cbn [is_b] in P. lra.
Qed.
Lemma settled_keys : forall p, settled p <-> (forall k, In k (keys p) -> (k <= glbl_tick p -> (price_q k <= num (glbl_rp p))%Q) /\ (glbl_tick p < k -> (num (glbl_rp p) <= price_q k)%Q)).
Proof.
  intros p. unfold settled, keys. split.
  - intros H k Hk. apply in_map_iff in Hk. destruct Hk as ([k' ts] & <- & Hi). cbn. eauto.
  - intros H k ts Hi. apply H. apply (in_map fst) in Hi. exact Hi.
Qed.

(** ** Moving the price between active ticks *)
Section Move.
Local Open Scope Q_scope.
Lemma clamp_in : forall r a b, a <= r -> r <= b -> clampq r a b == r.
Proof. intros r a b H1 H2. unfold clampq. rewrite Q.min_l by auto. apply Q.max_r. auto. Qed.
Lemma clamp_lo : forall r a b, a <= b -> r <= a -> clampq r a b == a.
Proof. intros r a b H1 H2. unfold clampq. rewrite Q.min_l by lra. apply Q.max_l. auto. Qed.
Lemma clamp_hi : forall r a b, a <= b -> b <= r -> clampq r a b == b.
Proof. intros r a b H1 H2. unfold clampq. rewrite Q.min_r by auto. apply Q.max_r. auto. Qed.
Lemma slide : forall t e s m, e <= s ->
  (forall u lo up q, In ((u, lo, up), q) m -> (0 < mant (p_liq q))%Z -> price_q lo <= price_q up /\
     ((lo <= t < up)%Z -> price_q lo <= e /\ s <= price_q up) /\ (~ (lo <= t < up)%Z -> price_q up <= e \/ s <= price_q lo)) ->
  (forall u lo up q, In ((u, lo, up), q) m -> wf (p_liq q) /\ (0 <= mant (p_liq q))%Z) ->
  weighted (fun lo up => unit_x e (price_q lo) (price_q up)) m - weighted (fun lo up => unit_x s (price_q lo) (price_q up)) m
    == (/ e - / s) * weighted (fun lo up => is_b ((lo <=? t) && (t <? up))%Z) m /\
  weighted (fun lo up => unit_y s (price_q lo) (price_q up)) m - weighted (fun lo up => unit_y e (price_q lo) (price_q up)) m
    == (s - e) * weighted (fun lo up => is_b ((lo <=? t) && (t <? up))%Z) m.
Proof.
  intros t e s m L. induction m as [| [[[u lo] up] q] m IH]; intros H N; [cbn; split; ring |]. cbn [weighted].
  destruct IH as [IX IY]. { intros a b c d Hi. apply (H a b c d). right; auto. } { intros a b c d Hi. apply (N a b c d). right; auto. }
  assert (K : (unit_x e (price_q lo) (price_q up) - unit_x s (price_q lo) (price_q up)) * num (p_liq q) == (/ e - / s) * is_b ((lo <=? t) && (t <? up))%Z * num (p_liq q) /\
              (unit_y s (price_q lo) (price_q up) - unit_y e (price_q lo) (price_q up)) * num (p_liq q) == (s - e) * is_b ((lo <=? t) && (t <? up))%Z * num (p_liq q)).
  { destruct (N _ _ _ _ (or_introl eq_refl)) as [Wl Nl]. destruct (Z.eq_dec (mant (p_liq q)) 0) as [E0 | E0].
    { assert (Z0 : num (p_liq q) == 0) by (apply num_sign; auto). rewrite Z0. split; ring. }
    destruct (H _ _ _ _ (or_introl eq_refl) ltac:(lia)) as (O & C1 & C2). unfold unit_x, unit_y.
    destruct (Z.leb_spec lo t), (Z.ltb_spec t up); cbn [andb is_b].
    - destruct C1 as [C1 C3]; [lia |]. rewrite !clamp_in by lra. split; ring.
    - destruct C2 as [C2 | C2]; [lia | |]; [rewrite !clamp_hi by lra | rewrite !clamp_lo by lra]; split; ring.
    - destruct C2 as [C2 | C2]; [lia | |]; [rewrite !clamp_hi by lra | rewrite !clamp_lo by lra]; split; ring.
    - destruct C2 as [C2 | C2]; [lia | |]; [rewrite !clamp_hi by lra | rewrite !clamp_lo by lra]; split; ring. }
  destruct K as [KX KY]. split; lra.
Qed.
End Move.
Definition ox (r : Q) (m : list (pkey * pstate)) : Q := weighted (fun lo up => unit_x r (price_q lo) (price_q up)) m.
Definition oy (r : Q) (m : list (pkey * pstate)) : Q := weighted (fun lo up => unit_y r (price_q lo) (price_q up)) m.
Lemma pos_facts : forall p, tick_inv p -> forall u lo up q, In ((u, lo, up), q) (positions p) -> wf (p_liq q) /\ 0 <= mant (p_liq q).
Proof. intros p (W & _ & Po & _) u lo up q Hi. pose proof W as (_ & _ & _ & (_ & Wp) & _). destruct (Wp _ _ Hi) as (Wl & _). destruct (Po _ _ _ _ Hi) as (_ & _ & _ & N). auto. Qed.
Lemma slide_down : forall p g e, tick_inv p -> sound p -> settled p -> liq_inv p -> In g (keys p) -> g <= glbl_tick p -> (forall k, In k (keys p) -> k <= glbl_tick p -> k <= g) ->
  (price_q g <= e)%Q -> (e <= num (glbl_rp p))%Q ->
  (ox e (positions p) - owed_x p == (/ e - / num (glbl_rp p)) * num (glbl_liq p))%Q /\ (owed_y p - oy e (positions p) == (num (glbl_rp p) - e) * num (glbl_liq p))%Q.
Proof.
  intros p g e T So St L Hg Lg Nx B1 B2. pose proof (proj1 (settled_keys p) St) as St'. destruct (key_price p g T So Hg) as [rg Eg].
  destruct (slide (glbl_tick p) e (num (glbl_rp p)) (positions p) B2) as [X Y].
  - intros u lo up q Hi P. destruct (So _ _ _ _ Hi) as (a & b & Ea & Eb). pose proof T as (W & Sp & Po & _). destruct (Po _ _ _ _ Hi) as ((P0 & P1) & _). destruct (pos_key _ _ _ _ _ T Hi P) as [K1 K2].
    split; [apply price_q_le; [lia | eauto] |]. split.
    + intros C. split; [| exact (proj2 (St' up K2) (proj2 C))]. assert (price_q lo <= price_q g)%Q; [| lra]. apply price_q_le; [split; [lia |] | eauto]. apply Nx; auto; lia.
    + intros C. destruct (Z.le_gt_cases lo (glbl_tick p)) as [C1 | C1]; [| right; exact (proj2 (St' lo K1) C1)]. left. assert (price_q up <= price_q g)%Q; [| lra]. apply price_q_le; [split; [lia |] | eauto]. apply Nx; auto; lia.
  - apply pos_facts; auto.
  - unfold liq_inv, covering in L. unfold owed_x, owed_y, ox, oy. rewrite L. auto.
Qed.
Lemma slide_up : forall p g e, tick_inv p -> sound p -> settled p -> liq_inv p -> In g (keys p) -> glbl_tick p < g -> (forall k, In k (keys p) -> glbl_tick p < k -> g <= k) ->
  (e <= price_q g)%Q -> (num (glbl_rp p) <= e)%Q ->
  (owed_x p - ox e (positions p) == (/ num (glbl_rp p) - / e) * num (glbl_liq p))%Q /\ (oy e (positions p) - owed_y p == (e - num (glbl_rp p)) * num (glbl_liq p))%Q.
Proof.
  intros p g e T So St L Hg Lg Nx B1 B2. pose proof (proj1 (settled_keys p) St) as St'. destruct (key_price p g T So Hg) as [rg Eg].
  destruct (slide (glbl_tick p) (num (glbl_rp p)) e (positions p) B2) as [X Y].
  - intros u lo up q Hi P. destruct (So _ _ _ _ Hi) as (a & b & Ea & Eb). pose proof T as (W & Sp & Po & _). destruct (Po _ _ _ _ Hi) as ((P0 & P1) & _). destruct (pos_key _ _ _ _ _ T Hi P) as [K1 K2].
    pose proof (key_nn _ _ W Hg) as G0. split; [apply price_q_le; [lia | eauto] |]. split.
    + intros C. split; [exact (proj1 (St' lo K1) (proj1 C)) |]. assert (price_q g <= price_q up)%Q; [| lra]. apply price_q_le; [split; [lia |] | eauto]. apply Nx; auto; lia.
    + intros C. destruct (Z.le_gt_cases lo (glbl_tick p)) as [C1 | C1]; [left; apply (proj1 (St' up K2)); lia |]. right. assert (price_q g <= price_q lo)%Q; [| lra]. apply price_q_le; [split; [lia |] | eauto]. apply Nx; auto; lia.
  - apply pos_facts; auto.
  - unfold liq_inv, covering in L. unfold owed_x, owed_y, ox, oy. rewrite L. auto.
Qed.

(** ** The moves of a swap, summarised *)
Definition dX (p p' : pool) : Q := (num (rx p') - num (rx p))%Q.
Definition dY (p p' : pool) : Q := (num (ry p') - num (ry p))%Q.
Definition went_down (p p' : pool) (g : Z) : Prop := glbl_tick p' = (g - 1) / spacing p * spacing p /\ (num (glbl_liq p') == num (glbl_liq p) - net_at p g)%Q.
Definition went_up (p p' : pool) (g : Z) : Prop := glbl_tick p' = g /\ (num (glbl_liq p') == num (glbl_liq p) + net_at p g)%Q.
Definition step_down (p p' : pool) (extra : Q) : Prop :=
  (0 < num (glbl_liq p) /\ 1 <= num (glbl_rp p') /\ num (glbl_rp p') <= num (glbl_rp p) /\ 0 <= dX p p' /\ 0 <= - dY p p' /\
   - dY p p' <= num (glbl_liq p) * (num (glbl_rp p) - num (glbl_rp p')) /\
   num (glbl_liq p) * (num (glbl_rp p) - num (glbl_rp p')) <= (dX p p' + extra) * (num (glbl_rp p) * num (glbl_rp p')))%Q.
Definition step_up (p p' : pool) (extra : Q) : Prop :=
  (0 < num (glbl_liq p) /\ num (glbl_rp p) <= num (glbl_rp p') /\ 0 <= dY p p' /\ 0 <= - dX p p' /\
   - dX p p' * (1 - ulp12) * (num (glbl_rp p) * num (glbl_rp p')) <= num (glbl_liq p) * (num (glbl_rp p') - num (glbl_rp p)) /\
   - dX p p' * (num (glbl_rp p) * num (glbl_rp p)) <= dY p p' /\
   num (glbl_liq p) * (num (glbl_rp p') - num (glbl_rp p)) <= dY p p' + extra)%Q.

Lemma records_keys : forall p p', same_records p p' -> keys p' = keys p.
Proof.
  intros p p' (_ & _ & _ & _ & E). unfold keys. assert (F : forall m : list (Z * tstate), map fst m = map (fun x => fst (fst x)) (map (fun kt => (fst kt, t_net (snd kt), t_gross (snd kt))) m)).
  { intros m. rewrite map_map. apply map_ext. intros [a b]; auto. } rewrite (F (ticks p')), (F (ticks p)), E. auto.
Qed.
Lemma mv_x_cases : forall orc dx ro a b, wf dx -> wf ro -> inv_x a -> tick_inv (fst a) -> nn (fst a) -> all12 (fst a) -> tot_ok dx (snd a) -> mv_x orc dx ro a b ->
  let p := fst a in let p' := fst b in
  exists g rg, In g (keys p) /\ g <= glbl_tick p /\ (forall k, In k (keys p) -> k <= glbl_tick p -> k <= g) /\ tick_to_rp g = Ok rg /\
    ((glbl_rp p' = rg /\ went_down p p' g /\
       (((num (glbl_liq p) <= 0)%Q /\ is_positive (glbl_liq p) = false /\ rx p' = rx p /\ ry p' = ry p) \/ (d_lt (s_in (snd a)) dx = Ok true /\ step_down p p' ((2#1) * ulp12)))) \/
     (d_lt (s_in (snd a)) dx = Ok true /\ (num rg <= num (glbl_rp p'))%Q /\ glbl_liq p' = glbl_liq p /\ (num (s_in (snd b)) == num dx)%Q /\ is_positive (glbl_liq p') = true /\
      (dX p p' <= num dx)%Q /\ step_down p p' (ulp12 * (1 + num (glbl_liq p) + dX p p')))).
Proof.
  intros orc dx ro a b Wd Wo Ia T N A12 To M p p'. pose proof (mv_x_records _ _ _ _ _ Wd Wo Ia M) as R. pose proof Ia as (I1 & I2 & I3 & I4).
  inversion M as [q s tk rp q' H1 H2 H3 H4 H5 | q s f gtk q' s' H1 H2 H3 H4 H5]; subst a b; cbn [fst snd] in *; subst p p'.
  - destruct H3 as [K1 K2]. pose proof (key_nn _ _ I1 H2) as G0. exists tk, rp. csplit; auto. left.
    destruct (gap_x_wf _ _ _ _ I1 H2 H4 H5) as (G1 & G2 & _).
    assert (Ts : tick_inv (seat q tk rp)). { apply (records_inv q); auto. { unfold same_records; cbn; auto 10. } apply seat_wf; auto. apply (tick_rp_wf _ _ H4). }
    destruct (cross_down _ _ _ H5 Ts G0) as (C1 & C2 & C3). destruct (cross_funds _ _ _ _ H5) as (F1 & F2 & _). csplit; auto. { split; auto. }
    left. csplit; auto. apply npos_q; auto. apply liq_wf; auto.
  - destruct (find_left _ _ _ H4) as [K1 K2].
    pose proof (next_left _ _ _ I1 H3 H4) as (NB1 & NB2 & NB3). pose proof (key_nn _ _ I1 K1) as G0. pose proof T as (_ & Sp & _).
    assert (NB4 : forall k, In k (keys q) -> k <= glbl_tick q -> k <= gtk). { intros k Hk Lk. apply NB3; auto. apply floor_keys; auto. apply (key_mod _ _ T Hk). }
    assert (NB5 : gtk <= glbl_tick q) by (apply (floor_keys (spacing q)); auto; apply (key_mod _ _ T K1)).
    destruct (step_x_facts _ _ _ _ _ _ _ _ H5 I1 I2 Wd Wo K1) as (w & p1 & (rest & Q1 & Q2 & Q3) & F2 & F3 & F4 & F5 & F6 & F7 & F8).
    destruct (within_x_facts _ _ _ _ _ _ _ _ Q3 I1 (srp_wf _ I2) (liq_wf _ I1) Q2 Wo G0) as (rpg & cp & X1 & _ & _ & _ & (_ & _ & _ & XF & _) & _ & _ & _ & _ & _ & _ & _ & _ & X14 & _ & X16).
    pose proof A12 as ((L12 & _) & _). assert (Lp : (0 < num (glbl_liq q))%Q) by (apply pos_q; auto; apply liq_wf; auto).
    pose proof (within_x_amounts _ _ _ _ _ _ _ _ Q3 I1 (srp_wf _ I2) (liq_wf _ I1) Q2 Wo G0 (proj1 L12) Lp) as (Y1 & Y2 & Y3 & Y4 & Y5 & Y6). rewrite <- I3 in *.
    assert (Mid : positions p1 = positions q /\ spacing p1 = spacing q /\ glbl_liq p1 = glbl_liq q /\ glbl_rp p1 = w_rp w /\ same_records q p1 /\ (dX q p1 == num (w_recv w))%Q /\ (- dY q p1 == num (w_adj w) - num (w_send w))%Q).
    { destruct F3 as (nx & y1 & ny & nya & nxf & fx & hy & M1 & M2 & M3 & _ & _ & _ & _ & ->). apply add_q in M1, M2. apply sub_q in M3. unfold same_records, dX, dY; cbn [rx ry positions spacing gs glbl_rp glbl_liq g_rp g_liq hmm_c fee_rate ticks]. csplit; auto; lra. }
    destruct Mid as (P1 & P2 & P3 & P4 & P6 & PX & PY).
    exists gtk, rpg. csplit; auto. destruct (w_cross w).
    + left. destruct F8 as [W1 F8]. destruct X16 as [X16 X17]. pose proof (records_inv _ _ P6 F5 T) as T1. destruct (cross_down _ _ _ F8 T1 G0) as (C1 & C2 & C3).
      destruct (cross_tick_to _ _ _ F8 G0 (proj1 F5)) as (_ & _ & _ & C4). destruct (cross_funds _ _ _ _ F8) as (E1 & E2 & _).
      destruct (cov_same q p1 gtk P1) as [_ Nt]. rewrite P3, Nt in C1. rewrite P2 in C2. csplit; [congruence | split; auto |]. right. split; auto.
      assert (PX' : (dX q q' == num (w_recv w))%Q) by (unfold dX in *; rewrite E1; auto). assert (PY' : (- dY q q' == num (w_adj w) - num (w_send w))%Q) by (unfold dY in *; rewrite E2; auto).
      unfold step_down. rewrite C4, P4, PX', PY'. csplit; auto.
    + right. subst p1. destruct X16 as (Z1 & Z2 & Z3 & _).
      assert (Rd : (num (w_recv w) <= num dx)%Q).
      { destruct F2 as (V1 & _ & _ & _ & V5 & _). destruct F4 as (r' & c1 & ck & i1 & i2 & o2 & a2 & f2 & T1 & T2 & T3 & T4 & T5 & T6 & _). destruct To as (_ & _ & To & _).
        assert (0 <= num (s_in s))%Q by (apply num_sign; [apply I2 | lia]). assert (0 <= num ck)%Q. { apply notneg_q; auto. assert (wf r') by (eapply sub_wf; eauto; apply I2). assert (wf c1) by (eapply sub_wf; eauto). eapply sub_wf; eauto. }
        assert (Nf : (0 <= num (w_fee w))%Q). { apply num_sign; auto. }
        apply sub_q in T1, T2, T3. lra. }
      csplit; auto; try congruence.
      * rewrite P4. destruct (tick_rp_wf _ _ X1) as (Wg & Sg & _). apply num_le; auto; try congruence. lia.
      * eapply tally_done; eauto.
      * rewrite PX. auto.
      * unfold step_down. rewrite P4, PX, PY. csplit; auto.
Qed.
Lemma mv_y_cases : forall orc dx ro a b, wf dx -> wf ro -> inv_y a -> tick_inv (fst a) -> nn (fst a) -> all12 (fst a) -> mv_y orc dx ro a b ->
  let p := fst a in let p' := fst b in
  exists g rg, In g (keys p) /\ glbl_tick p < g /\ (forall k, In k (keys p) -> glbl_tick p < k -> g <= k) /\ tick_to_rp g = Ok rg /\
    ((glbl_rp p' = rg /\ went_up p p' g /\
       (((num (glbl_liq p) <= 0)%Q /\ is_positive (glbl_liq p) = false /\ rx p' = rx p /\ ry p' = ry p) \/ (d_lt (s_in (snd a)) dx = Ok true /\ step_up p p' ulp12))) \/
     (d_lt (s_in (snd a)) dx = Ok true /\ (num (glbl_rp p') <= num rg)%Q /\ glbl_liq p' = glbl_liq p /\ (num (s_in (snd b)) == num dx)%Q /\ is_positive (glbl_liq p') = true /\
      step_up p p' 0)).
Proof.
  intros orc dx ro a b Wd Wo Ia T N A12 M p p'. pose proof (mv_y_records _ _ _ _ _ Wd Wo Ia M) as R. pose proof Ia as (I1 & I2 & I3 & I4).
  inversion M as [q s tk rp q' H1 H2 H3 H4 H5 | q s gtk q' s' H1 H2 H3 H4 H5]; subst a b; cbn [fst snd] in *; subst p p'.
  - destruct H3 as [K1 K2]. pose proof (key_nn _ _ I1 H2) as G0. exists tk, rp. csplit; auto. left.
    destruct (gap_y_wf _ _ _ _ I1 H2 H4 H5) as (G1 & G2 & _).
    assert (Ts : tick_inv (seat q tk rp)). { apply (records_inv q); auto. { unfold same_records; cbn; auto 10. } apply seat_wf; auto. apply (tick_rp_wf _ _ H4). }
    destruct (cross_up _ _ _ H5 Ts) as (C1 & C2). destruct (cross_funds _ _ _ _ H5) as (F1 & F2 & _). csplit; auto. { split; auto. }
    left. csplit; auto. apply npos_q; auto. apply liq_wf; auto.
  - destruct (find_right _ _ _ H4) as [K1 K2].
    pose proof (next_right _ _ I1 H4) as (NB1 & NB2 & NB3). pose proof (key_nn _ _ I1 K1) as G0. pose proof T as (_ & Sp & _).
    destruct (step_y_facts _ _ _ _ _ _ _ _ H5 I1 I2 Wd Wo K1) as (w & p1 & (rest & Q1 & Q2 & Q3) & F2 & F3 & F4 & F5 & F6 & F7 & F8).
    destruct (within_y_facts _ _ _ _ _ _ _ _ Q3 I1 (srp_wf _ I2) (liq_wf _ I1) Q2 Wo G0) as (rpg & cp & X1 & _ & _ & _ & _ & _ & _ & _ & _ & _ & _ & _ & _ & X14 & _ & X16).
    pose proof A12 as ((L12 & _) & _). assert (Lp : (0 < num (glbl_liq q))%Q) by (apply pos_q; auto; apply liq_wf; auto).
    assert (H1' : (1 <= num (s_rp s))%Q) by (rewrite <- I3; apply N).
    pose proof (within_y_amounts _ _ _ _ _ _ _ _ Q3 I1 (srp_wf _ I2) (liq_wf _ I1) Q2 Wo G0 (proj1 L12) Lp H1') as (Y1 & Y2 & Y3 & Y4 & Y5 & Y6). rewrite <- I3 in *.
    assert (Mid : positions p1 = positions q /\ spacing p1 = spacing q /\ glbl_liq p1 = glbl_liq q /\ glbl_rp p1 = w_rp w /\ same_records q p1 /\ (dY q p1 == num (w_recv w))%Q /\ (- dX q p1 == num (w_adj w) - num (w_send w))%Q).
    { destruct F3 as (nx & y1 & ny & nya & nxf & fx & hy & M1 & M2 & M3 & _ & _ & _ & _ & ->). apply add_q in M1, M2. apply sub_q in M3. unfold same_records, dX, dY; cbn [rx ry positions spacing gs glbl_rp glbl_liq g_rp g_liq hmm_c fee_rate ticks]. csplit; auto; lra. }
    destruct Mid as (P1 & P2 & P3 & P4 & P6 & PX & PY).
    exists gtk, rpg. csplit; auto. destruct (w_cross w).
    + left. destruct F8 as [W1 F8]. destruct X16 as [X16 X17]. pose proof (records_inv _ _ P6 F5 T) as T1. destruct (cross_up _ _ _ F8 T1) as (C1 & C2).
      destruct (cross_tick_to_r _ _ _ F8) as (_ & _ & C4). destruct (cross_funds _ _ _ _ F8) as (E1 & E2 & _).
      destruct (cov_same q p1 gtk P1) as [_ Nt]. rewrite P3, Nt in C1. csplit; [congruence | split; auto |]. right. split; auto.
      assert (PX' : (dY q q' == num (w_recv w))%Q) by (unfold dY in *; rewrite E2; auto). assert (PY' : (- dX q q' == num (w_adj w) - num (w_send w))%Q) by (unfold dX in *; rewrite E1; auto).
      unfold step_up. rewrite C4, P4, PX', PY'. csplit; auto.
    + right. subst p1. destruct X16 as (Z1 & Z2 & Z3 & _). csplit; auto; try congruence.
      * rewrite P4. destruct (tick_rp_wf _ _ X1) as (Wg & Sg & _). destruct F2 as (_ & _ & V3 & _). apply num_le; auto; try congruence. lia.
      * eapply tally_done; eauto.
      * unfold step_up. rewrite P4, PX, PY. csplit; auto.
Qed.

(** ** Whole swaps *)
Definition carried (dx : decimal) (c : pool * swp) : Prop := tick_inv (fst c) /\ nn (fst c) /\ all12 (fst c) /\ sound (fst c) /\ tot_ok dx (snd c).
Lemma carried_x : forall orc dx ro a b, wf dx -> wf ro -> inv_x a -> carried dx a -> mv_x orc dx ro a b -> carried dx b.
Proof.
  intros orc dx ro a b Wd Wo Ia (T & N & A & So & To) M. pose proof (mv_x_records _ _ _ _ _ Wd Wo Ia M) as R. pose proof (mv_x_inv _ _ _ _ _ Wd Wo Ia M) as Ib. unfold carried. csplit.
  - exact (records_inv _ _ R (proj1 Ib) T).
  - exact (proj1 (mv_x_nn _ _ _ _ _ Wd Wo Ia M N)).
  - exact (mv_x_all _ _ _ _ _ Wd Wo Ia M A).
  - unfold sound. rewrite (proj1 R). exact So.
  - exact (chain_tot_x _ _ _ _ _ Wd Wo (chain_one _ _ _ _ M) Ia To).
Qed.
Lemma carried_y : forall orc dx ro a b, wf dx -> wf ro -> inv_y a -> carried dx a -> mv_y orc dx ro a b -> carried dx b.
Proof.
  intros orc dx ro a b Wd Wo Ia (T & N & A & So & To) M. pose proof (mv_y_records _ _ _ _ _ Wd Wo Ia M) as R. pose proof (mv_y_inv _ _ _ _ _ Wd Wo Ia M) as Ib. unfold carried. csplit.
  - exact (records_inv _ _ R (proj1 Ib) T).
  - exact (proj1 (mv_y_nn _ _ _ _ _ Wd Wo Ia M N)).
  - exact (mv_y_all _ _ _ _ _ Wd Wo Ia M A).
  - unfold sound. rewrite (proj1 R). exact So.
  - exact (chain_tot_y _ _ _ _ _ Wd Wo (chain_one _ _ _ _ M) Ia To).
Qed.
(** Number of active ticks at or below / above a tick. *)
Definition qlen {A} (l : list A) : Q := inject_Z (Z.of_nat (List.length l)).
Lemma qlen_nn : forall A (l : list A), (0 <= qlen l)%Q. Proof. intros. unfold qlen. change 0%Q with (inject_Z 0). rewrite <- Zle_Qle. lia. Qed.
Lemma filter_lt : forall (f h : Z -> bool) g l, In g l -> f g = false -> h g = true -> (forall k, f k = true -> h k = true) -> (qlen (filter f l) + 1 <= qlen (filter h l))%Q.
Proof.
  intros f h g l I F H S. unfold qlen. change 1%Q with (inject_Z 1). rewrite <- inject_Z_plus, <- Zle_Qle.
  assert (W : forall m, (List.length (filter f m) <= List.length (filter h m))%nat). { induction m as [| k m IH]; cbn; auto. pose proof (S k). destruct (f k); [rewrite H0 by auto; cbn; lia | destruct (h k); cbn; lia]. }
  induction l as [| k l IH]; [destruct I |]. cbn. destruct I as [-> | I].
  - rewrite F, H. cbn [List.length]. specialize (W l). lia.
  - specialize (IH I). pose proof (S k). destruct (f k); [rewrite H0 by auto; cbn [List.length]; lia | destruct (h k); cbn [List.length]; lia].
Qed.
Lemma filter_all : forall (f : Z -> bool) l, (qlen (filter f l) <= qlen l)%Q.
Proof. intros f l. unfold qlen. rewrite <- Zle_Qle. induction l as [| k l IH]; cbn; [lia |]. destruct (f k); cbn [List.length]; lia. Qed.
Definition below (p : pool) : Q := qlen (filter (fun k => k <=? glbl_tick p) (keys p)).
Definition above (p : pool) : Q := qlen (filter (fun k => glbl_tick p <? k) (keys p)).
Lemma keys_len : forall p, qlen (keys p) = qlen (ticks p). Proof. intros p. unfold qlen, keys. rewrite map_length. auto. Qed.
Section Arith.
Local Open Scope Q_scope.
Lemma inv_le : forall L s e D, 1 <= s -> 1 <= e -> L * (s - e) <= D * (s * e) -> (/ e - / s) * L <= D.
Proof.
  intros L s e D Hs He H. assert (P : 0 < s * e) by (apply Qmult_lt_0_compat; lra). assert (E : (/ e - / s) * L == (L * (s - e)) / (s * e)) by (field; split; lra). rewrite E. apply Qle_shift_div_r; auto.
Qed.
Lemma inv_ge : forall L s e D, 1 <= s -> 1 <= e -> D * (s * e) <= L * (e - s) -> D <= (/ s - / e) * L.
Proof.
  intros L s e D Hs He H. assert (P : 0 < s * e) by (apply Qmult_lt_0_compat; lra). assert (E : (/ s - / e) * L == (L * (e - s)) / (s * e)) by (field; split; lra). rewrite E. apply Qle_shift_div_l; auto.
Qed.
End Arith.
(** Crossing keeps tick and price together. *)
Lemma cross_settled_down : forall p p' g rg, tick_inv p -> sound p -> same_records p p' -> In g (keys p) -> g <= glbl_tick p -> tick_to_rp g = Ok rg -> glbl_rp p' = rg ->
  glbl_tick p' = (g - 1) / spacing p * spacing p -> settled p' /\ (below p' + 1 <= below p)%Q.
Proof.
  intros p p' g rg T So R Hg Lg Eg Er Et. pose proof T as (W & Sp & _). pose proof (key_nn _ _ W Hg) as G0.
  assert (F : forall k, In k (keys p) -> (k <= glbl_tick p' <-> k <= g - 1)). { intros k Hk. rewrite Et. apply floor_keys; auto. apply (key_mod _ _ T Hk). }
  split.
  - apply settled_keys. rewrite (records_keys _ _ R), Er, <- (price_q_ok _ _ Eg). intros k Hk. pose proof (key_nn _ _ W Hk) as K0. pose proof (F k Hk) as Fk. destruct (key_price _ _ T So Hk) as [rk Ek].
    split; intros L; apply price_q_le; [lia | eauto | lia | eauto].
  - unfold below. rewrite (records_keys _ _ R). apply (filter_lt _ _ g); auto.
    + pose proof (F g Hg). apply Z.leb_gt. lia.
    + apply Z.leb_le. lia.
    + intros k Hk. apply Z.leb_le in Hk. apply Z.leb_le. rewrite Et in Hk. pose proof (Z.div_mod (g - 1) (spacing p) ltac:(lia)). pose proof (Z.mod_pos_bound (g - 1) (spacing p) Sp). lia.
Qed.
Lemma cross_settled_up : forall p p' g rg, tick_inv p -> sound p -> same_records p p' -> In g (keys p) -> glbl_tick p < g -> tick_to_rp g = Ok rg -> glbl_rp p' = rg ->
  glbl_tick p' = g -> settled p' /\ (above p' + 1 <= above p)%Q.
Proof.
  intros p p' g rg T So R Hg Lg Eg Er Et. pose proof T as (W & Sp & _). pose proof (key_nn _ _ W Hg) as G0.
  split.
  - apply settled_keys. rewrite (records_keys _ _ R), Er, <- (price_q_ok _ _ Eg). intros k Hk. pose proof (key_nn _ _ W Hk) as K0. destruct (key_price _ _ T So Hk) as [rk Ek].
    split; intros L; apply price_q_le; [lia | eauto | lia | eauto].
  - unfold above. rewrite (records_keys _ _ R), Et. apply (filter_lt _ _ g); auto.
    + apply Z.ltb_irrefl.
    + apply Z.ltb_lt. lia.
    + intros k Hk. apply Z.ltb_lt in Hk. apply Z.ltb_lt. lia.
Qed.
