(** The liquidity in range: how far [glbl_liq] agrees with the positions covering the current tick. *)
From Coq Require Import ZArith QArith List Bool Lia Lqa String Sorted.
From Verif Require Import Base BaseLemmas DecimalModel DecimalSpec DecimalProofs PowProofs WfProofs MathModel TickProofs TickLoop PoolModel PoolWf SwapLoop SwapProofs LpProofs PoolInv PoolNonneg PoolLp.
Import ListNotations.
Open Scope Z_scope.

(** ** The tick search is monotone in the price *)
Lemma loop_mono : forall a b s x y, wf a -> wf b -> 0 <= s -> (num a <= num b)%Q -> rp_to_tick_loop a false s = Ok x -> rp_to_tick_loop b false s = Ok y -> x <= y.
Proof.
  intros a b s x y Wa Wb Hs L Ea Eb. pose proof (search_spec a false s Wa Hs) as A. pose proof (search_spec b false s Wb Hs) as B. rewrite Ea in A. rewrite Eb in B.
  destruct A as (n & r0 & -> & A1 & _ & A2 & _). destruct B as (m & r1 & -> & B1 & _ & _ & B2). rewrite A1 in B1. injection B1 as <-.
  destruct (Z.le_gt_cases (Z.of_nat n) (Z.of_nat m)) as [| G]; [lia |]. exfalso. specialize (A2 (S m) ltac:(lia)). lra.
Qed.
Lemma tick_small : forall m r, tick_to_rp m = Ok r -> m < 2 ^ 19.
Proof. intros m r H. destruct (Z.lt_ge_cases m (2 ^ 19)); auto. rewrite tick_panics in H by lia. discriminate. Qed.
Lemma loop_price : forall m r s, tick_to_rp m = Ok r -> 0 <= s <= m -> exists y, rp_to_tick_loop r false s = Ok y /\ (y = m \/ y = m - 1).
Proof.
  intros m r s H Hs. pose proof (tick_small _ _ H) as Hm. destruct (tick_rp_wf _ _ H) as (W & S12 & _).
  destruct (search_total r false s W S12 ltac:(lia)) as [y E]. { pose proof (tick_le m r ltac:(lia) H). assert (ones 19 * MB < 2 ^ 128) by (vm_compute; reflexivity). assert (0 < MB) by (vm_compute; reflexivity). nia. }
  exists y. split; auto. pose proof (round_trip_tick m r s false y ltac:(lia) Hs H E) as X. cbv zeta in X. exact X.
Qed.
Lemma loop_hi : forall e m r s x, wf e -> tick_to_rp m = Ok r -> (num e < num r)%Q -> 0 <= s <= m -> rp_to_tick_loop e false s = Ok x -> x <= m.
Proof.
  intros e m r s x We H L Hs E. destruct (loop_price _ _ _ H Hs) as (y & Ey & Hy). destruct (tick_rp_wf _ _ H) as (W & _).
  pose proof (loop_mono e r s x y We W ltac:(lia) ltac:(lra) E Ey). lia.
Qed.
Lemma loop_lo : forall e m r s x, wf e -> tick_to_rp m = Ok r -> (num r < num e)%Q -> 0 <= s <= m -> rp_to_tick_loop e false s = Ok x -> m - 1 <= x.
Proof.
  intros e m r s x We H L Hs E. destruct (loop_price _ _ _ H Hs) as (y & Ey & Hy). destruct (tick_rp_wf _ _ H) as (W & _).
  pose proof (loop_mono r e s y x W We ltac:(lia) ltac:(lra) Ey E). lia.
Qed.

(** ** Coverage changes only at active ticks *)
Lemma cov_step : forall sp m t, pos_ok sp m -> (weighted (fun lo up => is_b ((lo <=? t) && (t <? up))) m == weighted (fun lo up => is_b ((lo <=? t - 1) && (t - 1 <? up))) m + weighted (fun lo up => is_b (lo =? t) - is_b (up =? t)) m)%Q.
Proof.
  intros sp m t H. induction m as [| [[[u lo] up] q] m IH]; [cbn; lra |]. cbn [weighted]. rewrite IH by (intros a b c d Hi; eapply H; right; eauto).
  destruct (H u lo up q (or_introl eq_refl)) as (H1 & _).
  assert (E : (is_b ((lo <=? t) && (t <? up)) == is_b ((lo <=? t - 1) && (t - 1 <? up)) + (is_b (lo =? t) - is_b (up =? t)))%Q).
  { destruct (Z.leb_spec lo t), (Z.ltb_spec t up), (Z.leb_spec lo (t - 1)), (Z.ltb_spec (t - 1) up), (Z.eqb_spec lo t), (Z.eqb_spec up t); try lia; cbn; ring. }
  rewrite E. ring.
Qed.
Lemma not_key : forall p t, tick_inv p -> ~ In t (keys p) -> (net_at p t == 0)%Q.
Proof.
  intros p t (_ & _ & _ & I & _) H. destruct (I t) as [_ <-]. unfold tick_net. destruct (tm_get t (ticks p)) eqn:E; [| reflexivity]. apply tm_get_in, (in_map fst) in E. contradiction.
Qed.
Lemma cov_gap : forall p a b, tick_inv p -> a <= b -> (forall k, In k (keys p) -> k <= a \/ b < k) -> (covering p a == covering p b)%Q.
Proof.
  intros p a b I L H. replace b with (a + Z.of_nat (Z.to_nat (b - a))) in * by lia. clear L. set (n := Z.to_nat (b - a)) in *. clearbody n. induction n as [| n IH]; [rewrite Z.add_0_r; reflexivity |].
  rewrite IH by (intros k Hk; specialize (H k Hk); lia). unfold covering at 2. rewrite (cov_step (spacing p)) by apply I. fold (net_at p (a + Z.of_nat (S n))). rewrite not_key; auto.
  - replace (a + Z.of_nat (S n) - 1) with (a + Z.of_nat n) by lia. fold (covering p (a + Z.of_nat n)). ring.
  - intros Hk. specialize (H _ Hk). lia.
Qed.
Lemma key_mod : forall p k, tick_inv p -> In k (keys p) -> 0 <= k /\ k mod spacing p = 0.
Proof.
  intros p k (W & Sp & Po & I & G) Hk. split; [exact (key_nn _ _ W Hk) |].
  destruct (tm_get_some k (ticks p) Hk) as [ts E]. destruct (I k) as [I1 _]. unfold tick_gross in I1. rewrite E in I1. apply tm_get_in in E. pose proof (G _ _ E) as Pg.
  pose proof W as (_ & _ & (_ & Wt) & _). apply Wt in E. destruct E as (_ & _ & Wg & _). 
  assert (P : (0 < gross_at p k)%Q). { rewrite <- I1. apply Qnot_le_lt. intros L. apply num_sign in L; auto. lia. }
  unfold gross_at in P. clear - P Po. revert Po P. generalize (positions p) as m. induction m as [| [[[u lo] up] q] m IH]; intros Po P; cbn [weighted] in P; [lra |].
  destruct (Po u lo up q (or_introl eq_refl)) as (_ & M1 & M2 & _).
  destruct (Z.eqb_spec lo k) as [<- | N1]; auto. destruct (Z.eqb_spec up k) as [<- | N2]; auto.
  apply IH. { intros a b c d Hi. apply (Po a b c d). right; auto. } cbn [is_b] in P. lra.
Qed.
Lemma floor_keys : forall s k t, 0 < s -> k mod s = 0 -> (k <= t / s * s <-> k <= t).
Proof.
  intros s k t Hs Hk. pose proof (Z.div_mod k s ltac:(lia)) as A. pose proof (Z.div_mod t s ltac:(lia)) as B. pose proof (Z.mod_pos_bound t s Hs). split; intros L; [lia |].
  apply (Z.div_le_mono _ _ s Hs) in L. rewrite A, Hk. nia.
Qed.

(** ** Invariants *)
Definition liq_inv (p : pool) : Prop := (num (glbl_liq p) == covering p (glbl_tick p))%Q.
(** The current tick agrees with the price up to one tick, as far as admissible ticks can tell. *)
Definition near_tick (p : pool) : Prop := forall k, 0 <= k -> k mod spacing p = 0 ->
  (k <= glbl_tick p -> forall r, 1 <= k -> tick_to_rp (k - 1) = Ok r -> (num r <= num (glbl_rp p))%Q) /\
  (glbl_tick p < k -> forall r, tick_to_rp (k + 1) = Ok r -> (num (glbl_rp p) <= num r)%Q).
(** The price is more than one tick away from every active tick. *)
Definition clear_of_ticks (p : pool) : Prop := forall k, In k (keys p) ->
  (1 <= k /\ exists r, tick_to_rp (k - 1) = Ok r /\ (num (glbl_rp p) < num r)%Q) \/ (exists r, tick_to_rp (k + 1) = Ok r /\ (num r < num (glbl_rp p))%Q).

Lemma price_le : forall t u p q, 0 <= t <= u -> tick_to_rp t = Ok p -> tick_to_rp u = Ok q -> (num p <= num q)%Q.
Proof. intros t u p q H E1 E2. destruct (Z.eq_dec t u) as [-> | N]; [rewrite E1 in E2; injection E2 as ->; lra |]. pose proof (tick_increasing t u p q ltac:(lia) E1 E2). lra. Qed.

(** Crossing an active tick, downwards and upwards. *)
Lemma cross_down : forall q g q', cross_tick q g false = Ok q' -> tick_inv q -> 0 <= g ->
  (num (glbl_liq q') == num (glbl_liq q) - net_at q g)%Q /\ glbl_tick q' = (g - 1) / spacing q * spacing q /\ 1 <= g.
Proof.
  intros q g q' H (W & Sp & _ & I & _) Hg. destruct (cross_inv _ _ _ _ H) as (ts & fx & fy & hx & hy & nt & L & C1 & C2 & C3 & C4 & C5 & C6 & (t1 & P1 & P2) & C8 & C9 & ->).
  destruct (pred_ok _ _ P1 Hg) as (-> & P3 & P4). destruct (possible_down_le _ _ _ P3 (proj1 W) P2) as (B1 & -> & B2). destruct (I g) as [_ <-]. unfold tick_net. rewrite C2. unfold glbl_liq, glbl_tick. cbn. csplit; auto; try lia.
  apply add_q in C8. rewrite C8, num_neg; [ring |]. apply tm_get_in in C2. pose proof W as (_ & _ & (_ & Wt) & _). apply Wt in C2. apply C2.
Qed.
Lemma cross_up : forall q g q', cross_tick q g true = Ok q' -> tick_inv q -> (num (glbl_liq q') == num (glbl_liq q) + net_at q g)%Q /\ glbl_tick q' = g.
Proof.
  intros q g q' H (W & Sp & _ & I & _). destruct (cross_inv _ _ _ _ H) as (ts & fx & fy & hx & hy & nt & L & C1 & C2 & C3 & C4 & C5 & C6 & -> & C8 & C9 & ->).
  destruct (I g) as [_ <-]. unfold tick_net. rewrite C2. unfold glbl_liq, glbl_tick. cbn. split; auto. apply add_q in C8. exact C8.
Qed.
Lemma cov_at : forall p t, tick_inv p -> (covering p t == covering p (t - 1) + net_at p t)%Q.
Proof. intros p t I. apply (cov_step (spacing p)). apply I. Qed.
(** [p]'s coverage, seen from another pool with the same positions and ticks. *)
Lemma cov_same : forall p q t, positions q = positions p -> covering q t = covering p t /\ net_at q t = net_at p t.
Proof. intros p q t E. unfold covering, net_at. rewrite E. auto. Qed.

(** The state after crossing [g] from a consistent state in which [g] was the nearest active tick below / above. *)
Lemma down_ok : forall p p' g, tick_inv p -> In g (keys p) -> g <= glbl_tick p -> (forall k, In k (keys p) -> k <= glbl_tick p -> k <= g) -> liq_inv p ->
  positions p' = positions p -> (num (glbl_liq p') == num (glbl_liq p) - net_at p g)%Q -> glbl_tick p' = (g - 1) / spacing p * spacing p -> liq_inv p'.
Proof.
  intros p p' g I Hg L N Q E1 E2 E3. unfold liq_inv in *. destruct (cov_same p p' (glbl_tick p') E1) as [-> _]. rewrite E2, Q, E3. pose proof I as (_ & Sp & _).
  rewrite <- (cov_gap p g (glbl_tick p) I L). 2: { intros k Hk. destruct (Z.le_gt_cases k (glbl_tick p)); [left; auto | right; lia]. }
  rewrite (cov_at p g I). rewrite (cov_gap p ((g - 1) / spacing p * spacing p) (g - 1) I); [ring | |].
  - pose proof (Z.div_mod (g - 1) (spacing p) ltac:(lia)). pose proof (Z.mod_pos_bound (g - 1) (spacing p) Sp). lia.
  - intros k Hk. destruct (key_mod _ _ I Hk) as [_ M]. destruct (Z.le_gt_cases k (g - 1)) as [G |]; [left; apply floor_keys; auto | right; lia].
Qed.
Lemma up_ok : forall p p' g, tick_inv p -> glbl_tick p < g -> (forall k, In k (keys p) -> glbl_tick p < k -> g <= k) -> liq_inv p ->
  positions p' = positions p -> (num (glbl_liq p') == num (glbl_liq p) + net_at p g)%Q -> glbl_tick p' = g -> liq_inv p'.
Proof.
  intros p p' g I L N Q E1 E2 E3. unfold liq_inv in *. destruct (cov_same p p' (glbl_tick p') E1) as [-> _]. rewrite E2, Q, E3.
  rewrite (cov_at p g I). rewrite (cov_gap p (glbl_tick p) (g - 1) I); [ring | lia |]. intros k Hk. destruct (Z.le_gt_cases k (glbl_tick p)); [left; auto | right]. specialize (N k Hk ltac:(lia)). lia.
Qed.
Lemma near_cross_down : forall p g r, tick_inv p -> In g (keys p) -> tick_to_rp g = Ok r -> forall t, t = (g - 1) / spacing p * spacing p ->
  forall k, 0 <= k -> k mod spacing p = 0 -> (k <= t -> forall r', 1 <= k -> tick_to_rp (k - 1) = Ok r' -> (num r' <= num r)%Q) /\ (t < k -> forall r', tick_to_rp (k + 1) = Ok r' -> (num r <= num r')%Q).
Proof.
  intros p g r I Hg E t -> k Hk M. pose proof I as (W & Sp & _). pose proof (key_nn _ _ W Hg) as G0. split.
  - intros L r' K1 E'. apply floor_keys in L; auto. eapply (price_le (k - 1) g); eauto. lia.
  - intros L r' E'. assert (g <= k). { destruct (Z.le_gt_cases k (g - 1)) as [G | G]; [| lia]. apply (floor_keys (spacing p)) in G; auto. lia. } eapply (price_le g (k + 1)); eauto. lia.
Qed.
Lemma near_cross_up : forall p g r, tick_inv p -> In g (keys p) -> tick_to_rp g = Ok r ->
  forall k, 0 <= k -> k mod spacing p = 0 -> (k <= g -> forall r', 1 <= k -> tick_to_rp (k - 1) = Ok r' -> (num r' <= num r)%Q) /\ (g < k -> forall r', tick_to_rp (k + 1) = Ok r' -> (num r <= num r')%Q).
Proof.
  intros p g r I Hg E k Hk M. pose proof I as (W & Sp & _). pose proof (key_nn _ _ W Hg) as G0. split.
  - intros L r' K1 E'. eapply (price_le (k - 1) g); eauto. lia.
  - intros L r' E'. eapply (price_le g (k + 1)); eauto. lia.
Qed.

(** ** A step that stops between two ticks *)
Lemma stop_cov : forall p t, tick_inv p -> (forall k, In k (keys p) -> k <= glbl_tick p <-> k <= t) -> liq_inv p -> (num (glbl_liq p) == covering p t)%Q.
Proof.
  intros p t I H Q. unfold liq_inv in Q. rewrite Q. destruct (Z.le_gt_cases (glbl_tick p) t) as [L | L].
  - apply cov_gap; auto. intros k Hk. specialize (H k Hk). lia.
  - symmetry. apply cov_gap; auto; [lia |]. intros k Hk. specialize (H k Hk). lia.
Qed.
Lemma num_le12 : forall a b, wf a -> dscale a = 12 -> dscale b = 12 -> mant a <= mant b -> (num a <= num b)%Q.
Proof. intros a b W A B H. apply num_le; auto. congruence. Qed.
Section Stop.
  Variables (p : pool) (g : Z) (e rg : decimal) (t : Z).
  Hypothesis I : tick_inv p.
  Hypothesis Hg : In g (keys p).
  Hypothesis Eg : tick_to_rp g = Ok rg.
  Hypothesis We : wf e.
  Hypothesis Hn : near_tick p.
  Section Down.
    Hypothesis L : g <= glbl_tick p.
    Hypothesis N : forall k, In k (keys p) -> k <= glbl_tick p -> k <= g.
    Hypothesis B1 : (num rg <= num e)%Q.
    Hypothesis B2 : (num e <= num (glbl_rp p))%Q.
    Hypothesis G0 : 0 < g.
    Hypothesis Et : rp_to_tick_loop e false (g - 1) = Ok t.
    Lemma stop_down_near : forall k, 0 <= k -> k mod spacing p = 0 -> (k <= t -> forall r, 1 <= k -> tick_to_rp (k - 1) = Ok r -> (num r <= num e)%Q) /\ (t < k -> forall r, tick_to_rp (k + 1) = Ok r -> (num e <= num r)%Q).
    Proof.
      intros k Hk M. assert (A0 : 0 <= g - 1) by lia. pose proof (rtl_nn _ _ _ _ We A0 Et) as T0. split.
      - intros Lk r K1 Er. destruct (Z.lt_ge_cases k g) as [| G]. { pose proof (price_le (k - 1) g r rg ltac:(lia) Er Eg). lra. }
        apply Qnot_lt_le. intros X. pose proof (loop_hi e (k - 1) r (g - 1) t We Er X ltac:(lia) Et). lia.
      - intros Lk r Er. apply Qnot_lt_le. intros X. pose proof (loop_lo e (k + 1) r (g - 1) t We Er X ltac:(lia) Et). lia.
    Qed.
    Lemma stop_down : (forall k, In k (keys p) -> (1 <= k /\ exists r, tick_to_rp (k - 1) = Ok r /\ (num e < num r)%Q) \/ (exists r, tick_to_rp (k + 1) = Ok r /\ (num r < num e)%Q)) ->
      forall k, In k (keys p) -> k <= glbl_tick p <-> k <= t.
    Proof.
      intros C k Hk. assert (Tg : g <= t).
      { destruct (C g Hg) as [(K1 & r & Er & X) | (r & Er & X)]. { pose proof (price_le (g - 1) g r rg ltac:(lia) Er Eg). lra. } pose proof (loop_lo e (g + 1) r (g - 1) t We Er X ltac:(lia) Et). lia. }
      split; intros Lk; [specialize (N k Hk Lk); lia |]. destruct (Z.le_gt_cases k (glbl_tick p)) as [| G]; auto. exfalso. destruct (key_mod _ _ I Hk) as [K0 M].
      destruct (C k Hk) as [(K1 & r & Er & X) | (r & Er & X)]. { pose proof (loop_hi e (k - 1) r (g - 1) t We Er X ltac:(lia) Et). lia. }
      destruct (Hn k K0 M) as [_ Y]. specialize (Y G r Er). lra.
    Qed.
  End Down.
  Section Up.
    Hypothesis L : glbl_tick p < g.
    Hypothesis N : forall k, In k (keys p) -> glbl_tick p < k -> g <= k.
    Hypothesis B1 : (num e <= num rg)%Q.
    Hypothesis B2 : (num (glbl_rp p) <= num e)%Q.
    Hypothesis G0 : 0 < glbl_tick p.
    Hypothesis Et : rp_to_tick_loop e false ((glbl_tick p - 1) / spacing p * spacing p) = Ok t.
    Lemma seek_le : 0 <= (glbl_tick p - 1) / spacing p * spacing p <= glbl_tick p - 1.
    Proof. pose proof I as (_ & Sp & _). pose proof (Z.div_mod (glbl_tick p - 1) (spacing p) ltac:(lia)). pose proof (Z.mod_pos_bound (glbl_tick p - 1) (spacing p) Sp). pose proof (Z.div_pos (glbl_tick p - 1) (spacing p) ltac:(lia) Sp). nia. Qed.
    Lemma stop_up_near : forall k, 0 <= k -> k mod spacing p = 0 -> (k <= t -> forall r, 1 <= k -> tick_to_rp (k - 1) = Ok r -> (num r <= num e)%Q) /\ (t < k -> forall r, tick_to_rp (k + 1) = Ok r -> (num e <= num r)%Q).
    Proof.
      intros k Hk M. pose proof seek_le as Sk. pose proof (rtl_nn _ _ _ _ We (proj1 Sk) Et) as T0. split.
      - intros Lk r K1 Er. apply Qnot_lt_le. intros X. destruct (Z.le_gt_cases ((glbl_tick p - 1) / spacing p * spacing p) (k - 1)) as [S | S].
        + pose proof (loop_hi e (k - 1) r ((glbl_tick p - 1) / spacing p * spacing p) t We Er X ltac:(lia) Et). lia.
        + destruct (Hn k Hk M) as [Y _]. specialize (Y ltac:(lia) r K1 Er). lra.
      - intros Lk r Er. apply Qnot_lt_le. intros X. pose proof (loop_lo e (k + 1) r ((glbl_tick p - 1) / spacing p * spacing p) t We Er X ltac:(lia) Et). lia.
    Qed.
    Lemma stop_up : (forall k, In k (keys p) -> (1 <= k /\ exists r, tick_to_rp (k - 1) = Ok r /\ (num e < num r)%Q) \/ (exists r, tick_to_rp (k + 1) = Ok r /\ (num r < num e)%Q)) ->
      forall k, In k (keys p) -> k <= glbl_tick p <-> k <= t.
    Proof.
      intros C k Hk. pose proof seek_le as Sk. pose proof (rtl_nn _ _ _ _ We (proj1 Sk) Et) as T0. destruct (key_mod _ _ I Hk) as [K0 M]. split; intros Lk.
      - destruct (C k Hk) as [(K1 & r & Er & X) | (r & Er & X)]. { destruct (Hn k K0 M) as [Y _]. specialize (Y Lk r K1 Er). lra. }
        destruct (Z.le_gt_cases ((glbl_tick p - 1) / spacing p * spacing p) (k + 1)) as [S | S]; [| lia]. pose proof (loop_lo e (k + 1) r ((glbl_tick p - 1) / spacing p * spacing p) t We Er X ltac:(lia) Et). lia.
      - destruct (Z.le_gt_cases k (glbl_tick p)) as [| G]; auto. exfalso. specialize (N k Hk G).
        destruct (C k Hk) as [(K1 & r & Er & X) | (r & Er & X)]. { pose proof (loop_hi e (k - 1) r ((glbl_tick p - 1) / spacing p * spacing p) t We Er X ltac:(lia) Et). lia. }
        pose proof (price_le g (k + 1) rg r ltac:(lia) Eg Er). lra.
    Qed.
  End Up.
End Stop.

(** ** Swaps *)
Definition ended (dx : decimal) (c : pool * swp) : Prop :=
  (num (s_in (snd c)) == num dx)%Q /\ is_positive (glbl_liq (fst c)) = true /\ (clear_of_ticks (fst c) -> liq_inv (fst c)).
Definition ranged (P : Prop) (dx : decimal) (c : pool * swp) : Prop := tick_inv (fst c) /\ near_tick (fst c) /\ (P -> liq_inv (fst c) \/ ended dx c).
Lemma not_more : forall s dx, wf dx -> s_wf s -> 0 < mant dx -> d_lt (s_in s) dx = Ok true -> (num (s_in s) == num dx)%Q -> False.
Proof.
  intros s dx Wd (Ws & _) P H E. destruct (lt_m _ _ _ (wf_nn _ Ws) (wf_nn _ Wd) H) as (S & L & _ & N).
  assert (M : ~ mant (s_in s) < mant dx). { intros G. apply (num_lt (s_in s) dx Ws S) in G. lra. }
  apply M, N; auto. specialize (L eq_refl). assert (0 < mant (s_in s)) by lia. unfold canonical, mant in *. intros Z0. rewrite Z0 in *. destruct (dneg (s_in s)); lia.
Qed.
Lemma tally_done : forall dx s w s', tally dx s w s' -> (exists rest, d_sub dx (s_in s) = Ok rest /\ mant (w_recv w) + mant (w_fee w) = mant rest) -> wf dx -> s_wf s -> (num (s_in s') == num dx)%Q.
Proof.
  intros dx s w s' (rest & c1 & ck & i1 & i2 & o2 & a2 & f2 & T1 & T2 & T3 & T4 & T5 & T6 & T7 & T8 & T9 & ->) (r & R1 & R2) Wd (Ws & _). cbn [s_in].
  apply sub_m in R1. destruct R1 as (A1 & A2 & A3).
  repeat match goal with H : d_add _ _ = Ok _ |- _ => apply add_m in H; destruct H as (? & ? & ?) end.
  assert (Em : mant i2 = mant dx) by lia. assert (Es : dscale i2 = dscale dx) by congruence. unfold num. rewrite Em, Es. reflexivity.
Qed.
Lemma mv_x_range : forall (P : Prop) orc dx ro a b, wf dx -> wf ro -> 0 < mant dx -> inv_x a -> mv_x orc dx ro a b -> ranged P dx a -> ranged P dx b.
Proof.
  intros P orc dx ro a b Wd Wo Pd Ia M (T & N & L). pose proof (mv_x_records _ _ _ _ _ Wd Wo Ia M) as R. pose proof (mv_x_inv _ _ _ _ _ Wd Wo Ia M) as Ib.
  pose proof (records_inv _ _ R (proj1 Ib) T) as T'. pose proof R as (R1 & R2 & _). destruct Ia as (I1 & I2 & I3 & I4).
  inversion M as [p s tk rp p' H1 H2 H3 H4 H5 | p s f gtk p' s' H1 H2 H3 H4 H5]; subst; cbn [fst snd] in *.
  - destruct H3 as [K1 K2]. pose proof (key_nn _ _ I1 H2) as G0.
    destruct (gap_x_wf _ _ _ _ I1 H2 H4 H5) as (G1 & G2 & _).
    assert (Ts : tick_inv (seat p tk rp)). { apply (records_inv p); auto. { unfold same_records; cbn; auto 10. } apply seat_wf; auto. apply (tick_rp_wf _ _ H4). }
    destruct (cross_down _ _ _ H5 Ts G0) as (C1 & C2 & C3). cbn [spacing seat] in C2.
    unfold ranged; cbn [fst snd]. csplit; auto.
    + unfold near_tick. rewrite G2, R2, C2. eapply near_cross_down; eauto.
    + intros HP. specialize (L HP). destruct L as [L | (_ & L & _)]; [| cbn in L; congruence]. left. apply (down_ok p p' tk); auto.
  - destruct (find_left _ _ _ H4) as [K1 K2].
    pose proof (next_left _ _ _ I1 H3 H4) as (NB1 & NB2 & NB3). pose proof (key_nn _ _ I1 K1) as G0. pose proof T as (_ & Sp & _).
    assert (NB4 : forall k, In k (keys p) -> k <= glbl_tick p -> k <= gtk). { intros k Hk Lk. apply NB3; auto. apply floor_keys; auto. apply (key_mod _ _ T Hk). }
    assert (NB5 : gtk <= glbl_tick p) by (apply (floor_keys (spacing p)); auto; apply (key_mod _ _ T K1)).
    destruct (step_x_facts _ _ _ _ _ _ _ _ H5 I1 I2 Wd Wo K1) as (w & p1 & (rest & Q1 & Q2 & Q3) & F2 & F3 & F4 & F5 & F6 & F7 & F8).
    destruct (within_x_facts _ _ _ _ _ _ _ _ Q3 I1 (srp_wf _ I2) (liq_wf _ I1) Q2 Wo G0) as (rpg & cp & X1 & X2 & X3 & X4 & X5 & X6 & X7 & X8 & X9 & X10 & X11 & X12 & X13 & X14 & X15 & X16).
    assert (Mid : positions p1 = positions p /\ spacing p1 = spacing p /\ glbl_liq p1 = glbl_liq p /\ glbl_rp p1 = w_rp w /\ glbl_tick p1 = w_tick w /\ same_records p p1).
    { destruct F3 as (nx & y1 & ny & nya & nxf & fx & hy & _ & _ & _ & _ & _ & _ & _ & ->). unfold same_records; cbn; auto 20. }
    destruct Mid as (P1 & P2 & P3 & P4 & P5 & P6). destruct (w_cross w).
    + destruct F8 as [W1 F8]. destruct X16 as [X16 X17]. pose proof (records_inv _ _ P6 F5 T) as T1. destruct (cross_down _ _ _ F8 T1 G0) as (C1 & C2 & C3).
      destruct (cross_tick_to _ _ _ F8 G0 (proj1 F5)) as (_ & _ & _ & C4).
      destruct (cov_same p p1 gtk P1) as [_ Nt]. rewrite P3, Nt in C1. rewrite P2 in C2.
      unfold ranged; cbn [fst snd]. csplit; auto.
      * unfold near_tick. rewrite R2, C2, C4, P4, X16. eapply near_cross_down; eauto.
      * intros HP. specialize (L HP). destruct L as [L | (L & _)]; [| exfalso; exact (not_more s dx Wd I2 Pd H2 L)]. left. apply (down_ok p p' gtk); auto.
    + subst p1. destruct X16 as (Y1 & Y2 & Y3 & Y4 & Y5). destruct (tick_rp_wf _ _ X1) as (Wg & Sg & _). pose proof X4 as (_ & _ & We & _).
      assert (B1 : (num rpg <= num (w_rp w))%Q) by (apply num_le; auto; [congruence | lia]).
      assert (B2 : (num (w_rp w) <= num (glbl_rp p))%Q) by (rewrite I3; apply num_le; auto; [congruence | lia]).
      unfold ranged; cbn [fst snd]. csplit; auto.
      * unfold near_tick. rewrite R2, P4, P5. eapply stop_down_near; eauto.
      * intros HP. specialize (L HP). destruct L as [L | (L & _)]; [| exfalso; exact (not_more s dx Wd I2 Pd H2 L)]. right. unfold ended; cbn [fst snd]. csplit; [eapply tally_done; eauto | congruence |]. intros C. unfold liq_inv.
        destruct (cov_same p p' (glbl_tick p') P1) as [-> _]. rewrite P3. apply stop_cov; auto. rewrite P5. eapply stop_down; eauto. unfold clear_of_ticks in C. rewrite P4 in C.
        intros k Hk. apply C. unfold keys. replace (map fst (ticks p')) with (map fst (ticks p)); auto. destruct F3 as (nx & y1 & ny & nya & nxf & fx & hy & _ & _ & _ & _ & _ & _ & _ & ->). reflexivity.
Qed.
Lemma mv_y_range : forall (P : Prop) orc dx ro a b, wf dx -> wf ro -> 0 < mant dx -> inv_y a -> mv_y orc dx ro a b -> ranged P dx a -> ranged P dx b.
Proof.
  intros P orc dx ro a b Wd Wo Pd Ia M (T & N & L). pose proof (mv_y_records _ _ _ _ _ Wd Wo Ia M) as R. pose proof (mv_y_inv _ _ _ _ _ Wd Wo Ia M) as Ib.
  pose proof (records_inv _ _ R (proj1 Ib) T) as T'. pose proof R as (R1 & R2 & _). destruct Ia as (I1 & I2 & I3 & I4).
  inversion M as [p s tk rp p' H1 H2 H3 H4 H5 | p s gtk p' s' H1 H2 H3 H4 H5]; subst; cbn [fst snd] in *.
  - destruct H3 as [K1 K2]. pose proof (key_nn _ _ I1 H2) as G0.
    destruct (gap_y_wf _ _ _ _ I1 H2 H4 H5) as (G1 & G2 & _).
    assert (Ts : tick_inv (seat p tk rp)). { apply (records_inv p); auto. { unfold same_records; cbn; auto 10. } apply seat_wf; auto. apply (tick_rp_wf _ _ H4). }
    destruct (cross_up _ _ _ H5 Ts) as (C1 & C2).
    unfold ranged; cbn [fst snd]. csplit; auto.
    + unfold near_tick. rewrite G2, R2, C2. eapply near_cross_up; eauto.
    + intros HP. specialize (L HP). destruct L as [L | (_ & L & _)]; [| cbn in L; congruence]. left. apply (up_ok p p' tk); auto.
  - destruct (find_right _ _ _ H4) as [K1 K2].
    pose proof (next_right _ _ I1 H4) as (NB1 & NB2 & NB3). pose proof (key_nn _ _ I1 K1) as G0. pose proof T as (_ & Sp & _).
    destruct (step_y_facts _ _ _ _ _ _ _ _ H5 I1 I2 Wd Wo K1) as (w & p1 & (rest & Q1 & Q2 & Q3) & F2 & F3 & F4 & F5 & F6 & F7 & F8).
    destruct (within_y_facts _ _ _ _ _ _ _ _ Q3 I1 (srp_wf _ I2) (liq_wf _ I1) Q2 Wo G0) as (rpg & cp & X1 & X2 & X3 & X4 & X5 & X6 & X7 & X8 & X9 & X10 & X11 & X12 & X13 & X14 & X15 & X16).
    assert (Mid : positions p1 = positions p /\ spacing p1 = spacing p /\ glbl_liq p1 = glbl_liq p /\ glbl_rp p1 = w_rp w /\ glbl_tick p1 = w_tick w /\ same_records p p1).
    { destruct F3 as (nx & y1 & ny & nya & nxf & fx & hy & _ & _ & _ & _ & _ & _ & _ & ->). unfold same_records; cbn; auto 20. }
    destruct Mid as (P1 & P2 & P3 & P4 & P5 & P6). destruct (w_cross w).
    + destruct F8 as [W1 F8]. destruct X16 as [X16 X17]. pose proof (records_inv _ _ P6 F5 T) as T1. destruct (cross_up _ _ _ F8 T1) as (C1 & C2).
      destruct (cross_tick_to_r _ _ _ F8) as (_ & _ & C4).
      destruct (cov_same p p1 gtk P1) as [_ Nt]. rewrite P3, Nt in C1.
      unfold ranged; cbn [fst snd]. csplit; auto.
      * unfold near_tick. rewrite R2, C2, C4, P4, X16. eapply near_cross_up; eauto.
      * intros HP. specialize (L HP). destruct L as [L | (L & _)]; [| exfalso; exact (not_more s dx Wd I2 Pd H2 L)]. left. apply (up_ok p p' gtk); auto.
    + subst p1. destruct X16 as (Y1 & Y2 & Y3 & Y4 & Y5 & Y6). destruct (tick_rp_wf _ _ X1) as (Wg & Sg & _). pose proof X4 as (_ & _ & We & _).
      pose proof (srp_wf _ I2) as Wsrp.
      assert (B1 : (num (w_rp w) <= num rpg)%Q) by (apply num_le; auto; [congruence | lia]).
      assert (B2 : (num (glbl_rp p) <= num (w_rp w))%Q) by (rewrite I3; apply num_le; auto; [congruence | lia]).
      unfold ranged; cbn [fst snd]. csplit; auto.
      * unfold near_tick. rewrite R2, P4, P5. eapply stop_up_near; eauto.
      * intros HP. specialize (L HP). destruct L as [L | (L & _)]; [| exfalso; exact (not_more s dx Wd I2 Pd H2 L)]. right. unfold ended; cbn [fst snd]. csplit; [eapply tally_done; eauto | congruence |]. intros C. unfold liq_inv.
        destruct (cov_same p p' (glbl_tick p') P1) as [-> _]. rewrite P3. apply stop_cov; auto. rewrite P5. unfold clear_of_ticks in C. rewrite P4 in C.
        apply (stop_up p gtk (w_rp w) rpg (w_tick w)); auto. intros k Hk. apply C. unfold keys. replace (map fst (ticks p')) with (map fst (ticks p)); auto. destruct F3 as (nx & y1 & ny & nya & nxf & fx & hy & _ & _ & _ & _ & _ & _ & _ & ->). reflexivity.
Qed.
Lemma swap_x_range : forall orc p dx ro p' o, execute_swap_from_x orc p dx ro = Ok (p', o) -> tick_inv p -> near_tick p -> wf dx -> wf ro ->
  tick_inv p' /\ near_tick p' /\ (liq_inv p -> (num (so_recv o) < num dx)%Q \/ clear_of_ticks p' -> liq_inv p').
Proof.
  intros orc p dx ro p' o H T N Wd Wo. destruct (swap_x_chain _ _ _ _ _ _ H (proj1 T) Wd Wo) as (Pd & s' & C & I & F & _).
  assert (X : inv_x (p', s') /\ ranged (liq_inv p) dx (p', s')).
  { refine (chain_inv _ _ (fun c => inv_x c /\ ranged (liq_inv p) dx c) _ _ _ C _).
    - intros a b [A1 A2] M. split; [exact (mv_x_inv _ _ _ _ _ Wd Wo A1 M) | exact (mv_x_range _ _ _ _ _ _ Wd Wo Pd A1 M A2)].
    - split; [apply (inv_start p (proj1 T)) | unfold ranged; cbn; auto]. }
  destruct X as [_ (X1 & X2 & X3)]. cbn [fst snd] in *. csplit; auto. intros L D. specialize (X3 L). destruct X3 as [X3 | (E1 & E2 & E3)]; auto. destruct D as [D | D]; [| auto].
  destruct (finish_x_out _ _ _ _ F) as (F1 & _). cbn [snd] in E1. rewrite F1 in D. lra.
Qed.
Lemma swap_y_range : forall orc p dx ro p' o, execute_swap_from_y orc p dx ro = Ok (p', o) -> tick_inv p -> near_tick p -> wf dx -> wf ro ->
  tick_inv p' /\ near_tick p' /\ (liq_inv p -> (num (so_recv o) < num dx)%Q \/ clear_of_ticks p' -> liq_inv p').
Proof.
  intros orc p dx ro p' o H T N Wd Wo. destruct (swap_y_chain _ _ _ _ _ _ H (proj1 T) Wd Wo) as (Pd & s' & C & I & F & _).
  assert (X : inv_y (p', s') /\ ranged (liq_inv p) dx (p', s')).
  { refine (chain_inv _ _ (fun c => inv_y c /\ ranged (liq_inv p) dx c) _ _ _ C _).
    - intros a b [A1 A2] M. split; [exact (mv_y_inv _ _ _ _ _ Wd Wo A1 M) | exact (mv_y_range _ _ _ _ _ _ Wd Wo Pd A1 M A2)].
    - split; [apply (inv_start p (proj1 T)) | unfold ranged; cbn; auto]. }
  destruct X as [_ (X1 & X2 & X3)]. cbn [fst snd] in *. csplit; auto. intros L D. specialize (X3 L). destruct X3 as [X3 | (E1 & E2 & E3)]; auto. destruct D as [D | D]; [| auto].
  destruct (finish_y_out _ _ _ _ F) as (F1 & _). cbn [snd] in E1. rewrite F1 in D. lra.
Qed.

(** ** Deposits and withdrawals *)
Lemma set_pos_range : forall p u lo up d p' paid, set_pos p u lo up d p' paid ->
  (liq_inv p -> liq_inv p') /\ spacing p' = spacing p /\ glbl_tick p' = glbl_tick p /\ glbl_rp p' = glbl_rp p.
Proof.
  intros p u lo up d p' paid (nfx & nfy & nhx & nhy & pos' & base & ofx & ofy & ohx & ohy & m1 & m2 & L & _ & _ & _ & _ & P & _ & _ & _ & G & ->).
  csplit; auto. unfold liq_inv, covering, glbl_liq, glbl_tick. cbn [positions gs g_liq g_tick]. intros Q. fold (glbl_liq p) (glbl_tick p) in *.
  rewrite (pos_upd_sum _ _ _ _ _ _ _ _ P), <- Q. cbn [kw]. destruct ((lo <=? glbl_tick p) && (glbl_tick p <? up)); cbn [is_b].
  - destruct G as [G _]. apply add_q in G. rewrite G. ring.
  - rewrite G. ring.
Qed.
Definition lp_frame (p p' : pool) : Prop := (liq_inv p -> liq_inv p') /\ spacing p' = spacing p /\ glbl_tick p' = glbl_tick p /\ glbl_rp p' = glbl_rp p.
Lemma deposit_range : forall p user x y rpa rpb p' o, deposit p user x y rpa rpb = Ok (p', o) -> lp_frame p p'.
Proof.
  intros p user x y rpa rpb p' o H.
  destruct (deposit_inv _ _ _ _ _ _ _ _ H) as (lo & up & a & b & p1 & nx & ny & nxf & nxa & nyf & nya & D1 & D2 & D3 & _ & _ & _ & _ & _ & _ & _ & _ & D12 & _ & _ & _ & _ & _ & _ & _ & _ & _ & _ & ->).
  apply set_position_inv, set_pos_range in D12. exact D12.
Qed.
Lemma withdraw_range : forall p user liq rpa rpb p' o, withdraw p user liq rpa rpb = Ok (p', o) -> lp_frame p p'.
Proof.
  intros p user liq rpa rpb p' o H.
  destruct (withdraw_inv _ _ _ _ _ _ _ H) as (lo & up & a & b & p1 & x0 & y0 & nx & ny & nxf & nxa & nyf & nya & D1 & D2 & D3 & _ & _ & _ & _ & D8 & _ & _ & _ & _ & _ & _ & _ & _ & _ & _ & _ & _ & _ & ->).
  apply set_position_inv, set_pos_range in D8. exact D8.
Qed.
Lemma frame_near : forall p p', lp_frame p p' -> near_tick p -> near_tick p'.
Proof. intros p p' (_ & E1 & E2 & E3). unfold near_tick. rewrite E1, E2, E3. auto. Qed.
Lemma new_near : forall rp sp c rate p, wf rp -> wf c -> wf rate -> 0 <= sp -> pool_new rp sp c rate = Ok p -> near_tick p /\ liq_inv p.
Proof.
  intros rp sp c rate p W1 W2 W3 Hs H. destruct (pool_new_wf _ _ _ _ _ H W1 W2 W3 Hs) as (W & T & P & S & _ & L & _ & _ & Sp & R). split.
  - pose proof W as (_ & (_ & _ & G0 & _) & _). intros k Hk M. split; intros L1 r; intros.
    + eapply (price_le (k - 1) (glbl_tick p)); eauto. lia.
    + eapply (price_le (glbl_tick p) (k + 1)); eauto. unfold glbl_tick in *. lia.
  - unfold liq_inv, covering. rewrite L, P. reflexivity.
Qed.

(** The price never strays from the recorded tick by more than one tick, in every reachable pool. *)
Theorem price_near_tick : forall orc p, reachable orc p -> near_tick p.
Proof.
  intros orc p H. induction H as [rp sp c rate p W1 W2 W3 Hs H | p c p' Hr IH C H]; [exact (proj1 (new_near _ _ _ _ _ W1 W2 W3 Hs H)) |].
  pose proof (reachable_ticks _ _ Hr) as T. destruct c as [u x y a b | u l a b | d o | d o]; cbn [run_call call_wf] in *; bd H r E; destruct r as [q out]; injection H as <-.
  - eapply frame_near; eauto. eapply deposit_range; eauto.
  - eapply frame_near; eauto. eapply withdraw_range; eauto.
  - eapply swap_x_range; eauto; tauto.
  - eapply swap_y_range; eauto; tauto.
Qed.

(** Histories in which every swap that is filled completely ends clear of the active ticks. *)
Inductive tidy (orc : log2_oracle) : pool -> Prop :=
| td_new : forall rp sp c rate p, wf rp -> wf c -> wf rate -> 0 <= sp -> pool_new rp sp c rate = Ok p -> tidy orc p
| td_deposit : forall p u x y a b p' o, tidy orc p -> call_wf (CDeposit u x y a b) -> deposit p u x y a b = Ok (p', o) -> tidy orc p'
| td_withdraw : forall p u l a b p' o, tidy orc p -> call_wf (CWithdraw u l a b) -> withdraw p u l a b = Ok (p', o) -> tidy orc p'
| td_swap_x : forall p dx ro p' o, tidy orc p -> wf dx -> wf ro -> execute_swap_from_x orc p dx ro = Ok (p', o) ->
    (num (so_recv o) < num dx)%Q \/ clear_of_ticks p' -> tidy orc p'
| td_swap_y : forall p dy ro p' o, tidy orc p -> wf dy -> wf ro -> execute_swap_from_y orc p dy ro = Ok (p', o) ->
    (num (so_recv o) < num dy)%Q \/ clear_of_ticks p' -> tidy orc p'.
Lemma tidy_reachable : forall orc p, tidy orc p -> reachable orc p.
Proof.
  intros orc p H. induction H as [rp sp c rate p W1 W2 W3 Hs H | p u x y a b p' o H IH C E | p u l a b p' o H IH C E | p d r p' o H IH C1 C2 E _ | p d r p' o H IH C1 C2 E _].
  - exact (r_new _ _ _ _ _ _ W1 W2 W3 Hs H).
  - eapply (r_call orc p (CDeposit u x y a b)); eauto. cbn [run_call]. rewrite E. reflexivity.
  - eapply (r_call orc p (CWithdraw u l a b)); eauto. cbn [run_call]. rewrite E. reflexivity.
  - eapply (r_call orc p (CSwapX d r)); eauto. { split; auto. } cbn [run_call]. rewrite E. reflexivity.
  - eapply (r_call orc p (CSwapY d r)); eauto. { split; auto. } cbn [run_call]. rewrite E. reflexivity.
Qed.
Theorem range_liquidity : forall orc p, tidy orc p -> (num (glbl_liq p) == covering p (glbl_tick p))%Q.
Proof.
  intros orc p H. change (liq_inv p). induction H as [rp sp c rate p W1 W2 W3 Hs H | p u x y a b p' o H IH C E | p u l a b p' o H IH C E | p d r p' o H IH C1 C2 E D | p d r p' o H IH C1 C2 E D].
  - exact (proj2 (new_near _ _ _ _ _ W1 W2 W3 Hs H)).
  - apply (deposit_range _ _ _ _ _ _ _ _ E); auto.
  - apply (withdraw_range _ _ _ _ _ _ _ E); auto.
  - apply tidy_reachable in H. eapply (swap_x_range _ _ _ _ _ _ E); eauto. { apply (reachable_ticks _ _ H). } apply (price_near_tick _ _ H).
  - apply tidy_reachable in H. eapply (swap_y_range _ _ _ _ _ _ E); eauto. { apply (reachable_ticks _ _ H). } apply (price_near_tick _ _ H).
Qed.
