(** Where the fees and adjustments of a swap go: each step credits exactly the positions covering the current tick. *)
From Coq Require Import ZArith QArith Qminmax List Bool Lia Lqa Sorted.
From Verif Require Import Base BaseLemmas DecimalModel DecimalSpec DecimalProofs PowProofs WfProofs MathModel MathProofs TickProofs TickLoop PoolModel PoolWf SwapLoop SwapProofs LpProofs PoolInv PoolNonneg PoolLp PoolFees PoolRange PoolScale PoolGain PoolExit SwapAmounts SwapCover SwapWorth SwapFair.
Import ListNotations.
Open Scope Z_scope.

Definition grow (p p' : pool) (k : fkind) : Q := (num (g_fee (gs p') k) - num (g_fee (gs p) k))%Q.
(** Growth is recorded as having happened above exactly those active ticks that are at or below the tick of [p]. *)
Definition shared (p p' : pool) : Prop := forall t k, In t (keys p) -> (PoolFees.above p' t k == PoolFees.above p t k + is_b (t <=? glbl_tick p)%Z * grow p p' k)%Q.
(** The growth times the liquidity in range is what the pots received, up to rounding down. *)
Definition filled (p p' : pool) : Prop := forall k,
  (0 <= grow p p' k /\ num (glbl_liq p) * grow p p' k <= pot_q p' k - pot_q p k /\ pot_q p' k - pot_q p k <= num (glbl_liq p) * (grow p p' k + ulp12))%Q.
Definition sides_down (p p' : pool) : Prop := forall t, In t (keys p) -> t <= glbl_tick p' -> t <= glbl_tick p.
Definition sides_up (p p' : pool) : Prop := forall t, In t (keys p) -> t <= glbl_tick p -> t <= glbl_tick p'.

Lemma key_get : forall t (m : list (Z * tstate)), In t (map fst m) -> exists ts, tm_get t m = Some ts.
Proof.
  induction m as [| [a b] m IH]; cbn; intros H; [tauto |]. destruct (Z.eqb_spec t a) as [-> | N]; [eauto |]. destruct H as [<- | H]; [congruence | auto].
Qed.
Lemma cross_shared : forall p p1 g l2r p', cross_tick p1 g l2r = Ok p' -> ticks p1 = ticks p -> In g (keys p) ->
  (forall t, In t (keys p) -> t <> g -> (t <= glbl_tick p' <-> t <= glbl_tick p)) -> (g <= glbl_tick p <-> ~ g <= glbl_tick p') -> shared p p'.
Proof.
  intros p p1 g l2r p' H Et Hg Hs Hf t k Ht. destruct (cross_inv _ _ _ _ H) as (ts & fx & fy & hx & hy & nt & L & C1 & C2 & C3 & C4 & C5 & C6 & C7 & C8 & C9 & Ep). rewrite Et in *.
  assert (Tf : (num (t_fee (crossed ts fx fy hx hy) k) == num (g_fee (gs p') k) - num (t_fee ts k))%Q).
  { apply sub_q in C3, C4, C5, C6. rewrite Ep. destruct k; cbn; assumption. }
  unfold grow. assert (Tp : ticks p' = tm_set g (crossed ts fx fy hx hy) (ticks p)) by (rewrite Ep; reflexivity). unfold PoolFees.above. rewrite Tp. destruct (Z.eq_dec t g) as [-> | N].
  - rewrite tm_get_set_same, C2. destruct (Z.leb_spec g (glbl_tick p')), (Z.leb_spec g (glbl_tick p)); try (exfalso; lia); cbn [is_b]; rewrite Tf; lra.
  - rewrite tm_get_set_other by auto. destruct (key_get t (ticks p) Ht) as (ts' & ->). specialize (Hs t Ht N). destruct (Z.leb_spec t (glbl_tick p')), (Z.leb_spec t (glbl_tick p)); try (exfalso; lia); cbn [is_b]; lra.
Qed.
Lemma stop_shared : forall p p', ticks p' = ticks p -> (forall t, In t (keys p) -> (t <= glbl_tick p <-> t <= glbl_tick p')) -> shared p p'.
Proof.
  intros p p' Et Hs t k Ht. unfold PoolFees.above, grow. rewrite Et. destruct (key_get t (ticks p) Ht) as (ts' & ->). specialize (Hs t Ht). destruct (Z.leb_spec t (glbl_tick p')), (Z.leb_spec t (glbl_tick p)); try (exfalso; lia); cbn [is_b]; lra.
Qed.
Lemma quot_fill : forall a l q, d_div a l = Ok q -> wf a -> wf l -> dscale a = 12 -> (0 < num l)%Q -> (0 <= num a)%Q -> (0 <= num q /\ num l * num q <= num a /\ num a <= num l * (num q + ulp12))%Q.
Proof.
  intros a l q H Wa Wl Sa Pl Pa. destruct (div_t _ _ _ H Wa Wl Sa) as (Nz & Wq & Sq & T).
  assert (P : (0 <= num a / num l)%Q) by (apply Qmult_le_0_compat; [lra | apply Qinv_le_0_compat; lra]). destruct (trunc_pos _ _ _ T P) as (T0 & T1 & T2). change (ulp 12) with ulp12 in T2.
  assert (E : (num l * (num a / num l) == num a)%Q) by (field; lra). split; [exact T0 |].
  apply (Qmult_le_l _ _ (num l) Pl) in T1. apply (Qmult_lt_l _ _ (num l) Pl) in T2. split; lra.
Qed.
Lemma mid_x_filled : forall p w p1, mid_x p w p1 -> pool_wf p -> w_wf w -> all12 p -> (0 < num (glbl_liq p))%Q -> (0 <= num (w_adj w) /\ 0 <= num (w_fee w))%Q -> is_positive (glbl_liq p) = true -> filled p p1.
Proof.
  intros p w p1 (nx & y1 & ny & nya & nxf & fx & hy & M1 & M2 & M3 & M4 & M5 & M6 & M7 & ->) W (V1 & V2 & V3 & V4 & V5 & V6) ((G1 & G2) & T & P & (O1 & O2 & O3 & O4 & O5 & O6)) Pl (N1 & N2) E.
  rewrite E in M7. destruct M7 as (q1 & q2 & Q1 & Q2 & Q3 & Q4). pose proof (liq_wf _ W) as Wl.
  assert (S1 : dscale (w_fee w) = 12) by (apply add_m in M6; destruct M6 as (_ & _ & ->); apply O5). assert (S2 : dscale (w_adj w) = 12) by (apply add_m in M5; destruct M5 as (_ & _ & ->); apply O4).
  pose proof (quot_fill _ _ _ Q1 V5 Wl S1 Pl N2) as (A1 & A2 & A3). pose proof (quot_fill _ _ _ Q3 V4 Wl S2 Pl N1) as (B1 & B2 & B3).
  apply add_q in M5, M6, Q2, Q4. pose proof ulp_pos as U. assert (UL : (0 <= num (glbl_liq p) * ulp12)%Q) by (apply Qmult_le_0_compat; lra).
  assert (Z : forall x y z : Q, (z == x + y -> y - 0 == z - x)%Q) by (intros; lra).
  intros k; destruct k; unfold grow, pot_q; cbn [g_fee g_fx g_fy g_hx g_hy gs x_fee y_fee x_adj y_adj].
  - assert (X : (num fx - num (g_fx (gs p)) == num q1)%Q) by lra. rewrite X. csplit; lra.
  - assert (X : (num (g_fy (gs p)) - num (g_fy (gs p)) == 0)%Q) by ring. rewrite X. csplit; lra.
  - assert (X : (num (g_hx (gs p)) - num (g_hx (gs p)) == 0)%Q) by ring. rewrite X. csplit; lra.
  - assert (X : (num hy - num (g_hy (gs p)) == num q2)%Q) by lra. rewrite X. csplit; lra.
Qed.
Lemma mid_y_filled : forall p w p1, mid_y p w p1 -> pool_wf p -> w_wf w -> all12 p -> (0 < num (glbl_liq p))%Q -> (0 <= num (w_adj w) /\ 0 <= num (w_fee w))%Q -> is_positive (glbl_liq p) = true -> filled p p1.
Proof.
  intros p w p1 (nx & y1 & ny & nya & nxf & fx & hy & M1 & M2 & M3 & M4 & M5 & M6 & M7 & ->) W (V1 & V2 & V3 & V4 & V5 & V6) ((G1 & G2) & T & P & (O1 & O2 & O3 & O4 & O5 & O6)) Pl (N1 & N2) E.
  rewrite E in M7. destruct M7 as (q1 & q2 & Q1 & Q2 & Q3 & Q4). pose proof (liq_wf _ W) as Wl.
  assert (S1 : dscale (w_fee w) = 12) by (apply add_m in M6; destruct M6 as (_ & _ & ->); apply O6). assert (S2 : dscale (w_adj w) = 12) by (apply add_m in M5; destruct M5 as (_ & _ & ->); apply O3).
  pose proof (quot_fill _ _ _ Q1 V5 Wl S1 Pl N2) as (A1 & A2 & A3). pose proof (quot_fill _ _ _ Q3 V4 Wl S2 Pl N1) as (B1 & B2 & B3).
  apply add_q in M5, M6, Q2, Q4. pose proof ulp_pos as U. assert (UL : (0 <= num (glbl_liq p) * ulp12)%Q) by (apply Qmult_le_0_compat; lra).
  intros k; destruct k; unfold grow, pot_q; cbn [g_fee g_fx g_fy g_hx g_hy gs x_fee y_fee x_adj y_adj].
  - assert (X : (num (g_fx (gs p)) - num (g_fx (gs p)) == 0)%Q) by ring. rewrite X. csplit; lra.
  - assert (X : (num fx - num (g_fy (gs p)) == num q1)%Q) by lra. rewrite X. csplit; lra.
  - assert (X : (num hy - num (g_hx (gs p)) == num q2)%Q) by lra. rewrite X. csplit; lra.
  - assert (X : (num (g_hy (gs p)) - num (g_hy (gs p)) == 0)%Q) by ring. rewrite X. csplit; lra.
Qed.
Lemma cross_fees : forall p t l2r p' k, cross_tick p t l2r = Ok p' -> g_fee (gs p') k = g_fee (gs p) k.
Proof. intros p t l2r p' k H. destruct (cross_inv _ _ _ _ H) as (ts & fx & fy & hx & hy & nt & L & C1 & C2 & C3 & C4 & C5 & C6 & C7 & C8 & C9 & ->). destruct k; reflexivity. Qed.
Lemma cross_filled : forall p p1 t l2r p', cross_tick p1 t l2r = Ok p' -> filled p p1 -> filled p p'.
Proof.
  intros p p1 t l2r p' H F k. specialize (F k). unfold grow in *. rewrite (cross_fees _ _ _ _ k H). destruct (cross_funds _ _ _ _ H) as (E1 & E2 & E3 & E4 & E5 & E6).
  assert (E : pot_q p' k = pot_q p1 k) by (unfold pot_q; destruct k; congruence). rewrite E. exact F.
Qed.
Lemma filled_refl : forall p, (0 <= num (glbl_liq p))%Q -> filled p p.
Proof. intros p H k. unfold grow. pose proof ulp_pos. assert (X : (num (g_fee (gs p) k) - num (g_fee (gs p) k) == 0)%Q) by ring. rewrite X. assert (0 <= num (glbl_liq p) * ulp12)%Q by (apply Qmult_le_0_compat; lra). csplit; lra. Qed.
Lemma records_keys_eq : forall p p' t, same_records p p' -> In t (keys p') <-> In t (keys p).
Proof. intros p p' t R. rewrite (records_keys _ _ R). tauto. Qed.

(** A move either crosses an active tick or uses up the amount. *)
Lemma mv_x_shared : forall orc dx ro a b, wf dx -> wf ro -> inv_x a -> tick_inv (fst a) -> near_tick (fst a) -> nn (fst a) -> all12 (fst a) -> mv_x orc dx ro a b ->
  filled (fst a) (fst b) /\
  ((shared (fst a) (fst b) /\ sides_down (fst a) (fst b)) \/ (spent dx b /\ (clear_of_ticks (fst b) -> shared (fst a) (fst b) /\ sides_down (fst a) (fst b)))).
Proof.
  intros orc dx ro a b Wd Wo Ia T Nt Nn A12 M. pose proof (mv_x_records _ _ _ _ _ Wd Wo Ia M) as R. pose proof Ia as (I1 & I2 & I3 & I4).
  inversion M as [p s tk rp p' H1 H2 H3 H4 H5 | p s f gtk p' s' H1 H2 H3 H4 H5]; subst a b; cbn [fst snd] in *.
  - destruct H3 as [K1 K2]. pose proof (key_nn _ _ I1 H2) as G0. split.
    { apply (cross_filled _ _ _ _ _ H5). pose proof Nn as (_ & _ & _ & _ & _ & N0). intros k. pose proof (filled_refl p N0 k) as F. unfold grow in *. destruct k; exact F. }
    left. assert (Ts : tick_inv (seat p tk rp)). { apply (records_inv p); auto. { unfold same_records; cbn; auto 10. } apply seat_wf; auto. apply (tick_rp_wf _ _ H4). }
    destruct (cross_down _ _ _ H5 Ts G0) as (C1 & C2 & C3). cbn [spacing seat] in C2. pose proof T as (_ & Sp & _).
    assert (X : forall t, In t (keys p) -> t <> tk -> (t <= glbl_tick p' <-> t <= glbl_tick p)).
    { intros t Ht Ne. rewrite C2. destruct (key_mod _ _ T Ht) as [_ Mt]. pose proof (floor_keys (spacing p) t (tk - 1) Sp Mt) as FK. split; intros L. { apply FK in L. lia. } apply FK. specialize (K2 t Ht L). lia. }
    assert (Y : ~ tk <= glbl_tick p'). { destruct (cross_tick_to _ _ _ H5 G0 (Z.lt_le_incl _ _ (proj1 (proj2 Ts)))) as (_ & Z1 & _). lia. }
    split; [apply (cross_shared p (seat p tk rp) tk false p'); auto; tauto |]. intros t Ht L. destruct (Z.eq_dec t tk) as [-> | Ne]; [lia |]. apply X; auto.
  - destruct (find_left _ _ _ H4) as [K1 K2].
    pose proof (next_left _ _ _ I1 H3 H4) as (NB1 & NB2 & NB3). pose proof (key_nn _ _ I1 K1) as G0. pose proof T as (_ & Sp & _).
    assert (NB4 : forall k, In k (keys p) -> k <= glbl_tick p -> k <= gtk). { intros k Hk Lk. apply NB3; auto. apply floor_keys; auto. apply (key_mod _ _ T Hk). }
    assert (NB5 : gtk <= glbl_tick p) by (apply (floor_keys (spacing p)); auto; apply (key_mod _ _ T K1)).
    destruct (step_x_facts _ _ _ _ _ _ _ _ H5 I1 I2 Wd Wo K1) as (w & p1 & (rest & Q1 & Q2 & Q3) & F2 & F3 & F4 & F5 & F6 & F7 & F8).
    destruct (within_x_facts _ _ _ _ _ _ _ _ Q3 I1 (srp_wf _ I2) (liq_wf _ I1) Q2 Wo G0) as (rpg & cp & X1 & X2 & X3 & X4 & (_ & _ & XA & XF & _) & X6 & X7 & X8 & X9 & X10 & X11 & X12 & X13 & X14 & X15 & X16).
    pose proof F2 as (V1 & V2 & V3 & V4 & V5 & V6). assert (Lp : (0 < num (glbl_liq p))%Q) by (apply pos_q; auto; apply liq_wf; auto).
    assert (Fl : filled p p1). { apply (mid_x_filled p w p1); auto. split; apply nn_q; auto. }
    assert (Mid : spacing p1 = spacing p /\ glbl_rp p1 = w_rp w /\ glbl_tick p1 = w_tick w /\ same_records p p1 /\ ticks p1 = ticks p /\ glbl_liq p1 = glbl_liq p).
    { destruct F3 as (nx & y1 & ny & nya & nxf & fx & hy & _ & _ & _ & _ & _ & _ & _ & ->). unfold same_records; cbn; auto 20. }
    destruct Mid as (P2 & P4 & P5 & P6 & P7 & P8). destruct (w_cross w).
    + destruct F8 as [W1 F8]. split; [apply (cross_filled _ _ _ _ _ F8 Fl) |]. left. pose proof (records_inv _ _ P6 F5 T) as T1. destruct (cross_down _ _ _ F8 T1 G0) as (C1 & C2 & C3). rewrite P2 in C2.
      assert (X : forall t, In t (keys p) -> t <> gtk -> (t <= glbl_tick p' <-> t <= glbl_tick p)).
      { intros t Ht Ne. rewrite C2. destruct (key_mod _ _ T Ht) as [_ Mt]. pose proof (floor_keys (spacing p) t (gtk - 1) Sp Mt) as FK. split; intros L. { apply FK in L. lia. } apply FK. specialize (NB4 t Ht L). lia. }
      assert (Y : ~ gtk <= glbl_tick p'). { destruct (cross_tick_to _ _ _ F8 G0 (proj1 F5)) as (_ & Z1 & _). lia. }
      split; [apply (cross_shared p p1 gtk false p'); auto; tauto |]. intros t Ht L. destruct (Z.eq_dec t gtk) as [-> | Ne]; [lia |]. apply X; auto.
    + subst p1. destruct X16 as (Y1 & Y2 & Y3 & Y4 & Y5). destruct (tick_rp_wf _ _ X1) as (Wg & Sg & _). pose proof X4 as (_ & _ & We & _). split; [exact Fl |]. right.
      assert (B1 : (num rpg <= num (w_rp w))%Q) by (apply num_le; auto; [congruence | lia]).
      assert (B2 : (num (w_rp w) <= num (glbl_rp p))%Q) by (rewrite I3; apply num_le; auto; [congruence | lia]).
      split. { split; cbn [fst snd]; [eapply tally_done; eauto | congruence]. }
      intros C. assert (Sd : forall t, In t (keys p) -> t <= glbl_tick p <-> t <= glbl_tick p').
      { rewrite P5. eapply stop_down; eauto. unfold clear_of_ticks in C. rewrite P4 in C. intros k Hk. apply C. apply (records_keys_eq _ _ _ P6). auto. }
      split; [apply stop_shared; auto |]. intros t Ht L. apply Sd; auto.
Qed.
Lemma mv_y_shared : forall orc dx ro a b, wf dx -> wf ro -> inv_y a -> tick_inv (fst a) -> near_tick (fst a) -> nn (fst a) -> all12 (fst a) -> mv_y orc dx ro a b ->
  filled (fst a) (fst b) /\
  ((shared (fst a) (fst b) /\ sides_up (fst a) (fst b)) \/ (spent dx b /\ (clear_of_ticks (fst b) -> shared (fst a) (fst b) /\ sides_up (fst a) (fst b)))).
Proof.
  intros orc dx ro a b Wd Wo Ia T Nt Nn A12 M. pose proof (mv_y_records _ _ _ _ _ Wd Wo Ia M) as R. pose proof Ia as (I1 & I2 & I3 & I4).
  inversion M as [p s tk rp p' H1 H2 H3 H4 H5 | p s gtk p' s' H1 H2 H3 H4 H5]; subst a b; cbn [fst snd] in *.
  - destruct H3 as [K1 K2]. pose proof (key_nn _ _ I1 H2) as G0. split.
    { apply (cross_filled _ _ _ _ _ H5). pose proof Nn as (_ & _ & _ & _ & _ & N0). intros k. pose proof (filled_refl p N0 k) as F. unfold grow in *. destruct k; exact F. }
    left. assert (Ts : tick_inv (seat p tk rp)). { apply (records_inv p); auto. { unfold same_records; cbn; auto 10. } apply seat_wf; auto. apply (tick_rp_wf _ _ H4). }
    destruct (cross_up _ _ _ H5 Ts) as (C1 & C2).
    assert (X : forall t, In t (keys p) -> t <> tk -> (t <= glbl_tick p' <-> t <= glbl_tick p)).
    { intros t Ht Ne. rewrite C2. split; intros L; [| lia]. destruct (Z.le_gt_cases t (glbl_tick p)); auto. specialize (K2 t Ht ltac:(lia)). lia. }
    split; [apply (cross_shared p (seat p tk rp) tk true p'); auto; lia |]. intros t Ht L. destruct (Z.eq_dec t tk) as [-> | Ne]; [lia |]. apply X; auto.
  - destruct (find_right _ _ _ H4) as [K1 K2].
    pose proof (next_right _ _ I1 H4) as (NB1 & NB2 & NB3). pose proof (key_nn _ _ I1 K1) as G0. pose proof T as (_ & Sp & _).
    destruct (step_y_facts _ _ _ _ _ _ _ _ H5 I1 I2 Wd Wo K1) as (w & p1 & (rest & Q1 & Q2 & Q3) & F2 & F3 & F4 & F5 & F6 & F7 & F8).
    destruct (within_y_facts _ _ _ _ _ _ _ _ Q3 I1 (srp_wf _ I2) (liq_wf _ I1) Q2 Wo G0) as (rpg & cp & X1 & X2 & X3 & X4 & (_ & _ & XA & XF & _) & X6 & X7 & X8 & X9 & X10 & X11 & X12 & X13 & X14 & X15 & X16).
    pose proof F2 as (V1 & V2 & V3 & V4 & V5 & V6). assert (Lp : (0 < num (glbl_liq p))%Q) by (apply pos_q; auto; apply liq_wf; auto).
    assert (Fl : filled p p1). { apply (mid_y_filled p w p1); auto. split; apply nn_q; auto. }
    assert (Mid : spacing p1 = spacing p /\ glbl_rp p1 = w_rp w /\ glbl_tick p1 = w_tick w /\ same_records p p1 /\ ticks p1 = ticks p /\ glbl_liq p1 = glbl_liq p).
    { destruct F3 as (nx & y1 & ny & nya & nxf & fx & hy & _ & _ & _ & _ & _ & _ & _ & ->). unfold same_records; cbn; auto 20. }
    destruct Mid as (P2 & P4 & P5 & P6 & P7 & P8). destruct (w_cross w).
    + destruct F8 as [W1 F8]. split; [apply (cross_filled _ _ _ _ _ F8 Fl) |]. left. pose proof (records_inv _ _ P6 F5 T) as T1. destruct (cross_up _ _ _ F8 T1) as (C1 & C2).
      assert (X : forall t, In t (keys p) -> t <> gtk -> (t <= glbl_tick p' <-> t <= glbl_tick p)).
      { intros t Ht Ne. rewrite C2. split; intros L; [| lia]. destruct (Z.le_gt_cases t (glbl_tick p)); auto. specialize (NB3 t Ht ltac:(lia)). lia. }
      split; [apply (cross_shared p p1 gtk true p'); auto; lia |]. intros t Ht L. destruct (Z.eq_dec t gtk) as [-> | Ne]; [lia |]. apply X; auto.
    + subst p1. destruct X16 as (Y1 & Y2 & Y3 & Y4 & Y5 & Y6). destruct (tick_rp_wf _ _ X1) as (Wg & Sg & _). pose proof X4 as (_ & _ & We & _). split; [exact Fl |]. right. pose proof (srp_wf _ I2) as Wsrp.
      assert (B1 : (num (w_rp w) <= num rpg)%Q) by (apply num_le; auto; [congruence | lia]).
      assert (B2 : (num (glbl_rp p) <= num (w_rp w))%Q) by (rewrite I3; apply num_le; auto; [congruence | lia]).
      split. { split; cbn [fst snd]; [eapply tally_done; eauto | congruence]. }
      intros C. assert (Sd : forall t, In t (keys p) -> t <= glbl_tick p <-> t <= glbl_tick p').
      { rewrite P5. apply (stop_up p gtk (w_rp w) rpg (w_tick w)); auto. unfold clear_of_ticks in C. rewrite P4 in C. intros k Hk. apply C. apply (records_keys_eq _ _ _ P6). auto. }
      split; [apply stop_shared; auto |]. intros t Ht L. apply Sd; auto.
Qed.

(** ** Sums over all positions *)
(** Liquidity times growth inside its range between two states, summed over the positions. *)
Definition earned (p p' : pool) (k : fkind) : Q := weighted (fun lo up => inside p' lo up k - inside p lo up k)%Q (positions p).
Definition all_liq (p : pool) : Q := weighted (fun _ _ => 1)%Q (positions p).
Lemma weighted_ext : forall w w' m, (forall u lo up q, In (u, lo, up, q) m -> (w lo up * num (p_liq q) == w' lo up * num (p_liq q))%Q) -> (weighted w m == weighted w' m)%Q.
Proof.
  induction m as [| [[[u lo] up] q] m IH]; intros H; [reflexivity |]. rewrite !weighted_cons. cbn [kw]. rewrite (H u lo up q (or_introl eq_refl)), IH; [reflexivity |]. intros; apply (H u0); right; auto.
Qed.
Lemma weighted_add : forall w w' m, (weighted (fun a b => w a b + w' a b) m == weighted w m + weighted w' m)%Q.
Proof. induction m as [| [[[u lo] up] q] m IH]; [reflexivity |]. rewrite !weighted_cons, IH. cbn [kw]. ring. Qed.
Lemma weighted_scale : forall w c m, (weighted (fun a b => c * w a b) m == c * weighted w m)%Q.
Proof. induction m as [| [[[u lo] up] q] m IH]; [cbn; ring |]. rewrite !weighted_cons, IH. cbn [kw]. ring. Qed.
Lemma in_pm_get : forall k q (m : list (pkey * pstate)), NoDup (map fst m) -> In (k, q) m -> pm_get k m = Some q.
Proof.
  induction m as [| [a b] m IH]; cbn; intros N H; [tauto |]. inversion N as [| ? ? N1 N2]; subst. destruct (pkey_eqb k a) eqn:E.
  - apply pkey_eqb_eq in E. subst a. destruct H as [H | H]; [congruence |]. exfalso. apply N1. apply (in_map fst) in H. exact H.
  - destruct H as [H | H]; [| auto]. exfalso. injection H as -> ->. assert (pkey_eqb k k = true) by (apply pkey_eqb_eq; auto). congruence.
Qed.
(** A position with liquidity: its bounds are active ticks. *)
Lemma pos_keys : forall p u lo up q, tick_inv p -> In (u, lo, up, q) (positions p) -> lo < up /\ (0 <= num (p_liq q))%Q /\ ((0 < num (p_liq q))%Q -> In lo (keys p) /\ In up (keys p)).
Proof.
  intros p u lo up q T H. pose proof T as (W & Sp & Po & _). pose proof W as (_ & _ & _ & (Nd & Wp) & _). destruct (Po u lo up q H) as (B & _ & _ & Hm). destruct (Wp _ _ H) as (Wq & _). split; [lia |]. split; [apply nn_q; auto |].
  intros Hq. destruct (own_ticks p u lo up q T (in_pm_get _ _ _ Nd H) Hq) as [A1 A2].
  assert (X : forall t, tm_get t (ticks p) <> None -> In t (keys p)). { intros t Ht. destruct (tm_get t (ticks p)) as [ts |] eqn:E; [| congruence]. apply tm_get_in in E. apply (in_map fst) in E. exact E. }
  split; apply X; auto.
Qed.
Lemma shared_inside : forall p p' lo up k, shared p p' -> In lo (keys p) -> In up (keys p) -> lo < up ->
  (inside p' lo up k == inside p lo up k + is_b ((lo <=? glbl_tick p) && (glbl_tick p <? up)) * grow p p' k)%Q.
Proof.
  intros p p' lo up k S H1 H2 L. unfold inside. rewrite (S lo k H1), (S up k H2). destruct (Z.leb_spec lo (glbl_tick p)), (Z.leb_spec up (glbl_tick p)), (Z.ltb_spec (glbl_tick p) up); try (exfalso; lia); cbn [is_b andb]; ring.
Qed.
Lemma shared_earned : forall p p' k, shared p p' -> tick_inv p -> (earned p p' k == grow p p' k * covering p (glbl_tick p))%Q.
Proof.
  intros p p' k S T. unfold earned, covering. rewrite <- weighted_scale. apply weighted_ext. intros u lo up q Hi. destruct (pos_keys _ _ _ _ _ T Hi) as (L & Nq & K).
  destruct (Qlt_le_dec 0 (num (p_liq q))) as [Pq | Zq]. 2: { assert (Z0 : (num (p_liq q) == 0)%Q) by lra. rewrite Z0. ring. }
  destruct (K Pq) as [K1 K2]. rewrite (shared_inside _ _ _ _ k S K1 K2 L). ring.
Qed.
Lemma earned_trans : forall p0 p p' k, positions p = positions p0 -> (earned p0 p' k == earned p0 p k + earned p p' k)%Q.
Proof. intros p0 p p' k E. unfold earned. rewrite E, <- weighted_add. apply weighted_ext. intros. ring. Qed.
Lemma earned_refl : forall p k, (earned p p k == 0)%Q.
Proof. intros p k. unfold earned. rewrite <- (weighted_zero (positions p)). apply weighted_ext. intros. ring. Qed.
Lemma covering_all : forall p t, tick_inv p -> (0 <= covering p t <= all_liq p)%Q.
Proof.
  intros p t (W & _ & Po & _). pose proof W as (_ & _ & _ & (_ & Wp) & _). unfold covering, all_liq. rewrite <- (weighted_zero (positions p)) at 1.
  split; apply (weighted_le _ _ _ _ Po Wp); intros lo up _; destruct ((lo <=? t) && (t <? up)); cbn [is_b]; lra.
Qed.

(** What a swap has earned the positions so far, after at most [n] steps. *)
Definition sums (p0 p : pool) (n : Q) : Prop := forall k, (earned p0 p k <= pot_q p k - pot_q p0 k /\ pot_q p k - pot_q p0 k <= earned p0 p k + ulp12 * all_liq p0 * n)%Q.
(** Ranges that the price has not been in since [p0] earned nothing; nobody lost anything. *)
Definition quiet (p0 p : pool) : Prop := forall lo up k, In lo (keys p0) -> In up (keys p0) -> lo < up ->
  (inside p0 lo up k <= inside p lo up k)%Q /\
  ((glbl_tick p0 < lo /\ glbl_tick p < lo) \/ (up <= glbl_tick p0 /\ up <= glbl_tick p) -> (inside p lo up k == inside p0 lo up k)%Q).
Lemma sums_step : forall p0 p p' n, positions p = positions p0 -> tick_inv p -> liq_inv p -> shared p p' -> filled p p' -> sums p0 p n -> sums p0 p' (n + 1).
Proof.
  intros p0 p p' n E T L S F H k. specialize (H k). destruct (F k) as (F0 & F1 & F2). pose proof (shared_earned _ _ k S T) as Ek. unfold liq_inv in L. rewrite <- L in Ek. rewrite (earned_trans p0 p p' k E), Ek.
  pose proof (covering_all p (glbl_tick p) T) as [C1 C2]. rewrite <- L in C2. pose proof ulp_pos as U. assert (A : (all_liq p == all_liq p0)%Q) by (unfold all_liq; rewrite E; reflexivity). rewrite A in C2. apply (Qmult_le_l _ _ ulp12 U) in C2.
  split; lra.
Qed.
Lemma quiet_step_down : forall p0 p p', keys p = keys p0 -> shared p p' -> filled p p' -> sides_down p p' -> sides_down p0 p -> quiet p0 p -> quiet p0 p' /\ sides_down p0 p'.
Proof.
  intros p0 p p' E S F D D0 H. split; [| intros t Ht L; apply D0; auto; apply D; auto; rewrite E; auto]. intros lo up k H1 H2 L. rewrite <- E in H1, H2. pose proof (shared_inside _ _ lo up k S H1 H2 L) as X. destruct (F k) as (F0 & _). rewrite E in *. destruct (H lo up k H1 H2 L) as [Q1 Q2]. split.
  - rewrite X. destruct ((lo <=? glbl_tick p) && (glbl_tick p <? up)); cbn [is_b]; lra.
  - intros C. rewrite X. rewrite Q2.
    + assert (Y : ((lo <=? glbl_tick p) && (glbl_tick p <? up)) = false). { destruct C as [[C1 C2] | [C1 C2]]. { apply andb_false_iff; left. apply Z.leb_gt. destruct (Z.le_gt_cases lo (glbl_tick p)) as [G |]; auto. specialize (D0 lo H1 G). lia. } apply andb_false_iff; right. apply Z.ltb_ge. apply D; auto. rewrite E; auto. }
      rewrite Y. cbn [is_b]. ring.
    + destruct C as [[C1 C2] | [C1 C2]]. { left. split; auto. destruct (Z.le_gt_cases lo (glbl_tick p)) as [G |]; auto. specialize (D0 lo H1 G). lia. } right. split; auto. apply D; auto. rewrite E; auto.
Qed.
Lemma quiet_step_up : forall p0 p p', keys p = keys p0 -> shared p p' -> filled p p' -> sides_up p p' -> sides_up p0 p -> quiet p0 p -> quiet p0 p' /\ sides_up p0 p'.
Proof.
  intros p0 p p' E S F D D0 H. split; [| intros t Ht L; apply D; auto; rewrite E; auto]. intros lo up k H1 H2 L. rewrite <- E in H1, H2. pose proof (shared_inside _ _ lo up k S H1 H2 L) as X. destruct (F k) as (F0 & _). rewrite E in *. destruct (H lo up k H1 H2 L) as [Q1 Q2]. split.
  - rewrite X. destruct ((lo <=? glbl_tick p) && (glbl_tick p <? up)); cbn [is_b]; lra.
  - intros C. rewrite X. rewrite Q2.
    + assert (Y : ((lo <=? glbl_tick p) && (glbl_tick p <? up)) = false). { destruct C as [[C1 C2] | [C1 C2]]. { apply andb_false_iff; left. apply Z.leb_gt. destruct (Z.le_gt_cases lo (glbl_tick p)) as [G |]; auto. specialize (D lo ltac:(rewrite E; auto) G). lia. } apply andb_false_iff; right. apply Z.ltb_ge. apply D0; auto. }
      rewrite Y. cbn [is_b]. ring.
    + destruct C as [[C1 C2] | [C1 C2]]. { left. split; auto. destruct (Z.le_gt_cases lo (glbl_tick p)) as [G |]; auto. specialize (D lo ltac:(rewrite E; auto) G). lia. } right. split; auto.
Qed.

(** ** Whole swaps *)
Definition credit_x (p0 : pool) (dx : decimal) (c : pool * swp) : Prop :=
  let p := fst c in
  positions p = positions p0 /\ keys p = keys p0 /\
  ((liq_inv p /\ sums p0 p (below p0 - below p)%Q /\ quiet p0 p /\ sides_down p0 p) \/
   (spent dx c /\ (clear_of_ticks p -> sums p0 p (below p0 + 1)%Q /\ quiet p0 p /\ sides_down p0 p))).
Definition credit_y (p0 : pool) (dx : decimal) (c : pool * swp) : Prop :=
  let p := fst c in
  positions p = positions p0 /\ keys p = keys p0 /\
  ((liq_inv p /\ sums p0 p (SwapCover.above p0 - SwapCover.above p)%Q /\ quiet p0 p /\ sides_up p0 p) \/
   (spent dx c /\ (clear_of_ticks p -> sums p0 p (SwapCover.above p0 + 1)%Q /\ quiet p0 p /\ sides_up p0 p))).
Lemma sums_weaken : forall p0 p n m, (0 <= all_liq p0)%Q -> (n <= m)%Q -> sums p0 p n -> sums p0 p m.
Proof. intros p0 p n m A L H k. destruct (H k) as [H1 H2]. split; auto. assert (ulp12 * all_liq p0 * n <= ulp12 * all_liq p0 * m)%Q; [| lra]. pose proof ulp_pos as U. rewrite <- !Qmult_assoc. apply Qmult_le_l; auto. apply mul_mono; auto. Qed.
Lemma credit_x_step : forall p0 orc dx ro a b, wf dx -> wf ro -> 0 < mant dx -> tick_inv p0 -> inv_x a -> carried dx a -> near_tick (fst a) -> mv_x orc dx ro a b -> credit_x p0 dx a -> credit_x p0 dx b.
Proof.
  intros p0 orc dx ro a b Wd Wo Pd T0 Ia Ca Nt M (E1 & E2 & HX). destruct HX as [(L & HS & HQ & HD) | [Sp _]]; [| destruct (spent_stop_x _ _ _ _ _ Wd Wo Pd Ia M Sp)].
  pose proof (mv_x_records _ _ _ _ _ Wd Wo Ia M) as R. pose proof (carried_x _ _ _ _ _ Wd Wo Ia Ca M) as (T' & N' & _). destruct Ca as (T & N & A & So & To). pose proof R as (R1 & _). pose proof (records_keys _ _ R) as RK.
  pose proof (mv_x_cases _ _ _ _ _ Wd Wo Ia T N A To M) as (g & rg & Hg & Lg & Nx & Eg & D).
  pose proof (mv_x_shared _ _ _ _ _ Wd Wo Ia T Nt N A M) as (Fl & Sh).
  pose proof (proj1 (covering_all p0 0 T0)) as C0. pose proof (proj2 (covering_all p0 0 T0)) as C1. assert (A0 : (0 <= all_liq p0)%Q) by lra.
  unfold credit_x. set (p := fst a) in *. set (p' := fst b) in *. split; [congruence |]. split; [congruence |].
  assert (B0 : (0 <= below p)%Q) by apply qlen_nn.
  assert (St : shared p p' -> sides_down p p' -> sums p0 p' (below p0 - below p + 1)%Q /\ quiet p0 p' /\ sides_down p0 p').
  { intros S1 S2. split; [exact (sums_step _ _ _ _ E1 T L S1 Fl HS) |]. exact (quiet_step_down _ _ _ E2 S1 Fl S2 HD HQ). }
  assert (Rt : spent dx b -> (clear_of_ticks p' -> shared p p' /\ sides_down p p') -> spent dx b /\ (clear_of_ticks p' -> sums p0 p' (below p0 + 1)%Q /\ quiet p0 p' /\ sides_down p0 p')).
  { intros X1 X2. split; auto. intros C. destruct (X2 C) as [S1 S2]. destruct (St S1 S2) as (S3 & S4 & S5). csplit; auto. apply (sums_weaken p0 p' (below p0 - below p + 1)%Q); auto. lra. }
  destruct Sh as [(S1 & S2) | (S1 & S2)]; [| right; auto].
  destruct D as [(Er & (Wt & Wl) & D) | (D1 & D2 & D3 & D4 & D5 & D6 & D7)]; [left | right; apply Rt; auto; split; auto].
  destruct (St S1 S2) as (S3 & S4 & S5). pose proof (down_ok p p' g T Hg Lg Nx L R1 Wl Wt) as L'. csplit; auto. apply (sums_weaken p0 p' (below p0 - below p + 1)%Q); auto.
  assert (Bl : (below p' + 1 <= below p)%Q); [| lra]. unfold below. rewrite RK. apply (filter_lt _ _ g); auto.
  + apply Z.leb_gt. rewrite Wt. pose proof T as (_ & Sp & _). pose proof (Z.div_mod (g - 1) (spacing p) ltac:(lia)). pose proof (Z.mod_pos_bound (g - 1) (spacing p) Sp). lia.
  + apply Z.leb_le; auto.
  + intros k Hk. apply Z.leb_le in Hk. apply Z.leb_le. rewrite Wt in Hk. pose proof T as (_ & Sp & _). pose proof (Z.div_mod (g - 1) (spacing p) ltac:(lia)). pose proof (Z.mod_pos_bound (g - 1) (spacing p) Sp). lia.
Qed.
Lemma credit_y_step : forall p0 orc dx ro a b, wf dx -> wf ro -> 0 < mant dx -> tick_inv p0 -> inv_y a -> carried dx a -> near_tick (fst a) -> mv_y orc dx ro a b -> credit_y p0 dx a -> credit_y p0 dx b.
Proof.
  intros p0 orc dx ro a b Wd Wo Pd T0 Ia Ca Nt M (E1 & E2 & HX). destruct HX as [(L & HS & HQ & HD) | [Sp _]]; [| destruct (spent_stop_y _ _ _ _ _ Wd Wo Pd Ia M Sp)].
  pose proof (mv_y_records _ _ _ _ _ Wd Wo Ia M) as R. pose proof (carried_y _ _ _ _ _ Wd Wo Ia Ca M) as (T' & N' & _). destruct Ca as (T & N & A & So & To). pose proof R as (R1 & _). pose proof (records_keys _ _ R) as RK.
  pose proof (mv_y_cases _ _ _ _ _ Wd Wo Ia T N A M) as (g & rg & Hg & Lg & Nx & Eg & D).
  pose proof (mv_y_shared _ _ _ _ _ Wd Wo Ia T Nt N A M) as (Fl & Sh).
  pose proof (proj1 (covering_all p0 0 T0)) as C0. pose proof (proj2 (covering_all p0 0 T0)) as C1. assert (A0 : (0 <= all_liq p0)%Q) by lra.
  unfold credit_y. set (p := fst a) in *. set (p' := fst b) in *. split; [congruence |]. split; [congruence |].
  assert (B0 : (0 <= SwapCover.above p)%Q) by apply qlen_nn.
  assert (St : shared p p' -> sides_up p p' -> sums p0 p' (SwapCover.above p0 - SwapCover.above p + 1)%Q /\ quiet p0 p' /\ sides_up p0 p').
  { intros S1 S2. split; [exact (sums_step _ _ _ _ E1 T L S1 Fl HS) |]. exact (quiet_step_up _ _ _ E2 S1 Fl S2 HD HQ). }
  assert (Rt : spent dx b -> (clear_of_ticks p' -> shared p p' /\ sides_up p p') -> spent dx b /\ (clear_of_ticks p' -> sums p0 p' (SwapCover.above p0 + 1)%Q /\ quiet p0 p' /\ sides_up p0 p')).
  { intros X1 X2. split; auto. intros C. destruct (X2 C) as [S1 S2]. destruct (St S1 S2) as (S3 & S4 & S5). csplit; auto. apply (sums_weaken p0 p' (SwapCover.above p0 - SwapCover.above p + 1)%Q); auto. lra. }
  destruct Sh as [(S1 & S2) | (S1 & S2)]; [| right; auto].
  destruct D as [(Er & (Wt & Wl) & D) | (D1 & D2 & D3 & D4 & D5 & D6)]; [left | right; apply Rt; auto; split; auto].
  destruct (St S1 S2) as (S3 & S4 & S5). pose proof (up_ok p p' g T Lg Nx L R1 Wl Wt) as L'. csplit; auto. apply (sums_weaken p0 p' (SwapCover.above p0 - SwapCover.above p + 1)%Q); auto.
  assert (Bl : (SwapCover.above p' + 1 <= SwapCover.above p)%Q); [| lra]. unfold SwapCover.above. rewrite RK. apply (filter_lt _ _ g); auto.
  + apply Z.ltb_ge. lia.
  + apply Z.ltb_lt; auto.
  + intros k Hk. apply Z.ltb_lt in Hk. apply Z.ltb_lt. lia.
Qed.

(** A position gained from a swap from [p] to [p']: never a loss, and nothing if its range was not on the way. *)
Definition credited (p p' : pool) : Prop := forall u lo up q k, In (u, lo, up, q) (positions p) -> (0 < num (p_liq q))%Q ->
  (inside p lo up k <= inside p' lo up k)%Q /\
  ((glbl_tick p < lo /\ glbl_tick p' < lo) \/ (up <= glbl_tick p /\ up <= glbl_tick p') -> (inside p' lo up k == inside p lo up k)%Q).
Lemma quiet_credited : forall p p', tick_inv p -> quiet p p' -> credited p p'.
Proof. intros p p' T H u lo up q k Hi Hq. destruct (pos_keys _ _ _ _ _ T Hi) as (L & _ & K). destruct (K Hq) as [K1 K2]. exact (H lo up k K1 K2 L). Qed.
Lemma quiet_refl : forall p, quiet p p. Proof. intros p lo up k _ _ _. split; intros; lra. Qed.
Theorem swap_x_credit : forall orc p dx ro p' o, reachable orc p -> liq_inv p -> wf dx -> wf ro -> execute_swap_from_x orc p dx ro = Ok (p', o) -> (num (so_recv o) < num dx)%Q \/ clear_of_ticks p' ->
  positions p' = positions p /\ sums p p' (qlen (ticks p) + 1)%Q /\ quiet p p'.
Proof.
  intros orc p dx ro p' o Hr L Wd Wo H D. pose proof (reachable_nn _ _ Hr) as (W & _). destruct (swap_x_chain _ _ _ _ _ _ H W Wd Wo) as (Pd & s' & C & _ & F & _). pose proof (reachable_ticks _ _ Hr) as T. pose proof (price_near_tick _ _ Hr) as Nt.
  assert (X : inv_x (p', s') /\ carried dx (p', s') /\ ranged True dx (p', s') /\ credit_x p dx (p', s')).
  { refine (chain_inv _ _ (fun c => inv_x c /\ carried dx c /\ ranged True dx c /\ credit_x p dx c) _ _ _ C _).
    - intros a b (I1 & I2 & I3 & I4) M. csplit; [exact (mv_x_inv _ _ _ _ _ Wd Wo I1 M) | exact (carried_x _ _ _ _ _ Wd Wo I1 I2 M) | exact (mv_x_range _ _ _ _ _ _ Wd Wo Pd I1 M I3) | exact (credit_x_step _ _ _ _ _ _ Wd Wo Pd T I1 I2 (proj1 (proj2 I3)) M I4)].
    - csplit; [apply (inv_start p W) | exact (carried0 _ _ _ Hr) | unfold ranged; cbn; auto |]. unfold credit_x; cbn [fst snd]. csplit; auto. left. csplit; auto; [| apply quiet_refl | intros t Ht Lt; auto]. intros k. rewrite earned_refl. split; lra. }
  destruct X as (_ & _ & _ & (E1 & E2 & X)). cbn [fst snd] in *. pose proof (below_all p) as B. assert (B0 : (0 <= below p')%Q) by apply qlen_nn.
  pose proof (covering_all p 0 T) as [C0 C1]. assert (A0 : (0 <= all_liq p)%Q) by lra.
  assert (Y : sums p p' (below p + 1)%Q /\ quiet p p').
  { destruct X as [(X1 & X2 & X3 & _) | ((X1 & _) & X2)].
    - split; auto. apply (sums_weaken p p' (below p - below p')%Q); auto. lra.
    - destruct D as [D | D]; [| destruct (X2 D) as (Y1 & Y2 & _); auto]. destruct (finish_x_out _ _ _ _ F) as (F1 & _). cbn [snd] in X1. rewrite F1 in D. lra. }
  destruct Y as [Y1 Y2]. split; auto. split; auto. apply (sums_weaken p p' (below p + 1)%Q); auto. lra.
Qed.
Theorem swap_y_credit : forall orc p dy ro p' o, reachable orc p -> liq_inv p -> wf dy -> wf ro -> execute_swap_from_y orc p dy ro = Ok (p', o) -> (num (so_recv o) < num dy)%Q \/ clear_of_ticks p' ->
  positions p' = positions p /\ sums p p' (qlen (ticks p) + 1)%Q /\ quiet p p'.
Proof.
  intros orc p dx ro p' o Hr L Wd Wo H D. pose proof (reachable_nn _ _ Hr) as (W & _). destruct (swap_y_chain _ _ _ _ _ _ H W Wd Wo) as (Pd & s' & C & _ & F & _). pose proof (reachable_ticks _ _ Hr) as T. pose proof (price_near_tick _ _ Hr) as Nt.
  assert (X : inv_y (p', s') /\ carried dx (p', s') /\ ranged True dx (p', s') /\ credit_y p dx (p', s')).
  { refine (chain_inv _ _ (fun c => inv_y c /\ carried dx c /\ ranged True dx c /\ credit_y p dx c) _ _ _ C _).
    - intros a b (I1 & I2 & I3 & I4) M. csplit; [exact (mv_y_inv _ _ _ _ _ Wd Wo I1 M) | exact (carried_y _ _ _ _ _ Wd Wo I1 I2 M) | exact (mv_y_range _ _ _ _ _ _ Wd Wo Pd I1 M I3) | exact (credit_y_step _ _ _ _ _ _ Wd Wo Pd T I1 I2 (proj1 (proj2 I3)) M I4)].
    - csplit; [apply (inv_start p W) | exact (carried0 _ _ _ Hr) | unfold ranged; cbn; auto |]. unfold credit_y; cbn [fst snd]. csplit; auto. left. csplit; auto; [| apply quiet_refl | intros t Ht Lt; auto]. intros k. rewrite earned_refl. split; lra. }
  destruct X as (_ & _ & _ & (E1 & E2 & X)). cbn [fst snd] in *. pose proof (above_all p) as B. assert (B0 : (0 <= SwapCover.above p')%Q) by apply qlen_nn.
  pose proof (covering_all p 0 T) as [C0 C1]. assert (A0 : (0 <= all_liq p)%Q) by lra.
  assert (Y : sums p p' (SwapCover.above p + 1)%Q /\ quiet p p').
  { destruct X as [(X1 & X2 & X3 & _) | ((X1 & _) & X2)].
    - split; auto. apply (sums_weaken p p' (SwapCover.above p - SwapCover.above p')%Q); auto. lra.
    - destruct D as [D | D]; [| destruct (X2 D) as (Y1 & Y2 & _); auto]. destruct (finish_y_out _ _ _ _ F) as (F1 & _). cbn [snd] in X1. rewrite F1 in D. lra. }
  destruct Y as [Y1 Y2]. split; auto. split; auto. apply (sums_weaken p p' (SwapCover.above p + 1)%Q); auto. lra.
Qed.

(** A wider range earns at least as much per unit of liquidity; and no more if the price started and ended inside the narrower one. *)
Definition nested (p p' : pool) : Prop := forall lo up lo' up' k, In lo (keys p) -> In up (keys p) -> In lo' (keys p) -> In up' (keys p) -> lo' <= lo -> lo < up -> up <= up' ->
  (inside p' lo up k - inside p lo up k <= inside p' lo' up' k - inside p lo' up' k)%Q /\
  (lo <= glbl_tick p < up -> lo <= glbl_tick p' < up -> (inside p' lo up k - inside p lo up k == inside p' lo' up' k - inside p lo' up' k)%Q).
Lemma inside_split : forall p a b c k, (inside p a c k == inside p a b k + inside p b c k)%Q. Proof. intros. unfold inside. ring. Qed.
Lemma quiet_nested : forall p p', quiet p p' -> nested p p'.
Proof.
  intros p p' H lo up lo' up' k K1 K2 K3 K4 L1 L2 L3.
  assert (X : forall a b, In a (keys p) -> In b (keys p) -> a <= b -> (inside p a b k <= inside p' a b k)%Q /\ ((glbl_tick p < a /\ glbl_tick p' < a) \/ (b <= glbl_tick p /\ b <= glbl_tick p') -> (inside p' a b k == inside p a b k)%Q)).
  { intros a b Ka Kb Lab. destruct (Z.eq_dec a b) as [-> | N]; [| apply H; auto; lia]. unfold inside. split; intros; lra. }
  destruct (X lo' lo K3 K1 L1) as [A1 A2]. destruct (X up up' K2 K4 L3) as [B1 B2].
  assert (S : forall q, (inside q lo' up' k == inside q lo' lo k + inside q lo up k + inside q up up' k)%Q) by (intros q; unfold inside; ring).
  rewrite !S. split; [lra |]. intros I I'. specialize (A2 ltac:(lia)). specialize (B2 ltac:(lia)). lra.
Qed.
