(** Reserves, pots, liquidity and fee growth never become negative; fee growth never decreases. *)
From Coq Require Import ZArith QArith List Bool Lia Lqa String Sorted.
From Verif Require Import Base BaseLemmas DecimalModel DecimalSpec DecimalProofs PowProofs WfProofs MathModel MathProofs TickProofs TickLoop PoolModel PoolWf SwapLoop SwapProofs LpProofs PoolInv.
Import ListNotations.
Open Scope Z_scope.

Lemma sign_nn : forall v s na nb va vb, 0 <= v -> 0 <= va -> 0 <= vb -> (va = 0 -> v = 0) -> (vb = 0 -> v = 0) ->
  (na = true -> va = 0) -> (nb = true -> vb = 0) -> 0 <= mant (mkD v s (sign_mul na nb)).
Proof. intros v s na nb va vb H Ha Hb A B C D. unfold mant. cbn. destruct na, nb; cbn; auto; try (specialize (A (C eq_refl))); try (specialize (B (D eq_refl))); lia. Qed.
Lemma mant_flag : forall d, wf d -> 0 <= mant d -> dneg d = true -> dval d = 0.
Proof. intros d W H F. pose proof (wf_nn _ W). unfold mant in H. rewrite F in H. lia. Qed.
Lemma mul_nn : forall a b c, d_mul a b = Ok c -> wf a -> wf b -> 0 <= mant a -> 0 <= mant b -> 0 <= mant c.
Proof.
  intros a b c H Wa Wb Ha Hb. pose proof (mul_wf' _ _ _ H Wa Wb) as Wc. unfold d_mul in H. bd H p E1. bd H q E2. bd H v E3. injection H as <-. pose proof (wf_nn _ Wa). pose proof (wf_nn _ Wb). apply wf_nn in Wc. cbn [dval] in Wc.
  apply cmul_ok in E1. apply cdiv_ok in E3. destruct E1 as [-> _]. destruct E3 as [-> Q].
  apply sign_nn with (va := dval a) (vb := dval b); auto.
  - intros ->. rewrite Z.mul_0_l. reflexivity.
  - intros ->. rewrite Z.mul_0_r. reflexivity.
  - apply mant_flag; auto.
  - apply mant_flag; auto.
Qed.
Lemma div_nn : forall a b c, d_div a b = Ok c -> wf a -> wf b -> 0 <= mant a -> 0 <= mant b -> 0 <= mant c.
Proof.
  intros a b c H Wa Wb Ha Hb. pose proof (div_wf _ _ _ H Wa Wb) as Wc. unfold d_div in H. bd H q E1. bd H p E2. bd H v E3. injection H as <-. pose proof (wf_nn _ Wa). pose proof (wf_nn _ Wb). apply wf_nn in Wc. cbn [dval] in Wc.
  apply cmul_ok in E2. apply cdiv_ok in E3. destruct E2 as [-> _]. destruct E3 as [-> Q].
  apply sign_nn with (va := dval a) (vb := dval b); auto.
  - intros ->. rewrite Z.mul_0_l. reflexivity.
  - lia.
  - apply mant_flag; auto.
  - apply mant_flag; auto.
Qed.
Lemma nn_q : forall d, wf d -> 0 <= mant d -> (0 <= num d)%Q. Proof. intros d W H. apply num_sign; auto. Qed.
Lemma q_nn : forall d, wf d -> (0 <= num d)%Q -> 0 <= mant d. Proof. intros d W H. apply num_sign; auto. Qed.
Lemma notneg_q : forall d, wf d -> is_negative d = false -> (0 <= num d)%Q. Proof. intros d W H. apply nn_q; auto. apply is_neg_f; auto. apply wf_nn; auto. Qed.
Lemma mul_q : forall a b c, d_mul a b = Ok c -> wf a -> wf b -> (0 <= num a)%Q -> (0 <= num b)%Q -> (0 <= num c)%Q.
Proof. intros a b c H Wa Wb Ha Hb. apply nn_q; [eapply mul_wf'; eauto |]. eapply mul_nn; eauto; apply q_nn; auto. Qed.
Lemma div_q : forall a b c, d_div a b = Ok c -> wf a -> wf b -> (0 <= num a)%Q -> (0 <= num b)%Q -> (0 <= num c)%Q.
Proof. intros a b c H Wa Wb Ha Hb. apply nn_q; [eapply div_wf; eauto |]. eapply div_nn; eauto; apply q_nn; auto. Qed.
Lemma lt_false_q : forall a b, wf a -> wf b -> d_lt a b = Ok false -> (num b <= num a)%Q.
Proof. intros a b Wa Wb H. destruct (lt_m _ _ _ (wf_nn _ Wa) (wf_nn _ Wb) H) as [E [_ [G _]]]. specialize (G eq_refl). apply num_le; auto. Qed.

(** ** The invariant *)
Definition funds_nn (p : pool) : Prop := (0 <= num (rx p) /\ 0 <= num (ry p) /\ 0 <= num (x_adj p) /\ 0 <= num (y_adj p) /\ 0 <= num (x_fee p) /\ 0 <= num (y_fee p))%Q.
Definition growth_nn (p : pool) : Prop := forall k, (0 <= num (g_fee (gs p) k))%Q.
(** Fee growth recorded at a tick never exceeds the global growth. *)
Definition tick_fee_ok (p : pool) : Prop := forall t ts, In (t, ts) (ticks p) -> forall k, (0 <= num (t_fee ts k) /\ num (t_fee ts k) <= num (g_fee (gs p) k))%Q.
Definition price_ok (p : pool) : Prop := (1 <= num (glbl_rp p))%Q /\ dscale (glbl_rp p) = 12.
Definition nn (p : pool) : Prop := pool_wf p /\ funds_nn p /\ growth_nn p /\ tick_fee_ok p /\ price_ok p /\ (0 <= num (glbl_liq p))%Q.
Definition growth_le (p q : pool) : Prop := forall k, (num (g_fee (gs p) k) <= num (g_fee (gs q) k))%Q.

Lemma tick_price_ok : forall t r, tick_to_rp t = Ok r -> (1 <= num r)%Q /\ dscale r = 12.
Proof.
  intros t r H. destruct (tick_rp_wf _ _ H) as (W & S & F & V). split; auto. unfold num. rewrite S. unfold mant. rewrite F.
  change 1%Q with (inject_Z 1). apply Qle_shift_div_l; [reflexivity |]. rewrite <- inject_Z_mult. rewrite <- Zle_Qle. lia.
Qed.
Lemma cross_nn : forall p t d p', cross_tick p t d = Ok p' -> pool_wf p' -> nn p -> nn p' /\ growth_le p p'.
Proof.
  intros p t d p' H W' (W & F & G & T & P & L). destruct (cross_inv _ _ _ _ H) as (ts & fx & fy & hx & hy & nt & L' & C1 & C2 & C3 & C4 & C5 & C6 & C7 & C8 & C9 & ->).
  split; [| intros k; destruct k; cbn; lra]. unfold nn. csplit; auto.
  - intros t' ts' Hi k. cbn in Hi. apply tm_set_in in Hi. destruct Hi as [[-> ->] | Hi].
    + apply tm_get_in in C2. specialize (T _ _ C2 k). apply sub_q in C3, C4, C5, C6. destruct k; cbn in *; lra.
    + specialize (T _ _ Hi k). destruct k; cbn in *; auto.
  - unfold glbl_liq. cbn. apply notneg_q; auto. apply W'.
Qed.
Lemma seat_nn : forall p t r, tick_to_rp t = Ok r -> 0 <= t -> nn p -> nn (seat p t r) /\ growth_le p (seat p t r).
Proof.
  intros p t r H Ht (W & F & G & T & P & L). destruct (tick_price_ok _ _ H) as [P1 P2]. destruct (tick_rp_wf _ _ H) as (Wr & _).
  split; [| intros k; destruct k; cbn; lra]. unfold nn. csplit; auto.
  - apply seat_wf; auto.
  - split; auto.
Qed.
Lemma mid_x_nn : forall p w p1, mid_x p w p1 -> pool_wf p1 -> w_wf w -> nn p -> (0 <= num (w_recv w) /\ 0 <= num (w_adj w) /\ 0 <= num (w_fee w) /\ 1 <= num (w_rp w))%Q -> dscale (w_rp w) = 12 -> nn p1 /\ growth_le p p1.
Proof.
  intros p w p1 (nx & y1 & ny & nya & nxf & fx & hy & M1 & M2 & M3 & M4 & M5 & M6 & M7 & ->) W1 (V1 & V2 & V3 & V4 & V5 & V6) (W & (F1 & F2 & F3 & F4 & F5 & F6) & G & T & P & L) (N1 & N2 & N3 & N4) N5.
  assert (X : (num (g_fx (gs p)) <= num fx /\ num (g_hy (gs p)) <= num hy)%Q).
  { destruct (is_positive (glbl_liq p)) eqn:Pl; [| destruct M7 as [-> ->]; split; lra]. destruct M7 as (q1 & q2 & Q1 & Q2 & Q3 & Q4). assert (Wl : wf (glbl_liq p)) by apply W.
    apply div_q in Q1; auto. apply div_q in Q3; auto. apply add_q in Q2, Q4. split; lra. }
  destruct X as [X1 X2]. split; [| intros k; destruct k; cbn; lra]. pose proof (G FX) as G1. pose proof (G FY) as G2. pose proof (G HX) as G3. pose proof (G HY) as G4. cbn in G1, G2, G3, G4.
  unfold nn. csplit; auto.
  - destruct W1 as (_ & _ & _ & _ & (_ & Wny & _) & _). cbn in Wny. apply notneg_q in M4; auto. apply add_q in M1, M5, M6. unfold funds_nn. cbn. csplit; auto; lra.
  - intros k; destruct k; cbn; lra.
  - intros t ts Hi k. specialize (T _ _ Hi k). destruct k; cbn in *; lra.
  - split; auto.
Qed.
Lemma mid_y_nn : forall p w p1, mid_y p w p1 -> pool_wf p1 -> w_wf w -> nn p -> (0 <= num (w_recv w) /\ 0 <= num (w_adj w) /\ 0 <= num (w_fee w) /\ 1 <= num (w_rp w))%Q -> dscale (w_rp w) = 12 -> nn p1 /\ growth_le p p1.
Proof.
  intros p w p1 (nx & y1 & ny & nya & nxf & fx & hy & M1 & M2 & M3 & M4 & M5 & M6 & M7 & ->) W1 (V1 & V2 & V3 & V4 & V5 & V6) (W & (F1 & F2 & F3 & F4 & F5 & F6) & G & T & P & L) (N1 & N2 & N3 & N4) N5.
  assert (X : (num (g_fy (gs p)) <= num fx /\ num (g_hx (gs p)) <= num hy)%Q).
  { destruct (is_positive (glbl_liq p)) eqn:Pl; [| destruct M7 as [-> ->]; split; lra]. destruct M7 as (q1 & q2 & Q1 & Q2 & Q3 & Q4). assert (Wl : wf (glbl_liq p)) by apply W.
    apply div_q in Q1; auto. apply div_q in Q3; auto. apply add_q in Q2, Q4. split; lra. }
  destruct X as [X1 X2]. split; [| intros k; destruct k; cbn; lra]. pose proof (G FX) as G1. pose proof (G FY) as G2. pose proof (G HX) as G3. pose proof (G HY) as G4. cbn in G1, G2, G3, G4.
  unfold nn. csplit; auto.
  - destruct W1 as (_ & _ & _ & _ & (Wny & _) & _). cbn in Wny. apply notneg_q in M4; auto. apply add_q in M1, M5, M6. unfold funds_nn. cbn. csplit; auto; lra.
  - intros k; destruct k; cbn; lra.
  - intros t ts Hi k. specialize (T _ _ Hi k). destruct k; cbn in *; lra.
  - split; auto.
Qed.
Lemma growth_trans : forall p q r, growth_le p q -> growth_le q r -> growth_le p r.
Proof. intros p q r A B k. specialize (A k). specialize (B k). lra. Qed.
Lemma one_le : forall d, wf d -> dscale d = 12 -> (1 <= num d)%Q <-> 10 ^ 12 <= mant d.
Proof.
  intros d W S. unfold num. rewrite S. change 1%Q with (inject_Z 1). split; intros H.
  - apply Qmult_le_compat_r with (z := inject_Z (10 ^ 12)) in H; [| discriminate]. unfold Qdiv in H. rewrite <- Qmult_assoc in H. rewrite (Qmult_comm (/ _)), Qmult_inv_r, Qmult_1_r in H by discriminate. rewrite <- inject_Z_mult, <- Zle_Qle in H. lia.
  - apply Qle_shift_div_l; [reflexivity |]. rewrite <- inject_Z_mult, <- Zle_Qle. lia.
Qed.
Lemma mv_x_nn : forall orc dx ro a b, wf dx -> wf ro -> inv_x a -> mv_x orc dx ro a b -> nn (fst a) -> nn (fst b) /\ growth_le (fst a) (fst b).
Proof.
  intros orc dx ro a b Wd Wo I M Hn. pose proof (mv_x_inv _ _ _ _ _ Wd Wo I M) as I'. destruct I as (I1 & I2 & I3 & I4). destruct I' as (J1 & _).
  inversion M as [p s tk rp p' H1 H2 H3 H4 H5 | p s f gtk p' s' H1 H2 H3 H4 H5]; subst; cbn [fst snd] in *.
  - destruct (seat_nn p tk rp H4 (key_nn _ _ I1 H2) Hn) as [N1 N2]. destruct (cross_nn _ _ _ _ H5 J1 N1) as [N3 N4]. split; [assumption | exact (growth_trans _ _ _ N2 N4)].
  - destruct (find_left _ _ _ H4) as [K1 K2]. destruct (step_x_facts _ _ _ _ _ _ _ _ H5 I1 I2 Wd Wo K1) as (w & p1 & (rest & R1 & R2 & R3) & F2 & F3 & F4 & F5 & F6 & F7 & F8).
    destruct (within_x_facts _ _ _ _ _ _ _ _ R3 I1 (srp_wf _ I2) (liq_wf _ I1) R2 Wo (key_nn _ _ I1 K1)) as (rpg & cp & Q1 & Q2 & Q3 & Q4 & (Q5 & Q6 & Q7 & Q8 & Q9 & Q10) & Q11 & Q12 & Q13 & Q14 & Q15 & Q16 & Q17 & Q18 & Q19 & Q20 & Q21).
    destruct (tick_price_ok _ _ Q1) as [P1 P2]. destruct (tick_rp_wf _ _ Q1) as (Wg & _). pose proof F2 as (V1 & V2 & V3 & V4 & V5 & V6).
    assert (PW : (1 <= num (w_rp w))%Q). { destruct (w_cross w); [destruct Q21 as [-> _]; auto |]. apply one_le; auto. apply one_le in P1; auto. lia. }
    destruct (mid_x_nn _ _ _ F3 F5 F2 Hn) as [N1 N2]; auto. { csplit; auto; apply nn_q; auto. }
    destruct (w_cross w); [| subst p'; auto]. destruct F8 as [_ F8]. destruct (cross_nn _ _ _ _ F8 F6 N1) as [N3 N4]. split; [assumption | exact (growth_trans _ _ _ N2 N4)].
Qed.
Lemma mv_y_nn : forall orc dx ro a b, wf dx -> wf ro -> inv_y a -> mv_y orc dx ro a b -> nn (fst a) -> nn (fst b) /\ growth_le (fst a) (fst b).
Proof.
  intros orc dx ro a b Wd Wo I M Hn. pose proof (mv_y_inv _ _ _ _ _ Wd Wo I M) as I'. destruct I as (I1 & I2 & I3 & I4). destruct I' as (J1 & _).
  inversion M as [p s tk rp p' H1 H2 H3 H4 H5 | p s gtk p' s' H1 H2 H3 H4 H5]; subst; cbn [fst snd] in *.
  - destruct (seat_nn p tk rp H4 (key_nn _ _ I1 H2) Hn) as [N1 N2]. destruct (cross_nn _ _ _ _ H5 J1 N1) as [N3 N4]. split; [assumption | exact (growth_trans _ _ _ N2 N4)].
  - destruct (find_right _ _ _ H4) as [K1 K2]. destruct (step_y_facts _ _ _ _ _ _ _ _ H5 I1 I2 Wd Wo K1) as (w & p1 & (rest & R1 & R2 & R3) & F2 & F3 & F4 & F5 & F6 & F7 & F8).
    destruct (within_y_facts _ _ _ _ _ _ _ _ R3 I1 (srp_wf _ I2) (liq_wf _ I1) R2 Wo (key_nn _ _ I1 K1)) as (rpg & cp & Q1 & Q2 & Q3 & Q4 & (Q5 & Q6 & Q7 & Q8 & Q9 & Q10) & Q11 & Q12 & Q13 & Q14 & Q15 & Q16 & Q17 & Q18 & Q19 & Q20 & Q21).
    destruct (tick_price_ok _ _ Q1) as [P1 P2]. destruct (tick_rp_wf _ _ Q1) as (Wg & _). pose proof F2 as (V1 & V2 & V3 & V4 & V5 & V6). pose proof (srp_wf _ I2) as Wsr.
    assert (PS : (1 <= num (s_rp s))%Q). { rewrite <- I3. apply Hn. }
    assert (PW : (1 <= num (w_rp w))%Q). { destruct (w_cross w); [destruct Q21 as [-> _]; auto |]. apply one_le; auto. apply one_le in PS; auto. lia. }
    destruct (mid_y_nn _ _ _ F3 F5 F2 Hn) as [N1 N2]; auto. { csplit; auto; apply nn_q; auto. }
    destruct (w_cross w); [| subst p'; auto]. destruct F8 as [_ F8]. destruct (cross_nn _ _ _ _ F8 F6 N1) as [N3 N4]. split; [assumption | exact (growth_trans _ _ _ N2 N4)].
Qed.
Lemma growth_refl : forall p, growth_le p p. Proof. intros p k. lra. Qed.
Lemma swap_x_nn : forall orc p dx ro p' o, nn p -> wf dx -> wf ro -> execute_swap_from_x orc p dx ro = Ok (p', o) -> nn p' /\ growth_le p p'.
Proof.
  intros orc p dx ro p' o N Wd Wo H. pose proof (proj1 N) as W. destruct (swap_x_chain _ _ _ _ _ _ H W Wd Wo) as (_ & s' & C & _ & F & _). pose proof (finish_x_same _ _ _ _ F) as E. 
  assert (X : forall a b, chain (mv_x orc dx ro) a b -> inv_x a -> nn (fst a) -> nn (fst b) /\ growth_le (fst a) (fst b)).
  { intros a b Hc. induction Hc as [a | a b c Hm Hc IH]; intros Ia Na; [split; [auto | apply growth_refl] |]. destruct (mv_x_nn _ _ _ _ _ Wd Wo Ia Hm Na) as [Nb Gb].
    destruct (IH (mv_x_inv _ _ _ _ _ Wd Wo Ia Hm) Nb) as [Nc Gc]. split; [assumption | exact (growth_trans _ _ _ Gb Gc)]. }
  specialize (X _ _ C (proj1 (inv_start p W)) N). auto.
Qed.
Lemma swap_y_nn : forall orc p dx ro p' o, nn p -> wf dx -> wf ro -> execute_swap_from_y orc p dx ro = Ok (p', o) -> nn p' /\ growth_le p p'.
Proof.
  intros orc p dx ro p' o N Wd Wo H. pose proof (proj1 N) as W. destruct (swap_y_chain _ _ _ _ _ _ H W Wd Wo) as (_ & s' & C & _ & F & _). pose proof (finish_y_same _ _ _ _ F) as E. 
  assert (X : forall a b, chain (mv_y orc dx ro) a b -> inv_y a -> nn (fst a) -> nn (fst b) /\ growth_le (fst a) (fst b)).
  { intros a b Hc. induction Hc as [a | a b c Hm Hc IH]; intros Ia Na; [split; [auto | apply growth_refl] |]. destruct (mv_y_nn _ _ _ _ _ Wd Wo Ia Hm Na) as [Nb Gb].
    destruct (IH (mv_y_inv _ _ _ _ _ Wd Wo Ia Hm) Nb) as [Nc Gc]. split; [assumption | exact (growth_trans _ _ _ Gb Gc)]. }
  specialize (X _ _ C (proj2 (inv_start p W)) N). auto.
Qed.

(** ** Deposits and withdrawals *)
Lemma tick_nn : forall t r, tick_to_rp t = Ok r -> nonneg r /\ (0 < num r)%Q.
Proof. intros t r H. destruct (tick_rp_wf _ _ H) as (W & _ & F & _). destruct (tick_price_ok _ _ H) as [P _]. split; [split; auto | lra]. Qed.
Lemma tick_lt : forall t u r r', 0 <= t -> t < u -> tick_to_rp t = Ok r -> tick_to_rp u = Ok r' -> (num r < num r')%Q.
Proof.
  intros t u r r' Ht L H1 H2. assert (u < 2 ^ 19). { destruct (Z_lt_le_dec u (2 ^ 19)); auto. rewrite tick_panics in H2 by auto. discriminate. }
  pose proof (tick_mono _ _ _ _ Ht L H H1 H2) as M. destruct (tick_rp_wf _ _ H1) as (W1 & S1 & F1 & _). destruct (tick_rp_wf _ _ H2) as (W2 & S2 & F2 & _).
  unfold num, mant. rewrite S1, S2, F1, F2. apply Qmult_lt_compat_r; [reflexivity |]. rewrite <- Zlt_Qlt. auto.
Qed.
Lemma price_nonneg : forall p, pool_wf p -> price_ok p -> nonneg (glbl_rp p).
Proof.
  intros p W [P S]. assert (Wr : wf (glbl_rp p)) by apply W. split; auto. pose proof (one_le _ Wr S) as [A _]. specialize (A P). apply mant_pos_flag; [apply wf_nn; auto | lia].
Qed.
Lemma x_from_nn : forall l rp a b x, x_from_l_rp_rng l rp a b = Ok x -> wf l -> (0 <= num l)%Q -> nonneg rp -> nonneg a -> nonneg b -> (num a <= num b)%Q -> (0 <= num x)%Q.
Proof.
  intros l rp a b x H Wl Hl Hr Ha Hb L. unfold x_from_l_rp_rng in H. destruct (_ || _); [discriminate |]. bd H c E. bd H w E1. bd H m E2. bd H n E3.
  destruct (clampq _ _ _ _ Hr Ha Hb L E) as (Hc & _ & _ & _ & [_ C] & _). pose proof (nonneg_num _ Hc) as Nc. pose proof (nonneg_num _ Hb) as Nb. destruct Hc as [Wc _]. destruct Hb as [Wb _].
  assert (Ww : wf w) by (eapply sub_wf; eauto). assert (Wm : wf m) by (eapply mul_wf'; eauto). assert (Wn : wf n) by (eapply mul_wf'; eauto). apply sub_q in E1.
  apply mul_q in E2; auto. apply mul_q in E3; auto; [| lra]. apply div_q in H; auto.
Qed.
Lemma y_from_nn : forall l rp a b x, y_from_l_rp_rng l rp a b = Ok x -> wf l -> (0 <= num l)%Q -> wf rp -> wf a -> wf b -> (0 <= num x)%Q.
Proof.
  intros l rp a b x H Wl Hl Hr Ha Hb. unfold y_from_l_rp_rng in H. bd H c E. assert (wf c) by (eapply clamp_wf; eauto). bd H w E1. destruct (is_negative w) eqn:Nw; [discriminate |].
  assert (Ww : wf w) by (eapply sub_wf; eauto). apply mul_q in H; auto. apply notneg_q; auto.
Qed.
Lemma tick_upd_fee : forall p t d up m m', tick_upd p t d up m m' -> growth_nn p ->
  (forall t ts, In (t, ts) m -> forall k, (0 <= num (t_fee ts k) /\ num (t_fee ts k) <= num (g_fee (gs p) k))%Q) ->
  forall t ts, In (t, ts) m' -> forall k, (0 <= num (t_fee ts k) /\ num (t_fee ts k) <= num (g_fee (gs p) k))%Q.
Proof.
  intros p t d up m m' (ts0 & n & g & T0 & E1 & E2 & N & ->) G Hm t' ts' Hi k. destruct (is_zero g); [apply tm_del_in in Hi; eapply Hm; eauto |].
  apply tm_set_in in Hi. destruct Hi as [[-> ->] | Hi]; [| eapply Hm; eauto]. replace (t_fee _ k) with (t_fee ts0 k) by (destruct k; reflexivity).
  destruct T0 as [T0 | [_ ->]]; [apply tm_get_in in T0; eapply Hm; eauto |]. pose proof (G k) as Gk. assert (Z0 : (num zero12 == 0)%Q) by reflexivity. unfold fresh. destruct (t <=? glbl_tick p); destruct k; cbn [t_fee t_fx t_fy t_hx t_hy g_fee] in *; split; lra.
Qed.
Definition paid_nn (paid : fees) : Prop := let '(fx, fy, hx, hy) := paid in (0 <= num fx /\ 0 <= num fy /\ 0 <= num hx /\ 0 <= num hy)%Q.
Lemma set_pos_nn : forall p u lo up d p' paid, set_pos p u lo up d p' paid -> nn p -> wf d -> 0 <= lo -> 0 <= up -> nn p' /\ paid_nn paid.
Proof.
  intros p u lo up d p' [[[fx fy] hx] hy] H (W & F & G & T & P & L0) Wd Hl Hu. destruct (set_pos_wf _ _ _ _ _ _ _ H W Wd Hl Hu) as [W' _].
  destruct H as (nfx & nfy & nhx & nhy & pos' & base & ofx & ofy & ohx & ohy & m1 & m2 & L & R1 & R2 & R3 & R4 & Pu & (F1 & F2 & F3 & F4) & T1 & T2 & Gl & ->).
  split.
  - unfold nn. csplit; auto.
    + intros t ts Hi. cbn [ticks] in Hi. assert (X : forall k, (0 <= num (t_fee ts k) /\ num (t_fee ts k) <= num (g_fee (gs p) k))%Q) by (eapply tick_upd_fee; [exact T2 | auto | eapply tick_upd_fee; [exact T1 | auto | auto] | exact Hi]).
      intros k. specialize (X k). destruct k; exact X.
    + unfold glbl_liq. cbn. destruct (_ && _); [| subst L; auto]. destruct Gl as [_ Gl]. apply notneg_q; auto. apply W'.
  - apply fee_rng_wf in R1, R2, R3, R4; auto. pose proof zero12_wf as Wz.
    assert (X : wf base /\ (0 <= num base)%Q /\ wf ofx /\ wf ofy /\ wf ohx /\ wf ohy).
    { unfold pos_upd in Pu. destruct (pm_get (u, lo, up) (positions p)) as [q |] eqn:Q.
      - destruct Pu as (nl & P1 & P2 & P3 & _ & -> & P4). injection P4 as -> -> -> ->. apply pm_get_in in Q. destruct W as (_ & _ & _ & W10 & _). pose proof (proj2 W10 _ _ Q) as (Q1 & Q2 & Q3 & Q4 & Q5). csplit; auto. apply notneg_q; auto.
      - destruct Pu as (P1 & _ & -> & P4). injection P4 as -> -> -> ->. csplit; auto. cbn. unfold num, mant. cbn. discriminate. }
    destruct X as (X1 & X2 & X3 & X4 & X5 & X6).
    assert (FW : forall n o f, wf n -> wf o -> fee_owed base n o f -> (0 <= num f)%Q).
    { intros n o f Wn Wo (v & V1 & V2 & V3). assert (Wv : wf v) by (eapply sub_wf; eauto). apply mul_q in V3; auto. apply notneg_q; auto. }
    exact (conj (FW _ _ _ R1 X3 F1) (conj (FW _ _ _ R2 X4 F2) (conj (FW _ _ _ R3 X5 F3) (FW _ _ _ R4 X6 F4)))).
Qed.
Lemma set_pos_same : forall p u lo up d p' paid, set_pos p u lo up d p' paid -> spacing p' = spacing p /\ growth_le p p' /\ glbl_rp p' = glbl_rp p /\ glbl_tick p' = glbl_tick p /\ rx p' = rx p /\ ry p' = ry p /\ x_adj p' = x_adj p /\ y_adj p' = y_adj p /\ x_fee p' = x_fee p /\ y_fee p' = y_fee p.
Proof.
  intros p u lo up d p' [[[fx fy] hx] hy] (nfx & nfy & nhx & nhy & pos' & base & ofx & ofy & ohx & ohy & m1 & m2 & L & R1 & R2 & R3 & R4 & Pu & (F1 & F2 & F3 & F4) & T1 & T2 & Gl & ->).
  csplit; auto. intros k; destruct k; cbn; lra.
Qed.
Lemma funds_set : forall p nx ny nxa nya nxf nyf, nn p -> pool_wf (with_funds p nx ny nxa nya nxf nyf) -> (0 <= num nx /\ 0 <= num ny /\ 0 <= num nxa /\ 0 <= num nya /\ 0 <= num nxf /\ 0 <= num nyf)%Q -> nn (with_funds p nx ny nxa nya nxf nyf).
Proof. intros p nx ny nxa nya nxf nyf (W & F & G & T & P & L0) W' H. unfold nn. csplit; auto. Qed.
Lemma deposit_nn : forall p user x y rpa rpb p' o, deposit p user x y rpa rpb = Ok (p', o) -> nn p -> wf x -> wf y -> wf rpa -> wf rpb ->
  nn p' /\ growth_le p p' /\ (0 <= num (io_liq o) /\ 0 <= num (io_x o) /\ 0 <= num (io_y o) /\ 0 <= num (io_fx o) /\ 0 <= num (io_fy o) /\ 0 <= num (io_hx o) /\ 0 <= num (io_hy o))%Q.
Proof.
  intros p user x y rpa rpb p' o H N Wx Wy Wa Wb. pose proof (proj1 N) as W. destruct (deposit_wf _ _ _ _ _ _ _ _ H W Wx Wy Wa Wb) as [W' (V1 & V2 & V3 & V4 & V5 & V6 & V7 & _)].
  destruct (deposit_inv _ _ _ _ _ _ _ _ H) as (lo & up & a & b & p1 & nx & ny & nxf & nxa & nyf & nya & D1 & D2 & D3 & D4 & D5 & D6 & D7 & D8 & D9 & D10 & D11 & D12 & _ & (D17 & D17' & D17a & D17b) & D18 & D19 & D20 & D21 & D22 & D23 & _ & _ & ->).
  pose proof (proj1 W) as Ws. destruct (rtp_nn _ _ _ _ Wa Ws (Z.le_refl 0) D1) as (L1 & _ & _). destruct (rtp_nn _ _ _ _ Wb Ws L1 D2) as (L2 & _ & _).
  pose proof (tick_nn _ _ D4) as [Na _]. pose proof (tick_nn _ _ D5) as [Nb _]. pose proof (tick_lt _ _ _ _ L1 D3 D4 D5) as Lab. assert (Nr : nonneg (glbl_rp p)) by (apply price_nonneg; [auto | apply N]).
  assert (Nl : (0 <= num (io_liq o))%Q) by (apply notneg_q; auto). assert (Nx : (0 <= num (io_x o))%Q) by (eapply x_from_nn; [exact D8 | | | | | |]; auto; lra).
  assert (Ny : (0 <= num (io_y o))%Q) by (eapply y_from_nn; [exact D10 | | | | |]; auto; [apply Nr | apply Na | apply Nb]).
  apply set_position_inv in D12. destruct (set_pos_nn _ _ _ _ _ _ _ D12 N V1 L1 L2) as [N1 (Q1 & Q2 & Q3 & Q4)]. destruct (set_pos_same _ _ _ _ _ _ _ D12) as (_ & Gl & _).
  pose proof (proj1 N1) as W1. pose proof W1 as (_ & _ & _ & _ & (U1 & U2 & U3 & U4 & U5 & U6) & _). pose proof N1 as (_ & (Z1 & Z2 & Z3 & Z4 & Z5 & Z6) & _).
  apply lt_false_q in D17, D17', D17a, D17b; auto. apply add_q in D18, D19. apply sub_q in D20, D21, D22, D23.
  split; [apply funds_set; auto; csplit; lra |]. split; [exact Gl | csplit; auto].
Qed.
Lemma withdraw_nn : forall p user liq rpa rpb p' o, withdraw p user liq rpa rpb = Ok (p', o) -> nn p -> wf liq -> wf rpa -> wf rpb ->
  nn p' /\ growth_le p p' /\ (0 <= num (io_liq o) /\ 0 <= num (io_x o) /\ 0 <= num (io_y o) /\ 0 <= num (io_fx o) /\ 0 <= num (io_fy o) /\ 0 <= num (io_hx o) /\ 0 <= num (io_hy o))%Q.
Proof.
  intros p user liq rpa rpb p' o H N Wl Wa Wb. pose proof (proj1 N) as W. destruct (withdraw_wf _ _ _ _ _ _ _ H W Wl Wa Wb) as [W' (V1 & V2 & V3 & V4 & V5 & V6 & V7 & _)].
  destruct (withdraw_inv _ _ _ _ _ _ _ H) as (lo & up & a & b & p1 & x0 & y0 & nx & ny & nxf & nxa & nyf & nya & D1 & D2 & D3 & D4 & D5 & D6 & D7 & D8 & D9 & D10 & D11 & D12 & _ & (D16 & D16') & (D17 & D17' & D17a & D17b) & D18 & D19 & D20 & D21 & D22 & D23 & ->).
  pose proof (proj1 W) as Ws. destruct (rtp_nn _ _ _ _ Wa Ws (Z.le_refl 0) D1) as (L1 & _ & _). destruct (rtp_nn _ _ _ _ Wb Ws L1 D2) as (L2 & _ & _).
  pose proof (tick_nn _ _ D4) as [Na _]. pose proof (tick_nn _ _ D5) as [Nb _]. pose proof (tick_lt _ _ _ _ L1 D3 D4 D5) as Lab.
  apply set_position_inv in D8. destruct (set_pos_nn _ _ _ _ _ _ _ D8 N (neg_wf _ Wl) L1 L2) as [N1 (Q1 & Q2 & Q3 & Q4)]. destruct (set_pos_same _ _ _ _ _ _ _ D8) as (_ & Gl & _).
  pose proof (proj1 N1) as W1. assert (Nr : nonneg (glbl_rp p1)) by (apply price_nonneg; [auto | apply N1]).
  assert (Nl : (0 <= num liq)%Q) by (apply notneg_q; auto). assert (Nx0 : (0 <= num x0)%Q) by (eapply x_from_nn; [exact D9 | | | | | |]; auto; lra).
  assert (Wx0 : wf x0) by (eapply x_from_wf; [exact D9 | | | |]; auto; [apply Nr | apply Na | apply Nb]). assert (Wy0 : wf y0) by (eapply y_from_wf; [exact D10 | | | |]; auto; [apply Nr | apply Na | apply Nb]).
  assert (Ny0 : (0 <= num y0)%Q) by (eapply y_from_nn; [exact D10 | | | | |]; auto; [apply Nr | apply Na | apply Nb]).
  pose proof adjc_wf as Wc. assert (Nc : (0 <= num (mkD 999999999999 12 false))%Q) by (vm_compute; discriminate).
  apply mul_q in D11; auto. apply mul_q in D12; auto.
  pose proof W1 as (_ & _ & _ & _ & (U1 & U2 & U3 & U4 & U5 & U6) & _). pose proof N1 as (_ & (Z1 & Z2 & Z3 & Z4 & Z5 & Z6) & _).
  apply lt_false_q in D16, D16', D17, D17', D17a, D17b; auto. apply sub_q in D18, D19, D20, D21, D22, D23.
  split; [apply funds_set; auto; csplit; lra |]. split; [exact Gl | rewrite D7; csplit; auto].
Qed.
Lemma call_nn : forall orc c p p', run_call orc p c = Ok p' -> nn p -> call_wf c -> nn p' /\ growth_le p p'.
Proof.
  intros orc [u x y a b | u l a b | d o | d o] p p' H N C; cbn [run_call call_wf] in *; bd H r E; destruct r as [q out]; injection H as <-.
  - destruct C as (C1 & C2 & C3 & C4). destruct (deposit_nn _ _ _ _ _ _ _ _ E N C1 C2 C3 C4) as (A & B & _). split; [exact A | exact B].
  - destruct C as (C1 & C2 & C3). destruct (withdraw_nn _ _ _ _ _ _ _ E N C1 C2 C3) as (A & B & _). split; [exact A | exact B].
  - exact (swap_x_nn _ _ _ _ _ _ N (proj1 C) (proj2 C) E).
  - exact (swap_y_nn _ _ _ _ _ _ N (proj1 C) (proj2 C) E).
Qed.
Lemma new_nn : forall rp sp c rate p, wf rp -> wf c -> wf rate -> 0 <= sp -> pool_new rp sp c rate = Ok p -> nn p.
Proof.
  intros rp sp c rate p W1 W2 W3 Hs H. destruct (pool_new_wf _ _ _ _ _ H W1 W2 W3 Hs) as (W & T & P & S & (R1 & R2 & R3 & R4 & R5 & R6) & L & _ & (G1 & G2 & G3 & G4) & Sp & K).
  assert (Q0 : (0 <= num zero12)%Q) by (vm_compute; discriminate).
  unfold nn, funds_nn, growth_nn, tick_fee_ok. rewrite R1, R2, R3, R4, R5, R6, L, T. csplit; auto.
  - intros k; destruct k; cbn; [rewrite G1 | rewrite G2 | rewrite G3 | rewrite G4]; exact Q0.
  - intros t ts [].
  - apply (tick_price_ok _ _ K).
Qed.
Lemma reachable_nn : forall orc p, reachable orc p -> nn p.
Proof. intros orc p H. induction H as [rp sp c rate p W1 W2 W3 Hs H | p c p' H IH C R]; [exact (new_nn rp sp c rate p W1 W2 W3 Hs H) | exact (proj1 (call_nn orc c p p' R IH C))]. Qed.

(** ** C27 *)
Theorem never_negative : forall orc p, reachable orc p ->
  (0 <= num (rx p) /\ 0 <= num (ry p) /\ 0 <= num (x_adj p) /\ 0 <= num (y_adj p) /\ 0 <= num (x_fee p) /\ 0 <= num (y_fee p) /\ 0 <= num (glbl_liq p) /\ 1 <= num (glbl_rp p))%Q /\
  (0 <= num (g_fx (gs p)) /\ 0 <= num (g_fy (gs p)) /\ 0 <= num (g_hx (gs p)) /\ 0 <= num (g_hy (gs p)))%Q.
Proof.
  intros orc p H. destruct (reachable_nn _ _ H) as (W & (F1 & F2 & F3 & F4 & F5 & F6) & G & T & (P & _) & L). csplit; auto; [apply (G FX) | apply (G FY) | apply (G HX) | apply (G HY)].
Qed.
Theorem growth_monotone : forall orc p cs p', reachable orc p -> Forall call_wf cs -> run_calls orc p cs = Ok p' ->
  (num (g_fx (gs p)) <= num (g_fx (gs p')) /\ num (g_fy (gs p)) <= num (g_fy (gs p')) /\ num (g_hx (gs p)) <= num (g_hx (gs p')) /\ num (g_hy (gs p)) <= num (g_hy (gs p')))%Q.
Proof.
  intros orc p cs p' H F R. assert (X : growth_le p p').
  { revert p H F R. induction cs as [| c cs IH]; intros p H F R; cbn [run_calls] in R. { injection R as <-. apply growth_refl. }
    inversion F; subst. bd R p1 E. pose proof (call_nn _ _ _ _ E (reachable_nn _ _ H) H2) as [_ G1]. apply (growth_trans p p1 p' G1). apply IH; auto. eapply r_call; eauto. }
  csplit; [exact (X FX) | exact (X FY) | exact (X HX) | exact (X HY)].
Qed.
(** Fee growth recorded at a tick is between zero and the global growth. *)
Theorem tick_growth_bounded : forall orc p, reachable orc p -> forall t ts, In (t, ts) (ticks p) ->
  (0 <= num (t_fx ts) <= num (g_fx (gs p)) /\ 0 <= num (t_fy ts) <= num (g_fy (gs p)) /\ 0 <= num (t_hx ts) <= num (g_hx (gs p)) /\ 0 <= num (t_hy ts) <= num (g_hy (gs p)))%Q.
Proof. intros orc p H t ts Hi. destruct (reachable_nn _ _ H) as (_ & _ & _ & T & _). specialize (T _ _ Hi). csplit; [exact (proj1 (T FX)) | exact (proj2 (T FX)) | exact (proj1 (T FY)) | exact (proj2 (T FY)) | exact (proj1 (T HX)) | exact (proj2 (T HX)) | exact (proj1 (T HY)) | exact (proj2 (T HY))]. Qed.
