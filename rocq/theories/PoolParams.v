(** What pool creation accepts and where a new pool starts. *)
From Coq Require Import ZArith QArith Qabs Qpower List Bool Lia Lqa String.
From Verif Require Import Base BaseLemmas DecimalModel DecimalSpec DecimalProofs PowProofs WfProofs MathModel MathProofs TickProofs TickLoop PoolModel PoolWf SwapLoop SwapProofs LpProofs PoolInv PoolNonneg PoolLp SwapAmounts SwapCover SwapWorth SwapFair.
Open Scope Z_scope.

(** ** The starting price *)
Lemma new_inv : forall rp sp c rate p, pool_new rp sp c rate = Ok p ->
  is_negative rp = false /\ is_negative c = false /\ is_negative rate = false /\ fee_rate p = rate /\ hmm_c p = c /\ spacing p = sp /\
  (exists c12 two b, to_compute_scale c = Ok c12 /\ d_two = Ok two /\ to_compute_scale two = Ok b /\ d_gt c12 b = Ok false) /\
  exists x, rp_to_tick_loop rp false 0 = Ok x /\ tk_to_possible_tk x sp false = Ok (glbl_tick p) /\ tick_to_rp (glbl_tick p) = Ok (glbl_rp p).
Proof.
  intros rp sp c rate p H. unfold pool_new in H. destruct (is_negative rp); [discriminate |]. destruct (is_negative c); [cbn [bind] in H; discriminate |]. bd H big E. destruct big; [discriminate |]. destruct (is_negative rate); [discriminate |].
  bd H tk E1. bd H r E2. rewrite zero_eq in H. cbn [bind] in H. bd H g E3. injection H as <-. unfold gstate_new in E3. repeat match type of E3 with (if ?b then _ else _) = _ => destruct b; [discriminate E3 |] end. injection E3 as <-.
  bd E c12 F1. bd E two F2. bd E b F3. cbn [fee_rate hmm_c spacing glbl_tick glbl_rp gs g_tick g_rp]. csplit; auto.
  { exists c12, two, b. csplit; auto. apply unwrap_ok; auto. } unfold rp_to_possible_tk in E1. bd E1 x G. exists x. csplit; auto.
Qed.

Lemma tb_up : forall a b, a <= b -> (tb ^ a <= tb ^ b)%Q.
Proof. intros a b H. apply Qpower_le_compat_l; auto. unfold tb; lra. Qed.
Lemma tb_gt : forall a, (0 < tb ^ a)%Q. Proof. intros a. apply Qpower_0_lt. exact tb_pos. Qed.
(** The root price asked for is at least 1: the pool starts within one spacing of it. *)
Theorem new_price : forall rp sp c rate p, wf rp -> 0 <= sp -> pool_new rp sp c rate = Ok p -> (1 <= num rp)%Q ->
  (num (glbl_rp p) * num (glbl_rp p) * (1 - (1 # 100000)) <= num rp * num rp /\ num rp * num rp * (1 - (1 # 100000)) <= num (glbl_rp p) * num (glbl_rp p) * tb ^ sp)%Q.
Proof.
  intros rp sp c rate p W Hs H G. destruct (new_inv _ _ _ _ _ H) as (_ & _ & _ & _ & _ & _ & _ & x & E1 & E2 & E3).
  destruct (search_short _ _ _ _ W (Z.le_refl 0) E1) as (B & _). destruct (search_bracket rp 0 x W ltac:(lra) (Z.le_refl 0) E1) as (L & U).
  destruct (possible_down_le _ _ _ (proj1 B) Hs E2) as (D1 & D2 & D3).
  assert (T19 : glbl_tick p < 2 ^ 19). { destruct (Z.lt_ge_cases (glbl_tick p) (2 ^ 19)); auto. rewrite tick_panics in E3 by lia. discriminate. }
  assert (T0 : 0 <= glbl_tick p) by lia. destruct (tick_accuracy _ _ (conj T0 T19) E3) as (A1 & A2).
  assert (X : (0 <= inject_Z x <= 2097152)%Q). { change 0%Q with (inject_Z 0). change 2097152%Q with (inject_Z 2097152). rewrite <- !Zle_Qle. lia. }
  assert (T : (0 <= inject_Z (glbl_tick p) <= 2097152)%Q). { change 0%Q with (inject_Z 0). change 2097152%Q with (inject_Z 2097152). rewrite <- !Zle_Qle. lia. }
  pose proof (tb_gt x) as Gx. pose proof (tb_gt (glbl_tick p)) as Gt. pose proof (tb_gt sp) as Gs. unfold eps in *. split.
  - pose proof (tb_up (glbl_tick p) x ltac:(lia)) as M. destruct L as [-> | L].
    + change (tb ^ 0)%Q with 1%Q in *. assert (1 <= num rp * num rp)%Q by nra. assert (0 <= num (glbl_rp p) * num (glbl_rp p))%Q by (generalize (num (glbl_rp p)); intros q; clear; destruct (Qlt_le_dec q 0); nra). lra.
    + clear - L M A1 X Gx. revert L M A1 X Gx. generalize (tb ^ x)%Q (num rp * num rp)%Q (num (glbl_rp p) * num (glbl_rp p))%Q (inject_Z x). intros t r g n. intros. nra.
  - assert (S : x + 1 <= glbl_tick p + sp) by (rewrite D2; pose proof (Z.div_mod x sp ltac:(lia)); pose proof (Z.mod_pos_bound x sp D3); lia). pose proof (tb_up _ _ S) as M. rewrite (Qpower_plus tb (glbl_tick p) sp) in M by (intros K; discriminate K).
    assert (M2 : (tb ^ glbl_tick p * (1 - (1 # 100000)) <= num (glbl_rp p) * num (glbl_rp p))%Q) by nra.
    apply Qle_trans with (tb ^ glbl_tick p * tb ^ sp * (1 - (1 # 100000)))%Q; [apply Qmult_le_compat_r; [eapply Qle_trans; [exact U | exact M] | lra] |]. setoid_replace (tb ^ glbl_tick p * tb ^ sp * (1 - (1 # 100000)))%Q with (tb ^ glbl_tick p * (1 - (1 # 100000)) * tb ^ sp)%Q by ring. apply Qmult_le_compat_r; lra.
Qed.
(** Any root price up to 1 asked for: the pool starts at 1. *)
Theorem new_price_low : forall rp sp c rate p, wf rp -> 0 <= sp -> pool_new rp sp c rate = Ok p -> (num rp <= 1)%Q -> glbl_tick p = 0 /\ (num (glbl_rp p) == 1)%Q.
Proof.
  intros rp sp c rate p W Hs H G. destruct (new_inv _ _ _ _ _ H) as (P0 & _ & _ & _ & _ & _ & _ & x & E1 & E2 & E3). apply is_neg_f in P0; [| apply wf_nn; auto]. apply (proj2 (proj1 (num_sign _ W))) in P0.
  destruct (search_short _ _ _ _ W (Z.le_refl 0) E1) as (B & _). destruct (search_bracket rp 0 x W P0 (Z.le_refl 0) E1) as (L & U). destruct (possible_down_le _ _ _ (proj1 B) Hs E2) as (D1 & D2 & D3).
  assert (X : x = 0).
  { destruct L as [L | L]; auto. destruct (Z.eq_dec x 0) as [| N]; auto. exfalso.
    assert (X : (0 <= inject_Z x <= 2097152)%Q). { change 0%Q with (inject_Z 0). change 2097152%Q with (inject_Z 2097152). rewrite <- !Zle_Qle. lia. }
    pose proof (tb_up 1 x ltac:(lia)) as M. change (tb ^ 1)%Q with (10001 # 10000)%Q in M. unfold eps in L. nra. }
  assert (T : glbl_tick p = 0) by lia. split; auto. rewrite T in E3. rewrite tick_pow in E3. injection E3 as <-. reflexivity.
Qed.

(** ** The parameters *)
Theorem new_params : forall rp sp c rate p, wf rp -> wf c -> wf rate -> 0 <= sp -> pool_new rp sp c rate = Ok p ->
  (fee_rate p = rate /\ hmm_c p = c /\ spacing p = sp /\ 0 < sp /\ (0 <= num rp)%Q /\ (0 <= num c)%Q /\ (num c < 2 + ulp12)%Q /\ (0 <= num rate)%Q)%Z.
Proof.
  intros rp sp c rate p Wr Wc Wf Hs H. destruct (pool_new_wf _ _ _ _ _ H Wr Wc Wf Hs) as (_ & _ & _ & _ & _ & _ & _ & _ & Sp & _).
  destruct (new_inv _ _ _ _ _ H) as (P0 & P1 & P2 & P3 & P4 & P5 & (c12 & two & b & Q1 & Q2 & Q3 & Q4) & _).
  apply is_neg_f in P0; [| apply wf_nn; auto]. apply (proj2 (proj1 (num_sign _ Wr))) in P0. apply is_neg_f in P1; [| apply wf_nn; auto]. apply (proj2 (proj1 (num_sign _ Wc))) in P1. apply is_neg_f in P2; [| apply wf_nn; auto]. apply (proj2 (proj1 (num_sign _ Wf))) in P2.
  csplit; auto. unfold to_compute_scale, COMPUTE_SCALE in Q1. pose proof (to_scale_spec c 12 Wc ltac:(lia)) as S. rewrite Q1 in S. destruct S as (S1 & S2 & S3 & S4 & _).
  vm_compute in Q2. injection Q2 as <-. vm_compute in Q3. injection Q3 as <-. destruct (gt_m c12 (mkD 2000000000000 12 false) false (wf_nn _ S1) (proj1 (Z.leb_le 0 2000000000000) eq_refl) Q4) as (_ & _ & M & _). specialize (M eq_refl).
  apply trunc_pos in S4; [| auto]. rewrite ulp_12 in S4. assert (num c12 <= 2)%Q; [| lra].
  unfold num. rewrite S2. change (10 ^ 12) with 1000000000000. apply Qle_shift_div_r; [reflexivity |]. change (2 * inject_Z 1000000000000)%Q with (inject_Z 2000000000000). rewrite <- Zle_Qle. exact M.
Qed.

(** ** Fee rates that cannot be traded with *)
Lemma core_scale : forall p srp goal liq dx r, core_x p srp goal liq dx = Ok r \/ core_y p srp goal liq dx = Ok r -> dscale (fee_rate p) = 12.
Proof.
  intros p srp goal liq dx r [H | H]; [unfold core_x in H | unfold core_y in H]; rewrite one_eq in H; (destruct (is_negative dx); [discriminate |]); bd H rpg E1; bd H up E2; (destruct up; [discriminate |]); bd H one Eo; injection Eo as <-; bd H ff E3; apply sub_m in E3; apply E3.
Qed.
Lemma mul_sign : forall a b c, d_mul a b = Ok c -> wf a -> wf b -> 0 <= mant a -> mant b <= 0 -> mant c <= 0.
Proof.
  intros a b c H Wa Wb A B. pose proof (mul_spec a b Wa Wb) as X. rewrite H in X. destruct X as (X1 & X2 & X3).
  apply (num_sign c X1). apply (num_sign a Wa) in A. apply (num_sign b Wb) in B. apply trunc_neg in X3; [apply X3 | nra].
Qed.
Lemma rate_m : forall f, wf f -> dscale f = 12 -> (1 <= num f)%Q -> 10 ^ 12 <= mant f.
Proof.
  intros f W S H. unfold num in H. rewrite S in H. assert (inject_Z (10 ^ 12) <= inject_Z (mant f))%Q; [| rewrite Zle_Qle; auto].
  setoid_replace (inject_Z (mant f)) with (inject_Z (mant f) / inject_Z (10 ^ 12) * inject_Z (10 ^ 12))%Q by (field; intros K; discriminate K). change (10 ^ 12) with 1000000000000 in *. assert (0 < inject_Z 1000000000000)%Q by reflexivity. nra.
Qed.
Lemma core_all_fee : forall p srp goal liq dx ddx fee cross et erp, core_x p srp goal liq dx = Ok (ddx, fee, cross, et, erp) \/ core_y p srp goal liq dx = Ok (ddx, fee, cross, et, erp) ->
  wf srp -> wf liq -> wf dx -> wf (fee_rate p) -> (1 <= num (fee_rate p))%Q -> 0 <= mant ddx -> mant ddx = 0.
Proof.
  intros p srp goal liq dx ddx fee cross et erp H Ws Wl Wd Wf F P. pose proof (core_scale _ _ _ _ _ _ H) as S12. pose proof (rate_m _ Wf S12 F) as M.
  destruct H as [H | H]; [unfold core_x in H | unfold core_y in H]; rewrite one_eq in H; (destruct (is_negative dx) eqn:E0; [discriminate |]); (apply is_neg_f in E0; [| apply wf_nn; auto]);
  bd H rpg E1; bd H up E2; (destruct up; [discriminate |]); bd H one Eo; injection Eo as <-; bd H ff E3; bd H dxm E4; bd H dbl E5; destruct (tick_rp_wf _ _ E1) as [Wg _];
  (assert (W5 : wf ff) by (eapply sub_wf; [exact E3 | exact one12_wf | auto])); (assert (W6 : wf dxm) by (eapply mul_wf'; eauto));
  (assert (M6 : mant dxm <= 0) by (apply (mul_sign _ _ _ E4); auto; apply sub_m in E3; change (mant (mkD (10 ^ 12) 12 false)) with (10 ^ 12) in E3; lia)).
  - assert (W7 : wf dbl) by (eapply dx_drp_inv; eauto). destruct (is_negative dbl) eqn:E8; [discriminate |]. apply is_neg_f in E8; [| apply wf_nn; auto]. bd H part E6. destruct (lt_m _ _ _ (wf_nn _ W7) (wf_nn _ W6) E6) as (_ & L1 & _). destruct part.
    + bd H q E7. bd H fe E9. injection H as <- <- <- <- <-. specialize (L1 eq_refl). lia.
    + bd H fe E7. bd H er E9. bd H g1 E10. bd H t1 E11. bd H c1 E12. destruct c1; [discriminate |]. bd H c2 E13. destruct c2; [discriminate |]. injection H as <- <- <- <- <-. lia.
  - assert (W7 : wf dbl) by (eapply dy_drp_inv; eauto). destruct (is_negative dbl) eqn:E8; [discriminate |]. apply is_neg_f in E8; [| apply wf_nn; auto]. bd H part E6. destruct (lt_m _ _ _ (wf_nn _ W7) (wf_nn _ W6) E6) as (_ & L1 & _). destruct part.
    + bd H q E7. bd H fe E9. injection H as <- <- <- <- <-. specialize (L1 eq_refl). lia.
    + bd H fe E7. bd H er E9. bd H g1 E10. bd H sk Es. bd H t1 E11. bd H c1 E12. destruct c1; [discriminate |]. bd H c2 E13. destruct c2; [discriminate |]. injection H as <- <- <- <- <-. lia.
Qed.

Definition same_paid (s : swp) : Prop := mant (s_in s) = mant (s_fee s) /\ dscale (s_in s) = 12 /\ dscale (s_fee s) = 12.
Lemma all_fee_step : forall dx s w s', tally dx s w s' -> mant (w_recv w) = 0 -> same_paid s -> same_paid s'.
Proof.
  intros dx s w s' (r' & c1 & ck & i1 & i2 & o2 & a2 & f2 & T1 & T2 & T3 & T4 & T5 & T6 & T7 & T8 & T9 & ->) Z (A & B & C). unfold same_paid. cbn [s_in s_fee]. apply add_m in T5. apply add_m in T6. apply add_m in T9. intuition (try congruence). lia.
Qed.
(** A fee rate of 1 or more: the whole input is fee. *)
Theorem all_fee_x : forall orc p dx ro p' o, reachable orc p -> wf dx -> wf ro -> (1 <= num (fee_rate p))%Q -> execute_swap_from_x orc p dx ro = Ok (p', o) -> (num (so_recv o) == num (so_fee o))%Q.
Proof.
  intros orc p dx ro p' o Hr Wd Wo F H. pose proof (reachable_nn _ _ Hr) as (W & _). destruct (swap_x_chain _ _ _ _ _ _ H W Wd Wo) as (Pd & s' & C & I & Fi & _). destruct (finish_x_out _ _ _ _ Fi) as (-> & _ & _ & -> & _).
  assert (G : inv_x (p', s') /\ (1 <= num (fee_rate p'))%Q /\ same_paid s').
  { refine (chain_inv _ _ (fun c => inv_x c /\ (1 <= num (fee_rate (fst c)))%Q /\ same_paid (snd c)) _ _ _ C _); [| csplit; [apply (inv_start p W) | exact F | repeat split; reflexivity]].
    intros a b (Ia & Fa & Sa) M. csplit; [exact (mv_x_inv _ _ _ _ _ Wd Wo Ia M) | rewrite (rate_x _ _ _ _ _ Wd Wo Ia M); exact Fa |]. destruct Ia as (I1 & I2 & I3 & I4).
    inversion M as [p0 s tk rp p0' H1 H2 H3 H4 H5 | p0 s f gtk p0' s0' H1 H2 H3 H4 H5]; subst; cbn [fst snd] in *; [exact Sa |].
    destruct (find_left _ _ _ H4) as [K1 K2]. destruct (step_x_facts _ _ _ _ _ _ _ _ H5 I1 I2 Wd Wo K1) as (w & p1 & (rest & R1 & R2 & R3) & F2 & F3 & F4 & F5 & F6 & F7 & F8).
    destruct (within_x_facts _ _ _ _ _ _ _ _ R3 I1 (srp_wf _ I2) (liq_wf _ I1) R2 Wo (key_nn _ _ I1 K1)) as (rpg & cp & G1 & G2 & G3 & G4 & G5 & G6 & G7 & G8 & G9 & G10 & G11 & G12 & G13 & G14 & G15 & _).
    refine (all_fee_step _ _ _ _ F4 _ Sa). refine (core_all_fee _ _ _ _ _ _ _ _ _ _ (or_introl G15) (srp_wf _ I2) (liq_wf _ I1) R2 _ Fa (proj1 G5)). apply I1. }
  destruct G as (_ & _ & G1 & G2 & G3). unfold num. rewrite G1, G2, G3. reflexivity.
Qed.
Theorem all_fee_y : forall orc p dy ro p' o, reachable orc p -> wf dy -> wf ro -> (1 <= num (fee_rate p))%Q -> execute_swap_from_y orc p dy ro = Ok (p', o) -> (num (so_recv o) == num (so_fee o))%Q.
Proof.
  intros orc p dx ro p' o Hr Wd Wo F H. pose proof (reachable_nn _ _ Hr) as (W & _). destruct (swap_y_chain _ _ _ _ _ _ H W Wd Wo) as (Pd & s' & C & I & Fi & _). destruct (finish_y_out _ _ _ _ Fi) as (-> & _ & _ & -> & _).
  assert (G : inv_y (p', s') /\ (1 <= num (fee_rate p'))%Q /\ same_paid s').
  { refine (chain_inv _ _ (fun c => inv_y c /\ (1 <= num (fee_rate (fst c)))%Q /\ same_paid (snd c)) _ _ _ C _); [| csplit; [apply (inv_start p W) | exact F | repeat split; reflexivity]].
    intros a b (Ia & Fa & Sa) M. csplit; [exact (mv_y_inv _ _ _ _ _ Wd Wo Ia M) | rewrite (rate_y _ _ _ _ _ Wd Wo Ia M); exact Fa |]. destruct Ia as (I1 & I2 & I3 & I4).
    inversion M as [p0 s tk rp p0' H1 H2 H3 H4 H5 | p0 s gtk p0' s0' H1 H2 H3 H4 H5]; subst; cbn [fst snd] in *; [exact Sa |].
    destruct (find_right _ _ _ H4) as [K1 K2]. destruct (step_y_facts _ _ _ _ _ _ _ _ H5 I1 I2 Wd Wo K1) as (w & p1 & (rest & R1 & R2 & R3) & F2 & F3 & F4 & F5 & F6 & F7 & F8).
    destruct (within_y_facts _ _ _ _ _ _ _ _ R3 I1 (srp_wf _ I2) (liq_wf _ I1) R2 Wo (key_nn _ _ I1 K1)) as (rpg & cp & G1 & G2 & G3 & G4 & G5 & G6 & G7 & G8 & G9 & G10 & G11 & G12 & G13 & G14 & G15 & _).
    refine (all_fee_step _ _ _ _ F4 _ Sa). refine (core_all_fee _ _ _ _ _ _ _ _ _ _ (or_intror G15) (srp_wf _ I2) (liq_wf _ I1) R2 _ Fa (proj1 G5)). apply I1. }
  destruct G as (_ & _ & G1 & G2 & G3). unfold num. rewrite G1, G2, G3. reflexivity.
Qed.

(** A fee rate that is not at the compute scale: no step of a swap can be computed, a completed swap took nothing. *)
Theorem odd_fee_x : forall orc p dx ro p' o, reachable orc p -> wf dx -> wf ro -> dscale (fee_rate p) <> 12 -> execute_swap_from_x orc p dx ro = Ok (p', o) -> (num (so_recv o) == 0 /\ num (so_send o) == 0)%Q.
Proof.
  intros orc p dx ro p' o Hr Wd Wo F H. pose proof (reachable_nn _ _ Hr) as (W & _). destruct (swap_x_chain _ _ _ _ _ _ H W Wd Wo) as (Pd & s' & C & I & Fi & _). destruct (finish_x_out _ _ _ _ Fi) as (-> & -> & _).
  assert (G : inv_x (p', s') /\ dscale (fee_rate p') <> 12 /\ s_in s' = zero12 /\ s_out s' = zero12).
  { refine (chain_inv _ _ (fun c => inv_x c /\ dscale (fee_rate (fst c)) <> 12 /\ s_in (snd c) = zero12 /\ s_out (snd c) = zero12) _ _ _ C _); [| csplit; [apply (inv_start p W) | exact F | reflexivity | reflexivity]].
    intros a b (Ia & Fa & Sa & Sb) M. csplit; [exact (mv_x_inv _ _ _ _ _ Wd Wo Ia M) | rewrite (rate_x _ _ _ _ _ Wd Wo Ia M); exact Fa | |]; destruct Ia as (I1 & I2 & I3 & I4);
    (inversion M as [p0 s tk rp p0' H1 H2 H3 H4 H5 | p0 s f gtk p0' s0' H1 H2 H3 H4 H5]; subst; cbn [fst snd] in *; [assumption |]); exfalso;
    destruct (find_left _ _ _ H4) as [K1 K2]; destruct (step_x_facts _ _ _ _ _ _ _ _ H5 I1 I2 Wd Wo K1) as (w & p1 & (rest & R1 & R2 & R3) & _);
    destruct (within_x_facts _ _ _ _ _ _ _ _ R3 I1 (srp_wf _ I2) (liq_wf _ I1) R2 Wo (key_nn _ _ I1 K1)) as (rpg & cp & G1 & G2 & G3 & G4 & G5 & G6 & G7 & G8 & G9 & G10 & G11 & G12 & G13 & G14 & G15 & _);
    apply Fa; exact (core_scale _ _ _ _ _ _ (or_introl G15)). }
  destruct G as (_ & _ & -> & ->). split; reflexivity.
Qed.
Theorem odd_fee_y : forall orc p dy ro p' o, reachable orc p -> wf dy -> wf ro -> dscale (fee_rate p) <> 12 -> execute_swap_from_y orc p dy ro = Ok (p', o) -> (num (so_recv o) == 0 /\ num (so_send o) == 0)%Q.
Proof.
  intros orc p dx ro p' o Hr Wd Wo F H. pose proof (reachable_nn _ _ Hr) as (W & _). destruct (swap_y_chain _ _ _ _ _ _ H W Wd Wo) as (Pd & s' & C & I & Fi & _). destruct (finish_y_out _ _ _ _ Fi) as (-> & -> & _).
  assert (G : inv_y (p', s') /\ dscale (fee_rate p') <> 12 /\ s_in s' = zero12 /\ s_out s' = zero12).
  { refine (chain_inv _ _ (fun c => inv_y c /\ dscale (fee_rate (fst c)) <> 12 /\ s_in (snd c) = zero12 /\ s_out (snd c) = zero12) _ _ _ C _); [| csplit; [apply (inv_start p W) | exact F | reflexivity | reflexivity]].
    intros a b (Ia & Fa & Sa & Sb) M. csplit; [exact (mv_y_inv _ _ _ _ _ Wd Wo Ia M) | rewrite (rate_y _ _ _ _ _ Wd Wo Ia M); exact Fa | |]; destruct Ia as (I1 & I2 & I3 & I4);
    (inversion M as [p0 s tk rp p0' H1 H2 H3 H4 H5 | p0 s gtk p0' s0' H1 H2 H3 H4 H5]; subst; cbn [fst snd] in *; [assumption |]); exfalso;
    destruct (find_right _ _ _ H4) as [K1 K2]; destruct (step_y_facts _ _ _ _ _ _ _ _ H5 I1 I2 Wd Wo K1) as (w & p1 & (rest & R1 & R2 & R3) & _);
    destruct (within_y_facts _ _ _ _ _ _ _ _ R3 I1 (srp_wf _ I2) (liq_wf _ I1) R2 Wo (key_nn _ _ I1 K1)) as (rpg & cp & G1 & G2 & G3 & G4 & G5 & G6 & G7 & G8 & G9 & G10 & G11 & G12 & G13 & G14 & G15 & _);
    apply Fa; exact (core_scale _ _ _ _ _ _ (or_intror G15)). }
  destruct G as (_ & _ & -> & ->). split; reflexivity.
Qed.
