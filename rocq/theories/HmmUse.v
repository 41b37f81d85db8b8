(** For which parameters C a swap towards the oracle price can be computed at all (cl_math.rs:275-358, mod.rs:652-764, 913-1022). *)
From Coq Require Import ZArith QArith Qabs Qpower List Bool Lia Lqa.
From Verif Require Import Base BaseLemmas DecimalModel DecimalSpec DecimalProofs SqrtProofs PowProofs WfProofs MathModel MathProofs PoolModel PoolWf SwapLoop LpProofs SwapProofs PoolInv PoolNonneg PoolLp PoolFees PoolScale PowAccuracy PowDec.
Open Scope Z_scope.

(** The parameters the formulas can handle: 1 (also with digits beyond the 12th place), 5/4, 3/2 and 2, the latter three only at scale 12. *)
Definition handled (c : decimal) : Prop := (1 <= num c /\ num c < 1 + ulp 12)%Q \/ (dscale c = 12 /\ (num c == 5 # 4 \/ num c == 3 # 2 \/ num c == 2)%Q).

Definition one12 : decimal := mkD (10 ^ 12) 12 false.
Lemma one12_num : (num one12 == 1)%Q. Proof. reflexivity. Qed.
Lemma c12_cmp : forall c c12 b, wf c -> dneg c = false -> to_compute_scale c = Ok c12 -> d_lt c12 one12 = Ok b ->
  wf c12 /\ dneg c12 = false /\ dscale c12 = 12 /\ (b = false -> 1 <= num c)%Q /\ (d_eq c12 one12 = Ok true -> num c < 1 + ulp 12)%Q /\ (d_eq c12 one12 = Ok false -> b = false -> 1 < num c)%Q.
Proof.
  intros c c12 b W N H L. pose proof W as [Wv Ws]. unfold to_compute_scale, COMPUTE_SCALE in H. pose proof (to_scale_spec c 12 W ltac:(lia)) as S. rewrite H in S. destruct S as (S1 & S2 & S3 & S4).
  assert (N12 : dneg c12 = false). { unfold to_scale in H. destruct (12 <? dscale c); msteps; cbn; auto. }
  assert (A : nonneg c) by (split; auto). assert (A12 : nonneg c12) by (split; auto).
  destruct (trunc_nonneg _ _ _ (proj1 S4) (nonneg_num _ A12) (nonneg_num _ A)) as [T1 T2].
  assert (AT : at_s 12 c12) by (split; auto). assert (AO : at_s 12 one12) by (split; [exact one12_wf | split; reflexivity]).
  pose proof (num_s_le _ _ _ AT AO) as C1. pose proof (num_s_le _ _ _ AO AT) as C2. rewrite one12_num in C1, C2.
  unfold d_lt in L. rewrite S2, N12 in L. cbn in L. injection L as <-.
  split; auto. split; auto. split; auto. unfold d_eq. rewrite S2, N12. cbn [dscale dneg one12 negb Bool.eqb Z.eqb Pos.eqb]. rewrite andb_true_r. cbn [dval one12].
  split; [| split].
  - intros L. b2p. cbn [dval one12] in C2. assert (1 <= num c12)%Q by (apply C2; lia). lra.
  - intros E. injection E as E. b2p. assert (num c12 <= 1)%Q by (apply C1; cbn [dval one12]; lia). lra.
  - intros E L. injection E as E. b2p. apply Qlt_le_trans with (num c12); [| lra]. apply Qnot_le_lt. intros K. apply C1 in K. cbn [dval one12] in K. lia.
Qed.
Lemma menu_c : forall c, (1 < num c)%Q -> (num c <= 2)%Q -> on_menu (num c) -> (num c == 5 # 4 \/ num c == 3 # 2 \/ num c == 2)%Q.
Proof.
  intros c L U [[E | [E | [E | [E | [n [P E]]]]]] | [E | [E | [E | [E | [n [P E]]]]]]]; try (exfalso; lra); auto.
  - right. right. rewrite E in *. change 2%Q with (inject_Z 2) in *. change 1%Q with (inject_Z 1) in *. rewrite <- Zlt_Qlt in L. rewrite <- Zle_Qle in U. replace n with 2 by lia. reflexivity.
  - exfalso. assert (0 <= inject_Z n)%Q by (change 0%Q with (inject_Z 0); rewrite <- Zle_Qle; auto). lra.
Qed.
Lemma eq_true : forall a b, d_eq a b = Ok true -> a = b.
Proof. intros [va sa na] [vb sb nb] H. unfold d_eq in H. cbn in H. destruct (sa =? sb) eqn:E; cbn in H; [| discriminate]. injection H as H. apply andb_true_iff in H. destruct H as [H1 H2]. b2p. apply eqb_prop in H2. congruence. Qed.

Theorem dy_hmm_handled : forall orc l a b c o r, wf c -> dneg c = false -> (num c <= 2)%Q -> at_s 12 o ->
  dy_from_l_drp_hmm orc l a b c o = Ok r -> (1 <= num c)%Q /\ (a = b \/ handled c).
Proof.
  intros orc l a b c o r W N U O H. unfold dy_from_l_drp_hmm in H. rewrite one_eq in H. bd H one Eo. injection Eo as <-. fold one12 in H. bd H c12 E1. bd H lt1 E2. destruct lt1; [discriminate |].
  destruct (c12_cmp _ _ _ W N E1 E2) as (_ & _ & S12 & L1 & L2 & L3). specialize (L1 eq_refl). split; auto.
  bd H same E3. destruct same; [left; apply eq_true; auto |]. right. destruct (is_zero a || is_zero b)%bool; [discriminate |]. bd H is1 E4. destruct is1; [left; auto |].
  right. specialize (L3 E4 eq_refl). bd H cmo E5. bd H opc E6. destruct (sub_m _ _ _ E5) as (_ & _ & Sc). split; [symmetry; exact Sc |].
  apply menu_c; auto. apply (pow_dec_menu o c opc); auto; try apply O. destruct O as (_ & -> & _). lia.
Qed.
Theorem dx_hmm_handled : forall orc l a b c o r, wf c -> dneg c = false -> (num c <= 2)%Q -> at_s 12 o ->
  dx_from_l_drp_hmm orc l a b c o = Ok r -> (1 <= num c)%Q /\ (a = b \/ handled c).
Proof.
  intros orc l a b c o r W N U O H. unfold dx_from_l_drp_hmm in H. rewrite one_eq in H. bd H one Eo. injection Eo as <-. fold one12 in H. bd H c12 E1. bd H lt1 E2. destruct lt1; [discriminate |].
  destruct (c12_cmp _ _ _ W N E1 E2) as (_ & _ & S12 & L1 & L2 & L3). specialize (L1 eq_refl). split; auto.
  bd H same E3. destruct same; [left; apply eq_true; auto |]. right. bd H is1 E4. destruct is1; [left; auto |].
  right. specialize (L3 E4 eq_refl). bd H cmo E5. bd H opc E6. destruct (sub_m _ _ _ E5) as (_ & _ & Sc). split; [symmetry; exact Sc |].
  apply menu_c; auto. apply (pow_dec_menu o c opc); auto; try apply O. destruct O as (_ & -> & _). lia.
Qed.

(** ** One swap step whose starting price is beyond the oracle price *)
Lemma within_x_adjusts : forall orc p srp goal liq dx ro w, swap_within_x orc p srp goal liq dx ro = Ok w -> dval (hmm_c p) <> 0 -> dval ro <> 0 -> d_gte ro srp = Ok false ->
  exists new dy, dy_from_l_drp_hmm orc liq srp new (hmm_c p) ro = Ok dy /\ is_positive dy = false /\ (new = ro \/ new = w_rp w /\ w_send w = dy).
Proof.
  intros orc p srp goal liq dx ro w H C0 O0 G. unfold swap_within_x in H. destruct (is_negative dx); [discriminate |]. bd H rpg E1. bd H up E2. destruct up; [discriminate |].
  bd H one E3. bd H ff E4. bd H dxm E5. bd H dbl E6. destruct (is_negative dbl); [discriminate |]. bd H pt E7. bd H t E8. destruct t as [[[[ddx fee] cross] et] erp].
  bd H cp E9. bd H plain E10. unfold is_zero in E10. apply Z.eqb_neq in C0. apply Z.eqb_neq in O0. rewrite C0, O0 in E10. cbn [orb] in E10. rewrite G in E10. cbn in E10. injection E10 as <-.
  bd H ddy E11. bd H adj E12. destruct (is_positive cp) eqn:E13; [discriminate |]. destruct (is_negative adj) eqn:E14; [discriminate |]. bd H ny E15. destruct (is_negative ny) eqn:E16; [discriminate |]. bd H u E17.
  unfold within_new in H. destruct (is_negative ddx); [discriminate |]. destruct (is_positive ddy) eqn:Pd; [discriminate |]. destruct (_ || _)%bool; [discriminate |]. destruct (is_negative erp); [discriminate |]. injection H as <-. cbn [w_rp w_send].
  bd E11 a F1. bd E11 b F2. destruct b.
  - bd E11 d1 F3. bd E11 d2 F4. destruct (is_positive d1) eqn:P1; [discriminate |]. exists ro, d1. auto.
  - bd E11 c F3. destruct c; [| discriminate]. exists erp, ddy. auto.
Qed.

Lemma within_y_adjusts : forall orc p srp goal liq dy ro w, swap_within_y orc p srp goal liq dy ro = Ok w -> dval (hmm_c p) <> 0 -> dval ro <> 0 -> d_lte ro srp = Ok false ->
  exists new dx, dx_from_l_drp_hmm orc liq srp new (hmm_c p) ro = Ok dx /\ is_positive dx = false /\ (new = ro \/ new = w_rp w /\ w_send w = dx).
Proof.
  intros orc p srp goal liq dx ro w H C0 O0 G. unfold swap_within_y in H. destruct (is_negative dx); [discriminate |]. bd H rpg E1. bd H up E2. destruct up; [discriminate |].
  bd H one E3. bd H ff E4. bd H dxm E5. bd H dbl E6. destruct (is_negative dbl); [discriminate |]. bd H pt E7. bd H t E8. destruct t as [[[[ddx fee] cross] et] erp].
  bd H cp E9. bd H plain E10. unfold is_zero in E10. apply Z.eqb_neq in C0. apply Z.eqb_neq in O0. rewrite C0, O0 in E10. cbn [orb] in E10. rewrite G in E10. cbn in E10. injection E10 as <-.
  bd H ddy E11. bd H adj E12. destruct (is_positive cp) eqn:E13; [discriminate |]. destruct (is_negative adj) eqn:E14; [discriminate |]. bd H ny E15. destruct (is_negative ny) eqn:E16; [discriminate |]. bd H u E17.
  unfold within_new in H. destruct (is_negative ddx); [discriminate |]. destruct (is_positive ddy) eqn:Pd; [discriminate |]. destruct (_ || _)%bool; [discriminate |]. destruct (is_negative erp); [discriminate |]. injection H as <-. cbn [w_rp w_send].
  bd E11 a F1. bd E11 b F2. destruct b.
  - bd E11 d1 F3. bd E11 d2 F4. destruct (is_positive d1) eqn:P1; [discriminate |]. exists ro, d1. auto.
  - bd E11 c F3. destruct c; [| discriminate]. exists erp, ddy. auto.
Qed.

(** ** Whole swaps *)
Lemma pos_dec : forall d, wf d -> (0 < num d)%Q -> dneg d = false /\ dval d <> 0.
Proof.
  intros d [W1 W2] P. destruct (dneg d) eqn:N.
  - exfalso. destruct (Z.eq_dec (dval d) 0) as [Z | Z]; [rewrite (num_zero _ Z) in P; lra |]. destruct (num_neg d N Z (conj W1 W2)) as [L _]. lra.
  - split; auto. intros Z. rewrite (num_zero _ Z) in P. lra.
Qed.
Lemma gte_false : forall a b, at_s 12 a -> at_s 12 b -> (num a < num b)%Q -> d_gte a b = Ok false /\ d_lte b a = Ok false.
Proof.
  intros a b A B L. pose proof (num_s_le _ _ _ B A) as C. destruct A as (_ & Sa & Na), B as (_ & Sb & Nb). unfold d_gte, d_lte. rewrite Sa, Sb, Na, Nb. cbn.
  assert (dval a < dval b) by (apply Z.nle_gt; intros K; apply C in K; lra). split; f_equal; apply Z.leb_gt; auto.
Qed.

Lemma dy_hmm_same : forall orc l a c o r, dy_from_l_drp_hmm orc l a a c o = Ok r -> dval r = 0.
Proof.
  intros orc l a c o r H. unfold dy_from_l_drp_hmm in H. rewrite one_eq in H. bd H one Eo. bd H c12 E1. bd H lt1 E2. destruct lt1; [discriminate |]. bd H same E3.
  assert (same = true). { unfold d_eq in E3. rewrite !Z.eqb_refl, eqb_reflx in E3. cbn in E3. injection E3 as <-. auto. } subst same. rewrite zero_eq in H. injection H as <-. reflexivity.
Qed.
Lemma dx_hmm_same : forall orc l a c o r, dx_from_l_drp_hmm orc l a a c o = Ok r -> dval r = 0.
Proof.
  intros orc l a c o r H. unfold dx_from_l_drp_hmm in H. rewrite one_eq in H. bd H one Eo. bd H c12 E1. bd H lt1 E2. destruct lt1; [discriminate |]. bd H same E3.
  assert (same = true). { unfold d_eq in E3. rewrite !Z.eqb_refl, eqb_reflx in E3. cbn in E3. injection E3 as <-. auto. } subst same. rewrite zero_eq in H. injection H as <-. reflexivity.
Qed.
Lemma liq_pos : forall p, wf (glbl_liq p) -> (0 < num (glbl_liq p))%Q -> is_positive (glbl_liq p) = true.
Proof. intros p W P. destruct (pos_dec _ W P) as [N Z]. unfold is_positive, is_zero. rewrite N. apply Z.eqb_neq in Z. rewrite Z. reflexivity. Qed.

(** The price is not the price of an initialised tick. *)
Definition off_ticks (p : pool) : Prop := forall k rp, In k (keys p) -> tick_to_rp k = Ok rp -> ~ (num rp == num (glbl_rp p))%Q.

Lemma first_x : forall orc p dx ro p' o, reachable orc p -> wf dx -> wf ro -> dscale ro = 12 -> (0 < num (hmm_c p))%Q -> (0 < num (glbl_liq p))%Q -> (0 < num ro)%Q -> (num ro < num (glbl_rp p))%Q ->
  execute_swap_from_x orc p dx ro = Ok (p', o) ->
  (p' = p /\ num (so_recv o) == 0)%Q \/
  exists w gtk p1 s1 s' new dy, In gtk (keys p) /\ mid_x p w p1 /\ tally dx (s0 p) w s1 /\ dy_from_l_drp_hmm orc (glbl_liq p) (glbl_rp p) new (hmm_c p) ro = Ok dy /\ is_positive dy = false /\ (new = ro \/ new = w_rp w /\ w_send w = dy) /\
    (w_cross w = true -> tick_to_rp gtk = Ok (w_rp w)) /\ (w_cross w = false -> chain (mv_x orc dx ro) (p1, s1) (p', s') /\ mant (s_in s1) = mant dx /\ dscale (s_in s1) = dscale dx) /\ 0 < mant dx /\ s_wf s1 /\ finish_x p' s' = Ok (p', o) /\ at_s 12 ro /\ ro <> glbl_rp p.
Proof.
  intros orc p dx ro p' o Hr Wd Wo So C0 L0 O0 O1 H. pose proof (reachable_nn _ _ Hr) as (W & _). destruct (swap_x_chain _ _ _ _ _ _ H W Wd Wo) as (Pd & s' & C & Iv & F & _).
  assert (Wl : wf (glbl_liq p)) by apply W. assert (Wr : wf (glbl_rp p)) by apply W. assert (Wc : wf (hmm_c p)) by apply W. pose proof (liq_pos _ Wl L0) as Lp.
  inversion C as [a E1 E2 | a b c M C' E1 E2]; [left | right]; subst.
  - split; auto. destruct (finish_x_out _ _ _ _ F) as (-> & _). apply num_zero. reflexivity.
  - pose proof (proj1 (inv_start _ W)) as (_ & I2 & _). cbn [fst snd] in I2. inversion M as [q s tk rp q' H1 | q s f gtk q' t1 H1 H2 H3 H4 H5]; subst; [congruence |].
    destruct (find_left _ _ _ H4) as [K1 K2]. destruct (step_x_facts _ _ _ _ _ _ _ _ H5 W I2 Wd Wo K1) as (w & p1 & (rest & R1 & R2 & R3) & F2 & F3 & F4 & F5 & F6 & F7 & F8).
    change (s_rp (s0 p)) with (glbl_rp p) in R3. destruct (within_x_facts _ _ _ _ _ _ _ _ R3 W Wr Wl R2 Wo (key_nn _ _ W K1)) as (rpg & cp & G1 & G2 & G3 & G4 & G5 & G6 & G7 & G8 & G9 & G10 & G11 & G12 & G13 & G14 & G15 & G16).
    destruct (pos_dec _ Wo O0) as [No Zo]. destruct (pos_dec _ Wr ltac:(lra)) as [Nr Zr]. destruct (pos_dec _ Wc C0) as [Nc Zc].
    assert (A1 : at_s 12 ro) by (split; auto). assert (A2 : at_s 12 (glbl_rp p)) by (split; auto).
    destruct (within_x_adjusts _ _ _ _ _ _ _ _ R3 Zc Zo (proj1 (gte_false _ _ A1 A2 O1))) as (new & dy & D1 & D2 & D3).
    exists w, gtk, p1, t1, s', new, dy. csplit; auto.
    + intros E. rewrite E in G16. destruct G16 as [-> _]. auto.
    + intros E. rewrite E in F8, G16. subst q'. split; auto. destruct F4 as (r' & c1 & ck & i1 & i2 & o2 & a2 & f2 & T1 & T2 & T3 & T4 & T5 & T6 & T7 & T8 & T9 & ->). cbn [s_in].
      apply add_m in T5. apply add_m in T6. rewrite R1 in T1. injection T1 as <-. apply sub_m in R1. destruct R1 as (R1 & R1' & R1''). cbn [s0 s_in] in *. change (mant (mkD 0 12 false)) with 0 in *. destruct T5 as (T5 & T5' & T5''), T6 as (T6 & T6' & T6''). cbn [dscale] in *. split; lia.
    + intros E. rewrite E in O1. lra.
Qed.
Theorem swap_x_below_one : forall orc p dx ro p' o, reachable orc p -> wf dx -> wf ro -> dscale ro = 12 -> (0 < num (hmm_c p) < 1)%Q -> (0 < num (glbl_liq p))%Q -> (0 < num ro < num (glbl_rp p))%Q ->
  execute_swap_from_x orc p dx ro = Ok (p', o) -> p' = p /\ (num (so_recv o) == 0)%Q.
Proof.
  intros orc p dx ro p' o Hr Wd Wo So [C0 C1] L0 [O0 O1] H. destruct (first_x _ _ _ _ _ _ Hr Wd Wo So C0 L0 O0 O1 H) as [? | (w & gtk & p1 & s1 & s' & new & dy & X1 & X2 & X3 & X4 & X5 & X6 & X7 & X8 & X9 & Xw & X10 & X11 & X12)]; auto. exfalso.
  pose proof (reachable_nn _ _ Hr) as (W & _). assert (Wc : wf (hmm_c p)) by apply W. destruct (pos_dec _ Wc C0) as [Nc Zc]. destruct (dy_hmm_handled _ _ _ _ _ _ _ Wc Nc ltac:(lra) X11 X4) as [K _]. lra.
Qed.
Theorem swap_x_unhandled : forall orc p dx ro p' o, reachable orc p -> wf dx -> wf ro -> dscale ro = 12 -> (0 < num (hmm_c p) <= 2)%Q -> ~ handled (hmm_c p) -> (0 < num (glbl_liq p))%Q -> off_ticks p -> (0 < num ro < num (glbl_rp p))%Q ->
  execute_swap_from_x orc p dx ro = Ok (p', o) -> p' = p /\ (num (so_recv o) == 0)%Q.
Proof.
  intros orc p dx ro p' o Hr Wd Wo So [C0 C1] NH L0 OT [O0 O1] H. destruct (first_x _ _ _ _ _ _ Hr Wd Wo So C0 L0 O0 O1 H) as [? | (w & gtk & p1 & s1 & s' & new & dy & X1 & X2 & X3 & X4 & X5 & X6 & X7 & X8 & X9 & Xw & X10 & X11 & X12)]; auto. exfalso.
  pose proof (reachable_nn _ _ Hr) as (W & _). assert (Wc : wf (hmm_c p)) by apply W. destruct (pos_dec _ Wc C0) as [Nc Zc]. destruct (dy_hmm_handled _ _ _ _ _ _ _ Wc Nc C1 X11 X4) as [_ [E | E]]; [| contradiction].
  destruct X6 as [-> | [-> Es]]; [congruence |]. destruct (w_cross w) eqn:Ec.
  { apply (OT gtk (w_rp w)); auto. rewrite <- E. reflexivity. }
  destruct (X8 eq_refl) as (Ch & Mi & Si). rewrite <- E in X4. pose proof (dy_hmm_same _ _ _ _ _ _ X4) as Zd. rewrite <- Es in Zd.
  assert (Wl : wf (glbl_liq p)) by apply W. pose proof (liq_pos _ Wl L0) as Lp.
  assert (Lp1 : is_positive (glbl_liq p1) = true). { destruct X2 as (nx & y1 & ny & nya & nxf & fx & hy & _ & _ & _ & _ & _ & _ & _ & ->). exact Lp. }
  pose proof X3 as (r' & c1 & ck & i1 & i2 & o2 & a2 & f2 & T1 & T2 & T3 & T4 & T5 & T6 & T7 & T8 & T9 & Es1).
  inversion Ch as [a E1 E2 | a b c M C' E1 E2]; subst a.
  - inversion E2; subst s'. destruct (finish_x_out _ _ _ _ X10) as (_ & _ & _ & _ & _ & _ & _ & K & _). subst s1. cbn [s_in s_out] in *. apply add_m in T7. cbn [s0 s_out] in T7. destruct T7 as [T7 _]. change (mant (mkD 0 12 false)) with 0 in T7.
    assert (mant (w_send w) = 0) by (unfold mant; rewrite Zd; destruct (dneg (w_send w)); reflexivity). assert (Zo2 : dval o2 = 0) by (unfold mant in T7; destruct (dneg o2), (dneg (w_send w)); lia).
    assert (Ip : is_positive i2 = true) by (apply is_pos_m; [apply wf_nn; apply Xw | lia]).
    rewrite Ip in K. unfold is_zero in K. rewrite Zo2 in K. discriminate.
  - subst c. inversion M as [q s tk rp q' H1 | q s f gtk' q' t1 H1 H2 H3 H4 H5]; subst q s; [congruence |].
    destruct (lt_m _ _ _ (wf_nn _ (proj1 Xw)) (wf_nn _ Wd) H2) as (_ & _ & _ & K). assert (canonical (s_in s1)). { intros N Z. unfold mant in Mi. rewrite N, Z in Mi. unfold mant in X9. destruct (dneg dx); lia. } specialize (K H0 eq_refl). lia.
Qed.

Lemma first_y : forall orc p dx ro p' o, reachable orc p -> wf dx -> wf ro -> dscale ro = 12 -> (0 < num (hmm_c p))%Q -> (0 < num (glbl_liq p))%Q -> (0 < num (glbl_rp p))%Q -> (num (glbl_rp p) < num ro)%Q ->
  execute_swap_from_y orc p dx ro = Ok (p', o) ->
  (p' = p /\ num (so_recv o) == 0)%Q \/
  exists w gtk p1 s1 s' new dy, In gtk (keys p) /\ mid_y p w p1 /\ tally dx (s0 p) w s1 /\ dx_from_l_drp_hmm orc (glbl_liq p) (glbl_rp p) new (hmm_c p) ro = Ok dy /\ is_positive dy = false /\ (new = ro \/ new = w_rp w /\ w_send w = dy) /\
    (w_cross w = true -> tick_to_rp gtk = Ok (w_rp w)) /\ (w_cross w = false -> chain (mv_y orc dx ro) (p1, s1) (p', s') /\ mant (s_in s1) = mant dx /\ dscale (s_in s1) = dscale dx) /\ 0 < mant dx /\ s_wf s1 /\ finish_y p' s' = Ok (p', o) /\ at_s 12 ro /\ ro <> glbl_rp p.
Proof.
  intros orc p dx ro p' o Hr Wd Wo So C0 L0 O0 O1 H. pose proof (reachable_nn _ _ Hr) as (W & _). destruct (swap_y_chain _ _ _ _ _ _ H W Wd Wo) as (Pd & s' & C & Iv & F & _).
  assert (Wl : wf (glbl_liq p)) by apply W. assert (Wr : wf (glbl_rp p)) by apply W. assert (Wc : wf (hmm_c p)) by apply W. pose proof (liq_pos _ Wl L0) as Lp.
  inversion C as [a E1 E2 | a b c M C' E1 E2]; [left | right]; subst.
  - split; auto. destruct (finish_y_out _ _ _ _ F) as (-> & _). apply num_zero. reflexivity.
  - pose proof (proj2 (inv_start _ W)) as (_ & I2 & _). cbn [fst snd] in I2. inversion M as [q s tk rp q' H1 | q s gtk q' t1 H1 H2 H3 H4 H5]; subst; [congruence |].
    destruct (find_right _ _ _ H4) as [K1 K2]. destruct (step_y_facts _ _ _ _ _ _ _ _ H5 W I2 Wd Wo K1) as (w & p1 & (rest & R1 & R2 & R3) & F2 & F3 & F4 & F5 & F6 & F7 & F8).
    change (s_rp (s0 p)) with (glbl_rp p) in R3. destruct (within_y_facts _ _ _ _ _ _ _ _ R3 W Wr Wl R2 Wo (key_nn _ _ W K1)) as (rpg & cp & G1 & G2 & G3 & G4 & G5 & G6 & G7 & G8 & G9 & G10 & G11 & G12 & G13 & G14 & G15 & G16).
    destruct (pos_dec _ Wo ltac:(lra)) as [No Zo]. destruct (pos_dec _ Wr O0) as [Nr Zr]. destruct (pos_dec _ Wc C0) as [Nc Zc].
    assert (A1 : at_s 12 ro) by (split; auto). assert (A2 : at_s 12 (glbl_rp p)) by (split; auto).
    destruct (within_y_adjusts _ _ _ _ _ _ _ _ R3 Zc Zo (proj2 (gte_false _ _ A2 A1 O1))) as (new & dy & D1 & D2 & D3).
    exists w, gtk, p1, t1, s', new, dy. csplit; auto.
    + intros E. rewrite E in G16. destruct G16 as [-> _]. auto.
    + intros E. rewrite E in F8, G16. subst q'. split; auto. destruct F4 as (r' & c1 & ck & i1 & i2 & o2 & a2 & f2 & T1 & T2 & T3 & T4 & T5 & T6 & T7 & T8 & T9 & ->). cbn [s_in].
      apply add_m in T5. apply add_m in T6. rewrite R1 in T1. injection T1 as <-. apply sub_m in R1. destruct R1 as (R1 & R1' & R1''). cbn [s0 s_in] in *. change (mant (mkD 0 12 false)) with 0 in *. destruct T5 as (T5 & T5' & T5''), T6 as (T6 & T6' & T6''). cbn [dscale] in *. split; lia.
    + intros E. rewrite E in O1. lra.
Qed.
Theorem swap_y_below_one : forall orc p dx ro p' o, reachable orc p -> wf dx -> wf ro -> dscale ro = 12 -> (0 < num (hmm_c p) < 1)%Q -> (0 < num (glbl_liq p))%Q -> (0 < num (glbl_rp p) < num ro)%Q ->
  execute_swap_from_y orc p dx ro = Ok (p', o) -> p' = p /\ (num (so_recv o) == 0)%Q.
Proof.
  intros orc p dx ro p' o Hr Wd Wo So [C0 C1] L0 [O0 O1] H. destruct (first_y _ _ _ _ _ _ Hr Wd Wo So C0 L0 O0 O1 H) as [? | (w & gtk & p1 & s1 & s' & new & dy & X1 & X2 & X3 & X4 & X5 & X6 & X7 & X8 & X9 & Xw & X10 & X11 & X12)]; auto. exfalso.
  pose proof (reachable_nn _ _ Hr) as (W & _). assert (Wc : wf (hmm_c p)) by apply W. destruct (pos_dec _ Wc C0) as [Nc Zc]. destruct (dx_hmm_handled _ _ _ _ _ _ _ Wc Nc ltac:(lra) X11 X4) as [K _]. lra.
Qed.
Theorem swap_y_unhandled : forall orc p dx ro p' o, reachable orc p -> wf dx -> wf ro -> dscale ro = 12 -> (0 < num (hmm_c p) <= 2)%Q -> ~ handled (hmm_c p) -> (0 < num (glbl_liq p))%Q -> off_ticks p -> (0 < num (glbl_rp p) < num ro)%Q ->
  execute_swap_from_y orc p dx ro = Ok (p', o) -> p' = p /\ (num (so_recv o) == 0)%Q.
Proof.
  intros orc p dx ro p' o Hr Wd Wo So [C0 C1] NH L0 OT [O0 O1] H. destruct (first_y _ _ _ _ _ _ Hr Wd Wo So C0 L0 O0 O1 H) as [? | (w & gtk & p1 & s1 & s' & new & dy & X1 & X2 & X3 & X4 & X5 & X6 & X7 & X8 & X9 & Xw & X10 & X11 & X12)]; auto. exfalso.
  pose proof (reachable_nn _ _ Hr) as (W & _). assert (Wc : wf (hmm_c p)) by apply W. destruct (pos_dec _ Wc C0) as [Nc Zc]. destruct (dx_hmm_handled _ _ _ _ _ _ _ Wc Nc C1 X11 X4) as [_ [E | E]]; [| contradiction].
  destruct X6 as [-> | [-> Es]]; [congruence |]. destruct (w_cross w) eqn:Ec.
  { apply (OT gtk (w_rp w)); auto. rewrite <- E. reflexivity. }
  destruct (X8 eq_refl) as (Ch & Mi & Si). rewrite <- E in X4. pose proof (dx_hmm_same _ _ _ _ _ _ X4) as Zd. rewrite <- Es in Zd.
  assert (Wl : wf (glbl_liq p)) by apply W. pose proof (liq_pos _ Wl L0) as Lp.
  assert (Lp1 : is_positive (glbl_liq p1) = true). { destruct X2 as (nx & y1 & ny & nya & nxf & fx & hy & _ & _ & _ & _ & _ & _ & _ & ->). exact Lp. }
  pose proof X3 as (r' & c1 & ck & i1 & i2 & o2 & a2 & f2 & T1 & T2 & T3 & T4 & T5 & T6 & T7 & T8 & T9 & Es1).
  inversion Ch as [a E1 E2 | a b c M C' E1 E2]; subst a.
  - inversion E2; subst s'. destruct (finish_y_out _ _ _ _ X10) as (_ & _ & _ & _ & _ & _ & _ & K & _). subst s1. cbn [s_in s_out] in *. apply add_m in T7. cbn [s0 s_out] in T7. destruct T7 as [T7 _]. change (mant (mkD 0 12 false)) with 0 in T7.
    assert (mant (w_send w) = 0) by (unfold mant; rewrite Zd; destruct (dneg (w_send w)); reflexivity). assert (Zo2 : dval o2 = 0) by (unfold mant in T7; destruct (dneg o2), (dneg (w_send w)); lia).
    assert (Ip : is_positive i2 = true) by (apply is_pos_m; [apply wf_nn; apply Xw | lia]).
    rewrite Ip in K. unfold is_zero in K. rewrite Zo2 in K. discriminate.
  - subst c. inversion M as [q s tk rp q' H1 | q s gtk' q' t1 H1 H2 H3 H4 H5]; subst q s; [congruence |].
    destruct (lt_m _ _ _ (wf_nn _ (proj1 Xw)) (wf_nn _ Wd) H2) as (_ & _ & _ & K). assert (canonical (s_in s1)). { intros N Z. unfold mant in Mi. rewrite N, Z in Mi. unfold mant in X9. destruct (dneg dx); lia. } specialize (K H0 eq_refl). lia.
Qed.
