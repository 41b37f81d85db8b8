(** Withdrawing in two parts (C95). *)
From Coq Require Import ZArith QArith List Bool Lia Lqa String Sorted.
From Verif Require Import Base BaseLemmas DecimalModel DecimalSpec DecimalProofs PowProofs WfProofs MathModel MathProofs TickProofs PoolModel PoolWf LpProofs SwapLoop SwapProofs PoolInv PoolNonneg PoolLp PoolFees PoolRange ChainLemmas PoolGain PoolScale PoolExit.
Import ListNotations.
Open Scope Z_scope.

Definition out_fee (o : lp_out) (k : fkind) : decimal := match k with FX => io_fx o | FY => io_fy o | HX => io_hx o | HY => io_hy o end.

Lemma mul_val : forall a b c, d_mul a b = Ok c -> wf a -> wf b -> dscale b = 12 -> 0 <= mant a -> 0 <= mant b -> mant c = mant a * mant b / 10 ^ 12 /\ dscale c = dscale a /\ dval a * dval b < U128.
Proof.
  intros a [vb sb nb] c H Wa Wb Sb Ha Hb. cbn [dscale] in Sb. subst sb. unfold d_mul in H. bd H v F1. bd H r F2. bd H u F3. injection H as <-. apply cmul_ok in F1. apply cdiv_ok in F3. destruct F1 as [-> F1]. destruct F3 as [-> _]. assert (r = 10 ^ 12) as -> by (vm_compute in F2; injection F2 as <-; reflexivity).
  split; [| split; [reflexivity | exact F1]].
  destruct a as [va sa na]. apply wf_nn in Wa, Wb. cbn in Wa, Wb, F1. unfold mant in *. cbn [dval dneg dscale] in *. destruct na, nb; cbn [xorb]; auto.
  - replace (- va * - vb) with (va * vb) by ring. reflexivity.
  - assert (va = 0) by lia. subst. reflexivity.
  - assert (vb = 0) by lia. subst. rewrite !Z.mul_0_r. reflexivity.
Qed.
Lemma abs_val : forall d, wf d -> 0 <= mant d -> dval d = mant d.
Proof. intros [v s n] W H. apply wf_nn in W. unfold mant in *. cbn in *. destruct n; lia. Qed.
Lemma sub_le_of_lt : forall a b, d_lt a b = Ok false -> wf a -> wf b -> dscale a = dscale b -> 0 <= mant a -> 0 <= mant b -> canonical a -> mant b <= mant a.
Proof.
  intros [va sa na] [vb sb nb] H Wa Wb S Ha Hb C. apply wf_nn in Wa, Wb. unfold d_lt, mant, canonical in *. cbn in *. subst sb. rewrite Z.eqb_refl in H. cbn [negb] in H.
  destruct na, nb; cbn in *; try lia; try (specialize (C eq_refl); lia).
  injection H as H. apply Z.ltb_ge in H. lia.
Qed.

(** What a completed withdrawal tells about the pool. *)
Lemma wd_facts : forall orc p user l rpa rpb lo up q o, reachable orc p -> wf l -> wf rpa -> wf rpb -> range_of p rpa rpb lo up -> 0 < mant l ->
  withdraw p user l rpa rpb = Ok (q, o) -> let k := (user, lo, up) in
  exists nf, up < 2 ^ 19 /\ dscale l = 12 /\ mant l <= held p k /\ (lo <= glbl_tick p < up -> mant l <= mant (glbl_liq p)) /\
    (forall kk, fee_rng p lo up kk = Ok (nf kk) /\ paid_to p k kk <= mant (nf kk) /\ held p k * (mant (nf kk) - paid_to p k kk) < 2 ^ 128 /\ owed p k nf kk <= pot p kk /\ mant (out_fee o kk) = owed p k nf kk /\ pot q kk = pot p kk - owed p k nf kk /\ dscale (out_fee o kk) = 12) /\
    computable p lo up (mant l) /\
    mant (io_x o) = cut (claim_x p k (mant l)) /\ mant (io_y o) = cut (claim_y p k (mant l)) /\ dscale (io_x o) = 12 /\ dscale (io_y o) = 12 /\
    mant (io_x o) <= mant (rx p) /\ mant (io_y o) <= mant (ry p) /\
    mant (io_x o) + owed p k nf FX + owed p k nf HX < 2 ^ 128 /\ mant (io_y o) + owed p k nf FY + owed p k nf HY < 2 ^ 128 /\
    mant (rx q) = mant (rx p) - mant (io_x o) /\ mant (ry q) = mant (ry p) - mant (io_y o) /\
    glbl_rp q = glbl_rp p /\ glbl_tick q = glbl_tick p /\ spacing q = spacing p /\ sound_key k /\
    held q k = held p k - mant l /\ mant (glbl_liq q) = mant (glbl_liq p) - (if (lo <=? glbl_tick p) && (glbl_tick p <? up) then mant l else 0) /\
    (mant l < held p k -> forall kk, paid_to q k kk = mant (nf kk) /\ (inside q lo up kk == inside p lo up kk)%Q).
Proof.
  intros orc p user l rpa rpb lo up q o R Wl Wa Wb RG Pl H k. pose proof (reachable_nn _ _ R) as N. pose proof (proj1 N) as W. destruct (reachable_12 _ _ R) as (T1 & T2 & _). pose proof (reachable_all12 _ _ R) as A12. pose proof A12 as ((Lg & _) & _ & PS & O1 & O2 & O3 & O4 & O5 & O6). pose proof W as (_ & (Wg & _) & _ & (ND & PW) & (U1 & U2 & U3 & U4 & U5 & U6) & _).
  pose proof (reachable_ticks _ _ R) as I. pose proof (withdraw_ticks _ _ _ _ _ _ _ H I Wl Wa Wb) as I'.
  destruct (withdraw_wf _ _ _ _ _ _ _ H W Wl Wa Wb) as [W' (V1 & V2 & V3 & V4 & V5 & V6 & V7 & V8 & V9)].
  destruct (withdraw_nn _ _ _ _ _ _ _ H N Wl Wa Wb) as (N' & _ & _ & X1 & X2 & X3 & X4 & X5 & X6). apply nn_m in X1, X2, X3, X4, X5, X6; auto.
  destruct (withdraw_inv _ _ _ _ _ _ _ H) as (lo' & up' & a & b & p1 & x0 & y0 & nx & ny & nxf & nxa & nyf & nya & D1 & D2 & D3 & D4 & D5 & D6 & D7 & D8 & D9 & D10 & D11 & D12 & (xd & yd & F1 & F2 & F3 & F4) & (L1 & L2) & (L3 & L4 & L5 & L6) & D18 & D19 & D20 & D21 & D22 & D23 & Eq).
  pose proof RG as (G1 & G2 & G3 & _). rewrite G1 in D1. injection D1 as <-. rewrite G2 in D2. injection D2 as <-.
  apply set_position_inv in D8. destruct (set_pos_same _ _ _ _ _ _ _ D8) as (E0 & E00 & E1 & E01 & E2 & E3 & E4 & E5 & E6 & E7).
  destruct (range_prices _ _ _ _ _ _ _ _ R RG D4 D5) as (P1 & P2 & P3 & P4 & P5 & P6 & P7 & P8 & P9 & P10 & P11 & P12).
  rewrite E1 in D9, D10. pose proof (x_from_scale _ _ _ _ _ D9) as [Sx _]. pose proof (y_from_scale _ _ _ _ _ D10) as [Sy _].
  rewrite E2, E3, E4, E5, E6, E7 in *.
  pose proof (sub_m _ _ _ D18) as (M1 & M2 & M3). pose proof (sub_m _ _ _ D19) as (M4 & M5 & M6).
  assert (Sz : forall c d e, d_mul c d = Ok e -> dscale e = dscale c) by (intros c d e E; unfold d_mul in E; bd E v I1; bd E r I2; bd E u I3; injection E as <-; auto).
  pose proof (Sz _ _ _ D11) as S1. pose proof (Sz _ _ _ D12) as S2.
  assert (Sl : dscale l = 12) by congruence. assert (K : sound_key k) by (unfold k, sound_key; rewrite P11, P12; auto).
  assert (Hu : up < 2 ^ 19) by (destruct (Z_lt_le_dec up (2 ^ 19)) as [Hu | Hu]; [exact Hu |]; pose proof (tick_panics _ Hu) as D5'; rewrite D5 in D5'; discriminate D5').
  assert (Xv : mant x0 = claim_x p k (mant l)) by (unfold claim_x, k; rewrite P4, P11, P12; eapply amt_x; eauto; lia).
  assert (Yv : mant y0 = claim_y p k (mant l)) by (unfold claim_y, k; rewrite P4, P11, P12; eapply amt_y; eauto; lia).
  destruct (claim_facts p k (mant l) 0 K) as (_ & CN & _). destruct (CN ltac:(lia)) as [CX CY].
  assert (Wx0 : wf x0) by (eapply x_from_wf; [exact D9 | | | |]; auto; [apply P1 | apply P5 | apply P8]). assert (Wy0 : wf y0) by (eapply y_from_wf; [exact D10 | | | |]; auto; [apply P1 | apply P5 | apply P8]).
  assert (Wc : wf (mkD 999999999999 12 false)) by (split; cbn; lia).
  destruct (mul_val _ _ _ D11 Wx0 Wc eq_refl ltac:(lia) ltac:(vm_compute; discriminate)) as (Q1 & Q2 & _). destruct (mul_val _ _ _ D12 Wy0 Wc eq_refl ltac:(lia) ltac:(vm_compute; discriminate)) as (Q3 & Q4 & _).
  change (mant (mkD 999999999999 12 false)) with (10 ^ 12 - 1) in Q1, Q3. rewrite Xv in Q1. rewrite Yv in Q3. fold (cut (claim_x p k (mant l))) in Q1. fold (cut (claim_y p k (mant l))) in Q3.
  destruct (withdraw_exact _ _ _ _ _ _ _ _ R Wl Wa Wb H) as (lo2 & up2 & (K1 & K2 & _) & (_ & K3) & (K4 & _ & _ & K5 & K6 & K7 & K8) & _). rewrite G1 in K1. injection K1 as <-. rewrite G2 in K2. injection K2 as <-. fold k in K3, K4.
  assert (R' : reachable orc q) by (eapply r_call with (c := CWithdraw user l rpa rpb); [exact R | cbn; auto | cbn; rewrite H; reflexivity]).
  pose proof (reachable_all12 _ _ R') as ((Lg' & _) & _). pose proof W' as (_ & (Wg' & _) & _).
  rewrite (num12 _ Sl), (held_q _ _ _ R) in K3. apply (proj1 (q_of_m _ _)) in K3.
  assert (Hq : exists pq, pm_get k (positions p) = Some pq). { unfold held in K3. destruct (pm_get k (positions p)) as [pq |]; [eauto | lia]. } destruct Hq as (pq & Hq).
  destruct (pos_nn _ _ _ _ R (pm_get_in _ _ _ Hq)) as (_ & B1 & B2 & B3). assert (Hh : held p k = mant (p_liq pq)) by (unfold held; rewrite Hq; auto).
  pose proof D8 as (nfx & nfy & nhx & nhy & pos' & base & ofx & ofy & ohx & ohy & m1 & m2 & L & R1 & R2 & R3 & R4 & PU & (Y1 & Y2 & Y3 & Y4) & TU1 & TU2 & GL & Ep1).
  pose proof (pos_upd_own _ _ _ _ _ _ _ PU ND) as PO. fold k in PU, PO. rewrite Hq in PO. destruct PO as (nl & Z1 & _ & Z2).
  unfold pos_upd in PU. rewrite Hq in PU. destruct PU as (_ & _ & _ & _ & _ & -> & Eo). injection Eo as -> -> -> ->.
  pose proof (PW _ _ (pm_get_in _ _ _ Hq)) as (_ & Wf1 & Wf2 & Wf3 & Wf4). pose proof (PS _ _ (pm_get_in _ _ _ Hq)) as (_ & Pf).
  set (nf := fun kk => match kk with FX => nfx | FY => nfy | HX => nhx | HY => nhy end).
  assert (FR : forall kk, fee_rng p lo up kk = Ok (nf kk)) by (intros kk; destruct kk; assumption).
  assert (FO : forall kk, fee_owed (p_liq pq) (nf kk) (p_fee pq kk) (out_fee o kk)) by (intros kk; destruct kk; assumption).
  assert (Wfo : forall kk, wf (p_fee pq kk)) by (intros kk; destruct kk; assumption). assert (Woo : forall kk, wf (out_fee o kk) /\ 0 <= mant (out_fee o kk)) by (intros kk; destruct kk; split; assumption).
  assert (Wnf : forall kk, wf (nf kk) /\ dscale (nf kk) = 12) by (intros kk; split; [exact (fee_rng_wf _ _ _ _ _ (FR kk) W) | apply (fee_rng_12 _ _ _ _ _ (FR kk) W A12)]).
  assert (Pd : forall kk, paid_to p k kk = mant (p_fee pq kk)) by (intros kk; unfold paid_to; rewrite Hq; reflexivity).
  assert (OW : forall kk, paid_to p k kk <= mant (nf kk) /\ held p k * (mant (nf kk) - paid_to p k kk) < 2 ^ 128 /\ mant (out_fee o kk) = owed p k nf kk /\ dscale (out_fee o kk) = 12).
  { intros kk. destruct (FO kk) as (u & Fu1 & Fu2 & Fu3). destruct (Wnf kk) as [Wn1 Sn1]. pose proof (sub_wf _ _ _ Fu1 Wn1 (Wfo kk)) as Wu. pose proof (sub_m _ _ _ Fu1) as (Mu & Su & _).
    assert (Pu : 0 <= mant u) by (apply is_neg_f; [apply wf_nn; exact Wu | exact Fu2]). destruct (mul_val _ _ _ Fu3 B3 Wu ltac:(congruence) B1 Pu) as (J1 & J2 & J3).
    rewrite Pd, Hh. rewrite (abs_val _ B3 B1), (abs_val _ Wu Pu) in J3. unfold owed. rewrite Pd, Hh, <- Mu. unfold U128 in J3. csplit; [lia | exact J3 | exact J1 | congruence]. }
  assert (PT : forall kk, owed p k nf kk <= pot p kk /\ pot q kk = pot p kk - owed p k nf kk).
  { destruct N as (_ & (N1 & N2 & N3 & N4 & N5 & N6) & _). apply nn_m in N3, N4, N5, N6; auto.
    destruct (OW FX) as (_ & _ & _ & Sa). destruct (OW FY) as (_ & _ & _ & Sb). destruct (OW HX) as (_ & _ & _ & Sc). destruct (OW HY) as (_ & _ & _ & Sd). cbn [out_fee] in Sa, Sb, Sc, Sd.
    destruct O3 as [O3 O3'], O4 as [O4 O4'], O5 as [O5 O5'], O6 as [O6 O6'].
    intros kk. destruct (OW kk) as (_ & _ & <- & _). destruct kk; cbn [pot out_fee].
    - split; [apply (sub_le_of_lt _ _ L3); auto; congruence |]. rewrite Eq. cbn [x_fee with_funds]. apply (sub_m _ _ _ D20).
    - split; [apply (sub_le_of_lt _ _ L4); auto; congruence |]. rewrite Eq. cbn [y_fee with_funds]. apply (sub_m _ _ _ D22).
    - split; [apply (sub_le_of_lt _ _ L5); auto; congruence |]. rewrite Eq. cbn [x_adj with_funds]. apply (sub_m _ _ _ D21).
    - split; [apply (sub_le_of_lt _ _ L6); auto; congruence |]. rewrite Eq. cbn [y_adj with_funds]. apply (sub_m _ _ _ D23). }
  assert (Cm : computable p lo up (mant l)).
  { unfold computable. rewrite P4, P11, P12. assert (Dl : dneg l = false) by (unfold mant in Pl; pose proof (wf_nn _ Wl); destruct (dneg l); [lia | reflexivity]). assert (Ml : mant l = dval l) by (unfold mant; rewrite Dl; reflexivity). rewrite Ml.
    destruct P1 as [_ Dr], P5 as [_ Da], P8 as [_ Db]. rewrite (d12_eta l), (d12_eta (glbl_rp p)), (d12_eta a), (d12_eta b) in D9, D10 by assumption. rewrite x12 in D9 by lia. rewrite y12 in D10 by lia. cbv zeta in D9, D10.
    fold (cl (dval (glbl_rp p)) (dval a) (dval b)). destruct (_ <? U128) eqn:C1 in D9; [| discriminate D9]. destruct (_ <? U128) eqn:C2 in D9; [| discriminate D9]. destruct (_ <? U128) eqn:C3 in D10; [| discriminate D10].
    apply Z.ltb_lt in C1, C2, C3. unfold U128 in C1, C2, C3. csplit; assumption. }
  assert (SK : forall a b c d e, d_add a b = Ok c -> d_add c d = Ok e -> wf a -> wf b -> wf d -> mant a + mant b + mant d < 2 ^ 128).
  { intros a' b' c' d' e' J1 J2 Ja Jb Jd. pose proof (add_wf _ _ _ J1 Ja Jb) as Jc. pose proof (add_wf _ _ _ J2 Jc Jd) as Je. pose proof (mant_bound _ Je) as Jm. pose proof (add_m _ _ _ J1) as (Ma & _). pose proof (add_m _ _ _ J2) as (Mb & _). unfold U128 in Jm. lia. }
  pose proof (SK _ _ _ _ _ F1 F2 V2 V4 V6) as SX. pose proof (SK _ _ _ _ _ F3 F4 V3 V5 V7) as SY.
  destruct (OW FX) as (_ & _ & OX & _). destruct (OW FY) as (_ & _ & OY & _). destruct (OW HX) as (_ & _ & HXo & _). destruct (OW HY) as (_ & _ & HYo & _). cbn [out_fee] in OX, OY, HXo, HYo.
  destruct N as (_ & (N1 & N2 & _) & _). apply nn_m in N1, N2; auto. destruct O1 as [O1 O1'], O2 as [O2 O2'].
  exists nf. split; [exact Hu |]. split; [exact Sl |]. split; [exact K3 |]. split.
  { intros [I1 I2]. rewrite (proj2 (Z.leb_le _ _) I1), (proj2 (Z.ltb_lt _ _) I2) in GL. cbn [andb] in GL. destruct GL as [GL1 GL2]. pose proof (add_m _ _ _ GL1) as (GM & _). rewrite neg_m in GM by (apply wf_nn; exact Wl).
    assert (0 <= mant L); [| lia]. apply is_neg_f; [| exact GL2]. apply wf_nn. eapply add_wf; [exact GL1 | exact Wg | apply neg_wf; exact Wl]. }
  split. { intros kk. destruct (OW kk) as (J1 & J2 & J3 & J0). destruct (PT kk) as (J4 & J5). csplit; auto. }
  split; [exact Cm |]. split; [exact Q1 |]. split; [exact Q3 |]. split; [congruence |]. split; [congruence |].
  split; [apply (sub_le_of_lt _ _ L1); auto; congruence |]. split; [apply (sub_le_of_lt _ _ L2); auto; congruence |].
  split; [lia |]. split; [lia |]. split; [rewrite Eq; exact M1 |]. split; [rewrite Eq; exact M4 |]. split; [exact K7 |]. split; [exact K6 |]. split; [exact K8 |]. split; [exact K |].
  split. { rewrite (held_q _ _ _ R), (held_q _ _ _ R'), (num12 _ Sl) in K4. assert (X : (inject_Z (held q k) == inject_Z (held p k - mant l))%Q); [| exact (proj1 (inject_Z_injective _ _) X)].
    unfold Zminus. rewrite inject_Z_plus, inject_Z_opp. assert (U0 : (0 < ulp12)%Q) by reflexivity. apply Qmult_inj_r with (z := ulp12); [intros E; rewrite E in U0; apply (Qlt_irrefl 0 U0) |]. lra. }
  split. { rewrite (num12 _ (proj1 Lg)), (num12 _ (proj1 Lg')), (num12 _ Sl) in K5. change (g_liq (gs p)) with (glbl_liq p) in K5. change (g_liq (gs q)) with (glbl_liq q) in K5.
    assert (X : (inject_Z (mant (glbl_liq q)) == inject_Z (mant (glbl_liq p) - (if (lo <=? glbl_tick p) && (glbl_tick p <? up) then mant l else 0)))%Q); [| exact (proj1 (inject_Z_injective _ _) X)].
    unfold Zminus. rewrite inject_Z_plus, inject_Z_opp. assert (U0 : (0 < ulp12)%Q) by reflexivity. apply Qmult_inj_r with (z := ulp12); [intros E; rewrite E in U0; apply (Qlt_irrefl 0 U0) |]. destruct (_ && _); cbn [is_b] in K5; [lra |]. change (inject_Z 0) with 0%Q. lra. }
  intros Hlt kk. pose proof (add_m _ _ _ Z1) as (Zm & _). rewrite neg_m in Zm by (apply wf_nn; exact Wl). assert (Zn : is_zero nl = false) by (unfold is_zero; apply Z.eqb_neq; intros E; unfold mant in Zm at 1; rewrite E in Zm; destruct (dneg nl); lia). rewrite Zn in Z2.
  assert (Gp : pm_get k (positions q) = Some (mkP nl nfx nfy nhx nhy)) by (rewrite Eq; cbn [positions with_funds]; rewrite Ep1; exact Z2).
  assert (Pn : (0 < num (p_liq (mkP nl nfx nfy nhx nhy)))%Q). { cbn [p_liq]. destruct (Qlt_le_dec 0 (num nl)) as [| C]; [assumption |]. exfalso. assert (Sn : dscale nl = 12) by (pose proof (add_m _ _ _ Z1) as (_ & Sn & _); congruence). rewrite (num12 _ Sn) in C. assert (C' : (inject_Z (mant nl) * ulp12 <= inject_Z 0 * ulp12)%Q) by (change (inject_Z 0) with 0%Q; lra). clear C; rename C' into C. apply (proj1 (q_of_m _ _)) in C. lia. }
  split. { unfold paid_to. rewrite Gp. destruct kk; reflexivity. }
  destruct (own_ticks _ _ _ _ _ I' Gp Pn) as [T3 T4]. assert (Tk : ticks q = ticks p1) by (rewrite Eq; reflexivity). rewrite Tk in T3, T4.
  assert (Ab : forall t, (above q t kk == above p1 t kk)%Q) by (intros; rewrite Eq; reflexivity).
  unfold inside. rewrite !Ab. rewrite (set_pos_above _ _ _ _ _ _ _ lo kk D8 W), (set_pos_above _ _ _ _ _ _ _ up kk D8 W); auto; try lia; try (apply neg_wf; exact Wl). reflexivity.
Qed.
Lemma cut_split : forall a b c e, 0 <= a -> 0 <= b -> a + b <= c <= a + b + e -> cut a + cut b <= cut c <= cut a + cut b + 1 + e.
Proof.
  intros a b c e Ha Hb H. unfold cut. pose proof (floor_split a b (10 ^ 12 - 1) (10 ^ 12) ltac:(lia)) as F. split.
  - apply Z.le_trans with ((a + b) * (10 ^ 12 - 1) / 10 ^ 12); [lia |]. apply Z.div_le_mono; lia.
  - assert (c * (10 ^ 12 - 1) / 10 ^ 12 <= (a + b) * (10 ^ 12 - 1) / 10 ^ 12 + e); [| lia].
    replace ((a + b) * (10 ^ 12 - 1) / 10 ^ 12 + e) with (((a + b) * (10 ^ 12 - 1) + e * 10 ^ 12) / 10 ^ 12) by (apply Z.div_add; lia). apply Z.div_le_mono; lia.
Qed.
Lemma pos_shape : forall d, wf d -> 0 < mant d -> nonneg d /\ dval d = mant d.
Proof. intros [v s n] W H. pose proof (wf_nn _ W). unfold nonneg, mant in *. cbn in *. destruct n; [lia | auto]. Qed.
Lemma mant_eq : forall orc p lo up k f f' p', reachable orc p -> reachable orc p' -> fee_rng p lo up k = Ok f -> fee_rng p' lo up k = Ok f' -> (inside p' lo up k == inside p lo up k)%Q -> mant f' = mant f.
Proof.
  intros orc p lo up k f f' p' R R' H H' E. pose proof (fee_rng_inside _ _ _ _ _ H) as A. pose proof (fee_rng_inside _ _ _ _ _ H') as B.
  pose proof (proj1 (fee_rng_12 _ _ _ _ _ H (proj1 (reachable_nn _ _ R)) (reachable_all12 _ _ R))) as S. pose proof (proj1 (fee_rng_12 _ _ _ _ _ H' (proj1 (reachable_nn _ _ R')) (reachable_all12 _ _ R'))) as S'.
  rewrite (num12 _ S) in A. rewrite (num12 _ S') in B.
  assert (X : (inject_Z (mant f') * ulp12 == inject_Z (mant f) * ulp12)%Q) by lra.
  assert (L1 : (inject_Z (mant f') * ulp12 <= inject_Z (mant f) * ulp12)%Q) by lra. assert (L2 : (inject_Z (mant f) * ulp12 <= inject_Z (mant f') * ulp12)%Q) by lra.
  apply (proj1 (q_of_m _ _)) in L1, L2. lia.
Qed.
Lemma fee_rng_nn : forall orc p lo up k f, reachable orc p -> fee_rng p lo up k = Ok f -> (0 <= inside p lo up k)%Q.
Proof.
  intros orc p lo up k f R H. rewrite <- (fee_rng_inside _ _ _ _ _ H). pose proof (fee_rng_wf _ _ _ _ _ H (proj1 (reachable_nn _ _ R))) as W.
  unfold fee_rng in H. bd H a E1. destruct a as [bl al]. bd H b E2. destruct b as [bu au]. bd H sl E3. bd H su E4. bd H u E5. bd H a E6. bd H f' E7. destruct (is_negative f') eqn:N; [discriminate |]. injection H as <-.
  apply num_sign; auto. apply is_neg_f; [apply wf_nn; auto | auto].
Qed.

Lemma band : forall a b c e, a + b <= c <= a + b + e -> (inject_Z a * ulp12 + inject_Z b * ulp12 <= inject_Z c * ulp12 <= inject_Z a * ulp12 + inject_Z b * ulp12 + inject_Z e * ulp12)%Q.
Proof.
  intros a b c e [H1 H2]. apply (proj2 (q_of_m _ _)) in H1. apply (proj2 (q_of_m _ _)) in H2. rewrite !inject_Z_plus in *. split; lra.
Qed.
Theorem withdraw_twice : forall orc p user l l1 l2 rpa rpb q o, reachable orc p -> wf l -> wf l1 -> wf l2 -> wf rpa -> wf rpb ->
  dscale l1 = 12 -> dscale l2 = 12 -> (0 < num l1)%Q -> (0 < num l2)%Q -> (num l == num l1 + num l2)%Q ->
  withdraw p user l rpa rpb = Ok (q, o) ->
  exists p1 o1 p2 o2, withdraw p user l1 rpa rpb = Ok (p1, o1) /\ withdraw p1 user l2 rpa rpb = Ok (p2, o2) /\
    (num (io_x o1) + num (io_x o2) <= num (io_x o) <= num (io_x o1) + num (io_x o2) + (3#1) * ulp12)%Q /\
    (num (io_y o1) + num (io_y o2) <= num (io_y o) <= num (io_y o1) + num (io_y o2) + (2#1) * ulp12)%Q /\
    forall k, (num (out_fee o1 k) == num (out_fee o k) /\ num (out_fee o2 k) == 0)%Q.
Proof.
  intros orc p user l l1 l2 rpa rpb q o R Wl W1 W2 Wa Wb S1 S2 Q1 Q2 Ql H.
  assert (P1 : 0 < mant l1). { apply Z.nle_gt. intros C. apply (proj2 (q_of_m _ 0)) in C. rewrite <- (num12 _ S1) in C. change (inject_Z 0) with 0%Q in C. lra. }
  assert (P2 : 0 < mant l2). { apply Z.nle_gt. intros C. apply (proj2 (q_of_m _ 0)) in C. rewrite <- (num12 _ S2) in C. change (inject_Z 0) with 0%Q in C. lra. }
  pose proof (reachable_nn _ _ R) as N. pose proof (proj1 N) as W.
  destruct (withdraw_exact _ _ _ _ _ _ _ _ R Wl Wa Wb H) as (lo & up & RG & _).
  assert (Sl : dscale l = 12).
  { destruct (withdraw_inv _ _ _ _ _ _ _ H) as (lo' & up' & a & b & p1 & x0 & y0 & nx & ny & nxf & nxa & nyf & nya & D1 & D2 & D3 & D4 & D5 & D6 & D7 & D8 & D9 & D10 & D11 & D12 & _ & _ & _ & D18 & _).
    pose proof (x_from_scale _ _ _ _ _ D9) as [Sx _]. apply set_position_inv in D8. destruct (set_pos_same _ _ _ _ _ _ _ D8) as (_ & _ & _ & _ & E2 & _). pose proof (sub_m _ _ _ D18) as (_ & _ & M3). rewrite E2 in M3.
    assert (Sz : dscale (io_x o) = dscale x0) by (unfold d_mul in D11; bd D11 v I1; bd D11 r I2; bd D11 u I3; injection D11 as <-; auto). destruct (reachable_12 _ _ R) as (T1 & _). congruence. }
  assert (Ml : mant l = mant l1 + mant l2).
  { rewrite (num12 _ Sl), (num12 _ S1), (num12 _ S2) in Ql. rewrite <- Qmult_plus_distr_l, <- inject_Z_plus in Ql.
    assert (L1 : (inject_Z (mant l) * ulp12 <= inject_Z (mant l1 + mant l2) * ulp12)%Q) by (rewrite Ql; apply Qle_refl). assert (L2 : (inject_Z (mant l1 + mant l2) * ulp12 <= inject_Z (mant l) * ulp12)%Q) by (rewrite Ql; apply Qle_refl).
    apply (proj1 (q_of_m _ _)) in L1, L2. lia. }
  destruct (wd_facts _ _ _ _ _ _ _ _ _ _ R Wl Wa Wb RG ltac:(lia) H) as (nf & Hu & _ & A1 & A2 & A3 & A4 & A5 & A6 & A7 & A8 & A9 & A10 & A11 & A12 & _ & _ & _ & _ & _ & K & _). set (k := (user, lo, up)) in *.
  destruct (pos_shape l1 W1 P1) as [N1 V1]. destruct (pos_shape l2 W2 P2) as [N2 V2].
  destruct (claim_facts p k (mant l1) (mant l2) K) as (_ & _ & CX & CY). destruct (claim_facts p k (mant l1) 0 K) as (_ & CN1 & _). destruct (CN1 ltac:(lia)) as [CX1 CY1]. destruct (claim_facts p k (mant l2) 0 K) as (_ & CN2 & _). destruct (CN2 ltac:(lia)) as [CX2 CY2].
  rewrite <- Ml in CX, CY. pose proof (cut_split _ _ _ _ CX1 CX2 CX) as UX. pose proof (cut_split _ _ _ _ CY1 CY2 CY) as UY.
  assert (cut_nn : forall z, 0 <= z -> 0 <= cut z) by (intros z Hz; apply Z.div_pos; lia). pose proof (cut_nn _ CX1). pose proof (cut_nn _ CX2). pose proof (cut_nn _ CY1). pose proof (cut_nn _ CY2).
  assert (Cm : forall l', 0 <= l' <= mant l -> computable p lo up l').
  { intros l' Hl. destruct A4 as (C1 & C2 & C3). unfold computable. pose proof K as [K1 K2]. split; [exact C1 |]. set (a := tick_price lo) in *. set (b := tick_price up) in *. cbv zeta in *. set (m := Z.max (Z.min (mant (glbl_rp p)) b) a) in *. assert (Hm : a <= m <= b) by lia. split; [apply Z.le_lt_trans with (mant l * (b - m)); [apply Z.mul_le_mono_nonneg_r; lia | exact C2] | apply Z.le_lt_trans with (mant l * (m - a)); [apply Z.mul_le_mono_nonneg_r; lia | exact C3]]. }
  destruct (withdraw_Ok orc p user l1 rpa rpb lo up nf R Wa Wb RG Hu N1 S1) as (p1 & o1 & E1 & Ex1 & Ey1 & Ef1 & Ef2 & Ef3 & Ef4).
  { fold k. lia. } { intros I. specialize (A2 I). lia. } { intros kk. destruct (A3 kk) as (B1 & B2 & B3 & B4 & _). fold k. auto. }
  { apply Cm. lia. } { fold k. rewrite V1. lia. } { fold k. rewrite V1. lia. } { fold k. rewrite V1. lia. } { fold k. rewrite V1. lia. }
  fold k in Ex1, Ey1, Ef1, Ef2, Ef3, Ef4. rewrite V1 in Ex1, Ey1.
  destruct (wd_facts _ _ _ _ _ _ _ _ _ _ R W1 Wa Wb RG P1 E1) as (nf1 & _ & _ & B1 & B2 & B3 & _ & B5 & B6 & B7 & B8 & _ & _ & _ & _ & B13 & B14 & B15 & B16 & B17 & _ & B19 & B20 & B21). fold k in B1, B3, B19, B21.
  assert (R1 : reachable orc p1) by (eapply r_call with (c := CWithdraw user l1 rpa rpb); [exact R | cbn; auto | cbn; rewrite E1; reflexivity]).
  assert (RG1 : range_of p1 rpa rpb lo up) by (unfold range_of in *; rewrite B17; exact RG).
  assert (Lt : mant l1 < held p k) by lia. specialize (B21 Lt).
  assert (NF : exists nf2 : fkind -> decimal, forall kk, fee_rng p1 lo up kk = Ok (nf2 kk)).
  { assert (X : forall kk, exists f, fee_rng p1 lo up kk = Ok f). { intros kk. destruct (B21 kk) as [_ E]. apply (fee_rng_Ok _ _ _ _ _ R1). rewrite E. destruct (A3 kk) as (F & _). exact (fee_rng_nn _ _ _ _ _ _ R F). }
    destruct (X FX) as (f1 & F1). destruct (X FY) as (f2 & F2). destruct (X HX) as (f3 & F3). destruct (X HY) as (f4 & F4). exists (fun k => match k with FX => f1 | FY => f2 | HX => f3 | HY => f4 end). intros kk. destruct kk; assumption. }
  destruct NF as (nf2 & NF).
  assert (Same : forall kk, mant (nf2 kk) = mant (nf1 kk)). { intros kk. destruct (B21 kk) as [_ E]. destruct (B3 kk) as (F & _). exact (mant_eq _ _ _ _ _ _ _ _ R R1 F (NF kk) E). }
  assert (Z0 : forall kk, owed p1 k nf2 kk = 0). { intros kk. unfold owed. rewrite Same. destruct (B21 kk) as [E _]. rewrite E, Z.sub_diag, Z.mul_0_r. reflexivity. }
  destruct (keep p p1 B15 k (mant l2)) as [KX KY].
  assert (Pots : forall kk, 0 <= pot p1 kk) by (intros kk; destruct (B3 kk) as (_ & _ & _ & Bp & _ & Ep & _); rewrite Ep; lia).
  destruct (withdraw_Ok orc p1 user l2 rpa rpb lo up nf2 R1 Wa Wb RG1 Hu N2 S2) as (p2 & o2 & E2 & Ex2 & Ey2 & Eg1 & Eg2 & Eg3 & Eg4).
  { fold k. lia. } { rewrite B16. intros I. specialize (A2 I). rewrite B20. destruct I as [I1 I2]. rewrite (proj2 (Z.leb_le _ _) I1), (proj2 (Z.ltb_lt _ _) I2). cbn [andb]. lia. }
  { intros kk. fold k. destruct (B21 kk) as [E _]. rewrite Z0, Same, E. csplit; [apply NF | lia | rewrite Z.sub_diag, Z.mul_0_r; lia | apply Pots]. }
  { rewrite V2. unfold computable in *. rewrite B15. apply Cm. lia. }
  { fold k. rewrite V2, KX, B13, Ex1. lia. } { fold k. rewrite V2, KY, B14, Ey1. lia. }
  { fold k. rewrite V2, KX, !Z0. pose proof W as (_ & _ & _ & _ & (U1 & _) & _). pose proof (mant_bound _ U1) as Ub. unfold U128 in Ub. lia. } { fold k. rewrite V2, KY, !Z0. pose proof W as (_ & _ & _ & _ & (_ & U1 & _) & _). pose proof (mant_bound _ U1) as Ub. unfold U128 in Ub. lia. }
  fold k in Ex2, Ey2, Eg1, Eg2, Eg3, Eg4. rewrite V2 in Ex2, Ey2. rewrite KX in Ex2. rewrite KY in Ey2. rewrite !Z0 in Eg1, Eg2, Eg3, Eg4.
  exists p1, o1, p2, o2. split; [exact E1 |]. split; [exact E2 |].
  destruct (wd_facts _ _ _ _ _ _ _ _ _ _ R1 W2 Wa Wb RG1 P2 E2) as (nf3 & _ & _ & _ & _ & G3 & _ & _ & _ & G7 & G8 & _).
  rewrite (num12 _ A7), (num12 _ A8), (num12 _ B7), (num12 _ B8), (num12 _ G7), (num12 _ G8).
  rewrite <- Ex1, <- Ex2, <- A5 in UX. rewrite <- Ey1, <- Ey2, <- A6 in UY.
  split; [apply (band _ _ _ 3); lia |]. split; [apply (band _ _ _ 2); lia |].
  intros kk. destruct (A3 kk) as (_ & _ & _ & _ & X1 & _ & X2). destruct (B3 kk) as (F & _ & _ & _ & X3 & _ & X4). destruct (G3 kk) as (_ & _ & _ & _ & _ & _ & X6).
  rewrite (num12 _ X2), (num12 _ X4), (num12 _ X6). split.
  - rewrite X1, X3. assert (E : nf1 kk = nf kk) by (destruct (A3 kk) as (F' & _); rewrite F in F'; injection F' as ->; reflexivity). unfold owed. rewrite E. reflexivity.
  - assert (E : mant (out_fee o2 kk) = 0) by (destruct kk; assumption). rewrite E. reflexivity.
Qed.
