(** The logarithm at work: the tick of a price (cl_math.rs:40-47) and the HMM adjustment at C = 1 (cl_math.rs:275-358). *)
From Coq Require Import ZArith QArith Qreals Reals Lra Lia List Bool Psatz.
From Verif Require Import Base BaseLemmas DecimalModel DecimalSpec DecimalProofs PowAccuracy TickProofs MathModel LnSeries LnAccuracy.
Import ListNotations.
Open Scope R_scope.

Definition root : decimal := mkD 1000049998750 12 false.
Definition LB : Z := 49997456.
Lemma root_ln : forall orc, found orc root 0 -> d_ln orc root = Ok (mkD LB 12 false).
Proof.
  intros orc F. unfold d_ln. change (is_negative root) with false. cbn iota. assert (S : to_compute_scale root = Ok root) by reflexivity. rewrite S. cbn [bind]. unfold found in F. rewrite F. cbn [unwrap bind].
  vm_compute. reflexivity.
Qed.
Lemma root_units : 49997499 <= units12 (Q2R (num root)) <= 49997501.
Proof.
  assert (N : ln_near 3 (49997499 # 1000000000000) (49997501 # 1000000000000) 1000049998750 1000000000000 = true) by (vm_compute; reflexivity).
  apply ln_near_ok in N; [|lia]. unfold Q2R in N. cbn [Qnum Qden] in N. rewrite q2r_num by (cbn; lia). change (mant root) with 1000049998750%Z. change (10 ^ dscale root)%Z with 1000000000000%Z. unfold units12. lra.
Qed.

(** The quotient of two logarithms, whatever the rounding direction asked for. *)
Lemma tick_quot : forall r lr, dscale r = 12%Z -> (0 <= dval r < 10 ^ 14)%Z ->
  (let* t := (if lr : bool then d_div_up r (mkD LB 12 false) else d_div r (mkD LB 12 false)) in let* z := to_scale t 0 in Ok (dval z)) = Ok (dval r / LB)%Z.
Proof.
  intros r lr S B. assert (UV : U12 = 1000000000000%Z) by reflexivity. assert (LV : LB = 49997456%Z) by reflexivity.
  assert (DN : denominator (mkD LB 12 false) = Ok U12) by reflexivity.
  assert (FIN : forall v n, (v / U12 = dval r / LB)%Z -> (let* z := to_scale (mkD v 12 n) 0 in Ok (dval z)) = Ok (dval r / LB)%Z).
  { intros v n E. unfold to_scale. cbn [dscale dval dneg]. change (0 <? 12)%Z with true. cbn iota. change (pow10 (12 - 0)) with (Ok U12). cbn [bind]. rewrite cdiv_Ok by (rewrite UV; lia). cbn [bind dval]. rewrite E. reflexivity. }
  pose proof (Z.div_mod (dval r) LB ltac:(rewrite LV; lia)) as D. pose proof (Z.mod_pos_bound (dval r) LB ltac:(rewrite LV; lia)) as M.
  destruct lr.
  - unfold d_div_up. rewrite DN. cbn [bind dval dscale dneg]. rewrite cmul_Ok by (rewrite UV, u128_num; lia). cbn [bind]. rewrite csub_Ok by (rewrite LV; lia). cbn [bind]. rewrite cadd_Ok by (rewrite UV, LV, u128_num; lia). cbn [bind]. rewrite cdiv_Ok by (rewrite LV; lia). cbn [bind]. rewrite S.
    apply FIN. rewrite Z.div_div by (rewrite ?LV, ?UV; lia). symmetry. apply Z.div_unique with (r := (dval r mod LB * U12 + (LB - 1))%Z).
    + left. rewrite UV, LV in *. lia.
    + rewrite D at 1. ring.
  - unfold d_div. rewrite DN. cbn [bind dval dscale dneg]. rewrite cmul_Ok by (rewrite UV, u128_num; lia). cbn [bind]. rewrite cdiv_Ok by (rewrite LV; lia). cbn [bind]. rewrite S.
    apply FIN. rewrite Z.div_div by (rewrite ?LV, ?UV; lia). apply Z.div_mul_cancel_r; rewrite ?LV, ?UV; lia.
Qed.

Lemma rp_to_tick_val : forall orc rp lr b, wf rp -> dneg rp = false -> dscale rp = 12%Z -> (-6 <= b <= 48)%Z -> exponent (num rp) b -> (num rp < ln_room)%Q -> found orc rp b -> found orc root 0 ->
  exists r, rp_to_tick orc rp lr = Ok (dval r / LB)%Z /\ (0 <= dval r < 10 ^ 14)%Z /\ (0 <= b -> mant r = dval r)%Z /\ 0 < Q2R (num rp) /\ IZR (mant r) - (1 + IZR (Z.max 0 (- b))) <= units12 (Q2R (num rp)) <= IZR (mant r) + (120 + IZR (Z.max 0 b)).
Proof.
  intros orc rp lr b W N S Hb E R F FR. destruct (ln_at12 orc rp b W N S Hb E R F) as (r & R1 & R2 & R3 & R4 & R5).
  exists r. split; [|auto]. unfold rp_to_tick. rewrite tick_base_root_eq. change (d12 MB) with root. cbn [bind]. rewrite R1, (root_ln orc FR). cbn [unwrap bind]. apply tick_quot; assumption.
Qed.

(** The direction flag is without effect. *)
Theorem tick_no_direction : forall orc rp b, wf rp -> dneg rp = false -> dscale rp = 12%Z -> (-6 <= b <= 48)%Z -> exponent (num rp) b -> (num rp < ln_room)%Q -> found orc rp b -> found orc root 0 ->
  exists t, rp_to_tick orc rp false = Ok t /\ rp_to_tick orc rp true = Ok t.
Proof.
  intros orc rp b W N S Hb E R F FR. destruct (ln_at12 orc rp b W N S Hb E R F) as (r & R1 & R2 & R3 & R4 & R5). exists (dval r / LB)%Z.
  unfold rp_to_tick. rewrite tick_base_root_eq. change (d12 MB) with root. cbn [bind]. rewrite R1, (root_ln orc FR). cbn [unwrap bind]. split; [exact (tick_quot r false R3 R4) | exact (tick_quot r true R3 R4)].
Qed.
(** How far the result is from the real tick ln rp / ln root. *)
Definition real_tick (rp : Q) : R := ln (Q2R rp) / ln (Q2R (num root)).
Lemma exponent_ge : forall x b, (0 <= b)%Z -> exponent x b -> (1 <= x)%Q.
Proof.
  intros x b H (E & _). apply Qle_trans with (2 := E). rewrite <- (Qpower.Zpower_Qpower 2 b) by lia. change 1%Q with (inject_Z 1). rewrite <- Zle_Qle. pose proof (Z.pow_pos_nonneg 2 b ltac:(lia) H). lia.
Qed.
Theorem tick_estimate : forall orc rp lr b, wf rp -> dneg rp = false -> dscale rp = 12%Z -> (0 <= b <= 48)%Z -> exponent (num rp) b -> (num rp < ln_room)%Q -> found orc rp b -> found orc root 0 ->
  exists t, rp_to_tick orc rp lr = Ok t /\ (0 <= t)%Z /\ real_tick (num rp) - 1 - 4 / 10 ^ 6 <= IZR t <= real_tick (num rp) * (1 + 1 / 10 ^ 6) + 1 / 10 ^ 7.
Proof.
  intros orc rp lr b W N S Hb E R F FR. destruct (rp_to_tick_val orc rp lr b W N S ltac:(lia) E R F FR) as (r & R1 & R2 & RM & RP & R3).
  specialize (RM ltac:(lia)). rewrite RM in R3. exists (dval r / LB)%Z. split; [exact R1|]. assert (LV : LB = 49997456%Z) by reflexivity. split; [apply Z.div_pos; rewrite ?LV; lia|].
  rewrite Z.max_l in R3 by lia. rewrite Z.max_r in R3 by lia. assert (B : IZR b <= 48) by (apply IZR_le; lia). assert (B0 : 0 <= IZR b) by (apply IZR_le; lia).
  assert (X1 : 1 <= Q2R (num rp)). { rewrite <- q2r_1. apply Qle_Rle. apply exponent_ge with b; [lia | exact E]. }
  assert (U0 : 0 <= units12 (Q2R (num rp))). { unfold units12. destruct (ln_close (Q2R (num rp)) 1 ltac:(lra) X1) as (L & _). rewrite ln_1 in L. lra. }
  assert (RT : units12 (Q2R (num rp)) = real_tick (num rp) * units12 (Q2R (num root))).
  { unfold real_tick, units12. pose proof root_units as RU. unfold units12 in RU. field. lra. }
  pose proof root_units as RU. set (u := units12 (Q2R (num rp))) in *. set (h := units12 (Q2R (num root))) in *. set (T := real_tick (num rp)) in *. clearbody u h T.
  assert (T0 : 0 <= T) by nra.
  pose proof (Z.div_mod (dval r) LB ltac:(rewrite LV; lia)) as D. pose proof (Z.mod_pos_bound (dval r) LB ltac:(rewrite LV; lia)) as M. set (t := (dval r / LB)%Z) in *. rewrite LV in *.
  assert (D1 : (49997456 * t <= dval r)%Z) by lia. assert (D2 : (dval r <= 49997456 * t + 49997455)%Z) by lia.
  apply IZR_le in D1, D2. rewrite plus_IZR in D2. rewrite !mult_IZR in D1, D2.
  replace (10 ^ 6) with 1000000 by (cbn [pow]; lra). replace (10 ^ 7) with 10000000 by (cbn [pow]; lra).
  set (v := IZR (dval r)) in *. set (t' := IZR t) in *. clearbody v t'.
  assert (H1 : T * 49997456 <= T * h) by (apply Rmult_le_compat_l; lra). assert (H2 : T * h <= T * 49997501) by (apply Rmult_le_compat_l; lra). split; lra.
Qed.

(** The f64 part finds the right power of two for this argument. *)
Definition log2_right (orc : log2_oracle) (d : decimal) : Prop := exists b, exponent (num d) b /\ found orc d b.
Lemma exponent_range : forall x b, exponent x b -> (1 # 64 <= x)%Q -> (x < ln_room)%Q -> (-6 <= b <= 48)%Z.
Proof.
  intros x b (E1 & E2) L U. split.
  - destruct (Z.le_gt_cases (-6) b) as [|H]; [assumption|]. exfalso.
    assert (P : (2 ^ (b + 1) <= 1 # 64)%Q).
    { replace (b + 1)%Z with (- (- b - 1))%Z by lia. rewrite Qpower.Qpower_opp. rewrite <- (Qpower.Zpower_Qpower 2 (- b - 1)) by lia.
      assert (K : (64 <= 2 ^ (- b - 1))%Z) by (change 64%Z with (2 ^ 6)%Z; apply Z.pow_le_mono_r; lia). set (k := (2 ^ (- b - 1))%Z) in *. clearbody k. destruct k as [|k|k]; try lia. unfold Qinv, inject_Z, Qle. cbn. lia. }
    apply (Qlt_not_le _ _ E2). apply Qle_trans with (1 := P). exact L.
  - destruct (Z.le_gt_cases b 48) as [|H]; [assumption|]. exfalso.
    assert (P : (ln_room <= 2 ^ b)%Q).
    { rewrite <- (Qpower.Zpower_Qpower 2 b) by lia. assert (K : (2 ^ 49 <= 2 ^ b)%Z) by (apply Z.pow_le_mono_r; lia). rewrite Zle_Qle in K. apply Qle_trans with (2 := K). vm_compute. discriminate. }
    apply (Qlt_not_le _ _ U). apply Qle_trans with (1 := P). exact E1.
Qed.
Lemma exponent_nonneg : forall x b, exponent x b -> (1 <= x)%Q -> (0 <= b)%Z.
Proof.
  intros x b (_ & E2) L. destruct (Z.le_gt_cases 0 b) as [|H]; [assumption|]. exfalso.
  assert (P : (2 ^ (b + 1) <= 1)%Q).
  { replace (b + 1)%Z with (- (- b - 1))%Z by lia. rewrite Qpower.Qpower_opp. rewrite <- (Qpower.Zpower_Qpower 2 (- b - 1)) by lia.
    pose proof (Z.pow_pos_nonneg 2 (- b - 1) ltac:(lia) ltac:(lia)) as K. set (k := (2 ^ (- b - 1))%Z) in *. clearbody k. destruct k as [|k|k]; try lia. unfold Qinv, inject_Z, Qle. cbn. lia. }
  apply (Qlt_not_le _ _ E2). apply Qle_trans with (1 := P). exact L.
Qed.
Lemma exponent_unique : forall x b b', exponent x b -> exponent x b' -> b = b'.
Proof.
  assert (G : forall x b b', exponent x b -> exponent x b' -> (b' <= b)%Z).
  { intros x b b' (_ & E2) (E1 & _). destruct (Z.le_gt_cases b' b) as [|H]; [assumption|]. exfalso. apply (Qlt_not_le _ _ E2). apply Qle_trans with (2 := E1).
    replace b' with (b + 1 + (b' - b - 1))%Z by lia. rewrite (Qpower.Qpower_plus 2 (b + 1)) by (intros F; discriminate).
    rewrite <- (Qmult_1_r (2 ^ (b + 1))) at 1. rewrite <- (Qpower.Zpower_Qpower 2 (b' - b - 1)) by lia. pose proof (Z.pow_pos_nonneg 2 (b' - b - 1) ltac:(lia) ltac:(lia)) as K.
    assert (K1 : (1 <= inject_Z (2 ^ (b' - b - 1)))%Q) by (change 1%Q with (inject_Z 1); rewrite <- Zle_Qle; lia).
    rewrite !(Qmult_comm (2 ^ (b + 1))). apply Qmult_le_compat_r; [exact K1|]. apply Qpower.Qpower_pos. discriminate. }
  intros x b b' A B. apply Z.le_antisymm; eapply G; eassumption.
Qed.

Lemma tick_as_pow : forall t, tick_to_rp t = d_pow root t.
Proof. intros t. with_strategy transparent [tick_to_rp] (unfold tick_to_rp). rewrite tick_base_root_eq. reflexivity. Qed.
Lemma tick_units : forall t r, (0 <= t < 2 ^ 19)%Z -> tick_to_rp t = Ok r ->
  (1 <= num r)%Q /\ 1 <= Q2R (num r) /\ IZR t * (units12 (Q2R (num root)) - 3 / 2) <= units12 (Q2R (num r)) <= IZR t * units12 (Q2R (num root)).
Proof.
  intros t r Ht H. assert (RU := root_units).
  destruct t as [|e|]; [| |lia].
  { rewrite tick_as_pow in H. vm_compute in H. injection H as <-. split; [vm_compute; discriminate|].
    assert (E : Q2R (num {| dval := 1000000000000; dscale := 12; dneg := false |}) = 1) by (rewrite q2r_num by (cbn; lia); unfold mant; cbn [dneg dval dscale]; change (10 ^ 12)%Z with 1000000000000%Z; lra).
    unfold d12. change SC with 1000000000000%Z in *. rewrite E. assert (U1 : units12 1 = 0) by (unfold units12; rewrite ln_1; ring). rewrite U1. split; [lra|]. lra. }
  rewrite tick_as_pow in H.
  assert (WR : wf root) by (vm_compute; intuition discriminate). assert (L1 : (1 <= num root)%Q) by (vm_compute; discriminate).
  destruct (pow_above root e r WR eq_refl L1 H) as (A & B).
  apply Qle_Rle in A, B. rewrite Q2R_mult, Q2R_minus, Q2R_mult, q2r_1, q2r_z in B. rewrite RMicromega.Q2RpowerRZ in A, B by (right; lia). cbn [powerRZ] in A, B.
  assert (UL : Q2R (ulp (dscale root)) = 1 / 1000000000000). { unfold ulp. change (dscale root) with 12%Z. rewrite Q2R_div, q2r_1, q2r_z by (intros F; vm_compute in F; discriminate). reflexivity. } rewrite UL in B.
  assert (RP : 0 < Q2R (num root)). { apply Rlt_le_trans with 1; [lra|]. rewrite <- q2r_1. apply Qle_Rle. exact L1. }
  assert (PP : 0 < Q2R (num root) ^ Pos.to_nat e) by (apply pow_lt; exact RP).
  assert (T : 1 <= IZR (Z.pos e) <= 524288). { split; apply IZR_le; lia. }
  assert (LP : units12 (Q2R (num root) ^ Pos.to_nat e) = IZR (Z.pos e) * units12 (Q2R (num root))). { unfold units12. rewrite ln_pow by exact RP. rewrite INR_IZR_INZ, positive_nat_Z. ring. }
  set (P := Q2R (num root) ^ Pos.to_nat e) in *. set (te := IZR (Z.pos e)) in *. set (x := Q2R (num r)) in *.
  assert (XP : 0 < x) by nra.
  assert (LE : units12 x <= units12 P). { unfold units12. destruct (ln_close P x XP A) as (C1 & _). lra. }
  assert (GE : units12 P - te * (3 / 2) <= units12 x).
  { destruct (ln_close P x XP A) as (_ & C2). unfold units12. assert (C3 : (P - x) / x <= te * (3 / 2) / 1000000000000).
    { apply Rmult_le_reg_r with x; [exact XP|]. unfold Rdiv at 1. rewrite Rmult_assoc, Rinv_l by lra. rewrite Rmult_1_r.
      apply Rle_trans with (te * (1 / 1000000000000) * P); [lra|]. assert (P * (2 / 3) <= x) by nra.
      apply Rle_trans with (te * (3 / 2) / 1000000000000 * (P * (2 / 3))); [right; field|]. apply Rmult_le_compat_l; [lra | assumption]. }
    lra. }
  assert (GT : 0 <= units12 x) by nra.
  assert (X1 : 1 <= x). { apply Rnot_lt_le. intros F. pose proof (ln_increasing x 1 XP F) as G. rewrite ln_1 in G. unfold units12 in GT. lra. }
  split; [apply Rle_Qle; rewrite q2r_1; exact X1|]. split; [exact X1|]. rewrite LP in *. lra.
Qed.

Lemma small_ticks : forall t orc lr r, (0 <= t <= 4)%Z -> tick_to_rp t = Ok r -> found orc r 0 -> found orc root 0 -> rp_to_tick orc r lr = Ok (if (t =? 2)%Z then 1%Z else t).
Proof.
  intros t orc lr r Ht H F FR. rewrite tick_as_pow in H. unfold rp_to_tick. rewrite tick_base_root_eq. change (d12 MB) with root. cbn [bind]. rewrite (root_ln orc FR).
  assert (C : (t = 0 \/ t = 1 \/ t = 2 \/ t = 3 \/ t = 4)%Z) by lia.
  unfold found in F. unfold d_ln.
  destruct C as [-> | [-> | [-> | [-> | ->]]]]; vm_compute in H; injection H as <-; rewrite F; destruct lr; vm_compute; reflexivity.
Qed.
Lemma small_exponent : forall t r, (0 <= t <= 4)%Z -> tick_to_rp t = Ok r -> exponent (num r) 0.
Proof.
  intros t r Ht H. rewrite tick_as_pow in H. assert (C : (t = 0 \/ t = 1 \/ t = 2 \/ t = 3 \/ t = 4)%Z) by lia. unfold exponent.
  assert (G : forall v, (10 ^ 12 <= v < 2 * 10 ^ 12)%Z -> (2 ^ 0 <= num (mkD v 12 false) /\ num (mkD v 12 false) < 2 ^ (0 + 1))%Q).
  { intros v V. unfold num, mant. cbn [dval dscale dneg]. change (10 ^ 12)%Z with 1000000000000%Z in *. unfold Qdiv, Qinv, inject_Z. cbn. unfold Qle, Qlt, Qmult. cbn. lia. }
  destruct C as [-> | [-> | [-> | [-> | ->]]]]; vm_compute in H; injection H as <-; apply G; lia.
Qed.
Lemma tick_range : forall t r, (0 <= t < 2 ^ 19)%Z -> tick_to_rp t = Ok r -> wf r /\ dneg r = false /\ dscale r = 12%Z /\ (1 <= num r)%Q /\ (num r < ln_room)%Q.
Proof.
  intros t r Ht H. destruct (tick_units t r Ht H) as (N1 & X1 & _ & UP).
  assert (A : at_s 12 r).
  { rewrite tick_pow in H. destruct t as [|e|]; [| |lia].
    - injection H as <-. split; [vm_compute; intuition discriminate | auto].
    - apply (pow_loop_at 12 e (d12 MB) (d12 SC) r); [| |exact H]; (split; [vm_compute; intuition discriminate | auto]). }
  destruct A as (A1 & A2 & A3). split; [exact A1|]. split; [exact A3|]. split; [exact A2|]. split; [exact N1|].
  apply Rlt_Qlt. assert (R1 : 274877906944 <= Q2R ln_room).
  { replace 274877906944 with (Q2R (inject_Z 274877906944)) by apply q2r_z. apply Qle_Rle. vm_compute. discriminate. }
  apply Rlt_le_trans with (2 := R1). apply Rnot_le_lt. intros F.
  destruct (ln_close (Q2R (num r)) 274877906944 ltac:(lra) F) as (C & _).
  assert (E : ln 274877906944 = 38 * ln 2). { replace 274877906944 with (2 ^ 38) by (cbn [pow]; lra). rewrite ln_pow by lra. f_equal. rewrite INR_IZR_INZ. reflexivity. }
  rewrite E in C. pose proof ln2_units as L2. pose proof root_units as RU. unfold units12 in *. assert (T : 0 <= IZR t <= 524288) by (split; apply IZR_le; lia).
  set (a := ln (Q2R (num r))) in *. set (h := ln (Q2R (num root)) * 1000000000000) in *. set (l := ln 2) in *. clearbody a h l. nra.
Qed.
(** The grid price of a tick leads back to the tick, with one exception: the price of tick 2 leads to tick 1. *)
Theorem tick_round_trip : forall orc t r lr, (0 <= t < 2 ^ 19)%Z -> tick_to_rp t = Ok r -> log2_right orc r -> log2_right orc root -> rp_to_tick orc r lr = Ok (if (t =? 2)%Z then 1%Z else t).
Proof.
  intros orc t r lr Ht H (b & E & F) (b0 & E0 & F0).
  assert (b0 = 0)%Z as ->. { apply exponent_unique with (num root); [exact E0|]. split; vm_compute; [discriminate | reflexivity]. }
  destruct (tick_range t r Ht H) as (W & N & S & G1 & G2). assert (B : (0 <= b)%Z) by (apply exponent_nonneg with (num r); assumption).
  assert (B' : (-6 <= b <= 48)%Z). { apply exponent_range with (num r); auto. apply Qle_trans with (2 := G1). vm_compute. discriminate. }
  destruct (Z.le_gt_cases t 4) as [Hs | Hs].
  { apply small_ticks; auto; [lia|]. assert (b = 0)%Z as ->; [|exact F]. apply exponent_unique with (num r); [exact E|].
    apply (small_exponent t); [lia | exact H]. }
  destruct (rp_to_tick_val orc r lr b W N S B' E G2 F F0) as (q & Q1 & Q2 & Q3 & _ & Q4). specialize (Q3 B). rewrite Q3 in Q4. rewrite Q1. destruct (Z.eqb_spec t 2) as [|_]; [lia|]. f_equal.
  destruct (tick_units t r Ht H) as (_ & _ & T1 & T2). pose proof root_units as RU.
  rewrite Z.max_l in Q4 by lia. rewrite Z.max_r in Q4 by lia. assert (BR : IZR b <= 48) by (apply IZR_le; lia). assert (TR : 5 <= IZR t <= 524288) by (split; apply IZR_le; lia).
  assert (LV : LB = 49997456%Z) by reflexivity.
  assert (V1 : (LB * t <= dval q)%Z). { apply le_IZR. rewrite LV, mult_IZR. nra. }
  assert (V2 : (dval q < LB * t + LB)%Z). { apply lt_IZR. rewrite LV, plus_IZR, mult_IZR. nra. }
  symmetry. apply Z.div_unique with (r := (dval q - LB * t)%Z); [left; lia | ring].
Qed.
