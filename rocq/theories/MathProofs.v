(** Rational-number facts about the liquidity formulas of cl_math.rs, for non-negative decimals of any scale. *)
From Coq Require Import ZArith QArith Qabs List Bool Lia Lqa.
From Verif Require Import Base BaseLemmas DecimalModel DecimalSpec DecimalProofs MathModel.
Import ListNotations.
Open Scope Z_scope.

(** A decimal that the program treats as non-negative: well formed, sign flag off. *)
Definition nonneg (d : decimal) : Prop := wf d /\ dneg d = false.

Lemma nonneg_num : forall d, nonneg d -> (0 <= num d)%Q.
Proof.
  intros d [[W1 W2] H]. unfold num. apply frac_nonneg; [apply pow10_pos; lia |]. unfold mant. rewrite H. lia.
Qed.
Lemma num_pos : forall d, nonneg d -> dval d <> 0 -> (0 < num d)%Q.
Proof.
  intros d [[W1 W2] H] Z. unfold num, mant. rewrite H. pose proof (pow10_pos (dscale d) ltac:(lia)).
  setoid_replace 0%Q with (inject_Z 0 / inject_Z 1)%Q by reflexivity. apply frac_lt; lia.
Qed.
Lemma num_zero : forall d, dval d = 0 -> (num d == 0)%Q.
Proof. intros d H. unfold num, mant. rewrite H. destruct (dneg d); cbn; unfold Qdiv; ring. Qed.
Lemma ulp_pos : forall s, 0 <= s -> (0 < ulp s)%Q.
Proof. intros s H. unfold ulp. apply Qlt_shift_div_l; [| lra]. pose proof (pow10_pos s H). change 0%Q with (inject_Z 0). rewrite <- Zlt_Qlt. auto. Qed.

Lemma trunc_nonneg : forall s r e, truncated s r e -> (0 <= r)%Q -> (0 <= e)%Q -> (r <= e /\ e < r + ulp s)%Q.
Proof. intros s r e [H1 [H2 _]] Hr He. rewrite (Qabs_pos r), (Qabs_pos e) in * by auto. auto. Qed.

Lemma mulq : forall a b c, nonneg a -> nonneg b -> d_mul a b = Ok c ->
  nonneg c /\ dscale c = dscale a /\ (num c <= num a * num b /\ num a * num b < num c + ulp (dscale a))%Q.
Proof.
  intros a b c Ha Hb E. pose proof (mul_spec a b (proj1 Ha) (proj1 Hb)) as S. rewrite E in S. destruct S as [S1 [S2 S3]].
  assert (N : nonneg c).
  { split; auto. unfold d_mul in E. msteps. cbn. unfold sign_mul. destruct Ha as [_ ->], Hb as [_ ->]. reflexivity. }
  split; auto. split; auto. pose proof (nonneg_num a Ha). pose proof (nonneg_num b Hb). pose proof (nonneg_num c N).
  apply trunc_nonneg; auto. apply Qmult_le_0_compat; auto.
Qed.
Lemma divq : forall a b c, nonneg a -> nonneg b -> d_div a b = Ok c ->
  nonneg c /\ dscale c = dscale a /\ (0 < num b)%Q /\ (num c * num b <= num a /\ num a < (num c + ulp (dscale a)) * num b)%Q.
Proof.
  intros a b c Ha Hb E. pose proof (div_spec a b (proj1 Ha) (proj1 Hb)) as S. rewrite E in S. destruct S as [S0 [S1 [S2 S3]]].
  assert (N : nonneg c).
  { split; auto. unfold d_div in E. msteps. cbn. unfold sign_mul. destruct Ha as [_ ->], Hb as [_ ->]. reflexivity. }
  pose proof (num_pos b Hb S0) as P. split; auto. split; auto. split; auto.
  pose proof (nonneg_num a Ha). pose proof (nonneg_num c N).
  assert (0 <= num a / num b)%Q by (apply Qle_shift_div_l; auto; lra).
  destruct (trunc_nonneg _ _ _ S3 H0 H1) as [T1 T2].
  assert (D : (num a / num b * num b == num a)%Q) by (field; lra).
  split.
  - apply Qle_trans with (num a / num b * num b)%Q; [apply Qmult_le_compat_r; lra | lra].
  - apply Qle_lt_trans with (num a / num b * num b)%Q; [lra |]. apply Qmult_lt_r; auto.
Qed.
Lemma addq : forall a b c, nonneg a -> nonneg b -> d_add a b = Ok c -> nonneg c /\ dscale c = dscale a /\ dscale a = dscale b /\ (num c == num a + num b)%Q.
Proof.
  intros a b c Ha Hb E. pose proof (add_spec a b (proj1 Ha) (proj1 Hb)) as S. rewrite E in S. destruct S as [S0 [S1 [S2 S3]]].
  repeat split; auto; try apply S1. unfold d_add in E. destruct Ha as [_ Ha], Hb as [_ Hb]. rewrite Ha, Hb in E. cbn in E.
  destruct (negb _); [discriminate |]. msteps. reflexivity.
Qed.
Lemma subq : forall a b c, nonneg a -> nonneg b -> d_sub a b = Ok c ->
  wf c /\ dscale c = dscale a /\ dscale a = dscale b /\ (num c == num a - num b)%Q /\
  ((num b <= num a)%Q -> dneg c = false) /\ ((num a < num b)%Q -> dneg c = true /\ dval c <> 0).
Proof.
  intros a b c Ha Hb E. pose proof (sub_spec a b (proj1 Ha) (proj1 Hb)) as S. rewrite E in S. destruct S as [S0 [S1 [S2 S3]]].
  do 4 (split; auto). unfold d_sub, d_add in E. cbn [dscale dneg dval] in E. destruct Ha as [Wa Ha], Hb as [Wb Hb]. rewrite Ha, Hb in E. cbn in E.
  rewrite (num_le b a), (num_lt a b) by auto. unfold mant. rewrite Ha, Hb.
  destruct (negb _); [discriminate |]. destruct (dval b <? dval a) eqn:E1; b2p.
  - msteps. cbn. split; auto. lia.
  - destruct (dval a <? dval b) eqn:E2; b2p; msteps; cbn; split; intros; auto; try lia.
Qed.

Lemma lteq : forall a b r, nonneg a -> nonneg b -> d_lte a b = Ok r -> dscale a = dscale b /\ (r = true <-> (num a <= num b)%Q).
Proof.
  intros a b r Ha Hb E. unfold d_lte in E. destruct (dscale a =? dscale b) eqn:S; cbn [negb] in E; [| discriminate]. b2p. split; auto.
  rewrite num_le by (auto; apply Ha). unfold mant. destruct Ha as [_ Fa]. destruct Hb as [_ Fb]. rewrite Fa, Fb in *. cbn in E. injection E as <-. apply Z.leb_le.
Qed.
Lemma ltq : forall a b r, nonneg a -> nonneg b -> d_lt a b = Ok r -> dscale a = dscale b /\ (r = true <-> (num a < num b)%Q).
Proof.
  intros a b r Ha Hb E. unfold d_lt in E. destruct (dscale a =? dscale b) eqn:S; cbn [negb] in E; [| discriminate]. b2p. split; auto.
  rewrite num_lt by (auto; apply Ha). unfold mant. destruct Ha as [_ Fa]. destruct Hb as [_ Fb]. rewrite Fa, Fb in *. cbn in E. injection E as <-. apply Z.ltb_lt.
Qed.
Lemma gteq : forall a b r, nonneg a -> nonneg b -> d_gte a b = Ok r -> dscale a = dscale b /\ (r = true <-> (num b <= num a)%Q).
Proof.
  intros a b r Ha Hb E. unfold d_gte in E. destruct (dscale a =? dscale b) eqn:S; cbn [negb] in E; [| discriminate]. b2p. split; auto.
  rewrite num_le by (auto; apply Hb). unfold mant. destruct Ha as [_ Fa]. destruct Hb as [_ Fb]. rewrite Fa, Fb in *. cbn in E. injection E as <-. apply Z.leb_le.
Qed.
Lemma minq : forall a b c, nonneg a -> nonneg b -> d_min a b = Ok c -> dscale a = dscale b /\ nonneg c /\ (num c <= num a /\ num c <= num b)%Q /\ (c = a \/ c = b).
Proof.
  intros a b c Ha Hb E. unfold d_min in E. msteps. destruct (lteq _ _ _ Ha Hb E0) as [S H].
  assert (K : if v then (num a <= num b)%Q else (num b < num a)%Q).
  { destruct v; [apply H; auto |]. destruct (Qlt_le_dec (num b) (num a)) as [| q]; auto. apply H in q. discriminate. }
  destruct v; (split; [auto | split; [auto | split; [lra | auto]]]).
Qed.

(** [clamp_rp] for an ordered range: below, inside, above. *)
Lemma clampq : forall rp rpa rpb c, nonneg rp -> nonneg rpa -> nonneg rpb -> (num rpa <= num rpb)%Q -> clamp_rp rp rpa rpb = Ok c ->
  nonneg c /\ dscale c = dscale rpa /\ dscale rpa = dscale rpb /\ dscale rp = dscale rpa /\ (num rpa <= num c <= num rpb)%Q /\
  ((num rp <= num rpa)%Q -> (num c == num rpa)%Q) /\
  ((num rpb <= num rp)%Q -> (num c == num rpb)%Q) /\
  ((num rpa <= num rp <= num rpb)%Q -> (num c == num rp)%Q).
Proof.
  intros rp rpa rpb c Hp Ha Hb Hab E. unfold clamp_rp in E. msteps. unfold d_min in E0. msteps.
  destruct (lteq _ _ _ Hp Hb E1) as [S1 C1]. set (m := if v0 then rp else rpb) in *.
  assert (Hm : nonneg m) by (unfold m; destruct v0; auto).
  assert (Em : ((num m == num rp /\ num rp <= num rpb) \/ (num m == num rpb /\ num rpb < num rp))%Q).
  { unfold m. destruct v0; [left; split; [reflexivity | apply C1; auto] | right; split; [reflexivity |]].
    destruct (Qlt_le_dec (num rpb) (num rp)); auto. apply C1 in q. discriminate. }
  unfold d_max in E. msteps. destruct (gteq _ _ _ Hm Ha E0) as [S2 C2].
  assert (Sm : dscale m = dscale rpb) by (unfold m; destruct v0; auto).
  assert (Ec : let c := (if v then m else rpa) in ((num c == num m /\ num rpa <= num m) \/ (num c == num rpa /\ num m < num rpa))%Q).
  { destruct v; cbv zeta; [left; split; [reflexivity | apply C2; auto] | right; split; [reflexivity |]].
    destruct (Qlt_le_dec (num m) (num rpa)); auto. apply C2 in q. discriminate. }
  cbv zeta in Ec. split; [destruct v; auto |]. split; [destruct v; congruence |]. split; [congruence |]. split; [congruence |].
  set (cc := if v then m else rpa) in *. clearbody cc m. repeat split; intros; lra.
Qed.

(** ** C15 *)
Lemma liq_y_spec : forall y rpa rpb l, nonneg y -> nonneg rpa -> nonneg rpb -> liq_y_only y rpa rpb = Ok l ->
  nonneg l /\ dscale rpa = dscale rpb /\ dscale l = dscale y /\ (num rpa < num rpb)%Q /\ (num l * (num rpb - num rpa) <= num y)%Q.
Proof.
  intros y rpa rpb l Hy Ha Hb E. unfold liq_y_only in E. msteps. destruct (is_negative v || is_zero v) eqn:G; [discriminate |].
  b2p. destruct (subq _ _ _ Hb Ha E0) as [W [S1 [S2 [S3 [S4 S5]]]]].
  unfold is_negative, is_zero in *. b2p.
  assert (L : (num rpa < num rpb)%Q).
  { destruct (Qlt_le_dec (num rpa) (num rpb)); auto. destruct (Qlt_le_dec (num rpb) (num rpa)) as [L |].
    - destruct (S5 L) as [V0 V]. rewrite V0 in H. cbn in H. apply negb_false_iff in H. b2p. lia.
    - assert (Z : (num v == 0)%Q) by lra. exfalso. assert (nonneg v) by (split; auto; apply S4; lra). pose proof (num_pos v H1 H0). lra. }
  assert (N : nonneg v) by (split; auto; apply S4; lra).
  destruct (divq _ _ _ Hy N E) as [D1 [D2 [D3 [D4 D5]]]]. rewrite S3 in D4. auto.
Qed.
Lemma liq_x_spec : forall x rpa rpb l, nonneg x -> nonneg rpa -> nonneg rpb -> liq_x_only x rpa rpb = Ok l ->
  nonneg l /\ dscale rpa = dscale rpb /\ dscale l = dscale x /\ (num rpa < num rpb)%Q /\ (num l * (num rpb - num rpa) <= num x * num rpa * num rpb)%Q.
Proof.
  intros x rpa rpb l Hy Ha Hb E. unfold liq_x_only in E. msteps. destruct (is_negative v || is_zero v) eqn:G; [discriminate |].
  b2p. destruct (subq _ _ _ Hb Ha E0) as [W [S1 [S2 [S3 [S4 S5]]]]].
  unfold is_negative, is_zero in *. b2p.
  assert (L : (num rpa < num rpb)%Q).
  { destruct (Qlt_le_dec (num rpa) (num rpb)); auto. destruct (Qlt_le_dec (num rpb) (num rpa)) as [L |].
    - destruct (S5 L) as [V0 V]. rewrite V0 in H. cbn in H. apply negb_false_iff in H. b2p. lia.
    - assert (Z : (num v == 0)%Q) by lra. exfalso. assert (nonneg v) by (split; auto; apply S4; lra). pose proof (num_pos v H1 H0). lra. }
  assert (N : nonneg v) by (split; auto; apply S4; lra). msteps.
  destruct (mulq _ _ _ Hy Ha E1) as [M1 [M2 [M3 _]]]. destruct (mulq _ _ _ M1 Hb E2) as [P1 [P2 [P3 _]]].
  destruct (divq _ _ _ P1 N E) as [D1 [D2 [D3 [D4 D5]]]]. rewrite S3 in D4.
  pose proof (nonneg_num _ Hb). split; auto. split; auto. split; [congruence |]. split; auto.
  apply Qle_trans with (num v1); auto. apply Qle_trans with (num v0 * num rpb)%Q; auto. apply Qmult_le_compat_r; auto.
Qed.

Lemma y_spec : forall l rp rpa rpb y, nonneg l -> nonneg rp -> nonneg rpa -> nonneg rpb -> (num rpa <= num rpb)%Q ->
  y_from_l_rp_rng l rp rpa rpb = Ok y ->
  exists w, nonneg y /\ dscale y = dscale l /\ (0 <= w)%Q /\ (num y <= num l * w /\ num l * w < num y + ulp (dscale l))%Q /\
    ((num rp <= num rpa)%Q -> w == 0)%Q /\ ((num rpb <= num rp)%Q -> w == num rpb - num rpa)%Q /\
    ((num rpa <= num rp <= num rpb)%Q -> w == num rp - num rpa)%Q.
Proof.
  intros l rp rpa rpb y Hl Hp Ha Hb Hab E. unfold y_from_l_rp_rng in E. msteps.
  destruct (clampq _ _ _ _ Hp Ha Hb Hab E0) as [C1 [C2 [C3 [C4 [C5 [C6 [C7 C8]]]]]]].
  destruct (subq _ _ _ C1 Ha E1) as [W [S1 [S2 [S3 [S4 _]]]]].
  assert (N : nonneg v0) by (split; auto; apply S4; lra).
  destruct (is_negative v0); [discriminate |].
  destruct (mulq _ _ _ Hl N E) as [M1 [M2 M3]]. exists (num v0). pose proof (nonneg_num _ N).
  repeat split; auto; try apply M1; try apply M3; intros HH; rewrite S3; [rewrite (C6 HH) | rewrite (C7 HH) | rewrite (C8 HH)]; ring.
Qed.
Lemma x_spec : forall l rp rpa rpb x, nonneg l -> nonneg rp -> nonneg rpa -> nonneg rpb -> (num rpa <= num rpb)%Q ->
  x_from_l_rp_rng l rp rpa rpb = Ok x ->
  exists c m, nonneg x /\ nonneg m /\ (0 < num m)%Q /\ dscale m = dscale rpa /\ (num rpa <= c <= num rpb)%Q /\
    (num m <= c * num rpb /\ c * num rpb < num m + ulp (dscale rpa))%Q /\
    dscale x = dscale l /\ (num x * num m <= num l * (num rpb - c))%Q /\
    ((num rp <= num rpa)%Q -> c == num rpa)%Q /\ ((num rpb <= num rp)%Q -> c == num rpb)%Q /\
    ((num rpa <= num rp <= num rpb)%Q -> c == num rp)%Q.
Proof.
  intros l rp rpa rpb x Hl Hp Ha Hb Hab E. unfold x_from_l_rp_rng in E. destruct (_ || _); [discriminate |]. msteps.
  destruct (clampq _ _ _ _ Hp Ha Hb Hab E0) as [C1 [C2 [C3 [C4 [C5 [C6 [C7 C8]]]]]]].
  destruct (subq _ _ _ Hb C1 E1) as [W [S1 [S2 [S3 [S4 _]]]]].
  assert (N : nonneg v0) by (split; auto; apply S4; lra).
  destruct (mulq _ _ _ C1 Hb E2) as [M1 [M2 M3]]. destruct (mulq _ _ _ Hl N E3) as [P1 [P2 P3]].
  destruct (divq _ _ _ P1 M1 E) as [D1 [D2 [D3 [D4 D5]]]].
  exists (num v), v1. rewrite C2 in M3. rewrite S3 in P3.
  split; auto. split; auto. split; auto. split; [congruence |]. split; auto. split; auto. split; [congruence |]. split; [lra | auto].
Qed.

(** What [liq_from_x_y_rp_rng] guarantees, by position of the price. *)
Lemma liq_spec : forall x y rp rpa rpb l, nonneg x -> nonneg y -> nonneg rp -> nonneg rpa -> nonneg rpb ->
  liq_from_x_y_rp_rng x y rp rpa rpb = Ok l ->
  nonneg l /\ (num rpa < num rpb)%Q /\ dscale rp = dscale rpa /\ dscale rpa = dscale rpb /\
  (((num rp <= num rpa)%Q /\ dscale l = dscale x /\ (num l * (num rpb - num rpa) <= num x * num rpa * num rpb)%Q) \/
   ((num rpa < num rp < num rpb)%Q /\ dscale l = dscale x /\ dscale l = dscale y /\
      (num l * (num rpb - num rp) <= num x * num rp * num rpb)%Q /\ (num l * (num rp - num rpa) <= num y)%Q) \/
   ((num rpb <= num rp)%Q /\ dscale l = dscale y /\ (num l * (num rpb - num rpa) <= num y)%Q)).
Proof.
  intros x y rp rpa rpb l Hx Hy Hp Ha Hb E. unfold liq_from_x_y_rp_rng in E. msteps.
  destruct (lteq _ _ _ Hp Ha E0) as [S C]. destruct v.
  - destruct (liq_x_spec _ _ _ _ Hx Ha Hb E) as [L1 [L2 [L3 [L4 L5]]]]. split; auto. split; auto. split; auto. split; auto.
    left. split; auto. apply C; auto.
  - assert (G : (num rpa < num rp)%Q) by (destruct (Qlt_le_dec (num rpa) (num rp)); auto; apply C in q; discriminate).
    msteps. destruct (ltq _ _ _ Hp Hb E1) as [S' C']. destruct v.
    + msteps. assert (G' : (num rp < num rpb)%Q) by (apply C'; auto).
      destruct (liq_x_spec _ _ _ _ Hx Hp Hb E2) as [L1 [L2 [L3 [L4 L5]]]].
      destruct (liq_y_spec _ _ _ _ Hy Ha Hp E3) as [K1 [K2 [K3 [K4 K5]]]].
      destruct (minq _ _ _ L1 K1 E) as [M1 [M2 [[M3 M4] M5]]].
      split; auto. split; [lra |]. split; auto. split; [congruence |]. right; left. split; auto.
      split; [destruct M5; congruence |]. split; [destruct M5; congruence |]. split.
      * apply Qle_trans with (num v * (num rpb - num rp))%Q; auto. apply Qmult_le_compat_r; lra.
      * apply Qle_trans with (num v0 * (num rp - num rpa))%Q; auto. apply Qmult_le_compat_r; lra.
    + assert (G' : (num rpb <= num rp)%Q) by (destruct (Qlt_le_dec (num rp) (num rpb)) as [q |]; auto; apply C' in q; discriminate).
      destruct (liq_y_spec _ _ _ _ Hy Ha Hb E) as [L1 [L2 [L3 [L4 L5]]]]. split; auto. split; auto. split; auto. split; auto.
Qed.

Lemma y_needed : forall x y rp rpa rpb l y', nonneg x -> nonneg y -> nonneg rp -> nonneg rpa -> nonneg rpb ->
  liq_from_x_y_rp_rng x y rp rpa rpb = Ok l -> y_from_l_rp_rng l rp rpa rpb = Ok y' -> nonneg y' /\ (num y' <= num y)%Q.
Proof.
  intros x y rp rpa rpb l y' Hx Hy Hp Ha Hb E1 E2.
  destruct (liq_spec _ _ _ _ _ _ Hx Hy Hp Ha Hb E1) as [L1 [L2 [_ [_ L]]]].
  destruct (y_spec _ _ _ _ _ L1 Hp Ha Hb (Qlt_le_weak _ _ L2) E2) as [w [Y1 [_ [Y2 [[Y3 _] [Y4 [Y5 Y6]]]]]]].
  split; auto. pose proof (nonneg_num _ Hy). pose proof (nonneg_num _ L1).
  destruct L as [[G _] | [[G [_ [_ [_ K]]]] | [G [_ K]]]].
  - rewrite (Y4 G) in Y3. lra.
  - rewrite (Y6 ltac:(lra)) in Y3. lra.
  - rewrite (Y5 G) in Y3. lra.
Qed.
(** The x side can exceed the offer, by less than x / (price product). *)
Lemma x_needed : forall x y rp rpa rpb l x', nonneg x -> nonneg y -> nonneg rp -> nonneg rpa -> nonneg rpb -> (1 <= num rpa)%Q ->
  liq_from_x_y_rp_rng x y rp rpa rpb = Ok l -> x_from_l_rp_rng l rp rpa rpb = Ok x' ->
  nonneg x' /\ (num x' <= num x * (1 + ulp (dscale rpa)))%Q.
Proof.
  intros x y rp rpa rpb l x' Hx Hy Hp Ha Hb Hone E1 E2.
  destruct (liq_spec _ _ _ _ _ _ Hx Hy Hp Ha Hb E1) as [L1 [L2 [_ [_ L]]]].
  destruct (x_spec _ _ _ _ _ L1 Hp Ha Hb (Qlt_le_weak _ _ L2) E2) as [c [m [X1 [X2 [X3 [X4 [X5 [[X6 X7] [_ [X8 [X9 [X10 X11]]]]]]]]]]]].
  split; auto. pose proof (nonneg_num _ Hx). pose proof (nonneg_num _ L1). pose proof (nonneg_num _ X1).
  assert (U : (0 < ulp (dscale rpa))%Q) by (apply ulp_pos; destruct Ha as [[_ Ha] _]; lia).
  assert (M1 : (1 <= num m)%Q).
  { assert (M0 : (1 <= c * num rpb)%Q) by nra.
    assert (I : (inject_Z (10 ^ dscale rpa) <= inject_Z (dval m))%Q).
    { rewrite <- Zle_Qle. assert (P : 0 < 10 ^ dscale rpa) by (apply pow10_pos; destruct Ha as [[_ Ha] _]; lia).
      destruct (Z.le_gt_cases (10 ^ dscale rpa) (dval m)) as [| G]; auto. exfalso.
      assert (num m + ulp (dscale rpa) <= 1)%Q; [| lra].
      unfold num, ulp, mant. destruct X2 as [_ ->]. rewrite X4. 
      setoid_replace (1 / inject_Z (10 ^ dscale rpa))%Q with (inject_Z 1 / inject_Z (10 ^ dscale rpa))%Q by reflexivity.
      rewrite frac_add by auto. setoid_replace 1%Q with (inject_Z 1 / inject_Z 1)%Q by reflexivity. apply frac_le; lia. }
    unfold num, mant. destruct X2 as [_ ->]. rewrite X4. apply Qle_shift_div_l; [| lra].
    change 0%Q with (inject_Z 0). rewrite <- Zlt_Qlt. apply pow10_pos. destruct Ha as [[_ Ha] _]; lia. }
  assert (K : (num x' * num m <= num x * (c * num rpb))%Q).
  { destruct L as [[G [_ K]] | [[G [_ [_ [K _]]]] | [G _]]].
    - rewrite (X9 G) in *. lra.
    - rewrite (X11 ltac:(lra)) in *. lra.
    - rewrite (X10 G) in X8. assert (0 <= num x * (c * num rpb))%Q by nra. lra. }
  assert (K2 : (num x' * num m <= num x * (num m + ulp (dscale rpa)))%Q) by nra.
  assert (K3 : (num x' * num m <= num x * (1 + ulp (dscale rpa)) * num m)%Q).
  { assert (0 <= num x * ulp (dscale rpa))%Q by nra.
    assert (num x * ulp (dscale rpa) <= num x * ulp (dscale rpa) * num m)%Q by nra. nra. }
  apply Qmult_le_r in K3; auto.
Qed.

(** ** C17 *)
Lemma rp_dx : forall l rp dx r, nonneg l -> nonneg rp -> nonneg dx -> rp_new_from_l_dx l rp dx = Ok r -> nonneg r /\ dscale r = dscale l /\ (num r <= num rp)%Q.
Proof.
  intros l rp dx r Hl Hp Hd E. unfold rp_new_from_l_dx in E. msteps.
  destruct (mulq _ _ _ Hl Hp E0) as [M1 [M2 [M3 _]]]. destruct (mulq _ _ _ Hd Hp E1) as [N1 [N2 _]].
  destruct (addq _ _ _ N1 Hl E2) as [A1 [A2 [A3 A4]]]. destruct (is_zero v1); [discriminate |]. msteps.
  destruct (divq _ _ _ M1 A1 E3) as [D1 [D2 [D3 [D4 _]]]]. destruct (is_negative v2); [discriminate |]. msteps.
  split; auto. split; [congruence |]. pose proof (nonneg_num _ N1). pose proof (nonneg_num _ Hl). pose proof (nonneg_num _ Hp).
  assert (K : (num r * num v1 <= num rp * num v1)%Q) by nra.
  apply Qmult_le_r in K; auto.
Qed.
Lemma rp_dy : forall l rp dy r, nonneg l -> nonneg rp -> nonneg dy -> rp_new_from_l_dy l rp dy = Ok r -> nonneg r /\ dscale r = dscale rp /\ (num rp <= num r)%Q.
Proof.
  intros l rp dy r Hl Hp Hd E. unfold rp_new_from_l_dy in E. destruct (is_zero l); [discriminate |]. msteps.
  destruct (divq _ _ _ Hd Hl E0) as [M1 [M2 [M3 _]]].
  destruct (addq _ _ _ M1 Hp E1) as [A1 [A2 [A3 A4]]]. destruct (is_negative v0); [discriminate |]. msteps.
  split; auto. split; [congruence |]. pose proof (nonneg_num _ M1). lra.
Qed.

(** ** C16 *)
Lemma mul_le_ok : forall a a' b c, 0 <= dval a' <= dval a -> 0 <= dval b -> 0 <= dscale b -> dscale a' = dscale a -> dneg a' = dneg a -> d_mul a b = Ok c ->
  exists c', d_mul a' b = Ok c' /\ dscale c' = dscale c /\ dneg c' = dneg c /\ dval c' = dval a' * dval b / 10 ^ dscale b /\ dval c = dval a * dval b / 10 ^ dscale b /\
    0 <= dval c' <= dval c.
Proof.
  intros a a' b c Ha Hb Hsb Hs Hn E. unfold d_mul, denominator in *. msteps. pose proof (pow10_pos (dscale b) Hsb).
  rewrite cmul_Ok by nia. cbn [bind]. rewrite pow10_Ok by auto. cbn [bind]. rewrite cdiv_Ok by lia. cbn [bind].
  eexists. split; [reflexivity |]. cbn. rewrite Hs, Hn. repeat split; auto. apply Z.div_pos; nia. apply Z.div_le_mono; nia.
Qed.
Lemma div_le_ok : forall a a' b c, 0 <= dval a' <= dval a -> 0 <= dval b -> 0 <= dscale b -> dscale a' = dscale a -> dneg a' = dneg a -> d_div a b = Ok c ->
  exists c', d_div a' b = Ok c' /\ dscale c' = dscale c /\ dneg c' = dneg c /\ dval c' = dval a' * 10 ^ dscale b / dval b /\ dval c = dval a * 10 ^ dscale b / dval b /\
    0 <= dval c' <= dval c.
Proof.
  intros a a' b c Ha Hb Hsb Hs Hn E. unfold d_div, denominator in *. msteps. pose proof (pow10_pos (dscale b) Hsb).
  rewrite pow10_Ok by auto. cbn [bind]. rewrite cmul_Ok by nia. cbn [bind]. rewrite cdiv_Ok by lia. cbn [bind].
  eexists. split; [reflexivity |]. cbn. rewrite Hs, Hn. repeat split; auto. apply Z.div_pos; nia. apply Z.div_le_mono; nia.
Qed.
Lemma floor_super : forall a b q, 0 < q -> a / q + b / q <= (a + b) / q.
Proof.
  intros a b q H. apply Z.div_le_lower_bound; auto. pose proof (Z.mul_div_le a q H). pose proof (Z.mul_div_le b q H). lia.
Qed.
Lemma num_le_val : forall a b, nonneg a -> nonneg b -> dscale a = dscale b -> dval a <= dval b -> (num a <= num b)%Q.
Proof. intros a b [Wa Ha] [Wb Hb] S H. apply num_le; auto. unfold mant. rewrite Ha, Hb. auto. Qed.
Lemma num_add_val : forall a b c, nonneg a -> nonneg b -> nonneg c -> dscale a = dscale c -> dscale b = dscale c -> dval a + dval b <= dval c -> (num a + num b <= num c)%Q.
Proof.
  intros a b c [Wa Ha] [Wb Hb] [Wc Hc] S1 S2 H. unfold num, mant. rewrite Ha, Hb, Hc, S1, S2.
  assert (P : 0 < 10 ^ dscale c) by (apply pow10_pos; destruct Wc as [_ Wc]; lia).
  rewrite frac_add by auto. apply frac_le; auto. nia.
Qed.

Lemma x_smaller : forall l rp rpa rpb x, nonneg l -> nonneg rp -> nonneg rpa -> nonneg rpb -> (num rpa <= num rpb)%Q ->
  x_from_l_rp_rng l rp rpa rpb = Ok x ->
  exists S m w, 0 < S /\ 0 < m /\ 0 <= w /\ nonneg x /\ dscale x = dscale l /\ dval x = dval l * w / S * S / m /\
  forall l', nonneg l' -> dscale l' = dscale l -> dval l' <= dval l ->
  exists x', x_from_l_rp_rng l' rp rpa rpb = Ok x' /\ nonneg x' /\ dscale x' = dscale x /\ dval x' <= dval x /\ dval x' = dval l' * w / S * S / m.
Proof.
  intros l rp rpa rpb x Hl Hp Ha Hb Hab E. unfold x_from_l_rp_rng in *. destruct (_ || _); [discriminate |]. msteps.
  destruct (clampq _ _ _ _ Hp Ha Hb Hab E0) as [C1 [C2 [C3 [C4 [C5 _]]]]].
  destruct (subq _ _ _ Hb C1 E1) as [W [S1 [S2 [S3 [S4 _]]]]].
  assert (N : nonneg v0) by (split; auto; apply S4; lra).
  destruct (mulq _ _ _ C1 Hb E2) as [M1 [M2 M3]]. destruct (mulq _ _ _ Hl N E3) as [P1 [P2 P3]].
  destruct (divq _ _ _ P1 M1 E) as [D1 [D2 [D3 [D4 D5]]]].
  destruct N as [[NW NS] NF]. destruct M1 as [[MW MS] MF]. destruct Hl as [[LW LS] LF].
  assert (SE : dscale v1 = dscale v0) by congruence.
  exists (10 ^ dscale v0), (dval v1), (dval v0).
  split; [apply pow10_pos; lia |]. split. { unfold d_div in E. msteps. lia. }
  split; [lia |]. split; auto. split; [congruence |]. split. { unfold d_div, d_mul, denominator in *. msteps. cbn in *. congruence. }
  intros l' [[LW' LS'] LF'] Hs Hle. rewrite E0. cbn [bind]. rewrite E1. cbn [bind unwrap]. rewrite E2. cbn [bind].
  destruct (mul_le_ok l l' v0 v2 ltac:(lia) ltac:(lia) ltac:(lia) Hs ltac:(congruence) E3) as [c' [F1 [F2 [F3 [F4 [F5 F6]]]]]].
  destruct (div_le_ok v2 c' v1 x ltac:(lia) ltac:(lia) ltac:(lia) F2 F3 E) as [x' [G1 [G2 [G3 [G4 [G5 G6]]]]]].
  rewrite F1. cbn [bind].
  exists x'. split; auto. split. { split; [| destruct D1; congruence]. destruct D1 as [[D1 D1s] _]. split; [lia | congruence]. }
  split; auto. split; [lia |]. rewrite G4, F4, SE. auto.
Qed.
Lemma y_smaller : forall l rp rpa rpb y, nonneg l -> nonneg rp -> nonneg rpa -> nonneg rpb -> (num rpa <= num rpb)%Q ->
  y_from_l_rp_rng l rp rpa rpb = Ok y ->
  exists S w, 0 < S /\ 0 <= w /\ nonneg y /\ dscale y = dscale l /\ dval y = dval l * w / S /\
  forall l', nonneg l' -> dscale l' = dscale l -> dval l' <= dval l ->
  exists y', y_from_l_rp_rng l' rp rpa rpb = Ok y' /\ nonneg y' /\ dscale y' = dscale y /\ dval y' <= dval y /\ dval y' = dval l' * w / S.
Proof.
  intros l rp rpa rpb y Hl Hp Ha Hb Hab E. unfold y_from_l_rp_rng in *. msteps.
  destruct (clampq _ _ _ _ Hp Ha Hb Hab E0) as [C1 [C2 [C3 [C4 [C5 _]]]]].
  destruct (subq _ _ _ C1 Ha E1) as [W [S1 [S2 [S3 [S4 _]]]]].
  destruct (is_negative v0) eqn:NG; [discriminate |].
  assert (N : nonneg v0) by (split; auto; apply S4; lra).
  destruct (mulq _ _ _ Hl N E) as [P1 [P2 P3]].
  destruct N as [[NW NS] NF]. destruct Hl as [[LW LS] LF].
  exists (10 ^ dscale v0), (dval v0). split; [apply pow10_pos; lia |]. split; [lia |]. split; auto. split; [congruence |].
  split. { unfold d_mul, denominator in E. msteps. reflexivity. }
  intros l' [[LW' LS'] LF'] Hs Hle. rewrite E0. cbn [bind]. rewrite E1. cbn [bind unwrap]. rewrite NG.
  destruct (mul_le_ok l l' v0 y ltac:(lia) ltac:(lia) ltac:(lia) Hs ltac:(congruence) E) as [c' [F1 [F2 [F3 [F4 [F5 F6]]]]]].
  exists c'. split; auto. split. { split; [| destruct P1; congruence]. destruct P1 as [[D1 D1s] _]. split; [lia | congruence]. }
  split; auto. split; [lia |]. auto.
Qed.

Lemma amounts_monotone : forall l l' rp rpa rpb, nonneg l -> nonneg l' -> nonneg rp -> nonneg rpa -> nonneg rpb -> (num rpa <= num rpb)%Q ->
  dscale l' = dscale l -> (num l' <= num l)%Q ->
  (forall x, x_from_l_rp_rng l rp rpa rpb = Ok x -> exists x', x_from_l_rp_rng l' rp rpa rpb = Ok x' /\ (num x' <= num x)%Q) /\
  (forall y, y_from_l_rp_rng l rp rpa rpb = Ok y -> exists y', y_from_l_rp_rng l' rp rpa rpb = Ok y' /\ (num y' <= num y)%Q).
Proof.
  intros l l' rp rpa rpb Hl Hl' Hp Ha Hb Hab Hs Hle.
  assert (V : dval l' <= dval l). { apply num_le in Hle; auto; try apply Hl'. unfold mant in Hle. destruct Hl as [_ Hl], Hl' as [_ Hl']. rewrite Hl, Hl' in Hle. auto. }
  split; intros r E.
  - destruct (x_smaller _ _ _ _ _ Hl Hp Ha Hb Hab E) as [S [m [w [_ [_ [_ [X1 [_ [_ XX]]]]]]]]].
    destruct (XX l' Hl' Hs V) as [x' [X2 [X3 [X4 [X5 _]]]]]. exists x'. split; auto. apply num_le_val; auto.
  - destruct (y_smaller _ _ _ _ _ Hl Hp Ha Hb Hab E) as [S [w [_ [_ [X1 [_ [_ XX]]]]]]].
    destruct (XX l' Hl' Hs V) as [x' [X2 [X3 [X4 [X5 _]]]]]. exists x'. split; auto. apply num_le_val; auto.
Qed.

Lemma amounts_superadditive : forall l l1 l2 rp rpa rpb, nonneg l -> nonneg l1 -> nonneg l2 -> nonneg rp -> nonneg rpa -> nonneg rpb -> (num rpa <= num rpb)%Q ->
  dscale l1 = dscale l -> dscale l2 = dscale l -> (num l1 + num l2 <= num l)%Q ->
  (forall x, x_from_l_rp_rng l rp rpa rpb = Ok x -> exists x1 x2, x_from_l_rp_rng l1 rp rpa rpb = Ok x1 /\ x_from_l_rp_rng l2 rp rpa rpb = Ok x2 /\ (num x1 + num x2 <= num x)%Q) /\
  (forall y, y_from_l_rp_rng l rp rpa rpb = Ok y -> exists y1 y2, y_from_l_rp_rng l1 rp rpa rpb = Ok y1 /\ y_from_l_rp_rng l2 rp rpa rpb = Ok y2 /\ (num y1 + num y2 <= num y)%Q).
Proof.
  intros l l1 l2 rp rpa rpb Hl H1 H2 Hp Ha Hb Hab Hs1 Hs2 Hle.
  assert (V : dval l1 + dval l2 <= dval l).
  { unfold num, mant in Hle. destruct Hl as [[Wl Sl] Hl], H1 as [_ H1], H2 as [_ H2]. rewrite Hl, H1, H2, Hs1, Hs2 in Hle.
    pose proof (pow10_pos (dscale l) ltac:(lia)). rewrite frac_add in Hle by auto. rewrite frac_le in Hle by auto. apply Z.mul_le_mono_pos_r in Hle; auto. }
  assert (P1 : 0 <= dval l1) by (destruct H1 as [[[H1 _] _] _]; exact H1). assert (P2 : 0 <= dval l2) by (destruct H2 as [[[H2 _] _] _]; exact H2).
  split; intros r E.
  - destruct (x_smaller _ _ _ _ _ Hl Hp Ha Hb Hab E) as [S [m [w [A1 [A2 [A3 [X1 [_ [X9 XX]]]]]]]]].
    destruct (XX l1 H1 Hs1 ltac:(lia)) as [x1 [X2 [X3 [X4 [X5 X6]]]]]. destruct (XX l2 H2 Hs2 ltac:(lia)) as [x2 [Y2 [Y3 [Y4 [Y5 Y6]]]]].
    exists x1, x2. split; auto. split; auto. apply num_add_val; auto. rewrite X6, Y6, X9.
    eapply Z.le_trans; [apply floor_super; auto |]. apply Z.div_le_mono; auto. rewrite <- Z.mul_add_distr_r. apply Z.mul_le_mono_nonneg_r; [lia |].
    eapply Z.le_trans; [apply floor_super; auto |]. apply Z.div_le_mono; auto. nia.
  - destruct (y_smaller _ _ _ _ _ Hl Hp Ha Hb Hab E) as [S [w [A1 [A3 [X1 [_ [X9 XX]]]]]]].
    destruct (XX l1 H1 Hs1 ltac:(lia)) as [x1 [X2 [X3 [X4 [X5 X6]]]]]. destruct (XX l2 H2 Hs2 ltac:(lia)) as [x2 [Y2 [Y3 [Y4 [Y5 Y6]]]]].
    exists x1, x2. split; auto. split; auto. apply num_add_val; auto. rewrite X6, Y6, X9.
    eapply Z.le_trans; [apply floor_super; auto |]. apply Z.div_le_mono; auto. nia.
Qed.
