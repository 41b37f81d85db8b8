(** Powers with a decimal exponent (decimal.rs:451-495): which exponents work and what comes out. *)
From Coq Require Import ZArith QArith Qabs Qpower List Bool Lia Lqa.
From Verif Require Import Base BaseLemmas DecimalModel DecimalSpec DecimalProofs SqrtProofs PowProofs WfProofs MathModel MathProofs PoolModel PoolWf SwapLoop LpProofs PowAccuracy.
Open Scope Z_scope.

(** ** Specification, over the rationals; [u] is one unit in the last place *)
(** [y] is the square root of [x], give or take one unit. *)
Definition sqroot (u x y : Q) : Prop := (0 <= y /\ (u <= y -> (y - u) * (y - u) <= x) /\ x < (y + u) * (y + u))%Q.
(** [y] is [z >= 0] truncated. *)
Definition cut (u z y : Q) : Prop := (0 <= y /\ y <= z /\ z < y + u)%Q.
(** [y] is [x] to the power [e]. *)
Inductive power (u x : Q) : Q -> Q -> Prop :=
| P_zero : forall e y, (e == 0)%Q -> (y == 1)%Q -> power u x e y
| P_one : forall e y, (e == 1)%Q -> (y == x)%Q -> power u x e y
| P_half : forall e y, (e == 1 # 2)%Q -> sqroot u x y -> power u x e y
| P_quarter : forall e r y, (e == 1 # 4)%Q -> sqroot u x r -> sqroot u r y -> power u x e y
| P_three_halves : forall e r y, (e == 3 # 2)%Q -> sqroot u x r -> cut u (x * r) y -> power u x e y
| P_five_quarters : forall e r q y, (e == 5 # 4)%Q -> sqroot u x r -> sqroot u r q -> cut u (x * q) y -> power u x e y
| P_integer : forall e n y, (e == inject_Z (Zpos n))%Q -> (0 <= y)%Q -> (y <= x ^ Zpos n)%Q ->
    (x <= 1 -> x ^ Zpos n <= y + inject_Z (Zpos n) * u)%Q -> (1 <= x -> x ^ Zpos n * (1 - inject_Z (Zpos n) * u) <= y)%Q -> power u x e y
| P_inverse : forall e z y, (e < 0)%Q -> power u x (- e) z -> (0 < z)%Q -> cut u (1 / z) y -> power u x e y.

(** ** Square roots *)
Lemma root_spec : forall s d r, at_s s d -> d_sqrt d = Ok r -> at_s s r /\ sqroot (ulp s) (num d) (num r).
Proof.
  intros s d r (W & Es & N) H. pose proof (sqrt_spec d W) as S. rewrite H in S. destruct S as (S1 & S2 & S3 & q & (Q0 & Q1) & Q2).
  assert (A : at_s s r) by (split; [exact S3 | split; congruence]). split; auto. assert (Ad : at_s s d) by (split; auto).
  assert (Hs : 0 <= s) by (destruct W; lia). pose proof (ulp_s s Hs) as U. rewrite Es in Q1. pose proof (Z.pow_pos_nonneg 10 s ltac:(lia) Hs) as T. set (t := 10 ^ s) in *.
  assert (Ut : (inject_Z t * ulp s == 1)%Q). { unfold ulp. fold t. field. intros E. assert (0 < inject_Z t)%Q; [| lra]. change 0%Q with (inject_Z 0). rewrite <- Zlt_Qlt. auto. }
  unfold sqroot. rewrite (num_s _ _ A), (num_s _ _ Ad). set (v := dval r) in *. set (x := dval d) in *. set (u := ulp s) in *.
  assert (V : (0 <= inject_Z v)%Q) by (change 0%Q with (inject_Z 0); rewrite <- Zle_Qle; lia).
  assert (EX : (inject_Z x * u == inject_Z (x * t) * (u * u))%Q). { rewrite inject_Z_mult. setoid_replace (inject_Z x * inject_Z t * (u * u))%Q with (inject_Z x * u * (inject_Z t * u))%Q by ring. rewrite Ut. ring. }
  assert (UU : (0 < u * u)%Q) by (setoid_replace 0%Q with (0 * u)%Q by ring; apply Qmult_lt_r; auto).
  split; [apply Qmult_le_0_compat; lra |]. rewrite EX. split.
  - intros G. assert (G1 : 1 <= v). { rewrite Zle_Qle. change (inject_Z 1) with 1%Q. apply Qmult_lt_0_le_reg_r with u; auto. lra. }
    setoid_replace ((inject_Z v * u - u) * (inject_Z v * u - u))%Q with (inject_Z ((v - 1) * (v - 1)) * (u * u))%Q by (rewrite inject_Z_mult; unfold Z.sub; rewrite inject_Z_plus; change (inject_Z (-(1))) with (-1)%Q; ring).
    apply Qmult_le_compat_r; [| lra]. rewrite <- Zle_Qle. nia.
  - setoid_replace ((inject_Z v * u + u) * (inject_Z v * u + u))%Q with (inject_Z ((v + 1) * (v + 1)) * (u * u))%Q by (rewrite inject_Z_mult, inject_Z_plus; change (inject_Z 1) with 1%Q; ring).
    apply Qmult_lt_r; auto. rewrite <- Zlt_Qlt. nia.
Qed.
Lemma root_total : forall s d, at_s s d -> s <= 38 -> (num d < pow_room s)%Q -> exists r, d_sqrt d = Ok r.
Proof.
  intros s d A Hs H. pose proof (sqrt_spec d (proj1 A)) as S. destruct (d_sqrt d) as [r | e | |]; [eauto | exfalso | exfalso | contradiction].
  - destruct S as [_ S]. assert (Es : dscale d = s) by apply A. rewrite Es in S. assert (0 <= s) by (destruct A as ((_ & ?) & _); lia).
    pose proof (Z.pow_pos_nonneg 10 s ltac:(lia) ltac:(auto)) as T. rewrite (num_s _ _ A) in H. unfold pow_room, ulp in H. set (t := 10 ^ s) in *.
    assert (P : (0 < inject_Z t)%Q) by (change 0%Q with (inject_Z 0); rewrite <- Zlt_Qlt; auto).
    assert (PP : (0 < inject_Z t * inject_Z t)%Q) by (setoid_replace 0%Q with (0 * inject_Z t)%Q by ring; apply Qmult_lt_r; auto).
    apply Qmult_lt_r with (z := (inject_Z t * inject_Z t)%Q) in H; auto.
    setoid_replace (inject_Z (dval d) * (1 / inject_Z t) * (inject_Z t * inject_Z t))%Q with (inject_Z (dval d) * inject_Z t)%Q in H by (field; lra).
    setoid_replace (inject_Z (2 ^ 128) / (inject_Z t * inject_Z t) * (inject_Z t * inject_Z t))%Q with (inject_Z (2 ^ 128)) in H by (field; lra).
    rewrite <- inject_Z_mult, <- Zlt_Qlt in H. lia.
  - assert (Es : dscale d = s) by apply A. lia.
Qed.

(** ** The constants 1/4, 1/2, 1, 5/4, 3/2 *)
Definition whole (n s : Z) : decimal := mkD (n * 10 ^ s) s false.
Lemma whole_eq : forall n s c, 0 <= s -> to_scale (from_u64 n) s = Ok c -> c = whole n s.
Proof. intros n s c Hs H. unfold to_scale, from_u64 in H. cbn [dscale dval dneg] in H. destruct (s <? 0) eqn:E; b2p; [lia |]. msteps. unfold whole. rewrite Z.sub_0_r. reflexivity. Qed.
Definition part (n m s : Z) : decimal := mkD (n * 10 ^ s / m) s false.
Lemma part_eq : forall n m s c, 0 <= s -> 0 < m -> d_div (whole n s) (whole m s) = Ok c -> c = part n m s.
Proof.
  intros n m s c Hs Hm H. unfold d_div, denominator, whole in H. cbn [dscale dval dneg] in H. msteps. unfold part. f_equal.
  rewrite (Z.mul_comm m). rewrite <- (Z.mul_comm (10 ^ s) (n * 10 ^ s)). apply Z.div_mul_cancel_l; [lia |]. pose proof (Z.pow_pos_nonneg 10 s); lia.
Qed.

(** What [pow] does, exponent by exponent, on mantissas *)
Lemma pow_cases : forall fb d e c, 0 <= dscale d -> d_pow_dec_nonneg fb d e = Ok c ->
  let s := dscale d in
  (dval e = 0 /\ c = whole 1 s) \/
  (dval e <> 0 /\ dscale e = s /\
   ((e = part 1 4 s /\ exists r, d_sqrt d = Ok r /\ d_sqrt r = Ok c) \/
    (e = part 1 2 s /\ d_sqrt d = Ok c) \/
    (e = whole 1 s /\ c = d) \/
    (e = part 5 4 s /\ exists r q, d_sqrt d = Ok r /\ d_sqrt r = Ok q /\ d_mul d q = Ok c) \/
    (e = part 3 2 s /\ exists r, d_sqrt d = Ok r /\ d_mul d r = Ok c) \/
    (is_integer e = Ok true /\ dneg e = false /\ exists n, d_abs e = Ok n /\ d_pow d n = Ok c) \/
    (is_integer e = Ok true /\ dneg e = true /\ exists n r, d_abs e = Ok n /\ d_pow d n = Ok r /\ d_div (whole 1 s) r = Ok c) \/
    (dneg e = true /\ exists r, fb (mkD (dval e) (dscale e) false) = Ok r /\ d_div (whole 1 s) r = Ok c))).
Proof.
  intros fb d e c Hs H s. unfold d_pow_dec_nonneg in H. fold s in H.
  bd H o E1. bd H f4 E2. bd H t2 E3. bd H f5 E4. bd H t3 E5. bd H p25 E6. bd H p5 E7. bd H p125 E8. bd H p15 E9.
  apply whole_eq in E1; auto. apply whole_eq in E2; auto. apply whole_eq in E3; auto. apply whole_eq in E4; auto. apply whole_eq in E5; auto. subst o f4 t2 f5 t3.
  apply part_eq in E6; [| auto | lia]. apply part_eq in E7; [| auto | lia]. apply part_eq in E8; [| auto | lia]. apply part_eq in E9; [| auto | lia]. subst p25 p5 p125 p15.
  destruct (is_zero e) eqn:Ez. { left. unfold is_zero in Ez. b2p. injection H as <-. auto. }
  right. unfold is_zero in Ez. b2p. split; auto.
  assert (EQ : forall x b, d_eq e x = Ok b -> dscale e = dscale x /\ (b = true -> dval e = dval x /\ dneg e = dneg x)).
  { intros x b Q. unfold d_eq in Q. destruct (dscale e =? dscale x) eqn:E; cbn in Q; [| discriminate]. b2p. split; auto. intros ->. injection Q as Q. apply andb_true_iff in Q. destruct Q as [Q1 Q2]. b2p. apply eqb_prop in Q2. auto. }
  assert (EE : forall x b, d_eq e x = Ok b -> b = true -> e = x). { intros x b Q B. destruct (EQ _ _ Q) as [Q1 Q2]. destruct (Q2 B). destruct e, x. cbn in *. congruence. }
  bd H c1 D1. split; [exact (proj1 (EQ _ _ D1)) |]. destruct c1.
  { left. split; [exact (EE _ _ D1 eq_refl) |]. bd H r R1. unfold unwrap in H. destruct (d_sqrt r) eqn:R2; try discriminate. injection H as <-. eauto. }
  right. bd H c2 D2. destruct c2. { left. split; [exact (EE _ _ D2 eq_refl) |]. unfold unwrap in H. destruct (d_sqrt d) eqn:R2; try discriminate. injection H as <-. auto. }
  right. bd H c3 D3. destruct c3. { left. split; [exact (EE _ _ D3 eq_refl) |]. injection H as <-. auto. }
  right. bd H c4 D4. destruct c4. { left. split; [exact (EE _ _ D4 eq_refl) |]. bd H r R1. bd H r2 R2. eauto 6. }
  right. bd H c5 D5. destruct c5. { left. split; [exact (EE _ _ D5 eq_refl) |]. bd H r R1. eauto. }
  right. bd H i Hi. unfold is_positive, is_negative, is_zero in H. apply Z.eqb_neq in Ez. rewrite Ez in H. destruct i, (dneg e) eqn:Ne; cbn in H.
  - right. left. bd H n N1. bd H r R1. eauto 7.
  - left. bd H n N1. eauto 6.
  - right. right. bd H r R1. eauto.
  - discriminate.
Qed.

(** ** From mantissas to numbers *)
Lemma whole_at : forall n s, 0 <= n -> 0 <= s <= 255 -> n * 10 ^ s < 2 ^ 128 -> at_s s (whole n s) /\ (num (whole n s) == inject_Z n)%Q.
Proof.
  intros n s Hn Hs L. pose proof (Z.pow_pos_nonneg 10 s ltac:(lia) ltac:(lia)) as T. assert (A : at_s s (whole n s)) by (split; [split; cbn; nia | split; reflexivity]). split; auto.
  unfold num, mant, whole. cbn [dneg dval dscale]. rewrite inject_Z_mult. field. intros E. assert (0 < inject_Z (10 ^ s))%Q; [| lra]. change 0%Q with (inject_Z 0). rewrite <- Zlt_Qlt. auto.
Qed.
Lemma part_num : forall n m s, 0 <= s -> (m | 10 ^ s) -> 0 < m -> (num (part n m s) == inject_Z n / inject_Z m)%Q.
Proof.
  intros n m s Hs [k D] M. pose proof (Z.pow_pos_nonneg 10 s ltac:(lia) ltac:(lia)) as T. unfold num, mant, part. cbn [dneg dval dscale].
  assert (E : n * 10 ^ s / m = n * k) by (rewrite D, Z.mul_assoc; apply Z.div_mul; lia). rewrite E, D, !inject_Z_mult. assert (0 < k) by nia.
  assert (0 < inject_Z k)%Q by (change 0%Q with (inject_Z 0); rewrite <- Zlt_Qlt; auto). assert (0 < inject_Z m)%Q by (change 0%Q with (inject_Z 0); rewrite <- Zlt_Qlt; auto). field. split; lra.
Qed.
Lemma four_div : forall s, 2 <= s -> (4 | 10 ^ s).
Proof. intros s H. exists (25 * 10 ^ (s - 2)). replace s with (2 + (s - 2)) at 1 by lia. rewrite Z.pow_add_r by lia. change (10 ^ 2) with 100. lia. Qed.
Lemma two_div : forall s, 1 <= s -> (2 | 10 ^ s).
Proof. intros s H. exists (5 * 10 ^ (s - 1)). replace s with (1 + (s - 1)) at 1 by lia. rewrite Z.pow_add_r by lia. change (10 ^ 1) with 10. lia. Qed.

Lemma integer_val : forall e n, wf e -> dval e <> 0 -> is_integer e = Ok true -> d_abs e = Ok n -> exists m, n = Zpos m /\ dval e = Zpos m * 10 ^ dscale e.
Proof.
  intros e n [W1 W2] Nz Hi Ha. unfold is_integer in Hi. unfold d_abs in Ha. bd Hi z Z1. rewrite Z1 in Ha. bd Hi z' Z2. bd Hi r R.
  assert (Hz : dval r = 0) by (injection Hi as Hi; unfold is_zero in Hi; apply Z.eqb_eq in Hi; auto). clear Hi.
  assert (F : dval z = dval e / 10 ^ dscale e /\ dneg z = dneg e /\ dscale z = 0 /\ n = dval z).
  { unfold to_scale in Z1. cbn [bind] in Ha. unfold to_u64 in Ha. msteps. destruct (0 <? dscale e) eqn:E; b2p; msteps; cbn; rewrite ?Z.sub_0_r; repeat split; auto.
    replace (dscale e) with 0 by lia. cbn. rewrite Z.div_1_r. lia. }
  destruct F as (F1 & F2 & F3 & ->). unfold to_scale in Z2. rewrite F3 in Z2. destruct (dscale e <? 0) eqn:E; b2p; [lia |]. clear Ha Z1. set (vz := dval z) in *. set (nz := dneg z) in *. msteps. rewrite Z.sub_0_r in R.
  apply sub_m in R. destruct R as [R _]. unfold mant in R. cbn [dval dneg] in R. rewrite F2, Hz in R.
  assert (V : dval e = vz * 10 ^ dscale e) by (destruct (dneg e), (dneg r); lia).
  pose proof (Z.pow_pos_nonneg 10 (dscale e) ltac:(lia) ltac:(lia)). destruct vz as [| m | m] eqn:Ez; [lia | eauto | nia].
Qed.
Lemma num_neg : forall e, dneg e = true -> dval e <> 0 -> wf e -> (num e < 0)%Q /\ (- num e == num (mkD (dval e) (dscale e) false))%Q.
Proof.
  intros e N Z [W1 W2]. pose proof (Z.pow_pos_nonneg 10 (dscale e) ltac:(lia) ltac:(lia)) as T. unfold num, mant. rewrite N. cbn [dneg dval dscale].
  assert (P : (0 < inject_Z (10 ^ dscale e))%Q) by (change 0%Q with (inject_Z 0); rewrite <- Zlt_Qlt; auto).
  split; [| rewrite inject_Z_opp; field; lra]. apply Qlt_shift_div_r; auto. setoid_replace (0 * inject_Z (10 ^ dscale e))%Q with (inject_Z 0) by ring. rewrite <- Zlt_Qlt. lia.
Qed.
Lemma num_int : forall e m, 0 <= dscale e -> dneg e = false -> dval e = Zpos m * 10 ^ dscale e -> (num e == inject_Z (Zpos m))%Q.
Proof.
  intros e m Hs N V. unfold num, mant. rewrite N, V, inject_Z_mult. field. intros E. assert (0 < inject_Z (10 ^ dscale e))%Q; [| lra]. change 0%Q with (inject_Z 0). rewrite <- Zlt_Qlt. apply Z.pow_pos_nonneg; lia.
Qed.
Lemma cut_div : forall s b c, at_s s b -> 0 <= s <= 38 -> d_div (whole 1 s) b = Ok c -> at_s s c /\ (0 < num b)%Q /\ cut (ulp s) (1 / num b) (num c).
Proof.
  intros s b c B Hs H. assert (L : 1 * 10 ^ s < 2 ^ 128) by (assert (10 ^ s <= 10 ^ 38) by (apply Z.pow_le_mono_r; lia); lia). destruct (whole_at 1 s ltac:(lia) ltac:(lia) L) as [A E].
  destruct (divq _ _ _ (conj (proj1 A) (proj2 (proj2 A))) (conj (proj1 B) (proj2 (proj2 B))) H) as ((N1 & N2) & Sc & P & D1 & D2).
  assert (C : at_s s c) by (split; [auto | split; auto]). split; auto. split; auto. cbn [whole dscale] in D2. rewrite E in D1, D2. change (inject_Z 1) with 1%Q in *. split; [exact (at_nn _ _ C) |].
  split; [apply Qle_shift_div_l; auto | apply Qlt_shift_div_r; auto].
Qed.
Lemma cut_mul : forall s a b c, at_s s a -> at_s s b -> d_mul a b = Ok c -> at_s s c /\ cut (ulp s) (num a * num b) (num c).
Proof. intros s a b c A B H. destruct (mul_s _ _ _ _ A B H) as (C & C1 & C2 & C3 & _). split; [exact C |]. split; [exact C1 | split; [exact C2 | exact C3]]. Qed.
Lemma power_int : forall s d m c e, at_s s d -> d_pow d (Zpos m) = Ok c -> (e == inject_Z (Zpos m))%Q -> at_s s c /\ power (ulp s) (num d) e (num c).
Proof.
  intros s d m c e A H E. assert (Es : dscale d = s) by apply A. assert (C : at_s s c). { unfold d_pow in H. bd H den De. unfold denominator in De. apply pow10_ok in De. destruct De as [De1 De2]. rewrite De1 in H. apply (pow_loop_at s m d (mkD (10 ^ dscale d) (dscale d) (dneg d))); auto. destruct A as (W & _ & N). rewrite N, Es in *. apply one_s. destruct W; lia. }
  split; auto. apply P_integer with (n := m); auto; [exact (at_nn _ _ C) | | |].
  - destruct (Qlt_le_dec 1 (num d)) as [L | L]; [apply (pow_above d m c); auto; try apply A; lra | apply (pow_below d m c); auto; try apply A; lra].
  - intros L. rewrite <- Es. apply (pow_below d m c); auto; apply A.
  - intros L. rewrite <- Es. apply (pow_above d m c); auto; apply A.
Qed.
Lemma power_proper : forall u x e e' y, (e == e')%Q -> power u x e y -> power u x e' y.
Proof.
  intros u x e e' y E H. revert e' E. induction H as [e y A B | e y A B | e y A B | e r y A B C | e r y A B C | e r q y A B C D | e n y A B C D F | e z y A B IH C D]; intros e' E.
  - apply P_zero; auto. lra. - apply P_one; auto. lra. - apply P_half; auto. lra. - apply P_quarter with r; auto. lra. - apply P_three_halves with r; auto. lra.
  - apply P_five_quarters with r q; auto. lra. - apply P_integer with n; auto. lra. - apply P_inverse with z; auto; try lra. apply IH. lra.
Qed.

Definition good_fb (s : Z) (d : decimal) (fb : decimal -> res decimal) : Prop := forall e c, wf e -> dneg e = false -> fb e = Ok c -> at_s s c /\ power (ulp s) (num d) (num e) (num c).
Lemma small_scale : forall fb d e c, wf d -> d_pow_dec_nonneg fb d e = Ok c -> dscale d <= 38.
Proof. intros fb d e c [_ W] H. unfold d_pow_dec_nonneg in H. bd H o E1. unfold to_scale, from_u64 in E1. cbn in E1. destruct (dscale d <? 0) eqn:E; b2p; [lia |]. msteps. lia. Qed.
Lemma pow_dec_gen : forall s fb d e c, 2 <= s -> at_s s d -> wf e -> good_fb s d fb -> d_pow_dec_nonneg fb d e = Ok c -> at_s s c /\ power (ulp s) (num d) (num e) (num c).
Proof.
  intros s fb d e c S2 A We G H. assert (Es : dscale d = s) by apply A. pose proof (small_scale _ _ _ _ (proj1 A) H) as S38. rewrite Es in S38.
  assert (L : 1 * 10 ^ s < 2 ^ 128) by (assert (10 ^ s <= 10 ^ 38) by (apply Z.pow_le_mono_r; lia); lia). destruct (whole_at 1 s ltac:(lia) ltac:(lia) L) as [O1 O2].
  assert (D0 : 0 <= dscale d) by lia. destruct (pow_cases _ _ _ _ D0 H) as [(Z0 & ->) | (Nz & Ee & K)]; rewrite Es in *.
  { split; auto. apply P_zero; [apply num_zero; auto | exact O2]. }
  destruct K as [(-> & r & R1 & R2) | [(-> & R1) | [(-> & ->) | [(-> & r & q & R1 & R2 & R3) | [(-> & r & R1 & R2) | [(I1 & N1 & n & R1 & R2) | [(I1 & N1 & n & r & R1 & R2 & R3) | (N1 & r & R1 & R2)]]]]]]].
  - destruct (root_spec _ _ _ A R1) as [B Q]. destruct (root_spec _ _ _ B R2) as [C Q']. split; auto. apply P_quarter with (num r); auto. rewrite part_num; [reflexivity | lia | apply four_div; lia | lia].
  - destruct (root_spec _ _ _ A R1) as [B Q]. split; auto. apply P_half; auto. rewrite part_num; [reflexivity | lia | apply two_div; lia | lia].
  - split; auto. apply P_one; [exact O2 | reflexivity].
  - destruct (root_spec _ _ _ A R1) as [B Q]. destruct (root_spec _ _ _ B R2) as [C Q']. destruct (cut_mul _ _ _ _ A C R3) as [D K]. split; auto. apply P_five_quarters with (num r) (num q); auto. rewrite part_num; [reflexivity | lia | apply four_div; lia | lia].
  - destruct (root_spec _ _ _ A R1) as [B Q]. destruct (cut_mul _ _ _ _ A B R2) as [D K]. split; auto. apply P_three_halves with (num r); auto. rewrite part_num; [reflexivity | lia | apply two_div; lia | lia].
  - destruct (integer_val _ _ We Nz I1 R1) as (m & -> & V). apply (power_int s d m c); auto. apply num_int; auto. lia.
  - destruct (integer_val _ _ We Nz I1 R1) as (m & -> & V). destruct (num_neg _ N1 Nz We) as [E1 E2]. destruct (power_int s d m r (- num e)%Q A R2) as [B P]. { rewrite E2. apply num_int; cbn; auto. lia. }
    destruct (cut_div _ _ _ B ltac:(lia) R3) as (C & P0 & K). split; auto. apply P_inverse with (num r); auto.
  - destruct (num_neg _ N1 Nz We) as [E1 E2]. destruct (G (mkD (dval e) (dscale e) false) r) as [B P]; auto. destruct (cut_div _ _ _ B ltac:(lia) R2) as (C & P0 & K). split; auto. apply P_inverse with (num r); auto.
    apply power_proper with (2 := P). rewrite E2. reflexivity.
Qed.
Theorem pow_dec_spec : forall d e c, wf d -> dneg d = false -> 2 <= dscale d -> wf e -> d_pow_dec d e = Ok c ->
  wf c /\ dscale c = dscale d /\ dneg c = false /\ power (ulp (dscale d)) (num d) (num e) (num c).
Proof.
  intros d e c W N S2 We H. assert (A : at_s (dscale d) d) by (split; auto). unfold d_pow_dec in H. apply (pow_dec_gen (dscale d)) in H; auto.
  - destruct H as [(C1 & C2 & C3) P]. auto.
  - intros e' c' We' Ne' H'. apply (pow_dec_gen (dscale d)) with (5 := H'); auto. intros e'' c'' _ _ K. discriminate.
Qed.

(** ** Which exponents are computed at all *)
Definition in_menu (k : Q) : Prop := (k == 1 # 4 \/ k == 1 # 2 \/ k == 5 # 4 \/ k == 3 # 2 \/ exists n : Z, (0 <= n)%Z /\ k == inject_Z n)%Q.
Definition on_menu (e : Q) : Prop := in_menu e \/ in_menu (- e)%Q.
Lemma power_menu : forall u x e y, power u x e y -> (0 <= e)%Q -> in_menu e.
Proof.
  intros u x e y H P. unfold in_menu. destruct H as [e y A B | e y A B | e y A B | e r y A B C | e r y A B C | e r q y A B C D | e n y A B C D F | e z y A B C D]; auto.
  - do 4 right. exists 0%Z. split; [lia | exact A].
  - do 4 right. exists 1%Z. split; [lia | exact A].
  - do 4 right. exists (Zpos n). split; [lia | exact A].
  - exfalso. lra.
Qed.
Theorem pow_dec_menu : forall d e c, wf d -> dneg d = false -> 2 <= dscale d -> wf e -> d_pow_dec d e = Ok c -> on_menu (num e).
Proof.
  intros d e c W N S2 We H. destruct (pow_dec_spec d e c W N S2 We H) as (_ & _ & _ & P). unfold on_menu. destruct (Qlt_le_dec (num e) 0) as [L | L]; [| left; eapply power_menu; eauto].
  right. inversion P as [e0 y0 A B | e0 y0 A B | e0 y0 A B | e0 r y0 A B C | e0 r y0 A B C | e0 r q y0 A B C D | e0 n y0 A B C D F | e0 z y0 A B C D]; subst; try lra.
  - exfalso. assert (0 < inject_Z (Zpos n))%Q by (change 0%Q with (inject_Z 0); rewrite <- Zlt_Qlt; lia). lra.
  - eapply power_menu; [exact B | lra].
Qed.
Definition okp {A} (m : res A) : Prop := (exists a, m = Ok a) \/ m = Panic.
Lemma bind_panic : forall A B (m : res A) (k : A -> res B), okp m -> (forall a, m = Ok a -> k a = Panic) -> bind m k = Panic.
Proof. intros A B m k [[a ->] | ->] H; cbn; auto. Qed.
Lemma okp_scale : forall d s, okp (to_scale d s).
Proof. intros d s. unfold to_scale, pow10, cmul, cdiv, okp. repeat (match goal with |- context [if ?b then _ else _] => destruct b end; cbn [bind]); eauto. Qed.
Lemma okp_div : forall a b, okp (d_div a b).
Proof. intros a b. unfold d_div, denominator, pow10, cmul, cdiv, okp. repeat (match goal with |- context [if ?b then _ else _] => destruct b end; cbn [bind]); eauto. Qed.
Theorem pow_dec_scales : forall d e, 0 <= dscale d -> dscale e <> dscale d -> dval e <> 0 -> d_pow_dec d e = Panic.
Proof.
  intros d e D0 S Z0. unfold d_pow_dec, d_pow_dec_nonneg at 1.
  apply bind_panic; [apply okp_scale | intros o E1]. apply bind_panic; [apply okp_scale | intros f4 E2]. apply bind_panic; [apply okp_scale | intros t2 E3].
  apply bind_panic; [apply okp_scale | intros f5 E4]. apply bind_panic; [apply okp_scale | intros t3 E5].
  apply whole_eq in E1; auto. apply whole_eq in E2; auto. subst o f4.
  apply bind_panic; [apply okp_div | intros p25 E6]. apply bind_panic; [apply okp_div | intros p5 E7]. apply bind_panic; [apply okp_div | intros p125 E8]. apply bind_panic; [apply okp_div | intros p15 E9].
  apply part_eq in E6; [| auto | lia]. subst p25. unfold is_zero, d_eq. apply Z.eqb_neq in Z0. apply Z.eqb_neq in S. rewrite Z0. cbn [part dscale]. rewrite S. reflexivity.
Qed.

(** ** The exponents on the menu are computed when the numbers fit *)
Lemma whole_total : forall n s, 0 <= s <= 38 -> 0 <= n -> n * 10 ^ s < 2 ^ 128 -> to_scale (from_u64 n) s = Ok (whole n s).
Proof.
  intros n s Hs Hn L. unfold to_scale, from_u64. cbn [dscale dval dneg]. destruct (s <? 0) eqn:E; b2p; [lia |]. rewrite Z.sub_0_r. unfold pow10. destruct (s <=? 38) eqn:E2; b2p; [| lia].
  cbn [bind]. unfold cmul, U128. destruct (_ <? _) eqn:E3; b2p; [reflexivity | lia].
Qed.
Lemma part_total : forall n m s, 0 <= s <= 38 -> 0 <= n -> 0 < m -> n * 10 ^ s * 10 ^ s < 2 ^ 128 -> d_div (whole n s) (whole m s) = Ok (part n m s).
Proof.
  intros n m s Hs Hn Hm L. pose proof (Z.pow_pos_nonneg 10 s ltac:(lia) ltac:(lia)) as T.
  assert (E : exists c, d_div (whole n s) (whole m s) = Ok c).
  { unfold d_div, denominator, whole. cbn [dscale dval dneg]. unfold pow10. destruct (s <=? 38) eqn:E2; b2p; [| lia]. cbn [bind]. unfold cmul, U128. destruct (_ <? 2 ^ 128) eqn:E3; b2p; [| lia]. cbn [bind]. unfold cdiv. destruct (m * 10 ^ s =? 0) eqn:E4; b2p; [nia |]. cbn [bind]. eauto. }
  destruct E as [c E]. rewrite E. f_equal. apply part_eq in E; auto. lia.
Qed.
Lemma root_le : forall u x r, (0 < u)%Q -> (0 <= x)%Q -> sqroot u x r -> (r <= 1 + u \/ r <= x + u)%Q.
Proof.
  intros u x r U X (R0 & R1 & _). destruct (Qlt_le_dec (1 + u) r) as [L | L]; [| auto]. right. specialize (R1 ltac:(lra)).
  assert (r - u <= (r - u) * (r - u))%Q; [| lra]. setoid_replace (r - u)%Q with ((r - u) * 1)%Q at 1 by ring. apply mul_le; lra.
Qed.
Theorem pow_dec_completes : forall d e, wf d -> dneg d = false -> 2 <= dscale d <= 18 -> wf e -> dneg e = false -> dscale e = dscale d ->
  (num e == 0 \/ num e == 1 # 4 \/ num e == 1 # 2 \/ num e == 1 \/ num e == 5 # 4 \/ num e == 3 # 2)%Q -> (num d * (num d + 1) < pow_room (dscale d))%Q ->
  exists c, d_pow_dec d e = Ok c.
Proof.
  intros d e W N Hs We Ne Se Menu Room. set (s := dscale d) in *. assert (A : at_s s d) by (split; auto). pose proof (at_nn _ _ A) as X0.
  pose proof (Z.pow_pos_nonneg 10 s ltac:(lia) ltac:(lia)) as T. assert (T18 : 10 ^ s <= 10 ^ 18) by (apply Z.pow_le_mono_r; lia).
  assert (RM : (300 <= pow_room s)%Q).
  { unfold pow_room. assert (P : (0 < inject_Z (10 ^ s))%Q) by (change 0%Q with (inject_Z 0); rewrite <- Zlt_Qlt; auto). apply Qle_shift_div_l; [setoid_replace 0%Q with (0 * inject_Z (10 ^ s))%Q by ring; apply Qmult_lt_r; auto |].
    rewrite <- inject_Z_mult. change 300%Q with (inject_Z 300). rewrite <- inject_Z_mult, <- Zle_Qle. assert (10 ^ s * 10 ^ s <= 10 ^ 18 * 10 ^ 18) by (apply Z.mul_le_mono_nonneg; lia). lia. }
  pose proof (ulp_s s ltac:(lia)) as U0. assert (U1 : (ulp s <= 1 # 100)%Q).
  { unfold ulp. apply Qle_shift_div_r; [change 0%Q with (inject_Z 0); rewrite <- Zlt_Qlt; auto |]. assert (100 <= 10 ^ s) by (change 100 with (10 ^ 2); apply Z.pow_le_mono_r; lia). rewrite Zle_Qle in H. change (inject_Z 100) with 100%Q in H. lra. }
  set (x := num d) in *. set (u := ulp s) in *. assert (XX : (0 <= x * x)%Q) by (apply Qmult_le_0_compat; auto). assert (XR : (x < pow_room s)%Q) by lra.
  destruct (root_total s d A ltac:(lia) XR) as [r R]. destruct (root_spec _ _ _ A R) as [Ar Rr]. fold x u in Rr. pose proof (root_le u x (num r) U0 X0 Rr) as Lr.
  assert (RR : (num r < pow_room s)%Q). { destruct Lr as [L | L]; [lra |]. destruct (Qlt_le_dec x 2) as [X2 | X2]; [lra |]. assert (2 * x <= x * x)%Q by (apply mul_le; lra). lra. }
  destruct (root_total s r Ar ltac:(lia) RR) as [q Q]. destruct (root_spec _ _ _ Ar Q) as [Aq Rq]. fold u in Rq. pose proof (at_nn _ _ Ar) as R0. pose proof (root_le u (num r) (num q) U0 R0 Rq) as Lq. pose proof (at_nn _ _ Aq) as Q0.
  assert (PR : forall y, (0 <= y)%Q -> (y <= 2 \/ y <= x + 1)%Q -> (x * y < room s)%Q).
  { intros y Y0 Y. rewrite pow_room_eq. destruct Y as [Y | Y].
    - destruct (Qlt_le_dec x 2) as [X2 | X2]; [assert (x * y <= 2 * 2)%Q by (apply mul_le; lra); lra |]. assert (x * y <= x * (x + 1))%Q by (apply mul_le; lra). lra.
    - assert (x * y <= x * (x + 1))%Q by (apply mul_le; lra). lra. }
  destruct (mul_room s d r A Ar ltac:(lia)) as [m1 M1]. { apply PR; auto. destruct Lr; [left | right]; lra. }
  destruct (mul_room s d q A Aq ltac:(lia)) as [m2 M2]. { apply PR; auto. destruct Lr, Lq; try (left; lra); right; lra. }
  destruct (four_div s ltac:(lia)) as [k K].
  assert (VE : forall j, (num e == inject_Z j / 4)%Q -> dval e = j * k).
  { intros j E. unfold num, mant in E. rewrite Ne, Se, K, inject_Z_mult in E. assert (0 < k) by lia. assert (P : (0 < inject_Z k)%Q) by (change 0%Q with (inject_Z 0); rewrite <- Zlt_Qlt; auto).
    change (inject_Z 4) with 4%Q in E. assert (E2 : (inject_Z (dval e) == inject_Z (j * k))%Q). { rewrite inject_Z_mult. setoid_replace (inject_Z (dval e)) with (inject_Z (dval e) / (inject_Z k * 4) * (inject_Z k * 4))%Q by (field; lra). rewrite E. field. }
    unfold Qeq in E2. cbn in E2. lia. }
  unfold d_pow_dec, d_pow_dec_nonneg at 1. fold s. rewrite !whole_total by lia. cbn [bind]. rewrite !part_total by nia. cbn [bind].
  assert (PE : forall n m, (n * 4 mod m = 0) -> 0 < m -> part n m s = mkD (n * 4 / m * k) s false).
  { intros n m D M. unfold part. f_equal. rewrite K. apply Z.mod_divide in D; [| lia]. destruct D as [z D]. rewrite D, Z.div_mul by lia. replace (n * (k * 4)) with (z * k * m) by nia. apply Z.div_mul. lia. }
  rewrite (PE 1 4), (PE 1 2), (PE 5 4), (PE 3 2) by (try reflexivity; lia). replace (whole 1 s) with (mkD (4 * k) s false) by (unfold whole; f_equal; lia).
  change (1 * 4 / 4) with 1. change (1 * 4 / 2) with 2. change (5 * 4 / 4) with 5. change (3 * 4 / 2) with 6.
  assert (EQ : forall j i, dval e = j * k -> d_eq e (mkD (i * k) s false) = Ok (j =? i)).
  { intros j i V. unfold d_eq. rewrite Se, Ne, V. cbn [dscale dval dneg]. fold s. rewrite Z.eqb_refl. cbn [negb Bool.eqb]. rewrite andb_true_r. f_equal. destruct (j =? i) eqn:E; b2p; [subst; apply Z.eqb_refl | apply Z.eqb_neq; nia]. }
  assert (IZ : forall j, dval e = j * k -> is_zero e = (j =? 0)). { intros j V. unfold is_zero. rewrite V. destruct (j =? 0) eqn:E; b2p; [subst; reflexivity | apply Z.eqb_neq; nia]. }
  destruct Menu as [E | [E | [E | [E | [E | E]]]]].
  - rewrite (IZ 0) by (apply VE; rewrite E; reflexivity). cbn. eauto.
  - assert (V : dval e = 1 * k) by (apply VE; rewrite E; reflexivity). rewrite (IZ 1 V), !(EQ 1 _ V). cbn. rewrite R. cbn. rewrite Q. cbn. eauto.
  - assert (V : dval e = 2 * k) by (apply VE; rewrite E; reflexivity). rewrite (IZ 2 V), !(EQ 2 _ V). cbn. rewrite R. cbn. eauto.
  - assert (V : dval e = 4 * k) by (apply VE; rewrite E; reflexivity). rewrite (IZ 4 V), !(EQ 4 _ V). cbn. eauto.
  - assert (V : dval e = 5 * k) by (apply VE; rewrite E; reflexivity). rewrite (IZ 5 V), !(EQ 5 _ V). cbn. rewrite R. cbn. rewrite Q. cbn. eauto.
  - assert (V : dval e = 6 * k) by (apply VE; rewrite E; reflexivity). rewrite (IZ 6 V), !(EQ 6 _ V). cbn. rewrite R. cbn. eauto.
Qed.
