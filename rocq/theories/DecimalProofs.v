(** Proofs about decimal arithmetic. *)
From Coq Require Import ZArith QArith Qabs Qround Bool Lia Lqa.
From Verif Require Import Base BaseLemmas DecimalModel DecimalSpec.
Open Scope Z_scope.

(** ** Fractions with positive denominators as integer inequalities *)
Lemma frac_eq : forall a b, 0 < b -> (inject_Z a / inject_Z b == a # Z.to_pos b)%Q.
Proof. intros a b Hb. rewrite Qmake_Qdiv. rewrite Z2Pos.id by lia. reflexivity. Qed.

Lemma frac_le : forall a b c d, 0 < b -> 0 < d ->
  (inject_Z a / inject_Z b <= inject_Z c / inject_Z d)%Q <-> a * d <= c * b.
Proof. intros. rewrite !frac_eq by assumption. unfold Qle; cbn. rewrite !Z2Pos.id by lia. reflexivity. Qed.

Lemma frac_lt : forall a b c d, 0 < b -> 0 < d ->
  (inject_Z a / inject_Z b < inject_Z c / inject_Z d)%Q <-> a * d < c * b.
Proof. intros. rewrite !frac_eq by assumption. unfold Qlt; cbn. rewrite !Z2Pos.id by lia. reflexivity. Qed.

Lemma frac_eqv : forall a b c d, 0 < b -> 0 < d ->
  (inject_Z a / inject_Z b == inject_Z c / inject_Z d)%Q <-> a * d = c * b.
Proof. intros. rewrite !frac_eq by assumption. unfold Qeq; cbn. rewrite !Z2Pos.id by lia. reflexivity. Qed.

Lemma inject_nz : forall b, 0 < b -> ~ (inject_Z b == 0)%Q.
Proof. intros b Hb. unfold Qeq; cbn. lia. Qed.

Lemma frac_mul : forall a b c d, 0 < b -> 0 < d ->
  (inject_Z a / inject_Z b * (inject_Z c / inject_Z d) == inject_Z (a * c) / inject_Z (b * d))%Q.
Proof. intros. rewrite !inject_Z_mult. field. split; apply inject_nz; auto. Qed.

Lemma frac_add : forall a c b, 0 < b ->
  (inject_Z a / inject_Z b + inject_Z c / inject_Z b == inject_Z (a + c) / inject_Z b)%Q.
Proof. intros. rewrite inject_Z_plus. field. apply inject_nz; auto. Qed.

Lemma frac_div : forall a b c d, 0 < b -> 0 < d -> c <> 0 ->
  (inject_Z a / inject_Z b / (inject_Z c / inject_Z d) == inject_Z (a * Z.sgn c * d) / inject_Z (b * Z.abs c))%Q.
Proof.
  intros. rewrite !inject_Z_mult. destruct (Z.lt_trichotomy c 0) as [Hc | [Hc | Hc]]; try lia.
  - replace (Z.sgn c) with (-1) by lia. replace (Z.abs c) with (- c) by lia.
    rewrite (inject_Z_opp c). change (inject_Z (-1)) with (- (1))%Q. field.
    repeat split; try (apply inject_nz; lia); unfold Qeq; cbn; lia.
  - replace (Z.sgn c) with 1 by lia. replace (Z.abs c) with c by lia. change (inject_Z 1) with 1%Q. field.
    repeat split; apply inject_nz; lia.
Qed.

Lemma frac_abs : forall a b, 0 < b -> (Qabs (inject_Z a / inject_Z b) == inject_Z (Z.abs a) / inject_Z b)%Q.
Proof. intros. rewrite !frac_eq by auto. reflexivity. Qed.

Lemma frac_nonneg : forall a b, 0 < b -> (0 <= inject_Z a / inject_Z b)%Q <-> 0 <= a.
Proof. intros. rewrite frac_eq by auto. unfold Qle; cbn. lia. Qed.

Lemma abs_mant : forall d, 0 <= dval d -> Z.abs (mant d) = dval d.
Proof. intros d H. unfold mant. destruct (dneg d); lia. Qed.

(** ** Rounding relations from integer facts *)
Lemma truncated_frac : forall s r e q, 0 <= s -> 0 < q ->
  Z.abs r * q <= Z.abs e < (Z.abs r + 1) * q -> 0 <= r * e ->
  truncated s (inject_Z r / inject_Z (10 ^ s)) (inject_Z e / inject_Z (10 ^ s * q)).
Proof.
  intros s r e q Hs Hq [H1 H2] Hsg. pose proof (pow10_pos s Hs) as Hp. unfold truncated, same_sign, ulp.
  assert (0 < 10 ^ s * q) by nia.
  rewrite !frac_abs by auto. repeat split.
  - apply frac_le; auto. nia.
  - change (1%Q) with (inject_Z 1). rewrite frac_add by auto. apply frac_lt; auto. nia.
  - rewrite frac_mul by auto. apply frac_nonneg; nia.
Qed.

Lemma rounded_away_frac : forall s r e q, 0 <= s -> 0 < q ->
  (Z.abs r - 1) * q < Z.abs e <= Z.abs r * q -> 0 <= r * e ->
  rounded_away s (inject_Z r / inject_Z (10 ^ s)) (inject_Z e / inject_Z (10 ^ s * q)).
Proof.
  intros s r e q Hs Hq [H1 H2] Hsg. pose proof (pow10_pos s Hs) as Hp. unfold rounded_away, same_sign, ulp.
  assert (0 < 10 ^ s * q) by nia.
  rewrite !frac_abs by auto. repeat split.
  - apply frac_le; auto. nia.
  - change (1%Q) with (inject_Z 1).
    assert (E : (inject_Z 1 / inject_Z (10 ^ s) == inject_Z q / inject_Z (10 ^ s * q))%Q) by (apply frac_eqv; auto; lia).
    rewrite E. rewrite frac_add by auto. apply frac_lt; auto. nia.
  - rewrite frac_mul by auto. apply frac_nonneg; nia.
Qed.

#[global] Instance truncated_proper : forall s, Proper (Qeq ==> Qeq ==> iff) (truncated s).
Proof. intros s r r' Hr e e' He. unfold truncated, same_sign. rewrite Hr, He. reflexivity. Qed.
#[global] Instance rounded_proper : forall s, Proper (Qeq ==> Qeq ==> iff) (rounded_away s).
Proof. intros s r r' Hr e e' He. unfold rounded_away, same_sign. rewrite Hr, He. reflexivity. Qed.

(** ** Addition and subtraction *)
Lemma add_spec : forall a b, wf a -> wf b ->
  match d_add a b with
  | Ok c => dscale a = dscale b /\ wf c /\ dscale c = dscale a /\ (num c == num a + num b)%Q
  | Err e => e = DifferentScale /\ dscale a <> dscale b
  | Panic => dscale a = dscale b /\ 2 ^ 128 <= Z.abs (mant a + mant b)
  | NoFuel => False
  end.
Proof.
  intros [va sa na] [vb sb nb] [Ha Hsa] [Hb Hsb]. cbn in *. unfold d_add; cbn.
  destruct (sa =? sb) eqn:Es; cbn; b2p; auto. subst sb.
  assert (Hp := pow10_pos sa ltac:(lia)).
  assert (G : forall v n, 0 <= v < 2 ^ 128 -> mant (mkD v sa n) = mant (mkD va sa na) + mant (mkD vb sa nb) ->
     sa = sa /\ wf (mkD v sa n) /\ sa = sa /\ (num (mkD v sa n) == num (mkD va sa na) + num (mkD vb sa nb))%Q).
  { intros v n Hv Hm. split; auto. split; [split; cbn; lia |]. split; auto. unfold num at 2 3; cbn [dscale].
    rewrite frac_add by auto. rewrite <- Hm. reflexivity. }
  destruct (Bool.eqb na nb) eqn:En.
  - apply eqb_prop in En. subst nb. unfold cadd. destruct (va + vb <? U128) eqn:E; cbn; b2p; unfold U128 in *.
    + apply G; [lia |]. unfold mant; cbn. destruct na; lia.
    + split; auto. unfold mant; cbn. destruct na; lia.
  - apply eqb_false_iff in En. destruct (vb <? va) eqn:E1; b2p.
    + rewrite csub_Ok by lia. cbn. apply G; [lia |]. unfold mant; cbn. destruct na, nb; try congruence; lia.
    + destruct (va <? vb) eqn:E2; b2p.
      * rewrite csub_Ok by lia. cbn. apply G; [lia |]. unfold mant; cbn. destruct na, nb; try congruence; lia.
      * apply G; [lia |]. unfold mant; cbn. destruct na, nb; try congruence; lia.
Qed.

Definition flip (b : decimal) : decimal := mkD (dval b) (dscale b) (negb (dneg b)).
Lemma mant_flip : forall b, mant (flip b) = - mant b.
Proof. intros [v s n]. unfold mant, flip; cbn. destruct n; cbn; lia. Qed.
Lemma num_flip : forall b, (num (flip b) == - num b)%Q.
Proof. intros b. unfold num. rewrite mant_flip. cbn. rewrite inject_Z_opp. unfold Qdiv. ring. Qed.

Lemma sub_spec : forall a b, wf a -> wf b ->
  match d_sub a b with
  | Ok c => dscale a = dscale b /\ wf c /\ dscale c = dscale a /\ (num c == num a - num b)%Q
  | Err e => e = DifferentScale /\ dscale a <> dscale b
  | Panic => dscale a = dscale b /\ 2 ^ 128 <= Z.abs (mant a - mant b)
  | NoFuel => False
  end.
Proof.
  intros a b Ha Hb. unfold d_sub. change (mkD (dval b) (dscale b) (negb (dneg b))) with (flip b).
  assert (Hf : wf (flip b)) by exact Hb. pose proof (add_spec a (flip b) Ha Hf) as H.
  destruct (d_add a (flip b)); auto.
  - rewrite num_flip in H. exact H.
  - rewrite mant_flip in H. exact H.
Qed.

(** ** Multiplication *)
Lemma sign_mul_mant : forall va sa na vb sb nb v s,
  0 <= va -> 0 <= vb -> 0 <= v ->
  0 <= mant (mkD v s (sign_mul na nb)) * (mant (mkD va sa na) * mant (mkD vb sb nb)).
Proof. intros. unfold mant, sign_mul; cbn. destruct na, nb; cbn; nia. Qed.

Lemma div_bounds : forall n q, 0 <= n -> 0 < q -> n / q * q <= n < (n / q + 1) * q /\ 0 <= n / q.
Proof.
  intros n q Hn Hq. pose proof (Z.div_mod n q ltac:(lia)). pose proof (Z.mod_pos_bound n q Hq).
  pose proof (Z.div_pos n q Hn Hq). nia.
Qed.

Lemma div_up_bounds : forall n q, 0 <= n -> 0 < q ->
  ((n + (q - 1)) / q - 1) * q < n <= (n + (q - 1)) / q * q /\ 0 <= (n + (q - 1)) / q.
Proof. intros n q Hn Hq. pose proof (div_bounds (n + (q - 1)) q ltac:(lia) Hq). nia. Qed.

Lemma div_le_self : forall n q, 0 <= n -> 0 < q -> n / q <= n.
Proof. intros. pose proof (div_bounds n q ltac:(lia) ltac:(lia)). nia. Qed.

Lemma abs_mant_mul : forall a b, 0 <= dval a -> 0 <= dval b -> Z.abs (mant a * mant b) = dval a * dval b.
Proof. intros. rewrite Z.abs_mul, !abs_mant by auto. reflexivity. Qed.

Lemma num_mul : forall a b, wf a -> wf b ->
  (num a * num b == inject_Z (mant a * mant b) / inject_Z (10 ^ dscale a * 10 ^ dscale b))%Q.
Proof. intros a b [_ Ha] [_ Hb]. unfold num. apply frac_mul; apply pow10_pos; lia. Qed.

Lemma mul_spec : forall a b, wf a -> wf b ->
  returns_or_panics (d_mul a b)
    (fun c => wf c /\ dscale c = dscale a /\ truncated (dscale a) (num c) (num a * num b))
    (2 ^ 128 <= dval a * dval b \/ 38 < dscale b).
Proof.
  intros a b Wa Wb. pose proof Wa as [Ha Hsa]. pose proof Wb as [Hb Hsb].
  assert (Hq := pow10_pos (dscale b) ltac:(lia)).
  unfold d_mul, cmul, denominator, pow10. destruct (dval a * dval b <? U128) eqn:E; cbn; b2p; unfold U128 in *; auto.
  destruct (dscale b <=? 38) eqn:E2; cbn; b2p; auto.
  rewrite cdiv_Ok by lia. cbn.
  destruct (div_bounds (dval a * dval b) (10 ^ dscale b) ltac:(nia) Hq) as [B1 B2].
  pose proof (div_le_self (dval a * dval b) (10 ^ dscale b) ltac:(nia) Hq).
  set (v := dval a * dval b / 10 ^ dscale b) in *.
  split; [split; cbn; lia |]. split; auto.
  rewrite num_mul by auto. unfold num at 1. cbn [dscale].
  apply truncated_frac; try lia.
  - rewrite abs_mant_mul, abs_mant by (cbn; lia). cbn. lia.
  - destruct a as [va sa na], b as [vb sb nb]. apply sign_mul_mant; cbn in *; lia.
Qed.

Lemma mul_up_spec : forall a b, wf a -> wf b ->
  returns_or_panics (d_mul_up a b)
    (fun c => wf c /\ dscale c = dscale a /\ rounded_away (dscale a) (num c) (num a * num b))
    (2 ^ 128 <= dval a * dval b + (10 ^ dscale b - 1) \/ 38 < dscale b).
Proof.
  intros a b Wa Wb. pose proof Wa as [Ha Hsa]. pose proof Wb as [Hb Hsb].
  assert (Hq := pow10_pos (dscale b) ltac:(lia)).
  unfold d_mul_up, denominator, pow10. destruct (dscale b <=? 38) eqn:E2; cbn; b2p; auto.
  unfold cmul. destruct (dval a * dval b <? U128) eqn:E; cbn; b2p; unfold U128 in *; [| left; lia].
  rewrite csub_Ok by lia. cbn. unfold cadd.
  destruct (dval a * dval b + (10 ^ dscale b - 1) <? U128) eqn:E3; cbn; b2p; unfold U128 in *; [| left; lia].
  rewrite cdiv_Ok by lia. cbn.
  destruct (div_up_bounds (dval a * dval b) (10 ^ dscale b) ltac:(nia) Hq) as [B1 B2].
  pose proof (div_le_self (dval a * dval b + (10 ^ dscale b - 1)) (10 ^ dscale b) ltac:(nia) Hq).
  set (v := (dval a * dval b + (10 ^ dscale b - 1)) / 10 ^ dscale b) in *.
  split; [split; cbn; lia |]. split; auto.
  rewrite num_mul by auto. unfold num at 1. cbn [dscale].
  apply rounded_away_frac; try lia.
  - rewrite abs_mant_mul, abs_mant by (cbn; lia). cbn. lia.
  - destruct a as [va sa na], b as [vb sb nb]. apply sign_mul_mant; cbn in *; lia.
Qed.

Lemma mul_u128_spec : forall a n, wf a -> 0 <= n < 2 ^ 128 ->
  returns_or_panics (d_mul_u128 a n)
    (fun c => wf c /\ dscale c = dscale a /\ (num c == num a * inject_Z n)%Q)
    (2 ^ 128 <= dval a * n).
Proof.
  intros a n [Ha Hs] Hn. unfold d_mul_u128, cmul. destruct (dval a * n <? U128) eqn:E; cbn; b2p; unfold U128 in *; auto.
  split; [split; cbn; nia |]. split; auto. unfold num, mant; cbn.
  destruct (dneg a); rewrite <- ?Z.mul_opp_l, inject_Z_mult; unfold Qdiv; ring.
Qed.

(** ** Division *)
Lemma num_div : forall a b, wf a -> wf b -> dval b <> 0 ->
  (num a / num b == inject_Z (mant a * Z.sgn (mant b) * 10 ^ dscale b) / inject_Z (10 ^ dscale a * dval b))%Q.
Proof.
  intros a b [Ha Hsa] [Hb Hsb] Hz. unfold num.
  rewrite frac_div; try (apply pow10_pos; lia).
  - rewrite abs_mant by lia. reflexivity.
  - unfold mant. destruct (dneg b); lia.
Qed.

Lemma abs_div_num : forall a b, 0 <= dval a -> 0 < dval b ->
  Z.abs (mant a * Z.sgn (mant b) * 10 ^ dscale b) = dval a * Z.abs (10 ^ dscale b).
Proof.
  intros. rewrite !Z.abs_mul, abs_mant by auto.
  replace (Z.abs (Z.sgn (mant b))) with 1; [ring |]. unfold mant. destruct (dneg b); lia.
Qed.

Lemma sign_div_mant : forall va sa na vb sb nb v s q,
  0 <= va -> 0 <= vb -> 0 <= v -> 0 <= q ->
  0 <= mant (mkD v s (sign_mul na nb)) * (mant (mkD va sa na) * Z.sgn (mant (mkD vb sb nb)) * q).
Proof.
  intros. assert (0 <= Z.sgn vb) by lia.
  assert (0 <= v * (va * Z.sgn vb * q)) by (repeat apply Z.mul_nonneg_nonneg; auto).
  unfold mant, sign_mul; cbn. destruct na, nb; cbn; rewrite ?Z.sgn_opp; nia.
Qed.

Lemma div_spec : forall a b, wf a -> wf b ->
  returns_or_panics (d_div a b)
    (fun c => dval b <> 0 /\ wf c /\ dscale c = dscale a /\ truncated (dscale a) (num c) (num a / num b))
    (dval b = 0 \/ 2 ^ 128 <= dval a * 10 ^ dscale b \/ 38 < dscale b).
Proof.
  intros a b Wa Wb. pose proof Wa as [Ha Hsa]. pose proof Wb as [Hb Hsb].
  assert (Hq := pow10_pos (dscale b) ltac:(lia)).
  unfold d_div, cmul, denominator, pow10. destruct (dscale b <=? 38) eqn:E2; cbn; b2p; auto.
  destruct (dval a * 10 ^ dscale b <? U128) eqn:E; cbn; b2p; unfold U128 in *; auto.
  unfold cdiv. destruct (dval b =? 0) eqn:E3; cbn; b2p; auto.
  destruct (div_bounds (dval a * 10 ^ dscale b) (dval b) ltac:(nia) ltac:(lia)) as [B1 B2].
  pose proof (div_le_self (dval a * 10 ^ dscale b) (dval b) ltac:(nia) ltac:(lia)).
  set (v := dval a * 10 ^ dscale b / dval b) in *.
  split; auto. split; [split; cbn; lia |]. split; auto.
  rewrite num_div by auto. unfold num at 1. cbn [dscale].
  apply truncated_frac; try lia.
  - rewrite abs_div_num, abs_mant by (cbn; lia). cbn. rewrite (Z.abs_eq (10 ^ dscale b)) by lia. lia.
  - destruct a as [va sa na], b as [vb sb nb]. apply sign_div_mant; cbn in *; lia.
Qed.

Lemma div_up_spec : forall a b, wf a -> wf b ->
  returns_or_panics (d_div_up a b)
    (fun c => dval b <> 0 /\ wf c /\ dscale c = dscale a /\ rounded_away (dscale a) (num c) (num a / num b))
    (dval b = 0 \/ 2 ^ 128 <= dval a * 10 ^ dscale b + (dval b - 1) \/ 38 < dscale b).
Proof.
  intros a b Wa Wb. pose proof Wa as [Ha Hsa]. pose proof Wb as [Hb Hsb].
  assert (Hq := pow10_pos (dscale b) ltac:(lia)).
  unfold d_div_up, cmul, denominator, pow10. destruct (dscale b <=? 38) eqn:E2; cbn; b2p; auto.
  destruct (dval a * 10 ^ dscale b <? U128) eqn:E; cbn; b2p; unfold U128 in *; [| destruct (Z.eq_dec (dval b) 0); auto; right; left; lia].
  unfold csub. destruct (1 <=? dval b) eqn:E1; cbn; b2p; [| left; lia].
  unfold cadd. destruct (dval a * 10 ^ dscale b + (dval b - 1) <? U128) eqn:E4; cbn; b2p; unfold U128 in *; auto.
  rewrite cdiv_Ok by lia. cbn.
  destruct (div_up_bounds (dval a * 10 ^ dscale b) (dval b) ltac:(nia) ltac:(lia)) as [B1 B2].
  pose proof (div_le_self (dval a * 10 ^ dscale b + (dval b - 1)) (dval b) ltac:(nia) ltac:(lia)).
  set (v := (dval a * 10 ^ dscale b + (dval b - 1)) / dval b) in *.
  split; [lia |]. split; [split; cbn; lia |]. split; auto.
  rewrite num_div by (auto; lia). unfold num at 1. cbn [dscale].
  apply rounded_away_frac; try lia.
  - rewrite abs_div_num, abs_mant by (cbn; lia). cbn. rewrite (Z.abs_eq (10 ^ dscale b)) by lia. lia.
  - destruct a as [va sa na], b as [vb sb nb]. apply sign_div_mant; cbn in *; lia.
Qed.

Lemma div_by_zero : forall a b s, dval b = 0 ->
  d_div a b = Panic /\ d_div_up a b = Panic /\ d_div_to_scale a b s = Panic.
Proof.
  intros a b s Hz. unfold d_div, d_div_up, d_div_to_scale, denominator, pow10. rewrite Hz.
  repeat split.
  - destruct (dscale b <=? 38); cbn; auto. unfold cmul. destruct (_ <? _); auto.
  - destruct (dscale b <=? 38); cbn; auto. unfold cmul. destruct (_ <? _); auto.
  - destruct (0 <? _); cbn; auto. destruct (_ <=? 38); cbn; auto. unfold cmul. destruct (_ <? _); auto.
Qed.

(** exact quotient at scale s: mant a / 10^sa / (mant b / 10^sb) * 10^s *)
Lemma div_to_scale_spec : forall a b s, wf a -> wf b -> 0 <= s <= 255 ->
  returns_or_panics (d_div_to_scale a b s)
    (fun c => dval b <> 0 /\ wf c /\ dscale c = s /\ truncated s (num c) (num a / num b))
    (dval b = 0 \/ 38 < Z.abs (dscale a - s - dscale b) \/ 2 ^ 128 <= dval a * 10 ^ (s + dscale b - dscale a)).
Proof.
  intros a b s Wa Wb Hs. pose proof Wa as [Ha Hsa]. pose proof Wb as [Hb Hsb].
  destruct (Z.eq_dec (dval b) 0) as [Hz | Hz].
  { destruct (div_by_zero a b s Hz) as [_ [_ ->]]. cbn. auto. }
  unfold d_div_to_scale. set (diff := dscale a - s - dscale b).
  destruct (0 <? diff) eqn:Ed; b2p.
  - rewrite cdiv_Ok by auto. cbn. unfold pow10. destruct (diff <=? 38) eqn:E; cbn; b2p; [| right; left; lia].
    pose proof (pow10_pos diff ltac:(lia)) as Hd. rewrite cdiv_Ok by lia. cbn. rewrite Z.div_div by lia.
    set (q := dval b * 10 ^ diff). assert (Hq : 0 < q) by (unfold q; nia).
    destruct (div_bounds (dval a) q ltac:(lia) Hq) as [B1 B2]. pose proof (div_le_self (dval a) q ltac:(lia) Hq).
    set (v := dval a / q) in *. split; auto. split; [split; cbn; lia |]. split; auto.
    rewrite num_div by auto.
    assert (Esc : dscale a = s + (dscale b + diff)) by lia.
    assert (EQ : (inject_Z (mant a * Z.sgn (mant b) * 10 ^ dscale b) / inject_Z (10 ^ dscale a * dval b)
                 == inject_Z (mant a * Z.sgn (mant b)) / inject_Z (10 ^ s * q))%Q).
    { pose proof (pow10_pos (dscale b) ltac:(lia)). pose proof (pow10_pos (dscale a) ltac:(lia)). pose proof (pow10_pos s ltac:(lia)).
      apply frac_eqv; [nia | nia |]. unfold q. rewrite Esc, !Z.pow_add_r by lia. ring. }
    rewrite EQ. unfold num at 1. cbn [dscale]. apply truncated_frac; try lia.
    + rewrite abs_mant by (cbn; lia). cbn. rewrite Z.abs_mul, abs_mant by lia.
      replace (Z.abs (Z.sgn (mant b))) with 1; [lia |]. unfold mant. destruct (dneg b); lia.
    + destruct a as [va sa na], b as [vb sb nb]. rewrite <- (Z.mul_1_r (_ * Z.sgn _)). apply sign_div_mant; cbn in *; lia.
  - unfold pow10. destruct (- diff <=? 38) eqn:E; cbn; b2p; [| right; left; lia].
    pose proof (pow10_pos (- diff) ltac:(lia)) as Hd.
    unfold cmul. destruct (dval a * 10 ^ (- diff) <? U128) eqn:E1; cbn; b2p; unfold U128 in *;
      [| right; right; replace (s + dscale b - dscale a) with (- diff) by lia; lia].
    rewrite cdiv_Ok by auto. cbn.
    destruct (div_bounds (dval a * 10 ^ (- diff)) (dval b) ltac:(nia) ltac:(lia)) as [B1 B2].
    pose proof (div_le_self (dval a * 10 ^ (- diff)) (dval b) ltac:(nia) ltac:(lia)).
    set (v := dval a * 10 ^ (- diff) / dval b) in *. split; auto. split; [split; cbn; lia |]. split; auto.
    rewrite num_div by auto.
    assert (Esc : s + dscale b = dscale a + (- diff)) by lia.
    assert (EQ : (inject_Z (mant a * Z.sgn (mant b) * 10 ^ dscale b) / inject_Z (10 ^ dscale a * dval b)
                 == inject_Z (mant a * Z.sgn (mant b) * 10 ^ (- diff)) / inject_Z (10 ^ s * dval b))%Q).
    { pose proof (pow10_pos (dscale b) ltac:(lia)). pose proof (pow10_pos (dscale a) ltac:(lia)). pose proof (pow10_pos s ltac:(lia)).
      apply frac_eqv; [nia | nia |].
      assert (10 ^ s * 10 ^ dscale b = 10 ^ dscale a * 10 ^ (- diff)) by (rewrite <- !Z.pow_add_r by lia; f_equal; lia).
      transitivity (mant a * Z.sgn (mant b) * dval b * (10 ^ s * 10 ^ dscale b)); [ring | rewrite H3; ring]. }
    rewrite EQ. unfold num at 1. cbn [dscale]. apply truncated_frac; try lia.
    + rewrite abs_mant by (cbn; lia). cbn. rewrite !Z.abs_mul, abs_mant by lia.
      replace (Z.abs (Z.sgn (mant b))) with 1 by (unfold mant; destruct (dneg b); lia). lia.
    + destruct a as [va sa na], b as [vb sb nb]. apply sign_div_mant; cbn in *; lia.
Qed.

(** ** Scale changes *)
Lemma to_scale_spec : forall d s, wf d -> 0 <= s <= 255 ->
  returns_or_panics (to_scale d s)
    (fun c => wf c /\ dscale c = s /\ dneg c = dneg d /\ truncated s (num c) (num d) /\
              (dscale d <= s -> (num c == num d)%Q /\ to_scale c (dscale d) = Ok d))
    (38 < Z.abs (dscale d - s) \/ 2 ^ 128 <= dval d * 10 ^ (s - dscale d)).
Proof.
  intros d s [Hv Hs] Ht. unfold to_scale. destruct (s <? dscale d) eqn:E; b2p.
  - unfold pow10. destruct (dscale d - s <=? 38) eqn:E1; cbn; b2p; [| left; lia].
    pose proof (pow10_pos (dscale d - s) ltac:(lia)) as Hp. rewrite cdiv_Ok by lia. cbn.
    destruct (div_bounds (dval d) (10 ^ (dscale d - s)) ltac:(lia) Hp) as [B1 B2].
    pose proof (div_le_self (dval d) (10 ^ (dscale d - s)) ltac:(lia) Hp).
    set (v := dval d / 10 ^ (dscale d - s)) in *.
    split; [split; cbn; lia |]. split; auto. split; auto. split; [| intros; lia].
    unfold num. cbn [dscale]. replace (10 ^ dscale d) with (10 ^ s * 10 ^ (dscale d - s))
      by (rewrite <- Z.pow_add_r by lia; f_equal; lia).
    apply truncated_frac; try lia.
    + rewrite !abs_mant by (cbn; lia). cbn. lia.
    + unfold mant; cbn. destruct (dneg d); nia.
  - unfold pow10. destruct (s - dscale d <=? 38) eqn:E1; cbn; b2p; [| left; lia].
    pose proof (pow10_pos (s - dscale d) ltac:(lia)) as Hp.
    unfold cmul. destruct (dval d * 10 ^ (s - dscale d) <? U128) eqn:E2; cbn; b2p; unfold U128 in *; [| right; lia].
    assert (EQ : (num (mkD (dval d * 10 ^ (s - dscale d)) s (dneg d)) == num d)%Q).
    { unfold num; cbn [dscale]. pose proof (pow10_pos s ltac:(lia)). pose proof (pow10_pos (dscale d) ltac:(lia)).
      apply frac_eqv; try lia.
      replace (10 ^ s) with (10 ^ dscale d * 10 ^ (s - dscale d)) by (rewrite <- Z.pow_add_r by lia; f_equal; lia).
      unfold mant; cbn. destruct (dneg d); ring. }
    split; [split; cbn; nia |]. split; auto. split; auto. split.
    + unfold truncated, same_sign. rewrite EQ. split; [apply Qle_refl |]. split.
      * assert (0 < ulp s)%Q; [| lra]. unfold ulp. pose proof (pow10_pos s ltac:(lia)).
        change 0%Q with (inject_Z 0) . setoid_replace (inject_Z 0) with (inject_Z 0 / inject_Z (10 ^ s))%Q by
          (rewrite frac_eq by lia; unfold Qeq; cbn; lia).
        change 1%Q with (inject_Z 1). apply frac_lt; lia.
      * destruct (Qlt_le_dec (num d) 0); nra.
    + intros _. split; [exact EQ |]. unfold to_scale; cbn. destruct (dscale d <? s) eqn:E3; b2p.
      * unfold pow10. replace (s - dscale d <=? 38) with true by (symmetry; apply Z.leb_le; lia). cbn.
        rewrite cdiv_Ok by lia. cbn. rewrite Z.div_mul by lia. destruct d; reflexivity.
      * assert (s = dscale d) by lia. subst s. rewrite Z.sub_diag, Z.pow_0_r, !Z.mul_1_r.
        cbn. rewrite Z.mul_1_r. replace (dval d <? 2 ^ 128) with true by (symmetry; apply Z.ltb_lt; lia). cbn.
        destruct d; reflexivity.
Qed.

Lemma to_scale_up_spec : forall d s, wf d -> 0 <= s <= 255 ->
  returns_or_panics (to_scale_up d s)
    (fun c => wf c /\ dscale c = s /\ dneg c = false /\ ceil_mag s (num c) (num d))
    (38 < Z.abs (dscale d - s) \/ 2 ^ 128 <= dval d + (10 ^ (dscale d - s) - 1) \/ 2 ^ 128 <= dval d * 10 ^ (s - dscale d)).
Proof.
  intros d s [Hv Hs] Ht. unfold to_scale_up. destruct (s <=? dscale d) eqn:E; b2p.
  - unfold pow10. destruct (dscale d - s <=? 38) eqn:E1; cbn; b2p; [| left; lia].
    pose proof (pow10_pos (dscale d - s) ltac:(lia)) as Hp. unfold d_div_up; cbn.
    rewrite cmul_Ok by (unfold U128; lia). cbn. rewrite Z.mul_1_r. rewrite csub_Ok by lia. cbn.
    unfold cadd. destruct (dval d + (10 ^ (dscale d - s) - 1) <? U128) eqn:E2; cbn; b2p; unfold U128 in *; [| right; left; lia].
    rewrite cdiv_Ok by lia. cbn.
    destruct (div_up_bounds (dval d) (10 ^ (dscale d - s)) ltac:(lia) Hp) as [B1 B2].
    pose proof (div_le_self (dval d + (10 ^ (dscale d - s) - 1)) (10 ^ (dscale d - s)) ltac:(lia) Hp).
    set (v := (dval d + (10 ^ (dscale d - s) - 1)) / 10 ^ (dscale d - s)) in *.
    split; [split; cbn; lia |]. split; auto. split; [unfold sign_mul; rewrite Bool.eqb_reflx; reflexivity |].
    assert (R : rounded_away s (inject_Z v / inject_Z (10 ^ s)) (inject_Z (dval d) / inject_Z (10 ^ s * 10 ^ (dscale d - s)))).
    { apply rounded_away_frac; try lia. }
    replace (10 ^ s * 10 ^ (dscale d - s)) with (10 ^ dscale d) in R by (rewrite <- Z.pow_add_r by lia; f_equal; lia).
    destruct R as [R1 [R2 _]]. unfold ceil_mag, num. cbn [dscale]. unfold sign_mul; rewrite Bool.eqb_reflx; cbn [negb].
    pose proof (pow10_pos s ltac:(lia)). pose proof (pow10_pos (dscale d) ltac:(lia)).
    rewrite !frac_abs in * by lia. rewrite !abs_mant by (cbn; lia). cbn [dval].
    rewrite !Z.abs_eq in R1, R2 by lia. auto.
  - unfold pow10. destruct (s - dscale d <=? 38) eqn:E1; cbn; b2p; [| left; lia].
    pose proof (pow10_pos (s - dscale d) ltac:(lia)) as Hp. unfold d_mul_up; cbn.
    unfold cmul. destruct (dval d * 10 ^ (s - dscale d) <? U128) eqn:E2; cbn; b2p; unfold U128 in *; [| right; right; lia].
    rewrite csub_Ok by lia. cbn. rewrite Z.pow_0_r. replace (1 - 1) with 0 by lia.
    rewrite cadd_Ok by (unfold U128; lia). cbn [bind]. rewrite Z.add_0_r, cdiv_Ok by lia. cbn [bind returns_or_panics]. rewrite Z.div_1_r.
    unfold sign_mul; rewrite Bool.eqb_reflx; cbn [negb].
    split; [split; cbn; nia |]. split; auto. split; auto.
    pose proof (pow10_pos s ltac:(lia)). pose proof (pow10_pos (dscale d) ltac:(lia)).
    assert (EQ : (Qabs (num (mkD (dval d * 10 ^ (s - dscale d)) s false)) == Qabs (num d))%Q).
    { unfold num; cbn [dscale]. rewrite !frac_abs, !abs_mant by (cbn; nia). cbn [dval]. apply frac_eqv; try lia.
      replace (10 ^ s) with (10 ^ dscale d * 10 ^ (s - dscale d)) by (rewrite <- Z.pow_add_r by lia; f_equal; lia). ring. }
    unfold ceil_mag. rewrite EQ. split; [apply Qle_refl |].
    assert (0 < ulp s)%Q; [| lra]. unfold ulp. setoid_replace 0%Q with (inject_Z 0 / inject_Z (10 ^ s))%Q by
          (rewrite frac_eq by lia; unfold Qeq; cbn; lia).
    change 1%Q with (inject_Z 1). apply frac_lt; lia.
Qed.

(** ** Comparisons *)
Lemma cmp_scale : forall a b, dscale a <> dscale b ->
  d_eq a b = Err DifferentScale /\ d_lt a b = Err DifferentScale /\ d_gt a b = Err DifferentScale /\
  d_lte a b = Err DifferentScale /\ d_gte a b = Err DifferentScale /\ d_min a b = Panic /\ d_max a b = Panic.
Proof.
  intros a b H. apply Z.eqb_neq in H. unfold d_min, d_max, d_eq, d_lt, d_gt, d_lte, d_gte. rewrite H. cbn. repeat split.
Qed.

Lemma num_lt : forall a b, wf a -> dscale a = dscale b -> (num a < num b)%Q <-> mant a < mant b.
Proof.
  intros a b [_ Ha] E. unfold num. rewrite <- E. pose proof (pow10_pos (dscale a) ltac:(lia)).
  rewrite frac_lt by auto. nia.
Qed.
Lemma num_le : forall a b, wf a -> dscale a = dscale b -> (num a <= num b)%Q <-> mant a <= mant b.
Proof.
  intros a b [_ Ha] E. unfold num. rewrite <- E. pose proof (pow10_pos (dscale a) ltac:(lia)).
  rewrite frac_le by auto. nia.
Qed.
Lemma num_eq : forall a b, wf a -> dscale a = dscale b -> (num a == num b)%Q <-> mant a = mant b.
Proof.
  intros a b [_ Ha] E. unfold num. rewrite <- E. pose proof (pow10_pos (dscale a) ltac:(lia)).
  rewrite frac_eqv by auto. nia.
Qed.

Lemma cmp_spec : forall a b, wf a -> wf b -> canonical a -> canonical b -> dscale a = dscale b ->
  (exists r, d_eq a b = Ok r /\ (r = true <-> (num a == num b)%Q)) /\
  (exists r, d_lt a b = Ok r /\ (r = true <-> (num a < num b)%Q)) /\
  (exists r, d_gt a b = Ok r /\ (r = true <-> (num b < num a)%Q)) /\
  (exists r, d_lte a b = Ok r /\ (r = true <-> (num a <= num b)%Q)) /\
  (exists r, d_gte a b = Ok r /\ (r = true <-> (num b <= num a)%Q)) /\
  (exists m, d_min a b = Ok m /\ (m = a \/ m = b) /\ (num m <= num a)%Q /\ (num m <= num b)%Q) /\
  (exists m, d_max a b = Ok m /\ (m = a \/ m = b) /\ (num a <= num m)%Q /\ (num b <= num m)%Q).
Proof.
  intros a b Wa Wb Ca Cb E.
  pose proof (num_eq a b Wa E) as Qe. pose proof (num_lt a b Wa E) as Ql. pose proof (num_lt b a Wb (eq_sym E)) as Ql'.
  pose proof (num_le a b Wa E) as Qle1. pose proof (num_le b a Wb (eq_sym E)) as Qle2.
  setoid_rewrite Qe. setoid_rewrite Ql. setoid_rewrite Ql'. setoid_rewrite Qle1. setoid_rewrite Qle2.
  clear Qe Ql Ql' Qle1 Qle2.
  pose proof Wa as [Ha _]. pose proof Wb as [Hb _].
  assert (Em : dscale a =? dscale b = true) by (apply Z.eqb_eq; auto).
  unfold canonical in *.
  assert (LTE : exists r, d_lte a b = Ok r /\ (r = true <-> mant a <= mant b)).
  { unfold d_lte. rewrite Em; cbn. eexists; split; [reflexivity |].
    unfold mant. destruct (dneg a), (dneg b); cbn; rewrite ?Z.leb_le; intuition (try lia; try discriminate). }
  assert (GTE : exists r, d_gte a b = Ok r /\ (r = true <-> mant b <= mant a)).
  { unfold d_gte. rewrite Em; cbn. eexists; split; [reflexivity |].
    unfold mant. destruct (dneg a), (dneg b); cbn; rewrite ?Z.leb_le; intuition (try lia; try discriminate). }
  repeat split; auto.
  - unfold d_eq. rewrite Em; cbn. eexists; split; [reflexivity |].
    unfold mant. rewrite andb_true_iff, Z.eqb_eq. destruct (dneg a), (dneg b); cbn; intuition (try lia; try discriminate).
  - unfold d_lt. rewrite Em; cbn. eexists; split; [reflexivity |].
    unfold mant. destruct (dneg a), (dneg b); cbn; rewrite ?Z.ltb_lt; intuition (try lia; try discriminate).
  - unfold d_gt. rewrite Em; cbn. eexists; split; [reflexivity |].
    unfold mant. destruct (dneg a), (dneg b); cbn; rewrite ?Z.ltb_lt; intuition (try lia; try discriminate).
  - unfold d_min. destruct LTE as [r [-> Hr]]. cbn. eexists; split; [reflexivity |].
    destruct r.
    + split; auto. split; [apply Qle_refl |]. apply num_le; intuition.
    + split; auto. split; [| apply Qle_refl]. apply num_le; auto.
      destruct (Z_le_gt_dec (mant a) (mant b)); [| lia]. apply Hr in l; discriminate.
  - unfold d_max. destruct GTE as [r [-> Hr]]. cbn. eexists; split; [reflexivity |].
    destruct r.
    + split; auto. split; [apply Qle_refl |]. apply num_le; intuition.
    + split; auto. split; [| apply Qle_refl]. apply num_le; auto.
      destruct (Z_le_gt_dec (mant b) (mant a)); [| lia]. apply Hr in l; discriminate.
Qed.

(** ** Integer conversions *)
Lemma floor_frac : forall n q, 0 < q -> Qfloor (inject_Z n / inject_Z q) = n / q.
Proof.
  intros n q Hq. assert (E : (inject_Z n / inject_Z q == n # Z.to_pos q)%Q) by (apply frac_eq; auto).
  rewrite E. cbn. rewrite Z2Pos.id by lia. reflexivity.
Qed.
Lemma ceil_frac : forall n q, 0 < q -> Qceiling (inject_Z n / inject_Z q) = (n + (q - 1)) / q.
Proof.
  intros n q Hq. unfold Qceiling.
  assert (E : (- (inject_Z n / inject_Z q) == inject_Z (- n) / inject_Z q)%Q) by (rewrite inject_Z_opp; unfold Qdiv; ring).
  rewrite E, floor_frac by auto. pose proof (Z.div_mod (- n) q ltac:(lia)). pose proof (Z.mod_pos_bound (- n) q Hq).
  apply Z.div_unique with (r := q - 1 - (- n) mod q); lia.
Qed.

Lemma num_abs : forall d, wf d -> (Qabs (num d) == inject_Z (dval d) / inject_Z (10 ^ dscale d))%Q.
Proof.
  intros d [Hv Hs]. unfold num. rewrite frac_abs by (apply pow10_pos; lia). rewrite abs_mant by lia. reflexivity.
Qed.

Lemma abs_spec : forall d, wf d ->
  returns_or_panics (d_abs d) (fun n => n = Qfloor (Qabs (num d)) /\ 0 <= n < 2 ^ 64)
    (2 ^ 64 <= Qfloor (Qabs (num d)) \/ 38 < dscale d).
Proof.
  intros d W. pose proof W as [Hv Hs]. pose proof (pow10_pos (dscale d) ltac:(lia)) as Hp.
  assert (F : Qfloor (Qabs (num d)) = dval d / 10 ^ dscale d) by (rewrite num_abs, floor_frac by auto; reflexivity).
  rewrite F; clear F. unfold d_abs, to_scale.
  destruct (div_bounds (dval d) (10 ^ dscale d) ltac:(lia) Hp) as [B1 B2].
  destruct (0 <? dscale d) eqn:E; b2p.
  - rewrite Z.sub_0_r. unfold pow10. destruct (dscale d <=? 38) eqn:E1; cbn; b2p; auto.
    rewrite cdiv_Ok by lia. cbn. unfold to_u64, to_u64_chk; cbn. destruct (_ <? U64) eqn:E2; cbn; b2p; unfold U64 in *; [split; auto; lia | auto].
  - assert (E0 : dscale d = 0) by lia. rewrite E0 in *. cbn. rewrite cmul_Ok by (unfold U128; lia). cbn.
    rewrite Z.mul_1_r. rewrite Z.pow_0_r in *. rewrite Z.div_1_r in *.
    unfold to_u64, to_u64_chk; cbn. destruct (_ <? U64) eqn:E2; cbn; b2p; unfold U64 in *; [split; auto; lia | auto].
Qed.

Lemma abs_up_spec : forall d, wf d ->
  returns_or_panics (d_abs_up d) (fun n => n = Qceiling (Qabs (num d)) /\ 0 <= n < 2 ^ 64)
    (2 ^ 64 <= Qceiling (Qabs (num d)) \/ 38 < dscale d \/ 2 ^ 128 <= dval d + (10 ^ dscale d - 1)).
Proof.
  intros d W. pose proof W as [Hv Hs]. pose proof (pow10_pos (dscale d) ltac:(lia)) as Hp.
  assert (F : Qceiling (Qabs (num d)) = (dval d + (10 ^ dscale d - 1)) / 10 ^ dscale d)
    by (rewrite num_abs, ceil_frac by auto; reflexivity).
  rewrite F; clear F. unfold d_abs_up, to_scale_up.
  replace (0 <=? dscale d) with true by (symmetry; apply Z.leb_le; lia). rewrite Z.sub_0_r.
  destruct (div_up_bounds (dval d) (10 ^ dscale d) ltac:(lia) Hp) as [B1 B2].
  unfold pow10. destruct (dscale d <=? 38) eqn:E1; cbn; b2p; auto.
  unfold d_div_up; cbn. rewrite cmul_Ok by (unfold U128; lia). cbn. rewrite Z.mul_1_r, csub_Ok by lia. cbn.
  unfold cadd. destruct (_ <? U128) eqn:E2; cbn; b2p; unfold U128 in *; auto.
  rewrite cdiv_Ok by lia. cbn. unfold to_u64, to_u64_chk; cbn.
  destruct (_ <? U64) eqn:E3; cbn; b2p; unfold U64 in *; [split; auto; lia | auto].
Qed.

Lemma raw_spec : forall d, wf d ->
  returns_or_panics (to_u64 d) (fun n => n = dval d /\ n < 2 ^ 64) (2 ^ 64 <= dval d) /\
  returns_or_panics (into_u64 d) (fun n => n = dval d /\ n < 2 ^ 64) (2 ^ 64 <= dval d) /\
  into_u128 d = Ok (dval d).
Proof.
  intros d W. unfold to_u64, into_u64, to_u64_chk. destruct (_ <? U64) eqn:E; cbn; b2p; unfold U64 in *; repeat split; auto.
Qed.

Lemma into_i32_small : forall d, wf d -> dval d < 2 ^ 31 -> into_i32 d = Ok (mant d).
Proof.
  intros d [Hv _] H. unfold into_i32, wrap_i32, mant. rewrite Z.mod_small by lia.
  replace (dval d <? 2 ^ 31) with true by (symmetry; apply Z.ltb_lt; lia).
  destruct (dneg d); auto. replace (dval d =? - 2 ^ 31) with false by (symmetry; apply Z.eqb_neq; lia). reflexivity.
Qed.

