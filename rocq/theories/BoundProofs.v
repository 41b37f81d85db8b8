(** Range bounds recovered from amounts: the amounts the recovered range needs. *)
From Coq Require Import ZArith QArith Qabs Lia Lqa Bool.
From Verif Require Import Base BaseLemmas DecimalModel DecimalSpec DecimalProofs MathModel MathProofs.
Open Scope Q_scope.

Lemma flag_num : forall d, wf d -> is_negative d = false -> 0 <= num d.
Proof.
  intros d W H. unfold is_negative, is_zero in H. destruct (dneg d) eqn:N.
  - cbn in H. destruct (dval d =? 0)%Z eqn:E; [| discriminate H]. apply Z.eqb_eq in E. rewrite (num_zero d E). lra.
  - apply nonneg_num. split; auto.
Qed.
Lemma sub_nn : forall a b c, nonneg a -> nonneg b -> d_sub a b = Ok c -> is_negative c = false -> nonneg c /\ dscale c = dscale a /\ dscale a = dscale b /\ num c == num a - num b.
Proof.
  intros a b c Ha Hb E N. destruct (subq _ _ _ Ha Hb E) as (W & S1 & S2 & Q & P1 & P2). pose proof (flag_num c W N). split; [| auto]. split; auto. apply P1. lra.
Qed.
Lemma inv_mul : forall a b, 0 < b -> a * / b * b == a.
Proof. intros a b H. field. lra. Qed.
Lemma le_clear : forall a b c, 0 < c -> a * c <= b * c -> a <= b.
Proof. intros a b c H K. apply Qmult_le_r in K; auto. Qed.

(** [13] *)
Lemma lower_from_y : forall l rp y r, nonneg l -> nonneg rp -> nonneg y -> rpa_from_l_rp_y l rp y = Ok r ->
  nonneg r /\ num r <= num rp /\ num l * (num rp - num r) <= num y /\ num y < num l * (num rp - num r) + ulp (dscale rp) * num l.
Proof.
  intros l rp y r Hl Hp Hy E. unfold rpa_from_l_rp_y in E. destruct (is_zero l) eqn:Z; [discriminate E |]. msteps. destruct (is_negative v0) eqn:N; [discriminate E |]. msteps.
  destruct (divq _ _ _ Hy Hl E0) as (D1 & D2 & D3 & D4 & D5). destruct (sub_nn _ _ _ Hp D1 E1 N) as (S1 & S2 & S3 & S4). pose proof (nonneg_num _ D1).
  rewrite S4. rewrite S3, D2. split; auto. split; [lra |]. split; setoid_replace (num rp - (num rp - num v)) with (num v) by ring; lra.
Qed.

(** [14] *)
Lemma upper_from_x : forall l rp x r, nonneg l -> nonneg rp -> nonneg x -> 0 < num rp -> rpb_from_l_rp_x l rp x = Ok r -> 0 < num r ->
  num l * (/ num rp - / num r) <= num x /\
  (1 <= num rp -> 1 <= num r -> num x <= num l * (/ num rp - / num r) + ulp (dscale rp) * (num l + (2#1))).
Proof.
  intros l rp x r Hl Hp Hx Pp E Pr. unfold rpb_from_l_rp_x in E. msteps. destruct (is_zero v0) eqn:Z; [discriminate E |]. msteps. destruct (is_negative v2) eqn:N; [discriminate E |]. msteps.
  destruct (mulq _ _ _ Hp Hx E0) as (M1 & M2 & M3 & M4). destruct (mulq _ _ _ Hl Hp E2) as (A1 & A2 & A3 & A4).
  destruct (subq _ _ _ Hl M1 E1) as (W & S1 & S2 & S3 & P1 & P2).
  assert (Nn : dneg v0 = false).
  { destruct (dneg v0) eqn:F; auto. exfalso. unfold d_div in E3. unfold is_negative, is_zero in N. assert (G : dneg r = true). { msteps. cbn. unfold sign_mul. destruct A1 as [_ ->]. rewrite F. reflexivity. }
    rewrite G in N. cbn in N. destruct (dval r =? 0)%Z eqn:G2; [| discriminate N]. apply Z.eqb_eq in G2. rewrite (num_zero r G2) in Pr. lra. }
  assert (Nd : nonneg v0) by (split; auto). destruct (divq _ _ _ A1 Nd E3) as (D1 & D2 & D3 & D4 & D5).
  rewrite A2, S2, M2 in D5. rewrite S2, M2 in A4. pose proof (nonneg_num _ Hl) as L0. pose proof (nonneg_num _ Hx) as X0. pose proof (nonneg_num _ M1) as V0.
  assert (U : 0 < ulp (dscale rp)) by (apply ulp_pos; destruct Hp as [[_ ?] _]; lia).
  set (u := ulp (dscale rp)) in *. set (p := num rp) in *. set (q := num r) in *. set (L := num l) in *. set (X := num x) in *. set (a := num v) in *. set (d := num v0) in *. set (n := num v1) in *.
  assert (PQ : 0 < p * q) by (apply Qmult_lt_0_compat; lra).
  assert (EQ : L * (/ p - / q) * (p * q) == L * q - L * p) by (field; lra).
  split.
  - apply le_clear with (p * q); auto. rewrite EQ. assert (K : a * q <= p * X * q) by (apply Qmult_le_compat_r; lra). setoid_replace a with (L - d) in K by lra. lra.
  - intros P Q. apply le_clear with (p * q); auto. setoid_replace ((L * (/ p - / q) + u * (L + (2#1))) * (p * q)) with (L * (/ p - / q) * (p * q) + u * (L + (2#1)) * (p * q)) by ring. rewrite EQ.
    assert (K : p * X * q <= (a + u) * q) by (apply Qmult_le_compat_r; lra). setoid_replace a with (L - d) in K by lra.
    assert (K2 : u * d <= u * L). { rewrite !(Qmult_comm u). apply Qmult_le_compat_r; lra. }
    assert (K3 : 0 <= (p - 1) * q) by (apply Qmult_le_0_compat; lra).
    assert (K4 : 0 <= u * L * (p * q - 1)) by (apply Qmult_le_0_compat; [apply Qmult_le_0_compat; lra | lra]).
    assert (K5 : 0 <= u * ((p - 1) * q)) by (apply Qmult_le_0_compat; lra). assert (K6 : 0 <= u * (p * q - 1)) by (apply Qmult_le_0_compat; lra). lra.
Qed.

(** [16] *)
Lemma upper_from_xy : forall x y rp rpa r, nonneg x -> nonneg y -> nonneg rp -> nonneg rpa -> 0 < num rp -> rpb_from_x_y_rp_rpa x y rp rpa = Ok r -> 0 < num r ->
  num y * (/ num rp - / num r) <= num x * (num rp - num rpa) /\
  (1 <= num rp -> 1 <= num r -> num x * (num rp - num rpa) <= num y * (/ num rp - / num r) + ulp (dscale rp) * (num x + num y + (2#1))).
Proof.
  intros x y rp rpa r Hx Hy Hp Ha Pp E Pr. unfold rpb_from_x_y_rp_rpa in E. msteps. destruct (is_negative v0) eqn:N; [discriminate E |]. msteps. destruct (is_negative v3 || is_zero v3)%bool eqn:N3; [discriminate E |]. apply orb_false_iff in N3. destruct N3 as [N3 Z3].
  destruct (mulq _ _ _ Hp Hy E0) as (A1 & A2 & A3 & A4). destruct (sub_nn _ _ _ Hp Ha E1 N) as (W1 & W2 & W3 & W4).
  destruct (mulq _ _ _ W1 Hp E2) as (B1 & B2 & B3 & B4). destruct (mulq _ _ _ B1 Hx E3) as (C1 & C2 & C3 & C4). destruct (sub_nn _ _ _ Hy C1 E4 N3) as (F1 & F2 & F3 & F4).
  destruct (divq _ _ _ A1 F1 E) as (D1 & D2 & D3 & D4 & D5). rewrite A2 in D5. rewrite W2 in B4. rewrite B2, W2 in C4.
  pose proof (nonneg_num _ Hy) as Y0. pose proof (nonneg_num _ Hx) as X0. pose proof (nonneg_num _ C1) as V0. pose proof (nonneg_num _ W1) as O0. rewrite W4 in *.
  assert (U : 0 < ulp (dscale rp)) by (apply ulp_pos; destruct Hp as [[_ ?] _]; lia).
  set (u := ulp (dscale rp)) in *. set (p := num rp) in *. set (q := num r) in *. set (Y := num y) in *. set (X := num x) in *. set (w := p - num rpa) in *. set (a := num v1) in *. set (d1 := num v2) in *. set (d := num v3) in *. set (n := num v) in *.
  assert (PQ : 0 < p * q) by (apply Qmult_lt_0_compat; lra).
  assert (EQ : Y * (/ p - / q) * (p * q) == Y * q - Y * p) by (field; lra).
  assert (T1 : a * X <= w * p * X) by (apply Qmult_le_compat_r; lra). assert (T2 : w * p * X <= (a + u) * X) by (apply Qmult_le_compat_r; lra).
  split.
  - apply le_clear with (p * q); auto. rewrite EQ. assert (K : d1 * q <= w * p * X * q) by (apply Qmult_le_compat_r; lra). setoid_replace d1 with (Y - d) in K by lra. lra.
  - intros P Q. apply le_clear with (p * q); auto. setoid_replace ((Y * (/ p - / q) + u * (X + Y + (2#1))) * (p * q)) with (Y * (/ p - / q) * (p * q) + u * (X + Y + (2#1)) * (p * q)) by ring. rewrite EQ.
    assert (K : w * p * X * q <= (d1 + u + u * X) * q) by (apply Qmult_le_compat_r; lra). setoid_replace d1 with (Y - d) in K by lra.
    assert (K2 : u * d <= u * Y). { rewrite !(Qmult_comm u). apply Qmult_le_compat_r; lra. }
    assert (K3 : 0 <= (p - 1) * q) by (apply Qmult_le_0_compat; lra).
    assert (K4 : 0 <= u * Y * (p * q - 1)) by (apply Qmult_le_0_compat; [apply Qmult_le_0_compat; lra | lra]).
    assert (K5 : 0 <= u * (X + 1) * ((p - 1) * q)) by (apply Qmult_le_0_compat; [apply Qmult_le_0_compat; lra | lra]). assert (K6 : 0 <= u * (p * q - 1)) by (apply Qmult_le_0_compat; lra). lra.
Qed.

(** [15] *)
Lemma term : forall b x y B t u, 1 <= b -> 0 < u -> (2#1) * u <= x -> 0 <= y -> B <= b * x -> b * x < B + u -> t * B <= y -> y < (t + u) * B ->
  y * / (b * x) - u < t /\ t <= y * / (b * x) + u * ((2#1) * y * / (x * x)).
Proof.
  intros b x y B t u Hb U X Y H1 H2 H3 H4. assert (bx : x <= b * x). { assert (0 <= (b - 1) * x) by (apply Qmult_le_0_compat; lra). lra. }
  assert (PB : 0 < B) by lra. assert (I1 : 0 < / (b * x)) by (apply Qinv_lt_0_compat; lra). assert (I2 : 0 < / (x * x)) by (apply Qinv_lt_0_compat; apply Qmult_lt_0_compat; lra).
  assert (J : y * / (b * x) * (b * x) == y) by (apply inv_mul; lra). assert (e0 : 0 <= y * / (b * x)) by (apply Qmult_le_0_compat; lra). set (e := y * / (b * x)) in *.
  split.
  - destruct (Qlt_le_dec (e - u) t) as [| G]; auto. exfalso. assert (G1 : (t + u) * B <= e * B) by (apply Qmult_le_compat_r; lra). assert (G2 : e * B <= e * (b * x)) by (rewrite !(Qmult_comm e); apply Qmult_le_compat_r; lra). lra.
  - apply le_clear with B; auto. apply Qle_trans with y; [lra |]. apply Qle_trans with (e * (b * x)); [lra |].
    assert (G1 : e * (b * x - B) <= e * u) by (rewrite !(Qmult_comm e); apply Qmult_le_compat_r; lra).
    assert (G2 : e <= (2#1) * y * / (x * x) * B).
    { apply le_clear with (b * x * (x * x)); [apply Qmult_lt_0_compat; [lra | apply Qmult_lt_0_compat; lra] |].
      setoid_replace (e * (b * x * (x * x))) with (y * (x * x)) by (setoid_replace (e * (b * x * (x * x))) with (e * (b * x) * (x * x)) by ring; rewrite J; reflexivity).
      setoid_replace ((2#1) * y * / (x * x) * B * (b * x * (x * x))) with ((2#1) * y * B * (b * x)) by (field; lra).
      assert (G3 : x * x <= (2#1) * B * (b * x)). { apply Qle_trans with (b * x * (b * x)). { apply Qle_trans with (b * x * x); [apply Qmult_le_compat_r; lra | rewrite !(Qmult_comm (b * x)); apply Qmult_le_compat_r; lra]. } apply Qmult_le_compat_r; lra. }
      setoid_replace ((2#1) * y * B * (b * x)) with ((2#1) * B * (b * x) * y) by ring. rewrite (Qmult_comm y). apply Qmult_le_compat_r; lra. }
    assert (G4 : u * e <= u * ((2#1) * y * / (x * x) * B)) by (rewrite !(Qmult_comm u); apply Qmult_le_compat_r; lra). lra.
Qed.
Lemma lower_from_xy : forall x y rp rpb r L e, nonneg x -> nonneg y -> nonneg rp -> nonneg rpb -> dscale rpb = dscale rp -> 1 <= num rp -> num rp < num rpb -> (2#1) * ulp (dscale rp) <= num x ->
  rpa_from_x_y_rp_rpb x y rp rpb = Ok r -> L * (/ num rp - / num rpb) == num x -> L * (num rp - e) == num y ->
  Qabs (num r - e) <= ulp (dscale rp) * (1 + (2#1) * num y * / (num x * num x)).
Proof.
  intros x y rp rpb r L e Hx Hy Hp Hb Sc P B X E EL Ee. unfold rpa_from_x_y_rp_rpb in E. msteps. destruct (is_zero v) eqn:Z; [discriminate E |]. msteps. destruct (is_negative v4) eqn:N; [discriminate E |]. msteps.
  destruct (mulq _ _ _ Hb Hx E0) as (A1 & A2 & A3 & A4). destruct (divq _ _ _ Hy A1 E1) as (B1 & B2 & B3 & B4 & B5). destruct (mulq _ _ _ Hp Hx E2) as (C1 & C2 & C3 & C4). destruct (divq _ _ _ Hy C1 E3) as (D1 & D2 & D3 & D4 & D5).
  destruct (addq _ _ _ B1 Hp E4) as (F1 & F2 & F3 & F4). destruct (subq _ _ _ F1 D1 E5) as (_ & _ & _ & G & _).
  rewrite Sc in A4. assert (Sy : dscale y = dscale rp) by congruence. rewrite Sy in B5, D5. pose proof (nonneg_num _ Hy) as Y0.
  assert (U : 0 < ulp (dscale rp)) by (apply ulp_pos; destruct Hp as [[_ ?] _]; lia).
  destruct (term (num rpb) (num x) (num y) (num v) (num v0) _ ltac:(lra) U X Y0 A3 A4 B4 B5) as [T1 T2]. destruct (term (num rp) (num x) (num y) (num v1) (num v2) _ ltac:(lra) U X Y0 C3 C4 D4 D5) as [T3 T4].
  assert (LP : 0 < L). { destruct (Qlt_le_dec 0 L); auto. exfalso. assert (K : 0 < / num rp - / num rpb). { apply Qmult_lt_r with (num rp * num rpb); [apply Qmult_lt_0_compat; lra |]. setoid_replace ((/ num rp - / num rpb) * (num rp * num rpb)) with (num rpb - num rp) by (field; lra). lra. }
    assert (0 <= (0 - L) * (/ num rp - / num rpb)) by (apply Qmult_le_0_compat; lra). lra. }
  assert (EE : e == num rp - (num y * / (num rp * num x) - num y * / (num rpb * num x))).
  { apply Qmult_inj_r with L; [lra |]. setoid_replace (e * L) with (L * num rp - L * (num rp - e)) by ring. rewrite Ee.
    setoid_replace ((num rp - (num y * / (num rp * num x) - num y * / (num rpb * num x))) * L) with (L * num rp - num y * / num x * (L * (/ num rp - / num rpb))) by (field; lra). rewrite EL. field. lra. }
  rewrite G, F4, EE. apply Qabs_Qle_condition. split; lra.
Qed.
