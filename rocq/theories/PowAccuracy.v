(** How accurate integer powers are: error bounds, monotonicity, and when they are computed at all. *)
From Coq Require Import ZArith QArith Qabs Qpower List Bool Lia Lqa.
From Verif Require Import Base BaseLemmas DecimalModel DecimalSpec DecimalProofs PowProofs WfProofs MathModel MathProofs PoolModel PoolWf SwapLoop LpProofs.
Open Scope Z_scope.

(** ** Rational powers *)
Open Scope Q_scope.
Notation qp := Qpower_positive.
Lemma qp_O : forall x e, qp x e~0 == qp x e * qp x e. Proof. intros. cbn. reflexivity. Qed.
Lemma qp_I : forall x e, qp x e~1 == x * (qp x e * qp x e). Proof. intros. cbn. reflexivity. Qed.
Lemma qp_sq : forall x e, qp (x * x) e == qp x e * qp x e. Proof. intros. apply Qmult_power_positive. Qed.
Lemma mul_le : forall a b c d : Q, 0 <= a -> a <= c -> 0 <= b -> b <= d -> a * b <= c * d.
Proof. intros a b c d H1 H2 H3 H4. apply Qle_trans with (c * b); [apply Qmult_le_compat_r; auto |]. rewrite !(Qmult_comm c). apply Qmult_le_compat_r; lra. Qed.
Lemma qp_nn : forall x e, 0 <= x -> 0 <= qp x e.
Proof. intros x e H. induction e; [rewrite qp_I | rewrite qp_O | exact H]; repeat apply Qmult_le_0_compat; auto. Qed.
Lemma qp_mono : forall x y e, 0 <= x -> x <= y -> qp x e <= qp y e.
Proof. intros x y e H L. induction e; [rewrite !qp_I | rewrite !qp_O | exact L]; pose proof (qp_nn x e H); repeat apply mul_le; auto; repeat apply Qmult_le_0_compat; auto. Qed.
Lemma qp_le1 : forall x e, 0 <= x -> x <= 1 -> qp x e <= 1.
Proof. intros x e H L. apply Qle_trans with (1 := qp_mono x 1 e H L). rewrite Qpower_positive_1. lra. Qed.
Lemma qp_ge1 : forall x e, 1 <= x -> 1 <= qp x e.
Proof. intros x e L. apply Qle_trans with (qp 1 e); [rewrite Qpower_positive_1; lra |]. apply qp_mono; lra. Qed.
Definition qe (e : positive) : Q := inject_Z (Zpos e).
Lemma qe_O : forall e, qe e~0 == 2 * qe e. Proof. intros. unfold qe. rewrite Pos2Z.inj_xO, inject_Z_mult. reflexivity. Qed.
Lemma qe_I : forall e, qe e~1 == 2 * qe e + 1. Proof. intros. unfold qe. rewrite Pos2Z.inj_xI, inject_Z_plus, inject_Z_mult. reflexivity. Qed.
Lemma qe_pos : forall e, 1 <= qe e. Proof. intros. unfold qe. change 1 with (inject_Z 1). rewrite <- Zle_Qle. lia. Qed.
Lemma qp_diff : forall x y e, 0 <= y -> y <= x -> x <= 1 -> qp x e - qp y e <= qe e * (x - y).
Proof.
  intros x y e H L U. assert (0 <= x) by lra. induction e as [e IH | e IH |].
  - rewrite !qp_I, qe_I. pose proof (qp_nn x e ltac:(auto)) as A1. pose proof (qp_nn y e H) as B1. pose proof (qp_le1 x e ltac:(auto) U) as A2. pose proof (qp_mono y x e H L) as M. set (X := qp x e) in *. set (Y := qp y e) in *. pose proof (qe_pos e) as P.
    assert (E1 : x * (X * X) - y * (Y * Y) == (x - y) * (X * X) + y * ((X - Y) * (X + Y))) by ring. rewrite E1.
    assert (F1 : (x - y) * (X * X) <= (x - y) * 1) by (apply mul_le; try lra; [apply Qmult_le_0_compat; auto | setoid_replace 1 with (1 * 1) by ring; apply mul_le; lra]).
    assert (F2 : (X - Y) * (X + Y) <= (qe e * (x - y)) * 2) by (apply mul_le; lra).
    assert (F0 : 0 <= (X - Y) * (X + Y)) by (apply Qmult_le_0_compat; lra).
    assert (F3 : y * ((X - Y) * (X + Y)) <= 1 * ((qe e * (x - y)) * 2)) by (apply mul_le; lra). lra.
  - rewrite !qp_O, qe_O. pose proof (qp_nn x e ltac:(auto)) as A1. pose proof (qp_nn y e H) as B1. pose proof (qp_le1 x e ltac:(auto) U) as A2. pose proof (qp_mono y x e H L) as M. set (X := qp x e) in *. set (Y := qp y e) in *. pose proof (qe_pos e) as P.
    assert (E1 : X * X - Y * Y == (X - Y) * (X + Y)) by ring. rewrite E1.
    assert (F2 : (X - Y) * (X + Y) <= (qe e * (x - y)) * 2) by (apply mul_le; lra). lra.
  - cbn. unfold qe. change (inject_Z 1) with 1. lra.
Qed.
Lemma bernoulli : forall u e, 0 <= u -> u <= 1 -> 1 - qe e * u <= qp (1 - u) e.
Proof. intros u e H L. pose proof (qp_diff 1 (1 - u) e ltac:(lra) ltac:(lra) ltac:(lra)) as D. rewrite Qpower_positive_1 in D. assert (E : 1 - (1 - u) == u) by ring. rewrite E in D. lra. Qed.

(** ** One multiplication *)
Definition at_s (s : Z) (d : decimal) : Prop := wf d /\ dscale d = s /\ dneg d = false.
Lemma ulp_s : forall s, (0 <= s)%Z -> 0 < ulp s.
Proof. intros s H. unfold ulp. apply Qlt_shift_div_l; [change 0 with (inject_Z 0); rewrite <- Zlt_Qlt; apply Z.pow_pos_nonneg; lia | lra]. Qed.
Lemma ulp_le1 : forall s, (0 <= s)%Z -> ulp s <= 1.
Proof. intros s H. unfold ulp. assert (1 <= 10 ^ s)%Z by (pose proof (Z.pow_pos_nonneg 10 s); lia). apply Qle_shift_div_r; [change 0 with (inject_Z 0); rewrite <- Zlt_Qlt; lia |]. change 1 with (inject_Z 1). rewrite Qmult_1_l, <- Zle_Qle. lia. Qed.
Lemma num_s : forall s d, at_s s d -> num d == inject_Z (dval d) * ulp s.
Proof. intros s d (W & <- & N). unfold num, mant, ulp. rewrite N. unfold Qdiv. ring. Qed.
Lemma num_s_le : forall s a b, at_s s a -> at_s s b -> (num a <= num b <-> (dval a <= dval b)%Z).
Proof.
  intros s a b A B. rewrite (num_s _ _ A), (num_s _ _ B). pose proof (ulp_s s) as U. assert (Hs : (0 <= s)%Z) by (destruct A as ([_ A] & <- & _); lia). specialize (U Hs).
  rewrite Zle_Qle. split; intros H; [apply Qmult_lt_0_le_reg_r in H; auto | apply Qmult_le_compat_r; lra].
Qed.
Lemma one_s : forall s, (0 <= s <= 38)%Z -> at_s s (mkD (10 ^ s) s false) /\ num (mkD (10 ^ s) s false) == 1.
Proof.
  intros s H. assert (A : at_s s (mkD (10 ^ s) s false)). { split; [| split; reflexivity]. assert (10 ^ s <= 10 ^ 38)%Z by (apply Z.pow_le_mono_r; lia). pose proof (Z.pow_pos_nonneg 10 s). split; cbn; lia. }
  split; auto. rewrite (num_s _ _ A). cbn [dval]. unfold ulp. field. intros E. assert (0 < inject_Z (10 ^ s)); [| lra]. change 0 with (inject_Z 0). rewrite <- Zlt_Qlt. apply Z.pow_pos_nonneg; lia.
Qed.
Lemma mul_s : forall s a b c, at_s s a -> at_s s b -> d_mul a b = Ok c -> at_s s c /\ 0 <= num c /\ num c <= num a * num b /\ num a * num b < num c + ulp s /\ (1 <= num a * num b -> 1 <= num c).
Proof.
  intros s a b c A B H. pose proof A as (Wa & Sa & Na). pose proof B as (Wb & Sb & Nb). pose proof (mul_wf _ _ _ Wa Wb H) as Wc. destruct (mul_ok_inv _ _ _ Wa Wb H) as (_ & Sc & Nc & [L1 L2] & P & _ & S38).
  assert (C : at_s s c) by (split; [auto | split; [congruence | rewrite Nc, Na, Nb; reflexivity]]).
  assert (Hs : (0 <= s <= 38)%Z) by (destruct Wa; lia). pose proof (ulp_s s (proj1 Hs)) as U. rewrite Sb in L1, L2.
  destruct (one_s s Hs) as [O O1]. assert (I : inject_Z (10 ^ s) * ulp s == 1) by (rewrite <- O1, (num_s _ _ O); reflexivity).
  assert (E : num a * num b == inject_Z (dval a * dval b) * ulp s * ulp s) by (rewrite (num_s _ _ A), (num_s _ _ B), inject_Z_mult; ring).
  assert (X1 : num c <= num a * num b). { rewrite E, (num_s _ _ C). rewrite Zle_Qle in L1. rewrite inject_Z_mult in L1. apply Qmult_le_compat_r with (z := ulp s) in L1; [| lra]. apply Qmult_le_compat_r with (z := ulp s) in L1; [| lra].
    setoid_replace (inject_Z (dval c) * ulp s) with (inject_Z (dval c) * (inject_Z (10 ^ s) * ulp s) * ulp s) by (rewrite I; ring). setoid_replace (inject_Z (dval c) * (inject_Z (10 ^ s) * ulp s) * ulp s) with (inject_Z (dval c) * inject_Z (10 ^ s) * ulp s * ulp s) by ring. exact L1. }
  split; auto. split; [rewrite (num_s _ _ C); apply Qmult_le_0_compat; [change 0 with (inject_Z 0); rewrite <- Zle_Qle; lia | lra] |]. split; auto. split.
  - rewrite E, (num_s _ _ C). rewrite Zlt_Qlt in L2. rewrite (inject_Z_mult (dval c + 1)), inject_Z_plus in L2. apply Qmult_lt_compat_r with (z := ulp s) in L2; [| lra]. apply Qmult_lt_compat_r with (z := ulp s) in L2; [| lra].
    apply Qlt_le_trans with (1 := L2). setoid_replace ((inject_Z (dval c) + inject_Z 1) * inject_Z (10 ^ s) * ulp s * ulp s) with ((inject_Z (dval c) + inject_Z 1) * (inject_Z (10 ^ s) * ulp s) * ulp s) by ring. rewrite I. change (inject_Z 1) with 1. lra.
  - intros G. rewrite <- O1. apply (proj2 (num_s_le s _ _ O C)). cbn [dval]. apply Z.nlt_ge. intros X. assert (Y : (dval a * dval b < 10 ^ s * 10 ^ s)%Z) by nia. rewrite Zlt_Qlt, (inject_Z_mult (10 ^ s)) in Y.
    apply Qmult_lt_compat_r with (z := ulp s) in Y; [| lra]. apply Qmult_lt_compat_r with (z := ulp s) in Y; [| lra]. setoid_replace (inject_Z (10 ^ s) * inject_Z (10 ^ s) * ulp s * ulp s) with ((inject_Z (10 ^ s) * ulp s) * (inject_Z (10 ^ s) * ulp s)) in Y by ring. rewrite I in Y. rewrite <- E in Y. lra.
Qed.

Lemma at_nn : forall s d, at_s s d -> 0 <= num d.
Proof. intros s d A. rewrite (num_s _ _ A). destruct A as (([V _] & Hs) & <- & _). apply Qmult_le_0_compat; [change 0 with (inject_Z 0); rewrite <- Zle_Qle; lia |]. apply Qlt_le_weak, ulp_s. lia. Qed.

(** ** The loop *)
Lemma loop_below : forall s e b r c, at_s s b -> at_s s r -> num b <= 1 -> num r <= 1 -> pow_loop e b r = Ok c ->
  at_s s c /\ 0 <= num c /\ num c <= num r * qp (num b) e /\ num r * qp (num b) e <= num c + qe e * ulp s.
Proof.
  intros s e. induction e as [e IH | e IH |]; intros b r c B R B1 R1 H; cbn [pow_loop] in H.
  - bd H r' E1. bd H b' E2. destruct (mul_s s _ _ _ R B E1) as (R' & N1 & L1 & U1 & _). destruct (mul_s s _ _ _ B B E2) as (B' & N2 & L2 & U2 & _).
    assert (Nb : 0 <= num b) by (apply at_nn with s; auto). assert (Nr : 0 <= num r) by (apply at_nn with s; auto).
    assert (P1 : num r * num b <= 1) by (setoid_replace 1 with (1 * 1) by ring; apply mul_le; auto). assert (P2 : num b * num b <= 1) by (setoid_replace 1 with (1 * 1) by ring; apply mul_le; auto).
    destruct (IH b' r' c B' R' ltac:(lra) ltac:(lra) H) as (C & N3 & L3 & U3). split; auto. split; auto.
    assert (S1 : num r * qp (num b) e~1 == num r * num b * qp (num b * num b) e) by (rewrite qp_I, qp_sq; ring). rewrite S1, qe_I.
    pose proof (qp_nn (num b') e N2) as Q1. pose proof (qp_mono _ _ e N2 L2) as Q2. pose proof (qp_le1 (num b') e N2 ltac:(lra)) as Q3. pose proof (qp_diff _ _ e N2 L2 P2) as Q4. set (X := qp (num b * num b) e) in *. set (Y := qp (num b') e) in *. set (rb := num r * num b) in *.
    assert (RB : 0 <= rb) by (apply Qmult_le_0_compat; auto). pose proof (qe_pos e) as Pe.
    split; [apply Qle_trans with (1 := L3); apply mul_le; auto |].
    assert (F1 : rb * (X - Y) <= 1 * (qe e * ulp s)). { apply mul_le; try lra. apply Qle_trans with (1 := Q4). rewrite !(Qmult_comm (qe e)). apply Qmult_le_compat_r; lra. }
    assert (F2 : (rb - num r') * Y <= ulp s * 1) by (apply mul_le; lra).
    assert (F3 : rb * X == rb * (X - Y) + (rb - num r') * Y + num r' * Y) by ring. rewrite F3. lra.
  - bd H b' E2. destruct (mul_s s _ _ _ B B E2) as (B' & N2 & L2 & U2 & _).
    assert (Nb : 0 <= num b) by (apply at_nn with s; auto). assert (Nr : 0 <= num r) by (apply at_nn with s; auto).
    assert (P2 : num b * num b <= 1) by (setoid_replace 1 with (1 * 1) by ring; apply mul_le; auto).
    destruct (IH b' r c B' R ltac:(lra) R1 H) as (C & N3 & L3 & U3). split; auto. split; auto.
    assert (S1 : num r * qp (num b) e~0 == num r * qp (num b * num b) e) by (rewrite qp_O, qp_sq; ring). rewrite S1, qe_O.
    pose proof (qp_nn (num b') e N2) as Q1. pose proof (qp_mono _ _ e N2 L2) as Q2. pose proof (qp_diff _ _ e N2 L2 P2) as Q4. set (X := qp (num b * num b) e) in *. set (Y := qp (num b') e) in *. pose proof (qe_pos e) as Pe.
    split; [apply Qle_trans with (1 := L3); apply mul_le; auto; lra |].
    assert (F1 : num r * (X - Y) <= 1 * (qe e * ulp s)). { apply mul_le; try lra. apply Qle_trans with (1 := Q4). rewrite !(Qmult_comm (qe e)). apply Qmult_le_compat_r; lra. }
    assert (F3 : num r * X == num r * (X - Y) + num r * Y) by ring. rewrite F3. lra.
  - bd H r' E1. bd H b' E2. injection H as <-. destruct (mul_s s _ _ _ R B E1) as (R' & N1 & L1 & U1 & _). split; auto. split; auto. cbn [qp pow_pos]. unfold qe. change (inject_Z 1) with 1. change (qp (num b) 1) with (num b). split; lra.
Qed.
Lemma loop_above : forall s e b r c, at_s s b -> at_s s r -> 1 <= num b -> 1 <= num r -> pow_loop e b r = Ok c ->
  at_s s c /\ 1 <= num c /\ num c <= num r * qp (num b) e /\ num r * qp (num b) e * qp (1 - ulp s) e <= num c.
Proof.
  intros s e. induction e as [e IH | e IH |]; intros b r c B R B1 R1 H; cbn [pow_loop] in H.
  all: assert (Hs : (0 <= s)%Z) by (destruct B as ([_ B'] & <- & _); lia); pose proof (ulp_s s Hs) as U0; pose proof (ulp_le1 s Hs) as U1'; set (k := 1 - ulp s) in *; assert (K0 : 0 <= k) by (unfold k; lra).
  - bd H r' E1. bd H b' E2. destruct (mul_s s _ _ _ R B E1) as (R' & N1 & L1 & U1 & G1). destruct (mul_s s _ _ _ B B E2) as (B' & N2 & L2 & U2 & G2).
    assert (P1 : 1 <= num r * num b) by (setoid_replace 1 with (1 * 1) by ring; apply mul_le; lra). assert (P2 : 1 <= num b * num b) by (setoid_replace 1 with (1 * 1) by ring; apply mul_le; lra).
    destruct (IH b' r' c B' R' (G2 P2) (G1 P1) H) as (C & N3 & L3 & U3). split; auto. split; auto.
    assert (S1 : num r * qp (num b) e~1 == num r * num b * qp (num b * num b) e) by (rewrite qp_I, qp_sq; ring). rewrite S1.
    pose proof (qp_mono _ _ e N2 L2) as Q2. split; [apply Qle_trans with (1 := L3); apply mul_le; auto; apply qp_nn; auto |].
    assert (H1 : num r * num b * k <= num r'). { unfold k. apply Qmult_le_compat_r with (z := ulp s) in P1; lra. } assert (H2 : num b * num b * k <= num b'). { unfold k. apply Qmult_le_compat_r with (z := ulp s) in P2; lra. }
    assert (H3 : qp (num b * num b) e * qp k e <= qp (num b') e). { rewrite <- Qmult_power_positive. apply qp_mono; auto. apply Qmult_le_0_compat; lra. }
    apply Qle_trans with (2 := U3). rewrite qp_I. pose proof (qp_nn k e K0) as Kn. pose proof (qp_nn (num b * num b) e ltac:(lra)) as Xn. set (X := qp (num b * num b) e) in *. set (Z := qp k e) in *.
    setoid_replace (num r * num b * X * (k * (Z * Z))) with (((num r * num b * k) * (X * Z)) * Z) by ring. apply Qmult_le_compat_r; auto. apply mul_le; auto; apply Qmult_le_0_compat; lra.
  - bd H b' E2. destruct (mul_s s _ _ _ B B E2) as (B' & N2 & L2 & U2 & G2).
    assert (P2 : 1 <= num b * num b) by (setoid_replace 1 with (1 * 1) by ring; apply mul_le; lra).
    destruct (IH b' r c B' R (G2 P2) R1 H) as (C & N3 & L3 & U3). split; auto. split; auto.
    assert (S1 : num r * qp (num b) e~0 == num r * qp (num b * num b) e) by (rewrite qp_O, qp_sq; ring). rewrite S1.
    pose proof (qp_mono _ _ e N2 L2) as Q2. split; [apply Qle_trans with (1 := L3); apply mul_le; auto; try lra; apply qp_nn; auto |].
    assert (H2 : num b * num b * k <= num b'). { unfold k. apply Qmult_le_compat_r with (z := ulp s) in P2; lra. }
    assert (H3 : qp (num b * num b) e * qp k e <= qp (num b') e). { rewrite <- Qmult_power_positive. apply qp_mono; auto. apply Qmult_le_0_compat; lra. }
    apply Qle_trans with (2 := U3). rewrite qp_O. pose proof (qp_nn k e K0) as Kn. pose proof (qp_nn (num b * num b) e ltac:(lra)) as Xn. set (X := qp (num b * num b) e) in *. set (Z := qp k e) in *.
    setoid_replace (num r * X * (Z * Z)) with ((num r * (X * Z)) * Z) by ring. apply Qmult_le_compat_r; auto. apply mul_le; auto; try lra; apply Qmult_le_0_compat; lra.
  - bd H r' E1. bd H b' E2. injection H as <-. destruct (mul_s s _ _ _ R B E1) as (R' & N1 & L1 & U1 & G1). assert (P1 : 1 <= num r * num b) by (setoid_replace 1 with (1 * 1) by ring; apply mul_le; lra).
    split; auto. split; auto. change (qp (num b) 1) with (num b). change (qp k 1) with k. split; auto. unfold k. apply Qmult_le_compat_r with (z := ulp s) in P1; lra.
Qed.
(** Larger base, larger power; and if the larger is computed so is the smaller. *)
Lemma mul_mono : forall s a b a' b' c', at_s s a -> at_s s b -> at_s s a' -> at_s s b' -> (dval a <= dval a')%Z -> (dval b <= dval b')%Z -> d_mul a' b' = Ok c' ->
  exists c, d_mul a b = Ok c /\ (dval c <= dval c')%Z.
Proof.
  intros s a b a' b' c' (Wa & Sa & Na) (Wb & Sb & Nb) (Wa' & Sa' & Na') (Wb' & Sb' & Nb') L1 L2 H. destruct (mul_ok_inv _ _ _ Wa' Wb' H) as (V & _ & _ & _ & _ & P & S38).
  pose proof (mul_spec a b Wa Wb) as M. pose proof Wa as [Va _]. pose proof Wb as [Vb _]. assert (P' : (dval a * dval b <= dval a' * dval b')%Z) by (apply Z.mul_le_mono_nonneg; lia).
  destruct (d_mul a b) as [c | | |] eqn:E; cbn in M; try tauto; [| exfalso; rewrite Sb in M; rewrite Sb' in S38; lia].
  exists c. split; auto. apply mul_ok_inv in E; auto. destruct E as (V1 & _). rewrite V, V1, Sb, Sb'. apply Z.div_le_mono; auto. apply Z.pow_pos_nonneg; destruct Wa' as [_ ?]; lia.
Qed.
Lemma loop_mono : forall s e b r b' r' c', at_s s b -> at_s s r -> at_s s b' -> at_s s r' -> (dval b <= dval b')%Z -> (dval r <= dval r')%Z -> pow_loop e b' r' = Ok c' ->
  exists c, pow_loop e b r = Ok c /\ (dval c <= dval c')%Z.
Proof.
  intros s e. induction e as [e IH | e IH |]; intros b r b' r' c' B R B' R' L1 L2 H; cbn [pow_loop] in *.
  - bd H r2 E1. bd H b2 E2. destruct (mul_mono s r b r' b' r2) as (r1 & F1 & G1); auto. destruct (mul_mono s b b b' b' b2) as (b1 & F2 & G2); auto. rewrite F1, F2. cbn [bind].
    apply (IH b1 r1 b2 r2 c'); auto; [eapply mul_s; [| | exact F2] | eapply mul_s; [| | exact F1] | eapply mul_s; [| | exact E2] | eapply mul_s; [| | exact E1]]; auto.
  - bd H b2 E2. destruct (mul_mono s b b b' b' b2) as (b1 & F2 & G2); auto. rewrite F2. cbn [bind].
    apply (IH b1 r b2 r' c'); auto; [eapply mul_s; [| | exact F2] | eapply mul_s; [| | exact E2]]; auto.
  - bd H r2 E1. bd H b2 E2. injection H as <-. destruct (mul_mono s r b r' b' r2) as (r1 & F1 & G1); auto. destruct (mul_mono s b b b' b' b2) as (b1 & F2 & G2); auto. rewrite F1, F2. cbn [bind]. eauto.
Qed.
Lemma pow_loop_at : forall s e b r c, at_s s b -> at_s s r -> pow_loop e b r = Ok c -> at_s s c.
Proof.
  intros s e. induction e as [e IH | e IH |]; intros b r c B R H; cbn [pow_loop] in H.
  - bd H r2 E1. bd H b2 E2. apply (IH b2 r2); auto; [eapply mul_s; [| | exact E2] | eapply mul_s; [| | exact E1]]; auto.
  - bd H b2 E2. apply (IH b2 r); auto. eapply mul_s; [| | exact E2]; auto.
  - bd H r2 E1. bd H b2 E2. injection H as <-. eapply mul_s; [| | exact E1]; auto.
Qed.
(** ** When the loop completes *)
Fixpoint top (e : positive) : positive := match e with xH => 2 | xO e | xI e => xO (top e) end.
Lemma top_log : forall e, Zpos (top e) = (2 * 2 ^ Z.log2 (Zpos e))%Z.
Proof.
  induction e as [e IH | e IH |]; [| | reflexivity]; cbn [top]; rewrite Pos2Z.inj_xO, IH.
  - rewrite (Pos2Z.inj_xI e), Z.log2_succ_double, Z.pow_succ_r by (try apply Z.log2_nonneg; lia). reflexivity.
  - rewrite (Pos2Z.inj_xO e), Z.log2_double, Z.pow_succ_r by (try apply Z.log2_nonneg; lia). reflexivity.
Qed.
Lemma qp_top : forall x e, qp x (xO (top e)) == qp (x * x) (top e). Proof. intros. rewrite qp_sq. reflexivity. Qed.
Definition room (s : Z) : Q := inject_Z (2 ^ 128) * ulp s * ulp s.
Lemma prod_room : forall s a b, at_s s a -> at_s s b -> ((dval a * dval b < 2 ^ 128)%Z <-> num a * num b < room s).
Proof.
  intros s a b A B. rewrite (num_s _ _ A), (num_s _ _ B). assert (Hs : (0 <= s)%Z) by (destruct A as ([_ A] & <- & _); lia). pose proof (ulp_s s Hs) as U. unfold room. rewrite Zlt_Qlt, inject_Z_mult.
  assert (E : inject_Z (dval a) * ulp s * (inject_Z (dval b) * ulp s) == inject_Z (dval a) * inject_Z (dval b) * ulp s * ulp s) by ring. rewrite E.
  split; intros H; [apply Qmult_lt_compat_r; auto; apply Qmult_lt_compat_r; auto |]. apply Qmult_lt_r in H; auto. apply Qmult_lt_r in H; auto.
Qed.
Lemma mul_room : forall s a b, at_s s a -> at_s s b -> (s <= 38)%Z -> num a * num b < room s -> exists c, d_mul a b = Ok c.
Proof.
  intros s a b A B S H. apply (proj2 (prod_room s a b A B)) in H. destruct A as (Wa & Sa & _), B as (Wb & Sb & _). pose proof (mul_spec a b Wa Wb) as M. destruct (d_mul a b) as [c | | |] eqn:E; cbn in M; try tauto; [eauto | exfalso; lia].
Qed.
Lemma ge1_qp : forall x e, 1 <= x -> x <= qp x e.
Proof.
  intros x e H. induction e as [e IH | e IH |]; [rewrite qp_I | rewrite qp_O | apply Qle_refl]; pose proof (qp_ge1 x e H) as G.
  - apply Qle_trans with (x * (1 * 1)); [lra |]. apply mul_le; try lra. apply mul_le; lra.
  - apply Qle_trans with (1 * x); [lra |]. apply mul_le; lra.
Qed.
Lemma qp_top_le : forall x e, 1 <= x -> qp x e <= qp x (top e).
Proof.
  intros x e H. assert (L : (e < top e)%positive). { change (Zpos e < Zpos (top e))%Z. rewrite top_log, <- Z.pow_succ_r by apply Z.log2_nonneg. apply Z.log2_spec. lia. }
  assert (E : top e = (e + (top e - e))%positive) by lia. rewrite E. set (g := (top e - e)%positive). rewrite Qpower_plus_positive. pose proof (qp_ge1 x e H). pose proof (qp_ge1 x g H). apply Qle_trans with (qp x e * 1); [lra | apply mul_le; lra].
Qed.
Lemma loop_total : forall s e b r, (s <= 38)%Z -> at_s s b -> at_s s r -> 1 <= num b -> num r * qp (num b) e < room s -> qp (num b) (top e) < room s -> exists c, pow_loop e b r = Ok c.
Proof.
  intros s e. induction e as [e IH | e IH |]; intros b r S38 B R B1 H1 H2; cbn [pow_loop top] in *; pose proof (at_nn _ _ R) as Nr.
  - rewrite qp_top in H2. assert (P2 : 1 <= num b * num b) by (setoid_replace 1 with (1 * 1) by ring; apply mul_le; lra). pose proof (ge1_qp _ (top e) P2) as G2.
    assert (S1 : num r * qp (num b) e~1 == num r * num b * qp (num b * num b) e) by (rewrite qp_I, qp_sq; ring). rewrite S1 in H1. pose proof (qp_ge1 _ e P2) as G1.
    assert (RB : 0 <= num r * num b) by (apply Qmult_le_0_compat; lra). assert (F1 : num r * num b * 1 <= num r * num b * qp (num b * num b) e) by (apply mul_le; lra).
    destruct (mul_room s r b R B S38 ltac:(lra)) as (r' & E1). destruct (mul_room s b b B B S38 ltac:(lra)) as (b' & E2). rewrite E1, E2. cbn [bind].
    destruct (mul_s s _ _ _ R B E1) as (R' & N1 & L1 & _). destruct (mul_s s _ _ _ B B E2) as (B' & N2 & L2 & _ & X2). apply IH; auto.
    + apply Qle_lt_trans with (2 := H1). apply mul_le; auto; [apply qp_nn; auto | apply qp_mono; auto].
    + apply Qle_lt_trans with (2 := H2). apply qp_mono; auto.
  - rewrite qp_top in H2. assert (P2 : 1 <= num b * num b) by (setoid_replace 1 with (1 * 1) by ring; apply mul_le; lra). pose proof (ge1_qp _ (top e) P2) as G2.
    assert (S1 : num r * qp (num b) e~0 == num r * qp (num b * num b) e) by (rewrite qp_O, qp_sq; ring). rewrite S1 in H1.
    destruct (mul_room s b b B B S38 ltac:(lra)) as (b' & E2). rewrite E2. cbn [bind]. destruct (mul_s s _ _ _ B B E2) as (B' & N2 & L2 & _ & X2). apply IH; auto.
    + apply Qle_lt_trans with (2 := H1). apply mul_le; auto; [lra | apply qp_nn; auto | apply qp_mono; auto].
    + apply Qle_lt_trans with (2 := H2). apply qp_mono; auto.
  - change (qp (num b) 1) with (num b) in H1. change (qp (num b) 2) with (num b * num b) in H2. destruct (mul_room s r b R B S38 H1) as (r' & E1). destruct (mul_room s b b B B S38 H2) as (b' & E2). rewrite E1, E2. cbn [bind]. eauto.
Qed.
Lemma loop_room : forall s e b r c, at_s s b -> at_s s r -> 1 <= num b -> pow_loop e b r = Ok c -> qp (num b * (1 - ulp s)) (top e) < room s.
Proof.
  intros s e. induction e as [e IH | e IH |]; intros b r c B R B1 H; cbn [pow_loop top] in *.
  all: assert (Hs : (0 <= s)%Z) by (destruct B as ([_ B'] & <- & _); lia); pose proof (ulp_s s Hs) as U0; pose proof (ulp_le1 s Hs) as U1'; set (k := 1 - ulp s) in *; assert (K0 : 0 <= k) by (unfold k; lra); assert (K1 : k <= 1) by (unfold k; lra).
  1,2: try (bd H r' E1; destruct (mul_s s _ _ _ R B E1) as (R' & N1 & _)); bd H b' E2; destruct (mul_s s _ _ _ B B E2) as (B' & N2 & L2 & U2 & G2); assert (P2 : 1 <= num b * num b) by (setoid_replace 1 with (1 * 1) by ring; apply mul_le; lra); 
    assert (X : num b * k * (num b * k) <= num b' * k) by (assert (H2 : num b * num b * k <= num b') by (unfold k; apply Qmult_le_compat_r with (z := ulp s) in P2; lra); setoid_replace (num b * k * (num b * k)) with (num b * num b * k * k) by ring; apply Qmult_le_compat_r; auto);
    rewrite qp_top; (eapply Qle_lt_trans; [apply qp_mono; [| exact X] |]); [apply Qmult_le_0_compat; apply Qmult_le_0_compat; lra | eapply IH; [exact B' | | exact (G2 P2) | exact H]; auto].
  bd H r' E1. bd H b' E2. change (qp (num b * k) 2) with (num b * k * (num b * k)). destruct (mul_ok_inv _ _ _ (proj1 B) (proj1 B) E2) as (_ & _ & _ & _ & _ & P & _). apply (proj1 (prod_room s b b B B)) in P.
  apply Qle_lt_trans with (2 := P). apply mul_le; try (apply Qmult_le_0_compat; lra); setoid_replace (num b) with (num b * 1) at 2 by ring; apply mul_le; lra.
Qed.

(** ** Integer powers of decimals that are not negative *)
Lemma pow_unfold : forall d e, at_s (dscale d) d -> d_pow d (Zpos e) = let* den := denominator d in pow_loop e d (mkD den (dscale d) false).
Proof. intros d e (_ & _ & N). unfold d_pow. rewrite N. reflexivity. Qed.
Lemma den_inv : forall d c (k : Z -> res decimal), wf d -> (let* den := denominator d in k den) = Ok c -> k (10 ^ dscale d)%Z = Ok c /\ (0 <= dscale d <= 38)%Z.
Proof.
  intros d c k [_ W] H. destruct (Z_le_gt_dec (dscale d) 38) as [L | G].
  - unfold denominator in H. rewrite pow10_Ok in H by lia. split; auto. lia.
  - exfalso. unfold denominator in H. bd H q E. apply pow10_ok in E. lia.
Qed.
Theorem pow_below : forall d e c, wf d -> dneg d = false -> num d <= 1 -> d_pow d (Zpos e) = Ok c ->
  0 <= num c /\ num c <= num d ^ Zpos e /\ num d ^ Zpos e <= num c + inject_Z (Zpos e) * ulp (dscale d).
Proof.
  intros d e c W N L H. assert (D : at_s (dscale d) d) by (split; auto). rewrite (pow_unfold _ _ D) in H. apply den_inv in H; auto. destruct H as [H S]. destruct (one_s _ S) as [O O1].
  destruct (loop_below _ _ _ _ _ D O L ltac:(lra) H) as (_ & P & Q & R). rewrite O1, Qmult_1_l in Q, R. split; auto.
Qed.
Theorem pow_above : forall d e c, wf d -> dneg d = false -> 1 <= num d -> d_pow d (Zpos e) = Ok c ->
  num c <= num d ^ Zpos e /\ num d ^ Zpos e * (1 - inject_Z (Zpos e) * ulp (dscale d)) <= num c.
Proof.
  intros d e c W N L H. assert (D : at_s (dscale d) d) by (split; auto). rewrite (pow_unfold _ _ D) in H. apply den_inv in H; auto. destruct H as [H S]. destruct (one_s _ S) as [O O1].
  destruct (loop_above _ _ _ _ _ D O L ltac:(lra) H) as (_ & P & Q & R). rewrite O1, Qmult_1_l in Q, R. split; auto. apply Qle_trans with (2 := R).
  pose proof (bernoulli (ulp (dscale d)) e (Qlt_le_weak _ _ (ulp_s _ (proj1 S))) (ulp_le1 _ (proj1 S))) as B. change (num d ^ Zpos e) with (qp (num d) e). rewrite !(Qmult_comm (qp (num d) e)). apply Qmult_le_compat_r; [exact B | apply qp_nn; lra].
Qed.
Theorem pow_monotone : forall a b n c, wf a -> wf b -> dneg a = false -> dneg b = false -> dscale a = dscale b -> num a <= num b -> d_pow b n = Ok c ->
  exists c', d_pow a n = Ok c' /\ num c' <= num c.
Proof.
  intros a b n c Wa Wb Na Nb S L H. assert (A : at_s (dscale b) a) by (split; auto). assert (B : at_s (dscale b) b) by (split; auto). apply (proj1 (num_s_le _ _ _ A B)) in L. destruct n as [| e | e].
  1,3: unfold d_pow in *; unfold denominator in *; rewrite S, Na; rewrite Nb in H; exists c; split; [exact H | lra].
  rewrite (pow_unfold _ _ B) in H. apply den_inv in H; auto. destruct H as [H S8]. destruct (one_s _ S8) as [O O1]. assert (A' : at_s (dscale a) a) by (rewrite S; auto). rewrite (pow_unfold _ _ A'). unfold denominator. rewrite S, pow10_Ok by lia. cbn [bind].
  destruct (loop_mono _ e _ _ _ _ _ A O B O L ltac:(lia) H) as (c' & E & L'). exists c'. split; auto.
  assert (C : at_s (dscale b) c) by (exact (pow_loop_at _ _ _ _ _ B O H)). assert (C' : at_s (dscale b) c') by (exact (pow_loop_at _ _ _ _ _ A O E)). apply (proj2 (num_s_le _ _ _ C' C)). exact L'.
Qed.
Definition pow_room (s : Z) : Q := inject_Z (2 ^ 128) / (inject_Z (10 ^ s) * inject_Z (10 ^ s)).
Lemma pow_room_eq : forall s, room s == pow_room s. Proof. intros. unfold room, pow_room, ulp, Qdiv. rewrite Qinv_mult_distr. ring. Qed.
Theorem pow_completes : forall d e, wf d -> dneg d = false -> (dscale d <= 38)%Z -> 1 <= num d -> num d ^ (2 * 2 ^ Z.log2 (Zpos e)) < pow_room (dscale d) -> exists c, d_pow d (Zpos e) = Ok c.
Proof.
  intros d e W N S8 L H. assert (D : at_s (dscale d) d) by (split; auto). assert (S : (0 <= dscale d <= 38)%Z) by (destruct W; lia). rewrite (pow_unfold _ _ D). unfold denominator. rewrite pow10_Ok by lia. cbn [bind]. destruct (one_s _ S) as [O O1].
  rewrite <- top_log, <- pow_room_eq in H. change (num d ^ Zpos (top e)) with (qp (num d) (top e)) in H. apply (loop_total (dscale d)); auto. rewrite O1, Qmult_1_l. apply Qle_lt_trans with (2 := H). apply qp_top_le. exact L.
Qed.
Theorem pow_needs_room : forall d e c, wf d -> dneg d = false -> 1 <= num d -> d_pow d (Zpos e) = Ok c -> (num d * (1 - ulp (dscale d))) ^ (2 * 2 ^ Z.log2 (Zpos e)) < pow_room (dscale d).
Proof.
  intros d e c W N L H. assert (D : at_s (dscale d) d) by (split; auto). rewrite (pow_unfold _ _ D) in H. apply den_inv in H; auto. destruct H as [H S]. destruct (one_s _ S) as [O O1].
  rewrite <- top_log, <- pow_room_eq. exact (loop_room _ _ _ _ _ D O L H).
Qed.
