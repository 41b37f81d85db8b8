(** Bounds for the real logarithm by partial sums of the series of
    ln ((1 + z) / (1 - z)), with a rational version that can be computed. *)
From Coq Require Import ZArith QArith Qreals Reals Lra Lia List Bool.
From Coq Require Import Psatz.
Import ListNotations.
Local Open Scope R_scope.

Fixpoint series (n : nat) (z : R) : R := match n with O => 0 | S m => series m z + 2 / IZR (2 * Z.of_nat m + 1) * z ^ (2 * m + 1) end.
Fixpoint slope (n : nat) (z : R) : R := match n with O => 0 | S m => slope m z + 2 * z ^ (2 * m) end.

Lemma odd_pos : forall m, 0 < IZR (2 * Z.of_nat m + 1).
Proof. intros. apply IZR_lt. lia. Qed.
Lemma slope_closed : forall n z, slope n z * (1 - z * z) = 2 * (1 - z ^ (2 * n)).
Proof.
  induction n; intros z; [cbn; ring|]. change (slope (S n) z) with (slope n z + 2 * z ^ (2 * n)).
  rewrite Rmult_plus_distr_r, IHn. replace (2 * S n)%nat with (S (S (2 * n))) by lia. cbn [pow]. ring.
Qed.
Lemma series_der : forall n z, derivable_pt_lim (series n) z (slope n z).
Proof.
  induction n; intros z; cbn [series slope]; [apply derivable_pt_lim_const|].
  apply (derivable_pt_lim_plus (series n) (fun z => 2 / IZR (2 * Z.of_nat n + 1) * z ^ (2 * n + 1))); [apply IHn|].
  pose proof (odd_pos n) as O.
  replace (2 * z ^ (2 * n)) with (2 / IZR (2 * Z.of_nat n + 1) * (INR (2 * n + 1) * z ^ (pred (2 * n + 1)))).
  - apply (derivable_pt_lim_scal (fun z => z ^ (2 * n + 1))). apply derivable_pt_lim_pow.
  - replace (pred (2 * n + 1)) with (2 * n)%nat by lia. rewrite INR_IZR_INZ. replace (Z.of_nat (2 * n + 1)) with (2 * Z.of_nat n + 1)%Z by lia. field. lra.
Qed.
Definition gap (n : nat) (z : R) : R := ln (1 + z) - ln (1 - z) - series n z.
Lemma gap_der : forall n z, 0 <= z < 1 -> derivable_pt_lim (gap n) z (2 * z ^ (2 * n) / (1 - z * z)).
Proof.
  intros n z Hz. assert (Q : 0 < 1 - z * z) by nra.
  replace (2 * z ^ (2 * n) / (1 - z * z)) with (/ (1 + z) * 1 - / (1 - z) * (-1) - slope n z).
  2: { pose proof (slope_closed n z) as C. assert (slope n z = 2 * (1 - z ^ (2 * n)) / (1 - z * z)) as -> by (rewrite <- C; field; lra). field. split; [lra|]. split; lra. }
  unfold gap. apply (derivable_pt_lim_minus (fun z => ln (1 + z) - ln (1 - z)) (series n)); [|apply series_der].
  apply (derivable_pt_lim_minus (fun z => ln (1 + z)) (fun z => ln (1 - z))).
  - apply (derivable_pt_lim_comp (fun z => 1 + z) ln); [|apply derivable_pt_lim_ln; lra].
    assert (D : derivable_pt_lim (fun z => 1 + z) z (0 + 1)) by (apply (derivable_pt_lim_plus (fun _ => 1) (fun z => z)); [apply derivable_pt_lim_const | apply derivable_pt_lim_id]).
    rewrite Rplus_0_l in D. exact D.
  - apply (derivable_pt_lim_comp (fun z => 1 - z) ln); [|apply derivable_pt_lim_ln; lra].
    replace (-1) with (0 - 1) by ring. apply (derivable_pt_lim_minus (fun _ => 1) (fun z => z)); [apply derivable_pt_lim_const | apply derivable_pt_lim_id].
Qed.
Lemma series_0 : forall n, series n 0 = 0.
Proof. induction n; cbn [series]; [reflexivity|]. rewrite IHn, pow_i by lia. ring. Qed.
Lemma series_bounds : forall n z, 0 < z < 1 -> series n z <= ln (1 + z) - ln (1 - z) <= series n z + 2 * z ^ (2 * n + 1) / (1 - z * z).
Proof.
  intros n z Hz. assert (Q : 0 < 1 - z * z) by nra.
  destruct (MVT_cor2 (gap n) (fun z => 2 * z ^ (2 * n) / (1 - z * z)) 0 z) as (c & E & C); [lra | intros; apply gap_der; lra |].
  assert (G0 : gap n 0 = 0). { unfold gap. rewrite series_0. replace (1 + 0) with 1 by ring. replace (1 - 0) with 1 by ring. ring. }
  rewrite G0, !Rminus_0_r in E. assert (Qc : 0 < 1 - c * c) by nra.
  assert (P0 : 0 <= c ^ (2 * n)) by (apply pow_le; lra).
  assert (P1 : c ^ (2 * n) <= z ^ (2 * n)) by (apply pow_incr; lra).
  assert (D0 : 0 <= 2 * c ^ (2 * n) / (1 - c * c)). { apply Rmult_le_pos; [lra|]. left. apply Rinv_0_lt_compat. exact Qc. }
  assert (D1 : 2 * c ^ (2 * n) / (1 - c * c) <= 2 * z ^ (2 * n) / (1 - z * z)).
  { unfold Rdiv. apply Rmult_le_compat; [lra | left; apply Rinv_0_lt_compat; exact Qc | lra |]. apply Rinv_le_contravar; nra. }
  unfold gap in E. split.
  - nra.
  - replace (2 * z ^ (2 * n + 1) / (1 - z * z)) with (2 * z ^ (2 * n) / (1 - z * z) * z) by (rewrite pow_add; cbn [pow]; field; lra). nra.
Qed.

(** Computable versions. *)
Fixpoint qpw (z : Q) (n : nat) : Q := match n with O => 1%Q | S m => Qred (z * qpw z m)%Q end.
Fixpoint qseries (n : nat) (z : Q) : Q := match n with O => 0%Q | S m => Qred (qseries m z + (2 # Pos.of_nat (2 * m + 1)) * qpw z (2 * m + 1))%Q end.
Definition qtail (n : nat) (z : Q) : Q := (2 * qpw z (2 * n + 1) / (1 - z * z))%Q.
Lemma q2r_red : forall q, Q2R (Qred q) = Q2R q.
Proof. intros. apply Qeq_eqR. apply Qred_correct. Qed.
Lemma q2r_pw : forall n z, Q2R (qpw z n) = Q2R z ^ n.
Proof. induction n; intros z; cbn [qpw pow]; [unfold Q2R; cbn; field|]. rewrite q2r_red, Q2R_mult, IHn. reflexivity. Qed.
Lemma q2r_series : forall n z, Q2R (qseries n z) = series n (Q2R z).
Proof.
  induction n; intros z; cbn [qseries series]; [unfold Q2R; cbn; field|].
  rewrite q2r_red, Q2R_plus, Q2R_mult, IHn, q2r_pw. f_equal. f_equal. unfold Q2R, Qnum, Qden, Rdiv. f_equal. f_equal. f_equal. lia.
Qed.
Lemma q2r_1 : Q2R 1 = 1. Proof. unfold Q2R; cbn; field. Qed.
Lemma q2r_2 : Q2R 2 = 2. Proof. unfold Q2R; cbn; field. Qed.
Lemma q2r_tail : forall n z, (0 < z < 1)%Q -> Q2R (qtail n z) = 2 * Q2R z ^ (2 * n + 1) / (1 - Q2R z * Q2R z).
Proof.
  intros n z Hz. unfold qtail. rewrite Q2R_div, Q2R_minus, !Q2R_mult, q2r_pw, q2r_1, q2r_2; [reflexivity|].
  intros E. assert (~ (1 - z * z == 0)%Q); [|contradiction]. destruct Hz. intros F. assert (z * z < 1)%Q by nra. lra.
Qed.
(** [ln_near n lo hi a b]: computed evidence for lo <= ln (a / b) <= hi, where 0 < b < a. *)
Definition ln_near (n : nat) (lo hi : Q) (a b : Z) : bool :=
  let z := Qred (inject_Z (a - b) / inject_Z (a + b))%Q in
  (Qle_bool lo (qseries n z) && Qle_bool (qseries n z + qtail n z) hi)%bool.
Lemma q2r_z : forall z, Q2R (inject_Z z) = IZR z.
Proof. intros. unfold Q2R, inject_Z; cbn. field. Qed.
Lemma ln_near_ok : forall n lo hi a b, (0 < b < a)%Z -> ln_near n lo hi a b = true -> Q2R lo <= ln (IZR a / IZR b) <= Q2R hi.
Proof.
  intros n lo hi a b Hab E. unfold ln_near in E. cbv zeta in E. apply andb_prop in E. destruct E as (E1 & E2).
  apply Qle_bool_iff in E1, E2. apply Qle_Rle in E1, E2.
  set (z := Qred (inject_Z (a - b) / inject_Z (a + b))) in *.
  assert (B : 0 < IZR b) by (apply IZR_lt; lia). assert (A : IZR b < IZR a) by (apply IZR_lt; lia).
  assert (Z : Q2R z = (IZR a - IZR b) / (IZR a + IZR b)).
  { unfold z. rewrite q2r_red, Q2R_div, !q2r_z, minus_IZR, plus_IZR; [reflexivity|]. intros F. unfold Qeq in F. cbn in F. lia. }
  assert (ZB : 0 < Q2R z < 1).
  { rewrite Z. assert (S : 0 < IZR a + IZR b) by lra. split; [apply Rdiv_lt_0_compat; lra|]. apply (Rmult_lt_reg_r (IZR a + IZR b)); [exact S|]. unfold Rdiv. rewrite Rmult_assoc, Rinv_l by lra. lra. }
  assert (ZQ : (0 < z < 1)%Q). { split; apply Rlt_Qlt; [rewrite RMicromega.Q2R_0 | rewrite q2r_1]; lra. }
  rewrite Q2R_plus, q2r_tail, q2r_series in E2 by exact ZQ. rewrite q2r_series in E1.
  destruct (series_bounds n (Q2R z) ZB) as (L & U).
  replace (IZR a / IZR b) with ((1 + Q2R z) / (1 - Q2R z)).
  2: { rewrite Z. field. split; [lra|]. split; lra. }
  assert (LD : ln ((1 + Q2R z) / (1 - Q2R z)) = ln (1 + Q2R z) - ln (1 - Q2R z)).
  { unfold Rdiv. rewrite ln_mult; [|lra | apply Rinv_0_lt_compat; lra]. rewrite ln_Rinv by lra. ring. }
  rewrite LD. lra.
Qed.
