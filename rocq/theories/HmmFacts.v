(** The curve of the HMM adjustment stated with the parameter itself as exponent. *)
From Coq Require Import ZArith QArith Qreals Reals Lra Lia.
From Verif Require Import Base DecimalModel DecimalSpec MathModel PoolModel PowAccuracy HmmCurve HmmPrice.
Open Scope R_scope.

Theorem hmm_follows_x : forall orc l a b c o r, curved c -> at_s 12 l -> at_s 12 a -> at_s 12 b -> at_s 12 o -> 1 <= Q2R (num a) -> 1 <= Q2R (num b) -> 1 <= Q2R (num o) ->
  dx_from_l_drp_hmm orc l a b c o = Ok r ->
  let '(C, L, W, A, B) := (Q2R (num c), Q2R (num l), Q2R (num o), Q2R (num a), Q2R (num b)) in
  let d := Rpower A (C - 1) - Rpower B (C - 1) in
  Rabs (Q2R (num r) - L / Rpower W C * d / (C - 1)) <= 1 / 1000000000000 * (1 + (2 + 5 * L + (1 + 4 * L) * Rabs d) / (C - 1)).
Proof. intros orc l a b c o r (N & S & V) Al Aa Ab Ao Ga Gb Go H. destruct (c_par c N S V) as (k & e & P & E & _). unfold rv in E. rewrite E. exact (hmm_curve_x orc l a b c k e o r P Al Aa Ab Ao Ga Gb Go H). Qed.
Theorem hmm_follows_y : forall orc l a b c o r, curved c -> at_s 12 l -> at_s 12 a -> at_s 12 b -> at_s 12 o -> 1 <= Q2R (num a) -> 1 <= Q2R (num b) -> 1 <= Q2R (num o) ->
  dy_from_l_drp_hmm orc l a b c o = Ok r ->
  let '(C, L, W, A, B) := (Q2R (num c), Q2R (num l), Q2R (num o), Q2R (num a), Q2R (num b)) in
  let d := Rpower A (1 - C) - Rpower B (1 - C) in
  Rabs (Q2R (num r) - L * Rpower W C * d / (C - 1)) <= 1 / 1000000000000 * (1 + (3 + 12 * (L * Rpower W C)) / (C - 1)).
Proof. intros orc l a b c o r (N & S & V) Al Aa Ab Ao Ga Gb Go H. destruct (c_par c N S V) as (k & e & P & E & _). unfold rv in E. rewrite E. exact (hmm_curve_y orc l a b c k e o r P Al Aa Ab Ao Ga Gb Go H). Qed.
