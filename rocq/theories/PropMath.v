(** Claims C15-C17: liquidity formulas.  [nonneg d] (MathProofs): [d] is well formed and its sign flag is off. *)
From Coq Require Import ZArith QArith List Bool Lia.
From Verif Require Import Base BaseLemmas DecimalModel DecimalSpec MathModel MathProofs.
Open Scope Z_scope.

(** ** C15 *)
Theorem C15_y_never_more_than_offered : forall x y rp rpa rpb l y', nonneg x -> nonneg y -> nonneg rp -> nonneg rpa -> nonneg rpb ->
  liq_from_x_y_rp_rng x y rp rpa rpb = Ok l -> y_from_l_rp_rng l rp rpa rpb = Ok y' -> nonneg y' /\ (num y' <= num y)%Q.
Proof. exact y_needed. Qed.
(** The x side may exceed the offer, by a relative error of one unit in the last place of the prices (10^-12 in the pool). *)
Theorem C15_x_partial : forall x y rp rpa rpb l x', nonneg x -> nonneg y -> nonneg rp -> nonneg rpa -> nonneg rpb -> (1 <= num rpa)%Q ->
  liq_from_x_y_rp_rng x y rp rpa rpb = Ok l -> x_from_l_rp_rng l rp rpa rpb = Ok x' ->
  nonneg x' /\ (num x' <= num x * (1 + ulp (dscale rpa)))%Q.
Proof. exact x_needed. Qed.

(** 180 x at tick 204 into the range [806, 51304): the granted liquidity needs 180.000000000012 x.
    ([Pool::deposit] then panics at its own check, mod.rs:545.) *)
Definition c15_x := mkD 180000000000000 12 false.
Definition c15_rp := mkD 1010251681942 12 false.
Definition c15_a := mkD 1041120965800 12 false.
Definition c15_b := mkD 13001590589246 12 false.
Definition c15_zero := mkD 0 12 false.
Example C15_case : tick_to_rp 204 = Ok c15_rp /\ tick_to_rp 806 = Ok c15_a /\ tick_to_rp 51304 = Ok c15_b /\
  nonneg c15_x /\ nonneg c15_rp /\ nonneg c15_a /\ nonneg c15_b /\ nonneg c15_zero /\
  liq_from_x_y_rp_rng c15_x c15_zero c15_rp c15_a c15_b = Ok (mkD 203714504189857 12 false) /\
  x_from_l_rp_rng (mkD 203714504189857 12 false) c15_rp c15_a c15_b = Ok (mkD 180000000000012 12 false) /\
  liq_from_x_y_rp_rng c15_x c15_x c15_a c15_rp c15_b = Ok (mkD 203714504189857 12 false) /\
  y_from_l_rp_rng (mkD 203714504189857 12 false) c15_a c15_rp c15_b = Ok (mkD 6288520855828 12 false).
Proof.
  assert (N : forall v, 0 <= v < 2 ^ 128 -> nonneg (mkD v 12 false)) by (intros v H; repeat split; cbn; lia).
  repeat (split; [first [apply N; lia | vm_compute; reflexivity] |]). vm_compute. reflexivity.
Qed.
Theorem C15_x_refuted : ~ (forall x y rp rpa rpb l x', nonneg x -> nonneg y -> nonneg rp -> nonneg rpa -> nonneg rpb -> (1 <= num rpa)%Q ->
  liq_from_x_y_rp_rng x y rp rpa rpb = Ok l -> x_from_l_rp_rng l rp rpa rpb = Ok x' -> (num x' <= num x)%Q).
Proof.
  intros H. destruct C15_case as (_ & _ & _ & H1 & H2 & H3 & H4 & H5 & H6 & H7 & _).
  specialize (H _ _ _ _ _ _ _ H1 H5 H2 H3 H4 ltac:(vm_compute; discriminate) H6 H7). vm_compute in H. congruence.
Qed.

(** ** C16 *)
Theorem C16_monotone : forall l l' rp rpa rpb, nonneg l -> nonneg l' -> nonneg rp -> nonneg rpa -> nonneg rpb -> (num rpa <= num rpb)%Q ->
  dscale l' = dscale l -> (num l' <= num l)%Q ->
  (forall x, x_from_l_rp_rng l rp rpa rpb = Ok x -> exists x', x_from_l_rp_rng l' rp rpa rpb = Ok x' /\ (num x' <= num x)%Q) /\
  (forall y, y_from_l_rp_rng l rp rpa rpb = Ok y -> exists y', y_from_l_rp_rng l' rp rpa rpb = Ok y' /\ (num y' <= num y)%Q).
Proof. exact amounts_monotone. Qed.
Theorem C16_superadditive : forall l l1 l2 rp rpa rpb, nonneg l -> nonneg l1 -> nonneg l2 -> nonneg rp -> nonneg rpa -> nonneg rpb -> (num rpa <= num rpb)%Q ->
  dscale l1 = dscale l -> dscale l2 = dscale l -> (num l1 + num l2 <= num l)%Q ->
  (forall x, x_from_l_rp_rng l rp rpa rpb = Ok x -> exists x1 x2, x_from_l_rp_rng l1 rp rpa rpb = Ok x1 /\ x_from_l_rp_rng l2 rp rpa rpb = Ok x2 /\ (num x1 + num x2 <= num x)%Q) /\
  (forall y, y_from_l_rp_rng l rp rpa rpb = Ok y -> exists y1 y2, y_from_l_rp_rng l1 rp rpa rpb = Ok y1 /\ y_from_l_rp_rng l2 rp rpa rpb = Ok y2 /\ (num y1 + num y2 <= num y)%Q).
Proof. exact amounts_superadditive. Qed.
Example C16_case :
  x_from_l_rp_rng (mkD 100000000000007 12 false) c15_rp c15_a c15_b = Ok (mkD 88358951521816 12 false) /\
  x_from_l_rp_rng (mkD 50000000000003 12 false) c15_rp c15_a c15_b = Ok (mkD 44179475760907 12 false) /\
  x_from_l_rp_rng (mkD 50000000000004 12 false) c15_rp c15_a c15_b = Ok (mkD 44179475760908 12 false).
Proof. repeat split; vm_compute; reflexivity. Qed.

(** ** C17 *)
Theorem C17_dx_never_raises_price : forall l rp dx r, nonneg l -> nonneg rp -> nonneg dx -> rp_new_from_l_dx l rp dx = Ok r ->
  nonneg r /\ dscale r = dscale l /\ (num r <= num rp)%Q.
Proof. exact rp_dx. Qed.
Theorem C17_dy_never_lowers_price : forall l rp dy r, nonneg l -> nonneg rp -> nonneg dy -> rp_new_from_l_dy l rp dy = Ok r ->
  nonneg r /\ dscale r = dscale rp /\ (num rp <= num r)%Q.
Proof. exact rp_dy. Qed.
Example C17_case :
  rp_new_from_l_dx (mkD 1000000000000000 12 false) c15_b (mkD 1500000000000 12 false) = Ok (mkD 12752879021439 12 false) /\
  rp_new_from_l_dy (mkD 1000000000000000 12 false) c15_b (mkD 1500000000000 12 false) = Ok (mkD 13003090589246 12 false).
Proof. split; vm_compute; reflexivity. Qed.

Print Assumptions C15_y_never_more_than_offered.
Print Assumptions C15_x_partial.
Print Assumptions C16_monotone.
Print Assumptions C16_superadditive.
Print Assumptions C17_dx_never_raises_price.
Print Assumptions C15_x_refuted.
Print Assumptions C17_dy_never_lowers_price.
