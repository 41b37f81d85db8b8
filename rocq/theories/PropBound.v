(** Property C76: range bounds recovered from amounts. *)
From Coq Require Import ZArith QArith Qabs Bool Lia Lqa.
From Verif Require Import Base DecimalModel DecimalSpec DecimalProofs MathModel MathProofs BoundProofs.
Open Scope Z_scope.

(** ** C76.  A range bound computed from amounts gives a range that needs those amounts.  Liquidity [l] between root prices [a] and
    [b] needs [l * (b - a)] of Y when the price is above, and [l * (1/a - 1/b)] of X when it is below. *)
(** Lower bound from liquidity, price and Y: the range needs at most [y], and all but [l * 10^-scale] of it. *)
Theorem C76_lower_from_y : forall l rp y r, nonneg l -> nonneg rp -> nonneg y -> rpa_from_l_rp_y l rp y = Ok r ->
  nonneg r /\ (num r <= num rp /\ num l * (num rp - num r) <= num y /\ num y < num l * (num rp - num r) + ulp (dscale rp) * num l)%Q.
Proof. exact lower_from_y. Qed.
(** Upper bound from liquidity, price and X, if a bound above 0 is returned. *)
Theorem C76_upper_from_x_partial : forall l rp x r, nonneg l -> nonneg rp -> nonneg x -> (0 < num rp)%Q -> rpb_from_l_rp_x l rp x = Ok r -> (0 < num r)%Q ->
  (num l * (/ num rp - / num r) <= num x /\
   (1 <= num rp -> 1 <= num r -> num x <= num l * (/ num rp - / num r) + ulp (dscale rp) * (num l + (2#1))))%Q.
Proof. exact upper_from_x. Qed.
(** The full claim has no such condition: a bound that is returned is not below the price.  It is false: liquidity 10^-12 at root price 1 holds
    at most 10^-12 X in any range above the price, but for a million X the function returns the bound 0 where it should panic. *)
Definition b_l : decimal := mkD 1 12 false.
Definition b_rp : decimal := mkD 1000000000000 12 false.
Definition b_x : decimal := mkD 1000000000000000000 12 false.
Theorem C76_upper_from_x_refuted : nonneg b_l /\ nonneg b_rp /\ nonneg b_x /\ exists r, rpb_from_l_rp_x b_l b_rp b_x = Ok r /\ (num r == 0 /\ num r < num b_rp)%Q /\
  (forall q, 1 <= q -> num b_l * (/ num b_rp - / q) < num b_x)%Q.
Proof.
  do 3 (split; [repeat split; vm_compute; try reflexivity; discriminate |]). eexists. split; [vm_compute; reflexivity |]. split; [split; vm_compute; reflexivity |].
  intros q H. assert (0 < / q)%Q by (apply Qinv_lt_0_compat; lra). setoid_replace (num b_l) with (1 # 1000000000000)%Q by (vm_compute; reflexivity). setoid_replace (num b_rp) with 1%Q by (vm_compute; reflexivity). setoid_replace (num b_x) with (1000000 # 1)%Q by (vm_compute; reflexivity).
  change (/ 1)%Q with 1%Q. lra.
Qed.
(** Lower bound from both amounts, price and upper bound: if liquidity [L] needs [x] above the price and needs [y] down to [e], the
    function returns [e] up to 10^-scale * (1 + 2y/x^2). *)
Theorem C76_lower_from_xy : forall x y rp rpb r L e, nonneg x -> nonneg y -> nonneg rp -> nonneg rpb -> dscale rpb = dscale rp -> (1 <= num rp)%Q -> (num rp < num rpb)%Q -> ((2#1) * ulp (dscale rp) <= num x)%Q ->
  rpa_from_x_y_rp_rpb x y rp rpb = Ok r -> (L * (/ num rp - / num rpb) == num x)%Q -> (L * (num rp - e) == num y)%Q ->
  (Qabs (num r - e) <= ulp (dscale rp) * (1 + (2#1) * num y * / (num x * num x)))%Q.
Proof. exact lower_from_xy. Qed.
(** Upper bound from both amounts, price and lower bound: liquidity [y / (rp - rpa)], which needs exactly [y] below the price, needs at most [x]
    above it and all but 10^-scale * (x + y + 2) / (rp - rpa). *)
Theorem C76_upper_from_xy : forall x y rp rpa r, nonneg x -> nonneg y -> nonneg rp -> nonneg rpa -> (0 < num rp)%Q -> rpb_from_x_y_rp_rpa x y rp rpa = Ok r -> (0 < num r)%Q ->
  (num y * (/ num rp - / num r) <= num x * (num rp - num rpa) /\
   (1 <= num rp -> 1 <= num r -> num x * (num rp - num rpa) <= num y * (/ num rp - / num r) + ulp (dscale rp) * (num x + num y + (2#1))))%Q.
Proof. exact upper_from_xy. Qed.
(** The example of the project's tests: 2 ETH and 4000 USDC at 2000 USDC per ETH, range up to 3000; and back. *)
Definition e_x : decimal := mkD 2000000000000 12 false.
Definition e_y : decimal := mkD 4000000000000000 12 false.
Definition e_rp : decimal := mkD 44721359549995 12 false.
Definition e_rpb : decimal := mkD 54772255750516 12 false.
Definition e_rpa : decimal := mkD 36514837167010 12 false.
Example C76_case : nonneg e_x /\ nonneg e_y /\ nonneg e_rp /\ nonneg e_rpb /\ (1 <= num e_rp /\ num e_rp < num e_rpb /\ (2#1) * ulp (dscale e_rp) <= num e_x)%Q /\
  rpa_from_x_y_rp_rpb e_x e_y e_rp e_rpb = Ok e_rpa /\
  (exists l, liq_x_only e_x e_rp e_rpb = Ok l /\ nonneg l /\ (num l > 400)%Q /\ rpa_from_l_rp_y l e_rp e_y = Ok e_rpa /\ exists r, rpb_from_l_rp_x l e_rp e_x = Ok r /\ (54 < num r)%Q) /\
  (exists r, rpb_from_x_y_rp_rpa e_x e_y e_rp e_rpa = Ok r /\ (54 < num r)%Q) /\
  (exists L e, L * (/ num e_rp - / num e_rpb) == num e_x /\ L * (num e_rp - e) == num e_y)%Q.
Proof.
  do 4 (split; [repeat split; vm_compute; try reflexivity; discriminate |]). split; [repeat split; vm_compute; try reflexivity; discriminate |]. split; [vm_compute; reflexivity |].
  split. { eexists. split; [vm_compute; reflexivity |]. split; [repeat split; vm_compute; try reflexivity; discriminate |]. split; [vm_compute; reflexivity |]. split; [vm_compute; reflexivity |]. eexists. split; vm_compute; reflexivity. }
  split. { eexists. split; vm_compute; reflexivity. }
  exists (num e_x / (/ num e_rp - / num e_rpb))%Q, (num e_rp - num e_y / (num e_x / (/ num e_rp - / num e_rpb)))%Q. split; vm_compute; reflexivity.
Qed.

Print Assumptions C76_lower_from_y.
Print Assumptions C76_upper_from_x_partial.
Print Assumptions C76_upper_from_x_refuted.
Print Assumptions C76_lower_from_xy.
Print Assumptions C76_upper_from_xy.
