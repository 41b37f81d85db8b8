(** Claim C95: a withdrawal in two parts. *)
From Coq Require Import ZArith QArith List Bool Lia Lqa String.
From Verif Require Import Base DecimalModel DecimalSpec MathModel PoolModel PoolWf PoolInv PoolLp PoolFees Concrete Examples PropPool WdSplit.
Import ListNotations.
Open Scope string_scope. Open Scope Z_scope.

(** ** C95.  Whenever a withdrawal completes, it also completes in two parts (of any sizes); the parts together pay at most as
    much and at most 3 units of 10^-12 of X and 2 of Y less, and all fees are paid with the first part. *)
Theorem C95_two_withdrawals : forall orc p user l l1 l2 rpa rpb q o, reachable orc p -> wf l -> wf l1 -> wf l2 -> wf rpa -> wf rpb ->
  dscale l1 = 12 -> dscale l2 = 12 -> (0 < num l1)%Q -> (0 < num l2)%Q -> (num l == num l1 + num l2)%Q ->
  withdraw p user l rpa rpb = Ok (q, o) ->
  exists p1 o1 p2 o2, withdraw p user l1 rpa rpb = Ok (p1, o1) /\ withdraw p1 user l2 rpa rpb = Ok (p2, o2) /\
    (num (io_x o1) + num (io_x o2) <= num (io_x o) <= num (io_x o1) + num (io_x o2) + (3#1) * ulp12)%Q /\
    (num (io_y o1) + num (io_y o2) <= num (io_y o) <= num (io_y o1) + num (io_y o2) + (2#1) * ulp12)%Q /\
    forall k, (num (out_fee o1 k) == num (out_fee o k) /\ num (out_fee o2 k) == 0)%Q.
Proof. exact withdraw_twice. Qed.
(** Case: ann withdraws a third and then two thirds of what [lp_case] withdraws at once.  Together 299927770247571 and
    299952175999699 units: one less of each token than at once. *)
Definition wd_then (p : pool) (l1 l2 : decimal) : option (list Z * list Z) :=
  match withdraw p "ann" l1 (near 4) (near 16) with
  | Ok (p1, o1) => match lp_fig (Ok (p1, o1)), lp_fig (withdraw p1 "ann" l2 (near 4) (near 16)) with Some a, Some b => Some (a, b) | _, _ => None end
  | _ => None
  end.
Example two_withdrawals_case : wd_then ex2 (D12 333333333333333333) (D12 666666666666666667) =
  Some ([333333333333333333; 99975923415857; 99984058666566; 2996837575436; 2997557359491; 297947278510; 56243126312],
        [666666666666666667; 199951846831714; 199968117333133; 0; 0; 0; 0]).
Proof. vm_compute. reflexivity. Qed.

Print Assumptions C95_two_withdrawals.
