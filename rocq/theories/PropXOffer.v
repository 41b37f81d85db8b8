(** Claim C101: deposits in which X is the scarcer of the two tokens offered. *)
From Coq Require Import ZArith QArith List Bool Lia String.
From Verif Require Import Base DecimalModel DecimalSpec DecimalProofs WfProofs MathModel MathProofs TickProofs PoolModel PoolWf LpProofs PoolInv PoolLp PoolEnter Concrete Examples PropPool XOffer ChainModel ChainSpec PropChain.
Import ListNotations.
Open Scope string_scope. Open Scope Z_scope.

(** ** C101.  The full claim - a deposit of amounts the user has, in a range, is accepted, whichever of the two tokens decides how much
    liquidity it makes - is false: when X decides, the X needed for the liquidity is computed as larger than the X the liquidity was computed
    from, as soon as the offer is larger than a threshold that depends on the two prices alone.  [x_decides], [cut]: XOffer.v. *)
(** The decimal pool: refused in every reachable state. *)
Theorem C101_x_deposit_refused : forall orc p user x y rpa rpb lo up a b, reachable orc p -> nonneg x -> nonneg y -> dscale x = 12 -> dscale y = 12 ->
  range_of p rpa rpb lo up -> tick_to_rp lo = Ok a -> tick_to_rp up = Ok b ->
  let '(X, Y, P, A, B) := (dval x, dval y, dval (glbl_rp p), dval a, dval b) in
  x_decides X Y P A B -> SC * (Z.max P A * B / SC + 2 * B - Z.max P A + 2 * SC) <= X * cut P A B ->
  forall r, deposit p user x y rpa rpb <> Ok r.
Proof. exact x_deposit_refused. Qed.
Print Assumptions C101_x_deposit_refused.
(** The program on chain: refused in every state reached. *)
Theorem C101_x_deposit_refused_chain : forall s u l h c xa ya to p a b, reached s -> tick_to_rp c = Ok p -> tick_to_rp l = Ok a -> tick_to_rp h = Ok b ->
  let '(X, Y, P, A, B) := (xa * SC, ya * SC, dval p, dval a, dval b) in
  x_decides X Y P A B -> SC * (Z.max P A * B / SC + 2 * B - Z.max P A + 2 * SC) <= X * cut P A B ->
  forall s', exec s (IDeposit u l h c xa ya to) <> Ok s'.
Proof. exact x_deposit_refused_chain. Qed.
Print Assumptions C101_x_deposit_refused_chain.
(** What holds: below a threshold the amounts computed lie within the offer (the condition [quoted] of C48). *)
Theorem C101_x_deposit_quoted_partial : forall orc p x y rpa rpb lo up a b l xi yi, reachable orc p -> nonneg x -> nonneg y -> dscale x = 12 -> dscale y = 12 ->
  range_of p rpa rpb lo up -> tick_to_rp lo = Ok a -> tick_to_rp up = Ok b ->
  liq_from_x_y_rp_rng x y (glbl_rp p) a b = Ok l -> x_from_l_rp_rng l (glbl_rp p) a b = Ok xi -> y_from_l_rp_rng l (glbl_rp p) a b = Ok yi ->
  let '(X, Y, P, A, B) := (dval x, dval y, dval (glbl_rp p), dval a, dval b) in
  x_decides X Y P A B -> X * cut P A B < SC * (Z.max P A * B / SC) -> quoted p x y lo up l xi yi.
Proof. exact x_deposit_fits. Qed.
Print Assumptions C101_x_deposit_quoted_partial.

(** 1000 X on their own, in a range above the price: refused by the pool.  1000 X and 5000 Y around the price (1000 X go with about 1001 Y):
    refused by the pool.  1000 X and 1000000 Y: refused on chain, although the user has them. *)
Theorem C101_x_deposit_refuted :
  (exists p, reachable no_orc p /\ deposit p "cat" (units 1000) (units 0) (near 20) (near 30) = Panic /\ deposit p "cat" (units 1000) (units 5000) (near 4) (near 16) = Panic) /\
  (exists s, reached s /\ bal (HUser 1) (c_x s) >= 1000000 /\ bal (HUser 1) (c_y s) >= 1000000 /\
    exec s (IDeposit 1 5 20 10 1000 1000000 (HUser 1)) = Err DepositAmountExceeded).
Proof.
  split.
  - exists ex0. split; [exact ex0_reachable |]. split; vm_compute; reflexivity.
  - exists s0. split; [exact (reach _ _ e0) |]. split; [vm_compute; discriminate |]. split; [vm_compute; discriminate |]. vm_compute. reflexivity.
Qed.
Print Assumptions C101_x_deposit_refuted.

Lemma units_nn : forall n, 0 <= n < 10 ^ 20 -> nonneg (units n) /\ dscale (units n) = 12.
Proof. intros n H. unfold units, D12, nonneg, wf. cbn [dval dscale dneg]. change U128 with 340282366920938463463374607431768211456. change (10 ^ 20) with 100000000000000000000 in H. change (10 ^ 12) with 1000000000000. repeat split; lia. Qed.
(** The hypotheses hold in both cases of the definition of [x_decides]. *)
Example C101_case_above : exists a b, reachable no_orc ex0 /\ range_of ex0 (near 20) (near 30) 20 30 /\ tick_to_rp 20 = Ok a /\ tick_to_rp 30 = Ok b /\
  x_decides (dval (units 1000)) 0 (dval (glbl_rp ex0)) (dval a) (dval b) /\
  SC * (Z.max (dval (glbl_rp ex0)) (dval a) * dval b / SC + 2 * dval b - Z.max (dval (glbl_rp ex0)) (dval a) + 2 * SC) <= dval (units 1000) * cut (dval (glbl_rp ex0)) (dval a) (dval b).
Proof.
  do 2 eexists. split; [exact ex0_reachable |]. split; [repeat split; vm_compute; reflexivity || discriminate |]. split; [vm_compute; reflexivity |]. split; [vm_compute; reflexivity |].
  split; [left; vm_compute; discriminate | vm_compute; discriminate].
Qed.
Example C101_case_around : exists a b, range_of ex0 (near 4) (near 16) 4 16 /\ tick_to_rp 4 = Ok a /\ tick_to_rp 16 = Ok b /\
  dval a < dval (glbl_rp ex0) < dval b /\ x_decides (dval (units 1000)) (dval (units 5000)) (dval (glbl_rp ex0)) (dval a) (dval b) /\
  SC * (Z.max (dval (glbl_rp ex0)) (dval a) * dval b / SC + 2 * dval b - Z.max (dval (glbl_rp ex0)) (dval a) + 2 * SC) <= dval (units 1000) * cut (dval (glbl_rp ex0)) (dval a) (dval b).
Proof.
  do 2 eexists. split; [repeat split; vm_compute; reflexivity || discriminate |]. split; [vm_compute; reflexivity |]. split; [vm_compute; reflexivity |].
  split; [split; vm_compute; reflexivity |]. split; [right; split; [split; vm_compute; reflexivity | vm_compute; discriminate] | vm_compute; discriminate].
Qed.
Example C101_case_chain : exists p a b, reached s0 /\ tick_to_rp 10 = Ok p /\ tick_to_rp 5 = Ok a /\ tick_to_rp 20 = Ok b /\
  x_decides (1000 * SC) (1000000 * SC) (dval p) (dval a) (dval b) /\
  SC * (Z.max (dval p) (dval a) * dval b / SC + 2 * dval b - Z.max (dval p) (dval a) + 2 * SC) <= 1000 * SC * cut (dval p) (dval a) (dval b).
Proof.
  do 3 eexists. split; [exact (reach _ _ e0) |]. do 3 (split; [vm_compute; reflexivity |]).
  split; [right; split; [split; vm_compute; reflexivity | vm_compute; discriminate] | vm_compute; discriminate].
Qed.
(** 10 X and 1000 Y in the same range are accepted. *)
Example C101_case_small : exists a b p' o, range_of ex0 (near 4) (near 16) 4 16 /\ tick_to_rp 4 = Ok a /\ tick_to_rp 16 = Ok b /\
  x_decides (dval (units 10)) (dval (units 1000)) (dval (glbl_rp ex0)) (dval a) (dval b) /\
  dval (units 10) * cut (dval (glbl_rp ex0)) (dval a) (dval b) < SC * (Z.max (dval (glbl_rp ex0)) (dval a) * dval b / SC) /\
  deposit ex0 "cat" (units 10) (units 1000) (near 4) (near 16) = Ok (p', o) /\ dval (io_x o) = 9999999999999.
Proof.
  do 4 eexists. split; [repeat split; vm_compute; reflexivity || discriminate |]. split; [vm_compute; reflexivity |]. split; [vm_compute; reflexivity |].
  split; [right; split; [split; vm_compute; reflexivity | vm_compute; discriminate] |]. split; [vm_compute; reflexivity |]. split; [vm_compute; reflexivity | reflexivity].
Qed.
