(** Property C77, positive part: swaps that do complete. *)
From Coq Require Import ZArith QArith List Bool Lia Lqa String.
From Verif Require Import Base DecimalModel DecimalSpec MathModel PoolModel PoolWf SwapLoop LpProofs PoolInv PoolLp PoolRange PoolDir PoolExit Concrete Examples PropPool HmmProofs SwapStuck SwapLive.
Import ListNotations.
Open Scope string_scope. Open Scope Z_scope.

(** C77 is false for small amounts and for small remainders after a crossing (PropStuck.v).  Inside one range, above the size the resolution of the root price
    requires, every swap completes, takes the whole amount and pays something.  [lim] is 2^128 units of 10^-24 and [max12] is 2^128 units of 10^-12.
    Missing for the full claim: small amounts and small remainders (false), swaps over more than one range, and a non-zero oracle price with C > 0. *)
(** X in.  [s], [L], [r], [g]: root price, liquidity, fee rate and the root price of the next active tick below.  The conditions: the numbers fit; the amount
    after the fee fits the range, and the Y reserve covers the range; the fee is at least [1 + L + dx] units of 10^-12 (the average-price check sees the
    rounding of the root price) and at least three units remain after it. *)
Theorem C77_x_partial : forall orc p dx ro gtk rg s L r g, reachable orc p -> wf dx -> dscale dx = 12 -> (0 < num dx)%Q -> hmm_off p ro -> dscale (fee_rate p) = 12 -> spacing p < 2 ^ 128 ->
  In gtk (map fst (ticks p)) -> gtk <= glbl_tick p -> (forall k, In k (map fst (ticks p)) -> k <= glbl_tick p -> k <= gtk) -> 0 < gtk -> tick_to_rp gtk = Ok rg ->
  s = num (glbl_rp p) -> L = num (glbl_liq p) -> r = num (fee_rate p) -> g = num rg -> (0 < L)%Q ->
  (L * s < lim)%Q -> (num dx * s < lim)%Q -> (s * s * (s * s) < lim)%Q -> (num (rx p) + num dx < max12)%Q -> (num (x_fee p) + num dx < max12)%Q -> (num dx + num (g_fx (gs p)) * L < max12 * L)%Q ->
  (num dx * (1 - r) * (s * g) + ulp12 <= L * (s - g))%Q -> (L * (s - g) <= num (ry p))%Q ->
  ((3#1) * ulp12 <= num dx * (1 - r))%Q -> (ulp12 * (1 + L + num dx) <= r * num dx)%Q ->
  exists p' o, execute_swap_from_x orc p dx ro = Ok (p', o) /\ (num (so_recv o) == num dx)%Q /\ (0 < - num (so_send o))%Q.
Proof.
  intros orc p dx ro gtk rg s L r g Hr Wd Sd D0 Off Sf Sp K1 K2 K3 G0 Eg -> -> -> -> L0 Z1 Z2 Z3 Z4 Z5 Z6 R1 R2 N1 N2.
  exact (swap_x_completes orc p dx ro gtk rg Hr Wd Sd D0 Off Sf Sp (conj K1 (conj K2 K3)) G0 Eg L0 (conj Z1 (conj Z2 (conj Z3 (conj Z4 (conj Z5 Z6))))) (conj R1 R2) (conj N1 N2)).
Qed.
(** Y in.  [g]: root price of the next active tick above.  The current tick must be positive and on the grid (C78, C36); the amount after the fee must be at least
    [2 + L + 2 s g] units of 10^-12, so that the root price moves and some X is paid. *)
Theorem C77_y_partial : forall orc p dy ro gtk rg s L r g, reachable orc p -> wf dy -> dscale dy = 12 -> (0 < num dy)%Q -> hmm_off p ro -> dscale (fee_rate p) = 12 -> dneg (fee_rate p) = false -> spacing p < 2 ^ 128 ->
  0 < glbl_tick p -> glbl_tick p mod spacing p = 0 ->
  In gtk (map fst (ticks p)) -> glbl_tick p < gtk -> (forall k, In k (map fst (ticks p)) -> glbl_tick p < k -> gtk <= k) -> tick_to_rp gtk = Ok rg ->
  s = num (glbl_rp p) -> L = num (glbl_liq p) -> r = num (fee_rate p) -> g = num rg -> (0 < L)%Q ->
  (L * (g - s) < lim)%Q -> (num dy < lim)%Q -> (g * g * (g * g) < lim)%Q -> (num (ry p) + num dy < max12)%Q -> (num (y_fee p) + num dy < max12)%Q -> (num dy + num (g_fy (gs p)) * L < max12 * L)%Q ->
  (num dy * (1 - r) + ulp12 <= L * (g - s))%Q -> (L * (g - s) <= num (rx p) * (1 - ulp12) * (s * g))%Q ->
  (ulp12 * ((2#1) + L + (2#1) * (s * g)) <= num dy * (1 - r))%Q ->
  exists p' o, execute_swap_from_y orc p dy ro = Ok (p', o) /\ (num (so_recv o) == num dy)%Q /\ (0 < - num (so_send o))%Q.
Proof.
  intros orc p dx ro gtk rg s L r g Hr Wd Sd D0 Off Sf Nf Sp T0 Tm K1 K2 K3 Eg -> -> -> -> L0 Z1 Z2 Z3 Z4 Z5 Z6 R1 R2 N1.
  assert (W : pool_wf p) by apply (PoolNonneg.reachable_nn _ _ Hr).
  exact (swap_y_completes orc p dx ro gtk rg Hr Wd Sd D0 Off (conj (proj2 (proj2 (proj2 (proj2 (proj2 (proj2 W)))))) (conj Sf Nf)) Sp T0 Tm (conj K1 (conj K2 K3)) Eg L0 (conj Z1 (conj Z2 (conj Z3 (conj Z4 (conj Z5 Z6))))) (conj R1 R2) N1).
Qed.
(** The pool with ticks 4, 8, 12, 16 active and the price at tick 10: 1 X and 1 Y meet every condition (and so does anything from about 0.003 to several hundred). *)
Example C77_live_case : reachable no_orc ex0 /\ hmm_off ex0 (D12 0) /\ dscale (fee_rate ex0) = 12 /\ dneg (fee_rate ex0) = false /\ spacing ex0 < 2 ^ 128 /\ glbl_tick ex0 = 10 /\ glbl_tick ex0 mod spacing ex0 = 0 /\ map fst (ticks ex0) = [4; 8; 12; 16] /\
  (let s := num (glbl_rp ex0) in let L := num (glbl_liq ex0) in let r := num (fee_rate ex0) in let x := num (units 1) in 0 < L /\ exists gl gu, tick_to_rp 8 = Ok gl /\ tick_to_rp 12 = Ok gu /\ let g := num gl in let h := num gu in
   (L * s < lim) /\ (x * s < lim) /\ (s * s * (s * s) < lim) /\ (num (rx ex0) + x < max12) /\ (num (x_fee ex0) + x < max12) /\ (x + num (g_fx (gs ex0)) * L < max12 * L) /\
   (x * (1 - r) * (s * g) + ulp12 <= L * (s - g)) /\ (L * (s - g) <= num (ry ex0)) /\ ((3#1) * ulp12 <= x * (1 - r)) /\ (ulp12 * (1 + L + x) <= r * x) /\
   (L * (h - s) < lim) /\ (x < lim) /\ (h * h * (h * h) < lim) /\ (num (ry ex0) + x < max12) /\ (num (y_fee ex0) + x < max12) /\ (x + num (g_fy (gs ex0)) * L < max12 * L) /\
   (x * (1 - r) + ulp12 <= L * (h - s)) /\ (L * (h - s) <= num (rx ex0) * (1 - ulp12) * (s * h)) /\ (ulp12 * ((2#1) + L + (2#1) * (s * h)) <= x * (1 - r)))%Q.
Proof.
  split; [exact ex0_reachable |]. split; [vm_compute; auto |]. do 2 (split; [vm_compute; reflexivity |]). do 4 (split; [vm_compute; reflexivity |]). intros s L r x. split; [vm_compute; reflexivity |].
  do 2 eexists. split; [vm_compute; reflexivity |]. split; [vm_compute; reflexivity |]. cbv zeta. subst s L r x. csplit; vm_compute; (reflexivity || discriminate).
Qed.
Print Assumptions C77_x_partial.
Print Assumptions C77_y_partial.
