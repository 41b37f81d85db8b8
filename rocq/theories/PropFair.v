(** Properties C56 - C59: swaps, deposits and withdrawals from the user's side. *)
From Coq Require Import ZArith QArith Qminmax List Bool Lia Lqa String.
From Verif Require Import Base DecimalModel DecimalSpec MathModel PoolModel PoolWf LpProofs PoolInv PoolLp PoolRange Concrete Examples PropPool SwapCover SwapWorth LpWorth PropWorth SwapFair LpFair.
Import ListNotations.
Open Scope string_scope. Open Scope Z_scope.

(** ** C56.  The trader is paid what the curve gives.  [owed_x], [owed_y] are the exact worth of all positions (rational sums,
    LpWorth.v); the payout, together with the oracle adjustment kept back, is what that worth falls by, up to one
    (from Y: two) units of 10^-12 per active tick; and what is taken, less the fee, is what it rises by. *)
Theorem C56_swap_x_fair : forall orc p dx ro p' o, reachable orc p -> settled p -> liq_inv p -> wf dx -> wf ro -> execute_swap_from_x orc p dx ro = Ok (p', o) ->
  (owed_y p - owed_y p' - ulp12 * (qlen (ticks p) + 1) <= - num (so_send o) + num (so_adj o) /\
   (num (so_recv o) - num (so_fee o)) * (1 - ulp12) <= owed_x p' - owed_x p + ulp12 * (qlen (ticks p) + 1))%Q.
Proof. exact swap_x_fair. Qed.
Theorem C56_swap_y_fair : forall orc p dy ro p' o, reachable orc p -> settled p -> liq_inv p -> wf dy -> wf ro -> execute_swap_from_y orc p dy ro = Ok (p', o) ->
  (owed_x p - owed_x p' - (2#1) * ulp12 * (qlen (ticks p) + 1) <= - num (so_send o) + num (so_adj o) /\
   num (so_recv o) - num (so_fee o) <= owed_y p' - owed_y p + ulp12 * num (glbl_liq p'))%Q.
Proof. exact swap_y_fair. Qed.
(** 1500 X crosses four active ticks of [ex0], so both sides are far from trivial. *)
Example C56_case : reachable no_orc ex0 /\ settled ex0 /\ liq_inv ex0 /\ wf (units 1500) /\ wf (near 7) /\
  (exists p' o, execute_swap_from_x no_orc ex0 (units 1500) (near 7) = Ok (p', o) /\ (1400 < owed_y ex0 - owed_y p')%Q /\ (1400 < num (so_recv o) - num (so_fee o))%Q) /\
  (exists p' o, execute_swap_from_y no_orc ex0 (units 100) (near 7) = Ok (p', o) /\ (99 < owed_x ex0 - owed_x p')%Q /\ (99 < num (so_recv o) - num (so_fee o))%Q).
Proof.
  split; [exact ex0_reachable |]. split; [apply settled_ok; vm_compute; reflexivity |]. split; [apply liq_ok; vm_compute; reflexivity |].
  split; [apply wfb_wf; vm_compute; reflexivity |]. split; [apply wfb_wf; vm_compute; reflexivity |].
  split; do 2 eexists; (split; [vm_compute; reflexivity |]); split; vm_compute; reflexivity.
Qed.

(** ** C57.  The fee charged is the fee rate times the amount taken, up to one unit of 10^-12 per active tick, never more
    than one unit too much. *)
Theorem C57_swap_x_fee : forall orc p dx ro p' o, reachable orc p -> wf dx -> wf ro -> execute_swap_from_x orc p dx ro = Ok (p', o) ->
  (- ulp12 * (qlen (ticks p) + 1) <= num (so_fee o) - num (fee_rate p) * num (so_recv o) /\
   num (so_fee o) - num (fee_rate p) * num (so_recv o) <= ulp12)%Q.
Proof. exact swap_x_fee. Qed.
Theorem C57_swap_y_fee : forall orc p dy ro p' o, reachable orc p -> wf dy -> wf ro -> execute_swap_from_y orc p dy ro = Ok (p', o) ->
  (- ulp12 * (qlen (ticks p) + 1) <= num (so_fee o) - num (fee_rate p) * num (so_recv o) /\
   num (so_fee o) - num (fee_rate p) * num (so_recv o) <= ulp12)%Q.
Proof. exact swap_y_fee. Qed.
Example C57_case : reachable no_orc ex0 /\ (num (fee_rate ex0) == 3 # 1000)%Q /\
  (exists p' o, execute_swap_from_x no_orc ex0 (units 1500) (near 7) = Ok (p', o) /\ (4 < num (so_fee o))%Q) /\
  (exists p' o, execute_swap_from_y no_orc ex0 (units 100) (near 7) = Ok (p', o) /\ (29 # 100 < num (so_fee o))%Q).
Proof.
  split; [exact ex0_reachable |]. split; [vm_compute; reflexivity |]. split; do 2 eexists; (split; [vm_compute; reflexivity |]); vm_compute; reflexivity.
Qed.

(** ** C58.  A deposit costs no more than the liquidity it creates is worth, and a withdrawal pays no less than the liquidity
    it removes is worth, up to a relative 10^-12 and three units of 10^-12.  (The other side of both is C55.) *)
Theorem C58_deposit_fair : forall orc p user x y rpa rpb p' o, reachable orc p -> wf x -> wf y -> wf rpa -> wf rpb -> deposit p user x y rpa rpb = Ok (p', o) ->
  ((num (rx p') - num (rx p)) * (1 - ulp12) <= owed_x p' - owed_x p /\ num (ry p') - num (ry p) <= owed_y p' - owed_y p)%Q.
Proof. exact deposit_fair. Qed.
Theorem C58_withdraw_fair : forall orc p user l rpa rpb p' o, reachable orc p -> wf l -> wf rpa -> wf rpb -> withdraw p user l rpa rpb = Ok (p', o) ->
  ((owed_x p - owed_x p') * (1 - ulp12) <= num (rx p) - num (rx p') + (3#1) * ulp12 /\
   (owed_y p - owed_y p') * (1 - ulp12) <= num (ry p) - num (ry p') + (2#1) * ulp12)%Q.
Proof. exact withdraw_fair. Qed.

(** ** C59.  A deposit uses up at least one of the two amounts offered, up to a few units of 10^-12. *)
Theorem C59_deposit_uses_offer : forall orc p user x y rpa rpb p' o, reachable orc p -> wf x -> wf y -> wf rpa -> wf rpb -> deposit p user x y rpa rpb = Ok (p', o) ->
  (num x - (4#1) * ulp12 <= num (io_x o) \/ num y - ulp12 * (num (glbl_rp p) + 1) <= num (io_y o))%Q.
Proof. exact deposit_uses_one. Qed.
Example C58_case : reachable no_orc ex0 /\ wf (units 300) /\ wf (units 700) /\ wf (near 8) /\ wf (near 12) /\
  (exists p' o, deposit ex0 "bob" (units 700) (units 300) (near 8) (near 12) = Ok (p', o) /\
     (299 < num (io_y o) /\ num (io_x o) < 300 /\ 299 < owed_y p' - owed_y ex0)%Q) /\
  (exists p' o, withdraw ex0 "ann" (units 1000) (near 4) (near 16) = Ok (p', o) /\ (1 # 100 < owed_x ex0 - owed_x p')%Q /\ (1 # 100 < num (rx ex0) - num (rx p'))%Q).
Proof.
  split; [exact ex0_reachable |]. split; [apply wfb_wf; vm_compute; reflexivity |]. split; [apply wfb_wf; vm_compute; reflexivity |]. split; [apply wfb_wf; vm_compute; reflexivity |]. split; [apply wfb_wf; vm_compute; reflexivity |].
  split; do 2 eexists; (split; [vm_compute; reflexivity |]).
  - repeat split; vm_compute; reflexivity.
  - repeat split; vm_compute; reflexivity.
Qed.

Print Assumptions C56_swap_x_fair.
Print Assumptions C56_swap_y_fair.
Print Assumptions C57_swap_x_fee.
Print Assumptions C57_swap_y_fee.
Print Assumptions C58_deposit_fair.
Print Assumptions C58_withdraw_fair.
Print Assumptions C59_deposit_uses_offer.
