(** Claims C32, C48, C51, the parts that hold: liquidity providers' claims against the reserves, and when withdrawals complete. *)
From Coq Require Import ZArith QArith List Bool Lia Lqa String.
From Verif Require Import Base DecimalModel DecimalSpec MathModel MathProofs PoolModel PoolWf LpProofs PoolInv PoolLp PoolFees PoolGain PoolExit PoolEnter Concrete Examples PropPool.
Import ListNotations.
Open Scope string_scope. Open Scope Z_scope.

(** ** C51.  The full claim - no set of users takes out more than it put in by deposits and withdrawals alone - is false
    ([C51_dust_deposits_refuted]).  Proved: the gain is at most 2 units of 10^-12 in X and 1 in Y for each deposit into a
    position that already held liquidity; in particular a set of users without such deposits never gains. *)
Theorem C51_gain_bounded_partial : forall rp sp c rate p0 es p s, wf rp -> wf c -> wf rate -> 0 <= sp ->
  pool_new rp sp c rate = Ok p0 -> lp_history p0 es p ->
  (sum_over s taken_x es <= sum_over s given_x es + (2#1) * ulp12 * sum_over s topups es /\
   sum_over s taken_y es <= sum_over s given_y es + ulp12 * sum_over s topups es)%Q.
Proof. exact gain_bounded. Qed.
Theorem C51_reserves_cover_partial : forall rp sp c rate p0 es p, wf rp -> wf c -> wf rate -> 0 <= sp ->
  pool_new rp sp c rate = Ok p0 -> lp_history p0 es p ->
  (inject_Z (total_x p) * ulp12 <= num (rx p) + (2#1) * ulp12 * sum_over (fun _ => true) topups es /\
   inject_Z (total_y p) * ulp12 <= num (ry p) + ulp12 * sum_over (fun _ => true) topups es)%Q.
Proof. exact reserves_cover. Qed.
(** The refuting history: eve makes four top-ups with dust, gives nothing, and takes three units of 10^-12 of Y. *)
Definition gain_calls : list call := CDeposit "ann" (units 0) (units 1) (near 4) (near 9) :: repeat (CDeposit "eve" (units 0) (D12 1) (near 4) (near 9)) 5 ++ [CWithdraw "eve" (D12 19990) (near 4) (near 9)].
Definition is_eve (u : string) : bool := String.eqb u "eve".
Definition get_end (r : res (list ev * pool)) : list ev * pool := match r with Ok x => x | _ => ([], get P0) end.
Definition gain_p0 : pool := Eval vm_compute in get P0.
Definition gain_end : list ev * pool := Eval vm_compute in get_end (play gain_p0 [] gain_calls).
Example gain_case : pool_new (near 10) 1 (D12 1500000000000) (D12 3000000000) = Ok gain_p0 /\ lp_history gain_p0 (fst gain_end) (snd gain_end) /\
  (sum_over is_eve given_y (fst gain_end) == 0 /\ sum_over is_eve taken_y (fst gain_end) == (3#1) * ulp12 /\ sum_over is_eve topups (fst gain_end) == 4)%Q.
Proof.
  split; [vm_compute; reflexivity |]. split; [| repeat split; vm_compute; reflexivity].
  apply (play_history gain_p0 gain_calls [] gain_p0); [apply calls_wf; vm_compute; reflexivity | apply h_nil | vm_compute; reflexivity].
Qed.

(** ** C32.  In full: [forall orc p user rpa rpb, reachable orc p -> can_withdraw p user rpa rpb] - false.  Proved: it holds in
    every history of deposits and withdrawals in which nobody deposits into a position already holding liquidity; ... *)
Theorem C32_no_swaps_partial : forall rp sp c rate p0 es p, wf rp -> wf c -> wf rate -> 0 <= sp -> pool_new rp sp c rate = Ok p0 ->
  lp_history p0 es p -> no_topup es -> forall user rpa rpb, wf rpa -> wf rpb -> can_withdraw p user rpa rpb.
Proof.
  intros rp sp c rate p0 es p W1 W2 W3 Hs H0 H NT user rpa rpb Wa Wb lo up l RG Ne Nl Sl Hl.
  exact (no_swap_withdraw rp sp c rate p0 es p W1 W2 W3 Hs H0 H NT user l rpa rpb lo up Wa Wb RG Ne Nl Sl Hl).
Qed.
Definition plain_calls : list call := calls0 ++ [CWithdraw "ann" (units 1000) (near 4) (near 16); CDeposit "bob" (units 7) (units 3) (near 2) (near 12)].
Definition plain_end : list ev * pool := Eval vm_compute in get_end (play gain_p0 [] plain_calls).
Example no_swaps_case : lp_history gain_p0 (fst plain_end) (snd plain_end) /\ no_topup (fst plain_end) /\ List.length (positions (snd plain_end)) = 3%nat.
Proof.
  split; [apply (play_history gain_p0 plain_calls [] gain_p0); [apply calls_wf; vm_compute; reflexivity | apply h_nil | vm_compute; reflexivity] |].
  split; [| reflexivity]. intros e I. cbn in I. repeat (destruct I as [<- | I]; [reflexivity |]). destruct I.
Qed.
(** ... and in general, if the growth inside the range has not gone back ([0 <= inside], [paid_up <= inside]), the pots hold the fees
    due, the liquidity in range is not below the amount withdrawn, the reserves hold the claim less the withdrawal charge,
    and the numbers fit in 128 bits.  Each of the refutations above fails one of these. *)
Theorem C32_withdraw_completes_partial : forall orc p user l rpa rpb lo up, reachable orc p -> wf rpa -> wf rpb -> range_of p rpa rpb lo up -> up < 2 ^ 19 ->
  nonneg l -> dscale l = 12 -> (num l <= liq_of p (user, lo, up))%Q ->
  (lo <= glbl_tick p < up -> (num l <= num (glbl_liq p))%Q) ->
  (forall k, 0 <= inside p lo up k /\ paid_up p (user, lo, up) k <= inside p lo up k /\ due p (user, lo, up) k < max12 * ulp12 /\ due p (user, lo, up) k <= pot_q p k)%Q ->
  computable p lo up (dval l) ->
  (inject_Z (cut (claim_x p (user, lo, up) (dval l))) * ulp12 <= num (rx p) /\ inject_Z (cut (claim_y p (user, lo, up) (dval l))) * ulp12 <= num (ry p))%Q ->
  (num (rx p) + num (x_fee p) + num (x_adj p) < max12 /\ num (ry p) + num (y_fee p) + num (y_adj p) < max12)%Q ->
  exists p' o, withdraw p user l rpa rpb = Ok (p', o).
Proof. exact withdraw_completes. Qed.
Definition a_lo := 4. Definition a_up := 16. Definition ann_key : pkey := ("ann", a_lo, a_up). Definition a_liq := 3332333588825571144.
Example completes_case : (num (D12 a_liq) <= liq_of ex2 ann_key)%Q /\ 4 <= glbl_tick ex2 < 16 /\ (num (D12 a_liq) <= num (glbl_liq ex2))%Q /\
  (forall k, 0 <= inside ex2 a_lo a_up k /\ paid_up ex2 ann_key k <= inside ex2 a_lo a_up k /\ due ex2 ann_key k < max12 * ulp12 /\ due ex2 ann_key k <= pot_q ex2 k)%Q /\
  (0 < due ex2 ann_key FX)%Q /\ computable ex2 a_lo a_up a_liq /\
  (inject_Z (cut (claim_x ex2 ann_key a_liq)) * ulp12 <= num (rx ex2) /\ inject_Z (cut (claim_y ex2 ann_key a_liq)) * ulp12 <= num (ry ex2))%Q /\
  (num (rx ex2) + num (x_fee ex2) + num (x_adj ex2) < max12 /\ num (ry ex2) + num (y_fee ex2) + num (y_adj ex2) < max12)%Q.
Proof.
  split; [vm_compute; discriminate |]. split; [split; vm_compute; [discriminate | reflexivity] |]. split; [vm_compute; discriminate |].
  split; [intros k; destruct k; (split; [vm_compute; discriminate |]; split; [vm_compute; discriminate |]; split; [vm_compute; reflexivity | vm_compute; discriminate]) |].
  split; [vm_compute; reflexivity |]. split; [repeat split; vm_compute; reflexivity |]. split; [split; vm_compute; discriminate | split; vm_compute; reflexivity].
Qed.

(** ** C48.  In full: every quoted deposit ([quoted]: liquidity and amounts are computed and lie within the offer) for which the
    numbers fit ([room]) completes - false.  Proved: for a position not held yet it completes exactly if no growth inside the
    range is negative; ... *)
Theorem C48_deposit_new_partial : forall orc p user x y rpa rpb lo up l xi yi, reachable orc p -> nonneg rpa -> nonneg rpb -> range_of p rpa rpb lo up ->
  nonneg x -> nonneg y -> dscale x = 12 -> dscale y = 12 -> quoted p x y lo up l xi yi -> room p lo up l xi yi -> pm_get (user, lo, up) (positions p) = None ->
  ((exists p' o, deposit p user x y rpa rpb = Ok (p', o)) <-> (forall k, 0 <= inside p lo up k)%Q).
Proof. exact deposit_new. Qed.
Definition good_lo := 8. Definition bad_lo := 6. Definition new_up := 12.
Example deposit_new_case : (quoted lopsided (units 10) (units 10) good_lo new_up (D12 89389553021484886) (D12 7877194247194) (D12 9999999999999) /\
    room lopsided good_lo new_up (D12 89389553021484886) (D12 7877194247194) (D12 9999999999999) /\ (forall k, 0 <= inside lopsided good_lo new_up k)%Q /\ (0 < inside lopsided good_lo new_up FX)%Q) /\
  (quoted lopsided (units 10) (units 10) bad_lo new_up (D12 47192094671004016) (D12 4158666019574) (D12 9999999999999) /\
    room lopsided bad_lo new_up (D12 47192094671004016) (D12 4158666019574) (D12 9999999999999) /\ (inside lopsided bad_lo new_up FX < 0)%Q).
Proof.
  split; (split; [eexists; eexists; split; [vm_compute; reflexivity |]; split; [vm_compute; reflexivity |]; split; [vm_compute; reflexivity |]; split; [vm_compute; reflexivity |]; split; [vm_compute; reflexivity |]; split; vm_compute; discriminate |]).
  - split; [split; [vm_compute; reflexivity |]; split; [vm_compute; reflexivity |]; split; [intros _; vm_compute; reflexivity | split; vm_compute; reflexivity] |].
    split; [intros k; destruct k; vm_compute; discriminate | vm_compute; reflexivity].
  - split; [split; [vm_compute; reflexivity |]; split; [vm_compute; reflexivity |]; split; [intros _; vm_compute; reflexivity | split; vm_compute; reflexivity] | vm_compute; reflexivity].
Qed.
(** ... for an open position it completes, on the quoted terms, if in addition the growth has not gone back since it was last
    paid and the pots hold the fees due. *)
Theorem C48_deposit_completes_partial : forall orc p user x y rpa rpb lo up l xi yi, reachable orc p -> nonneg rpa -> nonneg rpb -> range_of p rpa rpb lo up ->
  nonneg x -> nonneg y -> dscale x = 12 -> dscale y = 12 -> quoted p x y lo up l xi yi -> room p lo up l xi yi ->
  (forall k, 0 <= inside p lo up k /\ paid_up p (user, lo, up) k <= inside p lo up k /\ due p (user, lo, up) k < max12 * ulp12 /\ due p (user, lo, up) k <= pot_q p k)%Q ->
  (num x + due p (user, lo, up) FX + due p (user, lo, up) HX < max12 /\ num y + due p (user, lo, up) FY + due p (user, lo, up) HY < max12)%Q ->
  exists p' o, deposit p user x y rpa rpb = Ok (p', o) /\ io_liq o = l /\ io_x o = xi /\ io_y o = yi.
Proof. exact deposit_completes. Qed.
(** The conditions on growth and pots: [completes_case] (ann's position in [ex2], with fees due). *)
Example deposit_more_case : quoted ex2 (units 10) (units 10) a_lo a_up (D12 33338647958333197) (D12 9999186345220) (D12 9999999999999) /\
  room ex2 a_lo a_up (D12 33338647958333197) (D12 9999186345220) (D12 9999999999999) /\
  (num (units 10) + due ex2 ann_key FX + due ex2 ann_key HX < max12 /\ num (units 10) + due ex2 ann_key FY + due ex2 ann_key HY < max12)%Q.
Proof.
  split; [eexists; eexists; split; [vm_compute; reflexivity |]; split; [vm_compute; reflexivity |]; split; [vm_compute; reflexivity |]; split; [vm_compute; reflexivity |]; split; [vm_compute; reflexivity |]; split; vm_compute; discriminate |].
  split; [split; [vm_compute; reflexivity |]; split; [vm_compute; reflexivity |]; split; [intros _; vm_compute; reflexivity | split; vm_compute; reflexivity] | split; vm_compute; reflexivity].
Qed.

Print Assumptions C48_deposit_new_partial.
Print Assumptions C48_deposit_completes_partial.
Print Assumptions C32_no_swaps_partial.
Print Assumptions C32_withdraw_completes_partial.
Print Assumptions C51_gain_bounded_partial.
Print Assumptions C51_reserves_cover_partial.
