(** Claim C49, the part that holds: what a swap that is filled only in part means. *)
From Coq Require Import ZArith QArith List Bool Lia Lqa String.
From Verif Require Import Base DecimalModel DecimalSpec MathModel PoolModel PoolWf PoolInv PoolDir Concrete Examples PropPool SwapFull.
Import ListNotations.
Open Scope Z_scope.

(** ** C49.  A completed swap that took less than was offered found no active tick left in its direction ([no_tick_below],
    [no_tick_above]), and from then on every swap that way completes without moving anything ([nothing_moved]) or changing the pool.
    Missing: that the swap completes at all, see [C49_partial_fill_refuted]. *)
Theorem C49_short_swap_x_partial : forall orc p dx ro p' o, reachable orc p -> spacing p < 2 ^ 128 -> wf dx -> wf ro -> execute_swap_from_x orc p dx ro = Ok (p', o) -> (num (so_recv o) < num dx)%Q ->
  no_tick_below p' /\
  forall orc' dx' ro', wf dx' -> dscale dx' = 12 -> (0 < num dx')%Q -> exists o', execute_swap_from_x orc' p' dx' ro' = Ok (p', o') /\ nothing_moved o'.
Proof. exact short_swap_x. Qed.
Theorem C49_short_swap_y_partial : forall orc p dy ro p' o, reachable orc p -> wf dy -> wf ro -> execute_swap_from_y orc p dy ro = Ok (p', o) -> (num (so_recv o) < num dy)%Q ->
  no_tick_above p' /\
  forall orc' dy' ro', wf dy' -> dscale dy' = 12 -> (0 < num dy')%Q -> exists o', execute_swap_from_y orc' p' dy' ro' = Ok (p', o') /\ nothing_moved o'.
Proof. exact short_swap_y. Qed.
(** Such swaps, on pools with active ticks; [full1] is the pool after 1500 of X, [full2] after 900 of Y. *)
Definition full1 : pool := Eval vm_compute in match execute_swap_from_x no_orc ex0 (units 1500) (units 0) with Ok (p, _) => p | _ => ex0 end.
Definition full2 : pool := Eval vm_compute in match execute_swap_from_y no_orc ex0 (units 900) (units 0) with Ok (p, _) => p | _ => ex0 end.
Lemma full_reachable : reachable no_orc full1 /\ reachable no_orc full2.
Proof.
  split.
  - refine (reachable_run no_orc [CSwapX (units 1500) (units 0)] ex0 full1 ex0_reachable _ _); [repeat constructor; cbn; lia | vm_compute; reflexivity].
  - refine (reachable_run no_orc [CSwapY (units 900) (units 0)] ex0 full2 ex0_reachable _ _); [repeat constructor; cbn; lia | vm_compute; reflexivity].
Qed.
Example C49_case : (exists p o, execute_swap_from_x no_orc full1 (units 100) (units 0) = Ok (p, o) /\ (0 < num (so_recv o))%Q /\ (num (so_recv o) < num (units 100))%Q /\ ticks p <> []) /\
  (exists p o, execute_swap_from_y no_orc full2 (units 1000) (units 0) = Ok (p, o) /\ (0 < num (so_recv o))%Q /\ (num (so_recv o) < num (units 1000))%Q /\ ticks p <> []).
Proof. split; eexists; eexists; (split; [vm_compute; reflexivity |]); (split; [reflexivity |]); (split; [reflexivity |]); discriminate. Qed.

Print Assumptions C49_short_swap_x_partial.
Print Assumptions C49_short_swap_y_partial.
