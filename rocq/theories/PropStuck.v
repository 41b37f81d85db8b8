(** Properties C77 and C78: swaps that abort although the pool could fill them. *)
From Coq Require Import ZArith QArith List Bool Lia Lqa String.
From Verif Require Import Base DecimalModel DecimalSpec MathModel PoolModel PoolWf SwapLoop LpProofs PoolInv PoolLp PoolRange Concrete Examples PropPool HmmProofs SwapStuck.
Import ListNotations.
Open Scope string_scope. Open Scope Z_scope.

(** ** C77.  The full claim: if a swap of some amount completes, so does a swap of any smaller positive amount made from the same
    state (the pool can fill it).  It is false in both directions, for every pool with liquidity in range, at small amounts. *)
(** X in: less than [(L - 1) / price] units of 10^-12 (but at least one unit after the fee), no active tick within three units below
    the root price.  The new root price is at least one unit lower, which pays out nearly [L] units of Y: more than the price allows, so the
    average-price check panics. *)
Theorem C77_x_stuck : forall orc p dx ro p' o, reachable orc p -> wf dx -> wf ro -> hmm_off p ro -> (0 < num (glbl_liq p))%Q ->
  (ulp12 <= num dx * (1 - num (fee_rate p)))%Q -> (num dx * (num (glbl_rp p) * num (glbl_rp p) + ulp12) <= (num (glbl_liq p) - 1) * ulp12)%Q ->
  (forall t r, In t (map fst (ticks p)) -> t <= glbl_tick p -> tick_to_rp t = Ok r -> (num r + (3#1) * ulp12 <= num (glbl_rp p))%Q) ->
  execute_swap_from_x orc p dx ro = Ok (p', o) -> p' = p /\ (num (so_recv o) == 0)%Q.
Proof. exact swap_x_dust. Qed.
(** Y in: less than [L] units of 10^-12, no active tick within two units above the root price.  The root price does not move, nothing is
    paid out, and a swap that takes something and pays nothing panics. *)
Theorem C77_y_stuck : forall orc p dy ro p' o, reachable orc p -> wf dy -> wf ro -> (0 < num (glbl_liq p))%Q -> (num dy < num (glbl_liq p) * ulp12)%Q ->
  (forall t r, In t (map fst (ticks p)) -> glbl_tick p < t -> tick_to_rp t = Ok r -> (num (glbl_rp p) + (2#1) * ulp12 <= num r)%Q) ->
  execute_swap_from_y orc p dy ro = Ok (p', o) -> p' = p /\ (num (so_recv o) == 0)%Q.
Proof. exact swap_y_dust. Qed.
Example C77_small_case : reachable no_orc ex0 /\ hmm_off ex0 (D12 0) /\ (8330334 < num (glbl_liq ex0))%Q /\ wf (D12 8000000) /\
  (ulp12 <= num (D12 8000000) * (1 - num (fee_rate ex0)))%Q /\ (num (D12 8000000) * (num (glbl_rp ex0) * num (glbl_rp ex0) + ulp12) <= (num (glbl_liq ex0) - 1) * ulp12)%Q /\ (num (D12 8000000) < num (glbl_liq ex0) * ulp12)%Q /\
  (forall t r, In t (map fst (ticks ex0)) -> t <= glbl_tick ex0 -> tick_to_rp t = Ok r -> (num r + (3#1) * ulp12 <= num (glbl_rp ex0))%Q) /\
  (forall t r, In t (map fst (ticks ex0)) -> glbl_tick ex0 < t -> tick_to_rp t = Ok r -> (num (glbl_rp ex0) + (2#1) * ulp12 <= num r)%Q) /\
  execute_swap_from_x no_orc ex0 (D12 8000000) (D12 0) = Panic /\ execute_swap_from_y no_orc ex0 (D12 8000000) (D12 0) = Panic.
Proof.
  split; [exact ex0_reachable |]. split; [vm_compute; auto |]. split; [vm_compute; reflexivity |]. split; [apply wfb_wf; vm_compute; reflexivity |]. do 2 (split; [vm_compute; discriminate |]). split; [vm_compute; reflexivity |].
  split. { intros t r K G E. cbn in K. destruct K as [<- | [<- | [<- | [<- | []]]]]; try (vm_compute in G; exfalso; apply G; reflexivity); vm_compute in E; injection E as <-; vm_compute; discriminate. }
  split. { intros t r K G E. cbn in K. destruct K as [<- | [<- | [<- | [<- | []]]]]; try (vm_compute in G; discriminate G); vm_compute in E; injection E as <-; vm_compute; discriminate. }
  split; vm_compute; reflexivity.
Qed.
(** Not only at small amounts: a swap that crosses a tick and has little left afterwards aborts as well.  835.12236 X and 835.13 X complete,
    835.1224 X, in between, does not.  (The pool: ticks 4, 8, 12, 16 active, price at tick 10.) *)
Theorem C77_refuted : reachable no_orc ex0 /\ hmm_off ex0 (D12 0) /\
  (exists p o, execute_swap_from_x no_orc ex0 (D12 835122360000000) (D12 0) = Ok (p, o) /\ num (so_recv o) == num (D12 835122360000000) /\ num (so_send o) < -832)%Q /\
  execute_swap_from_x no_orc ex0 (D12 835122400000000) (D12 0) = Panic /\
  (exists p o, execute_swap_from_x no_orc ex0 (D12 835130000000000) (D12 0) = Ok (p, o) /\ num (so_recv o) == num (D12 835130000000000) /\ num (so_send o) < -832)%Q.
Proof.
  split; [exact ex0_reachable |]. split; [vm_compute; auto |].
  split. { do 2 eexists. split; [vm_compute; reflexivity |]. split; vm_compute; reflexivity. }
  split; [vm_compute; reflexivity |]. do 2 eexists. split; [vm_compute; reflexivity |]. split; vm_compute; reflexivity.
Qed.

(** ** C78.  The full claim: every range a position can use can be traded in, including ranges starting at tick 0 (root price 1).  It is
    false: [tick - 1] underflows at tick 0. *)
(** A swap from X that takes anything ends above some active tick other than 0: it cannot end in the lowest range if that range starts at
    tick 0, nor cross tick 0. *)
Theorem C78_x_stuck : forall orc p dx ro p' o, reachable orc p -> wf dx -> wf ro -> execute_swap_from_x orc p dx ro = Ok (p', o) ->
  (p' = p /\ (num (so_recv o) == 0)%Q) \/ exists t r, In t (map fst (ticks p')) /\ 0 < t /\ tick_to_rp t = Ok r /\ (num r <= num (glbl_rp p'))%Q.
Proof. intros orc p dx ro p' o R. apply swap_x_zero. apply (PoolNonneg.reachable_nn _ _ R). Qed.
(** A swap from Y that takes anything and starts with current tick 0 reaches the next active tick. *)
Theorem C78_y_stuck : forall orc p dy ro p' o, reachable orc p -> wf dy -> wf ro -> glbl_tick p = 0 -> execute_swap_from_y orc p dy ro = Ok (p', o) ->
  (p' = p /\ (num (so_recv o) == 0)%Q) \/ exists t r, In t (map fst (ticks p')) /\ 0 < t /\ tick_to_rp t = Ok r /\ (num r <= num (glbl_rp p'))%Q.
Proof. intros orc p dy ro p' o R. apply swap_y_zero. apply (PoolNonneg.reachable_nn _ _ R). Qed.
(** One deposit of 1000 X between root price 1 and tick 16, price at the bottom: 1 Y and 100 Y abort, 100000 Y buy everything there is;
    1 X aborts.  [zq2] is the pool after the 100000 Y. *)
Definition ZP : res pool := pool_new (D12 1000000000000) 1 (D12 0) (D12 3000000000).
Definition zcalls : list call := [CDeposit "ann" (units 1000) (units 1000) (D12 1000000000000) (near 16)].
Definition zq : pool := Eval vm_compute in get (start ZP zcalls).
Definition zr := Eval vm_compute in match execute_swap_from_y no_orc zq (units 100000) (D12 0) with Ok r => r | _ => (zq, out1) end.
Lemma zq_reachable : reachable no_orc zq.
Proof. apply (start_reachable (D12 1000000000000) 1 (D12 0) (D12 3000000000) zcalls); vm_compute; reflexivity. Qed.
Theorem C78_refuted : reachable no_orc zq /\ glbl_tick zq = 0 /\ map fst (ticks zq) = [0; 16] /\ (num (glbl_rp zq) == 1 /\ 1000000 < num (glbl_liq zq))%Q /\
  execute_swap_from_y no_orc zq (units 1) (D12 0) = Panic /\ execute_swap_from_y no_orc zq (units 100) (D12 0) = Panic /\
  execute_swap_from_y no_orc zq (units 100000) (D12 0) = Ok zr /\ (1000 < num (so_recv (snd zr)))%Q /\ glbl_tick (fst zr) = 16 /\
  execute_swap_from_x no_orc zq (units 1) (D12 0) = Panic /\ execute_swap_from_x no_orc (fst zr) (units 100) (D12 0) = Panic.
Proof.
  split; [exact zq_reachable |]. do 2 (split; [vm_compute; reflexivity |]). split; [split; vm_compute; reflexivity |]. do 3 (split; [vm_compute; reflexivity |]). do 2 (split; [vm_compute; reflexivity |]). split; vm_compute; reflexivity.
Qed.

Print Assumptions C77_x_stuck.
Print Assumptions C77_y_stuck.
Print Assumptions C77_refuted.
Print Assumptions C78_x_stuck.
Print Assumptions C78_y_stuck.
Print Assumptions C78_refuted.
