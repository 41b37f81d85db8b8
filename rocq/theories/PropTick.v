(** Claims C11-C14 and C46: ticks and prices.  [num] is the rational number denoted by a decimal (DecimalSpec);
    [climb v n] (TickLoop) is the raw price [v] multiplied [n] times by 1.00004999875, truncated to 12 decimals each time;
    [tb] is 1.0001 and [eps] is 10^-12. *)
From Coq Require Import ZArith QArith Qpower List Bool Lia.
From Verif Require Import Base BaseLemmas DecimalModel DecimalSpec DecimalProofs MathModel TickProofs TickLoop.
Open Scope Z_scope.

(** ** C11 *)
Theorem C11_defined_below_2_19 : forall t, 0 <= t < 2 ^ 19 ->
  exists p, tick_to_rp t = Ok p /\ dscale p = 12 /\ dneg p = false /\ (1 <= num p)%Q.
Proof. exact tick_price_ok. Qed.
Theorem C11_panics_from_2_19 : forall t, 2 ^ 19 <= t -> tick_to_rp t = Panic.
Proof. exact tick_panics. Qed.
Theorem C11_strictly_increasing : forall t u p q, 0 <= t < u -> tick_to_rp t = Ok p -> tick_to_rp u = Ok q -> (num p < num q)%Q.
Proof. exact tick_increasing. Qed.
Example C11_case : tick_to_rp 0 = Ok (mkD 1000000000000 12 false) /\ tick_to_rp 1 = Ok (mkD 1000049998750 12 false) /\
  tick_to_rp 20000 = Ok (mkD 2718145878556 12 false) /\ (2 ^ 19 - 1 = 524287) /\ tick_to_rp 524288 = Panic.
Proof. repeat split; vm_compute; reflexivity. Qed.

(** ** C12 *)
Theorem C12_search_terminates_and_brackets : forall rp (l2r : bool) start, wf rp -> 0 <= start ->
  match rp_to_tick_loop rp l2r start with
  | Ok x => exists n p0,
      x = (if l2r then start + Z.of_nat n + 1 else start + Z.of_nat n) /\
      tick_to_rp start = Ok (mkD p0 12 false) /\ dscale rp = 12 /\
      (forall j, (1 <= j <= n)%nat -> (num (mkD (climb p0 j) 12 false) < num rp)%Q) /\
      (num rp <= num (mkD (climb p0 (S n)) 12 false))%Q
  | Panic => True
  | _ => False
  end.
Proof. exact search_spec. Qed.
(** It does return for every price up to about 3.4 * 10^14 ... *)
Theorem C12_search_returns : forall rp l2r start, wf rp -> dscale rp = 12 -> 0 <= start < 2 ^ 19 -> dval rp * 1000049998750 < 2 ^ 128 ->
  exists x, rp_to_tick_loop rp l2r start = Ok x.
Proof. exact search_total. Qed.
(** ... after at most 2^21 steps, whatever the price. *)
Theorem C12_search_is_short : forall rp l2r start x, wf rp -> 0 <= start -> rp_to_tick_loop rp l2r start = Ok x ->
  start <= x <= start + 2 ^ 21 /\ start < 2 ^ 19.
Proof. exact search_short. Qed.
(** In terms of the true price (the square of the root price) and exact powers of 1.0001. *)
Theorem C12_search_brackets_powers : forall rp start x, wf rp -> (0 <= num rp)%Q -> 0 <= start -> rp_to_tick_loop rp false start = Ok x ->
  (x = start \/ (tb ^ x * (1 - 3 * inject_Z x * eps) <= num rp * num rp)%Q) /\ (num rp * num rp <= tb ^ (x + 1))%Q.
Proof. exact search_bracket. Qed.
Example C12_case : let rp := mkD 1000520000000 12 false in
  wf rp /\ rp_to_tick_loop rp false 0 = Ok 10 /\ rp_to_tick_loop rp true 0 = Ok 11 /\ rp_to_tick_loop rp false 50 = Ok 50 /\
  rp_to_tick_loop (mkD 1000520000000 11 false) false 0 = Panic.
Proof. split; [unfold wf; cbn [dval dscale]; lia |]. repeat split; vm_compute; reflexivity. Qed.

(** ** C13.  The identity fails; the error is at most one tick. *)
Theorem C13_off_by_one_partial : forall t p start (l2r : bool) x, 0 <= t < 2 ^ 19 -> 0 <= start <= t -> tick_to_rp t = Ok p ->
  rp_to_tick_loop p l2r start = Ok x ->
  (if l2r then x - 1 else x) = t \/ (if l2r then x - 1 else x) = t - 1.
Proof. exact round_trip_tick. Qed.
Theorem C13_round_trip_refuted : ~ (forall t p, 0 <= t < 2 ^ 19 -> tick_to_rp t = Ok p -> rp_to_tick_loop p false 0 = Ok t).
Proof.
  intros H. specialize (H 3 (mkD 1000150003748 12 false)). 
  assert (E : rp_to_tick_loop (mkD 1000150003748 12 false) false 0 = Ok 2) by (vm_compute; reflexivity).
  rewrite H in E; [discriminate | lia | vm_compute; reflexivity].
Qed.
Example C13_case : tick_to_rp 3 = Ok (mkD 1000150003748 12 false) /\ rp_to_tick_loop (mkD 1000150003748 12 false) false 0 = Ok 2 /\
  rp_to_tick_loop (mkD 1000150003748 12 false) true 0 = Ok 3.
Proof. repeat split; vm_compute; reflexivity. Qed.

(** ** C14 *)
Theorem C14_align_down : forall t s, 0 <= t < 2 ^ 128 -> 0 < s < 2 ^ 128 ->
  exists r, tk_to_possible_tk t s false = Ok r /\ multiple_of s r /\ 0 <= r <= t /\
    forall m, multiple_of s m -> m <= t -> m <= r.
Proof. exact align_down. Qed.
Theorem C14_align_up : forall t s, 0 <= t < 2 ^ 128 -> 0 < s < 2 ^ 128 ->
  returns_or_panics (tk_to_possible_tk t s true)
    (fun r => multiple_of s r /\ t <= r /\ forall m, multiple_of s m -> t <= m -> r <= m)
    (2 ^ 128 <= t + (s - 1)).
Proof. exact align_up. Qed.
Theorem C14_zero_spacing_panics : forall t l2r, tk_to_possible_tk t 0 l2r = Panic.
Proof. exact possible_zero. Qed.
Example C14_case : tk_to_possible_tk 107 10 false = Ok 100 /\ tk_to_possible_tk 107 10 true = Ok 110 /\ tk_to_possible_tk 110 10 true = Ok 110.
Proof. repeat split; reflexivity. Qed.

(** ** C46: the price of tick t is 1.0001^t up to a relative error of 3t * 10^-12, never above it. *)
Theorem C46_tick_price_accuracy : forall t p, 0 <= t < 2 ^ 19 -> tick_to_rp t = Ok p ->
  (num p * num p <= tb ^ t /\ tb ^ t * (1 - 3 * inject_Z t * eps) <= num p * num p)%Q.
Proof. exact tick_accuracy. Qed.
Example C46_case : tick_to_rp 3 = Ok (mkD 1000150003748 12 false) /\
  (num (mkD 1000150003748 12 false) * num (mkD 1000150003748 12 false) < (10001 # 10000) ^ 3)%Q.
Proof. split; vm_compute; reflexivity. Qed.

Print Assumptions C11_defined_below_2_19.
Print Assumptions C11_strictly_increasing.
Print Assumptions C12_search_terminates_and_brackets.
Print Assumptions C12_search_brackets_powers.
Print Assumptions C13_off_by_one_partial.
Print Assumptions C14_align_up.
Print Assumptions C46_tick_price_accuracy.
Print Assumptions C11_panics_from_2_19.
Print Assumptions C12_search_returns.
Print Assumptions C12_search_is_short.
Print Assumptions C13_round_trip_refuted.
Print Assumptions C14_align_down.
Print Assumptions C14_zero_spacing_panics.
