(** Claim C85, the part that holds: deposits into the f64 pool that are accepted. *)
From Coq Require Import ZArith Reals Lra Lia List Bool String Floats.SpecFloat.
From Verif Require Import Base FloatBase FloatModel FloatFacts FloatWf FloatSwap FloatLp FloatBook FloatTrip FloatOut FloatIn FloatWit PropFloat.
Import ListNotations.
Open Scope string_scope. Open Scope Z_scope.

(** the liquidity [l] between the prices [ra] and [rb] takes no more than [x] and [y] at the price [rp], by the pool's own quote *)
Definition affordable (l x y rp ra rb : f64) : Prop := flt x (f_x_from_l_rp_rng l rp ra rb) = false /\ flt y (f_y_from_l_rp_rng l rp ra rb) = false.
(** the growth of each fee inside the range [lo, up) can be computed and is not below the one recorded for the position of [u] there *)
Definition growths_sound (p : fpool) (u : string) (lo up : Z) : Prop :=
  forall k, exists g, ffee_rng p lo up k = Ok g /\
    fle f_zero (fsub g (match fpm_get (u, lo, up) (fpositions p) with Some q => f4_get (fp_fees q) k | None => f_zero end)) = true.

(** ** C85.  The full claim - every deposit of positive amounts is accepted - is false ([C85_f64_deposit_refuted], [C85_f64_quote_refuted]).  Proved, of
    every reachable pool and every amounts: the only two reasons to refuse are the growths of the fees inside the range and the quote. *)
Theorem C85_f64_deposit_partial : forall lm p u x y a b, libm_ok lm -> freach lm p -> f64_ok x -> f64_ok y ->
  flt x f_zero = false -> flt y f_zero = false ->
  let lo := f_rp_to_possible_tick lm p a false in let up := f_rp_to_possible_tick lm p b false in
  let ra := f_tick_to_rp lm lo in let rb := f_tick_to_rp lm up in let l := ffloor (f_liq_from_x_y_rp_rng x y (fglbl_rp p) ra rb) in
  flt l f_zero = false -> affordable l x y (fglbl_rp p) ra rb -> growths_sound p u lo up ->
  exists p' xd yd, fdeposit lm p u x y a b = Ok (p', xd, yd).
Proof.
  intros lm p u x y a b LM W X Y NX NY lo up ra rb l NL [AX AY] G. refine (deposit_done lm LM p u x y a b W X Y NX NY NL AX AY _).
  fold lo up. unfold growths_sound in G. unfold owned.
  destruct (G FX) as (g1 & A1 & B1), (G FY) as (g2 & A2 & B2), (G HX) as (g3 & A3 & B3), (G HY) as (g4 & A4 & B4).
  exists g1, g2, g3, g4. destruct (fpm_get _ _); repeat (split; [assumption|]); exact B4.
Qed.
(** Before the first swap only the quote is left. *)
Theorem C85_f64_first_deposits_partial : forall lm p u x y a b, libm_ok lm -> lp_only lm p -> f64_ok x -> f64_ok y ->
  flt x f_zero = false -> flt y f_zero = false ->
  let ra := f_tick_to_rp lm (f_rp_to_possible_tick lm p a false) in let rb := f_tick_to_rp lm (f_rp_to_possible_tick lm p b false) in
  let l := ffloor (f_liq_from_x_y_rp_rng x y (fglbl_rp p) ra rb) in
  flt l f_zero = false -> affordable l x y (fglbl_rp p) ra rb -> exists p' xd yd, fdeposit lm p u x y a b = Ok (p', xd, yd).
Proof.
  intros lm p u x y a b LM W X Y NX NY ra rb l NL [AX AY]. refine (deposit_done lm LM p u x y a b (lp_reach lm p W) X Y NX NY NL AX AY _).
  exact (none_pass p _ _ _ (proj2 (lp_only_inv lm LM p W))).
Qed.
(** In no reachable pool is the liquidity in force, that of a position or that at a tick below zero. *)
Theorem C85_f64_not_negative : forall lm p, libm_ok lm -> freach lm p ->
  flt (fglbl_liq p) f_zero = false /\ (forall t ts, ftm_get t (fticks p) = Some ts -> flt (ft_gross ts) f_zero = false) /\
  (forall k q, fpm_get k (fpositions p) = Some q -> flt (fp_liq q) f_zero = false).
Proof.
  intros lm p LM W. destruct (reach_nn lm LM p W) as (L & G & P). split; [exact L|]. split; [exact G|].
  intros k q Q. exact (fpm_get_P (fun v => flt (fp_liq v) f_zero = false) k _ q P Q).
Qed.
(** The quote refuses deposits for the rounding alone, in a pool that nobody has used yet: 100000000000005 of Y are accepted and 100000000000004 are not;
    about 2.563 of Y (for the liquidity 257) are accepted, and the number just below is not - the pool asks for more than it was offered. *)
Definition odd_y : f64 := Eval vm_compute in fmul (f_int 257) (fsub (fglbl_rp ghost_p0) (f_tick_to_rp wlm (f_rp_to_possible_tick wlm ghost_p0 ghost_a false))).
Theorem C85_f64_quote_refuted : exists lm p x a b, libm_ok lm /\ lp_only lm p /\ fticks p = [] /\
  (forall y, In y [f_int 100000000000004; SFpred 53 1024 odd_y] -> flt f_zero x = true /\ flt f_zero y = true /\ forall u, fdeposit lm p u x y a b = Panic) /\
  (forall y, In y [f_int 100000000000005; odd_y] -> forall u, exists p' xd yd, fdeposit lm p u x y a b = Ok (p', xd, yd)).
Proof.
  exists wlm, ghost_p0, (f_int 10000000000000000000), ghost_a, ghost_b. split; [exact wlm_ok|].
  assert (L : lp_only wlm ghost_p0) by (refine (lo_new wlm _ _ _ _ _ _ _ ghost_new_ok); vm_compute; reflexivity).
  split; [exact L|]. split; [reflexivity|]. split.
  - intros y [<-|[<-|[]]]; (split; [vm_compute; reflexivity|]); (split; [vm_compute; reflexivity|]); intros u.
    + assert (Q : flt (f_int 100000000000004) (f_y_from_l_rp_rng (dep_liq wlm ghost_p0 (f_int 10000000000000000000) (f_int 100000000000004) ghost_a ghost_b) (fglbl_rp ghost_p0)
        (f_tick_to_rp wlm (f_rp_to_possible_tick wlm ghost_p0 ghost_a false)) (f_tick_to_rp wlm (f_rp_to_possible_tick wlm ghost_p0 ghost_b false))) = true) by (vm_compute; reflexivity).
      unfold fdeposit. fold (dep_liq wlm ghost_p0 (f_int 10000000000000000000) (f_int 100000000000004) ghost_a ghost_b).
      destruct (_ || _); [reflexivity|]. destruct (flt (f_int 10000000000000000000) _); [reflexivity|]. rewrite Q. reflexivity.
    + assert (Q : flt (SFpred 53 1024 odd_y) (f_y_from_l_rp_rng (dep_liq wlm ghost_p0 (f_int 10000000000000000000) (SFpred 53 1024 odd_y) ghost_a ghost_b) (fglbl_rp ghost_p0)
        (f_tick_to_rp wlm (f_rp_to_possible_tick wlm ghost_p0 ghost_a false)) (f_tick_to_rp wlm (f_rp_to_possible_tick wlm ghost_p0 ghost_b false))) = true) by (vm_compute; reflexivity).
      unfold fdeposit. fold (dep_liq wlm ghost_p0 (f_int 10000000000000000000) (SFpred 53 1024 odd_y) ghost_a ghost_b).
      destruct (_ || _); [reflexivity|]. destruct (flt (f_int 10000000000000000000) _); [reflexivity|]. rewrite Q. reflexivity.
  - intros y [<-|[<-|[]]]; intros u; (apply C85_f64_first_deposits_partial; [exact wlm_ok|exact L|vm_compute; reflexivity..|split; vm_compute; reflexivity]).
Qed.
(** The hypotheses are met after a swap: in the pool of C81 (a deposits 1000 X and 5000 Y, one X swap, b deposits the same) b adds to its position; the
    growth of the X fee is positive there. *)
Example C85_case : libm_ok wlm /\ freach wlm trip_p /\ (exists q, fpm_get ("b", f_rp_to_possible_tick wlm trip_p trip_a false, f_rp_to_possible_tick wlm trip_p trip_b false) (fpositions trip_p) = Some q) /\
  growths_sound trip_p "b" (f_rp_to_possible_tick wlm trip_p trip_a false) (f_rp_to_possible_tick wlm trip_p trip_b false) /\
  flt f_zero (f_fx (fglbl_fees trip_p)) = true /\ exists p' xd yd, fdeposit wlm trip_p "b" (f_int 1000) (f_int 5000) trip_a trip_b = Ok (p', xd, yd).
Proof.
  assert (G : growths_sound trip_p "b" (f_rp_to_possible_tick wlm trip_p trip_a false) (f_rp_to_possible_tick wlm trip_p trip_b false)).
  { intros k. destruct k; eexists; (split; [vm_compute; reflexivity|vm_compute; reflexivity]). }
  split; [exact wlm_ok|]. split; [exact trip_reach|]. split; [eexists; vm_compute; reflexivity|]. split; [exact G|]. split; [vm_compute; reflexivity|].
  apply C85_f64_deposit_partial; [exact wlm_ok|exact trip_reach|vm_compute; reflexivity..|split; vm_compute; reflexivity|exact G].
Qed.
Print Assumptions C85_f64_deposit_partial.
Print Assumptions C85_f64_first_deposits_partial.
Print Assumptions C85_f64_not_negative.
Print Assumptions C85_f64_quote_refuted.
