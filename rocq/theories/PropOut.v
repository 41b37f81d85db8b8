(** Claim C84, the part that holds: withdrawals from the f64 pool that complete. *)
From Coq Require Import ZArith Reals Lra Lia List Bool String Floats.SpecFloat.
From Verif Require Import Base FloatBase FloatModel FloatFacts FloatWf FloatSwap FloatLp FloatBook FloatTrip FloatOut FloatWit PropFloat PropFlow.
Import ListNotations.
Open Scope string_scope. Open Scope Z_scope.

Lemma lp_whole_reach lm p T : libm_ok lm -> lp_whole lm p T -> wreach lm p T /\ no_fees p.
Proof.
  intros LM L. assert (Q : wreach lm p T /\ lp_only lm p).
  { induction L as [rp s c r p C R E|p T u x y a b p' xd yd z L [IH1 IH2] X Y E F Z1 Z2|p T u l a b p' xs ys z L [IH1 IH2] E F Z1].
    - split; [exact (wr_new lm _ _ _ _ _ C R E)|exact (lo_new lm _ _ _ _ _ C R E)].
    - split; [exact (wr_dep lm _ _ _ _ _ _ _ _ _ _ _ IH1 X Y E F Z1 Z2)|exact (lo_dep lm _ _ _ _ _ _ _ _ _ IH2 X Y E)].
    - split; [exact (wr_wd lm _ _ _ _ _ _ _ _ _ _ IH1 E F Z1)|exact (lo_wd lm _ _ _ _ _ _ _ _ IH2 (proj1 (proj1 F)) E)]. }
  split; [apply Q|apply (lp_only_inv lm LM p), Q].
Qed.

(** ** C84.  The full claim - a provider can always withdraw its own liquidity - is false ([C84_f64_withdraw_own_refuted],
    [C84_f64_position_frozen_refuted]).  Proved: with whole amounts below 2^52 in total and before the first swap, every whole part of a position can
    be withdrawn. *)
Theorem C84_f64_withdraw_partial : forall lm p T u l a b q z held, libm_ok lm -> lp_whole lm p T ->
  fpm_get (u, f_rp_to_possible_tick lm p a false, f_rp_to_possible_tick lm p b false) (fpositions p) = Some q ->
  fint (fp_liq q) held -> fint l z -> 0 <= z <= held -> exists p' xs ys, fwithdraw lm p u l a b = Ok (p', xs, ys).
Proof.
  intros lm p T u l a b q z held LM L Q H F R. destruct (lp_whole_reach lm p T LM L) as [W N].
  refine (withdraw_done lm LM p T u l a b q z held W _ Q _ H F R).
  - apply in_force_backed. exact (proj1 (C93_f64_in_force_partial lm LM) p T L).
  - exact (no_fees_pass p _ _ q _ N Q).
Qed.
(** After swaps, with whole amounts: if the liquidity in force is right (C93), the growth of the fees inside the range (below, above) is the only obstacle. *)
Theorem C84_f64_withdraw_after_swaps_partial : forall lm p T u l a b q z held, libm_ok lm -> wreach lm p T -> in_force_right p ->
  let lo := f_rp_to_possible_tick lm p a false in let up := f_rp_to_possible_tick lm p b false in
  fpm_get (u, lo, up) (fpositions p) = Some q ->
  (forall k, exists g, ffee_rng p lo up k = Ok g /\ fle f_zero (fsub g (f4_get (fp_fees q) k)) = true) ->
  fint (fp_liq q) held -> fint l z -> 0 <= z <= held -> exists p' xs ys, fwithdraw lm p u l a b = Ok (p', xs, ys).
Proof.
  intros lm p T u l a b q z held LM W I lo up Q G H F R. refine (withdraw_done lm LM p T u l a b q z held W (proj1 (in_force_backed p) I) Q _ H F R).
  destruct (G FX) as (g1 & A1 & B1), (G FY) as (g2 & A2 & B2), (G HX) as (g3 & A3 & B3), (G HY) as (g4 & A4 & B4).
  exists g1, g2, g3, g4. repeat (split; [assumption|]). exact B4.
Qed.

(** Cases: the position of 21458 of C93 before any swap, and a position of 401008 after a swap that earned fees. *)
Example C84_case : lp_whole wlm e1 21458 /\ exists q, fpm_get ("a", f_rp_to_possible_tick wlm e1 qlo false, f_rp_to_possible_tick wlm e1 qup false) (fpositions e1) = Some q /\
  fint (fp_liq q) 21458 /\ fint (f_int 10000) 10000.
Proof.
  split; [exact (proj1 C93_case)|]. eexists. split; [vm_compute; reflexivity|]. split; [|apply fint_int; lia].
  cbn [fp_liq]. match goal with |- fint ?x _ => replace x with (f_int 21458) by (vm_compute; reflexivity) end. apply fint_int. lia.
Qed.
Definition trip_p1x : fpool := Eval vm_compute in get nopool (frun trip_p0 (firstn 1 trip_evs)).
Example C84_case_swap : wreach wlm trip_p1 401008 /\ in_force_right trip_p1 /\ fok (fx_fee trip_p1) /\ flt f_zero (fx_fee trip_p1) = true /\
  let lo := f_rp_to_possible_tick wlm trip_p1 trip_a false in let up := f_rp_to_possible_tick wlm trip_p1 trip_b false in
  exists q, fpm_get ("a", lo, up) (fpositions trip_p1) = Some q /\ fint (fp_liq q) 401008 /\
  (forall k, exists g, ffee_rng trip_p1 lo up k = Ok g /\ fle f_zero (fsub g (f4_get (fp_fees q) k)) = true).
Proof.
  assert (I : forall f, f = f_int 401008 -> fint f 401008) by (intros f ->; apply fint_int; lia).
  split; [|split; [|split; [split; vm_compute; reflexivity|split; [vm_compute; reflexivity|]]]].
  - assert (W0 : wreach wlm trip_p0 0) by (refine (wr_new wlm _ _ _ _ _ _ _ trip_new_ok); vm_compute; reflexivity).
    assert (S1 : exists xd yd, fdeposit wlm trip_p0 "a" (f_int 1000) (f_int 5000) trip_a trip_b = Ok (trip_p1x, xd, yd)) by (eexists _, _; vm_compute; reflexivity).
    destruct S1 as (xd & yd & S1). assert (L : fint (dep_liq wlm trip_p0 (f_int 1000) (f_int 5000) trip_a trip_b) 401008) by (apply I; vm_compute; reflexivity).
    assert (W1 : wreach wlm trip_p1x (0 + 401008)) by (refine (wr_dep wlm _ _ _ _ _ _ _ _ _ _ _ W0 _ _ S1 L _ _); reflexivity).
    assert (S2 : exists out, fexecute_swap_x wlm 50 trip_p1x f_one f_one = Ok (trip_p1, out)) by (eexists; vm_compute; reflexivity).
    destruct S2 as (out & S2). refine (wr_x wlm _ _ _ _ _ _ _ W1 _ _ S2); reflexivity.
  - exists [(("a", 13763, 13963), 401008)]. split; [|apply I; vm_compute; reflexivity].
    apply Forall2_cons; [|apply Forall2_nil]. split; [reflexivity|]. split; [apply I; vm_compute; reflexivity|cbn; lia].
  - eexists. split; [vm_compute; reflexivity|]. split; [apply I; vm_compute; reflexivity|].
    intros k. destruct k; eexists; (split; [vm_compute; reflexivity|vm_compute; reflexivity]).
Qed.
Print Assumptions C84_f64_withdraw_partial.
Print Assumptions C84_f64_withdraw_after_swaps_partial.
