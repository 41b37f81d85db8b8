(** Properties C79 to C88: the f64 twin of the pool (FloatModel.v), for every mathematical library [lm] (oracle for [ln] and [powf]; [libm_ok]: it
    returns f64 values).  [fok]: a finite f64; [fval]: its value as a real number; [fint f z]: it is the whole number [z]. *)
From Coq Require Import ZArith Reals Lra Lia List Bool String Floats.SpecFloat.
From Verif Require Import Base FloatBase FloatModel FloatFacts FloatWf FloatSwap FloatLp FloatBook FloatStuck FloatTrip FloatWit.
Import ListNotations.
Open Scope string_scope. Open Scope Z_scope.

(** ** C79: the reserves stay numbers.  False: a deposit whose bounds fall on the same tick divides by zero, passes every check, and both reserves of the
    pool are NaN from then on (and so is every later result computed from them).  This holds in every newly created pool and for every library
    that returns a positive finite price for the tick. *)
Theorem C79_f64_reserves_nan_stuck : forall lm rp0 s c r p u x y a b, fpool_new lm rp0 s c r = Ok p ->
  let t := f_rp_to_possible_tick lm p a false in let R := f_tick_to_rp lm t in
  f_rp_to_possible_tick lm p b false = t -> f_finite R = true -> flt f_zero R = true ->
  flt f_zero x = true -> flt f_zero y = true -> flt f_zero (fmul (fmul x R) R) = true ->
  exists p' xd yd, fdeposit lm p u x y a b = Ok (p', xd, yd) /\ fx p' = S754_nan /\ fy p' = S754_nan.
Proof. exact same_tick_nan. Qed.
Theorem C79_f64_reserves_numbers_refuted : ~ (forall lm p, libm_ok lm -> freach lm p -> f_finite (fx p) = true /\ f_finite (fy p) = true).
Proof.
  intros H. assert (R : exists q xd yd, fdeposit wlm flat_p "a" f_one (f_int 5) (F 9007199254740992 (-52)) (F 9007199254740992 (-52)) = Ok (q, xd, yd) /\ fx q = S754_nan)
    by (eexists _, _, _; vm_compute; auto).
  destruct R as (q & xd & yd & E & X). assert (V1 : f64_ok f_one) by reflexivity. assert (V2 : f64_ok (f_int 5)) by reflexivity.
  destruct (H _ _ wlm_ok (fr_dep wlm _ _ _ _ _ _ _ _ _ flat_reach V1 V2 E)) as [F _]. rewrite X in F. discriminate.
Qed.
(** the hypotheses of the first theorem are met by a pool created at price 4 and bounds that are both 2 *)
Example C79_case : exists p, fpool_new wlm (F 4503599627370496 (-51)) 1 f_zero f_zero = Ok p /\
  let a := F 4503599627370496 (-51) in let t := f_rp_to_possible_tick wlm p a false in let R := f_tick_to_rp wlm t in
  t = 13863 /\ f_finite R = true /\ flt f_zero R = true /\ flt f_zero (fmul (fmul f_one R) R) = true.
Proof. eexists. split; [vm_compute; reflexivity|]. vm_compute. auto. Qed.
Print Assumptions C79_f64_reserves_nan_stuck.
Print Assumptions C79_f64_reserves_numbers_refuted.

(** ** C80: the gross and net liquidity recorded at every tick are the sums over the positions that end there, and a tick is active exactly if a position
    with liquidity ends there.  True, exactly, as long as every amount is whole and the total stays below 2^52 ([T]: deposited minus withdrawn; deposits
    always compute whole amounts).  [zs] lists the positions with their liquidity as integers. *)
Theorem C80_f64_tick_liquidity_partial : forall lm p T, libm_ok lm -> wreach lm p T ->
  exists zs : list (fkey * Z),
    Forall2 (fun kv kz => fst kv = fst kz /\ fint (fp_liq (snd kv)) (snd kz) /\ 0 <= snd kz) (fpositions p) zs /\
    zsum (fun _ => 1) zs = T /\
    forall t, let gross := zsum (ends t) zs in let net := zsum (signs t) zs in
      match ftm_get t (fticks p) with
      | None => gross = 0 /\ net = 0
      | Some ts => fint (ft_gross ts) gross /\ fint (ft_net ts) net /\ 0 < gross
      end.
Proof.
  intros lm p T LM W. destruct (wreach_book lm LM p T W) as (_ & zs & (A & B) & C). exists zs. split; [exact A|]. split; [exact C|]. exact B.
Qed.
(** False for fractional amounts, which withdrawals accept: two providers deposit 401 each, one withdraws in two steps (120.3 and the rest), the other at
    once.  No position is left, but two ticks stay active and the pool still claims liquidity in range. *)
Theorem C80_f64_tick_liquidity_refuted : ~ (forall lm p, libm_ok lm -> freach lm p -> fpositions p = [] -> fticks p = [] /\ flt f_zero (fglbl_liq p) = false).
Proof.
  intros H. assert (R : exists q, fev_step ghost_p ghost_last = Ok q /\ fpositions q = [] /\ flt f_zero (fglbl_liq q) = true) by (eexists; vm_compute; auto).
  destruct R as (q & E & P & L). assert (Q : freach wlm q).
  { apply (frun_reach [ghost_last] ghost_p); [vm_compute; reflexivity|exact ghost_reach|]. cbn [frun]. rewrite E. reflexivity. }
  destruct (H _ _ wlm_ok Q P) as [_ F]. congruence.
Qed.
(** two deposits of 401 *)
Definition ghost_a : f64 := Eval vm_compute in match nth 0 ghost_evs ghost_last with EDep _ _ _ a _ => a | _ => f_zero end.
Definition ghost_b : f64 := Eval vm_compute in match nth 0 ghost_evs ghost_last with EDep _ _ _ _ b => b | _ => f_zero end.
Example C80_case : exists p, wreach wlm p 802 /\ List.length (fpositions p) = 2%nat /\ List.length (fticks p) = 2%nat.
Proof.
  assert (W0 : wreach wlm ghost_p0 0) by (refine (wr_new wlm _ _ _ _ _ _ _ ghost_new_ok); vm_compute; reflexivity).
  assert (S1 : exists p1 xd yd, fdeposit wlm ghost_p0 "a" f_one (f_int 5) ghost_a ghost_b = Ok (p1, xd, yd) /\
               exists p2 xd2 yd2, fdeposit wlm p1 "b" f_one (f_int 5) ghost_a ghost_b = Ok (p2, xd2, yd2) /\
               dep_liq wlm p1 f_one (f_int 5) ghost_a ghost_b = f_int 401 /\ List.length (fpositions p2) = 2%nat /\ List.length (fticks p2) = 2%nat)
    by (eexists _, _, _; split; [vm_compute; reflexivity|]; eexists _, _, _; split; [vm_compute; reflexivity|]; vm_compute; auto).
  destruct S1 as (p1 & xd & yd & E1 & p2 & xd2 & yd2 & E2 & L2 & A & B).
  assert (V1 : f64_ok f_one) by reflexivity. assert (V5 : f64_ok (f_int 5)) by reflexivity.
  assert (L1 : dep_liq wlm ghost_p0 f_one (f_int 5) ghost_a ghost_b = f_int 401) by (vm_compute; reflexivity).
  assert (I : fint (f_int 401) 401) by (apply fint_int; reflexivity).
  assert (W1 : wreach wlm p1 (0 + 401)) by (apply (wr_dep wlm _ _ _ _ _ _ _ _ _ _ _ W0 V1 V5 E1); [rewrite L1; exact I|reflexivity|reflexivity]).
  assert (W2 : wreach wlm p2 (0 + 401 + 401)) by (apply (wr_dep wlm _ _ _ _ _ _ _ _ _ _ _ W1 V1 V5 E2); [rewrite L2; exact I|reflexivity|reflexivity]).
  exists p2. auto.
Qed.
Print Assumptions C80_f64_tick_liquidity_partial.
Print Assumptions C80_f64_tick_liquidity_refuted.

(** ** C81: depositing and withdrawing the same liquidity at once pays back no more than was paid.  True before the first swap, for the amounts that are
    numbers.  ([dep_liq] is the liquidity the deposit computes.) *)
Theorem C81_f64_round_trip_partial : forall lm p u x y a b p1 xd yd p2 xs ys, libm_ok lm -> lp_only lm p -> f64_ok x -> f64_ok y ->
  fdeposit lm p u x y a b = Ok (p1, xd, yd) -> fwithdraw lm p1 u (dep_liq lm p x y a b) a b = Ok (p2, xs, ys) ->
  (fok xd -> (0 <= fval xd)%R -> fok xs -> (fval xs <= fval xd)%R) /\ (fok yd -> (0 <= fval yd)%R -> fok ys -> (fval ys <= fval yd)%R).
Proof. intros lm p u x y a b p1 xd yd p2 xs ys LM. exact (round_trip lm LM p u x y a b p1 xd yd p2 xs ys). Qed.
(** False afterwards: a new position is credited with the fees its range earned before.  After one swap with a fee of 0.003 X a provider deposits about
    1000 X and 3992 Y, withdraws at once, and gets 0.0029 X more and less than 0.00000001 Y less than it paid. *)
Definition trip_a : f64 := Eval vm_compute in match trip_last with EWd _ _ a _ => a | _ => f_zero end.
Definition trip_b : f64 := Eval vm_compute in match trip_last with EWd _ _ _ b => b | _ => f_zero end.
Definition trip_p1 : fpool := Eval vm_compute in get nopool (frun trip_p0 (firstn 2 trip_evs)).
Theorem C81_f64_round_trip_refuted : exists lm p u x y a b p1 xd yd p2 xs ys l, libm_ok lm /\ freach lm p /\ l = dep_liq lm p x y a b /\
  fdeposit lm p u x y a b = Ok (p1, xd, yd) /\ fwithdraw lm p1 u l a b = Ok (p2, xs, ys) /\
  flt (fadd xd (fdiv (f_int 29) (f_int 10000))) xs = true /\ flt (fsub yd (fdiv f_one (f_int 100000000))) ys = true.
Proof.
  exists wlm, trip_p1, "b", (f_int 1000), (f_int 5000), trip_a, trip_b.
  assert (R : freach wlm trip_p1).
  { apply (frun_reach (firstn 2 trip_evs) trip_p0); [vm_compute; reflexivity| |vm_compute; reflexivity].
    refine (fr_new wlm _ _ _ _ _ _ _ trip_new_ok); vm_compute; reflexivity. }
  eexists _, _, _, _, _, _, _. split; [exact wlm_ok|]. split; [exact R|]. split; [vm_compute; reflexivity|]. split; [vm_compute; reflexivity|].
  split; [vm_compute; reflexivity|]. split; vm_compute; reflexivity.
Qed.
(** a deposit of about 1 X and 4 Y into a new pool, and its withdrawal *)
Example C81_case : lp_only wlm ghost_p0 /\ exists p1 xd yd p2 xs ys, fdeposit wlm ghost_p0 "a" f_one (f_int 5) ghost_a ghost_b = Ok (p1, xd, yd) /\
  fwithdraw wlm p1 "a" (dep_liq wlm ghost_p0 f_one (f_int 5) ghost_a ghost_b) ghost_a ghost_b = Ok (p2, xs, ys) /\ f_finite xd = true /\ f_finite yd = true /\ f_finite xs = true /\ f_finite ys = true.
Proof.
  split; [refine (lo_new wlm _ _ _ _ _ _ _ ghost_new_ok); vm_compute; reflexivity|].
  eexists _, _, _, _, _, _. split; [vm_compute; reflexivity|]. split; [vm_compute; reflexivity|]. vm_compute. auto.
Qed.
Print Assumptions C81_f64_round_trip_partial.
Print Assumptions C81_f64_round_trip_refuted.

(** ** C82: a swap takes no more than was offered.  Up to two rounding errors (and for amounts up to 2^1023), for any number of ranges crossed: *)
Theorem C82_f64_amount_in_partial : forall lm n p amt o p' out, libm_ok lm -> freach lm p -> fok amt -> f64_ok o ->
  (fval amt <= IZR (2 ^ 1023))%R ->
  fexecute_swap_x lm n p amt o = Ok (p', out) \/ fexecute_swap_y lm n p amt o = Ok (p', out) ->
  fok (fso_recv out) /\ (0 <= fval (fso_recv out) <= fval amt * ((1 + / IZR (2 ^ 53)) * (1 + / IZR (2 ^ 53))))%R.
Proof.
  intros lm n p amt o p' out LM R A O T H. assert (K := freach_ok lm LM p R).
  assert (G : swap_good amt p p' out) by (destruct H as [H|H]; [exact (fswap_x_good lm LM _ _ _ _ _ _ K (proj1 A) O H)|exact (fswap_y_good lm LM _ _ _ _ _ _ K (proj1 A) O H)]).
  destruct G as (_ & _ & G). assert (T' : (fval amt <= Raux.bpow Zaux.radix2 1023)%R) by (rewrite <- Raux.IZR_Zpower by discriminate; exact T).
  specialize (G A T'). unfold slack in G. rewrite u53_val in G. exact G.
Qed.
(** False to the last digit: after two deposits an X swap of 0.18795569003464266 takes 0.1879556900346427. *)
Definition over_dx : f64 := Eval vm_compute in match over_last with EX d _ => d | _ => f_zero end.
Definition over_o : f64 := Eval vm_compute in match over_last with EX _ o => o | _ => f_zero end.
Theorem C82_f64_amount_in_refuted : exists lm n p dx o p' out, libm_ok lm /\ freach lm p /\ fok dx /\ fok o /\
  fexecute_swap_x lm n p dx o = Ok (p', out) /\ (fval dx < fval (fso_recv out))%R.
Proof.
  exists wlm, 50%nat, over_p, over_dx, over_o. eexists _, _. split; [exact wlm_ok|]. split; [exact over_reach|]. split; [split; reflexivity|]. split; [split; reflexivity|].
  split; [vm_compute; reflexivity|]. apply flt_t; [split; reflexivity|split; vm_compute; reflexivity|vm_compute; reflexivity].
Qed.
(** the partial theorem applies to the same swap *)
Example C82_case : freach wlm over_p /\ fok over_dx /\ exists p' out, fexecute_swap_x wlm 50 over_p over_dx over_o = Ok (p', out).
Proof. split; [exact over_reach|]. split; [split; reflexivity|]. eexists _, _. vm_compute. reflexivity. Qed.
Print Assumptions C82_f64_amount_in_partial.
Print Assumptions C82_f64_amount_in_refuted.

(** ** C83: a call changes nobody else's position.  Swaps change no position, no active tick and no liquidity recorded at a tick; deposits and withdrawals
    change no position but the one of the caller between the two ticks, and neither the price nor the parameters nor the fee growth. *)
Theorem C83_f64_frame : forall lm p, libm_ok lm -> freach lm p ->
  (forall n amt o p' out, f64_ok amt -> f64_ok o -> fexecute_swap_x lm n p amt o = Ok (p', out) \/ fexecute_swap_y lm n p amt o = Ok (p', out) ->
     fpositions p' = fpositions p /\
     map (fun kv => (fst kv, ft_net (snd kv), ft_gross (snd kv))) (fticks p') = map (fun kv => (fst kv, ft_net (snd kv), ft_gross (snd kv))) (fticks p) /\
     fspacing p' = fspacing p /\ f_c p' = f_c p /\ f_fee_rate p' = f_fee_rate p) /\
  (forall u x y l a b p' r1 r2, f64_ok x -> f64_ok y -> f64_ok l -> fdeposit lm p u x y a b = Ok (p', r1, r2) \/ fwithdraw lm p u l a b = Ok (p', r1, r2) ->
     (forall u' lo up, (u', lo, up) <> (u, f_rp_to_possible_tick lm p a false, f_rp_to_possible_tick lm p b false) ->
        fpm_get (u', lo, up) (fpositions p') = fpm_get (u', lo, up) (fpositions p)) /\
     fspacing p' = fspacing p /\ f_c p' = f_c p /\ f_fee_rate p' = f_fee_rate p /\
     fglbl_rp p' = fglbl_rp p /\ fglbl_tick p' = fglbl_tick p /\ fglbl_fees p' = fglbl_fees p).
Proof.
  intros lm p LM R. assert (K := freach_ok lm LM p R). split.
  - intros n amt o p' out A O H.
    assert (G : swap_good amt p p' out) by (destruct H as [H|H]; [exact (fswap_x_good lm LM _ _ _ _ _ _ K A O H)|exact (fswap_y_good lm LM _ _ _ _ _ _ K A O H)]).
    destruct G as (_ & [S1 S2 S3] & _). auto.
  - intros u x y l a b p' r1 r2 X Y L H.
    assert (G : (forall k, k <> dep_key lm p u a b -> fpm_get k (fpositions p') = fpm_get k (fpositions p)) /\
      fspacing p' = fspacing p /\ f_c p' = f_c p /\ f_fee_rate p' = f_fee_rate p /\ fglbl_rp p' = fglbl_rp p /\ fglbl_tick p' = fglbl_tick p /\ fglbl_fees p' = fglbl_fees p)
      by (destruct H as [H|H]; [exact (fdeposit_frame lm LM _ _ _ _ _ _ _ _ _ K X Y H)|exact (fwithdraw_frame lm LM _ _ _ _ _ _ _ _ K L H)]).
    destruct G as [G1 G2]. split; [intros; now apply G1|exact G2].
Qed.
(** the runs of FloatWit.v contain completed calls of all kinds; here the swap above, in a pool with two positions *)
Example C83_case : freach wlm over_p /\ List.length (fpositions over_p) = 2%nat /\ (exists p' out, fexecute_swap_x wlm 50 over_p over_dx over_o = Ok (p', out)) /\
  (exists p1 xd yd, fdeposit wlm ghost_p0 "a" f_one (f_int 5) ghost_a ghost_b = Ok (p1, xd, yd)).
Proof. split; [exact over_reach|]. split; [reflexivity|]. split; [eexists _, _; vm_compute; reflexivity|]. eexists _, _, _. vm_compute. reflexivity. Qed.
Print Assumptions C83_f64_frame.

(** ** C84: a provider can withdraw its own liquidity.  False, in two ways. *)
(** (i) Rounding of fractional withdrawals by somebody else: a holds 401 and b 1203 in the same range; b withdraws 360.9 and then the rest; the liquidity
    recorded at the ticks is now less than 401 and the withdrawal of a panics. *)
Definition block_a : f64 := Eval vm_compute in match block_last with EWd _ _ a _ => a | _ => f_zero end.
Definition block_b : f64 := Eval vm_compute in match block_last with EWd _ _ _ b => b | _ => f_zero end.
Theorem C84_f64_withdraw_own_refuted : exists lm p u l a b q, libm_ok lm /\ freach lm p /\
  fpm_get (u, f_rp_to_possible_tick lm p a false, f_rp_to_possible_tick lm p b false) (fpositions p) = Some q /\
  fp_liq q = l /\ flt f_zero l = true /\ fwithdraw lm p u l a b = Panic.
Proof.
  exists wlm, block_p, "a", (f_int 401), block_a, block_b. eexists. split; [exact wlm_ok|]. split; [exact block_reach|].
  split; [vm_compute; reflexivity|]. split; [vm_compute; reflexivity|]. split; vm_compute; reflexivity.
Qed.
(** (ii) Rounding of the fee growth, with whole amounts only: the two sums of growth below and above that [fee_rng] requires to be equal differ in the
    last digit, and the withdrawal panics (as does any other call on the position). *)
Definition rngeq_a : f64 := Eval vm_compute in match rngeq_last with EWd _ _ a _ => a | _ => f_zero end.
Definition rngeq_b : f64 := Eval vm_compute in match rngeq_last with EWd _ _ _ b => b | _ => f_zero end.
Theorem C84_f64_position_frozen_refuted : exists lm p u a b q, libm_ok lm /\ freach lm p /\
  fpm_get (u, f_rp_to_possible_tick lm p a false, f_rp_to_possible_tick lm p b false) (fpositions p) = Some q /\
  flt f_zero (fp_liq q) = true /\
  (forall l, flt l f_zero = false -> fwithdraw lm p u l a b = Panic) /\ (forall x y r, fdeposit lm p u x y a b <> Ok r).
Proof.
  exists wlm, rngeq_p, "a", rngeq_a, rngeq_b. eexists. split; [exact wlm_ok|]. split; [exact rngeq_reach|].
  split; [vm_compute; reflexivity|]. split; [vm_compute; reflexivity|].
  pose (lo := f_rp_to_possible_tick wlm rngeq_p rngeq_a false). pose (up := f_rp_to_possible_tick wlm rngeq_p rngeq_b false).
  assert (F : ffee_rng rngeq_p lo up FX = Panic) by (vm_compute; reflexivity).
  assert (S : forall d, fset_position rngeq_p "a" lo up d = Panic) by (intros d; unfold fset_position; rewrite F; reflexivity).
  split.
  - intros l L. unfold fwithdraw. rewrite L. fold lo up. rewrite S. reflexivity.
  - intros x y r H. unfold fdeposit in H. fold lo up in H. destruct (_ || _); [discriminate|]. destruct (flt x _); [discriminate|]. destruct (flt y _); [discriminate|].
    rewrite S in H. discriminate.
Qed.
Print Assumptions C84_f64_withdraw_own_refuted.
Print Assumptions C84_f64_position_frozen_refuted.

(** ** C85: a deposit into any range succeeds.  False: if the lower tick is not in use and the upper one is, and any of the four growths above the upper tick
    is positive, no deposit of any size between them succeeds. *)
Theorem C85_f64_deposit_stuck : forall lm p u x y a b k ts, libm_ok lm -> freach lm p ->
  let lo := f_rp_to_possible_tick lm p a false in let up := f_rp_to_possible_tick lm p b false in
  ftm_get lo (fticks p) = None -> ftm_get up (fticks p) = Some ts -> fpm_get (u, lo, up) (fpositions p) = None ->
  let g := f4_get (fglbl_fees p) k in let f0 := f4_get (ft_fees ts) k in
  let above := if up <=? fglbl_tick p then fsub g f0 else f0 in
  fok g -> fok above -> flt f_zero above = true -> forall r, fdeposit lm p u x y a b <> Ok r.
Proof.
  intros lm p u x y a b k ts LM R lo up LO UP PO g f0 above G A P r H. unfold fdeposit in H. fold lo up in H.
  destruct (_ || _); [discriminate|]. destruct (flt x _); [discriminate|]. destruct (flt y _); [discriminate|].
  destruct (fset_position p u lo up _) as [v|e| |] eqn:E; try discriminate.
  exact (deposit_stuck p u lo up _ k ts (freach_ok lm LM p R) LO UP PO G A P v E).
Qed.
(** A reachable pool that meets these conditions: one provider between ticks 13763 and 13963, one X swap of 1; then nobody can deposit between ticks 13663
    and 13763, just below the provider. *)
Definition below_a : f64 := Eval vm_compute in match below_last with EDep _ _ _ a _ => a | _ => f_zero end.
Definition below_b : f64 := Eval vm_compute in match below_last with EDep _ _ _ _ b => b | _ => f_zero end.
Theorem C85_f64_deposit_refuted : exists lm p a b, libm_ok lm /\ freach lm p /\
  f_rp_to_possible_tick lm p a false = 13663 /\ f_rp_to_possible_tick lm p b false = 13763 /\
  flt (f_tick_to_rp lm 13663) (f_tick_to_rp lm 13763) = true /\ forall x y r, fdeposit lm p "b" x y a b <> Ok r.
Proof.
  exists wlm, below_p, below_a, below_b. split; [exact wlm_ok|]. split; [exact below_reach|].
  assert (A : f_rp_to_possible_tick wlm below_p below_a false = 13663) by (vm_compute; reflexivity).
  assert (B : f_rp_to_possible_tick wlm below_p below_b false = 13763) by (vm_compute; reflexivity).
  split; [exact A|]. split; [exact B|]. split; [vm_compute; reflexivity|]. intros x y.
  assert (T : exists ts, ftm_get 13763 (fticks below_p) = Some ts /\ fok (f4_get (fglbl_fees below_p) FX) /\
     let above := (if 13763 <=? fglbl_tick below_p then fsub (f4_get (fglbl_fees below_p) FX) (f4_get (ft_fees ts) FX) else f4_get (ft_fees ts) FX) in fok above /\ flt f_zero above = true).
  { eexists. split; [vm_compute; reflexivity|]. split; [split; reflexivity|]. split; [split; vm_compute; reflexivity|vm_compute; reflexivity]. }
  destruct T as (ts & T1 & T2 & T3 & T4).
  apply (C85_f64_deposit_stuck wlm below_p "b" x y below_a below_b FX ts wlm_ok below_reach); rewrite ?A, ?B; auto; vm_compute; reflexivity.
Qed.
Print Assumptions C85_f64_deposit_stuck.
Print Assumptions C85_f64_deposit_refuted.

(** ** C86: with liquidity in range, swaps are possible in both directions.  False in pools with a tick spacing: while the price tick is not a multiple of
    the spacing, every Y swap panics. *)
Theorem C86_f64_y_swap_stuck : forall lm n p dy o r, 0 <= fglbl_tick p < 2 ^ 32 -> 0 < fspacing p < 2 ^ 32 -> fglbl_tick p mod fspacing p <> 0 ->
  flt f_zero (fglbl_liq p) = true -> flt f_zero dy = true -> fexecute_swap_y lm n p dy o <> Ok r.
Proof. exact y_stuck. Qed.
(** Spacing 10, one provider around the price, one X swap of 1: the tick is 13859 and no Y swap succeeds any more. *)
Theorem C86_f64_y_swap_refuted : exists lm p, libm_ok lm /\ freach lm p /\ fspacing p = 10 /\ fglbl_tick p = 13859 /\ flt f_zero (fglbl_liq p) = true /\
  forall n dy o r, flt f_zero dy = true -> fexecute_swap_y lm n p dy o <> Ok r.
Proof.
  exists wlm, spaced_p. split; [exact wlm_ok|]. split; [exact spaced_reach|]. split; [reflexivity|]. split; [reflexivity|]. split; [reflexivity|].
  intros n dy o r D. apply C86_f64_y_swap_stuck; [|split; reflexivity|discriminate|reflexivity|exact D]. split; [discriminate|reflexivity].
Qed.
Print Assumptions C86_f64_y_swap_stuck.
Print Assumptions C86_f64_y_swap_refuted.

(** ** C87: with C = 1 an X swap pays according to the logarithmic curve.  False: the sign of the logarithm is wrong.  A step that ends above the oracle price
    never sends anything: what it would send is not negative (amounts sent are negative numbers), for every library whose logarithm is not negative
    from 1 upwards. *)
Theorem C87_f64_c_one_stuck : forall lm p st g l dx o w, libm_ok lm -> (forall v, f64_ok v -> flt v f_one = false -> flt (m_ln lm v) f_zero = false) ->
  freach lm p -> fok st -> fok o -> f64_ok l -> f64_ok dx -> (0 < fval o)%R -> flt l f_zero = false -> feq (f_c p) f_one = true ->
  fswap_within_x lm p st g l dx o = Ok w -> flt o (fw_rp w) = true -> flt (fw_send w) f_zero = false.
Proof.
  intros lm p st g l dx o w LM LN R ST O L DX OP NL C H OW. exact (c1_sends_nothing lm p st g l dx o w LM LN (freach_ok lm LM p R) ST O L DX OP NL C H OW).
Qed.
(** One provider, C = 1, an X swap of 1 with an oracle price of 1 (the price is about 4): it panics. *)
Theorem C87_f64_c_one_refuted : exists lm p dx o, libm_ok lm /\ freach lm p /\ feq (f_c p) f_one = true /\ flt f_zero (fglbl_liq p) = true /\ flt f_zero dx = true /\
  flt o (fglbl_rp p) = true /\ forall n r, fexecute_swap_x lm n p dx o <> Ok r.
Proof.
  exists wlm, cone_p, f_one, f_one. split; [exact wlm_ok|]. split; [exact cone_reach|]. do 4 (split; [vm_compute; reflexivity|]).
  apply (fuel_xp wlm 50). vm_compute. reflexivity.
Qed.
(** the library of the examples satisfies the condition of the first theorem *)
Example C87_case : forall v, f64_ok v -> flt v f_one = false -> flt (m_ln wlm v) f_zero = false.
Proof.
  intros v _ _. cbn [m_ln wlm]. assert (T : Forall (fun ab => flt (snd ab) f_zero = false) tab_ln) by (repeat constructor).
  induction T as [|[a b] t A B IH]; cbn; [reflexivity|]. destruct (f_same v a); [exact A|exact IH].
Qed.
Print Assumptions C87_f64_c_one_stuck.
Print Assumptions C87_f64_c_one_refuted.

(** ** C88: rounding a tick down to the tick spacing, done in f64 and cast back to u32, is exact. *)
Theorem C88_f64_tick_grid : forall t s, 0 <= t < 2 ^ 32 -> 0 < s < 2 ^ 32 ->
  let q := f_tk_to_possible_tk t s false in q mod s = 0 /\ q <= t < q + s.
Proof.
  intros t s T S. cbv zeta. rewrite possible_exact by assumption. split; [apply Z.mod_mul; lia|].
  pose proof (Z.div_mod t s ltac:(lia)). pose proof (Z.mod_pos_bound t s ltac:(lia)). lia.
Qed.
Example C88_case : f_tk_to_possible_tk 4294967295 7 false = 4294967295 / 7 * 7 /\ f_tk_to_possible_tk 13859 10 false = 13850.
Proof. vm_compute. auto. Qed.
Print Assumptions C88_f64_tick_grid.
