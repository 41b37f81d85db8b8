(** Claim C79, the part that holds: with numbers of ordinary size the reserves of the f64 pool stay finite. *)
From Coq Require Import ZArith Reals QArith Qreals Lra Lia List Bool String Floats.SpecFloat.
From Flocq Require Import Core.
From Verif Require Import Base FloatBase FloatModel FloatFacts FloatWf FloatSwap FloatLp FloatFlow FloatWit PropFloat PropFlow PropFMove FloatFin.
Import ListNotations.
Open Scope string_scope. Open Scope R_scope.

(** ** C79.  The full claim is false ([C79_f64_reserves_numbers_refuted]: a deposit between two equal ticks).  Proved: after any history of up to 2^90 calls
    with amounts up to 2^200, liquidity up to 2^600, prices from 2^-100 to 2^100, ranges whose lower price is below the upper one and swaps of up to 2^100
    passes ([ordinary]), both reserves are finite. *)
Theorem C79_f64_reserves_partial : forall lm N p, libm_ok lm -> ordinary lm N p -> INR N <= bpow radix2 90 -> f_finite (fx p) = true /\ f_finite (fy p) = true.
Proof. intros lm N p LM O G. destruct (ordinary_fin lm LM N p O G) as (A & B & _). split; [apply A|apply B]. Qed.
(** One swap, from any reachable state: the reserve of the token that comes in grows by at most twice the amount in each pass, the other one does not grow. *)
Theorem C79_f64_swap_partial : forall lm n p d o p' out, libm_ok lm -> freach lm p -> fok d -> f64_ok o -> fok (fx p) -> fok (fy p) ->
  (Rabs (fval (fx p)) + 2 * INR n * fval d <= bpow radix2 1000 -> Rabs (fval (fy p)) <= bpow radix2 1000 -> fexecute_swap_x lm n p d o = Ok (p', out) ->
   f_finite (fx p') = true /\ f_finite (fy p') = true /\ Rabs (fval (fy p')) <= Rabs (fval (fy p)) /\ Rabs (fval (fx p')) <= Rabs (fval (fx p)) + 2 * INR n * fval d) /\
  (Rabs (fval (fy p)) + 2 * INR n * fval d <= bpow radix2 1000 -> Rabs (fval (fx p)) <= bpow radix2 1000 -> fexecute_swap_y lm n p d o = Ok (p', out) ->
   f_finite (fx p') = true /\ f_finite (fy p') = true /\ Rabs (fval (fx p')) <= Rabs (fval (fx p)) /\ Rabs (fval (fy p')) <= Rabs (fval (fy p)) + 2 * INR n * fval d).
Proof.
  intros lm n p d o p' out LM W D O FX FY. assert (K := freach_ok lm LM p W). split; intros G1 G2 H.
  - destruct (swap_x_fin lm LM n p d o p' out K D O FX FY G1 G2 H) as (A & B & C & E). repeat split; auto; [apply A|apply C].
  - destruct (swap_y_fin lm LM n p d o p' out K D O FX FY G1 G2 H) as (A & B & C & E). repeat split; auto; [apply C|apply A].
Qed.

(** a history of three calls: a deposit of 1000 X and 5000 Y, an X swap, a second deposit *)
Lemma cap_of a k : fok a -> Qle_bool (-1048576) (fq a) = true -> Qle_bool (fq a) 1048576 = true -> (20 <= k)%Z -> cap k a.
Proof.
  intros A B C L. split; [exact A|]. apply qle in B. apply qge in C. replace (Q2R (-1048576)) with (-1048576) in B by (unfold Q2R; cbn; lra). replace (Q2R 1048576) with 1048576 in C by (unfold Q2R; cbn; lra).
  assert (1048576 <= bpow radix2 k) by (change 1048576 with (bpow radix2 20); now apply bpow_le). apply Rabs_le. lra.
Qed.
Lemma price_of a : fok a -> Qle_bool (1 # 1048576) (fq a) = true -> Qle_bool (fq a) 1048576 = true -> price a.
Proof.
  intros A B C. split; [exact A|]. apply qle in B. apply qge in C.
  assert (B1 : 1048576 <= bpow radix2 100) by (change 1048576 with (bpow radix2 20); apply bpow_le; lia). assert (B2 : bpow radix2 (-100) <= / 1048576) by (change (/ 1048576) with (bpow radix2 (-20)); apply bpow_le; lia).
  replace (Q2R (1 # 1048576)) with (/ 1048576) in B by (unfold Q2R; cbn; lra). replace (Q2R 1048576) with 1048576 in C by (unfold Q2R; cbn; lra). lra.
Qed.
Definition h1 : fpool := Eval vm_compute in fst (fst (get (nopool, f_zero, f_zero) (fdeposit wlm trip_p0 "a" (f_int 1000) (f_int 5000) trip_a trip_b))).
Definition h2 : fpool := Eval vm_compute in fst (get (nopool, mkFSO f_zero f_zero f_zero f_zero f_zero f_zero) (fexecute_swap_x wlm 50 h1 f_one f_one)).
Lemma h_prices p : In p [trip_p0; h2] -> at_ordinary_prices wlm p trip_a trip_b.
Proof.
  intros [<-|[<-|[]]]; (split; [apply price_of; vm_compute; auto|]); (split; [apply price_of; vm_compute; auto|]); (split; [apply price_of; vm_compute; auto|]); rewrite !fq_val; apply Qlt_Rlt; vm_compute; reflexivity.
Qed.
Example C79_ordinary_case : libm_ok wlm /\ exists p, ordinary wlm 3 p /\ INR 3 <= bpow radix2 90 /\ fglbl_tick p <> fglbl_tick trip_p0 /\ List.length (fpositions p) = 2%nat.
Proof.
  split; [exact wlm_ok|]. assert (O0 : ordinary wlm 0 trip_p0) by (refine (or_new wlm _ _ _ _ _ _ _ trip_new_ok); vm_compute; reflexivity).
  assert (O1 : exists xd yd, fdeposit wlm trip_p0 "a" (f_int 1000) (f_int 5000) trip_a trip_b = Ok (h1, xd, yd)) by (eexists _, _; vm_compute; reflexivity).
  destruct O1 as (xd & yd & E1). assert (C : forall z, In z [1000; 5000; 1]%Z -> cap 200 (f_int z)) by (intros z [<-|[<-|[<-|[]]]]; apply cap_of; try lia; vm_compute; auto).
  assert (O1 := or_dep wlm 0 _ _ _ _ _ _ _ _ _ O0 (C 1000%Z ltac:(cbn; auto)) (C 5000%Z ltac:(cbn; auto)) (h_prices trip_p0 (or_introl eq_refl)) E1).
  assert (E2 : exists out, fexecute_swap_x wlm 50 h1 f_one f_one = Ok (h2, out)) by (eexists; vm_compute; reflexivity). destruct E2 as (out & E2).
  assert (N50 : INR 50 <= bpow radix2 100). { rewrite INR_IZR_INZ. apply Rle_trans with (bpow radix2 6); [change (bpow radix2 6) with 64; apply IZR_le; discriminate|apply bpow_le; lia]. }
  assert (O2 := or_x wlm 1 h1 50 f_one f_one h2 out O1 (C 1%Z ltac:(cbn; auto)) eq_refl N50 E2).
  assert (E3 : exists p xd yd, fdeposit wlm h2 "b" (f_int 1000) (f_int 5000) trip_a trip_b = Ok (p, xd, yd) /\ fglbl_tick p <> fglbl_tick trip_p0 /\ List.length (fpositions p) = 2%nat).
  { eexists _, _, _. split; [vm_compute; reflexivity|]. split; [vm_compute; discriminate|vm_compute; reflexivity]. }
  destruct E3 as (p & x3 & y3 & E3 & T & L). exists p.
  split; [exact (or_dep wlm 2 _ _ _ _ _ _ _ _ _ O2 (C 1000%Z ltac:(cbn; auto)) (C 5000%Z ltac:(cbn; auto)) (h_prices h2 (or_intror (or_introl eq_refl))) E3)|]. split; [|auto].
  cbn [INR]. apply Rle_trans with (bpow radix2 2); [cbn; lra|apply bpow_le; lia].
Qed.
Print Assumptions C79_f64_reserves_partial.
Print Assumptions C79_f64_swap_partial.
