(** C119: the fee of an f64 swap is the advertised fee. *)
From Coq Require Import ZArith QArith Reals Qreals Lra List Bool String Floats.SpecFloat.
From Flocq Require Import Core.
From Verif Require Import Base FloatBase FloatModel FloatFacts FloatWf FloatLp FloatWit FloatFee PropFlow.
Import ListNotations.
Open Scope R_scope.

(** ** C119: the fee a swap reports is the fee rate times the whole amount it reports as taken, up to 16 rounding units (2^-53 of the amount offered) for each time the loop
    runs, and lies between zero and that amount.  [n] is any number of runs within which the loop ends; that there is one is C110. *)
Theorem C119_f64_fee_x : forall lm n p dx o p' out, libm_ok lm -> freach lm p -> fok dx -> bpow radix2 (-1000) <= fval dx <= bpow radix2 1023 -> f64_ok o ->
  fok (f_fee_rate p) -> 0 <= fval (f_fee_rate p) < 1 -> fexecute_swap_x lm n p dx o = Ok (p', out) ->
  fok (fso_recv out) /\ fok (fso_fee out) /\ 0 <= fval (fso_fee out) <= fval (fso_recv out) /\
  Rabs (fval (fso_fee out) - fval (f_fee_rate p) * fval (fso_recv out)) <= INR n * (16 * bpow radix2 (-53) * fval dx).
Proof. intros lm n p dx o p' out LM F D B O R R1 X. exact (swap_fee lm LM n p dx o p' out F D B O R R1 (or_introl X)). Qed.
Theorem C119_f64_fee_y : forall lm n p dy o p' out, libm_ok lm -> freach lm p -> fok dy -> bpow radix2 (-1000) <= fval dy <= bpow radix2 1023 -> f64_ok o ->
  fok (f_fee_rate p) -> 0 <= fval (f_fee_rate p) < 1 -> fexecute_swap_y lm n p dy o = Ok (p', out) ->
  fok (fso_recv out) /\ fok (fso_fee out) /\ 0 <= fval (fso_fee out) <= fval (fso_recv out) /\
  Rabs (fval (fso_fee out) - fval (f_fee_rate p) * fval (fso_recv out)) <= INR n * (16 * bpow radix2 (-53) * fval dy).
Proof. intros lm n p dy o p' out LM F D B O R R1 X. exact (swap_fee lm LM n p dy o p' out F D B O R R1 (or_intror X)). Qed.

(** the case: a pool with a rate of 3/1000 (to 17 digits), 2 runs of the loop; 1 is taken and the fee is 3/1000 to 16 digits, not to the last bit *)
Definition fee_of (r : res (fpool * fswap_out)) : Q * Q := match r with Ok (_, a) => (fq (fso_recv a), fq (fso_fee a)) | _ => (0, 0)%Q end.
Example C119_case : freach wlm cone_p /\ (Qle_bool (2999999999999999 # 1000000000000000000) (fq (f_fee_rate cone_p)) && Qle_bool (fq (f_fee_rate cone_p)) (3000000000000001 # 1000000000000000000) &&
  Qeq_bool (fst (fee_of (fexecute_swap_x wlm 2 cone_p f_one (f_int 1000)))) 1 && negb (Qeq_bool (snd (fee_of (fexecute_swap_x wlm 2 cone_p f_one (f_int 1000)))) (fq (f_fee_rate cone_p))) = true)%Q.
Proof. split; [exact cone_reach|]. vm_compute. reflexivity. Qed.
Print Assumptions C119_f64_fee_x.
Print Assumptions C119_f64_fee_y.
