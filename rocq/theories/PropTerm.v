(** Property C110: every swap of the f64 pool ends. *)
From Coq Require Import ZArith List Bool String Floats.SpecFloat.
From Verif Require Import Base FloatBase FloatModel FloatFacts FloatWf FloatLp FloatWit FloatTerm PropFloat PropFlow.
Import ListNotations.
Open Scope Z_scope.

(** ** C110.  For every libm, every pool that can be reached (its spacing is a u32) and every f64 amount and oracle price, infinities and NaN
    included, the loops of the swaps stop: there is a number of passes from which on the outcome (completed or aborted) is the same and is
    not "still running".  The loops of fmod.rs have no bound of their own; they stop because a pass that crosses no tick raises the amount
    taken so far to the next f64 number at least, and a pass that crosses a tick leaves fewer active ticks ahead. *)
Theorem C110_x_ends : forall lm p dx o, libm_ok lm -> freach lm p -> 0 <= fspacing p < 2 ^ 32 -> f64_ok dx -> f64_ok o ->
  exists n, forall m, (n <= m)%nat -> fexecute_swap_x lm m p dx o <> NoFuel /\ fexecute_swap_x lm m p dx o = fexecute_swap_x lm n p dx o.
Proof. intros lm p dx o LM. exact (swap_x_ends lm LM p dx o). Qed.
Theorem C110_y_ends : forall lm p dy o, libm_ok lm -> freach lm p -> 0 <= fspacing p < 2 ^ 32 -> f64_ok dy -> f64_ok o ->
  exists n, forall m, (n <= m)%nat -> fexecute_swap_y lm m p dy o <> NoFuel /\ fexecute_swap_y lm m p dy o = fexecute_swap_y lm n p dy o.
Proof. intros lm p dy o LM. exact (swap_y_ends lm LM p dy o). Qed.
(** the number of passes is not constant: two are not enough for this swap, three are, and the same for an infinite amount *)
Example C110_x_case : libm_ok wlm /\ freach wlm over_p /\ 0 <= fspacing over_p < 2 ^ 32 /\ f64_ok over_dx /\ f64_ok over_o /\
  fexecute_swap_x wlm 2 over_p over_dx over_o = NoFuel /\ (exists r, fexecute_swap_x wlm 3 over_p over_dx over_o = Ok r) /\
  f64_ok (S754_infinity false) /\ fexecute_swap_x wlm 2 over_p (S754_infinity false) over_o = NoFuel /\
  (exists p' out, fexecute_swap_x wlm 3 over_p (S754_infinity false) over_o = Ok (p', out) /\ f_finite (fso_recv out) = true).
Proof.
  split; [exact wlm_ok|]. split; [exact over_reach|]. split; [vm_compute; split; [discriminate|reflexivity]|]. split; [reflexivity|]. split; [reflexivity|].
  split; [vm_compute; reflexivity|]. split; [eexists; vm_compute; reflexivity|]. split; [reflexivity|]. split; [vm_compute; reflexivity|].
  eexists _, _. split; vm_compute; reflexivity.
Qed.
Example C110_y_case : libm_ok wlm /\ freach wlm e1 /\ 0 <= fspacing e1 < 2 ^ 32 /\
  fexecute_swap_y wlm 1 e1 (F 8492479242139049 (-46)) (F 5629499534213120 (-50)) = NoFuel /\
  exists r, fexecute_swap_y wlm 50 e1 (F 8492479242139049 (-46)) (F 5629499534213120 (-50)) = Ok r.
Proof.
  split; [exact wlm_ok|]. split; [exact (proj1 C94_case)|]. split; [vm_compute; split; [discriminate|reflexivity]|]. split; [vm_compute; reflexivity|]. eexists; vm_compute; reflexivity.
Qed.
Print Assumptions C110_x_ends.
Print Assumptions C110_y_ends.
