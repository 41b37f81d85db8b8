(** C118: in the f64 pool the HMM adjustment changes only what the trader receives. *)
From Coq Require Import ZArith List Bool String Floats.SpecFloat.
From Verif Require Import Base FloatBase FloatModel FloatWf FloatSwap FloatLp FloatTerm FloatWit FloatHmm.
Import ListNotations.
Open Scope Z_scope.

(** ** C118: two pools that differ in the HMM parameter, the HMM counters and pots and the reserve of the token paid out only.  [same_but] lists what they share; [paid_in] is
    the reserve of the token the trader pays. *)
Definition cells (e : f4) : f64 * f64 := (f_fx e, f_fy e).
Record same_but (paid_in : fpool -> f64) (p q : fpool) : Prop := mkSameBut
  { sb_spacing : fspacing p = fspacing q;
    sb_price : fg_rp (fgs p) = fg_rp (fgs q) /\ fg_tick (fgs p) = fg_tick (fgs q);
    sb_liq : fg_liq (fgs p) = fg_liq (fgs q);
    sb_growth : cells (fg_fees (fgs p)) = cells (fg_fees (fgs q));
    sb_ticks : map (fun kv => (fst kv, ft_net (snd kv), ft_gross (snd kv), cells (ft_fees (snd kv)))) (fticks p) =
               map (fun kv => (fst kv, ft_net (snd kv), ft_gross (snd kv), cells (ft_fees (snd kv)))) (fticks q);
    sb_pos : map (fun kv => (fst kv, fp_liq (snd kv), cells (fp_fees (snd kv)))) (fpositions p) =
             map (fun kv => (fst kv, fp_liq (snd kv), cells (fp_fees (snd kv)))) (fpositions q);
    sb_in : paid_in p = paid_in q;
    sb_fees : fx_fee p = fx_fee q /\ fy_fee p = fy_fee q;
    sb_rate : f_fee_rate p = f_fee_rate q }.
Lemma map_eq2 {A B C} (f : A -> B) (g : A -> C) : (forall a b, f a = f b -> g a = g b) -> forall l l', map f l = map f l' -> map g l = map g l'.
Proof. intros H. induction l as [|a l IH]; intros [|b l'] E; try discriminate; [reflexivity|]. cbn [map] in *. injection E as E1 E2. f_equal; auto. Qed.
Lemma same_sim (k : bool) p q : same_but (if k then fx else fy) p q <-> plain k p = plain k q.
Proof.
  rewrite <- sim_plain. split.
  - intros [A [B1 B2] C D E F G [H1 H2] I]. unfold cells in D. injection D as D1 D2. constructor; auto.
    + revert E. apply map_eq2. intros [t a] [u b] X. cbn [fst snd] in X. unfold cells in X. unfold plain_t, plain4. cbn [fst snd]. congruence.
    + revert F. apply map_eq2. intros [t a] [u b] X. cbn [fst snd] in X. unfold cells in X. unfold plain_p, plain4. cbn [fst snd]. congruence.
    + destruct k; exact G.
  - intros [A B C D E F G H I J K L]. constructor; auto.
    + unfold cells. unfold fglbl_fees in E, F. congruence.
    + revert G. apply map_eq2. intros [t a] [u b] X. unfold plain_t, plain4 in X. cbn [fst snd] in X. unfold cells. cbn [fst snd]. congruence.
    + revert H. apply map_eq2. intros [t a] [u b] X. unfold plain_p, plain4 in X. cbn [fst snd] in X. unfold cells. cbn [fst snd]. congruence.
    + destruct k; exact I.
Qed.
(** Whatever the oracle prices and the HMM parameters: if both swaps go through, the pools still share all this, and the traders paid the same amount and the same fee and
    saw the same end price. *)
Theorem C118_f64_hmm_x : forall lm n m p q dx o o' p' q' a b, same_but fx p q ->
  fexecute_swap_x lm n p dx o = Ok (p', a) -> fexecute_swap_x lm m q dx o' = Ok (q', b) ->
  same_but fx p' q' /\ fso_recv a = fso_recv b /\ fso_fee a = fso_fee b /\ fso_end a = fso_end b.
Proof.
  intros lm n m p q dx o o' p' q' a b S X Y. apply (same_sim true) in S.
  destruct (swap_x_hmm lm n m p q dx o o' p' q' a b S X Y) as [A B]. split; [now apply (same_sim true)|exact B].
Qed.
Theorem C118_f64_hmm_y : forall lm n m p q dy o o' p' q' a b, same_but fy p q ->
  fexecute_swap_y lm n p dy o = Ok (p', a) -> fexecute_swap_y lm m q dy o' = Ok (q', b) ->
  same_but fy p' q' /\ fso_recv a = fso_recv b /\ fso_fee a = fso_fee b /\ fso_end a = fso_end b.
Proof.
  intros lm n m p q dy o o' p' q' a b S X Y. apply (same_sim false) in S.
  destruct (swap_y_hmm lm n m p q dy o o' p' q' a b S X Y) as [A B]. split; [now apply (same_sim false)|exact B].
Qed.
(** With the parameter at zero nothing is taken from the trader. *)
Theorem C118_f64_hmm_off : forall lm n p d o p' a, libm_ok lm -> freach lm p -> f64_ok d -> f64_ok o -> feq (f_c p) f_zero = true ->
  (fexecute_swap_x lm n p d o = Ok (p', a) \/ fexecute_swap_y lm n p d o = Ok (p', a)) -> fso_adj a = f_zero.
Proof. intros lm n p d o p' a LM. exact (swap_off lm LM n p d o p' a). Qed.

(** the case: the pool of C87 with parameter 2 and with parameter 0, over a library whose powers to -1, 1 and 2 are computed; only the first trader is charged *)
Definition lm2 : libm := mkLibm (m_ln wlm) (fun a b =>
  if f_same a (fsqrt f_tick_base) then m_powf wlm a b else if feq b (f_int 2) then fmul a a else if feq b f_one then a else fdiv f_one a).
Definition at_c (c : f64) : fpool :=
  mkFPool (fspacing cone_p) (fgs cone_p) (fticks cone_p) (fpositions cone_p) (fx cone_p) (fy cone_p) (fx_adj cone_p) (fy_adj cone_p) (fx_fee cone_p) (fy_fee cone_p) c
    (f_fee_rate cone_p).
Definition charged (r : res (fpool * fswap_out)) : option bool := match r with Ok (_, a) => Some (flt f_zero (fso_adj a)) | _ => None end.
Example C118_case : same_but fx (at_c (f_int 2)) (at_c f_zero) /\ same_but fy (at_c (f_int 2)) (at_c f_zero) /\
  charged (fexecute_swap_x lm2 50 (at_c (f_int 2)) f_one f_one) = Some true /\ charged (fexecute_swap_x lm2 50 (at_c f_zero) f_one f_one) = Some false /\
  charged (fexecute_swap_y lm2 50 (at_c (f_int 2)) f_one (f_int 1000)) = Some true /\ charged (fexecute_swap_y lm2 50 (at_c f_zero) f_one (f_int 3)) = Some false.
Proof. split; [now constructor|]. split; [now constructor|]. vm_compute. auto. Qed.
Example C118_off_case : freach wlm trip_p /\ feq (f_c trip_p) f_zero = true /\ charged (fexecute_swap_x wlm 50 trip_p f_one f_one) = Some false.
Proof. split; [exact trip_reach|]. vm_compute. auto. Qed.
Print Assumptions C118_f64_hmm_x.
Print Assumptions C118_f64_hmm_y.
Print Assumptions C118_f64_hmm_off.
