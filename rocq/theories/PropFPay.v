(** C123: what the f64 pool pays for what it is given. *)
From Coq Require Import ZArith QArith Reals Qreals Lra Lia List Bool String Floats.SpecFloat.
From Flocq Require Import Core.
From Verif Require Import Base FloatBase FloatModel FloatFacts FloatWf FloatLp FloatWit FloatMove PropFlow PropFMove.
Import ListNotations.
Open Scope R_scope.

(** ** C123: the pool pays what the curve gives, so that trading back and forth gains nothing *)
(** The curve: at root price [p] and liquidity [L] the reserves are [L / p] of X and [L * p] of Y.  Adding [d] of X takes the price to [p'] with [L / p' = L / p + d]
    and frees [L * (p - p')] of Y; adding [d] of Y takes it to [p'] with [L * p' = L * p + d] and frees [L / p - L / p'] of X. *)
Definition freed_y (L p d y : R) : Prop := exists p', 0 < p' /\ L / p' = L / p + d /\ y = L * (p - p').
Definition freed_x (L p d x : R) : Prop := exists p', 0 < p' /\ L * p' = L * p + d /\ x = L / p - L / p'.
(** Full claim (false, see [C123_f64_round_trip_refuted]): the pool pays no more than that.  True: no more and no less, up to 8 (9) rounding units of the reserves
    [L * p] ([L / p]), however small the amount itself. *)
Theorem C123_f64_pays_y_partial : forall l rp dx, ordinary l rp dx -> bpow radix2 (-400) <= fval l * fval rp <= bpow radix2 400 ->
  let q := f_dy_from_l_drp l rp (f_rp_new_from_l_dx l rp dx) in
  fok q /\ exists y, freed_y (fval l) (fval rp) (fval dx) y /\ Rabs (- fval q - y) <= 8 * bpow radix2 (-53) * (fval l * fval rp).
Proof.
  intros l rp d (L & P & D & L0 & PB & DB) LP. cbv zeta. destruct (pay_y l rp d L P D L0 PB DB LP) as [Q1 Q2]. split; [exact Q1|]. pose proof small_pos as SP. unfold FloatMove.small in SP.
  assert (X : 0 < / fval rp) by (apply Rinv_0_lt_compat; lra). set (e := / (fval d / fval l + / fval rp)) in *. exists (fval l * (fval rp - e)). split.
  - exists e. split; [unfold e; apply Rinv_0_lt_compat; lra|]. split; [|reflexivity]. unfold e. unfold Rdiv. rewrite Rinv_inv. fold (fval d / fval l). field. lra.
  - unfold u53 in Q2. match goal with |- Rabs ?a <= _ => replace a with (- (fval (f_dy_from_l_drp l rp (f_rp_new_from_l_dx l rp d)) - fval l * (e - fval rp))) by ring end. rewrite Rabs_Ropp. exact Q2.
Qed.
Theorem C123_f64_pays_x_partial : forall l rp dy, ordinary l rp dy -> bpow radix2 (-400) <= fval l / fval rp <= bpow radix2 400 ->
  let q := f_dx_from_l_drp l rp (f_rp_new_from_l_dy l rp dy) in
  fok q /\ exists x, freed_x (fval l) (fval rp) (fval dy) x /\ Rabs (- fval q - x) <= 9 * bpow radix2 (-53) * (fval l / fval rp).
Proof.
  intros l rp d (L & P & D & L0 & PB & DB) LP. cbv zeta. destruct (pay_x l rp d L P D L0 PB DB LP) as [Q1 Q2]. split; [exact Q1|]. pose proof small_pos as SP. unfold FloatMove.small in SP.
  set (e := fval d / fval l + fval rp) in *. assert (E : 0 < e) by (unfold e; lra). exists (fval l / fval rp - fval l / e). split.
  - exists e. split; [exact E|]. split; [|reflexivity]. unfold e. field. lra.
  - unfold u53 in Q2. match goal with |- Rabs ?a <= _ => replace a with (- (fval (f_dx_from_l_drp l rp (f_rp_new_from_l_dy l rp d)) - fval l * (/ e - / fval rp))) by (unfold Rdiv; ring) end. rewrite Rabs_Ropp. exact Q2.
Qed.

(** The pool: price of tick 13863, fee 0.003, no HMM adjustment, one position of 1000 X and 3992 Y.  The table of logarithms gets two more entries. *)
Definition more_ln (lm : libm) (a b : f64) : libm := mkLibm (fun x => if f_same x a then b else m_ln lm x) (m_powf lm).
Lemma more_ok lm a b : libm_ok lm -> f64_ok b -> libm_ok (more_ln lm a b).
Proof. intros [A B] H. split; [|exact B]. intros x X. cbn. destruct (f_same x a); [exact H|exact (A x X)]. Qed.
Definition lm3 : libm := more_ln (more_ln wlm (F 9006912508352751 (-52)) (F 6243028017212701 (-53))) (F 9006912508352750 (-52)) (F 6243028017212700 (-53)).
Lemma lm3_ok : libm_ok lm3.
Proof. apply more_ok; [apply more_ok; [exact wlm_ok|]|]; vm_compute; reflexivity. Qed.
Definition pay_a : f64 := F 8962001547148836 (-52).
Definition pay_b : f64 := F 4526033317186670 (-51).
Definition pay_new : res fpool := fpool_new lm3 (f_int 2) 1 f_zero (F 6917529027641082 (-61)).
Definition pay_p0 : fpool := Eval vm_compute in match pay_new with Ok p => p | _ => nopool end.
Definition pay_p : fpool := Eval vm_compute in match fdeposit lm3 pay_p0 "a" (f_int 1000) (f_int 5000) pay_a pay_b with Ok (p, _, _) => p | _ => nopool end.
Lemma pay_reach : freach lm3 pay_p.
Proof.
  assert (E : exists xd yd, fdeposit lm3 pay_p0 "a" (f_int 1000) (f_int 5000) pay_a pay_b = Ok (pay_p, xd, yd)) by (eexists; eexists; vm_compute; reflexivity). destruct E as (xd & yd & E).
  refine (fr_dep lm3 _ _ _ _ _ _ _ _ _ _ _ _ E); try (vm_compute; reflexivity). assert (N : pay_new = Ok pay_p0) by (vm_compute; reflexivity). refine (fr_new lm3 _ _ _ _ _ _ _ N); vm_compute; reflexivity.
Qed.
(** 2.2 * 10^-11 X in *)
Definition pay_d : f64 := F 6916822041664422 (-88).
Definition pay_1 := Eval vm_compute in fexecute_swap_x lm3 2 pay_p pay_d f_one.
Definition pay_q : fpool := Eval vm_compute in match pay_1 with Ok (p, _) => p | _ => nopool end.
Definition pay_y1 : f64 := Eval vm_compute in match pay_1 with Ok (_, o) => fneg (fso_send o) | _ => f_zero end.
Definition pay_2 := Eval vm_compute in fexecute_swap_y lm3 2 pay_q pay_y1 f_one.
Definition pay_e : fpool := Eval vm_compute in match pay_2 with Ok (p, _) => p | _ => nopool end.
(** A trader puts in [dx], gets Y, puts all of it back in, and has more than 1.99 times the X it started with; the price, the tick and the liquidity are where they were, and the
    pool has less X.  (The fee is 0.3% each way.) *)
Theorem C123_f64_round_trip_refuted : exists lm p dx p1 o1 p2 o2, libm_ok lm /\ freach lm p /\ fok dx /\ 0 < fval dx /\
  fexecute_swap_x lm 2 p dx f_one = Ok (p1, o1) /\ fval (fso_recv o1) = fval dx /\ fexecute_swap_y lm 2 p1 (fneg (fso_send o1)) f_one = Ok (p2, o2) /\ fval (fso_recv o2) = - fval (fso_send o1) /\
  1.99 * fval dx < - fval (fso_send o2) /\ fglbl_rp p2 = fglbl_rp p /\ fglbl_tick p2 = fglbl_tick p /\ fglbl_liq p2 = fglbl_liq p /\ fval (fx p2) < fval (fx p).
Proof.
  assert (A : exists o1, fexecute_swap_x lm3 2 pay_p pay_d f_one = Ok (pay_q, o1) /\ fso_recv o1 = pay_d /\ fneg (fso_send o1) = pay_y1) by (eexists; split; [vm_compute; reflexivity|split; vm_compute; reflexivity]).
  assert (B : exists o2, fexecute_swap_y lm3 2 pay_q pay_y1 f_one = Ok (pay_e, o2) /\ fso_recv o2 = pay_y1 /\ Qle_bool (fq (fso_send o2)) (- (1992 # 1000) * fq pay_d) = true) by (eexists; split; [vm_compute; reflexivity|split; vm_compute; reflexivity]).
  destruct A as (o1 & A & A1 & A2), B as (o2 & B & B1 & B2). exists lm3, pay_p, pay_d, pay_q, o1, pay_e, o2. rewrite A2. split; [exact lm3_ok|]. split; [exact pay_reach|]. split; [split; vm_compute; reflexivity|].
  assert (D : 0 < fval pay_d) by (rewrite fq_val, <- q0; apply Qlt_Rlt; vm_compute; reflexivity). split; [exact D|]. split; [exact A|]. split; [rewrite A1; reflexivity|]. split; [exact B|].
  split; [rewrite B1, <- A2; apply fval_opp|]. split.
  - apply Qle_bool_iff, Qle_Rle in B2. rewrite Q2R_mult, Q2R_opp, <- !fq_val in B2. replace (Q2R (1992 # 1000)) with 1.992 in B2 by (unfold Q2R; cbn; lra). lra.
  - split; [vm_compute; reflexivity|]. split; [vm_compute; reflexivity|]. split; [vm_compute; reflexivity|]. rewrite !fq_val. apply Qlt_Rlt. vm_compute. reflexivity.
Qed.
(** cases: one X and one Y added to that pool *)
Example C123_case : ordinary (fglbl_liq pay_p) (fglbl_rp pay_p) f_one /\ bpow radix2 (-400) <= fval (fglbl_liq pay_p) * fval (fglbl_rp pay_p) <= bpow radix2 400 /\
  bpow radix2 (-400) <= fval (fglbl_liq pay_p) / fval (fglbl_rp pay_p) <= bpow radix2 400.
Proof.
  split; [apply near_ordinary; vm_compute; auto|]. assert (A : fval (fglbl_liq pay_p) <= Q2R 500000) by (apply qge; vm_compute; reflexivity). assert (A' : Q2R 2 <= fval (fglbl_liq pay_p)) by (apply qle; vm_compute; reflexivity).
  assert (B : Q2R 1 <= fval (fglbl_rp pay_p)) by (apply qle; vm_compute; reflexivity). assert (B' : fval (fglbl_rp pay_p) <= Q2R 2) by (apply qge; vm_compute; reflexivity). rewrite q1 in B. rewrite q2 in B', A'. replace (Q2R 500000) with 500000 in A by (unfold Q2R; cbn; lra).
  assert (B1 : 1048576 <= bpow radix2 400) by (change 1048576 with (bpow radix2 20); apply bpow_le; lia). assert (B2 : bpow radix2 (-400) <= 1) by (change 1 with (bpow radix2 0); apply bpow_le; lia).
  set (l := fval (fglbl_liq pay_p)) in *. set (r := fval (fglbl_rp pay_p)) in *. assert (I : / 2 <= / r) by (apply Rinv_le_contravar; lra). assert (I' : / r <= 1) by (rewrite <- Rinv_1; apply Rinv_le_contravar; lra). unfold Rdiv.
  assert (M : forall t, / 2 <= t <= 2 -> 1 <= l * t <= 1048576) by (intros t T; nra). pose proof (M r ltac:(lra)). pose proof (M (/ r) ltac:(lra)). lra.
Qed.
Print Assumptions C123_f64_pays_y_partial.
Print Assumptions C123_f64_pays_x_partial.
Print Assumptions C123_f64_round_trip_refuted.
