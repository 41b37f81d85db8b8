(** C124: swaps of the f64 pool that stay in the current range. *)
From Coq Require Import ZArith QArith Reals Qreals Lra Lia List Bool String Floats.SpecFloat.
From Flocq Require Import Core.
From Verif Require Import Base FloatBase FloatModel FloatFacts FloatWf FloatLp FloatWit FloatMove FloatFill PropFlow PropFMove PropFPay.
Import ListNotations.
Open Scope R_scope.

(** ** C124: a swap that stays in the current range is filled in full *)
(** one rounding unit *)
Definition ulp1 : R := bpow radix2 (-53).
(** numbers that are neither astronomically large nor small *)
Definition plain (x : f64) : Prop := fok x /\ bpow radix2 (-400) <= fval x <= bpow radix2 400.
Definition mid (x : R) : Prop := bpow radix2 (-400) <= x <= bpow radix2 400.
(** The pool has liquidity, no HMM adjustment, a fee of at most 40% and plain numbers. *)
Record calm (p : fpool) (d : f64) : Prop :=
  { cm_liq : fok (fglbl_liq p) /\ 0 < fval (fglbl_liq p); cm_rp : plain (fglbl_rp p); cm_d : plain d; cm_fee : fok (f_fee_rate p) /\ 0 <= fval (f_fee_rate p) <= 2 / 5;
    cm_c : feq (f_c p) f_zero = true; cm_t : fval d / fval (fglbl_liq p) <= bpow radix2 400 }.
(** What the curve frees ([freed_x], [freed_y] of C123), plus 16 rounding units of the range's reserve, is in the pool's reserve. *)
Definition covered (pot : f64) (freed reserve : R) : Prop := fok pot /\ freed + 16 * ulp1 * reserve <= fval pot <= bpow radix2 400.

(** Y: the next tick in use to the right is [g], and the price the curve gives is below the price of [g] by 16 rounding units of it *)
Theorem C124_f64_fill_y : forall lm p d o g n x, let l := fval (fglbl_liq p) in let rp := fval (fglbl_rp p) in let rg := f_tick_to_rp lm g in
  calm p d -> fget_right_limit p (fglbl_tick p) (fglbl_tick p) = Ok (Some g) -> plain rg -> mid (l / rp) -> mid (l * fval rg) ->
  rp + fval d / l <= (1 - 16 * ulp1) * fval rg -> freed_x l rp (fval d) x -> covered (fx p) x (l / rp) ->
  exists p' out, fexecute_swap_y lm (S (S n)) p d o = Ok (p', out) /\ fval (fso_recv out) = fval d /\ 0 <= - fval (fso_send out) <= x + 16 * ulp1 * (l / rp).
Proof.
  intros lm p d o g n x l rp rg [(L & L0) (P & PB) (D & DB) (R & RB) C TB] GL (G & GB) LP LG MG (p' & P0 & PE & XE) (X & X1 & X2).
  assert (LN : 0 < l) by exact L0. assert (E : p' = rp + fval d / l). { apply Rmult_eq_reg_l with l; [|lra]. rewrite PE. field. lra. }
  assert (XV : x = l * (/ rp - / (rp + fval d / l))) by (rewrite <- E; subst x; unfold Rdiv; ring). change ulp1 with u53 in *.
  assert (W : exists w, fswap_within_y lm p (fglbl_rp p) g (fglbl_liq p) d o = Ok w /\ takes_all d (fmul d (fsub f_one (f_fee_rate p))) (fx p) (x + 16 * u53 * (l / rp)) w).
  { rewrite XV. apply within_y_fill; auto; try lra; try apply GB; try apply LG. fold l rp. rewrite <- XV. exact X1. }
  assert (LQ : flt f_zero (fglbl_liq p) = true) by (apply flt_yes; [exact fok_zero|exact L|rewrite fval_zero; exact L0]).
  destruct (fill_y lm p d o n g _ D R DB RB X X2 LQ GL W) as (q & out & Q1 & Q2 & Q3). exists q, out. split; [exact Q1|]. split; [exact Q2|]. lra.
Qed.
(** X: the next tick in use at or to the left of the current one is [g]; the amount is at least 8 rounding units of the liquidity over the price (below that the swap may panic: C122) *)
Theorem C124_f64_fill_x_partial : forall lm p d o g n y, let l := fval (fglbl_liq p) in let rp := fval (fglbl_rp p) in let rg := f_tick_to_rp lm g in
  calm p d -> fget_left_limit p (fglbl_tick p) = Some g -> plain rg -> mid (l * rp) -> mid (l / fval rg) ->
  / rp + fval d / l <= (1 - 16 * ulp1) * / fval rg -> 8 * ulp1 * l <= fval d * rp -> freed_y l rp (fval d) y -> covered (fy p) y (l * rp) ->
  exists p' out, fexecute_swap_x lm (S (S n)) p d o = Ok (p', out) /\ fval (fso_recv out) = fval d /\ 0 <= - fval (fso_send out) <= y + 16 * ulp1 * (l * rp).
Proof.
  intros lm p d o g n y l rp rg [(L & L0) (P & PB) (D & DB) (R & RB) C TB] GL (G & GB) LP LG MG DU (p' & P0 & PE & XE) (X & X1 & X2).
  assert (LN : 0 < l) by exact L0. pose proof small_pos as SP. unfold FloatMove.small in SP. assert (RP0 : 0 < rp) by (unfold rp; lra).
  assert (E : / rp + fval d / l = / p'). { apply Rmult_eq_reg_l with l; [|lra]. unfold Rdiv in PE. rewrite PE. field. lra. }
  assert (XV : y = l * (rp - / (/ rp + fval d / l))) by (rewrite E, Rinv_inv; exact XE). change ulp1 with u53 in *.
  assert (W : exists w, fswap_within_x lm p (fglbl_rp p) g (fglbl_liq p) d o = Ok w /\ takes_all d (fmul d (fsub f_one (f_fee_rate p))) (fy p) (y + 16 * u53 * (l * rp)) w).
  { rewrite XV. apply within_x_fill; auto; try lra; try apply GB; try apply LG. fold l rp. rewrite <- XV. exact X1. }
  assert (LQ : flt f_zero (fglbl_liq p) = true) by (apply flt_yes; [exact fok_zero|exact L|rewrite fval_zero; exact L0]).
  destruct (fill_x lm p d o n g _ D R DB RB X X2 LQ GL W) as (q & out & Q1 & Q2 & Q3). exists q, out. split; [exact Q1|]. split; [exact Q2|]. lra.
Qed.

(** cases: in the pool of C123 (about 1000 X and 3998 Y in one range, price of tick 13863), one X and one Y *)
Lemma fq_rat a v : Qeq_bool (fq a) v = true -> fval a = Q2R v. Proof. intros H. rewrite fq_val. apply Qeq_eqR, Qeq_bool_iff, H. Qed.
Lemma plain_of a b c : fok a -> Qle_bool b (fq a) = true -> Qle_bool (fq a) c = true -> Qle_bool (1 # 1048576) b = true -> Qle_bool c 1048576 = true -> plain a.
Proof.
  intros A B C B' C'. split; [exact A|]. apply qle in B. apply qge in C. apply Qle_bool_iff, Qle_Rle in B'. apply Qle_bool_iff, Qle_Rle in C'.
  assert (B1 : 1048576 <= bpow radix2 400) by (change 1048576 with (bpow radix2 20); apply bpow_le; lia). assert (B2 : bpow radix2 (-400) <= / 1048576) by (change (/ 1048576) with (bpow radix2 (-20)); apply bpow_le; lia).
  replace (Q2R (1 # 1048576)) with (/ 1048576) in B' by (unfold Q2R; cbn; lra). replace (Q2R 1048576) with 1048576 in C' by (unfold Q2R; cbn; lra). lra.
Qed.
Lemma calm_one : calm pay_p f_one.
Proof.
  assert (A : fok (fglbl_liq pay_p)) by (split; vm_compute; reflexivity). assert (A1 : Q2R 400000 <= fval (fglbl_liq pay_p)) by (apply qle; vm_compute; reflexivity). replace (Q2R 400000) with 400000 in A1 by (unfold Q2R; cbn; lra).
  constructor.
  - split; [exact A|lra].
  - apply (plain_of _ 1 2); try (split; vm_compute; reflexivity); vm_compute; reflexivity.
  - apply (plain_of _ 1 2); try (split; vm_compute; reflexivity); vm_compute; reflexivity.
  - split; [split; vm_compute; reflexivity|]. split; [rewrite <- q0; apply qle; vm_compute; reflexivity|]. replace (2 / 5) with (Q2R (2 # 5)) by (unfold Q2R; cbn; lra). apply qge. vm_compute. reflexivity.
  - vm_compute. reflexivity.
  - rewrite fval_one. assert (1 <= bpow radix2 400) by (change 1 with (bpow radix2 0); apply bpow_le; lia). apply Rle_trans with 1; [|lra]. unfold Rdiv. rewrite Rmult_1_l, <- Rinv_1. apply Rinv_le_contravar; lra.
Qed.
Lemma one_nums : let l := fval (fglbl_liq pay_p) in let rp := fval (fglbl_rp pay_p) in 400000 <= l <= 402000 /\ 1.9999 <= rp <= 2 /\ 1.98 <= fval (f_tick_to_rp lm3 13763) <= 1.99 /\ 2.005 <= fval (f_tick_to_rp lm3 13963) <= 2.02 /\
  900 <= fval (fx pay_p) <= 10000 /\ 900 <= fval (fy pay_p) <= 10000.
Proof.
  cbv zeta. replace 400000 with (Q2R 400000) by (unfold Q2R; cbn; lra). replace 402000 with (Q2R 402000) by (unfold Q2R; cbn; lra). replace 1.9999 with (Q2R (19999 # 10000)) by (unfold Q2R; cbn; lra). replace 2 with (Q2R 2) at 1 by (unfold Q2R; cbn; lra).
  replace 1.98 with (Q2R (198 # 100)) by (unfold Q2R; cbn; lra). replace 1.99 with (Q2R (199 # 100)) by (unfold Q2R; cbn; lra). replace 2.005 with (Q2R (2005 # 1000)) by (unfold Q2R; cbn; lra). replace 2.02 with (Q2R (202 # 100)) by (unfold Q2R; cbn; lra).
  replace 900 with (Q2R 900) by (unfold Q2R; cbn; lra). replace 10000 with (Q2R 10000) by (unfold Q2R; cbn; lra).
  repeat split; try (apply qle; vm_compute; reflexivity); apply qge; vm_compute; reflexivity.
Qed.
Lemma mid_of x : / 1048576 <= x <= 1048576 -> mid x.
Proof.
  intros H. assert (B1 : 1048576 <= bpow radix2 400) by (change 1048576 with (bpow radix2 20); apply bpow_le; lia). assert (B2 : bpow radix2 (-400) <= / 1048576) by (change (/ 1048576) with (bpow radix2 (-20)); apply bpow_le; lia). unfold mid. lra.
Qed.
Lemma big_of x : x <= 1048576 -> x <= bpow radix2 400. Proof. intros H. assert (B1 : 1048576 <= bpow radix2 400) by (change 1048576 with (bpow radix2 20); apply bpow_le; lia). lra. Qed.
Example C124_case_y : let l := fval (fglbl_liq pay_p) in let rp := fval (fglbl_rp pay_p) in let rg := f_tick_to_rp lm3 13963 in exists x,
  calm pay_p f_one /\ fget_right_limit pay_p (fglbl_tick pay_p) (fglbl_tick pay_p) = Ok (Some 13963%Z) /\ plain rg /\ mid (l / rp) /\ mid (l * fval rg) /\
  rp + fval f_one / l <= (1 - 16 * ulp1) * fval rg /\ freed_x l rp (fval f_one) x /\ covered (fx pay_p) x (l / rp).
Proof.
  destruct one_nums as (A & B & _ & C & D & _). cbv zeta in *. assert (RG : fok (f_tick_to_rp lm3 13963)) by (split; vm_compute; reflexivity). assert (FX : fok (fx pay_p)) by (split; vm_compute; reflexivity).
  set (rg := f_tick_to_rp lm3 13963) in *. assert (PG : plain rg). { split; [exact RG|]. apply mid_of. lra. } clearbody rg. rewrite fval_one. pose proof calm_one as K.
  assert (GL : fget_right_limit pay_p (fglbl_tick pay_p) (fglbl_tick pay_p) = Ok (Some 13963%Z)) by (vm_compute; reflexivity). set (l := fval (fglbl_liq pay_p)) in *. set (rp := fval (fglbl_rp pay_p)) in *. clearbody l rp.
  assert (IL : 0 < 1 / l <= / 400000). { unfold Rdiv. rewrite Rmult_1_l. split; [apply Rinv_0_lt_compat; lra|apply Rinv_le_contravar; lra]. } assert (IR : / 2 <= / rp <= 1). { split; [apply Rinv_le_contravar; lra|rewrite <- Rinv_1; apply Rinv_le_contravar; lra]. }
  assert (LR : 1 <= l / rp <= 402000). { unfold Rdiv. nra. } assert (U : 0 < ulp1 < / 1000000000). { change ulp1 with u53. rewrite u53_val. lra. }
  set (p' := rp + 1 / l). assert (P' : 0 < p') by (unfold p'; lra). exists (l / rp - l / p').
  split; [exact K|]. split; [exact GL|]. split; [exact PG|]. split; [apply mid_of; lra|]. split; [apply mid_of; split; [apply Rle_trans with (400000 * 2.005); [lra|apply Rmult_le_compat; lra]|apply Rle_trans with (402000 * 2.02); [apply Rmult_le_compat; lra|lra]]|].
  assert (UG : ulp1 * fval rg <= / 1000000000 * 2.02) by (apply Rmult_le_compat; lra). split; [unfold p'; lra|]. split.
  - exists p'. split; [exact P'|]. split; [unfold p'; field; lra|reflexivity].
  - split; [exact FX|]. split; [|apply big_of; lra]. assert (V : l / rp - l / p' <= 1). { replace (l / rp - l / p') with (/ rp * / p'). - assert (/ p' <= 1) by (rewrite <- Rinv_1; apply Rinv_le_contravar; unfold p'; lra). assert (0 < / p') by (apply Rinv_0_lt_compat; lra). nra.
      - unfold p'. field. repeat split; try lra. assert (0 < rp * l) by nra. nra. }
    nra.
Qed.
Example C124_case_x : let l := fval (fglbl_liq pay_p) in let rp := fval (fglbl_rp pay_p) in let rg := f_tick_to_rp lm3 13763 in exists y,
  calm pay_p f_one /\ fget_left_limit pay_p (fglbl_tick pay_p) = Some 13763%Z /\ plain rg /\ mid (l * rp) /\ mid (l / fval rg) /\
  / rp + fval f_one / l <= (1 - 16 * ulp1) * / fval rg /\ 8 * ulp1 * l <= fval f_one * rp /\ freed_y l rp (fval f_one) y /\ covered (fy pay_p) y (l * rp).
Proof.
  destruct one_nums as (A & B & C & _ & _ & D). cbv zeta in *. assert (RG : fok (f_tick_to_rp lm3 13763)) by (split; vm_compute; reflexivity). assert (FX : fok (fy pay_p)) by (split; vm_compute; reflexivity).
  set (rg := f_tick_to_rp lm3 13763) in *. assert (PG : plain rg). { split; [exact RG|]. apply mid_of. lra. } clearbody rg. rewrite fval_one. pose proof calm_one as K.
  assert (GL : fget_left_limit pay_p (fglbl_tick pay_p) = Some 13763%Z) by (vm_compute; reflexivity). set (l := fval (fglbl_liq pay_p)) in *. set (rp := fval (fglbl_rp pay_p)) in *. clearbody l rp. set (z := fval rg) in *. clearbody z.
  assert (IL : 0 < 1 / l <= / 400000). { unfold Rdiv. rewrite Rmult_1_l. split; [apply Rinv_0_lt_compat; lra|apply Rinv_le_contravar; lra]. } assert (IR : / 2 <= / rp <= / 1.9999). { split; apply Rinv_le_contravar; lra. } assert (IZ : / 1.99 <= / z <= 1). { split; [apply Rinv_le_contravar; lra|rewrite <- Rinv_1; apply Rinv_le_contravar; lra]. }
  assert (LR : 1 <= l / z <= 402000). { unfold Rdiv. nra. } assert (U : 0 < ulp1 < / 1000000000). { change ulp1 with u53. rewrite u53_val. lra. }
  set (t := / rp + 1 / l). assert (T : 0 < t) by (unfold t; lra). exists (l * (rp - / t)).
  split; [exact K|]. split; [exact GL|]. split; [exact PG|]. split; [apply mid_of; split; [apply Rle_trans with (400000 * 1.9999); [lra|apply Rmult_le_compat; lra]|apply Rle_trans with (402000 * 2); [apply Rmult_le_compat; lra|lra]]|]. split; [apply mid_of; lra|].
  assert (UL : ulp1 * l <= / 1000000000 * 402000) by (apply Rmult_le_compat; lra). split; [|split; [lra|split]].
  - apply Rle_trans with (/ 1.99 - 16 * ulp1); [unfold t; lra|]. assert (ulp1 * / z <= ulp1 * 1) by (apply Rmult_le_compat_l; lra). lra.
  - exists (/ t). split; [apply Rinv_0_lt_compat; exact T|]. split; [|reflexivity]. unfold Rdiv. rewrite Rinv_inv. unfold t. field. lra.
  - split; [exact FX|]. split; [|apply big_of; lra]. assert (V : l * (rp - / t) <= 4). { replace (l * (rp - / t)) with (rp * / t). - assert (/ t <= / (/ 2)) by (apply Rinv_le_contravar; unfold t; lra). assert (0 < / t) by (apply Rinv_0_lt_compat; lra). rewrite Rinv_inv in *. nra.
      - unfold t. field. repeat split; lra. }
    nra.
Qed.
Print Assumptions C124_f64_fill_y.
Print Assumptions C124_f64_fill_x_partial.
