(** The swap loops of the f64 pool: what a swap leaves unchanged, and how much of the input it can take. *)
From Coq Require Import ZArith Reals Lra Lia List Bool String Floats.SpecFloat.
From Flocq Require Import Core BinarySingleNaN.
From Verif Require Import Base FloatBase FloatModel FloatFacts FloatWf.
Import ListNotations.
Open Scope R_scope.

Lemma add_over a b : fok a -> fok b -> 0 <= fval a -> 0 <= fval b -> top <= Rabs (rnd (fval a + fval b)) -> fadd a b = S754_infinity false.
Proof.
  intros [A FA] [B FB]. bb a A. bb b B. rewrite b_fin in FA, FB. rewrite add_b, !b_val. intros PA PB F.
  pose proof (Bplus_correct 53 1024 _ _ mode_NE ba bb FA FB) as H.
  change (round radix2 fexp64 (round_mode mode_NE) (B2R ba + B2R bb)) with (rnd (B2R ba + B2R bb)) in H.
  rewrite Rlt_bool_false in H by exact F. destruct H as [H S]. rewrite H. unfold binary_overflow, overflow_to_inf. f_equal.
  assert (Z : forall c : bf, 0 <= B2R c -> Bsign c = true -> B2R c = 0).
  { intros c P E. destruct c as [s|s| |s m e ?]; try reflexivity. cbn in E. subst s. exfalso. cbn in P.
    pose proof (F2R_lt_0 radix2 (Float radix2 (Zneg m) e)) as Q. cbn in Q. specialize (Q eq_refl). lra. }
  destruct (Bsign ba) eqn:E; [|reflexivity]. exfalso.
  rewrite (Z ba PA E), (Z bb PB (eq_sym S)), Rplus_0_r, rnd_0, Rabs_R0 in F.
  pose proof (bpow_gt_0 radix2 1024). unfold top in F. lra.
Qed.
Lemma fle_inf d : f_finite d = true -> fle (S754_infinity false) d = false.
Proof. now destruct d as [s|s| |s m e]. Qed.
Lemma fle_nan d : fle S754_nan d = false.
Proof. now destruct d. Qed.
Lemma flt_ninf : flt (S754_infinity true) f_zero = true. Proof. reflexivity. Qed.

(** two amounts that are not negative and whose sum is at most a finite number: both finite *)
Lemma sum_le r f d : f64_ok r -> f64_ok f -> flt r f_zero = false -> flt f f_zero = false -> fok d -> fle (fadd r f) d = true ->
  fok (fadd r f) /\ 0 <= fval (fadd r f) <= fval d /\ fok r /\ fok f /\ 0 <= fval r /\ 0 <= fval f.
Proof.
  intros R F NR NF D H.
  assert (KR : fok r).
  { split; [exact R|]. destruct r as [s|s| |s m e]; try reflexivity; exfalso.
    - destruct D as [_ D], s; [discriminate|]. destruct f as [s|[|]| |s m e], d as [sd|sd| |[|] md ed]; discriminate.
    - destruct f as [s|[|]| |s m e], d as [sd|sd| |sd md ed]; discriminate. }
  assert (KF : fok f).
  { split; [exact F|]. destruct f as [s|s| |s m e]; try reflexivity; exfalso.
    - destruct D as [_ D], s; [discriminate|]. destruct r as [s|[|]| |s m e], d as [sd|sd| |[|] md ed]; discriminate.
    - destruct r as [s|[|]| |s m e], d as [sd|sd| |sd md ed]; discriminate. }
  pose proof (flt_f _ _ KR fok_zero NR) as PR. pose proof (flt_f _ _ KF fok_zero NF) as PF. rewrite fval_zero in PR, PF.
  destruct (Rlt_or_le (Rabs (rnd (fval r + fval f))) top) as [T|T].
  - destruct (add_R' r f KR KF T) as [E1 E2]. split; [exact E1|]. split; [|auto]. split.
    + rewrite E2. apply rnd_ge0. lra.
    + now apply fle_t.
  - rewrite (add_over r f KR KF PR PF T) in H. now rewrite fle_inf in H by apply D.
Qed.

Definition slack : R := (1 + u53) * (1 + u53).
Lemma slack_ge1 : 1 <= slack.
Proof. unfold slack. pose proof u53_pos. nra. Qed.
Lemma slack_top d : 0 <= d <= bpow radix2 1023 -> d * slack < top.
Proof.
  intros [A B]. unfold slack, top. change (bpow radix2 1024) with (bpow radix2 (1 + 1023)). rewrite bpow_plus.
  change (bpow radix2 1) with 2. pose proof (bpow_gt_0 radix2 1023) as P. set (t := bpow radix2 1023) in *. clearbody t.
  pose proof u53_val as U. pose proof u53_pos as UP. assert (u53 <= / 100) by lra. set (u := u53) in *. clearbody u. clear U.
  assert ((1 + u) * (1 + u) <= 11 / 10) by nra. nra.
Qed.

(** the running total of the input after one more step *)
Lemma total_step dx i r f : fok dx -> fval dx <= bpow radix2 1023 -> fok i -> 0 <= fval i < fval dx -> f64_ok r -> f64_ok f ->
  flt r f_zero = false -> flt f f_zero = false -> fle (fadd r f) (fsub dx i) = true ->
  fok (fadd i (fadd r f)) /\ fval i <= fval (fadd i (fadd r f)) <= fval dx * slack.
Proof.
  intros D DT I [I0 I1] R F NR NF H.
  assert (DI : Rabs (rnd (fval dx - fval i)) < top).
  { rewrite Rabs_pos_eq by (apply rnd_ge0; lra). apply Rle_lt_trans with (fval dx).
    - apply Rle_trans with (rnd (fval dx)); [apply rnd_le; lra|]. rewrite rnd_fval by apply D. lra.
    - pose proof (fval_top dx (proj1 D)) as T. rewrite Rabs_pos_eq in T by lra. exact T. }
  destruct (sub_R' dx i D I DI) as [S1 S2].
  destruct (sum_le r f _ R F NR NF S1 H) as (A1 & [A2 A3] & _). rewrite S2 in A3.
  pose proof (minus_err _ _ (fval_fmt dx (proj1 D)) (fval_fmt i (proj1 I))) as ME.
  rewrite (Rabs_pos_eq (fval dx - fval i)) in ME by lra. apply Rabs_le_inv in ME.
  pose proof (plus_err _ _ (fval_fmt i (proj1 I)) (fval_fmt _ (proj1 A1))) as PE.
  set (a := fval (fadd r f)) in *.
  rewrite (Rabs_pos_eq (fval i + a)) in PE by lra. apply Rabs_le_inv in PE.
  assert (U := u53_pos).
  assert (B : fval i + a <= fval dx * (1 + u53)) by nra.
  assert (B2 : rnd (fval i + a) <= fval dx * slack).
  { unfold slack. apply Rle_trans with ((fval i + a) * (1 + u53)); [lra|]. nra. }
  assert (L : fval i <= rnd (fval i + a)).
  { apply Rle_trans with (rnd (fval i)); [rewrite rnd_fval by apply I; lra|]. apply rnd_le. lra. }
  assert (T : Rabs (rnd (fval i + a)) < top).
  { rewrite Rabs_pos_eq by lra. eapply Rle_lt_trans; [exact B2|]. apply slack_top. lra. }
  destruct (add_R' i (fadd r f) I A1 T) as [E1 E2]. split; [exact E1|]. rewrite E2. fold a. lra.
Qed.

(** what a completed swap call guarantees *)
Definition swap_good (amt : f64) (p p' : fpool) (o : fswap_out) : Prop :=
  fpool_ok p' /\ same_book p p' /\
  (fok amt -> fval amt <= bpow radix2 1023 -> fok (fso_recv o) /\ 0 <= fval (fso_recv o) <= fval amt * slack).

Section Lm.
Variable lm : libm.
Hypothesis LM : libm_ok lm.

Definition in_good (amt i : f64) : Prop :=
  fok amt -> fval amt <= bpow radix2 1023 -> 0 < fval amt -> fok i /\ 0 <= fval i <= fval amt * slack.
Lemma in_step amt s s' w : w_ok w -> totals amt s s' w -> flt (fl_in s) amt = true -> in_good amt (fl_in s) -> in_good amt (fl_in s').
Proof.
  intros (W1 & W2 & W3 & W4 & W5 & W6 & W7 & W8 & W9) (T1 & _ & _ & _ & _ & _ & T7) L G A B C.
  destruct (G A B C) as (I1 & I2 & I3). pose proof (flt_t _ _ I1 A L) as I4. rewrite T1.
  destruct (total_step amt (fl_in s) (fw_recv w) (fw_fee w)) as (E1 & E2 & E3); auto. split; [exact E1|]. lra.
Qed.
Lemma fend_x_ok p s p' o : fswap_x_end p s = Ok (p', o) -> p' = p /\ fso_recv o = fl_in s.
Proof.
  unfold fswap_x_end. intros H. mb H. injection H as <- <-. split; [reflexivity|]. unfold fswap_out_new in E.
  repeat match type of E with (if ?b then _ else _) = _ => destruct b; [discriminate|] end. injection E as <-. reflexivity.
Qed.
Lemma fend_y_ok p s p' o : fswap_y_end p s = Ok (p', o) -> p' = p /\ fso_recv o = fl_in s.
Proof.
  unfold fswap_y_end. intros H. mb H. injection H as <- <-. split; [reflexivity|]. unfold fswap_out_new in E.
  repeat match type of E with (if ?b then _ else _) = _ => destruct b; [discriminate|] end. injection E as <-. reflexivity.
Qed.
Lemma floop_x_ok n : forall p s dx o p' out, fpool_ok p -> s_ok s -> f64_ok dx -> f64_ok o -> in_good dx (fl_in s) ->
  fswap_x_loop lm n p s dx o = Ok (p', out) -> fpool_ok p' /\ same_book p p' /\ in_good dx (fso_recv out).
Proof.
  induction n as [|n IH]; intros p s dx o p' out K S D O G H; [discriminate|]. cbn [fswap_x_loop] in H.
  destruct (flt (fl_in s) dx) eqn:L; cbn [negb] in H.
  - mb H. destruct a as [[q g] rp].
    assert (Q : fpool_ok q /\ same_book p q /\ f64_ok rp).
    { destruct (flt f_zero _).
      - injection E as <- <- <-. split; [exact K|]. split; [apply same_refl|apply S].
      - eapply fgir_ok; eassumption. }
    destruct Q as (Q1 & Q2 & Q3). set (s1 := mkFL _ _ _ _ _ _) in H.
    assert (S1 : s_ok s1) by (destruct S as (S1 & S2 & S3 & S4 & S5); unfold s_ok; cbn; auto).
    destruct g as [g|].
    + mb H. destruct a as [q2 s2]. destruct (fstep_x_ok lm LM _ _ _ _ _ _ _ Q1 S1 D O E0) as (A & B & C & w & W & T).
      destruct (IH _ _ _ _ _ _ A C D O (in_step _ _ _ _ W T L G) H) as (R1 & R2 & R3).
      split; [exact R1|]. split; [|exact R3]. eapply same_trans; [exact Q2|]. eapply same_trans; eassumption.
    + apply fend_x_ok in H as [-> ->]. auto.
  - apply fend_x_ok in H as [-> ->]. split; [exact K|]. split; [apply same_refl|exact G].
Qed.
Lemma floop_y_ok n : forall p s dx o p' out, fpool_ok p -> s_ok s -> f64_ok dx -> f64_ok o -> in_good dx (fl_in s) ->
  fswap_y_loop lm n p s dx o = Ok (p', out) -> fpool_ok p' /\ same_book p p' /\ in_good dx (fso_recv out).
Proof.
  induction n as [|n IH]; intros p s dx o p' out K S D O G H; [discriminate|]. cbn [fswap_y_loop] in H.
  destruct (flt (fl_in s) dx) eqn:L; cbn [negb] in H.
  - mb H. destruct a as [[q g] rp].
    assert (Q : fpool_ok q /\ same_book p q /\ f64_ok rp).
    { destruct (flt f_zero _).
      - mb E. injection E as <- <- <-. split; [exact K|]. split; [apply same_refl|apply S].
      - eapply fgir_ok; eassumption. }
    destruct Q as (Q1 & Q2 & Q3). set (s1 := mkFL _ _ _ _ _ _) in H.
    assert (S1 : s_ok s1) by (destruct S as (S1 & S2 & S3 & S4 & S5); unfold s_ok; cbn; auto).
    destruct g as [g|].
    + mb H. destruct a as [q2 s2]. destruct (fstep_y_ok lm LM _ _ _ _ _ _ _ Q1 S1 D O E0) as (A & B & C & w & W & T).
      destruct (IH _ _ _ _ _ _ A C D O (in_step _ _ _ _ W T L G) H) as (R1 & R2 & R3).
      split; [exact R1|]. split; [|exact R3]. eapply same_trans; [exact Q2|]. eapply same_trans; eassumption.
    + apply fend_y_ok in H as [-> ->]. auto.
  - apply fend_y_ok in H as [-> ->]. split; [exact K|]. split; [apply same_refl|exact G].
Qed.
Lemma start_good amt : in_good amt f_zero.
Proof. intros A B C. split; [exact fok_zero|]. rewrite fval_zero. pose proof slack_ge1. nra. Qed.
Lemma fswap_x_good n p dx o p' out : fpool_ok p -> f64_ok dx -> f64_ok o -> fexecute_swap_x lm n p dx o = Ok (p', out) -> swap_good dx p p' out.
Proof.
  intros K D O H. unfold fexecute_swap_x in H. destruct (fle dx f_zero) eqn:L; [discriminate|].
  apply floop_x_ok in H as (A & B & C); auto.
  - split; [exact A|]. split; [exact B|]. intros F T. pose proof (fle_f _ _ F fok_zero L). rewrite fval_zero in *. auto.
  - destruct K as [(K1 & K2 & K3) _ _ _ _ _]. unfold s_ok; cbn. auto 8 with fok.
  - apply start_good.
Qed.
Lemma fswap_y_good n p dx o p' out : fpool_ok p -> f64_ok dx -> f64_ok o -> fexecute_swap_y lm n p dx o = Ok (p', out) -> swap_good dx p p' out.
Proof.
  intros K D O H. unfold fexecute_swap_y in H. destruct (fle dx f_zero) eqn:L; [discriminate|].
  apply floop_y_ok in H as (A & B & C); auto.
  - split; [exact A|]. split; [exact B|]. intros F T. pose proof (fle_f _ _ F fok_zero L). rewrite fval_zero in *. auto.
  - destruct K as [(K1 & K2 & K3) _ _ _ _ _]. unfold s_ok; cbn. auto 8 with fok.
  - apply start_good.
Qed.
End Lm.
