(** C127, continued: swaps of the f64 pool that go past an oracle price close to the pool's. *)
From Coq Require Import ZArith QArith Reals Qreals Lra Lia List Bool String Floats.SpecFloat.
From Flocq Require Import Core.
From Verif Require Import Base FloatBase FloatModel FloatFacts FloatWf FloatLp FloatWit FloatMove PropFlow PropFMove PropFPay PropFNear.
Import ListNotations.
Open Scope R_scope.

(** The library: [wlm] with six more logarithms, and the powers 1, -1 and 2 correctly rounded. *)
Definition thru_ln : libm := more_ln (more_ln (more_ln (more_ln (more_ln (more_ln wlm (F 9006923705356515 (-52)) (F 6243039214565975 (-53))) (F 4504016104364580 (-51)) (F 6244147683641579 (-53))) (F 4506255505117400 (-51)) (F 6248624958041602 (-53))) (F 9006867723412010 (-52)) (F 6242983230734829 (-53))) (F 9002436217760616 (-52)) (F 6238550471385926 (-53))) (F 8984575460006535 (-52)) (F 6220662513153763 (-53)).
Definition thru_lm : libm :=
  mkLibm (m_ln thru_ln) (fun a b => if f_same b f_one then a else if f_same (fneg b) f_one then fdiv f_one a else if f_same b (f_int 2) then fmul a a else m_powf thru_ln a b).
Lemma thru_lm_ok : libm_ok thru_lm.
Proof.
  assert (T : libm_ok thru_ln) by (repeat (apply more_ok; [|vm_compute; reflexivity]); exact wlm_ok).
  destruct T as [A B]. split; [exact A|]. intros a b HA HB. cbn [thru_lm m_powf]. destruct (f_same b f_one); [exact HA|].
  destruct (f_same (fneg b) f_one); [now apply div_ok|]. destruct (f_same b (f_int 2)); [now apply mul_ok|exact (B a b HA HB)].
Qed.
Lemma thru_powers : exact_powers thru_lm.
Proof.
  intros a. assert (A : f_same f_one f_one = true) by (vm_compute; reflexivity). assert (B : f_same (fneg f_one) f_one = false) by (vm_compute; reflexivity).
  assert (C : f_same (fneg (fneg f_one)) f_one = true) by (vm_compute; reflexivity). assert (D : f_same (f_int 2) f_one = false) by (vm_compute; reflexivity).
  assert (E : f_same (fneg (f_int 2)) f_one = false) by (vm_compute; reflexivity). assert (G : f_same (f_int 2) (f_int 2) = true) by (vm_compute; reflexivity).
  cbn [thru_lm m_powf]. rewrite A, B, C, D, E, G. repeat split.
Qed.
(** The pool of [C127_f64_small_adjustment_y_refuted]: 10^9 X, almost 4 * 10^9 Y, C = 2 *)
Definition thru_new : res fpool := fpool_new thru_lm (f_int 2) 1 (f_int 2) (F 6917529027641082 (-61)).
Lemma thru_reach : freach thru_lm near_p.
Proof.
  assert (E : exists xd yd, fdeposit thru_lm near_p0 "a" (f_int 1000000000) (f_int 5000000000) pay_a pay_b = Ok (near_p, xd, yd)) by (eexists; eexists; vm_compute; reflexivity). destruct E as (xd & yd & E).
  refine (fr_dep thru_lm _ _ _ _ _ _ _ _ _ _ _ _ E); try (vm_compute; reflexivity). assert (N : thru_new = Ok near_p0) by (vm_compute; reflexivity). refine (fr_new thru_lm _ _ _ _ _ _ _ N); vm_compute; reflexivity.
Qed.
(** the amounts: a thousandth, a tenth and half of the X in the pool *)
Definition thru_amount (d : f64) : Prop := d = f_int 1000000 \/ d = f_int 100000000 \/ d = f_int 500000000.
(** The oracle root price is 1.99993635, and that of the pool 10^-8 of it lower, which is where arbitrage keeps it.  The adjustment is due only up to the oracle price, so that it is small
    for every swap that goes past it, however large the swap: all these amounts of Y are refused, and all go through if the oracle price is one and nothing is held back. *)
Theorem C127_f64_past_oracle_y_refuted : exists lm p o, libm_ok lm /\ exact_powers lm /\ freach lm p /\ f_c p = f_int 2 /\ 0 < fval o - fval (fglbl_rp p) < / 10000000 /\
  forall d, thru_amount d -> (forall n, fexecute_swap_y lm (S n) p d o = Panic) /\
    exists q r, fexecute_swap_y lm 2 p d f_one = Ok (q, r) /\ fso_recv r = d /\ fval o < fval (fglbl_rp q).
Proof.
  exists thru_lm, near_p, near_up. split; [exact thru_lm_ok|]. split; [exact thru_powers|]. split; [exact thru_reach|]. split; [reflexivity|]. split.
  { assert (A : (fq (fglbl_rp near_p) < fq near_up)%Q) by (vm_compute; reflexivity). assert (B : (fq near_up < fq (fglbl_rp near_p) + (1 # 10000000))%Q) by (vm_compute; reflexivity).
    apply Qlt_Rlt in A. apply Qlt_Rlt in B. rewrite Q2R_plus in B. rewrite <- !fq_val in *. replace (Q2R (1 # 10000000)) with (/ 10000000) in B by (unfold Q2R; cbn [Qnum Qden]; lra). lra. }
  intros d [-> | [-> | ->]]; (split; [intros n; vm_compute; reflexivity|]); eexists; eexists; (split; [vm_compute; reflexivity|]; split; [vm_compute; reflexivity|]; rewrite !fq_val; apply Qlt_Rlt; vm_compute; reflexivity).
Qed.
(** The same amounts of X, with the oracle root price 1.99993632; they go through if the oracle price is 9. *)
Definition thru_down : f64 := F 9006912465516721 (-52).
Theorem C127_f64_past_oracle_x_refuted : exists lm p o, libm_ok lm /\ exact_powers lm /\ freach lm p /\ f_c p = f_int 2 /\ 0 < fval (fglbl_rp p) - fval o < / 10000000 /\
  forall d, thru_amount d -> (forall n, fexecute_swap_x lm (S n) p d o = Panic) /\
    exists q r, fexecute_swap_x lm 2 p d (f_int 3) = Ok (q, r) /\ fso_recv r = d /\ fval (fglbl_rp q) < fval o.
Proof.
  exists thru_lm, near_p, thru_down. split; [exact thru_lm_ok|]. split; [exact thru_powers|]. split; [exact thru_reach|]. split; [reflexivity|]. split.
  { assert (A : (fq thru_down < fq (fglbl_rp near_p))%Q) by (vm_compute; reflexivity). assert (B : (fq (fglbl_rp near_p) < fq thru_down + (1 # 10000000))%Q) by (vm_compute; reflexivity).
    apply Qlt_Rlt in A. apply Qlt_Rlt in B. rewrite Q2R_plus in B. rewrite <- !fq_val in *. replace (Q2R (1 # 10000000)) with (/ 10000000) in B by (unfold Q2R; cbn [Qnum Qden]; lra). lra. }
  intros d [-> | [-> | ->]]; (split; [intros n; vm_compute; reflexivity|]); eexists; eexists; (split; [vm_compute; reflexivity|]; split; [vm_compute; reflexivity|]; rewrite !fq_val; apply Qlt_Rlt; vm_compute; reflexivity).
Qed.
Print Assumptions C127_f64_past_oracle_y_refuted.
Print Assumptions C127_f64_past_oracle_x_refuted.
