(** C122: single price steps of the f64 pool. *)
From Coq Require Import ZArith QArith Reals Qreals Lra Lia List Bool String Floats.SpecFloat.
From Flocq Require Import Core.
From Verif Require Import Base FloatBase FloatModel FloatFacts FloatWf FloatLp FloatWit FloatMove PropFlow.
Import ListNotations.
Open Scope R_scope.

(** ** C122: the price after a step is the price the curve gives, to 4 rounding units (2^-53), and does not move the wrong way *)
(** Prices and amounts per liquidity that are neither astronomically large nor small (2^-400 to 2^400). *)
Definition ordinary (l rp d : f64) : Prop :=
  fok l /\ fok rp /\ fok d /\ 0 < fval l /\ bpow radix2 (-400) <= fval rp <= bpow radix2 400 /\ 0 <= fval d / fval l <= bpow radix2 400.
Theorem C122_f64_step_y : forall l rp dy, ordinary l rp dy -> let q := f_rp_new_from_l_dy l rp dy in let exact := fval rp + fval dy / fval l in
  fok q /\ fval rp <= fval q /\ Rabs (fval q - exact) <= 4 * bpow radix2 (-53) * exact.
Proof.
  intros l rp d (L & P & D & L0 & PB & DB) q ex. destruct (step_y l rp d L P D L0 PB DB) as (A & B & C). split; [exact A|]. split; [exact B|]. unfold ex. rewrite Rplus_comm. eapply Rle_trans; [exact C|].
  pose proof small_pos as S. assert (U := u53_pos). unfold FloatMove.small, u53 in *. apply Rmult_le_compat_r; lra.
Qed.
Theorem C122_f64_step_x : forall l rp dx, ordinary l rp dx -> let q := f_rp_new_from_l_dx l rp dx in let exact := / (/ fval rp + fval dx / fval l) in
  fok q /\ 0 < fval q /\ Rabs (fval q - exact) <= 4 * bpow radix2 (-53) * exact.
Proof. intros l rp d (L & P & D & L0 & PB & DB) q ex. destruct (step_x l rp d L P D L0 PB DB) as (A & B & C & _). unfold ex. rewrite (Rplus_comm (/ fval rp)). split; [exact A|]. split; [exact B|exact C]. Qed.
(** Full claim (false, see [C122_f64_down_refuted]): the same without the last hypothesis, as for Y. *)
Theorem C122_f64_down_partial : forall l rp dx, ordinary l rp dx -> 4 * bpow radix2 (-53) * fval l <= fval dx * fval rp -> fval (f_rp_new_from_l_dx l rp dx) <= fval rp.
Proof. intros l rp d (L & P & D & L0 & PB & DB) H. apply (step_x l rp d L P D L0 PB DB). exact H. Qed.

(** the pool of C119: price of tick 13863, one position; adding 10^-12 X moves the computed price up by one unit *)
Definition dust : f64 := F 4951760157141521 (-92).
Lemma qle a b : Qle_bool a (fq b) = true -> Q2R a <= fval b. Proof. intros H. rewrite fq_val. apply Qle_Rle, Qle_bool_iff, H. Qed.
Lemma qge a b : Qle_bool (fq b) a = true -> fval b <= Q2R a. Proof. intros H. rewrite fq_val. apply Qle_Rle, Qle_bool_iff, H. Qed.
Lemma q1 : Q2R 1 = 1. Proof. unfold Q2R; cbn; lra. Qed.
Lemma q2 : Q2R 2 = 2. Proof. unfold Q2R; cbn; lra. Qed.
Lemma q0 : Q2R 0 = 0. Proof. unfold Q2R; cbn; lra. Qed.
Lemma near_ordinary l rp d : fok l -> fok rp -> fok d -> Qle_bool 1 (fq l) = true -> Qle_bool 1 (fq rp) = true -> Qle_bool (fq rp) 2 = true -> Qle_bool 0 (fq d) = true -> Qle_bool (fq d) 2 = true -> ordinary l rp d.
Proof.
  intros L P D A B C E G. apply qle in A, B, E. apply qge in C, G. rewrite q1 in A, B. rewrite q2 in C, G. rewrite q0 in E.
  assert (B1 : 2 <= bpow radix2 400) by (change 2 with (bpow radix2 1); apply bpow_le; lia). assert (B2 : bpow radix2 (-400) <= 1) by (change 1 with (bpow radix2 0); apply bpow_le; lia).
  unfold ordinary. do 3 (split; [assumption|]). split; [lra|]. split; [lra|]. split; [apply Rmult_le_pos; [lra|apply Rlt_le, Rinv_0_lt_compat; lra]|].
  apply Rle_trans with (fval d); [|lra]. unfold Rdiv. rewrite <- (Rmult_1_r (fval d)) at 2. apply Rmult_le_compat_l; [lra|]. rewrite <- Rinv_1. apply Rinv_le_contravar; lra.
Qed.
Theorem C122_f64_down_refuted : exists l rp dx, ordinary l rp dx /\ 0 < fval dx /\ fval rp < fval (f_rp_new_from_l_dx l rp dx).
Proof.
  exists (fglbl_liq cone_p), (fglbl_rp cone_p), dust. split; [apply near_ordinary; vm_compute; auto|]. rewrite !fq_val. split; [rewrite <- q0|]; apply Qlt_Rlt; vm_compute; reflexivity.
Qed.
(** So the pool refuses that swap, although it fills a larger one in full: the swap panics, whatever the oracle says. *)
Theorem C122_f64_dust_refuted : exists lm p dx, libm_ok lm /\ freach lm p /\ fok dx /\ 0 < fval dx /\
  (forall n o, fexecute_swap_x lm (S n) p dx o = Panic) /\ exists p' out, fexecute_swap_x lm 2 p f_one (f_int 1000) = Ok (p', out) /\ fval (fso_recv out) = 1.
Proof.
  exists wlm, cone_p, dust. split; [exact wlm_ok|]. split; [exact cone_reach|]. split; [split; vm_compute; reflexivity|]. split; [rewrite fq_val, <- q0; apply Qlt_Rlt; vm_compute; reflexivity|]. split.
  - intros n o. assert (E : fswap_within_x wlm cone_p (fglbl_rp cone_p) 13763 (fglbl_liq cone_p) (fsub dust f_zero) o = Panic) by (vm_compute; reflexivity).
    unfold fexecute_swap_x. assert (D0 : fle dust f_zero = false) by (vm_compute; reflexivity). rewrite D0. cbn [fswap_x_loop fl_in fl_t fl_rp]. assert (D1 : flt f_zero dust = true) by (vm_compute; reflexivity). rewrite D1. cbn [negb].
    assert (D2 : flt f_zero (fglbl_liq cone_p) = true) by (vm_compute; reflexivity). rewrite D2. cbn [bind fl_in fl_out fl_adj fl_fee fl_t fl_rp].
    assert (D3 : fget_left_limit cone_p (fglbl_tick cone_p) = Some 13763%Z) by (vm_compute; reflexivity). rewrite D3. unfold fswap_x_step. cbn [fl_in fl_rp]. rewrite E. reflexivity.
  - assert (E : exists p' out, fexecute_swap_x wlm 2 cone_p f_one (f_int 1000) = Ok (p', out) /\ Qeq_bool (fq (fso_recv out)) 1 = true) by (eexists; eexists; split; [vm_compute; reflexivity|vm_compute; reflexivity]).
    destruct E as (p' & out & E & R). exists p', out. split; [exact E|]. rewrite fq_val, (Qeq_eqR _ 1); [exact q1|]. apply Qeq_bool_iff. exact R.
Qed.
(** cases: one X and one Y added to the pool *)
Example C122_case : ordinary (fglbl_liq cone_p) (fglbl_rp cone_p) f_one /\ 4 * bpow radix2 (-53) * fval (fglbl_liq cone_p) <= fval f_one * fval (fglbl_rp cone_p) /\
  fval (f_rp_new_from_l_dx (fglbl_liq cone_p) (fglbl_rp cone_p) f_one) < fval (fglbl_rp cone_p) < fval (f_rp_new_from_l_dy (fglbl_liq cone_p) (fglbl_rp cone_p) f_one).
Proof.
  split; [apply near_ordinary; vm_compute; auto|]. split.
  - assert (A : fval (fglbl_liq cone_p) <= Q2R 500000) by (apply qge; vm_compute; reflexivity). assert (B : Q2R 1 <= fval (fglbl_rp cone_p)) by (apply qle; vm_compute; reflexivity). rewrite q1 in B. rewrite fval_one. fold u53. rewrite u53_val. replace (Q2R 500000) with 500000 in A by (unfold Q2R; cbn; lra). lra.
  - rewrite !fq_val. split; apply Qlt_Rlt; vm_compute; reflexivity.
Qed.
Print Assumptions C122_f64_step_y.
Print Assumptions C122_f64_step_x.
Print Assumptions C122_f64_down_partial.
Print Assumptions C122_f64_down_refuted.
Print Assumptions C122_f64_dust_refuted.
