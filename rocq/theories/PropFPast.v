(** C126, continued: steps of f64 swaps that go past the oracle price, with C other than 1. *)
From Coq Require Import ZArith QArith Reals Qreals Lra Lia List Bool String Floats.SpecFloat.
From Flocq Require Import Core.
From Verif Require Import Base FloatBase FloatModel FloatFacts FloatWf FloatLp FloatFee FloatLog FloatLib FloatMove FloatCurve FloatPower PropFlow PropFMove PropFCurve PropFPower FloatNear.
Import ListNotations.
Open Scope R_scope.

Lemma past_y lm p st g l d o w : fok st -> fok o -> fok (fw_rp w) -> feq (f_c p) f_zero = false -> fswap_within_y lm p st g l d o = Ok w -> fval st < fval o <= fval (fw_rp w) ->
  fw_send w = fmul (fadd (f_dx_from_l_drp_hmm lm l st o (f_c p) o) (f_dx_from_l_drp l o (fw_rp w))) (fsub f_one f_adj).
Proof.
  intros ST O EF C0 H [SO OW]. unfold fswap_within_y in H.
  destruct (fle d f_zero); [discriminate|]. destruct (flt (f_tick_to_rp lm g) st); [discriminate|]. destruct (flt (f_dy_from_l_drp _ _ _) f_zero); [discriminate|].
  mb H. destruct a as [[[[dn fe] cr] et] er]. clear E. mb H. rename a into dx.
  assert (ER : fw_rp w = er /\ fw_send w = fmul dx (fsub f_one f_adj)).
  { destruct (flt f_zero _); [discriminate|]. destruct (flt (fsub _ _) f_zero); [discriminate|]. destruct (flt (fadd (fx p) _) _); [discriminate|].
    unfold fwithin_new in H. repeat match type of H with (if ?b then Panic else _) = _ => destruct b; [discriminate|] end. injection H as <-. auto. }
  clear H. destruct ER as [ER ->]. rewrite ER in *. clear ER.
  assert (L1 : fle o st = false) by (rewrite fle_R by assumption; apply Rle_bool_false; lra).
  assert (L2 : flt st o = true) by (rewrite flt_R by assumption; apply Rlt_bool_true; lra).
  assert (L3 : fle o er = true) by (rewrite fle_R by assumption; apply Rle_bool_true; lra).
  rewrite C0, L1, L2, L3 in E. cbn [orb andb] in E. injection E as <-. reflexivity.
Qed.
Lemma past_x lm p st g l d o w : fok st -> fok o -> fok (fw_rp w) -> feq (f_c p) f_zero = false -> fswap_within_x lm p st g l d o = Ok w -> fval (fw_rp w) <= fval o < fval st ->
  fw_send w = fmul (fadd (f_dy_from_l_drp_hmm lm l st o (f_c p) o) (f_dy_from_l_drp l o (fw_rp w))) (fsub f_one f_adj).
Proof.
  intros ST O EF C0 H [OW SO]. unfold fswap_within_x in H.
  destruct (fle d f_zero); [discriminate|]. destruct (flt st (f_tick_to_rp lm g)); [discriminate|]. destruct (flt (f_dx_from_l_drp _ _ _) f_zero); [discriminate|].
  mb H. destruct a as [[[[dn fe] cr] et] er]. clear E. mb H. rename a into dy.
  assert (ER : fw_rp w = er /\ fw_send w = fmul dy (fsub f_one f_adj)).
  { destruct (flt f_zero _); [discriminate|]. destruct (flt (fsub _ _) f_zero); [discriminate|]. destruct (flt (fadd (fy p) _) _); [discriminate|].
    unfold fwithin_new in H. repeat match type of H with (if ?b then Panic else _) = _ => destruct b; [discriminate|] end. injection H as <-. auto. }
  clear H. destruct ER as [ER ->]. rewrite ER in *. clear ER.
  assert (L1 : fle st o = false) by (rewrite fle_R by assumption; apply Rle_bool_false; lra).
  assert (L2 : flt o st = true) by (rewrite flt_R by assumption; apply Rlt_bool_true; lra).
  assert (L3 : fle er o = true) by (rewrite fle_R by assumption; apply Rle_bool_true; lra).
  rewrite C0, L1, L2, L3 in E. cbn [orb andb] in E. injection E as <-. reflexivity.
Qed.
(** the constant product quote from [o] down to [e], against the size [l * o] *)
Lemma flat_quote_y l o e : fok l -> fok o -> fok e -> 0 < fval l -> FloatMove.small <= fval o <= big -> 0 < fval e <= fval o -> FloatMove.small <= fval l * fval o <= big ->
  fok (f_dy_from_l_drp l o e) /\ Rabs (fval (f_dy_from_l_drp l o e) - fval l * (fval e - fval o)) <= 6 * u53 * (fval l * fval o).
Proof.
  intros L O E L0 OB EB LP. pose proof small_pos as SP. assert (U := u53_tiny). pose proof big_ge as BG. unfold f_dy_from_l_drp. assert (UO := ule (fval o) ltac:(lra)).
  destruct (scaled l e o (fval o) (fval e - fval o) 0) as [Q1 Q2]; auto; try lra.
  - apply Rabs_le. lra.
  - rewrite Rminus_diag_eq, Rabs_R0 by reflexivity. lra.
  - split; [exact Q1|]. assert (UL := ule (fval l * fval o) ltac:(lra)). eapply Rle_trans; [exact Q2|]. lra.
Qed.
Lemma scale_top K X1 X2 w : usual K -> usual X1 -> usual X2 -> bpow radix2 (-60) <= Rabs w <= 1 -> K * (X1 + X2) / Rabs w <= bpow radix2 261.
Proof.
  intros KU U1 U2 W. pose proof (bpow_gt_0 radix2 (-60)) as P60. pose proof (bpow_gt_0 radix2 (-100)) as P100.
  assert (MB : bpow radix2 (-100) <= X1 + X2 <= bpow radix2 101). { replace 101%Z with (1 + 100)%Z by reflexivity. rewrite bpow_plus. change (bpow radix2 1) with 2. destruct U1, U2. lra. }
  assert (ZB : 0 <= K * (X1 + X2) <= bpow radix2 201).
  { replace 201%Z with (100 + 101)%Z by reflexivity. rewrite !bpow_plus. destruct KU. split; [apply Rmult_le_pos; lra|apply Rmult_le_compat; lra]. }
  assert (I1 : 0 <= / Rabs w) by (left; apply Rinv_0_lt_compat; lra).
  assert (I2 : / Rabs w <= bpow radix2 60). { assert (X : bpow radix2 60 = / bpow radix2 (-60)) by exact (bpow_opp radix2 (-60)). rewrite X. apply Rinv_le_contravar; lra. }
  replace 261%Z with (201 + 60)%Z by reflexivity. rewrite bpow_plus. unfold Rdiv. apply Rmult_le_compat; lra.
Qed.
(** the two quotes added *)
Lemma both_parts q f x1 x2 S T : fok q -> fok f -> FloatMove.small <= S <= bpow radix2 261 -> usual T -> Rabs x1 <= S -> 0 <= x2 <= T -> Rabs (- fval q - x1) <= 10 * u53 * S -> Rabs (fval f + x2) <= 6 * u53 * T ->
  Rabs (- fval (fmul (fadd q f) (fsub f_one f_adj)) - (1 - / 1000000000000) * (x1 + x2)) <= 28 * u53 * (S + T).
Proof.
  intros Q F SB TU X1 X2 E1 E2. destruct (usual_small _ TU) as [TS T0]. pose proof small_pos as SP. pose proof big_ge as BG. assert (U := u53_tiny).
  assert (TB : T <= bpow radix2 261) by (apply Rle_trans with (bpow radix2 100); [apply TU|apply bpow_le; lia]).
  assert (B8 : bpow radix2 261 * 8 <= big). { assert (X3 : bpow radix2 264 = bpow radix2 261 * bpow radix2 3) by exact (bpow_plus radix2 261 3). change (bpow radix2 3) with 8 in X3. rewrite <- X3. apply bpow_le. lia. }
  assert (US := ule S ltac:(lra)). assert (UT := ule T ltac:(lra)). apply Rabs_le_inv in X1. apply Rabs_le_inv in E1. apply Rabs_le_inv in E2.
  assert (SM : Rabs (fval q + fval f) <= 1.1 * (S + T)) by (apply Rabs_le; lra).
  destruct (sum_err q f Q F ltac:(lra)) as [A1 A2]. pose proof (eta_small S ltac:(lra)) as ET. assert (A3 : u53 * Rabs (fval q + fval f) <= u53 * (1.1 * (S + T))) by (apply Rmult_le_compat_l; lra). apply Rabs_le_inv in A2.
  replace (28 * u53 * (S + T)) with (14 * u53 * (2 * (S + T))) by ring. apply kept_of; [exact A1|lra|apply Rabs_le; lra|]. apply Rabs_le. lra.
Qed.

(** A step that goes past the oracle price [o]: the curve up to it, the constant product from there on, less the pool's allowance of 10^-12. *)
Theorem C126_f64_power_past_y : forall lm p st g l d o w, let c := f_c p in libm_pow lm -> power_c c -> fok st -> fok l -> fok o -> fok (fw_rp w) -> 0 < fval l -> usual (fval o) -> usual (fval st) -> usual (fval (fw_rp w)) ->
  let K := fval l / Rpower (fval o) (fval c) in usual K -> usual (fval l / fval o) -> fswap_within_y lm p st g l d o = Ok w -> fval st < fval o <= fval (fw_rp w) ->
  exists x1, pow_curve K (fval c - 2) (fval st) (fval o) x1 /\ let x := x1 + (fval l / fval o - fval l / fval (fw_rp w)) in
    Rabs (- fval (fw_send w) - (1 - / 1000000000000) * x) <= 28 * unit53 * (K * (Rpower (fval o) (fval c - 1) + Rpower (fval st) (fval c - 1)) / Rabs (1 - fval c) + fval l / fval o).
Proof.
  intros lm p st g l d o w c LP PC ST L O E L0 OU SU EU K KU TU H OW. rewrite (past_y lm p st g l d o w ST O E (not_zero _ PC) H OW). clear H.
  destruct (C126_f64_power_quote_x lm l o c st o LP PC L O ST O L0 OU SU OU KU) as (N1 & x & N2 & N3 & N4). destruct PC as (CF & CB & CD). fold c. exists x. split; [exact N2|]. cbv zeta.
  destruct (usual_small _ OU) as [OS O0], (usual_small _ EU) as [ES E0], (usual_small _ TU) as [TS T0]. destruct (flat_quote l o (fw_rp w) L O E L0 ltac:(lra) ltac:(lra) TS) as [F1 F2].
  assert (W : bpow radix2 (-60) <= Rabs (1 - fval c) <= 1) by (split; [exact CD|apply Rabs_le; lra]).
  assert (P1 : usual (Rpower (fval o) (fval c - 1))) by (apply (rp_mid _ _ 1 OU); [lia|apply Rabs_le; lra]). assert (P2 : usual (Rpower (fval st) (fval c - 1))) by (apply (rp_mid _ _ 1 SU); [lia|apply Rabs_le; lra]).
  apply both_parts; auto.
  - split; [apply (scale_mid _ _ _ _ KU P1 P2 W)|apply (scale_top _ _ _ _ KU P1 P2 W)].
  - assert (I : 0 < / fval (fw_rp w) <= / fval o) by (split; [apply Rinv_0_lt_compat; lra|apply Rinv_le_contravar; lra]). unfold Rdiv.
    assert (0 <= fval l * / fval (fw_rp w)) by (apply Rmult_le_pos; lra). assert (fval l * / fval (fw_rp w) <= fval l * / fval o) by (apply Rmult_le_compat_l; lra). lra.
  - match goal with |- Rabs (?a + _) <= _ => replace (a + (fval l / fval o - fval l / fval (fw_rp w))) with (a - fval l * (/ fval (fw_rp w) - / fval o)) by (unfold Rdiv; ring) end. exact F2.
Qed.
Theorem C126_f64_power_past_x : forall lm p st g l d o w, let c := f_c p in libm_pow lm -> power_c c -> fok st -> fok l -> fok o -> fok (fw_rp w) -> 0 < fval l -> usual (fval o) -> usual (fval st) -> usual (fval (fw_rp w)) ->
  let K := fval l * Rpower (fval o) (fval c) in usual K -> usual (fval l * fval o) -> fswap_within_x lm p st g l d o = Ok w -> fval (fw_rp w) <= fval o < fval st ->
  exists y1, pow_curve K (- fval c) (fval o) (fval st) y1 /\ let y := y1 + (fval l * fval o - fval l * fval (fw_rp w)) in
    Rabs (- fval (fw_send w) - (1 - / 1000000000000) * y) <= 28 * unit53 * (K * (Rpower (fval o) (1 - fval c) + Rpower (fval st) (1 - fval c)) / Rabs (1 - fval c) + fval l * fval o).
Proof.
  intros lm p st g l d o w c LP PC ST L O E L0 OU SU EU K KU TU H OW. rewrite (past_x lm p st g l d o w ST O E (not_zero _ PC) H OW). clear H.
  destruct (C126_f64_power_quote_y lm l o c st o LP PC L O ST O L0 OU SU OU KU) as (N1 & y & N2 & N3 & N4). destruct PC as (CF & CB & CD). fold c. exists y. split; [exact N2|]. cbv zeta.
  destruct (usual_small _ OU) as [OS O0], (usual_small _ EU) as [ES E0], (usual_small _ TU) as [TS T0]. destruct (flat_quote_y l o (fw_rp w) L O E L0 OS ltac:(lra) TS) as [F1 F2].
  assert (W : bpow radix2 (-60) <= Rabs (1 - fval c) <= 1) by (split; [exact CD|apply Rabs_le; lra]).
  assert (P1 : usual (Rpower (fval o) (1 - fval c))) by (apply (rp_mid _ _ 1 OU); [lia|apply Rabs_le; lra]). assert (P2 : usual (Rpower (fval st) (1 - fval c))) by (apply (rp_mid _ _ 1 SU); [lia|apply Rabs_le; lra]).
  apply both_parts; auto.
  - split; [apply (scale_mid _ _ _ _ KU P1 P2 W)|apply (scale_top _ _ _ _ KU P1 P2 W)].
  - assert (0 <= fval l * fval (fw_rp w)) by (apply Rmult_le_pos; lra). assert (fval l * fval (fw_rp w) <= fval l * fval o) by (apply Rmult_le_compat_l; lra). lra.
  - match goal with |- Rabs (?a + _) <= _ => replace (a + (fval l * fval o - fval l * fval (fw_rp w))) with (a - fval l * (fval (fw_rp w) - fval o)) by ring end. exact F2.
Qed.

(** cases: C = 2, liquidity 1000; from 0.5 up to tick 2 (about 1.0001) past the oracle price 1: 500 on the curve and 0.1 after it; from 2 down to tick 2 past the oracle price 1.5:
    375 on the curve and 499.9 after it *)
Definition f_threehalf : f64 := S754_finite false 6755399441055744 (-52).
Definition f_ninequarters : f64 := Eval vm_compute in fmul f_threehalf f_threehalf.
Definition f_twothirds : f64 := Eval vm_compute in fdiv f_one f_threehalf.
Definition pw2 : libm := patch_pow (patch_pow (patch_pow pw f_one f_one f_one) f_threehalf (f_int 2) f_ninequarters) f_threehalf f_minus f_twothirds.
Lemma pw2_pow : libm_pow pw2.
Proof.
  assert (H : fval f_threehalf = 3 / 2) by (rewrite (frat f_threehalf (3 # 2) eq_refl); unfold Q2R; cbn; lra). assert (M : fval f_minus = -1) by (rewrite (frat f_minus (-1) eq_refl); unfold Q2R; cbn; lra).
  assert (N : fval f_ninequarters = 9 / 4) by (rewrite (frat f_ninequarters (9 # 4) eq_refl); unfold Q2R; cbn; lra).
  unfold pw2. apply patch_pow_pow; [|split; reflexivity|].
  2: { rewrite M, H. replace (-1) with (- (1)) by ring. rewrite Rpower_Ropp, Rpower_1 by lra. pose proof small_pos. pose proof big_ge. assert (S1 : FloatMove.small <= 1) by (change 1 with (bpow radix2 0); apply bpow_le; lia).
    destruct (inv_f f_threehalf ltac:(split; reflexivity) ltac:(rewrite H; lra)) as [_ I]. change (fdiv f_one f_threehalf) with f_twothirds in I. rewrite H in I. rewrite ulp52. eapply Rle_trans; [exact I|]. assert (U := u53_pos). lra. }
  apply patch_pow_pow; [|split; reflexivity|apply exact_in; rewrite N, H, two_val, pow2 by lra; field].
  apply patch_pow_pow; [exact pw_pow|split; reflexivity|apply exact_in; rewrite fval_one, Rpower_1 by lra; reflexivity].
Qed.
Example C126_past_case : libm_pow pw2 /\ power_c (f_c two_p) /\
  (exists w, fswap_within_y pw2 two_p f_half 2 (f_int 1000) (f_int 1000) f_one = Ok w /\ fval f_half < fval f_one <= fval (fw_rp w) /\ 500.09 < - fval (fw_send w) <= 500.1) /\
  (exists w, fswap_within_x pw2 two_p (f_int 2) 2 (f_int 1000) (f_int 1000) f_threehalf = Ok w /\ fval (fw_rp w) <= fval f_threehalf < fval (f_int 2) /\ 874.89 < - fval (fw_send w) < 874.91) /\
  usual (fval (f_int 1000) / Rpower (fval f_one) (fval (f_int 2))) /\ usual (fval (f_int 1000) / fval f_one) /\ usual (fval (f_int 1000) * Rpower (fval f_threehalf) (fval (f_int 2))) /\ usual (fval (f_int 1000) * fval f_threehalf).
Proof.
  assert (H : fval f_threehalf = 3 / 2) by (rewrite (frat f_threehalf (3 # 2) eq_refl); unfold Q2R; cbn; lra). assert (T' : fval (f_int 1000) = 1000) by (rewrite (frat (f_int 1000) 1000 eq_refl); unfold Q2R; cbn; lra).
  assert (HF : fval f_half = / 2) by (rewrite (frat f_half (1 # 2) eq_refl); unfold Q2R; cbn; lra).
  assert (G0 : 1.00009 <= fval g_p2) by (assert (X := qle (100009 # 100000) g_p2 eq_refl); unfold Q2R in X; cbn [Qnum Qden] in X; lra).
  assert (G1 : fval g_p2 <= 1.1) by (assert (X := qge (11 # 10) g_p2 eq_refl); unfold Q2R in X; cbn [Qnum Qden] in X; lra).
  split; [exact pw2_pow|]. split; [exact two_c|]. split; [|split].
  - eexists. split; [vm_compute; reflexivity|]. cbn [fw_send fw_rp]. match goal with |- _ /\ _ < - fval ?a <= _ => assert (W1 := qle (-500100 # 1000) a eq_refl); assert (W2 := qge (-500091 # 1000) a eq_refl) end.
    unfold Q2R in W1, W2. cbn [Qnum Qden] in W1, W2. split; [|lra]. rewrite HF, fval_one. match goal with |- _ < _ <= fval ?a => change a with g_p2 end. lra.
  - eexists. split; [vm_compute; reflexivity|]. cbn [fw_send fw_rp]. match goal with |- _ /\ _ < - fval ?a < _ => assert (W1 := qle (-874909 # 1000) a eq_refl); assert (W2 := qge (-874891 # 1000) a eq_refl) end.
    unfold Q2R in W1, W2. cbn [Qnum Qden] in W1, W2. split; [|lra]. rewrite H, two_val. match goal with |- fval ?a <= _ < _ => change a with g_p2 end. lra.
  - rewrite T', H, fval_one, two_val, !pow2 by lra. assert (B0 : bpow radix2 (-100) <= 1) by (change 1 with (bpow radix2 0); apply bpow_le; lia). assert (B1 : 4096 <= bpow radix2 100) by (change 4096 with (bpow radix2 12); apply bpow_le; lia).
    unfold usual. repeat split; lra.
Qed.
Print Assumptions C126_f64_power_past_y.
Print Assumptions C126_f64_power_past_x.
