(** The logarithmic quotes (C = 1) of the f64 pool: lemmas. *)
From Coq Require Import ZArith Reals Lra Lia List Bool Floats.SpecFloat.
From Flocq Require Import Core BinarySingleNaN.
From Verif Require Import Base FloatBase FloatModel FloatFacts FloatWf FloatSwap FloatLp FloatFlow FloatFee FloatLog FloatMove.
Open Scope R_scope.

Lemma ln_le x : 0 < x -> ln x <= x - 1.
Proof. intros H. destruct (Req_dec x 1) as [->|N]; [rewrite ln_1; lra|]. assert (L : ln x <> 0) by (intros E; apply N; rewrite <- (exp_ln x H), E; apply exp_0). pose proof (exp_ineq1 (ln x) L) as E. rewrite exp_ln in E by exact H. lra. Qed.
Lemma ln_near q r u : 0 < q -> 0 < u < / 1000 -> Rabs (r - q) <= 1.01 * u * q -> 0 < r /\ Rabs (ln r - ln q) <= 1.02 * u.
Proof.
  intros Q U H. apply Rabs_le_inv in H. assert (UQ : 0 <= u * q <= / 1000 * q) by (split; [apply Rmult_le_pos; lra|apply Rmult_le_compat_r; lra]).
  assert (R0 : 0 < r) by lra. split; [exact R0|]. assert (IQ : 0 < / q) by now apply Rinv_0_lt_compat. assert (IR : 0 < / r) by now apply Rinv_0_lt_compat.
  assert (A : ln (r / q) <= 1.01 * u). { eapply Rle_trans; [apply ln_le; now apply Rdiv_lt_0_compat|]. replace (r / q - 1) with ((r - q) * / q) by (field; lra). apply Rmult_le_reg_r with q; [exact Q|]. rewrite Rmult_assoc, Rinv_l by lra. lra. }
  assert (B : ln (q / r) <= 1.02 * u). { eapply Rle_trans; [apply ln_le; now apply Rdiv_lt_0_compat|]. replace (q / r - 1) with ((q - r) * / r) by (field; lra). apply Rmult_le_reg_r with r; [exact R0|]. rewrite Rmult_assoc, Rinv_l by lra.
    assert (u * ((1 - 1.01 * / 1000) * q) <= u * r) by (apply Rmult_le_compat_l; lra). lra. }
  unfold Rdiv in A, B. rewrite ln_mult, ln_Rinv in A, B by assumption. apply Rabs_le. lra.
Qed.
Lemma div_err a b : fok a -> fok b -> 0 < fval b -> small / 8 <= fval a / fval b <= 16 * big -> fok (fdiv a b) /\ Rabs (fval (fdiv a b) - fval a / fval b) <= 1.01 * u53 * (fval a / fval b).
Proof.
  intros A B P [L U]. pose proof small_pos. destruct (div_R' a b A B ltac:(lra)) as [M1 M2]. { apply top_big. rewrite Rabs_pos_eq; lra. } split; [exact M1|]. rewrite M2. now apply rnd_rel.
Qed.
(** [k] is a rounding of [K] *)
Lemma log_quote lm k K a b : libm_ln lm -> fok k -> small <= K -> Rabs (fval k - K) <= 1.02 * u53 * K -> fok a -> fok b -> 0 < fval a -> 0 < fval b -> small <= fval a / fval b <= big ->
  let z := ln (fval a / fval b) in K * Rabs z <= big -> K <= big ->
  fok (fmul k (m_ln lm (fdiv a b))) /\ Rabs (fval (fmul k (m_ln lm (fdiv a b))) - K * z) <= 6 * u53 * (K * (1 + Rabs z)).
Proof.
  intros [_ LN] KF KS KE A B A0 B0 [QL QU] z KZ KB. pose proof small_pos as SP. pose proof big_ge as BG. assert (U := u53_tiny).
  destruct (div_err a b A B B0 ltac:(lra)) as [D1 D2]. set (q := fval a / fval b) in *. destruct (ln_near q _ u53 ltac:(lra) U D2) as [R0 R1].
  destruct (LN _ D1 R0) as [M1 M2]. set (m := fval (m_ln lm (fdiv a b))) in *. fold z in R1. set (t := ln (fval (fdiv a b))) in *. set (w := Rabs z) in *. assert (W0 : 0 <= w) by apply Rabs_pos.
  assert (T : Rabs t <= w + 1.02 * u53). { replace t with ((t - z) + z) by ring. eapply Rle_trans; [apply Rabs_triang|]. fold w. lra. }
  assert (UE : / 4503599627370496 = 2 * u53). { unfold u53. change (/ 4503599627370496) with (bpow radix2 (-52)). change 2 with (bpow radix2 1). rewrite <- bpow_plus. reflexivity. } rewrite UE in M2. assert (UW := ule w W0). assert (UU := ule u53 ltac:(lra)).
  assert (M3 : Rabs (m - t) <= 2 * (u53 * w) + 0.01 * u53). { eapply Rle_trans; [exact M2|]. apply Rle_trans with (2 * u53 * (w + 1.02 * u53)); [apply Rmult_le_compat_l; lra|]. lra. }
  assert (E1 : Rabs (m - z) <= 2 * (u53 * w) + 1.03 * u53). { replace (m - z) with ((m - t) + (t - z)) by ring. eapply Rle_trans; [apply Rabs_triang|]. lra. }
  assert (MB : Rabs m <= 1.01 * w + 1.03 * u53). { replace m with ((m - z) + z) by ring. eapply Rle_trans; [apply Rabs_triang|]. fold w. lra. }
  assert (K0 : 0 < K) by lra. assert (KW : 0 <= K * w) by (apply Rmult_le_pos; lra). assert (UK := ule K ltac:(lra)). assert (UKW := ule _ KW).
  (* the product before it is rounded *)
  assert (P1 : Rabs (fval k * m - K * z) <= 3.1 * (u53 * (K * w)) + 1.04 * (u53 * K)).
  { replace (fval k * m - K * z) with ((fval k - K) * m + K * (m - z)) by ring. eapply Rle_trans; [apply Rabs_triang|]. rewrite !Rabs_mult, (Rabs_pos_eq K) by lra.
    assert (H1 : Rabs (fval k - K) * Rabs m <= 1.02 * u53 * K * (1.01 * w + 1.03 * u53)) by (apply Rmult_le_compat; auto using Rabs_pos).
    assert (H2 : K * Rabs (m - z) <= K * (2 * (u53 * w) + 1.03 * u53)) by (apply Rmult_le_compat_l; lra).
    assert (H3 : u53 * K * u53 <= / 1000 * (u53 * K)) by (rewrite Rmult_comm; apply Rmult_le_compat_r; lra). lra. }
  assert (P2 : Rabs (fval k * m) <= 1.01 * (K * w) + 0.01 * K). { replace (fval k * m) with ((fval k * m - K * z) + K * z) by ring. eapply Rle_trans; [apply Rabs_triang|]. rewrite (Rabs_mult K z), (Rabs_pos_eq K) by lra. fold w. lra. }
  destruct (mul_err k (m_ln lm (fdiv a b)) KF M1 ltac:(fold m; lra)) as [N1 N2]. fold m in N2. split; [exact N1|]. pose proof (eta_small K ltac:(lra)) as ET.
  assert (N3 : u53 * Rabs (fval k * m) <= u53 * (1.01 * (K * w) + 0.01 * K)) by (apply Rmult_le_compat_l; lra).
  set (v := fval (fmul k (m_ln lm (fdiv a b)))) in *. replace (v - K * z) with ((v - fval k * m) + (fval k * m - K * z)) by ring. eapply Rle_trans; [apply Rabs_triang|]. lra.
Qed.
(** a step up with C = 1 that ends below the oracle price *)
Lemma within_y_one lm p st g l d o w : fok st -> fok o -> fok (fw_rp w) -> feq (f_c p) f_one = true -> fswap_within_y lm p st g l d o = Ok w -> fval (fw_rp w) < fval o ->
  fval st <= fval (fw_rp w) /\ fw_send w = fmul (f_dx_from_l_drp_hmm lm l st (fw_rp w) f_one o) (fsub f_one f_adj).
Proof.
  intros ST O EF C H OW. unfold fswap_within_y in H.
  destruct (fle d f_zero); [discriminate|]. destruct (flt (f_tick_to_rp lm g) st) eqn:SG; [discriminate|]. destruct (flt (f_dy_from_l_drp _ _ _) f_zero); [discriminate|].
  mb H. destruct a as [[[[dn fe] cr] et] er].
  assert (SE : flt er st = false).
  { destruct (flt _ (fmul d _)).
    - apply t5 in E as (_ & _ & _ & _ & <-). exact SG.
    - destruct (flt (f_rp_new_from_l_dy _ _ _) st) eqn:SE; [discriminate|]. destruct (flt (f_tick_to_rp lm g) (f_rp_new_from_l_dy _ _ _)); [discriminate|]. apply t5 in E as (_ & _ & _ & _ & <-). exact SE. }
  clear E SG. mb H. rename a into dx.
  assert (ER : fw_rp w = er /\ fw_send w = fmul dx (fsub f_one f_adj)).
  { destruct (flt f_zero _); [discriminate|]. destruct (flt (fsub _ _) f_zero); [discriminate|]. destruct (flt (fadd (fx p) _) _); [discriminate|].
    unfold fwithin_new in H. repeat match type of H with (if ?b then Panic else _) = _ => destruct b; [discriminate|] end. injection H as <-. auto. }
  clear H. destruct ER as [ER ->]. rewrite ER in *. clear ER. rewrite flt_R in SE by assumption. destruct (Rlt_bool_spec (fval er) (fval st)) as [|SE']; [discriminate|]. split; [exact SE'|].
  assert (C0 : feq (f_c p) f_zero = false) by (destruct (f_c p) as [[]|[]| |[] m e]; try discriminate; reflexivity).
  assert (L1 : fle o st = false) by (rewrite fle_R by assumption; apply Rle_bool_false; lra).
  assert (L2 : fle o er = false) by (rewrite fle_R by assumption; apply Rle_bool_false; lra).
  rewrite C0, L1, L2, andb_false_r in E. cbn [orb] in E. destruct (flt er o); [|discriminate]. injection E as <-. unfold f_dx_from_l_drp_hmm. rewrite C. reflexivity.
Qed.
(** the same, ending at or above the oracle price *)
Lemma within_y_past lm p st g l d o w : fok st -> fok o -> fok (fw_rp w) -> feq (f_c p) f_one = true -> fswap_within_y lm p st g l d o = Ok w -> fval st < fval o <= fval (fw_rp w) ->
  fw_send w = fmul (fadd (f_dx_from_l_drp_hmm lm l st o f_one o) (f_dx_from_l_drp l o (fw_rp w))) (fsub f_one f_adj).
Proof.
  intros ST O EF C H [SO OW]. unfold fswap_within_y in H.
  destruct (fle d f_zero); [discriminate|]. destruct (flt (f_tick_to_rp lm g) st); [discriminate|]. destruct (flt (f_dy_from_l_drp _ _ _) f_zero); [discriminate|].
  mb H. destruct a as [[[[dn fe] cr] et] er]. clear E. mb H. rename a into dx.
  assert (ER : fw_rp w = er /\ fw_send w = fmul dx (fsub f_one f_adj)).
  { destruct (flt f_zero _); [discriminate|]. destruct (flt (fsub _ _) f_zero); [discriminate|]. destruct (flt (fadd (fx p) _) _); [discriminate|].
    unfold fwithin_new in H. repeat match type of H with (if ?b then Panic else _) = _ => destruct b; [discriminate|] end. injection H as <-. auto. }
  clear H. destruct ER as [ER ->]. rewrite ER in *. clear ER.
  assert (C0 : feq (f_c p) f_zero = false) by (destruct (f_c p) as [[]|[]| |[] m e]; try discriminate; reflexivity).
  assert (L1 : fle o st = false) by (rewrite fle_R by assumption; apply Rle_bool_false; lra).
  assert (L2 : flt st o = true) by (rewrite flt_R by assumption; apply Rlt_bool_true; lra).
  assert (L3 : fle o er = true) by (rewrite fle_R by assumption; apply Rle_bool_true; lra).
  rewrite C0, L1, L2, L3 in E. cbn [orb andb] in E. injection E as <-. unfold f_dx_from_l_drp_hmm. rewrite C. reflexivity.
Qed.
(** the constant product quote from [o] up to [e], against the size [l / o] *)
Lemma flat_quote l o e : fok l -> fok o -> fok e -> 0 < fval l -> small <= fval o <= fval e -> fval e <= big -> small <= fval l / fval o <= big ->
  fok (f_dx_from_l_drp l o e) /\ Rabs (fval (f_dx_from_l_drp l o e) - fval l * (/ fval e - / fval o)) <= 6 * u53 * (fval l / fval o).
Proof.
  intros L O E L0 [O1 O2] E2 KB. pose proof small_pos as SP. pose proof big_ge as BG. assert (U := u53_tiny).
  destruct (inv_f o O ltac:(lra)) as [A1 A2]. destruct (inv_f e E ltac:(lra)) as [B1 B2].
  assert (I : 0 < / fval e <= / fval o) by (split; [apply Rinv_0_lt_compat; lra|apply Rinv_le_contravar; lra]). assert (IB : / fval o <= big) by (rewrite <- inv_big; apply Rinv_le_contravar; lra).
  assert (UO := ule (/ fval o) ltac:(lra)). assert (UE := ule (/ fval e) ltac:(lra)). assert (UI : u53 * / fval e <= u53 * / fval o) by (apply Rmult_le_compat_l; lra).
  apply Rabs_le_inv in A2, B2. unfold f_dx_from_l_drp. destruct (scaled l (fdiv f_one e) (fdiv f_one o) (/ fval o) (/ fval e - / fval o) 2.1 L B1 A1 L0 ltac:(lra)) as [S1 S2]; try (apply Rabs_le; lra); try lra.
  split; [exact S1|]. eapply Rle_trans; [exact S2|]. change (fval l * / fval o) with (fval l / fval o). apply Rmult_le_compat_r; lra.
Qed.
(** adding two quotes *)
Lemma sum_err a b : fok a -> fok b -> Rabs (fval a + fval b) <= 16 * big -> fok (fadd a b) /\ Rabs (fval (fadd a b) - (fval a + fval b)) <= u53 * Rabs (fval a + fval b) + eta.
Proof. intros A B H. destruct (add_R' a b A B (top_big _ H)) as [M1 M2]. split; [exact M1|]. rewrite M2. apply rnd_err. Qed.
