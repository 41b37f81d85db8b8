(** f64: the constant product quotes, and a step with and without adjustment.  For C126 and C127. *)
From Coq Require Import ZArith QArith Reals Qreals Lra Lia List Bool String Floats.SpecFloat.
From Flocq Require Import Core.
From Verif Require Import Base FloatBase FloatModel FloatFacts FloatWf FloatLp FloatFee FloatLog FloatLib FloatMove FloatCurve FloatPower PropFlow PropFMove PropFCurve PropFPower.
Import ListNotations.
Open Scope R_scope.

Lemma Rdiv_one x : x / 1 = x. Proof. field. Qed.
Lemma two_val : fval (f_int 2) = 2. Proof. rewrite (frat (f_int 2) 2 eq_refl); unfold Q2R; cbn; lra. Qed.
Lemma two_c : power_c (f_int 2).
Proof. unfold power_c. rewrite two_val. assert (bpow radix2 (-60) <= 1) by (change 1 with (bpow radix2 0); apply bpow_le; lia). split; [split; reflexivity|]. split; [lra|]. rewrite Rabs_left; lra. Qed.
(** a curve given by its derivative on the positive prices has only one amount *)
Lemma curve_one K e a b x y : 0 < a -> a < b -> pow_curve K e a b x -> pow_curve K e a b y -> x = y.
Proof.
  intros A AB (F & F1 & F2 & ->) (G & G1 & G2 & ->).
  destruct (MVT_cor2 (fun r => F r - G r) (fun r => K * Rpower r e - K * Rpower r e) a b AB) as (c & H & _).
  { intros c C. apply (derivable_pt_lim_minus F G); [apply F2|apply G2]; lra. }
  replace (K * Rpower c e - K * Rpower c e) with 0 in H by ring. lra.
Qed.
Lemma pow2 x : 0 < x -> Rpower x 2 = x * x.
Proof. intros X. replace 2 with (1 + 1) by ring. rewrite Rpower_plus, Rpower_1 by exact X. reflexivity. Qed.
(** the constant product quote *)
Lemma product_x l a b : fok l -> fok a -> fok b -> 0 < fval l -> FloatMove.small <= fval a <= big -> fval a < fval b <= big -> FloatMove.small <= fval l / fval a <= big ->
  fok (f_dx_from_l_drp l a b) /\ Rabs (fval (f_dx_from_l_drp l a b) - fval l * (/ fval b - / fval a)) <= 6 * u53 * (fval l / fval a).
Proof.
  intros L A B L0 AB AB' LP. pose proof small_pos as SP. assert (U := u53_tiny). pose proof big_ge as BG. unfold f_dx_from_l_drp. set (x := / fval a) in *.
  assert (X : FloatMove.small <= x <= big). { unfold x. split; [rewrite <- inv_small | rewrite <- inv_big]; apply Rinv_le_contravar; lra. }
  destruct (inv_f b B ltac:(lra)) as [I1 I2]. destruct (inv_f a A ltac:(lra)) as [J1 J2]. fold x in J2.
  assert (NX : / fval b <= x) by (unfold x; apply Rinv_le_contravar; lra). assert (N0 : 0 < / fval b) by (apply Rinv_0_lt_compat; lra).
  assert (UX := ule x ltac:(lra)). assert (UN : u53 * / fval b <= u53 * x) by (apply Rmult_le_compat_l; lra).
  set (i := fdiv f_one b) in *. set (j := fdiv f_one a) in *. apply Rabs_le_inv in I2. apply Rabs_le_inv in J2.
  destruct (scaled l i j x (/ fval b - x) 2.1) as [Q1 Q2]; auto; try lra.
  - unfold x. fold (fval l / fval a). lra.
  - apply Rabs_le. lra.
  - apply Rabs_le. lra.
  - split; [exact Q1|]. unfold x in Q2. fold (fval l / fval a) in Q2. assert (UL := ule (fval l / fval a) ltac:(lra)). fold x in Q2. eapply Rle_trans; [exact Q2|]. lra.
Qed.
(** keeping back the allowance does not change the order *)
Lemma kept_order q r : fok q -> fok r -> fval r <= fval q <= 0 -> - big <= fval r ->
  let k := fsub f_one f_adj in fok (fmul q k) /\ fok (fmul r k) /\ fval (fmul r k) <= fval (fmul q k) <= 0 /\ flt (fsub (fmul q k) (fmul r k)) f_zero = false /\ flt f_zero (fmul q k) = false.
Proof.
  intros Q R0 H B. cbv zeta. destruct keep_val as [K1 K2]. assert (KB : 0 < fval (fsub f_one f_adj) <= 1.01) by (apply Rabs_le_inv in K2; change unit53 with u53 in K2; assert (U := u53_tiny); lra).
  clear K2. set (k := fsub f_one f_adj) in *. pose proof big_ge as BG.
  assert (MB : forall x, fok x -> - big <= fval x <= 0 -> fok (fmul x k) /\ fval (fmul x k) = rnd (fval x * fval k) /\ - (1.01 * big) <= fval x * fval k <= 0).
  { intros x X XB. assert (XK : - (1.01 * big) <= fval x * fval k <= 0).
    { split; [|rewrite <- (Rmult_0_l (fval k)); apply Rmult_le_compat_r; lra]. apply Rle_trans with (- big * fval k); [|apply Rmult_le_compat_r; lra].
      replace (- big * fval k) with (- (fval k * big)) by ring. apply Ropp_le_contravar. apply Rmult_le_compat_r; lra. }
    destruct (mul_R' x k X K1) as [M1 M2]; [apply top_big; apply Rabs_le; lra|]. auto. }
  destruct (MB q Q ltac:(lra)) as (Q1 & Q2 & Q3). destruct (MB r R0 ltac:(lra)) as (R1 & R2 & R3). split; [exact Q1|]. split; [exact R1|].
  assert (O : fval (fmul r k) <= fval (fmul q k) <= 0). { rewrite Q2, R2. split; [apply rnd_le; apply Rmult_le_compat_r; lra|rewrite <- rnd_0; apply rnd_le; lra]. }
  split; [exact O|]. assert (LB : - (2 * big) <= fval (fmul r k)).
  { destruct (mul_err r k R0 K1) as [_ E]; [apply Rabs_le; lra|]. rewrite (Rabs_left1 (fval r * fval k)) in E by lra. apply Rabs_le_inv in E. assert (UB := ule (- (fval r * fval k)) ltac:(lra)). pose proof small_pos. pose proof (eta_small big ltac:(pose proof big_small; assert (FloatMove.small <= 1) by (change 1 with (bpow radix2 0); apply bpow_le; lia); lra)). assert (UB' := ule big ltac:(lra)). lra. }
  split; [|rewrite flt_R by auto using fok_zero; rewrite fval_zero; apply Rlt_bool_false; lra].
  destruct (sub_R' (fmul q k) (fmul r k) Q1 R1) as [S1 S2]; [apply top_big; apply Rabs_le; lra|]. rewrite flt_R by auto using fok_zero. rewrite fval_zero, S2. apply Rlt_bool_false. rewrite <- rnd_0. apply rnd_le. lra.
Qed.
(** a step without adjustment, and the same step with another quote *)
Lemma within_y_swap lm p st g l d o o' w : fok st -> fok o -> fok o' -> fok (fw_rp w) -> feq (f_c p) f_zero = false -> fval o' <= fval st -> fval st < fval o -> fval (fw_rp w) < fval o ->
  fswap_within_y lm p st g l d o' = Ok w ->
  let k := fsub f_one f_adj in let q := fmul (f_dx_from_l_drp_hmm lm l st (fw_rp w) (f_c p) o) k in let r := fmul (f_dx_from_l_drp l st (fw_rp w)) k in
  flt (fsub q r) f_zero = false -> flt f_zero q = false -> fw_send w = r /\
  fswap_within_y lm p st g l d o = Ok (mkFW (fw_recv w) q (fw_tick w) (fw_rp w) (fw_cross w) (fsub q r) (fw_fee w)).
Proof.
  intros ST O O' EF C0 OL SO OW H. cbv zeta. intros N1 N2. unfold fswap_within_y in *.
  destruct (fle d f_zero); [discriminate|]. destruct (flt (f_tick_to_rp lm g) st); [discriminate|]. destruct (flt (f_dy_from_l_drp _ _ _) f_zero); [discriminate|].
  mb H. destruct a as [[[[dn fe] cr] et] er]. rewrite E. cbn [bind]. clear E.
  assert (L0 : fle o' st = true) by (rewrite fle_R by assumption; apply Rle_bool_true; lra). rewrite C0, L0 in H. cbn [orb bind] in H.
  destruct (flt f_zero _) eqn:T1 in H; [discriminate|]. destruct (flt (fsub _ _) f_zero) in H; [discriminate|]. destruct (flt (fadd (fx p) _) _) eqn:T2 in H; [discriminate|].
  unfold fwithin_new in H. destruct (flt dn f_zero) eqn:T3; [discriminate|]. destruct (flt f_zero (fmul _ _)) in H; [discriminate|].
  destruct (flt (fsub _ _) f_zero || flt fe f_zero) eqn:T4 in H; [discriminate|]. apply orb_false_iff in T4 as [_ T4]. destruct (flt er f_zero) eqn:T5; [discriminate|]. injection H as <-. cbn [fw_recv fw_send fw_tick fw_rp fw_cross fw_fee] in *.
  split; [reflexivity|].
  assert (L1 : fle o st = false) by (rewrite fle_R by assumption; apply Rle_bool_false; lra).
  assert (L2 : fle o er = false) by (rewrite fle_R by assumption; apply Rle_bool_false; lra).
  assert (L3 : flt er o = true) by (rewrite flt_R by assumption; apply Rlt_bool_true; lra).
  rewrite C0, L1, L2, L3, andb_false_r. cbn [orb bind]. rewrite T1, N1, T2. unfold fwithin_new. rewrite T3, N2, N1, T4, T5. reflexivity.
Qed.
Lemma product_y l a b : fok l -> fok a -> fok b -> 0 < fval l -> FloatMove.small <= fval a <= big -> 0 < fval b < fval a -> FloatMove.small <= fval l * fval a <= big ->
  fok (f_dy_from_l_drp l a b) /\ Rabs (fval (f_dy_from_l_drp l a b) - fval l * (fval b - fval a)) <= 4 * u53 * (fval l * fval a).
Proof.
  intros L A B L0 AB AB' LP. pose proof small_pos as SP. assert (U := u53_tiny). pose proof big_ge as BG. unfold f_dy_from_l_drp. assert (UA := ule (fval a) ltac:(lra)).
  destruct (scaled l b a (fval a) (fval b - fval a) 0) as [Q1 Q2]; auto; try lra.
  - apply Rabs_le. lra.
  - rewrite Rminus_diag_eq, Rabs_R0 by reflexivity. lra.
  - split; [exact Q1|]. assert (UL := ule (fval l * fval a) ltac:(lra)). eapply Rle_trans; [exact Q2|]. lra.
Qed.
Lemma within_x_swap lm p st g l d o o' w : fok st -> fok o -> fok o' -> fok (fw_rp w) -> feq (f_c p) f_zero = false -> fval st <= fval o' -> fval o < fval st -> fval o < fval (fw_rp w) ->
  fswap_within_x lm p st g l d o' = Ok w ->
  let k := fsub f_one f_adj in let q := fmul (f_dy_from_l_drp_hmm lm l st (fw_rp w) (f_c p) o) k in let r := fmul (f_dy_from_l_drp l st (fw_rp w)) k in
  flt (fsub q r) f_zero = false -> flt f_zero q = false -> fw_send w = r /\
  fswap_within_x lm p st g l d o = Ok (mkFW (fw_recv w) q (fw_tick w) (fw_rp w) (fw_cross w) (fsub q r) (fw_fee w)).
Proof.
  intros ST O O' EF C0 OL SO OW H. cbv zeta. intros N1 N2. unfold fswap_within_x in *.
  destruct (fle d f_zero); [discriminate|]. destruct (flt st (f_tick_to_rp lm g)); [discriminate|]. destruct (flt (f_dx_from_l_drp _ _ _) f_zero); [discriminate|].
  mb H. destruct a as [[[[dn fe] cr] et] er]. rewrite E. cbn [bind]. clear E.
  assert (L0 : fle st o' = true) by (rewrite fle_R by assumption; apply Rle_bool_true; lra). rewrite C0, L0 in H. cbn [orb bind] in H.
  destruct (flt f_zero _) eqn:T1 in H; [discriminate|]. destruct (flt (fsub _ _) f_zero) in H; [discriminate|]. destruct (flt (fadd (fy p) _) _) eqn:T2 in H; [discriminate|].
  unfold fwithin_new in H. destruct (flt dn f_zero) eqn:T3; [discriminate|]. destruct (flt f_zero (fmul _ _)) in H; [discriminate|].
  destruct (flt (fsub _ _) f_zero || flt fe f_zero) eqn:T4 in H; [discriminate|]. apply orb_false_iff in T4 as [_ T4]. destruct (flt er f_zero) eqn:T5; [discriminate|]. injection H as <-. cbn [fw_recv fw_send fw_tick fw_rp fw_cross fw_fee] in *.
  split; [reflexivity|].
  assert (L1 : fle st o = false) by (rewrite fle_R by assumption; apply Rle_bool_false; lra).
  assert (L2 : fle er o = false) by (rewrite fle_R by assumption; apply Rle_bool_false; lra).
  assert (L3 : flt o er = true) by (rewrite flt_R by assumption; apply Rlt_bool_true; lra).
  rewrite C0, L1, L2, L3, andb_false_r. cbn [orb bind]. rewrite T1, N1, T2. unfold fwithin_new. rewrite T3, N2, N1, T4, T5. reflexivity.
Qed.
