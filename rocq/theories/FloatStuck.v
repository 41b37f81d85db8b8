(** Calls of the f64 pool that abort or go wrong, for every libm. *)
From Coq Require Import ZArith Reals Lra Lia List Bool String Sorted Floats.SpecFloat.
From Flocq Require Import Core BinarySingleNaN Relative.
From Verif Require Import Base FloatBase FloatModel FloatFacts FloatWf FloatSwap FloatLp.
Import ListNotations.
Open Scope Z_scope.

(** *** rounding a tick down to the spacing is exact *)
Lemma fint_u32 f z : fint f z -> 0 <= z < 2 ^ 32 -> f_to_u32 f = z.
Proof.
  intros [[V F] E] B. destruct f as [s|s| |s m e]; try discriminate.
  - cbn in E. apply (eq_IZR 0) in E. now subst.
  - unfold fval, SF2R, F2R in E. cbn [Fnum Fexp] in E.
    destruct s; cbn [cond_Zopp] in E.
    + exfalso. assert (IZR (- Zpos m) * bpow radix2 e < 0)%R.
      { rewrite <- (Rmult_0_l (bpow radix2 e)). apply Rmult_lt_compat_r; [apply bpow_gt_0|]. apply (IZR_lt _ 0). lia. }
      rewrite E in H. apply (lt_IZR _ 0) in H. lia.
    + cbn [f_to_u32]. destruct (Z.leb_spec 0 e) as [L|L].
      * rewrite <- IZR_Zpower in E by exact L. rewrite <- mult_IZR in E. apply eq_IZR in E. rewrite Z.shiftl_mul_pow2 by exact L.
        change (Z.pow 2 e) with (Z.pow radix2 e). rewrite E. lia.
      * rewrite Z.shiftr_div_pow2 by lia. assert (Zpos m / 2 ^ (- e) = z); [|lia].
        rewrite <- (Zfloor_IZR z), <- E. rewrite <- Zfloor_div by (apply Z.pow_nonzero; lia). f_equal. unfold Rdiv. f_equal.
        rewrite <- (Z.opp_involutive e) at 2. rewrite bpow_opp. f_equal. rewrite <- IZR_Zpower by lia. reflexivity.
Qed.
Lemma quot_floor t s : 0 <= t < 2 ^ 32 -> 0 < s < 2 ^ 32 -> Zfloor (rnd (IZR t / IZR s)) = t / s.
Proof.
  intros T S. assert (SP : (0 < IZR s)%R) by (apply (IZR_lt 0); lia). assert (TP : (0 <= IZR t)%R) by (apply (IZR_le 0); lia).
  assert (TU : (IZR t < 4294967296)%R) by (apply IZR_lt; lia). assert (SU : (IZR s < 4294967296)%R) by (apply IZR_lt; lia).
  apply Zfloor_imp. rewrite plus_IZR. set (n := t / s). assert (DM := Z.div_mod t s ltac:(lia)). fold n in DM.
  assert (MB := Z.mod_pos_bound t s ltac:(lia)). assert (N0 : 0 <= n) by (apply Z.div_pos; lia). assert (NT : n <= t) by (unfold n; apply Z.div_le_upper_bound; nia).
  assert (E1 : (IZR t = IZR s * IZR n + IZR (t mod s))%R) by (rewrite <- mult_IZR, <- plus_IZR; congruence).
  assert (M0 : (0 <= IZR (t mod s))%R) by (apply (IZR_le 0); lia). assert (M1 : (IZR (t mod s) <= IZR s - 1)%R) by (rewrite <- minus_IZR; apply IZR_le; lia).
  assert (Q : (IZR n <= IZR t / IZR s)%R).
  { apply Rmult_le_reg_r with (IZR s); [exact SP|]. unfold Rdiv. rewrite Rmult_assoc, Rinv_l by lra. lra. }
  split.
  - rewrite <- (rnd_int n) by lia. apply rnd_le, Q.
  - destruct (Z.eq_dec t 0) as [->|T0]; [unfold Rdiv; rewrite Rmult_0_l, rnd_0; assert (0 <= IZR n)%R by (apply (IZR_le 0); lia); lra|].
    assert (T1 : (1 <= IZR t)%R) by (apply (IZR_le 1); lia).
    assert (QP : (/ 4294967296 <= IZR t / IZR s)%R).
    { unfold Rdiv. apply Rle_trans with (1 * / IZR s)%R; [rewrite Rmult_1_l; apply Rinv_le; lra|]. apply Rmult_le_compat_r; [left; now apply Rinv_0_lt_compat|exact T1]. }
    assert (RE : (Rabs (rnd (IZR t / IZR s) - IZR t / IZR s) <= / 2 * bpow radix2 (- (53) + 1) * Rabs (IZR t / IZR s))%R).
    { unfold rnd. change fexp64 with (FLT_exp (SpecFloat.emin 53 1024) 53). apply relative_error_N_FLT; [reflexivity|].
      rewrite Rabs_pos_eq by (eapply Rle_trans; [|exact QP]; lra). eapply Rle_trans; [|exact QP].
      change (/ 4294967296)%R with (bpow radix2 (-32)). apply bpow_le. cbv. discriminate. }
    rewrite (Rabs_pos_eq (IZR t / IZR s)) in RE by (eapply Rle_trans; [|exact QP]; lra).
    replace (/ 2 * bpow radix2 (- (53) + 1))%R with u53 in RE by (rewrite u53_val; cbn; field).
    apply Rabs_le_inv in RE. rewrite u53_val in RE.
    assert (UB : (IZR t / IZR s * (1 + / 9007199254740992) < IZR n + 1)%R); [|lra].
    apply Rmult_lt_reg_r with (IZR s); [exact SP|]. replace (IZR t / IZR s * (1 + / 9007199254740992) * IZR s)%R with (IZR t * (1 + / 9007199254740992))%R by (field; lra). lra.
Qed.
Lemma possible_exact t s : 0 <= t < 2 ^ 32 -> 0 < s < 2 ^ 32 -> f_tk_to_possible_tk t s false = t / s * s.
Proof.
  intros T S. unfold f_tk_to_possible_tk, f_u32. destruct (f_int_R t ltac:(lia)) as [A B]. destruct (f_int_R s ltac:(lia)) as [A' B'].
  assert (SP : (0 < IZR s)%R) by (apply (IZR_lt 0); lia).
  assert (NB : 0 <= t / s <= t) by (split; [apply Z.div_pos; lia|apply Z.div_le_upper_bound; nia]).
  assert (MB : t / s * s <= t) by (rewrite Z.mul_comm; apply Z.mul_div_le; lia).
  assert (P0 : 0 <= t / s * s) by (apply Z.mul_nonneg_nonneg; lia). assert (PB : Z.abs (t / s * s) < 2 ^ 53) by lia.
  assert (QB : (0 <= IZR t / IZR s <= IZR t)%R).
  { assert (0 <= IZR t)%R by (apply (IZR_le 0); lia). assert (1 <= IZR s)%R by (apply (IZR_le 1); lia). split.
    - apply Rmult_le_pos; [assumption|left; now apply Rinv_0_lt_compat].
    - apply Rmult_le_reg_r with (IZR s); [exact SP|]. unfold Rdiv. rewrite Rmult_assoc, Rinv_l by lra. nra. }
  destruct (div_R' (f_int t) (f_int s) A A') as [D1 D2].
  - rewrite B'. lra.
  - rewrite B, B'. rewrite Rabs_pos_eq by (apply rnd_ge0; apply QB). eapply Rle_lt_trans; [apply rnd_le, QB|]. rewrite rnd_int by lia.
    eapply Rle_lt_trans; [apply Rle_abs|]. apply int_top. lia.
  - rewrite B, B' in D2. destruct (floor_R _ D1) as [F1 F2]. rewrite D2, quot_floor in F2 by assumption.
    destruct (mul_R' _ _ F1 A') as [G1 G2].
    + rewrite F2, B', <- mult_IZR, rnd_int by exact PB. now apply int_top.
    + apply fint_u32; [split; [exact G1|]|lia]. rewrite G2, F2, B', <- mult_IZR. now apply rnd_int.
Qed.

(** *** more fuel does not change a result *)
Lemma fuel_x lm n k : forall p s dx o r, fswap_x_loop lm n p s dx o = r -> r <> NoFuel -> fswap_x_loop lm (n + k) p s dx o = r.
Proof.
  induction n as [|n IH]; intros p s dx o r H N; [cbn in H; congruence|]. cbn [fswap_x_loop Nat.add] in H |- *.
  destruct (negb (flt (fl_in s) dx)); [exact H|].
  destruct (if flt f_zero (fglbl_liq p) then _ else _) as [[[p1 g] rp]|e| |]; cbn [bind] in H |- *; try exact H.
  destruct g as [g|]; [|exact H]. destruct (fswap_x_step _ _ _ _ _ _) as [[p2 s2]|e| |]; cbn [bind] in H |- *; try exact H. now apply IH.
Qed.
Lemma fuel_y lm n k : forall p s dx o r, fswap_y_loop lm n p s dx o = r -> r <> NoFuel -> fswap_y_loop lm (n + k) p s dx o = r.
Proof.
  induction n as [|n IH]; intros p s dx o r H N; [cbn in H; congruence|]. cbn [fswap_y_loop Nat.add] in H |- *.
  destruct (negb (flt (fl_in s) dx)); [exact H|].
  destruct (if flt f_zero (fglbl_liq p) then _ else _) as [[[p1 g] rp]|e| |]; cbn [bind] in H |- *; try exact H.
  destruct g as [g|]; [|exact H]. destruct (fswap_y_step _ _ _ _ _ _) as [[p2 s2]|e| |]; cbn [bind] in H |- *; try exact H. now apply IH.
Qed.
Lemma fuel_xp lm n p dx o : fexecute_swap_x lm n p dx o = Panic -> forall m r, fexecute_swap_x lm m p dx o <> Ok r.
Proof.
  intros H m r R. unfold fexecute_swap_x in *. destruct (fle dx f_zero); [discriminate|].
  apply (fuel_x lm n m) in H; [|discriminate]. apply (fuel_x lm m n) in R; [|discriminate]. rewrite Nat.add_comm in R. congruence.
Qed.
Lemma fuel_yp lm n p dx o : fexecute_swap_y lm n p dx o = Panic -> forall m r, fexecute_swap_y lm m p dx o <> Ok r.
Proof.
  intros H m r R. unfold fexecute_swap_y in *. destruct (fle dx f_zero); [discriminate|].
  apply (fuel_y lm n m) in H; [|discriminate]. apply (fuel_y lm m n) in R; [|discriminate]. rewrite Nat.add_comm in R. congruence.
Qed.

(** *** Y swaps in pools with a tick spacing *)
Lemma y_stuck lm n p dy o r : 0 <= fglbl_tick p < 2 ^ 32 -> 0 < fspacing p < 2 ^ 32 -> fglbl_tick p mod fspacing p <> 0 ->
  flt f_zero (fglbl_liq p) = true -> flt f_zero dy = true -> fexecute_swap_y lm n p dy o <> Ok r.
Proof.
  intros T S M L D H. unfold fexecute_swap_y in H. destruct (fle dy f_zero); [discriminate|].
  destruct n as [|n]; [discriminate|]. cbn [fswap_y_loop fl_in fl_t] in H. rewrite D, L in H. cbn [negb] in H.
  unfold fget_right_limit, f_tick_to_possible_tick in H. rewrite possible_exact in H by assumption.
  pose proof (Z.div_mod (fglbl_tick p) (fspacing p) ltac:(lia)) as E. pose proof (Z.mod_pos_bound (fglbl_tick p) (fspacing p) ltac:(lia)) as B.
  set (q := fglbl_tick p / fspacing p * fspacing p) in *. assert (LT : q < fglbl_tick p) by lia.
  replace (q =? fglbl_tick p) with false in H by (symmetry; apply Z.eqb_neq; lia).
  replace (fglbl_tick p <? q) with false in H by (symmetry; apply Z.ltb_ge; lia). discriminate.
Qed.

(** *** a deposit from an unused tick up to a used one *)
Lemma deposit_stuck p u lo up d k ts : fpool_ok p -> ftm_get lo (fticks p) = None -> ftm_get up (fticks p) = Some ts ->
  fpm_get (u, lo, up) (fpositions p) = None ->
  let g := f4_get (fglbl_fees p) k in let f0 := f4_get (ft_fees ts) k in
  let above := if up <=? fglbl_tick p then fsub g f0 else f0 in
  fok g -> fok above -> flt f_zero above = true -> forall r, fset_position p u lo up d <> Ok r.
Proof.
  intros K LO UP PO g f0 above G A P r H.
  assert (F : forall v, ffee_rng p lo up k = Ok v -> fok v /\ (fval v < 0)%R).
  { intros v V. unfold ffee_rng, ffee_below_above in V. rewrite LO, UP in V. fold g f0 in V.
    assert (V' : v = fsub (fsub (fadd g f_zero) g) above) by (unfold above; destruct (up <=? fglbl_tick p); mb V; congruence).
    clear V. subst v. apply flt_t in P; [|exact fok_zero|exact A]. rewrite fval_zero in P.
    destruct (add_R' g f_zero G fok_zero) as [S1 S2]; [rewrite fval_zero, Rplus_0_r, rnd_fval by apply G; apply fval_top, G|].
    rewrite fval_zero, Rplus_0_r, rnd_fval in S2 by apply G.
    assert (ZT : (Rabs (rnd (fval g - fval g)) < top)%R) by (rewrite Rminus_diag_eq, rnd_0, Rabs_R0 by reflexivity; apply bpow_gt_0).
    rewrite <- S2 in ZT at 1. destruct (sub_R' _ _ S1 G ZT) as [S3 S4]. rewrite S2, Rminus_diag_eq, rnd_0 in S4 by reflexivity.
    assert (AT : (Rabs (rnd (fval (fsub (fadd g f_zero) g) - fval above)) < top)%R).
    { rewrite S4. unfold Rminus. rewrite Rplus_0_l, <- fval_opp, rnd_fval by apply fok_neg, A. apply fval_top, fok_neg, A. }
    destruct (sub_R' _ _ S3 A AT) as [S5 S6]. split; [exact S5|]. rewrite S6, S4. unfold Rminus. rewrite Rplus_0_l, <- fval_opp, rnd_fval by apply fok_neg, A.
    rewrite fval_opp. lra. }
  assert (NG : forall v, ffee_rng p lo up k = Ok v -> fle f_zero (fsub v f_zero) = false).
  { intros v V. destruct (F v V) as [V1 V2].
    assert (VT : (Rabs (rnd (fval v - fval f_zero)) < top)%R) by (rewrite fval_zero, Rminus_0_r, rnd_fval by apply V1; apply fval_top, V1).
    destruct (sub_R' _ _ V1 fok_zero VT) as [W1 W2]. rewrite fval_zero, Rminus_0_r, rnd_fval in W2 by apply V1.
    rewrite fle_R by auto using fok_zero. rewrite W2, fval_zero. apply Rle_bool_false. exact V2. }
  unfold fset_position in H. mb H. mb H. mb H. mb H. rewrite PO in H. destruct (flt d f_zero); [discriminate|]. mb H.
  destruct a3 as [[p1 old] base]. mb E3. injection E3 as <- <- <-. cbn [f4_map2 f_fx f_fy f_hx f_hy f4_zero] in H. mb H. apply assertE in E3.
  apply andb_prop in E3 as [E3 B4]. apply andb_prop in E3 as [E3 B3]. apply andb_prop in E3 as [B1 B2].
  destruct k.
  - rewrite (NG _ E) in B1. discriminate.
  - rewrite (NG _ E0) in B2. discriminate.
  - rewrite (NG _ E1) in B3. discriminate.
  - rewrite (NG _ E2) in B4. discriminate.
Qed.

(** *** with c = 1 an X swap that stays above the oracle price sends nothing *)
Definition nn (x : f64) : Prop := flt x f_zero = false.
Lemma bra_nn m e l : nn (SpecFloat.binary_round_aux 53 1024 false m e l).
Proof.
  unfold SpecFloat.binary_round_aux. destruct (shr_fexp _ _ _ _ _) as [mrs e1]. destruct (shr_fexp _ _ _ _ _) as [mrs2 e2].
  destruct (shr_m mrs2); try reflexivity. destruct (_ <=? _); reflexivity.
Qed.
Lemma nn_mul a b : nn a -> nn b -> nn (fmul a b).
Proof.
  unfold nn. intros A B. destruct a as [[]|[]| |[] ma ea], b as [[]|[]| |[] mb eb]; try discriminate; try reflexivity.
  apply (bra_nn _ _ _).
Qed.
Lemma div_ge1 a b : fok a -> fok b -> (0 < fval b <= fval a)%R -> flt (fdiv a b) f_one = false.
Proof.
  intros A B [P L].
  assert (Q : (1 <= fval a / fval b)%R) by (apply Rmult_le_reg_r with (fval b); [exact P|]; unfold Rdiv; rewrite Rmult_assoc, Rinv_l by lra; lra).
  destruct (Rlt_le_dec (Rabs (rnd (fval a / fval b))) top) as [T|T].
  - destruct (div_R' _ _ A B ltac:(lra) T) as [D1 D2]. rewrite flt_R by auto using fok_one. apply Rlt_bool_false. rewrite D2, fval_one.
    rewrite <- (rnd_int 1) by reflexivity. apply rnd_le, Q.
  - destruct A as [A FA]. destruct B as [B FB]. assert (PA : (0 < fval a)%R) by lra. clear Q L. revert T P PA. bb a A. bb b B. rewrite b_fin in FA, FB. rewrite div_b, !b_val.
    intros T P PA. pose proof (Bdiv_correct 53 1024 _ _ mode_NE ba bb ltac:(lra)) as H.
    change (round_mode mode_NE) with ZnearestE in H. fold (rnd (B2R ba / B2R bb)) in H. rewrite Rlt_bool_false in H by exact T.
    rewrite H. assert (S : forall c : bf, (0 < B2R c)%R -> Bsign c = false).
    { intros [s|s| |s m e ?] C; try (cbn in C; lra). destruct s; [|reflexivity]. exfalso. cbn in C.
      pose proof (F2R_lt_0 radix2 (Float radix2 (Zneg m) e)) as Q. cbn in Q. specialize (Q eq_refl). lra. }
    rewrite (S ba PA), (S bb P). reflexivity.
Qed.
Definition ln_nonneg (lm : libm) : Prop := forall v, f64_ok v -> flt v f_one = false -> nn (m_ln lm v).
Lemma flt_fin a b : f64_ok b -> fok a -> flt a b = true -> b = S754_infinity false \/ fok b.
Proof. intros B [_ A] L. destruct b as [s|s| |s m e]; try (right; split; [exact B|reflexivity]); [|destruct a; discriminate]. destruct s; [|now left]. destruct a as [[]|[]| |[] ma ea]; discriminate. Qed.
Lemma c1_sends_nothing lm p st g l dx o w : libm_ok lm -> ln_nonneg lm -> fpool_ok p -> fok st -> fok o -> f64_ok l -> f64_ok dx ->
  (0 < fval o)%R -> nn l -> feq (f_c p) f_one = true ->
  fswap_within_x lm p st g l dx o = Ok w -> flt o (fw_rp w) = true -> nn (fw_send w).
Proof.
  intros LM LN K ST O L DX OP NL C H OW. unfold fswap_within_x in H.
  destruct (fle dx f_zero); [discriminate|]. destruct (flt st (f_tick_to_rp lm g)) eqn:SG; [discriminate|]. destruct (flt (f_dx_from_l_drp _ _ _) f_zero); [discriminate|].
  mb H. destruct a as [[[[dn fe] cr] et] er].
  assert (Q : f64_ok er /\ flt st er = false).
  { destruct (flt _ (fmul dx _)).
    - apply t5 in E as (_ & _ & _ & _ & <-). split; [now apply rp_ok|exact SG].
    - destruct (flt st (f_rp_new_from_l_dx _ _ _)) eqn:SE; [discriminate|]. destruct (flt (f_rp_new_from_l_dx _ _ _) (f_tick_to_rp lm g)); [discriminate|]. apply t5 in E as (_ & _ & _ & _ & <-).
      split; [|exact SE]. destruct K as [_ _ _ _ _ [KC KR]]. destruct ST as [ST _]. unfold f_rp_new_from_l_dx. auto 20 with fok. }
  clear E SG. destruct Q as [EK SE]. mb H. rename a into dy.
  assert (ER : fw_rp w = er /\ fw_send w = fmul dy (fsub f_one f_adj)).
  { destruct (flt f_zero _); [discriminate|]. destruct (flt (fsub _ _) f_zero); [discriminate|]. destruct (flt (fadd (fy p) _) _); [discriminate|].
    unfold fwithin_new in H. repeat match type of H with (if ?b then Panic else _) = _ => destruct b; [discriminate|] end. injection H as <-. auto. }
  destruct ER as [ER ->]. rewrite ER in OW. clear ER H.
  assert (EF : fok er). { destruct (flt_fin _ _ EK O OW) as [->|]; [|assumption]. exfalso. destruct ST as [_ ST]. destruct st as [[]|[]| |[] m e]; discriminate. }
  apply flt_t in OW; auto. apply flt_f in SE; auto.
  assert (C0 : feq (f_c p) f_zero = false) by (destruct (f_c p) as [[]|[]| |[] m e]; try discriminate; reflexivity).
  assert (L1 : fle st o = false) by (rewrite fle_R by assumption; apply Rle_bool_false; lra).
  assert (L2 : fle er o = false) by (rewrite fle_R by assumption; apply Rle_bool_false; lra).
  rewrite C0, L1, L2, andb_false_r in E. cbn [orb] in E. destruct (flt o er); [|discriminate]. injection E as <-.
  unfold f_dy_from_l_drp_hmm. rewrite C. apply nn_mul; [|vm_compute; reflexivity]. apply nn_mul; [apply nn_mul; [exact NL|]|].
  - unfold nn. rewrite flt_R by auto using fok_zero. apply Rlt_bool_false. rewrite fval_zero. lra.
  - apply LN; [apply div_ok; [apply ST|apply EK]|]. apply div_ge1; auto. lra.
Qed.

(** *** a deposit between equal ticks turns the reserves into NaN *)
Lemma flt_asym x : flt f_zero x = true -> flt x f_zero = false.
Proof. destruct x as [[]|[]| |[] m e]; try discriminate; reflexivity. Qed.
Lemma sub_self x : f_finite x = true -> fsub x x = S754_zero false.
Proof.
  destruct x as [s|s| |s m e]; try discriminate; intros _; [now destruct s|].
  unfold fsub, SFsub. rewrite Z.min_id. set (q := fst _). replace (cond_Zopp s (Zpos q) - cond_Zopp s (Zpos q)) with 0 by lia. reflexivity.
Qed.
Lemma div_zero x : flt f_zero x = true -> fdiv x (S754_zero false) = S754_infinity false.
Proof. destruct x as [[]|[]| |[] m e]; try discriminate; reflexivity. Qed.
Lemma clamp_same rp r : f_finite r = true -> flt f_zero r = true -> fmax (fmin rp r) r = r.
Proof.
  intros F P. assert (RR : flt r r = false).
  { destruct r as [[]|[]| |[] m e]; try discriminate; unfold flt, SFltb, SFcompare. now rewrite Z.compare_refl, Pcompare_refl. }
  assert (RN : f_is_nan r = false) by (destruct r; try discriminate; reflexivity).
  unfold fmin. destruct (flt r rp) eqn:A; [unfold fmax; now rewrite RR, RN|].
  destruct (f_is_nan rp) eqn:N; [unfold fmax; now rewrite RR, RN|].
  unfold fmax. destruct (flt rp r) eqn:B; [reflexivity|]. rewrite N.
  destruct r as [[]|[]| |[] m e]; try discriminate. destruct rp as [[]|[]| |[] m' e']; try discriminate.
  unfold flt, SFltb, SFcompare in A, B. rewrite (Z.compare_antisym e' e) in A. destruct (e' ?= e) eqn:C; cbn in A, B; try discriminate.
  apply Z.compare_eq in C. subst e'. destruct (Pos.compare_cont Eq m' m) eqn:D; try discriminate.
  - apply Pcompare_Eq_eq in D. now subst.
  - change (Pos.compare_cont Eq m' m) with (Pos.compare m' m) in D. apply Pos.compare_gt_iff in D.
    change (Pos.compare_cont Eq m m') with (Pos.compare m m') in A. apply Pos.compare_lt_iff in D. rewrite D in A. discriminate.
Qed.
Lemma upd_ok p t d up : let n := new_entry p t in let g := fadd (ft_gross n) d in
  flt g f_zero = false -> feq g f_zero = false ->
  fupdate_tick p t d up = Ok (fwith_ticks p (ftm_set t (mkFT (fadd (ft_net n) (if negb up then d else fneg d)) g (ft_fees n)) (fticks p))).
Proof.
  intros n g A B. unfold fupdate_tick, n, new_entry in *. destruct (ftm_get t (fticks p)) as [ts|] eqn:G.
  - cbn [bind]. rewrite G. unfold ft_add_gross, ft_add_net. cbn [ft_net ft_gross ft_fees]. fold g. rewrite A. cbn [bind ft_gross]. rewrite B. reflexivity.
  - unfold finitialize_tick, ftstate_new. change (flt f_zero f_zero) with false. cbn [bind fticks fwith_ticks]. rewrite ftm_set_same.
    unfold ft_add_gross, ft_add_net. cbn [ft_net ft_gross ft_fees] in *. fold g. rewrite A. cbn [bind ft_gross]. rewrite B.
    f_equal. unfold fwith_ticks. cbn. now rewrite ftm_set_twice.
Qed.
Lemma same_tick_nan lm rp0 s c r p u x y a b : fpool_new lm rp0 s c r = Ok p ->
  let t := f_rp_to_possible_tick lm p a false in let R := f_tick_to_rp lm t in
  f_rp_to_possible_tick lm p b false = t -> f_finite R = true -> flt f_zero R = true ->
  flt f_zero x = true -> flt f_zero y = true -> flt f_zero (fmul (fmul x R) R) = true ->
  exists p' xd yd, fdeposit lm p u x y a b = Ok (p', xd, yd) /\ fx p' = S754_nan /\ fy p' = S754_nan.
Proof.
  intros N t R TB RF RP XP YP NP. unfold fpool_new in N. mb N. injection N as <-. unfold fgstate_new in E. destruct (flt f_zero f_zero); [discriminate|]. injection E as <-.
  unfold fdeposit. rewrite (flt_asym x XP), (flt_asym y YP). cbn [orb]. rewrite TB. fold t. fold R.
  set (p := mkFPool _ _ _ _ _ _ _ _ _ _ _ _) in *. set (rp := fglbl_rp p).
  assert (L : ffloor (f_liq_from_x_y_rp_rng x y rp R R) = S754_infinity false).
  { unfold f_liq_from_x_y_rp_rng, f_liq_x_only, f_liq_y_only. rewrite (sub_self R RF), (div_zero _ NP), (div_zero _ YP).
    destruct (fle rp R) eqn:A; [reflexivity|]. destruct (flt rp R) eqn:B; [|reflexivity]. exfalso.
    unfold fle, flt, SFleb, SFltb in A, B. destruct (SFcompare rp R) as [[]|]; discriminate. }
  rewrite L. unfold f_x_from_l_rp_rng, f_y_from_l_rp_rng. rewrite (clamp_same rp R RF RP), (sub_self R RF).
  change (fmul (S754_infinity false) (S754_zero false)) with S754_nan. change (fdiv S754_nan (fmul R R)) with S754_nan.
  replace (flt x S754_nan) with false by (destruct x; reflexivity). replace (flt y S754_nan) with false by (destruct y; reflexivity).
  assert (SP : exists q, fset_position p u t t (S754_infinity false) = Ok (q, f4_zero) /\ fx q = f_zero /\ fy q = f_zero).
  { unfold fset_position. assert (FR : forall k, ffee_rng p t t k = Ok f_zero) by (intros []; reflexivity). rewrite !FR. cbn [bind].
    cbn [fpositions p fpm_get fpm_set fwith_positions]. change (flt (S754_infinity false) f_zero) with false. unfold fpstate_new.
    change (flt (S754_infinity false) f_zero) with false. cbn [bind]. change (assert _) with (Ok tt). cbn [bind].
    set (p1 := fwith_positions p _). rewrite (upd_ok p1 t (S754_infinity false) false) by reflexivity. cbn [bind].
    set (p2 := fwith_ticks p1 _).
    assert (N2 : ft_gross (new_entry p2 t) = S754_infinity false) by (unfold new_entry, p2; cbn [fticks fwith_ticks]; rewrite ftm_set_same; reflexivity).
    rewrite (upd_ok p2 t (S754_infinity false) true) by (rewrite N2; reflexivity). cbn [bind].
    match goal with |- context [(t <=? ?z) && (?z <? t)] => assert (W : (t <=? z) && (z <? t) = false) by (destruct (Z.leb_spec t z), (Z.ltb_spec z t); try reflexivity; lia); rewrite W end.
    cbn [bind]. eexists. split; [reflexivity|]. split; reflexivity. }
  destruct SP as (q & -> & QX & QY). cbn [bind]. eexists _, _, _. split; [reflexivity|]. cbn. rewrite QX, QY. split; reflexivity.
Qed.
