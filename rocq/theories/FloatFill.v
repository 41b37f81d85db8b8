(** Swaps of the f64 pool that stay in the current range are filled: lemmas. *)
From Coq Require Import ZArith Reals Lra Lia List Bool Floats.SpecFloat.
From Flocq Require Import Core BinarySingleNaN Sterbenz.
From Verif Require Import Base FloatBase FloatModel FloatFacts FloatWf FloatSwap FloatLp FloatFlow FloatFee FloatTrip FloatMove.
Open Scope R_scope.

Lemma flt_no a b : fok a -> fok b -> fval b <= fval a -> flt a b = false.
Proof. intros A B H. rewrite flt_R by assumption. apply Rlt_bool_false. exact H. Qed.
Lemma flt_yes a b : fok a -> fok b -> fval a < fval b -> flt a b = true.
Proof. intros A B H. rewrite flt_R by assumption. apply Rlt_bool_true. exact H. Qed.
Lemma fle_no a b : fok a -> fok b -> fval b < fval a -> fle a b = false.
Proof. intros A B H. rewrite fle_R by assumption. apply Rle_bool_false. exact H. Qed.
Lemma fle_yes a b : fok a -> fok b -> fval a <= fval b -> fle a b = true.
Proof. intros A B H. rewrite fle_R by assumption. apply Rle_bool_true. exact H. Qed.
Lemma div_nn a b : fok a -> fok b -> 0 <= fval a -> 0 < fval b -> flt (fdiv a b) f_zero = false.
Proof.
  intros FA FB A B. destruct (Rlt_le_dec (Rabs (rnd (fval a / fval b))) top) as [L|G].
  - destruct (div_R' a b FA FB ltac:(lra) L) as [D V]. apply flt_no; [exact D|exact fok_zero|]. rewrite fval_zero, V. apply rnd_ge0. apply Rmult_le_pos; [exact A|apply Rlt_le, Rinv_0_lt_compat; exact B].
  - destruct FA as [Aok FA], FB as [Bok FB]. destruct (as_b a Aok) as [ba ->]. destruct (as_b b Bok) as [bb ->]. rewrite b_fin in FA, FB. rewrite div_b. rewrite !b_val in *.
    pose proof (Bdiv_correct 53 1024 _ _ mode_NE ba bb ltac:(lra)) as H. change (round radix2 fexp64 (round_mode mode_NE) (B2R ba / B2R bb)) with (rnd (B2R ba / B2R bb)) in H. rewrite Rlt_bool_false in H by exact G. rewrite H. unfold binary_overflow, overflow_to_inf.
    assert (A0 : B2R ba <> 0). { intros E. rewrite E in G. unfold Rdiv in G. rewrite Rmult_0_l, rnd_0, Rabs_R0 in G. pose proof (bpow_gt_0 radix2 1024). unfold top in G. lra. }
    destruct (sign_R ba) as [_ N1], (sign_R bb) as [_ N2]. destruct (Bsign ba); [specialize (N1 eq_refl); lra|]. destruct (Bsign bb); [specialize (N2 eq_refl); lra|]. reflexivity.
Qed.
Lemma div_neg a b : fok a -> fok b -> fval a <= 0 -> fval b < 0 -> flt (fdiv a b) f_zero = false.
Proof.
  intros FA FB A B. destruct (Rlt_le_dec (Rabs (rnd (fval a / fval b))) top) as [L|G].
  - destruct (div_R' a b FA FB ltac:(lra) L) as [D V]. apply flt_no; [exact D|exact fok_zero|]. rewrite fval_zero, V. apply rnd_ge0. assert (I : / fval b < 0) by (apply Rinv_lt_0_compat; exact B). unfold Rdiv. nra.
  - destruct FA as [Aok FA], FB as [Bok FB]. destruct (as_b a Aok) as [ba ->]. destruct (as_b b Bok) as [bb ->]. rewrite b_fin in FA, FB. rewrite div_b. rewrite !b_val in *.
    pose proof (Bdiv_correct 53 1024 _ _ mode_NE ba bb ltac:(lra)) as H. change (round radix2 fexp64 (round_mode mode_NE) (B2R ba / B2R bb)) with (rnd (B2R ba / B2R bb)) in H. rewrite Rlt_bool_false in H by exact G. rewrite H. unfold binary_overflow, overflow_to_inf.
    assert (A0 : B2R ba <> 0). { intros E. rewrite E in G. unfold Rdiv in G. rewrite Rmult_0_l, rnd_0, Rabs_R0 in G. pose proof (bpow_gt_0 radix2 1024). unfold top in G. lra. }
    destruct (sign_R ba) as [N1 _], (sign_R bb) as [N2 _]. destruct (Bsign ba); [|specialize (N1 eq_refl); lra]. destruct (Bsign bb); [|specialize (N2 eq_refl); lra]. reflexivity.
Qed.
Lemma sq_nn a : fok a -> flt (fsquare a) f_zero = false.
Proof.
  intros FA. unfold fsquare. destruct (Rlt_le_dec (Rabs (rnd (fval a * fval a))) top) as [L|G].
  - destruct (mul_R' a a FA FA L) as [D V]. apply flt_no; [exact D|exact fok_zero|]. rewrite fval_zero, V. apply rnd_ge0. nra.
  - destruct FA as [Aok FA]. destruct (as_b a Aok) as [ba ->]. rewrite b_fin in FA. rewrite mul_b. rewrite !b_val in *.
    pose proof (Bmult_correct 53 1024 _ _ mode_NE ba ba) as H. change (round radix2 fexp64 (round_mode mode_NE) (B2R ba * B2R ba)) with (rnd (B2R ba * B2R ba)) in H. rewrite Rlt_bool_false in H by exact G. rewrite H. unfold binary_overflow, overflow_to_inf. rewrite xorb_nilpotent. reflexivity.
Qed.
Lemma sub_zero d : 0 < fval d -> fsub d f_zero = d.
Proof. destruct d as [[|]|[|]| |s m e]; intros H; try (cbn in H; lra). reflexivity. Qed.
Lemma add_zero d : fok d -> fok (fadd f_zero d) /\ fval (fadd f_zero d) = fval d.
Proof. intros D. destruct (add_R' f_zero d fok_zero D) as [A B]. { rewrite fval_zero, Rplus_0_l, rnd_fval by apply D. apply fval_top. apply D. } split; [exact A|]. rewrite B, fval_zero, Rplus_0_l. apply rnd_fval. apply D. Qed.
Lemma sub_same m : fok m -> fok (fsub m m) /\ fval (fsub m m) = 0.
Proof. intros M. destruct (sub_R' m m M M) as [A B]. { rewrite Rminus_diag_eq, rnd_0, Rabs_R0 by reflexivity. apply bpow_gt_0. } split; [exact A|apply sub_self]. Qed.

(** the fee is taken off exactly: what is left and the fee add up to the amount *)
Lemma fee_split d r : fok d -> fok r -> small <= fval d <= big -> 0 <= fval r <= 2 / 5 -> let m := fmul d (fsub f_one r) in
  fok m /\ fval d / 2 <= fval m <= fval d /\ fok (fsub d m) /\ 0 <= fval (fsub d m) /\ fok (fadd m (fsub d m)) /\ fval (fadd m (fsub d m)) = fval d.
Proof.
  intros D R DB RB. cbv zeta. pose proof small_pos as SP. pose proof big_ge as BG. assert (U := u53_tiny).
  destruct (sub_R' f_one r fok_one R) as [S1 S2]. { apply top_big. rewrite fval_one. rewrite Rabs_pos_eq by lra. lra. }
  rewrite fval_one in S2. assert (C1 : fval (fsub f_one r) <= 1). { rewrite S2. pose proof (rnd_fval f_one (proj1 fok_one)) as R1. rewrite fval_one in R1. rewrite <- R1. apply rnd_le. lra. }
  pose proof (minus_err 1 (fval r) ltac:(rewrite <- fval_one; apply fval_fmt; apply fok_one) (fval_fmt r (proj1 R))) as E. change (round radix2 fexp64 ZnearestE (1 - fval r)) with (rnd (1 - fval r)) in E. rewrite <- S2 in E. rewrite (Rabs_pos_eq (1 - fval r)) in E by lra. apply Rabs_le_inv in E.
  pose proof (ule (1 - fval r) ltac:(lra)) as UR. set (c := fval (fsub f_one r)) in *. assert (C0 : 0.59 <= c) by lra.
  set (x := fval d) in *. assert (XC : 0.59 * x <= x * c <= x) by nra. destruct (mul_R' d (fsub f_one r) D S1) as [M1 M2]. { fold x c. apply top_big. rewrite Rabs_pos_eq by lra. lra. }
  fold x c in M2. set (m := fmul d (fsub f_one r)) in *. pose proof (rnd_rel (x * c) ltac:(lra)) as E2. rewrite <- M2 in E2. apply Rabs_le_inv in E2. pose proof (ule (x * c) ltac:(lra)) as UX.
  assert (ML : fval m <= x). { rewrite M2. unfold x. rewrite <- (rnd_fval d) at 2 by apply D. apply rnd_le. fold x. lra. }
  assert (MH : x / 2 <= fval m) by lra. split; [exact M1|]. split; [lra|].
  assert (ST : rnd (x - fval m) = x - fval m). { apply round_generic; [apply valid_rnd_N|]. apply sterbenz; [apply FLT_exp_valid; reflexivity|apply FLT_exp_monotone|apply fval_fmt; apply D|apply fval_fmt; apply M1|]. lra. }
  destruct (sub_R' d m D M1) as [F1 F2]. { fold x. rewrite ST. pose proof (fval_top d (proj1 D)) as T. fold x in T. rewrite Rabs_pos_eq in T by lra. rewrite Rabs_pos_eq by lra. lra. }
  fold x in F2. rewrite ST in F2. split; [exact F1|]. split; [lra|]. destruct (add_R' m (fsub d m) M1 F1) as [A1 A2]. { rewrite F2. replace (fval m + (x - fval m)) with x by ring. unfold x. rewrite rnd_fval by apply D. apply fval_top. apply D. }
  split; [exact A1|]. rewrite A2, F2. replace (fval m + (x - fval m)) with x by ring. unfold x. apply rnd_fval. apply D.
Qed.

(** a step that takes the whole of [d] and pays no more than the pot [pot] holds *)
(** and no more than [lim] *)
Definition takes_all (d m pot : f64) (lim : R) (w : fwithin) : Prop :=
  - lim <= fval (fw_send w) /\ fw_recv w = m /\ fw_fee w = fsub d m /\ fok (fw_send w) /\ fval (fw_send w) <= 0 <= fval pot + fval (fw_send w) /\ fw_adj w = fsub (fw_send w) (fw_send w) /\ fw_cross w = false /\ fok (fw_rp w).
(** the end of both kinds of passes: what is sent is the scaled payment *)
Lemma paid_ok q pot : fok q -> fok pot -> fval q <= 0 -> 0 <= fval pot + fval q -> fval pot <= big -> let s := fmul q (fsub f_one f_adj) in
  fok s /\ fval q <= fval s <= 0 /\ fok (fadd pot s) /\ 0 <= fval (fadd pot s).
Proof.
  intros Q P Q0 PQ PB. cbv zeta. destruct keep_val as [K1 K2]. set (k := fsub f_one f_adj) in *. assert (B : fval q <= fval q * fval k <= 0) by nra. pose proof big_ge as BG.
  destruct (mul_R' q k Q K1) as [M1 M2]. { apply top_big. apply Rabs_le. lra. }
  assert (S : fval q <= fval (fmul q k) <= 0). { rewrite M2. split; [rewrite <- (rnd_fval q) at 1 by apply Q; apply rnd_le; lra|]. rewrite <- rnd_0. apply rnd_le. lra. }
  destruct (add_R' pot (fmul q k) P M1) as [A1 A2]. { apply top_big. apply Rabs_le. lra. }
  split; [exact M1|]. split; [exact S|]. split; [exact A1|]. rewrite A2. apply rnd_ge0. lra.
Qed.

Section Fill.
Variable lm : libm.
Section WithinY.
Variables (p : fpool) (rp l d o : f64) (g : Z).
Let rg := f_tick_to_rp lm g.
Let r := f_fee_rate p.
Let m := fmul d (fsub f_one r).
Hypothesis L : fok l.
Hypothesis P : fok rp.
Hypothesis D : fok d.
Hypothesis G : fok rg.
Hypothesis R : fok r.
Hypothesis L0 : 0 < fval l.
Hypothesis PB : small <= fval rp <= big.
Hypothesis DB : small <= fval d <= big.
Hypothesis TB : fval d / fval l <= big.
Hypothesis RB : 0 <= fval r <= 2 / 5.
Hypothesis GB : fval rg <= big.
Hypothesis C : feq (f_c p) f_zero = true.
Lemma within_y_fill : small <= fval l / fval rp <= big -> fval l * fval rg <= big -> fval rp + fval d / fval l <= (1 - 16 * u53) * fval rg ->
  fok (fx p) -> fval (fx p) <= big -> fval l * (/ fval rp - / (fval rp + fval d / fval l)) + 16 * u53 * (fval l / fval rp) <= fval (fx p) ->
  exists w, fswap_within_y lm p rp g l d o = Ok w /\ takes_all d m (fx p) (fval l * (/ fval rp - / (fval rp + fval d / fval l)) + 16 * u53 * (fval l / fval rp)) w.
Proof.
  intros LP LG MG X XB XF. destruct (fee_split d r D R DB RB) as (M1 & M2 & F1 & F2 & A1 & A2). fold m in M1, M2, F1, F2, A1, A2. pose proof small_pos as SP. pose proof big_ge as BG. assert (U := u53_tiny).
  set (T := fval d / fval l) in *. assert (IL : 0 < / fval l) by (apply Rinv_0_lt_compat; lra). assert (TM : 0 <= fval m / fval l <= T). { unfold T, Rdiv. split; [apply Rmult_le_pos; lra|apply Rmult_le_compat_r; lra]. }
  assert (G0 : 0 < fval rg). { destruct (Rle_or_lt (fval rg) 0) as [H|H]; [|exact H]. exfalso. assert ((1 - 16 * u53) * fval rg <= 0) by nra. lra. }
  assert (UG := ule (fval rg) ltac:(lra)). assert (GP : fval rp <= fval rg) by lra.
  destruct (step_y l rp m L P M1 L0 PB ltac:(lra)) as (N1 & N2 & N3). set (n := f_rp_new_from_l_dy l rp m) in *.
  destruct (pay_x l rp m L P M1 L0 PB ltac:(lra) LP) as [Q1 Q2]. fold n in Q1, Q2. set (q := f_dx_from_l_drp l rp n) in *.
  unfold fswap_within_y. rewrite (fle_no d f_zero D fok_zero) by (rewrite fval_zero; lra). cbv zeta. fold rg r m. rewrite (flt_no rg rp G P) by lra.
  assert (DO : fok (f_dy_from_l_drp l rp rg) /\ fval m <= fval (f_dy_from_l_drp l rp rg)).
  { unfold f_dy_from_l_drp. destruct (sub_err rg rp G P) as [S1 S2]; [rewrite Rabs_pos_eq; lra|]. rewrite (Rabs_pos_eq (fval rg - fval rp)) in S2 by lra. apply Rabs_le_inv in S2. set (s := fval (fsub rg rp)) in *. set (z := fval rg - fval rp) in *.
    assert (ZG : z <= fval rg) by (unfold z; lra). assert (UZ : 0 <= u53 * z <= u53 * fval rg) by (split; [apply Rmult_le_pos; unfold z; lra|apply Rmult_le_compat_l; lra]). assert (ZT : T + 16 * (u53 * fval rg) <= z) by (unfold z; lra).
    assert (SL : T + 15 * (u53 * fval rg) <= s) by lra. assert (SH : s <= 1.01 * fval rg) by lra. set (k := fval l * fval rg) in *.
    assert (LS : fval d + 15 * (u53 * k) <= fval l * s). { replace (fval d) with (fval l * T) by (unfold T; field; lra). unfold k. replace (fval l * T + 15 * (u53 * (fval l * fval rg))) with (fval l * (T + 15 * (u53 * fval rg))) by ring. apply Rmult_le_compat_l; lra. }
    assert (LH : fval l * s <= 1.01 * k). { unfold k. replace (1.01 * (fval l * fval rg)) with (fval l * (1.01 * fval rg)) by ring. apply Rmult_le_compat_l; lra. }
    assert (K0 : 0 <= k) by (unfold k; apply Rmult_le_pos; lra). assert (UK := ule k K0). destruct (mul_err l (fsub rg rp) L S1) as [Y1 Y2]; [fold s; rewrite Rabs_pos_eq; lra|]. fold s in Y2. rewrite (Rabs_pos_eq (fval l * s)) in Y2 by lra. apply Rabs_le_inv in Y2.
    split; [exact Y1|]. assert (K1 : small <= 2 * k). { lra. } pose proof (eta_small k ltac:(lra)) as ET. assert (UL : u53 * (fval l * s) <= 1.01 * (u53 * k)). { replace (1.01 * (u53 * k)) with (u53 * (1.01 * k)) by ring. apply Rmult_le_compat_l; lra. } lra. }
  destruct DO as [O1 O2]. rewrite (flt_no _ f_zero O1 fok_zero) by (rewrite fval_zero; lra). rewrite (flt_no _ m O1 M1) by lra. fold n. rewrite (flt_no n rp N1 P) by lra.
  assert (NG : fval n <= fval rg). { apply Rabs_le_inv in N3. set (e := fval m / fval l + fval rp) in *. assert (EG : e <= fval rg - 16 * (u53 * fval rg)) by (unfold e; lra). assert (UE : u53 * e <= u53 * fval rg) by (apply Rmult_le_compat_l; unfold e in *; lra). lra. }
  rewrite (flt_no rg n G N1 NG). cbn [bind]. rewrite C. cbn [orb bind]. fold q.
  assert (Q0 : fval q <= 0).
  { assert (NB : fval n <= big) by lra. destruct (inv_f n N1 ltac:(lra)) as [I1 I2]. destruct (inv_f rp P ltac:(lra)) as [J1 J2].
    assert (XR : 0 < / fval rp <= big). { split; [apply Rinv_0_lt_compat; lra|rewrite <- inv_big; apply Rinv_le_contravar; lra]. } assert (XN : 0 < / fval n <= / fval rp). { split; [apply Rinv_0_lt_compat; lra|apply Rinv_le_contravar; lra]. }
    apply Rabs_le_inv in I2. apply Rabs_le_inv in J2. pose proof (ule (/ fval n) ltac:(lra)) as UI. pose proof (ule (/ fval rp) ltac:(lra)) as UJ.
    assert (IJ : fval (fdiv f_one n) <= fval (fdiv f_one rp)).
    { rewrite (div_R f_one n fok_one N1 ltac:(lra) (proj2 I1)), (div_R f_one rp fok_one P ltac:(lra) (proj2 J1)). apply rnd_le. apply Rmult_le_compat_l; [rewrite fval_one; lra|]. apply Rinv_le_contravar; lra. }
    unfold q, f_dx_from_l_drp in *. assert (S1 : fok (fsub (fdiv f_one n) (fdiv f_one rp))). { apply (sub_err _ _ I1 J1). apply Rabs_le. lra. }
    rewrite (mul_R l _ L S1 (proj2 Q1)), (sub_R _ _ I1 J1 (proj2 S1)). rewrite <- rnd_0. apply rnd_le. rewrite <- (Rmult_0_r (fval l)). apply Rmult_le_compat_l; [lra|]. rewrite <- rnd_0. apply rnd_le. lra. }
  assert (QL : - (fval l * (/ fval rp - / (fval rp + T)) + 16 * u53 * (fval l / fval rp)) <= fval q).
  { apply Rabs_le_inv in Q2. assert (FM : / (fval rp + T) <= / (fval m / fval l + fval rp)) by (apply Rinv_le_contravar; lra). assert (V : fval l * (/ fval rp - / (fval m / fval l + fval rp)) <= fval l * (/ fval rp - / (fval rp + T))) by (apply Rmult_le_compat_l; lra).
    pose proof (ule (fval l / fval rp) ltac:(lra)). lra. }
  assert (PQ : 0 <= fval (fx p) + fval q) by lra.
  destruct (paid_ok q (fx p) Q1 X Q0 PQ XB) as (S1 & S2 & B1 & B2). set (s := fmul q (fsub f_one f_adj)) in *. destruct (sub_same s S1) as [Z1 Z2].
  rewrite (flt_no f_zero s fok_zero S1) by (rewrite fval_zero; lra). rewrite (flt_no (fsub s s) f_zero Z1 fok_zero) by (rewrite fval_zero; lra). rewrite (flt_no _ f_zero B1 fok_zero) by (rewrite fval_zero; lra).
  unfold fwithin_new. rewrite (flt_no m f_zero M1 fok_zero) by (rewrite fval_zero; lra). rewrite (flt_no f_zero s fok_zero S1) by (rewrite fval_zero; lra). rewrite (flt_no (fsub s s) f_zero Z1 fok_zero) by (rewrite fval_zero; lra).
  rewrite (flt_no (fsub d m) f_zero F1 fok_zero) by (rewrite fval_zero; lra). cbn [orb]. rewrite (flt_no n f_zero N1 fok_zero) by (rewrite fval_zero; lra).
  eexists. split; [reflexivity|]. unfold takes_all. cbn [fw_recv fw_fee fw_send fw_adj fw_cross fw_rp]. split; [lra|]. split; [reflexivity|]. split; [reflexivity|]. split; [exact S1|]. split; [lra|]. split; [reflexivity|]. split; [reflexivity|exact N1].
Qed.
End WithinY.
Section WithinX.
Variables (p : fpool) (rp l d o : f64) (g : Z).
Let rg := f_tick_to_rp lm g.
Let r := f_fee_rate p.
Let m := fmul d (fsub f_one r).
Hypothesis L : fok l.
Hypothesis P : fok rp.
Hypothesis D : fok d.
Hypothesis G : fok rg.
Hypothesis R : fok r.
Hypothesis L0 : 0 < fval l.
Hypothesis PB : small <= fval rp <= big.
Hypothesis DB : small <= fval d <= big.
Hypothesis TB : fval d / fval l <= big.
Hypothesis RB : 0 <= fval r <= 2 / 5.
Hypothesis GB : small <= fval rg.
Hypothesis C : feq (f_c p) f_zero = true.
Lemma within_x_fill : small <= fval l * fval rp <= big -> fval l / fval rg <= big -> / fval rp + fval d / fval l <= (1 - 16 * u53) * / fval rg -> 8 * u53 * fval l <= fval d * fval rp ->
  fok (fy p) -> fval (fy p) <= big -> fval l * (fval rp - / (/ fval rp + fval d / fval l)) + 16 * u53 * (fval l * fval rp) <= fval (fy p) ->
  exists w, fswap_within_x lm p rp g l d o = Ok w /\ takes_all d m (fy p) (fval l * (fval rp - / (/ fval rp + fval d / fval l)) + 16 * u53 * (fval l * fval rp)) w.
Proof.
  intros LP LG MG DU X XB XF. destruct (fee_split d r D R DB RB) as (M1 & M2 & F1 & F2 & A1 & A2). fold m in M1, M2, F1, F2, A1, A2. pose proof small_pos as SP. pose proof big_ge as BG. assert (U := u53_tiny).
  set (T := fval d / fval l) in *. assert (IL : 0 < / fval l) by (apply Rinv_0_lt_compat; lra). assert (TM : 0 <= fval m / fval l <= T). { unfold T, Rdiv. split; [apply Rmult_le_pos; lra|apply Rmult_le_compat_r; lra]. }
  assert (XP : 0 < / fval rp) by (apply Rinv_0_lt_compat; lra). assert (XG : 0 < / fval rg) by (apply Rinv_0_lt_compat; lra). assert (XGB : / fval rg <= big) by (rewrite <- inv_big; apply Rinv_le_contravar; lra). assert (UG := ule (/ fval rg) ltac:(lra)).
  assert (GP : / fval rp <= / fval rg) by lra. assert (GP' : fval rg <= fval rp). { rewrite <- (Rinv_inv (fval rg)), <- (Rinv_inv (fval rp)). apply Rinv_le_contravar; lra. }
  assert (DM : 4 * u53 * fval l <= fval m * fval rp). { apply Rle_trans with (fval d / 2 * fval rp); [lra|]. apply Rmult_le_compat_r; lra. }
  destruct (step_x l rp m L P M1 L0 PB ltac:(lra)) as (N1 & N2 & N3 & N4). specialize (N4 DM). set (n := f_rp_new_from_l_dx l rp m) in *.
  destruct (pay_y l rp m L P M1 L0 PB ltac:(lra) LP) as [Q1 Q2]. fold n in Q1, Q2. set (q := f_dy_from_l_drp l rp n) in *.
  unfold fswap_within_x. rewrite (fle_no d f_zero D fok_zero) by (rewrite fval_zero; lra). cbv zeta. fold rg r m. rewrite (flt_no rp rg P G) by lra.
  assert (DO : fok (f_dx_from_l_drp l rp rg) /\ fval m <= fval (f_dx_from_l_drp l rp rg)).
  { unfold f_dx_from_l_drp. destruct (inv_f rg G ltac:(lra)) as [I1 I2]. destruct (inv_f rp P ltac:(lra)) as [J1 J2]. apply Rabs_le_inv in I2. apply Rabs_le_inv in J2. set (x := / fval rp) in *. set (y := / fval rg) in *. assert (UX : 0 <= u53 * x <= u53 * y) by (split; [apply Rmult_le_pos; lra|apply Rmult_le_compat_l; lra]).
    set (i := fdiv f_one rg) in *. set (j := fdiv f_one rp) in *. assert (Z : T + 13 * (u53 * y) <= fval i - fval j <= 1.01 * y) by lra. set (z := fval i - fval j) in *.
    destruct (sub_err i j I1 J1) as [S1 S2]; [fold z; rewrite Rabs_pos_eq; lra|]. fold z in S2. rewrite (Rabs_pos_eq z) in S2 by lra. apply Rabs_le_inv in S2. set (s := fval (fsub i j)) in *.
    assert (UZ : 0 <= u53 * z <= 1.01 * (u53 * y)). { split; [apply Rmult_le_pos; lra|]. replace (1.01 * (u53 * y)) with (u53 * (1.01 * y)) by ring. apply Rmult_le_compat_l; lra. }
    assert (SL : T + 11 * (u53 * y) <= s) by lra. assert (SH : s <= 1.02 * y) by lra. set (k := fval l * y) in *. assert (LG' : k <= big) by exact LG.
    assert (LS : fval d + 11 * (u53 * k) <= fval l * s). { replace (fval d) with (fval l * T) by (unfold T; field; lra). unfold k. replace (fval l * T + 11 * (u53 * (fval l * y))) with (fval l * (T + 11 * (u53 * y))) by ring. apply Rmult_le_compat_l; lra. }
    assert (LH : fval l * s <= 1.02 * k). { unfold k. replace (1.02 * (fval l * y)) with (fval l * (1.02 * y)) by ring. apply Rmult_le_compat_l; lra. }
    assert (K0 : 0 <= k) by (unfold k; apply Rmult_le_pos; lra). assert (UK := ule k K0). destruct (mul_err l (fsub i j) L S1) as [Y1 Y2]; [fold s; rewrite Rabs_pos_eq; lra|]. fold s in Y2. rewrite (Rabs_pos_eq (fval l * s)) in Y2 by lra. apply Rabs_le_inv in Y2.
    split; [exact Y1|]. assert (K1 : small <= 2 * k) by lra. pose proof (eta_small k ltac:(lra)) as ET. assert (UL : u53 * (fval l * s) <= 1.02 * (u53 * k)). { replace (1.02 * (u53 * k)) with (u53 * (1.02 * k)) by ring. apply Rmult_le_compat_l; lra. } lra. }
  destruct DO as [O1 O2]. rewrite (flt_no _ f_zero O1 fok_zero) by (rewrite fval_zero; lra). rewrite (flt_no _ m O1 M1) by lra. fold n. rewrite (flt_no rp n P N1) by lra.
  assert (NG : fval rg <= fval n).
  { apply Rabs_le_inv in N3. set (t := fval m / fval l + / fval rp) in *. assert (T0 : 0 < t) by (unfold t; lra). assert (TG : t <= (1 - 16 * u53) * / fval rg) by (unfold t; lra). assert (E0 : 0 < / t) by (apply Rinv_0_lt_compat; lra).
    assert (TE : t * / t = 1) by (apply Rinv_r; lra). assert (EG : fval rg <= (1 - 16 * u53) * / t).
    { assert (H : fval rg * / t * t <= fval rg * / t * ((1 - 16 * u53) * / fval rg)) by (apply Rmult_le_compat_l; [apply Rmult_le_pos; lra|exact TG]). replace (fval rg * / t * t) with (fval rg) in H by (field; lra). replace (fval rg * / t * ((1 - 16 * u53) * / fval rg)) with ((1 - 16 * u53) * / t) in H by (field; lra). exact H. }
    pose proof (ule (/ t) ltac:(lra)). lra. }
  rewrite (flt_no n rg N1 G NG). cbn [bind]. rewrite C. cbn [orb bind]. fold q.
  assert (Q0 : fval q <= 0).
  { unfold q, f_dy_from_l_drp in *. assert (S1 : fok (fsub n rp)). { apply (sub_err _ _ N1 P). apply Rabs_le. lra. }
    rewrite (mul_R l _ L S1 (proj2 Q1)), (sub_R _ _ N1 P (proj2 S1)). rewrite <- rnd_0. apply rnd_le. rewrite <- (Rmult_0_r (fval l)). apply Rmult_le_compat_l; [lra|]. rewrite <- rnd_0. apply rnd_le. lra. }
  assert (QL : - (fval l * (fval rp - / (/ fval rp + T)) + 16 * u53 * (fval l * fval rp)) <= fval q).
  { apply Rabs_le_inv in Q2. assert (FM : / (/ fval rp + T) <= / (fval m / fval l + / fval rp)) by (apply Rinv_le_contravar; lra). assert (V : fval l * (fval rp - / (fval m / fval l + / fval rp)) <= fval l * (fval rp - / (/ fval rp + T))) by (apply Rmult_le_compat_l; lra).
    pose proof (ule (fval l * fval rp) ltac:(lra)). lra. }
  assert (PQ : 0 <= fval (fy p) + fval q) by lra.
  destruct (paid_ok q (fy p) Q1 X Q0 PQ XB) as (S1 & S2 & B1 & B2). set (s := fmul q (fsub f_one f_adj)) in *. destruct (sub_same s S1) as [Z1 Z2].
  rewrite (flt_no f_zero s fok_zero S1) by (rewrite fval_zero; lra). rewrite (flt_no (fsub s s) f_zero Z1 fok_zero) by (rewrite fval_zero; lra). rewrite (flt_no _ f_zero B1 fok_zero) by (rewrite fval_zero; lra).
  unfold fwithin_new. rewrite (flt_no m f_zero M1 fok_zero) by (rewrite fval_zero; lra). rewrite (flt_no f_zero s fok_zero S1) by (rewrite fval_zero; lra). rewrite (flt_no (fsub s s) f_zero Z1 fok_zero) by (rewrite fval_zero; lra).
  rewrite (flt_no (fsub d m) f_zero F1 fok_zero) by (rewrite fval_zero; lra). cbn [orb]. rewrite (flt_no n f_zero N1 fok_zero) by (rewrite fval_zero; lra).
  eexists. split; [reflexivity|]. unfold takes_all. cbn [fw_recv fw_fee fw_send fw_adj fw_cross fw_rp]. split; [lra|]. split; [reflexivity|]. split; [reflexivity|]. split; [exact S1|]. split; [lra|]. split; [reflexivity|]. split; [reflexivity|exact N1].
Qed.
End WithinX.

(** the pass, and the end of the loop *)
Lemma send_sum pot s : fok pot -> fok s -> fval s <= 0 <= fval pot + fval s -> fval pot <= big -> fok (fadd pot s) /\ 0 <= fval (fadd pot s).
Proof.
  intros P S H B. pose proof big_ge. destruct (add_R' pot s P S) as [A1 A2]. { apply top_big. apply Rabs_le. lra. } split; [exact A1|]. rewrite A2. apply rnd_ge0. lra.
Qed.
Lemma pot_left pot s : fok pot -> fok s -> fval s <= 0 <= fval pot + fval s -> fval pot <= big -> fle f_zero (fsub (fadd pot s) (fsub s s)) = true.
Proof.
  intros P S H B. destruct (send_sum pot s P S H B) as [A1 A2]. destruct (sub_same s S) as [Z1 Z2]. destruct (sub_R' (fadd pot s) (fsub s s) A1 Z1) as [Y1 Y2].
  { rewrite Z2, Rminus_0_r, rnd_fval by apply A1. apply fval_top. apply A1. }
  apply fle_yes; [exact fok_zero|exact Y1|]. rewrite fval_zero, Y2, Z2, Rminus_0_r. apply rnd_ge0. exact A2.
Qed.
Lemma fill_y p d o n g lim : fok d -> fok (f_fee_rate p) -> small <= fval d <= big -> 0 <= fval (f_fee_rate p) <= 2 / 5 -> fok (fx p) -> fval (fx p) <= big ->
  flt f_zero (fglbl_liq p) = true -> fget_right_limit p (fglbl_tick p) (fglbl_tick p) = Ok (Some g) ->
  (exists w, fswap_within_y lm p (fglbl_rp p) g (fglbl_liq p) d o = Ok w /\ takes_all d (fmul d (fsub f_one (f_fee_rate p))) (fx p) lim w) ->
  exists p' out, fexecute_swap_y lm (S (S n)) p d o = Ok (p', out) /\ fval (fso_recv out) = fval d /\ - lim <= fval (fso_send out) <= 0.
Proof.
  intros D R DB RB X XB LQ GL (w & W & T0 & T1 & T2 & T3 & T4 & T5 & T6 & T7). destruct (fee_split d _ D R DB RB) as (M1 & M2 & F1 & F2 & A1 & A2). set (m := fmul d (fsub f_one (f_fee_rate p))) in *. pose proof small_pos as SP.
  unfold fexecute_swap_y. rewrite (fle_no d f_zero D fok_zero) by (rewrite fval_zero; lra). cbn [fswap_y_loop fl_in fl_t fl_rp]. rewrite (flt_yes f_zero d fok_zero D) by (rewrite fval_zero; lra). cbn [negb].
  rewrite LQ, GL. cbn [bind fl_in fl_out fl_adj fl_fee fl_t fl_rp]. unfold fswap_y_step at 1. cbn [fl_in fl_rp]. rewrite (sub_zero d) by lra. rewrite W. cbn [bind]. rewrite T5, T6, T2, T1. rewrite (pot_left _ _ X T3 T4 XB). cbn [assert bind].
  assert (E : fle (fadd m (fsub d m)) d = true) by (apply fle_yes; [exact A1|exact D|lra]). rewrite E. cbn [assert bind fl_in fl_out fl_adj fl_fee fl_t fl_rp]. destruct (add_zero _ A1) as [I1 I2].
  rewrite (flt_no _ d I1 D) by lra. cbn [negb]. unfold fswap_y_end. cbn [fl_in fl_out fl_adj fl_fee fl_t fl_rp]. destruct (add_zero _ T3) as [O1 O2]. destruct (sub_same _ T3) as [Z1 Z2]. destruct (add_zero _ Z1) as [J1 J2]. destruct (add_zero _ F1) as [K1 K2].
  unfold fswap_out_new. rewrite (flt_no _ f_zero I1 fok_zero) by (rewrite fval_zero; lra). rewrite (flt_no f_zero _ fok_zero O1) by (rewrite fval_zero; lra). rewrite (flt_no _ f_zero J1 fok_zero) by (rewrite fval_zero; lra). rewrite (flt_no _ f_zero K1 fok_zero) by (rewrite fval_zero; lra). cbn [orb].
  match goal with |- context [flt (if ?b then ?a else f_zero) f_zero] => assert (AV : flt (if b then a else f_zero) f_zero = false) end.
  { destruct (feq _ f_zero) eqn:FE; [reflexivity|]. cbn [negb]. rewrite feq_R in FE by (assumption || exact fok_zero). rewrite fval_zero in FE. destruct (Req_bool_spec (fval (fadd f_zero (fw_send w))) 0) as [|NE]; [discriminate|]. 
    apply div_neg; [apply fok_neg; exact I1|exact O1|rewrite fval_opp; lra|lra]. }
  rewrite AV. clear AV. cbn [orb].
  match goal with |- context [flt (fsquare ?a) f_zero] => assert (SQ : flt (fsquare a) f_zero = false) end.
  { apply sq_nn. destruct (flt f_zero _); exact T7. }
  rewrite SQ. cbn [bind]. eexists. eexists. split; [reflexivity|]. cbn [fso_recv fso_send]. rewrite O2. lra.
Qed.
Lemma fill_x p d o n g lim : fok d -> fok (f_fee_rate p) -> small <= fval d <= big -> 0 <= fval (f_fee_rate p) <= 2 / 5 -> fok (fy p) -> fval (fy p) <= big ->
  flt f_zero (fglbl_liq p) = true -> fget_left_limit p (fglbl_tick p) = Some g ->
  (exists w, fswap_within_x lm p (fglbl_rp p) g (fglbl_liq p) d o = Ok w /\ takes_all d (fmul d (fsub f_one (f_fee_rate p))) (fy p) lim w) ->
  exists p' out, fexecute_swap_x lm (S (S n)) p d o = Ok (p', out) /\ fval (fso_recv out) = fval d /\ - lim <= fval (fso_send out) <= 0.
Proof.
  intros D R DB RB X XB LQ GL (w & W & T0 & T1 & T2 & T3 & T4 & T5 & T6 & T7). destruct (fee_split d _ D R DB RB) as (M1 & M2 & F1 & F2 & A1 & A2). set (m := fmul d (fsub f_one (f_fee_rate p))) in *. pose proof small_pos as SP.
  unfold fexecute_swap_x. rewrite (fle_no d f_zero D fok_zero) by (rewrite fval_zero; lra). cbn [fswap_x_loop fl_in fl_t fl_rp]. rewrite (flt_yes f_zero d fok_zero D) by (rewrite fval_zero; lra). cbn [negb].
  rewrite LQ, GL. cbn [bind fl_in fl_out fl_adj fl_fee fl_t fl_rp]. unfold fswap_x_step at 1. cbn [fl_in fl_rp]. rewrite (sub_zero d) by lra. rewrite W. cbn [bind]. rewrite T5, T6, T2, T1. rewrite (pot_left _ _ X T3 T4 XB). cbn [assert bind].
  assert (E : fle (fadd m (fsub d m)) d = true) by (apply fle_yes; [exact A1|exact D|lra]). rewrite E. cbn [assert bind fl_in fl_out fl_adj fl_fee fl_t fl_rp]. destruct (add_zero _ A1) as [I1 I2].
  rewrite (flt_no _ d I1 D) by lra. cbn [negb]. unfold fswap_x_end. cbn [fl_in fl_out fl_adj fl_fee fl_t fl_rp]. destruct (add_zero _ T3) as [O1 O2]. destruct (sub_same _ T3) as [Z1 Z2]. destruct (add_zero _ Z1) as [J1 J2]. destruct (add_zero _ F1) as [K1 K2].
  unfold fswap_out_new. rewrite (flt_no _ f_zero I1 fok_zero) by (rewrite fval_zero; lra). rewrite (flt_no f_zero _ fok_zero O1) by (rewrite fval_zero; lra). rewrite (flt_no _ f_zero J1 fok_zero) by (rewrite fval_zero; lra). rewrite (flt_no _ f_zero K1 fok_zero) by (rewrite fval_zero; lra). cbn [orb].
  match goal with |- context [flt (if ?b then ?a else f_zero) f_zero] => assert (AV : flt (if b then a else f_zero) f_zero = false) end.
  { destruct (feq _ f_zero); [reflexivity|]. cbn [negb]. apply div_nn; [apply fok_neg; exact O1|exact I1|rewrite fval_opp; lra|lra]. }
  rewrite AV. clear AV. cbn [orb].
  match goal with |- context [flt (fsquare ?a) f_zero] => assert (SQ : flt (fsquare a) f_zero = false) end.
  { apply sq_nn. destruct (flt f_zero _); exact T7. }
  rewrite SQ. cbn [bind]. eexists. eexists. split; [reflexivity|]. cbn [fso_recv fso_send]. rewrite O2. lra.
Qed.
End Fill.
