(** Calls of the f64 pool that keep its reserves finite. *)
From Coq Require Import ZArith Reals Lra Lia List Bool String Floats.SpecFloat.
From Flocq Require Import Core BinarySingleNaN.
From Verif Require Import Base FloatBase FloatModel FloatFacts FloatWf FloatSwap FloatLp FloatFlow.
Import ListNotations.
Open Scope R_scope.

(** *** sizes of results *)
Definition cap (k : Z) (x : f64) : Prop := fok x /\ Rabs (fval x) <= bpow radix2 k.
Lemma bp_fmt k : (-1000 <= k <= 1020)%Z -> generic_format radix2 fexp64 (bpow radix2 k).
Proof. intros H. apply generic_format_bpow. unfold fexp64, SpecFloat.fexp, SpecFloat.emin. lia. Qed.
Lemma rnd_cap r k : (-1000 <= k <= 1020)%Z -> Rabs r <= bpow radix2 k -> Rabs (rnd r) <= bpow radix2 k.
Proof. intros H R. apply abs_round_le_generic; auto with typeclass_instances. now apply bp_fmt. Qed.
Lemma rnd_floor r k : (-1000 <= k <= 1020)%Z -> bpow radix2 k <= r -> bpow radix2 k <= rnd r.
Proof. intros H R. apply round_ge_generic; auto with typeclass_instances. now apply bp_fmt. Qed.
Lemma cap_top k : (k <= 1020)%Z -> bpow radix2 k < top.
Proof. intros H. unfold top. apply bpow_lt. lia. Qed.
Lemma cap_le i j x : (i <= j)%Z -> cap i x -> cap j x.
Proof. intros H [F R]. split; [exact F|]. eapply Rle_trans; [exact R|]. now apply bpow_le. Qed.
Lemma cap_mul i j a b : (-1000 <= i + j <= 1020)%Z -> cap i a -> cap j b -> cap (i + j) (fmul a b).
Proof.
  intros H [A RA] [B RB]. assert (R : Rabs (fval a * fval b) <= bpow radix2 (i + j)) by (rewrite Rabs_mult, bpow_plus; apply Rmult_le_compat; auto using Rabs_pos).
  apply (rnd_cap _ _ H) in R. destruct (mul_R' a b A B) as [F V]; [eapply Rle_lt_trans; [exact R|apply cap_top; lia]|]. split; [exact F|]. now rewrite V.
Qed.
Lemma cap_div i j a b : (-1000 <= i + j <= 1020)%Z -> cap i a -> fok b -> bpow radix2 (- j) <= fval b -> cap (i + j) (fdiv a b).
Proof.
  intros H [A RA] B RB. pose proof (bpow_gt_0 radix2 (- j)) as P.
  assert (R : Rabs (fval a / fval b) <= bpow radix2 (i + j)).
  { unfold Rdiv. rewrite Rabs_mult, bpow_plus. apply Rmult_le_compat; auto using Rabs_pos. rewrite Rabs_pos_eq by (left; apply Rinv_0_lt_compat; lra).
    replace (bpow radix2 j) with (/ bpow radix2 (- j)) by (rewrite <- bpow_opp; f_equal; lia). apply Rinv_le_contravar; lra. }
  apply (rnd_cap _ _ H) in R. destruct (div_R' a b A B ltac:(lra)) as [F V]; [eapply Rle_lt_trans; [exact R|apply cap_top; lia]|]. split; [exact F|]. now rewrite V.
Qed.
Lemma cap2 i x y : Rabs x <= bpow radix2 i -> Rabs y <= bpow radix2 i -> Rabs (x + y) <= bpow radix2 (i + 1) /\ Rabs (x - y) <= bpow radix2 (i + 1).
Proof. intros X Y. rewrite bpow_plus. change (bpow radix2 1) with 2. rabs. split; apply Rabs_le; lra. Qed.
Lemma cap_add i a b : (-1000 <= i + 1 <= 1020)%Z -> cap i a -> cap i b -> cap (i + 1) (fadd a b).
Proof.
  intros H [A RA] [B RB]. destruct (cap2 _ _ _ RA RB) as [R _]. apply (rnd_cap _ _ H) in R.
  destruct (add_R' a b A B) as [F V]; [eapply Rle_lt_trans; [exact R|apply cap_top; lia]|]. split; [exact F|]. now rewrite V.
Qed.
Lemma cap_sub i a b : (-1000 <= i + 1 <= 1020)%Z -> cap i a -> cap i b -> cap (i + 1) (fsub a b).
Proof.
  intros H [A RA] [B RB]. destruct (cap2 _ _ _ RA RB) as [_ R]. apply (rnd_cap _ _ H) in R.
  destruct (sub_R' a b A B) as [F V]; [eapply Rle_lt_trans; [exact R|apply cap_top; lia]|]. split; [exact F|]. now rewrite V.
Qed.
Lemma cap_floor i a : (0 <= i)%Z -> cap i a -> cap i (ffloor a).
Proof.
  intros I [A R]. destruct (floor_R a A) as [F V]. split; [exact F|]. rewrite V. apply Rabs_le_inv in R. apply Rabs_le. split.
  - assert (Q : - bpow radix2 i = IZR (- 2 ^ i)) by (rewrite <- (IZR_Zpower radix2) by exact I; now rewrite opp_IZR). rewrite Q in *. apply IZR_le, Zfloor_lub. lra.
  - pose proof (Zfloor_lb (fval a)). lra.
Qed.

(** *** prices and their differences *)
Definition price (x : f64) : Prop := fok x /\ bpow radix2 (-100) <= fval x <= bpow radix2 100.
Lemma price_cap x : price x -> cap 100 x.
Proof. intros [F R]. split; [exact F|]. pose proof (bpow_gt_0 radix2 (-100)). rewrite Rabs_pos_eq; lra. Qed.
Lemma gap a b : price a -> price b -> fval a < fval b -> fok (fsub b a) /\ bpow radix2 (- 152) <= fval (fsub b a).
Proof.
  intros A B L. destruct (cap_sub 100 b a ltac:(lia) (price_cap _ B) (price_cap _ A)) as [F _]. split; [exact F|].
  rewrite (sub_R b a (proj1 B) (proj1 A) (proj2 F)). apply rnd_floor; [lia|]. destruct A as [FA [A1 A2]], B as [FB _].
  assert (P := bpow_gt_0 radix2 (-100)). assert (FM := fval_fmt a (proj1 FA)). assert (FN := fval_fmt b (proj1 FB)).
  assert (S := succ_le_lt radix2 fexp64 (fval a) (fval b) FM FN L). assert (A0 : 0 <= fval a) by lra. rewrite (succ_eq_pos _ _ _ A0) in S.
  assert (U : ulp radix2 fexp64 (bpow radix2 (-100)) <= ulp radix2 fexp64 (fval a)) by (apply ulp_le_pos; [apply fexp_correct; reflexivity|apply fexp_monotone|left; apply bpow_gt_0|exact A1]).
  rewrite ulp_bpow in U. change (SpecFloat.fexp 53 1024 (-100 + 1)) with (-152)%Z in U. apply Rle_trans with (ulp radix2 fexp64 (fval a)); [exact U|]. lra.
Qed.
Lemma clamp_price rp a b : price rp -> price a -> price b -> price (fmax (fmin rp b) a).
Proof.
  intros R A B. assert (M : price (fmin rp b)). { unfold fmin. destruct (flt b rp); [exact B|]. destruct (f_is_nan rp); assumption. }
  unfold fmax. destruct (flt _ a); [exact A|]. destruct (f_is_nan _); assumption.
Qed.
Lemma x_only_cap x a b : cap 200 x -> price a -> price b -> fval a < fval b -> cap 552 (f_liq_x_only x a b).
Proof.
  intros X A B L. destruct (gap a b A B L) as [G1 G2]. unfold f_liq_x_only.
  apply (cap_div 400 152); [lia| |exact G1|exact G2]. apply (cap_mul 300 100); [lia| |now apply price_cap]. apply (cap_mul 200 100); [lia|exact X|now apply price_cap].
Qed.
Lemma y_only_cap y a b : cap 200 y -> price a -> price b -> fval a < fval b -> cap 552 (f_liq_y_only y a b).
Proof.
  intros Y A B L. destruct (gap a b A B L) as [G1 G2]. unfold f_liq_y_only.
  apply (cap_le 352); [lia|]. apply (cap_div 200 152); [lia|exact Y|exact G1|exact G2].
Qed.
Lemma liq_cap x y rp a b : cap 200 x -> cap 200 y -> price rp -> price a -> price b -> fval a < fval b -> cap 552 (ffloor (f_liq_from_x_y_rp_rng x y rp a b)).
Proof.
  intros X Y R A B L. apply cap_floor; [lia|]. unfold f_liq_from_x_y_rp_rng. destruct (fle rp a) eqn:E1; [now apply x_only_cap|].
  destruct (flt rp b) eqn:E2; [|now apply y_only_cap]. apply (fle_f _ _ (proj1 R) (proj1 A)) in E1. apply (flt_t _ _ (proj1 R) (proj1 B)) in E2.
  assert (C1 := x_only_cap x rp b X R B E2). assert (C2 := y_only_cap y a rp Y A R E1). unfold fmin.
  destruct (flt _ _); [exact C2|]. destruct (f_is_nan _); assumption.
Qed.
Lemma x_quote_cap l rp a b : cap 600 l -> price rp -> price a -> price b -> cap 901 (f_x_from_l_rp_rng l rp a b).
Proof.
  intros L R A B. unfold f_x_from_l_rp_rng. assert (C := clamp_price rp a b R A B). set (c := fmax _ _) in *. clearbody c.
  assert (N := cap_mul 600 101 _ _ ltac:(lia) L (cap_sub 100 b c ltac:(lia) (price_cap _ B) (price_cap _ C))).
  assert (M := cap_mul 100 100 _ _ ltac:(lia) (price_cap _ C) (price_cap _ B)).
  apply (cap_div (600 + 101) 200); [lia|exact N|apply M|]. destruct M as [M _], B as [FB [B1 B2]], C as [FC [C1 C2]].
  assert (P := bpow_gt_0 radix2 (-100)). assert (Q : bpow radix2 (- 200) <= fval c * fval b) by (change (-200)%Z with (-100 + -100)%Z; rewrite bpow_plus; apply Rmult_le_compat; lra).
  destruct (mul_R' c b FC FB) as [_ ->].
  - apply Rle_lt_trans with (bpow radix2 200); [|apply cap_top; lia]. apply rnd_cap; [lia|]. rewrite Rabs_pos_eq by (apply Rmult_le_pos; lra).
    change 200%Z with (100 + 100)%Z. rewrite bpow_plus. apply Rmult_le_compat; lra.
  - apply rnd_floor; [lia|exact Q].
Qed.
Lemma y_quote_cap l rp a b : cap 600 l -> price rp -> price a -> price b -> cap 901 (f_y_from_l_rp_rng l rp a b).
Proof.
  intros L R A B. unfold f_y_from_l_rp_rng. assert (C := clamp_price rp a b R A B). set (c := fmax _ _) in *. clearbody c.
  apply (cap_le (600 + 101)); [lia|]. apply cap_mul; [lia|exact L|]. apply (cap_sub 100); [lia|now apply price_cap|now apply price_cap].
Qed.
Lemma kept_cap : cap 1 (fsub f_one f_adj).
Proof.
  assert (A : cap 0 f_adj).
  { split; [split; reflexivity|]. unfold fval, f_adj, SF2R, F2R. cbn [cond_Zopp Fnum Fexp bpow].
    rewrite Rabs_pos_eq by (apply Rmult_le_pos; [apply (IZR_le 0); discriminate|left; apply Rinv_0_lt_compat, IZR_lt; reflexivity]).
    apply Rmult_le_reg_r with (IZR (Z.pow_pos radix2 92)); [apply IZR_lt; reflexivity|]. rewrite Rmult_assoc, Rinv_l by (apply IZR_neq; discriminate). rewrite Rmult_1_r, Rmult_1_l. apply IZR_le. discriminate. }
  apply (cap_sub 0); [lia| |exact A]. split; [exact fok_one|]. rewrite fval_one, Rabs_pos_eq by lra. cbn. lra.
Qed.

(** *** one pass of a swap *)
Lemma add_near a b : fok a -> fok b -> Rabs (rnd (fval a + fval b) - (fval a + fval b)) <= Rabs (fval b).
Proof.
  intros A B. destruct (round_N_pt radix2 fexp64 (fun z => negb (Z.even z)) (fval a + fval b)) as [_ N].
  specialize (N (fval a) (fval_fmt a (proj1 A))). replace (fval a - (fval a + fval b)) with (- fval b) in N by ring. rewrite Rabs_Ropp in N. exact N.
Qed.
Lemma add_in a b A D : fok a -> fok b -> Rabs (fval a) <= A -> 0 <= fval b <= D -> A + 2 * D <= bpow radix2 1000 -> fok (fadd a b) /\ Rabs (fval (fadd a b)) <= A + 2 * D.
Proof.
  intros FA FB RA RB G. assert (N := add_near a b FA FB). rewrite (Rabs_pos_eq (fval b)) in N by lra.
  assert (R : Rabs (rnd (fval a + fval b)) <= A + 2 * D) by (rabs; apply Rabs_le; lra).
  destruct (add_R' a b FA FB) as [F V]; [|rewrite V; auto]. eapply Rle_lt_trans; [exact R|]. eapply Rle_lt_trans; [exact G|apply cap_top; lia].
Qed.
Lemma add_any a b A D : fok a -> fok b -> Rabs (fval a) <= A -> Rabs (fval b) <= D -> A + 2 * D <= bpow radix2 1000 -> fok (fadd a b) /\ Rabs (fval (fadd a b)) <= A + 2 * D.
Proof.
  intros FA FB RA RB G. assert (N := add_near a b FA FB).
  assert (R : Rabs (rnd (fval a + fval b)) <= A + 2 * D) by (assert (N2 := Rle_trans _ _ _ N RB); clear N; rabs; apply Rabs_le; lra).
  destruct (add_R' a b FA FB) as [F V]; [|rewrite V; auto]. eapply Rle_lt_trans; [exact R|]. eapply Rle_lt_trans; [exact G|apply cap_top; lia].
Qed.
Lemma sub_any a b A D : fok a -> fok b -> Rabs (fval a) <= A -> Rabs (fval b) <= D -> A + 2 * D <= bpow radix2 1000 -> fok (fsub a b) /\ Rabs (fval (fsub a b)) <= A + 2 * D.
Proof. intros FA FB RA RB G. rewrite sub_neg. apply add_any; auto; [now apply fok_neg|]. now rewrite fval_opp, Rabs_Ropp. Qed.
Lemma pot_fin a s j : fok a -> f64_ok s -> f64_ok j -> flt f_zero s = false -> flt j f_zero = false -> fle f_zero (fsub (fadd a s) j) = true ->
  fok s /\ fok j /\ fval s <= 0 /\ 0 <= fval j /\ 0 <= fval a /\ - fval a <= fval s /\ fval j <= 2 * fval a.
Proof.
  intros FA S J NS NJ H.
  assert (FS : fok s).
  { split; [exact S|]. destruct s as [[]|[]| |[] ? ?]; try reflexivity; try discriminate; destruct FA as [_ FA]; destruct a as [[]|[]| |[] ? ?]; try discriminate;
      destruct j as [[]|[]| |[] ? ?]; discriminate. }
  pose proof (flt_f _ _ fok_zero FS NS) as PS. rewrite fval_zero in PS.
  assert (FZ : fok (fadd a s)).
  { destruct (add_cases a s FA FS) as [Q|(G & [(E & P & Q)|(E & _)])]; [exact Q| |].
    - assert (Z : fval s = 0) by lra. rewrite Z, Rplus_0_r, (rnd_fval a (proj1 FA)) in G. pose proof (fval_top a (proj1 FA)). lra.
    - rewrite E in H. destruct j as [[]|[]| |[] ? ?]; discriminate. }
  assert (FJ : fok j).
  { split; [exact J|]. destruct FZ as [_ FZ]. destruct (fadd a s) as [[]|[]| |[] ? ?]; try discriminate; destruct j as [[]|[]| |[] ? ?]; try reflexivity; discriminate. }
  pose proof (flt_f _ _ FJ fok_zero NJ) as PJ. rewrite fval_zero in PJ.
  rewrite sub_neg in H. apply pos_add in H; [|exact FZ|now apply fok_neg]. rewrite fval_opp in H.
  assert (E := add_R a s FA FS (proj2 FZ)). assert (P : 0 <= fval a + fval s). { apply rnd_pos_inv; [apply fval_fmt, FA|apply fval_fmt, FS|]. lra. }
  assert (N := add_near a s FA FS). rewrite <- E in N. rewrite (Rabs_left1 (fval s)) in N by exact PS. rabs. repeat (split; [assumption || lra|]). lra.
Qed.
Lemma out_fin a s j M : fok a -> Rabs (fval a) <= M -> M <= bpow radix2 1000 -> f64_ok s -> f64_ok j -> flt f_zero s = false -> flt j f_zero = false ->
  fle f_zero (fsub (fadd a s) j) = true -> fok (fadd a (fsub s j)) /\ Rabs (fval (fadd a (fsub s j))) <= M.
Proof.
  intros FA RA G S J NS NJ H. destruct (pot_fin a s j FA S J NS NJ H) as (FS & FJ & PS & PJ & PA & LS & LJ).
  assert (B1 : 4 * bpow radix2 1000 = bpow radix2 1002) by (change 4 with (bpow radix2 2); rewrite <- bpow_plus; reflexivity).
  pose proof (bpow_gt_0 radix2 1000) as BP. rewrite Rabs_pos_eq in RA by exact PA.
  assert (R : Rabs (rnd (fval s - fval j)) <= bpow radix2 1002) by (apply rnd_cap; [lia|]; apply Rabs_le; lra).
  destruct (sub_R' s j FS FJ) as [FD VD]; [eapply Rle_lt_trans; [exact R|apply cap_top; lia]|]. rewrite <- VD in R.
  assert (ND : fval (fsub s j) <= 0) by (rewrite VD, <- rnd_0; apply rnd_le; lra).
  assert (LOW : - (2 * fval a) <= fval (fsub s j)).
  { assert (FZ : fok (fadd a s)) by (apply add_R'; auto; apply Rle_lt_trans with (bpow radix2 1000); [apply rnd_cap; [lia|]; apply Rabs_le; lra|apply cap_top; lia]).
    rewrite sub_neg in H. apply pos_add in H; [|exact FZ|now apply fok_neg]. rewrite fval_opp, (add_R a s FA FS (proj2 FZ)) in H.
    assert (E1 := plus_err _ _ (fval_fmt a (proj1 FA)) (fval_fmt s (proj1 FS))). assert (E2 := minus_err _ _ (fval_fmt s (proj1 FS)) (fval_fmt j (proj1 FJ))).
    rewrite (Rabs_pos_eq (fval a + fval s)) in E1 by lra. rewrite (Rabs_left1 (fval s - fval j)) in E2 by lra. rewrite <- VD in E2. pose proof u53_val as U.
    assert (X1 : u53 * (fval a + fval s) <= / 100 * fval a) by (apply Rmult_le_compat; lra).
    assert (X2 : u53 * - (fval s - fval j) <= / 100 * (3 * fval a)) by (apply Rmult_le_compat; lra). rabs. lra. }
  assert (R2 : Rabs (rnd (fval a + fval (fsub s j))) <= fval a).
  { apply Rabs_le. split; [rewrite <- fval_opp, <- (rnd_fval (fneg a)) by (apply neg_ok, FA); apply rnd_le; rewrite fval_opp; lra|].
    apply Rle_trans with (rnd (fval a)); [apply rnd_le; lra|]. rewrite rnd_fval by apply FA. lra. }
  destruct (add_R' a (fsub s j) FA FD) as [F V]; [eapply Rle_lt_trans; [exact R2|]; apply Rle_lt_trans with (bpow radix2 1000); [lra|apply cap_top; lia]|]. split; [exact F|]. rewrite V. lra.
Qed.
Section Lm.
Variable lm : libm.
Hypothesis LM : libm_ok lm.
Lemma left_over dx i : fok dx -> fok i -> 0 <= fval i -> flt i dx = true -> fok (fsub dx i) /\ 0 <= fval (fsub dx i) <= fval dx.
Proof.
  intros D I P L. apply (flt_t _ _ I D) in L. assert (R : 0 <= rnd (fval dx - fval i) <= fval dx).
  { split; [apply rnd_ge0; lra|]. rewrite <- (rnd_fval dx (proj1 D)) at 2. apply rnd_le. lra. }
  destruct (sub_R' dx i D I) as [F V]; [|rewrite V; auto]. rewrite Rabs_pos_eq by apply R. eapply Rle_lt_trans; [apply R|]. pose proof (fval_top dx (proj1 D)) as T. rewrite Rabs_pos_eq in T by lra. exact T.
Qed.
Lemma step_x_fin p s g dx o p' s' A M : fpool_ok p -> s_ok s -> fok dx -> f64_ok o -> fok (fl_in s) -> 0 <= fval (fl_in s) -> flt (fl_in s) dx = true ->
  fok (fx p) -> Rabs (fval (fx p)) <= A -> A + 2 * fval dx <= bpow radix2 1000 -> fok (fy p) -> Rabs (fval (fy p)) <= M -> M <= bpow radix2 1000 ->
  fswap_x_step lm p s g dx o = Ok (p', s') ->
  fok (fx p') /\ Rabs (fval (fx p')) <= A + 2 * fval dx /\ fok (fy p') /\ Rabs (fval (fy p')) <= M.
Proof.
  intros K S D O I1 I2 L FX AX GX FY AY GY H. unfold fswap_x_step in H. mb H. rename a into w.
  assert (W : w_ok w). { eapply (fwithin_x_ok lm LM); [exact K| | | | |exact E]; auto; try apply S; try apply K. apply sub_ok; [apply D|apply S]. }
  mb H. apply assertE in E0. mb H. apply assertE in E1. mb H. rename a1 into q. injection H as <- <-. clear E.
  match type of E2 with (if _ then (let* _ := _ in match ftm_get _ (fticks ?rr) with _ => _ end) else _) = _ => set (r := rr) in E2 end.
  assert (Q : funds q = funds r).
  { destruct (fw_cross w); [|now injection E2 as <-]. mb E2. destruct (ftm_get g (fticks r)); [now apply fcross_funds in E2|now injection E2 as <-]. }
  assert (R : funds r = (fadd (fx p) (fw_recv w), fadd (fy p) (fsub (fw_send w) (fw_adj w)), fx_adj p, fadd (fy_adj p) (fw_adj w), fadd (fx_fee p) (fw_fee w), fy_fee p)).
  { subst r. destruct (flt f_zero _); reflexivity. }
  clear E2. clearbody r. rewrite R in Q. unfold funds in Q. injection Q as Q1 Q2 _ _ _ _. rewrite Q1, Q2.
  destruct W as (W1 & W2 & W3 & W4 & W5 & W6 & W7 & W8 & W9). destruct (left_over dx _ D I1 I2 L) as [LO LV].
  destruct (sum_le _ _ _ W1 W5 W6 W9 LO E1) as (F1 & F2 & F3 & F4 & F5 & F6).
  assert (RV : fval (fw_recv w) <= fval dx).
  { rewrite (add_R _ _ F3 F4 (proj2 F1)) in F2. apply Rle_trans with (rnd (fval (fw_recv w) + fval (fw_fee w))); [|lra].
    rewrite <- (rnd_fval _ W1) at 1. apply rnd_le. lra. }
  destruct (add_in _ _ A (fval dx) FX F3 AX (conj F5 RV) GX) as [X1 X2].
  destruct (out_fin _ _ _ M FY AY GY W2 W4 W7 W8 E0) as (Y1 & Y2). auto.
Qed.
Lemma step_y_fin p s g dx o p' s' A M : fpool_ok p -> s_ok s -> fok dx -> f64_ok o -> fok (fl_in s) -> 0 <= fval (fl_in s) -> flt (fl_in s) dx = true ->
  fok (fy p) -> Rabs (fval (fy p)) <= A -> A + 2 * fval dx <= bpow radix2 1000 -> fok (fx p) -> Rabs (fval (fx p)) <= M -> M <= bpow radix2 1000 ->
  fswap_y_step lm p s g dx o = Ok (p', s') ->
  fok (fy p') /\ Rabs (fval (fy p')) <= A + 2 * fval dx /\ fok (fx p') /\ Rabs (fval (fx p')) <= M.
Proof.
  intros K S D O I1 I2 L FX AX GX FY AY GY H. unfold fswap_y_step in H. mb H. rename a into w.
  assert (W : w_ok w). { eapply (fwithin_y_ok lm LM); [exact K| | | | |exact E]; auto; try apply S; try apply K. apply sub_ok; [apply D|apply S]. }
  mb H. apply assertE in E0. mb H. apply assertE in E1. mb H. rename a1 into q. injection H as <- <-. clear E.
  match type of E2 with (if _ then (let* _ := _ in match ftm_get _ (fticks ?rr) with _ => _ end) else _) = _ => set (r := rr) in E2 end.
  assert (Q : funds q = funds r).
  { destruct (fw_cross w); [|now injection E2 as <-]. mb E2. destruct (ftm_get g (fticks r)); [now apply fcross_funds in E2|now injection E2 as <-]. }
  assert (R : funds r = (fadd (fx p) (fsub (fw_send w) (fw_adj w)), fadd (fy p) (fw_recv w), fadd (fx_adj p) (fw_adj w), fy_adj p, fx_fee p, fadd (fy_fee p) (fw_fee w))).
  { subst r. destruct (flt f_zero _); reflexivity. }
  clear E2. clearbody r. rewrite R in Q. unfold funds in Q. injection Q as Q1 Q2 _ _ _ _. rewrite Q1, Q2.
  destruct W as (W1 & W2 & W3 & W4 & W5 & W6 & W7 & W8 & W9). destruct (left_over dx _ D I1 I2 L) as [LO LV].
  destruct (sum_le _ _ _ W1 W5 W6 W9 LO E1) as (F1 & F2 & F3 & F4 & F5 & F6).
  assert (RV : fval (fw_recv w) <= fval dx).
  { rewrite (add_R _ _ F3 F4 (proj2 F1)) in F2. apply Rle_trans with (rnd (fval (fw_recv w) + fval (fw_fee w))); [|lra].
    rewrite <- (rnd_fval _ W1) at 1. apply rnd_le. lra. }
  destruct (add_in _ _ A (fval dx) FX F3 AX (conj F5 RV) GX) as [X1 X2].
  destruct (out_fin _ _ _ M FY AY GY W2 W4 W7 W8 E0) as (Y1 & Y2). auto.
Qed.
Lemma loop_x_fin n : forall p s dx o p' out A M, fpool_ok p -> s_ok s -> fok dx -> f64_ok o -> 0 < fval dx -> in_good dx (fl_in s) ->
  fok (fx p) -> Rabs (fval (fx p)) <= A -> A + 2 * INR n * fval dx <= bpow radix2 1000 -> fok (fy p) -> Rabs (fval (fy p)) <= M -> M <= bpow radix2 1000 ->
  fswap_x_loop lm n p s dx o = Ok (p', out) ->
  fok (fx p') /\ Rabs (fval (fx p')) <= A + 2 * INR n * fval dx /\ fok (fy p') /\ Rabs (fval (fy p')) <= M.
Proof.
  induction n as [|n IH]; intros p s dx o p' out A M K S D O P G FX AX GX FY AY GY H; [discriminate|]. rewrite S_INR in *. pose proof (pos_INR n) as N0.
  assert (ND : 0 <= INR n * fval dx) by (apply Rmult_le_pos; lra). pose proof (Rabs_pos (fval (fx p))) as RP.
  assert (DX : fval dx <= bpow radix2 1023). { apply Rle_trans with (bpow radix2 1000); [lra|apply bpow_le; lia]. }
  cbn [fswap_x_loop] in H. destruct (flt (fl_in s) dx) eqn:L; cbn [negb] in H; [|apply fend_x_ok in H as [-> _]; repeat split; try apply FX; try apply FY; lra].
  destruct (G D DX P) as [I1 I2]. mb H. destruct a as [[q g] rp].
  assert (Q : fpool_ok q /\ funds q = funds p /\ f64_ok rp).
  { destruct (flt f_zero _).
    - injection E as <- <- <-. split; [exact K|]. split; [reflexivity|apply S].
    - destruct (fgir_ok lm LM _ _ _ _ _ K E) as (B1 & _ & B2). split; [exact B1|]. split; [exact (fgir_funds lm _ _ _ _ _ E)|exact B2]. }
  destruct Q as (Q1 & Q2 & Q3). unfold funds in Q2. injection Q2 as QX QY _ _ _ _. rewrite <- QX in FX, AX. rewrite <- QY in FY, AY. set (s1 := mkFL _ _ _ _ _ _) in H.
  assert (S1 : s_ok s1) by (destruct S as (S1 & S2 & S3 & S4 & S5); unfold s_ok; cbn; auto).
  destruct g as [g|]; [|apply fend_x_ok in H as [-> _]; repeat split; try apply FX; try apply FY; lra].
  mb H. destruct a as [q2 s2].
  destruct (step_x_fin q s1 g dx o q2 s2 A M Q1 S1 D O I1 (proj1 I2) L FX AX ltac:(lra) FY AY GY E0) as (X1 & X2 & Y1 & Y2).
  destruct (fstep_x_ok lm LM _ _ _ _ _ _ _ Q1 S1 (proj1 D) O E0) as (K2 & _ & S2 & w & W & T).
  destruct (IH q2 s2 dx o p' out (A + 2 * fval dx) M K2 S2 D O P (in_step _ s1 _ _ W T L G) X1 X2 ltac:(lra) Y1 Y2 GY H) as (R1 & R2 & R3 & R4).
  split; [exact R1|]. split; [lra|]. auto.
Qed.
Lemma loop_y_fin n : forall p s dx o p' out A M, fpool_ok p -> s_ok s -> fok dx -> f64_ok o -> 0 < fval dx -> in_good dx (fl_in s) ->
  fok (fy p) -> Rabs (fval (fy p)) <= A -> A + 2 * INR n * fval dx <= bpow radix2 1000 -> fok (fx p) -> Rabs (fval (fx p)) <= M -> M <= bpow radix2 1000 ->
  fswap_y_loop lm n p s dx o = Ok (p', out) ->
  fok (fy p') /\ Rabs (fval (fy p')) <= A + 2 * INR n * fval dx /\ fok (fx p') /\ Rabs (fval (fx p')) <= M.
Proof.
  induction n as [|n IH]; intros p s dx o p' out A M K S D O P G FX AX GX FY AY GY H; [discriminate|]. rewrite S_INR in *. pose proof (pos_INR n) as N0.
  assert (ND : 0 <= INR n * fval dx) by (apply Rmult_le_pos; lra). pose proof (Rabs_pos (fval (fy p))) as RP.
  assert (DX : fval dx <= bpow radix2 1023). { apply Rle_trans with (bpow radix2 1000); [lra|apply bpow_le; lia]. }
  cbn [fswap_y_loop] in H. destruct (flt (fl_in s) dx) eqn:L; cbn [negb] in H; [|apply fend_y_ok in H as [-> _]; repeat split; try apply FX; try apply FY; lra].
  destruct (G D DX P) as [I1 I2]. mb H. destruct a as [[q g] rp].
  assert (Q : fpool_ok q /\ funds q = funds p /\ f64_ok rp).
  { destruct (flt f_zero _).
    - mb E. injection E as <- <- <-. split; [exact K|]. split; [reflexivity|apply S].
    - destruct (fgir_ok lm LM _ _ _ _ _ K E) as (B1 & _ & B2). split; [exact B1|]. split; [exact (fgir_funds lm _ _ _ _ _ E)|exact B2]. }
  destruct Q as (Q1 & Q2 & Q3). unfold funds in Q2. injection Q2 as QX QY _ _ _ _. rewrite <- QY in FX, AX. rewrite <- QX in FY, AY. set (s1 := mkFL _ _ _ _ _ _) in H.
  assert (S1 : s_ok s1) by (destruct S as (S1 & S2 & S3 & S4 & S5); unfold s_ok; cbn; auto).
  destruct g as [g|]; [|apply fend_y_ok in H as [-> _]; repeat split; try apply FX; try apply FY; lra].
  mb H. destruct a as [q2 s2].
  destruct (step_y_fin q s1 g dx o q2 s2 A M Q1 S1 D O I1 (proj1 I2) L FX AX ltac:(lra) FY AY GY E0) as (X1 & X2 & Y1 & Y2).
  destruct (fstep_y_ok lm LM _ _ _ _ _ _ _ Q1 S1 (proj1 D) O E0) as (K2 & _ & S2 & w & W & T).
  destruct (IH q2 s2 dx o p' out (A + 2 * fval dx) M K2 S2 D O P (in_step _ s1 _ _ W T L G) X1 X2 ltac:(lra) Y1 Y2 GY H) as (R1 & R2 & R3 & R4).
  split; [exact R1|]. split; [lra|]. auto.
Qed.
Lemma start_ok p : fpool_ok p -> s_ok (mkFL f_zero f_zero f_zero f_zero (fglbl_tick p) (fglbl_rp p)).
Proof. intros [(K1 & K2 & K3) _ _ _ _ _]. unfold s_ok; cbn. auto 8 with fok. Qed.
Lemma swap_x_fin n p dx o p' out : fpool_ok p -> fok dx -> f64_ok o -> fok (fx p) -> fok (fy p) ->
  Rabs (fval (fx p)) + 2 * INR n * fval dx <= bpow radix2 1000 -> Rabs (fval (fy p)) <= bpow radix2 1000 -> fexecute_swap_x lm n p dx o = Ok (p', out) ->
  fok (fx p') /\ Rabs (fval (fx p')) <= Rabs (fval (fx p)) + 2 * INR n * fval dx /\ fok (fy p') /\ Rabs (fval (fy p')) <= Rabs (fval (fy p)).
Proof.
  intros K D O FX FY GX GY H. unfold fexecute_swap_x in H. destruct (fle dx f_zero) eqn:L; [discriminate|]. apply (fle_f _ _ D fok_zero) in L. rewrite fval_zero in L.
  refine (loop_x_fin n p _ dx o p' out (Rabs (fval (fx p))) (Rabs (fval (fy p))) K (start_ok p K) D O L (start_good dx) FX (Rle_refl _) GX FY (Rle_refl _) GY H).
Qed.
Lemma swap_y_fin n p dx o p' out : fpool_ok p -> fok dx -> f64_ok o -> fok (fx p) -> fok (fy p) ->
  Rabs (fval (fy p)) + 2 * INR n * fval dx <= bpow radix2 1000 -> Rabs (fval (fx p)) <= bpow radix2 1000 -> fexecute_swap_y lm n p dx o = Ok (p', out) ->
  fok (fy p') /\ Rabs (fval (fy p')) <= Rabs (fval (fy p)) + 2 * INR n * fval dx /\ fok (fx p') /\ Rabs (fval (fx p')) <= Rabs (fval (fx p)).
Proof.
  intros K D O FX FY GX GY H. unfold fexecute_swap_y in H. destruct (fle dx f_zero) eqn:L; [discriminate|]. apply (fle_f _ _ D fok_zero) in L. rewrite fval_zero in L.
  refine (loop_y_fin n p _ dx o p' out (Rabs (fval (fy p))) (Rabs (fval (fx p))) K (start_ok p K) D O L (start_good dx) FY (Rle_refl _) GX FX (Rle_refl _) GY H).
Qed.
Lemma dep_fin p u x y a b p' xd yd A : fpool_ok p -> fok (fx p) -> fok (fy p) -> Rabs (fval (fx p)) <= A -> Rabs (fval (fy p)) <= A -> A + bpow radix2 904 <= bpow radix2 1000 -> price (fglbl_rp p) ->
  price (f_tick_to_rp lm (f_rp_to_possible_tick lm p a false)) -> price (f_tick_to_rp lm (f_rp_to_possible_tick lm p b false)) ->
  fval (f_tick_to_rp lm (f_rp_to_possible_tick lm p a false)) < fval (f_tick_to_rp lm (f_rp_to_possible_tick lm p b false)) ->
  cap 200 x -> cap 200 y -> fdeposit lm p u x y a b = Ok (p', xd, yd) ->
  fok (fx p') /\ fok (fy p') /\ Rabs (fval (fx p')) <= A + bpow radix2 904 /\ Rabs (fval (fy p')) <= A + bpow radix2 904.
Proof.
  intros K FX FY AX AY G R RA RB L X Y H. unfold fdeposit in H. destruct (_ || _); [discriminate|]. destruct (flt x _); [discriminate|]. destruct (flt y _); [discriminate|].
  mb H. destruct a0 as [q fe]. assert (LC := liq_cap x y _ _ _ X Y R RA RB L). apply (cap_le 552 600) in LC; [|lia].
  set (l := ffloor _) in *. clearbody l.
  assert (QX := x_quote_cap l _ _ _ LC R RA RB). assert (QY := y_quote_cap l _ _ _ LC R RA RB). apply (cap_le 901 903) in QX, QY; try lia.
  destruct (fset_position_spec _ _ _ _ _ _ _ K (proj1 (proj1 LC)) E) as (_ & _ & [_ _ SF] & _). injection SF as S1 S2 _ _ _ _.
  injection H as <- _ _. cbn [fx fy fwith_funds]. rewrite S1, S2. change 904%Z with (1 + 903)%Z in *. rewrite bpow_plus in *. change (bpow radix2 1) with 2 in *.
  destruct (add_any _ _ A _ FX (proj1 QX) AX (proj2 QX) G), (add_any _ _ A _ FY (proj1 QY) AY (proj2 QY) G). auto.
Qed.
Lemma wd_fin p u l a b p' xs ys A : fpool_ok p -> fok (fx p) -> fok (fy p) -> Rabs (fval (fx p)) <= A -> Rabs (fval (fy p)) <= A -> A + bpow radix2 904 <= bpow radix2 1000 -> price (fglbl_rp p) ->
  price (f_tick_to_rp lm (f_rp_to_possible_tick lm p a false)) -> price (f_tick_to_rp lm (f_rp_to_possible_tick lm p b false)) ->
  cap 600 l -> fwithdraw lm p u l a b = Ok (p', xs, ys) ->
  fok (fx p') /\ fok (fy p') /\ Rabs (fval (fx p')) <= A + bpow radix2 904 /\ Rabs (fval (fy p')) <= A + bpow radix2 904.
Proof.
  intros K FX FY AX AY G R RA RB L H. unfold fwithdraw in H. destruct (flt l f_zero); [discriminate|]. mb H. destruct a0 as [q fe].
  destruct (fset_position_spec _ _ _ _ _ _ _ K (neg_ok _ (proj1 (proj1 L))) E) as (_ & _ & [_ (RP & _ & _) SF] & _). injection SF as S1 S2 _ _ _ _. rewrite RP in H.
  assert (KC := kept_cap). remember (fsub f_one f_adj) as ka. clear Heqka.
  assert (QX := cap_mul 901 1 _ _ ltac:(lia) (x_quote_cap l _ _ _ L R RA RB) KC). assert (QY := cap_mul 901 1 _ _ ltac:(lia) (y_quote_cap l _ _ _ L R RA RB) KC).
  apply (cap_le _ 903) in QX, QY; try lia.
  injection H as <- _ _. cbn [fx fy fwith_funds]. rewrite S1, S2. change 904%Z with (1 + 903)%Z in *. rewrite bpow_plus in *. change (bpow radix2 1) with 2 in *.
  destruct (sub_any _ _ A _ FX (proj1 QX) AX (proj2 QX) G), (sub_any _ _ A _ FY (proj1 QY) AY (proj2 QY) G). auto.
Qed.
(** *** histories of calls with numbers of ordinary size; the count of calls *)
Definition at_ordinary_prices (p : fpool) (a b : f64) : Prop :=
  price (fglbl_rp p) /\ price (f_tick_to_rp lm (f_rp_to_possible_tick lm p a false)) /\ price (f_tick_to_rp lm (f_rp_to_possible_tick lm p b false)) /\
  fval (f_tick_to_rp lm (f_rp_to_possible_tick lm p a false)) < fval (f_tick_to_rp lm (f_rp_to_possible_tick lm p b false)).
Inductive ordinary : nat -> fpool -> Prop :=
| or_new rp s c r p : f64_ok c -> f64_ok r -> fpool_new lm rp s c r = Ok p -> ordinary 0 p
| or_dep N p u x y a b p' xd yd : ordinary N p -> cap 200 x -> cap 200 y -> at_ordinary_prices p a b -> fdeposit lm p u x y a b = Ok (p', xd, yd) -> ordinary (S N) p'
| or_wd N p u l a b p' xs ys : ordinary N p -> cap 600 l -> at_ordinary_prices p a b -> fwithdraw lm p u l a b = Ok (p', xs, ys) -> ordinary (S N) p'
| or_x N p n dx o p' out : ordinary N p -> cap 200 dx -> f64_ok o -> INR n <= bpow radix2 100 -> fexecute_swap_x lm n p dx o = Ok (p', out) -> ordinary (S N) p'
| or_y N p n dy o p' out : ordinary N p -> cap 200 dy -> f64_ok o -> INR n <= bpow radix2 100 -> fexecute_swap_y lm n p dy o = Ok (p', out) -> ordinary (S N) p'.
Lemma ordinary_reach N p : ordinary N p -> freach lm p.
Proof.
  induction 1; [exact (fr_new lm _ _ _ _ _ H H0 H1)|exact (fr_dep lm _ _ _ _ _ _ _ _ _ IHordinary (proj1 (proj1 H0)) (proj1 (proj1 H1)) H3)
    |exact (fr_wd lm _ _ _ _ _ _ _ _ IHordinary (proj1 (proj1 H0)) H2)|exact (fr_x lm _ _ _ _ _ _ IHordinary (proj1 (proj1 H0)) H1 H3)|exact (fr_y lm _ _ _ _ _ _ IHordinary (proj1 (proj1 H0)) H1 H3)].
Qed.
Lemma ordinary_fin N p : ordinary N p -> INR N <= bpow radix2 90 ->
  fok (fx p) /\ fok (fy p) /\ Rabs (fval (fx p)) <= INR N * bpow radix2 904 /\ Rabs (fval (fy p)) <= INR N * bpow radix2 904.
Proof.
  assert (BP := bpow_gt_0 radix2 904). assert (B1 : bpow radix2 90 * bpow radix2 904 <= bpow radix2 1000) by (rewrite <- bpow_plus; apply bpow_le; lia).
  assert (SZ : forall M A, INR (S M) <= bpow radix2 90 -> A <= INR M * bpow radix2 904 -> A + bpow radix2 904 <= bpow radix2 1000).
  { intros M A H1 H2. rewrite S_INR in H1. apply Rle_trans with (bpow radix2 90 * bpow radix2 904); [|exact B1].
    apply Rle_trans with ((INR M + 1) * bpow radix2 904); [lra|]. apply Rmult_le_compat_r; lra. }
  assert (SW : forall n dx, INR n <= bpow radix2 100 -> cap 200 dx -> 2 * INR n * fval dx <= bpow radix2 904).
  { intros n dx H1 [_ H2]. pose proof (pos_INR n) as H3. apply Rle_trans with (2 * (bpow radix2 100 * bpow radix2 200)).
    - rewrite Rmult_assoc. apply Rmult_le_compat_l; [lra|]. apply Rle_trans with (INR n * bpow radix2 200); [apply Rmult_le_compat_l; [exact H3|]; rabs; lra|apply Rmult_le_compat_r; [apply bpow_ge_0|exact H1]].
    - change 2 with (bpow radix2 1). rewrite <- !bpow_plus. apply bpow_le. lia. }
  induction 1 as [rp s c r p C R E|N p u x y a b p' xd yd O IH X Y (P1 & P2 & P3 & P4) E|N p u l a b p' xs ys O IH L (P1 & P2 & P3 & P4) E
                 |N p n dx o p' out O IH D OO F E|N p n dx o p' out O IH D OO F E]; intros G.
  - unfold fpool_new in E. mb E. injection E as <-. cbn [fx fy INR]. rewrite Rmult_0_l, fval_zero, Rabs_R0. repeat split; lra.
  - assert (K := freach_ok lm LM _ (ordinary_reach _ _ O)). assert (G0 : INR N <= bpow radix2 90) by (rewrite S_INR in G; lra). destruct (IH G0) as (I1 & I2 & I3 & I4).
    destruct (dep_fin p u x y a b p' xd yd _ K I1 I2 I3 I4 (SZ _ _ G (Rle_refl _)) P1 P2 P3 P4 X Y E) as (J1 & J2 & J3 & J4). rewrite S_INR. repeat (split; [assumption || lra|]). lra.
  - assert (K := freach_ok lm LM _ (ordinary_reach _ _ O)). assert (G0 : INR N <= bpow radix2 90) by (rewrite S_INR in G; lra). destruct (IH G0) as (I1 & I2 & I3 & I4).
    destruct (wd_fin p u l a b p' xs ys _ K I1 I2 I3 I4 (SZ _ _ G (Rle_refl _)) P1 P2 P3 L E) as (J1 & J2 & J3 & J4). rewrite S_INR. repeat (split; [assumption || lra|]). lra.
  - assert (K := freach_ok lm LM _ (ordinary_reach _ _ O)). assert (G0 : INR N <= bpow radix2 90) by (rewrite S_INR in G; lra). destruct (IH G0) as (I1 & I2 & I3 & I4).
    assert (Q := SW n dx F D). assert (Q3 := SZ _ _ G I3). assert (Q4 := SZ _ _ G I4).
    destruct (swap_x_fin n p dx o p' out K (proj1 D) OO I1 I2 ltac:(lra) ltac:(lra) E) as (J1 & J2 & J3 & J4). rewrite S_INR. repeat (split; [assumption || lra|]). lra.
  - assert (K := freach_ok lm LM _ (ordinary_reach _ _ O)). assert (G0 : INR N <= bpow radix2 90) by (rewrite S_INR in G; lra). destruct (IH G0) as (I1 & I2 & I3 & I4).
    assert (Q := SW n dx F D). assert (Q3 := SZ _ _ G I3). assert (Q4 := SZ _ _ G I4).
    destruct (swap_y_fin n p dx o p' out K (proj1 D) OO I1 I2 ltac:(lra) ltac:(lra) E) as (J1 & J2 & J3 & J4). rewrite S_INR. repeat (split; [assumption || lra|]). lra.
Qed.
End Lm.
