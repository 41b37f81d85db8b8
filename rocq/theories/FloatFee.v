(** The fee of an f64 swap against the fee rate: lemmas. *)
From Coq Require Import ZArith Reals Lra Lia List Bool Floats.SpecFloat.
From Flocq Require Import Core BinarySingleNaN Relative.
From Verif Require Import Base FloatBase FloatModel FloatFacts FloatWf FloatSwap FloatLp FloatFlow.
Import ListNotations.
Open Scope R_scope.

(** half the smallest positive number *)
Definition eta : R := bpow radix2 (-1075).
Lemma eta_pos : 0 < eta. Proof. apply bpow_gt_0. Qed.
Lemma rnd_err x : Rabs (rnd x - x) <= u53 * Rabs x + eta.
Proof.
  destruct (error_N_FLT radix2 (SpecFloat.emin 53 1024) 53 ltac:(lia) (fun z => negb (Z.even z)) x) as (e & h & E & H & _ & R).
  unfold rnd. change (FLT_exp (SpecFloat.emin 53 1024) 53) with fexp64 in R. rewrite R.
  replace (x * (1 + e) + h - x) with (e * x + h) by ring. eapply Rle_trans; [apply Rabs_triang|]. rewrite Rabs_mult. apply Rplus_le_compat.
  - apply Rmult_le_compat_r; [apply Rabs_pos|]. eapply Rle_trans; [exact E|]. unfold u53. right. change (/ 2) with (bpow radix2 (-1)). rewrite <- bpow_plus. reflexivity.
  - eapply Rle_trans; [exact H|]. unfold eta. right. change (/ 2) with (bpow radix2 (-1)). rewrite <- bpow_plus. reflexivity.
Qed.
Lemma mul_inv a b : f64_ok a -> fok b -> f_finite (fmul a b) = true -> fok a.
Proof. intros A B F. split; [exact A|]. destruct a as [| | |]; try reflexivity; destruct b; destruct B as [_ B]; discriminate. Qed.
Lemma mul_R a b : fok a -> fok b -> f_finite (fmul a b) = true -> fval (fmul a b) = rnd (fval a * fval b).
Proof.
  intros [A FA] [B FB]. destruct (as_b a A) as [ba ->]. destruct (as_b b B) as [bb ->]. rewrite mul_b, b_fin, !b_val. intros F.
  pose proof (Bmult_correct 53 1024 _ _ mode_NE ba bb) as H.
  destruct (Rlt_bool _ _); [apply H|]. exfalso. rewrite <- b_fin, H in F. discriminate.
Qed.
Lemma div_R a b : fok a -> fok b -> fval b <> 0 -> f_finite (fdiv a b) = true -> fval (fdiv a b) = rnd (fval a / fval b).
Proof.
  intros [A FA] [B FB]. destruct (as_b a A) as [ba ->]. destruct (as_b b B) as [bb ->]. rewrite div_b, b_fin, !b_val. intros NZ F.
  pose proof (Bdiv_correct 53 1024 _ _ mode_NE ba bb NZ) as H.
  destruct (Rlt_bool _ _); [apply H|]. exfalso. rewrite <- b_fin, H in F. discriminate.
Qed.

(** one minus the rate *)
Lemma keep_part r : fok r -> 0 <= fval r < 1 -> let c := fsub f_one r in
  fok c /\ 0 < fval c <= 1 /\ Rabs (fval c - (1 - fval r)) <= u53.
Proof.
  intros R [R0 R1] c.
  assert (LE : 0 <= rnd (1 - fval r) <= 1).
  { split; [apply rnd_ge0; lra|]. apply Rle_trans with (rnd 1); [apply rnd_le; lra|]. rewrite <- fval_one. rewrite rnd_fval; [lra|apply fok_one]. }
  destruct (sub_R' f_one r fok_one R) as [C1 C2].
  { rewrite fval_one, Rabs_pos_eq by apply LE. apply Rle_lt_trans with 1; [apply LE|]. unfold top. change 1 with (bpow radix2 0). apply bpow_lt. lia. }
  fold c in C1, C2. rewrite fval_one in C2. split; [exact C1|].
  pose proof (minus_err 1 (fval r) ltac:(rewrite <- fval_one; apply fval_fmt; apply fok_one) (fval_fmt r (proj1 R))) as ME. rewrite (Rabs_pos_eq (1 - fval r)) in ME by lra.
  rewrite C2. assert (U := u53_small). split; [|eapply Rle_trans; [exact ME|nra]]. split; [|apply LE]. apply Rabs_le_inv in ME. nra.
Qed.

(** the fee of one pass: what is left of the amount, or computed from what went in *)
Definition priced (r d recv fee : f64) : Prop :=
  recv = fmul d (fsub f_one r) /\ fee = fsub d recv \/ fee = fmul (fdiv recv (fsub f_one r)) r.
Lemma abs_le x y : - y <= x <= y -> Rabs x <= y. Proof. intros H. apply Rabs_le. exact H. Qed.
Lemma part_a D d c r e e2 e3 recv fee : 0 <= d <= D -> 0 <= r < 1 -> 0 < c <= 1 -> 0 <= recv <= d -> 3 * eta <= u53 * D -> 
  c - (1 - r) = e -> Rabs e <= u53 -> recv - d * c = e2 -> Rabs e2 <= u53 * Rabs (d * c) + eta -> fee - (d - recv) = e3 -> Rabs e3 <= u53 * Rabs (d - recv) ->
  Rabs (fee - r * (recv + fee)) <= 5 * u53 * D.
Proof.
  intros [D0 D1] [R0 R1] [C0 C1] [V0 V1] H E E' E2 E2' E3 E3'. assert (U := u53_pos). assert (T := eta_pos).
  rewrite (Rabs_pos_eq (d * c)) in E2' by nra. rewrite (Rabs_pos_eq (d - recv)) in E3' by lra.
  assert (X : fee - r * (recv + fee) = - (d * e) - e2 + e3 * (1 - r)) by (subst e e2 e3; ring). rewrite X.
  assert (A : Rabs (d * e) <= u53 * D) by (rewrite Rabs_mult, (Rabs_pos_eq d) by lra; assert (0 <= Rabs e) by apply Rabs_pos; nra).
  assert (B : Rabs e2 <= u53 * D + eta).
  { assert (DC : d * c <= D) by nra. assert (u53 * (d * c) <= u53 * D) by (apply Rmult_le_compat_l; lra). lra. }
  assert (C : Rabs (e3 * (1 - r)) <= u53 * D).
  { rewrite Rabs_mult, (Rabs_pos_eq (1 - r)) by lra. assert (0 <= Rabs e3) by apply Rabs_pos. assert (u53 * (d - recv) <= u53 * D) by (apply Rmult_le_compat_l; lra).
    assert (Rabs e3 * (1 - r) <= Rabs e3 * 1) by (apply Rmult_le_compat_l; lra). lra. }
  apply Rabs_le_inv in A, B, C. apply abs_le. lra.
Qed.
Lemma part_b D d c r e e1 e2 q recv fee : 0 <= d <= D -> 0 <= r < 1 -> 0 < c <= 1 -> 0 <= recv <= d -> 0 <= fee <= d -> 3 * eta <= u53 * D -> 
  c - (1 - r) = e -> Rabs e <= u53 -> q - recv / c = e1 -> Rabs e1 <= u53 * Rabs (recv / c) + eta -> fee - q * r = e2 -> Rabs e2 <= u53 * Rabs (q * r) + eta ->
  Rabs (fee - r * (recv + fee)) <= 5 * u53 * D.
Proof.
  intros [D0 D1] [R0 R1] [C0 C1] [V0 V1] [F0 F1] H E E' E1 E1' E2 E2'. assert (U := u53_small). assert (T := eta_pos).
  assert (Q : recv = (q - e1) * c) by (subst e1; field; lra).
  assert (X : fee - r * (recv + fee) = - (fee * e) + e2 * c + r * (c * e1)) by (rewrite Q; subst e e2; ring). rewrite X.
  assert (A : Rabs (fee * e) <= u53 * D) by (rewrite Rabs_mult, (Rabs_pos_eq fee) by lra; assert (0 <= Rabs e) by apply Rabs_pos; nra).
  assert (QR : Rabs (q * r) <= 2 * (D + eta)).
  { assert (Rabs (q * r) <= fee + Rabs e2) by (replace (q * r) with (fee - e2) by lra; eapply Rle_trans; [apply Rabs_triang|]; rewrite Rabs_Ropp, (Rabs_pos_eq fee) by lra; lra).
    assert (0 <= Rabs (q * r)) by apply Rabs_pos. nra. }
  assert (B0 : Rabs e2 <= 2 * u53 * D + 2 * eta) by nra.
  assert (B : Rabs (e2 * c) <= 2 * u53 * D + 2 * eta) by (rewrite Rabs_mult, (Rabs_pos_eq c) by lra; assert (0 <= Rabs e2) by apply Rabs_pos; nra).
  assert (C : Rabs (r * (c * e1)) <= u53 * D + eta).
  { rewrite !Rabs_mult, (Rabs_pos_eq r), (Rabs_pos_eq c) by lra.
    assert (CE : c * Rabs e1 <= u53 * recv + eta).
    { apply Rle_trans with (c * (u53 * Rabs (recv / c) + eta)); [apply Rmult_le_compat_l; lra|]. unfold Rdiv. rewrite Rabs_mult, (Rabs_pos_eq recv), (Rabs_pos_eq (/ c)); [|left; now apply Rinv_0_lt_compat|lra].
      replace (c * (u53 * (recv * / c) + eta)) with (u53 * recv + c * eta) by (field; lra). nra. }
    assert (0 <= c * Rabs e1) by (apply Rmult_le_pos; [lra|apply Rabs_pos]). nra. }
  apply Rabs_le_inv in A, B, C. apply abs_le. lra.
Qed.
Lemma fee_part r d recv fee D : fok r -> 0 <= fval r < 1 -> fok d -> 0 <= fval d <= D -> 3 * eta <= u53 * D ->
  f64_ok recv -> f64_ok fee -> flt recv f_zero = false -> flt fee f_zero = false -> fle (fadd recv fee) d = true -> priced r d recv fee ->
  Rabs (fval fee - fval r * (fval recv + fval fee)) <= 5 * u53 * D.
Proof.
  intros R R1 DK DD H V F NV NF L P. destruct (sum_le recv fee d V F NV NF DK L) as (S1 & [S2 S3] & VK & FK & V0 & F0).
  destruct (keep_part r R R1) as (C & C1 & C2). set (c := fsub f_one r) in *.
  assert (SV : fval (fadd recv fee) = rnd (fval recv + fval fee)) by (apply add_R; [exact VK|exact FK|apply S1]).
  assert (VD : fval recv <= fval d).
  { apply Rle_trans with (rnd (fval recv)); [rewrite rnd_fval by apply VK; lra|]. apply Rle_trans with (rnd (fval recv + fval fee)); [apply rnd_le; lra|]. lra. }
  assert (FD : fval fee <= fval d).
  { apply Rle_trans with (rnd (fval fee)); [rewrite rnd_fval by apply FK; lra|]. apply Rle_trans with (rnd (fval recv + fval fee)); [apply rnd_le; lra|]. lra. }
  destruct P as [[P1 P2]|P].
  - eapply part_a; [exact DD|exact R1|exact C1|split; eassumption|exact H|reflexivity|exact C2|reflexivity| |reflexivity|].
    + rewrite P1 at 1. fold c. rewrite mul_R; [apply rnd_err|exact DK|exact C|]. unfold c. rewrite <- P1. apply VK.
    + rewrite P2 at 1. rewrite sub_R; [|exact DK|exact VK|rewrite <- P2; apply FK]. apply minus_err; [apply fval_fmt, DK|apply fval_fmt, VK].
  - fold c in P. assert (QK : fok (fdiv recv c)).
    { apply mul_inv with r; [apply div_ok; [exact V|apply C]|exact R|rewrite <- P; apply FK]. }
    eapply (part_b D (fval d) (fval c) (fval r) _ _ _ (fval (fdiv recv c))); [exact DD|exact R1|exact C1|split; eassumption|split; eassumption|exact H|reflexivity|exact C2|reflexivity| |reflexivity|].
    + rewrite div_R; [apply rnd_err|exact VK|exact C|lra|apply QK].
    + rewrite P at 1. rewrite mul_R; [apply rnd_err|exact QK|exact R|rewrite <- P; apply FK].
Qed.

Lemma slack_small : 1 <= slack <= 5 / 4.
Proof. split; [apply slack_ge1|]. unfold slack. assert (U : u53 <= / 16) by (unfold u53; change (/ 16) with (bpow radix2 (-4)); apply bpow_le; lia). assert (V := u53_pos). nra. Qed.
(** the running totals of a swap of [amt] after [k] passes *)
Definition on_rate (r amt : f64) (k : nat) (s : floopst) : Prop :=
  fok (fl_in s) /\ 0 <= fval (fl_in s) <= fval amt * slack /\ fok (fl_fee s) /\ 0 <= fval (fl_fee s) <= fval (fl_in s) /\
  Rabs (fval (fl_fee s) - fval r * fval (fl_in s)) <= INR k * (16 * u53 * fval amt).
Lemma rate_step r amt k s s' w : fok r -> 0 <= fval r < 1 -> fok amt -> fval amt <= bpow radix2 1023 -> 3 * eta <= u53 * fval amt -> flt (fl_in s) amt = true ->
  w_ok w -> totals amt s s' w -> priced r (fsub amt (fl_in s)) (fw_recv w) (fw_fee w) -> on_rate r amt k s -> on_rate r amt (S k) s'.
Proof.
  intros R R1 A A1 H L (W1 & W2 & W3 & W4 & W5 & W6 & W7 & W8 & W9) (T1 & _ & _ & T4 & _ & _ & T7) P (I1 & [I2 I3] & F1 & [F2 F3] & G).
  pose proof (flt_t _ _ I1 A L) as I4. assert (U := u53_small). assert (SL := slack_small).
  destruct (total_step amt (fl_in s) (fw_recv w) (fw_fee w)) as (E1 & E2 & E3); auto.
  assert (DR : 0 <= rnd (fval amt - fval (fl_in s)) <= fval amt).
  { split; [apply rnd_ge0; lra|]. apply Rle_trans with (rnd (fval amt)); [apply rnd_le; lra|]. rewrite rnd_fval by apply A. lra. }
  destruct (sub_R' amt (fl_in s) A I1) as [S1 S2].
  { rewrite Rabs_pos_eq by apply DR. apply Rle_lt_trans with (fval amt); [apply DR|]. pose proof (fval_top amt (proj1 A)) as TT. rewrite Rabs_pos_eq in TT by lra. exact TT. }
  rewrite <- S2 in DR. destruct (sum_le _ _ _ W1 W5 W6 W9 S1 T7) as (B1 & [B2 B3] & VK & FK & V0 & F0).
  pose proof (fee_part r (fsub amt (fl_in s)) (fw_recv w) (fw_fee w) (fval amt) R R1 S1 DR H W1 W5 W6 W9 T7 P) as Q.
  set (a := fadd (fw_recv w) (fw_fee w)) in *.
  assert (AV : fval a = rnd (fval (fw_recv w) + fval (fw_fee w))) by (apply add_R; [exact VK|exact FK|apply B1]).
  assert (IV : fval (fadd (fl_in s) a) = rnd (fval (fl_in s) + fval a)) by (apply add_R; [exact I1|exact B1|apply E1]).
  assert (FA : fval (fw_fee w) <= fval a).
  { rewrite AV. apply Rle_trans with (rnd (fval (fw_fee w))); [rewrite rnd_fval by apply FK; lra|apply rnd_le; lra]. }
  assert (FS : 0 <= rnd (fval (fl_fee s) + fval (fw_fee w)) <= fval (fadd (fl_in s) a)) by (rewrite IV; split; [apply rnd_ge0; lra|apply rnd_le; lra]).
  destruct (add_R' (fl_fee s) (fw_fee w) F1 FK) as [C1 C2].
  { rewrite Rabs_pos_eq by apply FS. apply Rle_lt_trans with (fval (fadd (fl_in s) a)); [apply FS|]. pose proof (fval_top _ (proj1 E1)) as TT. rewrite Rabs_pos_eq in TT by lra. exact TT. }
  unfold on_rate. rewrite T1, T4. fold a. split; [exact E1|]. split; [lra|]. split; [exact C1|]. split; [rewrite C2; exact FS|].
  destruct (add_back (fl_in s) a (fval amt * slack)) as (_ & _ & X1 & _); [apply I1|apply B1|exact E1|rewrite Rabs_pos_eq by lra; exact E3|].
  destruct (add_back (fw_recv w) (fw_fee w) (fval amt)) as (_ & _ & X2 & _); [exact W1|exact W5|exact B1|fold a; rewrite Rabs_pos_eq by lra; lra|].
  destruct (add_back (fl_fee s) (fw_fee w) (fval amt * slack)) as (_ & _ & X3 & _); [apply F1|exact W5|exact C1|rewrite C2, Rabs_pos_eq by apply FS; lra|].
  fold a in X2. rewrite S_INR, Rmult_plus_distr_r, Rmult_1_l.
  set (K := INR k * (16 * u53 * fval amt)) in *.
  assert (Y : 2 * u53 * (fval amt * slack) <= 3 * u53 * fval amt) by (assert (0 <= u53 * fval amt) by (apply Rmult_le_pos; lra); nra).
  apply Rabs_le_inv in G, Q, X1, X2, X3.
  set (i := fval (fl_in s)) in *. set (i' := fval (fadd (fl_in s) a)) in *. set (f := fval (fl_fee s)) in *. set (f' := fval (fadd (fl_fee s) (fw_fee w))) in *.
  set (e1 := i' - (i + fval a)) in *. set (e2 := fval a - (fval (fw_recv w) + fval (fw_fee w))) in *. set (e3 := f' - (f + fval (fw_fee w))) in *.
  assert (Z : f' - fval r * i' = (f - fval r * i) + (fval (fw_fee w) - fval r * (fval (fw_recv w) + fval (fw_fee w))) + e3 - fval r * e1 - fval r * e2) by (unfold e1, e2, e3; ring).
  rewrite Z. set (m := u53 * fval amt) in *.
  assert (R3 : - (3 * m) <= fval r * e1 <= 3 * m) by (unfold m; split; nra).
  assert (R4 : - (2 * m) <= fval r * e2 <= 2 * m) by (unfold m; split; nra).
  apply abs_le. unfold m in *. lra.
Qed.

Lemma end_x_fee p s p' o : fswap_x_end p s = Ok (p', o) -> fso_recv o = fl_in s /\ fso_fee o = fl_fee s.
Proof.
  unfold fswap_x_end. intros H. mb H. injection H as <- <-. unfold fswap_out_new in E.
  repeat match type of E with (if ?b then _ else _) = _ => destruct b; [discriminate|] end. injection E as <-. split; reflexivity.
Qed.
Lemma end_y_fee p s p' o : fswap_y_end p s = Ok (p', o) -> fso_recv o = fl_in s /\ fso_fee o = fl_fee s.
Proof.
  unfold fswap_y_end. intros H. mb H. injection H as <- <-. unfold fswap_out_new in E.
  repeat match type of E with (if ?b then _ else _) = _ => destruct b; [discriminate|] end. injection E as <-. split; reflexivity.
Qed.
Lemma rate_start r amt t rp : 0 <= fval amt -> on_rate r amt 0 (mkFL f_zero f_zero f_zero f_zero t rp).
Proof.
  intros A. unfold on_rate. cbn [fl_in fl_fee INR]. rewrite fval_zero. split; [exact fok_zero|]. split; [assert (S := slack_small); nra|]. split; [exact fok_zero|]. split; [lra|].
  rewrite Rmult_0_r, Rmult_0_l, Rminus_0_r, Rabs_R0. lra.
Qed.
Lemma rate_more r amt k j s : 0 <= fval amt -> (k <= j)%nat -> on_rate r amt k s -> on_rate r amt j s.
Proof.
  intros A L (B & C & D & E & F). repeat (split; [assumption|]). eapply Rle_trans; [exact F|]. apply Rmult_le_compat_r; [|now apply le_INR].
  assert (U := u53_pos). nra.
Qed.

Section Lm.
Variable lm : libm.
Hypothesis LM : libm_ok lm.

Lemma within_x_fee p st g l d o w : fswap_within_x lm p st g l d o = Ok w -> priced (f_fee_rate p) d (fw_recv w) (fw_fee w).
Proof.
  intros H. unfold fswap_within_x in H.
  destruct (fle d f_zero); [discriminate|]. destruct (flt st _); [discriminate|]. destruct (flt (f_dx_from_l_drp _ _ _) f_zero); [discriminate|].
  mb H. destruct a as [[[[dn fe] cr] et] er]. mb H. clear E0.
  destruct (flt f_zero _); [discriminate|]. destruct (flt (fsub _ _) f_zero); [discriminate|]. destruct (flt (fadd (fy p) _) _); [discriminate|].
  unfold fwithin_new in H. repeat match type of H with (if ?b then _ else _) = _ => destruct b; [discriminate|] end. injection H as <-. cbn [fw_recv fw_fee]. unfold priced.
  destruct (flt (f_dx_from_l_drp _ _ _) _); [injection E as <- <- _ _ _; right; reflexivity|].
  destruct (flt st _); [discriminate|]. destruct (flt _ (f_tick_to_rp lm g)); [discriminate|]. injection E as <- <- _ _ _. left. split; reflexivity.
Qed.
Lemma within_y_fee p st g l d o w : fswap_within_y lm p st g l d o = Ok w -> priced (f_fee_rate p) d (fw_recv w) (fw_fee w).
Proof.
  intros H. unfold fswap_within_y in H.
  destruct (fle d f_zero); [discriminate|]. destruct (flt _ st); [discriminate|]. destruct (flt (f_dy_from_l_drp _ _ _) f_zero); [discriminate|].
  mb H. destruct a as [[[[dn fe] cr] et] er]. mb H. clear E0.
  destruct (flt f_zero _); [discriminate|]. destruct (flt (fsub _ _) f_zero); [discriminate|]. destruct (flt (fadd (fx p) _) _); [discriminate|].
  unfold fwithin_new in H. repeat match type of H with (if ?b then _ else _) = _ => destruct b; [discriminate|] end. injection H as <-. cbn [fw_recv fw_fee]. unfold priced.
  destruct (flt (f_dy_from_l_drp _ _ _) _); [injection E as <- <- _ _ _; right; reflexivity|].
  destruct (flt _ st); [discriminate|]. destruct (flt (f_tick_to_rp lm g) _); [discriminate|]. injection E as <- <- _ _ _. left. split; reflexivity.
Qed.
Lemma step_x_fee p s g dx o p' s' : fpool_ok p -> s_ok s -> f64_ok dx -> f64_ok o -> fswap_x_step lm p s g dx o = Ok (p', s') ->
  fpool_ok p' /\ f_fee_rate p' = f_fee_rate p /\ s_ok s' /\ exists w, w_ok w /\ totals dx s s' w /\ priced (f_fee_rate p) (fsub dx (fl_in s)) (fw_recv w) (fw_fee w).
Proof.
  intros K S D O H. destruct (fstep_x_ok lm LM _ _ _ _ _ _ _ K S D O H) as (K' & SB & S' & _). split; [exact K'|]. split; [apply (sb_par _ _ SB)|]. split; [exact S'|].
  unfold fswap_x_step in H. mb H. rename a into w. exists w. split.
  { eapply (fwithin_x_ok lm LM); [exact K| | | | |exact E]; auto; try apply S; try apply K. apply sub_ok; [exact D|apply S]. }
  pose proof (within_x_fee _ _ _ _ _ _ _ E) as P. mb H. clear E0. mb H. apply assertE in E0. mb H. injection H as <- <-. split; [|exact P]. repeat split; assumption.
Qed.
Lemma step_y_fee p s g dx o p' s' : fpool_ok p -> s_ok s -> f64_ok dx -> f64_ok o -> fswap_y_step lm p s g dx o = Ok (p', s') ->
  fpool_ok p' /\ f_fee_rate p' = f_fee_rate p /\ s_ok s' /\ exists w, w_ok w /\ totals dx s s' w /\ priced (f_fee_rate p) (fsub dx (fl_in s)) (fw_recv w) (fw_fee w).
Proof.
  intros K S D O H. destruct (fstep_y_ok lm LM _ _ _ _ _ _ _ K S D O H) as (K' & SB & S' & _). split; [exact K'|]. split; [apply (sb_par _ _ SB)|]. split; [exact S'|].
  unfold fswap_y_step in H. mb H. rename a into w. exists w. split.
  { eapply (fwithin_y_ok lm LM); [exact K| | | | |exact E]; auto; try apply S; try apply K. apply sub_ok; [exact D|apply S]. }
  pose proof (within_y_fee _ _ _ _ _ _ _ E) as P. mb H. clear E0. mb H. apply assertE in E0. mb H. injection H as <- <-. split; [|exact P]. repeat split; assumption.
Qed.
Definition fee_good (r amt : f64) (k : nat) (o : fswap_out) : Prop :=
  fok (fso_recv o) /\ fok (fso_fee o) /\ 0 <= fval (fso_fee o) <= fval (fso_recv o) /\
  Rabs (fval (fso_fee o) - fval r * fval (fso_recv o)) <= INR k * (16 * u53 * fval amt).
Lemma loop_x_fee dx o r : fok dx -> 0 <= fval dx <= bpow radix2 1023 -> 3 * eta <= u53 * fval dx -> f64_ok o -> fok r -> 0 <= fval r < 1 ->
  forall n k p s p' out, fpool_ok p -> s_ok s -> f_fee_rate p = r -> on_rate r dx k s -> fswap_x_loop lm n p s dx o = Ok (p', out) -> fee_good r dx (k + n) out.
Proof.
  intros D D1 H O R R1. induction n as [|n IH]; intros k p s p' out K S FR J X; [discriminate|]. cbn [fswap_x_loop] in X.
  assert (DONE : forall q t, fswap_x_end q t = Ok (p', out) -> fl_in t = fl_in s -> fl_fee t = fl_fee s -> fee_good r dx (k + Datatypes.S n) out).
  { intros q t Y Y1 Y2. destruct (end_x_fee _ _ _ _ Y) as [Z1 Z2]. destruct (rate_more r dx k (k + Datatypes.S n) s (proj1 D1) (Nat.le_add_r _ _) J) as (J1 & J2 & J3 & J4 & J5).
    unfold fee_good. rewrite Z1, Z2, Y1, Y2. auto. }
  destruct (flt (fl_in s) dx) eqn:L; cbn [negb] in X; [|exact (DONE _ _ X eq_refl eq_refl)].
  mb X. destruct a as [[q g] rp].
  assert (Q : fpool_ok q /\ f_fee_rate q = r /\ f64_ok rp).
  { destruct (flt f_zero _).
    - injection E as <- <- <-. split; [exact K|]. split; [exact FR|apply S].
    - destruct (fgir_ok lm LM _ _ _ _ _ K E) as (Q1 & Q2 & Q3). split; [exact Q1|]. split; [|exact Q3]. rewrite <- FR. apply (sb_par _ _ Q2). }
  destruct Q as (Q1 & Q2 & Q3). set (s1 := mkFL _ _ _ _ _ _) in X.
  assert (S1 : s_ok s1) by (destruct S as (S1 & S2 & S3 & S4 & S5); unfold s_ok; cbn; auto).
  destruct g as [g|]; [|exact (DONE _ _ X eq_refl eq_refl)].
  mb X. destruct a as [q2 s2]. destruct (step_x_fee _ _ _ _ _ _ _ Q1 S1 (proj1 D) O E0) as (A & B & C & w & W & T & P). rewrite Q2 in B, P.
  assert (J' : on_rate r dx (Datatypes.S k) s2) by (exact (rate_step r dx k s1 s2 w R R1 D (proj2 D1) H L W T P J)).
  rewrite <- Nat.add_succ_comm. exact (IH _ _ _ _ _ A C B J' X).
Qed.
Lemma loop_y_fee dx o r : fok dx -> 0 <= fval dx <= bpow radix2 1023 -> 3 * eta <= u53 * fval dx -> f64_ok o -> fok r -> 0 <= fval r < 1 ->
  forall n k p s p' out, fpool_ok p -> s_ok s -> f_fee_rate p = r -> on_rate r dx k s -> fswap_y_loop lm n p s dx o = Ok (p', out) -> fee_good r dx (k + n) out.
Proof.
  intros D D1 H O R R1. induction n as [|n IH]; intros k p s p' out K S FR J X; [discriminate|]. cbn [fswap_y_loop] in X.
  assert (DONE : forall q t, fswap_y_end q t = Ok (p', out) -> fl_in t = fl_in s -> fl_fee t = fl_fee s -> fee_good r dx (k + Datatypes.S n) out).
  { intros q t Y Y1 Y2. destruct (end_y_fee _ _ _ _ Y) as [Z1 Z2]. destruct (rate_more r dx k (k + Datatypes.S n) s (proj1 D1) (Nat.le_add_r _ _) J) as (J1 & J2 & J3 & J4 & J5).
    unfold fee_good. rewrite Z1, Z2, Y1, Y2. auto. }
  destruct (flt (fl_in s) dx) eqn:L; cbn [negb] in X; [|exact (DONE _ _ X eq_refl eq_refl)].
  mb X. destruct a as [[q g] rp].
  assert (Q : fpool_ok q /\ f_fee_rate q = r /\ f64_ok rp).
  { destruct (flt f_zero _).
    - mb E. injection E as <- <- <-. split; [exact K|]. split; [exact FR|apply S].
    - destruct (fgir_ok lm LM _ _ _ _ _ K E) as (Q1 & Q2 & Q3). split; [exact Q1|]. split; [|exact Q3]. rewrite <- FR. apply (sb_par _ _ Q2). }
  destruct Q as (Q1 & Q2 & Q3). set (s1 := mkFL _ _ _ _ _ _) in X.
  assert (S1 : s_ok s1) by (destruct S as (S1 & S2 & S3 & S4 & S5); unfold s_ok; cbn; auto).
  destruct g as [g|]; [|exact (DONE _ _ X eq_refl eq_refl)].
  mb X. destruct a as [q2 s2]. destruct (step_y_fee _ _ _ _ _ _ _ Q1 S1 (proj1 D) O E0) as (A & B & C & w & W & T & P). rewrite Q2 in B, P.
  assert (J' : on_rate r dx (Datatypes.S k) s2) by (exact (rate_step r dx k s1 s2 w R R1 D (proj2 D1) H L W T P J)).
  rewrite <- Nat.add_succ_comm. exact (IH _ _ _ _ _ A C B J' X).
Qed.
Lemma eta_small d : bpow radix2 (-1000) <= d -> 3 * eta <= u53 * d.
Proof.
  intros H. apply Rle_trans with (u53 * bpow radix2 (-1000)); [|apply Rmult_le_compat_l; [left; apply u53_pos|exact H]].
  unfold u53. rewrite <- bpow_plus. apply Rle_trans with (bpow radix2 2 * eta).
  - apply Rmult_le_compat_r; [left; apply eta_pos|]. unfold bpow. cbn. lra.
  - unfold eta. rewrite <- bpow_plus. apply bpow_le. lia.
Qed.
Lemma swap_fee n p d o p' out : freach lm p -> fok d -> bpow radix2 (-1000) <= fval d <= bpow radix2 1023 -> f64_ok o -> fok (f_fee_rate p) -> 0 <= fval (f_fee_rate p) < 1 ->
  fexecute_swap_x lm n p d o = Ok (p', out) \/ fexecute_swap_y lm n p d o = Ok (p', out) -> fee_good (f_fee_rate p) d n out.
Proof.
  intros F D [D1 D2] O R R1. assert (K := freach_ok lm LM p F). assert (S : s_ok (mkFL f_zero f_zero f_zero f_zero (fglbl_tick p) (fglbl_rp p))).
  { unfold s_ok. cbn. repeat split; try reflexivity. apply K. }
  assert (P : 0 <= fval d) by (pose proof (bpow_gt_0 radix2 (-1000)); lra).
  intros [X|X]; [unfold fexecute_swap_x in X|unfold fexecute_swap_y in X]; (destruct (fle d f_zero); [discriminate|]).
  - apply (loop_x_fee d o (f_fee_rate p) D (conj P D2) (eta_small _ D1) O R R1 n 0%nat _ _ _ _ K S eq_refl (rate_start _ _ _ _ P) X).
  - apply (loop_y_fee d o (f_fee_rate p) D (conj P D2) (eta_small _ D1) O R R1 n 0%nat _ _ _ _ K S eq_refl (rate_start _ _ _ _ P) X).
Qed.
End Lm.
