(** Single price steps of the f64 pool: lemmas. *)
From Coq Require Import ZArith Reals Lra Lia List Bool Floats.SpecFloat.
From Flocq Require Import Core BinarySingleNaN.
From Verif Require Import Base FloatBase FloatModel FloatFacts FloatWf FloatSwap FloatLp FloatFlow FloatFee.
Open Scope R_scope.

Definition big : R := bpow radix2 400.
Definition small : R := bpow radix2 (-400).
Lemma big_small : big * small = 1. Proof. unfold big, small. rewrite <- bpow_plus. reflexivity. Qed.
Lemma small_pos : 0 < small. Proof. apply bpow_gt_0. Qed.
Lemma big_ge : 1024 <= big. Proof. unfold big. change 1024 with (bpow radix2 10). apply bpow_le. lia. Qed.
Lemma top_big x : Rabs x <= 16 * big -> Rabs (rnd x) < top.
Proof.
  intros H. pose proof (rnd_err x) as E. pose proof (Rabs_triang_inv (rnd x) x) as T. assert (U := u53_small). pose proof (Rabs_pos x). pose proof big_ge as B.
  assert (ET : eta <= 1) by (unfold eta; change 1 with (bpow radix2 0); apply bpow_le; lia).
  assert (X : Rabs (rnd x) <= 32 * big + 1) by nra. apply Rle_lt_trans with (33 * big); [lra|]. unfold top.
  apply Rlt_le_trans with (bpow radix2 406); [|apply bpow_le; lia]. replace 406%Z with (6 + 400)%Z by reflexivity. rewrite bpow_plus. fold big. change (bpow radix2 6) with 64. lra.
Qed.
Lemma eta_small x : small / 8 <= x -> eta <= / 100 * u53 * x.
Proof.
  intros H. assert (U := u53_pos). apply Rle_trans with (/ 100 * u53 * (small / 8)); [|apply Rmult_le_compat_l; lra].
  assert (E : eta * 1024 <= u53 * small).
  { unfold eta, u53, small. change 1024 with (bpow radix2 10). rewrite <- !bpow_plus. apply bpow_le. lia. }
  pose proof (Rmult_lt_0_compat _ _ U small_pos). lra.
Qed.
Lemma rnd_rel x : small / 8 <= x -> Rabs (rnd x - x) <= 1.01 * u53 * x.
Proof. intros H. pose proof (rnd_err x) as E. pose proof (eta_small x H). pose proof small_pos. rewrite (Rabs_pos_eq x) in E by lra. lra. Qed.
Lemma inv_err u d x s : 0 < u < / 1000 -> 0 <= d -> 0 < x -> Rabs (s - (d + x)) <= 2.1 * u * (d + x) -> 0 < s /\ Rabs (/ s - / (d + x)) <= 2.11 * u * / (d + x).
Proof.
  intros U D X H. apply Rabs_le_inv in H. assert (S : (1 - 2.1 * u) * (d + x) <= s) by lra. assert (S0 : 0 < s) by nra. split; [exact S0|].
  replace (/ s - / (d + x)) with ((d + x - s) / s * / (d + x)) by (field; lra). rewrite Rabs_mult, (Rabs_pos_eq (/ (d + x))) by (apply Rlt_le, Rinv_0_lt_compat; lra).
  apply Rmult_le_compat_r; [apply Rlt_le, Rinv_0_lt_compat; lra|]. unfold Rdiv. rewrite Rabs_mult, (Rabs_pos_eq (/ s)) by (apply Rlt_le, Rinv_0_lt_compat; lra).
  apply Rmult_le_reg_r with s; [exact S0|]. rewrite Rmult_assoc, Rinv_l, Rmult_1_r by lra. apply Rle_trans with (2.1 * u * (d + x)); [apply Rabs_le; lra|].
  apply Rle_trans with (2.11 * u * ((1 - 2.1 * u) * (d + x))); [|apply Rmult_le_compat_l; lra]. nra.
Qed.

Lemma u53_tiny : 0 < u53 < / 1000.
Proof. rewrite u53_val. lra. Qed.

Lemma ule a : 0 <= a -> 0 <= u53 * a <= / 1000 * a.
Proof. intros A. assert (U := u53_tiny). split; [apply Rmult_le_pos; lra|apply Rmult_le_compat_r; lra]. Qed.
Lemma inv_small : / big = small. Proof. unfold big, small. rewrite <- bpow_opp. reflexivity. Qed.
Lemma inv_big : / small = big. Proof. rewrite <- inv_small. apply Rinv_inv. Qed.

Section Step.
Variables l rp d : f64.
Hypothesis L : fok l.
Hypothesis P : fok rp.
Hypothesis D : fok d.
Hypothesis L0 : 0 < fval l.
Hypothesis PB : small <= fval rp <= big.
Hypothesis DB : 0 <= fval d / fval l <= big.
Lemma quot : fok (fdiv d l) /\ 0 <= fval (fdiv d l) /\ Rabs (fval (fdiv d l) - fval d / fval l) <= u53 * (fval d / fval l) + eta.
Proof.
  destruct (div_R' d l D L ltac:(lra)) as [A B]. { apply top_big. rewrite Rabs_pos_eq by lra. pose proof big_ge. lra. }
  split; [exact A|]. rewrite B. split; [apply rnd_ge0; lra|]. pose proof (rnd_err (fval d / fval l)) as E. rewrite (Rabs_pos_eq (fval d / fval l)) in E by lra. exact E.
Qed.
Lemma step_y : fok (f_rp_new_from_l_dy l rp d) /\ fval rp <= fval (f_rp_new_from_l_dy l rp d) /\
  Rabs (fval (f_rp_new_from_l_dy l rp d) - (fval d / fval l + fval rp)) <= 3 * u53 * (fval d / fval l + fval rp).
Proof.
  destruct quot as (A & B & C). unfold f_rp_new_from_l_dy. set (q := fdiv d l) in *. pose proof small_pos. assert (U := u53_tiny). pose proof (eta_small (fval rp) ltac:(lra)) as E. apply Rabs_le_inv in C.
  pose proof (ule (fval rp) ltac:(lra)) as UP. pose proof (ule (fval d / fval l) ltac:(lra)) as UD. assert (QB : fval q <= 3 * big) by lra.
  destruct (add_R' q rp A P) as [F G]. { apply top_big. rewrite Rabs_pos_eq by lra. pose proof big_ge. lra. }
  rewrite G. split; [exact F|]. split. { rewrite <- (rnd_fval rp) at 1 by apply P. apply rnd_le. lra. }
  pose proof (plus_err (fval q) (fval rp) (fval_fmt q (proj1 A)) (fval_fmt rp (proj1 P))) as PE. rewrite (Rabs_pos_eq (fval q + fval rp)) in PE by lra. apply Rabs_le_inv in PE. unfold rnd in *. apply Rabs_le.
  set (T := fval d / fval l) in *. set (w := fval rp) in *. set (v := fval q) in *. assert (UT : 0 <= u53 * T) by (apply Rmult_le_pos; lra). assert (UW : 0 <= u53 * w) by (apply Rmult_le_pos; lra).
  assert (UUT : u53 * (u53 * T) <= / 1000 * (u53 * T)) by (apply Rmult_le_compat_r; lra). assert (UUW : u53 * (u53 * w) <= / 1000 * (u53 * w)) by (apply Rmult_le_compat_r; lra).
  assert (V1 : u53 * v <= u53 * (T + u53 * T + / 100 * u53 * w)) by (apply Rmult_le_compat_l; lra). lra.
Qed.
Lemma step_x : let t := fval d / fval l + / fval rp in
  fok (f_rp_new_from_l_dx l rp d) /\ 0 < fval (f_rp_new_from_l_dx l rp d) /\ Rabs (fval (f_rp_new_from_l_dx l rp d) - / t) <= 4 * u53 * / t /\
  (4 * u53 * fval l <= fval d * fval rp -> fval (f_rp_new_from_l_dx l rp d) <= fval rp).
Proof.
  intros t. destruct quot as (A & B & C). unfold f_rp_new_from_l_dx. set (q := fdiv d l) in *. pose proof small_pos as SP. assert (U := u53_tiny). assert (U0 := u53_pos). pose proof big_ge as BG. pose proof big_small as BS.
  set (x := / fval rp) in *. assert (XB : small <= x <= big).
  { unfold x. split; [rewrite <- inv_small | rewrite <- inv_big]; apply Rinv_le_contravar; lra. }
  destruct (div_R' f_one rp fok_one P ltac:(lra)) as [I1 I2]. { rewrite fval_one. apply top_big. unfold Rdiv. rewrite Rmult_1_l. fold x. rewrite Rabs_pos_eq by lra. lra. }
  rewrite fval_one in I2. unfold Rdiv in I2. rewrite Rmult_1_l in I2. fold x in I2. set (i := fdiv f_one rp) in *.
  pose proof (rnd_rel x ltac:(lra)) as IE. rewrite <- I2 in IE. pose proof (eta_small x ltac:(lra)) as E. apply Rabs_le_inv in C. apply Rabs_le_inv in IE.
  set (T := fval d / fval l) in *. pose proof (ule x ltac:(lra)) as UX0. pose proof (ule T ltac:(lra)) as UT0. assert (I0 : 0 < fval i) by lra. assert (IB : fval i <= 2 * big) by lra. assert (QB : fval q <= 3 * big) by lra.
  destruct (add_R' q i A I1) as [S1 S2]. { apply top_big. rewrite Rabs_pos_eq by lra. lra. }
  set (s := fadd q i) in *. pose proof (plus_err (fval q) (fval i) (fval_fmt q (proj1 A)) (fval_fmt i (proj1 I1))) as PE. rewrite (Rabs_pos_eq (fval q + fval i)) in PE by lra. fold (rnd (fval q + fval i)) in PE. rewrite <- S2 in PE. apply Rabs_le_inv in PE.
  assert (SE : Rabs (fval s - (T + x)) <= 2.1 * u53 * (T + x)).
  { apply Rabs_le. set (v := fval q) in *. set (z := fval i) in *. assert (UT : 0 <= u53 * T) by (apply Rmult_le_pos; lra). assert (UX : 0 <= u53 * x) by (apply Rmult_le_pos; lra).
    assert (UUT : u53 * (u53 * T) <= / 1000 * (u53 * T)) by (apply Rmult_le_compat_r; lra). assert (UUX : u53 * (u53 * x) <= / 1000 * (u53 * x)) by (apply Rmult_le_compat_r; lra).
    assert (V1 : u53 * v <= u53 * (T + u53 * T + / 100 * u53 * x)) by (apply Rmult_le_compat_l; lra). assert (V2 : u53 * z <= u53 * (x + 1.01 * u53 * x)) by (apply Rmult_le_compat_l; lra). lra. }
  destruct (inv_err u53 T x (fval s) ltac:(lra) ltac:(lra) ltac:(lra) SE) as [S0 IV]. fold t in IV, SE. apply Rabs_le_inv in SE.
  assert (T0 : 0 < t) by (unfold t; lra). assert (TB : small <= t <= 2 * big) by (unfold t; lra). pose proof (ule t ltac:(lra)) as US. assert (SB : fval s <= 4 * big) by lra. assert (SL : small / 2 <= fval s) by lra.
  assert (N0 : small / 8 <= / fval s). { apply Rle_trans with (/ (4 * big)); [rewrite Rinv_mult, inv_small; lra|]. apply Rinv_le_contravar; lra. }
  assert (N1 : / fval s <= 4 * big). { apply Rle_trans with (/ (small / 2)); [apply Rinv_le_contravar; lra|]. unfold Rdiv. rewrite Rinv_mult, inv_big, Rinv_inv. lra. }
  destruct (div_R' f_one s fok_one S1 ltac:(lra)) as [N2 N3]. { rewrite fval_one. apply top_big. unfold Rdiv. rewrite Rmult_1_l, Rabs_pos_eq by lra. lra. }
  rewrite fval_one in N3. unfold Rdiv in N3. rewrite Rmult_1_l in N3. pose proof (rnd_rel (/ fval s) N0) as NE. rewrite <- N3 in NE. set (n := fval (fdiv f_one s)) in *. apply Rabs_le_inv in NE.
  pose proof (ule (/ fval s) ltac:(lra)) as UN. split; [exact N2|]. split; [lra|]. split.
  - assert (TI : 0 < / t) by (apply Rinv_0_lt_compat; lra). set (r := / t) in *. set (w := / fval s) in *. apply Rabs_le_inv in IV. pose proof (ule r ltac:(lra)) as UR. pose proof (ule (u53 * r) ltac:(lra)) as UUR. assert (UW : u53 * w <= u53 * (r + 2.11 * u53 * r)) by (apply Rmult_le_compat_l; lra). apply Rabs_le. lra.
  - intros H. assert (TX : 4 * u53 * x <= T).
    { unfold T, x. apply Rmult_le_reg_r with (fval l); [lra|]. apply Rmult_le_reg_r with (fval rp); [lra|]. replace (fval d / fval l * fval l * fval rp) with (fval d * fval rp) by (field; lra). replace (4 * u53 * / fval rp * fval l * fval rp) with (4 * u53 * fval l) by (field; lra). exact H. }
    apply Rle_trans with ((1 + 1.01 * u53) * / fval s); [lra|]. replace (fval rp) with (/ x) by (unfold x; rewrite Rinv_inv; reflexivity).
    apply Rmult_le_reg_r with (fval s); [lra|]. rewrite Rmult_assoc, Rinv_l, Rmult_1_r by lra. apply Rmult_le_reg_l with x; [lra|]. rewrite <- Rmult_assoc, Rinv_r, Rmult_1_l by lra.
    unfold t in SE. lra.
Qed.
End Step.

(** ** What is paid for a step *)
Lemma mul_err a b : fok a -> fok b -> Rabs (fval a * fval b) <= 16 * big -> fok (fmul a b) /\ Rabs (fval (fmul a b) - fval a * fval b) <= u53 * Rabs (fval a * fval b) + eta.
Proof. intros A B H. destruct (mul_R' a b A B (top_big _ H)) as [M1 M2]. split; [exact M1|]. rewrite M2. apply rnd_err. Qed.
Lemma sub_err a b : fok a -> fok b -> Rabs (fval a - fval b) <= 16 * big -> fok (fsub a b) /\ Rabs (fval (fsub a b) - (fval a - fval b)) <= u53 * Rabs (fval a - fval b).
Proof. intros A B H. destruct (sub_R' a b A B (top_big _ H)) as [M1 M2]. split; [exact M1|]. rewrite M2. apply minus_err; apply fval_fmt; [apply A|apply B]. Qed.
Lemma inv_f a : fok a -> small / 2 <= fval a <= 4 * big -> fok (fdiv f_one a) /\ Rabs (fval (fdiv f_one a) - / fval a) <= 1.01 * u53 * / fval a.
Proof.
  intros A [B1 B2]. pose proof small_pos as SP. pose proof big_ge as BG.
  assert (N0 : small / 8 <= / fval a). { apply Rle_trans with (/ (4 * big)); [rewrite Rinv_mult, inv_small; lra|]. apply Rinv_le_contravar; lra. }
  assert (N1 : / fval a <= 4 * big). { apply Rle_trans with (/ (small / 2)); [apply Rinv_le_contravar; lra|]. unfold Rdiv. rewrite Rinv_mult, inv_big, Rinv_inv. lra. }
  destruct (div_R' f_one a fok_one A ltac:(lra)) as [M1 M2]. { rewrite fval_one. apply top_big. unfold Rdiv. rewrite Rmult_1_l, Rabs_pos_eq by lra. lra. }
  rewrite fval_one in M2. unfold Rdiv in M2. rewrite Rmult_1_l in M2. split; [exact M1|]. rewrite M2. apply rnd_rel. exact N0.
Qed.
(** [k] is the size of the quantities, [z] the exact difference and [a - b] the computed one *)
Lemma scaled l a b k z c : fok l -> fok a -> fok b -> 0 < fval l -> 0 < k <= 4 * big -> small / 8 <= fval l * k <= big -> 0 <= c <= 8 -> Rabs (fval a - fval b) <= 1.02 * k -> Rabs (fval a - fval b - z) <= c * u53 * k ->
  fok (fmul l (fsub a b)) /\ Rabs (fval (fmul l (fsub a b)) - fval l * z) <= (c + 3) * u53 * (fval l * k).
Proof.
  intros L A B L0 K LK C D E. assert (U := u53_tiny). destruct (sub_err a b A B ltac:(lra)) as [S1 S2]. set (s := fval (fsub a b)) in *. set (df := fval a - fval b) in *.
  assert (UK := ule k ltac:(lra)). assert (SD : Rabs (s - df) <= 1.02 * (u53 * k)). { eapply Rle_trans; [exact S2|]. replace (1.02 * (u53 * k)) with (u53 * (1.02 * k)) by ring. apply Rmult_le_compat_l; lra. }
  assert (SB : Rabs s <= 1.03 * k). { replace s with ((s - df) + df) by ring. eapply Rle_trans; [apply Rabs_triang|]. lra. }
  set (m := fval l * k) in *. assert (PB : Rabs (fval l * s) <= 1.03 * m). { rewrite Rabs_mult, (Rabs_pos_eq (fval l)) by lra. unfold m. replace (1.03 * (fval l * k)) with (fval l * (1.03 * k)) by ring. apply Rmult_le_compat_l; lra. }
  pose proof big_ge. pose proof small_pos. destruct (mul_err l (fsub a b) L S1) as [M1 M2]; [fold s; lra|]. fold s in M2. split; [exact M1|]. set (v := fval (fmul l (fsub a b))) in *.
  pose proof (eta_small m ltac:(lra)) as ET. assert (UM := ule m ltac:(lra)). assert (M3 : u53 * Rabs (fval l * s) <= 1.03 * (u53 * m)). { replace (1.03 * (u53 * m)) with (u53 * (1.03 * m)) by ring. apply Rmult_le_compat_l; lra. }
  assert (LZ : Rabs (fval l * s - fval l * z) <= (c + 1.02) * (u53 * m)).
  { replace (fval l * s - fval l * z) with (fval l * ((s - df) + (df - z))) by ring. rewrite Rabs_mult, (Rabs_pos_eq (fval l)) by lra. unfold m. replace ((c + 1.02) * (u53 * (fval l * k))) with (fval l * (1.02 * (u53 * k) + c * u53 * k)) by ring.
    apply Rmult_le_compat_l; [lra|]. eapply Rle_trans; [apply Rabs_triang|]. lra. }
  replace (v - fval l * z) with ((v - fval l * s) + (fval l * s - fval l * z)) by ring. eapply Rle_trans; [apply Rabs_triang|]. apply Rle_trans with (1.04 * (u53 * m) + (c + 1.02) * (u53 * m)); [lra|].
  replace ((c + 3) * u53 * m) with (c * (u53 * m) + 3 * (u53 * m)) by ring. lra.
Qed.

Section Pay.
Variables l rp d : f64.
Hypothesis L : fok l.
Hypothesis P : fok rp.
Hypothesis D : fok d.
Hypothesis L0 : 0 < fval l.
Hypothesis PB : small <= fval rp <= big.
Hypothesis DB : 0 <= fval d / fval l <= big.
Lemma pay_y : small <= fval l * fval rp <= big ->
  let q := f_dy_from_l_drp l rp (f_rp_new_from_l_dx l rp d) in fok q /\ Rabs (fval q - fval l * (/ (fval d / fval l + / fval rp) - fval rp)) <= 8 * u53 * (fval l * fval rp).
Proof.
  intros LP. cbv zeta. destruct (step_x l rp d L P D L0 PB DB) as (N1 & N2 & N3 & _). set (n := f_rp_new_from_l_dx l rp d) in *. unfold f_dy_from_l_drp. pose proof small_pos as SP. assert (U := u53_tiny). pose proof big_ge as BG.
  assert (X : 0 < / fval rp) by (apply Rinv_0_lt_compat; lra). assert (R : / (fval d / fval l + / fval rp) <= fval rp). { rewrite <- (Rinv_inv (fval rp)) at 2. apply Rinv_le_contravar; lra. }
  assert (R0 : 0 < / (fval d / fval l + / fval rp)) by (apply Rinv_0_lt_compat; lra). set (e := / (fval d / fval l + / fval rp)) in *.
  assert (UP := ule (fval rp) ltac:(lra)). assert (UE : u53 * e <= u53 * fval rp) by (apply Rmult_le_compat_l; lra). assert (UE0 := ule e ltac:(lra)). pose proof N3 as N4. apply Rabs_le_inv in N4.
  destruct (scaled l n rp (fval rp) (e - fval rp) 4) as [Q1 Q2]; auto; try lra.
  - apply Rabs_le. lra.
  - replace (fval n - fval rp - (e - fval rp)) with (fval n - e) by ring. lra.
  - split; [exact Q1|]. eapply Rle_trans; [exact Q2|]. replace ((4 + 3) * u53 * (fval l * fval rp)) with (7 * (u53 * (fval l * fval rp))) by ring. replace (8 * u53 * (fval l * fval rp)) with (8 * (u53 * (fval l * fval rp))) by ring. pose proof (ule (fval l * fval rp) ltac:(lra)). lra.
Qed.
Lemma pay_x : small <= fval l / fval rp <= big ->
  let q := f_dx_from_l_drp l rp (f_rp_new_from_l_dy l rp d) in fok q /\ Rabs (fval q - fval l * (/ (fval d / fval l + fval rp) - / fval rp)) <= 9 * u53 * (fval l / fval rp).
Proof.
  intros LP. cbv zeta. destruct (step_y l rp d L P D L0 PB DB) as (N1 & N2 & N3). set (n := f_rp_new_from_l_dy l rp d) in *. unfold f_dx_from_l_drp. pose proof small_pos as SP. assert (U := u53_tiny). pose proof big_ge as BG.
  set (T := fval d / fval l) in *. set (e := T + fval rp) in *. assert (UE := ule e ltac:(unfold e; lra)). pose proof N3 as N4. apply Rabs_le_inv in N4. assert (NB : fval n <= 4 * big) by (unfold e in *; lra).
  set (x := / fval rp) in *. assert (X : small <= x <= big). { unfold x. split; [rewrite <- inv_small | rewrite <- inv_big]; apply Rinv_le_contravar; lra. }
  destruct (inv_f n N1 ltac:(lra)) as [I1 I2]. destruct (inv_f rp P ltac:(lra)) as [J1 J2]. fold x in J2.
  assert (NX : / fval n <= x) by (unfold x; apply Rinv_le_contravar; lra). assert (EX : / e <= x) by (unfold x, e; apply Rinv_le_contravar; lra). assert (N0 : 0 < / fval n) by (apply Rinv_0_lt_compat; lra). assert (E0 : 0 < / e) by (apply Rinv_0_lt_compat; unfold e; lra).
  assert (UX := ule x ltac:(lra)). assert (UN : u53 * / fval n <= u53 * x) by (apply Rmult_le_compat_l; lra). assert (UN0 := ule (/ fval n) ltac:(lra)).
  assert (NE : Rabs (/ fval n - / e) <= 3 * (u53 * x)).
  { assert (EP : 0 < e) by (unfold e; lra). replace (/ fval n - / e) with ((e - fval n) * / e * / fval n) by (field; lra). rewrite !Rabs_mult, (Rabs_pos_eq (/ e)), (Rabs_pos_eq (/ fval n)) by lra.
    rewrite Rabs_minus_sym. apply Rle_trans with (3 * u53 * e * / e * / fval n); [apply Rmult_le_compat_r; [lra|]; apply Rmult_le_compat_r; lra|]. replace (3 * u53 * e * / e * / fval n) with (3 * (u53 * / fval n)) by (field; lra). lra. }
  set (i := fdiv f_one n) in *. set (j := fdiv f_one rp) in *. apply Rabs_le_inv in I2. apply Rabs_le_inv in J2. apply Rabs_le_inv in NE.
  destruct (scaled l i j x (/ e - x) 5.1) as [Q1 Q2]; auto; try lra.
  - unfold x. fold (fval l / fval rp). lra.
  - apply Rabs_le. lra.
  - apply Rabs_le. replace (fval i - fval j - (/ e - x)) with ((fval i - / fval n) + (/ fval n - / e) - (fval j - x)) by ring. lra.
  - split; [exact Q1|]. eapply Rle_trans; [exact Q2|]. unfold x. fold (fval l / fval rp). pose proof (ule (fval l / fval rp) ltac:(lra)). lra.
Qed.
End Pay.
