(** The f64 operations of FloatBase.v over the real numbers, through Flocq's theorems about IEEE 754 arithmetic.  The first lemmas connect
    the standard library's operations with Flocq's (they follow Flocq's IEEE754/PrimFloat.v, which is not imported: it would bring the
    axioms of primitive floats). *)
From Coq Require Import ZArith Reals Lra Lia Bool Floats.SpecFloat.
From Flocq Require Import Core BinarySingleNaN Relative Plus_error.
From Verif Require Import FloatBase.
Open Scope R_scope.

Lemma prec53 : FLX.Prec_gt_0 53. Proof. reflexivity. Qed.
Lemma prec_emax : Prec_lt_emax 53 1024. Proof. reflexivity. Qed.
#[global] Existing Instance prec53.
#[global] Existing Instance prec_emax.
#[global] Instance fexp_val : Valid_exp (SpecFloat.fexp 53 1024) := fexp_correct 53 1024 _.

Notation bf := (binary_float 53 1024).
Notation fexp64 := (SpecFloat.fexp 53 1024).
Definition rnd (x : R) : R := round radix2 fexp64 ZnearestE x.
Definition fval (x : f64) : R := SF2R radix2 x.
(** a finite f64 *)
Definition fok (x : f64) : Prop := f64_ok x /\ f_finite x = true.
Definition top : R := bpow radix2 1024.

Lemma rne_equiv s m l : round_nearest_even m l = choice_mode mode_NE s m l.
Proof. case l; [reflexivity|intro c]. case c; [|reflexivity..]. now simpl; unfold Round.cond_incr; case Z.even. Qed.
Lemma bra_equiv sx mx ex lx :
  SpecFloat.binary_round_aux 53 1024 sx mx ex lx = BinarySingleNaN.binary_round_aux 53 1024 mode_NE sx mx ex lx.
Proof.
  unfold SpecFloat.binary_round_aux, BinarySingleNaN.binary_round_aux.
  set (r := shr_fexp _ _ _). case r; intros mrs' e'; simpl. now rewrite (rne_equiv sx).
Qed.
Lemma br_equiv s m e : SpecFloat.binary_round 53 1024 s m e = BinarySingleNaN.binary_round 53 1024 mode_NE s m e.
Proof.
  unfold SpecFloat.binary_round, BinarySingleNaN.binary_round, shl_align_fexp.
  set (z := shl_align _ _ _); case z as [mz ez]. apply bra_equiv.
Qed.
Lemma bn_equiv m e z :
  SpecFloat.binary_normalize 53 1024 m e z = B2SF (BinarySingleNaN.binary_normalize 53 1024 _ _ mode_NE m e z).
Proof. case m as [|p|p]; [reflexivity|simpl; rewrite B2SF_SF2B; apply br_equiv..]. Qed.

Lemma mul_b (x y : bf) : fmul (B2SF x) (B2SF y) = B2SF (Bmult mode_NE x y).
Proof.
  destruct x as [sx|sx| |sx mx ex Bx], y as [sy|sy| |sy my ey By]; try reflexivity.
  cbn [B2SF Bmult]. rewrite B2SF_SF2B. apply bra_equiv.
Qed.
Lemma add_b (x y : bf) : fadd (B2SF x) (B2SF y) = B2SF (Bplus mode_NE x y).
Proof.
  destruct x as [sx|sx| |sx mx ex Bx], y as [sy|sy| |sy my ey By];
    try (simpl; (reflexivity || (case Bool.eqb; reflexivity) || (case (Bool.eqb _ _); reflexivity))).
  apply bn_equiv.
Qed.
Lemma sub_b (x y : bf) : fsub (B2SF x) (B2SF y) = B2SF (Bminus mode_NE x y).
Proof.
  destruct x as [sx|sx| |sx mx ex Bx], y as [sy|sy| |sy my ey By];
    try (simpl; (reflexivity || (case Bool.eqb; reflexivity) || (case (Bool.eqb _ _); reflexivity))).
  unfold fsub, SFsub. cbn [B2SF Bminus]. unfold Zminus. rewrite <- cond_Zopp_negb. apply bn_equiv.
Qed.
Lemma div_b (x y : bf) : fdiv (B2SF x) (B2SF y) = B2SF (Bdiv mode_NE x y).
Proof.
  destruct x as [sx|sx| |sx mx ex Bx], y as [sy|sy| |sy my ey By];
    try (simpl; (reflexivity || (case Bool.eqb; reflexivity) || (case (Bool.eqb _ _); reflexivity))).
  unfold fdiv, SFdiv. cbn [B2SF Bdiv]. rewrite B2SF_SF2B.
  set (z := SFdiv_core_binary _ _ _ _ _ _). case z as [[mz ez] lz]. apply bra_equiv.
Qed.
Lemma neg_b (x : bf) : fneg (B2SF x) = B2SF (Bopp x).
Proof. now destruct x. Qed.

(** every valid f64 is the image of a Flocq float *)
Lemma as_b x : f64_ok x -> exists b : bf, x = B2SF b.
Proof. intros H. exists (SF2B x H). now rewrite B2SF_SF2B. Qed.
Lemma b_ok (b : bf) : f64_ok (B2SF b).
Proof. apply valid_binary_B2SF. Qed.
Lemma b_fin (b : bf) : f_finite (B2SF b) = is_finite b.
Proof. now destruct b. Qed.
Lemma b_val (b : bf) : fval (B2SF b) = B2R b.
Proof. apply SF2R_B2SF. Qed.

Ltac bb x H := let b := fresh "b" x in destruct (as_b x H) as [b ->]; try clear H.

Lemma add_ok a b : f64_ok a -> f64_ok b -> f64_ok (fadd a b).
Proof. intros A B. bb a A. bb b B. rewrite add_b. apply b_ok. Qed.
Lemma sub_ok a b : f64_ok a -> f64_ok b -> f64_ok (fsub a b).
Proof. intros A B. bb a A. bb b B. rewrite sub_b. apply b_ok. Qed.
Lemma mul_ok a b : f64_ok a -> f64_ok b -> f64_ok (fmul a b).
Proof. intros A B. bb a A. bb b B. rewrite mul_b. apply b_ok. Qed.
Lemma div_ok a b : f64_ok a -> f64_ok b -> f64_ok (fdiv a b).
Proof. intros A B. bb a A. bb b B. rewrite div_b. apply b_ok. Qed.
Lemma neg_ok a : f64_ok a -> f64_ok (fneg a).
Proof. intros A. bb a A. rewrite neg_b. apply b_ok. Qed.

(** rounding *)
Lemma rnd_le x y : x <= y -> rnd x <= rnd y.
Proof. apply round_le; auto with typeclass_instances. Qed.
Lemma rnd_0 : rnd 0 = 0.
Proof. apply round_0; auto with typeclass_instances. Qed.
Lemma rnd_ge0 x : 0 <= x -> 0 <= rnd x.
Proof. intros H. rewrite <- rnd_0. now apply rnd_le. Qed.
Lemma fval_fmt x : f64_ok x -> generic_format radix2 fexp64 (fval x).
Proof. intros H. bb x H. rewrite b_val. apply generic_format_B2R. Qed.
Lemma rnd_fval x : f64_ok x -> rnd (fval x) = fval x.
Proof. intros H. apply round_generic; auto with typeclass_instances. now apply fval_fmt. Qed.
Lemma fval_top x : f64_ok x -> Rabs (fval x) < top.
Proof. intros H. bb x H. rewrite b_val. apply abs_B2R_lt_emax. Qed.
Lemma fval_opp x : fval (fneg x) = - fval x.
Proof.
  destruct x as [s|s| |s m e]; cbn; try lra.
  rewrite <- F2R_Zopp. f_equal. f_equal. destruct s; reflexivity.
Qed.
Lemma fok_neg x : fok x -> fok (fneg x).
Proof. intros [A B]. split; [now apply neg_ok|]. now destruct x. Qed.

(** comparisons *)
Lemma flt_R a b : fok a -> fok b -> flt a b = Rlt_bool (fval a) (fval b).
Proof. intros [A FA] [B FB]. bb a A. bb b B. rewrite b_fin in FA, FB. rewrite !b_val. now apply Bltb_correct. Qed.
Lemma fle_R a b : fok a -> fok b -> fle a b = Rle_bool (fval a) (fval b).
Proof. intros [A FA] [B FB]. bb a A. bb b B. rewrite b_fin in FA, FB. rewrite !b_val. now apply Bleb_correct. Qed.
Lemma feq_R a b : fok a -> fok b -> feq a b = Req_bool (fval a) (fval b).
Proof. intros [A FA] [B FB]. bb a A. bb b B. rewrite b_fin in FA, FB. rewrite !b_val. now apply Beqb_correct. Qed.
Lemma flt_t a b : fok a -> fok b -> flt a b = true -> fval a < fval b.
Proof. intros A B. rewrite flt_R by assumption. case Rlt_bool_spec; [auto|discriminate]. Qed.
Lemma flt_f a b : fok a -> fok b -> flt a b = false -> fval b <= fval a.
Proof. intros A B. rewrite flt_R by assumption. case Rlt_bool_spec; [discriminate|auto]. Qed.
Lemma fle_t a b : fok a -> fok b -> fle a b = true -> fval a <= fval b.
Proof. intros A B. rewrite fle_R by assumption. case Rle_bool_spec; [auto|discriminate]. Qed.
Lemma fle_f a b : fok a -> fok b -> fle a b = false -> fval b < fval a.
Proof. intros A B. rewrite fle_R by assumption. case Rle_bool_spec; [discriminate|auto]. Qed.

(** a sum or difference of finite numbers: the rounded exact value, or an infinity *)
Lemma add_R a b : fok a -> fok b -> f_finite (fadd a b) = true -> fval (fadd a b) = rnd (fval a + fval b).
Proof.
  intros [A FA] [B FB]. bb a A. bb b B. rewrite b_fin in FA, FB. rewrite add_b, b_fin, !b_val. intros F.
  pose proof (Bplus_correct 53 1024 _ _ mode_NE ba bb FA FB) as H.
  destruct (Rlt_bool _ _); [apply H|]. destruct H as [H _].
  exfalso. rewrite <- b_fin, H in F. discriminate.
Qed.
Lemma add_R' a b : fok a -> fok b -> Rabs (rnd (fval a + fval b)) < top -> fok (fadd a b) /\ fval (fadd a b) = rnd (fval a + fval b).
Proof.
  intros [A FA] [B FB]. bb a A. bb b B. rewrite b_fin in FA, FB. rewrite add_b, !b_val. intros F.
  pose proof (Bplus_correct 53 1024 _ _ mode_NE ba bb FA FB) as H.
  change (round_mode mode_NE) with ZnearestE in H. fold (rnd (B2R ba + B2R bb)) in H.
  rewrite Rlt_bool_true in H by exact F. destruct H as (H1 & H2 & _).
  split; [split; [apply b_ok|now rewrite b_fin]|exact H1].
Qed.
Lemma sub_R a b : fok a -> fok b -> f_finite (fsub a b) = true -> fval (fsub a b) = rnd (fval a - fval b).
Proof.
  intros [A FA] [B FB]. bb a A. bb b B. rewrite b_fin in FA, FB. rewrite sub_b, b_fin, !b_val. intros F.
  pose proof (Bminus_correct 53 1024 _ _ mode_NE ba bb FA FB) as H.
  destruct (Rlt_bool _ _); [apply H|]. destruct H as [H _].
  exfalso. rewrite <- b_fin, H in F. discriminate.
Qed.
Lemma sub_R' a b : fok a -> fok b -> Rabs (rnd (fval a - fval b)) < top -> fok (fsub a b) /\ fval (fsub a b) = rnd (fval a - fval b).
Proof.
  intros [A FA] [B FB]. bb a A. bb b B. rewrite b_fin in FA, FB. rewrite sub_b, !b_val. intros F.
  pose proof (Bminus_correct 53 1024 _ _ mode_NE ba bb FA FB) as H.
  change (round_mode mode_NE) with ZnearestE in H. fold (rnd (B2R ba - B2R bb)) in H.
  rewrite Rlt_bool_true in H by exact F. destruct H as (H1 & H2 & _).
  split; [split; [apply b_ok|now rewrite b_fin]|exact H1].
Qed.
Lemma mul_R' a b : fok a -> fok b -> Rabs (rnd (fval a * fval b)) < top -> fok (fmul a b) /\ fval (fmul a b) = rnd (fval a * fval b).
Proof.
  intros [A FA] [B FB]. bb a A. bb b B. rewrite b_fin in FA, FB. rewrite mul_b, !b_val. intros F.
  pose proof (Bmult_correct 53 1024 _ _ mode_NE ba bb) as H.
  change (round_mode mode_NE) with ZnearestE in H. fold (rnd (B2R ba * B2R bb)) in H.
  rewrite Rlt_bool_true in H by exact F. destruct H as (H1 & H2 & _).
  split; [split; [apply b_ok|now rewrite b_fin, H2, FA, FB]|exact H1].
Qed.
Lemma div_R' a b : fok a -> fok b -> fval b <> 0 -> Rabs (rnd (fval a / fval b)) < top ->
  fok (fdiv a b) /\ fval (fdiv a b) = rnd (fval a / fval b).
Proof.
  intros [A FA] [B FB]. bb a A. bb b B. rewrite b_fin in FA, FB. rewrite div_b, !b_val. intros NZ F.
  pose proof (Bdiv_correct 53 1024 _ _ mode_NE ba bb NZ) as H.
  change (round_mode mode_NE) with ZnearestE in H. fold (rnd (B2R ba / B2R bb)) in H.
  rewrite Rlt_bool_true in H by exact F. destruct H as (H1 & H2 & _).
  split; [split; [apply b_ok|now rewrite b_fin, H2]|exact H1].
Qed.

Lemma fok_zero : fok f_zero. Proof. split; reflexivity. Qed.
Lemma fval_zero : fval f_zero = 0. Proof. reflexivity. Qed.
Lemma fok_one : fok f_one. Proof. split; reflexivity. Qed.
Lemma fval_one : fval f_one = 1.
Proof.
  unfold fval, f_one, SF2R, F2R. cbn [cond_Zopp Fnum Fexp bpow]. change (Z.pow_pos radix2 52) with 4503599627370496%Z.
  field.
Qed.

(** relative error of a rounded sum (no loss for small results: sums of f64 numbers are then exact) *)
Definition u53 : R := bpow radix2 (-53).
Lemma u53_pos : 0 < u53. Proof. apply bpow_gt_0. Qed.
Lemma u53_val : u53 = / 9007199254740992.
Proof. unfold u53, bpow. change (Z.pow_pos radix2 53) with 9007199254740992%Z. reflexivity. Qed.


Lemma plus_err x y : generic_format radix2 fexp64 x -> generic_format radix2 fexp64 y ->
  Rabs (rnd (x + y) - (x + y)) <= u53 * Rabs (x + y).
Proof.
  intros Fx Fy.
  destruct (FLT_plus_error_N_ex radix2 (SpecFloat.emin 53 1024) 53 (fun z => negb (Z.even z)) x y Fx Fy) as (eps & He & E).
  unfold rnd. fold fexp64 in *. change (FLT_exp (SpecFloat.emin 53 1024) 53) with fexp64 in E. rewrite E.
  replace ((x + y) * (1 + eps) - (x + y)) with (eps * (x + y)) by ring. rewrite Rabs_mult.
  apply Rmult_le_compat_r; [apply Rabs_pos|].
  eapply Rle_trans; [exact He|]. eapply Rle_trans; [apply u_rod1pu_ro_le_u_ro; exact prec53|].
  unfold u_ro, u53. right. change (/ 2) with (bpow radix2 (-1)). rewrite <- bpow_plus. reflexivity.
Qed.
Lemma minus_err x y : generic_format radix2 fexp64 x -> generic_format radix2 fexp64 y ->
  Rabs (rnd (x - y) - (x - y)) <= u53 * Rabs (x - y).
Proof. intros Fx Fy. apply plus_err; [exact Fx|]. now apply generic_format_opp. Qed.

(** a value less than a quarter of the relative spacing below an f64 number rounds to at least that number *)
Lemma rounds_up v x : generic_format radix2 fexp64 x -> 0 < x -> x - u53 / 4 * x < v -> x <= rnd v.
Proof.
  intros Fx Px Hv. apply round_N_ge_midp; auto with typeclass_instances.
  pose proof (pred_plus_ulp radix2 fexp64 x Px Fx) as E.
  pose proof (ulp_FLT_gt radix2 (SpecFloat.emin 53 1024) 53 (pred radix2 fexp64 x)) as G.
  change (FLT_exp (SpecFloat.emin 53 1024) 53) with fexp64 in G.
  assert (P0 : 0 <= pred radix2 fexp64 x) by (apply pred_ge_0; auto with typeclass_instances).
  rewrite Rabs_pos_eq in G by exact P0. change (bpow radix2 (- (53))) with u53 in G.
  set (q := pred radix2 fexp64 x) in *. set (w := ulp radix2 fexp64 q) in *.
  pose proof u53_val as U. rewrite U in *. lra.
Qed.

(** ** Whole numbers below 2^53 are exact *)
Lemma fmt_int z : (Z.abs z < 2 ^ 53)%Z -> generic_format radix2 fexp64 (IZR z).
Proof.
  intros H. change fexp64 with (FLT_exp (SpecFloat.emin 53 1024) 53).
  apply generic_format_FLT. exists (Float radix2 z 0); [unfold F2R; cbn; ring|exact H|].
  cbn. unfold SpecFloat.emin. lia.
Qed.
Lemma rnd_int z : (Z.abs z < 2 ^ 53)%Z -> rnd (IZR z) = IZR z.
Proof. intros H. apply round_generic; auto with typeclass_instances. now apply fmt_int. Qed.
Lemma int_top z : (Z.abs z < 2 ^ 53)%Z -> Rabs (IZR z) < top.
Proof.
  intros H. rewrite <- abs_IZR. apply Rlt_trans with (IZR (2 ^ 53)); [now apply IZR_lt|].
  unfold top. change (IZR (2 ^ 53)) with (bpow radix2 53). now apply bpow_lt.
Qed.
Lemma f_int_R z : (Z.abs z < 2 ^ 53)%Z -> fok (f_int z) /\ fval (f_int z) = IZR z.
Proof.
  intros H. unfold f_int. rewrite bn_equiv.
  pose proof (binary_normalize_correct 53 1024 _ _ mode_NE z 0 false) as C.
  cbv zeta in C. replace (F2R (Float radix2 z 0)) with (IZR z) in C by (unfold F2R; cbn; ring).
  change (round radix2 fexp64 (round_mode mode_NE) (IZR z)) with (rnd (IZR z)) in C. rewrite rnd_int in C by exact H.
  rewrite Rlt_bool_true in C by now apply int_top. destruct C as (C1 & C2 & _).
  split; [split; [apply b_ok|now rewrite b_fin]|now rewrite b_val].
Qed.

(** [f] is the whole number [z] *)
Definition fint (f : f64) (z : Z) : Prop := fok f /\ fval f = IZR z.
Lemma fint_int z : (Z.abs z < 2 ^ 53)%Z -> fint (f_int z) z.
Proof. intros H. now apply f_int_R. Qed.
Lemma fint_zero : fint f_zero 0. Proof. split; [exact fok_zero|reflexivity]. Qed.
Lemma fint_neg f z : fint f z -> fint (fneg f) (- z).
Proof. intros [A B]. split; [now apply fok_neg|]. rewrite fval_opp, B, opp_IZR. reflexivity. Qed.
Lemma fint_add f z f' z' : fint f z -> fint f' z' -> (Z.abs (z + z') < 2 ^ 53)%Z -> fint (fadd f f') (z + z').
Proof.
  intros [A B] [A' B'] H. unfold fint.
  destruct (add_R' f f' A A') as [E1 E2]; rewrite B, B', <- plus_IZR, ?rnd_int in * by exact H; auto using int_top.
Qed.
Lemma fint_lt0 f z : fint f z -> flt f f_zero = (z <? 0)%Z.
Proof.
  intros [A B]. rewrite flt_R by (auto using fok_zero). rewrite B, fval_zero.
  case Rlt_bool_spec; intros H; symmetry; [apply Z.ltb_lt; now apply lt_IZR|apply Z.ltb_ge; now apply le_IZR].
Qed.
Lemma fint_eq0 f z : fint f z -> feq f f_zero = (z =? 0)%Z.
Proof.
  intros [A B]. rewrite feq_R by (auto using fok_zero). rewrite B, fval_zero.
  case Req_bool_spec; intros H; symmetry; [apply Z.eqb_eq; now apply eq_IZR|apply Z.eqb_neq; intros ->; now apply H].
Qed.

(** ** Floor *)
Lemma bound_mant s m e : f64_ok (S754_finite s m e) -> (Zpos m < 2 ^ 53)%Z.
Proof.
  intros H. pose proof (as_b _ H) as [b E]. destruct b as [| | |s' m' e' B]; try discriminate. injection E as <- <- <-.
  clear H. unfold SpecFloat.bounded in B. apply andb_prop in B as [B _]. unfold SpecFloat.canonical_mantissa in B.
  apply Zeq_bool_eq in B. unfold SpecFloat.fexp, SpecFloat.emin in B.
  pose proof (Digits.Zpos_digits2_pos m) as D. rewrite D in B.
  assert (L : (Digits.Zdigits radix2 (Zpos m) <= 53)%Z) by lia.
  pose proof (Digits.Zdigits_correct radix2 (Zpos m)) as [_ U]. rewrite Z.abs_eq in U by lia.
  eapply Z.lt_le_trans; [exact U|]. change 2%Z with (radix_val radix2). now apply Zpower_le.
Qed.
Lemma floor_R x : fok x -> fok (ffloor x) /\ fval (ffloor x) = IZR (Zfloor (fval x)).
Proof.
  intros [H F]. destruct x as [s|s| |s m e]; try discriminate.
  - split; [now split|]. cbn. now rewrite (Zfloor_IZR 0).
  - cbn [ffloor]. destruct (Z.leb_spec 0 e) as [E|E].
    + split; [now split|]. unfold fval, SF2R, F2R. cbn [Fnum Fexp].
      rewrite <- IZR_Zpower by exact E. rewrite <- mult_IZR. now rewrite Zfloor_IZR.
    + pose proof (bound_mant _ _ _ H) as M.
      assert (Q : Zfloor (fval (S754_finite s m e)) = Z.shiftr (cond_Zopp s (Zpos m)) (- e)).
      { rewrite Z.shiftr_div_pow2 by lia. unfold fval, SF2R, F2R. cbn [Fnum Fexp].
        rewrite <- Zfloor_div by (apply Z.pow_nonzero; lia). f_equal. unfold Rdiv. f_equal.
        rewrite <- (Z.opp_involutive e) at 1. rewrite bpow_opp. f_equal. rewrite <- IZR_Zpower by lia. reflexivity. }
      assert (B : (Z.abs (Z.shiftr (cond_Zopp s (Zpos m)) (- e)) < 2 ^ 53)%Z).
      { rewrite Z.shiftr_div_pow2 by lia.
        assert (P : (1 <= 2 ^ (- e))%Z) by (pose proof (Z.pow_pos_nonneg 2 (- e)); lia).
        destruct s; cbn [cond_Zopp].
        - assert (Zneg m / (2 ^ (- e)) < 0)%Z by (apply Z.div_lt_upper_bound; lia).
          assert (- Zpos m <= Zneg m / (2 ^ (- e)))%Z by (apply Z.div_le_lower_bound; [lia|nia]). lia.
        - assert (0 <= Zpos m / (2 ^ (- e)))%Z by (apply Z.div_pos; lia).
          assert (Zpos m / (2 ^ (- e)) <= Zpos m)%Z by (apply Z.div_le_upper_bound; nia). lia. }
      rewrite Q. destruct (Z.eqb_spec (Z.shiftr (cond_Zopp s (Zpos m)) (- e)) 0) as [Z0|Z0].
      * rewrite Z0. split; [split; reflexivity|reflexivity].
      * now apply f_int_R.
Qed.
