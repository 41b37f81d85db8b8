(** Depositing and withdrawing at once, in an f64 pool that has not seen a swap. *)
From Coq Require Import ZArith Reals Lra Lia List Bool String Sorted Floats.SpecFloat.
From Flocq Require Import Core BinarySingleNaN.
From Verif Require Import Base FloatBase FloatModel FloatFacts FloatWf FloatSwap FloatLp.
Import ListNotations.
Open Scope Z_scope.

(** no fee was ever collected *)
Record no_fees (p : fpool) : Prop := mkNF
  { nf_g : fglbl_fees p = f4_zero;
    nf_t : forall t ts, ftm_get t (fticks p) = Some ts -> ft_fees ts = f4_zero;
    nf_p : Forall (fun kv => fp_fees (snd kv) = f4_zero) (fpositions p) }.
Lemma nf_rng p lo up k r : no_fees p -> ffee_rng p lo up k = Ok r -> r = f_zero.
Proof.
  intros [G T _] H. assert (B : forall t, ffee_below_above p t k = (f_zero, f_zero)).
  { intros t. unfold ffee_below_above. rewrite G. destruct (ftm_get t (fticks p)) as [ts|] eqn:E.
    - rewrite (T _ _ E). destruct (t <=? fglbl_tick p); destruct k; reflexivity.
    - destruct k; reflexivity. }
  unfold ffee_rng in H. rewrite !B in H. mb H. injection H as <-. reflexivity.
Qed.
Lemma nf_upd p t d up p' : fpool_ok p -> f64_ok d -> no_fees p -> fupdate_tick p t d up = Ok p' -> no_fees p'.
Proof.
  intros K D [G T P] H. destruct (fupdate_tick_spec _ _ _ _ _ K D H) as (_ & [_ (_ & _ & R) _] & _ & PP & _ & O & S). constructor.
  - now rewrite R.
  - intros t' ts E. destruct (Z.eq_dec t' t) as [->|N]; [|rewrite O in E by exact N; eauto].
    rewrite S in E. destruct (feq _ _); [discriminate|]. injection E as <-. cbn. unfold new_entry.
    destruct (ftm_get t (fticks p)) eqn:F; [eauto|]. cbn. rewrite G. now destruct (t <=? fglbl_tick p).
  - rewrite PP. exact P.
Qed.
Definition zfees (b : f64) : f4 := mkF4 (fmul b f_zero) (fmul b f_zero) (fmul b f_zero) (fmul b f_zero).
Lemma nf_set p u lo up d p' fe : fpool_ok p -> f64_ok d -> no_fees p -> fset_position p u lo up d = Ok (p', fe) -> no_fees p' /\ exists b, fe = zfees b.
Proof.
  intros K D NF H. assert (SP := fset_position_spec _ _ _ _ _ _ _ K D H).
  unfold fset_position in H. mb H. mb H. mb H. mb H.
  apply (nf_rng _ _ _ _ _ NF) in E, E0, E1, E2. subst. mb H. destruct a as [[p1 old] base].
  assert (Q : old = f4_zero /\ no_fees p1 /\ fpool_ok p1).
  { destruct NF as [G T P]. pose (P0 := fun q => fp_fees q = f4_zero).
    assert (WP : forall m, Forall (fun kv => ps_ok (snd kv)) m -> fpool_ok (fwith_positions p m))
      by (intros m M; destruct K as [K1 K2 K3 K4 K5 K6]; constructor; cbn; auto).
    assert (WN : forall m, Forall (fun kv => fp_fees (snd kv) = f4_zero) m -> no_fees (fwith_positions p m)) by (intros m M; constructor; cbn; auto).
    destruct (fpm_get (u, lo, up) (fpositions p)) as [q0|] eqn:F.
    - assert (F0 := fpm_get_P P0 _ _ _ P F). unfold P0 in F0. destruct (_ && _); [discriminate|]. destruct (feq _ _).
      + injection E as <- <- <-. split; [exact F0|]. split; [apply WN, (fpm_del_P P0), P|apply WP, (fpm_del_P ps_ok), K].
      + mb E. injection E as <- <- <-. split; [exact F0|]. split; [apply WN, (fpm_set_P P0); [exact P|reflexivity]|].
        apply WP, (fpm_set_P ps_ok); [apply K|]. unfold fp_add_liq in E0. destruct (flt _ _); [discriminate|]. injection E0 as <-.
        assert (F1 := fpm_get_P ps_ok _ _ _ (ok_pos _ K) F). destruct F1 as [F1 F2]. split; cbn; auto with fok.
    - destruct (flt d f_zero) eqn:DN; [discriminate|]. mb E. injection E as <- <- <-. unfold fpstate_new in E0. rewrite DN in E0. injection E0 as <-.
      split; [reflexivity|]. split; [apply WN, (fpm_set_P P0); [exact P|reflexivity]|]. apply WP, (fpm_set_P ps_ok); [apply K|]. split; cbn; auto with fok. }
  destruct Q as (-> & N1 & K1). clear E. cbn [f4_map2 f_fx f_fy f_hx f_hy f4_zero] in H. mb H. mb H. mb H. mb H. rename a0 into p2. rename a1 into p3. rename a2 into p4. injection H as <- <-.
  destruct (fupdate_tick_spec _ _ _ _ _ K1 D E0) as (K2 & _). assert (N2 := nf_upd _ _ _ _ _ K1 D N1 E0). assert (N3 := nf_upd _ _ _ _ _ K2 D N2 E1).
  split; [|exists base; reflexivity].
  destruct (_ && _) in E2; [|injection E2 as <-; exact N3]. unfold fadd_glbl_liq, fg_add_liq in E2. mb E2. injection E2 as <-.
  destruct (flt _ f_zero); [discriminate|]. injection E3 as <-. destruct N3 as [A B C]. constructor; cbn; auto.
Qed.
Section Lm.
Variable lm : libm.
Hypothesis LM : libm_ok lm.
(** states reached by deposits and withdrawals alone *)
Inductive lp_only : fpool -> Prop :=
| lo_new rp s c r p : f64_ok c -> f64_ok r -> fpool_new lm rp s c r = Ok p -> lp_only p
| lo_dep p u x y a b p' xd yd : lp_only p -> f64_ok x -> f64_ok y -> fdeposit lm p u x y a b = Ok (p', xd, yd) -> lp_only p'
| lo_wd p u l a b p' xs ys : lp_only p -> f64_ok l -> fwithdraw lm p u l a b = Ok (p', xs, ys) -> lp_only p'.
Lemma nf_funds p a b c d e f : no_fees p -> no_fees (fwith_funds p a b c d e f).
Proof. intros [A B C]. constructor; cbn; auto. Qed.
Lemma nf_deposit p u x y a b p' xd yd : fpool_ok p -> no_fees p -> f64_ok x -> f64_ok y -> fdeposit lm p u x y a b = Ok (p', xd, yd) ->
  no_fees p' /\ exists b0, let z := fmul b0 f_zero in let ra := f_tick_to_rp lm (f_rp_to_possible_tick lm p a false) in let rb := f_tick_to_rp lm (f_rp_to_possible_tick lm p b false) in
    xd = fsub (fsub (f_x_from_l_rp_rng (dep_liq lm p x y a b) (fglbl_rp p) ra rb) z) z /\
    yd = fsub (fsub (f_y_from_l_rp_rng (dep_liq lm p x y a b) (fglbl_rp p) ra rb) z) z.
Proof.
  intros K N X Y H. unfold fdeposit in H. fold (dep_liq lm p x y a b) in H. destruct (_ || _); [discriminate|]. destruct (flt x _); [discriminate|]. destruct (flt y _); [discriminate|].
  mb H. destruct a0 as [q fe]. destruct (nf_set _ _ _ _ _ _ _ K (dep_liq_ok lm LM _ _ _ _ _ K X Y) N E) as (NQ & b0 & ->).
  injection H as <- <- <-. split; [now apply nf_funds|]. exists b0. cbn. auto.
Qed.
Lemma nf_withdraw p u l a b p' xs ys : fpool_ok p -> no_fees p -> f64_ok l -> fwithdraw lm p u l a b = Ok (p', xs, ys) ->
  no_fees p' /\ exists b0, let z := fmul b0 f_zero in let ra := f_tick_to_rp lm (f_rp_to_possible_tick lm p a false) in let rb := f_tick_to_rp lm (f_rp_to_possible_tick lm p b false) in
    xs = fadd (fadd (fmul (f_x_from_l_rp_rng l (fglbl_rp p) ra rb) (fsub f_one f_adj)) z) z /\
    ys = fadd (fadd (fmul (f_y_from_l_rp_rng l (fglbl_rp p) ra rb) (fsub f_one f_adj)) z) z.
Proof.
  intros K N L H. unfold fwithdraw in H. destruct (flt l f_zero); [discriminate|].
  mb H. destruct a0 as [q fe]. destruct (nf_set _ _ _ _ _ _ _ K (neg_ok _ L) N E) as (NQ & b0 & ->).
  destruct (fset_position_spec _ _ _ _ _ _ _ K (neg_ok _ L) E) as (_ & _ & [_ (RP & _ & _) _] & _).
  rewrite RP in H. remember (fsub f_one f_adj) as ka. remember (f_x_from_l_rp_rng _ _ _ _) as xv. remember (f_y_from_l_rp_rng _ _ _ _) as yv.
  injection H as <- <- <-. split; [now apply nf_funds|]. exists b0. cbn. subst. auto.
Qed.
Lemma lp_only_inv p : lp_only p -> fpool_ok p /\ no_fees p.
Proof.
  induction 1 as [rp s c r p C R E|p u x y a b p' xd yd W [K N] X Y E|p u l a b p' xs ys W [K N] L E].
  - split; [exact (fpool_new_ok lm LM _ _ _ _ _ C R E)|]. unfold fpool_new in E. mb E. injection E as <-. unfold fgstate_new in E0. destruct (flt f_zero f_zero); [discriminate|]. injection E0 as <-.
    constructor; cbn; [reflexivity|discriminate|constructor].
  - split; [exact (proj1 (fdeposit_spec lm LM _ _ _ _ _ _ _ _ _ K X Y E))|exact (proj1 (nf_deposit _ _ _ _ _ _ _ _ _ K N X Y E))].
  - split; [exact (proj1 (fwithdraw_spec lm LM _ _ _ _ _ _ _ _ K L E))|exact (proj1 (nf_withdraw _ _ _ _ _ _ _ _ K N L E))].
Qed.

(** *** the amounts *)
Definition is_zero (z : f64) : Prop := exists s, z = S754_zero s.
Lemma zmul b : is_zero (fmul b f_zero) \/ fmul b f_zero = S754_nan.
Proof. destruct b as [[]|[]| |[] m e]; cbn; unfold is_zero; eauto. Qed.
Lemma sub_z x z : f64_ok x -> is_zero z \/ z = S754_nan -> fok (fsub x z) -> fok x /\ fval (fsub x z) = fval x.
Proof.
  intros X Z [F1 F2]. destruct Z as [[s ->]| ->]; [|destruct x; discriminate].
  assert (FX : fok x) by (split; [exact X|]; destruct x; try reflexivity; discriminate). split; [exact FX|].
  rewrite sub_R; [|exact FX|split; reflexivity|exact F2]. cbn [fval SF2R]. unfold fval at 2. cbn. rewrite Rminus_0_r. now apply rnd_fval.
Qed.
Lemma add_z x z : f64_ok x -> is_zero z \/ z = S754_nan -> fok (fadd x z) -> fok x /\ fval (fadd x z) = fval x.
Proof.
  intros X Z [F1 F2]. destruct Z as [[s ->]| ->]; [|destruct x; discriminate].
  assert (FX : fok x) by (split; [exact X|]; destruct x; try reflexivity; discriminate). split; [exact FX|].
  rewrite add_R; [|exact FX|split; reflexivity|exact F2]. unfold fval at 2. cbn. rewrite Rplus_0_r. now apply rnd_fval.
Qed.
Lemma keep_val : fok (fsub f_one f_adj) /\ (0 <= fval (fsub f_one f_adj) <= 1)%R.
Proof.
  assert (A : fok f_adj) by (split; reflexivity). assert (AV : (0 <= fval f_adj <= 1)%R).
  { unfold fval, f_adj, SF2R, F2R. cbn [cond_Zopp Fnum Fexp bpow]. split; [apply Rmult_le_pos; [apply (IZR_le 0); discriminate|left; apply Rinv_0_lt_compat, IZR_lt; reflexivity]|].
    apply Rmult_le_reg_r with (IZR (Z.pow_pos radix2 92)); [apply IZR_lt; reflexivity|]. rewrite Rmult_assoc, Rinv_l by (apply IZR_neq; discriminate). rewrite Rmult_1_r, Rmult_1_l. apply IZR_le. discriminate. }
  assert (R01 : (0 <= rnd (fval f_one - fval f_adj) <= 1)%R).
  { rewrite fval_one. split; [apply rnd_ge0; lra|]. apply Rle_trans with (rnd 1); [apply rnd_le; lra|rewrite (rnd_int 1) by reflexivity; lra]. }
  destruct (sub_R' f_one f_adj fok_one A) as [B C].
  - rewrite Rabs_pos_eq by apply R01. eapply Rle_lt_trans; [apply R01|]. change 1%R with (bpow radix2 0). now apply bpow_lt.
  - rewrite C. auto.
Qed.
Lemma shrink v : fok v -> (0 <= fval v)%R -> fok (fmul v (fsub f_one f_adj)) /\ (fval (fmul v (fsub f_one f_adj)) <= fval v)%R.
Proof.
  intros V P. destruct keep_val as [K1 K2]. set (k := fsub f_one f_adj) in *. clearbody k.
  assert (U : (rnd (fval v * fval k) <= fval v)%R) by (eapply Rle_trans; [apply rnd_le with (y := fval v); nra|]; rewrite rnd_fval by apply V; lra).
  destruct (mul_R' v k V K1) as [A B].
  - rewrite Rabs_pos_eq by (apply rnd_ge0; nra). eapply Rle_lt_trans; [exact U|]. eapply Rle_lt_trans; [apply Rle_abs|]. apply fval_top, V.
  - rewrite B. auto.
Qed.
Lemma round_trip p u x y a b p1 xd yd p2 xs ys : lp_only p -> f64_ok x -> f64_ok y ->
  fdeposit lm p u x y a b = Ok (p1, xd, yd) -> fwithdraw lm p1 u (dep_liq lm p x y a b) a b = Ok (p2, xs, ys) ->
  (fok xd -> (0 <= fval xd)%R -> fok xs -> (fval xs <= fval xd)%R) /\ (fok yd -> (0 <= fval yd)%R -> fok ys -> (fval ys <= fval yd)%R).
Proof.
  intros W X Y D H. destruct (lp_only_inv _ W) as [K N]. assert (DL := dep_liq_ok lm LM p x y a b K X Y).
  destruct (fdeposit_frame lm LM _ _ _ _ _ _ _ _ _ K X Y D) as (_ & FS & _ & _ & FR & _).
  destruct (fdeposit_spec lm LM _ _ _ _ _ _ _ _ _ K X Y D) as (K1 & _).
  destruct (nf_deposit _ _ _ _ _ _ _ _ _ K N X Y D) as (N1 & b1 & DX & DY).
  destruct (nf_withdraw _ _ _ _ _ _ _ _ K1 N1 DL H) as (_ & b2 & SX & SY).
  unfold f_rp_to_possible_tick in SX, SY. rewrite FS, FR in SX, SY. fold (f_rp_to_possible_tick lm p a false) in SX, SY. fold (f_rp_to_possible_tick lm p b false) in SX, SY.
  pose proof (zmul b1) as Z1. pose proof (zmul b2) as Z2.
  set (z1 := fmul b1 f_zero) in *. set (z2 := fmul b2 f_zero) in *.
  assert (Z1K : f64_ok z1) by (destruct Z1 as [[s ->]| ->]; reflexivity). assert (Z2K : f64_ok z2) by (destruct Z2 as [[s ->]| ->]; reflexivity).
  assert (RA := rp_ok lm LM (f_rp_to_possible_tick lm p a false)). assert (RB := rp_ok lm LM (f_rp_to_possible_tick lm p b false)).
  assert (RK : f64_ok (fglbl_rp p)) by apply K.
  assert (XV := xrng_ok _ _ _ _ DL RK RA RB). assert (YV := yrng_ok _ _ _ _ DL RK RA RB).
  set (xv := f_x_from_l_rp_rng _ _ _ _) in *. set (yv := f_y_from_l_rp_rng _ _ _ _) in *.
  assert (G : forall v d s, f64_ok v -> d = fsub (fsub v z1) z1 -> s = fadd (fadd (fmul v (fsub f_one f_adj)) z2) z2 -> fok d -> (0 <= fval d)%R -> fok s -> (fval s <= fval d)%R).
  { intros v d s V -> -> HD PD HS.
    destruct (sub_z (fsub v z1) z1 (sub_ok _ _ V Z1K) Z1 HD) as [A1 A2]. destruct (sub_z v z1 V Z1 A1) as [B1 B2]. rewrite A2, B2 in *.
    assert (M : f64_ok (fmul v (fsub f_one f_adj))) by (apply mul_ok; [exact V|apply keep_val]).
    destruct (add_z (fadd (fmul v (fsub f_one f_adj)) z2) z2 (add_ok _ _ M Z2K) Z2 HS) as [C1 C2]. destruct (add_z _ z2 M Z2 C1) as [D1 D2]. rewrite C2, D2.
    now apply shrink. }
  split; [apply (G xv)|apply (G yv)]; assumption.
Qed.
End Lm.
