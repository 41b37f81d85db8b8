(** Withdrawals from the f64 pool that complete. *)
From Coq Require Import ZArith Reals Lra Lia List Bool String Sorted Floats.SpecFloat.
From Flocq Require Import Core BinarySingleNaN.
From Verif Require Import Base FloatBase FloatModel FloatFacts FloatWf FloatSwap FloatLp FloatBook FloatTrip.
Import ListNotations.
Open Scope Z_scope.

Lemma fupdate_tick_done p t d up : flt (fadd (ft_gross (new_entry p t)) d) f_zero = false -> exists p', fupdate_tick p t d up = Ok p'.
Proof.
  intros H. unfold fupdate_tick, new_entry in *. destruct (ftm_get t (fticks p)) as [ts|] eqn:G.
  - cbn [bind]. rewrite G. unfold ft_add_gross. cbn [ft_add_net ft_gross ft_net ft_fees]. rewrite H. cbn [bind]. destruct (feq _ _); eauto.
  - unfold finitialize_tick, ftstate_new. cbn [flt]. change (flt f_zero f_zero) with false. cbn [bind fticks fwith_ticks].
    rewrite ftm_set_same. unfold ft_add_gross. cbn [ft_add_net ft_gross ft_net ft_fees] in *. rewrite H. cbn [bind]. destruct (feq _ _); eauto.
Qed.
(** the four growths inside the range can be computed and have not shrunk since the position's last call *)
Definition fees_pass (p : fpool) (lo up : Z) (old : f4) : Prop :=
  exists a b c d, ffee_rng p lo up FX = Ok a /\ ffee_rng p lo up FY = Ok b /\ ffee_rng p lo up HX = Ok c /\ ffee_rng p lo up HY = Ok d /\
  fle f_zero (fsub a (f_fx old)) = true /\ fle f_zero (fsub b (f_fy old)) = true /\ fle f_zero (fsub c (f_hx old)) = true /\ fle f_zero (fsub d (f_hy old)) = true.
Lemma fset_position_done p u lo up d dz q zs : fpool_ok p -> fint d (- dz) -> book_ok p zs -> ztotal zs < 2 ^ 52 -> backed p ->
  fpm_get (u, lo, up) (fpositions p) = Some q -> fees_pass p lo up (fp_fees q) -> 0 <= dz <= zget (u, lo, up) zs ->
  exists r, fset_position p u lo up d = Ok r.
Proof.
  intros K D BK TT BA Q (fa & fb & fc & fd & F1 & F2 & F3 & F4 & G1 & G2 & G3 & G4) B. set (k := (u, lo, up)) in *.
  assert (BK0 := BK). destruct BK as [W T]. assert (NN := wholes_nn _ _ W). assert (ZG := znn_get zs k NN).
  assert (P52 : 2 ^ 53 = 2 * 2 ^ 52) by reflexivity.
  destruct (wholes_get _ _ _ _ W Q) as [Q1 _]. assert (A := fint_add _ _ _ _ Q1 D ltac:(lia)).
  assert (A0 : flt (fadd (fp_liq q) d) f_zero = false) by (rewrite (fint_lt0 _ _ A); apply Z.ltb_ge; lia).
  unfold fset_position. rewrite F1, F2, F3, F4. cbn [bind]. fold k. rewrite Q, A0, andb_false_r.
  assert (WP : forall m, Forall (fun kv => ps_ok (snd kv)) m -> fpool_ok (fwith_positions p m))
      by (intros m M; destruct K as [K1 K2 K3 K4 K5 K6]; constructor; cbn; auto).
  assert (PR : exists p1 old, (if feq (fadd (fp_liq q) d) f_zero then Ok (fwith_positions p (fpm_del k (fpositions p)), fp_fees q, fp_liq q)
     else let* q' := fp_add_liq q d in Ok (fwith_positions p (fpm_set k (mkFP (fp_liq q') (mkF4 fa fb fc fd)) (fpositions p)), fp_fees q, fp_liq q)) = Ok (p1, old, fp_liq q) /\
     old = fp_fees q /\ fpool_ok p1 /\ fticks p1 = fticks p /\ fgs p1 = fgs p).
  { assert (QK : ps_ok q) by (eapply fpm_get_P; [apply K|exact Q]). destruct QK as [K1 K2]. destruct (feq _ f_zero).
    - eexists _, _. split; [reflexivity|]. split; [reflexivity|]. split; [apply WP; apply fpm_del_P; apply K|auto].
    - unfold fp_add_liq. rewrite A0. cbn [bind fp_liq]. eexists _, _. split; [reflexivity|]. split; [reflexivity|]. split; [|auto].
      apply WP. apply fpm_set_P; [apply K|]. split; cbn; [apply add_ok; [exact K1|apply D]|]. split; [|split; [|split]]; eapply fee_rng_ok; eauto. }
  destruct PR as (p1 & old & -> & -> & K1 & T1 & GS). cbn [bind f4_map2 f_fx f_fy f_hx f_hy]. rewrite G1, G2, G3, G4. cbn [andb assert bind].
  assert (EL : forall t, 0 <= ends t k * zget k zs <= zsum (ends t) zs).
  { intros t. assert (E0 : 0 <= ends t k) by (unfold ends; destruct (_ =? _), (_ =? _); lia). split; [apply Z.mul_nonneg_nonneg; lia|].
    clear - NN E0. induction NN as [|[k' z'] zs A B IH]; cbn [zget zsum]; [lia|]. cbn in A.
    assert (E1 : 0 <= ends t k' * z') by (apply Z.mul_nonneg_nonneg; [unfold ends; destruct (_ =? _), (_ =? _); lia|lia]).
    assert (E2 : 0 <= zsum (ends t) zs) by (apply znn_gross; exact B).
    destruct (fkey_eqb_spec k k') as [<-|N]; lia. }
  assert (GB := fun t => znn_gross zs t NN). assert (NB := fun t => znn_net zs t NN). assert (GN := fun t => znn_net0 zs t NN).
  assert (T0 := T). rewrite <- T1 in T.
  assert (ELo : ends lo k = 1 + (if up =? lo then 1 else 0)) by (unfold ends, k; cbn; now rewrite Z.eqb_refl).
  assert (EUp : ends up k = (if lo =? up then 1 else 0) + 1) by (unfold ends, k; cbn; now rewrite Z.eqb_refl).
  assert (NE : forall p t G, tick_is (ftm_get t (fticks p)) (G t) 0 \/ (exists n, tick_is (ftm_get t (fticks p)) (G t) n) -> fint (ft_gross (new_entry p t)) (G t)).
  { intros p0 t G H. assert (H' : exists n, tick_is (ftm_get t (fticks p0)) (G t) n) by (destruct H; eauto). destruct H' as [n H']. unfold new_entry.
    destruct (ftm_get t (fticks p0)) as [ts|]; cbn in H' |- *; [tauto|]. destruct H' as [-> _]. exact fint_zero. }
  assert (L1 := EL lo). assert (L2 := EL up). rewrite ELo in L1. rewrite EUp in L2.
  assert (U1 : exists p2, fupdate_tick p1 lo d false = Ok p2).
  { apply fupdate_tick_done. assert (H := NE p1 lo (fun t => zsum (ends t) zs) (or_intror (ex_intro _ _ (T lo)))). cbv beta in H. specialize (GB lo).
    rewrite (fint_lt0 _ _ (fint_add _ _ _ _ H D ltac:(lia))). apply Z.ltb_ge. destruct (up =? lo); lia. }
  destruct U1 as [p2 U1]. rewrite U1. cbn [bind].
  assert (GBL := GB lo). assert (NBL := NB lo). assert (GNL := GN lo). assert (GBU := GB up).
  assert (RN : znn (zrem k zs)) by (exact (wholes_nn _ _ (wholes_rem _ _ k W))).
  assert (RL := znn_net0 (zrem k zs) lo RN). rewrite !zsum_rem in RL.
  assert (SLo : signs lo k = 1 - (if up =? lo then 1 else 0)) by (unfold signs, k; cbn; now rewrite Z.eqb_refl). rewrite SLo, ELo in RL.
  assert (E1 : (up =? lo) = (lo =? up)) by apply Z.eqb_sym. rewrite E1 in *.
  assert (X1 : Z.abs (zsum (ends lo) zs + - dz) < 2 ^ 53) by (destruct (lo =? up); lia).
  assert (X2 : Z.abs (zsum (signs lo) zs + - dz) < 2 ^ 53) by lia.
  assert (X3 : zsum (ends lo) zs + - dz = 0 -> zsum (signs lo) zs + - dz = 0) by (intros; destruct (lo =? up); lia).
  destruct (upd_tick _ _ _ false _ (fun t => zsum (ends t) zs) (fun t => zsum (signs t) zs) _ K1 D T X1 X2 X3 U1) as [_ R2]. cbn beta iota in R2.
  assert (U2 : exists p3, fupdate_tick p2 up d true = Ok p3).
  { apply fupdate_tick_done. assert (H := NE p2 up (fun t => zsum (ends t) zs + (if lo =? t then - dz else 0)) (or_intror (ex_intro _ _ (R2 up)))). cbv beta in H.
    assert (X : Z.abs (zsum (ends up) zs + (if lo =? up then - dz else 0) + - dz) < 2 ^ 53) by (destruct (lo =? up); lia).
    rewrite (fint_lt0 _ _ (fint_add _ _ _ _ H D X)). apply Z.ltb_ge. destruct (lo =? up); lia. }
  destruct U2 as [p3 U2]. rewrite U2. cbn [bind]. assert (GS3 : fgs p3 = fgs p) by (rewrite (fupdate_tick_gs _ _ _ _ _ U2), (fupdate_tick_gs _ _ _ _ _ U1); exact GS).
  destruct BA as (zs0 & W0 & L). rewrite (wholes_det _ _ W0 _ W) in L. clear W0 zs0.
  assert (IN := znn_in zs (fglbl_tick p) NN). assert (IR := znn_in (zrem k zs) (fglbl_tick p) RN). rewrite zsum_rem in IR.
  unfold inside at 2 in IR. unfold k at 1 2 in IR. cbn [fst snd] in IR. unfold fglbl_tick, fglbl_liq in *. rewrite GS3.
  destruct (_ && _); [|eexists; reflexivity].
  unfold fadd_glbl_liq, fg_add_liq. rewrite GS3. rewrite (fint_lt0 _ _ (fint_add _ _ _ _ L D ltac:(lia))).
  destruct (Z.ltb_spec (zsum (inside (fg_tick (fgs p))) zs + - dz) 0); [lia|]. cbn [bind]. eexists. reflexivity.
Qed.
Section Lm.
Variable lm : libm.
Hypothesis LM : libm_ok lm.
Theorem withdraw_done p T u l a b q z held : wreach lm p T -> backed p ->
  fpm_get (u, f_rp_to_possible_tick lm p a false, f_rp_to_possible_tick lm p b false) (fpositions p) = Some q ->
  fees_pass p (f_rp_to_possible_tick lm p a false) (f_rp_to_possible_tick lm p b false) (fp_fees q) ->
  fint (fp_liq q) held -> fint l z -> 0 <= z <= held -> exists p' xs ys, fwithdraw lm p u l a b = Ok (p', xs, ys).
Proof.
  intros W B Q F H L R. assert (K := freach_ok lm LM _ (wreach_freach lm _ _ W)). destruct (wreach_book lm LM _ _ W) as (TB & zs & BK & TZ).
  destruct (wholes_get _ _ _ _ (proj1 BK) Q) as [Q1 _]. rewrite (fint_inj _ _ _ H Q1) in R. rewrite <- TZ in TB.
  destruct (fset_position_done _ _ _ _ _ _ _ _ K (fint_neg _ _ L) BK TB B Q F R) as [[p' fe] S].
  unfold fwithdraw. rewrite (fint_lt0 _ _ L). destruct (Z.ltb_spec z 0); [lia|]. rewrite S. cbn [bind]. eexists _, _, _. reflexivity.
Qed.
Lemma no_fees_pass p lo up q k : no_fees p -> fpm_get k (fpositions p) = Some q -> fees_pass p lo up (fp_fees q).
Proof.
  intros [G T P] Q. assert (B : forall t k, ffee_below_above p t k = (f_zero, f_zero)).
  { intros t kd. unfold ffee_below_above. rewrite G. destruct (ftm_get t (fticks p)) as [ts|] eqn:E.
    - rewrite (T _ _ E). destruct (t <=? fglbl_tick p); destruct kd; reflexivity.
    - destruct kd; reflexivity. }
  assert (O : fp_fees q = f4_zero) by (eapply (fpm_get_P (fun v => fp_fees v = f4_zero)); [exact P|exact Q]). rewrite O.
  exists f_zero, f_zero, f_zero, f_zero. unfold ffee_rng. rewrite !B. repeat split.
Qed.
End Lm.
