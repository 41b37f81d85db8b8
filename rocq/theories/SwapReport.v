(** The prices a swap reports. *)
From Coq Require Import ZArith QArith Qabs List Bool Lia Lqa String.
From Verif Require Import Base BaseLemmas DecimalModel DecimalSpec DecimalProofs PowProofs WfProofs MathModel MathProofs TickProofs PoolModel PoolWf SwapLoop SwapProofs LpProofs PoolInv PoolNonneg PoolLp SwapAmounts SwapCover SwapWorth.
Open Scope Z_scope.

Lemma step_out : forall orc p s dx ro g p' s', step_x orc p s dx ro g = Ok (p', s') \/ step_y orc p s dx ro g = Ok (p', s') -> dscale (s_out s) = 12 -> dscale (s_out s') = 12.
Proof.
  intros orc p s dx ro g p' s' [H | H] S; unfold step_x, step_y in H.
  - bd H rest E1. bd H w E2. bd H y1 E3. bd H ny E4. destruct (assert _); cbn [bind] in H; [| discriminate ..]. bd H c0 E5. bd H c1 E6. bd H ck E7. destruct (assert _); cbn [bind] in H; [| discriminate ..].
    bd H i1 E8. bd H i2 E9. bd H o2 E10. apply add_m in E10.
    repeat (match type of H with bind ?e _ = Ok _ => destruct e; cbn [bind] in H; [| discriminate ..] end). injection H as _ <-. cbn [s_out]. destruct E10 as (_ & E10 & _). congruence.
  - bd H rest E1. bd H w E2. bd H y1 E3. bd H ny E4. destruct (assert _); cbn [bind] in H; [| discriminate ..]. bd H c0 E5. bd H c1 E6. bd H ck E7. destruct (assert _); cbn [bind] in H; [| discriminate ..].
    bd H o2 E10. apply add_m in E10.
    repeat (match type of H with bind ?e _ = Ok _ => destruct e; cbn [bind] in H; [| discriminate ..] end). injection H as _ <-. cbn [s_out]. destruct E10 as (_ & E10 & _). congruence.
Qed.
Lemma out12_x : forall orc dx ro a b, chain (mv_x orc dx ro) a b -> dscale (s_out (snd a)) = 12 -> dscale (s_out (snd b)) = 12.
Proof.
  intros orc dx ro a b C. refine (chain_inv _ _ (fun c => dscale (s_out (snd c)) = 12) _ _ _ C). intros u v Hu M.
  inversion M as [p s tk rp p' H1 H2 H3 H4 H5 | p s f gtk p' s' H1 H2 H3 H4 H5]; subst; cbn [fst snd] in *; [exact Hu |]. eapply step_out; [left; eauto | auto].
Qed.
Lemma out12_y : forall orc dx ro a b, chain (mv_y orc dx ro) a b -> dscale (s_out (snd a)) = 12 -> dscale (s_out (snd b)) = 12.
Proof.
  intros orc dx ro a b C. refine (chain_inv _ _ (fun c => dscale (s_out (snd c)) = 12) _ _ _ C). intros u v Hu M.
  inversion M as [p s tk rp p' H1 H2 H3 H4 H5 | p s gtk p' s' H1 H2 H3 H4 H5]; subst; cbn [fst snd] in *; [exact Hu |]. eapply step_out; [right; eauto | auto].
Qed.

(** ** Final price *)
Lemma square_end : forall d c, wf d -> dscale d = 12 -> (1 <= num d)%Q -> d_pow d 2 = Ok c -> (num c <= num d * num d /\ num d * num d < num c + ulp12)%Q.
Proof.
  intros d c W S G H. assert (N : dneg d = false) by (apply pos_nonneg; auto; lra). unfold d_pow in H. bd H den E1. cbn [pow_loop] in H. bd H b E2. bd H r E3. bd H q E4. injection H as <-.
  rewrite N, S in *. unfold denominator, pow10 in E1. rewrite S in E1. cbn in E1. injection E1 as <-.
  destruct (mul_t _ _ _ E2 W W S) as (Wb & Sb & T). apply trunc_pos in T; [| nra]. rewrite ulp_12 in T.
  assert (W1 : wf (mkD 1000000000000 12 false)) by (split; cbn; lia).
  destruct (mul_t _ _ _ E3 W1 Wb eq_refl) as (Wr & Sr & T2).
  assert (E : (num r == num b)%Q).
  { unfold num. rewrite Sr, Sb. replace (mant r) with (mant b); [reflexivity |]. unfold d_mul in E3. unfold cmul, denominator, pow10 in E3. rewrite Sb in E3. cbn [dval dscale dneg] in E3.
    change (10 ^ 12) with 1000000000000 in E3. destruct (1000000000000 * dval b <? U128) eqn:EE; cbn [bind] in E3; [| discriminate E3]. change (12 <=? 38) with true in E3. cbn [bind] in E3. unfold cdiv in E3. change (10 ^ 12) with 1000000000000 in E3. cbn [Z.eqb bind] in E3. injection E3 as <-. unfold mant; cbn [dval dneg].
    replace (1000000000000 * dval b / 1000000000000) with (dval b) by (rewrite Z.mul_comm, Z.div_mul; lia). unfold sign_mul. cbn. destruct (dneg b); reflexivity. }
  rewrite E. lra.
Qed.

Lemma div_back : forall a b c, d_div a b = Ok c -> wf a -> wf b -> dscale a = 12 -> (0 <= num a)%Q -> (0 < num b)%Q -> (num c * num b <= num a /\ num a < (num c + ulp12) * num b)%Q.
Proof.
  intros a b c H Wa Wb S A B. destruct (div_t _ _ _ H Wa Wb S) as (_ & _ & _ & T). apply trunc_pos in T; [| apply Qle_shift_div_l; lra]. rewrite ulp_12 in T. destruct T as (_ & T1 & T2).
  assert (E : (num a / num b * num b == num a)%Q) by (field; lra). split.
  - rewrite <- E. apply Qmult_le_compat_r; lra.
  - rewrite <- E. apply Qmult_lt_r; lra.
Qed.

(** ** Average and final price *)
Theorem swap_x_report : forall orc p dx ro p' o, reachable orc p -> wf dx -> wf ro -> execute_swap_from_x orc p dx ro = Ok (p', o) ->
  (num (so_end o) <= num (glbl_rp p') * num (glbl_rp p') /\ num (glbl_rp p') * num (glbl_rp p') < num (so_end o) + ulp12 /\
   (num (so_recv o) == 0 -> num (so_avg o) == 0) /\
   (0 < num (so_recv o) -> num (so_avg o) * num (so_recv o) <= - num (so_send o) /\ - num (so_send o) < (num (so_avg o) + ulp12) * num (so_recv o)))%Q.
Proof.
  intros orc p dx ro p' o Hr Wd Wo H. pose proof (reachable_nn _ _ Hr) as N. pose proof (proj1 N) as W. destruct (swap_x_chain _ _ _ _ _ _ H W Wd Wo) as (Pd & s' & C & I & F & _).
  destruct (swap_x_bounds _ _ _ _ _ _ W Wd Wo H) as (B1 & B2 & B3 & B4 & _).
  assert (N' : nn p'). { eapply (chain_inv _ _ (fun c => inv_x c /\ nn (fst c))) with (2 := C); [| split; [apply inv_start; auto | exact N]]. intros a b (Ia & Na) M. split; [exact (mv_x_inv _ _ _ _ _ Wd Wo Ia M) | exact (proj1 (mv_x_nn _ _ _ _ _ Wd Wo Ia M Na))]. }
  pose proof (rp_one _ N') as R1. assert (Wr : wf (glbl_rp p')) by (apply I). assert (S12 : dscale (glbl_rp p') = 12) by (apply N').
  destruct (finish_x_out _ _ _ _ F) as (F1 & F2 & _ & _ & F5 & _). destruct (square_end _ _ Wr S12 R1 F5) as (G1 & G2). split; [exact G1 |]. split; [exact G2 |].
  destruct I as (_ & (S1 & S2 & _) & _). pose proof (out12_x _ _ _ _ _ C eq_refl) as O12. cbn [snd] in O12.
  unfold finish_x in F. bd F avg E1. bd F ep E2. bd F oo E3. injection F as <-. apply swap_out_inv in E3. destruct E3 as (-> & _). cbn [so_recv so_send so_avg] in *. destruct (is_zero (s_in s')) eqn:Z.
  - rewrite zero_eq in E1. injection E1 as <-. split; [intros _; reflexivity | intros Q0]. exfalso. apply is_zero_m in Z. apply num_sign in Z; auto. lra.
  - split; [intros Q0; exfalso; apply num_sign in Q0; auto; apply is_zero_m in Q0; congruence | intros Q0]. 
    pose proof (div_back _ _ _ E1) as D. specialize (D (neg_wf _ S2) S1). rewrite (num_neg _ S2) in D. cbn [snd] in D. apply D; [rewrite neg_scale; exact O12 | lra | exact Q0].
Qed.
Theorem swap_y_report : forall orc p dy ro p' o, reachable orc p -> wf dy -> wf ro -> execute_swap_from_y orc p dy ro = Ok (p', o) ->
  (num (so_end o) <= num (glbl_rp p') * num (glbl_rp p') /\ num (glbl_rp p') * num (glbl_rp p') < num (so_end o) + ulp12 /\
   (num (so_recv o) == 0 -> num (so_avg o) == 0) /\
   (0 < num (so_recv o) -> num (so_avg o) * - num (so_send o) <= num (so_recv o) /\ num (so_recv o) < (num (so_avg o) + ulp12) * - num (so_send o)))%Q.
Proof.
  intros orc p dx ro p' o Hr Wd Wo H. pose proof (reachable_nn _ _ Hr) as N. pose proof (proj1 N) as W. destruct (swap_y_chain _ _ _ _ _ _ H W Wd Wo) as (Pd & s' & C & I & F & _).
  destruct (swap_y_bounds _ _ _ _ _ _ W Wd Wo H) as (B1 & B2 & B3 & B4 & _ & B6 & B7 & _).
  assert (N' : nn p'). { eapply (chain_inv _ _ (fun c => inv_y c /\ nn (fst c))) with (2 := C); [| split; [apply inv_start; auto | exact N]]. intros a b (Ia & Na) M. split; [exact (mv_y_inv _ _ _ _ _ Wd Wo Ia M) | exact (proj1 (mv_y_nn _ _ _ _ _ Wd Wo Ia M Na))]. }
  pose proof (rp_one _ N') as R1. assert (Wr : wf (glbl_rp p')) by (apply I). assert (S12 : dscale (glbl_rp p') = 12) by (apply N').
  destruct (finish_y_out _ _ _ _ F) as (F1 & F2 & _ & _ & F5 & _). destruct (square_end _ _ Wr S12 R1 F5) as (G1 & G2). split; [exact G1 |]. split; [exact G2 |].
  pose proof (chain_tot_y _ _ _ _ _ Wd Wo C (proj2 (inv_start p W)) (tot0 dx p)) as T. cbn [snd] in T. destruct T as (T12 & _).
  destruct I as (_ & (S1 & S2 & _) & _).
  unfold finish_y in F. bd F avg E1. bd F ep E2. bd F oo E3. injection F as <-. apply swap_out_inv in E3. destruct E3 as (-> & _). cbn [so_recv so_send so_avg] in *. destruct (is_zero (s_out s')) eqn:Z.
  - rewrite zero_eq in E1. injection E1 as <-. split; [intros _; reflexivity | intros Q0]. exfalso. apply is_zero_m in Z. apply num_sign in Z; auto. specialize (B7 Q0). lra.
  - split; [intros Q0; exfalso; specialize (B6 Q0); apply num_sign in B6; auto; apply is_zero_m in B6; congruence | intros Q0]. specialize (B7 Q0).
    pose proof (div_back _ _ _ E1 S1 (neg_wf _ S2) T12) as D. rewrite (num_neg _ S2) in D. cbn [snd] in D. apply D; lra.
Qed.
