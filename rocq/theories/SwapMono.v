(** Offering more never pays less. *)
From Coq Require Import ZArith QArith List Bool Lia Lqa String.
From Verif Require Import Base BaseLemmas DecimalModel DecimalSpec DecimalProofs PowProofs WfProofs MathModel MathProofs TickProofs PoolModel PoolWf SwapLoop SwapProofs LpProofs PoolInv PoolNonneg PoolLp FinProofs HmmProofs SwapAmounts SwapCover SwapWorth SwapFair PowAccuracy HmmUse HmmOff.
Open Scope Z_scope.

(** ** Operations on mantissas *)
Lemma mul_v : forall a b c, d_mul a b = Ok c -> dval c = dval a * dval b / 10 ^ dscale b /\ dscale c = dscale a /\ dneg c = sign_mul (dneg a) (dneg b).
Proof. intros a b c H. unfold d_mul, denominator in H. msteps. cbn. auto. Qed.
Lemma div_v : forall a b c, d_div a b = Ok c -> dval c = dval a * 10 ^ dscale b / dval b /\ dscale c = dscale a /\ dneg c = sign_mul (dneg a) (dneg b) /\ dval b <> 0.
Proof. intros a b c H. unfold d_div, denominator in H. msteps. cbn. csplit; auto. Qed.
Lemma pow_pos10 : forall a, wf a -> 0 < 10 ^ dscale a. Proof. intros a [_ W]. apply Z.pow_pos_nonneg; lia. Qed.
Lemma mul_up : forall a a' b c c', wf a -> wf a' -> wf b -> dval a <= dval a' -> d_mul a b = Ok c -> d_mul a' b = Ok c' -> dval c <= dval c'.
Proof.
  intros a a' b c c' Wa Wa' Wb L H H'. destruct (mul_v _ _ _ H) as (-> & _). destruct (mul_v _ _ _ H') as (-> & _). pose proof (pow_pos10 b Wb). pose proof (wf_nn _ Wb). apply Z.div_le_mono; auto. apply Z.mul_le_mono_nonneg_r; lia.
Qed.
Lemma same_dec : forall a b, dval a = dval b -> dscale a = dscale b -> dneg a = dneg b -> a = b.
Proof. intros [v s n] [v' s' n']; cbn; congruence. Qed.
Lemma mant_f : forall a, dneg a = false -> mant a = dval a. Proof. intros a H. unfold mant. rewrite H. auto. Qed.
Lemma mant_t : forall a, dneg a = true -> mant a = - dval a. Proof. intros a H. unfold mant. rewrite H. auto. Qed.

Lemma rp_dx_down : forall l s x x' e e', wf l -> wf s -> wf x -> wf x' -> dneg l = false -> dneg s = false -> dneg x = false -> dneg x' = false -> dscale x = dscale x' -> dval x <= dval x' ->
  rp_new_from_l_dx l s x = Ok e -> rp_new_from_l_dx l s x' = Ok e' -> dval e' <= dval e /\ dneg e = false /\ dneg e' = false.
Proof.
  intros l s x x' e e' Wl Ws Wx Wx' Nl Ns Nx Nx' Sx L H H'. unfold rp_new_from_l_dx in H, H'. bd H n E1. rewrite E1 in H'. cbn [bind] in H'. bd H a E2. bd H' a' E2'. bd H den E3. bd H' den' E3'.
  destruct (is_zero den) eqn:Z; [discriminate |]. destruct (is_zero den') eqn:Z'; [discriminate |]. bd H r E4. bd H' r' E4'. destruct (is_negative r); [discriminate |]. destruct (is_negative r'); [discriminate |]. injection H as <-. injection H' as <-.
  pose proof (mul_up _ _ _ _ _ Wx Wx' Ws L E2 E2') as La. destruct (mul_v _ _ _ E1) as (_ & Sn & Fn). destruct (mul_v _ _ _ E2) as (Va & Sa & Fa). destruct (mul_v _ _ _ E2') as (Va' & Sa' & Fa').
  rewrite Nl, Ns in Fn. rewrite Nx, Ns in Fa. rewrite Nx', Ns in Fa'. cbn in Fn, Fa, Fa'.
  assert (Wn : wf n) by (eapply mul_wf'; [exact E1 | auto | auto]). assert (Wa : wf a) by (eapply mul_wf'; [exact E2 | auto | auto]). assert (Wa' : wf a') by (eapply mul_wf'; [exact E2' | auto | auto]).
  assert (Wd : wf den) by (eapply add_wf; [exact E3 | auto | auto]). assert (Wd' : wf den') by (eapply add_wf; [exact E3' | auto | auto]).
  assert (Fd : dneg den = false /\ dval den = dval a + dval l). { unfold d_add in E3. rewrite Fa, Nl in E3. destruct (dscale a =? dscale l); cbn in E3; [| discriminate]. msteps. cbn. auto. }
  assert (Fd' : dneg den' = false /\ dval den' = dval a' + dval l). { unfold d_add in E3'. rewrite Fa', Nl in E3'. destruct (dscale a' =? dscale l); cbn in E3'; [| discriminate]. msteps. cbn. auto. }
  destruct Fd as [Fd Vd], Fd' as [Fd' Vd']. destruct (div_v _ _ _ E4) as (V & _ & F & Nz). destruct (div_v _ _ _ E4') as (V' & _ & F' & Nz'). rewrite Fn, Fd in F. rewrite Fn, Fd' in F'. cbn in F, F'. csplit; auto.
  apply add_m in E3. apply add_m in E3'. assert (Sd : dscale den = dscale den') by (destruct E3 as (_ & -> & _), E3' as (_ & -> & _); congruence). rewrite V, V', Sd.
  pose proof (wf_nn _ Wd). pose proof (wf_nn _ Wd'). pose proof (wf_nn _ Wn). pose proof (pow_pos10 den' Wd'). apply Z.div_le_compat_l; [apply Z.mul_nonneg_nonneg; lia | lia].
Qed.
Lemma dy_more : forall l s e e' d d', wf l -> wf s -> wf e -> wf e' -> dneg l = false -> dscale e = dscale e' -> mant e' <= mant e -> mant e <= mant s ->
  dy_from_l_drp l s e = Ok d -> dy_from_l_drp l s e' = Ok d' -> (num d' <= num d)%Q.
Proof.
  intros l s e e' d d' Wl Ws We We' Nl Se L1 L2 H H'. unfold dy_from_l_drp in H, H'. bd H w E1. bd H' w' E1'. destruct (sub_m _ _ _ E1) as (M & S & _). destruct (sub_m _ _ _ E1') as (M' & S' & _).
  assert (Ww : wf w) by (eapply sub_wf; [exact E1 | auto | auto]). assert (Ww' : wf w') by (eapply sub_wf; [exact E1' | auto | auto]).
  assert (Wd : wf d) by (eapply mul_wf'; [exact H | auto | auto]). assert (Wd' : wf d') by (eapply mul_wf'; [exact H' | auto | auto]).
  destruct (mul_v _ _ _ H) as (V & Sd & F). destruct (mul_v _ _ _ H') as (V' & Sd' & F'). rewrite Nl in F, F'. apply num_le; auto; [congruence |].
  pose proof (wf_nn _ Ww). pose proof (wf_nn _ Ww'). pose proof (wf_nn _ Wd). pose proof (wf_nn _ Wd'). pose proof (pow_pos10 l Wl). pose proof (wf_nn _ Wl).
  assert (Lw : dval w <= dval w' /\ (dneg w' = false -> dval w' = 0)). { unfold mant in M, M', L1, L2. destruct (dneg w), (dneg w'), (dneg e), (dneg e'), (dneg s); lia. }
  destruct Lw as [Lw Zw']. assert (Lv : dval d <= dval d') by (rewrite V, V'; apply Z.div_le_mono; [auto | apply Z.mul_le_mono_nonneg_r; auto]).
  unfold mant. rewrite F, F'. destruct (dneg w) eqn:Nw, (dneg w') eqn:Nw'; cbn; try lia; specialize (Zw' eq_refl); assert (dval w = 0) by lia; rewrite V, V', Zw'; replace (dval w) with 0 by lia; rewrite Z.mul_0_l, Z.div_0_l; lia.
Qed.
Lemma rp_dy_up : forall l s x x' e e', wf l -> wf s -> wf x -> wf x' -> dneg l = false -> dneg s = false -> dneg x = false -> dneg x' = false -> dscale x = dscale x' -> dval x <= dval x' ->
  rp_new_from_l_dy l s x = Ok e -> rp_new_from_l_dy l s x' = Ok e' -> dval e <= dval e' /\ dneg e = false /\ dneg e' = false.
Proof.
  intros l s x x' e e' Wl Ws Wx Wx' Nl Ns Nx Nx' Sx L H H'. unfold rp_new_from_l_dy in H, H'. destruct (is_zero l) eqn:Z; [discriminate |]. bd H a E2. bd H' a' E2'. bd H r E3. bd H' r' E3'.
  destruct (is_negative r); [discriminate |]. destruct (is_negative r'); [discriminate |]. injection H as <-. injection H' as <-.
  destruct (div_v _ _ _ E2) as (V & _ & F & Nz). destruct (div_v _ _ _ E2') as (V' & _ & F' & _). rewrite Nx, Nl in F. rewrite Nx', Nl in F'. cbn in F, F'.
  assert (Fd : dneg r = false /\ dval r = dval a + dval s). { unfold d_add in E3. rewrite F, Ns in E3. destruct (dscale a =? dscale s); cbn in E3; [| discriminate]. msteps. cbn. auto. }
  assert (Fd' : dneg r' = false /\ dval r' = dval a' + dval s). { unfold d_add in E3'. rewrite F', Ns in E3'. destruct (dscale a' =? dscale s); cbn in E3'; [| discriminate]. msteps. cbn. auto. }
  destruct Fd as [Fd Vd], Fd' as [Fd' Vd']. csplit; auto. pose proof (wf_nn _ Wl). pose proof (pow_pos10 l Wl). assert (dval a <= dval a'); [| lia]. rewrite V, V'. apply Z.div_le_mono; [lia |]. apply Z.mul_le_mono_nonneg_r; lia.
Qed.

Lemma isneg_f : forall a, dneg a = false -> is_negative a = false. Proof. intros a H. unfold is_negative. rewrite H. auto. Qed.

(** ** One step with two amounts *)
Lemma lt_up : forall d m m', dneg m = false -> dneg m' = false -> dscale m = dscale m' -> dval m <= dval m' -> d_lt d m = Ok true -> d_lt d m' = Ok true.
Proof.
  intros d m m' N N' S L H. unfold d_lt in *. rewrite <- S, N' . rewrite N in H. destruct (dscale d =? dscale m); cbn [negb] in *; [| discriminate]. injection H as H. f_equal. rewrite andb_false_r in *. cbn [negb] in *. rewrite andb_true_r in *. destruct (dneg d); auto. cbn [negb andb] in *. b2p. apply Z.ltb_lt. lia.
Qed.
(** The two amounts net of the fee are ordered, and equal unless non-negative. *)
Lemma net_two : forall r r' ff m m' d b b' g g', wf r -> wf r' -> wf ff -> wf d -> dneg r = false -> dneg r' = false -> dscale r = dscale r' -> dval r <= dval r' -> d_mul r ff = Ok m -> d_mul r' ff = Ok m' ->
  0 <= mant d -> d_lt d m = Ok b -> d_lt d m' = Ok b' -> (b = false -> 0 <= mant m) -> (b' = false -> 0 <= mant m') -> g = b -> g' = b' ->
  wf m /\ wf m' /\ dscale m = dscale m' /\ dval m <= dval m' /\ (m = m' \/ (dneg m = false /\ dneg m' = false)) /\ (b = true -> b' = true).
Proof.
  intros r r' ff m m' d b b' g g' Wr Wr' Wf Wd N N' S L H H' D B B' P P' _ _.
  assert (Wm : wf m) by (eapply mul_wf'; [exact H | auto | auto]). assert (Wm' : wf m') by (eapply mul_wf'; [exact H' | auto | auto]). pose proof (mul_up _ _ _ _ _ Wr Wr' Wf L H H') as Lm.
  destruct (mul_v _ _ _ H) as (_ & Sm & F). destruct (mul_v _ _ _ H') as (_ & Sm' & F'). rewrite N in F. rewrite N' in F'. assert (Sd : dscale m = dscale m') by congruence. csplit; auto.
  - destruct (lt_m _ _ _ (wf_nn _ Wd) (wf_nn _ Wm) B) as (_ & Q1 & _). destruct (lt_m _ _ _ (wf_nn _ Wd) (wf_nn _ Wm') B') as (_ & Q1' & _).
    destruct (dneg ff); cbn in F, F'; auto. left. pose proof (wf_nn _ Wm). pose proof (wf_nn _ Wm').
    assert (Z : dval m = 0). { rewrite (mant_t m F) in *. destruct b; [specialize (Q1 eq_refl) | specialize (P eq_refl)]; lia. }
    assert (Z' : dval m' = 0). { rewrite (mant_t m' F') in *. destruct b'; [specialize (Q1' eq_refl) | specialize (P' eq_refl)]; lia. }
    apply same_dec; congruence.
  - intros ->. assert (X : m = m' \/ (dneg m = false /\ dneg m' = false)); [| destruct X as [X | [X X']]; [subst; congruence |]].
    + destruct (dneg ff); cbn in F, F'; auto. left. destruct (lt_m _ _ _ (wf_nn _ Wd) (wf_nn _ Wm) B) as (_ & Q1 & _). destruct (lt_m _ _ _ (wf_nn _ Wd) (wf_nn _ Wm') B') as (_ & Q1' & _). pose proof (wf_nn _ Wm). pose proof (wf_nn _ Wm').
      assert (Z : dval m = 0). { rewrite (mant_t m F) in *. specialize (Q1 eq_refl). lia. }
      assert (Z' : dval m' = 0). { rewrite (mant_t m' F') in *. destruct b'; [specialize (Q1' eq_refl) | specialize (P' eq_refl)]; lia. }
      apply same_dec; congruence.
    + pose proof (lt_up _ _ _ X X' Sd Lm B). congruence.
Qed.
Lemma core_x_two : forall p srp goal liq r r' d f c t e d' f' c' t' e', core_x p srp goal liq r = Ok (d, f, c, t, e) -> core_x p srp goal liq r' = Ok (d', f', c', t', e') ->
  wf srp -> wf liq -> wf r -> wf r' -> wf (fee_rate p) -> 0 <= goal -> dneg liq = false -> dneg srp = false -> dneg r = false -> dneg r' = false -> dscale r = dscale r' -> dval r <= dval r' -> 0 <= mant d -> 0 <= mant d' ->
  (c = true -> (d, f, c, t, e) = (d', f', c', t', e')) /\ mant e' <= mant e.
Proof.
  intros p srp goal liq r r' d f c t e d' f' c' t' e' H H' Ws Wl Wr Wr' Wf Hg Nl Ns Nr Nr' Sr Lr P P'.
  destruct (core_x_facts _ _ _ _ _ _ _ _ _ _ H Ws Wl Wr Wf Hg) as (rpg & K1 & _ & _ & K2 & _ & _ & K3). destruct (core_x_facts _ _ _ _ _ _ _ _ _ _ H' Ws Wl Wr' Wf Hg) as (rpg' & K1' & _ & _ & _ & _ & _ & K3').
  rewrite K1 in K1'. injection K1' as <-. destruct (tick_rp_wf _ _ K1) as [Wg _].
  unfold core_x in H, H'. rewrite one_eq in H, H'. rewrite (isneg_f r Nr) in H. rewrite (isneg_f r' Nr') in H'.
  bd H rp1 E1. rewrite K1 in E1. injection E1 as <-. bd H' rp1 E1. rewrite K1 in E1. injection E1 as <-. bd H up E2. destruct up; [discriminate H |]. bd H' up E2'. destruct up; [discriminate H' |]. bd H one Eo. injection Eo as <-. bd H' one Eo. injection Eo as <-.
  bd H ff E3. bd H' ff' E3'. rewrite E3 in E3'. injection E3' as <-. bd H m E4. bd H' m' E4'. bd H dbl E5. bd H' dbl' E5'. rewrite E5 in E5'. injection E5' as <-. destruct (is_negative dbl) eqn:E0; [discriminate H |].
  assert (W5 : wf ff) by (eapply sub_wf; [exact E3 | exact one12_wf | auto]). assert (W7 : wf dbl) by (eapply dx_drp_inv; eauto). apply is_neg_f in E0; [| apply wf_nn; auto].
  bd H part E6. bd H' part' E6'.
  assert (Q : part = false -> d = m /\ c = false). { intros ->. bd H fe E7. bd H er E9. bd H g1 E10. bd H t1 E11. bd H c1 E12. destruct c1; [discriminate H |]. bd H c2 E13. destruct c2; [discriminate H |]. injection H as <- <- <- <- <-. auto. }
  assert (Q' : part' = false -> d' = m' /\ c' = false). { intros ->. bd H' fe E7. bd H' er E9. bd H' g1 E10. bd H' t1 E11. bd H' c1 E12. destruct c1; [discriminate H' |]. bd H' c2 E13. destruct c2; [discriminate H' |]. injection H' as <- <- <- <- <-. auto. }
  destruct (net_two r r' ff m m' dbl part part' _ _ Wr Wr' W5 W7 Nr Nr' Sr Lr E4 E4' E0 E6 E6' ltac:(intros G; destruct (Q G); subst; auto) ltac:(intros G; destruct (Q' G); subst; auto) eq_refl eq_refl) as (Wm & Wm' & Sm & Lm & Em & Pm).
  destruct part.
  - rewrite (Pm eq_refl) in *. rewrite H in H'. injection H' as <- <- <- <- <-. split; auto. lia.
  - destruct (Q eq_refl) as [-> ->]. split; [discriminate |]. destruct part'.
    + bd H' q E7. bd H' fe E8. injection H' as <- <- <- <- <-. lia.
    + destruct (Q' eq_refl) as [-> ->]. bd H fe E7. bd H er E9. bd H g1 E10. bd H t1 E11. bd H c1 E12. destruct c1; [discriminate H |]. bd H c2 E13. destruct c2; [discriminate H |]. injection H as <- <- <-.
      bd H' fe' E7'. bd H' er' E9'. bd H' g1' E10'. bd H' t1' E11'. bd H' c1' E12'. destruct c1'; [discriminate H' |]. bd H' c2' E13'. destruct c2'; [discriminate H' |]. injection H' as <- <- <-.
      destruct Em as [-> | [N N']]; [rewrite E9 in E9'; injection E9' as <-; lia |].
      destruct (rp_dx_down _ _ _ _ _ _ Wl Ws Wm Wm' Nl Ns N N' Sm Lm E9 E9') as (L & F & F'). rewrite !mant_f by auto. exact L.
Qed.
Lemma core_y_two : forall p srp goal liq r r' d f c t e d' f' c' t' e', core_y p srp goal liq r = Ok (d, f, c, t, e) -> core_y p srp goal liq r' = Ok (d', f', c', t', e') ->
  wf srp -> wf liq -> wf r -> wf r' -> wf (fee_rate p) -> 0 <= goal -> 0 <= spacing p -> 0 <= glbl_tick p -> dneg liq = false -> dneg srp = false -> dneg r = false -> dneg r' = false -> dscale r = dscale r' -> dval r <= dval r' -> 0 <= mant d -> 0 <= mant d' ->
  (c = true -> (d, f, c, t, e) = (d', f', c', t', e')) /\ mant e <= mant e'.
Proof.
  intros p srp goal liq r r' d f c t e d' f' c' t' e' H H' Ws Wl Wr Wr' Wf Hg Hsp Ht Nl Ns Nr Nr' Sr Lr P P'.
  destruct (core_y_facts _ _ _ _ _ _ _ _ _ _ H Ws Wl Wr Wf Hg Hsp Ht) as (rpg & K1 & _ & _ & K2 & _ & _ & K3). destruct (core_y_facts _ _ _ _ _ _ _ _ _ _ H' Ws Wl Wr' Wf Hg Hsp Ht) as (rpg' & K1' & _ & _ & _ & _ & _ & K3').
  rewrite K1 in K1'. injection K1' as <-. destruct (tick_rp_wf _ _ K1) as [Wg _].
  unfold core_y in H, H'. rewrite one_eq in H, H'. rewrite (isneg_f r Nr) in H. rewrite (isneg_f r' Nr') in H'.
  bd H rp1 E1. rewrite K1 in E1. injection E1 as <-. bd H' rp1 E1. rewrite K1 in E1. injection E1 as <-. bd H up E2. destruct up; [discriminate H |]. bd H' up E2'. destruct up; [discriminate H' |]. bd H one Eo. injection Eo as <-. bd H' one Eo. injection Eo as <-.
  bd H ff E3. bd H' ff' E3'. rewrite E3 in E3'. injection E3' as <-. bd H m E4. bd H' m' E4'. bd H dbl E5. bd H' dbl' E5'. rewrite E5 in E5'. injection E5' as <-. destruct (is_negative dbl) eqn:E0; [discriminate H |].
  assert (W5 : wf ff) by (eapply sub_wf; [exact E3 | exact one12_wf | auto]). assert (W7 : wf dbl) by (eapply dy_drp_inv; eauto). apply is_neg_f in E0; [| apply wf_nn; auto].
  bd H part E6. bd H' part' E6'.
  assert (Q : part = false -> d = m /\ c = false). { intros ->. bd H fe E7. bd H er E9. bd H g1 E10. bd H sk Es. bd H t1 E11. bd H c1 E12. destruct c1; [discriminate H |]. bd H c2 E13. destruct c2; [discriminate H |]. injection H as <- <- <- <- <-. auto. }
  assert (Q' : part' = false -> d' = m' /\ c' = false). { intros ->. bd H' fe E7. bd H' er E9. bd H' g1 E10. bd H' sk Es. bd H' t1 E11. bd H' c1 E12. destruct c1; [discriminate H' |]. bd H' c2 E13. destruct c2; [discriminate H' |]. injection H' as <- <- <- <- <-. auto. }
  destruct (net_two r r' ff m m' dbl part part' _ _ Wr Wr' W5 W7 Nr Nr' Sr Lr E4 E4' E0 E6 E6' ltac:(intros G; destruct (Q G); subst; auto) ltac:(intros G; destruct (Q' G); subst; auto) eq_refl eq_refl) as (Wm & Wm' & Sm & Lm & Em & Pm).
  destruct part.
  - rewrite (Pm eq_refl) in *. rewrite H in H'. injection H' as <- <- <- <- <-. split; auto. lia.
  - destruct (Q eq_refl) as [-> ->]. split; [discriminate |]. destruct part'.
    + bd H' q E7. bd H' fe E8. injection H' as <- <- <- <- <-. lia.
    + destruct (Q' eq_refl) as [-> ->]. bd H fe E7. bd H er E9. bd H g1 E10. bd H sk Es. bd H t1 E11. bd H c1 E12. destruct c1; [discriminate H |]. bd H c2 E13. destruct c2; [discriminate H |]. injection H as <- <- <-.
      bd H' fe' E7'. bd H' er' E9'. bd H' g1' E10'. bd H' sk' Es'. bd H' t1' E11'. bd H' c1' E12'. destruct c1'; [discriminate H' |]. bd H' c2' E13'. destruct c2'; [discriminate H' |]. injection H' as <- <- <-.
      destruct Em as [-> | [N N']]; [rewrite E9 in E9'; injection E9' as <-; lia |].
      destruct (rp_dy_up _ _ _ _ _ _ Wl Ws Wm Wm' Nl Ns N N' Sm Lm E9 E9') as (L & F & F'). rewrite !mant_f by auto. exact L.
Qed.

(** ** One step of two swaps *)
Lemma rest_pos : forall a b r, wf a -> wf b -> dneg b = false -> 0 <= mant a -> d_lt a b = Ok true -> d_sub b a = Ok r -> dneg r = false /\ dval r = dval b - mant a.
Proof.
  intros a b r Wa Wb N P L H. pose proof (sub_m _ _ _ H) as (M & _). pose proof (wf_nn _ Wa). pose proof (wf_nn _ Wb).
  assert (F : dneg r = false).
  { unfold d_lt in L. rewrite N in L. destruct (dscale a =? dscale b) eqn:S; cbn [negb] in L; [| discriminate]. injection L as L. unfold d_sub, d_add in H. cbn [dval dscale dneg] in H. rewrite N in H.
    rewrite (Z.eqb_sym (dscale b)), S in H. cbn [negb] in H. unfold mant in P. destruct (dneg a) eqn:Na; cbn in H, L.
    - msteps. cbn. auto.
    - b2p. destruct (dval a <? dval b) eqn:X; b2p; [| lia]. destruct (dval b >=? dval a) eqn:Y; msteps; cbn; auto. }
  split; auto. rewrite <- mant_f by auto. rewrite M, (mant_f b) by auto. auto.
Qed.
Lemma tally_same : forall dx dx' s w s1 s2, tally dx s w s1 -> tally dx' s w s2 -> s1 = s2.
Proof.
  intros dx dx' s w s1 s2 (rest & c1 & ck & i1 & i2 & o2 & a2 & f2 & T1 & T2 & T3 & T4 & T5 & T6 & T7 & T8 & T9 & ->) (rest' & c1' & ck' & i1' & i2' & o2' & a2' & f2' & T1' & T2' & T3' & T4' & T5' & T6' & T7' & T8' & T9' & ->).
  rewrite T5 in T5'. injection T5' as <-. rewrite T6 in T6'. injection T6' as <-. rewrite T7 in T7'. injection T7' as <-. rewrite T8 in T8'. injection T8' as <-. rewrite T9 in T9'. injection T9' as <-. reflexivity.
Qed.
Lemma mid_x_same : forall p w p1 p2, mid_x p w p1 -> mid_x p w p2 -> p1 = p2.
Proof.
  intros p w p1 p2 (a & b & c & d & e & f & g & A1 & A2 & A3 & A4 & A5 & A6 & A7 & ->) (a' & b' & c' & d' & e' & f' & g' & B1 & B2 & B3 & B4 & B5 & B6 & B7 & ->).
  rewrite A1 in B1. injection B1 as <-. rewrite A2 in B2. injection B2 as <-. rewrite A3 in B3. injection B3 as <-. rewrite A5 in B5. injection B5 as <-. rewrite A6 in B6. injection B6 as <-.
  destruct (is_positive (glbl_liq p)); [| destruct A7 as [-> ->], B7 as [-> ->]; reflexivity].
  destruct A7 as (q1 & q2 & C1 & C2 & C3 & C4), B7 as (q1' & q2' & D1 & D2 & D3 & D4). rewrite C1 in D1. injection D1 as <-. rewrite C2 in D2. injection D2 as <-. rewrite C3 in D3. injection D3 as <-. rewrite C4 in D4. injection D4 as <-. reflexivity.
Qed.
Lemma mid_y_same : forall p w p1 p2, mid_y p w p1 -> mid_y p w p2 -> p1 = p2.
Proof.
  intros p w p1 p2 (a & b & c & d & e & f & g & A1 & A2 & A3 & A4 & A5 & A6 & A7 & ->) (a' & b' & c' & d' & e' & f' & g' & B1 & B2 & B3 & B4 & B5 & B6 & B7 & ->).
  rewrite A1 in B1. injection B1 as <-. rewrite A2 in B2. injection B2 as <-. rewrite A3 in B3. injection B3 as <-. rewrite A5 in B5. injection B5 as <-. rewrite A6 in B6. injection B6 as <-.
  destruct (is_positive (glbl_liq p)); [| destruct A7 as [-> ->], B7 as [-> ->]; reflexivity].
  destruct A7 as (q1 & q2 & C1 & C2 & C3 & C4), B7 as (q1' & q2' & D1 & D2 & D3 & D4). rewrite C1 in D1. injection D1 as <-. rewrite C2 in D2. injection D2 as <-. rewrite C3 in D3. injection D3 as <-. rewrite C4 in D4. injection D4 as <-. reflexivity.
Qed.
Ltac nc x := match goal with |- bind ?m _ = bind (bind ?m _) _ => let E := fresh in destruct m as [x | | |] eqn:E; cbn [bind]; [| reflexivity ..] end.
(** All of a within-step after its first half depends on the amount through that half only. *)
Lemma within_x_same : forall orc p srp goal liq r r' ro c, core_x p srp goal liq r = Ok c -> core_x p srp goal liq r' = Ok c -> swap_within_x orc p srp goal liq r ro = swap_within_x orc p srp goal liq r' ro.
Proof.
  assert (X : forall orc p srp goal liq ro, exists f, forall r, swap_within_x orc p srp goal liq r ro = bind (core_x p srp goal liq r) f).
  { intros orc p srp goal liq ro. eexists. intros r. unfold swap_within_x, core_x. destruct (is_negative r); [reflexivity |]. nc rg. nc b. destruct b; [reflexivity |].
    nc one. nc ff. nc dm. nc d. destruct (is_negative d); [reflexivity |]. nc part. reflexivity. }
  intros orc p srp goal liq r r' ro c H H'. destruct (X orc p srp goal liq ro) as [f F]. rewrite !F, H, H'. reflexivity.
Qed.
Lemma within_y_same : forall orc p srp goal liq r r' ro c, core_y p srp goal liq r = Ok c -> core_y p srp goal liq r' = Ok c -> swap_within_y orc p srp goal liq r ro = swap_within_y orc p srp goal liq r' ro.
Proof.
  assert (X : forall orc p srp goal liq ro, exists f, forall r, swap_within_y orc p srp goal liq r ro = bind (core_y p srp goal liq r) f).
  { intros orc p srp goal liq ro. eexists. intros r. unfold swap_within_y, core_y. destruct (is_negative r); [reflexivity |]. nc rg. nc b. destruct b; [reflexivity |].
    nc one. nc ff. nc dm. nc d. destruct (is_negative d); [reflexivity |]. nc part. reflexivity. }
  intros orc p srp goal liq r r' ro c H H'. destruct (X orc p srp goal liq ro) as [f F]. rewrite !F, H, H'. reflexivity.
Qed.
(** What the curve has paid out so far: the amount paid to the trader and the part kept back. *)
Definition drawn (s : swp) : Q := (num (s_adj s) - num (s_out s))%Q.
Lemma tally_out : forall dx s w s', tally dx s w s' -> (drawn s' == drawn s + (num (w_adj w) - num (w_send w)))%Q.
Proof. intros dx s w s' (rest & c1 & ck & i1 & i2 & o2 & a2 & f2 & T1 & T2 & T3 & T4 & T5 & T6 & T7 & T8 & T9 & ->). unfold drawn. cbn [s_out s_adj]. apply add_q in T7, T8. rewrite T7, T8. ring. Qed.
(** Either both steps reach the boundary, with the same result; or the smaller swap ends here, and the larger one has received at least as much from this step. *)
Lemma step_x_two : forall orc p s dx dx' ro gtk p1 s1 p2 s2, step_x orc p s dx ro gtk = Ok (p1, s1) -> step_x orc p s dx' ro gtk = Ok (p2, s2) ->
  inv_x (p, s) -> carried dx (p, s) -> wf dx -> wf dx' -> wf ro -> 0 < mant dx -> In gtk (keys p) -> is_positive (glbl_liq p) = true ->
  dneg dx = false -> dneg dx' = false -> dscale dx = dscale dx' -> dval dx <= dval dx' -> d_lt (s_in s) dx = Ok true ->
  (p1, s1) = (p2, s2) \/ (d_lt (s_in s1) dx = Ok false /\ (drawn s1 <= drawn s2)%Q).
Proof.
  intros orc p s dx dx' ro gtk p1 s1 p2 s2 H H' I C Wd Wd' Wo Md K Pl N N' Sd L Lt. pose proof I as (I1 & I2 & I3 & I4). cbn [fst snd] in *. destruct (srp_at dx p s (or_introl I) C) as [(As & Ss & Ns) _].
  destruct C as (_ & _ & _ & _ & To). cbn [snd] in To. assert (Mi : 0 <= mant (s_in s)) by (destruct To as (_ & _ & O & _); lia). pose proof I2 as (Wi & _).
  pose proof (key_nn _ _ I1 K) as Hg. pose proof (liq_wf _ I1) as Wl. pose proof (srp_wf _ I2) as Ws. assert (Nl : dneg (glbl_liq p) = false) by (unfold is_positive in Pl; destruct (dneg (glbl_liq p)); cbn in Pl; auto; discriminate).
  assert (Wf : wf (fee_rate p)) by apply I1.
  destruct (step_x_facts _ _ _ _ _ _ _ _ H I1 I2 Wd Wo K) as (w & q1 & (r & R1 & R2 & R3) & F2 & F3 & F4 & F5 & F6 & F7 & F8). destruct (step_x_facts _ _ _ _ _ _ _ _ H' I1 I2 Wd' Wo K) as (w' & q2 & (r' & R1' & R2' & R3') & F2' & F3' & F4' & F5' & F6' & F7' & F8').
  destruct (within_x_facts _ _ _ _ _ _ _ _ R3 I1 Ws Wl R2 Wo Hg) as (rpg & cp & Q1 & Q2 & Q3 & Q4 & (Q5 & Q6 & Q7 & Q8 & Q9 & Q10) & Q11 & Q12 & Q13 & Q14 & Q15 & Q16 & Q17 & Q18 & Q19 & Q20 & Q21).
  destruct (within_x_facts _ _ _ _ _ _ _ _ R3' I1 Ws Wl R2' Wo Hg) as (rpg' & cp' & Q1' & Q2' & Q3' & Q4' & (Q5' & Q6' & Q7' & Q8' & Q9' & Q10') & Q11' & Q12' & Q13' & Q14' & Q15' & Q16' & Q17' & Q18' & Q19' & Q20' & Q21').
  destruct (rest_pos _ _ _ Wi Wd N Mi Lt R1) as [Nr Vr]. pose proof (lt_up _ _ _ N N' Sd L Lt) as Lt'. destruct (rest_pos _ _ _ Wi Wd' N' Mi Lt' R1') as [Nr' Vr'].
  assert (Sr : dscale r = dscale r') by (apply sub_m in R1, R1'; destruct R1 as (_ & A & B), R1' as (_ & A' & B'); congruence).
  destruct (core_x_two _ _ _ _ _ _ _ _ _ _ _ _ _ _ _ _ Q20 Q20' Ws Wl R2 R2' Wf Hg Nl Ns Nr Nr' Sr ltac:(lia) Q5 Q5') as [Eq Le].
  destruct (w_cross w) eqn:X.
  - left. specialize (Eq eq_refl). assert (w = w') as <- by (rewrite <- Eq in Q20'; rewrite (within_x_same _ _ _ _ _ _ _ ro _ Q20 Q20'), R3' in R3; injection R3 as ->; reflexivity). rewrite X in F8'. rewrite (tally_same _ _ _ _ _ _ F4 F4'). rewrite (mid_x_same _ _ _ _ F3 F3') in F8. destruct F8 as [_ F8], F8' as [_ F8']. rewrite F8 in F8'. injection F8' as ->. reflexivity.
  - right. destruct Q21 as (Q21 & _ & Q22 & _).
    split; [exact (tally_done _ _ _ _ _ F4 R1 Wd F7 Md Q21) |]. rewrite (tally_out _ _ _ _ F4), (tally_out _ _ _ _ F4'). assert (Cq : (num cp == num (w_send w) - num (w_adj w))%Q) by (apply num_minus; auto; apply Q4). assert (Cq' : (num cp' == num (w_send w') - num (w_adj w'))%Q) by (apply num_minus; auto; apply Q4').
    pose proof (dy_more _ _ _ _ _ _ Wl Ws (proj1 (proj2 (proj2 Q4))) (proj1 (proj2 (proj2 Q4'))) Nl ltac:(congruence) Le ltac:(lia) Q2 Q2'). lra.
Qed.
(** The input side: prices in the denominator, two truncations. *)
Lemma dx_more : forall l s e e' d d', wf l -> wf s -> wf e -> wf e' -> dscale l = 12 -> dscale s = 12 -> dscale e = 12 -> dscale e' = 12 -> (0 <= num l)%Q -> (1 <= num s)%Q -> (num s <= num e)%Q -> (num e <= num e')%Q ->
  dx_from_l_drp l s e = Ok d -> dx_from_l_drp l s e' = Ok d' -> (- num d * (1 - ulp12) <= - num d' + (2#1) * ulp12)%Q.
Proof.
  intros l s e e' d d' Wl Ws We We' Sl Ss Se Se' Pl Ps L1 L2 H H'. destruct (dx_up _ _ _ _ H Wl Ws We Sl Ss Se Pl Ps L1) as (_ & U & _). pose proof (dx_up_lo _ _ _ _ H' Wl Ws We' Sl Ss Pl Ps ltac:(lra)) as V.
  set (S := num s) in *. set (E := num e) in *. set (E' := num e') in *. set (l0 := num l) in *. set (A := (- num d * (1 - ulp12))%Q) in *. set (B := (- num d' + (2 # 1) * ulp12)%Q) in *.
  assert (P : (0 < S * E * E')%Q) by (apply Qmult_lt_0_compat; [apply Qmult_lt_0_compat; lra | lra]).
  apply Qmult_le_l with (z := (S * E * E')%Q); [exact P |].
  assert (Q1 : (S * E * E' * A <= l0 * (E - S) * E')%Q). { setoid_replace (S * E * E' * A)%Q with (A * (S * E) * E')%Q by ring. apply Qmult_le_compat_r; [exact U | lra]. }
  assert (Q2 : (l0 * (E' - S) * E <= S * E * E' * B)%Q). { setoid_replace (S * E * E' * B)%Q with (B * (S * E') * E)%Q by ring. apply Qmult_le_compat_r; [exact V | lra]. }
  assert (Q3 : (l0 * (E - S) * E' <= l0 * (E' - S) * E)%Q). { setoid_replace (l0 * (E - S) * E')%Q with ((E - S) * E' * l0)%Q by ring. setoid_replace (l0 * (E' - S) * E)%Q with ((E' - S) * E * l0)%Q by ring. apply Qmult_le_compat_r; [| exact Pl].
    setoid_replace ((E' - S) * E)%Q with ((E - S) * E' + S * (E' - E))%Q by ring. assert (0 <= S * (E' - E))%Q by (apply Qmult_le_0_compat; lra). lra. }
  lra.
Qed.
Lemma step_y_two : forall orc p s dx dx' ro gtk p1 s1 p2 s2, step_y orc p s dx ro gtk = Ok (p1, s1) -> step_y orc p s dx' ro gtk = Ok (p2, s2) ->
  inv_y (p, s) -> carried dx (p, s) -> wf dx -> wf dx' -> wf ro -> 0 < mant dx -> In gtk (keys p) -> is_positive (glbl_liq p) = true ->
  dneg dx = false -> dneg dx' = false -> dscale dx = dscale dx' -> dval dx <= dval dx' -> d_lt (s_in s) dx = Ok true ->
  (p1, s1) = (p2, s2) \/ (d_lt (s_in s1) dx = Ok false /\ (drawn s1 * (1 - ulp12) <= drawn s2 + (2#1) * ulp12)%Q).
Proof.
  intros orc p s dx dx' ro gtk p1 s1 p2 s2 H H' I C Wd Wd' Wo Md K Pl N N' Sd L Lt. pose proof I as (I1 & I2 & I3 & I4). cbn [fst snd] in *. destruct (srp_at dx p s (or_intror I) C) as [(As & Ss & Ns) _].
  destruct C as (_ & Hn & A12 & _ & To). cbn [fst snd] in To, Hn, A12. assert (Hgt : 0 <= glbl_tick p) by apply I1. assert (Mi : 0 <= mant (s_in s)) by (destruct To as (_ & _ & O & _); lia). pose proof I2 as (Wi & _).
  pose proof (key_nn _ _ I1 K) as Hg. pose proof (liq_wf _ I1) as Wl. pose proof (srp_wf _ I2) as Ws. assert (Nl : dneg (glbl_liq p) = false) by (unfold is_positive in Pl; destruct (dneg (glbl_liq p)); cbn in Pl; auto; discriminate).
  assert (Wf : wf (fee_rate p)) by apply I1.
  destruct (step_y_facts _ _ _ _ _ _ _ _ H I1 I2 Wd Wo K) as (w & q1 & (r & R1 & R2 & R3) & F2 & F3 & F4 & F5 & F6 & F7 & F8). destruct (step_y_facts _ _ _ _ _ _ _ _ H' I1 I2 Wd' Wo K) as (w' & q2 & (r' & R1' & R2' & R3') & F2' & F3' & F4' & F5' & F6' & F7' & F8').
  destruct (within_y_facts _ _ _ _ _ _ _ _ R3 I1 Ws Wl R2 Wo Hg) as (rpg & cp & Q1 & Q2 & Q3 & Q4 & (Q5 & Q6 & Q7 & Q8 & Q9 & Q10) & Q11 & Q12 & Q13 & Q14 & Q15 & Q16 & Q17 & Q18 & Q19 & Q20 & Q21).
  destruct (within_y_facts _ _ _ _ _ _ _ _ R3' I1 Ws Wl R2' Wo Hg) as (rpg' & cp' & Q1' & Q2' & Q3' & Q4' & (Q5' & Q6' & Q7' & Q8' & Q9' & Q10') & Q11' & Q12' & Q13' & Q14' & Q15' & Q16' & Q17' & Q18' & Q19' & Q20' & Q21').
  destruct (rest_pos _ _ _ Wi Wd N Mi Lt R1) as [Nr Vr]. pose proof (lt_up _ _ _ N N' Sd L Lt) as Lt'. destruct (rest_pos _ _ _ Wi Wd' N' Mi Lt' R1') as [Nr' Vr'].
  assert (Sr : dscale r = dscale r') by (apply sub_m in R1, R1'; destruct R1 as (_ & A & B), R1' as (_ & A' & B'); congruence).
  destruct (core_y_two _ _ _ _ _ _ _ _ _ _ _ _ _ _ _ _ Q20 Q20' Ws Wl R2 R2' Wf Hg (proj1 I1) Hgt Nl Ns Nr Nr' Sr ltac:(lia) Q5 Q5') as [Eq Le].
  destruct (w_cross w) eqn:X.
  - left. specialize (Eq eq_refl). assert (w = w') as <- by (rewrite <- Eq in Q20'; rewrite (within_y_same _ _ _ _ _ _ _ ro _ Q20 Q20'), R3' in R3; injection R3 as ->; reflexivity). rewrite X in F8'. rewrite (tally_same _ _ _ _ _ _ F4 F4'). rewrite (mid_y_same _ _ _ _ F3 F3') in F8. destruct F8 as [_ F8], F8' as [_ F8']. rewrite F8 in F8'. injection F8' as ->. reflexivity.
  - right. destruct Q21 as (Q21 & _ & Q22 & _).
    split; [exact (tally_done _ _ _ _ _ F4 R1 Wd F7 Md Q21) |]. rewrite (tally_out _ _ _ _ F4), (tally_out _ _ _ _ F4'). assert (Cq : (num cp == num (w_send w) - num (w_adj w))%Q) by (apply num_minus; auto; apply Q4). assert (Cq' : (num cp' == num (w_send w') - num (w_adj w'))%Q) by (apply num_minus; auto; apply Q4').
    destruct Q4 as (_ & _ & V3 & _), Q4' as (_ & _ & V3' & _). pose proof (rp_one _ Hn) as S1. rewrite I3 in S1. assert (Sl : dscale (glbl_liq p) = 12) by apply A12. assert (Pq : (0 <= num (glbl_liq p))%Q) by apply Hn.
    pose proof (dx_more _ _ _ _ _ _ Wl Ws V3 V3' Sl Ss Q19 Q19' Pq S1 ltac:(apply num_le; auto; [congruence | lia]) ltac:(apply num_le; auto; congruence) Q2 Q2').
    assert (Po : (0 <= drawn s)%Q). { assert (W1 : wf (s_out s)) by apply I2. assert (W2 : wf (s_adj s)) by apply I2. destruct To as (_ & _ & _ & A & B & _). apply nn_q in A; auto. assert ((num (s_out s) <= 0)%Q) by (apply num_sign; auto). unfold drawn. lra. }
    pose proof u_pos. assert (0 <= drawn s * ulp12)%Q by (apply Qmult_le_0_compat; lra).
    setoid_replace (num (w_adj w) - num (w_send w))%Q with (- num cp)%Q by lra. lra.
Qed.

(** ** Whole swaps *)
Lemma loop_x_drawn : forall orc fuel p s dx ro p' o, loop_x orc fuel p s dx ro = Ok (p', o) -> wf dx -> wf ro -> inv_x (p, s) -> (drawn s <= num (so_adj o) - num (so_send o))%Q.
Proof.
  intros orc fuel p s dx ro p' o H Wd Wo I. destruct (loop_x_chain _ _ _ _ _ _ _ _ H Wd Wo I) as (s' & C & _ & F & _). destruct (finish_x_out _ _ _ _ F) as (_ & -> & -> & _). fold (drawn s').
  refine (proj2 (chain_inv _ _ (fun c => inv_x c /\ (drawn s <= drawn (snd c))%Q) _ _ _ C (conj I (Qle_refl _)))). intros a b (Ia & L) M. split; [exact (mv_x_inv _ _ _ _ _ Wd Wo Ia M) |]. destruct Ia as (I1 & I2 & I3 & I4).
  inversion M as [q t tk rp q' H1 H2 H3 H4 H5 | q t f gtk q' t' H1 H2 H3 H4 H5]; subst; cbn [fst snd] in *; [exact L |].
  destruct (find_left _ _ _ H4) as [K1 K2]. destruct (step_x_facts _ _ _ _ _ _ _ _ H5 I1 I2 Wd Wo K1) as (w & p1 & (rest & R1 & R2 & R3) & F2 & F3 & F4 & F5 & F6 & F7 & F8).
  destruct (within_x_facts _ _ _ _ _ _ _ _ R3 I1 (srp_wf _ I2) (liq_wf _ I1) R2 Wo (key_nn _ _ I1 K1)) as (rpg & cp & G1 & G2 & G3 & G4 & G5 & G6 & G7 & G8 & G9 & G10 & _).
  rewrite (tally_out _ _ _ _ F4). assert (Cq : (num cp == num (w_send w) - num (w_adj w))%Q) by (apply num_minus; auto). assert ((num cp <= 0)%Q) by (apply num_sign; auto). lra.
Qed.
Lemma loop_x_two : forall orc dx dx' ro, wf dx -> wf dx' -> wf ro -> 0 < mant dx -> dneg dx = false -> dneg dx' = false -> dscale dx = dscale dx' -> dval dx <= dval dx' ->
  forall fuel p s p1 o1 p2 o2, inv_x (p, s) -> carried dx (p, s) -> loop_x orc fuel p s dx ro = Ok (p1, o1) -> loop_x orc fuel p s dx' ro = Ok (p2, o2) ->
  (num (so_adj o1) - num (so_send o1) <= num (so_adj o2) - num (so_send o2))%Q.
Proof.
  intros orc dx dx' ro Wd Wd' Wo Md N N' Sd L. induction fuel as [| fuel IH]; intros p s q1 o1 q2 o2 I HP H H'; [discriminate |].
  assert (Fin : finish_x p s = Ok (q1, o1) -> (num (so_adj o1) - num (so_send o1) <= num (so_adj o2) - num (so_send o2))%Q).
  { intros F. destruct (finish_x_out _ _ _ _ F) as (_ & -> & -> & _). exact (loop_x_drawn _ _ _ _ _ _ _ _ H' Wd' Wo I). }
  cbn [loop_x] in H, H'.
  pose proof I as (I1 & I2 & I3 & I4). cbn [fst snd] in I1, I2, I3, I4. pose proof I1 as (Hsp & (_ & _ & Hgt & _) & _).
  bd H more E1. destruct more; cbn [negb] in H; [| exact (Fin H)]. pose proof (lt_up _ _ _ N N' Sd L E1) as E1'. rewrite E1' in H'. cbn [bind unwrap negb] in H'.
  destruct (if is_positive (glbl_liq p) then _ else _) as [gg | | |] eqn:E2; cbn [bind] in H, H'; [| discriminate H ..]. destruct gg as [[p1 goal] crp].
  destruct goal as [gtk |]. 2: { destruct (finish_x_out _ _ _ _ H) as (_ & -> & -> & _). destruct (finish_x_out _ _ _ _ H') as (_ & -> & -> & _). apply Qle_refl. }
  bd H ps E4. destruct ps as [p2 s2]. bd H' ps E4'. destruct ps as [p2' s2'].
  assert (X : chain (mv_x orc dx ro) (p, s) (p1, with_rp s crp) /\ is_positive (glbl_liq p1) = true /\ exists f, tk_to_possible_tk (glbl_tick p1) (spacing p1) false = Ok f /\ find (fun tk => tk <=? f) (rev (keys p1)) = Some gtk).
  { destruct (is_positive (glbl_liq p)) eqn:Pl.
    - bd E2 g E3. injection E2 as <- -> <-. rewrite with_rp_id. split; [constructor |]. split; auto. destruct (left_limit_inv _ _ _ E3 I4 Hgt Hsp) as (f & F1 & F2 & F3 & F4). eauto.
    - unfold try_get_in_range in E2. rewrite Pl in E2. bd E2 pr E3. destruct pr as [q3 r].
      destruct (gir_left_chain orc dx ro _ _ s _ _ E3 I1) as (C1 & C2 & C3 & C4 & C5); auto. { intros k Hk. apply in_rev in Hk. auto. } { apply sorted_rev, keys_sorted; auto. } { intros k Hk. left. unfold tick_keys. rewrite <- in_rev. auto. }
      assert (I' : inv_x (q3, with_rp s (glbl_rp q3))) by (exact (chain_inv _ _ inv_x (fun a b Ha Hm => mv_x_inv _ _ _ _ _ Wd Wo Ha Hm) _ _ C1 I)).
      pose proof I' as (J1 & J2 & J3 & J4). cbn [fst snd] in J1, J2, J3, J4. pose proof J1 as (Jsp & (_ & _ & Jgt & _) & _).
      destruct r as [[g rp] |]; [| destruct (is_negative (glbl_rp q3)); discriminate].
      injection E2 as <- -> <-. destruct C5 as [-> [C6 C7]]. split; [exact C1 |]. split; auto.
      destruct (left_limit_inv _ _ _ C7 (Z.le_refl _) Jgt Jsp) as (f & F1 & F2 & F3 & F4). eauto. }
  destruct X as (C & G1 & f & G2 & G3). fold (with_rp s crp) in E4, E4'.
  assert (Inv : inv_x (p1, with_rp s crp) /\ carried dx (p1, with_rp s crp)).
  { refine (chain_inv _ _ (fun c => inv_x c /\ carried dx c) _ _ _ C (conj I HP)). intros a b (Ha & Hb) M. split; [exact (mv_x_inv _ _ _ _ _ Wd Wo Ha M) | exact (carried_x _ _ _ _ _ Wd Wo Ha Hb M)]. }
  destruct Inv as (Ia & Pa). destruct (find_left _ _ _ G3) as [K1 _].
  assert (MV : mv_x orc dx ro (p1, with_rp s crp) (p2, s2)) by (eapply X_step; eauto). assert (MV' : mv_x orc dx' ro (p1, with_rp s crp) (p2', s2')) by (eapply X_step; eauto).
  destruct (step_x_two _ _ _ _ _ _ _ _ _ _ _ E4 E4' Ia Pa Wd Wd' Wo Md K1 G1 N N' Sd L E1) as [Eq | [D Le]].
  - injection Eq as <- <-. apply (IH _ _ _ _ _ _ (mv_x_inv _ _ _ _ _ Wd Wo Ia MV) (carried_x _ _ _ _ _ Wd Wo Ia Pa MV) H H').
  - pose proof (loop_x_drawn _ _ _ _ _ _ _ _ H' Wd' Wo (mv_x_inv _ _ _ _ _ Wd' Wo Ia MV')) as Le'. destruct fuel as [| fuel]; [discriminate H |]. cbn [loop_x] in H. rewrite D in H. cbn [bind unwrap negb] in H. destruct (finish_x_out _ _ _ _ H) as (_ & -> & -> & _). unfold drawn in *. lra.
Qed.
Lemma loop_y_drawn : forall orc fuel p s dx ro p' o, loop_y orc fuel p s dx ro = Ok (p', o) -> wf dx -> wf ro -> inv_y (p, s) -> (drawn s <= num (so_adj o) - num (so_send o))%Q.
Proof.
  intros orc fuel p s dx ro p' o H Wd Wo I. destruct (loop_y_chain _ _ _ _ _ _ _ _ H Wd Wo I) as (s' & C & _ & F & _). destruct (finish_y_out _ _ _ _ F) as (_ & -> & -> & _). fold (drawn s').
  refine (proj2 (chain_inv _ _ (fun c => inv_y c /\ (drawn s <= drawn (snd c))%Q) _ _ _ C (conj I (Qle_refl _)))). intros a b (Ia & L) M. split; [exact (mv_y_inv _ _ _ _ _ Wd Wo Ia M) |]. destruct Ia as (I1 & I2 & I3 & I4).
  inversion M as [q t tk rp q' H1 H2 H3 H4 H5 | q t gtk q' t' H1 H2 H3 H4 H5]; subst; cbn [fst snd] in *; [exact L |].
  destruct (find_right _ _ _ H4) as [K1 K2]. destruct (step_y_facts _ _ _ _ _ _ _ _ H5 I1 I2 Wd Wo K1) as (w & p1 & (rest & R1 & R2 & R3) & F2 & F3 & F4 & F5 & F6 & F7 & F8).
  destruct (within_y_facts _ _ _ _ _ _ _ _ R3 I1 (srp_wf _ I2) (liq_wf _ I1) R2 Wo (key_nn _ _ I1 K1)) as (rpg & cp & G1 & G2 & G3 & G4 & G5 & G6 & G7 & G8 & G9 & G10 & _).
  rewrite (tally_out _ _ _ _ F4). assert (Cq : (num cp == num (w_send w) - num (w_adj w))%Q) by (apply num_minus; auto). assert ((num cp <= 0)%Q) by (apply num_sign; auto). lra.
Qed.
Lemma drawn_nn : forall dx s, s_wf s -> tot_ok dx s -> (0 <= drawn s)%Q.
Proof.
  intros dx s I2 To. assert (W1 : wf (s_out s)) by apply I2. assert (W2 : wf (s_adj s)) by apply I2. destruct To as (_ & _ & _ & A & B & _). apply nn_q in A; auto. assert ((num (s_out s) <= 0)%Q) by (apply num_sign; auto). unfold drawn. lra.
Qed.
Lemma loop_y_two : forall orc dx dx' ro, wf dx -> wf dx' -> wf ro -> 0 < mant dx -> dneg dx = false -> dneg dx' = false -> dscale dx = dscale dx' -> dval dx <= dval dx' ->
  forall fuel p s p1 o1 p2 o2, inv_y (p, s) -> carried dx (p, s) -> loop_y orc fuel p s dx ro = Ok (p1, o1) -> loop_y orc fuel p s dx' ro = Ok (p2, o2) ->
  ((num (so_adj o1) - num (so_send o1)) * (1 - ulp12) <= num (so_adj o2) - num (so_send o2) + (2#1) * ulp12)%Q.
Proof.
  intros orc dx dx' ro Wd Wd' Wo Md N N' Sd L. induction fuel as [| fuel IH]; intros p s q1 o1 q2 o2 I HP H H'; [discriminate |].
  assert (Nd : (0 <= drawn s)%Q) by (apply (drawn_nn dx); [apply I | apply HP]). pose proof u_pos as Up. assert (Nu : (0 <= drawn s * ulp12)%Q) by (apply Qmult_le_0_compat; lra).
  assert (Fin : finish_y p s = Ok (q1, o1) -> ((num (so_adj o1) - num (so_send o1)) * (1 - ulp12) <= num (so_adj o2) - num (so_send o2) + (2#1) * ulp12)%Q).
  { intros F. destruct (finish_y_out _ _ _ _ F) as (_ & -> & -> & _). pose proof (loop_y_drawn _ _ _ _ _ _ _ _ H' Wd' Wo I) as L0. fold (drawn s). lra. }
  cbn [loop_y] in H, H'.
  pose proof I as (I1 & I2 & I3 & I4). cbn [fst snd] in I1, I2, I3, I4. pose proof I1 as (Hsp & (_ & _ & Hgt & _) & _).
  bd H more E1. destruct more; cbn [negb] in H; [| exact (Fin H)]. pose proof (lt_up _ _ _ N N' Sd L E1) as E1'. rewrite E1' in H'. cbn [bind unwrap negb] in H'.
  destruct (if is_positive (glbl_liq p) then _ else _) as [gg | | |] eqn:E2; cbn [bind] in H, H'; [| discriminate H ..]. destruct gg as [[p1 goal] crp].
  destruct goal as [gtk |]. 2: { destruct (finish_y_out _ _ _ _ H) as (_ & -> & -> & _). destruct (finish_y_out _ _ _ _ H') as (_ & -> & -> & _). fold (drawn s). lra. }
  bd H ps E4. destruct ps as [p2 s2]. bd H' ps E4'. destruct ps as [p2' s2'].
  assert (X : exists t, chain (mv_y orc dx ro) (p, s) (p1, with_t_rp s t crp) /\ is_positive (glbl_liq p1) = true /\ tk_to_possible_tk (glbl_tick p1) (spacing p1) false = Ok (glbl_tick p1) /\ find (fun tk => glbl_tick p1 <? tk) (keys p1) = Some gtk).
  { destruct (is_positive (glbl_liq p)) eqn:Pl.
    - bd E2 g E3. injection E2 as <- -> <-. exists (s_t s). rewrite with_t_rp_id. split; [constructor |]. split; auto. rewrite <- I4 in E3. destruct (right_limit_inv _ _ E3 Hgt Hsp) as (F1 & F2). auto.
    - unfold try_get_in_range in E2. rewrite Pl in E2. bd E2 pr E3. destruct pr as [q3 r].
      destruct (gir_right_chain orc dx ro _ _ s _ _ E3 I1) as (C1 & C2 & C3 & C4 & C5); auto. { apply keys_sorted; auto. }
      assert (I' : inv_y (q3, with_t_rp s (glbl_tick q3) (glbl_rp q3))) by (exact (chain_inv _ _ inv_y (fun a b Ha Hm => mv_y_inv _ _ _ _ _ Wd Wo Ha Hm) _ _ C1 I)).
      pose proof I' as (J1 & J2 & J3 & J4). cbn [fst snd] in J1, J2, J3, J4. pose proof J1 as (Jsp & (_ & _ & Jgt & _) & _).
      destruct r as [[g rp] |]; [| destruct (is_negative (glbl_rp q3)); discriminate].
      injection E2 as <- -> <-. destruct C5 as [-> [C6 C7]]. exists (glbl_tick q3). split; [exact C1 |]. split; auto.
      destruct (right_limit_inv _ _ C7 Jgt Jsp) as (F1 & F2). auto. }
  destruct X as (t & C & G1 & G2 & G3).
  assert (Inv : inv_y (p1, with_t_rp s t crp) /\ carried dx (p1, with_t_rp s t crp)).
  { refine (chain_inv _ _ (fun c => inv_y c /\ carried dx c) _ _ _ C (conj I HP)). intros a b (Ha & Hb) M. split; [exact (mv_y_inv _ _ _ _ _ Wd Wo Ha M) | exact (carried_y _ _ _ _ _ Wd Wo Ha Hb M)]. }
  destruct Inv as (Ia & Pa). destruct (find_right _ _ _ G3) as [K1 _].
  change (step_y orc p1 (with_t_rp s t crp) dx ro gtk = Ok (p2, s2)) in E4. change (step_y orc p1 (with_t_rp s t crp) dx' ro gtk = Ok (p2', s2')) in E4'.
  assert (MV : mv_y orc dx ro (p1, with_t_rp s t crp) (p2, s2)) by (eapply Y_step; eauto). assert (MV' : mv_y orc dx' ro (p1, with_t_rp s t crp) (p2', s2')) by (eapply Y_step; eauto).
  destruct (step_y_two _ _ _ _ _ _ _ _ _ _ _ E4 E4' Ia Pa Wd Wd' Wo Md K1 G1 N N' Sd L E1) as [Eq | [D Le]].
  - injection Eq as <- <-. apply (IH _ _ _ _ _ _ (mv_y_inv _ _ _ _ _ Wd Wo Ia MV) (carried_y _ _ _ _ _ Wd Wo Ia Pa MV) H H').
  - pose proof (loop_y_drawn _ _ _ _ _ _ _ _ H' Wd' Wo (mv_y_inv _ _ _ _ _ Wd' Wo Ia MV')) as Le'. destruct fuel as [| fuel]; [discriminate H |]. cbn [loop_y] in H. rewrite D in H. cbn [bind unwrap negb] in H. destruct (finish_y_out _ _ _ _ H) as (_ & -> & -> & _). fold (drawn s2). lra.
Qed.
Lemma num_dval : forall a b, wf a -> wf b -> dneg a = false -> dneg b = false -> dscale a = dscale b -> (num a <= num b)%Q -> dval a <= dval b.
Proof. intros a b Wa Wb Na Nb S L. rewrite <- (mant_f a Na), <- (mant_f b Nb). apply num_le; auto. Qed.
Lemma lt_scale : forall a b r, d_lt a b = Ok r -> dscale b = dscale a.
Proof. intros a b r H. unfold d_lt in H. destruct (dscale a =? dscale b) eqn:E; cbn in H; [| discriminate]. b2p. auto. Qed.
Lemma pos_flag : forall a, negb (is_positive a) = false -> dneg a = false.
Proof. intros a H. unfold is_positive in H. destruct (dneg a); cbn in H; auto; discriminate. Qed.
Theorem swap_x_more : forall orc p dx dx' ro p1 o1 p2 o2, reachable orc p -> wf dx -> wf dx' -> wf ro -> (num dx <= num dx')%Q ->
  execute_swap_from_x orc p dx ro = Ok (p1, o1) -> execute_swap_from_x orc p dx' ro = Ok (p2, o2) ->
  (num (so_adj o1) - num (so_send o1) <= num (so_adj o2) - num (so_send o2))%Q.
Proof.
  intros orc p dx dx' ro p1 o1 p2 o2 Hr Wd Wd' Wo L H H'. pose proof (reachable_nn _ _ Hr) as (W & _). destruct (swap_x_chain _ _ _ _ _ _ H W Wd Wo) as (Pd & _).
  unfold execute_swap_from_x in H, H'. destruct (negb (is_positive dx)) eqn:N; [discriminate |]. destruct (negb (is_positive dx')) eqn:N'; [discriminate |]. rewrite zero_eq in H, H'. cbn [bind] in H, H'. apply pos_flag in N, N'.
  assert (S : dscale dx = dscale dx'). { pose proof H as H1. pose proof H' as H2. unfold swap_fuel in H1, H2. cbn [loop_x] in H1, H2. bd H1 b E. bd H2 b' E'. apply lt_scale in E, E'. congruence. }
  refine (loop_x_two _ _ _ _ Wd Wd' Wo Pd N N' S (num_dval _ _ Wd Wd' N N' S L) _ _ _ _ _ _ _ _ (carried0 _ _ _ Hr) H H'). apply (inv_start p W).
Qed.
Theorem swap_y_more : forall orc p dx dx' ro p1 o1 p2 o2, reachable orc p -> wf dx -> wf dx' -> wf ro -> (num dx <= num dx')%Q ->
  execute_swap_from_y orc p dx ro = Ok (p1, o1) -> execute_swap_from_y orc p dx' ro = Ok (p2, o2) ->
  ((num (so_adj o1) - num (so_send o1)) * (1 - ulp12) <= num (so_adj o2) - num (so_send o2) + (2#1) * ulp12)%Q.
Proof.
  intros orc p dx dx' ro p1 o1 p2 o2 Hr Wd Wd' Wo L H H'. pose proof (reachable_nn _ _ Hr) as (W & _). destruct (swap_y_chain _ _ _ _ _ _ H W Wd Wo) as (Pd & _).
  unfold execute_swap_from_y in H, H'. destruct (negb (is_positive dx)) eqn:N; [discriminate |]. destruct (negb (is_positive dx')) eqn:N'; [discriminate |]. rewrite zero_eq in H, H'. cbn [bind] in H, H'. apply pos_flag in N, N'.
  assert (S : dscale dx = dscale dx'). { pose proof H as H1. pose proof H' as H2. unfold swap_fuel in H1, H2. cbn [loop_y] in H1, H2. bd H1 b E. bd H2 b' E'. apply lt_scale in E, E'. congruence. }
  refine (loop_y_two _ _ _ _ Wd Wd' Wo Pd N N' S (num_dval _ _ Wd Wd' N N' S L) _ _ _ _ _ _ _ _ (carried0 _ _ _ Hr) H H'). apply (inv_start p W).
Qed.
(** Without an adjustment, that is the amount paid. *)
Theorem swap_x_more_paid : forall orc p dx dx' ro p1 o1 p2 o2, reachable orc p -> wf dx -> wf dx' -> wf ro -> hmm_off p ro -> (num dx <= num dx')%Q ->
  execute_swap_from_x orc p dx ro = Ok (p1, o1) -> execute_swap_from_x orc p dx' ro = Ok (p2, o2) -> (- num (so_send o1) <= - num (so_send o2))%Q.
Proof.
  intros orc p dx dx' ro p1 o1 p2 o2 Hr Wd Wd' Wo Off L H H'. pose proof (reachable_nn _ _ Hr) as (W & _). pose proof (swap_x_more _ _ _ _ _ _ _ _ _ Hr Wd Wd' Wo L H H').
  destruct (swap_x_no_hmm _ _ _ _ _ _ W Wd Wo Off H) as [A _]. destruct (swap_x_no_hmm _ _ _ _ _ _ W Wd' Wo Off H') as [A' _]. lra.
Qed.
Theorem swap_y_more_paid : forall orc p dx dx' ro p1 o1 p2 o2, reachable orc p -> wf dx -> wf dx' -> wf ro -> hmm_off p ro -> (num dx <= num dx')%Q ->
  execute_swap_from_y orc p dx ro = Ok (p1, o1) -> execute_swap_from_y orc p dx' ro = Ok (p2, o2) -> (- num (so_send o1) * (1 - ulp12) <= - num (so_send o2) + (2#1) * ulp12)%Q.
Proof.
  intros orc p dx dx' ro p1 o1 p2 o2 Hr Wd Wd' Wo Off L H H'. pose proof (reachable_nn _ _ Hr) as (W & _). pose proof (swap_y_more _ _ _ _ _ _ _ _ _ Hr Wd Wd' Wo L H H') as M.
  destruct (swap_y_no_hmm _ _ _ _ _ _ W Wd Wo Off H) as [A _]. destruct (swap_y_no_hmm _ _ _ _ _ _ W Wd' Wo Off H') as [A' _]. rewrite A, A' in M. lra.
Qed.
