(** Inversion facts for decimal operations that returned: exact mantissas, sign tests, comparisons, and
    preservation of well-formedness by every operation the pool uses. *)
From Coq Require Import ZArith QArith List Bool Lia.
From Verif Require Import Base BaseLemmas DecimalModel DecimalSpec DecimalProofs SqrtProofs PowProofs MathModel.
Import ListNotations.
Open Scope Z_scope.

(** ** Exact mantissas *)
Lemma add_m : forall a b c, d_add a b = Ok c -> mant c = mant a + mant b /\ dscale c = dscale a /\ dscale b = dscale a.
Proof.
  intros [va sa na] [vb sb nb] c H. unfold d_add in H. cbn [dval dscale dneg] in H.
  destruct (sa =? sb) eqn:S; cbn [negb] in H; [| discriminate]. b2p. subst sb.
  destruct (Bool.eqb na nb) eqn:Q.
  - apply eqb_prop in Q. subst. msteps. unfold mant; cbn. destruct nb; repeat split; lia.
  - destruct (vb <? va) eqn:E1; b2p; [| destruct (va <? vb) eqn:E2; b2p]; msteps; unfold mant; cbn;
      destruct na, nb; try discriminate Q; repeat split; lia.
Qed.
Lemma sub_m : forall a b c, d_sub a b = Ok c -> mant c = mant a - mant b /\ dscale c = dscale a /\ dscale b = dscale a.
Proof.
  intros a [vb sb nb] c H. unfold d_sub in H. apply add_m in H. unfold mant at 3 in H. unfold mant at 3. cbn in *.
  destruct nb; cbn in *; intuition lia.
Qed.
Lemma neg_m : forall a, 0 <= dval a -> mant (d_neg a) = - mant a.
Proof.
  intros [v s n] H. unfold d_neg, is_negative, is_positive, is_zero, mant. cbn in *.
  destruct n; cbn; destruct (v =? 0) eqn:E; b2p; cbn; lia.
Qed.
Lemma neg_scale : forall a, dscale (d_neg a) = dscale a.
Proof. intros a. unfold d_neg. destruct (is_negative a); auto. destruct (is_positive a); auto. Qed.
Lemma neg_val : forall a, dval (d_neg a) = dval a.
Proof. intros a. unfold d_neg. destruct (is_negative a); auto. destruct (is_positive a); auto. Qed.

(** ** Sign tests *)
Lemma is_neg_m : forall a, 0 <= dval a -> is_negative a = true <-> mant a < 0.
Proof.
  intros [v s n] H. unfold is_negative, is_zero, mant. cbn in *. destruct n; cbn; destruct (v =? 0) eqn:E; b2p; cbn; split; intros; try discriminate; auto; lia.
Qed.
Lemma is_neg_f : forall a, 0 <= dval a -> is_negative a = false <-> 0 <= mant a.
Proof. intros a H. pose proof (is_neg_m a H) as P. destruct (is_negative a); split; intros; try discriminate; auto; destruct P as [P1 P2]; [specialize (P1 eq_refl); lia | destruct (Z.le_gt_cases 0 (mant a)) as [| G]; auto; specialize (P2 G); discriminate]. Qed.
Lemma is_pos_m : forall a, 0 <= dval a -> is_positive a = true <-> 0 < mant a.
Proof.
  intros [v s n] H. unfold is_positive, is_zero, mant. cbn in *. destruct n; cbn; destruct (v =? 0) eqn:E; b2p; cbn; split; intros; try discriminate; auto; lia.
Qed.
Lemma is_pos_f : forall a, 0 <= dval a -> is_positive a = false <-> mant a <= 0.
Proof. intros a H. pose proof (is_pos_m a H) as P. destruct (is_positive a); split; intros; try discriminate; auto; destruct P as [P1 P2]; [specialize (P1 eq_refl); lia | destruct (Z.le_gt_cases (mant a) 0) as [| G]; auto; apply Z.lt_gt, Z.gt_lt in G; specialize (P2 G); discriminate]. Qed.
Lemma is_zero_m : forall a, is_zero a = true <-> mant a = 0.
Proof. intros [v s n]. unfold is_zero, mant. cbn. rewrite Z.eqb_eq. destruct n; lia. Qed.
Lemma is_zero_f : forall a, is_zero a = false <-> mant a <> 0.
Proof. intros [v s n]. unfold is_zero, mant. cbn. rewrite Z.eqb_neq. destruct n; lia. Qed.
Lemma mant_pos_flag : forall a, 0 <= dval a -> 0 < mant a -> dneg a = false /\ dval a = mant a.
Proof. intros [v s n] H H1. unfold mant in *. cbn in *. destruct n; lia || auto. Qed.

(** ** Comparisons, including negative zeros *)
Lemma lt_m : forall a b r, 0 <= dval a -> 0 <= dval b -> d_lt a b = Ok r ->
  dscale a = dscale b /\ (r = true -> mant a <= mant b) /\ (r = false -> mant b <= mant a) /\
  (canonical a -> r = true -> mant a < mant b).
Proof.
  intros [va sa na] [vb sb nb] r Ha Hb H. unfold d_lt in H. unfold mant, canonical. cbn in *.
  destruct (sa =? sb) eqn:S; cbn in H; [| discriminate]. b2p.
  destruct na, nb; cbn in H; injection H as <-; (split; [auto | split; [| split]]); intros; b2p; try discriminate; try lia.
Qed.
Lemma gt_lt : forall a b, d_gt a b = d_lt b a.
Proof.
  intros a b. unfold d_gt, d_lt. rewrite (Z.eqb_sym (dscale b)). destruct (_ =? _); cbn; auto. destruct (dneg a), (dneg b); reflexivity.
Qed.
Lemma gt_m : forall a b r, 0 <= dval a -> 0 <= dval b -> d_gt a b = Ok r ->
  dscale a = dscale b /\ (r = true -> mant b <= mant a) /\ (r = false -> mant a <= mant b) /\
  (canonical b -> r = true -> mant b < mant a).
Proof. intros a b r Ha Hb H. rewrite gt_lt in H. destruct (lt_m _ _ _ Hb Ha H) as [H1 [H2 [H3 H4]]]. auto. Qed.
Lemma gte_m : forall a b r, 0 <= dval a -> 0 <= dval b -> d_gte a b = Ok r ->
  dscale a = dscale b /\ (r = true -> mant b <= mant a) /\ (r = false -> mant a <= mant b) /\
  (canonical a -> r = false -> mant a < mant b).
Proof.
  intros [va sa na] [vb sb nb] r Ha Hb H. unfold d_gte in H. unfold mant, canonical. cbn in *.
  destruct (sa =? sb) eqn:S; cbn in H; [| discriminate]. b2p.
  destruct na, nb; cbn in H; injection H as <-; (split; [auto | split; [| split]]); intros; b2p; try discriminate; try lia.
Qed.
Lemma lte_gte : forall a b, d_lte a b = d_gte b a.
Proof.
  intros a b. unfold d_gte, d_lte. rewrite (Z.eqb_sym (dscale b)). destruct (_ =? _); cbn; auto. destruct (dneg a), (dneg b); reflexivity.
Qed.
Lemma lte_m : forall a b r, 0 <= dval a -> 0 <= dval b -> d_lte a b = Ok r ->
  dscale a = dscale b /\ (r = true -> mant a <= mant b) /\ (r = false -> mant b <= mant a) /\
  (canonical b -> r = false -> mant b < mant a).
Proof. intros a b r Ha Hb H. rewrite lte_gte in H. destruct (gte_m _ _ _ Hb Ha H) as [H1 [H2 [H3 H4]]]. auto. Qed.

(** ** Canonical results *)
Lemma add_canon : forall a b c, 0 <= dval a -> 0 <= dval b -> d_add a b = Ok c -> canonical a \/ canonical b -> canonical c.
Proof.
  intros [va sa na] [vb sb nb] c Ha Hb H C. unfold d_add in H. unfold canonical in *. cbn in *.
  destruct (sa =? sb) eqn:S; cbn in H; [| discriminate].
  destruct na, nb; cbn in H; repeat match goal with H : context [?x <? ?y] |- _ => destruct (x <? y) eqn:?; b2p end; msteps; cbn; intros; try discriminate; try lia.
Qed.
Lemma sub_canon : forall a b c, 0 <= dval a -> 0 <= dval b -> d_sub a b = Ok c -> canonical a -> canonical c.
Proof. intros a b c Ha Hb H C. unfold d_sub in H. eapply add_canon; [| | exact H |]; auto. Qed.

(** ** Well-formedness *)
Lemma wf_nn : forall d, wf d -> 0 <= dval d.
Proof. intros d [[H _] _]. auto. Qed.
Lemma add_wf : forall a b c, d_add a b = Ok c -> wf a -> wf b -> wf c.
Proof. intros a b c H Wa Wb. pose proof (add_spec a b Wa Wb) as S. rewrite H in S. tauto. Qed.
Lemma sub_wf : forall a b c, d_sub a b = Ok c -> wf a -> wf b -> wf c.
Proof. intros a b c H Wa Wb. pose proof (sub_spec a b Wa Wb) as S. rewrite H in S. tauto. Qed.
Lemma mul_wf' : forall a b c, d_mul a b = Ok c -> wf a -> wf b -> wf c.
Proof. intros a b c H Wa Wb. exact (mul_wf a b c Wa Wb H). Qed.
Lemma div_wf : forall a b c, d_div a b = Ok c -> wf a -> wf b -> wf c.
Proof. intros a b c H Wa Wb. pose proof (div_spec a b Wa Wb) as S. rewrite H in S. cbn in S. tauto. Qed.
Lemma neg_wf : forall a, wf a -> wf (d_neg a).
Proof. intros a [H1 H2]. split; rewrite ?neg_val, ?neg_scale; auto. Qed.
Lemma pow_wf : forall d n c, d_pow d n = Ok c -> wf d -> 0 <= n -> wf c.
Proof. intros d n c H W Hn. pose proof (pow_spec d n W Hn) as S. rewrite H in S. cbn in S. tauto. Qed.
Lemma sqrt_wf : forall d c, d_sqrt d = Ok c -> wf d -> wf c.
Proof. intros d c H W. pose proof (sqrt_spec d W) as S. rewrite H in S. tauto. Qed.
Lemma to_scale_wf : forall d s c, to_scale d s = Ok c -> wf d -> 0 <= s <= 255 -> wf c /\ dscale c = s.
Proof. intros d s c H W Hs. pose proof (to_scale_spec d s W Hs) as S. rewrite H in S. cbn in S. tauto. Qed.
Lemma to_scale_up_wf : forall d s c, to_scale_up d s = Ok c -> wf d -> 0 <= s <= 255 -> wf c /\ dscale c = s.
Proof. intros d s c H W Hs. pose proof (to_scale_up_spec d s W Hs) as S. rewrite H in S. cbn in S. tauto. Qed.
Lemma small_wf : forall n, 0 <= n < 2 ^ 64 -> wf (from_u64 n).
Proof. intros n H. split; cbn; lia. Qed.
Lemma min_wf : forall a b c, d_min a b = Ok c -> wf a -> wf b -> wf c.
Proof. intros a b c H Wa Wb. unfold d_min in H. msteps. destruct v; auto. Qed.
Lemma max_wf : forall a b c, d_max a b = Ok c -> wf a -> wf b -> wf c.
Proof. intros a b c H Wa Wb. unfold d_max in H. msteps. destruct v; auto. Qed.
Lemma abs_nn : forall d n, d_abs d = Ok n -> wf d -> 0 <= n.
Proof. intros d n H W. pose proof (abs_spec d W) as S. rewrite H in S. cbn in S. tauto. Qed.

Lemma pow_dec_nn_wf : forall fb d e c, d_pow_dec_nonneg fb d e = Ok c -> wf d -> wf e ->
  (forall e' c', wf e' -> fb e' = Ok c' -> wf c') -> wf c.
Proof.
  intros fb d e c H Wd We Hfb. unfold d_pow_dec_nonneg in H. pose proof Wd as [_ Sd].
  apply bind_ok in H. destruct H as [one [E0 H]]. destruct (to_scale_wf _ _ _ E0 (small_wf 1 ltac:(lia)) ltac:(lia)) as [W1 _].
  do 8 (apply bind_ok in H; destruct H as [? [? H]]).
  repeat match type of H with
  | (if is_zero _ then _ else _) = _ => destruct (is_zero e); [msteps; auto |]
  | bind (unwrap (d_eq _ _)) _ = _ => apply bind_ok in H; destruct H as [[] [_ H]]
  | bind (is_integer _) _ = _ => apply bind_ok in H; destruct H as [[] [_ H]]
  | (if ?b then _ else _) = _ => destruct b eqn:?
  end; cbn [andb] in *; msteps; auto;
  repeat match goal with
  | H : d_sqrt ?d = Ok ?c |- _ => lazymatch goal with _ : wf c |- _ => fail | _ => assert (wf c) by (eapply sqrt_wf; eauto) end
  | H : d_abs ?d = Ok ?c |- _ => lazymatch goal with _ : 0 <= c |- _ => fail | _ => assert (0 <= c) by (eapply abs_nn; eauto) end
  | H : d_pow ?d ?n = Ok ?c |- _ => lazymatch goal with _ : wf c |- _ => fail | _ => assert (wf c) by (eapply pow_wf; eauto) end
  | H : fb ?x = Ok ?c |- _ => lazymatch goal with _ : wf c |- _ => fail | _ => assert (wf c) by (eapply Hfb; [| exact H]; destruct We; split; auto) end
  end; auto; try (eapply mul_wf'; eauto; fail); try (eapply div_wf; eauto; fail); try (eapply pow_wf; eauto; fail).
Qed.
Lemma pow_dec_wf : forall d e c, d_pow_dec d e = Ok c -> wf d -> wf e -> wf c.
Proof.
  intros d e c H Wd We. unfold d_pow_dec in H. eapply pow_dec_nn_wf; [exact H | | |]; auto.
  intros e' c' We' H'. cbn in H'. eapply pow_dec_nn_wf; [exact H' | | |]; auto. intros. discriminate.
Qed.

Lemma log_table_nn : forall r c, 0 <= log_table r c.
Proof.
  intros r c. unfold log_table.
  assert (G : forall row, In row log_table_data -> forall n, 0 <= nth n row 0).
  { intros row Hr n. assert (Forall (Forall (fun v => 0 <= v)) log_table_data) as F by (unfold log_table_data; repeat constructor; lia).
    rewrite Forall_forall in F. specialize (F row Hr). rewrite Forall_forall in F.
    destruct (Nat.lt_ge_cases n (length row)); [apply F, nth_In; auto | rewrite nth_overflow; auto; lia]. }
  destruct (Nat.lt_ge_cases (Z.to_nat r) (length log_table_data)).
  - apply G. apply nth_In. auto.
  - rewrite (nth_overflow log_table_data) by auto. destruct (Z.to_nat c); cbn; lia.
Qed.
Lemma ln_cols_nn : forall n col s t acc r, ln_cols n col s t acc = Ok r -> 0 <= acc < U128 -> 0 <= r < U128.
Proof.
  induction n; intros col s t acc r H Ha; cbn [ln_cols] in H; msteps; auto.
  destruct v as [[s' t'] lx]. msteps. unfold log_table_value in E. msteps.
  eapply IHn; [exact H |]. split; [| auto]. destruct (_ =? 0); [lia |]. destruct (_ && _); [match goal with |- context [log_table ?a ?b] => pose proof (log_table_nn a b) end |]; lia.
Qed.
Lemma ln_wf : forall orc d c, d_ln orc d = Ok c -> wf d -> wf c /\ dscale c = dscale d.
Proof.
  intros orc d c H W. unfold d_ln in H. destruct (is_negative d) eqn:N; [discriminate |]. msteps.
  destruct (to_scale_wf _ _ _ E W ltac:(unfold COMPUTE_SCALE; lia)) as [Ws Ss].
  assert (Wb : wf v0).
  { unfold bit_length in E0. rewrite N in E0. destruct (is_zero d); [msteps; split; cbn; lia |].
    destruct (orc (dval d) (dscale d)) as [x neg]. msteps.
    assert (Wx : wf (mkD (sat_u128 x) (dscale d) neg)) by (destruct W; split; cbn; auto; unfold sat_u128, U128; lia).
    match goal with H : (if neg then _ else _) = Ok ?z |- _ => assert (Wz : wf z);
      [destruct neg; [destruct (to_scale_up_wf _ _ _ H Wx ltac:(lia)) | destruct (to_scale_wf _ _ _ H Wx ltac:(lia))]; auto | destruct Wz] end.
    split; cbn; auto; lia. }
  destruct (to_scale_wf _ _ _ E1 (small_wf 2 ltac:(lia)) ltac:(lia)) as [W2 _].
  destruct (to_scale_wf _ _ _ E2 Wb ltac:(lia)) as [W6 _].
  pose proof (pow_dec_wf _ _ _ E3 W2 W6) as W7.
  pose proof (ln_cols_nn _ _ _ _ _ _ E5 ltac:(unfold U128; lia)) as L.
  assert (Wp : wf v6) by (eapply mul_wf'; [exact E6 | split; cbn; lia | auto]).
  assert (Wq : wf v7) by (eapply add_wf; [exact E7 | auto | split; cbn; unfold U128 in *; lia]).
  destruct W as [_ W]. eapply to_scale_wf; eauto.
Qed.

(** One saturation step: derive [wf] of results from [wf] of arguments. *)
Ltac wf_new c tac := lazymatch goal with _ : wf c |- _ => fail | _ => assert (wf c) by tac end.
Ltac wf1 :=
  match goal with
  | H : d_add ?a ?b = Ok ?c |- _ => wf_new c ltac:(eapply add_wf; [exact H | assumption | assumption])
  | H : d_sub ?a ?b = Ok ?c |- _ => wf_new c ltac:(eapply sub_wf; [exact H | assumption | assumption])
  | H : d_mul ?a ?b = Ok ?c |- _ => wf_new c ltac:(eapply mul_wf'; [exact H | assumption | assumption])
  | H : d_div ?a ?b = Ok ?c |- _ => wf_new c ltac:(eapply div_wf; [exact H | assumption | assumption])
  | H : d_pow_dec ?a ?b = Ok ?c |- _ => wf_new c ltac:(eapply pow_dec_wf; [exact H | assumption | assumption])
  | H : d_ln ?o ?a = Ok ?c |- _ => wf_new c ltac:(eapply ln_wf; [exact H | assumption])
  | H : d_min ?a ?b = Ok ?c |- _ => wf_new c ltac:(eapply min_wf; [exact H | assumption | assumption])
  | H : d_max ?a ?b = Ok ?c |- _ => wf_new c ltac:(eapply max_wf; [exact H | assumption | assumption])
  | H : wf ?a |- context [d_neg ?a] => wf_new (d_neg a) ltac:(apply neg_wf; assumption)
  | H : wf ?a, _ : context [d_neg ?a] |- _ => wf_new (d_neg a) ltac:(apply neg_wf; assumption)
  end.
Ltac wfs := repeat wf1.

Lemma zero_eq : m_zero = Ok (mkD 0 12 false). Proof. reflexivity. Qed.
Lemma one_eq : m_one = Ok (mkD (10 ^ 12) 12 false). Proof. reflexivity. Qed.
Lemma zero_wf : wf (mkD 0 12 false). Proof. split; cbn; lia. Qed.
Lemma one12_wf : wf (mkD (10 ^ 12) 12 false). Proof. split; cbn; lia. Qed.
