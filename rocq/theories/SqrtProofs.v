(** Square root: termination and accuracy of the Newton iteration. *)
From Coq Require Import ZArith QArith Qabs Bool Lia Lqa.
From Verif Require Import Base BaseLemmas DecimalModel DecimalSpec DecimalProofs.
Open Scope Z_scope.

(** ** Square root *)
Definition is_isqrt (n s : Z) : Prop := 0 <= s /\ s * s <= n < (s + 1) * (s + 1).

Section Newton.
  Variable n s : Z.
  Hypothesis Hn : 4 <= n < 2 ^ 128.
  Hypothesis Hs : is_isqrt n s.

  Let s_ge2 : 2 <= s.
  Proof. destruct Hs. nia. Qed.

  Let newton (y : Z) : Z := (y + n / y) / 2.

  Lemma newton_ge : forall y, 2 <= y -> s <= newton y.
  Proof.
    intros y Hy. unfold newton. destruct Hs as [_ [H1 _]].
    apply Z.div_le_lower_bound; [lia |].
    pose proof (Z.div_mod n y ltac:(lia)). pose proof (Z.mod_pos_bound n y ltac:(lia)).
    set (q := n / y) in *. assert (0 <= q) by (unfold q; apply Z.div_pos; lia).
    (* (y + q)^2 >= 4 y q > 4 (n - y) *)
    assert (n < y * (q + 1)) by nia.
    assert (s * s < y * (q + 1)) by lia.
    destruct (Z_le_gt_dec (2 * s) (y + q)) as [L | G]; [lia |].
    assert (y + (q + 1) <= 2 * s) by lia.
    assert (4 * (y * (q + 1)) <= (y + (q + 1)) * (y + (q + 1)))
      by (pose proof (Z.square_nonneg (y - (q + 1))); lia).
    assert ((y + (q + 1)) * (y + (q + 1)) <= (2 * s) * (2 * s)) by (apply Z.square_le_mono_nonneg; lia).
    lia.
  Qed.

  Lemma newton_dec : forall y, s < y -> newton y < y.
  Proof.
    intros y Hy. unfold newton. destruct Hs as [_ [_ H2]]. apply Z.div_lt_upper_bound; [lia |].
    assert (n / y <= s); [| lia]. assert (n / y < s + 1); [| lia]. apply Z.div_lt_upper_bound; nia.
  Qed.

  Lemma newton_big : forall y, 2 <= y < 2 ^ 127 -> y + n / y < 2 ^ 128 /\ newton y < 2 ^ 127.
  Proof.
    intros y Hy. assert (n / y < 2 ^ 127) by (apply Z.div_lt_upper_bound; nia).
    split; [lia |]. unfold newton. apply Z.div_lt_upper_bound; lia.
  Qed.

  Let start : Z := n / 2 ^ (bits_u128 n / 2).

  Lemma start_ge2 : 2 <= start /\ start < 2 ^ 127.
  Proof.
    unfold start, bits_u128. replace (n =? 0) with false by (symmetry; apply Z.eqb_neq; lia).
    set (k := Z.log2 n). pose proof (Z.log2_spec n ltac:(lia)) as [L1 L2]. fold k in L1, L2.
    assert (Hk : 2 <= k).
    { change 2 with (Z.log2 4). unfold k. apply Z.log2_le_mono. lia. }
    set (m := (k + 1) / 2). assert (Hm : 2 * m <= k + 1 < 2 * m + 2).
    { unfold m. pose proof (Z.div_mod (k + 1) 2 ltac:(lia)). pose proof (Z.mod_pos_bound (k + 1) 2 ltac:(lia)). lia. }
    assert (Hp : 0 < 2 ^ m) by (apply Z.pow_pos_nonneg; lia).
    assert (1 <= m) by lia.
    split.
    - apply Z.div_le_lower_bound; auto.
      assert (2 ^ m * 2 <= 2 ^ k); [| lia].
      rewrite Z.mul_comm. rewrite <- Z.pow_succ_r by lia. apply Z.pow_le_mono_r; lia.
    - apply Z.div_lt_upper_bound; auto.
      assert (2 ^ 1 <= 2 ^ m) by (apply Z.pow_le_mono_r; lia). rewrite Z.pow_1_r in H0. nia.
  Qed.

  (* States of the loop: initial, or produced by a Newton step. *)
  Let P (st : Z * Z) : Prop :=
    let '(y, y0) := st in
    2 <= y < 2 ^ 127 /\ ((y0 = 0 /\ y = start) \/ (2 <= y0 /\ y = newton y0 /\ s <= y)).
  Let mu (st : Z * Z) : Z :=
    let '(y, y0) := st in
    if y0 =? 0 then 2 ^ 129 else if Z.abs (y - y0) <=? 1 then 0 else y + 1.

  Lemma sqrt_step_eq : forall y y0, P (y, y0) ->
    sqrt_step n (y, y0) = if 1 <? Z.abs (y - y0) then inl (newton y, y) else inr (Ok y).
  Proof.
    intros y y0 [Hy _]. unfold sqrt_step. rewrite cdiv_Ok by lia. cbn [bind].
    destruct (newton_big y Hy). rewrite cadd_Ok by (unfold U128; lia).
    destruct (y0 <? y) eqn:E1; destruct (1 <? y - y0) eqn:E2; destruct (y <? y0) eqn:E3; destruct (1 <? y0 - y) eqn:E4;
      destruct (1 <? Z.abs (y - y0)) eqn:E5; cbn; b2p; try reflexivity; exfalso; lia.
  Qed.

  Lemma sqrt_step_next : forall st st', P st -> sqrt_step n st = inl st' -> P st' /\ mu st' < mu st.
  Proof.
    intros [y y0] st' HP H. rewrite sqrt_step_eq in H by auto. destruct HP as [Hy HP].
    destruct (1 <? Z.abs (y - y0)) eqn:E; [| discriminate]. injection H as <-. b2p.
    pose proof (newton_ge y ltac:(lia)) as Hge. destruct (newton_big y Hy) as [_ Hb].
    split; [split; [lia |]; right; repeat split; lia |].
    cbn [mu]. replace (y =? 0) with false by (symmetry; apply Z.eqb_neq; lia).
    destruct (y0 =? 0) eqn:E0; b2p.
    { destruct (_ <=? 1); lia. }
    assert (Z.abs (newton y - y) <= 1 \/ newton y < y).
    { destruct (Z_lt_le_dec s y) as [L | L]; [right; apply newton_dec; auto |].
      destruct HP as [[-> _] | [_ [_ Hsy]]]; [lia |]. assert (y = s) by lia. subst y.
      left. unfold newton. destruct Hs as [_ [H1 H2]].
      assert (s <= n / s) by (apply Z.div_le_lower_bound; lia).
      assert (n / s < s + 3) by (apply Z.div_lt_upper_bound; nia).
      assert (s <= (s + n / s) / 2) by (apply Z.div_le_lower_bound; lia).
      assert ((s + n / s) / 2 < s + 2) by (apply Z.div_lt_upper_bound; lia). lia. }
    destruct (Z.abs (newton y - y) <=? 1) eqn:E2, (Z.abs (y - y0) <=? 1) eqn:E3; b2p; lia.
  Qed.

  Lemma sqrt_step_done : forall st r, P st -> sqrt_step n st = inr r -> exists y, r = Ok y /\ s <= y <= s + 1.
  Proof.
    intros [y y0] r HP H. rewrite sqrt_step_eq in H by auto. destruct HP as [Hy HP].
    destruct (1 <? Z.abs (y - y0)) eqn:E; [discriminate |]. injection H as <-. b2p. exists y. split; auto.
    destruct HP as [[-> _] | [H2 [Hyn Hsy]]]; [lia |]. split; auto.
    destruct (Z_lt_le_dec s y0) as [L | L]; [| lia].
    pose proof (newton_dec y0 L). assert (y = y0 - 1) by lia.
    assert (n / y0 <= s).
    { assert (n / y0 < s + 1); [| lia]. destruct Hs as [_ [_ H3]]. apply Z.div_lt_upper_bound; nia. }
    assert (2 * y <= y0 + n / y0).
    { rewrite Hyn. unfold newton. pose proof (Z.div_mod (y0 + n / y0) 2 ltac:(lia)).
      pose proof (Z.mod_pos_bound (y0 + n / y0) 2 ltac:(lia)). lia. }
    lia.
  Qed.

  Lemma sqrt_loop : exists y, loop2 130 (sqrt_step n) (start, 0) = Ok y /\ s <= y <= s + 1.
  Proof.
    assert (P0 : P (start, 0)) by (destruct start_ge2; split; [lia |]; left; auto).
    destruct (iter2_measure _ _ P mu (sqrt_step n) sqrt_step_next) with (d := 130%nat) (s := (start, 0)) as [r Hr]; auto.
    - intros [y y0] [Hy _]. cbn. destruct (y0 =? 0); [lia |]. destruct (_ <=? 1); lia.
    - cbn. vm_compute. reflexivity.
    - unfold loop2. rewrite Hr.
      pose proof (iter2_inv _ _ P (sqrt_step n) (fun a b h e => proj1 (sqrt_step_next a b h e)) 130 _ P0) as HI.
      rewrite Hr in HI. destruct HI as [st [HP Hst]]. apply (sqrt_step_done st r HP) in Hst.
      destruct Hst as [y [-> Hy]]. exists y; auto.
  Qed.
End Newton.

Lemma isqrt_exists : forall n, 0 <= n -> is_isqrt n (Z.sqrt n).
Proof. intros n H. unfold is_isqrt. pose proof (Z.sqrt_spec n H). pose proof (Z.sqrt_nonneg n). unfold Z.succ in *. lia. Qed.

Lemma sqrt_loop_small : forall n, 0 <= n < 4 ->
  loop2 130 (sqrt_step n) (n / 2 ^ (bits_u128 n / 2), 0) = Ok (Z.sqrt n).
Proof.
  intros n H. assert (C : n = 0 \/ n = 1 \/ n = 2 \/ n = 3) by lia.
  destruct C as [-> | [-> | [-> | ->]]]; reflexivity.
Qed.

Lemma sqrt_spec : forall d, wf d ->
  match d_sqrt d with
  | Ok r => dscale r = dscale d /\ dneg r = dneg d /\ wf r /\
            exists s, is_isqrt (dval d * 10 ^ dscale d) s /\ s <= dval r <= s + 1
  | Err e => e = ExceedsPrecisionRange /\ 2 ^ 128 <= dval d * 10 ^ dscale d
  | Panic => 38 < dscale d
  | NoFuel => False
  end.
Proof.
  intros d W. pose proof W as [Hv Hs]. pose proof (pow10_pos (dscale d) ltac:(lia)) as Hp.
  unfold d_sqrt, to_scale. replace (dscale d <? dscale (from_u128 1)) with false by (symmetry; apply Z.ltb_ge; cbn; lia).
  cbn [from_u128 dscale dval dneg]. rewrite Z.sub_0_r. unfold denominator, pow10.
  destruct (dscale d <=? 38) eqn:E38; cbn [bind]; b2p; [| lia].
  assert (P38 : 10 ^ dscale d <= 10 ^ 38) by (apply Z.pow_le_mono_r; lia).
  rewrite cmul_Ok by (unfold U128; rewrite Z.mul_1_l; eapply Z.le_lt_trans; [apply P38 |]; reflexivity).
  rewrite Z.mul_1_l. cbn [bind].
  unfold d_eq at 1. cbn [dscale]. rewrite Z.eqb_refl. cbn [negb unwrap bind dval dneg].
  destruct ((dval d =? 0) && Bool.eqb (dneg d) false) eqn:E0; cbn [bind].
  { b2p. apply eqb_prop in H0. repeat split; auto; try lia. exists 0. rewrite H. split; [| lia]. unfold is_isqrt. lia. }
  unfold d_eq at 1. cbn [dscale]. rewrite Z.eqb_refl. cbn [negb unwrap bind dval dneg].
  destruct ((dval d =? 10 ^ dscale d) && Bool.eqb (dneg d) false) eqn:E1; cbn [bind].
  { b2p. apply eqb_prop in H0. repeat split; auto; try lia. exists (dval d). rewrite <- H. split; [| lia].
    unfold is_isqrt. nia. }
  set (n := dval d * 10 ^ dscale d) in *. assert (Hn0 : 0 <= n) by (unfold n; nia).
  destruct (n <? U128) eqn:EN; cbn [negb]; b2p; unfold U128 in *; auto.
  assert (0 < 2 ^ (bits_u128 n / 2)).
  { apply Z.pow_pos_nonneg; [lia |]. apply Z.div_pos; [| lia]. unfold bits_u128. destruct (n =? 0); [lia |].
    pose proof (Z.log2_nonneg n). lia. }
  rewrite cdiv_Ok by lia. cbn [bind].
  assert (R : exists y, loop2 130 (sqrt_step n) (n / 2 ^ (bits_u128 n / 2), 0) = Ok y /\ Z.sqrt n <= y <= Z.sqrt n + 1).
  { destruct (Z_lt_le_dec n 4) as [L | L].
    - exists (Z.sqrt n). rewrite sqrt_loop_small by lia. split; auto. lia.
    - apply sqrt_loop; [lia | apply isqrt_exists; lia]. }
  destruct R as [y [-> Hy]]. cbn [bind]. pose proof (isqrt_exists n Hn0) as HI. pose proof HI as [HI0 [HI1 HI2]].
  assert (Z.sqrt n < 2 ^ 127) by nia.
  repeat split; cbn; try lia. exists (Z.sqrt n). split; auto.
Qed.

Lemma sqrt_negative : forall d r, wf d -> dneg d = true -> d_sqrt d = Ok r -> dneg r = true.
Proof. intros d r W Hd H. pose proof (sqrt_spec d W) as S. rewrite H in S. destruct S as [_ [E _]]. congruence. Qed.
