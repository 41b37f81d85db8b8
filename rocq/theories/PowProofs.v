(** Integer powers. *)
From Coq Require Import ZArith QArith Qabs Qpower Bool Lia Lqa.
From Verif Require Import Base BaseLemmas DecimalModel DecimalSpec DecimalProofs.
Open Scope Z_scope.

(** Integer form of a multiplication of equal-scale decimals. *)
Lemma mul_ok_inv : forall a b c, wf a -> wf b -> d_mul a b = Ok c ->
  dval c = dval a * dval b / 10 ^ dscale b /\ dscale c = dscale a /\ dneg c = xorb (dneg a) (dneg b) /\
  dval c * 10 ^ dscale b <= dval a * dval b < (dval c + 1) * 10 ^ dscale b /\
  0 <= dval c /\ dval a * dval b < 2 ^ 128 /\ dscale b <= 38.
Proof.
  intros a b c [Ha Hsa] [Hb Hsb] H. unfold d_mul, denominator in H. msteps. cbn [dval dscale dneg].
  pose proof (pow10_pos (dscale b) ltac:(lia)) as Hp.
  destruct (div_bounds (dval a * dval b) (10 ^ dscale b) ltac:(nia) Hp) as [B1 B2].
  repeat split; auto; try lia. unfold sign_mul. destruct (dneg a), (dneg b); reflexivity.
Qed.

Lemma mul_wf : forall a b c, wf a -> wf b -> d_mul a b = Ok c -> wf c.
Proof.
  intros a b c Wa Wb H. pose proof (mul_spec a b Wa Wb) as S. rewrite H in S. cbn in S. tauto.
Qed.

Lemma mul_not_err : forall a b e, d_mul a b <> Err e.
Proof.
  intros a b e. unfold d_mul, cmul, denominator, pow10, cdiv. destruct (_ <? _); cbn; try discriminate.
  destruct (_ <=? _); cbn; try discriminate. destruct (_ =? _); cbn; discriminate.
Qed.
Lemma mul_not_nofuel : forall a b, d_mul a b <> NoFuel.
Proof.
  intros a b. unfold d_mul, cmul, denominator, pow10, cdiv. destruct (_ <? _); cbn; try discriminate.
  destruct (_ <=? _); cbn; try discriminate. destruct (_ =? _); cbn; discriminate.
Qed.

Lemma pow_loop_res : forall e b r, (exists c, pow_loop e b r = Ok c) \/ pow_loop e b r = Panic.
Proof.
  assert (M : forall a b, (exists c, d_mul a b = Ok c) \/ d_mul a b = Panic).
  { intros a b. destruct (d_mul a b) eqn:E; eauto; exfalso;
      [eapply mul_not_err | eapply mul_not_nofuel]; eauto. }
  induction e; intros b r; cbn [pow_loop].
  - destruct (M r b) as [[r' ->] | ->]; cbn [bind]; auto. destruct (M b b) as [[b' ->] | ->]; cbn [bind]; auto.
  - destruct (M b b) as [[b' ->] | ->]; cbn [bind]; auto.
  - destruct (M r b) as [[r' ->] | ->]; cbn [bind]; auto. destruct (M b b) as [[b' ->] | ->]; cbn [bind]; eauto.
Qed.

Definition odd_pos (e : positive) : bool := match e with xO _ => false | _ => true end.

Lemma pow_loop_spec : forall e b r c s, wf b -> wf r -> dscale b = s -> dscale r = s ->
  pow_loop e b r = Ok c ->
  wf c /\ dscale c = s /\ dneg c = xorb (dneg r) (odd_pos e && dneg b) /\
  dval c * 10 ^ (s * Zpos e) <= dval r * dval b ^ Zpos e.
Proof.
  induction e; intros b r c s Wb Wr Hb Hr H; cbn [pow_loop] in H.
  - apply bind_ok in H. destruct H as [r' [E1 H]]. apply bind_ok in H. destruct H as [b' [E2 H]].
    pose proof (mul_wf _ _ _ Wr Wb E1) as Wr'. pose proof (mul_wf _ _ _ Wb Wb E2) as Wb'.
    apply mul_ok_inv in E1; auto. apply mul_ok_inv in E2; auto.
    destruct E1 as [_ [S1 [N1 [[L1 _] [P1 _]]]]]. destruct E2 as [_ [S2 [N2 [[L2 _] [P2 _]]]]].
    apply (IHe b' r' c s) in H; try congruence. destruct H as [Wc [Sc [Nc Lc]]].
    split; auto. split; auto. split.
    { rewrite Nc, N1, N2. cbn. destruct e, (dneg r), (dneg b); reflexivity. }
    rewrite Hb in L1, L2. destruct Wb as [Vb Sb], Wr as [Vr Sr].
    assert (Hs : 0 <= s) by lia. set (p := 10 ^ s) in *. assert (Hp : 0 < p) by (apply pow10_pos; auto).
    assert (Epow : 10 ^ (s * Z.pos e~1) = p * (p ^ Z.pos e * p ^ Z.pos e)).
    { unfold p. rewrite <- !Z.pow_mul_r, <- !Z.pow_add_r by nia. f_equal. lia. }
    assert (Epow1 : 10 ^ (s * Z.pos e) = p ^ Z.pos e) by (unfold p; rewrite <- Z.pow_mul_r by lia; reflexivity).
    rewrite Epow1 in Lc. rewrite Epow. clear Epow Epow1.
    assert (Ebb : dval b ^ Z.pos e~1 = dval b * (dval b * dval b) ^ Z.pos e).
    { rewrite Z.pow_mul_l. replace (Z.pos e~1) with (1 + (Z.pos e + Z.pos e)) by lia.
      rewrite !Z.pow_add_r by lia. rewrite Z.pow_1_r. ring. }
    rewrite Ebb.
    assert (Q1 : (dval b' * p) ^ Z.pos e <= (dval b * dval b) ^ Z.pos e) by (apply Z.pow_le_mono_l; nia).
    rewrite Z.pow_mul_l in Q1.
    assert (0 < p ^ Z.pos e) by (apply Z.pow_pos_nonneg; lia).
    assert (0 <= dval b' ^ Z.pos e) by (apply Z.pow_nonneg; lia).
    set (bb := (dval b * dval b) ^ Z.pos e) in *. set (b'e := dval b' ^ Z.pos e) in *. set (pe := p ^ Z.pos e) in *.
    apply Z.le_trans with (dval r' * b'e * (p * pe)).
    { replace (dval c * (p * (pe * pe))) with (dval c * pe * (p * pe)) by ring.
      apply Z.mul_le_mono_nonneg_r; nia. }
    replace (dval r' * b'e * (p * pe)) with ((dval r' * p) * (b'e * pe)) by ring.
    replace (dval r * (dval b * bb)) with ((dval r * dval b) * bb) by ring.
    apply Z.mul_le_mono_nonneg; nia.
  - apply bind_ok in H. destruct H as [b' [E2 H]].
    pose proof (mul_wf _ _ _ Wb Wb E2) as Wb'.
    apply mul_ok_inv in E2; auto. destruct E2 as [_ [S2 [N2 [[L2 _] [P2 _]]]]].
    apply (IHe b' r c s) in H; try congruence. destruct H as [Wc [Sc [Nc Lc]]].
    split; auto. split; auto. split.
    { rewrite Nc, N2. cbn. destruct e, (dneg r), (dneg b); reflexivity. }
    rewrite Hb in L2. destruct Wb as [Vb Sb], Wr as [Vr Sr].
    assert (Hs : 0 <= s) by lia. set (p := 10 ^ s) in *. assert (Hp : 0 < p) by (apply pow10_pos; auto).
    assert (Epow : 10 ^ (s * Z.pos e~0) = p ^ Z.pos e * p ^ Z.pos e).
    { unfold p. rewrite <- !Z.pow_mul_r, <- !Z.pow_add_r by nia. f_equal. lia. }
    assert (Epow1 : 10 ^ (s * Z.pos e) = p ^ Z.pos e) by (unfold p; rewrite <- Z.pow_mul_r by lia; reflexivity).
    rewrite Epow1 in Lc. rewrite Epow. clear Epow Epow1.
    assert (Ebb : dval b ^ Z.pos e~0 = (dval b * dval b) ^ Z.pos e).
    { rewrite Z.pow_mul_l. replace (Z.pos e~0) with (Z.pos e + Z.pos e) by lia.
      rewrite !Z.pow_add_r by lia. reflexivity. }
    rewrite Ebb.
    assert (Q1 : (dval b' * p) ^ Z.pos e <= (dval b * dval b) ^ Z.pos e) by (apply Z.pow_le_mono_l; nia).
    rewrite Z.pow_mul_l in Q1.
    assert (0 < p ^ Z.pos e) by (apply Z.pow_pos_nonneg; lia).
    assert (0 <= dval b' ^ Z.pos e) by (apply Z.pow_nonneg; lia).
    set (bb := (dval b * dval b) ^ Z.pos e) in *. set (b'e := dval b' ^ Z.pos e) in *. set (pe := p ^ Z.pos e) in *.
    apply Z.le_trans with (dval r * b'e * pe).
    { rewrite Z.mul_assoc. apply Z.mul_le_mono_nonneg_r; nia. }
    rewrite <- Z.mul_assoc. apply Z.mul_le_mono_nonneg_l; nia.
  - apply bind_ok in H. destruct H as [r' [E1 H]]. apply bind_ok in H. destruct H as [b' [E2 H]].
    injection H as <-. pose proof (mul_wf _ _ _ Wr Wb E1) as Wr'.
    apply mul_ok_inv in E1; auto. destruct E1 as [_ [S1 [N1 [[L1 _] [P1 _]]]]].
    split; auto. split; [congruence |]. split; [exact N1 |]. rewrite Z.mul_1_r, Z.pow_1_r. congruence.
Qed.

Lemma one_wf : forall d, wf d -> dscale d <= 38 -> wf (mkD (10 ^ dscale d) (dscale d) (dneg d)).
Proof.
  intros d [Hv Hs] H. split; cbn; auto. split; [apply Z.pow_nonneg; lia |].
  apply Z.le_lt_trans with (10 ^ 38); [apply Z.pow_le_mono_r; lia | reflexivity].
Qed.

Lemma num_pow : forall d n, wf d -> 0 <= n ->
  (num d ^ n == inject_Z (mant d ^ n) / inject_Z (10 ^ (dscale d * n)))%Q.
Proof.
  intros d n [Hv Hs] Hn. unfold num. rewrite Qdiv_power. rewrite <- !Zpower_Qpower by auto.
  rewrite <- Z.pow_mul_r by lia. reflexivity.
Qed.

Lemma pow_spec : forall d n, wf d -> 0 <= n ->
  returns_or_panics (d_pow d n)
    (fun c => wf c /\ dscale c = dscale d /\ dneg c = (dneg d && Z.even n) /\ (Qabs (num c) <= Qabs (num d) ^ n)%Q)
    True.
Proof.
  intros d n W Hn. pose proof W as [Hv Hs].
  unfold d_pow, denominator, pow10. destruct (dscale d <=? 38) eqn:E; cbn [bind returns_or_panics]; auto. b2p.
  pose proof (one_wf d W E) as W1. pose proof (pow10_pos (dscale d) ltac:(lia)) as Hp.
  assert (AbsPow : forall c, wf c -> dscale c = dscale d ->
    dval c * 10 ^ (dscale d * n) <= 10 ^ dscale d * dval d ^ n -> (Qabs (num c) <= Qabs (num d) ^ n)%Q).
  { intros c Wc Sc L. rewrite (num_abs c Wc), (num_abs d W), Sc. rewrite Qdiv_power, <- !Zpower_Qpower by auto.
    rewrite <- Z.pow_mul_r by lia. apply frac_le; auto; [apply pow10_pos; nia | lia]. }
  destruct n as [| e | e]; [| | lia].
  - cbn [returns_or_panics]. split; auto. split; auto. split; [cbn; rewrite andb_true_r; reflexivity |].
    apply AbsPow; auto. cbn. rewrite Z.mul_0_r. lia.
  - destruct (pow_loop_res e d (mkD (10 ^ dscale d) (dscale d) (dneg d))) as [[c Hc] | Hc]; rewrite Hc; cbn; auto.
    apply (pow_loop_spec e d _ c (dscale d)) in Hc; auto. destruct Hc as [Wc [Sc [Nc Lc]]].
    split; auto. split; auto. split; [rewrite Nc; destruct e, (dneg d); reflexivity |]. apply AbsPow; auto.
Qed.

Lemma pow_zero : forall d, wf d -> dneg d = false ->
  returns_or_panics (d_pow d 0) (fun c => (num c == 1)%Q) (38 < dscale d).
Proof.
  intros d [Hv Hs] Hd. unfold d_pow, denominator, pow10. destruct (dscale d <=? 38) eqn:E; cbn; b2p; auto.
  rewrite Hd. unfold num; cbn. pose proof (pow10_pos (dscale d) ltac:(lia)).
  unfold Qdiv. rewrite Qmult_inv_r; [reflexivity | apply inject_nz; auto].
Qed.

Lemma pow_one : forall d, wf d -> dneg d = false ->
  returns_or_panics (d_pow d 1) (fun c => c = d) (38 < dscale d \/ 2 ^ 128 <= dval d * Z.max (dval d) (10 ^ dscale d)).
Proof.
  intros d [Hv Hs] Hd. unfold d_pow, denominator, pow10. pose proof (pow10_pos (dscale d) ltac:(lia)) as Hp.
  destruct (dscale d <=? 38) eqn:E; cbn [bind returns_or_panics pow_loop]; b2p; auto.
  unfold d_mul, denominator, pow10. cbn [dval dscale dneg].
  replace (dscale d <=? 38) with true by (symmetry; apply Z.leb_le; auto).
  unfold cmul at 1. destruct (_ <? U128) eqn:E1; cbn [bind returns_or_panics]; b2p; unfold U128 in *.
  - rewrite cdiv_Ok by lia. cbn [bind]. rewrite Z.mul_comm, Z.div_mul by lia.
    unfold cmul. destruct (_ <? U128) eqn:E2; cbn [bind returns_or_panics]; b2p; unfold U128 in *.
    + rewrite cdiv_Ok by lia. cbn [bind returns_or_panics]. destruct d as [v s ng]; cbn in *. subst ng. reflexivity.
    + right. nia.
  - right. nia.
Qed.

(** A base not above one at a scale of at most 19 digits never panics. *)
Lemma mul_le_one : forall a b s, wf a -> wf b -> dscale a = s -> dscale b = s -> s <= 19 ->
  dval a <= 10 ^ s -> dval b <= 10 ^ s -> exists c, d_mul a b = Ok c /\ wf c /\ dscale c = s /\ dval c <= 10 ^ s.
Proof.
  intros a b s Wa Wb Ha Hb Hs La Lb. pose proof Wa as [Va Sa]. pose proof Wb as [Vb Sb].
  pose proof (mul_spec a b Wa Wb) as S. destruct (d_mul a b) eqn:E; cbn in S; try tauto.
  - exists a0. apply mul_ok_inv in E; auto. destruct E as [_ [E1 [_ [[E2 _] [E3 _]]]]].
    destruct S as [S1 _]. split; auto. split; auto. split; [congruence |]. rewrite Hb in E2.
    pose proof (pow10_pos s ltac:(lia)). nia.
  - exfalso. assert (P : 10 ^ s <= 10 ^ 19) by (apply Z.pow_le_mono_r; lia).
    assert (Q : dval a * dval b <= 10 ^ 19 * 10 ^ 19) by (apply Z.mul_le_mono_nonneg; lia).
    assert (10 ^ 19 * 10 ^ 19 < 2 ^ 128) by reflexivity. lia.
Qed.

Lemma pow_le_one_total : forall d n, wf d -> dscale d <= 19 -> dval d <= 10 ^ dscale d -> exists c, d_pow d n = Ok c.
Proof.
  intros d n W Hs Hd. pose proof W as [Hv Hsc]. unfold d_pow, denominator. rewrite pow10_Ok by lia. cbn [bind].
  destruct n as [| e | e]; eauto.
  assert (G : forall e b r, wf b -> wf r -> dscale b = dscale d -> dscale r = dscale d -> dval b <= 10 ^ dscale d ->
     dval r <= 10 ^ dscale d -> exists c, pow_loop e b r = Ok c).
  { clear e. induction e; intros b r Wb Wr Sb Sr Lb Lr; cbn [pow_loop].
    - destruct (mul_le_one r b (dscale d)) as [r' [-> [Wr' [Sr' Lr']]]]; auto. cbn [bind].
      destruct (mul_le_one b b (dscale d)) as [b' [-> [Wb' [Sb' Lb']]]]; auto. cbn [bind]. auto.
    - destruct (mul_le_one b b (dscale d)) as [b' [-> [Wb' [Sb' Lb']]]]; auto. cbn [bind]. auto.
    - destruct (mul_le_one r b (dscale d)) as [r' [-> [Wr' [Sr' Lr']]]]; auto. cbn [bind].
      destruct (mul_le_one b b (dscale d)) as [b' [-> [Wb' [Sb' Lb']]]]; auto. cbn [bind]. eauto. }
  apply G; auto; [apply one_wf; auto; lia | cbn; lia].
Qed.
