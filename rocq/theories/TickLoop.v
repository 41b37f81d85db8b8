(** Accuracy of tick prices against 1.0001^t, and the price-to-tick search loop. *)
From Coq Require Import ZArith QArith Qpower List Bool Lia Lqa.
From Verif Require Import Base BaseLemmas DecimalModel DecimalSpec DecimalProofs PowProofs MathModel TickProofs.
Import ListNotations.
Open Scope Z_scope.

Open Scope Q_scope.
Definition tb : Q := 10001 # 10000.
Definition eps : Q := 1 # 1000000000000.

Lemma tb_pos : 0 < tb. Proof. reflexivity. Qed.
Lemma qb_sq : qb * qb <= tb /\ tb * (1 - eps) <= qb * qb.
Proof. split; vm_compute; discriminate. Qed.

Lemma pow_succ_q : forall q n, ~ q == 0 -> q ^ (n + 1) == q ^ n * q.
Proof. intros q n H. rewrite Qpower_plus by auto. reflexivity. Qed.

Lemma sq_pow_bounds : forall n, (0 <= n)%Z -> inject_Z n * eps <= 1 ->
  0 < tb ^ n /\ qb ^ n * qb ^ n <= tb ^ n /\ tb ^ n * (1 - inject_Z n * eps) <= qb ^ n * qb ^ n.
Proof.
  intros n Hn. pattern n. apply Zlt_0_ind; auto. clear n Hn. intros x IH Hx Hb.
  destruct (Z.eq_dec x 0) as [-> | H]. { cbn. repeat split; try lra. unfold inject_Z. lra. }
  set (y := (x - 1)%Z) in *. assert (Ex : x = (y + 1)%Z) by (unfold y; lia).
  assert (Hy : (0 <= y < x)%Z) by (unfold y; lia).
  assert (Ei : inject_Z x == inject_Z y + 1) by (rewrite Ex, inject_Z_plus; reflexivity).
  assert (E0 : 0 <= inject_Z y) by (change 0 with (inject_Z 0); rewrite <- Zle_Qle; lia).
  assert (EP : 0 < eps) by reflexivity.
  rewrite Ei in Hb. destruct (IH y Hy ltac:(nra)) as [I1 [I2 I3]].
  rewrite Ei. rewrite Ex.
  rewrite !pow_succ_q by (try apply qb_nz; pose proof tb_pos; lra).
  destruct qb_sq as [S1 S2]. pose proof tb_pos. pose proof qb_pos. pose proof (qb_pow_ge1 y ltac:(lia)).
  set (T := tb ^ y) in *. set (Q := qb ^ y) in *. set (I := inject_Z y) in *.
  repeat split.
  - nra.
  - setoid_replace (Q * qb * (Q * qb)) with (Q * Q * (qb * qb)) by ring. nra.
  - setoid_replace (Q * qb * (Q * qb)) with ((Q * Q) * (qb * qb)) by ring.
    apply Qle_trans with (T * (1 - I * eps) * (tb * (1 - eps))).
    + setoid_replace (T * (1 - I * eps) * (tb * (1 - eps))) with (T * tb * (1 - (I + 1) * eps + I * (eps * eps))) by ring.
      assert (0 <= I * (eps * eps)) by nra. assert (0 <= T * tb) by nra. nra.
    + assert (0 <= 1 - I * eps) by lra. assert (0 <= tb * (1 - eps)) by (vm_compute; discriminate).
      apply Qmult_le_compat_nonneg; split; auto. apply Qmult_le_0_compat; lra.
Qed.

Lemma apx_accuracy : forall t v, (0 <= t <= 2 ^ 22)%Z -> apx t t v ->
  num (d12 v) * num (d12 v) <= tb ^ t /\ tb ^ t * (1 - 3 * inject_Z t * eps) <= num (d12 v) * num (d12 v).
Proof.
  intros t v Ht [A1 [A2 A3]]. set (p := d12 v).
  assert (N : num p * QS == inject_Z v).
  { unfold num, mant, p, d12, QS; cbn [dval dscale dneg]. unfold SC. field. apply inject_nz. reflexivity. }
  assert (T0 : 0 <= inject_Z t) by (change 0 with (inject_Z 0); rewrite <- Zle_Qle; lia).
  assert (T1 : inject_Z t <= 4194304) by (change 4194304 with (inject_Z (2 ^ 22)); rewrite <- Zle_Qle; lia).
  destruct (sq_pow_bounds t ltac:(lia)) as [B0 [B1 B2]]. { unfold eps. lra. }
  pose proof (qb_pow_ge1 t ltac:(lia)) as G. pose proof QS_pos as QP. pose proof QS_val as QV.
  assert (N1 : num p <= qb ^ t). { rewrite <- N in A2. nra. }
  assert (N2 : qb ^ t * (1 - inject_Z t * eps) <= num p).
  { rewrite <- N in A3. assert (EQ : QS * eps == 1) by reflexivity. 
    assert (qb ^ t * (1 - inject_Z t * eps) * (QS * QS) <= num p * (QS * QS)).
    { setoid_replace (qb ^ t * (1 - inject_Z t * eps) * (QS * QS)) with (QS * qb ^ t * (QS - inject_Z t * (QS * eps))) by ring.
      rewrite EQ, Qmult_1_r. lra. }
    apply Qmult_le_r in H; auto. }
  assert (P1 : 0 <= 1 - inject_Z t * eps) by (unfold eps; lra).
  assert (P0 : 0 <= num p) by nra.
  set (Q := qb ^ t) in *. set (T := tb ^ t) in *. set (I := inject_Z t) in *. set (w := num p) in *.
  split; [nra |].
  assert (M : Q * (1 - I * eps) * (Q * (1 - I * eps)) <= w * w).
  { apply Qmult_le_compat_nonneg; split; auto; nra. }
  apply Qle_trans with (Q * (1 - I * eps) * (Q * (1 - I * eps))); auto.
  setoid_replace (Q * (1 - I * eps) * (Q * (1 - I * eps))) with (Q * Q * ((1 - I * eps) * (1 - I * eps))) by ring.
  assert (EP : 0 < eps) by reflexivity.
  set (e := I * eps) in *. assert (0 <= e) by (unfold e; nra).
  setoid_replace (3 * I * eps) with (3 * e) by (unfold e; ring).
  apply Qle_trans with (T * (1 - e) * ((1 - e) * (1 - e))).
  - setoid_replace (T * (1 - e) * ((1 - e) * (1 - e))) with (T * (1 - 3 * e + e * e * (3 - e))) by ring.
    assert (0 <= e * e * (3 - e)) by (assert (0 <= e * e) by nra; nra). nra.
  - apply Qmult_le_compat_r; auto. nra.
Qed.

Lemma tick_accuracy : forall t p, (0 <= t < 2 ^ 19)%Z -> tick_to_rp t = Ok p ->
  num p * num p <= tb ^ t /\ tb ^ t * (1 - 3 * inject_Z t * eps) <= num p * num p.
Proof. intros t p Ht E. destruct (tick_apx t p Ht E) as [-> A]. apply apx_accuracy; auto. lia. Qed.
Close Scope Q_scope.

(** ** The search loop.  [climb r n] multiplies [r] by the base [n] times, truncating each time. *)
Fixpoint climb (r : Z) (n : nat) : Z := match n with O => r | S n' => climb r n' * MB / SC end.

Definition not_below (v : Z) (rp : decimal) : bool := dneg rp || (dval rp <=? v).

Lemma gte12 : forall v rp, dscale rp = 12 -> d_gte (d12 v) rp = Ok (not_below v rp).
Proof.
  intros v rp H. unfold d_gte, not_below. cbn [dscale dval dneg d12]. rewrite H. cbn. destruct (dneg rp); reflexivity.
Qed.
Lemma not_below_num : forall v rp, wf rp -> dscale rp = 12 -> 0 < v ->
  not_below v rp = true <-> (num rp <= num (d12 v))%Q.
Proof.
  intros v rp W H Hv. rewrite num_le by auto. unfold not_below, mant, d12. cbn. destruct W as [[Hr _] _].
  destruct (dneg rp); cbn; split; intros; b2p; auto; try lia.
Qed.

Definition linv (r0 start : Z) (rp : decimal) (s : decimal * Z) : Prop :=
  exists i, snd s = start + Z.of_nat i /\ fst s = d12 (climb r0 i) /\ snd s < U128 /\
    forall j, (1 <= j <= i)%nat -> not_below (climb r0 j) rp = false.

Lemma loop_step : forall r0 start rp l2r i, dscale rp = 12 ->
  (forall j, (1 <= j <= i)%nat -> not_below (climb r0 j) rp = false) ->
  match rtl_step (d12 MB) rp l2r (d12 (climb r0 i), start + Z.of_nat i) with
  | inl s => climb r0 i * MB < U128 /\ start + Z.of_nat i + 1 < U128 /\ s = (d12 (climb r0 (S i)), start + Z.of_nat (S i)) /\ not_below (climb r0 (S i)) rp = false
  | inr (Ok x) => x = (if l2r then start + Z.of_nat i + 1 else start + Z.of_nat i) /\ not_below (climb r0 (S i)) rp = true
  | inr Panic => U128 <= climb r0 i * MB \/ U128 <= start + Z.of_nat i + 1
  | inr _ => False
  end.
Proof.
  intros r0 start rp l2r i Hs _. unfold rtl_step. rewrite mul12. destruct (climb r0 i * MB <? U128) eqn:E; b2p; auto.
  change (climb r0 i * MB / SC) with (climb r0 (S i)). rewrite gte12 by auto. cbn [unwrap].
  destruct (not_below (climb r0 (S i)) rp) eqn:E1.
  - destruct l2r.
    + unfold cadd. destruct (_ <? _) eqn:E2; b2p; auto.
    + auto.
  - unfold cadd. destruct (_ <? _) eqn:E2; b2p; auto. repeat split; auto. f_equal. lia.
Qed.

Lemma loop_result : forall r0 start rp l2r, dscale rp = 12 -> 0 <= start < U128 ->
  match loop2 129 (rtl_step (d12 MB) rp l2r) (d12 r0, start) with
  | Ok x => exists n, x = (if l2r then start + Z.of_nat n + 1 else start + Z.of_nat n) /\
        (forall j, (1 <= j <= n)%nat -> not_below (climb r0 j) rp = false) /\ not_below (climb r0 (S n)) rp = true
  | Panic => exists n, (U128 <= climb r0 n * MB \/ U128 <= start + Z.of_nat n + 1) /\
        (forall j, (1 <= j <= n)%nat -> not_below (climb r0 j) rp = false)
  | _ => False
  end.
Proof.
  intros r0 start rp l2r Hs Hst. unfold loop2.
  assert (I0 : linv r0 start rp (d12 r0, start)).
  { exists 0%nat. cbn. repeat split; try lia. }
  assert (ST : forall s s', linv r0 start rp s -> rtl_step (d12 MB) rp l2r s = inl s' -> linv r0 start rp s' /\ U128 - snd s' < U128 - snd s).
  { intros s s' [i [A [B [C D]]]] E. destruct s as [a b]. cbn in A, B. subst.
    pose proof (loop_step r0 start rp l2r i Hs D) as L. rewrite E in L. destruct L as [L1 [L2 [L3 L4]]]. subst s'. cbn [snd fst].
    split; [| lia]. exists (S i). cbn [snd fst]. repeat split; try lia. intros j Hj.
    destruct (Nat.eq_dec j (S i)) as [-> |]; auto. apply D. lia. }
  destruct (iter2_measure _ _ (linv r0 start rp) (fun s => U128 - snd s) (rtl_step (d12 MB) rp l2r)) with (d := 129%nat) (s := (d12 r0, start)) as [r E]; auto.
  - intros s [i [_ [_ [C _]]]]. lia.
  - cbn [snd]. unfold U128 in *. change (2 ^ Z.of_nat 129) with (2 * 2 ^ 128). lia.
  - pose proof (iter2_inv _ _ (linv r0 start rp) (rtl_step (d12 MB) rp l2r) (fun s s' P E => proj1 (ST s s' P E)) 129 _ I0) as V.
    rewrite E in *. destruct V as [[a b] [[i [A [B [C D]]]] E2]]. cbn in A, B. subst.
    pose proof (loop_step r0 start rp l2r i Hs D) as L. rewrite E2 in L.
    destruct r; auto.
    + destruct L. exists i. auto.
    + exists i. auto.
Qed.

Lemma loop_other_scale : forall r0 start rp l2r, dscale rp <> 12 ->
  loop2 129 (rtl_step (d12 MB) rp l2r) (d12 r0, start) = Panic.
Proof.
  intros r0 start rp l2r H.
  assert (E : rtl_step (d12 MB) rp l2r (d12 r0, start) = inr Panic).
  { unfold rtl_step. rewrite mul12. destruct (_ <? _); auto. unfold d_gte. cbn [dscale d12].
    rewrite (proj2 (Z.eqb_neq _ _)) by auto. reflexivity. }
  unfold loop2. rewrite iter2_iterN.
  assert (P : exists n, (2 ^ 129)%nat = S n).
  { assert (2 ^ 129 <> 0)%nat by (apply Nat.pow_nonzero; lia). destruct (2 ^ 129)%nat; [congruence | eauto]. }
  destruct P as [n ->]. cbn [iterN]. rewrite E. reflexivity.
Qed.

Lemma rp_to_tick_loop_eq : forall rp l2r start,
  rp_to_tick_loop rp l2r start = let* r := tick_to_rp start in loop2 129 (rtl_step (d12 MB) rp l2r) (r, start).
Proof. intros. unfold rp_to_tick_loop, tick_to_rp. rewrite tick_base_root_eq. reflexivity. Qed.

Lemma climb_apx : forall r s n, apx s s r -> 0 <= s -> s + Z.of_nat n <= SC -> apx (s + Z.of_nat n) (s + Z.of_nat n) (climb r n).
Proof.
  intros r s n Hr Hs. induction n; intros Hn; cbn [climb].
  - rewrite Z.add_0_r. auto.
  - specialize (IHn ltac:(lia)). eapply apx_eq; [| | apply (apx_mul (s + Z.of_nat n) (s + Z.of_nat n) (climb r n) 1 0 MB); try lia; auto; exact apx_base]; lia.
Qed.

Lemma climb_grows : forall r n, SC <= r -> r + Z.of_nat n <= climb r n.
Proof.
  intros r n Hr. induction n; cbn [climb]; [lia |]. pose proof SCpos.
  assert (climb r n + 1 <= climb r n * MB / SC); [| lia].
  apply Z.div_le_lower_bound; [lia |]. unfold SC, MB in *. nia.
Qed.

(** *** Termination and bracketing *)
Lemma search_spec : forall rp l2r start, wf rp -> 0 <= start ->
  match rp_to_tick_loop rp l2r start with
  | Ok x => exists n r0, x = (if l2r then start + Z.of_nat n + 1 else start + Z.of_nat n) /\ tick_to_rp start = Ok (d12 r0) /\
      dscale rp = 12 /\
      (forall j, (1 <= j <= n)%nat -> (num (d12 (climb r0 j)) < num rp)%Q) /\ (num rp <= num (d12 (climb r0 (S n))))%Q
  | Panic => True
  | _ => False
  end.
Proof.
  intros rp l2r start W Hs. rewrite rp_to_tick_loop_eq.
  destruct (Z.lt_ge_cases start (2 ^ 19)) as [Hlt | Hge]; [| rewrite tick_panics by lia; exact I].
  destruct (tick_defined start ltac:(lia)) as [r0 [E R0]]. rewrite E. cbn [bind].
  destruct (Z.eq_dec (dscale rp) 12) as [H12 | H12]; [| rewrite loop_other_scale by auto; exact I].
  pose proof (loop_result r0 start rp l2r H12) as L. 
  assert (HU : 0 <= start < U128) by (unfold U128; lia). specialize (L HU).
  destruct (loop2 129 _ _); auto. destruct L as [n [L1 [L2 L3]]]. exists n, r0. split; auto. split; auto. split; auto.
  assert (C : forall j, 0 < climb r0 j). { intros j. pose proof (climb_grows r0 j R0). pose proof SCpos. lia. }
  split.
  - intros j Hj. specialize (L2 j Hj). destruct (Qlt_le_dec (num (d12 (climb r0 j))) (num rp)) as [| Q]; auto.
    exfalso. apply not_below_num in Q; auto. congruence.
  - apply not_below_num; auto.
Qed.

Lemma ones_mono : forall j k, (j <= k)%nat -> (k <= 19)%nat -> ones j <= ones k.
Proof.
  intros j k H. induction H; intros; [lia |]. specialize (IHle ltac:(lia)).
  apply Z.le_trans with (ones m); auto. cbn [ones]. destruct (table m ltac:(lia)) as [T1 [_ [_ [_ T5]]]].
  pose proof SCpos. apply mulfloor_ge; lia.
Qed.
Lemma pow_loop_le : forall e k R r, (nbits e + k <= 19)%nat -> SC <= R <= ones k ->
  pow_loop e (d12 (sq k)) (d12 R) = Ok r -> dval r <= ones 19.
Proof.
  induction e; intros k R r Hn HR; cbn [nbits] in Hn; cbn [pow_loop];
    destruct (table k ltac:(lia)) as [T1 [T2 [T3 [T4 T5]]]]; pose proof SCpos; rewrite !mul12.
  - rewrite !(proj2 (Z.ltb_lt _ _)) by nia. cbn [bind]. change (sq k * sq k / SC) with (sq (S k)).
    apply IHe; [lia |]. split.
    + apply Z.le_trans with R; [lia |]. apply mulfloor_ge; lia.
    + cbn [ones]. apply mulfloor_mono; lia.
  - rewrite !(proj2 (Z.ltb_lt _ _)) by nia. cbn [bind]. change (sq k * sq k / SC) with (sq (S k)).
    apply IHe; [lia |]. split; [lia |]. cbn [ones].
    apply Z.le_trans with (ones k); [lia |]. apply mulfloor_ge; lia.
  - rewrite !(proj2 (Z.ltb_lt _ _)) by nia. cbn [bind]. intros E; injection E as <-. cbn [dval d12].
    apply Z.le_trans with (ones (S k)); [cbn [ones]; apply mulfloor_mono; lia |]. apply ones_mono; lia.
Qed.
Lemma tick_le : forall t r, 0 <= t < 2 ^ 19 -> tick_to_rp t = Ok r -> dval r <= ones 19.
Proof.
  intros t r Ht. rewrite tick_pow. destruct t as [| e | e]; try lia.
  - intros E; injection E as <-. vm_compute. discriminate.
  - apply (pow_loop_le e 0). { rewrite Nat.add_0_r. apply nbits_19. lia. } cbn [ones]. lia.
Qed.

(** The search returns (does not panic) whenever the price is at most 2^128 / base, i.e. about 3.4 * 10^14. *)
Lemma search_total : forall rp l2r start, wf rp -> dscale rp = 12 -> 0 <= start < 2 ^ 19 -> dval rp * MB < 2 ^ 128 ->
  exists x, rp_to_tick_loop rp l2r start = Ok x.
Proof.
  intros rp l2r start W H12 Hs Hrp. rewrite rp_to_tick_loop_eq.
  destruct (tick_defined start ltac:(lia)) as [r0 [E R0]]. pose proof (tick_le start _ Hs E) as LE. rewrite E. cbn [bind].
  pose proof (loop_result r0 start rp l2r H12 ltac:(unfold U128; lia)) as L.
  destruct (loop2 129 _ _); eauto; try tauto. exfalso. destruct L as [n [L1 L2]]. cbn [dval d12] in LE.
  assert (O19 : ones 19 * MB < U128) by (vm_compute; reflexivity).
  assert (B : climb r0 n * MB < U128 /\ Z.of_nat n <= Z.max 0 (dval rp)).
  { destruct n as [| n].
    - cbn [climb]. unfold MB in *. split; [nia | lia].
    - specialize (L2 (S n) ltac:(lia)). unfold not_below in L2. apply orb_false_iff in L2. destruct L2 as [_ L2]. b2p.
      pose proof (climb_grows r0 (S n) R0). pose proof SCpos. unfold U128, MB in *. split; [nia | lia]. }
  destruct B as [B1 B2]. destruct L1 as [L1 | L1]; [lia |]. unfold U128, MB in *. lia.
Qed.

(** *** tick -> price -> tick is off by at most one *)
Lemma apx_lt : forall n k v m l w, 0 <= n -> n < m -> 0 <= l <= 2 ^ 20 -> apx n k v -> apx m l w -> v < w.
Proof.
  intros n k v m l w Hn Hm Hl [V1 [V2 V3]] [W1 [W2 W3]].
  destruct (Z.lt_ge_cases v w) as [| G]; auto. exfalso.
  assert (G' : (inject_Z w <= inject_Z v)%Q) by (rewrite <- Zle_Qle; lia).
  replace m with (n + ((m - n - 1) + 1)) in W3 by lia. rewrite !qb_plus in W3.
  pose proof (qb_pow_ge1 n Hn). pose proof (qb_pow_ge1 (m - n - 1) ltac:(lia)).
  assert (Q1 : (qb ^ 1 == qb)%Q) by reflexivity. rewrite Q1 in W3.
  assert (L1 : (0 <= inject_Z l)%Q) by (change 0%Q with (inject_Z 0); rewrite <- Zle_Qle; lia).
  assert (L2 : (inject_Z l <= 1048576)%Q) by (change 1048576%Q with (inject_Z (2 ^ 20)); rewrite <- Zle_Qle; lia).
  pose proof QS_val as QV.
  assert (LB : (qb * (QS - inject_Z l) > QS)%Q). { rewrite QV. unfold qb, MB. lra. }
  set (a := (qb ^ n)%Q) in *. set (b := (qb ^ (m - n - 1))%Q) in *. set (V := inject_Z v) in *. set (W := inject_Z w) in *.
  set (L := inject_Z l) in *. pose proof QS_pos.
  assert (C1 : (QS * (a * (b * qb)) * (QS - L) <= QS * a * QS)%Q).
  { apply Qle_trans with (W * QS)%Q; auto. apply Qmult_le_compat_r; lra. }
  assert (C2 : (QS * a * (b * (qb * (QS - L))) <= QS * a * QS)%Q).
  { setoid_replace (QS * a * (b * (qb * (QS - L))))%Q with (QS * (a * (b * qb)) * (QS - L))%Q by ring. auto. }
  apply Qmult_le_l in C2; [| nra]. nra.
Qed.

Lemma round_trip_tick : forall t p start l2r x, 0 <= t < 2 ^ 19 -> 0 <= start <= t -> tick_to_rp t = Ok p ->
  rp_to_tick_loop p l2r start = Ok x ->
  let x' := if l2r then x - 1 else x in x' = t \/ x' = t - 1.
Proof.
  intros t p start l2r x Ht Hs E H x'.
  destruct (tick_apx t p Ht E) as [Ep Ap].
  assert (Wp : wf p).
  { pose proof (tick_le t p Ht E). assert (ones 19 < 2 ^ 128) by (vm_compute; reflexivity). destruct Ap as [A1 _]. pose proof SCpos.
    rewrite Ep. unfold wf. cbn [dval dscale d12]. lia. }
  pose proof (search_spec p l2r start Wp ltac:(lia)) as S. rewrite H in S.
  destruct S as [n [r0 [S1 [S2 [S3 [S4 S5]]]]]].
  assert (X : x' = start + Z.of_nat n) by (unfold x'; destruct l2r; lia).
  destruct (tick_apx start _ ltac:(lia) S2) as [_ A0]. cbn [dval d12] in A0.
  assert (Pn : forall v, (num p <= num (d12 v))%Q <-> dval p <= v).
  { intros v. rewrite num_le by (auto; rewrite Ep; reflexivity). rewrite Ep. reflexivity. }
  assert (PL : 2 ^ 19 < SC) by reflexivity.
  (* upper bound: x' <= t *)
  assert (U : x' <= t).
  { destruct (Z.le_gt_cases x' t) as [| G]; auto. exfalso.
    set (j := Z.to_nat (t + 1 - start)). assert (Hj : Z.of_nat j = t + 1 - start) by (unfold j; lia).
    specialize (S4 j ltac:(lia)).
    pose proof (climb_apx r0 start j A0 ltac:(lia) ltac:(lia)) as Aj. replace (start + Z.of_nat j) with (t + 1) in Aj by lia.
    pose proof (apx_lt t t (dval p) (t + 1) (t + 1) (climb r0 j) ltac:(lia) ltac:(lia) ltac:(lia) Ap Aj).
    assert (num p <= num (d12 (climb r0 j)))%Q by (apply Pn; lia). lra. }
  destruct (Z.lt_ge_cases x' (t - 1)) as [G |]; [| lia]. exfalso.
  pose proof (climb_apx r0 start (S n) A0 ltac:(lia) ltac:(lia)) as Aj.
  pose proof (apx_lt (start + Z.of_nat (S n)) (start + Z.of_nat (S n)) (climb r0 (S n)) t t (dval p) ltac:(lia) ltac:(lia) ltac:(lia) Aj Ap).
  apply Pn in S5. lia.
Qed.

(** *** The search cannot move more than 2^21 ticks, and brackets the price by exact powers of 1.0001 *)
Lemma sq_le_pow : forall k, 0 <= sq k /\ (inject_Z (sq k) <= QS * qb ^ (2 ^ Z.of_nat k))%Q.
Proof.
  induction k as [| k [I0 I]].
  - split; [cbn; unfold MB; lia |]. vm_compute; discriminate.
  - cbn [sq]. pose proof SCpos. cbv zeta. split. { apply Z.div_pos; nia. }
    rewrite Nat2Z.inj_succ, Z.pow_succ_r by lia. replace (2 * 2 ^ Z.of_nat k) with (2 ^ Z.of_nat k + 2 ^ Z.of_nat k) by lia.
    rewrite qb_plus. pose proof (qb_pow_ge1 (2 ^ Z.of_nat k) ltac:(lia)) as G. pose proof QS_pos.
    pose proof (div_bounds (sq k * sq k) SC ltac:(nia) ltac:(lia)) as [[B _] _].
    set (d := sq k * sq k / SC) in *. rewrite Zle_Qle, !inject_Z_mult in B. fold QS in B.
    assert (B0 : (0 <= inject_Z (sq k))%Q) by (change 0%Q with (inject_Z 0); rewrite <- Zle_Qle; auto).
    set (Q := (qb ^ (2 ^ Z.of_nat k))%Q) in *. set (a := inject_Z (sq k)) in *. set (D := inject_Z d) in *.
    assert (a * a <= QS * Q * (QS * Q))%Q by (apply Qmult_le_compat_nonneg; split; auto).
    assert (HD : (D * QS <= QS * (Q * Q) * QS)%Q).
    { apply Qle_trans with (a * a)%Q; auto. setoid_replace (QS * (Q * Q) * QS)%Q with (QS * Q * (QS * Q))%Q by ring. auto. }
    apply Qmult_le_r in HD; auto.
Qed.

Lemma search_short : forall rp l2r start x, wf rp -> 0 <= start -> rp_to_tick_loop rp l2r start = Ok x ->
  start <= x <= start + 2 ^ 21 /\ start < 2 ^ 19.
Proof.
  intros rp l2r start x W Hs E. pose proof (search_spec rp l2r start W Hs) as S. rewrite E in S.
  destruct S as [n [r0 [S1 [S2 [S3 [S4 _]]]]]].
  assert (Hst : start < 2 ^ 19). { destruct (Z.lt_ge_cases start (2 ^ 19)); auto. rewrite tick_panics in S2 by lia. discriminate. }
  destruct (tick_apx start _ ltac:(lia) S2) as [_ A0]. cbn [dval d12] in A0.
  assert (N : Z.of_nat n < 2 ^ 21). 2: { destruct l2r; lia. }
  destruct (Z.lt_ge_cases (Z.of_nat n) (2 ^ 21)) as [| G]; auto. exfalso.
  set (j := Z.to_nat (2 ^ 21)). assert (Hj : Z.of_nat j = 2 ^ 21) by (unfold j; rewrite Z2Nat.id; lia). clearbody j.
  specialize (S4 j ltac:(lia)). pose proof (climb_apx r0 start j A0 Hs ltac:(rewrite Hj; unfold SC; lia)) as [A1 [_ A3]].
  rewrite Hj in A3.
  assert (Big : climb r0 j < 2 ^ 128).
  { destruct (Z.lt_ge_cases (climb r0 j) (2 ^ 128)) as [| GB]; auto. exfalso.
    assert (LE : (num rp <= num (d12 (climb r0 j)))%Q); [| lra]. apply num_le; auto. destruct W as [W _].
    unfold mant. cbn [dneg dval d12]. destruct (dneg rp); lia. }
  rewrite qb_plus in A3. destruct (sq_le_pow 21) as [_ SQ]. change (Z.of_nat 21) with 21 in SQ.
  pose proof (qb_pow_ge1 start Hs) as G1.
  assert (V : (inject_Z (2 * 2 ^ 128) <= inject_Z (sq 21))%Q) by (rewrite <- Zle_Qle; vm_compute; discriminate).
  assert (B2 : (inject_Z (climb r0 j) < inject_Z (2 ^ 128))%Q) by (rewrite <- Zlt_Qlt; auto).
  assert (K : (inject_Z (start + 2 ^ 21) <= 4194304)%Q) by (change 4194304%Q with (inject_Z (2 ^ 22)); rewrite <- Zle_Qle; lia).
  pose proof QS_val as QV. pose proof QS_pos as QP.
  set (P := (qb ^ (2 ^ 21))%Q) in *. set (a := (qb ^ start)%Q) in *. set (C := inject_Z (climb r0 j)) in *.
  set (k := inject_Z (start + 2 ^ 21)) in *. set (Big128 := inject_Z (2 ^ 128)) in *.
  rewrite inject_Z_mult in V. fold Big128 in V. change (inject_Z 2) with 2%Q in V.
  assert (BP : (0 < Big128)%Q) by reflexivity. clearbody P a C k Big128.
  assert (M : (2 * Big128 <= QS * P)%Q) by lra. clear V SQ.
  assert (HK : (QS <= 2 * (QS - k))%Q) by (rewrite QV; lra).
  assert (M1 : (QS * P <= QS * (a * P))%Q) by nra.
  assert (M2 : (2 * Big128 * (QS - k) <= QS * (a * P) * (QS - k))%Q) by (apply Qmult_le_compat_r; lra).
  assert (M3 : (Big128 * QS <= C * QS)%Q) by nra. nra.
Qed.

Lemma search_bracket : forall rp start x, wf rp -> (0 <= num rp)%Q -> 0 <= start -> rp_to_tick_loop rp false start = Ok x ->
  (x = start \/ (tb ^ x * (1 - 3 * inject_Z x * eps) <= num rp * num rp)%Q) /\
  (num rp * num rp <= tb ^ (x + 1))%Q.
Proof.
  intros rp start x W Hp Hs E. destruct (search_short rp false start x W Hs E) as [X X0].
  pose proof (search_spec rp false start W Hs) as S. rewrite E in S.
  destruct S as [n [r0 [S1 [S2 [S3 [S4 S5]]]]]]. cbn in S1.
  destruct (tick_apx start _ ltac:(lia) S2) as [_ A0]. cbn [dval d12] in A0.
  assert (SB : 2 ^ 22 <= SC) by (unfold SC; lia).
  assert (PN : forall v, 0 <= v -> (0 <= num (d12 v))%Q).
  { intros v Hv. unfold num, mant. cbn [dneg dval d12 dscale]. apply Qle_shift_div_l; [reflexivity |]. rewrite Qmult_0_l.
    change 0%Q with (inject_Z 0). rewrite <- Zle_Qle. auto. }
  split.
  - destruct n as [| n]; [left; lia | right]. specialize (S4 (S n) ltac:(lia)).
    pose proof (climb_apx r0 start (S n) A0 Hs ltac:(lia)) as A. rewrite <- S1 in A.
    destruct (apx_accuracy x _ ltac:(lia) A) as [_ B]. eapply Qle_trans; [exact B |].
    assert (0 <= num (d12 (climb r0 (S n))))%Q. { apply PN. pose proof SCpos. destruct A. lia. }
    apply Qmult_le_compat_nonneg; split; lra.
  - pose proof (climb_apx r0 start (S n) A0 Hs ltac:(lia)) as A. replace (start + Z.of_nat (S n)) with (x + 1) in A by lia.
    destruct (apx_accuracy (x + 1) _ ltac:(lia) A) as [B _]. eapply Qle_trans; [| exact B].
    apply Qmult_le_compat_nonneg; split; auto.
Qed.

(** ** Spacing alignment *)
Lemma possible_down : forall t s, 0 <= t < 2 ^ 128 -> 0 < s < 2 ^ 128 ->
  tk_to_possible_tk t s false = Ok (t / s * s).
Proof.
  intros t s Ht Hs. unfold tk_to_possible_tk, d_div, d_mul, denominator, from_u128, pow10. cbn [dscale dval dneg].
  change (0 <=? 38) with true. cbn [bind]. change (10 ^ 0) with 1.
  pose proof (div_bounds t s ltac:(lia) ltac:(lia)).
  rewrite cmul_Ok by (unfold U128; lia). cbn [bind]. rewrite Z.mul_1_r. rewrite cdiv_Ok by lia. cbn [bind dval].
  rewrite cmul_Ok by (unfold U128; lia). cbn [bind]. rewrite cdiv_Ok by lia. cbn [bind]. unfold into_u128. cbn [dval].
  rewrite Z.div_1_r. reflexivity.
Qed.
Lemma possible_up : forall t s, 0 <= t < 2 ^ 128 -> 0 < s < 2 ^ 128 ->
  returns_or_panics (tk_to_possible_tk t s true) (fun r => r = (t + (s - 1)) / s * s) (2 ^ 128 <= t + (s - 1)).
Proof.
  intros t s Ht Hs. unfold tk_to_possible_tk, d_div_up, d_mul, denominator, from_u128, pow10. cbn [dscale dval dneg].
  change (0 <=? 38) with true. cbn [bind]. change (10 ^ 0) with 1.
  pose proof (div_bounds (t + (s - 1)) s ltac:(lia) ltac:(lia)).
  rewrite cmul_Ok by (unfold U128; lia). cbn [bind]. rewrite Z.mul_1_r. rewrite csub_Ok by lia. cbn [bind].
  unfold cadd. destruct (_ <? U128) eqn:E; b2p; cbn [bind]; unfold U128 in *; cbn [returns_or_panics]; auto.
  rewrite cdiv_Ok by lia. cbn [bind dval].
  rewrite cmul_Ok by (unfold U128; lia). cbn [bind]. rewrite cdiv_Ok by lia. cbn [bind]. unfold into_u128. cbn [dval returns_or_panics].
  rewrite Z.div_1_r. reflexivity.
Qed.
Lemma possible_zero : forall t l2r, tk_to_possible_tk t 0 l2r = Panic.
Proof.
  intros t l2r. unfold tk_to_possible_tk. destruct l2r.
  - unfold d_div_up, denominator, from_u128, pow10. cbn [dscale dval dneg]. change (0 <=? 38) with true. cbn [bind].
    unfold cmul. destruct (_ <? _); reflexivity.
  - unfold d_div, denominator, from_u128, pow10. cbn [dscale dval dneg]. change (0 <=? 38) with true. cbn [bind].
    unfold cmul. destruct (_ <? _); reflexivity.
Qed.

Definition multiple_of (s r : Z) : Prop := exists k, r = k * s.

Lemma align_down : forall t s, 0 <= t < 2 ^ 128 -> 0 < s < 2 ^ 128 ->
  exists r, tk_to_possible_tk t s false = Ok r /\ multiple_of s r /\ 0 <= r <= t /\
    forall m, multiple_of s m -> m <= t -> m <= r.
Proof.
  intros t s Ht Hs. exists (t / s * s). split; [apply possible_down; auto |].
  pose proof (div_bounds t s ltac:(lia) ltac:(lia)). repeat split; try nia.
  - exists (t / s). auto.
  - intros m [k ->] Hm. assert (k < t / s + 1) by nia. nia.
Qed.
Lemma align_up : forall t s, 0 <= t < 2 ^ 128 -> 0 < s < 2 ^ 128 ->
  returns_or_panics (tk_to_possible_tk t s true)
    (fun r => multiple_of s r /\ t <= r /\ forall m, multiple_of s m -> t <= m -> r <= m)
    (2 ^ 128 <= t + (s - 1)).
Proof.
  intros t s Ht Hs. pose proof (possible_up t s Ht Hs) as P. destruct (tk_to_possible_tk t s true); cbn in *; auto.
  subst a. pose proof (div_up_bounds t s ltac:(lia) ltac:(lia)). split; [exists ((t + (s - 1)) / s); auto |].
  split; [lia |]. intros m [k ->] Hm. assert ((t + (s - 1)) / s < k + 1) by nia. nia.
Qed.

(** ** Domain of [tick_to_rp] in terms of [num] *)
Lemma tick_price_ok : forall t, 0 <= t < 2 ^ 19 ->
  exists p, tick_to_rp t = Ok p /\ dscale p = 12 /\ dneg p = false /\ (1 <= num p)%Q.
Proof.
  intros t Ht. destruct (tick_defined t Ht) as [v [E V]]. exists (d12 v). repeat split; auto.
  unfold num, mant. cbn [dneg dval dscale d12]. apply Qle_shift_div_l; [reflexivity |]. rewrite Qmult_1_l.
  rewrite <- Zle_Qle. exact V.
Qed.
Lemma tick_increasing : forall t u p q, 0 <= t < u -> tick_to_rp t = Ok p -> tick_to_rp u = Ok q -> (num p < num q)%Q.
Proof.
  intros t u p q Ht E1 E2.
  destruct (Z.lt_ge_cases u (2 ^ 19)) as [Hu |]; [| rewrite tick_panics in E2 by lia; discriminate].
  pose proof (tick_mono t u p q ltac:(lia) ltac:(lia) Hu E1 E2) as M.
  destruct (tick_apx t p ltac:(lia) E1) as [Ep _]. destruct (tick_apx u q ltac:(lia) E2) as [Eq _].
  rewrite Ep, Eq. unfold num, mant. cbn [dneg dval dscale d12]. apply frac_lt; try reflexivity. rewrite Ep, Eq in M. cbn [dval d12] in M. cbn [dval d12]. lia.
Qed.
