(** Tick prices and price-to-tick lookups. *)
From Coq Require Import ZArith QArith Qpower List Bool Lia Lqa.
From Verif Require Import Base BaseLemmas DecimalModel DecimalSpec DecimalProofs PowProofs MathModel.
Import ListNotations.
Open Scope Z_scope.

Definition SC : Z := 10 ^ 12.
Definition MB : Z := 1000049998750.
Definition d12 (v : Z) : decimal := mkD v 12 false.

Lemma tick_base_root_eq : tick_base_root = Ok (d12 MB).
Proof. vm_compute. reflexivity. Qed.

Lemma mul12 : forall a b, d_mul (d12 a) (d12 b) = if a * b <? U128 then Ok (d12 (a * b / SC)) else Panic.
Proof. intros. unfold d_mul, cmul, d12. cbn [dval dscale dneg]. destruct (_ <? _); reflexivity. Qed.

Fixpoint sq (k : nat) : Z := match k with O => MB | S k' => let b := sq k' in b * b / SC end.
Fixpoint ones (k : nat) : Z := match k with O => SC | S k' => ones k' * sq k' / SC end.

Lemma table : forall k, (k < 19)%nat ->
  SC <= sq k /\ sq k * sq k < U128 /\ ones k * sq k < U128 /\ ones k < sq k /\ SC <= ones k.
Proof.
  assert (H : forallb (fun k => (SC <=? sq k) && (sq k * sq k <? U128) && (ones k * sq k <? U128)
                                && (ones k <? sq k) && (SC <=? ones k)) (seq 0 19) = true)
    by (vm_compute; reflexivity).
  intros k Hk. rewrite forallb_forall in H. specialize (H k). rewrite in_seq in H. specialize (H ltac:(lia)).
  b2p. auto.
Qed.
Lemma table19 : SC <= sq 19 /\ U128 <= sq 19 * sq 19 /\ ones 19 < sq 19.
Proof. vm_compute. repeat split; congruence. Qed.

Lemma SCpos : 0 < SC. Proof. reflexivity. Qed.

Lemma mulfloor_mono : forall a b B, 0 <= a <= b -> 0 <= B -> a * B / SC <= b * B / SC.
Proof. intros. apply Z.div_le_mono; [apply SCpos | nia]. Qed.

Lemma mulfloor_strict : forall a b B, 0 <= a < b -> SC <= B -> a * B / SC < b * B / SC.
Proof.
  intros a b B H HB. pose proof SCpos. apply Z.lt_le_trans with (a * B / SC + 1); [lia |].
  replace (a * B / SC + 1) with ((a * B + 1 * SC) / SC) by (rewrite Z.div_add by lia; reflexivity).
  apply Z.div_le_mono; nia.
Qed.

Lemma mulfloor_ge : forall a B, 0 <= a -> SC <= B -> a <= a * B / SC.
Proof. intros. pose proof SCpos. apply Z.div_le_lower_bound; nia. Qed.

Lemma one_mul : forall B, SC * B / SC = B.
Proof. intros. rewrite Z.mul_comm. apply Z.div_mul. pose proof SCpos. lia. Qed.

(** Number of bits of a positive. *)
Fixpoint nbits (e : positive) : nat := match e with xH => 1 | xO e' | xI e' => S (nbits e') end.

Lemma pow_loop_total : forall e k R, (nbits e + k <= 19)%nat -> SC <= R <= ones k ->
  exists r, pow_loop e (d12 (sq k)) (d12 R) = Ok (d12 r) /\ SC <= r.
Proof.
  induction e; intros k R Hn HR; cbn [nbits] in Hn; cbn [pow_loop];
    destruct (table k ltac:(lia)) as [T1 [T2 [T3 [T4 T5]]]]; pose proof SCpos.
  - rewrite !mul12. rewrite !(proj2 (Z.ltb_lt _ _)) by nia. cbn [bind]. change (sq k * sq k / SC) with (sq (S k)).
    apply IHe; [lia |]. split.
    + apply Z.le_trans with R; [lia |]. apply mulfloor_ge; lia.
    + cbn [ones]. apply mulfloor_mono; lia.
  - rewrite !mul12. rewrite !(proj2 (Z.ltb_lt _ _)) by nia. cbn [bind]. change (sq k * sq k / SC) with (sq (S k)).
    apply IHe; [lia |]. split; [lia |]. cbn [ones].
    apply Z.le_trans with (ones k); [lia |]. apply mulfloor_ge; lia.
  - rewrite !mul12. rewrite !(proj2 (Z.ltb_lt _ _)) by nia. cbn [bind]. eexists; split; [reflexivity |].
    apply Z.le_trans with R; [lia |]. apply mulfloor_ge; lia.
Qed.

Lemma pow_loop_panics : forall e k R, (k <= 19)%nat -> (19 < nbits e + k)%nat -> 0 <= R ->
  pow_loop e (d12 (sq k)) (d12 R) = Panic.
Proof.
  induction e; intros k R Hk Hn HR; cbn [nbits] in Hn; cbn [pow_loop]; rewrite !mul12.
  - destruct (_ <? _); cbn [bind]; auto. destruct (Nat.eq_dec k 19) as [-> | Hk'].
    + rewrite (proj2 (Z.ltb_ge _ _)) by (apply table19). reflexivity.
    + destruct (sq k * sq k <? U128); cbn [bind]; auto. change (sq k * sq k / SC) with (sq (S k)).
      apply IHe; try lia. apply Z.div_pos; [| apply SCpos]. apply Z.mul_nonneg_nonneg; auto.
      destruct (table k ltac:(lia)). pose proof SCpos. lia.
  - destruct (Nat.eq_dec k 19) as [-> | Hk'].
    + rewrite (proj2 (Z.ltb_ge _ _)) by (apply table19). reflexivity.
    + destruct (sq k * sq k <? U128); cbn [bind]; auto. change (sq k * sq k / SC) with (sq (S k)).
      apply IHe; lia.
  - assert (k = 19)%nat by lia. subst. destruct (R * sq 19 <? U128); cbn [bind]; auto.
Qed.

Lemma nbits_bounds : forall e, 2 ^ (Z.of_nat (nbits e) - 1) <= Zpos e < 2 ^ Z.of_nat (nbits e).
Proof.
  induction e; cbn [nbits].
  - rewrite Nat2Z.inj_succ. replace (Z.succ (Z.of_nat (nbits e)) - 1) with (Z.succ (Z.of_nat (nbits e) - 1)) by lia.
    assert (1 <= Z.of_nat (nbits e)) by (destruct e; cbn [nbits]; lia). rewrite !Z.pow_succ_r by lia. lia.
  - rewrite Nat2Z.inj_succ. replace (Z.succ (Z.of_nat (nbits e)) - 1) with (Z.succ (Z.of_nat (nbits e) - 1)) by lia.
    assert (1 <= Z.of_nat (nbits e)) by (destruct e; cbn [nbits]; lia). rewrite !Z.pow_succ_r by lia. lia.
  - change (Z.of_nat 1 - 1) with 0. change (2 ^ 0) with 1. change (2 ^ Z.of_nat 1) with 2. lia.
Qed.

Lemma nbits_19 : forall e, (nbits e <= 19)%nat <-> Zpos e < 2 ^ 19.
Proof.
  intros e. pose proof (nbits_bounds e) as [H1 H2]. split; intros H.
  - apply Z.lt_le_trans with (2 ^ Z.of_nat (nbits e)); auto. apply Z.pow_le_mono_r; lia.
  - destruct (Nat.le_gt_cases (nbits e) 19); auto. exfalso.
    assert (2 ^ 19 <= 2 ^ (Z.of_nat (nbits e) - 1)) by (apply Z.pow_le_mono_r; lia). lia.
Qed.

Lemma tick_pow : forall t, tick_to_rp t = match t with Zpos e => pow_loop e (d12 MB) (d12 SC) | _ => Ok (d12 SC) end.
Proof. intros t. unfold tick_to_rp. rewrite tick_base_root_eq. cbn [bind]. destruct t; reflexivity. Qed.

Lemma tick_defined : forall t, 0 <= t < 2 ^ 19 ->
  exists v, tick_to_rp t = Ok (d12 v) /\ SC <= v.
Proof.
  intros t Ht. rewrite tick_pow. destruct t as [| e | e]; try lia.
  - exists SC. split; auto. lia.
  - apply (pow_loop_total e 0). { rewrite Nat.add_0_r. apply nbits_19. lia. } cbn [ones]. lia.
Qed.

Lemma tick_panics : forall t, 2 ^ 19 <= t -> tick_to_rp t = Panic.
Proof.
  intros t Ht. rewrite tick_pow. destruct t as [| e | e]; try lia.
  apply (pow_loop_panics e 0); try lia.
  - destruct (Nat.le_gt_cases (nbits e) 19); [| lia]. apply nbits_19 in H. lia.
  - pose proof SCpos; lia.
Qed.

Lemma pow_loop_mono : forall e B R R' r r', SC <= B -> 0 <= R < R' ->
  pow_loop e (d12 B) (d12 R) = Ok r -> pow_loop e (d12 B) (d12 R') = Ok r' -> dval r < dval r'.
Proof.
  induction e; intros B R R' r r' HB HR; cbn [pow_loop]; rewrite !mul12; pose proof SCpos.
  - destruct (R * B <? U128), (R' * B <? U128), (B * B <? U128); cbn [bind]; try discriminate; intros E1 E2.
    eapply IHe; [| | exact E1 | exact E2].
    + apply Z.le_trans with B; auto. apply mulfloor_ge; lia.
    + split; [apply Z.div_pos; nia | apply mulfloor_strict; lia].
  - destruct (B * B <? U128); cbn [bind]; try discriminate; intros E1 E2.
    eapply IHe; [| | exact E1 | exact E2]; auto. apply Z.le_trans with B; auto. apply mulfloor_ge; lia.
  - destruct (R * B <? U128), (R' * B <? U128), (B * B <? U128); cbn [bind]; try discriminate; intros E1 E2.
    injection E1 as <-. injection E2 as <-. cbn. apply mulfloor_strict; lia.
Qed.

Lemma pow_loop_succ : forall e k r r', (nbits (Pos.succ e) + k <= 19)%nat ->
  pow_loop e (d12 (sq k)) (d12 (ones k)) = Ok r ->
  pow_loop (Pos.succ e) (d12 (sq k)) (d12 SC) = Ok r' -> dval r < dval r'.
Proof.
  induction e; intros k r r' Hn; cbn [Pos.succ nbits] in Hn; cbn [pow_loop Pos.succ]; rewrite !mul12, ?one_mul;
    pose proof SCpos.
  - destruct (table k ltac:(lia)) as [T1 [T2 [T3 [T4 T5]]]].
    rewrite !(proj2 (Z.ltb_lt _ _)) by lia. cbn [bind]. change (sq k * sq k / SC) with (sq (S k)).
    change (ones k * sq k / SC) with (ones (S k)). apply IHe. lia.
  - destruct (table k ltac:(lia)) as [T1 [T2 [T3 [T4 T5]]]].
    rewrite !(proj2 (Z.ltb_lt _ _)) by nia. cbn [bind].
    apply pow_loop_mono; try lia. apply Z.le_trans with (sq k); auto. apply mulfloor_ge; lia.
  - destruct (table k ltac:(lia)) as [T1 [T2 [T3 [T4 T5]]]].
    destruct (table (S k) ltac:(lia)) as [U1 [U2 [U3 [U4 U5]]]].
    rewrite !(proj2 (Z.ltb_lt _ _)) by lia. cbn [bind]. change (sq k * sq k / SC) with (sq (S k)).
    change (ones k * sq k / SC) with (ones (S k)). rewrite mul12, one_mul, mul12.
    rewrite !(proj2 (Z.ltb_lt _ _)) by nia. cbn [bind].
    intros E1 E2. injection E1 as <-. injection E2 as <-. cbn [dval d12]. exact U4.
Qed.

Lemma tick_succ : forall t r r', 0 <= t -> t + 1 < 2 ^ 19 -> tick_to_rp t = Ok r -> tick_to_rp (t + 1) = Ok r' ->
  dval r < dval r'.
Proof.
  intros t r r' Ht Hu E1 E2. rewrite tick_pow in E1, E2. destruct t as [| e | e]; try lia.
  - change (0 + 1) with 1 in E2. injection E1 as <-. vm_compute in E2. injection E2 as <-. reflexivity.
  - replace (Zpos e + 1) with (Zpos (Pos.succ e)) in * by lia.
    eapply (pow_loop_succ e 0); eauto. rewrite Nat.add_0_r. apply nbits_19. lia.
Qed.

Lemma tick_mono : forall t u r r', 0 <= t -> t < u -> u < 2 ^ 19 ->
  tick_to_rp t = Ok r -> tick_to_rp u = Ok r' -> dval r < dval r'.
Proof.
  intros t u r r' Ht Htu Hu E1. replace u with (t + 1 + Z.of_nat (Z.to_nat (u - t - 1))) in * by lia.
  clear Htu. generalize dependent r'. induction (Z.to_nat (u - t - 1)); intros r' E2.
  - rewrite Z.add_0_r in *. eapply tick_succ; eauto. 
  - destruct (tick_defined (t + 1 + Z.of_nat n) ltac:(lia)) as [v [E3 _]].
    assert (dval r < dval (d12 v)) by (apply IHn; auto; lia).
    assert (dval (d12 v) < dval r').
    { eapply tick_succ; [| | exact E3 |]; try lia. replace (t + 1 + Z.of_nat n + 1) with (t + 1 + Z.of_nat (S n)) by lia. auto. }
    lia.
Qed.

(** ** Accuracy *)
Open Scope Q_scope.
Definition qb : Q := MB # 1000000000000.   (* the base as a rational *)
Definition QS : Q := inject_Z SC.

(** [v] (in units of 10^-12) is at most the exact [n]-th power of the base and below it by at most [k] parts in 10^12. *)
Definition apx (n k : Z) (v : Z) : Prop :=
  (SC <= v)%Z /\ inject_Z v <= QS * qb ^ n /\ QS * qb ^ n * (QS - inject_Z k) <= inject_Z v * QS.

Lemma QS_val : QS == 1000000000000. Proof. reflexivity. Qed.
Lemma QS_pos : 0 < QS. Proof. reflexivity. Qed.
Lemma qb_ge1 : 1 <= qb. Proof. unfold qb, Qle; cbn. unfold MB. lia. Qed.
Lemma qb_pos : 0 < qb. Proof. reflexivity. Qed.
Lemma qb_nz : ~ qb == 0. Proof. pose proof qb_pos. lra. Qed.

Lemma qb_pow_ge1 : forall n, (0 <= n)%Z -> 1 <= qb ^ n.
Proof.
  intros n Hn. pattern n. apply Zlt_0_ind; auto. intros x IH Hx.
  destruct (Z.eq_dec x 0) as [-> | H]. { cbn. lra. }
  replace x with ((x - 1) + 1)%Z by lia. rewrite Qpower_plus by apply qb_nz.
  specialize (IH (x - 1)%Z ltac:(lia)). assert (qb ^ 1 == qb) by reflexivity. rewrite H0. pose proof qb_ge1. nra.
Qed.

Lemma qb_plus : forall n m, qb ^ (n + m) == qb ^ n * qb ^ m.
Proof. intros. apply Qpower_plus. apply qb_nz. Qed.

Lemma inject_floor : forall p, (0 <= p)%Z -> inject_Z (p / SC) * QS <= inject_Z p /\ inject_Z p < inject_Z (p / SC) * QS + QS.
Proof.
  intros p Hp. pose proof (div_bounds p SC Hp SCpos) as [[H1 H2] _]. unfold QS.
  rewrite <- !inject_Z_mult, <- inject_Z_plus. rewrite <- Zle_Qle, <- Zlt_Qlt. split; lia.
Qed.

Lemma apx_mul : forall n k v m l w, (0 <= n)%Z -> (0 <= m)%Z -> (0 <= k)%Z -> (0 <= l)%Z -> (k <= SC)%Z -> (l <= SC)%Z ->
  apx n k v -> apx m l w -> apx (n + m) (k + l + 1) (v * w / SC).
Proof.
  intros n k v m l w Hn Hm Hk Hl Hks Hls [V1 [V2 V3]] [W1 [W2 W3]]. pose proof SCpos as SP.
  split; [| split].
  - apply Z.le_trans with v; auto. apply mulfloor_ge; lia.
  - destruct (inject_floor (v * w)%Z ltac:(nia)) as [F _]. rewrite inject_Z_mult in F. rewrite qb_plus.
    pose proof QS_pos. apply Qmult_le_r with QS; auto.
    apply Qle_trans with (inject_Z v * inject_Z w); auto.
    setoid_replace (QS * (qb ^ n * qb ^ m) * QS) with (QS * qb ^ n * (QS * qb ^ m)) by ring.
    apply Qmult_le_compat_nonneg; split; auto; change 0 with (inject_Z 0); rewrite <- Zle_Qle; lia.
  - destruct (inject_floor (v * w)%Z ltac:(nia)) as [_ F]. rewrite inject_Z_mult in F.
    rewrite !inject_Z_plus. change (inject_Z 1) with 1. rewrite qb_plus.
    pose proof (qb_pow_ge1 n Hn) as Qn. pose proof (qb_pow_ge1 m Hm) as Qm.
    assert (Hk' : 0 <= inject_Z k) by (change 0 with (inject_Z 0); rewrite <- Zle_Qle; lia).
    assert (Hl' : 0 <= inject_Z l) by (change 0 with (inject_Z 0); rewrite <- Zle_Qle; lia).
    assert (Hks' : inject_Z k <= QS) by (unfold QS; rewrite <- Zle_Qle; lia).
    assert (Hls' : inject_Z l <= QS) by (unfold QS; rewrite <- Zle_Qle; lia).
    pose proof QS_pos.
    assert (Hv : 0 <= inject_Z v) by (change 0 with (inject_Z 0); rewrite <- Zle_Qle; lia).
    assert (Hw : 0 <= inject_Z w) by (change 0 with (inject_Z 0); rewrite <- Zle_Qle; lia).
    set (K := inject_Z k) in *. set (L := inject_Z l) in *. set (a := qb ^ n) in *. set (b := qb ^ m) in *.
    set (V := inject_Z v) in *. set (W := inject_Z w) in *. set (r := inject_Z (v * w / SC)) in *.
    assert (G : QS * a * (QS - K) * (QS * b * (QS - L)) <= V * QS * (W * QS)).
    { apply Qmult_le_compat_nonneg; split; auto.
      - apply Qmult_le_0_compat; [nra | lra].
      - apply Qmult_le_0_compat; [nra | lra]. }
    assert (G2 : QS * QS * (a * b * (QS * (QS - K - L))) <= QS * QS * (V * W)).
    { apply Qle_trans with (QS * a * (QS - K) * (QS * b * (QS - L))); [| lra].
      assert (0 <= a * b) by nra. assert (0 <= K * L) by nra. 
      setoid_replace (QS * a * (QS - K) * (QS * b * (QS - L))) with (QS * QS * (a * b * (QS * (QS - K - L) + K * L))) by ring.
      apply Qmult_le_l; [nra |]. nra. }
    assert (G3 : a * b * (QS * (QS - K - L)) <= V * W) by (apply Qmult_le_l in G2; [auto | nra]).
    assert (1 <= a * b) by nra. nra.
Qed.

Lemma apx_one : apx 0 0 SC.
Proof. unfold apx. repeat split; try lia; unfold QS; cbn; unfold Qle; cbn; lia. Qed.
Lemma apx_base : apx 1 0 MB.
Proof. unfold apx. split; [unfold SC, MB; lia |]. split; vm_compute; discriminate. Qed.
Close Scope Q_scope.

Lemma apx_eq : forall a a' k k' v, a = a' -> k = k' -> apx a k v -> apx a' k' v.
Proof. intros; subst; auto. Qed.

Lemma pow_loop_apx : forall e k n R r, (nbits e + k <= 19)%nat -> 0 <= n -> Z.pos e * 2 ^ Z.of_nat k + n <= 2 ^ 19 ->
  apx (2 ^ Z.of_nat k) (2 ^ Z.of_nat k - 1) (sq k) -> apx n n R ->
  pow_loop e (d12 (sq k)) (d12 R) = Ok r -> apx (Z.pos e * 2 ^ Z.of_nat k + n) (Z.pos e * 2 ^ Z.of_nat k + n) (dval r).
Proof.
  induction e; intros k n R r Hn Hr He HB HR; cbn [nbits] in Hn; cbn [pow_loop]; rewrite !mul12;
    assert (P : 0 < 2 ^ Z.of_nat k) by (apply Z.pow_pos_nonneg; lia);
    assert (P1 : 2 ^ Z.of_nat (S k) = 2 * 2 ^ Z.of_nat k) by (rewrite Nat2Z.inj_succ, Z.pow_succ_r; lia);
    assert (PS : 2 ^ 19 < SC) by reflexivity;
    specialize (fun n R r => IHe (S k) n R r) || idtac; rewrite ?P1 in *; set (pk := 2 ^ Z.of_nat k) in *.
  - assert (E0 : Z.pos e~1 * pk = Z.pos e * (2 * pk) + pk) by (rewrite Pos2Z.inj_xI; ring). rewrite E0 in *.
    assert (E1 : 0 <= Z.pos e * (2 * pk)) by (apply Z.mul_nonneg_nonneg; lia). 
    assert (Kle : 2 * pk <= Z.pos e * (2 * pk)) by (rewrite <- (Z.mul_1_l (2 * pk)) at 1; apply Z.mul_le_mono_nonneg_r; lia).
    destruct (R * sq k <? U128), (sq k * sq k <? U128); cbn [bind]; try discriminate.
    change (sq k * sq k / SC) with (sq (S k)). intros E.
    set (pe := Z.pos e * (2 * pk)) in *.
    apply (IHe (n + pk)) in E; try lia.
    + eapply apx_eq; [| | exact E]; lia.
    + eapply apx_eq; [| | apply (apx_mul pk (pk - 1) (sq k) pk (pk - 1) (sq k)); auto; lia]; lia.
    + eapply apx_eq; [| | apply (apx_mul n n R pk (pk - 1) (sq k)); auto; lia]; lia.
  - assert (E0 : Z.pos e~0 * pk = Z.pos e * (2 * pk)) by (rewrite Pos2Z.inj_xO; ring). rewrite E0 in *.
    assert (Kle : 2 * pk <= Z.pos e * (2 * pk)) by (rewrite <- (Z.mul_1_l (2 * pk)) at 1; apply Z.mul_le_mono_nonneg_r; lia).
    destruct (sq k * sq k <? U128); cbn [bind]; try discriminate.
    change (sq k * sq k / SC) with (sq (S k)). intros E. set (pe := Z.pos e * (2 * pk)) in *.
    apply (IHe n) in E; try lia; auto.
    eapply apx_eq; [| | apply (apx_mul pk (pk - 1) (sq k) pk (pk - 1) (sq k)); auto; lia]; lia.
  - destruct (R * sq k <? U128), (sq k * sq k <? U128); cbn [bind]; try discriminate. intros E. injection E as <-.
    eapply apx_eq; [| | apply (apx_mul n n R pk (pk - 1) (sq k)); auto; lia]; lia.
Qed.

Lemma tick_apx : forall t r, 0 <= t < 2 ^ 19 -> tick_to_rp t = Ok r -> r = d12 (dval r) /\ apx t t (dval r).
Proof.
  intros t r Ht E. destruct (tick_defined t Ht) as [v [E1 _]]. rewrite E1 in E. injection E as <-. split; [reflexivity |].
  rewrite tick_pow in E1. cbn [dval d12]. destruct t as [| e | e]; try lia.
  - injection E1 as <-. apply apx_one.
  - change (d12 MB) with (d12 (sq 0)) in E1. apply (pow_loop_apx e 0 0) in E1; try lia.
    + cbn [dval d12] in E1. change (2 ^ Z.of_nat 0) with 1 in E1. replace (Z.pos e * 1 + 0) with (Z.pos e) in E1 by lia. exact E1.
    + rewrite Nat.add_0_r. apply nbits_19. lia.
    + exact apx_base.
    + exact apx_one.
Qed.
