(** Lemmas and tactics about the outcome monad, checked arithmetic and bounded loops. *)
From Coq Require Import ZArith List Bool Lia.
From Verif Require Import Base.
Import ListNotations.
Open Scope Z_scope.

#[global] Arguments U128 : simpl never.
#[global] Arguments U64 : simpl never.
#[global] Arguments Z.pow : simpl never.
#[global] Arguments Z.mul : simpl never.
#[global] Arguments Z.div : simpl never.
#[global] Arguments Z.modulo : simpl never.
#[global] Arguments Z.add : simpl nomatch.
#[global] Arguments Z.sub : simpl nomatch.

Lemma bind_ok : forall A B (m : res A) (f : A -> res B) r,
  bind m f = Ok r -> exists a, m = Ok a /\ f a = Ok r.
Proof. intros A B [a | e | |] f r H; cbn in H; try discriminate. exists a; auto. Qed.

Lemma unwrap_ok : forall A (m : res A) a, unwrap m = Ok a -> m = Ok a.
Proof. intros A [x | e | |] a H; cbn in H; congruence. Qed.

Lemma unwrap_Ok : forall A (a : A), unwrap (Ok a) = Ok a.
Proof. reflexivity. Qed.

Lemma assert_ok : forall b u, assert b = Ok u -> b = true.
Proof. intros [] u H; cbn in H; congruence. Qed.

Lemma cadd_ok : forall a b c, cadd a b = Ok c -> c = a + b /\ a + b < U128.
Proof. unfold cadd; intros a b c H. destruct (a + b <? U128) eqn:E; inversion H. split; auto. apply Z.ltb_lt; auto. Qed.
Lemma csub_ok : forall a b c, csub a b = Ok c -> c = a - b /\ b <= a.
Proof. unfold csub; intros a b c H. destruct (b <=? a) eqn:E; inversion H. split; auto. apply Z.leb_le; auto. Qed.
Lemma cmul_ok : forall a b c, cmul a b = Ok c -> c = a * b /\ a * b < U128.
Proof. unfold cmul; intros a b c H. destruct (a * b <? U128) eqn:E; inversion H. split; auto. apply Z.ltb_lt; auto. Qed.
Lemma cdiv_ok : forall a b c, cdiv a b = Ok c -> c = a / b /\ b <> 0.
Proof. unfold cdiv; intros a b c H. destruct (b =? 0) eqn:E; inversion H. split; auto. apply Z.eqb_neq; auto. Qed.
Lemma pow10_ok : forall n c, pow10 n = Ok c -> c = 10 ^ n /\ n <= 38.
Proof. unfold pow10; intros n c H. destruct (n <=? 38) eqn:E; inversion H. split; auto. apply Z.leb_le; auto. Qed.
Lemma to_u64_ok : forall a c, to_u64_chk a = Ok c -> c = a /\ a < U64.
Proof. unfold to_u64_chk; intros a c H. destruct (a <? U64) eqn:E; inversion H; subst. split; auto. apply Z.ltb_lt; auto. Qed.

Lemma cadd_Ok : forall a b, a + b < U128 -> cadd a b = Ok (a + b).
Proof. intros a b H. unfold cadd. apply Z.ltb_lt in H. rewrite H. reflexivity. Qed.
Lemma csub_Ok : forall a b, b <= a -> csub a b = Ok (a - b).
Proof. intros a b H. unfold csub. apply Z.leb_le in H. rewrite H. reflexivity. Qed.
Lemma cmul_Ok : forall a b, a * b < U128 -> cmul a b = Ok (a * b).
Proof. intros a b H. unfold cmul. apply Z.ltb_lt in H. rewrite H. reflexivity. Qed.
Lemma cdiv_Ok : forall a b, b <> 0 -> cdiv a b = Ok (a / b).
Proof. intros a b H. unfold cdiv. apply Z.eqb_neq in H. rewrite H. reflexivity. Qed.
Lemma pow10_Ok : forall n, n <= 38 -> pow10 n = Ok (10 ^ n).
Proof. intros n H. unfold pow10. apply Z.leb_le in H. rewrite H. reflexivity. Qed.

Lemma pow10_pos : forall n, 0 <= n -> 0 < 10 ^ n.
Proof. intros. apply Z.pow_pos_nonneg; lia. Qed.

(** One inversion step on a hypothesis "this computation returned [Ok]". *)
Ltac mstep :=
  match goal with
  | H : bind _ _ = Ok _ |- _ =>
      let a := fresh "v" in let H1 := fresh "E" in
      apply bind_ok in H; destruct H as [a [H1 H]]
  | H : unwrap _ = Ok _ |- _ => apply unwrap_ok in H
  | H : assert _ = Ok _ |- _ => apply assert_ok in H
  | H : Ok _ = Ok _ |- _ => injection H; clear H; intros; subst
  | H : Panic = Ok _ |- _ => discriminate H
  | H : Err _ = Ok _ |- _ => discriminate H
  | H : NoFuel = Ok _ |- _ => discriminate H
  | H : cadd _ _ = Ok _ |- _ => apply cadd_ok in H; destruct H; subst
  | H : csub _ _ = Ok _ |- _ => apply csub_ok in H; destruct H; subst
  | H : cmul _ _ = Ok _ |- _ => apply cmul_ok in H; destruct H; subst
  | H : cdiv _ _ = Ok _ |- _ => apply cdiv_ok in H; destruct H; subst
  | H : pow10 _ = Ok _ |- _ => apply pow10_ok in H; destruct H; subst
  | H : to_u64_chk _ = Ok _ |- _ => apply to_u64_ok in H; destruct H; subst
  end.
Ltac msteps := repeat mstep.

(** Boolean comparisons to propositions. *)
Ltac b2p :=
  repeat match goal with
  | H : (_ <? _) = true |- _ => apply Z.ltb_lt in H
  | H : (_ <? _) = false |- _ => apply Z.ltb_ge in H
  | H : (_ <=? _) = true |- _ => apply Z.leb_le in H
  | H : (_ <=? _) = false |- _ => apply Z.leb_gt in H
  | H : (_ =? _) = true |- _ => apply Z.eqb_eq in H
  | H : (_ =? _) = false |- _ => apply Z.eqb_neq in H
  | H : negb _ = true |- _ => apply negb_true_iff in H
  | H : negb _ = false |- _ => apply negb_false_iff in H
  | H : _ && _ = true |- _ => apply andb_true_iff in H; destruct H
  | H : _ || _ = false |- _ => apply orb_false_iff in H; destruct H
  end.

(** ** Bounded loops: [iter2 d step s] performs up to [2^d] steps. *)

(** Naive iteration, used only to reason about [iter2]. *)
Fixpoint iterN {S R : Type} (n : nat) (step : S -> S + R) (s : S) : S + R :=
  match n with
  | O => inl s
  | Datatypes.S n' => match step s with inl s' => iterN n' step s' | inr r => inr r end
  end.

Lemma iterN_add : forall S R (step : S -> S + R) n m s,
  iterN (n + m) step s = match iterN n step s with inl s' => iterN m step s' | inr r => inr r end.
Proof.
  induction n; intros m s; cbn; auto. destruct (step s); auto.
Qed.

Lemma iter2_iterN : forall S R (step : S -> S + R) d s, iter2 d step s = iterN (2 ^ d) step s.
Proof.
  induction d; intros s; cbn [iter2].
  - cbn. destruct (step s); auto.
  - rewrite Nat.pow_succ_r'. replace (2 * 2 ^ d)%nat with (2 ^ d + 2 ^ d)%nat by lia.
    rewrite iterN_add, IHd. destruct (iterN (2 ^ d) step s); auto.
Qed.

(** Invariant rule: if the loop leaves with [r], some state satisfying the invariant produced it. *)
Lemma iterN_inv : forall S R (P : S -> Prop) (step : S -> S + R),
  (forall s s', P s -> step s = inl s' -> P s') ->
  forall n s, P s -> match iterN n step s with inl s' => P s' | inr r => exists s0, P s0 /\ step s0 = inr r end.
Proof.
  intros S R P step Hs. induction n; intros s HP; cbn; auto.
  destruct (step s) eqn:E.
  - apply IHn. eapply Hs; eauto.
  - exists s; auto.
Qed.

Lemma iter2_inv : forall S R (P : S -> Prop) (step : S -> S + R),
  (forall s s', P s -> step s = inl s' -> P s') ->
  forall d s, P s -> match iter2 d step s with inl s' => P s' | inr r => exists s0, P s0 /\ step s0 = inr r end.
Proof. intros. rewrite iter2_iterN. apply iterN_inv; auto. Qed.

(** A natural measure that drops at every step bounds the number of steps. *)
Lemma iterN_measure : forall S R (P : S -> Prop) (mu : S -> Z) (step : S -> S + R),
  (forall s s', P s -> step s = inl s' -> P s' /\ mu s' < mu s) ->
  (forall s, P s -> 0 <= mu s) ->
  forall n s s', P s -> iterN n step s = inl s' -> mu s' + Z.of_nat n <= mu s /\ P s'.
Proof.
  intros S R P mu step Hs Hn. induction n; intros s s' HP H.
  - cbn in H. injection H as <-. split; auto. lia.
  - cbn [iterN] in H. destruct (step s) eqn:E; try discriminate.
    destruct (Hs _ _ HP E) as [HP1 Hlt]. destruct (IHn _ _ HP1 H). split; auto. lia.
Qed.

Lemma iter2_measure : forall S R (P : S -> Prop) (mu : S -> Z) (step : S -> S + R),
  (forall s s', P s -> step s = inl s' -> P s' /\ mu s' < mu s) ->
  (forall s, P s -> 0 <= mu s) ->
  forall d s, P s -> mu s < 2 ^ Z.of_nat d -> exists r, iter2 d step s = inr r.
Proof.
  intros S R P mu step Hs Hn d s HP Hm. rewrite iter2_iterN.
  destruct (iterN (2 ^ d) step s) eqn:E; eauto.
  exfalso. destruct (iterN_measure _ _ P mu step Hs Hn _ _ _ HP E) as [H1 H2].
  specialize (Hn _ H2). rewrite Nat2Z.inj_pow in H1. change (Z.of_nat 2) with 2 in H1. lia.
Qed.
