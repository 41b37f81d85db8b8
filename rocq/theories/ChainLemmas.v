(** Ledgers, account maps and the integer form of the amount formulas, for the on-chain proofs. *)
From Coq Require Import ZArith QArith List Bool Lia.
From Verif Require Import Base BaseLemmas DecimalModel DecimalSpec DecimalProofs WfProofs MathModel MathProofs TickProofs BitmapModel BitmapProofs PoolWf LpProofs ChainModel.
Import ListNotations.
Open Scope Z_scope.

(** ** Ledgers *)
Lemma holder_eqb_eq : forall a b, holder_eqb a b = true <-> a = b.
Proof. intros [u |] [v |]; cbn; split; intros H; try discriminate; try reflexivity; [apply Z.eqb_eq in H; congruence | injection H as ->; apply Z.eqb_refl]. Qed.
Lemma holder_eqb_refl : forall a, holder_eqb a a = true. Proof. intros a. apply holder_eqb_eq. reflexivity. Qed.
Lemma holder_eqb_neq : forall a b, a <> b -> holder_eqb a b = false.
Proof. intros a b H. destruct (holder_eqb a b) eqn:E; auto. apply holder_eqb_eq in E. contradiction. Qed.

Fixpoint total (l : ledger) : Z := match l with [] => 0 | (_, v) :: r => v + total r end.
Definition funds_ok (l : ledger) : Prop := Forall (fun e => 0 <= snd e < U64) l.

Lemma bal_set : forall l h v k, bal k (set_bal h v l) = if holder_eqb k h then v else bal k l.
Proof.
  induction l as [| [h' w] r IH]; intros h v k; cbn; [destruct (holder_eqb k h); auto |].
  destruct (holder_eqb h h') eqn:E; cbn.
  - apply holder_eqb_eq in E. subst h'. destruct (holder_eqb k h); auto.
  - rewrite IH. destruct (holder_eqb k h') eqn:E1; auto. apply holder_eqb_eq in E1. subst h'.
    rewrite holder_eqb_neq; auto. intros ->. rewrite holder_eqb_refl in E. discriminate.
Qed.
Lemma bal_set_same : forall l h v, bal h (set_bal h v l) = v.
Proof. intros. rewrite bal_set, holder_eqb_refl. reflexivity. Qed.
Lemma bal_set_other : forall l h v k, k <> h -> bal k (set_bal h v l) = bal k l.
Proof. intros. rewrite bal_set, holder_eqb_neq; auto. Qed.
Lemma total_set : forall l h v, total (set_bal h v l) = total l + v - bal h l.
Proof. induction l as [| [h' w] r IH]; intros h v; cbn; [lia |]. destruct (holder_eqb h h'); cbn; [lia |]. rewrite IH. lia. Qed.
Lemma funds_set : forall l h v, funds_ok l -> 0 <= v < U64 -> funds_ok (set_bal h v l).
Proof.
  unfold funds_ok. induction l as [| [h' w] r IH]; intros h v H Hv; cbn; [constructor; [exact Hv | constructor] |]. inversion H; subst.
  destruct (holder_eqb h h'); constructor; auto.
Qed.
Lemma bal_nn : forall l h, funds_ok l -> 0 <= bal h l < U64.
Proof. unfold funds_ok. induction l as [| [h' w] r IH]; intros h H; cbn; [split; [lia | reflexivity] |]. inversion H; subst. destruct (holder_eqb h h'); auto. Qed.

(** Effect of a successful transfer between different holders. *)
Lemma transfer_ok : forall l f t a l', spl_transfer l f t a = Ok l' ->
  a <= bal f l /\ total l' = total l /\ (0 <= a -> funds_ok l -> funds_ok l') /\
  (forall k, k <> f -> k <> t -> bal k l' = bal k l) /\
  (f <> t -> bal t l + a < U64 /\ bal f l' = bal f l - a /\ bal t l' = bal t l + a) /\ (f = t -> l' = l).
Proof.
  intros l f t a l' H. unfold spl_transfer in H. destruct (bal f l <? a) eqn:E; [discriminate |]. b2p.
  destruct (holder_eqb f t) eqn:E1.
  - injection H as <-. apply holder_eqb_eq in E1. subst t. csplit; auto; contradiction.
  - destruct (U64 <=? bal t l + a) eqn:E2; [discriminate |]. b2p. injection H as <-.
    assert (N : f <> t) by (intros ->; rewrite holder_eqb_refl in E1; discriminate).
    rewrite bal_set_other by congruence. csplit; auto.
    + rewrite !total_set, bal_set_other by congruence. lia.
    + intros Ha F. pose proof (bal_nn _ t F). pose proof (bal_nn _ f F). apply funds_set; [apply funds_set; auto |]; lia.
    + intros k K1 K2. rewrite !bal_set_other; auto.
    + intros _. split; auto. split; [rewrite bal_set_other, bal_set_same; auto | apply bal_set_same].
    + contradiction.
Qed.
Lemma transfer_Ok : forall l f t a, f <> t -> a <= bal f l -> bal t l + a < U64 -> exists l', spl_transfer l f t a = Ok l'.
Proof.
  intros l f t a N H1 H2. unfold spl_transfer. rewrite (proj2 (Z.ltb_ge _ _)) by lia. rewrite holder_eqb_neq by auto.
  rewrite (proj2 (Z.leb_gt _ _)) by lia. eauto.
Qed.
Lemma mint_ok : forall l s t a l' s', spl_mint l s t a = Ok (l', s') ->
  s' = s + a /\ total l' = total l + a /\ s + a < U64 /\ bal t l + a < U64 /\ (0 <= a -> funds_ok l -> funds_ok l') /\
  (forall k, k <> t -> bal k l' = bal k l) /\ bal t l' = bal t l + a.
Proof.
  intros l s t a l' s' H. unfold spl_mint in H. destruct (U64 <=? s + a) eqn:E; [discriminate |]. destruct (U64 <=? bal t l + a) eqn:E2; [discriminate |]. b2p. injection H as <- <-.
  csplit; auto.
  - rewrite total_set. lia.
  - intros Ha F. pose proof (bal_nn _ t F). apply funds_set; auto; lia.
  - intros. apply bal_set_other; auto.
  - apply bal_set_same.
Qed.
Lemma burn_ok : forall l s t a l' s', spl_burn l s t a = Ok (l', s') ->
  s' = s - a /\ total l' = total l - a /\ a <= s /\ a <= bal t l /\ (0 <= a -> funds_ok l -> funds_ok l') /\
  (forall k, k <> t -> bal k l' = bal k l) /\ bal t l' = bal t l - a.
Proof.
  intros l s t a l' s' H. unfold spl_burn in H. destruct (bal t l <? a) eqn:E; [discriminate |]. destruct (s <? a) eqn:E2; [discriminate |]. b2p. injection H as <- <-.
  csplit; auto.
  - rewrite total_set. lia.
  - intros Ha F. pose proof (bal_nn _ t F). apply funds_set; auto; lia.
  - intros. apply bal_set_other; auto.
  - apply bal_set_same.
Qed.
Lemma burn_Ok : forall l s t a, a <= bal t l -> a <= s -> exists r, spl_burn l s t a = Ok r.
Proof. intros l s t a H1 H2. unfold spl_burn. rewrite !(proj2 (Z.ltb_ge _ _)) by lia. eauto. Qed.
Lemma bal_le_total : forall l h, funds_ok l -> bal h l <= total l.
Proof.
  unfold funds_ok. induction l as [| [h' w] r IH]; intros h H; cbn; [lia |]. inversion H; subst. cbn in *.
  assert (0 <= total r) by (clear - H3; induction r as [| [? ?] r IH]; cbn; [lia |]; inversion H3; subst; cbn in *; specialize (IH H2); lia).
  destruct (holder_eqb h h'); [lia |]. specialize (IH h H3). lia.
Qed.

(** ** Account maps *)
Lemma ct_get_set : forall m k v j, ct_get j (ct_set k v m) = if j =? k then Some v else ct_get j m.
Proof.
  induction m as [| [k' w] r IH]; intros k v j; cbn; [destruct (j =? k); auto |].
  destruct (k =? k') eqn:E; cbn; b2p.
  - subst k'. destruct (j =? k); auto.
  - rewrite IH. destruct (j =? k') eqn:E1; auto. b2p. subst. rewrite (proj2 (Z.eqb_neq k' k)) by lia. reflexivity.
Qed.
Lemma cpkey_eqb_eq : forall a b, cpkey_eqb a b = true <-> a = b.
Proof.
  intros [[u l] h] [[u' l'] h']. cbn. split; intros H.
  - b2p. congruence.
  - injection H as -> -> ->. rewrite !Z.eqb_refl. reflexivity.
Qed.
Lemma cpkey_eqb_refl : forall a, cpkey_eqb a a = true. Proof. intros. apply cpkey_eqb_eq. reflexivity. Qed.
Lemma cpkey_eqb_neq : forall a b, a <> b -> cpkey_eqb a b = false.
Proof. intros a b H. destruct (cpkey_eqb a b) eqn:E; auto. apply cpkey_eqb_eq in E. contradiction. Qed.
Lemma cpkey_dec : forall a b : cpkey, {a = b} + {a <> b}.
Proof. intros a b. destruct (cpkey_eqb a b) eqn:E; [left; apply cpkey_eqb_eq; auto | right; intros ->; rewrite cpkey_eqb_refl in E; discriminate]. Qed.
Lemma cp_get_set : forall m k v j, cp_get j (cp_set k v m) = if cpkey_eqb j k then Some v else cp_get j m.
Proof.
  induction m as [| [k' w] r IH]; intros k v j; cbn; [destruct (cpkey_eqb j k); auto |].
  destruct (cpkey_eqb k k') eqn:E; cbn.
  - apply cpkey_eqb_eq in E. subst k'. destruct (cpkey_eqb j k); auto.
  - rewrite IH. destruct (cpkey_eqb j k') eqn:E1; auto. apply cpkey_eqb_eq in E1. subst k'.
    rewrite cpkey_eqb_neq; auto. intros ->. rewrite cpkey_eqb_refl in E. discriminate.
Qed.
Lemma cp_get_in : forall m k v, cp_get k m = Some v -> In (k, v) m.
Proof.
  induction m as [| [k' w] r IH]; intros k v H; cbn in *; [discriminate |]. destruct (cpkey_eqb k k') eqn:E; [| auto].
  apply cpkey_eqb_eq in E. injection H as ->. subst. auto.
Qed.
Lemma cp_set_in : forall m k v j w, In (j, w) (cp_set k v m) -> (j = k /\ w = v) \/ In (j, w) m.
Proof.
  induction m as [| [k' u] r IH]; intros k v j w H; cbn in *.
  - destruct H as [H | []]. injection H as <- <-. auto.
  - destruct (cpkey_eqb k k'); cbn in H; destruct H as [H | H]; try (injection H as <- <-; auto); auto. apply IH in H. tauto.
Qed.
Lemma cp_set_keys : forall m k v, NoDup (map fst m) -> NoDup (map fst (cp_set k v m)).
Proof.
  induction m as [| [k' w] r IH]; intros k v H; cbn; [repeat constructor; auto |]. inversion H; subst.
  destruct (cpkey_eqb k k') eqn:E; cbn.
  - apply cpkey_eqb_eq in E. subst k'. constructor; auto.
  - constructor; auto. intros I. apply in_map_iff in I. destruct I as ([j u] & J & I). cbn in J. subst j.
    apply cp_set_in in I. destruct I as [[-> ->] | I]; [rewrite cpkey_eqb_refl in E; discriminate |].
    apply H2. apply in_map_iff. exists (k', u). auto.
Qed.
Lemma ct_get_in : forall m k v, ct_get k m = Some v -> In (k, v) m.
Proof.
  induction m as [| [k' w] r IH]; intros k v H; cbn in *; [discriminate |]. destruct (k =? k') eqn:E; [| auto].
  b2p. injection H as ->. subst. auto.
Qed.

(** Sums over positions. *)
Fixpoint psum (f : cpkey -> cpos -> Z) (m : list (cpkey * cpos)) : Z :=
  match m with [] => 0 | (k, p) :: r => f k p + psum f r end.
Lemma psum_set : forall f m k v, psum f (cp_set k v m) = psum f m + f k v - match cp_get k m with Some w => f k w | None => 0 end.
Proof.
  intros f. induction m as [| [k' w] r IH]; intros k v; cbn; [lia |]. destruct (cpkey_eqb k k') eqn:E; cbn.
  - apply cpkey_eqb_eq in E. subst k'. lia.
  - rewrite IH. lia.
Qed.
Lemma psum_ge : forall f m k p, NoDup (map fst m) -> cp_get k m = Some p -> (forall j q, In (j, q) m -> 0 <= f j q) -> f k p <= psum f m.
Proof.
  intros f. induction m as [| [k' w] r IH]; intros k p N G H; cbn in *; [discriminate |].
  assert (S : forall j q, In (j, q) r -> 0 <= f j q) by auto.
  assert (0 <= psum f r) by (clear - S; induction r as [| [? ?] r IH]; cbn in *; [lia |]; pose proof (S _ _ (or_introl eq_refl)); specialize (IH (fun j q I => S j q (or_intror I))); lia).
  destruct (cpkey_eqb k k') eqn:E.
  - apply cpkey_eqb_eq in E. subst. injection G as ->. lia.
  - inversion N; subst. specialize (IH k p H4 G S). pose proof (H _ _ (or_introl eq_refl)). lia.
Qed.

(** ** Amount formulas on integer mantissas (scale 12) *)
Definition cl (p a b : Z) : Z := Z.max (Z.min p b) a.
(** Whole X and Y tokens that liquidity [l] (in 10^-12) is worth, for root prices in 10^-12. *)
Definition whole_x (p a b l : Z) : Z := l * (b - cl p a b) / (SC * (cl p a b * b / SC)).
Definition whole_y (p a b l : Z) : Z := l * (cl p a b - a) / (SC * SC).

Lemma sub12 : forall a b, 0 <= b <= a -> d_sub (d12 a) (d12 b) = Ok (d12 (a - b)).
Proof.
  intros a b H. unfold d_sub, d_add, d12. cbn. destruct (b <? a) eqn:E; b2p.
  - rewrite csub_Ok by lia. reflexivity.
  - rewrite (proj2 (Z.ltb_ge a b)) by lia. replace (a - b) with 0 by lia. reflexivity.
Qed.
Lemma clamp12 : forall p a b, clamp_rp (d12 p) (d12 a) (d12 b) = Ok (d12 (cl p a b)).
Proof.
  intros p a b. unfold clamp_rp, d_min, d_max, d_lte, d_gte, d12, cl. cbn. destruct (p <=? b) eqn:E; cbn.
  - destruct (a <=? p) eqn:E1; cbn; b2p; do 2 f_equal; lia.
  - destruct (a <=? b) eqn:E1; cbn; b2p; do 2 f_equal; lia.
Qed.
Lemma div12 : forall a b, 0 < b -> d_div (d12 a) (d12 b) = if a * SC <? U128 then Ok (d12 (a * SC / b)) else Panic.
Proof.
  intros a b H. unfold d_div, denominator, d12. cbn [dval dscale dneg]. rewrite pow10_Ok by lia. cbn [bind]. unfold cmul. change (10 ^ 12) with SC.
  destruct (a * SC <? U128); cbn [bind]; auto. rewrite cdiv_Ok by lia. reflexivity.
Qed.
Lemma cl_bounds : forall p a b, a <= b -> a <= cl p a b <= b.
Proof. intros. unfold cl. lia. Qed.
Lemma x12 : forall l p a b, SC <= p -> SC <= a -> a <= b ->
  x_from_l_rp_rng (d12 l) (d12 p) (d12 a) (d12 b) =
  let c := cl p a b in
  if c * b <? U128 then if l * (b - c) <? U128 then if l * (b - c) / SC * SC <? U128 then Ok (d12 (l * (b - c) / SC * SC / (c * b / SC))) else Panic else Panic else Panic.
Proof.
  intros l p a b Hp Ha Hb. pose proof SCpos. pose proof (cl_bounds p a b Hb). unfold x_from_l_rp_rng. unfold is_zero. cbn [d12 dval].
  rewrite !(proj2 (Z.eqb_neq _ 0)) by lia. cbn [orb]. change (mkD p 12 false) with (d12 p). change (mkD a 12 false) with (d12 a). change (mkD b 12 false) with (d12 b). rewrite clamp12. cbn [bind]. rewrite sub12 by lia. cbn [unwrap bind]. rewrite mul12.
  cbv zeta. destruct (cl p a b * b <? U128); cbn [bind]; auto. rewrite mul12. destruct (l * (b - cl p a b) <? U128); cbn [bind]; auto.
  rewrite div12; auto. assert (SC * SC <= cl p a b * b) by nia. assert (SC <= cl p a b * b / SC) by (apply Z.div_le_lower_bound; lia). lia.
Qed.
Lemma y12 : forall l p a b, SC <= p -> SC <= a -> a <= b ->
  y_from_l_rp_rng (d12 l) (d12 p) (d12 a) (d12 b) =
  let c := cl p a b in if l * (c - a) <? U128 then Ok (d12 (l * (c - a) / SC)) else Panic.
Proof.
  intros l p a b Hp Ha Hb. pose proof SCpos. pose proof (cl_bounds p a b Hb). unfold y_from_l_rp_rng. rewrite clamp12. cbn [bind]. rewrite sub12 by lia. cbn [unwrap bind is_negative d12 dneg andb].
  change (mkD (cl p a b - a) 12 false) with (d12 (cl p a b - a)). rewrite mul12. reflexivity.
Qed.
Lemma div_twice : forall n m, 0 < m -> n * SC / m / SC = n / m.
Proof. intros n m H. pose proof SCpos. rewrite Z.div_div by lia. apply Z.div_mul_cancel_r; lia. Qed.

Lemma x12_ok : forall l p a b x, 0 <= l -> SC <= p -> SC <= a -> a <= b -> x_from_l_rp_rng (d12 l) (d12 p) (d12 a) (d12 b) = Ok x ->
  x = d12 (dval x) /\ 0 <= dval x < U128 /\ dval x / SC = whole_x p a b l.
Proof.
  intros l p a b x Hl Hp Ha Hb H. pose proof SCpos. pose proof (cl_bounds p a b Hb). rewrite x12 in H by auto. cbv zeta in H. unfold whole_x. set (c := cl p a b) in *.
  assert (Pm : SC <= c * b / SC) by (apply Z.div_le_lower_bound; nia).
  destruct (c * b <? U128); [| discriminate]. destruct (l * (b - c) <? U128) eqn:E2; [| discriminate]. destruct (l * (b - c) / SC * SC <? U128) eqn:E; [| discriminate]. injection H as <-. cbn [d12 dval]. b2p.
  assert (0 <= l * (b - c) / SC) by (apply Z.div_pos; nia).
  split; [reflexivity |]. split.
  - split; [apply Z.div_pos; nia |]. eapply Z.le_lt_trans; [apply div_le_self |]; lia.
  - rewrite div_twice by lia. rewrite Z.div_div by lia. reflexivity.
Qed.
Lemma y12_ok : forall l p a b y, 0 <= l -> SC <= p -> SC <= a -> a <= b -> y_from_l_rp_rng (d12 l) (d12 p) (d12 a) (d12 b) = Ok y ->
  y = d12 (dval y) /\ 0 <= dval y < U128 /\ dval y / SC = whole_y p a b l.
Proof.
  intros l p a b y Hl Hp Ha Hb H. pose proof SCpos. pose proof (cl_bounds p a b Hb). rewrite y12 in H by auto. cbv zeta in H. unfold whole_y. set (c := cl p a b) in *.
  destruct (l * (c - a) <? U128) eqn:E; [| discriminate]. injection H as <-. cbn [d12 dval]. b2p. assert (0 <= l * (c - a)) by nia.
  split; [reflexivity |]. split.
  - split; [apply Z.div_pos; lia |]. eapply Z.le_lt_trans; [apply div_le_self |]; lia.
  - rewrite Z.div_div by lia. reflexivity.
Qed.
(** Smaller liquidity: the formulas still succeed. *)
Lemma x12_mono : forall l l' p a b x, 0 <= l' <= l -> SC <= p -> SC <= a -> a <= b -> x_from_l_rp_rng (d12 l) (d12 p) (d12 a) (d12 b) = Ok x ->
  exists x', x_from_l_rp_rng (d12 l') (d12 p) (d12 a) (d12 b) = Ok x'.
Proof.
  intros l l' p a b x Hl Hp Ha Hb. pose proof SCpos. pose proof (cl_bounds p a b Hb). rewrite !x12 by auto. cbv zeta. set (c := cl p a b) in *.
  destruct (c * b <? U128); [| discriminate]. destruct (l * (b - c) <? U128) eqn:E1; [| discriminate]. destruct (l * (b - c) / SC * SC <? U128) eqn:E; [| discriminate]. intros _. b2p.
  assert (l' * (b - c) <= l * (b - c)) by (apply Z.mul_le_mono_nonneg_r; lia). assert (l' * (b - c) / SC <= l * (b - c) / SC) by (apply Z.div_le_mono; lia).
  rewrite !(proj2 (Z.ltb_lt _ _)) by nia. eauto.
Qed.
Lemma y12_mono : forall l l' p a b x, 0 <= l' <= l -> SC <= p -> SC <= a -> a <= b -> y_from_l_rp_rng (d12 l) (d12 p) (d12 a) (d12 b) = Ok x ->
  exists x', y_from_l_rp_rng (d12 l') (d12 p) (d12 a) (d12 b) = Ok x'.
Proof.
  intros l l' p a b x Hl Hp Ha Hb. pose proof SCpos. pose proof (cl_bounds p a b Hb). rewrite !y12 by auto. cbv zeta. set (c := cl p a b) in *.
  destruct (l * (c - a) <? U128) eqn:E; [| discriminate]. intros _. b2p. assert (l' * (c - a) <= l * (c - a)) by (apply Z.mul_le_mono_nonneg_r; lia).
  rewrite (proj2 (Z.ltb_lt _ _)) by nia. eauto.
Qed.
(** Splitting liquidity never gains, merging gains at most one token. *)
Lemma floor_split : forall n m w q, 0 < q -> n * w / q + m * w / q <= (n + m) * w / q <= n * w / q + m * w / q + 1.
Proof.
  intros n m w q H. rewrite Z.mul_add_distr_r. split; [apply floor_super; auto |].
  pose proof (Z.mul_succ_div_gt (n * w) q H). pose proof (Z.mul_succ_div_gt (m * w) q H).
  apply Z.lt_succ_r. apply Z.div_lt_upper_bound; auto. nia.
Qed.
Lemma whole_split : forall p a b n m, SC <= a -> a <= b ->
  (whole_x p a b n + whole_x p a b m <= whole_x p a b (n + m) <= whole_x p a b n + whole_x p a b m + 1) /\
  (whole_y p a b n + whole_y p a b m <= whole_y p a b (n + m) <= whole_y p a b n + whole_y p a b m + 1).
Proof.
  intros p a b n m Ha Hb. pose proof SCpos. pose proof (cl_bounds p a b Hb). unfold whole_x, whole_y.
  assert (SC <= cl p a b * b / SC) by (apply Z.div_le_lower_bound; nia). split; apply floor_split; nia.
Qed.
Lemma whole_zero : forall p a b, whole_x p a b 0 = 0 /\ whole_y p a b 0 = 0.
Proof. intros. unfold whole_x, whole_y. rewrite !Z.mul_0_l. split; apply Zdiv_0_l. Qed.
Lemma whole_nn : forall p a b l, 0 <= l -> SC <= a -> a <= b -> 0 <= whole_x p a b l /\ 0 <= whole_y p a b l.
Proof.
  intros p a b l Hl Ha Hb. pose proof SCpos. pose proof (cl_bounds p a b Hb). unfold whole_x, whole_y.
  assert (SC <= cl p a b * b / SC) by (apply Z.div_le_lower_bound; nia). split; apply Z.div_pos; nia.
Qed.
Lemma whole_mono : forall p a b l l', 0 <= l' <= l -> SC <= a -> a <= b -> whole_x p a b l' <= whole_x p a b l /\ whole_y p a b l' <= whole_y p a b l.
Proof.
  intros p a b l l' Hl Ha Hb. pose proof SCpos. pose proof (cl_bounds p a b Hb). unfold whole_x, whole_y.
  assert (SC <= cl p a b * b / SC) by (apply Z.div_le_lower_bound; nia). split; apply Z.div_le_mono; nia.
Qed.

(** Decimal operations of the handlers at scale 12. *)
Lemma d12_eta : forall d, dscale d = 12 -> dneg d = false -> d = d12 (dval d).
Proof. intros [v s n] H1 H2. cbn in *. subst. reflexivity. Qed.
Lemma from_u64_12 : forall n d, 0 <= n -> to_compute_scale (from_u64 n) = Ok d -> d = d12 (n * SC) /\ n * SC < U128.
Proof. intros n d Hn H. unfold to_compute_scale, to_scale, from_u64 in H. cbn in H. msteps. cbn. auto. Qed.
Lemma from_u64_Ok : forall n, 0 <= n < U64 -> to_compute_scale (from_u64 n) = Ok (d12 (n * SC)).
Proof.
  intros n Hn. unfold to_compute_scale, to_scale, from_u64. cbn. rewrite cmul_Ok; [reflexivity |]. change (n * 1000000000000 < 340282366920938463463374607431768211456). change U64 with 18446744073709551616 in Hn. lia.
Qed.
Lemma abs12 : forall v, d_abs (d12 v) = if v / SC <? U64 then Ok (v / SC) else Panic.
Proof. intros v. unfold d_abs, to_scale, d12. cbn [dval dscale dneg]. cbn. unfold to_u64, to_u64_chk. cbn. reflexivity. Qed.
Lemma compute12 : forall v n, 0 <= v < U128 -> to_compute_scale (mkD v 12 n) = Ok (mkD v 12 n).
Proof. intros v n H. unfold to_compute_scale, to_scale. cbn. rewrite cmul_Ok; [| change (10 ^ 0) with 1; lia]. cbn. change (10 ^ 0) with 1. rewrite Z.mul_1_r. reflexivity. Qed.
Lemma sub_zero12 : forall v r, 0 <= v -> d_sub (d12 v) (mkD 0 12 false) = Ok r -> r = d12 v.
Proof. intros v r Hv H. change (mkD 0 12 false) with (d12 0) in H. rewrite sub12 in H by lia. injection H as <-. rewrite Z.sub_0_r. reflexivity. Qed.
Lemma add_zero12 : forall v, 0 <= v < U128 -> d_add (d12 v) (mkD 0 12 false) = Ok (d12 v).
Proof. intros v Hv. unfold d_add, d12. cbn. rewrite cadd_Ok by lia. cbn. rewrite Z.add_0_r. reflexivity. Qed.
