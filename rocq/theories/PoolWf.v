(** Well-formed pools (every decimal a possible Rust value) and inversion lemmas for the single-tick swap step,
    tick crossing and the swap loops. *)
From Coq Require Import ZArith QArith List Bool Lia String Sorted.
From Verif Require Import Base BaseLemmas DecimalModel DecimalSpec DecimalProofs PowProofs WfProofs MathModel TickProofs TickLoop PoolModel.
Import ListNotations.
Open Scope Z_scope.

(** Invert one bind, naming the value and the equation. *)
Ltac bd H x E := apply bind_ok in H; destruct H as [x [E H]]; lazymatch type of E with unwrap _ = _ => apply unwrap_ok in E | assert _ = _ => apply assert_ok in E | _ => idtac end.

(** Split conjunctions only. *)
Ltac csplit := repeat match goal with |- _ /\ _ => split end.

Global Opaque tick_to_rp rp_to_tick_loop.

Definition g_wf (g : gstate) : Prop :=
  wf (g_liq g) /\ wf (g_rp g) /\ 0 <= g_tick g /\ wf (g_fx g) /\ wf (g_fy g) /\ wf (g_hx g) /\ wf (g_hy g).
Definition t_wf (t : tstate) : Prop :=
  wf (t_net t) /\ wf (t_gross t) /\ wf (t_fx t) /\ wf (t_fy t) /\ wf (t_hx t) /\ wf (t_hy t).
Definition p_wf (q : pstate) : Prop :=
  wf (p_liq q) /\ wf (p_fx q) /\ wf (p_fy q) /\ wf (p_hx q) /\ wf (p_hy q).
(** A BTreeMap iterates in ascending key order; a HashMap holds each key once. *)
Definition ticks_wf (l : list (Z * tstate)) : Prop :=
  StronglySorted Z.lt (map fst l) /\ forall k t, In (k, t) l -> 0 <= k /\ t_wf t.
Definition pos_wf (l : list (pkey * pstate)) : Prop := NoDup (map fst l) /\ forall k q, In (k, q) l -> p_wf q.
Definition pool_wf (p : pool) : Prop :=
  0 <= spacing p /\ g_wf (gs p) /\ ticks_wf (ticks p) /\ pos_wf (positions p) /\
  (wf (rx p) /\ wf (ry p) /\ wf (x_adj p) /\ wf (y_adj p) /\ wf (x_fee p) /\ wf (y_fee p)) /\
  wf (hmm_c p) /\ wf (fee_rate p).

(** ** Maps *)
Lemma tm_get_in : forall k m t, tm_get k m = Some t -> In (k, t) m.
Proof.
  induction m as [| [k' v] m IH]; cbn; intros t H; [discriminate |]. destruct (k =? k') eqn:E; b2p; [injection H as <-; subst; auto | right; auto].
Qed.
Lemma tm_get_none : forall k m, tm_get k m = None -> ~ In k (map fst m).
Proof.
  induction m as [| [k' v] m IH]; cbn; intros H; [auto |]. destruct (k =? k') eqn:E; b2p; [discriminate |]. intros [G | G]; [lia | apply IH in H; auto].
Qed.
Lemma tm_get_some : forall k m, In k (map fst m) -> exists t, tm_get k m = Some t.
Proof.
  intros k m H. destruct (tm_get k m) eqn:E; eauto. apply tm_get_none in E. contradiction.
Qed.
Lemma tm_set_in : forall k v m k' t, In (k', t) (tm_set k v m) -> (k' = k /\ t = v) \/ In (k', t) m.
Proof.
  induction m as [| [a b] m IH]; cbn; intros k' t H.
  - destruct H as [H | []]. injection H as <- <-. auto.
  - destruct (k =? a) eqn:E; b2p; cbn in H.
    + destruct H as [H | H]; [injection H as <- <-; auto | auto].
    + destruct (k <? a); cbn in H.
      * destruct H as [H | H]; [injection H as <- <-; auto | auto].
      * destruct H as [H | H]; [auto |]. destruct (IH _ _ H); auto.
Qed.
Lemma tm_del_in : forall k m k' t, In (k', t) (tm_del k m) -> In (k', t) m.
Proof.
  induction m as [| [a b] m IH]; cbn; intros k' t H; auto. destruct (k =? a); auto. destruct H; auto.
Qed.
Lemma tm_set_keys : forall k v m, In k (map fst m) -> StronglySorted Z.lt (map fst m) -> map fst (tm_set k v m) = map fst m.
Proof.
  induction m as [| [a b] m IH]; cbn; intros Hi S; [contradiction |]. inversion S as [| ? ? S1 S2]; subst.
  destruct (k =? a) eqn:E; b2p; [subst; auto |]. destruct Hi as [Hi | Hi]; [lia |].
  rewrite Forall_forall in S2. specialize (S2 _ Hi). replace (k <? a) with false by (symmetry; apply Z.ltb_ge; lia).
  cbn. rewrite IH; auto.
Qed.
Lemma tm_set_key_in : forall k v m k', In k' (map fst (tm_set k v m)) <-> k' = k \/ In k' (map fst m).
Proof.
  induction m as [| [a b] m IH]; cbn; intros k'; [intuition |].
  destruct (k =? a) eqn:E; b2p; [subst; cbn; intuition |]. destruct (k <? a); cbn; [intuition |]. rewrite IH. intuition.
Qed.
Lemma tm_set_sorted : forall k v m, StronglySorted Z.lt (map fst m) -> StronglySorted Z.lt (map fst (tm_set k v m)).
Proof.
  induction m as [| [a b] m IH]; cbn; intros S. { repeat constructor. } inversion S as [| ? ? S1 S2]; subst.
  destruct (k =? a) eqn:E; b2p; [subst; cbn; auto |]. destruct (k <? a) eqn:F; b2p; cbn.
  - constructor; auto. constructor; auto. rewrite Forall_forall in *. intros y Hy. specialize (S2 _ Hy). lia.
  - constructor; auto. rewrite Forall_forall in *. intros y Hy. apply tm_set_key_in in Hy. destruct Hy as [-> | Hy]; [lia | auto].
Qed.
Lemma tm_del_key_in : forall k m k', StronglySorted Z.lt (map fst m) -> In k' (map fst (tm_del k m)) <-> k' <> k /\ In k' (map fst m).
Proof.
  induction m as [| [a b] m IH]; cbn; intros k' S; [intuition |]. inversion S as [| ? ? S1 S2]; subst. rewrite Forall_forall in S2.
  destruct (k =? a) eqn:E; b2p; cbn.
  - subst. split; [intros H; specialize (S2 _ H); split; [lia | auto] | intros [H1 [H2 | H2]]; [lia | auto]].
  - rewrite IH by auto. split; [intros [H | H]; [split; [lia | auto] | tauto] | intros [H1 [H2 | H2]]; auto].
Qed.
Lemma tm_del_sorted : forall k m, StronglySorted Z.lt (map fst m) -> StronglySorted Z.lt (map fst (tm_del k m)).
Proof.
  induction m as [| [a b] m IH]; cbn; intros S; auto. inversion S as [| ? ? S1 S2]; subst.
  destruct (k =? a); auto. cbn. constructor; auto. rewrite Forall_forall in *. intros y Hy. apply tm_del_key_in in Hy; auto. apply S2. tauto.
Qed.
Lemma tm_get_set_same : forall k v m, tm_get k (tm_set k v m) = Some v.
Proof.
  induction m as [| [a b] m IH]; cbn. { rewrite Z.eqb_refl. auto. }
  destruct (k =? a) eqn:E; cbn; [rewrite Z.eqb_refl; auto |]. destruct (k <? a); cbn; [rewrite Z.eqb_refl; auto |]. rewrite E. auto.
Qed.
Lemma tm_get_set_other : forall k v m k', k' <> k -> tm_get k' (tm_set k v m) = tm_get k' m.
Proof.
  intros k v m k' N. assert (N' : (k' =? k) = false) by (apply Z.eqb_neq; auto). induction m as [| [a b] m IH]; cbn; [rewrite N'; auto |].
  destruct (k =? a) eqn:E; [apply Z.eqb_eq in E; subst; cbn; rewrite N'; auto |]. destruct (k <? a); cbn; [rewrite N'; auto |]. rewrite IH. auto.
Qed.
Lemma tm_get_in' : forall k t m, StronglySorted Z.lt (map fst m) -> In (k, t) m -> tm_get k m = Some t.
Proof.
  induction m as [| [a b] m IH]; cbn; intros S H; [contradiction |]. inversion S as [| ? ? S1 S2]; subst. destruct H as [H | H].
  - injection H as -> ->. rewrite Z.eqb_refl. auto.
  - assert (a < k). { rewrite Forall_forall in S2. apply S2. apply (in_map fst) in H. auto. }
    replace (k =? a) with false by (symmetry; apply Z.eqb_neq; lia). auto.
Qed.
Lemma tm_get_del_same : forall k m, StronglySorted Z.lt (map fst m) -> tm_get k (tm_del k m) = None.
Proof.
  intros k m S. destruct (tm_get k (tm_del k m)) eqn:E; auto. apply tm_get_in in E. apply (in_map fst) in E. apply tm_del_key_in in E; auto. cbn in E. tauto.
Qed.
Lemma tm_get_del_other : forall k m k', k' <> k -> tm_get k' (tm_del k m) = tm_get k' m.
Proof.
  intros k m k' N. induction m as [| [a b] m IH]; cbn; auto. destruct (k =? a) eqn:E; b2p.
  - subst. replace (k' =? a) with false by (symmetry; apply Z.eqb_neq; auto). auto.
  - cbn. rewrite IH. auto.
Qed.
Lemma ticks_wf_set : forall k v m, ticks_wf m -> 0 <= k -> t_wf v -> ticks_wf (tm_set k v m).
Proof. intros k v m [S H] Hk Hv. split; [apply tm_set_sorted; auto |]. intros k' t Hi. apply tm_set_in in Hi. destruct Hi as [[-> ->] | Hi]; auto. Qed.
Lemma ticks_wf_del : forall k m, ticks_wf m -> ticks_wf (tm_del k m).
Proof. intros k m [S H]. split; [apply tm_del_sorted; auto |]. intros k' t Hi. apply tm_del_in in Hi. auto. Qed.

Lemma pm_set_in : forall k v m k' q, In (k', q) (pm_set k v m) -> (k' = k /\ q = v) \/ In (k', q) m.
Proof.
  induction m as [| [a b] m IH]; cbn; intros k' q H.
  - destruct H as [H | []]. injection H as <- <-. auto.
  - destruct (pkey_eqb k a) eqn:E; cbn in H.
    + destruct H as [H | H]; [injection H as <- <-; auto | auto].
    + destruct H as [H | H]; [auto |]. destruct (IH _ _ H); auto.
Qed.
Lemma pm_del_in : forall k m k' q, In (k', q) (pm_del k m) -> In (k', q) m.
Proof.
  induction m as [| [a b] m IH]; cbn; intros k' q H; auto. destruct (pkey_eqb k a); auto. destruct H; auto.
Qed.
Lemma pkey_eqb_eq : forall a b, pkey_eqb a b = true <-> a = b.
Proof.
  intros [[u l] h] [[u' l'] h']. unfold pkey_eqb. rewrite !andb_true_iff, String.eqb_eq, !Z.eqb_eq. split.
  - intros [[-> ->] ->]. auto.
  - intros H. injection H as -> -> ->. auto.
Qed.
Lemma pm_get_in : forall k m q, pm_get k m = Some q -> In (k, q) m.
Proof.
  induction m as [| [k' v] m IH]; cbn; intros t H; [discriminate |]. destruct (pkey_eqb k k') eqn:E; [apply pkey_eqb_eq in E; injection H as <-; subst; auto | right; auto].
Qed.
Lemma pm_set_key_in : forall k v m k', In k' (map fst (pm_set k v m)) <-> k' = k \/ In k' (map fst m).
Proof.
  induction m as [| [a b] m IH]; cbn; intros k'; [intuition |].
  destruct (pkey_eqb k a) eqn:E; [apply pkey_eqb_eq in E; subst; cbn; intuition |]. cbn. rewrite IH. intuition.
Qed.
Lemma pm_set_nodup : forall k v m, NoDup (map fst m) -> NoDup (map fst (pm_set k v m)).
Proof.
  induction m as [| [a b] m IH]; cbn; intros S. { repeat constructor; auto. } inversion S as [| ? ? S1 S2]; subst.
  destruct (pkey_eqb k a) eqn:E; [apply pkey_eqb_eq in E; subst; cbn; auto |]. cbn. constructor; auto.
  intros Hi. apply pm_set_key_in in Hi. destruct Hi as [-> | Hi]; [| contradiction].
  assert (pkey_eqb k k = true) by (apply pkey_eqb_eq; auto). congruence.
Qed.
Lemma pm_del_nodup : forall k m, NoDup (map fst m) -> NoDup (map fst (pm_del k m)).
Proof.
  induction m as [| [a b] m IH]; cbn; intros S; auto. inversion S as [| ? ? S1 S2]; subst.
  destruct (pkey_eqb k a); auto. cbn. constructor; auto. intros Hi. apply S1. apply in_map_iff in Hi. destruct Hi as [[k' q] [E Hi]].
  apply pm_del_in in Hi. apply in_map_iff. exists (k', q). auto.
Qed.
Lemma pm_get_set_same : forall k v m, pm_get k (pm_set k v m) = Some v.
Proof.
  assert (R : forall k, pkey_eqb k k = true) by (intros; apply pkey_eqb_eq; auto).
  induction m as [| [a b] m IH]; cbn. { rewrite R. auto. } destruct (pkey_eqb k a) eqn:E; cbn; [rewrite R; auto |]. rewrite E. auto.
Qed.
Lemma pkey_neq : forall a b, a <> b -> pkey_eqb a b = false.
Proof. intros a b H. destruct (pkey_eqb a b) eqn:E; auto. apply pkey_eqb_eq in E. contradiction. Qed.
Lemma pm_get_set_other : forall k v m k', k' <> k -> pm_get k' (pm_set k v m) = pm_get k' m.
Proof.
  intros k v m k' N. pose proof (pkey_neq _ _ N) as N'. induction m as [| [a b] m IH]; cbn; [rewrite N'; auto |].
  destruct (pkey_eqb k a) eqn:E; cbn; [apply pkey_eqb_eq in E; subst; rewrite N'; auto |]. rewrite IH. auto.
Qed.
Lemma pm_get_del_other : forall k m k', k' <> k -> pm_get k' (pm_del k m) = pm_get k' m.
Proof.
  intros k m k' N. induction m as [| [a b] m IH]; cbn; auto. destruct (pkey_eqb k a) eqn:E.
  - apply pkey_eqb_eq in E. subst. rewrite pkey_neq; auto.
  - cbn. rewrite IH. auto.
Qed.
Lemma pm_get_none : forall k m, pm_get k m = None -> ~ In k (map fst m).
Proof.
  induction m as [| [k' v] m IH]; cbn; intros H; [auto |]. destruct (pkey_eqb k k') eqn:E; [discriminate |].
  intros [G | G]; [| apply IH in H; auto]. subst. assert (pkey_eqb k k = true) by (apply pkey_eqb_eq; auto). congruence.
Qed.
Lemma pm_get_in' : forall k t m, NoDup (map fst m) -> In (k, t) m -> pm_get k m = Some t.
Proof.
  induction m as [| [a b] m IH]; cbn; intros S H; [contradiction |]. inversion S as [| ? ? S1 S2]; subst. destruct H as [H | H].
  - injection H as -> ->. assert (R : pkey_eqb k k = true) by (apply pkey_eqb_eq; auto). rewrite R. auto.
  - rewrite pkey_neq; auto. intros ->. apply S1. apply (in_map fst) in H. auto.
Qed.
Lemma pm_get_del_same : forall k m, NoDup (map fst m) -> pm_get k (pm_del k m) = None.
Proof.
  intros k m S. induction m as [| [a b] m IH]; cbn; auto. inversion S as [| ? ? S1 S2]; subst. destruct (pkey_eqb k a) eqn:E.
  - apply pkey_eqb_eq in E. subst. destruct (pm_get a m) eqn:G; auto. apply pm_get_in in G. apply (in_map fst) in G. contradiction.
  - cbn. rewrite E. auto.
Qed.
Lemma pos_wf_set : forall k v m, pos_wf m -> p_wf v -> pos_wf (pm_set k v m).
Proof. intros k v m [S H] Hv. split; [apply pm_set_nodup; auto |]. intros k' t Hi. apply pm_set_in in Hi. destruct Hi as [[-> ->] | Hi]; eauto. Qed.
Lemma pos_wf_del : forall k m, pos_wf m -> pos_wf (pm_del k m).
Proof. intros k m [S H]. split; [apply pm_del_nodup; auto |]. intros k' t Hi. apply pm_del_in in Hi. eauto. Qed.

(** ** Ticks and prices *)
Lemma tick_rp_wf : forall t r, tick_to_rp t = Ok r -> wf r /\ dscale r = 12 /\ dneg r = false /\ 10 ^ 12 <= dval r.
Proof.
  intros t r H. assert (C : t < 0 \/ 0 <= t < 2 ^ 19 \/ 2 ^ 19 <= t) by lia. destruct C as [C | [C | C]].
  - rewrite tick_pow in H. destruct t; try lia. injection H as <-. unfold d12, SC. repeat split; cbn; lia.
  - destruct (tick_apx t r C H) as [Er [A1 _]]. pose proof (tick_le t r C H) as L.
    assert (O : ones 19 < 2 ^ 128) by (vm_compute; reflexivity). generalize dependent (ones 19). intros o L O. rewrite Er.
    pose proof SCpos. unfold SC in *. unfold wf. cbn [dval dscale dneg d12]. repeat split; try lia.
  - rewrite tick_panics in H by lia. discriminate.
Qed.
Lemma rtl_nn : forall rp d s x, wf rp -> 0 <= s -> rp_to_tick_loop rp d s = Ok x -> s <= x.
Proof. intros rp d s x W Hs H. pose proof (search_short rp d s x W Hs H). lia. Qed.
Lemma possible_down_le : forall t s r, 0 <= t -> 0 <= s -> tk_to_possible_tk t s false = Ok r -> 0 <= r <= t /\ r = t / s * s /\ 0 < s.
Proof.
  intros t s r Ht Hs H. unfold tk_to_possible_tk, d_div, d_mul, denominator, from_u128, into_u128 in H. msteps. cbn in *. msteps. cbn in *.
  change (10 ^ 0) with 1 in *. rewrite Z.mul_1_r in *. rewrite Z.div_1_r. assert (0 < s) by lia. pose proof (div_bounds t s Ht ltac:(lia)).
  split; [nia | auto].
Qed.

(** ** The single-range swap step *)
Lemma dy_drp_inv : forall l a b c, dy_from_l_drp l a b = Ok c -> wf l -> wf a -> wf b -> wf c.
Proof. intros l a b c H Wl Wa Wb. unfold dy_from_l_drp in H. msteps. wfs. auto. Qed.
Lemma dx_drp_inv : forall l a b c, dx_from_l_drp l a b = Ok c -> wf l -> wf a -> wf b -> wf c.
Proof. intros l a b c H Wl Wa Wb. unfold dx_from_l_drp in H. destruct (_ || _); [discriminate |]. msteps. wfs. auto. Qed.
Lemma dy_hmm_wf : forall orc l a b c o r, dy_from_l_drp_hmm orc l a b c o = Ok r -> wf l -> wf a -> wf b -> wf c -> wf o -> wf r.
Proof.
  intros orc l a b c o r H Wl Wa Wb Wc Wo. unfold dy_from_l_drp_hmm in H. rewrite one_eq in H. cbn [bind] in H. pose proof one12_wf.
  repeat match type of H with
  | bind _ _ = _ => apply bind_ok in H; destruct H as [? [? H]]
  | (if ?b then _ else _) = _ => destruct b; try discriminate
  | m_zero = _ => rewrite zero_eq in H
  end; msteps; wfs; auto; try apply zero_wf.
Qed.
Lemma dx_hmm_wf : forall orc l a b c o r, dx_from_l_drp_hmm orc l a b c o = Ok r -> wf l -> wf a -> wf b -> wf c -> wf o -> wf r.
Proof.
  intros orc l a b c o r H Wl Wa Wb Wc Wo. unfold dx_from_l_drp_hmm in H. rewrite one_eq in H. cbn [bind] in H. pose proof one12_wf.
  repeat match type of H with
  | bind _ _ = _ => apply bind_ok in H; destruct H as [? [? H]]
  | (if ?b then _ else _) = _ => destruct b; try discriminate
  | m_zero = _ => rewrite zero_eq in H
  end; msteps; wfs; auto; try apply zero_wf.
Qed.
Lemma rp_dx_wf : forall l rp dx r, rp_new_from_l_dx l rp dx = Ok r -> wf l -> wf rp -> wf dx -> wf r.
Proof. intros l rp dx r H W1 W2 W3. unfold rp_new_from_l_dx in H. msteps. destruct (is_zero _); [discriminate |]. msteps. destruct (is_negative _); [discriminate |]. msteps. wfs. auto. Qed.
Lemma rp_dy_wf : forall l rp dx r, rp_new_from_l_dy l rp dx = Ok r -> wf l -> wf rp -> wf dx -> wf r.
Proof. intros l rp dx r H W1 W2 W3. unfold rp_new_from_l_dy in H. destruct (is_zero _); [discriminate |]. msteps. destruct (is_negative _); [discriminate |]. msteps. wfs. auto. Qed.

Lemma pred_ok : forall a b, pred_u128 a = Ok b -> 0 <= a -> b = a - 1 /\ 0 <= b /\ 0 < a.
Proof. intros a b H Ha. unfold pred_u128 in H. destruct (a =? 0) eqn:E; [discriminate |]. msteps. b2p. lia. Qed.

Lemma within_new_inv : forall a b c d e f g w, within_new a b c d e f g = Ok w -> wf a -> wf b -> wf d -> wf f -> wf g ->
  w = mkW a b c d e f g /\ 0 <= mant a /\ mant b <= 0 /\ 0 <= mant f /\ 0 <= mant g /\ 0 <= mant d.
Proof.
  intros a b c d e f g w H Wa Wb Wd Wf Wg. unfold within_new in H.
  destruct (is_negative a) eqn:E1; [discriminate |]. destruct (is_positive b) eqn:E2; [discriminate |].
  destruct (is_negative f || is_negative g) eqn:E3; [discriminate |]. destruct (is_negative d) eqn:E4; [discriminate |]. msteps. b2p.
  apply is_neg_f in E1; [| apply wf_nn; auto]. apply is_pos_f in E2; [| apply wf_nn; auto].
  apply is_neg_f in E4; [| apply wf_nn; auto]. apply is_neg_f in H; [| apply wf_nn; auto]. apply is_neg_f in H0; [| apply wf_nn; auto]. auto 10.
Qed.

Definition step_facts (goal : Z) (srp dx rpg : decimal) (w : within) : Prop :=
  (wf (w_recv w) /\ wf (w_send w) /\ wf (w_rp w) /\ wf (w_adj w) /\ wf (w_fee w) /\ 0 <= w_tick w) /\
  (0 <= mant (w_recv w) /\ mant (w_send w) <= 0 /\ 0 <= mant (w_adj w) /\ 0 <= mant (w_fee w) /\ 0 <= mant (w_rp w) /\ 0 <= mant dx) /\
  tick_to_rp goal = Ok rpg /\
  (if w_cross w then w_rp w = rpg /\ w_tick w = goal
   else mant (w_recv w) + mant (w_fee w) = mant dx /\ dscale (w_recv w) = dscale dx).

(** Everything of [swap_within_x] that does not depend on the HMM parameter. *)
Definition core_x (p : pool) (start_rp : decimal) (goal : Z) (liq dx : decimal) : res (decimal * decimal * bool * Z * decimal) :=
  if is_negative dx then Panic
  else
    let* rp_goal := tick_to_rp goal in
    let* up := unwrap (d_gt rp_goal start_rp) in
    if up then Panic
    else
      let* one := m_one in
      let* ff := unwrap (d_sub one (fee_rate p)) in
      let* dx_max := d_mul dx ff in
      let* doable := dx_from_l_drp liq start_rp rp_goal in
      if is_negative doable then Panic
      else
        let* part := unwrap (d_lt doable dx_max) in
          (if part then
             let* q := d_div doable ff in
             let* fee := d_mul q (fee_rate p) in
             Ok (doable, fee, true, goal, rp_goal)
           else
             let* fee := unwrap (d_sub dx dx_max) in
             let* erp := rp_new_from_l_dx liq start_rp dx_max in
             let* g1 := pred_u128 goal in
             let* et := rp_to_tick_loop erp false g1 in
             let* c1 := unwrap (d_gt erp start_rp) in
             if c1 then Panic
             else
               let* c2 := unwrap (d_lt erp rp_goal) in
               if c2 then Panic
               else Ok (dx_max, fee, false, et, erp)).

Lemma within_x_core : forall orc p srp goal liq dx ro w, swap_within_x orc p srp goal liq dx ro = Ok w ->
  exists ddx fee cross et erp cp ddy adj ny,
    core_x p srp goal liq dx = Ok (ddx, fee, cross, et, erp) /\
    dy_from_l_drp liq srp erp = Ok cp /\
    (ddy = cp \/
     dy_from_l_drp_hmm orc liq srp erp (hmm_c p) ro = Ok ddy \/
     exists d1 d2, dy_from_l_drp_hmm orc liq srp ro (hmm_c p) ro = Ok d1 /\ dy_from_l_drp liq ro erp = Ok d2 /\ d_add d1 d2 = Ok ddy) /\
    ((is_zero (hmm_c p) = true \/ is_zero ro = true) -> ddy = cp) /\
    d_sub ddy cp = Ok adj /\ is_positive cp = false /\ is_negative adj = false /\
    d_add (ry p) cp = Ok ny /\ is_negative ny = false /\
    within_new ddx ddy et erp cross adj fee = Ok w.
Proof.
  intros orc p srp goal liq dx ro w H. unfold swap_within_x in H. unfold core_x.
  destruct (is_negative dx); [discriminate |].
  apply bind_ok in H; destruct H as [rpg [E1 H]]. rewrite E1. cbn [bind].
  apply bind_ok in H; destruct H as [up [E2 H]]. rewrite E2. cbn [bind]. destruct up; [discriminate |].
  apply bind_ok in H; destruct H as [one [E3 H]]. rewrite E3. cbn [bind].
  apply bind_ok in H; destruct H as [ff [E4 H]]. rewrite E4. cbn [bind].
  apply bind_ok in H; destruct H as [dxm [E5 H]]. rewrite E5. cbn [bind].
  apply bind_ok in H; destruct H as [dbl [E6 H]]. rewrite E6. cbn [bind]. destruct (is_negative dbl); [discriminate |].
  apply bind_ok in H; destruct H as [part [E7 H]]. rewrite E7. cbn [bind].
  apply bind_ok in H; destruct H as [[[[[ddx fee] cross] et] erp] [E8 H]]. 
  apply bind_ok in H; destruct H as [cp [E9 H]]. apply bind_ok in H; destruct H as [plain [E10 H]].
  apply bind_ok in H; destruct H as [ddy [E11 H]]. apply bind_ok in H; destruct H as [adj [E12 H]].
  destruct (is_positive cp) eqn:E13; [discriminate |]. destruct (is_negative adj) eqn:E14; [discriminate |].
  apply bind_ok in H; destruct H as [ny [E15 H]]. destruct (is_negative ny) eqn:E16; [discriminate |].
  apply bind_ok in H; destruct H as [u [E17 H]].
  exists ddx, fee, cross, et, erp, cp, ddy, adj, ny. split; auto. split; auto. msteps.
  split; [| split; [| auto 10]].
  - destruct plain; [msteps; auto |]. apply bind_ok in E11; destruct E11 as [a [_ E11]]. apply bind_ok in E11; destruct E11 as [b [_ E11]].
    destruct b.
    + apply bind_ok in E11; destruct E11 as [d1 [F1 E11]]. apply bind_ok in E11; destruct E11 as [d2 [F2 E11]].
      destruct (is_positive d1 || is_positive d2); [discriminate |]. apply unwrap_ok in E11. right; right. exists d1, d2. auto.
    + apply bind_ok in E11; destruct E11 as [c [_ E11]]. destruct c; [auto | discriminate].
  - intros Z. assert (plain = true). { destruct Z as [Z | Z]; rewrite Z in E10; [| rewrite orb_true_r in E10]; cbn in E10; msteps; auto. }
    subst plain. msteps. auto.
Qed.

Lemma core_x_facts : forall p srp goal liq dx ddx fee cross et erp, core_x p srp goal liq dx = Ok (ddx, fee, cross, et, erp) ->
  wf srp -> wf liq -> wf dx -> wf (fee_rate p) -> 0 <= goal ->
  exists rpg, tick_to_rp goal = Ok rpg /\ (wf ddx /\ wf fee /\ wf erp /\ 0 <= et) /\ 0 <= mant dx /\ mant rpg <= mant srp /\ dscale srp = 12 /\ dscale erp = 12 /\
  (if cross then erp = rpg /\ et = goal
   else mant ddx + mant fee = mant dx /\ dscale ddx = dscale dx /\ mant rpg <= mant erp <= mant srp /\ 0 < goal /\ rp_to_tick_loop erp false (goal - 1) = Ok et).
Proof.
  intros p srp goal liq dx ddx fee cross et erp H Ws Wl Wd Wf Hg. unfold core_x in H. rewrite one_eq in H.
  destruct (is_negative dx) eqn:E0; [discriminate |]. apply is_neg_f in E0; [| apply wf_nn; auto].
  bd H rpg E1. destruct (tick_rp_wf _ _ E1) as [Wg [Sg [Ng Vg]]].
  bd H up E2. destruct up; [discriminate |]. bd H one Eo. injection Eo as <-. bd H ff E3. bd H dxm E4. bd H dbl E5.
  destruct (gt_m _ _ _ (wf_nn _ Wg) (wf_nn _ Ws) E2) as [S2 [_ [L2 _]]]. specialize (L2 eq_refl).
  assert (W5 : wf ff) by (eapply sub_wf; [exact E3 | exact one12_wf | auto]).
  assert (W6 : wf dxm) by (eapply mul_wf'; eauto).
  assert (W7 : wf dbl) by (eapply dx_drp_inv; eauto).
  destruct (is_negative dbl); [discriminate |]. bd H part E6.
  exists rpg. split; auto. destruct part.
  - bd H q E7. bd H fe E8. injection H as <- <- <- <- <-. wfs. repeat (split; auto). congruence.
  - bd H fe E7. bd H er E8. bd H g1 E9. bd H t1 E10. bd H c1 E11. destruct c1; [discriminate |]. bd H c2 E12. destruct c2; [discriminate |].
    injection H as <- <- <- <- <-.
    assert (W9 : wf er) by (eapply rp_dx_wf; [exact E8 | | |]; auto).
    destruct (pred_ok _ _ E9 Hg) as [-> [Hg1 Hgp]].
    destruct (gt_m _ _ _ (wf_nn _ W9) (wf_nn _ Ws) E11) as [S3 [_ [L3 _]]]. specialize (L3 eq_refl).
    destruct (lt_m _ _ _ (wf_nn _ W9) (wf_nn _ Wg) E12) as [S4 [_ [L4 _]]]. specialize (L4 eq_refl).
    pose proof (rtl_nn _ _ _ _ W9 Hg1 E10). wfs. destruct (sub_m _ _ _ E7) as [M1 [M2 M3]].
    repeat (split; auto); try lia; try congruence.
Qed.

(** Mirror image for [swap_within_y]. *)
Definition core_y (p : pool) (start_rp : decimal) (goal : Z) (liq dy : decimal) : res (decimal * decimal * bool * Z * decimal) :=
  if is_negative dy then Panic
  else
    let* rp_goal := tick_to_rp goal in
    let* down := unwrap (d_lt rp_goal start_rp) in
    if down then Panic
    else
      let* one := m_one in
      let* ff := unwrap (d_sub one (fee_rate p)) in
      let* dy_max := d_mul dy ff in
      let* doable := dy_from_l_drp liq start_rp rp_goal in
      if is_negative doable then Panic
      else
        let* part := unwrap (d_lt doable dy_max) in
          (if part then
             let* q := d_div doable ff in
             let* fee := d_mul q (fee_rate p) in
             Ok (doable, fee, true, goal, rp_goal)
           else
             let* fee := unwrap (d_sub dy dy_max) in
             let* erp := rp_new_from_l_dy liq start_rp dy_max in
             let* t1 := pred_u128 (glbl_tick p) in
             let* seek := tick_to_possible_tick p t1 false in
             let* et := rp_to_tick_loop erp false seek in
             let* c1 := unwrap (d_lt erp start_rp) in
             if c1 then Panic
             else
               let* c2 := unwrap (d_gt erp rp_goal) in
               if c2 then Panic
               else Ok (dy_max, fee, false, et, erp)).

Lemma within_y_core : forall orc p srp goal liq dy ro w, swap_within_y orc p srp goal liq dy ro = Ok w ->
  exists ddy fee cross et erp cp ddx adj nx,
    core_y p srp goal liq dy = Ok (ddy, fee, cross, et, erp) /\
    dx_from_l_drp liq srp erp = Ok cp /\
    (ddx = cp \/
     dx_from_l_drp_hmm orc liq srp erp (hmm_c p) ro = Ok ddx \/
     exists d1 d2, dx_from_l_drp_hmm orc liq srp ro (hmm_c p) ro = Ok d1 /\ dx_from_l_drp liq ro erp = Ok d2 /\ d_add d1 d2 = Ok ddx) /\
    ((is_zero (hmm_c p) = true \/ is_zero ro = true) -> ddx = cp) /\
    d_sub ddx cp = Ok adj /\ is_positive cp = false /\ is_negative adj = false /\
    d_add (rx p) cp = Ok nx /\ is_negative nx = false /\
    within_new ddy ddx et erp cross adj fee = Ok w.
Proof.
  intros orc p srp goal liq dx ro w H. unfold swap_within_y in H. unfold core_y.
  destruct (is_negative dx); [discriminate |].
  apply bind_ok in H; destruct H as [rpg [E1 H]]. rewrite E1. cbn [bind].
  apply bind_ok in H; destruct H as [up [E2 H]]. rewrite E2. cbn [bind]. destruct up; [discriminate |].
  apply bind_ok in H; destruct H as [one [E3 H]]. rewrite E3. cbn [bind].
  apply bind_ok in H; destruct H as [ff [E4 H]]. rewrite E4. cbn [bind].
  apply bind_ok in H; destruct H as [dxm [E5 H]]. rewrite E5. cbn [bind].
  apply bind_ok in H; destruct H as [dbl [E6 H]]. rewrite E6. cbn [bind]. destruct (is_negative dbl); [discriminate |].
  apply bind_ok in H; destruct H as [part [E7 H]]. rewrite E7. cbn [bind].
  apply bind_ok in H; destruct H as [[[[[ddx fee] cross] et] erp] [E8 H]]. 
  apply bind_ok in H; destruct H as [cp [E9 H]]. apply bind_ok in H; destruct H as [plain [E10 H]].
  apply bind_ok in H; destruct H as [ddy [E11 H]]. apply bind_ok in H; destruct H as [adj [E12 H]].
  destruct (is_positive cp) eqn:E13; [discriminate |]. destruct (is_negative adj) eqn:E14; [discriminate |].
  apply bind_ok in H; destruct H as [ny [E15 H]]. destruct (is_negative ny) eqn:E16; [discriminate |].
  apply bind_ok in H; destruct H as [u [E17 H]].
  exists ddx, fee, cross, et, erp, cp, ddy, adj, ny. split; auto. split; auto. msteps.
  split; [| split; [| auto 10]].
  - destruct plain; [msteps; auto |]. apply bind_ok in E11; destruct E11 as [a [_ E11]]. apply bind_ok in E11; destruct E11 as [b [_ E11]].
    destruct b.
    + apply bind_ok in E11; destruct E11 as [d1 [F1 E11]]. apply bind_ok in E11; destruct E11 as [d2 [F2 E11]].
      destruct (is_positive d1 || is_positive d2); [discriminate |]. apply unwrap_ok in E11. right; right. exists d1, d2. auto.
    + apply bind_ok in E11; destruct E11 as [c [_ E11]]. destruct c; [auto | discriminate].
  - intros Z. assert (plain = true). { destruct Z as [Z | Z]; rewrite Z in E10; [| rewrite orb_true_r in E10]; cbn in E10; msteps; auto. }
    subst plain. msteps. auto.
Qed.

Lemma core_y_facts : forall p srp goal liq dx ddx fee cross et erp, core_y p srp goal liq dx = Ok (ddx, fee, cross, et, erp) ->
  wf srp -> wf liq -> wf dx -> wf (fee_rate p) -> 0 <= goal -> 0 <= spacing p -> 0 <= glbl_tick p ->
  exists rpg, tick_to_rp goal = Ok rpg /\ (wf ddx /\ wf fee /\ wf erp /\ 0 <= et) /\ 0 <= mant dx /\ mant srp <= mant rpg /\ dscale srp = 12 /\ dscale erp = 12 /\
  (if cross then erp = rpg /\ et = goal
   else mant ddx + mant fee = mant dx /\ dscale ddx = dscale dx /\ mant srp <= mant erp <= mant rpg /\ 0 < glbl_tick p /\ 0 < spacing p /\
        rp_to_tick_loop erp false ((glbl_tick p - 1) / spacing p * spacing p) = Ok et).
Proof.
  intros p srp goal liq dx ddx fee cross et erp H Ws Wl Wd Wf Hg Hsp Hgt. unfold core_y in H. rewrite one_eq in H.
  destruct (is_negative dx) eqn:E0; [discriminate |]. apply is_neg_f in E0; [| apply wf_nn; auto].
  bd H rpg E1. destruct (tick_rp_wf _ _ E1) as [Wg [Sg [Ng Vg]]].
  bd H up E2. destruct up; [discriminate |]. bd H one Eo. injection Eo as <-. bd H ff E3. bd H dxm E4. bd H dbl E5.
  destruct (lt_m _ _ _ (wf_nn _ Wg) (wf_nn _ Ws) E2) as [S2 [_ [L2 _]]]. specialize (L2 eq_refl).
  assert (W5 : wf ff) by (eapply sub_wf; [exact E3 | exact one12_wf | auto]).
  assert (W6 : wf dxm) by (eapply mul_wf'; eauto).
  assert (W7 : wf dbl) by (eapply dy_drp_inv; eauto).
  destruct (is_negative dbl); [discriminate |]. bd H part E6.
  exists rpg. split; auto. destruct part.
  - bd H q E7. bd H fe E8. injection H as <- <- <- <- <-. wfs. repeat (split; auto). congruence.
  - bd H fe E7. bd H er E8. bd H g1 E9. bd H sk Es. bd H t1 E10. bd H c1 E11. destruct c1; [discriminate |]. bd H c2 E12. destruct c2; [discriminate |].
    injection H as <- <- <- <- <-.
    assert (W9 : wf er) by (eapply rp_dy_wf; [exact E8 | | |]; auto).
    destruct (pred_ok _ _ E9 Hgt) as [-> [Hg1 Hgp]].
    destruct (possible_down_le _ _ _ Hg1 Hsp Es) as [B1 [B2 B3]].
    destruct (lt_m _ _ _ (wf_nn _ W9) (wf_nn _ Ws) E11) as [S3 [_ [L3 _]]]. specialize (L3 eq_refl).
    destruct (gt_m _ _ _ (wf_nn _ W9) (wf_nn _ Wg) E12) as [S4 [_ [L4 _]]]. specialize (L4 eq_refl).
    pose proof (rtl_nn _ _ _ _ W9 (proj1 B1) E10). wfs. destruct (sub_m _ _ _ E7) as [M1 [M2 M3]]. subst sk.
    repeat (split; auto); try lia; try congruence.
Qed.

(** ** Crossing a tick *)
Definition crossed (ts : tstate) (fx fy hx hy : decimal) : tstate := mkT (t_net ts) (t_gross ts) fx fy hx hy.
Lemma cross_inv : forall p t l2r p', cross_tick p t l2r = Ok p' ->
  exists ts fx fy hx hy nt L,
    (l2r = false -> glbl_tick p = t) /\ tm_get t (ticks p) = Some ts /\
    d_sub (g_fx (gs p)) (t_fx ts) = Ok fx /\ d_sub (g_fy (gs p)) (t_fy ts) = Ok fy /\
    d_sub (g_hx (gs p)) (t_hx ts) = Ok hx /\ d_sub (g_hy (gs p)) (t_hy ts) = Ok hy /\
    (if l2r then nt = t else exists t1, pred_u128 t = Ok t1 /\ tk_to_possible_tk t1 (spacing p) false = Ok nt) /\
    d_add (g_liq (gs p)) (if l2r then t_net ts else d_neg (t_net ts)) = Ok L /\ is_negative L = false /\
    p' = mkPool (spacing p) (mkG L (g_rp (gs p)) nt (g_fx (gs p)) (g_fy (gs p)) (g_hx (gs p)) (g_hy (gs p)))
           (tm_set t (crossed ts fx fy hx hy) (ticks p)) (positions p) (rx p) (ry p) (x_adj p) (y_adj p) (x_fee p) (y_fee p) (hmm_c p) (fee_rate p).
Proof.
  intros p t l2r p' H. unfold cross_tick in H. destruct (negb l2r && negb (glbl_tick p =? t)) eqn:C; [discriminate |].
  destruct (tm_get t (ticks p)) as [ts |] eqn:T; [| discriminate].
  bd H fx E1. bd H fy E2. bd H hx E3. bd H hy E4. bd H nt E5. unfold add_glbl_liq in H. bd H g E6. injection H as <-.
  unfold g_add_liq in E6. bd E6 n E7. destruct (is_negative n) eqn:N; [discriminate |]. injection E6 as <-. cbn in E7.
  exists ts, fx, fy, hx, hy, nt, n. repeat (split; auto).
  - intros ->. cbn in C. b2p. auto.
  - destruct l2r. { injection E5 as <-. auto. } bd E5 t1 E8. eauto.
Qed.

Lemma cross_wf : forall p t l2r p', cross_tick p t l2r = Ok p' -> pool_wf p -> 0 <= t -> pool_wf p'.
Proof.
  intros p t l2r p' H W Ht. destruct (cross_inv _ _ _ _ H) as (ts & fx & fy & hx & hy & nt & L & C1 & C2 & C3 & C4 & C5 & C6 & C7 & C8 & C9 & ->).
  destruct W as (Ws & Wg & Wt & Wp & Wr & Wc & Wf). destruct Wg as (G1 & G2 & G3 & G4 & G5 & G6 & G7).
  destruct (proj2 Wt _ _ (tm_get_in _ _ _ C2)) as (_ & T1 & T2 & T3 & T4 & T5 & T6).
  assert (0 <= nt). { destruct l2r; [lia |]. destruct C7 as [t1 [P1 P2]]. destruct (pred_ok _ _ P1 Ht) as [_ [P3 _]]. destruct (possible_down_le _ _ _ P3 Ws P2). lia. }
  assert (wf L). { destruct l2r; wfs; auto. }
  wfs. assert (ticks_wf (tm_set t (crossed ts fx fy hx hy) (ticks p))). { apply ticks_wf_set; auto. unfold t_wf, crossed; cbn. auto 10. }
  unfold pool_wf, g_wf. cbn. csplit; auto; try tauto.
Qed.

(** ** One step of the swap loops: the pool just before a possible crossing *)
Definition mid_x (p : pool) (w : within) (p1 : pool) : Prop :=
  exists nx y1 ny nya nxf fx hy,
    d_add (rx p) (w_recv w) = Ok nx /\ d_add (ry p) (w_send w) = Ok y1 /\ d_sub y1 (w_adj w) = Ok ny /\ is_negative ny = false /\
    d_add (y_adj p) (w_adj w) = Ok nya /\ d_add (x_fee p) (w_fee w) = Ok nxf /\
    (if is_positive (glbl_liq p)
     then exists q1 q2, d_div (w_fee w) (glbl_liq p) = Ok q1 /\ d_add q1 (g_fx (gs p)) = Ok fx /\
                        d_div (w_adj w) (glbl_liq p) = Ok q2 /\ d_add q2 (g_hy (gs p)) = Ok hy
     else fx = g_fx (gs p) /\ hy = g_hy (gs p)) /\
    p1 = mkPool (spacing p) (mkG (g_liq (gs p)) (w_rp w) (w_tick w) fx (g_fy (gs p)) (g_hx (gs p)) hy)
           (ticks p) (positions p) nx ny (x_adj p) nya nxf (y_fee p) (hmm_c p) (fee_rate p).
Definition mid_y (p : pool) (w : within) (p1 : pool) : Prop :=
  exists ny x1 nx nxa nyf fy hx,
    d_add (ry p) (w_recv w) = Ok ny /\ d_add (rx p) (w_send w) = Ok x1 /\ d_sub x1 (w_adj w) = Ok nx /\ is_negative nx = false /\
    d_add (x_adj p) (w_adj w) = Ok nxa /\ d_add (y_fee p) (w_fee w) = Ok nyf /\
    (if is_positive (glbl_liq p)
     then exists q1 q2, d_div (w_fee w) (glbl_liq p) = Ok q1 /\ d_add q1 (g_fy (gs p)) = Ok fy /\
                        d_div (w_adj w) (glbl_liq p) = Ok q2 /\ d_add q2 (g_hx (gs p)) = Ok hx
     else fy = g_fy (gs p) /\ hx = g_hx (gs p)) /\
    p1 = mkPool (spacing p) (mkG (g_liq (gs p)) (w_rp w) (w_tick w) (g_fx (gs p)) fy hx (g_hy (gs p)))
           (ticks p) (positions p) nx ny nxa (y_adj p) (x_fee p) nyf (hmm_c p) (fee_rate p).
(** Totals after a step. *)
Definition tally (dx : decimal) (s : swp) (w : within) (s' : swp) : Prop :=
  exists rest c1 ck i1 i2 o2 a2 f2,
    d_sub dx (s_in s) = Ok rest /\ d_sub rest (w_recv w) = Ok c1 /\ d_sub c1 (w_fee w) = Ok ck /\ is_negative ck = false /\
    d_add (s_in s) (w_recv w) = Ok i1 /\ d_add i1 (w_fee w) = Ok i2 /\ d_add (s_out s) (w_send w) = Ok o2 /\
    d_add (s_adj s) (w_adj w) = Ok a2 /\ d_add (s_fee s) (w_fee w) = Ok f2 /\ s' = mkSwp i2 o2 a2 f2 (w_tick w) (w_rp w).
Definition after_mid (w : within) (gtk : Z) (l2r : bool) (p1 p' : pool) : Prop :=
  if w_cross w then w_tick w = gtk /\ match tm_get gtk (ticks p1) with Some _ => cross_tick p1 gtk l2r = Ok p' | None => p' = p1 end
  else p' = p1.

Lemma step_x_inv : forall orc p s dx ro gtk p' s', step_x orc p s dx ro gtk = Ok (p', s') ->
  exists rest w p1, d_sub dx (s_in s) = Ok rest /\ swap_within_x orc p (s_rp s) gtk (glbl_liq p) rest ro = Ok w /\
    mid_x p w p1 /\ tally dx s w s' /\ after_mid w gtk false p1 p'.
Proof.
  intros orc p s dx ro gtk p' s' H. unfold step_x in H.
  bd H rest E1. bd H w E2. bd H y1 E3. bd H ny E4. bd H u1 E5. b2p. rewrite E1 in H. bd H c0 E6. injection E6 as <-.
  bd H c1 E7. bd H ck E8. bd H u2 E9. b2p. bd H i1 E10. bd H i2 E11. bd H o2 E12. bd H a2 E13. bd H f2 E14.
  bd H nx E15. bd H nxf E16. bd H nya E17. bd H p1 E18. bd H p2 E19. injection H as <- <-.
  exists rest, w, p1. split; auto. split; auto. cbn in E15, E16, E17.
  assert (TK : mid_x p w p1).
  { unfold glbl_liq in E18. cbn [gs with_funds set_glbl_rp set_glbl_tick with_gs g_liq g_set_rp g_set_tick] in E18.
    destruct (is_positive (g_liq (gs p))) eqn:Pl.
    - bd E18 q1 F1. bd E18 g1 F2. bd E18 q2 F3. bd E18 g2 F4. injection E18 as <-.
      exists nx, y1, ny, nya, nxf, g1, g2. csplit; auto. unfold glbl_liq. rewrite Pl. exists q1, q2. auto.
    - injection E18 as <-. exists nx, y1, ny, nya, nxf, (g_fx (gs p)), (g_hy (gs p)). csplit; auto. unfold glbl_liq. rewrite Pl. auto. }
  split; auto. split.
  - exists rest, c1, ck, i1, i2, o2, a2, f2. csplit; auto.
  - unfold after_mid. destruct (w_cross w); [| injection E19 as <-; auto]. bd E19 u3 E20. b2p. split; auto.
    destruct (tm_get gtk (ticks p1)); auto. injection E19 as <-. auto.
Qed.
Lemma step_y_inv : forall orc p s dx ro gtk p' s', step_y orc p s dx ro gtk = Ok (p', s') ->
  exists rest w p1, d_sub dx (s_in s) = Ok rest /\ swap_within_y orc p (s_rp s) gtk (glbl_liq p) rest ro = Ok w /\
    mid_y p w p1 /\ tally dx s w s' /\ after_mid w gtk true p1 p'.
Proof.
  intros orc p s dx ro gtk p' s' H. unfold step_y in H.
  bd H rest E1. bd H w E2. bd H y1 E3. bd H ny E4. bd H u1 E5. b2p. rewrite E1 in H. bd H c0 E6. injection E6 as <-.
  bd H c1 E7. bd H ck E8. bd H u2 E9. b2p. bd H o2 E12. bd H i1 E10. bd H i2 E11. bd H a2 E13. bd H f2 E14.
  bd H nx E15. bd H nya E17. bd H nxf E16. bd H p1 E18. bd H p2 E19. injection H as <- <-.
  exists rest, w, p1. split; auto. split; auto. cbn in E15, E16, E17.
  assert (TK : mid_y p w p1).
  { unfold glbl_liq in E18. cbn [gs with_funds set_glbl_rp set_glbl_tick with_gs g_liq g_set_rp g_set_tick] in E18.
    destruct (is_positive (g_liq (gs p))) eqn:Pl.
    - bd E18 q1 F1. bd E18 g1 F2. bd E18 q2 F3. bd E18 g2 F4. injection E18 as <-.
      exists nx, y1, ny, nya, nxf, g2, g1. csplit; auto. unfold glbl_liq. rewrite Pl. exists q2, q1. auto.
    - injection E18 as <-. exists nx, y1, ny, nya, nxf, (g_fy (gs p)), (g_hx (gs p)). csplit; auto. unfold glbl_liq. rewrite Pl. auto. }
  split; auto. split.
  - exists rest, c1, ck, i1, i2, o2, a2, f2. csplit; auto.
  - unfold after_mid. destruct (w_cross w); [| injection E19 as <-; auto]. bd E19 u3 E20. b2p. split; auto.
    destruct (tm_get gtk (ticks p1)); auto. injection E19 as <-. auto.
Qed.
