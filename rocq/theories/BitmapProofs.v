(** The tick bitmap as a set of ticks. *)
From Coq Require Import ZArith List Bool Lia.
From Verif Require Import Base BaseLemmas BitmapModel.
Import ListNotations.
Open Scope Z_scope.

(** ** Specification: 10000 bytes; tick [t] is a member iff bit [t mod 8] of byte [t / 8] is set. *)
Definition bm_wf (m : bitmap) : Prop := Z.of_nat (length m) = 10000 /\ Forall (fun b => 0 <= b < 256) m.
Definition mem (m : bitmap) (t : Z) : bool := Z.testbit (nth (Z.to_nat (t / 8)) m 0) (t mod 8).
Definition in_range (t : Z) : Prop := 0 <= t < 80000.

Lemma key_div : forall t, bm_key t = t / 8.
Proof. intros. unfold bm_key, TICKS_OFFSET. rewrite Z.shiftr_div_pow2 by lia. change (2 ^ 3) with 8. lia. Qed.

Lemma ix_mod : forall t, 0 <= t -> bm_ix t = t mod 8.
Proof.
  intros. unfold bm_ix, TICK_BITMAP_SIZE. rewrite Z.rem_mod_nonneg by lia.
  replace (t + 10000) with (t + 1250 * 8) by lia. apply Z.mod_add. lia.
Qed.

Lemma bit_and1 : forall b i, 0 <= i -> Z.land (Z.shiftr b i) 1 = if Z.testbit b i then 1 else 0.
Proof.
  intros b i Hi. change 1 with (Z.ones 1) at 1. rewrite Z.land_ones by lia. change (2 ^ 1) with 2.
  rewrite Z.shiftr_div_pow2 by lia. rewrite <- Z.bit0_mod.
  rewrite Z.div_pow2_bits by lia. replace (0 + i) with i by lia. destruct (Z.testbit b i); reflexivity.
Qed.

Lemma list_upd_length : forall l n v, length (list_upd n v l) = length l.
Proof. induction l; intros [|n] v; cbn; auto. Qed.

Lemma list_upd_nth : forall l n v k, (n < length l)%nat ->
  nth k (list_upd n v l) 0 = if Nat.eqb k n then v else nth k l 0.
Proof.
  induction l; intros [|n] v [|k] H; cbn in *; try lia; auto. apply IHl. lia.
Qed.

Lemma list_upd_forall : forall (P : Z -> Prop) l n v, Forall P l -> P v -> Forall P (list_upd n v l).
Proof.
  intros P. induction l; intros [|n] v Hl Hv; cbn; auto; inversion Hl; subst; constructor; auto.
Qed.

Lemma wf_nth : forall m k, bm_wf m -> 0 <= nth k m 0 < 256.
Proof.
  intros m k [_ H]. destruct (Nat.lt_ge_cases k (length m)).
  - rewrite Forall_forall in H. apply H. apply nth_In; auto.
  - rewrite nth_overflow by lia. lia.
Qed.

Lemma get_in : forall m t, bm_wf m -> in_range t -> bm_get m (bm_key t) = Ok (nth (Z.to_nat (t / 8)) m 0).
Proof.
  intros m t [HL _] Ht. unfold bm_get. rewrite key_div, HL. unfold in_range in Ht.
  pose proof (Z.div_pos t 8 ltac:(lia) ltac:(lia)). pose proof (Z.div_lt_upper_bound t 8 10000 ltac:(lia) ltac:(lia)).
  rewrite (proj2 (Z.leb_le 0 (t / 8))), (proj2 (Z.ltb_lt (t / 8) 10000)) by lia. reflexivity.
Qed.

Lemma get_out : forall m t, bm_wf m -> ~ in_range t -> bm_get m (bm_key t) = Panic.
Proof.
  intros m t [HL _] Ht. unfold bm_get. rewrite key_div, HL. unfold in_range in Ht.
  destruct (0 <=? t / 8) eqn:E1; auto. destruct (t / 8 <? 10000) eqn:E2; auto. exfalso. b2p.
  pose proof (Z.div_mod t 8 ltac:(lia)). pose proof (Z.mod_pos_bound t 8 ltac:(lia)). lia.
Qed.

Lemma set_in : forall m t v, bm_wf m -> in_range t -> 0 <= v < 256 ->
  exists m', bm_set m (bm_key t) v = Ok m' /\ bm_wf m' /\
    forall k, nth k m' 0 = if Nat.eqb k (Z.to_nat (t / 8)) then v else nth k m 0.
Proof.
  intros m t v [HL HF] Ht Hv. unfold bm_set. rewrite key_div, HL. unfold in_range in Ht.
  pose proof (Z.div_pos t 8 ltac:(lia) ltac:(lia)). pose proof (Z.div_lt_upper_bound t 8 10000 ltac:(lia) ltac:(lia)).
  rewrite (proj2 (Z.leb_le 0 (t / 8))), (proj2 (Z.ltb_lt (t / 8) 10000)) by lia. cbn [andb].
  eexists; split; [reflexivity |]. split.
  - split. { rewrite list_upd_length; auto. } apply list_upd_forall; auto.
  - intros k. apply list_upd_nth. lia.
Qed.

Lemma byte_bits : forall b, 0 <= b < 256 <-> (0 <= b /\ forall i, 8 <= i -> Z.testbit b i = false).
Proof.
  intros b. split.
  - intros [H1 H2]. split; auto. intros i Hi. destruct (Z.eq_dec b 0) as [-> | Hb]; [apply Z.bits_0 |].
    apply Z.bits_above_log2; auto. assert (Z.log2 b < 8) by (apply Z.log2_lt_pow2; [lia | change (2 ^ 8) with 256; lia]). lia.
  - intros [H1 H2]. split; auto. destruct (Z.lt_ge_cases b 256); auto. exfalso.
    assert (8 <= Z.log2 b) by (change 8 with (Z.log2 256); apply Z.log2_le_mono; lia).
    pose proof (Z.bit_log2 b ltac:(lia)). rewrite H2 in H3 by auto. discriminate.
Qed.

Lemma mask_bit : forall i j, 0 <= i -> Z.testbit (Z.shiftl 1 i) j = (j =? i).
Proof.
  intros i j Hi. rewrite Z.shiftl_1_l. destruct (Z.eq_dec j i) as [-> | H].
  - rewrite Z.pow2_bits_true by auto. rewrite Z.eqb_refl. reflexivity.
  - rewrite Z.pow2_bits_false by auto. symmetry. apply Z.eqb_neq; auto.
Qed.

Lemma notmask_bit : forall i j, 0 <= i < 8 -> 0 <= j < 8 -> Z.testbit (255 - Z.shiftl 1 i) j = negb (j =? i).
Proof.
  intros i j Hi Hj.
  assert (i = 0 \/ i = 1 \/ i = 2 \/ i = 3 \/ i = 4 \/ i = 5 \/ i = 6 \/ i = 7) as Ei by lia.
  assert (j = 0 \/ j = 1 \/ j = 2 \/ j = 3 \/ j = 4 \/ j = 5 \/ j = 6 \/ j = 7) as Ej by lia.
  destruct Ei as [-> | [-> | [-> | [-> | [-> | [-> | [-> | ->]]]]]]];
    destruct Ej as [-> | [-> | [-> | [-> | [-> | [-> | [-> | ->]]]]]]]; reflexivity.
Qed.

Lemma set_byte : forall b i, 0 <= b < 256 -> 0 <= i < 8 ->
  0 <= Z.lor b (Z.shiftl 1 i) < 256 /\
  forall j, 0 <= j < 8 -> Z.testbit (Z.lor b (Z.shiftl 1 i)) j = (j =? i) || Z.testbit b j.
Proof.
  intros b i Hb Hi. apply byte_bits in Hb. destruct Hb as [Hb1 Hb2]. split.
  - apply byte_bits. split. { apply Z.lor_nonneg. split; auto. apply Z.shiftl_nonneg. lia. }
    intros j Hj. rewrite Z.lor_spec, Hb2 by auto. rewrite mask_bit by lia. apply Z.eqb_neq. lia.
  - intros j Hj. rewrite Z.lor_spec, mask_bit by lia. apply orb_comm.
Qed.

Lemma unset_byte : forall b i, 0 <= b < 256 -> 0 <= i < 8 ->
  0 <= Z.land b (255 - Z.shiftl 1 i) < 256 /\
  forall j, 0 <= j < 8 -> Z.testbit (Z.land b (255 - Z.shiftl 1 i)) j = negb (j =? i) && Z.testbit b j.
Proof.
  intros b i Hb Hi. apply byte_bits in Hb. destruct Hb as [Hb1 Hb2]. split.
  - apply byte_bits. split. { apply Z.land_nonneg. auto. }
    intros j Hj. rewrite Z.land_spec, Hb2 by auto. reflexivity.
  - intros j Hj. rewrite Z.land_spec, notmask_bit by lia. apply andb_comm.
Qed.

Lemma active_mem : forall m t, bm_wf m -> in_range t -> tick_is_active m t = Ok (mem m t).
Proof.
  intros m t W Ht. unfold tick_is_active. rewrite get_in by auto. cbn [bind]. unfold in_range in Ht.
  rewrite ix_mod by lia. pose proof (Z.mod_pos_bound t 8 ltac:(lia)). rewrite bit_and1 by lia.
  unfold mem. destruct (Z.testbit _ _); reflexivity.
Qed.

Lemma same_byte : forall t u, 0 <= t -> 0 <= u -> Nat.eqb (Z.to_nat (u / 8)) (Z.to_nat (t / 8)) = (u / 8 =? t / 8).
Proof.
  intros t u Ht Hu. pose proof (Z.div_pos t 8 ltac:(lia) ltac:(lia)). pose proof (Z.div_pos u 8 ltac:(lia) ltac:(lia)).
  destruct (u / 8 =? t / 8) eqn:E; b2p. { rewrite E. apply Nat.eqb_refl. } apply Nat.eqb_neq. lia.
Qed.

Lemma eqb_split : forall t u, (u =? t) = (u / 8 =? t / 8) && (u mod 8 =? t mod 8).
Proof.
  intros t u. destruct (u =? t) eqn:E; b2p.
  - subst. rewrite !Z.eqb_refl. reflexivity.
  - symmetry. apply andb_false_iff. destruct (u / 8 =? t / 8) eqn:E1; auto. right. b2p. apply Z.eqb_neq. intros E2.
    pose proof (Z.div_mod t 8 ltac:(lia)). pose proof (Z.div_mod u 8 ltac:(lia)). lia.
Qed.

Lemma activate_spec : forall m t, bm_wf m -> in_range t ->
  exists m', activate_tick m t = Ok m' /\ bm_wf m' /\ forall u, in_range u -> mem m' u = (u =? t) || mem m u.
Proof.
  intros m t W Ht. unfold activate_tick. rewrite get_in by auto. cbn [bind].
  pose proof (Z.mod_pos_bound t 8 ltac:(lia)). pose proof Ht as Ht0. unfold in_range in Ht0. rewrite ix_mod by lia.
  destruct (set_byte (nth (Z.to_nat (t / 8)) m 0) (t mod 8) (wf_nth _ _ W) ltac:(lia)) as [B1 B2].
  destruct (set_in m t _ W Ht B1) as [m' [E [W' N]]]. exists m'. split; auto. split; auto.
  intros u Hu. pose proof Hu as Hu0. unfold in_range in Hu0. unfold mem. rewrite N, same_byte by lia. rewrite (eqb_split t u).
  destruct (u / 8 =? t / 8) eqn:E1; b2p; cbn [andb orb]; auto.
  pose proof (Z.mod_pos_bound u 8 ltac:(lia)). rewrite B2 by lia. rewrite E1. reflexivity.
Qed.

Lemma unset_spec : forall m t, bm_wf m -> in_range t ->
  exists m', unset_tick m t = Ok m' /\ bm_wf m' /\ forall u, in_range u -> mem m' u = negb (u =? t) && mem m u.
Proof.
  intros m t W Ht. unfold unset_tick. rewrite get_in by auto. cbn [bind].
  pose proof (Z.mod_pos_bound t 8 ltac:(lia)). pose proof Ht as Ht0. unfold in_range in Ht0. rewrite ix_mod by lia.
  destruct (unset_byte (nth (Z.to_nat (t / 8)) m 0) (t mod 8) (wf_nth _ _ W) ltac:(lia)) as [B1 B2].
  destruct (set_in m t _ W Ht B1) as [m' [E [W' N]]]. exists m'. split; auto. split; auto.
  intros u Hu. pose proof Hu as Hu0. unfold in_range in Hu0. unfold mem. rewrite N, same_byte by lia. rewrite (eqb_split t u).
  destruct (u / 8 =? t / 8) eqn:E1; b2p; cbn [andb orb negb]; auto.
  pose proof (Z.mod_pos_bound u 8 ltac:(lia)). rewrite B2 by lia. rewrite E1. reflexivity.
Qed.

Lemma default_wf : bm_wf bm_default.
Proof.
  split. { unfold bm_default. rewrite repeat_length. reflexivity. }
  apply Forall_forall. intros x Hx. apply repeat_spec in Hx. subst. lia.
Qed.
Lemma default_empty : forall t, mem bm_default t = false.
Proof.
  intros t. unfold mem, bm_default. rewrite nth_repeat. apply Z.bits_0.
Qed.

Lemma out_of_range_panics : forall m t d, bm_wf m -> ~ in_range t ->
  activate_tick m t = Panic /\ unset_tick m t = Panic /\ tick_is_active m t = Panic /\ get_next_tick m t d = Panic.
Proof.
  intros m t d W Ht. unfold activate_tick, unset_tick, tick_is_active, get_next_tick. rewrite get_out by auto.
  cbn. auto.
Qed.

(** ** Search *)
Lemma byte_down_spec : forall b n,
  match byte_down b n with
  | Some r => 0 <= r < Z.of_nat n /\ Z.testbit b r = true /\ forall j, r < j < Z.of_nat n -> Z.testbit b j = false
  | None => forall j, 0 <= j < Z.of_nat n -> Z.testbit b j = false
  end.
Proof.
  induction n; cbn [byte_down]. { intros; lia. }
  rewrite bit_and1 by lia. destruct (Z.testbit b (Z.of_nat n)) eqn:E; cbn.
  - split; [lia |]. split; auto. intros; lia.
  - destruct (byte_down b n) as [r |].
    + destruct IHn as [H1 [H2 H3]]. split; [lia |]. split; auto. intros j Hj.
      destruct (Z.eq_dec j (Z.of_nat n)) as [-> | ]; auto. apply H3. lia.
    + intros j Hj. destruct (Z.eq_dec j (Z.of_nat n)) as [-> | ]; auto. apply IHn. lia.
Qed.

Lemma byte_up_spec : forall b n i, 0 <= i ->
  match byte_up b i n with
  | Some r => i <= r < i + Z.of_nat n /\ Z.testbit b r = true /\ forall j, i <= j < r -> Z.testbit b j = false
  | None => forall j, i <= j < i + Z.of_nat n -> Z.testbit b j = false
  end.
Proof.
  induction n; intros i Hi; cbn [byte_up]. { intros; lia. }
  rewrite bit_and1 by lia. destruct (Z.testbit b i) eqn:E; cbn.
  - split; [lia |]. split; auto. intros; lia.
  - specialize (IHn (i + 1) ltac:(lia)). destruct (byte_up b (i + 1) n) as [r |].
    + destruct IHn as [H1 [H2 H3]]. split; [lia |]. split; auto. intros j Hj.
      destruct (Z.eq_dec j i) as [-> | ]; auto. apply H3. lia.
    + intros j Hj. destruct (Z.eq_dec j i) as [-> | ]; auto. apply IHn. lia.
Qed.

(** Bits of the word at index [k]. *)
Definition wbit (m : bitmap) (k j : Z) : bool := Z.testbit (nth (Z.to_nat k) m 0) j.

Lemma mem_wbit : forall m k j, 0 <= j < 8 -> mem m (8 * k + j) = wbit m k j.
Proof.
  intros m k j Hj. unfold mem, wbit. replace (8 * k + j) with (j + k * 8) by lia.
  rewrite Z.div_add, Z.mod_add by lia. rewrite (Z.div_small j), (Z.mod_small j) by lia. reflexivity.
Qed.

(** The whole-word search for each direction *)
Lemma word_down : forall b ix,
  match byte_get_next_tick b 0 ix false with
  | Some r => 0 <= r < 8 /\ Z.testbit b r = true /\ forall j, r < j < 8 -> Z.testbit b j = false
  | None => forall j, 0 <= j < 8 -> Z.testbit b j = false
  end.
Proof.
  intros b ix. unfold byte_get_next_tick. destruct (b =? 0) eqn:E; b2p. { subst. intros; apply Z.bits_0. }
  exact (byte_down_spec b 8).
Qed.
Lemma word_up : forall b ix,
  match byte_get_next_tick b 1 ix false with
  | Some r => 0 <= r < 8 /\ Z.testbit b r = true /\ forall j, 0 <= j < r -> Z.testbit b j = false
  | None => forall j, 0 <= j < 8 -> Z.testbit b j = false
  end.
Proof.
  intros b ix. unfold byte_get_next_tick. destruct (b =? 0) eqn:E; b2p. { subst. intros; apply Z.bits_0. }
  exact (byte_up_spec b 8 0 ltac:(lia)).
Qed.

Lemma shift3 : forall k, Z.shiftl (k - TICKS_OFFSET) 3 = 8 * k.
Proof. intros. unfold TICKS_OFFSET. rewrite Z.shiftl_mul_pow2 by lia. change (2 ^ 3) with 8. lia. Qed.

Lemma scan_down : forall m n ix, bm_wf m -> (n <= length m)%nat ->
  match scan_words (rev (firstn n m)) 0 ix (Z.of_nat n - 1) (-1) with
  | Some r => 0 <= r < 8 * Z.of_nat n /\ mem m r = true /\ forall t, r < t < 8 * Z.of_nat n -> mem m t = false
  | None => forall t, 0 <= t < 8 * Z.of_nat n -> mem m t = false
  end.
Proof.
  intros m n ix W. induction n; intros Hn.
  { cbn. intros; lia. }
  assert (EF : firstn (S n) m = firstn n m ++ [nth n m 0]).
  { clear -Hn. revert m Hn. induction n; intros [| a m] H; cbn in *; try lia; auto. rewrite <- IHn by lia. reflexivity. }
  rewrite EF, rev_app_distr. cbn [rev app scan_words]. clear EF.
  specialize (IHn ltac:(lia)). set (b := nth n m 0) in *.
  replace (Z.of_nat (S n) - 1 + -1) with (Z.of_nat n - 1) by lia.
  assert (Wd := word_down b ix).
  assert (B : forall j, 0 <= j < 8 -> mem m (8 * Z.of_nat n + j) = Z.testbit b j).
  { intros j Hj. rewrite mem_wbit by auto. unfold wbit. rewrite Nat2Z.id. reflexivity. }
  assert (NB : (forall j, 0 <= j < 8 -> Z.testbit b j = false) ->
     match scan_words (rev (firstn n m)) 0 ix (Z.of_nat n - 1) (-1) with
     | Some r => 0 <= r < 8 * Z.of_nat (S n) /\ mem m r = true /\ forall t, r < t < 8 * Z.of_nat (S n) -> mem m t = false
     | None => forall t, 0 <= t < 8 * Z.of_nat (S n) -> mem m t = false
     end).
  { intros NB.
    assert (Z8 : forall t, 8 * Z.of_nat n <= t < 8 * Z.of_nat (S n) -> mem m t = false).
    { intros t Ht. replace t with (8 * Z.of_nat n + (t - 8 * Z.of_nat n)) by lia. rewrite B by lia. apply NB. lia. }
    destruct (scan_words (rev (firstn n m)) 0 ix (Z.of_nat n - 1) (-1)) as [r |].
    - destruct IHn as [H1 [H2 H3]]. split; [lia |]. split; auto. intros t Ht.
      destruct (Z.lt_ge_cases t (8 * Z.of_nat n)); [apply H3; lia | apply Z8; lia].
    - intros t Ht. destruct (Z.lt_ge_cases t (8 * Z.of_nat n)); [apply IHn; lia | apply Z8; lia]. }
  destruct (0 <? b) eqn:E0; b2p.
  - destruct (byte_get_next_tick b 0 ix false) as [r |].
    + destruct Wd as [H1 [H2 H3]]. rewrite shift3. replace (Z.of_nat (S n) - 1) with (Z.of_nat n) by lia.
      split; [lia |]. split. { rewrite B by lia. auto. }
      intros t Ht. replace t with (8 * Z.of_nat n + (t - 8 * Z.of_nat n)) by lia. rewrite B by lia. apply H3. lia.
    + apply NB. auto.
  - apply NB. assert (b = 0). { pose proof (wf_nth m n W). fold b in H. lia. } intros j _. rewrite H. apply Z.bits_0.
Qed.

Lemma scan_up : forall m k ws ix, bm_wf m -> 0 <= k -> ws = skipn (Z.to_nat k) m -> k <= 10000 ->
  match scan_words ws 1 ix k 1 with
  | Some r => 8 * k <= r < 80000 /\ mem m r = true /\ forall t, 8 * k <= t < r -> mem m t = false
  | None => forall t, 8 * k <= t < 80000 -> mem m t = false
  end.
Proof.
  intros m k ws ix W Hk. revert k Hk. induction ws as [| b ws IH]; intros k Hk Hws Hk2; cbn [scan_words].
  - intros t Ht. exfalso. assert (length (skipn (Z.to_nat k) m) = 0%nat) by (rewrite <- Hws; reflexivity).
    rewrite skipn_length in H. destruct W. lia.
  - assert (Hlt : (Z.to_nat k < length m)%nat).
    { assert (length (skipn (Z.to_nat k) m) = S (length ws)) by (rewrite <- Hws; reflexivity). rewrite skipn_length in H. lia. }
    assert (Eb : nth (Z.to_nat k) m 0 = b /\ skipn (Z.to_nat (k + 1)) m = ws).
    { replace (Z.to_nat (k + 1)) with (S (Z.to_nat k)) by lia. clear -Hws Hlt. revert m Hws Hlt.
      induction (Z.to_nat k); intros [| a m] H L; cbn in *; try discriminate; try lia.
      - inversion H; subst; auto.
      - apply IHn; auto. lia. }
    destruct Eb as [Eb Ew]. destruct W as [WL WF]. assert (Hk3 : k + 1 <= 10000) by lia.
    specialize (IH (k + 1) ltac:(lia) (eq_sym Ew) Hk3).
    assert (Wu := word_up b ix).
    assert (B : forall j, 0 <= j < 8 -> mem m (8 * k + j) = Z.testbit b j).
    { intros j Hj. rewrite mem_wbit by auto. unfold wbit. rewrite Eb. reflexivity. }
    assert (NB : (forall j, 0 <= j < 8 -> Z.testbit b j = false) ->
      match scan_words ws 1 ix (k + 1) 1 with
      | Some r => 8 * k <= r < 80000 /\ mem m r = true /\ forall t, 8 * k <= t < r -> mem m t = false
      | None => forall t, 8 * k <= t < 80000 -> mem m t = false
      end).
    { intros NB.
      assert (Z8 : forall t, 8 * k <= t < 8 * (k + 1) -> mem m t = false).
      { intros t Ht. replace t with (8 * k + (t - 8 * k)) by lia. rewrite B by lia. apply NB. lia. }
      destruct (scan_words ws 1 ix (k + 1) 1) as [r |].
      - destruct IH as [H1 [H2 H3]]. split; [lia |]. split; auto. intros t Ht.
        destruct (Z.lt_ge_cases t (8 * (k + 1))); [apply Z8; lia | apply H3; lia].
      - intros t Ht. destruct (Z.lt_ge_cases t (8 * (k + 1))); [apply Z8; lia | apply IH; lia]. }
    destruct (0 <? b) eqn:E0; b2p.
    + destruct (byte_get_next_tick b 1 ix false) as [r |].
      * destruct Wu as [H1 [H2 H3]]. rewrite shift3. split; [lia |]. split. { rewrite B by lia. auto. }
        intros t Ht. replace t with (8 * k + (t - 8 * k)) by lia. rewrite B by lia. apply H3. lia.
      * apply NB. auto.
    + apply NB. pose proof (wf_nth m (Z.to_nat k) (conj WL WF)). rewrite Eb in H.
      intros j _. replace b with 0 by lia. apply Z.bits_0.
Qed.

Lemma next_down : forall m t, bm_wf m -> in_range t ->
  exists r, get_next_tick m t 0 = Ok r /\
  match r with
  | Some u => 0 <= u < t /\ mem m u = true /\ forall v, u < v < t -> mem m v = false
  | None => forall v, 0 <= v < t -> mem m v = false
  end.
Proof.
  intros m t W Ht. pose proof Ht as Ht0. unfold in_range in Ht0. unfold get_next_tick.
  rewrite get_in by auto. cbn [bind]. rewrite ix_mod by lia. rewrite key_div. cbn [Z.eqb].
  set (k := t / 8). set (ix := t mod 8). set (b := nth (Z.to_nat k) m 0).
  assert (Hix : 0 <= ix < 8) by (apply Z.mod_pos_bound; lia).
  assert (Hk : 0 <= k) by (apply Z.div_pos; lia).
  assert (Et : t = 8 * k + ix) by (apply Z.div_mod; lia).
  assert (B : forall j, 0 <= j < 8 -> mem m (8 * k + j) = Z.testbit b j).
  { intros j Hj. rewrite mem_wbit by auto. reflexivity. }
  assert (D : match byte_get_next_tick b 0 ix true with
              | Some r => 0 <= r < ix /\ Z.testbit b r = true /\ forall j, r < j < ix -> Z.testbit b j = false
              | None => forall j, 0 <= j < ix -> Z.testbit b j = false
              end).
  { unfold byte_get_next_tick. destruct (b =? 0) eqn:E; b2p. { rewrite E. intros; apply Z.bits_0. }
    cbn [Z.eqb]. pose proof (byte_down_spec b (Z.to_nat ix)) as D. rewrite Z2Nat.id in D by lia. exact D. }
  destruct (byte_get_next_tick b 0 ix true) as [r |].
  - eexists; split; [reflexivity |]. rewrite shift3. destruct D as [H1 [H2 H3]].
    split; [lia |]. split. { rewrite B by lia; auto. }
    intros v Hv. replace v with (8 * k + (v - 8 * k)) by lia. rewrite B by lia. apply H3. lia.
  - eexists; split; [reflexivity |]. destruct W as [WL WF].
    pose proof (scan_down m (Z.to_nat k) ix (conj WL WF) ltac:(lia)) as S. rewrite Z2Nat.id in S by lia.
    replace (k + -1) with (k - 1) by lia.
    assert (Z8 : forall v, 8 * k <= v < t -> mem m v = false).
    { intros v Hv. replace v with (8 * k + (v - 8 * k)) by lia. rewrite B by lia. apply D. lia. }
    destruct (scan_words (rev (firstn (Z.to_nat k) m)) 0 ix (k - 1) (-1)) as [r |].
    + destruct S as [H1 [H2 H3]]. split; [lia |]. split; auto. intros v Hv.
      destruct (Z.lt_ge_cases v (8 * k)); [apply H3; lia | apply Z8; lia].
    + intros v Hv. destruct (Z.lt_ge_cases v (8 * k)); [apply S; lia | apply Z8; lia].
Qed.

Lemma next_up : forall m t, bm_wf m -> in_range t ->
  exists r, get_next_tick m t 1 = Ok r /\
  match r with
  | Some u => t < u < 80000 /\ mem m u = true /\ forall v, t < v < u -> mem m v = false
  | None => forall v, t < v < 80000 -> mem m v = false
  end.
Proof.
  intros m t W Ht. pose proof Ht as Ht0. unfold in_range in Ht0. unfold get_next_tick.
  rewrite get_in by auto. cbn [bind]. rewrite ix_mod by lia. rewrite key_div. cbn [Z.eqb].
  set (k := t / 8). set (ix := t mod 8). set (b := nth (Z.to_nat k) m 0).
  assert (Hix : 0 <= ix < 8) by (apply Z.mod_pos_bound; lia).
  assert (Hk : 0 <= k) by (apply Z.div_pos; lia).
  assert (Et : t = 8 * k + ix) by (apply Z.div_mod; lia).
  assert (B : forall j, 0 <= j < 8 -> mem m (8 * k + j) = Z.testbit b j).
  { intros j Hj. rewrite mem_wbit by auto. reflexivity. }
  assert (D : match byte_get_next_tick b 1 ix true with
              | Some r => ix < r < 8 /\ Z.testbit b r = true /\ forall j, ix < j < r -> Z.testbit b j = false
              | None => forall j, ix < j < 8 -> Z.testbit b j = false
              end).
  { unfold byte_get_next_tick. destruct (b =? 0) eqn:E; b2p. { rewrite E. intros; apply Z.bits_0. }
    cbn [Z.eqb Pos.eqb]. pose proof (byte_up_spec b (Z.to_nat (8 - (ix + 1))) (ix + 1) ltac:(lia)) as D.
    destruct (byte_up b (ix + 1) (Z.to_nat (8 - (ix + 1)))).
    - destruct D as [D1 [D2 D3]]. split; [lia |]. split; auto. intros; apply D3; lia.
    - intros; apply D; lia. }
  destruct (byte_get_next_tick b 1 ix true) as [r |].
  - eexists; split; [reflexivity |]. rewrite shift3. destruct D as [H1 [H2 H3]].
    split; [lia |]. split. { rewrite B by lia; auto. }
    intros v Hv. replace v with (8 * k + (v - 8 * k)) by lia. rewrite B by lia. apply H3. lia.
  - eexists; split; [reflexivity |].
    pose proof (scan_up m (k + 1) _ ix W ltac:(lia) eq_refl ltac:(lia)) as S.
    assert (Z8 : forall v, t < v < 8 * (k + 1) -> mem m v = false).
    { intros v Hv. replace v with (8 * k + (v - 8 * k)) by lia. rewrite B by lia. apply D. lia. }
    destruct (scan_words (skipn (Z.to_nat (k + 1)) m) 1 ix (k + 1) 1) as [r |].
    + destruct S as [H1 [H2 H3]]. split; [lia |]. split; auto. intros v Hv.
      destruct (Z.lt_ge_cases v (8 * (k + 1))); [apply Z8; lia | apply H3; lia].
    + intros v Hv. destruct (Z.lt_ge_cases v (8 * (k + 1))); [apply Z8; lia | apply S; lia].
Qed.
