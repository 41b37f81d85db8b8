(** No computation of the model runs out of fuel: every loop of the modelled code terminates. *)
From Coq Require Import ZArith QArith List Bool Lia String Sorted.
From Verif Require Import Base BaseLemmas DecimalModel DecimalSpec DecimalProofs SqrtProofs PowProofs WfProofs MathModel TickProofs TickLoop PoolModel PoolWf SwapLoop.
Import ListNotations.
Open Scope Z_scope.

Definition fin {A} (r : res A) : Prop := r <> NoFuel.
Lemma fin_bind : forall A B (m : res A) (f : A -> res B), fin m -> (forall a, m = Ok a -> fin (f a)) -> fin (bind m f).
Proof. intros A B [a | e | |] f H1 H2; cbn; [apply H2; auto | discriminate | discriminate | exfalso; apply H1; reflexivity]. Qed.
Lemma fin_unwrap : forall A (m : res A), fin m -> fin (unwrap m).
Proof. intros A [a | e | |] H; cbn; auto; discriminate. Qed.
Lemma fin_ok : forall A (a : A), fin (Ok a). Proof. discriminate. Qed.
Lemma fin_panic : forall A, fin (@Panic A). Proof. discriminate. Qed.
Lemma fin_err : forall A e, fin (@Err A e). Proof. discriminate. Qed.
Lemma fin_assert : forall b, fin (assert b). Proof. intros []; discriminate. Qed.
Lemma fin_cadd : forall a b, fin (cadd a b). Proof. intros; unfold cadd; destruct (_ <? _); discriminate. Qed.
Lemma fin_csub : forall a b, fin (csub a b). Proof. intros; unfold csub; destruct (_ <=? _); discriminate. Qed.
Lemma fin_cmul : forall a b, fin (cmul a b). Proof. intros; unfold cmul; destruct (_ <? _); discriminate. Qed.
Lemma fin_cdiv : forall a b, fin (cdiv a b). Proof. intros; unfold cdiv; destruct (_ =? _); discriminate. Qed.
Lemma fin_pow10 : forall a, fin (pow10 a). Proof. intros; unfold pow10; destruct (_ <=? _); discriminate. Qed.
Lemma fin_u64 : forall a, fin (to_u64_chk a). Proof. intros; unfold to_u64_chk; destruct (_ <? _); discriminate. Qed.
Create HintDb fin discriminated.
#[global] Hint Resolve fin_unwrap fin_ok fin_panic fin_err fin_assert fin_cadd fin_csub fin_cmul fin_cdiv fin_pow10 fin_u64 : fin.

Ltac fstep := match goal with
  | |- fin (bind _ _) => apply fin_bind; [| intros ? ?]
  | |- fin (unwrap _) => apply fin_unwrap
  | |- fin (let '(_, _) := ?x in _) => destruct x
  | |- fin (if ?b then _ else _) => destruct b eqn:?
  | |- fin (match ?x with _ => _ end) => destruct x eqn:?
  end.
Ltac unw := repeat match goal with H : unwrap _ = Ok _ |- _ => apply unwrap_ok in H end.
Ltac fins := repeat (solve [auto with fin nocore] || fstep).

Lemma fin_to_scale : forall d s, fin (to_scale d s). Proof. intros; unfold to_scale; fins. Qed.
#[global] Hint Resolve fin_to_scale : fin.
Lemma fin_den : forall d, fin (denominator d). Proof. intros; unfold denominator; fins. Qed.
#[global] Hint Resolve fin_den : fin.
Lemma fin_to_cs : forall d, fin (to_compute_scale d). Proof. intros; unfold to_compute_scale; fins. Qed.
Lemma fin_to_scale_up : forall d s, fin (to_scale_up d s). Proof. intros; unfold to_scale_up, d_div_up, d_mul_up, denominator; fins. Qed.
Lemma fin_mul : forall a b, fin (d_mul a b). Proof. intros; unfold d_mul, denominator; fins. Qed.
Lemma fin_add : forall a b, fin (d_add a b). Proof. intros; unfold d_add; fins. Qed.
Lemma fin_sub : forall a b, fin (d_sub a b). Proof. intros; unfold d_sub; apply fin_add. Qed.
Lemma fin_div : forall a b, fin (d_div a b). Proof. intros; unfold d_div, denominator; fins. Qed.
Lemma fin_lt : forall a b, fin (d_lt a b). Proof. intros; unfold d_lt; fins. Qed.
Lemma fin_gt : forall a b, fin (d_gt a b). Proof. intros; unfold d_gt; fins. Qed.
Lemma fin_lte : forall a b, fin (d_lte a b). Proof. intros; unfold d_lte; fins. Qed.
Lemma fin_gte : forall a b, fin (d_gte a b). Proof. intros; unfold d_gte; fins. Qed.
Lemma fin_eq : forall a b, fin (d_eq a b). Proof. intros; unfold d_eq; fins. Qed.
#[global] Hint Resolve fin_to_cs fin_to_scale_up fin_mul fin_add fin_sub fin_div fin_lt fin_gt fin_lte fin_gte fin_eq : fin.
Lemma fin_min : forall a b, fin (d_min a b). Proof. intros; unfold d_min; fins. Qed.
Lemma fin_max : forall a b, fin (d_max a b). Proof. intros; unfold d_max; fins. Qed.
Lemma fin_abs : forall a, fin (d_abs a). Proof. intros; unfold d_abs, to_u64; fins. Qed.
Lemma fin_is_integer : forall a, fin (is_integer a). Proof. intros; unfold is_integer, denominator; fins. Qed.
Lemma fin_zero : fin m_zero. Proof. rewrite zero_eq; fins. Qed.
Lemma fin_one : fin m_one. Proof. rewrite one_eq; fins. Qed.
#[global] Hint Resolve fin_min fin_max fin_abs fin_is_integer fin_zero fin_one : fin.
Lemma fin_pow_loop : forall e b r, fin (pow_loop e b r).
Proof. induction e; intros b r; cbn [pow_loop]; fins; auto. Qed.
#[global] Hint Resolve fin_pow_loop : fin.
Lemma fin_pow : forall d n, fin (d_pow d n). Proof. intros; unfold d_pow; fins. Qed.
#[global] Hint Resolve fin_pow : fin.
Lemma fin_sqrt : forall d, wf d -> fin (d_sqrt d).
Proof. intros d W. pose proof (sqrt_spec d W) as S. destruct (d_sqrt d); try discriminate. contradiction. Qed.
Lemma fin_tick_rp : forall t, fin (tick_to_rp t).
Proof. intros t. rewrite tick_pow. destruct t; fins. Qed.
#[global] Hint Resolve fin_tick_rp : fin.
Lemma fin_search : forall rp l2r s, wf rp -> 0 <= s -> fin (rp_to_tick_loop rp l2r s).
Proof. intros rp l2r s W H. pose proof (search_spec rp l2r s W H) as S. destruct (rp_to_tick_loop rp l2r s); try discriminate. contradiction. Qed.
Lemma fin_pow_dec_nn : forall fb d e, wf d -> wf e -> (forall e', wf e' -> fin (fb e')) -> fin (d_pow_dec_nonneg fb d e).
Proof.
  intros fb d e Wd We Hf. unfold d_pow_dec_nonneg. fins; try (apply fin_sqrt; auto; unw; eapply sqrt_wf; eauto; fail).
Qed.
Lemma fin_pow_dec : forall d e, wf d -> wf e -> fin (d_pow_dec d e).
Proof. intros d e Wd We. unfold d_pow_dec. apply fin_pow_dec_nn; auto. intros. apply fin_pow_dec_nn; auto. intros; fins. Qed.
Lemma fin_ln_cols : forall n col s t acc, fin (ln_cols n col s t acc).
Proof.
  induction n; intros col s t acc; cbn [ln_cols]; fins; auto. unfold log_table_value, into_u64. fins.
Qed.
#[global] Hint Resolve fin_ln_cols : fin.
Lemma bit_length_wf : forall orc d b, bit_length orc d = Ok b -> wf d -> wf b.
Proof.
  intros orc d b H W. unfold bit_length in H. destruct (is_negative d); [discriminate |]. destruct (is_zero d); [injection H as <-; split; cbn; lia |].
  destruct (orc (dval d) (dscale d)) as [x neg]. bd H z E. injection H as <-.
  assert (Wx : wf (mkD (sat_u128 x) (dscale d) neg)) by (destruct W; split; cbn; auto; unfold sat_u128, U128; lia).
  assert (Wz : wf z) by (destruct neg; [eapply to_scale_up_wf in E | eapply to_scale_wf in E]; auto; try lia; tauto).
  destruct Wz. split; cbn; auto; lia.
Qed.
Lemma fin_ln : forall orc d, wf d -> fin (d_ln orc d).
Proof.
  intros orc d W. unfold d_ln. apply fin_bind || idtac. destruct (is_negative d); [fins |]. apply fin_bind; [fins | intros sc E1].
  apply fin_bind; [unfold bit_length; fins | intros bl E2]. apply unwrap_ok in E2. pose proof (bit_length_wf _ _ _ E2 W) as Wb.
  apply fin_bind; [fins | intros two E3]. apply fin_bind; [fins | intros bl6 E4].
  destruct (to_scale_wf _ _ _ E3 (small_wf 2 ltac:(lia)) ltac:(lia)) as [W2 _]. destruct (to_scale_wf _ _ _ E4 Wb ltac:(lia)) as [W6 _].
  apply fin_bind; [apply fin_pow_dec; auto | intros m6 E5]. fins.
Qed.
Lemma fin_possible : forall t s b, fin (tk_to_possible_tk t s b).
Proof. intros. unfold tk_to_possible_tk, into_u128, d_div_up. fins. Qed.
Lemma fin_dx : forall a b c, fin (dx_from_l_drp a b c). Proof. intros; unfold dx_from_l_drp; fins. Qed.
Lemma fin_dy : forall a b c, fin (dy_from_l_drp a b c). Proof. intros; unfold dy_from_l_drp; fins. Qed.
Lemma fin_rpx : forall a b c, fin (rp_new_from_l_dx a b c). Proof. intros; unfold rp_new_from_l_dx; fins. Qed.
Lemma fin_rpy : forall a b c, fin (rp_new_from_l_dy a b c). Proof. intros; unfold rp_new_from_l_dy; fins. Qed.
Lemma fin_pred : forall a, fin (pred_u128 a). Proof. intros; unfold pred_u128; fins. Qed.
#[global] Hint Resolve fin_possible fin_dx fin_dy fin_rpx fin_rpy fin_pred : fin.
Lemma fin_hmm_y : forall orc a b c d e, wf b -> wf c -> wf d -> wf e -> fin (dy_from_l_drp_hmm orc a b c d e).
Proof.
  intros orc a b c d e W1 W2 W3 W4. unfold dy_from_l_drp_hmm. rewrite one_eq. cbn [bind]. pose proof one12_wf. fins; try (apply fin_ln; auto); apply fin_pow_dec; auto; unw; wfs; auto.
Qed.
Lemma fin_hmm_x : forall orc a b c d e, wf b -> wf c -> wf d -> wf e -> fin (dx_from_l_drp_hmm orc a b c d e).
Proof.
  intros orc a b c d e W1 W2 W3 W4. unfold dx_from_l_drp_hmm. rewrite one_eq. cbn [bind]. pose proof one12_wf. fins; try (apply fin_ln; auto); apply fin_pow_dec; auto; unw; wfs; auto.
Qed.
Lemma fin_within_new : forall a b c d e f g, fin (within_new a b c d e f g). Proof. intros; unfold within_new; fins. Qed.
#[global] Hint Resolve fin_within_new : fin.
Lemma fin_within_x : forall orc p srp g l dx ro, pool_wf p -> wf srp -> wf l -> wf dx -> wf ro -> 0 <= g -> fin (swap_within_x orc p srp g l dx ro).
Proof.
  intros orc p srp g l dx ro W Ws Wl Wd Wo Hg. pose proof W as (_ & _ & _ & _ & _ & Wc & Wf). pose proof one12_wf as W1. unfold swap_within_x. rewrite one_eq. destruct (is_negative dx); [fins |].
  apply fin_bind; [fins | intros rpg E1]. apply fin_bind; [fins | intros up E2]. destruct up; [fins |]. cbn [bind].
  apply fin_bind; [fins | intros ff E3]. apply fin_bind; [fins | intros dxm E4]. apply fin_bind; [fins | intros dbl E5]. destruct (is_negative dbl); [fins |].
  apply fin_bind; [fins | intros part E6]. unw. destruct (tick_rp_wf _ _ E1) as [Wg _]. wfs.
  apply fin_bind.
  { destruct part; [fins |]. apply fin_bind; [fins | intros fee F1]. apply fin_bind; [fins | intros erp F2]. apply fin_bind; [fins | intros g1 F3].
    destruct (pred_ok _ _ F3 Hg) as [_ [Hg1 _]]. pose proof (rp_dx_wf _ _ _ _ F2 Wl Ws ltac:(auto)). apply fin_bind; [apply fin_search; auto | intros et F4]. fins. }
  intros [[[[a b] c] d] e] E8. assert (We : wf e).
  { destruct part. { bd E8 q F1. bd E8 q2 F2. injection E8 as <- <- <- <- <-. auto. }
    bd E8 fee F1. bd E8 erp F2. pose proof (rp_dx_wf _ _ _ _ F2 Wl Ws ltac:(auto)). bd E8 g1 F3. bd E8 et F4. bd E8 c1 F5. destruct c1; [discriminate |]. bd E8 c2 F6. destruct c2; [discriminate |].
    injection E8 as <- <- <- <- <-. auto. }
  fins; apply fin_hmm_y; auto.
Qed.
Lemma fin_within_y : forall orc p srp g l dx ro, pool_wf p -> wf srp -> wf l -> wf dx -> wf ro -> 0 <= g -> fin (swap_within_y orc p srp g l dx ro).
Proof.
  intros orc p srp g l dx ro W Ws Wl Wd Wo Hg. pose proof W as (Hsp & (_ & _ & Hgt & _) & _ & _ & _ & Wc & Wf). pose proof one12_wf as W1. unfold swap_within_y. rewrite one_eq. destruct (is_negative dx); [fins |].
  apply fin_bind; [fins | intros rpg E1]. apply fin_bind; [fins | intros up E2]. destruct up; [fins |]. cbn [bind].
  apply fin_bind; [fins | intros ff E3]. apply fin_bind; [fins | intros dxm E4]. apply fin_bind; [fins | intros dbl E5]. destruct (is_negative dbl); [fins |].
  apply fin_bind; [fins | intros part E6]. unw. destruct (tick_rp_wf _ _ E1) as [Wg _]. wfs.
  apply fin_bind.
  { destruct part; [fins |]. apply fin_bind; [fins | intros fee F1]. apply fin_bind; [fins | intros erp F2]. apply fin_bind; [fins | intros g1 F3].
    destruct (pred_ok _ _ F3 Hgt) as [_ [Hg1 _]]. apply fin_bind; [unfold tick_to_possible_tick; fins | intros sk F4].
    destruct (possible_down_le _ _ _ Hg1 Hsp F4) as [B _]. pose proof (rp_dy_wf _ _ _ _ F2 Wl Ws ltac:(auto)). apply fin_bind; [apply fin_search; auto; lia | intros et F5]. fins. }
  intros [[[[a b] c] d] e] E8. assert (We : wf e).
  { destruct part. { bd E8 q F1. bd E8 q2 F2. injection E8 as <- <- <- <- <-. auto. }
    bd E8 fee F1. bd E8 erp F2. pose proof (rp_dy_wf _ _ _ _ F2 Wl Ws ltac:(auto)). bd E8 g1 F3. bd E8 sk Fs. bd E8 et F4. bd E8 c1 F5. destruct c1; [discriminate |]. bd E8 c2 F6. destruct c2; [discriminate |].
    injection E8 as <- <- <- <- <-. auto. }
  fins; apply fin_hmm_x; auto.
Qed.

Lemma fin_cross : forall p t b, fin (cross_tick p t b).
Proof. intros. unfold cross_tick, add_glbl_liq, g_add_liq, tick_to_possible_tick. fins. Qed.
#[global] Hint Resolve fin_cross : fin.
Lemma fin_left : forall p s, fin (get_left_limit p s). Proof. intros; unfold get_left_limit, tick_to_possible_tick; fins. Qed.
Lemma fin_right : forall p s t, fin (get_right_limit p s t). Proof. intros; unfold get_right_limit, tick_to_possible_tick; fins. Qed.
#[global] Hint Resolve fin_left fin_right : fin.
Lemma fin_gir_left : forall ks p, fin (gir_left p ks).
Proof. induction ks; intros p; cbn [gir_left]; fins; auto. Qed.
Lemma fin_gir_right : forall ks p, fin (gir_right p ks).
Proof. induction ks; intros p; cbn [gir_right]; fins; auto. Qed.
#[global] Hint Resolve fin_gir_left fin_gir_right : fin.
Lemma fin_try : forall p b, fin (try_get_in_range p b).
Proof. intros p b. unfold try_get_in_range. fins. Qed.
#[global] Hint Resolve fin_try : fin.
Lemma fin_finish_x : forall p s, fin (finish_x p s). Proof. intros; unfold finish_x, swap_out_new; fins. Qed.
Lemma fin_finish_y : forall p s, fin (finish_y p s). Proof. intros; unfold finish_y, swap_out_new; fins. Qed.
#[global] Hint Resolve fin_finish_x fin_finish_y : fin.
Lemma fin_step_x : forall orc p s dx ro g, pool_wf p -> s_wf s -> wf dx -> wf ro -> 0 <= g -> fin (step_x orc p s dx ro g).
Proof.
  intros orc p s dx ro g W Ws Wd Wo Hg. unfold step_x. apply fin_bind; [fins | intros rest E1]. unw.
  apply fin_bind. { apply fin_within_x; auto; [apply Ws | apply W | eapply sub_wf; [exact E1 | auto | apply Ws]]. } intros w _. fins.
Qed.
Lemma fin_step_y : forall orc p s dx ro g, pool_wf p -> s_wf s -> wf dx -> wf ro -> 0 <= g -> fin (step_y orc p s dx ro g).
Proof.
  intros orc p s dx ro g W Ws Wd Wo Hg. unfold step_y. apply fin_bind; [fins | intros rest E1]. unw.
  apply fin_bind. { apply fin_within_y; auto; [apply Ws | apply W | eapply sub_wf; [exact E1 | auto | apply Ws]]. } intros w _. fins.
Qed.

(** ** The swap loops: one iteration per remaining active tick, plus one *)
Definition cnt (f : Z -> bool) (l : list Z) : nat := List.length (filter f l).
Definition mu_x (p : pool) : nat := cnt (fun k => k <=? glbl_tick p) (keys p).
Definition mu_y (p : pool) : nat := cnt (fun k => glbl_tick p <? k) (keys p).
Lemma cnt_le : forall f g l, (forall x, In x l -> f x = true -> g x = true) -> (cnt f l <= cnt g l)%nat.
Proof.
  unfold cnt. induction l as [| a l IH]; cbn; intros H; [lia |]. assert (IH' := IH (fun x Hx => H x (or_intror Hx))). pose proof (H a (or_introl eq_refl)) as Ha.
  destruct (f a); [rewrite Ha by auto; cbn; lia |]. destruct (g a); cbn; lia.
Qed.
Lemma cnt_lt : forall f g l k, (forall x, In x l -> f x = true -> g x = true) -> In k l -> f k = false -> g k = true -> (S (cnt f l) <= cnt g l)%nat.
Proof.
  unfold cnt. induction l as [| a l IH]; cbn; intros k H Hk Fk Gk; [contradiction |].
  pose proof (cnt_le f g l (fun x Hx => H x (or_intror Hx))) as L. unfold cnt in L. destruct Hk as [-> | Hk].
  - rewrite Fk, Gk. cbn. lia.
  - pose proof (IH k (fun x Hx => H x (or_intror Hx)) Hk Fk Gk). pose proof (H a (or_introl eq_refl)) as Ha. destruct (f a); [rewrite Ha by auto; cbn; lia |]. destruct (g a); cbn; lia.
Qed.
Lemma cnt_all : forall f l, (cnt f l <= List.length l)%nat.
Proof. unfold cnt. induction l as [| a l IH]; cbn; [lia |]. destruct (f a); cbn; lia. Qed.
Lemma cnt_pos : forall f l k, In k l -> f k = true -> (1 <= cnt f l)%nat.
Proof. unfold cnt. induction l as [| a l IH]; cbn; intros k Hk Fk; [contradiction |]. destruct Hk as [-> | Hk]; [rewrite Fk; cbn; lia |]. specialize (IH k Hk Fk). destruct (f a); cbn; lia. Qed.

Lemma tally_done : forall dx s w s' rest, tally dx s w s' -> d_sub dx (s_in s) = Ok rest -> wf dx -> s_wf s' -> 0 < mant dx ->
  mant (w_recv w) + mant (w_fee w) = mant rest -> d_lt (s_in s') dx = Ok false.
Proof.
  intros dx s w s' rest (rest' & c1 & ck & i1 & i2 & o2 & a2 & f2 & T1 & T2 & T3 & T4 & T5 & T6 & T7 & T8 & T9 & ->) E Wd (Wi & _) Pd H.
  rewrite T1 in E. injection E as ->. cbn [s_in] in *. apply sub_m in T1. apply add_m in T5, T6.
  assert (S : dscale i2 = dscale dx) by lia. assert (M : mant i2 = mant dx) by lia.
  assert (X : exists r, d_lt i2 dx = Ok r). { unfold d_lt. rewrite S, Z.eqb_refl. cbn. eauto. }
  destruct X as [r X]. rewrite X. destruct (lt_m _ _ _ (wf_nn _ Wi) (wf_nn _ Wd) X) as [_ [_ [_ L]]]. destruct r; auto.
  assert (C : canonical i2). { intros N. destruct (mant_pos_flag i2 (wf_nn _ Wi) ltac:(lia)). congruence. } specialize (L C eq_refl). lia.
Qed.

Lemma fin_loop_x : forall orc dx ro, wf dx -> wf ro -> 0 < mant dx -> forall fuel p s, inv_x (p, s) ->
  (mu_x p + 2 <= fuel)%nat \/ (d_lt (s_in s) dx = Ok false /\ (1 <= fuel)%nat) -> fin (loop_x orc fuel p s dx ro).
Proof.
  intros orc dx ro Wd Wo Pd. induction fuel as [| fuel IH]; intros p s I H; [lia |]. cbn [loop_x].
  pose proof I as (I1 & I2 & I3 & I4). cbn [fst snd] in I1, I2, I3, I4. pose proof I1 as (Hsp & (_ & _ & Hgt & _) & _).
  apply fin_bind; [fins | intros more E1]. apply unwrap_ok in E1. destruct H as [H | [H _]]. 2:{ rewrite H in E1. injection E1 as <-. cbn [negb]. fins. }
  destruct more; cbn [negb]; [| fins]. apply fin_bind; [fins | intros [[p1 goal] crp] E2].
  assert (X : inv_x (p1, with_rp s crp) /\ (mu_x p1 <= mu_x p)%nat /\
            match goal with None => True | Some gtk => is_positive (glbl_liq p1) = true /\ exists f, tk_to_possible_tk (glbl_tick p1) (spacing p1) false = Ok f /\ find (fun tk => tk <=? f) (rev (keys p1)) = Some gtk /\ gtk <= glbl_tick p1 end).
  { destruct (is_positive (glbl_liq p)) eqn:Pl.
    - bd E2 g E3. injection E2 as <- <- <-. rewrite with_rp_id. csplit; auto. destruct (left_limit_inv _ _ _ E3 I4 Hgt Hsp) as (f & F1 & F2 & F3 & F4).
      destruct g as [gtk |]; auto. split; auto. exists f. destruct (find_left _ _ _ F2). csplit; auto. lia.
    - unfold try_get_in_range in E2. rewrite Pl in E2. bd E2 pr E3. destruct pr as [p2 r].
      destruct (gir_left_chain orc dx ro _ _ s _ _ E3 I1) as (C1 & C2 & C3 & C4 & C5); auto. { intros k Hk. apply in_rev in Hk. auto. } { apply sorted_rev, keys_sorted; auto. } { intros k Hk. left. unfold tick_keys. rewrite <- in_rev. auto. }
      pose proof (chain_inv _ _ inv_x (fun a b Ha Hm => mv_x_inv _ _ _ _ _ Wd Wo Ha Hm) _ _ C1 I) as I'.
      assert (M : (mu_x p2 <= mu_x p)%nat). { unfold mu_x. rewrite C3. apply cnt_le. intros x _ Hx. b2p. apply Z.leb_le. lia. }
      pose proof I' as (J1 & J2 & J3 & J4). cbn [fst snd] in J1, J2, J3, J4. pose proof J1 as (Jsp & (_ & _ & Jgt & _) & _).
      destruct r as [[g rp] |].
      + injection E2 as <- <- <-. destruct C5 as [-> [C6 C7]]. csplit; auto.
        destruct (left_limit_inv _ _ _ C7 (Z.le_refl _) Jgt Jsp) as (f & F1 & F2 & F3 & F4). destruct g as [gtk |]; auto. split; auto. exists f. destruct (find_left _ _ _ F2). csplit; auto. lia.
      + destruct (is_negative (glbl_rp p2)); [discriminate |]. injection E2 as <- <- <-. csplit; auto. }
  destruct X as (I' & M & G). destruct goal as [gtk |]; [| fins]. destruct G as (G1 & f & G2 & G3 & G4). destruct (find_left _ _ _ G3) as [K1 K2].
  pose proof I' as (J1 & J2 & J3 & J4). cbn [fst snd] in J1, J2, J3, J4. fold (with_rp s crp).
  apply fin_bind; [apply fin_step_x; auto; eapply key_nn; eauto |]. intros [p2 s2] E4.
  assert (MV : mv_x orc dx ro (p1, with_rp s crp) (p2, s2)) by (eapply X_step; eauto).
  apply IH. { exact (mv_x_inv _ _ _ _ _ Wd Wo I' MV). }
  destruct (step_x_facts _ _ _ _ _ _ _ _ E4 J1 J2 Wd Wo K1) as (w & pm & (rest & R1 & R2 & R3) & F2 & F3 & F4 & F5 & F6 & F7 & F8).
  destruct (within_x_facts _ _ _ _ _ _ _ _ R3 J1 (proj2 (proj2 (proj2 (proj2 J2)))) (proj1 (proj1 (proj2 J1))) R2 Wo (key_nn _ _ J1 K1)) as (rpg & cp & Q1 & Q2 & Q3 & Q4 & Q5 & Q6 & Q7 & Q8 & Q9 & Q10 & Q11 & Q12 & Q13 & Q14 & Q15 & Q16).
  destruct (w_cross w).
  - left. destruct F8 as [F9 F8]. destruct F3 as (nx & y1 & ny & nya & nxf & fx & hy & _ & _ & _ & _ & _ & _ & _ & ->).
    destruct (cross_tick_to _ _ _ F8 (key_nn _ _ J1 K1) (proj1 F5)) as [_ [C _]]. pose proof (cross_keys _ _ _ _ F8 (keys_sorted _ F5)) as CK. unfold keys in CK at 2; cbn [ticks] in CK. fold (keys p1) in CK.
    enough ((S (mu_x p2) <= mu_x p1)%nat) by lia. unfold mu_x. rewrite CK. apply cnt_lt with gtk; auto.
    + intros x _ Hx. b2p. apply Z.leb_le. lia.
    + apply Z.leb_gt. lia.
    + apply Z.leb_le. lia.
  - right. split; [| lia]. eapply tally_done; eauto. tauto.
Qed.
Lemma fin_loop_y : forall orc dx ro, wf dx -> wf ro -> 0 < mant dx -> forall fuel p s, inv_y (p, s) ->
  (mu_y p + 2 <= fuel)%nat \/ (d_lt (s_in s) dx = Ok false /\ (1 <= fuel)%nat) -> fin (loop_y orc fuel p s dx ro).
Proof.
  intros orc dx ro Wd Wo Pd. induction fuel as [| fuel IH]; intros p s I H; [lia |]. cbn [loop_y].
  pose proof I as (I1 & I2 & I3 & I4). cbn [fst snd] in I1, I2, I3, I4. pose proof I1 as (Hsp & (_ & _ & Hgt & _) & _).
  apply fin_bind; [fins | intros more E1]. apply unwrap_ok in E1. destruct H as [H | [H _]]. 2:{ rewrite H in E1. injection E1 as <-. cbn [negb]. fins. }
  destruct more; cbn [negb]; [| fins]. apply fin_bind; [fins | intros [[p1 goal] crp] E2].
  assert (X : exists t, inv_y (p1, with_t_rp s t crp) /\ (mu_y p1 <= mu_y p)%nat /\
            match goal with None => True | Some gtk => is_positive (glbl_liq p1) = true /\ tk_to_possible_tk (glbl_tick p1) (spacing p1) false = Ok (glbl_tick p1) /\ find (fun tk => glbl_tick p1 <? tk) (keys p1) = Some gtk end).
  { destruct (is_positive (glbl_liq p)) eqn:Pl.
    - bd E2 g E3. injection E2 as <- <- <-. exists (s_t s). rewrite with_t_rp_id. csplit; auto. rewrite <- I4 in E3. destruct (right_limit_inv _ _ E3 Hgt Hsp) as (F1 & F2).
      destruct g as [gtk |]; auto.
    - unfold try_get_in_range in E2. rewrite Pl in E2. bd E2 pr E3. destruct pr as [p2 r].
      destruct (gir_right_chain orc dx ro _ _ s _ _ E3 I1) as (C1 & C2 & C3 & C4 & C5); auto. { apply keys_sorted; auto. }
      pose proof (chain_inv _ _ inv_y (fun a b Ha Hm => mv_y_inv _ _ _ _ _ Wd Wo Ha Hm) _ _ C1 I) as I'.
      assert (M : (mu_y p2 <= mu_y p)%nat). { unfold mu_y. rewrite C3. apply cnt_le. intros x _ Hx. b2p. apply Z.ltb_lt. lia. }
      pose proof I' as (J1 & J2 & J3 & J4). cbn [fst snd] in J1, J2, J3, J4. pose proof J1 as (Jsp & (_ & _ & Jgt & _) & _).
      exists (glbl_tick p2). destruct r as [[g rp] |].
      + injection E2 as <- <- <-. destruct C5 as [-> [C6 C7]]. csplit; auto.
        destruct (right_limit_inv _ _ C7 Jgt Jsp) as (F1 & F2). destruct g as [gtk |]; auto.
      + destruct (is_negative (glbl_rp p2)); [discriminate |]. injection E2 as <- <- <-. csplit; auto. }
  destruct X as (t & I' & M & G). destruct goal as [gtk |]; [| fins]. destruct G as (G1 & G2 & G3). destruct (find_right _ _ _ G3) as [K1 K2].
  pose proof I' as (J1 & J2 & J3 & J4). cbn [fst snd] in J1, J2, J3, J4.
  change (step_y orc p1 _ dx ro gtk) with (step_y orc p1 (with_t_rp s t crp) dx ro gtk).
  apply fin_bind; [apply fin_step_y; auto; eapply key_nn; eauto |]. intros [p2 s2] E4.
  assert (MV : mv_y orc dx ro (p1, with_t_rp s t crp) (p2, s2)) by (eapply Y_step; eauto).
  apply IH. { exact (mv_y_inv _ _ _ _ _ Wd Wo I' MV). }
  destruct (step_y_facts _ _ _ _ _ _ _ _ E4 J1 J2 Wd Wo K1) as (w & pm & (rest & R1 & R2 & R3) & F2 & F3 & F4 & F5 & F6 & F7 & F8).
  destruct (within_y_facts _ _ _ _ _ _ _ _ R3 J1 (proj2 (proj2 (proj2 (proj2 J2)))) (proj1 (proj1 (proj2 J1))) R2 Wo (key_nn _ _ J1 K1)) as (rpg & cp & Q1 & Q2 & Q3 & Q4 & Q5 & Q6 & Q7 & Q8 & Q9 & Q10 & Q11 & Q12 & Q13 & Q14 & Q15 & Q16).
  destruct (w_cross w).
  - left. destruct F8 as [F9 F8]. destruct F3 as (nx & y1 & ny & nya & nxf & fx & hy & _ & _ & _ & _ & _ & _ & _ & ->).
    destruct (cross_tick_to_r _ _ _ F8) as [C _]. pose proof (cross_keys _ _ _ _ F8 (keys_sorted _ F5)) as CK. unfold keys in CK at 2; cbn [ticks] in CK. fold (keys p1) in CK.
    enough ((S (mu_y p2) <= mu_y p1)%nat) by lia. unfold mu_y. rewrite CK. apply cnt_lt with gtk; auto.
    + intros x _ Hx. b2p. apply Z.ltb_lt. lia.
    + apply Z.ltb_ge. lia.
    + apply Z.ltb_lt. lia.
  - right. split; [| lia]. eapply tally_done; eauto. tauto.
Qed.

Lemma keys_length : forall p, List.length (keys p) = List.length (ticks p). Proof. intros p. apply map_length. Qed.
Theorem swap_x_terminates : forall orc p dx ro, pool_wf p -> wf dx -> wf ro -> execute_swap_from_x orc p dx ro <> NoFuel.
Proof.
  intros orc p dx ro W Wd Wo. unfold execute_swap_from_x. destruct (is_positive dx) eqn:E; cbn [negb]; [| discriminate]. rewrite zero_eq. cbn [bind].
  apply is_pos_m in E; [| apply wf_nn; auto]. apply fin_loop_x; auto. { apply inv_start; auto. }
  left. unfold swap_fuel, mu_x. pose proof (cnt_all (fun k => k <=? glbl_tick p) (keys p)). rewrite keys_length in H. lia.
Qed.
Theorem swap_y_terminates : forall orc p dx ro, pool_wf p -> wf dx -> wf ro -> execute_swap_from_y orc p dx ro <> NoFuel.
Proof.
  intros orc p dx ro W Wd Wo. unfold execute_swap_from_y. destruct (is_positive dx) eqn:E; cbn [negb]; [| discriminate]. rewrite zero_eq. cbn [bind].
  apply is_pos_m in E; [| apply wf_nn; auto]. apply fin_loop_y; auto. { apply inv_start; auto. }
  left. unfold swap_fuel, mu_y. pose proof (cnt_all (fun k => glbl_tick p <? k) (keys p)). rewrite keys_length in H. lia.
Qed.
(** The iteration budget does not influence the outcome: with more of it, the loop gives the same answer. *)
Lemma loop_x_more : forall orc dx ro fuel extra p s, loop_x orc fuel p s dx ro <> NoFuel -> loop_x orc (fuel + extra) p s dx ro = loop_x orc fuel p s dx ro.
Proof.
  induction fuel as [| fuel IH]; intros extra p s H; [exfalso; apply H; reflexivity |]. cbn [loop_x Nat.add] in *.
  destruct (unwrap (d_lt (s_in s) dx)) as [more | | |]; cbn [bind] in *; auto. destruct (negb more); auto.
  destruct (if is_positive (glbl_liq p) then _ else _) as [[[p1 goal] crp] | | |]; cbn [bind] in *; auto. destruct goal as [gtk |]; auto.
  destruct (step_x _ _ _ _ _ _) as [[p2 s2] | | |]; cbn [bind] in *; auto.
Qed.
Lemma loop_y_more : forall orc dx ro fuel extra p s, loop_y orc fuel p s dx ro <> NoFuel -> loop_y orc (fuel + extra) p s dx ro = loop_y orc fuel p s dx ro.
Proof.
  induction fuel as [| fuel IH]; intros extra p s H; [exfalso; apply H; reflexivity |]. cbn [loop_y Nat.add] in *.
  destruct (unwrap (d_lt (s_in s) dx)) as [more | | |]; cbn [bind] in *; auto. destruct (negb more); auto.
  destruct (if is_positive (glbl_liq p) then _ else _) as [[[p1 goal] crp] | | |]; cbn [bind] in *; auto. destruct goal as [gtk |]; auto.
  destruct (step_y _ _ _ _ _ _) as [[p2 s2] | | |]; cbn [bind] in *; auto.
Qed.
