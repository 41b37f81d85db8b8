(** A swap that is not filled completely has used up its side of the pool: no active tick is left in its direction, and every
    further swap that way completes without moving anything. *)
From Coq Require Import ZArith QArith List Bool Lia Lqa String Sorted.
From Verif Require Import Base BaseLemmas DecimalModel DecimalSpec DecimalProofs PowProofs WfProofs MathModel MathProofs TickProofs TickLoop PoolModel PoolWf SwapLoop SwapProofs LpProofs PoolInv PoolNonneg PoolLp PoolRange PoolDir.
Import ListNotations.
Open Scope Z_scope.

Lemma loop_y_stop : forall orc dx ro fuel p s p' o, loop_y orc fuel p s dx ro = Ok (p', o) -> wf dx -> wf ro -> inv_y (p, s) ->
  d_lt (so_recv o) dx = Ok false \/ (is_positive (glbl_liq p') = true -> get_right_limit p' (glbl_tick p') (glbl_tick p') = Ok None).
Proof.
  induction fuel as [| fuel IH]; intros p s p' o H Wd Wo I; [discriminate H |]. cbn [loop_y] in H.
  pose proof I as (I1 & I2 & I3 & I4). cbn [fst snd] in I1, I2, I3, I4. pose proof I1 as (Hsp & (_ & _ & Hgt & _) & _).
  bd H more E1. destruct more; cbn [negb] in H.
  2:{ left. destruct (finish_y_out _ _ _ _ H) as (-> & _). exact E1. }
  bd H gg E2. destruct gg as [[p1 goal] crp].
  assert (X : exists t, inv_y (p1, with_t_rp s t crp) /\
            match goal with
            | None => is_positive (glbl_liq p1) = true -> get_right_limit p1 (glbl_tick p1) (glbl_tick p1) = Ok None
            | Some gtk => is_positive (glbl_liq p1) = true /\ tk_to_possible_tk (glbl_tick p1) (spacing p1) false = Ok (glbl_tick p1) /\ find (fun tk => glbl_tick p1 <? tk) (keys p1) = Some gtk
            end).
  { destruct (is_positive (glbl_liq p)) eqn:Pl.
    - bd E2 g E3. injection E2 as <- <- <-. exists (s_t s). rewrite with_t_rp_id. split; [exact I |]. rewrite <- I4 in E3.
      destruct (right_limit_inv _ _ E3 Hgt Hsp) as (F1 & F2). destruct g as [gtk |]; [split; [exact Pl |]; split; [exact F1 | exact F2] |]. intros _. exact E3.
    - unfold try_get_in_range in E2. rewrite Pl in E2. bd E2 pr E3. destruct pr as [p2 r].
      destruct (gir_right_chain orc dx ro _ _ s _ _ E3 I1) as (C1 & C2 & C3 & C4 & C5); auto. { apply keys_sorted; auto. }
      assert (I' : inv_y (p2, with_t_rp s (glbl_tick p2) (glbl_rp p2))) by (exact (chain_inv _ _ inv_y (fun a b Ha Hm => mv_y_inv _ _ _ _ _ Wd Wo Ha Hm) _ _ C1 I)).
      pose proof I' as (J1 & J2 & J3 & J4). cbn [fst snd] in J1, J2, J3, J4. pose proof J1 as (Jsp & (_ & _ & Jgt & _) & _).
      destruct r as [[g rp] |].
      + injection E2 as <- <- <-. destruct C5 as [-> [C6 C7]]. exists (glbl_tick p2). split; [exact I' |].
        destruct (right_limit_inv _ _ C7 Jgt Jsp) as (F1 & F2). destruct g as [gtk |]; [split; [exact C6 |]; split; [exact F1 | exact F2] |]. intros _. exact C7.
      + destruct (is_negative (glbl_rp p2)); [discriminate E2 |]. injection E2 as <- <- <-. exists (glbl_tick p2). split; [exact I' |].
        destruct C5 as [C5 _]. intros Q. rewrite C5 in Q. discriminate Q. }
  destruct X as (t & I' & G).
  destruct goal as [gtk |].
  - destruct G as [G1 [G2 G3]]. bd H ps E4. destruct ps as [p2 s2].
    assert (MV : mv_y orc dx ro (p1, with_t_rp s t crp) (p2, s2)) by (eapply Y_step; eauto).
    exact (IH _ _ _ _ H Wd Wo (mv_y_inv _ _ _ _ _ Wd Wo I' MV)).
  - right. assert (p' = p1) as -> by (eapply finish_y_same; eauto). exact G.
Qed.
Lemma swap_y_stop : forall orc p dx ro p' o, execute_swap_from_y orc p dx ro = Ok (p', o) -> pool_wf p -> wf dx -> wf ro -> (num (so_recv o) < num dx)%Q ->
  is_positive (glbl_liq p') = true -> get_right_limit p' (glbl_tick p') (glbl_tick p') = Ok None.
Proof.
  intros orc p dx ro p' o H W Wd Wo L. unfold execute_swap_from_y in H. destruct (is_positive dx) eqn:E; cbn [negb] in H; [| discriminate H].
  pose proof H as H0. destruct (swap_y_chain orc p dx ro p' o ltac:(unfold execute_swap_from_y; rewrite E; exact H0) W Wd Wo) as (Pd & s' & C & I' & F & _).
  rewrite zero_eq in H. cbn [bind] in H. destruct (loop_y_stop _ _ _ _ _ _ _ _ H Wd Wo (proj2 (inv_start p W))) as [S | S]; [| exact S].
  exfalso. destruct (finish_y_out _ _ _ _ F) as (F1 & _). rewrite F1 in S, L. destruct I' as (_ & I2 & _). exact (stop_lt dx s' Wd I2 Pd L S).
Qed.

(** ** A pool with nothing left on one side *)
Lemma gir_left_none : forall ks p, (forall k, In k ks -> glbl_tick p < k) -> gir_left p ks = Ok (p, None).
Proof.
  induction ks as [| k ks IH]; intros p H; cbn [gir_left]; [reflexivity |]. rewrite (proj2 (Z.ltb_lt _ _)) by (apply H; cbn; auto). apply IH. intros; apply H; cbn; auto.
Qed.
Lemma gir_right_none : forall ks p, (forall k, In k ks -> k <= glbl_tick p) -> gir_right p ks = Ok (p, None).
Proof.
  induction ks as [| k ks IH]; intros p H; cbn [gir_right]; [reflexivity |]. rewrite (proj2 (Z.leb_le _ _)) by (apply H; cbn; auto). apply IH. intros; apply H; cbn; auto.
Qed.
Definition nothing_moved (o : swap_out) : Prop := (num (so_recv o) == 0 /\ num (so_send o) == 0 /\ num (so_adj o) == 0 /\ num (so_fee o) == 0)%Q.

Lemma lt_zero_ok : forall d, wf d -> dscale d = 12 -> 0 < mant d -> d_lt (mkD 0 12 false) d = Ok true.
Proof.
  intros d W S P. unfold mant in P. unfold d_lt. cbn [dscale dneg dval]. rewrite S. cbn [Z.eqb Pos.eqb negb andb].
  destruct (dneg d); cbn; [pose proof (wf_nn _ W); lia |]. f_equal. apply Z.ltb_lt. lia.
Qed.
Lemma price_not_neg : forall orc p, reachable orc p -> is_negative (glbl_rp p) = false.
Proof.
  intros orc p R. pose proof (reachable_nn _ _ R) as (W & _ & _ & _ & P & _). destruct W as (_ & (_ & Wr & _) & _).
  apply is_neg_f; [apply wf_nn; exact Wr |]. unfold price_ok in P. apply (num_sign (glbl_rp p) Wr). lra.
Qed.
Lemma pos_m : forall d, wf d -> (0 < num d)%Q -> 0 < mant d.
Proof. intros d W P. destruct (Z.le_gt_cases (mant d) 0) as [L |]; auto. apply (num_sign d W) in L. lra. Qed.
Theorem empty_below_x : forall orc orc' p dx ro ep, reachable orc p -> spacing p < 2 ^ 128 -> no_tick_below p -> d_pow (glbl_rp p) 2 = Ok ep -> is_negative ep = false ->
  wf dx -> dscale dx = 12 -> (0 < num dx)%Q -> exists o, execute_swap_from_x orc' p dx ro = Ok (p, o) /\ nothing_moved o.
Proof.
  intros orc orc' p dx ro ep R Hs N Ep Np Wd Sc Pd. pose proof (pos_m dx Wd Pd) as Pm.
  assert (F : exists o, finish_x p (s0 p) = Ok (p, o) /\ nothing_moved o).
  { unfold finish_x, s0. cbn [s_in s_out s_adj s_fee]. change (is_zero (mkD 0 12 false)) with true. cbv iota. rewrite zero_eq. cbn [bind]. rewrite Ep. cbn [bind]. unfold swap_out_new.
    change (is_negative (mkD 0 12 false)) with false. change (is_positive (mkD 0 12 false)) with false. change (is_zero (mkD 0 12 false)) with true. rewrite Np. cbn [andb orb negb bind]. eexists. split; [reflexivity |].
    unfold nothing_moved. cbn [so_recv so_send so_adj so_fee]. repeat split; reflexivity. }
  destruct F as (o & F1 & F2). exists o. split; [| exact F2]. unfold execute_swap_from_x. rewrite (proj2 (is_pos_m dx (wf_nn _ Wd)) Pm). cbn [negb]. rewrite zero_eq. cbn [bind].
  fold (s0 p). unfold swap_fuel. cbn [loop_x]. change (s_in (s0 p)) with (mkD 0 12 false). rewrite (lt_zero_ok dx Wd Sc Pm). cbn [unwrap bind negb].
  destruct (is_positive (glbl_liq p)) eqn:Pl.
  - change (s_t (s0 p)) with (glbl_tick p). destruct (left_lookup orc p R Hs) as (g & G1 & G2). rewrite G1. cbn [bind]. destruct g as [t |]; [| exact F1].
    exfalso. destruct G2 as (A & B & _). specialize (N t A). lia.
  - unfold try_get_in_range. rewrite Pl. unfold tick_keys. rewrite gir_left_none by (intros k Hk; apply N; apply in_rev in Hk; exact Hk). cbn [bind].
    rewrite (price_not_neg orc p R). exact F1.
Qed.
Theorem empty_above_y : forall orc orc' p dx ro ep, reachable orc p -> no_tick_above p -> (is_positive (glbl_liq p) = true -> get_right_limit p (glbl_tick p) (glbl_tick p) = Ok None) ->
  d_pow (glbl_rp p) 2 = Ok ep -> is_negative ep = false ->
  wf dx -> dscale dx = 12 -> (0 < num dx)%Q -> exists o, execute_swap_from_y orc' p dx ro = Ok (p, o) /\ nothing_moved o.
Proof.
  intros orc orc' p dx ro ep R N G Ep Np Wd Sc Pd. pose proof (pos_m dx Wd Pd) as Pm.
  assert (F : exists o, finish_y p (s0 p) = Ok (p, o) /\ nothing_moved o).
  { unfold finish_y, s0. cbn [s_in s_out s_adj s_fee]. change (is_zero (mkD 0 12 false)) with true. cbv iota. rewrite zero_eq. cbn [bind]. rewrite Ep. cbn [bind]. unfold swap_out_new.
    change (is_negative (mkD 0 12 false)) with false. change (is_positive (mkD 0 12 false)) with false. change (is_zero (mkD 0 12 false)) with true. rewrite Np. cbn [andb orb negb bind]. eexists. split; [reflexivity |].
    unfold nothing_moved. cbn [so_recv so_send so_adj so_fee]. repeat split; reflexivity. }
  destruct F as (o & F1 & F2). exists o. split; [| exact F2]. unfold execute_swap_from_y. rewrite (proj2 (is_pos_m dx (wf_nn _ Wd)) Pm). cbn [negb]. rewrite zero_eq. cbn [bind].
  fold (s0 p). unfold swap_fuel. cbn [loop_y]. change (s_in (s0 p)) with (mkD 0 12 false). rewrite (lt_zero_ok dx Wd Sc Pm). cbn [unwrap bind negb].
  destruct (is_positive (glbl_liq p)) eqn:Pl.
  - change (s_t (s0 p)) with (glbl_tick p). rewrite (G eq_refl). cbn [bind]. exact F1.
  - unfold try_get_in_range. rewrite Pl. unfold tick_keys. rewrite gir_right_none by (intros k Hk; apply N; exact Hk). cbn [bind].
    rewrite (price_not_neg orc p R). exact F1.
Qed.

Lemma finish_x_end : forall p s p' o, finish_x p s = Ok (p', o) -> d_pow (glbl_rp p') 2 = Ok (so_end o) /\ is_negative (so_end o) = false.
Proof. intros p s p' o H. unfold finish_x in H. bd H a E1. bd H b E2. bd H c E3. injection H as <- <-. apply swap_out_inv in E3. destruct E3 as (-> & E3). cbn. split; [exact E2 | tauto]. Qed.
Lemma finish_y_end : forall p s p' o, finish_y p s = Ok (p', o) -> d_pow (glbl_rp p') 2 = Ok (so_end o) /\ is_negative (so_end o) = false.
Proof. intros p s p' o H. unfold finish_y in H. bd H a E1. bd H b E2. bd H c E3. injection H as <- <-. apply swap_out_inv in E3. destruct E3 as (-> & E3). cbn. split; [exact E2 | tauto]. Qed.

(** ** The statements *)
Theorem short_swap_x : forall orc p dx ro p' o, reachable orc p -> spacing p < 2 ^ 128 -> wf dx -> wf ro -> execute_swap_from_x orc p dx ro = Ok (p', o) -> (num (so_recv o) < num dx)%Q ->
  no_tick_below p' /\
  forall orc' dx' ro', wf dx' -> dscale dx' = 12 -> (0 < num dx')%Q -> exists o', execute_swap_from_x orc' p' dx' ro' = Ok (p', o') /\ nothing_moved o'.
Proof.
  intros orc p dx ro p' o R Hs Wd Wo H L. pose proof (reachable_ticks _ _ R) as (W & Sp & _).
  destruct (swap_x_bounds _ _ _ _ _ _ W Wd Wo H) as (_ & _ & _ & _ & _ & _ & _ & B). specialize (B L).
  destruct (swap_x_records _ _ _ _ _ _ W Wd Wo H) as ((_ & Sr & _) & W').
  assert (R' : reachable orc p'). { refine (reachable_run orc [CSwapX dx ro] p p' R _ _); [constructor; [split; assumption | constructor] |]. cbn [run_calls run_call]. rewrite H. reflexivity. }
  assert (N : no_tick_below p').
  { pose proof (reachable_ticks _ _ R') as T. intros k Hk. pose proof Hk as Hk'. apply in_map_iff in Hk'. destruct Hk' as ([k' ts] & E & Hi). cbn in E. subst k'. specialize (B k ts Hi).
    destruct (Z.le_gt_cases k (glbl_tick p')) as [Q |]; auto. apply (floor_keys (spacing p')) in Q; [lia | apply T | apply (key_mod _ _ T Hk)]. }
  split; [exact N |]. intros orc' dx' ro' W1 S1 P1. destruct (swap_x_chain _ _ _ _ _ _ H W Wd Wo) as (_ & s' & _ & _ & F & _). destruct (finish_x_end _ _ _ _ F) as [F1 F2].
  refine (empty_below_x orc orc' p' dx' ro' (so_end o) R' _ N F1 F2 W1 S1 P1). rewrite Sr. exact Hs.
Qed.
Theorem short_swap_y : forall orc p dx ro p' o, reachable orc p -> wf dx -> wf ro -> execute_swap_from_y orc p dx ro = Ok (p', o) -> (num (so_recv o) < num dx)%Q ->
  no_tick_above p' /\
  forall orc' dx' ro', wf dx' -> dscale dx' = 12 -> (0 < num dx')%Q -> exists o', execute_swap_from_y orc' p' dx' ro' = Ok (p', o') /\ nothing_moved o'.
Proof.
  intros orc p dx ro p' o R Wd Wo H L. pose proof (reachable_ticks _ _ R) as (W & Sp & _).
  destruct (swap_y_bounds _ _ _ _ _ _ W Wd Wo H) as (_ & _ & _ & _ & _ & _ & _ & B). specialize (B L).
  assert (R' : reachable orc p'). { refine (reachable_run orc [CSwapY dx ro] p p' R _ _); [constructor; [split; assumption | constructor] |]. cbn [run_calls run_call]. rewrite H. reflexivity. }
  assert (N : no_tick_above p').
  { intros k Hk. apply in_map_iff in Hk. destruct Hk as ([k' ts] & E & Hi). cbn in E. subst k'. exact (B k ts Hi). }
  split; [exact N |]. intros orc' dx' ro' W1 S1 P1. destruct (swap_y_chain _ _ _ _ _ _ H W Wd Wo) as (_ & s' & _ & _ & F & _). destruct (finish_y_end _ _ _ _ F) as [F1 F2].
  exact (empty_above_y orc orc' p' dx' ro' (so_end o) R' N (swap_y_stop _ _ _ _ _ _ H W Wd Wo L) F1 F2 W1 S1 P1).
Qed.
