(** Swaps that cannot complete: at the lowest tick, and for small amounts. *)
From Coq Require Import ZArith QArith Qminmax List Bool Lia Lqa String Sorted.
From Verif Require Import Base BaseLemmas DecimalModel DecimalSpec DecimalProofs PowProofs WfProofs MathModel MathProofs TickProofs TickLoop PoolModel PoolWf SwapLoop SwapProofs LpProofs PoolInv PoolNonneg PoolLp PoolRange PoolFees PoolGain PoolScale PoolExit SwapAmounts SwapCover SwapWorth SwapFair SwapMono HmmProofs SwapReport.
Import ListNotations.
Open Scope Z_scope.

(** ** Tick 0 *)
(** Some active tick other than 0 is at or below the price. *)
Definition above_zero (p : pool) : Prop := exists t r, In t (keys p) /\ 0 < t /\ tick_to_rp t = Ok r /\ (num r <= num (glbl_rp p))%Q.
Lemma keys_same : forall p q : pool, map (fun kt => (fst kt, t_net (snd kt), t_gross (snd kt))) (ticks q) = map (fun kt => (fst kt, t_net (snd kt), t_gross (snd kt))) (ticks p) -> keys q = keys p.
Proof. intros p q E. apply (f_equal (map (fun k => fst (fst k)))) in E. rewrite !map_map in E. exact E. Qed.
Lemma step_x_zero : forall orc p s dx ro gtk p' s', step_x orc p s dx ro gtk = Ok (p', s') -> pool_wf p -> s_wf s -> wf dx -> wf ro -> In gtk (keys p) -> 0 < gtk.
Proof.
  intros orc p s dx ro gtk p' s' H W Ws Wd Wo K1.
  destruct (step_x_facts _ _ _ _ _ _ _ _ H W Ws Wd Wo K1) as (w & p1 & (rest & R1 & R2 & R3) & F2 & F3 & F4 & F5 & F6 & F7 & F8).
  pose proof (key_nn _ _ W K1) as Hg.
  destruct (within_x_facts _ _ _ _ _ _ _ _ R3 W (srp_wf _ Ws) (liq_wf _ W) R2 Wo Hg) as (rpg & cp & G1 & G2 & G3 & G4 & G5 & G6 & G7 & G8 & G9 & G10 & G11 & G12 & G13 & G14 & G15 & G16).
  destruct (w_cross w); [| tauto]. destruct F8 as [_ F8]. destruct (cross_tick_to _ _ _ F8 Hg ltac:(destruct F3 as (nx & y1 & ny & nya & nxf & fx & hy & M1 & M2 & M3 & M4 & M5 & M6 & M7 & ->); exact (proj1 W))) as [_ [C _]]. lia.
Qed.
Lemma mv_x_zero : forall orc dx ro a b, wf dx -> wf ro -> inv_x a -> mv_x orc dx ro a b -> above_zero (fst b).
Proof.
  intros orc dx ro a b Wd Wo (I1 & I2 & I3 & I4) M. inversion M as [q s tk rp q' H1 H2 H3 H4 H5 | q s f gtk q' s1 H1 H2 H3 H4 H5]; subst; cbn [fst snd] in *.
  - destruct (gap_x_wf _ _ _ _ I1 H2 H4 H5) as (G1 & G2 & _). destruct (cross_tick_to _ _ _ H5 (key_nn _ _ I1 H2) (proj1 I1)) as (_ & C & _).
    exists tk, rp. rewrite G2. rewrite (cross_keys _ _ _ _ H5 (keys_sorted _ I1)). cbn. csplit; auto; [lia | apply Qle_refl].
  - destruct (find_left _ _ _ H4) as [K1 K2]. destruct (step_x_price _ _ _ _ _ _ _ _ H5 I1 I2 Wd Wo K1 I3) as (pt & P1 & P2 & P3).
    pose proof (step_x_zero _ _ _ _ _ _ _ _ H5 I1 I2 Wd Wo K1). exists gtk, pt. csplit; auto.
    pose proof (mv_x_records orc dx ro (q, s) (q', s1) Wd Wo (conj I1 (conj I2 (conj I3 I4))) M) as (_ & _ & _ & _ & E). cbn [fst] in E. rewrite (keys_same _ _ E). auto.
Qed.
Lemma chain_last : forall A (R : A -> A -> Prop) (P : A -> Prop) (Q : A -> Prop), (forall a b, P a -> R a b -> P b) -> (forall a b, P a -> R a b -> Q b) -> forall a b, chain R a b -> P a -> a = b \/ Q b.
Proof.
  intros A R P Q H1 H2 a b C. induction C as [| a b c M C IH]; intros Pa; auto. right. pose proof (H2 _ _ Pa M). destruct (IH (H1 _ _ Pa M)) as [-> |]; auto.
Qed.
Theorem swap_x_zero : forall orc p dx ro p' o, pool_wf p -> wf dx -> wf ro -> execute_swap_from_x orc p dx ro = Ok (p', o) ->
  (p' = p /\ (num (so_recv o) == 0)%Q) \/ above_zero p'.
Proof.
  intros orc p dx ro p' o W Wd Wo H. destruct (swap_x_chain _ _ _ _ _ _ H W Wd Wo) as (Pd & s' & C & I & F & N).
  destruct (chain_last _ _ inv_x (fun b => above_zero (fst b)) (fun a b Ha M => mv_x_inv _ _ _ _ _ Wd Wo Ha M) (fun a b Ha M => mv_x_zero _ _ _ _ _ Wd Wo Ha M) _ _ C (proj1 (inv_start _ W))) as [E | E]; [| right; exact E].
  injection E as <- <-. left. split; auto. destruct (finish_x_out _ _ _ _ F) as (F1 & _). rewrite F1. reflexivity.
Qed.
Lemma step_y_zero : forall orc p s dx ro gtk p' s', step_y orc p s dx ro gtk = Ok (p', s') -> pool_wf p -> s_wf s -> wf dx -> wf ro -> In gtk (keys p) -> glbl_tick p = 0 ->
  tick_to_rp gtk = Ok (glbl_rp p').
Proof.
  intros orc p s dx ro gtk p' s' H W Ws Wd Wo K1 Z.
  destruct (step_y_facts _ _ _ _ _ _ _ _ H W Ws Wd Wo K1) as (w & p1 & (rest & R1 & R2 & R3) & F2 & F3 & F4 & F5 & F6 & F7 & F8).
  pose proof (key_nn _ _ W K1) as Hg.
  destruct (within_y_facts _ _ _ _ _ _ _ _ R3 W (srp_wf _ Ws) (liq_wf _ W) R2 Wo Hg) as (rpg & cp & G1 & G2 & G3 & G4 & G5 & G6 & G7 & G8 & G9 & G10 & G11 & G12 & G13 & G14 & G15 & G16).
  destruct (w_cross w); [| exfalso; destruct G16 as (_ & _ & _ & G & _); lia].
  assert (RP : glbl_rp p' = w_rp w).
  { destruct F3 as (nx & y1 & ny & nya & nxf & fx & hy & M1 & M2 & M3 & M4 & M5 & M6 & M7 & ->). destruct F8 as [_ F8]. destruct (cross_tick_to_r _ _ _ F8) as [_ [_ C]]. rewrite C. reflexivity. }
  rewrite RP. destruct G16 as [-> _]. exact G1.
Qed.
Lemma mv_y_zero : forall orc dx ro a b, wf dx -> wf ro -> inv_y a -> (glbl_tick (fst a) = 0 \/ above_zero (fst a)) -> mv_y orc dx ro a b -> above_zero (fst b).
Proof.
  intros orc dx ro a b Wd Wo I Z M. pose proof (mv_y_records orc dx ro a b Wd Wo I M) as (_ & _ & _ & _ & E). apply keys_same in E. destruct I as (I1 & I2 & I3 & I4).
  inversion M as [q s tk rp q' H1 H2 H3 H4 H5 | q s gtk q' s1 H1 H2 H3 H4 H5]; subst; cbn [fst snd] in *.
  - destruct (gap_y_wf _ _ _ _ I1 H2 H4 H5) as (G1 & G2 & _). exists tk, rp. rewrite E, G2. destruct I1 as (_ & (_ & _ & T0 & _) & _). unfold glbl_tick in *. csplit; auto; [lia | apply Qle_refl].
  - destruct (find_right _ _ _ H4) as [K1 K2]. destruct (step_y_price _ _ _ _ _ _ _ _ H5 I1 I2 Wd Wo K1 I3) as (pt & P1 & P2 & P3). destruct Z as [Z | (t & r & Z1 & Z2 & Z3 & Z4)].
    + exists gtk, (glbl_rp q'). rewrite E. csplit; auto; [lia | eapply step_y_zero; eauto | apply Qle_refl].
    + exists t, r. rewrite E. csplit; auto. lra.
Qed.
Theorem swap_y_zero : forall orc p dx ro p' o, pool_wf p -> wf dx -> wf ro -> glbl_tick p = 0 -> execute_swap_from_y orc p dx ro = Ok (p', o) ->
  (p' = p /\ (num (so_recv o) == 0)%Q) \/ above_zero p'.
Proof.
  intros orc p dx ro p' o W Wd Wo Z H. destruct (swap_y_chain _ _ _ _ _ _ H W Wd Wo) as (Pd & s' & C & I & F & N).
  destruct (chain_last _ _ (fun a => inv_y a /\ (glbl_tick (fst a) = 0 \/ above_zero (fst a))) (fun b => above_zero (fst b)) (fun a b Ha M => conj (mv_y_inv _ _ _ _ _ Wd Wo (proj1 Ha) M) (or_intror (mv_y_zero _ _ _ _ _ Wd Wo (proj1 Ha) (proj2 Ha) M)))
    (fun a b Ha M => mv_y_zero _ _ _ _ _ Wd Wo (proj1 Ha) (proj2 Ha) M) _ _ C (conj (proj2 (inv_start _ W)) (or_introl Z))) as [E | E]; [| right; exact E].
  injection E as <- <-. left. split; auto. destruct (finish_y_out _ _ _ _ F) as (F1 & _). rewrite F1. reflexivity.
Qed.

(** ** Small amounts of Y *)
Lemma ulp_step : forall a, wf a -> dscale a = 12 -> (0 < num a)%Q -> (ulp12 <= num a)%Q.
Proof.
  intros a W S P. rewrite (num12 _ S). setoid_replace ulp12 with (inject_Z 1 * ulp12)%Q by reflexivity. apply (proj2 (q_of_m _ _)).
  destruct (Z_lt_le_dec 0 (mant a)); [lia |]. exfalso. apply (num_sign _ W) in l. lra.
Qed.
Lemma grid_step : forall a b, dscale a = 12 -> dscale b = 12 -> (num a < num b)%Q -> (num a + ulp12 <= num b)%Q.
Proof.
  intros a b Sa Sb P. rewrite (num12 _ Sa), (num12 _ Sb) in *. destruct (Z_le_gt_dec (mant a + 1) (mant b)) as [L | L].
  - apply (proj2 (q_of_m _ _)) in L. rewrite inject_Z_plus in L. change (inject_Z 1) with 1%Q in L. lra.
  - assert (L' : mant b <= mant a) by lia. apply (proj2 (q_of_m _ _)) in L'. lra.
Qed.
(** Every active tick above the price is at least [gap] away. *)
Definition room_up (p : pool) (gap : Q) : Prop := forall t r, In t (keys p) -> glbl_tick p < t -> tick_to_rp t = Ok r -> (num (glbl_rp p) + gap <= num r)%Q.
Definition room_down (p : pool) (gap : Q) : Prop := forall t r, In t (keys p) -> t <= glbl_tick p -> tick_to_rp t = Ok r -> (num r + gap <= num (glbl_rp p))%Q.
Lemma tally_first : forall p dx w s, dscale dx = 12 -> tally dx (s0 p) w s -> wf dx -> w_wf w ->
  (num (w_recv w) + num (w_fee w) <= num dx /\ num (s_in s) == num (w_recv w) + num (w_fee w) /\ num (s_out s) == num (w_send w))%Q /\ mant (s_in s) = mant (w_recv w) + mant (w_fee w) /\ mant (s_out s) = mant (w_send w) /\ dscale (s_in s) = 12.
Proof.
  intros p dx w s Sd T Wd (V1 & V2 & V3 & V4 & V5 & V6). destruct T as (r' & c1 & ck & i1 & i2 & o2 & a2 & f2 & T1 & T2 & T3 & T4 & T5 & T6 & T7 & T8 & T9 & ->). cbn [s_in s_out].
  assert (Wr : wf r') by (eapply sub_wf; eauto; exact zero_wf). assert (W1 : wf c1) by (eapply sub_wf; eauto). assert (Wk : wf ck) by (eapply sub_wf; eauto).
  pose proof (sub_q _ _ _ T1) as Q1. pose proof (sub_q _ _ _ T2) as Q2. pose proof (sub_q _ _ _ T3) as Q3. pose proof (add_q _ _ _ T5) as Q5. pose proof (add_q _ _ _ T6) as Q6. pose proof (add_q _ _ _ T7) as Q7.
  pose proof (notneg_q _ Wk T4) as N. cbn [s0 s_in s_out] in *. assert (Z0 : (num (mkD 0 12 false) == 0)%Q) by reflexivity.
  apply add_m in T5. apply add_m in T6. apply add_m in T7. destruct T5 as (T5 & T5' & T5''), T6 as (T6 & T6' & T6''), T7 as (T7 & T7' & T7''). cbn [dscale] in *. change (mant (mkD 0 12 false)) with 0 in *.
  split; [repeat split; lra |]. csplit; lia.
Qed.
Lemma canon_pos : forall d, 0 < mant d -> canonical d.
Proof. intros d H. unfold canonical, mant in *. destruct (dneg d); [lia | discriminate]. Qed.
Theorem swap_y_dust : forall orc p dy ro p' o, reachable orc p -> wf dy -> wf ro -> (0 < num (glbl_liq p))%Q -> (num dy < num (glbl_liq p) * ulp12)%Q -> room_up p ((2#1) * ulp12) ->
  execute_swap_from_y orc p dy ro = Ok (p', o) -> p' = p /\ (num (so_recv o) == 0)%Q.
Proof.
  intros orc p dy ro p' o Hr Wd Wo L0 Small Room H. pose proof (reachable_nn _ _ Hr) as Nn. pose proof Nn as (W & _). destruct (swap_y_chain _ _ _ _ _ _ H W Wd Wo) as (Pd & s' & C & Iv & F & _).
  assert (Wl : wf (glbl_liq p)) by apply W. assert (Wr : wf (glbl_rp p)) by apply W. assert (Lp : is_positive (glbl_liq p) = true).
  { destruct (is_positive (glbl_liq p)) eqn:E; auto. apply npos_q in E; auto. lra. }
  inversion C as [a E1 E2 | a b c M C' E1 E2]; subst.
  { split; auto. destruct (finish_y_out _ _ _ _ F) as (-> & _). reflexivity. }
  exfalso. pose proof (proj2 (inv_start _ W)) as (_ & I2 & _). cbn [fst snd] in I2. inversion M as [q s tk rp q' H1 | q s gtk q' t1 H1 H2 H3 H4 H5]; subst; [congruence |].
  destruct (find_right _ _ _ H4) as [K1 K2]. destruct (step_y_facts _ _ _ _ _ _ _ _ H5 W I2 Wd Wo K1) as (w & p1 & (rest & R1 & R2 & R3) & F2 & F3 & F4 & F5 & F6 & F7 & F8).
  change (s_rp (s0 p)) with (glbl_rp p) in R3. pose proof (key_nn _ _ W K1) as Hg.
  destruct (within_y_facts _ _ _ _ _ _ _ _ R3 W Wr Wl R2 Wo Hg) as (rpg & cp & G1 & G2 & G3 & G4 & G5 & G6 & G7 & G8 & G9 & G10 & G11 & G12 & G13 & G14 & G15 & G16).
  assert (Sd : dscale dy = 12) by (apply lt_scale in H2; cbn in H2; lia).
  assert (Sl : dscale (glbl_liq p) = 12) by apply (reachable_all12 _ _ Hr).
  pose proof (rp_one _ Nn) as R0.
  destruct (within_y_amounts _ _ _ _ _ _ _ _ R3 W Wr Wl R2 Wo Hg Sl L0 R0) as (A1 & A2 & A3 & A4 & A5 & A6).
  destruct (tally_first _ _ _ _ Sd F4 Wd F2) as ((T1 & T2 & T3) & T4 & T5 & T6).
  pose proof F2 as (V1 & V2 & V3 & V4 & V5 & V6). destruct G5 as (U1 & U2 & U3 & U4 & U5 & U6).
  assert (Fn : (0 <= num (w_fee w))%Q) by (apply num_sign; auto). assert (An : (0 <= num (w_adj w))%Q) by (apply num_sign; auto). assert (Sn : (num (w_send w) <= 0)%Q) by (apply num_sign; auto).
  assert (D0 : (0 < num dy)%Q) by (apply pos_q; auto; apply is_pos_m; [apply wf_nn; auto | auto]). pose proof (ulp_step _ Wd Sd D0) as D1. pose proof u_pos as U.
  assert (Lone : (1 < num (glbl_liq p))%Q). { apply (Qmult_lt_r _ _ ulp12 U). lra. }
  destruct (w_cross w) eqn:Cr.
  - destruct G16 as [G16 _]. rewrite G16 in *. pose proof (Room _ _ K1 K2 G1) as B.
    assert (num (glbl_liq p) * ((2#1) * ulp12) <= num (glbl_liq p) * (num rpg - num (glbl_rp p)))%Q by (apply SwapFair.mul_mono; lra).
    assert (0 < ulp12 * (num (glbl_liq p) - 1))%Q by (apply Qmult_lt_0_compat; lra). lra.
  - subst q'. assert (Erp : (num (w_rp w) == num (glbl_rp p))%Q).
    { apply Qle_antisym; auto. apply Qnot_lt_le. intros B. apply grid_step in B; auto.
      assert (num (glbl_liq p) * ulp12 <= num (glbl_liq p) * (num (w_rp w) - num (glbl_rp p)))%Q by (apply SwapFair.mul_mono; lra). lra. }
    assert (Z : (num (w_adj w) - num (w_send w) <= 0)%Q).
    { apply Qnot_lt_le. intros B. assert (0 < (num (w_adj w) - num (w_send w)) * (1 - ulp12) * (num (glbl_rp p) * num (w_rp w)))%Q.
      { apply Qmult_lt_0_compat; [apply Qmult_lt_0_compat; [auto | reflexivity] | apply Qmult_lt_0_compat; lra]. }
      rewrite Erp in A4 at 2. setoid_replace (num (glbl_rp p) - num (glbl_rp p))%Q with 0%Q in A4 by ring. rewrite Qmult_0_r in A4. lra. }
    assert (Mo : mant (s_out t1) = 0). { rewrite T5. apply (num_sign _ V2). lra. }
    destruct G16 as (G16 & G17 & _). destruct (sub_m _ _ _ R1) as (R1' & _). cbn in R1'. change (mant (mkD 0 12 false)) with 0 in R1'.
    assert (Mi : mant (s_in t1) = mant dy) by lia.
    assert (Lq : glbl_liq p1 = glbl_liq p) by (destruct F3 as (nx & y1 & ny & nya & nxf & fx & hy & M1 & M2 & M3 & M4 & M5 & M6 & M7 & ->); reflexivity).
    inversion C' as [a E1 E2 | a b c M2 C2 E1 E2]; subst.
    + destruct (finish_y_out _ _ _ _ F) as (_ & _ & _ & _ & _ & _ & _ & X & _). apply andb_false_iff in X. pose proof F7 as (Wi & _). destruct X as [X | X].
      * apply is_pos_f in X; [lia | apply wf_nn; auto].
      * apply is_zero_f in X. lia.
    + inversion M2 as [q s tk rp q' N1 | q s gt q' t2 N1 N2 N3 N4 N5]; subst; [congruence |]. pose proof F7 as (Wi & _). apply lt_m in N2; [| apply wf_nn; auto | apply wf_nn; auto]. destruct N2 as (_ & _ & _ & N2). assert (B : 0 < mant (s_in t1)) by lia. pose proof (N2 (canon_pos _ B) eq_refl). lia.
Qed.

(** ** Small amounts of X *)
(** The check of the average price inside [swap_within_x] (mod.rs:755-761). *)
Lemma within_x_avg : forall orc p srp goal liq dx ro w, swap_within_x orc p srp goal liq dx ro = Ok w -> is_zero (w_recv w) = false -> is_zero (w_send w) = false ->
  exists tot avg q2, d_add (w_recv w) (w_fee w) = Ok tot /\ d_div (d_neg (w_send w)) tot = Ok avg /\ d_pow srp 2 = Ok q2 /\ d_gt avg q2 = Ok false.
Proof.
  intros orc p srp goal liq dx ro w H Z1 Z2. unfold swap_within_x in H.
  destruct (is_negative dx); [discriminate H |].
  apply bind_ok in H; destruct H as [rpg [E1 H]].
  apply bind_ok in H; destruct H as [up [E2 H]]. destruct up; [discriminate H |].
  apply bind_ok in H; destruct H as [one [E3 H]].
  apply bind_ok in H; destruct H as [ff [E4 H]].
  apply bind_ok in H; destruct H as [dxm [E5 H]].
  apply bind_ok in H; destruct H as [dbl [E6 H]]. destruct (is_negative dbl); [discriminate H |].
  apply bind_ok in H; destruct H as [part [E7 H]].
  apply bind_ok in H; destruct H as [[[[[ddx fee] cross] et] erp] [E8 H]]. 
  apply bind_ok in H; destruct H as [cp [E9 H]]. apply bind_ok in H; destruct H as [plain [E10 H]].
  apply bind_ok in H; destruct H as [ddy [E11 H]]. apply bind_ok in H; destruct H as [adj [E12 H]].
  destruct (is_positive cp) eqn:E13; [discriminate H |]. destruct (is_negative adj) eqn:E14; [discriminate H |].
  apply bind_ok in H; destruct H as [ny [E15 H]]. destruct (is_negative ny) eqn:E16; [discriminate H |].
  apply bind_ok in H; destruct H as [u [E17 H]]. apply within_new_eq in H. subst w. cbn [w_recv w_send w_fee] in *.
  rewrite Z1, Z2 in E17. cbn [negb andb] in E17. bd E17 tot F1. bd E17 avg F2. bd E17 q2 F3. bd E17 c F4. destruct c; [discriminate E17 |]. exists tot, avg, q2. auto.
Qed.
Lemma rp_dx_less : forall l s x e, rp_new_from_l_dx l s x = Ok e -> wf l -> wf s -> wf x -> dscale l = 12 -> dscale x = 12 -> (0 < num l)%Q -> (1 <= num s)%Q -> (ulp12 <= num x)%Q -> (num e < num s)%Q.
Proof.
  intros l s x e H Wl Ws Wx Sl Sx Hl Hs Hx. unfold rp_new_from_l_dx in H. bd H n E1. bd H a E2. bd H den E3. destruct (is_zero den); [discriminate |]. bd H r E4.
  destruct (is_negative r); [discriminate |]. injection H as <-. pose proof u_pos as U.
  destruct (mul_t _ _ _ E1 Wl Ws Sl) as (Wn & Sn & Tn). destruct (mul_t _ _ _ E2 Wx Ws Sx) as (Wa & Sa & Ta). assert (Wd : wf den) by (eapply add_wf; eauto). apply add_q in E3.
  destruct (div_t _ _ _ E4 Wn Wd Sn) as (_ & _ & _ & Td).
  assert (Hls : (0 <= num l * num s)%Q) by (apply Qmult_le_0_compat; lra). assert (Hxs : (num x <= num x * num s)%Q) by (apply le_mul; lra).
  apply trunc_pos in Tn; auto. apply trunc_pos in Ta; [| lra]. rewrite ulp_12 in Ta. destruct Tn as (N1 & N2 & _). destruct Ta as (A1 & A2 & A3).
  assert (Ap : (0 < num a)%Q) by lra. assert (Dp : (0 < num den)%Q) by lra.
  apply trunc_pos in Td; [| apply Qle_shift_div_l; lra]. destruct Td as (D1 & D2 & _). apply q_up in D2; auto.
  apply Qnot_le_lt. intros B. assert (num s * num den <= num r * num den)%Q by (apply Qmult_le_compat_r; lra).
  assert (0 < num s * num a)%Q by (apply Qmult_lt_0_compat; lra). rewrite E3 in *. lra.
Qed.
Theorem swap_x_dust : forall orc p dx ro p' o, reachable orc p -> wf dx -> wf ro -> hmm_off p ro -> (0 < num (glbl_liq p))%Q ->
  (ulp12 <= num dx * (1 - num (fee_rate p)))%Q -> (num dx * (num (glbl_rp p) * num (glbl_rp p) + ulp12) <= (num (glbl_liq p) - 1) * ulp12)%Q -> room_down p ((3#1) * ulp12) ->
  execute_swap_from_x orc p dx ro = Ok (p', o) -> p' = p /\ (num (so_recv o) == 0)%Q.
Proof.
  intros orc p dx ro p' o Hr Wd Wo Off L0 Net Small Room H. pose proof (reachable_nn _ _ Hr) as Nn. pose proof Nn as (W & _). destruct (swap_x_chain _ _ _ _ _ _ H W Wd Wo) as (Pd & s' & C & Iv & F & _).
  assert (Wl : wf (glbl_liq p)) by apply W. assert (Wr : wf (glbl_rp p)) by apply W. assert (Lp : is_positive (glbl_liq p) = true).
  { destruct (is_positive (glbl_liq p)) eqn:E; auto. apply npos_q in E; auto. lra. }
  inversion C as [a E1 E2 | a b c M C' E1 E2]; subst.
  { split; auto. destruct (finish_x_out _ _ _ _ F) as (-> & _). reflexivity. }
  exfalso. pose proof (proj1 (inv_start _ W)) as (_ & I2 & _). cbn [fst snd] in I2. inversion M as [q s tk rp q' H1 | q s f gtk q' t1 H1 H2 H3 H4 H5]; subst; [congruence |].
  destruct (find_left _ _ _ H4) as [K1 K2]. destruct (step_x_facts _ _ _ _ _ _ _ _ H5 W I2 Wd Wo K1) as (w & p1 & (rest & R1 & R2 & R3) & F2 & F3 & F4 & F5 & F6 & F7 & F8).
  change (s_rp (s0 p)) with (glbl_rp p) in R3. pose proof (key_nn _ _ W K1) as Hg.
  destruct (within_x_facts _ _ _ _ _ _ _ _ R3 W Wr Wl R2 Wo Hg) as (rpg & cp & G1 & G2 & G3 & G4 & G5 & G6 & G7 & G8 & G9 & G10 & G11 & G12 & G13 & G14 & G15 & G16).
  assert (Sd : dscale dx = 12) by (apply lt_scale in H2; cbn in H2; lia).
  assert (Sl : dscale (glbl_liq p) = 12) by apply (reachable_all12 _ _ Hr).
  pose proof (rp_one _ Nn) as R0.
  destruct (within_x_amounts _ _ _ _ _ _ _ _ R3 W Wr Wl R2 Wo Hg Sl L0) as (A0 & A1 & A2 & A3 & A4 & A5).
  destruct (tally_first _ _ _ _ Sd F4 Wd F2) as ((T1 & T2 & T3) & T4 & T5 & T6).
  pose proof F2 as (V1 & V2 & V3 & V4 & V5 & V6). destruct G5 as (U1 & U2 & U3 & U4 & U5 & U6).
  assert (Fn : (0 <= num (w_fee w))%Q) by (apply num_sign; auto). assert (An : (0 <= num (w_adj w))%Q) by (apply num_sign; auto). assert (Sn : (num (w_send w) <= 0)%Q) by (apply num_sign; auto).
  assert (D0 : (0 < num dx)%Q) by (apply pos_q; auto; apply is_pos_m; [apply wf_nn; auto | auto]). pose proof (ulp_step _ Wd Sd D0) as D1. pose proof u_pos as U.
  set (s := num (glbl_rp p)) in *. set (l := num (glbl_liq p)) in *. assert (Ss : (1 <= s * s)%Q) by (apply one_mul; auto).
  assert (Lbig : (s * s + ulp12 <= l - 1)%Q).
  { apply (Qmult_le_r _ _ ulp12 U). assert (ulp12 * (s * s + ulp12) <= num dx * (s * s + ulp12))%Q by (apply Qmult_le_compat_r; lra). lra. }
  assert (Ff : f <= glbl_tick p). { pose proof W as (Ws & (_ & _ & Wt & _) & _). destruct (possible_down_le _ _ _ Wt Ws H3) as [[_ Z] _]. exact Z. }
  destruct (w_cross w) eqn:Cr.
  - destruct G16 as [G16 _]. rewrite G16 in *. pose proof (Room _ _ K1 ltac:(lia) G1) as B. fold s in B.
    assert (B1 : (l * ((3#1) * ulp12) <= l * (s - num rpg))%Q) by (apply SwapFair.mul_mono; lra).
    assert (B2 : (s * num rpg <= s * s)%Q) by (apply SwapFair.mul_mono; lra).
    assert (B3 : ((num (w_recv w) + (2#1) * ulp12) * (s * num rpg) <= (num (w_recv w) + (2#1) * ulp12) * (s * s))%Q) by (apply SwapFair.mul_mono; lra).
    assert (B4 : (num (w_recv w) * (s * s) <= num dx * (s * s))%Q) by (apply Qmult_le_compat_r; lra).
    assert (B5 : (0 <= num dx * ulp12)%Q) by (apply Qmult_le_0_compat; lra).
    assert (B6 : (0 <= (l - 1 - s * s - ulp12) * ulp12)%Q) by (apply Qmult_le_0_compat; lra). 
    assert (B7 : (0 < l * ulp12)%Q) by (apply Qmult_lt_0_compat; lra). nra.
  - destruct G16 as (G16 & G17 & _). destruct (sub_m _ _ _ R1) as (_ & R1'' & _).
    unfold core_x in G15. destruct (is_negative rest); [discriminate G15 |]. rewrite G1 in G15. cbn [bind] in G15. bd G15 c0 K3. destruct c0; [discriminate G15 |].
    rewrite one_eq in G15. cbn [bind] in G15. bd G15 ff K4. bd G15 dm K5. bd G15 db K6. destruct (is_negative db) eqn:Nb; [discriminate G15 |]. bd G15 pt K7. destruct pt; [bd G15 q K8; bd G15 fe K9; discriminate G15 |].
    bd G15 fe K8. bd G15 er K9. bd G15 g1 K10. bd G15 et K11. bd G15 c1 K12. destruct c1; [discriminate G15 |]. bd G15 c2 K13. destruct c2; [discriminate G15 |]. injection G15 as J1 J2 J3 J4. subst dm er fe.
    pose proof (sub_q _ _ _ R1) as Qr. cbn [s0 s_in] in Qr. assert (Z0 : (num (mkD 0 12 false) == 0)%Q) by reflexivity.
    assert (Wff : wf ff) by (eapply sub_wf; eauto; [exact one12_wf | apply W]). apply sub_q in K4. assert (Z1 : (num (mkD (10 ^ 12) 12 false) == 1)%Q) by reflexivity.
    assert (Srest : dscale rest = 12) by congruence.
    destruct (mul_t _ _ _ K5 R2 Wff Srest) as (_ & Sm & Tm). rewrite K4, Z1, Qr, Z0 in Tm. apply trunc_pos in Tm; [| lra]. rewrite ulp_12 in Tm.
    assert (Rp : (ulp12 <= num (w_recv w))%Q) by (apply ulp_step; auto; lra).
    pose proof (rp_dx_less _ _ _ _ K9 Wl Wr V1 Sl Sm L0 R0 Rp) as Less. apply grid_step in Less; auto. fold s in Less.
    pose proof (dy_down_lo _ _ _ _ G2 Wl Wr V3 G14 (Qlt_le_weak _ _ L0) A1) as Lo. rewrite <- (G11 Off) in Lo. fold s l in Lo.
    assert (l * ulp12 <= l * (s - num (w_rp w)))%Q by (apply SwapFair.mul_mono; lra).
    assert (Sp : (0 < - num (w_send w))%Q). { assert (0 <= (l - 1) * ulp12)%Q by (apply Qmult_le_0_compat; lra). lra. }
    destruct (within_x_avg _ _ _ _ _ _ _ _ R3) as (tot & avg & q2 & X1 & X2 & X3 & X4).
    { apply is_zero_f. intros E. apply (num_sign _ V1) in E. lra. }
    { apply is_zero_f. intros E. apply (num_sign _ V2) in E. lra. }
    assert (Wt : wf tot) by (eapply add_wf; [exact X1 | auto | auto]). pose proof (add_q _ _ _ X1) as Qt.
    assert (Ws2 : wf (d_neg (w_send w))) by (apply neg_wf; auto). assert (S12 : dscale (d_neg (w_send w)) = 12) by (rewrite neg_scale; rewrite (G11 Off); eapply dy_scale; eauto).
    destruct (div_back _ _ _ X2 Ws2 Wt S12) as [_ Back]; [rewrite num_neg by auto; lra | lra |]. rewrite num_neg in Back by auto.
    destruct (div_t _ _ _ X2 Ws2 Wt S12) as (_ & Wa & Sa & _).
    destruct (square_end _ _ Wr G13 R0 X3) as [Sq _]. fold s in Sq.
    assert (Wq : wf q2) by (pose proof (pow_spec _ 2 Wr ltac:(lia)) as Y; rewrite X3 in Y; apply Y). 
    assert (Le : (num avg <= num q2)%Q). { apply gt_m in X4; [| apply wf_nn; auto | apply wf_nn; auto]. destruct X4 as (X4 & _ & X5 & _). apply num_le; auto. }
    assert (Hi : ((num avg + ulp12) * num tot <= (s * s + ulp12) * num dx)%Q).
    { rewrite Qt. assert (E : (num (w_recv w) + num (w_fee w) <= num dx)%Q) by auto.
      apply Qle_trans with ((s * s + ulp12) * (num (w_recv w) + num (w_fee w)))%Q; [apply Qmult_le_compat_r; lra | apply SwapFair.mul_mono; lra]. }
    lra.
Qed.
