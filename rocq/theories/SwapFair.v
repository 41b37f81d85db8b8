(** Swaps from the trader's side: what the curve allows is what the trader gets (up to rounding), and the fee is the
    advertised share of the amount taken. *)
From Coq Require Import ZArith QArith Qminmax List Bool Lia Lqa String Sorted.
From Verif Require Import Base BaseLemmas DecimalModel DecimalSpec DecimalProofs PowProofs WfProofs MathModel MathProofs TickProofs TickLoop PoolModel PoolWf SwapLoop SwapProofs LpProofs PoolInv PoolNonneg PoolLp PoolRange PoolFees PoolGain PoolScale SwapAmounts SwapCover SwapWorth.
Import ListNotations.
Open Scope Z_scope.

(** ** The fee rate of a pool is never negative *)
Lemma set_pos_rate : forall p u lo up d p' paid, set_pos p u lo up d p' paid -> fee_rate p' = fee_rate p.
Proof. intros p u lo up d p' paid (nfx & nfy & nhx & nhy & pos' & base & ofx & ofy & ohx & ohy & m1 & m2 & L & _ & _ & _ & _ & _ & _ & _ & _ & _ & ->). reflexivity. Qed.
Theorem reachable_rate : forall orc p, reachable orc p -> (0 <= num (fee_rate p))%Q.
Proof.
  intros orc p H. induction H as [rp sp c rate p W1 W2 W3 Hs H | p c p' Hr IH C H].
  - unfold pool_new in H. destruct (is_negative rp); [discriminate |]. bd H b0 E1. destruct b0; [discriminate |]. destruct (is_negative rate) eqn:E2; [discriminate |].
    bd H t0 E3. bd H r0 E4. bd H z0 E5. bd H g0 E6. injection H as <-. cbn [fee_rate]. apply notneg_q; auto.
  - pose proof (reachable_nn _ _ Hr) as (W & _). destruct c as [u x y a b | u l a b | d o | d o]; cbn [run_call call_wf] in *; bd H r E; destruct r as [q out]; injection H as <-.
    + destruct (deposit_inv _ _ _ _ _ _ _ _ E) as (lo' & up' & ra & rb & p1 & nx & ny & nxf & nxa & nyf & nya & D1 & D2 & D3 & D4 & D5 & D6 & D7 & D8 & _ & D10 & _ & D12 & _ & _ & D18 & D19 & _ & _ & _ & _ & _ & _ & ->).
      apply set_position_inv, set_pos_rate in D12. unfold with_funds; cbn [fee_rate]. rewrite D12. exact IH.
    + destruct (withdraw_inv _ _ _ _ _ _ _ E) as (lo' & up' & ra & rb & p1 & x0 & y0 & nx & ny & nxf & nxa & nyf & nya & D1 & D2 & D3 & D4 & D5 & D6 & D7 & D8 & D9 & D10 & D11 & D12 & _ & _ & _ & D18 & D19 & _ & _ & _ & _ & ->).
      apply set_position_inv, set_pos_rate in D8. unfold with_funds; cbn [fee_rate]. rewrite D8. exact IH.
    + destruct C as [C1 C2]. destruct (swap_x_records _ _ _ _ _ _ W C1 C2 E) as [(_ & _ & _ & R & _) _]. rewrite R. exact IH.
    + destruct C as [C1 C2]. destruct (swap_y_records _ _ _ _ _ _ W C1 C2 E) as [(_ & _ & _ & R & _) _]. rewrite R. exact IH.
Qed.

(** ** The formulas from the other side *)
Section Formulas.
Local Open Scope Q_scope.
Lemma q_up : forall n m d, 0 < m -> d <= n / m -> d * m <= n.
Proof. intros n m d Hm H. apply (Qmult_le_compat_r _ _ m) in H; [| lra]. unfold Qdiv in H. rewrite <- Qmult_assoc, (Qmult_comm (/ m)), Qmult_inv_r, Qmult_1_r in H by lra. exact H. Qed.
Lemma q_lo : forall n m d, 0 < m -> n / m < d -> n < d * m.
Proof. intros n m d Hm H. apply (Qmult_lt_r _ _ m Hm) in H. unfold Qdiv in H. rewrite <- Qmult_assoc, (Qmult_comm (/ m)), Qmult_inv_r, Qmult_1_r in H by lra. exact H. Qed.
Lemma mul_mono : forall a b c, 0 <= a -> b <= c -> a * b <= a * c.
Proof. intros a b c Ha H. rewrite !(Qmult_comm a). apply Qmult_le_compat_r; auto. Qed.
Lemma dx_down_hi : forall l s e d, dx_from_l_drp l s e = Ok d -> wf l -> wf s -> wf e -> dscale l = 12%Z -> dscale s = 12%Z -> 0 <= num l -> 1 <= num e -> num e <= num s ->
  num d * (1 - ulp12) * (num s * num e) <= num l * (num s - num e).
Proof.
  intros l s e d H Wl Ws We Sl Ss Hl He Hs. unfold dx_from_l_drp in H. destruct (_ || _)%bool; [discriminate |]. bd H df E1. bd H m E2. bd H n E3.
  assert (Wd : wf df) by (eapply sub_wf; eauto). apply sub_q in E1. destruct (mul_t _ _ _ E2 Ws We Ss) as (Wm & Sm & Tm). destruct (mul_t _ _ _ E3 Wl Wd Sl) as (Wn & Sn & Tn).
  destruct (div_t _ _ _ H Wn Wm Sn) as (_ & _ & _ & Td).
  assert (Hse : 1 <= num s * num e) by (apply one_mul; lra).
  apply trunc_pos in Tm; [| lra]. rewrite ulp_12 in Tm. destruct Tm as (M1 & M2 & M3). pose proof u_pos as U.
  assert (U1 : ulp12 < 1) by reflexivity.
  apply trunc_pos in Tn; [| apply Qmult_le_0_compat; lra]. destruct Tn as (N1 & N2 & _).
  assert (Mp : 0 < num m) by lra.
  apply trunc_pos in Td; [| apply Qle_shift_div_l; lra]. destruct Td as (D1 & D2 & _). apply q_up in D2; auto.
  assert (D5 : (1 - ulp12) * (num s * num e) <= num m). { assert (ulp12 <= ulp12 * (num s * num e)) by (apply le_mul; lra). lra. }
  apply (mul_mono (num d)) in D5; auto. rewrite E1 in N2. lra.
Qed.
Lemma dx_up_lo : forall l s e d, dx_from_l_drp l s e = Ok d -> wf l -> wf s -> wf e -> dscale l = 12%Z -> dscale s = 12%Z -> 0 <= num l -> 1 <= num s -> num s <= num e ->
  num l * (num e - num s) <= (- num d + (2#1) * ulp12) * (num s * num e).
Proof.
  intros l s e d H Wl Ws We Sl Ss Hl He Hs. unfold dx_from_l_drp in H. destruct (_ || _)%bool; [discriminate |]. bd H df E1. bd H m E2. bd H n E3.
  assert (Wd : wf df) by (eapply sub_wf; eauto). apply sub_q in E1. destruct (mul_t _ _ _ E2 Ws We Ss) as (Wm & Sm & Tm). destruct (mul_t _ _ _ E3 Wl Wd Sl) as (Wn & Sn & Tn).
  destruct (div_t _ _ _ H Wn Wm Sn) as (_ & _ & _ & Td).
  assert (Hse : 1 <= num s * num e) by (apply one_mul; lra).
  apply trunc_pos in Tm; [| lra]. rewrite ulp_12 in Tm. destruct Tm as (M1 & M2 & M3). pose proof u_pos as U.
  assert (U1 : ulp12 < 1) by reflexivity. assert (Mp : 0 < num m) by lra.
  assert (Np : num l * num df <= 0). { rewrite E1. assert (0 <= num l * (num e - num s)) by (apply Qmult_le_0_compat; lra). lra. }
  apply trunc_neg in Tn; auto. rewrite ulp_12 in Tn. destruct Tn as (N1 & N2 & N3).
  apply trunc_neg in Td; [| apply Qle_shift_div_r; lra]. rewrite ulp_12 in Td. destruct Td as (D1 & _ & D3).
  assert (D4 : - num n < (- num d + ulp12) * num m). { apply q_lo; auto. unfold Qdiv in *. setoid_replace (- num n * / num m) with (- (num n * / num m)) by ring. exact D3. }
  assert (D5 : (- num d + ulp12) * num m <= (- num d + ulp12) * (num s * num e)) by (apply mul_mono; lra).
  assert (D6 : ulp12 <= ulp12 * (num s * num e)) by (apply le_mul; lra).
  rewrite E1 in N3. lra.
Qed.
Lemma dy_down_lo : forall l s e d, dy_from_l_drp l s e = Ok d -> wf l -> wf s -> wf e -> dscale e = 12%Z -> 0 <= num l -> num e <= num s ->
  num l * (num s - num e) < - num d + ulp12.
Proof.
  intros l s e d H Wl Ws We Se Hl Hs. unfold dy_from_l_drp in H. bd H w E1. assert (Ww : wf w) by (eapply sub_wf; eauto).
  destruct (sub_m _ _ _ E1) as (_ & Sw & _). apply sub_q in E1. destruct (mul_t _ _ _ H Ww Wl ltac:(congruence)) as (Wd & Sd & T).
  apply trunc_neg in T. { rewrite E1, ulp_12 in T. destruct T as (T1 & T2 & T3). lra. }
  rewrite E1. assert (0 <= (num s - num e) * num l) by (apply Qmult_le_0_compat; lra). lra.
Qed.
Lemma rp_dx_hi : forall l s x e, rp_new_from_l_dx l s x = Ok e -> wf l -> wf s -> wf x -> dscale l = 12%Z -> dscale x = 12%Z -> 0 < num l -> 1 <= num s -> 0 <= num x ->
  num x * (num s * num e) <= num l * (num s - num e) + ulp12 * num e.
Proof.
  intros l s x e H Wl Ws Wx Sl Sx Hl Hs Hx. unfold rp_new_from_l_dx in H. bd H n E1. bd H a E2. bd H den E3. destruct (is_zero den); [discriminate |]. bd H r E4.
  destruct (is_negative r); [discriminate |]. injection H as <-.
  destruct (mul_t _ _ _ E1 Wl Ws Sl) as (Wn & Sn & Tn). destruct (mul_t _ _ _ E2 Wx Ws Sx) as (Wa & Sa & Ta). assert (Wd : wf den) by (eapply add_wf; eauto). apply add_q in E3.
  destruct (div_t _ _ _ E4 Wn Wd Sn) as (_ & _ & _ & Td). pose proof u_pos as U.
  assert (Hls : 0 <= num l * num s) by (apply Qmult_le_0_compat; lra). assert (Hxs : 0 <= num x * num s) by (apply Qmult_le_0_compat; lra).
  apply trunc_pos in Tn; auto. apply trunc_pos in Ta; auto. rewrite ulp_12 in Ta. destruct Tn as (N1 & N2 & _). destruct Ta as (A1 & A2 & A3).
  assert (Dp : 0 < num den) by lra. apply trunc_pos in Td; [| apply Qle_shift_div_l; lra]. destruct Td as (D1 & D2 & _). apply q_up in D2; auto.
  assert (D5 : num r * (num x * num s + num l - ulp12) <= num r * num den) by (apply mul_mono; lra). lra.
Qed.
Lemma rp_dy_hi : forall l s y e, rp_new_from_l_dy l s y = Ok e -> wf l -> wf s -> wf y -> dscale y = 12%Z -> 0 < num l -> 0 <= num y -> num y <= num l * (num e - num s) + ulp12 * num l.
Proof.
  intros l s y e H Wl Ws Wy Sy Hl Hy. unfold rp_new_from_l_dy in H. destruct (is_zero l); [discriminate |]. bd H q E1. bd H r E2. destruct (is_negative r); [discriminate |]. injection H as <-.
  destruct (div_t _ _ _ E1 Wy Wl Sy) as (_ & Wq & _ & T). apply add_q in E2. apply trunc_pos in T; [| apply Qle_shift_div_l; lra]. destruct T as (T1 & T2 & T3). rewrite ulp_12 in T3.
  apply q_lo in T3; auto. rewrite E2. lra.
Qed.
(** The two ways a step computes its fee: [x / (1 - rate) * rate] when it stops at a tick, [d - d * (1 - rate)] otherwise. *)
Lemma fee_cross : forall rate ff x q f, d_sub (mkD (10 ^ 12) 12 false) rate = Ok ff -> d_div x ff = Ok q -> d_mul q rate = Ok f -> wf rate -> wf x -> dscale x = 12%Z -> 0 <= num rate -> num x == 0 \/ 0 < num ff -> 0 <= num x ->
  - ulp12 <= num f - num rate * (num x + num f) /\ num f - num rate * (num x + num f) <= 0.
Proof.
  intros rate ff x q f H1 H2 H3 Wr Wx Sx Hr Hf Hx. assert (Wf : wf ff) by (eapply sub_wf; eauto; exact one12_wf). apply sub_q in H1. assert (N1 : num (mkD (10 ^ 12) 12 false) == 1) by reflexivity. rewrite N1 in H1.
  destruct (div_t _ _ _ H2 Wx Wf Sx) as (F0 & Wq & Sq & Tq). destruct Hf as [X0 | Hf].
  { assert (E0 : num x / num ff == 0) by (unfold Qdiv; rewrite X0; ring). apply trunc_pos in Tq as Tq'; [| rewrite E0; lra]. rewrite E0 in Tq'. assert (Q0 : num q == 0) by lra.
    destruct (mul_t _ _ _ H3 Wq Wr Sq) as (_ & _ & Tf). assert (E1 : num q * num rate == 0) by (rewrite Q0; ring). apply trunc_pos in Tf; [| rewrite E1; lra]. rewrite E1 in Tf. assert (Z0 : num f == 0) by lra.
    assert (E2 : num f - num rate * (num x + num f) == 0) by (rewrite X0, Z0; ring). rewrite E2. pose proof u_pos. split; lra. }
  apply trunc_pos in Tq; [| apply Qle_shift_div_l; lra]. rewrite ulp_12 in Tq. destruct Tq as (Q1 & Q2 & Q3). apply q_up in Q2; auto. apply q_lo in Q3; auto.
  destruct (mul_t _ _ _ H3 Wq Wr Sq) as (_ & _ & Tf). apply trunc_pos in Tf; [| apply Qmult_le_0_compat; auto]. rewrite ulp_12 in Tf. destruct Tf as (F1 & F2 & F3). pose proof u_pos as U.
  assert (E : num f - num rate * (num x + num f) == num f * num ff - num rate * num x) by (rewrite H1; ring). rewrite E.
  assert (A1 : num f * num ff <= num q * num rate * num ff) by (apply Qmult_le_compat_r; lra).
  assert (A2 : num rate * (num q * num ff) <= num rate * num x) by (apply mul_mono; auto).
  assert (A3 : num ff * (num q * num rate) <= num ff * (num f + ulp12)) by (apply mul_mono; lra).
  assert (A4 : num rate * num x <= num rate * ((num q + ulp12) * num ff)) by (apply mul_mono; lra).
  assert (A5 : ulp12 * (num ff * (1 + num rate)) <= ulp12 * 1). { apply mul_mono; [lra |]. rewrite H1. assert (0 <= num rate * num rate) by (apply Qmult_le_0_compat; auto). lra. }
  split; lra.
Qed.
Lemma fee_last : forall rate ff d m f, d_sub (mkD (10 ^ 12) 12 false) rate = Ok ff -> d_mul d ff = Ok m -> d_sub d m = Ok f -> wf rate -> wf d -> dscale m = 12%Z -> 0 <= num d ->
  - ulp12 <= num f - num rate * (num m + num f) /\ num f - num rate * (num m + num f) <= ulp12.
Proof.
  intros rate ff d m f H1 H2 H3 Wr Wd Sm Hd. assert (Wf : wf ff) by (eapply sub_wf; eauto; exact one12_wf). apply sub_q in H1. assert (N1 : num (mkD (10 ^ 12) 12 false) == 1) by reflexivity. rewrite N1 in H1.
  destruct (sub_m _ _ _ H3) as (_ & _ & S2). destruct (mul_t _ _ _ H2 Wd Wf ltac:(congruence)) as (_ & _ & T). apply sub_q in H3. pose proof u_pos as U.
  assert (E : num f - num rate * (num m + num f) == num d * num ff - num m) by (rewrite H1, H3; ring). rewrite E.
  destruct (Qlt_le_dec (num ff) 0) as [Z0 | Z0].
  - assert (Z1 : num d * num ff <= 0). { assert (0 <= num d * - num ff) by (apply Qmult_le_0_compat; lra). lra. }
    apply trunc_neg in T; auto. rewrite ulp_12 in T. destruct T as (T1 & T2 & T3). split; lra.
  - assert (Z1 : 0 <= num d * num ff) by (apply Qmult_le_0_compat; lra). apply trunc_pos in T; auto. rewrite ulp_12 in T. destruct T as (T1 & T2 & T3). split; lra.
Qed.
End Formulas.

(** ** One in-range step *)
Lemma part_pos : forall dx ff dm db, d_mul dx ff = Ok dm -> wf dx -> wf ff -> wf db -> (0 <= num dx)%Q -> is_negative db = false -> d_lt db dm = Ok true -> (num db == 0 \/ 0 < num ff)%Q.
Proof.
  intros dx ff dm db H Wx Wf Wb Hx Nb L. destruct (Qlt_le_dec 0 (num ff)) as [P | P]; auto. left.
  pose proof (mul_spec dx ff Wx Wf) as X. rewrite H in X. destruct X as (Wm & Sm & T).
  assert (Z1 : (num dx * num ff <= 0)%Q). { assert (0 <= num dx * - num ff)%Q by (apply Qmult_le_0_compat; lra). lra. }
  apply trunc_neg in T; auto. destruct T as (T1 & _). apply (num_sign _ Wm) in T1.
  assert (Nb' : (0 <= num db)%Q) by (apply notneg_q; auto). apply num_sign in Nb'; auto.
  destruct (lt_m _ _ _ (wf_nn _ Wb) (wf_nn _ Wm) L) as (_ & L' & _). specialize (L' eq_refl). apply num_sign; auto. lia.
Qed.
Lemma within_x_fair : forall orc p srp goal liq dx ro w, swap_within_x orc p srp goal liq dx ro = Ok w ->
  pool_wf p -> wf srp -> wf liq -> wf dx -> wf ro -> 0 <= goal -> dscale liq = 12 -> (0 < num liq)%Q -> (0 <= num (fee_rate p))%Q ->
  (num liq * (num srp - num (w_rp w)) <= num (w_adj w) - num (w_send w) + ulp12 /\
   num (w_recv w) * (1 - ulp12) * (num srp * num (w_rp w)) <= num liq * (num srp - num (w_rp w)) + ulp12 * (num srp * num (w_rp w)) /\
   - ulp12 <= num (w_fee w) - num (fee_rate p) * (num (w_recv w) + num (w_fee w)) /\
   num (w_fee w) - num (fee_rate p) * (num (w_recv w) + num (w_fee w)) <= (if w_cross w then 0 else ulp12))%Q.
Proof.
  intros orc p srp goal liq dx ro w H Wp Ws Wl Wd Wo Hg Sl Hl Hr.
  pose proof (within_x_amounts _ _ _ _ _ _ _ _ H Wp Ws Wl Wd Wo Hg Sl Hl) as (Z1 & Z2 & Z3 & _).
  destruct (within_x_facts _ _ _ _ _ _ _ _ H Wp Ws Wl Wd Wo Hg) as (rpg & cp & X1 & X2 & X3 & (V1 & V2 & V3 & V4 & V5 & V6) & (U1 & U2 & U3 & U4 & U5 & U6) & X6 & X7 & X8 & X9 & X10 & X11 & X12 & X13 & X14 & X15 & X16).
  destruct (tick_rp_wf _ _ X1) as (Wg & Sg & _). destruct (tick_price_ok _ _ X1) as [G1 _]. pose proof Wp as (_ & _ & _ & _ & _ & _ & Wfr).
  assert (G2 : (num rpg <= num srp)%Q) by (apply num_le; auto; congruence).
  assert (C : (num cp == num (w_send w) - num (w_adj w))%Q) by (apply num_minus; auto).
  pose proof (dy_down_lo _ _ _ _ X2 Wl Ws V3 X14 ltac:(lra) Z2) as Y1.
  assert (Hse : (1 <= num srp * num (w_rp w))%Q) by (apply one_mul; lra). pose proof u_pos as U.
  assert (Hx : (0 <= num dx)%Q) by (apply num_sign; auto).
  split; [lra |]. unfold core_x in X15. destruct (is_negative dx); [discriminate |]. rewrite X1 in X15. cbn [bind] in X15. bd X15 c0 K1. destruct c0; [discriminate |].
  rewrite one_eq in X15. cbn [bind] in X15. bd X15 ff K2. bd X15 dm K3. bd X15 db K4. destruct (is_negative db) eqn:Nb; [discriminate |]. bd X15 pt K5.
  assert (Wff : wf ff) by (eapply sub_wf; eauto; exact one12_wf). assert (Wdb : wf db) by (eapply dx_drp_inv; eauto). pose proof (dx_scale _ _ _ _ K4 Wl Ws Wg Sl) as Sdb. destruct pt.
  - bd X15 q K6. bd X15 fe K7. injection X15 as I1 I4 I2 _ I3. rewrite <- I2, <- I3 in *. rewrite <- I1, <- I4 in *. split.
    + pose proof (dx_down_hi _ _ _ _ K4 Wl Ws Wg Sl X13 ltac:(lra) G1 G2) as A. assert (0 <= ulp12 * (num srp * num rpg))%Q by (apply Qmult_le_0_compat; lra). lra.
    + apply (fee_cross _ _ _ _ _ K2 K6 K7); auto. apply (part_pos _ _ _ _ K3); auto.
  - bd X15 fe K6. bd X15 er K7. bd X15 g1 K8. bd X15 et K9. bd X15 c1 K10. destruct c1; [discriminate |]. bd X15 c2 K11. destruct c2; [discriminate |]. injection X15 as I1 I4 I2 _ I3. rewrite <- I2 in *. subst dm er fe.
    assert (Sd : dscale (w_recv w) = 12). { destruct (lt_m _ _ _ (wf_nn _ Wdb) (wf_nn _ V1) K5) as (E & _). rewrite <- E. exact Sdb. }
    split; [| apply (fee_last _ _ _ _ _ K2 K3 K6); auto].
    pose proof (rp_dx_hi _ _ _ _ K7 Wl Ws V1 Sl Sd Hl ltac:(lra) Z3) as A.
    assert (B1 : (ulp12 * num (w_rp w) <= ulp12 * (num srp * num (w_rp w)))%Q). { apply mul_mono; [lra |]. rewrite (Qmult_comm (num srp)). apply le_mul; lra. }
    assert (B2 : (0 <= num (w_recv w) * ulp12 * (num srp * num (w_rp w)))%Q) by (apply Qmult_le_0_compat; [apply Qmult_le_0_compat; lra | lra]). lra.
Qed.
Lemma within_y_fair : forall orc p srp goal liq dx ro w, swap_within_y orc p srp goal liq dx ro = Ok w ->
  pool_wf p -> wf srp -> wf liq -> wf dx -> wf ro -> 0 <= goal -> dscale liq = 12 -> (0 < num liq)%Q -> (1 <= num srp)%Q -> (0 <= num (fee_rate p))%Q ->
  (num liq * (num (w_rp w) - num srp) <= (num (w_adj w) - num (w_send w) + (2#1) * ulp12) * (num srp * num (w_rp w)) /\
   num (w_recv w) <= num liq * (num (w_rp w) - num srp) + (if w_cross w then 0 else ulp12 * num liq) /\
   - ulp12 <= num (w_fee w) - num (fee_rate p) * (num (w_recv w) + num (w_fee w)) /\
   num (w_fee w) - num (fee_rate p) * (num (w_recv w) + num (w_fee w)) <= (if w_cross w then 0 else ulp12))%Q.
Proof.
  intros orc p srp goal liq dx ro w H Wp Ws Wl Wd Wo Hg Sl Hl H1 Hr.
  pose proof (within_y_amounts _ _ _ _ _ _ _ _ H Wp Ws Wl Wd Wo Hg Sl Hl H1) as (Z1 & Z2 & Z3 & _).
  destruct (within_y_facts _ _ _ _ _ _ _ _ H Wp Ws Wl Wd Wo Hg) as (rpg & cp & X1 & X2 & X3 & (V1 & V2 & V3 & V4 & V5 & V6) & (U1 & U2 & U3 & U4 & U5 & U6) & X6 & X7 & X8 & X9 & X10 & X11 & X12 & X13 & X14 & X15 & X16).
  destruct (tick_rp_wf _ _ X1) as (Wg & Sg & _). pose proof Wp as (_ & _ & _ & _ & _ & _ & Wfr).
  assert (G2 : (num srp <= num rpg)%Q) by (apply num_le; auto; congruence).
  assert (C : (num cp == num (w_send w) - num (w_adj w))%Q) by (apply num_minus; auto).
  pose proof (dx_up_lo _ _ _ _ X2 Wl Ws V3 Sl X13 ltac:(lra) H1 Z1) as Y1. pose proof u_pos as U.
  assert (Hx : (0 <= num dx)%Q) by (apply num_sign; auto).
  split. { setoid_replace (num (w_adj w) - num (w_send w))%Q with (- num cp)%Q by (rewrite C; ring). exact Y1. }
  unfold core_y in X15. destruct (is_negative dx); [discriminate |]. rewrite X1 in X15. cbn [bind] in X15. bd X15 c0 K1. destruct c0; [discriminate |].
  rewrite one_eq in X15. cbn [bind] in X15. bd X15 ff K2. bd X15 dm K3. bd X15 db K4. destruct (is_negative db) eqn:Nb; [discriminate |]. bd X15 pt K5.
  assert (Wff : wf ff) by (eapply sub_wf; eauto; exact one12_wf). assert (Wdb : wf db) by (eapply dy_drp_inv; eauto). pose proof (dy_scale _ _ _ _ K4 Wl Ws Wg Sg) as Sdb. destruct pt.
  - bd X15 q K6. bd X15 fe K7. injection X15 as I1 I4 I2 _ I3. rewrite <- I2, <- I3 in *. rewrite <- I1, <- I4 in *. split.
    + destruct (dy_up _ _ _ _ K4 Wl Ws Wg Sg ltac:(lra) G2) as [A B]. lra.
    + apply (fee_cross _ _ _ _ _ K2 K6 K7); auto. apply (part_pos _ _ _ _ K3); auto.
  - bd X15 fe K6. bd X15 er K7. bd X15 t1 K8. bd X15 sk K8'. bd X15 et K9. bd X15 c1 K10. destruct c1; [discriminate |]. bd X15 c2 K11. destruct c2; [discriminate |]. injection X15 as I1 I4 I2 _ I3. rewrite <- I2 in *. subst dm er fe.
    assert (Sd : dscale (w_recv w) = 12). { destruct (lt_m _ _ _ (wf_nn _ Wdb) (wf_nn _ V1) K5) as (E & _). rewrite <- E. exact Sdb. }
    split; [| apply (fee_last _ _ _ _ _ K2 K3 K6); auto].
    pose proof (rp_dy_hi _ _ _ _ K7 Wl Ws V1 Sd Hl Z2) as A. lra.
Qed.

(** ** Moves *)
Definition fX (p p' : pool) : Q := (num (x_fee p') - num (x_fee p))%Q.
Definition fY (p p' : pool) : Q := (num (y_fee p') - num (y_fee p))%Q.
(** Deviation of the fee from [rate * (amount + fee)]. *)
Definition off_x (p p' : pool) : Q := (fX p p' - num (fee_rate p) * (dX p p' + fX p p'))%Q.
Definition off_y (p p' : pool) : Q := (fY p p' - num (fee_rate p) * (dY p p' + fY p p'))%Q.
(** Everything a step credits or charges, bounded from the trader's side.  [last] marks the step that uses up the amount. *)
Definition fair_down (p p' : pool) (last : Prop) : Prop :=
  (num (glbl_liq p) * (num (glbl_rp p) - num (glbl_rp p')) <= - dY p p' + ulp12 /\
   dX p p' * (1 - ulp12) * (num (glbl_rp p) * num (glbl_rp p')) <= num (glbl_liq p) * (num (glbl_rp p) - num (glbl_rp p')) + ulp12 * (num (glbl_rp p) * num (glbl_rp p')) /\
   - ulp12 <= off_x p p' /\ (off_x p p' <= 0 \/ (last /\ off_x p p' <= ulp12)))%Q.
Definition fair_up (p p' : pool) (last : Prop) : Prop :=
  (num (glbl_liq p) * (num (glbl_rp p') - num (glbl_rp p)) <= (- dX p p' + (2#1) * ulp12) * (num (glbl_rp p) * num (glbl_rp p')) /\
   (dY p p' <= num (glbl_liq p) * (num (glbl_rp p') - num (glbl_rp p)) \/ (last /\ glbl_liq p' = glbl_liq p /\ dY p p' <= num (glbl_liq p) * (num (glbl_rp p') - num (glbl_rp p)) + ulp12 * num (glbl_liq p))) /\
   - ulp12 <= off_y p p' /\ (off_y p p' <= 0 \/ (last /\ off_y p p' <= ulp12)))%Q.
(** A move with no liquidity in range moves no funds at all. *)
Definition idle (p p' : pool) : Prop := (num (glbl_liq p) == 0)%Q /\ same_funds p p'.
Lemma mv_x_fair : forall orc dx ro a b, wf dx -> wf ro -> inv_x a -> tick_inv (fst a) -> nn (fst a) -> all12 (fst a) -> tot_ok dx (snd a) -> (0 <= num (fee_rate (fst a)))%Q -> mv_x orc dx ro a b ->
  idle (fst a) (fst b) \/ fair_down (fst a) (fst b) (spent dx b).
Proof.
  intros orc dx ro a b Wd Wo Ia T N A12 To Rt M. pose proof Ia as (I1 & I2 & I3 & I4).
  inversion M as [q s tk rp q' H1 H2 H3 H4 H5 | q s f gtk q' s' H1 H2 H3 H4 H5]; subst a b; cbn [fst snd] in *.
  - left. pose proof (cross_funds _ _ _ _ H5) as F. split; [| exact F]. pose proof N as (_ & _ & _ & _ & _ & N0). apply npos_q in H1; [lra | apply liq_wf; auto].
  - right. destruct (find_left _ _ _ H4) as [K1 K2]. pose proof (key_nn _ _ I1 K1) as G0.
    destruct (step_x_facts _ _ _ _ _ _ _ _ H5 I1 I2 Wd Wo K1) as (w & p1 & (rest & Q1 & Q2 & Q3) & F2 & F3 & F4 & F5 & F6 & F7 & F8).
    pose proof A12 as ((L12 & _) & _). assert (Lp : (0 < num (glbl_liq q))%Q) by (apply pos_q; auto; apply liq_wf; auto).
    destruct (within_x_facts _ _ _ _ _ _ _ _ Q3 I1 (srp_wf _ I2) (liq_wf _ I1) Q2 Wo G0) as (rpg & cp & _ & _ & _ & _ & _ & _ & _ & _ & _ & _ & _ & _ & _ & _ & _ & X16).
    pose proof (within_x_fair _ _ _ _ _ _ _ _ Q3 I1 (srp_wf _ I2) (liq_wf _ I1) Q2 Wo G0 (proj1 L12) Lp Rt) as (Y1 & Y2 & Y3 & Y4). rewrite <- I3 in *.
    assert (Mid : glbl_liq p1 = glbl_liq q /\ glbl_rp p1 = w_rp w /\ (dX q p1 == num (w_recv w))%Q /\ (- dY q p1 == num (w_adj w) - num (w_send w))%Q /\ (fX q p1 == num (w_fee w))%Q).
    { destruct F3 as (nx & y1 & ny & nya & nxf & fx & hy & M1 & M2 & M3 & _ & _ & M6 & _ & ->). apply add_q in M1, M2, M6. apply sub_q in M3. unfold dX, dY, fX; cbn [rx ry x_fee gs glbl_rp glbl_liq g_rp g_liq]. csplit; auto; lra. }
    destruct Mid as (P3 & P4 & PX & PY & PF).
    assert (E : (dX q q' == num (w_recv w))%Q /\ (- dY q q' == num (w_adj w) - num (w_send w))%Q /\ (fX q q' == num (w_fee w))%Q /\ glbl_rp q' = w_rp w).
    { destruct (w_cross w); [| subst q'; auto]. destruct F8 as [_ F8]. destruct (cross_tick_to _ _ _ F8 G0 (proj1 F5)) as (_ & _ & _ & C4). destruct (cross_funds _ _ _ _ F8) as (E1 & E2 & E3 & E4 & E5 & E6).
      unfold dX, dY, fX in *. rewrite E1, E2, E5. csplit; auto. congruence. }
    destruct E as (EX & EY & EF & ER). unfold fair_down, off_x. rewrite EX, EY, EF, ER. csplit; auto. destruct (w_cross w); [left; exact Y4 |]. right. split; [| exact Y4]. subst q'.
    split; cbn [fst snd]; [| rewrite P3; exact H1]. destruct X16 as (Z1 & _). eapply tally_done; eauto.
Qed.
Lemma mv_y_fair : forall orc dx ro a b, wf dx -> wf ro -> inv_y a -> tick_inv (fst a) -> nn (fst a) -> all12 (fst a) -> tot_ok dx (snd a) -> (0 <= num (fee_rate (fst a)))%Q -> mv_y orc dx ro a b ->
  idle (fst a) (fst b) \/ fair_up (fst a) (fst b) (spent dx b).
Proof.
  intros orc dx ro a b Wd Wo Ia T N A12 To Rt M. pose proof Ia as (I1 & I2 & I3 & I4).
  inversion M as [q s tk rp q' H1 H2 H3 H4 H5 | q s gtk q' s' H1 H2 H3 H4 H5]; subst a b; cbn [fst snd] in *.
  - left. pose proof (cross_funds _ _ _ _ H5) as F. split; [| exact F]. pose proof N as (_ & _ & _ & _ & _ & N0). apply npos_q in H1; [lra | apply liq_wf; auto].
  - right. destruct (find_right _ _ _ H4) as [K1 K2]. pose proof (key_nn _ _ I1 K1) as G0.
    destruct (step_y_facts _ _ _ _ _ _ _ _ H5 I1 I2 Wd Wo K1) as (w & p1 & (rest & Q1 & Q2 & Q3) & F2 & F3 & F4 & F5 & F6 & F7 & F8).
    pose proof A12 as ((L12 & _) & _). assert (Lp : (0 < num (glbl_liq q))%Q) by (apply pos_q; auto; apply liq_wf; auto).
    assert (H1' : (1 <= num (s_rp s))%Q) by (rewrite <- I3; apply N).
    destruct (within_y_facts _ _ _ _ _ _ _ _ Q3 I1 (srp_wf _ I2) (liq_wf _ I1) Q2 Wo G0) as (rpg & cp & _ & _ & _ & _ & _ & _ & _ & _ & _ & _ & _ & _ & _ & _ & _ & X16).
    pose proof (within_y_fair _ _ _ _ _ _ _ _ Q3 I1 (srp_wf _ I2) (liq_wf _ I1) Q2 Wo G0 (proj1 L12) Lp H1' Rt) as (Y1 & Y2 & Y3 & Y4). rewrite <- I3 in *.
    assert (Mid : glbl_liq p1 = glbl_liq q /\ glbl_rp p1 = w_rp w /\ (dY q p1 == num (w_recv w))%Q /\ (- dX q p1 == num (w_adj w) - num (w_send w))%Q /\ (fY q p1 == num (w_fee w))%Q).
    { destruct F3 as (nx & y1 & ny & nya & nxf & fx & hy & M1 & M2 & M3 & _ & _ & M6 & _ & ->). apply add_q in M1, M2, M6. apply sub_q in M3. unfold dX, dY, fY; cbn [rx ry y_fee gs glbl_rp glbl_liq g_rp g_liq]. csplit; auto; lra. }
    destruct Mid as (P3 & P4 & PX & PY & PF).
    assert (E : (dY q q' == num (w_recv w))%Q /\ (- dX q q' == num (w_adj w) - num (w_send w))%Q /\ (fY q q' == num (w_fee w))%Q /\ glbl_rp q' = w_rp w).
    { destruct (w_cross w); [| subst q'; auto]. destruct F8 as [_ F8]. destruct (cross_tick_to_r _ _ _ F8) as (_ & _ & C4). destruct (cross_funds _ _ _ _ F8) as (E1 & E2 & E3 & E4 & E5 & E6).
      unfold dX, dY, fY in *. rewrite E1, E2, E6. csplit; auto. congruence. }
    destruct E as (EX & EY & EF & ER). unfold fair_up, off_y. rewrite EX, EY, EF, ER. destruct (w_cross w); [csplit; auto; left; lra |]. subst q'.
    assert (S : spent dx (p1, s')). { split; cbn [fst snd]; [| rewrite P3; exact H1]. destruct X16 as (Z1 & _). eapply tally_done; eauto. }
    csplit; auto.
Qed.

(** ** Whole swaps *)
Definition fair_x (p0 : pool) (dx : decimal) (c : pool * swp) : Prop :=
  let p := fst c in
  (((settled p /\ liq_inv p /\ (owed_y p0 - owed_y p + ulp12 * below p <= - dY p0 p + ulp12 * below p0)%Q /\ (dX p0 p * (1 - ulp12) + ulp12 * below p <= owed_x p - owed_x p0 + ulp12 * below p0)%Q) \/
   (spent dx c /\ (owed_y p0 - owed_y p <= - dY p0 p + ulp12 * (below p0 + 1))%Q /\ (dX p0 p * (1 - ulp12) <= owed_x p - owed_x p0 + ulp12 * (below p0 + 1))%Q))).
Definition fair_y (p0 : pool) (dx : decimal) (c : pool * swp) : Prop :=
  let p := fst c in
  (((settled p /\ liq_inv p /\ (owed_x p0 - owed_x p + (2#1) * ulp12 * above p <= - dX p0 p + (2#1) * ulp12 * above p0)%Q /\ (dY p0 p <= owed_y p - owed_y p0)%Q) \/
   (spent dx c /\ (owed_x p0 - owed_x p <= - dX p0 p + (2#1) * ulp12 * (above p0 + 1))%Q /\ (dY p0 p <= owed_y p - owed_y p0 + ulp12 * num (glbl_liq p))%Q))).
Lemma fair_x_step : forall p0 orc dx ro a b, wf dx -> wf ro -> 0 < mant dx -> inv_x a -> carried dx a -> (0 <= num (fee_rate (fst a)))%Q -> mv_x orc dx ro a b -> fair_x p0 dx a -> fair_x p0 dx b.
Proof.
  intros p0 orc dx ro a b Wd Wo Pd Ia Ca Rt M HX. destruct HX as [(St & L & HY & HX) | [Sp _]]; [| destruct (spent_stop_x _ _ _ _ _ Wd Wo Pd Ia M Sp)].
  pose proof (mv_x_records _ _ _ _ _ Wd Wo Ia M) as R. pose proof (carried_x _ _ _ _ _ Wd Wo Ia Ca M) as (T' & N' & _). destruct Ca as (T & N & A & So & To). pose proof R as (R1 & _).
  pose proof (mv_x_cases _ _ _ _ _ Wd Wo Ia T N A To M) as (g & rg & Hg & Lg & Nx & Eg & D).
  pose proof (mv_x_fair _ _ _ _ _ Wd Wo Ia T N A To Rt M) as Fa.
  pose proof (proj1 (settled_keys _) St g Hg) as [Pg _]. specialize (Pg Lg). pose proof (rp_one _ N) as S1. pose proof (rp_one _ N') as E1. pose proof ulp_pos as U.
  unfold fair_x. set (p := fst a) in *. set (p' := fst b) in *. 
  assert (OX : owed_x p' = ox (num (glbl_rp p')) (positions p)) by (unfold owed_x, ox; rewrite R1; auto). assert (OY : owed_y p' = oy (num (glbl_rp p')) (positions p)) by (unfold owed_y, oy; rewrite R1; auto).
  assert (TX : (dX p0 p' * (1 - ulp12) == dX p0 p * (1 - ulp12) + dX p p' * (1 - ulp12))%Q) by (unfold dX; ring). assert (TY : (dY p0 p' == dY p0 p + dY p p')%Q) by (unfold dY; ring).
  rewrite (price_q_ok _ _ Eg) in Pg.
  assert (G : (price_q g <= num (glbl_rp p') /\ num (glbl_rp p') <= num (glbl_rp p))%Q).
  { rewrite (price_q_ok _ _ Eg). destruct D as [(Er & _) | (_ & D2 & _ & _ & _ & _ & (_ & _ & D9 & _))]; [rewrite Er; lra | split; auto]. }
  destruct G as [B1 B2]. destruct (slide_down p g (num (glbl_rp p')) T So St L Hg Lg Nx B1 B2) as [SX SY]. rewrite <- OX in SX. rewrite <- OY in SY.
  assert (K : ((num (glbl_rp p) - num (glbl_rp p')) * num (glbl_liq p) <= - dY p p' + ulp12 /\ dX p p' * (1 - ulp12) <= (/ num (glbl_rp p') - / num (glbl_rp p)) * num (glbl_liq p) + ulp12)%Q).
  { destruct Fa as [(Z0 & F1 & F2 & _) | (Y1 & Y2 & _)].
    - unfold dX, dY. rewrite Z0, F1, F2. split; lra.
    - split; [lra |]. assert (H : ((dX p p' * (1 - ulp12) - ulp12) * (num (glbl_rp p') * num (glbl_rp p)) <= num (glbl_liq p) * (num (glbl_rp p) - num (glbl_rp p')))%Q) by lra. apply inv_ge in H; auto. lra. }
  destruct K as [KY KX]. assert (B0 : (0 <= ulp12 * below p)%Q) by (apply Qmult_le_0_compat; [lra | apply qlen_nn]).
  destruct D as [(Er & (Wt & Wl) & D) | (D1 & D2 & D3 & D4 & D5 & D6 & D7)].
  - destruct (cross_settled_down p p' g rg T So R Hg Lg Eg Er Wt) as [St' Bl]. pose proof (down_ok p p' g T Hg Lg Nx L R1 Wl Wt) as L'.
    apply (Qmult_le_l _ _ ulp12 U) in Bl. left; csplit; auto; lra.
  - right. split; [split; auto |]. split; lra.
Qed.
Lemma fair_y_step : forall p0 orc dx ro a b, wf dx -> wf ro -> 0 < mant dx -> inv_y a -> carried dx a -> (0 <= num (fee_rate (fst a)))%Q -> mv_y orc dx ro a b -> fair_y p0 dx a -> fair_y p0 dx b.
Proof.
  intros p0 orc dx ro a b Wd Wo Pd Ia Ca Rt M HX. destruct HX as [(St & L & HX & HY) | [Sp _]]; [| destruct (spent_stop_y _ _ _ _ _ Wd Wo Pd Ia M Sp)].
  pose proof (mv_y_records _ _ _ _ _ Wd Wo Ia M) as R. pose proof (carried_y _ _ _ _ _ Wd Wo Ia Ca M) as (T' & N' & _). destruct Ca as (T & N & A & So & To). pose proof R as (R1 & _).
  pose proof (mv_y_cases _ _ _ _ _ Wd Wo Ia T N A M) as (g & rg & Hg & Lg & Nx & Eg & D).
  pose proof (mv_y_fair _ _ _ _ _ Wd Wo Ia T N A To Rt M) as Fa.
  pose proof (proj1 (settled_keys _) St g Hg) as [_ Pg]. specialize (Pg Lg). pose proof (rp_one _ N) as S1. pose proof (rp_one _ N') as E1. pose proof ulp_pos as U.
  unfold fair_y. set (p := fst a) in *. set (p' := fst b) in *. 
  assert (OX : owed_x p' = ox (num (glbl_rp p')) (positions p)) by (unfold owed_x, ox; rewrite R1; auto). assert (OY : owed_y p' = oy (num (glbl_rp p')) (positions p)) by (unfold owed_y, oy; rewrite R1; auto).
  assert (TX : (dX p0 p' == dX p0 p + dX p p')%Q) by (unfold dX; ring). assert (TY : (dY p0 p' == dY p0 p + dY p p')%Q) by (unfold dY; ring).
  rewrite (price_q_ok _ _ Eg) in Pg.
  assert (G : (num (glbl_rp p') <= price_q g /\ num (glbl_rp p) <= num (glbl_rp p'))%Q).
  { rewrite (price_q_ok _ _ Eg). destruct D as [(Er & _) | (_ & D2 & _ & _ & _ & (_ & D9 & _))]; [rewrite Er; lra | split; auto]. }
  destruct G as [B1 B2]. destruct (slide_up p g (num (glbl_rp p')) T So St L Hg Lg Nx B1 B2) as [SX SY]. rewrite <- OX in SX. rewrite <- OY in SY.
  assert (Lp : (0 <= num (glbl_liq p))%Q) by (apply N). assert (UL : (0 <= ulp12 * num (glbl_liq p))%Q) by (apply Qmult_le_0_compat; lra).
  assert (K : ((/ num (glbl_rp p) - / num (glbl_rp p')) * num (glbl_liq p) <= - dX p p' + (2#1) * ulp12 /\
    (dY p p' <= (num (glbl_rp p') - num (glbl_rp p)) * num (glbl_liq p) \/ (spent dx b /\ glbl_liq p' = glbl_liq p /\ dY p p' <= (num (glbl_rp p') - num (glbl_rp p)) * num (glbl_liq p) + ulp12 * num (glbl_liq p))))%Q).
  { destruct Fa as [(Z0 & F1 & F2 & _) | (Y1 & Y2 & _)].
    - unfold dX, dY. rewrite Z0, F1, F2. split; [| left]; lra.
    - split. 2: { destruct Y2 as [Y2 | (Y2 & Y3 & Y4)]; [left; lra | right; csplit; auto; lra]. }
      apply inv_le; auto. rewrite (Qmult_comm (num (glbl_rp p')) (num (glbl_rp p))). exact Y1. }
  destruct K as [KX KY]. assert (B0 : (0 <= ulp12 * above p)%Q) by (apply Qmult_le_0_compat; [lra | apply qlen_nn]).
  destruct KY as [KY | (KS & KL & KY)].
  - destruct D as [(Er & (Wt & Wl) & D) | (D1 & D2 & D3 & D4 & D5 & D6)].
    + destruct (cross_settled_up p p' g rg T So R Hg Lg Eg Er Wt) as [St' Bl]. pose proof (up_ok p p' g T Lg Nx L R1 Wl Wt) as L'.
      apply (Qmult_le_l _ _ ulp12 U) in Bl. left; csplit; auto; lra.
    + right. split; [split; auto |]. rewrite D3. split; lra.
  - right. split; [exact KS |]. rewrite KL. split; lra.
Qed.
Lemma rate_x : forall orc dx ro a b, wf dx -> wf ro -> inv_x a -> mv_x orc dx ro a b -> fee_rate (fst b) = fee_rate (fst a).
Proof. intros orc dx ro a b Wd Wo Ia M. destruct (mv_x_records _ _ _ _ _ Wd Wo Ia M) as (_ & _ & _ & R & _). exact R. Qed.
Lemma rate_y : forall orc dx ro a b, wf dx -> wf ro -> inv_y a -> mv_y orc dx ro a b -> fee_rate (fst b) = fee_rate (fst a).
Proof. intros orc dx ro a b Wd Wo Ia M. destruct (mv_y_records _ _ _ _ _ Wd Wo Ia M) as (_ & _ & _ & R & _). exact R. Qed.
Theorem swap_x_fair : forall orc p dx ro p' o, reachable orc p -> settled p -> liq_inv p -> wf dx -> wf ro -> execute_swap_from_x orc p dx ro = Ok (p', o) ->
  (owed_y p - owed_y p' - ulp12 * (qlen (ticks p) + 1) <= - num (so_send o) + num (so_adj o) /\
   (num (so_recv o) - num (so_fee o)) * (1 - ulp12) <= owed_x p' - owed_x p + ulp12 * (qlen (ticks p) + 1))%Q.
Proof.
  intros orc p dx ro p' o Hr St L Wd Wo H. pose proof (reachable_nn _ _ Hr) as (W & _). destruct (swap_x_chain _ _ _ _ _ _ H W Wd Wo) as (Pd & s' & C & _).
  destruct (swap_x_accounting _ _ _ _ _ _ W Wd Wo H) as (A1 & A2 & A3 & A4 & _).
  assert (X : inv_x (p', s') /\ carried dx (p', s') /\ (0 <= num (fee_rate p'))%Q /\ fair_x p dx (p', s')).
  { refine (chain_inv _ _ (fun c => inv_x c /\ carried dx c /\ (0 <= num (fee_rate (fst c)))%Q /\ fair_x p dx c) _ _ _ C _).
    - intros a b (I1 & I2 & I3 & I4) M. csplit; [exact (mv_x_inv _ _ _ _ _ Wd Wo I1 M) | exact (carried_x _ _ _ _ _ Wd Wo I1 I2 M) | rewrite (rate_x _ _ _ _ _ Wd Wo I1 M); exact I3 | exact (fair_x_step _ _ _ _ _ _ Wd Wo Pd I1 I2 I3 M I4)].
    - csplit; [apply (inv_start p W) | exact (carried0 _ _ _ Hr) | exact (reachable_rate _ _ Hr) |]. unfold fair_x; cbn [fst snd]. unfold dX, dY. left; csplit; auto; lra. }
  destruct X as (_ & _ & _ & X). unfold fair_x in X. cbn [fst snd] in X. pose proof ulp_pos as U. pose proof (below_all p) as B.
  assert (B0 : (0 <= ulp12 * below p')%Q) by (apply Qmult_le_0_compat; [lra | apply qlen_nn]).
  assert (B1 : (ulp12 * below p <= ulp12 * qlen (ticks p))%Q) by (apply Qmult_le_l; auto).
  assert (DX : (num (so_recv o) - num (so_fee o) == dX p p')%Q) by (unfold dX; lra). assert (DY : (- num (so_send o) + num (so_adj o) == - dY p p')%Q) by (unfold dY; lra).
  rewrite DX, DY. destruct X as [(_ & _ & X & Y) | (_ & X & Y)]; split; lra.
Qed.
Theorem swap_y_fair : forall orc p dy ro p' o, reachable orc p -> settled p -> liq_inv p -> wf dy -> wf ro -> execute_swap_from_y orc p dy ro = Ok (p', o) ->
  (owed_x p - owed_x p' - (2#1) * ulp12 * (qlen (ticks p) + 1) <= - num (so_send o) + num (so_adj o) /\
   num (so_recv o) - num (so_fee o) <= owed_y p' - owed_y p + ulp12 * num (glbl_liq p'))%Q.
Proof.
  intros orc p dx ro p' o Hr St L Wd Wo H. pose proof (reachable_nn _ _ Hr) as (W & _). destruct (swap_y_chain _ _ _ _ _ _ H W Wd Wo) as (Pd & s' & C & _).
  destruct (swap_y_accounting _ _ _ _ _ _ W Wd Wo H) as (A1 & A2 & A3 & A4 & _).
  assert (X : inv_y (p', s') /\ carried dx (p', s') /\ (0 <= num (fee_rate p'))%Q /\ fair_y p dx (p', s')).
  { refine (chain_inv _ _ (fun c => inv_y c /\ carried dx c /\ (0 <= num (fee_rate (fst c)))%Q /\ fair_y p dx c) _ _ _ C _).
    - intros a b (I1 & I2 & I3 & I4) M. csplit; [exact (mv_y_inv _ _ _ _ _ Wd Wo I1 M) | exact (carried_y _ _ _ _ _ Wd Wo I1 I2 M) | rewrite (rate_y _ _ _ _ _ Wd Wo I1 M); exact I3 | exact (fair_y_step _ _ _ _ _ _ Wd Wo Pd I1 I2 I3 M I4)].
    - csplit; [apply (inv_start p W) | exact (carried0 _ _ _ Hr) | exact (reachable_rate _ _ Hr) |]. unfold fair_y; cbn [fst snd]. unfold dX, dY. left; csplit; auto; lra. }
  destruct X as (_ & (_ & N' & _) & _ & X). unfold fair_y in X. cbn [fst snd] in *. pose proof ulp_pos as U. pose proof (above_all p) as B.
  assert (B0 : (0 <= ulp12 * above p')%Q) by (apply Qmult_le_0_compat; [lra | apply qlen_nn]).
  assert (B1 : (ulp12 * above p <= ulp12 * qlen (ticks p))%Q) by (apply Qmult_le_l; auto).
  assert (Lp : (0 <= ulp12 * num (glbl_liq p'))%Q) by (apply Qmult_le_0_compat; [lra | apply N']).
  assert (DX : (num (so_recv o) - num (so_fee o) == dY p p')%Q) by (unfold dY; lra). assert (DY : (- num (so_send o) + num (so_adj o) == - dX p p')%Q) by (unfold dX; lra).
  rewrite DX, DY. destruct X as [(_ & _ & X & Y) | (_ & X & Y)]; split; lra.
Qed.

(** ** Fees *)
Definition fee_x (p0 : pool) (dx : decimal) (c : pool * swp) : Prop :=
  let p := fst c in
  ((off_x p0 p <= 0 /\ ulp12 * below p - ulp12 * below p0 <= off_x p0 p) \/ (spent dx c /\ off_x p0 p <= ulp12 /\ - ulp12 * (below p0 + 1) <= off_x p0 p))%Q.
Definition fee_y (p0 : pool) (dx : decimal) (c : pool * swp) : Prop :=
  let p := fst c in
  ((off_y p0 p <= 0 /\ ulp12 * above p - ulp12 * above p0 <= off_y p0 p) \/ (spent dx c /\ off_y p0 p <= ulp12 /\ - ulp12 * (above p0 + 1) <= off_y p0 p))%Q.
Lemma fee_x_step : forall p0 orc dx ro a b, fee_rate (fst a) = fee_rate p0 -> wf dx -> wf ro -> 0 < mant dx -> inv_x a -> carried dx a -> (0 <= num (fee_rate (fst a)))%Q -> mv_x orc dx ro a b -> fee_x p0 dx a -> fee_x p0 dx b.
Proof.
  intros p0 orc dx ro a b Er0 Wd Wo Pd Ia Ca Rt M HX. destruct HX as [(HX & HY) | [Sp _]]; [| destruct (spent_stop_x _ _ _ _ _ Wd Wo Pd Ia M Sp)].
  pose proof (mv_x_records _ _ _ _ _ Wd Wo Ia M) as R. destruct Ca as (T & N & A & So & To).
  pose proof (mv_x_cases _ _ _ _ _ Wd Wo Ia T N A To M) as (g & rg & Hg & Lg & Nx & Eg & D).
  pose proof (mv_x_fair _ _ _ _ _ Wd Wo Ia T N A To Rt M) as Fa. pose proof ulp_pos as U.
  unfold fee_x. set (p := fst a) in *. set (p' := fst b) in *. 
  assert (TX : (off_x p0 p' == off_x p0 p + off_x p p')%Q) by (unfold off_x; rewrite Er0; unfold dX, fX; ring).
  assert (B0 : (0 <= ulp12 * below p)%Q) by (apply Qmult_le_0_compat; [lra | apply qlen_nn]).
  assert (K : (- ulp12 <= off_x p p' /\ (off_x p p' <= 0 \/ (spent dx b /\ off_x p p' <= ulp12)))%Q).
  { destruct Fa as [(_ & F1 & _ & _ & _ & F2 & _) | (_ & _ & Y1 & Y2)]; auto. assert (Z0 : (off_x p p' == 0)%Q) by (unfold off_x, dX, fX; rewrite F1, F2; ring). rewrite Z0. split; [| left]; lra. }
  destruct K as [K1 [K2 | [K2 K3]]].
  - destruct D as [(Er & (Wt & Wl) & D) | (D1 & D2 & D3 & D4 & D5 & D6 & D7)].
    + destruct (cross_settled_down p p' g rg T So R Hg Lg Eg Er Wt) as [St' Bl]. apply (Qmult_le_l _ _ ulp12 U) in Bl. left; split; lra.
    + right. split; [split; auto |]. split; lra.
  - right. split; auto. split; lra.
Qed.
Lemma fee_y_step : forall p0 orc dx ro a b, fee_rate (fst a) = fee_rate p0 -> wf dx -> wf ro -> 0 < mant dx -> inv_y a -> carried dx a -> (0 <= num (fee_rate (fst a)))%Q -> mv_y orc dx ro a b -> fee_y p0 dx a -> fee_y p0 dx b.
Proof.
  intros p0 orc dx ro a b Er0 Wd Wo Pd Ia Ca Rt M HX. destruct HX as [(HX & HY) | [Sp _]]; [| destruct (spent_stop_y _ _ _ _ _ Wd Wo Pd Ia M Sp)].
  pose proof (mv_y_records _ _ _ _ _ Wd Wo Ia M) as R. destruct Ca as (T & N & A & So & To).
  pose proof (mv_y_cases _ _ _ _ _ Wd Wo Ia T N A M) as (g & rg & Hg & Lg & Nx & Eg & D).
  pose proof (mv_y_fair _ _ _ _ _ Wd Wo Ia T N A To Rt M) as Fa. pose proof ulp_pos as U.
  unfold fee_y. set (p := fst a) in *. set (p' := fst b) in *. 
  assert (TX : (off_y p0 p' == off_y p0 p + off_y p p')%Q) by (unfold off_y; rewrite Er0; unfold dY, fY; ring).
  assert (B0 : (0 <= ulp12 * above p)%Q) by (apply Qmult_le_0_compat; [lra | apply qlen_nn]).
  assert (K : (- ulp12 <= off_y p p' /\ (off_y p p' <= 0 \/ (spent dx b /\ off_y p p' <= ulp12)))%Q).
  { destruct Fa as [(_ & _ & F1 & _ & _ & _ & F2) | (_ & _ & Y1 & Y2)]; auto. assert (Z0 : (off_y p p' == 0)%Q) by (unfold off_y, dY, fY; rewrite F1, F2; ring). rewrite Z0. split; [| left]; lra. }
  destruct K as [K1 [K2 | [K2 K3]]].
  - destruct D as [(Er & (Wt & Wl) & D) | (D1 & D2 & D3 & D4 & D5 & D6)].
    + destruct (cross_settled_up p p' g rg T So R Hg Lg Eg Er Wt) as [St' Bl]. apply (Qmult_le_l _ _ ulp12 U) in Bl. left; split; lra.
    + right. split; [split; auto |]. split; lra.
  - right. split; auto. split; lra.
Qed.
Theorem swap_x_fee : forall orc p dx ro p' o, reachable orc p -> wf dx -> wf ro -> execute_swap_from_x orc p dx ro = Ok (p', o) ->
  (- ulp12 * (qlen (ticks p) + 1) <= num (so_fee o) - num (fee_rate p) * num (so_recv o) /\ num (so_fee o) - num (fee_rate p) * num (so_recv o) <= ulp12)%Q.
Proof.
  intros orc p dx ro p' o Hr Wd Wo H. pose proof (reachable_nn _ _ Hr) as (W & _). destruct (swap_x_chain _ _ _ _ _ _ H W Wd Wo) as (Pd & s' & C & _).
  destruct (swap_x_accounting _ _ _ _ _ _ W Wd Wo H) as (A1 & A2 & _).
  assert (X : inv_x (p', s') /\ carried dx (p', s') /\ fee_rate p' = fee_rate p /\ fee_x p dx (p', s')).
  { refine (chain_inv _ _ (fun c => inv_x c /\ carried dx c /\ fee_rate (fst c) = fee_rate p /\ fee_x p dx c) _ _ _ C _).
    - intros a b (I1 & I2 & I3 & I4) M. assert (Rt : (0 <= num (fee_rate (fst a)))%Q) by (rewrite I3; exact (reachable_rate _ _ Hr)).
      csplit; [exact (mv_x_inv _ _ _ _ _ Wd Wo I1 M) | exact (carried_x _ _ _ _ _ Wd Wo I1 I2 M) | rewrite (rate_x _ _ _ _ _ Wd Wo I1 M); exact I3 | exact (fee_x_step _ _ _ _ _ _ I3 Wd Wo Pd I1 I2 Rt M I4)].
    - csplit; [apply (inv_start p W) | exact (carried0 _ _ _ Hr) | reflexivity |]. unfold fee_x; cbn [fst snd]. assert (Z0 : (off_x p p == 0)%Q) by (unfold off_x, dX, fX; ring). rewrite Z0. left; split; lra. }
  destruct X as (_ & _ & _ & X). unfold fee_x in X. cbn [fst snd] in X. pose proof ulp_pos as U. pose proof (below_all p) as B.
  assert (B0 : (0 <= ulp12 * below p')%Q) by (apply Qmult_le_0_compat; [lra | apply qlen_nn]).
  assert (B1 : (ulp12 * below p <= ulp12 * qlen (ticks p))%Q) by (apply Qmult_le_l; auto).
  assert (E : (num (so_fee o) - num (fee_rate p) * num (so_recv o) == off_x p p')%Q).
  { assert (E1 : (fX p p' == num (so_fee o))%Q) by (unfold fX; lra). assert (E2 : (dX p p' + num (so_fee o) == num (so_recv o))%Q) by (unfold dX; lra). unfold off_x. rewrite E1, E2. reflexivity. }
  rewrite E. destruct X as [(X & Y) | (_ & X & Y)]; split; lra.
Qed.
Theorem swap_y_fee : forall orc p dy ro p' o, reachable orc p -> wf dy -> wf ro -> execute_swap_from_y orc p dy ro = Ok (p', o) ->
  (- ulp12 * (qlen (ticks p) + 1) <= num (so_fee o) - num (fee_rate p) * num (so_recv o) /\ num (so_fee o) - num (fee_rate p) * num (so_recv o) <= ulp12)%Q.
Proof.
  intros orc p dx ro p' o Hr Wd Wo H. pose proof (reachable_nn _ _ Hr) as (W & _). destruct (swap_y_chain _ _ _ _ _ _ H W Wd Wo) as (Pd & s' & C & _).
  destruct (swap_y_accounting _ _ _ _ _ _ W Wd Wo H) as (A1 & A2 & _).
  assert (X : inv_y (p', s') /\ carried dx (p', s') /\ fee_rate p' = fee_rate p /\ fee_y p dx (p', s')).
  { refine (chain_inv _ _ (fun c => inv_y c /\ carried dx c /\ fee_rate (fst c) = fee_rate p /\ fee_y p dx c) _ _ _ C _).
    - intros a b (I1 & I2 & I3 & I4) M. assert (Rt : (0 <= num (fee_rate (fst a)))%Q) by (rewrite I3; exact (reachable_rate _ _ Hr)).
      csplit; [exact (mv_y_inv _ _ _ _ _ Wd Wo I1 M) | exact (carried_y _ _ _ _ _ Wd Wo I1 I2 M) | rewrite (rate_y _ _ _ _ _ Wd Wo I1 M); exact I3 | exact (fee_y_step _ _ _ _ _ _ I3 Wd Wo Pd I1 I2 Rt M I4)].
    - csplit; [apply (inv_start p W) | exact (carried0 _ _ _ Hr) | reflexivity |]. unfold fee_y; cbn [fst snd]. assert (Z0 : (off_y p p == 0)%Q) by (unfold off_y, dY, fY; ring). rewrite Z0. left; split; lra. }
  destruct X as (_ & _ & _ & X). unfold fee_y in X. cbn [fst snd] in X. pose proof ulp_pos as U. pose proof (above_all p) as B.
  assert (B0 : (0 <= ulp12 * above p')%Q) by (apply Qmult_le_0_compat; [lra | apply qlen_nn]).
  assert (B1 : (ulp12 * above p <= ulp12 * qlen (ticks p))%Q) by (apply Qmult_le_l; auto).
  assert (E : (num (so_fee o) - num (fee_rate p) * num (so_recv o) == off_y p p')%Q).
  { assert (E1 : (fY p p' == num (so_fee o))%Q) by (unfold fY; lra). assert (E2 : (dY p p' + num (so_fee o) == num (so_recv o))%Q) by (unfold dY; lra). unfold off_y. rewrite E1, E2. reflexivity. }
  rewrite E. destruct X as [(X & Y) | (_ & X & Y)]; split; lra.
Qed.
