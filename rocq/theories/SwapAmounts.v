(** How far the amounts of one in-range swap step deviate from the exact curve. *)
From Coq Require Import ZArith QArith Qabs List Bool Lia Lqa String Sorted.
From Verif Require Import Base BaseLemmas DecimalModel DecimalSpec DecimalProofs PowProofs WfProofs MathModel MathProofs TickProofs TickLoop PoolModel PoolWf SwapLoop SwapProofs LpProofs PoolInv PoolNonneg PoolLp PoolGain.
Import ListNotations.
Open Scope Z_scope.

Lemma ulp_12 : (ulp 12 == ulp12)%Q. Proof. reflexivity. Qed.
Lemma u_pos : (0 < ulp12)%Q. Proof. reflexivity. Qed.
Lemma flag_of : forall d, 0 < mant d -> 0 <= dval d -> dneg d = false.
Proof. intros d H W. unfold mant in H. destruct (dneg d); auto. lia. Qed.
Lemma pos_nonneg : forall d, wf d -> (0 < num d)%Q -> nonneg d.
Proof.
  intros d W H. split; auto. apply flag_of; [| apply wf_nn; auto]. destruct (Z.le_gt_cases (mant d) 0) as [L |]; [| lia].
  exfalso. assert (num d <= 0)%Q by (apply num_sign; auto). lra.
Qed.
(** A number that is not negative and the non-negative number with the same value behave alike in products and quotients. *)
Lemma trunc_pos : forall s r e, truncated s r e -> (0 <= e)%Q -> (0 <= r /\ r <= e /\ e < r + ulp s)%Q.
Proof.
  intros s r e (A & B & C) He. unfold same_sign in C. assert (Hr : (0 <= r)%Q).
  { destruct (Qlt_le_dec r 0) as [N |]; auto. exfalso. rewrite (Qabs_pos e) in A by auto. rewrite (Qabs_neg r) in A by lra.
    assert (0 < e)%Q by lra. assert (0 < (- r) * e)%Q by (apply Qmult_lt_0_compat; lra). lra. }
  rewrite (Qabs_pos e), (Qabs_pos r) in A, B by auto. auto.
Qed.
Lemma trunc_neg : forall s r e, truncated s r e -> (e <= 0)%Q -> (r <= 0 /\ - r <= - e /\ - e < - r + ulp s)%Q.
Proof.
  intros s r e (A & B & C) He. unfold same_sign in C. assert (Hr : (r <= 0)%Q).
  { destruct (Qlt_le_dec 0 r) as [N |]; auto. exfalso. rewrite (Qabs_neg e) in A by auto. rewrite (Qabs_pos r) in A by lra.
    assert (0 < - e)%Q by lra. assert (0 < r * (- e))%Q by (apply Qmult_lt_0_compat; lra). lra. }
  rewrite (Qabs_neg e), (Qabs_neg r) in A, B by auto. auto.
Qed.
Lemma mul_t : forall a b c, d_mul a b = Ok c -> wf a -> wf b -> dscale a = 12 -> wf c /\ dscale c = 12 /\ truncated 12 (num c) (num a * num b).
Proof. intros a b c E Wa Wb S. pose proof (mul_spec a b Wa Wb) as X. rewrite E in X. destruct X as (X1 & X2 & X3). rewrite S in *. auto. Qed.
Lemma div_t : forall a b c, d_div a b = Ok c -> wf a -> wf b -> dscale a = 12 -> ~ (num b == 0)%Q /\ wf c /\ dscale c = 12 /\ truncated 12 (num c) (num a / num b).
Proof.
  intros a b c E Wa Wb S. pose proof (div_spec a b Wa Wb) as X. rewrite E in X. destruct X as (X0 & X1 & X2 & X3). rewrite S in *. csplit; auto.
  intros Z0. apply num_sign in Z0; auto. unfold mant in Z0. destruct (dneg b); lia.
Qed.

(** ** The four formulas *)
Local Open Scope Q_scope.
Lemma one_mul : forall a b, 1 <= a -> 1 <= b -> 1 <= a * b.
Proof. intros a b Ha Hb. assert (1 * b <= a * b) by (apply Qmult_le_compat_r; lra). lra. Qed.
Lemma le_mul : forall x a, 0 <= x -> 1 <= a -> x <= x * a.
Proof. intros x a Hx Ha. assert (x * 1 <= x * a) by (rewrite !(Qmult_comm x); apply Qmult_le_compat_r; auto). lra. Qed.
(** X owed between two prices, from above and below. *)
Lemma dx_down : forall l s e d, dx_from_l_drp l s e = Ok d -> wf l -> wf s -> wf e -> dscale l = 12%Z -> dscale s = 12%Z -> 0 <= num l -> 1 <= num e -> num e <= num s ->
  0 <= num d /\ num l * (num s - num e) <= (num d + (2#1) * ulp12) * (num s * num e).
Proof.
  intros l s e d H Wl Ws We Sl Ss Hl He Hs. unfold dx_from_l_drp in H. destruct (_ || _)%bool; [discriminate |]. bd H df E1. bd H m E2. bd H n E3.
  assert (Wd : wf df) by (eapply sub_wf; eauto). apply sub_q in E1. destruct (mul_t _ _ _ E2 Ws We Ss) as (Wm & Sm & Tm). destruct (mul_t _ _ _ E3 Wl Wd Sl) as (Wn & Sn & Tn).
  destruct (div_t _ _ _ H Wn Wm Sn) as (_ & _ & _ & Td).
  assert (Hse : 1 <= num s * num e) by (apply one_mul; lra).
  apply trunc_pos in Tm; [| lra]. rewrite ulp_12 in Tm. destruct Tm as (M1 & M2 & M3). pose proof u_pos as U.
  assert (U1 : ulp12 < 1) by reflexivity.
  apply trunc_pos in Tn; [| apply Qmult_le_0_compat; lra]. rewrite ulp_12 in Tn. destruct Tn as (N1 & N2 & N3).
  assert (Mp : 0 < num m) by lra.
  apply trunc_pos in Td; [| apply Qle_shift_div_l; lra]. rewrite ulp_12 in Td. destruct Td as (D1 & D2 & D3). split; auto.
  assert (D4 : num n < (num d + ulp12) * num m). { apply (Qmult_lt_r _ _ (num m) Mp) in D3. unfold Qdiv in D3. rewrite <- Qmult_assoc, (Qmult_comm (/ num m)), Qmult_inv_r, Qmult_1_r in D3 by lra. lra. }
  assert (D5 : (num d + ulp12) * num m <= (num d + ulp12) * (num s * num e)) by (rewrite !(Qmult_comm (num d + ulp12)); apply Qmult_le_compat_r; lra).
  assert (D6 : ulp12 <= ulp12 * (num s * num e)) by (apply le_mul; lra).
  rewrite E1 in N3. lra.
Qed.
Lemma dx_scale : forall l s e d, dx_from_l_drp l s e = Ok d -> wf l -> wf s -> wf e -> dscale l = 12%Z -> dscale d = 12%Z.
Proof.
  intros l s e d H Wl Ws We Sl. unfold dx_from_l_drp in H. destruct (_ || _)%bool; [discriminate |]. bd H df E1. bd H m E2. bd H n E3.
  assert (Wd : wf df) by (eapply sub_wf; eauto). destruct (mul_t _ _ _ E3 Wl Wd Sl) as (Wn & Sn & _). assert (Wm : wf m) by (pose proof (mul_spec s e Ws We) as Z0; rewrite E2 in Z0; apply Z0). apply (div_t _ _ _ H Wn Wm Sn).
Qed.
Lemma dy_scale : forall l s e d, dy_from_l_drp l s e = Ok d -> wf l -> wf s -> wf e -> dscale e = 12%Z -> dscale d = 12%Z.
Proof.
  intros l s e d H Wl Ws We Se. unfold dy_from_l_drp in H. bd H w E1. assert (Ww : wf w) by (eapply sub_wf; eauto).
  destruct (sub_m _ _ _ E1) as (_ & Sw & _). apply (mul_t _ _ _ H Ww Wl). congruence.
Qed.
Lemma dx_up : forall l s e d, dx_from_l_drp l s e = Ok d -> wf l -> wf s -> wf e -> dscale l = 12%Z -> dscale s = 12%Z -> dscale e = 12%Z -> 0 <= num l -> 1 <= num s -> num s <= num e ->
  num d <= 0 /\ - num d * (1 - ulp12) * (num s * num e) <= num l * (num e - num s) /\
  exists z, let f := inject_Z z * ulp12 in 0 <= f /\ f <= num l * (num e - num s) /\ num l * (num e - num s) < f + ulp12 /\ - num d * (num s * num s) <= f.
Proof.
  intros l s e d H Wl Ws We Sl Ss Se Hl He Hs. unfold dx_from_l_drp in H. destruct (_ || _)%bool; [discriminate |]. bd H df E1. bd H m E2. bd H n E3.
  assert (Wd : wf df) by (eapply sub_wf; eauto). apply sub_q in E1. destruct (mul_t _ _ _ E2 Ws We Ss) as (Wm & Sm & Tm). destruct (mul_t _ _ _ E3 Wl Wd Sl) as (Wn & Sn & Tn).
  destruct (div_t _ _ _ H Wn Wm Sn) as (_ & _ & _ & Td).
  assert (Hse : 1 <= num s * num e) by (apply one_mul; lra).
  apply trunc_pos in Tm; [| lra]. rewrite ulp_12 in Tm. destruct Tm as (M1 & M2 & M3). pose proof u_pos as U.
  assert (U1 : ulp12 < 1) by reflexivity. assert (Mp : 0 < num m) by lra.
  assert (Np : num l * num df <= 0). { rewrite E1. assert (0 <= num l * (num e - num s)) by (apply Qmult_le_0_compat; lra). lra. }
  apply trunc_neg in Tn; auto. rewrite ulp_12 in Tn. destruct Tn as (N1 & N2 & N3).
  apply trunc_neg in Td; [| apply Qle_shift_div_r; lra]. rewrite ulp_12 in Td. destruct Td as (D1 & D2 & D3). split; auto.
  assert (D4 : - num d * num m <= - num n). { apply (Qmult_le_compat_r _ _ (num m)) in D2; [| lra]. unfold Qdiv in D2. rewrite <- Qopp_mult_distr_l_reverse in D2 || idtac.
    setoid_replace (- (num n * / num m) * num m) with (- num n) in D2 by (field; lra). exact D2. }
  assert (D5 : (1 - ulp12) * (num s * num e) <= num m). { assert (ulp12 <= ulp12 * (num s * num e)) by (apply le_mul; lra). lra. }
  assert (D6 : - num d * ((1 - ulp12) * (num s * num e)) <= - num d * num m) by (rewrite !(Qmult_comm (- num d)); apply Qmult_le_compat_r; lra).
  rewrite E1 in N2, N3. split; [rewrite <- Qmult_assoc; lra |]. exists (- mant n)%Z. assert (Ez : inject_Z (- mant n) * ulp12 == - num n) by (rewrite (num12 n Sn), inject_Z_opp; ring). cbv zeta. rewrite Ez. csplit; try lra.
  destruct (Qlt_le_dec (num s) (num e)) as [L | L].
  - assert (St : num s + ulp12 <= num e).
    { rewrite (num12 s Ss), (num12 e Se) in *. unfold ulp12, Qle, Qlt, Qplus, Qmult, inject_Z in *. cbn [Qnum Qden] in *. lia. }
    assert (M4 : num s * num s <= num m).
    { assert (num s * (num s + ulp12) <= num s * num e) by (rewrite !(Qmult_comm (num s)); apply Qmult_le_compat_r; lra).
      assert (ulp12 <= ulp12 * num s) by (apply le_mul; lra). lra. }
    assert (- num d * (num s * num s) <= - num d * num m) by (rewrite !(Qmult_comm (- num d)); apply Qmult_le_compat_r; lra). lra.
  - assert (num s == num e) by lra. assert (Z0 : num l * (num s - num e) == 0) by (rewrite H0; ring). assert (- num n <= 0) by lra.
    assert (- num d * num m <= 0) by lra. assert (num d == 0). { destruct (Qlt_le_dec (num d) 0) as [X | X]; [| lra]. exfalso. assert (0 < - num d * num m) by (apply Qmult_lt_0_compat; lra). lra. }
    rewrite H3. lra.
Qed.
Lemma dy_down : forall l s e d, dy_from_l_drp l s e = Ok d -> wf l -> wf s -> wf e -> dscale e = 12%Z -> 0 <= num l -> num e <= num s ->
  num d <= 0 /\ - num d <= num l * (num s - num e).
Proof.
  intros l s e d H Wl Ws We Se Hl Hs. unfold dy_from_l_drp in H. bd H w E1. assert (Ww : wf w) by (eapply sub_wf; eauto).
  destruct (sub_m _ _ _ E1) as (_ & Sw & _). apply sub_q in E1. destruct (mul_t _ _ _ H Ww Wl ltac:(congruence)) as (Wd & Sd & T).
  apply trunc_neg in T. { rewrite E1 in T. destruct T as (T1 & T2 & T3). split; auto. lra. }
  rewrite E1. assert (0 <= (num s - num e) * num l) by (apply Qmult_le_0_compat; lra). lra.
Qed.
Lemma dy_up : forall l s e d, dy_from_l_drp l s e = Ok d -> wf l -> wf s -> wf e -> dscale e = 12%Z -> 0 <= num l -> num s <= num e ->
  num d <= num l * (num e - num s) /\ num l * (num e - num s) < num d + ulp12.
Proof.
  intros l s e d H Wl Ws We Se Hl Hs. unfold dy_from_l_drp in H. bd H w E1. assert (Ww : wf w) by (eapply sub_wf; eauto).
  destruct (sub_m _ _ _ E1) as (_ & Sw & _). apply sub_q in E1. destruct (mul_t _ _ _ H Ww Wl ltac:(congruence)) as (Wd & Sd & T).
  apply trunc_pos in T. { rewrite E1, ulp_12 in T. destruct T as (T1 & T2 & T3). split; lra. }
  rewrite E1. apply Qmult_le_0_compat; lra.
Qed.
Lemma rp_dx : forall l s x e, rp_new_from_l_dx l s x = Ok e -> wf l -> wf s -> wf x -> dscale l = 12%Z -> dscale x = 12%Z -> 0 < num l -> 1 <= num s -> 0 <= num x -> 1 <= num e ->
  num l * (num s - num e) <= (num x + ulp12 * (1 + num l + num x)) * (num s * num e).
Proof.
  intros l s x e H Wl Ws Wx Sl Sx Hl Hs Hx He. unfold rp_new_from_l_dx in H. bd H n E1. bd H a E2. bd H den E3. destruct (is_zero den); [discriminate |]. bd H r E4.
  destruct (is_negative r); [discriminate |]. injection H as <-.
  destruct (mul_t _ _ _ E1 Wl Ws Sl) as (Wn & Sn & Tn). destruct (mul_t _ _ _ E2 Wx Ws Sx) as (Wa & Sa & Ta). assert (Wd : wf den) by (eapply add_wf; eauto). apply add_q in E3.
  destruct (div_t _ _ _ E4 Wn Wd Sn) as (_ & _ & _ & Td). pose proof u_pos as U.
  assert (Hls : 0 <= num l * num s) by (apply Qmult_le_0_compat; lra). assert (Hxs : 0 <= num x * num s) by (apply Qmult_le_0_compat; lra).
  apply trunc_pos in Tn; auto. apply trunc_pos in Ta; auto. rewrite ulp_12 in Tn, Ta. destruct Tn as (N1 & N2 & N3). destruct Ta as (A1 & A2 & A3).
  assert (Dp : 0 < num den) by lra. apply trunc_pos in Td; [| apply Qle_shift_div_l; lra]. rewrite ulp_12 in Td. destruct Td as (D1 & D2 & D3).
  assert (D4 : num n < (num r + ulp12) * num den). { apply (Qmult_lt_r _ _ (num den) Dp) in D3. unfold Qdiv in D3. rewrite <- Qmult_assoc, (Qmult_comm (/ num den)), Qmult_inv_r, Qmult_1_r in D3 by lra. lra. }
  assert (D5 : (num r + ulp12) * num den <= (num r + ulp12) * (num x * num s + num l)) by (rewrite !(Qmult_comm (num r + ulp12)); apply Qmult_le_compat_r; lra).
  assert (Hse : 1 <= num s * num r) by (apply one_mul; lra).
  assert (B1 : ulp12 <= ulp12 * (num s * num r)) by (apply le_mul; lra).
  assert (B2 : ulp12 * num l <= ulp12 * num l * (num s * num r)) by (apply le_mul; [apply Qmult_le_0_compat; lra | lra]).
  assert (B3 : ulp12 * (num x * num s) <= ulp12 * (num x * num s) * num r) by (apply le_mul; [apply Qmult_le_0_compat; lra | lra]).
  lra.
Qed.
Lemma rp_dy : forall l s y e, rp_new_from_l_dy l s y = Ok e -> wf l -> wf s -> wf y -> dscale y = 12%Z -> 0 < num l -> 0 <= num y -> num l * (num e - num s) <= num y.
Proof.
  intros l s y e H Wl Ws Wy Sy Hl Hy. unfold rp_new_from_l_dy in H. destruct (is_zero l); [discriminate |]. bd H q E1. bd H r E2. destruct (is_negative r); [discriminate |]. injection H as <-.
  destruct (div_t _ _ _ E1 Wy Wl Sy) as (_ & Wq & _ & T). apply add_q in E2. apply trunc_pos in T; [| apply Qle_shift_div_l; lra]. destruct T as (T1 & T2 & T3).
  apply (Qmult_le_compat_r _ _ (num l)) in T2; [| lra]. unfold Qdiv in T2. rewrite <- Qmult_assoc, (Qmult_comm (/ num l)), Qmult_inv_r, Qmult_1_r in T2 by lra. rewrite E2. lra.
Qed.

(** ** One in-range step *)
Local Open Scope Z_scope.
Lemma grid : forall x y, (inject_Z x * ulp12 < inject_Z y * ulp12 + ulp12 -> inject_Z x * ulp12 <= inject_Z y * ulp12)%Q.
Proof. intros x y. unfold ulp12, Qle, Qlt, Qplus, Qmult, inject_Z. cbn [Qnum Qden]. lia. Qed.
Lemma num_minus : forall a b c, dscale a = dscale b -> dscale c = dscale b -> mant a = mant b - mant c -> (num c == num b - num a)%Q.
Proof. intros a b c S1 S2 E. assert (E' : mant c = mant b - mant a) by lia. unfold num. rewrite S2, S1, E'. unfold Z.sub. rewrite inject_Z_plus, inject_Z_opp. unfold Qdiv. ring. Qed.
Lemma within_x_amounts : forall orc p srp goal liq dx ro w, swap_within_x orc p srp goal liq dx ro = Ok w ->
  pool_wf p -> wf srp -> wf liq -> wf dx -> wf ro -> 0 <= goal -> dscale liq = 12 -> (0 < num liq)%Q ->
  (1 <= num (w_rp w) /\ num (w_rp w) <= num srp /\ 0 <= num (w_recv w) /\
   0 <= num (w_adj w) - num (w_send w) /\ num (w_adj w) - num (w_send w) <= num liq * (num srp - num (w_rp w)) /\
   num liq * (num srp - num (w_rp w)) <= (num (w_recv w) + (if w_cross w then (2#1) * ulp12 else ulp12 * (1 + num liq + num (w_recv w)))) * (num srp * num (w_rp w)))%Q.
Proof.
  intros orc p srp goal liq dx ro w H Wp Ws Wl Wd Wo Hg Sl Hl.
  destruct (within_x_facts _ _ _ _ _ _ _ _ H Wp Ws Wl Wd Wo Hg) as (rpg & cp & X1 & X2 & X3 & (V1 & V2 & V3 & V4 & V5 & V6) & (U1 & U2 & U3 & U4 & U5 & U6) & X6 & X7 & X8 & X9 & X10 & X11 & X12 & X13 & X14 & X15 & X16).
  destruct (tick_rp_wf _ _ X1) as (Wg & Sg & _). destruct (tick_price_ok _ _ X1) as [G1 _].
  assert (G2 : (num rpg <= num srp)%Q) by (apply num_le; auto; congruence).
  assert (E1 : (num rpg <= num (w_rp w) /\ num (w_rp w) <= num srp)%Q). { destruct (w_cross w). { destruct X16 as [-> _]. lra. } split; apply num_le; auto; try congruence; lia. }
  destruct E1 as [E1 E2]. assert (C : (num cp == num (w_send w) - num (w_adj w))%Q) by (apply num_minus; auto).
  destruct (dy_down _ _ _ _ X2 Wl Ws V3 X14 ltac:(lra) E2) as [Y1 Y2].
  assert (R0 : (0 <= num (w_recv w))%Q) by (apply num_sign; auto).
  csplit; try lra. unfold core_x in X15. destruct (is_negative dx); [discriminate |]. rewrite X1 in X15. cbn [bind] in X15. bd X15 c0 K1. destruct c0; [discriminate |].
  rewrite one_eq in X15. cbn [bind] in X15. bd X15 ff K2. bd X15 dm K3. bd X15 db K4. destruct (is_negative db); [discriminate |]. bd X15 pt K5. destruct pt.
  - bd X15 q K6. bd X15 fe K7. injection X15 as I1 _ I2 _ I3. rewrite <- I2, <- I3 in *. rewrite <- I1. apply (dx_down _ _ _ _ K4); auto; lra.
  - bd X15 fe K6. bd X15 er K7. bd X15 g1 K8. bd X15 et K9. bd X15 c1 K10. destruct c1; [discriminate |]. bd X15 c2 K11. destruct c2; [discriminate |]. injection X15 as I1 _ I2 _ I3. rewrite <- I2 in *. subst dm er.
    assert (Sd : dscale (w_recv w) = 12). { assert (Wdb : wf db) by (eapply dx_drp_inv; eauto). destruct (lt_m _ _ _ (wf_nn _ Wdb) (wf_nn _ V1) K5) as (E & _). rewrite <- E.
      apply (dx_scale _ _ _ _ K4 Wl Ws Wg Sl). }
    apply (rp_dx _ _ _ _ K7); auto; lra.
Qed.
Lemma within_y_amounts : forall orc p srp goal liq dx ro w, swap_within_y orc p srp goal liq dx ro = Ok w ->
  pool_wf p -> wf srp -> wf liq -> wf dx -> wf ro -> 0 <= goal -> dscale liq = 12 -> (0 < num liq)%Q -> (1 <= num srp)%Q ->
  (num srp <= num (w_rp w) /\ 0 <= num (w_recv w) /\
   0 <= num (w_adj w) - num (w_send w) /\ (num (w_adj w) - num (w_send w)) * (1 - ulp12) * (num srp * num (w_rp w)) <= num liq * (num (w_rp w) - num srp) /\
   (num (w_adj w) - num (w_send w)) * (num srp * num srp) <= num (w_recv w) /\
   num liq * (num (w_rp w) - num srp) <= num (w_recv w) + (if w_cross w then ulp12 else 0))%Q.
Proof.
  intros orc p srp goal liq dx ro w H Wp Ws Wl Wd Wo Hg Sl Hl H1.
  destruct (within_y_facts _ _ _ _ _ _ _ _ H Wp Ws Wl Wd Wo Hg) as (rpg & cp & X1 & X2 & X3 & (V1 & V2 & V3 & V4 & V5 & V6) & (U1 & U2 & U3 & U4 & U5 & U6) & X6 & X7 & X8 & X9 & X10 & X11 & X12 & X13 & X14 & X15 & X16).
  destruct (tick_rp_wf _ _ X1) as (Wg & Sg & _).
  assert (G2 : (num srp <= num rpg)%Q) by (apply num_le; auto; congruence).
  assert (E1 : (num srp <= num (w_rp w) /\ num (w_rp w) <= num rpg)%Q). { destruct (w_cross w). { destruct X16 as [-> _]. lra. } split; apply num_le; auto; try congruence; lia. }
  destruct E1 as [E1 E2]. assert (C : (num cp == num (w_send w) - num (w_adj w))%Q) by (apply num_minus; auto).
  destruct (dx_up _ _ _ _ X2 Wl Ws V3 Sl X13 X14 ltac:(lra) H1 E1) as (Y1 & Y2 & z & F1 & F2 & F3 & F4).
  assert (R0 : (0 <= num (w_recv w))%Q) by (apply num_sign; auto).
  assert (R : (inject_Z z * ulp12 <= num (w_recv w) /\ num liq * (num (w_rp w) - num srp) <= num (w_recv w) + (if w_cross w then ulp12 else 0))%Q).
  { unfold core_y in X15. destruct (is_negative dx); [discriminate |]. rewrite X1 in X15. cbn [bind] in X15. bd X15 c0 K1. destruct c0; [discriminate |].
    rewrite one_eq in X15. cbn [bind] in X15. bd X15 ff K2. bd X15 dm K3. bd X15 db K4. destruct (is_negative db); [discriminate |]. bd X15 pt K5. destruct pt.
    - bd X15 q K6. bd X15 fe K7. injection X15 as I1 _ I2 _ _. rewrite <- I2 in *. destruct X16 as [E _]. rewrite E, <- I1 in *. destruct (dy_up _ _ _ _ K4 Wl Ws Wg Sg ltac:(lra) G2) as [A B]. split; [| lra].
      pose proof (dy_scale _ _ _ _ K4 Wl Ws Wg Sg) as Sdb. cbv zeta in *. rewrite (num12 _ Sdb) in *. apply grid. lra.
    - bd X15 fe K6. bd X15 er K7. bd X15 t1 K8. bd X15 sk K8'. bd X15 et K9. bd X15 c1 K10. destruct c1; [discriminate |]. bd X15 c2 K11. destruct c2; [discriminate |]. injection X15 as I1 _ I2 _ I3. rewrite <- I2 in *. subst dm er.
      assert (Sd : dscale (w_recv w) = 12). { assert (Wdb : wf db) by (eapply dy_drp_inv; eauto). destruct (lt_m _ _ _ (wf_nn _ Wdb) (wf_nn _ V1) K5) as (E & _). rewrite <- E.
        apply (dy_scale _ _ _ _ K4 Wl Ws Wg Sg). }
      pose proof (rp_dy _ _ _ _ K7 Wl Ws V1 Sd Hl R0) as A. split; lra. }
  destruct R as [R1 R2]. cbv zeta in *. csplit; auto; try lra.
  - setoid_replace (num (w_adj w) - num (w_send w))%Q with (- num cp)%Q by (rewrite C; ring). auto.
  - setoid_replace (num (w_adj w) - num (w_send w))%Q with (- num cp)%Q by (rewrite C; ring). lra.
Qed.
