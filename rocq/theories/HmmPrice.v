(** With the HMM adjustment a trader is never paid less than the oracle price (or the final price of the pool, if that is worse). *)
From Coq Require Import ZArith QArith Qreals Reals Lra Lia List Bool Psatz.
From Verif Require Import Base BaseLemmas DecimalModel DecimalSpec DecimalProofs WfProofs MathModel MathProofs TickProofs TickLoop PoolModel PoolWf SwapLoop SwapProofs LpProofs PoolInv PoolNonneg PoolLp PoolRange PoolFees PoolGain PoolScale SwapAmounts SwapCover SwapWorth SwapFair FeeCredit PowAccuracy PowDec HmmProofs HmmUse LnSeries LnAccuracy LnUse LnHmm HmmCurve HmmSend.
Import ListNotations.
Open Scope R_scope.

(** ** The exact curve *)
Lemma four_root : forall x, 1 <= x -> exists t, 1 <= t /\ sqrt (sqrt x) = t /\ x = t * t * (t * t).
Proof.
  intros x X. exists (sqrt (sqrt x)). split; [apply sqrt_ge1, sqrt_ge1; exact X|]. split; [reflexivity|]. rewrite sqrt_sqrt by apply sqrt_pos. rewrite sqrt_sqrt by lra. reflexivity.
Qed.
Lemma two_root : forall x, 1 <= x -> exists t, 1 <= t /\ sqrt x = t /\ x = t * t.
Proof. intros x X. exists (sqrt x). split; [apply sqrt_ge1; exact X|]. split; [reflexivity|]. rewrite sqrt_sqrt by lra. reflexivity. Qed.
Lemma inv_bd : forall x, 1 <= x -> 0 < / x <= 1 /\ / x * x = 1.
Proof. intros x X. split; [split; [apply Rinv_0_lt_compat; lra | rewrite <- Rinv_1; apply Rinv_le_contravar; lra] | field; lra]. Qed.
Lemma unit_le : forall w p, 0 <= w -> 0 <= p -> w * p <= 1 -> (w * p) * (w * p) <= 1 /\ (w * p) * (w * p) * (w * p) <= 1.
Proof. intros w p W P H. assert (0 <= w * p) by (apply Rmult_le_pos; assumption). set (z := w * p) in *. clearbody z. split; nra. Qed.
Lemma cubes : forall p q, 0 <= q -> q <= p -> q * q * q <= p * q * q /\ p * q * q <= p * p * q /\ p * p * q <= p * p * p /\ 0 <= q * q * q.
Proof.
  intros p q Q H. assert (0 <= p - q) by lra. assert (0 <= p) by lra.
  pose proof (Rmult_le_pos _ _ (Rmult_le_pos _ _ Q Q) H0). pose proof (Rmult_le_pos _ _ (Rmult_le_pos _ _ H1 Q) H0). pose proof (Rmult_le_pos _ _ (Rmult_le_pos _ _ H1 H1) H0). pose proof (Rmult_le_pos _ _ (Rmult_le_pos _ _ Q Q) Q). repeat split; lra.
Qed.
Lemma lo4 : forall w p q, 0 <= w -> 0 <= q <= p -> w * p <= 1 -> w * w * (w * w) * (w * w * (w * w)) * (p * p * (p * p) - q * q * (q * q)) <= 4 * (w * w * (w * w) * w) * (p - q).
Proof.
  intros w p q W Q H. destruct (unit_le w p W ltac:(lra) H) as (_ & H3).
  assert (F : p * p * (p * p) - q * q * (q * q) <= 4 * (p * p * p) * (p - q)).
  { replace (p * p * (p * p) - q * q * (q * q)) with ((p * p * p + p * p * q + p * q * q + q * q * q) * (p - q)) by ring. apply Rmult_le_compat_r; [lra|].
    destruct (cubes p q ltac:(lra) ltac:(lra)) as (? & ? & ? & ?). lra. }
  assert (W5 : 0 <= w * w * (w * w) * w). { repeat apply Rmult_le_pos; lra. } assert (W8 : 0 <= w * w * (w * w) * (w * w * (w * w))) by (repeat apply Rmult_le_pos; lra).
  apply Rle_trans with (w * w * (w * w) * (w * w * (w * w)) * (4 * (p * p * p) * (p - q))); [apply Rmult_le_compat_l; assumption|].
  replace (w * w * (w * w) * (w * w * (w * w)) * (4 * (p * p * p) * (p - q))) with (4 * (w * w * (w * w) * w) * (p - q) * (w * p * (w * p) * (w * p))) by ring.
  rewrite <- (Rmult_1_r (4 * (w * w * (w * w) * w) * (p - q))) at 2. apply Rmult_le_compat_l; [|exact H3]. apply Rmult_le_pos; lra.
Qed.
Lemma lo2 : forall w p q, 0 <= w -> 0 <= q <= p -> w * p <= 1 -> w * w * (w * w) * (p * p - q * q) <= 2 * (w * w * w) * (p - q).
Proof.
  intros w p q W Q H. assert (F : p * p - q * q <= 2 * p * (p - q)) by nra.
  assert (W3 : 0 <= w * w * w) by (repeat apply Rmult_le_pos; lra). assert (W4 : 0 <= w * w * (w * w)) by (repeat apply Rmult_le_pos; lra).
  apply Rle_trans with (w * w * (w * w) * (2 * p * (p - q))); [apply Rmult_le_compat_l; assumption|].
  replace (w * w * (w * w) * (2 * p * (p - q))) with (2 * (w * w * w) * (p - q) * (w * p)) by ring.
  rewrite <- (Rmult_1_r (2 * (w * w * w) * (p - q))) at 2. apply Rmult_le_compat_l; [|exact H]. apply Rmult_le_pos; lra.
Qed.
Lemma inv_diff : forall s t, 0 < t -> 0 < s -> / t - / s = (s - t) * (/ t * / s). Proof. intros s t T S. field. lra. Qed.
Lemma wt_le : forall w t s, 0 < w -> w <= t -> t <= s -> w * / t <= 1 /\ w * / s <= 1 /\ 0 < / t /\ 0 < / s.
Proof.
  intros w t s W WT TS. assert (0 < / t) by (apply Rinv_0_lt_compat; lra). assert (0 < / s) by (apply Rinv_0_lt_compat; lra). assert (/ t * t = 1) by (field; lra). assert (/ s * s = 1) by (field; lra). repeat split; nra.
Qed.
Lemma hi4 : forall w t s, 0 < w -> w <= t -> t <= s -> 4 * (w * w * (w * w) * w) * (/ t - / s) <= s * s * (s * s) - t * t * (t * t).
Proof.
  intros w t s W WT TS. destruct (wt_le w t s W WT TS) as (P & Q & P0 & Q0). rewrite inv_diff by lra.
  assert (PQ : (w * / t) * (w * / s) <= 1) by (assert (0 <= w * / t) by nra; assert (0 <= w * / s) by nra; nra).
  assert (W3 : w * w * w <= t * t * t) by (destruct (cubes t w ltac:(lra) ltac:(lra)) as (? & ? & ? & ?); lra). assert (W0 : 0 <= w * w * w) by (repeat apply Rmult_le_pos; lra).
  apply Rle_trans with (4 * (t * t * t) * (s - t)).
  - replace (4 * (w * w * (w * w) * w) * ((s - t) * (/ t * / s))) with (4 * (w * w * w * (w * / t * (w * / s))) * (s - t)) by ring. apply Rmult_le_compat_r; [lra|]. apply Rmult_le_compat_l; [lra|].
    apply Rle_trans with (w * w * w * 1); [apply Rmult_le_compat_l; assumption | lra].
  - replace (s * s * (s * s) - t * t * (t * t)) with ((s * s * s + s * s * t + s * t * t + t * t * t) * (s - t)) by ring. apply Rmult_le_compat_r; [lra|].
    destruct (cubes s t ltac:(lra) ltac:(lra)) as (? & ? & ? & ?). lra.
Qed.
Lemma hi2 : forall w t s, 0 < w -> w <= t -> t <= s -> 2 * (w * w * w) * (/ t - / s) <= s * s - t * t.
Proof.
  intros w t s W WT TS. destruct (wt_le w t s W WT TS) as (P & Q & P0 & Q0). rewrite inv_diff by lra.
  assert (PQ : (w * / t) * (w * / s) <= 1) by (assert (0 <= w * / t) by nra; assert (0 <= w * / s) by nra; nra).
  apply Rle_trans with (2 * t * (s - t)); [|nra].
  replace (2 * (w * w * w) * ((s - t) * (/ t * / s))) with (2 * (w * (w * / t * (w * / s))) * (s - t)) by ring. apply Rmult_le_compat_r; [lra|]. nra.
Qed.
Lemma hi1 : forall w t s, 0 < w -> w <= t -> t <= s -> w * w * (/ t - / s) <= s - t.
Proof.
  intros w t s W WT TS. destruct (wt_le w t s W WT TS) as (P & Q & P0 & Q0). rewrite inv_diff by lra.
  assert (PQ : (w * / t) * (w * / s) <= 1) by (assert (0 <= w * / t) by nra; assert (0 <= w * / s) by nra; nra).
  replace (w * w * ((s - t) * (/ t * / s))) with ((w * / t * (w * / s)) * (s - t)) by ring. nra.
Qed.
Lemma sqrt_mono : forall x y, x <= y -> sqrt x <= sqrt y. Proof. intros. apply sqrt_le_1_alt. assumption. Qed.
Lemma inv_sq : forall t, 1 <= t -> / (t * t) = / t * / t. Proof. intros t T. field. lra. Qed.
(** Falling price: Y paid out for X *)
Theorem hmm_y_between : forall c k e l o a b, cpar c k e -> 0 <= l -> 1 <= o -> o <= b -> b <= a ->
  o * o * (l * (/ b - / a)) <= - hmm_y e l o a b <= l * (a - b).
Proof.
  intros c k e l o a b P L O1 OB BA. assert (B1 : 1 <= b) by lra. assert (A1 : 1 <= a) by lra.
  unfold hmm_y. rewrite !opp_pow. destruct P.
  - replace (5 / 4 - 1) with (1 / 4) by lra. rewrite !rp_quarter, rp_5_4 by lra.
    pose proof (sqrt_mono _ _ (sqrt_mono _ _ OB)) as M1. pose proof (sqrt_mono _ _ (sqrt_mono _ _ BA)) as M2.
    destruct (four_root a A1) as (s & S1 & Ra & Ea). destruct (four_root b B1) as (t & T1 & Rb & Eb). destruct (four_root o O1) as (w & W1 & Ro & Eo). rewrite Ra, Rb, Ro in *. clear Ra Rb Ro.
    destruct (wt_le w t s ltac:(lra) M1 M2) as (P & Q & P0 & Q0). assert (PQ : / s <= / t) by (apply Rinv_le_contravar; lra).
    pose proof (lo4 w (/ t) (/ s) ltac:(lra) ltac:(lra) P) as LO. pose proof (hi4 w t s ltac:(lra) M1 M2) as HI.
    assert (EQ : - (l * (o * w) * (1 / s - 1 / t) / (1 / 4)) = l * (4 * (w * w * (w * w) * w) * (/ t - / s))) by (rewrite Eo; field; lra). rewrite EQ.
    assert (IB : / b = / t * / t * (/ t * / t)) by (rewrite Eb; field; lra). assert (IA : / a = / s * / s * (/ s * / s)) by (rewrite Ea; field; lra). rewrite IA, IB, Ea, Eb.
    replace (o * o * (l * (/ t * / t * (/ t * / t) - / s * / s * (/ s * / s)))) with (l * (w * w * (w * w) * (w * w * (w * w)) * (/ t * / t * (/ t * / t) - / s * / s * (/ s * / s)))) by (rewrite Eo; ring).
    split; apply Rmult_le_compat_l; assumption.
  - replace (3 / 2 - 1) with (1 / 2) by lra. rewrite !rp_half, rp_3_2 by lra. pose proof (sqrt_mono _ _ OB) as M1. pose proof (sqrt_mono _ _ BA) as M2.
    destruct (two_root a A1) as (s & S1 & Ra & Ea). destruct (two_root b B1) as (t & T1 & Rb & Eb). destruct (two_root o O1) as (w & W1 & Ro & Eo). rewrite Ra, Rb, Ro in *. clear Ra Rb Ro.
    destruct (wt_le w t s ltac:(lra) M1 M2) as (P & Q & P0 & Q0). assert (PQ : / s <= / t) by (apply Rinv_le_contravar; lra).
    pose proof (lo2 w (/ t) (/ s) ltac:(lra) ltac:(lra) P) as LO. pose proof (hi2 w t s ltac:(lra) M1 M2) as HI.
    assert (EQ : - (l * (o * w) * (1 / s - 1 / t) / (1 / 2)) = l * (2 * (w * w * w) * (/ t - / s))) by (rewrite Eo; field; lra). rewrite EQ.
    assert (IB : / b = / t * / t) by (rewrite Eb; field; lra). assert (IA : / a = / s * / s) by (rewrite Ea; field; lra). rewrite IA, IB, Ea, Eb.
    replace (o * o * (l * (/ t * / t - / s * / s))) with (l * (w * w * (w * w) * (/ t * / t - / s * / s))) by (rewrite Eo; ring).
    split; apply Rmult_le_compat_l; assumption.
  - replace (2 - 1) with 1 by lra. rewrite !Rpower_1, rp_2 by lra. pose proof (hi1 o b a ltac:(lra) OB BA) as HI.
    replace (- (l * (o * o) * (1 / a - 1 / b) / 1)) with (l * (o * o * (/ b - / a))) by (field; lra). split; [lra | apply Rmult_le_compat_l; assumption].
Qed.
(** Rising price: X paid out for Y *)
Theorem hmm_x_between : forall c k e l o a b, cpar c k e -> 0 <= l -> 1 <= a -> a <= b -> b <= o ->
  l * (b - a) * (/ o * / o) <= - hmm_x e l o a b <= l * (/ a - / b).
Proof.
  intros c k e l o a b P L A1 AB BO. assert (B1 : 1 <= b) by lra. assert (O1 : 1 <= o) by lra.
  unfold hmm_x. destruct P.
  - replace (5 / 4 - 1) with (1 / 4) by lra. rewrite !rp_quarter, rp_5_4 by lra.
    pose proof (sqrt_mono _ _ (sqrt_mono _ _ AB)) as M1. pose proof (sqrt_mono _ _ (sqrt_mono _ _ BO)) as M2.
    destruct (four_root a A1) as (s & S1 & Ra & Ea). destruct (four_root b B1) as (t & T1 & Rb & Eb). destruct (four_root o O1) as (w & W1 & Ro & Eo). rewrite Ra, Rb, Ro in *. clear Ra Rb Ro.
    destruct (inv_bd w W1) as (I1 & I2). destruct (inv_bd t T1) as (J1 & J2). destruct (inv_bd s S1) as (K1 & K2). assert (WT : / w <= / t) by (apply Rinv_le_contravar; lra). assert (TS : / t <= / s) by (apply Rinv_le_contravar; lra).
    pose proof (lo4 (/ w) t s ltac:(lra) ltac:(lra) ltac:(nra)) as LO. pose proof (hi4 (/ w) (/ t) (/ s) ltac:(lra) WT TS) as HI. rewrite !Rinv_inv in HI.
    assert (EQ : - (l / (o * w) * (s - t) / (1 / 4)) = l * (4 * (/ w * / w * (/ w * / w) * / w) * (t - s))) by (rewrite Eo; field; lra). rewrite EQ.
    assert (IB : / b = / t * / t * (/ t * / t)) by (rewrite Eb; field; lra). assert (IA : / a = / s * / s * (/ s * / s)) by (rewrite Ea; field; lra). rewrite IA, IB.
    replace (l * (b - a) * (/ o * / o)) with (l * (/ w * / w * (/ w * / w) * (/ w * / w * (/ w * / w)) * (t * t * (t * t) - s * s * (s * s)))) by (rewrite Ea, Eb, Eo; field; lra).
    split; apply Rmult_le_compat_l; assumption.
  - replace (3 / 2 - 1) with (1 / 2) by lra. rewrite !rp_half, rp_3_2 by lra. pose proof (sqrt_mono _ _ AB) as M1. pose proof (sqrt_mono _ _ BO) as M2.
    destruct (two_root a A1) as (s & S1 & Ra & Ea). destruct (two_root b B1) as (t & T1 & Rb & Eb). destruct (two_root o O1) as (w & W1 & Ro & Eo). rewrite Ra, Rb, Ro in *. clear Ra Rb Ro.
    destruct (inv_bd w W1) as (I1 & I2). destruct (inv_bd t T1) as (J1 & J2). destruct (inv_bd s S1) as (K1 & K2). assert (WT : / w <= / t) by (apply Rinv_le_contravar; lra). assert (TS : / t <= / s) by (apply Rinv_le_contravar; lra).
    pose proof (lo2 (/ w) t s ltac:(lra) ltac:(lra) ltac:(nra)) as LO. pose proof (hi2 (/ w) (/ t) (/ s) ltac:(lra) WT TS) as HI. rewrite !Rinv_inv in HI.
    assert (EQ : - (l / (o * w) * (s - t) / (1 / 2)) = l * (2 * (/ w * / w * / w) * (t - s))) by (rewrite Eo; field; lra). rewrite EQ.
    assert (IB : / b = / t * / t) by (rewrite Eb; field; lra). assert (IA : / a = / s * / s) by (rewrite Ea; field; lra). rewrite IA, IB.
    replace (l * (b - a) * (/ o * / o)) with (l * (/ w * / w * (/ w * / w) * (t * t - s * s))) by (rewrite Ea, Eb, Eo; field; lra).
    split; apply Rmult_le_compat_l; assumption.
  - replace (2 - 1) with 1 by lra. rewrite !Rpower_1, rp_2 by lra.
    destruct (inv_bd o O1) as (I1 & I2). destruct (inv_bd b B1) as (J1 & J2). destruct (inv_bd a A1) as (K1 & K2). assert (WT : / o <= / b) by (apply Rinv_le_contravar; lra). assert (TS : / b <= / a) by (apply Rinv_le_contravar; lra).
    pose proof (hi1 (/ o) (/ b) (/ a) ltac:(lra) WT TS) as HI. rewrite !Rinv_inv in HI.
    replace (- (l / (o * o) * (a - b) / 1)) with (l * (/ o * / o * (b - a))) by (field; lra). split; [lra | apply Rmult_le_compat_l; assumption].
Qed.

(** ** One step *)
(** The parameters for which a step with an oracle price is bounded here. *)
Definition curved (c : decimal) : Prop := dneg c = false /\ dscale c = 12%Z /\ (num c == 5 # 4 \/ num c == 3 # 2 \/ num c == 2)%Q.
Lemma rp_le_sq : forall x e, 1 <= x -> e <= 2 -> Rpower x e <= x * x.
Proof.
  intros x e X E. rewrite <- rp_2 by lra. destruct (Req_dec x 1) as [-> | N]; [unfold Rpower; rewrite ln_1, !Rmult_0_r; lra|]. apply Rle_Rpower; lra.
Qed.
Lemma rp_le_self : forall x e, 1 <= x -> e <= 1 -> Rpower x e <= x.
Proof.
  intros x e X E. rewrite <- (Rpower_1 x) at 2 by lra. destruct (Req_dec x 1) as [-> | N]; [unfold Rpower; rewrite ln_1, !Rmult_0_r; lra|]. apply Rle_Rpower; lra.
Qed.
Lemma quot4 : forall n k, 0 <= n -> 1 / 4 <= k -> n / k <= 4 * n.
Proof.
  intros n k N K. unfold Rdiv. assert (0 < / k) by (apply Rinv_0_lt_compat; lra). assert (/ k <= 4). { replace 4 with (/ (1 / 4)) by field. apply Rinv_le_contravar; lra. } nra.
Qed.
(** With C = 5/4, 3/2 or 2 the Y paid for a fall from a to b is at least the oracle price times the X taken. *)
Lemma hmm_pays_y : forall orc l a b c o r, curved c -> at_s 12 l -> at_s 12 a -> at_s 12 b -> at_s 12 o -> 1 <= rv o -> rv o <= rv b -> rv b <= rv a -> dy_from_l_drp_hmm orc l a b c o = Ok r ->
  rv o * rv o * (rv l * (/ rv b - / rv a)) <= - rv r + u12 * (13 + 48 * (rv l * (rv o * rv o))).
Proof.
  intros orc l a b c o r (Nc & Sc & Vc) Al Aa Ab Ao Go GB GA H. destruct (c_par c Nc Sc Vc) as (k & e & P & _). pose proof (rv_nonneg _ Al) as L0. pose proof u12_pos as U.
  destruct (cpar_k _ _ _ P) as (_ & _ & _ & Bk & _).
  pose proof (hmm_curve_y orc l a b c k e o r P Al Aa Ab Ao ltac:(lra) ltac:(lra) Go H) as N. apply abs_lr in N.
  pose proof (hmm_y_between c k e (rv l) (rv o) (rv a) (rv b) P L0 Go GB GA) as (B & _).
  pose proof (rp_le_sq (rv o) e Go ltac:(lra)) as PS. pose proof (rpower_ge1 (rv o) e Go ltac:(lra)) as P1.
  assert (J : rv l * Rpower (rv o) e <= rv l * (rv o * rv o)) by (apply Rmult_le_compat_l; lra). assert (J0 : 0 <= rv l * Rpower (rv o) e) by (apply Rmult_le_pos; lra).
  pose proof (quot4 (3 + 12 * (rv l * Rpower (rv o) e)) (e - 1) ltac:(lra) ltac:(lra)) as Q4.
  assert (u12 * (1 + (3 + 12 * (rv l * Rpower (rv o) e)) / (e - 1)) <= u12 * (13 + 48 * (rv l * (rv o * rv o)))) by (apply Rmult_le_compat_l; lra). lra.
Qed.
Lemma hmm_pays_x : forall orc l a b c o r, curved c -> at_s 12 l -> at_s 12 a -> at_s 12 b -> at_s 12 o -> 1 <= rv a -> rv a <= rv b -> rv b <= rv o -> dx_from_l_drp_hmm orc l a b c o = Ok r ->
  rv l * (rv b - rv a) * (/ rv o * / rv o) <= - rv r + u12 * (9 + 20 * rv l + (4 + 16 * rv l) * rv o).
Proof.
  intros orc l a b c o r (Nc & Sc & Vc) Al Aa Ab Ao Go GB GA H. destruct (c_par c Nc Sc Vc) as (k & e & P & _). pose proof (rv_nonneg _ Al) as L0. pose proof u12_pos as U.
  destruct (cpar_k _ _ _ P) as (_ & _ & _ & Bk & _).
  pose proof (hmm_curve_x orc l a b c k e o r P Al Aa Ab Ao ltac:(lra) ltac:(lra) ltac:(lra) H) as N. apply abs_lr in N.
  pose proof (hmm_x_between c k e (rv l) (rv o) (rv a) (rv b) P L0 Go GB GA) as (B & _).
  pose proof (rp_le_self (rv b) (e - 1) ltac:(lra) ltac:(lra)) as PB. pose proof (rp_le_self (rv a) (e - 1) ltac:(lra) ltac:(lra)) as PA. pose proof (rpower_ge1 (rv a) (e - 1) ltac:(lra) ltac:(lra)) as A1. pose proof (rpower_ge1 (rv b) (e - 1) ltac:(lra) ltac:(lra)) as B1.
  assert (D : Rabs (Rpower (rv a) (e - 1) - Rpower (rv b) (e - 1)) <= rv o) by (apply Rabs_le; lra). pose proof (Rabs_pos (Rpower (rv a) (e - 1) - Rpower (rv b) (e - 1))) as D0.
  assert (J : (1 + 4 * rv l) * Rabs (Rpower (rv a) (e - 1) - Rpower (rv b) (e - 1)) <= (1 + 4 * rv l) * rv o) by (apply Rmult_le_compat_l; lra). assert (J0 : 0 <= (1 + 4 * rv l) * Rabs (Rpower (rv a) (e - 1) - Rpower (rv b) (e - 1))) by (apply Rmult_le_pos; lra).
  pose proof (quot4 (2 + 5 * rv l + (1 + 4 * rv l) * Rabs (Rpower (rv a) (e - 1) - Rpower (rv b) (e - 1))) (e - 1) ltac:(lra) ltac:(lra)) as Q4.
  assert (u12 * (1 + (2 + 5 * rv l + (1 + 4 * rv l) * Rabs (Rpower (rv a) (e - 1) - Rpower (rv b) (e - 1))) / (e - 1)) <= u12 * (9 + 20 * rv l + (4 + 16 * rv l) * rv o)) by (apply Rmult_le_compat_l; lra). lra.
Qed.
Lemma hi0 : forall m t s, 0 <= m -> m <= t -> 0 < t -> t <= s -> m * m * (/ t - / s) <= s - t.
Proof.
  intros m t s W WT T TS. destruct (Req_dec m 0) as [-> | N]; [lra|]. apply hi1; lra.
Qed.
Lemma at12 : forall d, wf d -> dscale d = 12%Z -> (0 < num d)%Q -> at_s 12 d.
Proof. intros d W S P. destruct (pos_dec d W P) as (N & _). split; [exact W | split; assumption]. Qed.
Lemma rv_le : forall a b, (num a <= num b)%Q -> rv a <= rv b. Proof. intros a b H. apply Qle_Rle. exact H. Qed.
Lemma rv_1 : forall a, (1 <= num a)%Q -> 1 <= rv a. Proof. intros a H. apply Qle_Rle in H. replace (Q2R 1) with 1 in H by (unfold Q2R; cbn; lra). exact H. Qed.
Lemma plain_pays_y : forall l s e d m, dy_from_l_drp l s e = Ok d -> at_s 12 l -> at_s 12 s -> at_s 12 e -> 1 <= rv e -> rv e <= rv s -> 0 <= m -> m <= rv e -> m * m * (rv l * (/ rv e - / rv s)) <= - rv d + u12.
Proof.
  intros l s e d m H Al As Ae E1 ES M0 ME. assert (EQ : (num e <= num s)%Q) by (apply Rle_Qle; exact ES).
  pose proof (dy_down_lo l s e d H (proj1 Al) (proj1 As) (proj1 Ae) (proj1 (proj2 Ae)) (at_nn _ _ Al) EQ) as B. apply Qlt_Rlt in B. rewrite Q2R_plus, Q2R_opp, Q2R_mult, Q2R_minus in B. change (Q2R ulp12) with (Q2R (ulp 12)) in B. rewrite ulp_u12 in B.
  fold (rv l) (rv s) (rv e) (rv d) in B. pose proof (hi0 m (rv e) (rv s) M0 ME ltac:(lra) ES) as K. pose proof (rv_nonneg _ Al) as L0. apply (Rmult_le_compat_l (rv l)) in K; lra.
Qed.
Lemma step_pays_y : forall orc p srp goal liq dx ro w m, swap_within_x orc p srp goal liq dx ro = Ok w -> dval (hmm_c p) = 0%Z \/ curved (hmm_c p) -> dy_from_l_drp liq srp (w_rp w) = Ok (w_send w) \/ dval (hmm_c p) <> 0%Z ->
  at_s 12 liq -> at_s 12 srp -> at_s 12 (w_rp w) -> at_s 12 ro -> 1 <= rv ro -> 1 <= rv (w_rp w) -> rv (w_rp w) <= rv srp -> 0 <= m -> m <= rv ro -> m <= rv (w_rp w) ->
  m * m * (rv liq * (/ rv (w_rp w) - / rv srp)) <= - rv (w_send w) + u12 * (14 + 48 * (rv liq * (rv ro * rv ro))).
Proof.
  intros orc p srp goal liq dx ro w m H C0 Z0 Al As Ae Ao O1 E1 ES M0 MO ME. pose proof u12_pos as U. pose proof (rv_nonneg _ Al) as L0.
  assert (J : 0 <= u12 * (48 * (rv liq * (rv ro * rv ro)))). { apply Rmult_le_pos; [lra|]. apply Rmult_le_pos; [lra|]. apply Rmult_le_pos; [lra|]. nra. }
  assert (PL : dy_from_l_drp liq srp (w_rp w) = Ok (w_send w) -> m * m * (rv liq * (/ rv (w_rp w) - / rv srp)) <= - rv (w_send w) + u12 * (14 + 48 * (rv liq * (rv ro * rv ro)))).
  { intros D. pose proof (plain_pays_y _ _ _ _ m D Al As Ae E1 ES M0 ME). lra. }
  destruct (within_x_send _ _ _ _ _ _ _ _ H) as [D | D]; [auto|]. destruct Z0 as [Z0 | Z0]; [auto|]. destruct C0 as [C0 | C0]; [contradiction|].
  assert (IE : 0 < / rv (w_rp w)) by (apply Rinv_0_lt_compat; lra). assert (IO : 0 < / rv ro) by (apply Rinv_0_lt_compat; lra).
  assert (MM : m * m <= rv ro * rv ro) by nra.
  destruct D as [(d1 & d2 & D1 & D2 & D3 & D4 & D5) | (D1 & D2)].
  - destruct (lt_m _ _ _ (wf_nn _ (proj1 Ao)) (wf_nn _ (proj1 As)) D4) as (Sc & Q1 & _). destruct (gte_m _ _ _ (wf_nn _ (proj1 Ao)) (wf_nn _ (proj1 Ae)) D5) as (Sd & Q2 & _).
    assert (OS : rv ro <= rv srp) by (apply rv_le; apply num_le; [apply Ao | exact Sc | auto]). assert (EO : rv (w_rp w) <= rv ro) by (apply rv_le; apply num_le; [apply Ae | auto | auto]).
    pose proof (hmm_pays_y _ _ _ _ _ _ _ C0 Al As Ao Ao O1 ltac:(lra) OS D1) as B1. pose proof (plain_pays_y _ _ _ _ m D2 Al Ao Ae E1 EO M0 ME) as B2.
    apply add_q in D3. apply Qeq_eqR in D3. rewrite Q2R_plus in D3. fold (rv (w_send w)) (rv d1) (rv d2) in D3.
    assert (K : 0 <= rv liq * (/ rv ro - / rv srp)). { apply Rmult_le_pos; [lra|]. assert (/ rv srp <= / rv ro) by (apply Rinv_le_contravar; lra). lra. }
    apply (Rmult_le_compat_r _ _ _ K) in MM. lra.
  - destruct (lt_m _ _ _ (wf_nn _ (proj1 Ao)) (wf_nn _ (proj1 Ae)) D2) as (Sc & Q1 & _). assert (OE : rv ro <= rv (w_rp w)) by (apply rv_le; apply num_le; [apply Ao | exact Sc | auto]).
    pose proof (hmm_pays_y _ _ _ _ _ _ _ C0 Al As Ae Ao O1 OE ES D1) as B1.
    assert (K : 0 <= rv liq * (/ rv (w_rp w) - / rv srp)). { apply Rmult_le_pos; [lra|]. assert (/ rv srp <= / rv (w_rp w)) by (apply Rinv_le_contravar; lra). lra. }
    apply (Rmult_le_compat_r _ _ _ K) in MM. lra.
Qed.
Lemma plain_pays_x : forall l s e d m, dx_from_l_drp l s e = Ok d -> at_s 12 l -> at_s 12 s -> at_s 12 e -> 1 <= rv s -> rv s <= rv e -> rv e <= m -> rv l * (rv e - rv s) * (/ m * / m) <= - rv d + 2 * u12.
Proof.
  intros l s e d m H Al As Ae S1 ES ME. assert (EQ : (num s <= num e)%Q) by (apply Rle_Qle; exact ES). assert (SQ : (1 <= num s)%Q). { apply Rle_Qle. replace (Q2R 1) with 1 by (unfold Q2R; cbn; lra). exact S1. }
  pose proof (dx_up_lo l s e d H (proj1 Al) (proj1 As) (proj1 Ae) (proj1 (proj2 Al)) (proj1 (proj2 As)) (at_nn _ _ Al) SQ EQ) as B. apply Qle_Rle in B. rewrite !Q2R_mult, Q2R_plus, Q2R_opp, !Q2R_mult, Q2R_minus in B. change (Q2R ulp12) with (Q2R (ulp 12)) in B. rewrite ulp_u12 in B.
  replace (Q2R (2 # 1)) with 2 in B by (unfold Q2R; cbn; lra). fold (rv l) (rv s) (rv e) (rv d) in B. pose proof (rv_nonneg _ Al) as L0.
  assert (IS : 0 < / rv s) by (apply Rinv_0_lt_compat; lra). assert (IE : 0 < / rv e) by (apply Rinv_0_lt_compat; lra). assert (IM : 0 < / m) by (apply Rinv_0_lt_compat; lra).
  assert (ME' : / m <= / rv e) by (apply Rinv_le_contravar; lra). assert (MS' : / m <= / rv s) by (apply Rinv_le_contravar; lra).
  assert (K : rv l * (rv e - rv s) * (/ rv s * / rv e) <= - rv d + 2 * u12).
  { apply (Rmult_le_compat_r (/ rv s * / rv e)) in B; [| apply Rmult_le_pos; lra]. replace ((- rv d + 2 * u12) * (rv s * rv e) * (/ rv s * / rv e)) with (- rv d + 2 * u12) in B by (field; lra). exact B. }
  assert (K2 : / m * / m <= / rv s * / rv e) by (apply Rmult_le_compat; lra).
  assert (K3 : 0 <= rv l * (rv e - rv s)) by (apply Rmult_le_pos; lra). apply (Rmult_le_compat_l _ _ _ K3) in K2. lra.
Qed.
Lemma step_pays_x : forall orc p srp goal liq dx ro w m, swap_within_y orc p srp goal liq dx ro = Ok w -> dval (hmm_c p) = 0%Z \/ curved (hmm_c p) -> dx_from_l_drp liq srp (w_rp w) = Ok (w_send w) \/ dval (hmm_c p) <> 0%Z ->
  at_s 12 liq -> at_s 12 srp -> at_s 12 (w_rp w) -> at_s 12 ro -> 1 <= rv srp -> rv srp <= rv (w_rp w) -> 1 <= rv ro -> rv ro <= m -> rv (w_rp w) <= m ->
  rv liq * (rv (w_rp w) - rv srp) * (/ m * / m) <= - rv (w_send w) + u12 * (11 + 20 * rv liq + (4 + 16 * rv liq) * rv ro).
Proof.
  intros orc p srp goal liq dx ro w m H C0 Z0 Al As Ae Ao S1 ES O1 MO ME. pose proof u12_pos as U. pose proof (rv_nonneg _ Al) as L0.
  assert (J : 0 <= u12 * (20 * rv liq + (4 + 16 * rv liq) * rv ro)). { apply Rmult_le_pos; [lra|]. assert (0 <= (4 + 16 * rv liq) * rv ro) by (apply Rmult_le_pos; lra). lra. }
  assert (PL : dx_from_l_drp liq srp (w_rp w) = Ok (w_send w) -> rv liq * (rv (w_rp w) - rv srp) * (/ m * / m) <= - rv (w_send w) + u12 * (11 + 20 * rv liq + (4 + 16 * rv liq) * rv ro)).
  { intros D. pose proof (plain_pays_x _ _ _ _ m D Al As Ae S1 ES ME). lra. }
  destruct (within_y_send _ _ _ _ _ _ _ _ H) as [D | D]; [auto|]. destruct Z0 as [Z0 | Z0]; [auto|]. destruct C0 as [C0 | C0]; [contradiction|].
  assert (IO : 0 < / rv ro) by (apply Rinv_0_lt_compat; lra). assert (IM : 0 < / m) by (apply Rinv_0_lt_compat; lra). assert (MO' : / m <= / rv ro) by (apply Rinv_le_contravar; lra).
  assert (MM : / m * / m <= / rv ro * / rv ro) by (apply Rmult_le_compat; lra).
  destruct D as [(d1 & d2 & D1 & D2 & D3 & D4 & D5) | (D1 & D2)].
  - destruct (gt_m _ _ _ (wf_nn _ (proj1 Ao)) (wf_nn _ (proj1 As)) D4) as (Sc & Q1 & _). destruct (lte_m _ _ _ (wf_nn _ (proj1 Ao)) (wf_nn _ (proj1 Ae)) D5) as (Sd & Q2 & _).
    assert (OS : rv srp <= rv ro) by (apply rv_le; apply num_le; [apply As | auto | auto]). assert (EO : rv ro <= rv (w_rp w)) by (apply rv_le; apply num_le; [apply Ao | auto | auto]).
    pose proof (hmm_pays_x _ _ _ _ _ _ _ C0 Al As Ao Ao S1 OS ltac:(lra) D1) as B1. pose proof (plain_pays_x _ _ _ _ m D2 Al Ao Ae O1 EO ME) as B2.
    apply add_q in D3. apply Qeq_eqR in D3. rewrite Q2R_plus in D3. fold (rv (w_send w)) (rv d1) (rv d2) in D3.
    assert (K : 0 <= rv liq * (rv ro - rv srp)) by (apply Rmult_le_pos; lra).
    apply (Rmult_le_compat_l _ _ _ K) in MM. lra.
  - destruct (gt_m _ _ _ (wf_nn _ (proj1 Ao)) (wf_nn _ (proj1 Ae)) D2) as (Sc & Q1 & _). assert (OE : rv (w_rp w) <= rv ro) by (apply rv_le; apply num_le; [apply Ae | auto | auto]).
    pose proof (hmm_pays_x _ _ _ _ _ _ _ C0 Al As Ae Ao S1 ES OE D1) as B1.
    assert (K : 0 <= rv liq * (rv (w_rp w) - rv srp)) by (apply Rmult_le_pos; lra).
    apply (Rmult_le_compat_l _ _ _ K) in MM. lra.
Qed.

(** ** The same over the rationals *)
Lemma q2r_z : forall z, Q2R (inject_Z z) = IZR z. Proof. intros z. unfold Q2R. cbn. lra. Qed.
Ltac q2r := repeat (rewrite ?Q2R_plus, ?Q2R_minus, ?Q2R_opp, ?Q2R_mult).
Lemma step_x_price : forall orc p srp goal liq dx ro w m, swap_within_x orc p srp goal liq dx ro = Ok w -> dval (hmm_c p) = 0%Z \/ curved (hmm_c p) ->
  pool_wf p -> wf srp -> wf liq -> wf dx -> (0 <= goal)%Z -> dscale liq = 12%Z -> (0 < num liq)%Q -> (0 <= num (fee_rate p))%Q -> at_s 12 ro -> (1 <= num ro)%Q ->
  (0 <= m)%Q -> (m <= num ro)%Q -> (m <= num (w_rp w))%Q ->
  (m * m * (num (w_recv w) * (1 - ulp12) - ulp12) <= - num (w_send w) + ulp12 * (inject_Z 14 + inject_Z 48 * (num liq * (num ro * num ro))))%Q.
Proof.
  intros orc p srp goal liq dx ro w m H C0 Wp Ws Wl Wd Hg Sl Hl Hr Ao O1 M0 MO ME. pose proof (proj1 Ao) as Wo.
  destruct (within_x_facts _ _ _ _ _ _ _ _ H Wp Ws Wl Wd Wo Hg) as (rpg & cp & X1 & X2 & X3 & (V1 & V2 & V3 & V4 & V5 & V6) & (U1 & U2 & U3 & U4 & U5 & U6) & X6 & X7 & X8 & X9 & X10 & X11 & X12 & X13 & X14 & X15 & X16).
  pose proof (within_x_amounts _ _ _ _ _ _ _ _ H Wp Ws Wl Wd Wo Hg Sl Hl) as (Z1 & Z2 & _).
  pose proof (within_x_fair _ _ _ _ _ _ _ _ H Wp Ws Wl Wd Wo Hg Sl Hl Hr) as (_ & Y2 & _).
  apply rv_1 in O1. apply rv_1 in Z1 as E1. apply rv_le in Z2 as ES.
  assert (P1 : (0 < num (w_rp w))%Q) by (apply Qlt_le_trans with 1%Q; [reflexivity | exact Z1]). assert (P2 : (0 < num srp)%Q) by (apply Qlt_le_trans with (num (w_rp w)); assumption).
  assert (Al : at_s 12 liq) by (apply at12; auto). assert (As : at_s 12 srp) by (apply at12; auto). assert (Ae : at_s 12 (w_rp w)) by (apply at12; auto).
  assert (Z0 : dy_from_l_drp liq srp (w_rp w) = Ok (w_send w) \/ dval (hmm_c p) <> 0%Z).
  { destruct (Z.eq_dec (dval (hmm_c p)) 0) as [E | E]; [left | right; exact E]. rewrite X11; [exact X2|]. left. unfold is_zero. rewrite E. reflexivity. }
  apply Qle_Rle in M0, MO, ME. rewrite RMicromega.Q2R_0 in M0.
  pose proof (step_pays_y _ _ _ _ _ _ _ _ (Q2R m) H C0 Z0 Al As Ae Ao O1 E1 ES M0 MO ME) as B.
  apply Qle_Rle in Y2. apply Rle_Qle. q2r. rewrite !Q2R_plus, !Q2R_mult, !Q2R_minus in Y2. rewrite !q2r_z. change (Q2R ulp12) with (Q2R (ulp 12)) in *. rewrite ulp_u12 in *. replace (Q2R 1) with 1 in * by (unfold Q2R; cbn; lra).
  fold (rv (w_recv w)) (rv srp) (rv (w_rp w)) (rv liq) (rv (w_send w)) (rv ro) in *.
  assert (IS : 0 < / rv srp) by (apply Rinv_0_lt_compat; lra). assert (IE : 0 < / rv (w_rp w)) by (apply Rinv_0_lt_compat; lra).
  assert (K : rv (w_recv w) * (1 - u12) - u12 <= rv liq * (/ rv (w_rp w) - / rv srp)).
  { apply (Rmult_le_compat_r (/ rv srp * / rv (w_rp w))) in Y2; [| apply Rmult_le_pos; lra].
    replace (rv (w_recv w) * (1 - u12) * (rv srp * rv (w_rp w)) * (/ rv srp * / rv (w_rp w))) with (rv (w_recv w) * (1 - u12)) in Y2 by (field; lra).
    replace ((rv liq * (rv srp - rv (w_rp w)) + u12 * (rv srp * rv (w_rp w))) * (/ rv srp * / rv (w_rp w))) with (rv liq * (/ rv (w_rp w) - / rv srp) + u12) in Y2 by (field; lra). lra. }
  apply (Rmult_le_compat_l (Q2R m * Q2R m)) in K; [| nra]. lra.
Qed.
Lemma step_y_price : forall orc p srp goal liq dx ro w m, swap_within_y orc p srp goal liq dx ro = Ok w -> dval (hmm_c p) = 0%Z \/ curved (hmm_c p) ->
  pool_wf p -> wf srp -> wf liq -> wf dx -> (0 <= goal)%Z -> dscale liq = 12%Z -> (0 < num liq)%Q -> (1 <= num srp)%Q -> (0 <= num (fee_rate p))%Q -> at_s 12 ro -> (1 <= num ro)%Q ->
  (num ro <= m)%Q -> (num (w_rp w) <= m)%Q ->
  (num (w_recv w) - ulp12 * num liq <= m * m * (- num (w_send w) + ulp12 * (inject_Z 11 + inject_Z 20 * num liq + (inject_Z 4 + inject_Z 16 * num liq) * num ro)))%Q.
Proof.
  intros orc p srp goal liq dx ro w m H C0 Wp Ws Wl Wd Hg Sl Hl S1 Hr Ao O1 MO ME. pose proof (proj1 Ao) as Wo.
  destruct (within_y_facts _ _ _ _ _ _ _ _ H Wp Ws Wl Wd Wo Hg) as (rpg & cp & X1 & X2 & X3 & (V1 & V2 & V3 & V4 & V5 & V6) & (U1 & U2 & U3 & U4 & U5 & U6) & X6 & X7 & X8 & X9 & X10 & X11 & X12 & X13 & X14 & X15 & X16).
  pose proof (within_y_amounts _ _ _ _ _ _ _ _ H Wp Ws Wl Wd Wo Hg Sl Hl S1) as (Z1 & _).
  pose proof (within_y_fair _ _ _ _ _ _ _ _ H Wp Ws Wl Wd Wo Hg Sl Hl S1 Hr) as (_ & Y2 & _).
  apply rv_1 in O1. apply rv_1 in S1 as SR. apply rv_le in Z1 as ES.
  assert (P2 : (0 < num srp)%Q) by (apply Qlt_le_trans with 1%Q; [reflexivity | exact S1]). assert (P1 : (0 < num (w_rp w))%Q) by (apply Qlt_le_trans with (num srp); assumption).
  assert (Al : at_s 12 liq) by (apply at12; auto). assert (As : at_s 12 srp) by (apply at12; auto). assert (Ae : at_s 12 (w_rp w)) by (apply at12; auto).
  assert (Z0 : dx_from_l_drp liq srp (w_rp w) = Ok (w_send w) \/ dval (hmm_c p) <> 0%Z).
  { destruct (Z.eq_dec (dval (hmm_c p)) 0) as [E | E]; [left | right; exact E]. rewrite X11; [exact X2|]. left. unfold is_zero. rewrite E. reflexivity. }
  apply Qle_Rle in MO, ME. fold (rv ro) in MO. fold (rv (w_rp w)) in ME.
  pose proof (step_pays_x _ _ _ _ _ _ _ _ (Q2R m) H C0 Z0 Al As Ae Ao SR ES O1 MO ME) as B. pose proof (rv_nonneg _ Al) as L0. pose proof u12_pos as U.
  assert (Y3 : rv (w_recv w) - u12 * rv liq <= rv liq * (rv (w_rp w) - rv srp)).
  { assert (UL : 0 <= u12 * rv liq) by (apply Rmult_le_pos; lra). destruct (w_cross w); apply Qle_Rle in Y2; revert Y2; q2r; change (Q2R ulp12) with (Q2R (ulp 12)); rewrite ?ulp_u12, ?RMicromega.Q2R_0; fold (rv (w_recv w)) (rv srp) (rv (w_rp w)) (rv liq); intros; lra. }
  apply Rle_Qle. q2r. rewrite !q2r_z. change (Q2R ulp12) with (Q2R (ulp 12)) in *. rewrite ulp_u12 in *. 
  fold (rv (w_recv w)) (rv srp) (rv (w_rp w)) (rv liq) (rv (w_send w)) (rv ro) in *.
  apply (Rmult_le_compat_l (Q2R m * Q2R m)) in B; [| nra]. replace (Q2R m * Q2R m * (rv liq * (rv (w_rp w) - rv srp) * (/ Q2R m * / Q2R m))) with (rv liq * (rv (w_rp w) - rv srp)) in B by (field; lra). lra.
Qed.
