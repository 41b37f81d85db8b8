(** Different ways of selling the same amount are paid the same, up to rounding. *)
From Coq Require Import ZArith QArith Qminmax List Bool Lia Lqa String Sorted.
From Verif Require Import Base BaseLemmas DecimalModel DecimalSpec DecimalProofs PowProofs WfProofs MathModel MathProofs TickProofs TickLoop PoolModel PoolWf SwapLoop SwapProofs LpProofs PoolInv PoolNonneg PoolLp PoolRange PoolFees PoolGain PoolScale SwapAmounts SwapCover SwapWorth SwapFair LpWorth.
Import ListNotations.
Open Scope Q_scope.

(** ** Specification *)
(** A sequence of swaps, the last one first: the pool it left behind, the amount offered and what the swap reported.  Every swap starts in a
    state whose tick and liquidity agree with the price. *)
Definition entry : Type := (pool * decimal * swap_out)%type.
Inductive sells_x (orc : log2_oracle) (p0 : pool) : pool -> list entry -> Prop :=
| sx_none : sells_x orc p0 p0 []
| sx_more : forall p l dx ro p' o, sells_x orc p0 p l -> settled p -> liq_inv p -> wf dx -> wf ro -> execute_swap_from_x orc p dx ro = Ok (p', o) -> sells_x orc p0 p' ((p', dx, o) :: l).
Inductive sells_y (orc : log2_oracle) (p0 : pool) : pool -> list entry -> Prop :=
| sy_none : sells_y orc p0 p0 []
| sy_more : forall p l dy ro p' o, sells_y orc p0 p l -> settled p -> liq_inv p -> wf dy -> wf ro -> execute_swap_from_y orc p dy ro = Ok (p', o) -> sells_y orc p0 p' ((p', dy, o) :: l).
Definition total (f : entry -> Q) (l : list entry) : Q := fold_right (fun e a => f e + a) 0 l.
(** Amount taken from the trader, fee included. *)
Definition taken (e : entry) : Q := let '(_, _, o) := e in num (so_recv o).
(** Amount paid out, before the oracle adjustment is kept back. *)
Definition curve_paid (e : entry) : Q := let '(_, _, o) := e in num (so_adj o) - num (so_send o).
(** Rounding allowances of one swap. *)
Definition slack_n (e : entry) : Q := let '(p, _, _) := e in ulp12 * (qlen (ticks p) + 1).
Definition slack_x (e : entry) : Q := let '(p, dx, o) := e in ulp12 * ((3#1) * qlen (ticks p) + (2#1) + num (glbl_liq p) + num dx + num (so_recv o)).
Definition slack_y (e : entry) : Q := let '(p, _, _) := e in ulp12 * ((2#1) * qlen (ticks p) + (2#1) + num (glbl_liq p)).

(** ** Price against worth *)
Lemma clamp_cases : forall r' r a b, 1 <= a -> a <= b -> 1 <= r' -> r' <= r ->
  1 <= clampq r' a b /\ clampq r' a b <= clampq r a b /\ (clampq r' a b == clampq r a b \/ (clampq r a b <= r /\ r' <= clampq r' a b)).
Proof.
  intros r' r a b A B R L. assert (K : forall t, (t <= a /\ clampq t a b == a) \/ (a < t /\ t <= b /\ clampq t a b == t) \/ (a < t /\ b < t /\ clampq t a b == b)).
  { intros t. destruct (Qlt_le_dec a t); [| left; split; auto; apply clamp_lo; auto]. destruct (Qlt_le_dec b t); right; [right | left]; repeat split; auto; [apply clamp_hi; lra | apply clamp_in; lra]. }
  destruct (K r) as [[? E] | [(? & ? & E) | (? & ? & E)]], (K r') as [[? E'] | [(? & ? & E') | (? & ? & E')]]; csplit; try lra; try (left; lra); right; lra.
Qed.
Lemma inv_diff : forall c' c, 1 <= c' -> c' <= c -> (c - c') * / (c * c') == / c' - / c.
Proof. intros c' c H1 H2. field. split; lra. Qed.
Lemma unit_trade : forall r' r a b, 1 <= a -> a <= b -> 1 <= r' -> r' <= r ->
  0 <= unit_y r a b - unit_y r' a b /\ 0 <= unit_x r' a b - unit_x r a b /\
  unit_y r a b - unit_y r' a b <= r * r * (unit_x r' a b - unit_x r a b) /\ unit_x r' a b - unit_x r a b <= unit_y r a b - unit_y r' a b.
Proof.
  intros r' r a b A B R L. destruct (clamp_cases r' r a b A B R L) as (C1 & C2 & C3). unfold unit_x, unit_y. set (c := clampq r a b) in *. set (c' := clampq r' a b) in *.
  assert (E : / c' - / b - (/ c - / b) == (c - c') * / (c * c')) by (rewrite inv_diff by lra; ring). rewrite E.
  assert (P : 1 <= c * c'). { setoid_replace (c * c') with (c' + (c - 1) * c') by ring. assert (0 <= (c - 1) * c') by (apply Qmult_le_0_compat; lra). lra. }
  assert (I0 : 0 < / (c * c')) by (apply Qinv_lt_0_compat; lra). assert (I1 : / (c * c') <= 1). { apply Qmult_le_l with (c * c'); [lra |]. rewrite Qmult_inv_r by lra. lra. }
  csplit; try lra.
  - apply Qmult_le_0_compat; lra.
  - destruct C3 as [C3 | [C3 C4]]; [rewrite C3; setoid_replace (c - c) with 0 by ring; rewrite Qmult_0_l, Qmult_0_r; lra |].
    assert (Q1 : c * c' <= r * r). { apply Qle_trans with (r * c'). { apply Qmult_le_compat_r; lra. } setoid_replace (r * c') with (c' * r) by ring. apply Qmult_le_compat_r; lra. }
    assert (Q2 : 1 <= r * r * / (c * c')). { setoid_replace 1 with (c * c' * / (c * c')) by (rewrite Qmult_inv_r by lra; reflexivity). apply Qmult_le_compat_r; lra. }
    setoid_replace (r * r * ((c - c') * / (c * c'))) with ((c - c') + (c - c') * (r * r * / (c * c') - 1)) by ring. assert (0 <= (c - c') * (r * r * / (c * c') - 1)) by (apply Qmult_le_0_compat; lra). lra.
  - setoid_replace ((c - c') * / (c * c')) with ((c - c') - (c - c') * (1 - / (c * c'))) by ring. assert (0 <= (c - c') * (1 - / (c * c'))) by (apply Qmult_le_0_compat; lra). lra.
Qed.
Lemma worth_trade : forall r' r m, 1 <= r' -> r' <= r ->
  (forall u lo up q, In ((u, lo, up), q) m -> 0 <= num (p_liq q) /\ 1 <= price_q lo /\ price_q lo <= price_q up) ->
  0 <= oy r m - oy r' m /\ 0 <= ox r' m - ox r m /\ oy r m - oy r' m <= r * r * (ox r' m - ox r m) /\ ox r' m - ox r m <= oy r m - oy r' m.
Proof.
  intros r' r m R L. induction m as [| [[[u lo] up] q] m IH]; intros H; [cbn; lra |]. destruct IH as (I1 & I2 & I3 & I4). { intros a b c d Hi. apply (H a b c d). right; auto. }
  destruct (H _ _ _ _ (or_introl eq_refl)) as (N & A & B). destruct (unit_trade r' r _ _ A B R L) as (U1 & U2 & U3 & U4). unfold ox, oy in *. cbn [weighted].
  set (y := unit_y r (price_q lo) (price_q up)) in *. set (y' := unit_y r' (price_q lo) (price_q up)) in *. set (x := unit_x r (price_q lo) (price_q up)) in *. set (x' := unit_x r' (price_q lo) (price_q up)) in *. set (n := num (p_liq q)) in *.
  assert (V1 : 0 <= (y - y') * n) by (apply Qmult_le_0_compat; lra). assert (V2 : 0 <= (x' - x) * n) by (apply Qmult_le_0_compat; lra).
  assert (V3 : (y - y') * n <= r * r * (x' - x) * n) by (apply Qmult_le_compat_r; lra). assert (V4 : (x' - x) * n <= (y - y') * n) by (apply Qmult_le_compat_r; lra).
  csplit; lra.
Qed.
Lemma owed_trade : forall orc p q q', reachable orc p -> positions q = positions p -> positions q' = positions p -> 1 <= num (glbl_rp q') -> num (glbl_rp q') <= num (glbl_rp q) ->
  0 <= owed_y q - owed_y q' /\ 0 <= owed_x q' - owed_x q /\ owed_y q - owed_y q' <= num (glbl_rp q) * num (glbl_rp q) * (owed_x q' - owed_x q) /\ owed_x q' - owed_x q <= owed_y q - owed_y q'.
Proof.
  intros orc p q q' Hr E E' R L. pose proof (worth_trade (num (glbl_rp q')) (num (glbl_rp q)) (positions p) R L) as H. unfold owed_x, owed_y. rewrite E, E'. apply H.
  intros u lo up v Hi. destruct (reachable_sound _ _ Hr _ _ _ _ Hi) as (a & b & Ea & Eb). pose proof (reachable_ticks _ _ Hr) as T. destruct (pos_facts _ T _ _ _ _ Hi) as [W N]. pose proof T as (_ & _ & Po & _). destruct (Po _ _ _ _ Hi) as ((P0 & P1) & _).
  split; [apply num_sign; auto |]. split; [rewrite (price_q_ok _ _ Ea); apply (tick_price_ok _ _ Ea) |]. apply price_q_le; [lia | eauto].
Qed.

(** ** One swap after the other *)
Lemma records_len : forall p p', same_records p p' -> qlen (ticks p') = qlen (ticks p).
Proof.
  intros p p' (_ & _ & _ & _ & E). apply (f_equal (@List.length _)) in E. rewrite !map_length in E. unfold qlen. rewrite E. reflexivity.
Qed.
Definition sold_x (p0 p : pool) (l : list entry) : Prop :=
  positions p = positions p0 /\ fee_rate p = fee_rate p0 /\ 0 <= total slack_x l /\ 0 <= total slack_n l /\
  owed_y p0 - owed_y p - total slack_n l <= total curve_paid l /\ total curve_paid l <= owed_y p0 - owed_y p /\
  (1 - num (fee_rate p0)) * total taken l - total slack_x l <= owed_x p - owed_x p0 /\ owed_x p - owed_x p0 <= (1 - num (fee_rate p0)) * total taken l + total slack_x l.
Lemma sells_x_facts : forall orc p0 p l, reachable orc p0 -> sells_x orc p0 p l -> reachable orc p /\ sold_x p0 p l.
Proof.
  intros orc p0 p l Hr H. induction H as [| p l dx ro p' o H (R & IH) S L Wd Wo E]. { split; auto. unfold sold_x. cbn. csplit; auto; lra. }
  pose proof (reachable_nn _ _ R) as (W & _). assert (R' : reachable orc p') by (apply (r_call orc p (CSwapX dx ro) p' R); [cbn; auto | cbn; rewrite E; auto]). split; [exact R' |].
  destruct IH as (I1 & I2 & I3 & I4 & I5 & I6 & I7 & I8). destruct (swap_x_records _ _ _ _ _ _ W Wd Wo E) as [Rc _]. pose proof (records_len _ _ Rc) as Ln. destruct Rc as (C1 & _ & _ & C4 & _).
  destruct (swap_x_fair _ _ _ _ _ _ R S L Wd Wo E) as [F1 F2]. destruct (swap_x_cover _ _ _ _ _ _ R S L Wd Wo E) as [G1 G2]. destruct (swap_x_fee _ _ _ _ _ _ R Wd Wo E) as [H1 H2].
  destruct (swap_x_accounting _ _ _ _ _ _ W Wd Wo E) as (A1 & A2 & A3 & A4 & _). destruct (swap_x_bounds _ _ _ _ _ _ W Wd Wo E) as (B1 & B2 & B3 & _).
  pose proof (qlen_nn _ (ticks p)) as Q0. pose proof u_pos as U. pose proof (reachable_nn _ _ R') as (_ & _ & _ & _ & _ & N').
  unfold sold_x. cbn [total fold_right taken curve_paid slack_x slack_n]. fold (total slack_x l) (total slack_n l) (total curve_paid l) (total taken l). rewrite Ln. rewrite I2 in H1, H2.
  assert (T1 : 0 <= ulp12 * qlen (ticks p)) by (apply Qmult_le_0_compat; lra). assert (T2 : 0 <= ulp12 * num (glbl_liq p')) by (apply Qmult_le_0_compat; lra). assert (T3 : 0 <= ulp12 * num dx) by (apply Qmult_le_0_compat; lra).
  assert (T4 : 0 <= ulp12 * num (so_recv o)) by (apply Qmult_le_0_compat; lra). assert (T5 : 0 <= ulp12 * num (so_fee o)) by (apply Qmult_le_0_compat; lra).
  csplit; try congruence; try lra.
Qed.
Definition sold_y (p0 p : pool) (l : list entry) : Prop :=
  positions p = positions p0 /\ fee_rate p = fee_rate p0 /\ 0 <= total slack_y l /\ 0 <= total slack_n l /\ 0 <= total curve_paid l /\
  owed_x p0 - owed_x p - (2#1) * total slack_n l <= total curve_paid l /\ total curve_paid l * (1 - ulp12) <= owed_x p0 - owed_x p /\
  (1 - num (fee_rate p0)) * total taken l - total slack_y l <= owed_y p - owed_y p0 /\ owed_y p - owed_y p0 <= (1 - num (fee_rate p0)) * total taken l + total slack_y l.
Lemma sells_y_facts : forall orc p0 p l, reachable orc p0 -> sells_y orc p0 p l -> reachable orc p /\ sold_y p0 p l.
Proof.
  intros orc p0 p l Hr H. induction H as [| p l dx ro p' o H (R & IH) S L Wd Wo E]. { split; auto. unfold sold_y. cbn. csplit; auto; lra. }
  pose proof (reachable_nn _ _ R) as (W & _). assert (R' : reachable orc p') by (apply (r_call orc p (CSwapY dx ro) p' R); [cbn; auto | cbn; rewrite E; auto]). split; [exact R' |].
  destruct IH as (I1 & I2 & I3 & I4 & I9 & I5 & I6 & I7 & I8). destruct (swap_y_records _ _ _ _ _ _ W Wd Wo E) as [Rc _]. pose proof (records_len _ _ Rc) as Ln. destruct Rc as (C1 & _ & _ & C4 & _).
  destruct (swap_y_fair _ _ _ _ _ _ R S L Wd Wo E) as [F1 F2]. destruct (swap_y_cover _ _ _ _ _ _ R S L Wd Wo E) as [G1 G2]. destruct (swap_y_fee _ _ _ _ _ _ R Wd Wo E) as [H1 H2].
  destruct (swap_y_accounting _ _ _ _ _ _ W Wd Wo E) as (A1 & A2 & A3 & A4 & _). destruct (swap_y_bounds _ _ _ _ _ _ W Wd Wo E) as (B1 & B2 & B3 & B4 & B5 & _).
  pose proof (qlen_nn _ (ticks p)) as Q0. pose proof u_pos as U. pose proof (reachable_nn _ _ R') as (_ & _ & _ & _ & _ & N').
  unfold sold_y. cbn [total fold_right taken curve_paid slack_y slack_n]. fold (total slack_y l) (total slack_n l) (total curve_paid l) (total taken l). rewrite Ln. rewrite I2 in H1, H2.
  assert (T1 : 0 <= ulp12 * qlen (ticks p)) by (apply Qmult_le_0_compat; lra). assert (T2 : 0 <= ulp12 * num (glbl_liq p')) by (apply Qmult_le_0_compat; lra).
  assert (DX : num (rx p) - num (rx p') == num (so_adj o) - num (so_send o)) by lra. rewrite DX in G1.
  csplit; try congruence; try lra.
Qed.

(** ** The comparison *)
Theorem split_x : forall orc p0 p q a b, reachable orc p0 -> sells_x orc p0 p a -> sells_x orc p0 q b -> total taken a == total taken b ->
  total curve_paid a <= total curve_paid b + total slack_n b + num (glbl_rp q) * num (glbl_rp q) * (total slack_x a + total slack_x b).
Proof.
  intros orc p0 p q a b Hr Ha Hb T. destruct (sells_x_facts _ _ _ _ Hr Ha) as (Ra & A1 & A2 & A3 & A4 & A5 & A6 & A7 & A8). destruct (sells_x_facts _ _ _ _ Hr Hb) as (Rb & B1 & B2 & B3 & B4 & B5 & B6 & B7 & B8). rewrite T in A7, A8.
  pose proof (rp_one _ (reachable_nn _ _ Ra)) as Na. pose proof (rp_one _ (reachable_nn _ _ Rb)) as Nb.
  assert (P : 0 <= num (glbl_rp q) * num (glbl_rp q)) by (apply Qmult_le_0_compat; lra). assert (Z : 0 <= num (glbl_rp q) * num (glbl_rp q) * (total slack_x a + total slack_x b)) by (apply Qmult_le_0_compat; lra).
  destruct (Qlt_le_dec (num (glbl_rp p)) (num (glbl_rp q))) as [L | L].
  - destruct (owed_trade _ _ q p Hr B1 A1 Na ltac:(lra)) as (_ & _ & D & _).
    assert (M : num (glbl_rp q) * num (glbl_rp q) * (owed_x p - owed_x q) <= num (glbl_rp q) * num (glbl_rp q) * (total slack_x a + total slack_x b)).
    { rewrite !(Qmult_comm (num (glbl_rp q) * num (glbl_rp q))). apply Qmult_le_compat_r; lra. }
    lra.
  - destruct (owed_trade _ _ p q Hr A1 B1 Nb L) as (D & _). lra.
Qed.
Theorem split_y : forall orc p0 p q a b, reachable orc p0 -> sells_y orc p0 p a -> sells_y orc p0 q b -> total taken a == total taken b ->
  total curve_paid a * (1 - ulp12) <= total curve_paid b + (2#1) * total slack_n b + total slack_y a + total slack_y b.
Proof.
  intros orc p0 p q a b Hr Ha Hb T. destruct (sells_y_facts _ _ _ _ Hr Ha) as (Ra & A1 & A2 & A3 & A4 & A0 & A5 & A6 & A7 & A8). destruct (sells_y_facts _ _ _ _ Hr Hb) as (Rb & B1 & B2 & B3 & B4 & B0 & B5 & B6 & B7 & B8). rewrite T in A7, A8.
  pose proof (rp_one _ (reachable_nn _ _ Ra)) as Na. pose proof (rp_one _ (reachable_nn _ _ Rb)) as Nb.
  destruct (Qlt_le_dec (num (glbl_rp q)) (num (glbl_rp p))) as [L | L].
  - destruct (owed_trade _ _ p q Hr A1 B1 Nb ltac:(lra)) as (_ & _ & _ & D). lra.
  - destruct (owed_trade _ _ q p Hr B1 A1 Na L) as (_ & D & _). lra.
Qed.
