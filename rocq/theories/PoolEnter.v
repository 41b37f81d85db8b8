(** When a deposit completes. *)
From Coq Require Import ZArith QArith List Bool Lia Lqa String Sorted.
From Verif Require Import Base BaseLemmas DecimalModel DecimalSpec DecimalProofs PowProofs WfProofs MathModel MathProofs TickProofs PoolModel PoolWf LpProofs SwapLoop SwapProofs PoolInv PoolNonneg PoolLp PoolFees PoolRange ChainLemmas PoolGain PoolScale PoolExit.
Import ListNotations.
Open Scope Z_scope.

(** The quote for an offer of [x], [y] in the range [lo, up): liquidity [l] for the amounts [xi], [yi], within the offer. *)
Definition quoted (p : pool) (x y : decimal) (lo up : Z) (l xi yi : decimal) : Prop :=
  exists a b, tick_to_rp lo = Ok a /\ tick_to_rp up = Ok b /\ liq_from_x_y_rp_rng x y (glbl_rp p) a b = Ok l /\
    x_from_l_rp_rng l (glbl_rp p) a b = Ok xi /\ y_from_l_rp_rng l (glbl_rp p) a b = Ok yi /\ (num xi <= num x /\ num yi <= num y)%Q.

Lemma liq_nn12 : forall x y rp a b l, nonneg x -> nonneg y -> nonneg rp -> nonneg a -> nonneg b -> dscale x = 12 -> dscale y = 12 -> liq_from_x_y_rp_rng x y rp a b = Ok l -> nonneg l /\ dscale l = 12.
Proof.
  intros x y rp a b l Nx Ny Nr Na Nb Sx Sy H. unfold liq_from_x_y_rp_rng in H. bd H c1 E1. destruct c1.
  - destruct (liq_x_spec _ _ _ _ Nx Na Nb H) as (A & _ & B & _). split; congruence.
  - bd H c2 E2. destruct c2.
    + bd H lx E3. bd H ly E4. destruct (liq_x_spec _ _ _ _ Nx Nr Nb E3) as (A & _ & B & _). destruct (liq_y_spec _ _ _ _ Ny Na Nr E4) as (A' & _ & B' & _). destruct (minq _ _ _ A A' H) as (_ & N & _ & [-> | ->]); split; congruence.
    + destruct (liq_y_spec _ _ _ _ Ny Na Nb H) as (A & _ & B & _). split; congruence.
Qed.
Lemma nn_mant : forall d, nonneg d -> mant d = dval d. Proof. intros d [_ H]. unfold mant. rewrite H. reflexivity. Qed.
Lemma gt_false : forall a b, wf a -> wf b -> dscale a = 12 -> dscale b = 12 -> 0 <= mant a <= mant b -> dneg b = false -> d_gt a b = Ok false.
Proof. intros a b Wa Wb Sa Sb H N. rewrite gt_lt. apply lt_false; auto. split; auto. unfold canonical. congruence. Qed.

Theorem deposit_Ok : forall orc p user x y rpa rpb lo up l xi yi nf, reachable orc p -> nonneg rpa -> nonneg rpb -> range_of p rpa rpb lo up ->
  nonneg x -> nonneg y -> dscale x = 12 -> dscale y = 12 -> quoted p x y lo up l xi yi ->
  tgross p lo + mant l < 2 ^ 128 -> tgross p up + mant l < 2 ^ 128 -> (lo <= glbl_tick p < up -> mant (glbl_liq p) + mant l < 2 ^ 128) ->
  (forall k, fee_rng p lo up k = Ok (nf k) /\ paid_to p (user, lo, up) k <= mant (nf k) /\ held p (user, lo, up) * (mant (nf k) - paid_to p (user, lo, up) k) < 2 ^ 128 /\ owed p (user, lo, up) nf k <= pot p k) ->
  mant (rx p) + mant xi < 2 ^ 128 -> mant (ry p) + mant yi < 2 ^ 128 ->
  mant x - mant xi + owed p (user, lo, up) nf FX + owed p (user, lo, up) nf HX < 2 ^ 128 ->
  mant y - mant yi + owed p (user, lo, up) nf FY + owed p (user, lo, up) nf HY < 2 ^ 128 ->
  exists p' o, deposit p user x y rpa rpb = Ok (p', o) /\ io_liq o = l /\ io_x o = xi /\ io_y o = yi /\
    mant (io_fx o) = owed p (user, lo, up) nf FX /\ mant (io_fy o) = owed p (user, lo, up) nf FY /\ mant (io_hx o) = owed p (user, lo, up) nf HX /\ mant (io_hy o) = owed p (user, lo, up) nf HY.
Proof.
  intros orc p user x y rpa rpb lo up l xi yi nf R [Wa Da] [Wb Db] RG Nx Ny Sx Sy (a & b & Ea & Eb & El & Ex & Ey & Lx & Ly) T1 T2 Hg F B1 B2 B3 B4.
  pose proof (reachable_nn _ _ R) as (W & Fn & _ & _ & _ & Gn). pose proof (reachable_all12 _ _ R) as (_ & _ & _ & O1 & O2 & O3 & O4 & O5 & O6). pose proof W as (Ws & (Wg & _) & _ & _ & (U1 & U2 & U3 & U4 & U5 & U6) & _).
  destruct Fn as (N1 & N2 & N3 & N4 & N5 & N6). apply nn_m in N1, N2, N3, N4, N5, N6; auto.
  pose proof RG as (E1 & E2 & [L0 L1] & _ & _).
  destruct (range_prices _ _ _ _ _ _ _ _ R RG Ea Eb) as (P1 & P2 & P3 & P4 & P5 & P6 & P7 & P8 & P9 & P10 & P11 & P12).
  destruct (liq_nn12 _ _ _ _ _ _ Nx Ny P1 P5 P8 Sx Sy El) as [Nl Sl]. pose proof Nl as [Wl Dl].
  assert (Wxi : wf xi) by (eapply x_from_wf; [exact Ex | | | |]; auto; [apply P1 | apply P5 | apply P8]). assert (Wyi : wf yi) by (eapply y_from_wf; [exact Ey | | | |]; auto; [apply P1 | apply P5 | apply P8]).
  pose proof (proj1 (x_from_scale _ _ _ _ _ Ex)) as Sxi. pose proof (proj1 (y_from_scale _ _ _ _ _ Ey)) as Syi. rewrite Sl in Sxi, Syi.
  pose proof (nn_mant _ Nl) as Ml. pose proof (wf_nn _ Wl) as Pl. pose proof (nn_mant _ Nx) as Mx. pose proof (nn_mant _ Ny) as My. pose proof Nx as [Wx Dx]. pose proof Ny as [Wy Dy]. pose proof (wf_nn _ Wx) as Px. pose proof (wf_nn _ Wy) as Py.
  rewrite (num12 _ Sxi), (num12 _ Sx) in Lx. rewrite (num12 _ Syi), (num12 _ Sy) in Ly. apply (proj1 (q_of_m _ _)) in Lx, Ly.
  assert (Ra : (1 <= num a)%Q) by (rewrite (num12 _ P6), (nn_mant _ P5); unfold Qle, ulp12, inject_Z; cbn [Qnum Qden Qmult]; unfold SC in P7; lia).
  assert (Nxi : 0 <= mant xi) by (destruct (x_needed _ _ _ _ _ _ _ Nx Ny P1 P5 P8 Ra El Ex) as [X _]; rewrite (nn_mant _ X); apply wf_nn; apply X).
  assert (Nyi : 0 <= mant yi) by (destruct (y_needed _ _ _ _ _ _ _ Nx Ny P1 P5 P8 El Ey) as [X _]; rewrite (nn_mant _ X); apply wf_nn; apply X).
  destruct (tick_bounds _ p user lo up R L1) as (T0 & T3 & _). pose proof (mant_bound _ Wx) as Bx. pose proof (mant_bound _ Wy) as By. unfold U128 in *.
  assert (Gl : 0 <= mant (glbl_liq p)) by (apply nn_m; auto).
  destruct (set_position_Ok orc p user lo up l nf R Wl Sl ltac:(lia) ltac:(unfold U128; lia) ltac:(unfold U128; lia) ltac:(unfold U128; lia) ltac:(unfold U128; intros I; specialize (Hg I); lia)) as (p1 & f & E3 & Ff).
  { intros k. destruct (F k) as (F1 & F2 & F3 & _). auto. }
  assert (Fk : forall k, wf (f k) /\ dscale (f k) = 12 /\ mant (f k) = owed p (user, lo, up) nf k /\ 0 <= mant (f k) <= pot p k).
  { intros k. destruct (Ff k) as (X1 & X2 & X3). destruct (F k) as (_ & F2 & _ & F4). fold (owed p (user, lo, up) nf k) in X3. csplit; auto; [| lia]. rewrite X3. apply Z.div_pos; nia. }
  destruct (Fk FX) as (G1 & G2 & G3 & G4). destruct (Fk FY) as (G5 & G6 & G7 & G8). destruct (Fk HX) as (G9 & G10 & G11 & G12). destruct (Fk HY) as (G13 & G14 & G15 & G16). cbn [pot] in G4, G8, G12, G16.
  destruct (set_pos_same _ _ _ _ _ _ _ (set_position_inv _ _ _ _ _ _ _ E3)) as (_ & _ & K1 & _ & K2 & K3 & K4 & K5 & K6 & K7).
  pose proof (mant_bound _ U1). pose proof (mant_bound _ U2). pose proof (mant_bound _ U3). pose proof (mant_bound _ U4). pose proof (mant_bound _ U5). pose proof (mant_bound _ U6). unfold U128 in *.
  destruct (sub_Ok xi (f FX) Wxi G1) as (s1 & J1 & V1 & V2 & V3); [congruence | unfold U128; lia |]. destruct (sub_Ok s1 (f HX) V1 G9) as (s2 & J2 & Q1 & Q2 & Q3); [congruence | unfold U128; lia |].
  destruct (sub_Ok yi (f FY) Wyi G5) as (s3 & J3 & V4 & V5 & V6); [congruence | unfold U128; lia |]. destruct (sub_Ok s3 (f HY) V4 G13) as (s4 & J4 & Q4 & Q5 & Q6); [congruence | unfold U128; lia |].
  destruct (add_Ok (f FX) (f HX) G1 G9) as (s5 & J5 & _); [congruence | unfold U128; lia |]. destruct (add_Ok (f FY) (f HY) G5 G13) as (s6 & J6 & _); [congruence | unfold U128; lia |].
  destruct (sub_Ok x s2 Wx Q1) as (s7 & J7 & _); [congruence | unfold U128; lia |]. destruct (sub_Ok y s4 Wy Q4) as (s8 & J8 & _); [congruence | unfold U128; lia |].
  destruct (add_Ok (rx p) xi U1 Wxi) as (r1 & I1 & _); [rewrite (proj1 O1); auto | unfold U128 in *; lia |]. destruct (add_Ok (ry p) yi U2 Wyi) as (r2 & I2 & _); [rewrite (proj1 O2); auto | unfold U128 in *; lia |].
  destruct (sub_Ok (x_fee p) (f FX) U5 G1) as (r3 & I3 & _); [rewrite (proj1 O5); auto | unfold U128 in *; lia |]. destruct (sub_Ok (y_fee p) (f FY) U6 G5) as (r4 & I4 & _); [rewrite (proj1 O6); auto | unfold U128 in *; lia |].
  destruct (sub_Ok (x_adj p) (f HX) U3 G9) as (r5 & I5 & _); [rewrite (proj1 O3); auto | unfold U128 in *; lia |]. destruct (sub_Ok (y_adj p) (f HY) U4 G13) as (r6 & I6 & _); [rewrite (proj1 O4); auto | unfold U128 in *; lia |].
  assert (NN : forall d, nonneg d -> is_negative d = false) by (intros d Nd; pose proof (nn_mant _ Nd); destruct Nd as [Wd _]; apply is_neg_f; apply wf_nn in Wd; lia).
  unfold deposit. rewrite (NN x Nx), (NN y Ny), (NN rpa (conj Wa Da)), (NN rpb (conj Wb Db)). cbn [negb assert bind]. unfold rp_to_possible_tick. rewrite E1. cbn [bind]. rewrite E2. cbn [bind]. rewrite (proj2 (Z.ltb_lt lo up) L1). cbn [assert bind]. rewrite Ea, Eb. cbn [bind]. rewrite El. cbn [bind]. rewrite (NN l Nl). rewrite Ex. cbn [bind].
  rewrite (gt_false xi x) by (auto; lia). cbn [unwrap bind]. rewrite Ey. cbn [bind]. rewrite (gt_false yi y) by (auto; lia). cbn [unwrap bind]. rewrite E3. cbn [bind].
  rewrite J1. cbn [unwrap bind]. rewrite J2. cbn [unwrap bind]. rewrite J3. cbn [unwrap bind]. rewrite J4. cbn [unwrap bind]. rewrite K2, K3, K4, K5, K6, K7.
  rewrite (lt_or_false (x_fee p) (f FX) (y_fee p) (f FY)) by (apply lt_false; auto). cbn [bind]. rewrite (lt_or_false (x_adj p) (f HX) (y_adj p) (f HY)) by (apply lt_false; auto). cbn [bind].
  rewrite I1, I2, I3, I4, I5, I6, J5, J6, J7, J8. cbn [unwrap bind]. eexists; eexists. split; [reflexivity |]. cbn [io_liq io_x io_y io_fx io_fy io_hx io_hy]. csplit; auto.
Qed.

(** Numbers fit: liquidity at the two ticks and in range, and the reserves, after the deposit. *)
Definition room (p : pool) (lo up : Z) (l xi yi : decimal) : Prop :=
  (gross_at p lo + num l < max12 /\ gross_at p up + num l < max12 /\ ((lo <= glbl_tick p < up)%Z -> num (glbl_liq p) + num l < max12) /\
   num (rx p) + num xi < max12 /\ num (ry p) + num yi < max12)%Q.
Lemma sum_lt : forall a b q r, (q == inject_Z a * ulp12)%Q -> (r == inject_Z b * ulp12)%Q -> (q + r < max12)%Q -> a + b < 2 ^ 128.
Proof. intros a b q r H1 H2 H. apply (proj1 (uq_lt _ _)). rewrite inject_Z_plus. unfold max12 in H. lra. Qed.
Lemma fees_payable : forall orc p user lo up, reachable orc p ->
  (forall k, 0 <= inside p lo up k /\ paid_up p (user, lo, up) k <= inside p lo up k /\ due p (user, lo, up) k < max12 * ulp12 /\ due p (user, lo, up) k <= pot_q p k)%Q ->
  exists nf : fkind -> decimal, forall k, (fee_rng p lo up k = Ok (nf k) /\ paid_to p (user, lo, up) k <= mant (nf k) /\ held p (user, lo, up) * (mant (nf k) - paid_to p (user, lo, up) k) < 2 ^ 128 /\ owed p (user, lo, up) nf k <= pot p k) /\
    (inject_Z (owed p (user, lo, up) nf k) * ulp12 <= due p (user, lo, up) k)%Q.
Proof.
  intros orc p user lo up R F. pose proof (reachable_nn _ _ R) as (W & _). pose proof (reachable_all12 _ _ R) as A12. pose proof A12 as ((Lg & _) & _ & _ & O1 & O2 & O3 & O4 & O5 & O6).
  assert (NF : exists nf : fkind -> decimal, forall k, fee_rng p lo up k = Ok (nf k)).
  { destruct (fee_rng_Ok _ p lo up FX R (proj1 (F FX))) as (f1 & E1). destruct (fee_rng_Ok _ p lo up FY R (proj1 (F FY))) as (f2 & E2). destruct (fee_rng_Ok _ p lo up HX R (proj1 (F HX))) as (f3 & E3). destruct (fee_rng_Ok _ p lo up HY R (proj1 (F HY))) as (f4 & E4).
    exists (fun k => match k with FX => f1 | FY => f2 | HX => f3 | HY => f4 end). intros k. destruct k; auto. }
  destruct NF as (nf & NF). exists nf.
  assert (Iq : forall k, (inside p lo up k == inject_Z (mant (nf k)) * ulp12)%Q). { intros k. rewrite <- (fee_rng_inside _ _ _ _ _ (NF k)). apply num12. apply (fee_rng_12 _ _ _ _ _ (NF k) W A12). }
  assert (U0 : (0 < ulp12)%Q) by reflexivity.
  intros k. destruct (F k) as (_ & F2 & F3 & F4). rewrite (paid_q _ _ _ _ R), Iq in F2. apply (proj1 (q_of_m _ _)) in F2.
  set (n := held p (user, lo, up) * (mant (nf k) - paid_to p (user, lo, up) k)).
  assert (E : (due p (user, lo, up) k == inject_Z n * ulp12 * ulp12)%Q).
  { unfold due, n, Zminus. rewrite (held_q _ _ _ R), (paid_q _ _ _ _ R), Iq, inject_Z_mult, inject_Z_plus, inject_Z_opp. ring. }
  assert (X : (inject_Z (owed p (user, lo, up) nf k) * ulp12 <= due p (user, lo, up) k)%Q) by (rewrite E; unfold owed; fold n; apply Qmult_le_compat_r; [apply floor_div | lra]).
  split; [| exact X]. csplit; auto.
  - rewrite E in F3. unfold max12 in F3. apply Qmult_lt_r in F3; [| auto]. apply (proj1 (uq_lt _ _)) in F3. exact F3.
  - apply (proj1 (q_of_m _ _)). apply Qle_trans with (1 := X). apply Qle_trans with (1 := F4). unfold pot_q, pot. destruct k; rewrite num12 by (apply O5 || apply O6 || apply O3 || apply O4); apply Qle_refl.
Qed.

Theorem deposit_completes : forall orc p user x y rpa rpb lo up l xi yi, reachable orc p -> nonneg rpa -> nonneg rpb -> range_of p rpa rpb lo up ->
  nonneg x -> nonneg y -> dscale x = 12 -> dscale y = 12 -> quoted p x y lo up l xi yi -> room p lo up l xi yi ->
  (forall k, 0 <= inside p lo up k /\ paid_up p (user, lo, up) k <= inside p lo up k /\ due p (user, lo, up) k < max12 * ulp12 /\ due p (user, lo, up) k <= pot_q p k)%Q ->
  (num x + due p (user, lo, up) FX + due p (user, lo, up) HX < max12 /\ num y + due p (user, lo, up) FY + due p (user, lo, up) HY < max12)%Q ->
  exists p' o, deposit p user x y rpa rpb = Ok (p', o) /\ io_liq o = l /\ io_x o = xi /\ io_y o = yi.
Proof.
  intros orc p user x y rpa rpb lo up l xi yi R Na Nb RG Nx Ny Sx Sy Q (M1 & M2 & M3 & M4 & M5) F [B1 B2].
  pose proof (reachable_all12 _ _ R) as ((Lg & _) & _ & _ & O1 & O2 & O3 & O4 & O5 & O6). destruct (fees_payable _ _ _ _ _ R F) as (nf & NF).
  assert (Sc : dscale l = 12 /\ dscale xi = 12 /\ dscale yi = 12 /\ 0 <= mant xi /\ 0 <= mant yi).
  { destruct Q as (a & b & Ea & Eb & El & Ex & Ey & _). destruct (range_prices _ _ _ _ _ _ _ _ R RG Ea Eb) as (P1 & _ & _ & _ & P5 & P6 & P7 & P8 & _). destruct (liq_nn12 _ _ _ _ _ _ Nx Ny P1 P5 P8 Sx Sy El) as [_ Sl].
    assert (Ra : (1 <= num a)%Q) by (rewrite (num12 _ P6), (nn_mant _ P5); unfold Qle, ulp12, inject_Z; cbn [Qnum Qden Qmult]; unfold SC in P7; lia).
    assert (Nxi : 0 <= mant xi) by (destruct (x_needed _ _ _ _ _ _ _ Nx Ny P1 P5 P8 Ra El Ex) as [X _]; rewrite (nn_mant _ X); apply wf_nn; apply X).
    assert (Nyi : 0 <= mant yi) by (destruct (y_needed _ _ _ _ _ _ _ Nx Ny P1 P5 P8 El Ey) as [X _]; rewrite (nn_mant _ X); apply wf_nn; apply X).
    split; auto. split; [rewrite (proj1 (x_from_scale _ _ _ _ _ Ex)); auto |]. split; [rewrite (proj1 (y_from_scale _ _ _ _ _ Ey)); auto | auto]. }
  destruct Sc as (Sl & Sxi & Syi & Nxi & Nyi). destruct (tick_sums _ _ R lo) as [S1 _]. destruct (tick_sums _ _ R up) as [S2 _]. destruct (tgross_q _ p lo R) as [G1 _]. destruct (tgross_q _ p up R) as [G2 _]. rewrite S1 in G1. rewrite S2 in G2.
  assert (T1 : tgross p lo + mant l < 2 ^ 128) by exact (sum_lt _ _ _ _ G1 (num12 _ Sl) M1). assert (T2 : tgross p up + mant l < 2 ^ 128) by exact (sum_lt _ _ _ _ G2 (num12 _ Sl) M2).
  assert (T3 : lo <= glbl_tick p < up -> mant (glbl_liq p) + mant l < 2 ^ 128) by (intros I; exact (sum_lt _ _ _ _ (num12 _ (proj1 Lg)) (num12 _ Sl) (M3 I))).
  assert (T4 : mant (rx p) + mant xi < 2 ^ 128) by exact (sum_lt _ _ _ _ (num12 _ (proj1 O1)) (num12 _ Sxi) M4). assert (T5 : mant (ry p) + mant yi < 2 ^ 128) by exact (sum_lt _ _ _ _ (num12 _ (proj1 O2)) (num12 _ Syi) M5).
  pose proof (proj2 (NF FX)) as X1. pose proof (proj2 (NF FY)) as X2. pose proof (proj2 (NF HX)) as X3. pose proof (proj2 (NF HY)) as X4. pose proof (num12 _ Sx) as X5. pose proof (num12 _ Sy) as X6. unfold max12 in B1, B2.
  destruct (deposit_Ok orc p user x y rpa rpb lo up l xi yi nf R Na Nb RG Nx Ny Sx Sy Q T1 T2 T3 (fun k => proj1 (NF k)) T4 T5) as (p' & o & D & D1 & D2 & D3 & _); [| | eauto 10].
  - apply Z.le_lt_trans with (mant x + owed p (user, lo, up) nf FX + owed p (user, lo, up) nf HX); [lia |]. apply (proj1 (uq_lt _ _)); rewrite !inject_Z_plus; lra.
  - apply Z.le_lt_trans with (mant y + owed p (user, lo, up) nf FY + owed p (user, lo, up) nf HY); [lia |]. apply (proj1 (uq_lt _ _)); rewrite !inject_Z_plus; lra.
Qed.

(** For a position not held yet, a quoted deposit is refused exactly if some growth inside the range comes out negative. *)
Theorem deposit_new : forall orc p user x y rpa rpb lo up l xi yi, reachable orc p -> nonneg rpa -> nonneg rpb -> range_of p rpa rpb lo up ->
  nonneg x -> nonneg y -> dscale x = 12 -> dscale y = 12 -> quoted p x y lo up l xi yi -> room p lo up l xi yi -> pm_get (user, lo, up) (positions p) = None ->
  ((exists p' o, deposit p user x y rpa rpb = Ok (p', o)) <-> (forall k, 0 <= inside p lo up k)%Q).
Proof.
  intros orc p user x y rpa rpb lo up l xi yi R Na Nb RG Nx Ny Sx Sy Q M E. pose proof (reachable_nn _ _ R) as (W & Fn & _). split.
  - intros (p' & o & D). destruct (deposit_inv _ _ _ _ _ _ _ _ D) as (lo1 & up1 & a1 & b1 & p1 & nx & ny & nxf & nxa & nyf & nya & D1 & D2 & _ & _ & _ & _ & _ & _ & _ & _ & _ & D12 & _).
    pose proof RG as (RG1 & RG2 & _). assert (lo1 = lo) by congruence. subst lo1. assert (up1 = up) by congruence. subst up1.
    apply set_position_inv in D12. destruct D12 as (g1 & g2 & g3 & g4 & _ & _ & _ & _ & _ & _ & _ & _ & _ & E1 & E2 & E3 & E4 & _). intros k. destruct k; eapply fee_rng_fails; eauto.
  - intros I. assert (Z : forall k, (due p (user, lo, up) k == 0)%Q) by (intros k; unfold due, liq_of; rewrite E; lra).
    assert (Pt : forall k, (0 <= pot_q p k)%Q) by (destruct Fn as (F1 & F2 & F3 & F4 & F5 & F6); intros k; unfold pot_q; destruct k; auto).
    assert (Bd : forall d, wf d -> dscale d = 12 -> (num d < max12)%Q) by (intros d Wd Sd; rewrite (num12 _ Sd); unfold max12; apply (proj2 (uq_lt _ _)); pose proof (mant_bound _ Wd); unfold U128 in *; lia).
    destruct (deposit_completes orc p user x y rpa rpb lo up l xi yi R Na Nb RG Nx Ny Sx Sy Q M) as (p' & o & D & _); [| | eauto].
    + intros k. rewrite !Z. split; [apply I |]. split; [unfold paid_up; rewrite E; apply I |]. split; [reflexivity | apply Pt].
    + pose proof (Z FX). pose proof (Z FY). pose proof (Z HX). pose proof (Z HY). pose proof (Bd x (proj1 Nx) Sx). pose proof (Bd y (proj1 Ny) Sy). lra.
Qed.
