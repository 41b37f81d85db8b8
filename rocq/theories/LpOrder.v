(** The order of deposits by different providers (C96). *)
From Coq Require Import ZArith QArith List Bool Lia Lqa String Sorted.
From Verif Require Import Base BaseLemmas DecimalModel DecimalSpec DecimalProofs PowProofs WfProofs MathModel MathProofs TickProofs PoolModel PoolWf LpProofs SwapLoop SwapProofs PoolInv PoolNonneg PoolLp PoolFees PoolRange ChainLemmas PoolGain PoolScale PoolExit PoolEnter WdSplit.
Import ListNotations.
Open Scope Z_scope.

Lemma deposit_rest : forall p user x y rpa rpb p' o, deposit p user x y rpa rpb = Ok (p', o) -> exists w1 w2, d_sub x (io_netx o) = Ok w1 /\ d_sub y (io_nety o) = Ok w2.
Proof.
  intros p user x y rpa rpb p' o H. unfold deposit in H. bd H u1 A1. bd H u2 A2. bd H u3 A3. bd H u4 A4. bd H lower E1. bd H upper E2. bd H u5 E3. bd H a E4. bd H b E5. bd H liq E6.
  destruct (is_negative liq) eqn:N; [discriminate |]. bd H xi E7. bd H gx E8. destruct gx; [discriminate |]. bd H yi E9. bd H gy E10. destruct gy; [discriminate |].
  bd H r E11. destruct r as [p1 [[[fx fy] hx] hy]]. bd H xd0 F1. bd H xd F2. bd H yd0 F3. bd H yd F4. bd H b1 F5. destruct b1; [discriminate |]. bd H b2 F6. destruct b2; [discriminate |].
  bd H nx G1. bd H ny G2. bd H nxf G3. bd H nxa G4. bd H nyf G5. bd H nya G6. bd H w1 G7. bd H w2 G8. bd H w3 G9. bd H w4 G10. injection H as <- <-. cbn [io_netx io_nety]. eauto.
Qed.
Lemma q_eq_m : forall a b, (inject_Z a * ulp12 == inject_Z b * ulp12)%Q -> a = b.
Proof. intros a b H. assert (L1 : (inject_Z a * ulp12 <= inject_Z b * ulp12)%Q) by (rewrite H; apply Qle_refl). assert (L2 : (inject_Z b * ulp12 <= inject_Z a * ulp12)%Q) by (rewrite H; apply Qle_refl). apply (proj1 (q_of_m _ _)) in L1, L2. lia. Qed.
Definition b2z (b : bool) : Z := if b then 1 else 0.
Lemma is_b_z : forall b, (is_b b == inject_Z (b2z b))%Q. Proof. intros []; reflexivity. Qed.

(** What a completed deposit tells about the pool before and after. *)
Record dep_fact (orc : log2_oracle) (p : pool) (user : string) (x y : decimal) (lo up : Z) (q : pool) (o : lp_out) (nf : fkind -> decimal) : Prop := mkDF {
  df_reach : reachable orc q;
  df_quote : quoted p x y lo up (io_liq o) (io_x o) (io_y o);
  df_scales : dscale (io_liq o) = 12 /\ dscale (io_x o) = 12 /\ dscale (io_y o) = 12;
  df_pos : 0 <= mant (io_liq o) /\ 0 <= mant (io_x o) /\ 0 <= mant (io_y o);
  df_fees : forall kk, fee_rng p lo up kk = Ok (nf kk) /\ paid_to p (user, lo, up) kk <= mant (nf kk) /\ held p (user, lo, up) * (mant (nf kk) - paid_to p (user, lo, up) kk) < 2 ^ 128 /\
    0 <= owed p (user, lo, up) nf kk <= pot p kk /\ mant (out_fee o kk) = owed p (user, lo, up) nf kk /\ dscale (out_fee o kk) = 12 /\ pot q kk = pot p kk - owed p (user, lo, up) nf kk;
  df_rx : mant (rx q) = mant (rx p) + mant (io_x o); df_ry : mant (ry q) = mant (ry p) + mant (io_y o);
  df_bx : mant x - mant (io_x o) + owed p (user, lo, up) nf FX + owed p (user, lo, up) nf HX < 2 ^ 128;
  df_by : mant y - mant (io_y o) + owed p (user, lo, up) nf FY + owed p (user, lo, up) nf HY < 2 ^ 128;
  df_gross : forall t, tgross q t = tgross p t + (b2z (lo =? t) + b2z (up =? t)) * mant (io_liq o);
  df_net : forall t, tnet q t = tnet p t + (b2z (lo =? t) - b2z (up =? t)) * mant (io_liq o);
  df_liq : mant (glbl_liq q) = mant (glbl_liq p) + b2z ((lo <=? glbl_tick p) && (glbl_tick p <? up)) * mant (io_liq o);
  df_same : glbl_rp q = glbl_rp p /\ glbl_tick q = glbl_tick p /\ spacing q = spacing p /\ (forall kk, g_fee (gs q) kk = g_fee (gs p) kk) /\ hmm_c q = hmm_c p /\ fee_rate q = fee_rate p;
  df_above : forall t kk, (above q t kk == above p t kk)%Q;
  df_other : forall k, k <> (user, lo, up) -> pm_get k (positions q) = pm_get k (positions p);
  df_own : match pm_get (user, lo, up) (positions p) with
    | None => pm_get (user, lo, up) (positions q) = Some (mkP (io_liq o) zero12 zero12 zero12 zero12)
    | Some r => exists nl, d_add (p_liq r) (io_liq o) = Ok nl /\ pm_get (user, lo, up) (positions q) = if is_zero nl then None else Some (mkP nl (nf FX) (nf FY) (nf HX) (nf HY))
    end;
  df_net_out : mant (io_netx o) = mant (io_x o) - mant (io_fx o) - mant (io_hx o) /\ mant (io_nety o) = mant (io_y o) - mant (io_fy o) - mant (io_hy o) /\ dscale (io_netx o) = 12 /\ dscale (io_nety o) = 12
}.
Lemma dep_facts : forall orc p user x y rpa rpb lo up q o, reachable orc p -> nonneg x -> nonneg y -> wf rpa -> wf rpb -> range_of p rpa rpb lo up ->
  dscale x = 12 -> dscale y = 12 -> deposit p user x y rpa rpb = Ok (q, o) -> exists nf, dep_fact orc p user x y lo up q o nf.
Proof.
  intros orc p user x y rpa rpb lo up q o R Nx Ny Wa Wb RG Sx Sy H. set (k := (user, lo, up)).
  pose proof (reachable_nn _ _ R) as N. pose proof (proj1 N) as W. destruct (reachable_12 _ _ R) as (T1 & T2 & _). pose proof (reachable_all12 _ _ R) as A12. pose proof A12 as ((Lg & _) & _ & PS & O1 & O2 & O3 & O4 & O5 & O6). pose proof W as (_ & (Wg & _) & _ & (ND & PW) & (U1 & U2 & U3 & U4 & U5 & U6) & _).
  pose proof Nx as [Wx Dx]. pose proof Ny as [Wy Dy].
  pose proof (reachable_ticks _ _ R) as I. pose proof (deposit_ticks _ _ _ _ _ _ _ _ H I Wx Wy Wa Wb) as I'.
  destruct (deposit_wf _ _ _ _ _ _ _ _ H W Wx Wy Wa Wb) as [W' (V1 & V2 & V3 & V4 & V5 & V6 & V7 & V8 & V9)].
  destruct (deposit_nn _ _ _ _ _ _ _ _ H N Wx Wy Wa Wb) as (N' & _ & X0 & X1 & X2 & X3 & X4 & X5 & X6). apply nn_m in X0, X1, X2, X3, X4, X5, X6; auto.
  destruct (deposit_rest _ _ _ _ _ _ _ _ H) as (w1 & w2 & Ew1 & Ew2).
  destruct (deposit_inv _ _ _ _ _ _ _ _ H) as (lo' & up' & a & b & p1 & nx & ny & nxf & nxa & nyf & nya & D1 & D2 & D3 & D4 & D5 & D6 & D7 & D8 & D9 & D10 & D11 & D12 & (xd & yd & F1 & F2 & F3 & F4) & (L3 & L4 & L5 & L6) & D18 & D19 & D20 & D21 & D22 & D23 & _ & _ & Eq).
  pose proof RG as (G1 & G2 & G3 & _). rewrite G1 in D1. injection D1 as <-. rewrite G2 in D2. injection D2 as <-.
  apply set_position_inv in D12. destruct (set_pos_same _ _ _ _ _ _ _ D12) as (E0 & E00 & E1 & E01 & E2 & E3 & E4 & E5 & E6 & E7). pose proof D12 as D12'.
  destruct (range_prices _ _ _ _ _ _ _ _ R RG D4 D5) as (P1 & P2 & P3 & P4 & P5 & P6 & P7 & P8 & P9 & P10 & P11 & P12).
  destruct (liq_nn12 _ _ _ _ _ _ Nx Ny P1 P5 P8 Sx Sy D6) as [Nl Sl].
  pose proof (x_from_scale _ _ _ _ _ D8) as [Sxi _]. pose proof (y_from_scale _ _ _ _ _ D10) as [Syi _]. rewrite Sl in Sxi, Syi.
  rewrite E2, E3, E4, E5, E6, E7 in *.
  pose proof (add_m _ _ _ D18) as (M1 & M2 & M3). pose proof (add_m _ _ _ D19) as (M4 & M5 & M6).
  destruct (deposit_exact _ _ _ _ _ _ _ _ _ R Wx Wy Wa Wb H) as (lo2 & up2 & (K1 & K2 & _) & _ & (K4 & KO & KT & K5 & K6 & K7 & K8) & _ & KX & _). rewrite G1 in K1. injection K1 as <-. rewrite G2 in K2. injection K2 as <-. fold k in K4, KO.
  assert (R' : reachable orc q) by (eapply r_call with (c := CDeposit user x y rpa rpb); [exact R | cbn; auto | cbn; rewrite H; reflexivity]).
  pose proof (reachable_all12 _ _ R') as ((Lg' & _) & _). pose proof W' as (_ & (Wg' & _) & _).
  pose proof D12 as (nfx & nfy & nhx & nhy & pos' & base & ofx & ofy & ohx & ohy & m1 & m2 & L & R1 & R2 & R3 & R4 & PU & (Y1 & Y2 & Y3 & Y4) & TU1 & TU2 & GL & Ep1).
  pose proof (pos_upd_own _ _ _ _ _ _ _ PU ND) as PO. fold k in PU, PO.
  set (nf := fun kk => match kk with FX => nfx | FY => nfy | HX => nhx | HY => nhy end). set (old := fun kk => match kk with FX => ofx | FY => ofy | HX => ohx | HY => ohy end).
  assert (BO : held p k = mant base /\ wf base /\ dscale base = 12 /\ 0 <= mant base /\ forall kk, paid_to p k kk = mant (old kk) /\ wf (old kk)).
  { unfold pos_upd in PU. unfold held, paid_to. destruct (pm_get k (positions p)) as [pq |] eqn:Hq.
    - destruct PU as (_ & _ & _ & _ & _ & -> & Eo). injection Eo as -> -> -> ->. destruct (pos_nn _ _ _ _ R (pm_get_in _ _ _ Hq)) as (_ & B1 & B2 & B3). pose proof (PW _ _ (pm_get_in _ _ _ Hq)) as (_ & Wf1 & Wf2 & Wf3 & Wf4).
      csplit; auto. intros kk. unfold old. destruct kk; auto.
    - destruct PU as (_ & _ & -> & Eo). injection Eo as -> -> -> ->. assert (Wz : wf zero12) by (split; cbn; lia). csplit; auto; try reflexivity; try (cbn; lia). intros kk. unfold old. destruct kk; auto. }
  destruct BO as (BO1 & BO2 & BO3 & BO4 & BO5).
  assert (FR : forall kk, fee_rng p lo up kk = Ok (nf kk)) by (intros kk; destruct kk; assumption).
  assert (FO : forall kk, fee_owed base (nf kk) (old kk) (out_fee o kk)) by (intros kk; destruct kk; assumption).
  assert (Woo : forall kk, wf (out_fee o kk) /\ 0 <= mant (out_fee o kk)) by (intros kk; destruct kk; split; assumption).
  assert (Wnf : forall kk, wf (nf kk) /\ dscale (nf kk) = 12) by (intros kk; split; [exact (fee_rng_wf _ _ _ _ _ (FR kk) W) | apply (fee_rng_12 _ _ _ _ _ (FR kk) W A12)]).
  assert (OW : forall kk, paid_to p k kk <= mant (nf kk) /\ held p k * (mant (nf kk) - paid_to p k kk) < 2 ^ 128 /\ mant (out_fee o kk) = owed p k nf kk /\ dscale (out_fee o kk) = 12).
  { intros kk. destruct (FO kk) as (u & Fu1 & Fu2 & Fu3). destruct (Wnf kk) as [Wn1 Sn1]. destruct (BO5 kk) as [Pd Wo]. pose proof (sub_wf _ _ _ Fu1 Wn1 Wo) as Wu. pose proof (sub_m _ _ _ Fu1) as (Mu & Su & _).
    assert (Pu : 0 <= mant u) by (apply is_neg_f; [apply wf_nn; exact Wu | exact Fu2]). destruct (mul_val _ _ _ Fu3 BO2 Wu ltac:(congruence) BO4 Pu) as (J1 & J2 & J3).
    rewrite Pd, BO1. rewrite (abs_val _ BO2 BO4), (abs_val _ Wu Pu) in J3. unfold owed. rewrite Pd, BO1, <- Mu. unfold U128 in J3. csplit; [lia | exact J3 | exact J1 | congruence]. }
  destruct O3 as [O3 O3'], O4 as [O4 O4'], O5 as [O5 O5'], O6 as [O6 O6'].
  destruct (OW FX) as (_ & _ & OX & Sa). destruct (OW FY) as (_ & _ & OY & Sb). destruct (OW HX) as (_ & _ & HXo & Sc). destruct (OW HY) as (_ & _ & HYo & Sd). cbn [out_fee] in OX, OY, HXo, HYo, Sa, Sb, Sc, Sd.
  assert (PT : forall kk, 0 <= owed p k nf kk <= pot p kk /\ pot q kk = pot p kk - owed p k nf kk).
  { destruct N as (_ & (N1 & N2 & N3 & N4 & N5 & N6) & _). apply nn_m in N3, N4, N5, N6; auto.
    intros kk. destruct (OW kk) as (_ & _ & <- & _). destruct (Woo kk) as [_ Pw]. destruct kk; cbn [pot out_fee] in *.
    - split; [split; [exact Pw | exact (sub_le_of_lt _ _ L3 U5 V4 (eq_trans O5 (eq_sym Sa)) N5 Pw O5')] |]. rewrite Eq. cbn [x_fee with_funds]. apply (sub_m _ _ _ D20).
    - split; [split; [exact Pw | exact (sub_le_of_lt _ _ L4 U6 V5 (eq_trans O6 (eq_sym Sb)) N6 Pw O6')] |]. rewrite Eq. cbn [y_fee with_funds]. apply (sub_m _ _ _ D22).
    - split; [split; [exact Pw | exact (sub_le_of_lt _ _ L5 U3 V6 (eq_trans O3 (eq_sym Sc)) N3 Pw O3')] |]. rewrite Eq. cbn [x_adj with_funds]. apply (sub_m _ _ _ D21).
    - split; [split; [exact Pw | exact (sub_le_of_lt _ _ L6 U4 V7 (eq_trans O4 (eq_sym Sd)) N4 Pw O4')] |]. rewrite Eq. cbn [y_adj with_funds]. apply (sub_m _ _ _ D23). }
  exists nf. pose proof (sub_m _ _ _ F1) as (Z1 & Z1s & _). pose proof (sub_m _ _ _ F2) as (Z2 & Z2s & _). pose proof (sub_m _ _ _ F3) as (Z3 & Z3s & _). pose proof (sub_m _ _ _ F4) as (Z4 & Z4s & _). pose proof (sub_m _ _ _ Ew1) as (Z5 & _). pose proof (sub_m _ _ _ Ew2) as (Z6 & _).
  pose proof (sub_wf _ _ _ Ew1 Wx V8) as Ww1. pose proof (sub_wf _ _ _ Ew2 Wy V9) as Ww2. apply mant_bound in Ww1, Ww2. unfold U128 in Ww1, Ww2.
  assert (GT : forall t, tgross q t = tgross p t + (b2z (lo =? t) + b2z (up =? t)) * mant (io_liq o)).
  { intros t. destruct (KT t) as [J _]. rewrite (proj1 (tgross_q _ _ t R)), (proj1 (tgross_q _ _ t R')), (num12 _ Sl), !is_b_z in J. apply q_eq_m. rewrite J, inject_Z_plus, inject_Z_mult, inject_Z_plus. ring. }
  constructor; fold k.
  - exact R'.
  - exists a, b. csplit; try assumption; apply KX.
  - split; [exact Sl | split; assumption].
  - split; [exact X0 | split; assumption].
  - intros kk. destruct (OW kk) as (J1 & J2 & J3 & J0). destruct (PT kk) as (J4 & J5). csplit; try assumption; try apply FR; try apply J4.
  - rewrite Eq. exact M1.
  - rewrite Eq. exact M4.
  - lia.
  - lia.
  - exact GT.
  - intros t. destruct (KT t) as [_ J]. rewrite (proj2 (tgross_q _ _ t R)), (proj2 (tgross_q _ _ t R')), (num12 _ Sl), !is_b_z in J. apply q_eq_m. unfold Zminus. rewrite J, inject_Z_plus, inject_Z_mult, inject_Z_plus, inject_Z_opp. ring.
  - rewrite (num12 _ (proj1 Lg')), (num12 _ (proj1 Lg)), (num12 _ Sl), is_b_z in K5. apply q_eq_m. change (g_liq (gs p)) with (glbl_liq p) in K5. change (g_liq (gs q)) with (glbl_liq q) in K5. rewrite K5, inject_Z_plus, inject_Z_mult. ring.
  - csplit; [exact K7 | exact K6 | exact K8 | intros kk; rewrite Eq; cbn [gs with_funds]; rewrite Ep1; destruct kk; reflexivity | rewrite Eq; cbn [hmm_c with_funds]; rewrite Ep1; reflexivity | rewrite Eq; cbn [fee_rate with_funds]; rewrite Ep1; reflexivity].
  - intros t kk. assert (Tk : ticks q = ticks p1) by (rewrite Eq; reflexivity). assert (Ab : (above q t kk == above p1 t kk)%Q) by (rewrite Eq; reflexivity). rewrite Ab.
    assert (Cs : t = lo \/ t = up \/ (t <> lo /\ t <> up)) by lia. 
    assert (In : (t = lo \/ t = up) -> (above p1 t kk == above p t kk)%Q).
    { intros Ht. destruct (tm_get t (ticks p1)) as [ts |] eqn:Et.
      - apply (set_pos_above _ _ _ _ _ _ _ t kk D12' W); auto; try lia. congruence.
      - unfold above. rewrite Et. destruct (tm_get t (ticks p)) as [ts |] eqn:Et'; [| reflexivity]. exfalso.
        pose proof (proj2 (proj2 (proj2 (proj2 I))) _ _ (tm_get_in _ _ _ Et')) as Gp. specialize (GT t). unfold tgross in GT. rewrite Tk, Et, Et' in GT. unfold b2z in GT. destruct (lo =? t), (up =? t); lia. }
    destruct Cs as [-> | [-> | [C1 C2]]]; [apply In; auto | apply In; auto |].
    unfold above. rewrite Ep1. cbn [ticks]. rewrite (tick_upd_get _ _ _ _ _ _ t TU2) by lia. rewrite (tick_upd_get _ _ _ _ _ _ t TU1) by lia. reflexivity.
  - exact KO.
  - rewrite Eq. cbn [positions with_funds]. rewrite Ep1. cbn [positions]. destruct (pm_get k (positions p)) as [r |]; [| exact PO]. destruct PO as (nl & J1 & _ & J2). exists nl. auto.
  - csplit; [lia | lia | congruence | congruence].
Qed.

(** A deposit that completes in [p] also completes, with the same outcome, in a pool that looks the same from the position's
    point of view and has room for it. *)
Lemma deposit_elsewhere : forall orc p p' user x y rpa rpb lo up q o nf, reachable orc p -> reachable orc p' -> nonneg x -> nonneg y -> dscale x = 12 -> dscale y = 12 -> nonneg rpa -> nonneg rpb ->
  range_of p rpa rpb lo up -> dep_fact orc p user x y lo up q o nf -> glbl_rp p' = glbl_rp p -> glbl_tick p' = glbl_tick p -> spacing p' = spacing p ->
  (forall t kk, t = lo \/ t = up -> (above p' t kk == above p t kk)%Q) -> pm_get (user, lo, up) (positions p') = pm_get (user, lo, up) (positions p) ->
  tgross p' lo + mant (io_liq o) < 2 ^ 128 -> tgross p' up + mant (io_liq o) < 2 ^ 128 -> (lo <= glbl_tick p < up -> mant (glbl_liq p') + mant (io_liq o) < 2 ^ 128) ->
  (forall kk, owed p (user, lo, up) nf kk <= pot p' kk) -> mant (rx p') + mant (io_x o) < 2 ^ 128 -> mant (ry p') + mant (io_y o) < 2 ^ 128 ->
  exists q' o' nf', deposit p' user x y rpa rpb = Ok (q', o') /\ dep_fact orc p' user x y lo up q' o' nf' /\ io_liq o' = io_liq o /\ io_x o' = io_x o /\ io_y o' = io_y o /\
    (forall kk, mant (out_fee o' kk) = mant (out_fee o kk)) /\ (forall kk, mant (nf' kk) = mant (nf kk)) /\ (forall kk, owed p' (user, lo, up) nf' kk = owed p (user, lo, up) nf kk).
Proof.
  intros orc p p' user x y rpa rpb lo up q o nf R R' Nx Ny Sx Sy Na Nb RG F E1 E2 E3 Ab Po T1 T2 T3 Pt B1 B2. set (k := (user, lo, up)) in *. destruct F as [_ Fq _ _ Ff _ _ Bx By _ _ _ _ _ _ _ _]. fold k in Ff, Bx, By.
  assert (RG' : range_of p' rpa rpb lo up) by (unfold range_of in *; rewrite E3; exact RG).
  assert (Q' : quoted p' x y lo up (io_liq o) (io_x o) (io_y o)) by (unfold quoted in *; rewrite E1; exact Fq).
  assert (NF : exists nf' : fkind -> decimal, forall kk, fee_rng p' lo up kk = Ok (nf' kk)).
  { assert (X : forall kk, exists f, fee_rng p' lo up kk = Ok f). { intros kk. apply (fee_rng_Ok _ _ _ _ _ R'). unfold inside. rewrite !Ab by auto. destruct (Ff kk) as (G & _). exact (fee_rng_nn _ _ _ _ _ _ R G). }
    destruct (X FX) as (f1 & F1). destruct (X FY) as (f2 & F2). destruct (X HX) as (f3 & F3). destruct (X HY) as (f4 & F4). exists (fun k => match k with FX => f1 | FY => f2 | HX => f3 | HY => f4 end). intros kk. destruct kk; assumption. }
  destruct NF as (nf' & NF).
  assert (Same : forall kk, mant (nf' kk) = mant (nf kk)). { intros kk. destruct (Ff kk) as (G & _). apply (mant_eq _ _ _ _ _ _ _ _ R R' G (NF kk)). unfold inside. rewrite !Ab by auto. reflexivity. }
  assert (Hd : held p' k = held p k) by (unfold held; rewrite Po; reflexivity). assert (Pd : forall kk, paid_to p' k kk = paid_to p k kk) by (intros; unfold paid_to; rewrite Po; reflexivity).
  assert (Ow : forall kk, owed p' k nf' kk = owed p k nf kk) by (intros kk; unfold owed; rewrite Hd, Pd, Same; reflexivity).
  destruct (deposit_Ok orc p' user x y rpa rpb lo up (io_liq o) (io_x o) (io_y o) nf' R' Na Nb RG' Nx Ny Sx Sy Q' T1 T2) as (q' & o' & D & D1 & D2 & D3 & D4 & D5 & D6 & D7); try assumption.
  { rewrite E2. exact T3. } { intros kk. fold k. destruct (Ff kk) as (_ & G2 & G3 & _). rewrite Ow, Same, Hd, Pd. csplit; [apply NF | exact G2 | exact G3 | apply Pt]. }
  { fold k. rewrite !Ow. exact Bx. } { fold k. rewrite !Ow. exact By. }
  fold k in D4, D5, D6, D7. destruct (dep_facts _ _ _ _ _ _ _ _ _ _ _ R' Nx Ny (proj1 Na) (proj1 Nb) RG' Sx Sy D) as (nf2 & F2).
  assert (E : forall kk, nf2 kk = nf' kk). { intros kk. destruct F2 as [_ _ _ _ Ff2 _ _ _ _ _ _ _ _ _ _ _ _]. destruct (Ff2 kk) as (G & _). rewrite NF in G. injection G as ->. reflexivity. }
  exists q', o', nf2. split; [exact D |]. split; [exact F2 |]. split; [exact D1 |]. split; [exact D2 |]. split; [exact D3 |].
  split. { intros kk. destruct (Ff kk) as (_ & _ & _ & _ & G & _). rewrite G, <- Ow. destruct kk; assumption. }
  split. { intros kk. rewrite E. apply Same. } { intros kk. rewrite <- Ow. unfold owed. rewrite E. reflexivity. }
Qed.

(** Two outcomes show the same figures. *)
Definition same_out (o o' : lp_out) : Prop :=
  (num (io_liq o) == num (io_liq o') /\ num (io_x o) == num (io_x o') /\ num (io_y o) == num (io_y o') /\ (forall k, num (out_fee o k) == num (out_fee o' k)) /\
   num (io_netx o) == num (io_netx o') /\ num (io_nety o) == num (io_nety o'))%Q.
(** Two pools agree in everything they record. *)
Definition same_pool (p q : pool) : Prop :=
  spacing p = spacing q /\ hmm_c p = hmm_c q /\ fee_rate p = fee_rate q /\ glbl_tick p = glbl_tick q /\
  (num (glbl_rp p) == num (glbl_rp q) /\ num (glbl_liq p) == num (glbl_liq q) /\ (forall k, num (g_fee (gs p) k) == num (g_fee (gs q) k)) /\
   num (rx p) == num (rx q) /\ num (ry p) == num (ry q) /\ num (x_fee p) == num (x_fee q) /\ num (y_fee p) == num (y_fee q) /\ num (x_adj p) == num (x_adj q) /\ num (y_adj p) == num (y_adj q) /\
   (forall t, tick_gross p t == tick_gross q t /\ tick_net p t == tick_net q t /\ forall k, above p t k == above q t k) /\
   (forall key, liq_of p key == liq_of q key /\ forall k, paid_up p key k == paid_up q key k))%Q.

Lemma tgross_lt : forall orc p t, reachable orc p -> tgross p t < 2 ^ 128.
Proof. intros orc p t R. unfold tgross. destruct (tm_get t (ticks p)) as [ts |] eqn:E; [| reflexivity]. apply tm_get_in in E. pose proof (proj1 (reachable_nn _ _ R)) as (_ & _ & (_ & Wt) & _). apply Wt in E. destruct E as (_ & (_ & E & _)). apply mant_bound in E. unfold U128 in E. lia. Qed.

Lemma m_num : forall a b, dscale a = 12 -> dscale b = 12 -> mant a = mant b -> (num a == num b)%Q.
Proof. intros a b Sa Sb E. rewrite (num12 _ Sa), (num12 _ Sb), E. reflexivity. Qed.
Lemma pkey_dec : forall a b : pkey, {a = b} + {a <> b}.
Proof. intros a b. destruct (pkey_eqb a b) eqn:E; [left; apply pkey_eqb_eq; exact E | right; intros X; apply pkey_eqb_eq in X; congruence]. Qed.

Lemma out_same : forall orc p u x y lo up q o nf p' q' o' nf', dep_fact orc p u x y lo up q o nf -> dep_fact orc p' u x y lo up q' o' nf' -> io_liq o' = io_liq o -> io_x o' = io_x o -> io_y o' = io_y o ->
  (forall kk, mant (out_fee o' kk) = mant (out_fee o kk)) -> same_out o o'.
Proof.
  intros orc p u x y lo up q o nf p' q' o' nf' F F' E1 E2 E3 E4. destruct (df_net_out _ _ _ _ _ _ _ _ _ _ F) as (A1 & A2 & A3 & A4). destruct (df_net_out _ _ _ _ _ _ _ _ _ _ F') as (B1 & B2 & B3 & B4).
  pose proof (E4 FX) as H1. pose proof (E4 FY) as H2. pose proof (E4 HX) as H3. pose proof (E4 HY) as H4. cbn [out_fee] in *. rewrite E2 in B1. rewrite E3 in B2.
  split; [rewrite E1; reflexivity |]. split; [rewrite E2; reflexivity |]. split; [rewrite E3; reflexivity |].
  split; [intros k; apply m_num; [apply (df_fees _ _ _ _ _ _ _ _ _ _ F k) | apply (df_fees _ _ _ _ _ _ _ _ _ _ F' k) | symmetry; apply E4] |].
  split; apply m_num; auto; lia.
Qed.
Theorem deposits_commute : forall orc p u1 x1 y1 a1 b1 u2 x2 y2 a2 b2 p1 o1 p12 o2 lo1 up1 lo2 up2, reachable orc p ->
  nonneg x1 -> nonneg y1 -> nonneg x2 -> nonneg y2 -> dscale x1 = 12 -> dscale y1 = 12 -> dscale x2 = 12 -> dscale y2 = 12 -> nonneg a1 -> nonneg b1 -> nonneg a2 -> nonneg b2 ->
  range_of p a1 b1 lo1 up1 -> range_of p a2 b2 lo2 up2 -> (u1, lo1, up1) <> (u2, lo2, up2) ->
  deposit p u1 x1 y1 a1 b1 = Ok (p1, o1) -> deposit p1 u2 x2 y2 a2 b2 = Ok (p12, o2) ->
  exists q2 o2' q21 o1', deposit p u2 x2 y2 a2 b2 = Ok (q2, o2') /\ deposit q2 u1 x1 y1 a1 b1 = Ok (q21, o1') /\ same_out o1 o1' /\ same_out o2 o2' /\ same_pool p12 q21.
Proof.
  intros orc p u1 x1 y1 a1 b1 u2 x2 y2 a2 b2 p1 o1 p12 o2 lo1 up1 lo2 up2 R Nx1 Ny1 Nx2 Ny2 Sx1 Sy1 Sx2 Sy2 Na1 Nb1 Na2 Nb2 RG1 RG2 Ne D1 D2.
  destruct (dep_facts _ _ _ _ _ _ _ _ _ _ _ R Nx1 Ny1 (proj1 Na1) (proj1 Nb1) RG1 Sx1 Sy1 D1) as (nf1 & F1). pose proof (df_reach _ _ _ _ _ _ _ _ _ _ F1) as R1. destruct (df_same _ _ _ _ _ _ _ _ _ _ F1) as (I1 & I2 & I3 & I4 & I5 & I6).
  assert (RG2' : range_of p1 a2 b2 lo2 up2) by (unfold range_of in *; rewrite I3; exact RG2).
  destruct (dep_facts _ _ _ _ _ _ _ _ _ _ _ R1 Nx2 Ny2 (proj1 Na2) (proj1 Nb2) RG2' Sx2 Sy2 D2) as (nf2 & F2). pose proof (df_reach _ _ _ _ _ _ _ _ _ _ F2) as R12. destruct (df_same _ _ _ _ _ _ _ _ _ _ F2) as (J1 & J2 & J3 & J4 & J5 & J6).
  pose proof (df_pos _ _ _ _ _ _ _ _ _ _ F1) as (A1 & A2 & A3). pose proof (df_pos _ _ _ _ _ _ _ _ _ _ F2) as (B1 & B2 & B3).
  pose proof (df_gross _ _ _ _ _ _ _ _ _ _ F1) as G1. pose proof (df_gross _ _ _ _ _ _ _ _ _ _ F2) as G2. pose proof (df_liq _ _ _ _ _ _ _ _ _ _ F1) as L1. pose proof (df_liq _ _ _ _ _ _ _ _ _ _ F2) as L2.
  pose proof (df_rx _ _ _ _ _ _ _ _ _ _ F1) as X1. pose proof (df_rx _ _ _ _ _ _ _ _ _ _ F2) as X2. pose proof (df_ry _ _ _ _ _ _ _ _ _ _ F1) as Y1. pose proof (df_ry _ _ _ _ _ _ _ _ _ _ F2) as Y2.
  pose proof (df_above _ _ _ _ _ _ _ _ _ _ F1) as V1. pose proof (df_above _ _ _ _ _ _ _ _ _ _ F2) as V2. pose proof (df_other _ _ _ _ _ _ _ _ _ _ F1) as P1. pose proof (df_other _ _ _ _ _ _ _ _ _ _ F2) as P2.
  pose proof (df_fees _ _ _ _ _ _ _ _ _ _ F1) as E1. pose proof (df_fees _ _ _ _ _ _ _ _ _ _ F2) as E2.
  assert (B2z : forall b, 0 <= b2z b) by (intros []; cbn; lia).
  pose proof (proj1 (reachable_nn _ _ R12)) as (_ & (Wg & _) & _ & _ & (Wx & Wy & _) & _). apply mant_bound in Wg, Wx, Wy. unfold U128 in Wg, Wx, Wy. change (g_liq (gs p12)) with (glbl_liq p12) in Wg.
  assert (T : forall t, tgross p12 t < 2 ^ 128) by (intros t; exact (tgross_lt _ _ t R12)).
  assert (G0 : forall t, tgross p1 t >= tgross p t) by (intros t; rewrite (G1 t); pose proof (B2z (lo1 =? t)); pose proof (B2z (up1 =? t)); nia).
  assert (Lge : mant (glbl_liq p1) >= mant (glbl_liq p)) by (rewrite L1; pose proof (B2z ((lo1 <=? glbl_tick p) && (glbl_tick p <? up1))); nia).
  destruct (deposit_elsewhere orc p1 p u2 x2 y2 a2 b2 lo2 up2 p12 o2 nf2 R1 R Nx2 Ny2 Sx2 Sy2 Na2 Nb2 RG2' F2) as (q2 & o2' & nf2' & D3 & F3 & O1 & O2 & O3 & O4 & O5 & O6); auto.
  { intros t kk _. symmetry. apply V1. } { symmetry. apply P1. congruence. }
  { specialize (T lo2). rewrite (G2 lo2), Z.eqb_refl in T. cbn [b2z] in T. pose proof (B2z (up2 =? lo2)). specialize (G0 lo2). nia. }
  { specialize (T up2). rewrite (G2 up2), Z.eqb_refl in T. cbn [b2z] in T. pose proof (B2z (lo2 =? up2)). specialize (G0 up2). nia. }
  { intros [C1 C2]. rewrite L2, (proj2 (Z.leb_le _ _) C1), (proj2 (Z.ltb_lt _ _) C2) in Wg. cbn [andb b2z] in Wg. lia. }
  { intros kk. destruct (E1 kk) as (_ & _ & _ & H1 & _ & _ & H2). destruct (E2 kk) as (_ & _ & _ & H3 & _). lia. }
  { lia. } { lia. }
  pose proof (df_reach _ _ _ _ _ _ _ _ _ _ F3) as R3. destruct (df_same _ _ _ _ _ _ _ _ _ _ F3) as (K1 & K2 & K3 & K4 & K5 & K6).
  pose proof (df_gross _ _ _ _ _ _ _ _ _ _ F3) as G3. pose proof (df_liq _ _ _ _ _ _ _ _ _ _ F3) as L3. pose proof (df_rx _ _ _ _ _ _ _ _ _ _ F3) as X3. pose proof (df_ry _ _ _ _ _ _ _ _ _ _ F3) as Y3. pose proof (df_above _ _ _ _ _ _ _ _ _ _ F3) as V3. pose proof (df_other _ _ _ _ _ _ _ _ _ _ F3) as P3. pose proof (df_fees _ _ _ _ _ _ _ _ _ _ F3) as E3.
  rewrite O1 in G3, L3. rewrite O2 in X3. rewrite O3 in Y3.
  destruct (deposit_elsewhere orc p q2 u1 x1 y1 a1 b1 lo1 up1 p1 o1 nf1 R R3 Nx1 Ny1 Sx1 Sy1 Na1 Nb1 RG1 F1) as (q21 & o1' & nf1' & D4 & F4 & U1 & U2 & U3 & U4 & U5 & U6); auto.
  { specialize (T lo1). rewrite (G2 lo1), (G1 lo1), Z.eqb_refl in T. cbn [b2z] in T. rewrite (G3 lo1). pose proof (B2z (up1 =? lo1)). nia. }
  { specialize (T up1). rewrite (G2 up1), (G1 up1), Z.eqb_refl in T. cbn [b2z] in T. rewrite (G3 up1). pose proof (B2z (lo1 =? up1)). nia. }
  { intros [C1 C2]. rewrite L2, L1, I2, (proj2 (Z.leb_le _ _) C1), (proj2 (Z.ltb_lt _ _) C2) in Wg. cbn [andb b2z] in Wg. rewrite L3. lia. }
  { intros kk. destruct (E1 kk) as (_ & _ & _ & H1 & _ & _ & H2). destruct (E2 kk) as (_ & _ & _ & H3 & _). destruct (E3 kk) as (_ & _ & _ & _ & _ & _ & H4). rewrite O6 in H4. lia. }
  { lia. } { lia. }
  exists q2, o2', q21, o1'. split; [exact D3 |]. split; [exact D4 |].
  split; [exact (out_same _ _ _ _ _ _ _ _ _ _ _ _ _ _ F1 F4 U1 U2 U3 U4) |]. split; [exact (out_same _ _ _ _ _ _ _ _ _ _ _ _ _ _ F2 F3 O1 O2 O3 O4) |].
  pose proof (df_reach _ _ _ _ _ _ _ _ _ _ F4) as R4. destruct (df_same _ _ _ _ _ _ _ _ _ _ F4) as (M1 & M2 & M3 & M4 & M5 & M6).
  pose proof (df_gross _ _ _ _ _ _ _ _ _ _ F4) as G4. pose proof (df_liq _ _ _ _ _ _ _ _ _ _ F4) as L4. pose proof (df_rx _ _ _ _ _ _ _ _ _ _ F4) as X4. pose proof (df_ry _ _ _ _ _ _ _ _ _ _ F4) as Y4. pose proof (df_above _ _ _ _ _ _ _ _ _ _ F4) as V4. pose proof (df_other _ _ _ _ _ _ _ _ _ _ F4) as P4. pose proof (df_fees _ _ _ _ _ _ _ _ _ _ F4) as E4.
  pose proof (df_net _ _ _ _ _ _ _ _ _ _ F1) as H1. pose proof (df_net _ _ _ _ _ _ _ _ _ _ F2) as H2. pose proof (df_net _ _ _ _ _ _ _ _ _ _ F3) as H3. pose proof (df_net _ _ _ _ _ _ _ _ _ _ F4) as H4.
  rewrite O1 in H3. rewrite U1 in H4, G4, L4. rewrite U2 in X4. rewrite U3 in Y4.
  pose proof (reachable_all12 _ _ R12) as ((Q1 & _) & _ & _ & Q2 & Q3 & Q4 & Q5 & Q6 & Q7). pose proof (reachable_all12 _ _ R4) as ((Z1 & _) & _ & _ & Z2 & Z3 & Z4 & Z5 & Z6 & Z7).
  assert (Pots : forall kk, pot p12 kk = pot q21 kk).
  { intros kk. destruct (E1 kk) as (_ & _ & _ & _ & _ & _ & e1). destruct (E2 kk) as (_ & _ & _ & _ & _ & _ & e2). destruct (E3 kk) as (_ & _ & _ & _ & _ & _ & e3). destruct (E4 kk) as (_ & _ & _ & _ & _ & _ & e4). rewrite O6 in e3. rewrite U6 in e4. lia. }
  unfold same_pool. split; [congruence |]. split; [congruence |]. split; [congruence |]. split; [congruence |].
  split; [rewrite J1, I1, M1, K1; reflexivity |].
  split; [apply m_num; [apply Q1 | apply Z1 | change (mant (glbl_liq p12) = mant (glbl_liq q21)); rewrite L2, L1, L4, L3, I2, K2; lia] |].
  split; [intros kk; rewrite J4, I4, M4, K4; reflexivity |].
  split; [apply m_num; [apply Q2 | apply Z2 | lia] |]. split; [apply m_num; [apply Q3 | apply Z3 | lia] |].
  split; [apply m_num; [apply Q6 | apply Z6 | exact (Pots FX)] |]. split; [apply m_num; [apply Q7 | apply Z7 | exact (Pots FY)] |]. split; [apply m_num; [apply Q4 | apply Z4 | exact (Pots HX)] |]. split; [apply m_num; [apply Q5 | apply Z5 | exact (Pots HY)] |].
  split.
  { intros t. rewrite (proj1 (tgross_q _ _ t R12)), (proj1 (tgross_q _ _ t R4)), (proj2 (tgross_q _ _ t R12)), (proj2 (tgross_q _ _ t R4)).
    split; [rewrite (G2 t), (G1 t), (G4 t), (G3 t); assert (E : forall a b c, a + b + c = a + c + b) by (intros; lia); rewrite E; reflexivity |].
    split; [rewrite (H2 t), (H1 t), (H4 t), (H3 t); assert (E : forall a b c, a + b + c = a + c + b) by (intros; lia); rewrite E; reflexivity |].
    intros kk. rewrite (V2 t kk), (V1 t kk), (V4 t kk), (V3 t kk). reflexivity. }
  intros key. rewrite (held_q _ _ key R12), (held_q _ _ key R4).
  assert (S : held p12 key = held q21 key /\ forall kk, paid_to p12 key kk = paid_to q21 key kk).
  { unfold held, paid_to. destruct (pkey_dec key (u1, lo1, up1)) as [-> | C1].
    - rewrite (P2 _ Ne). pose proof (df_own _ _ _ _ _ _ _ _ _ _ F1) as S1. pose proof (df_own _ _ _ _ _ _ _ _ _ _ F4) as S4. rewrite (P3 _ Ne) in S4. rewrite U1 in S4. destruct (pm_get (u1, lo1, up1) (positions p)) as [r |].
      + destruct S1 as (nl & S1 & ->). destruct S4 as (nl' & S4 & ->). rewrite S1 in S4. injection S4 as <-. destruct (is_zero nl); [auto |]. split; [reflexivity |]. intros kk. destruct kk; cbn [p_fee]; symmetry; apply U5.
      + rewrite S1, S4. auto.
    - rewrite (P4 _ C1). destruct (pkey_dec key (u2, lo2, up2)) as [-> | C2].
      + pose proof (df_own _ _ _ _ _ _ _ _ _ _ F2) as S1. pose proof (df_own _ _ _ _ _ _ _ _ _ _ F3) as S4. rewrite (P1 _ C1) in S1. rewrite O1 in S4. destruct (pm_get (u2, lo2, up2) (positions p)) as [r |].
        * destruct S1 as (nl & S1 & ->). destruct S4 as (nl' & S4 & ->). rewrite S1 in S4. injection S4 as <-. destruct (is_zero nl); [auto |]. split; [reflexivity |]. intros kk. destruct kk; cbn [p_fee]; symmetry; apply O5.
        * rewrite S1, S4. auto.
      + rewrite (P2 _ C2), (P1 _ C1), (P3 _ C2). auto. }
  destruct S as [S1 S2]. split; [rewrite S1; reflexivity |]. intros kk. rewrite (paid_q _ _ _ _ R12), (paid_q _ _ _ _ R4), S2. reflexivity.
Qed.
