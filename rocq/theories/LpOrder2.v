(** The order of withdrawals, and of a deposit and a withdrawal (C97, C98). *)
From Coq Require Import ZArith QArith List Bool Lia Lqa String Sorted.
From Verif Require Import Base BaseLemmas DecimalModel DecimalSpec DecimalProofs PowProofs WfProofs MathModel MathProofs TickProofs PoolModel PoolWf LpProofs SwapLoop SwapProofs PoolInv PoolNonneg PoolLp PoolFees PoolRange ChainLemmas PoolGain PoolScale PoolExit PoolEnter WdSplit LpOrder.
Import ListNotations.
Open Scope Z_scope.

(** What a completed withdrawal of a positive amount tells about the pool before and after. *)
Record wd_fact (orc : log2_oracle) (p : pool) (user : string) (l : decimal) (lo up : Z) (q : pool) (o : lp_out) (nf : fkind -> decimal) : Prop := mkWF {
  wf_reach : reachable orc q;
  wf_scales : up < 2 ^ 19 /\ dscale l = 12 /\ dscale (io_x o) = 12 /\ dscale (io_y o) = 12 /\ io_liq o = l;
  wf_held : 0 < mant l <= held p (user, lo, up) /\ (lo <= glbl_tick p < up -> mant l <= mant (glbl_liq p));
  wf_comp : computable p lo up (mant l);
  wf_fees : forall kk, fee_rng p lo up kk = Ok (nf kk) /\ paid_to p (user, lo, up) kk <= mant (nf kk) /\ held p (user, lo, up) * (mant (nf kk) - paid_to p (user, lo, up) kk) < 2 ^ 128 /\
    0 <= owed p (user, lo, up) nf kk <= pot p kk /\ mant (out_fee o kk) = owed p (user, lo, up) nf kk /\ dscale (out_fee o kk) = 12 /\ pot q kk = pot p kk - owed p (user, lo, up) nf kk;
  wf_x : mant (io_x o) = cut (claim_x p (user, lo, up) (mant l)) /\ 0 <= mant (io_x o) <= mant (rx p) /\ mant (rx q) = mant (rx p) - mant (io_x o);
  wf_y : mant (io_y o) = cut (claim_y p (user, lo, up) (mant l)) /\ 0 <= mant (io_y o) <= mant (ry p) /\ mant (ry q) = mant (ry p) - mant (io_y o);
  wf_bx : mant (io_x o) + owed p (user, lo, up) nf FX + owed p (user, lo, up) nf HX < 2 ^ 128;
  wf_by : mant (io_y o) + owed p (user, lo, up) nf FY + owed p (user, lo, up) nf HY < 2 ^ 128;
  wf_gross : forall t, tgross q t = tgross p t - (b2z (lo =? t) + b2z (up =? t)) * mant l;
  wf_net : forall t, tnet q t = tnet p t - (b2z (lo =? t) - b2z (up =? t)) * mant l;
  wf_liq : mant (glbl_liq q) = mant (glbl_liq p) - b2z ((lo <=? glbl_tick p) && (glbl_tick p <? up)) * mant l;
  wf_same : glbl_rp q = glbl_rp p /\ glbl_tick q = glbl_tick p /\ spacing q = spacing p /\ (forall kk, g_fee (gs q) kk = g_fee (gs p) kk) /\ hmm_c q = hmm_c p /\ fee_rate q = fee_rate p;
  wf_above : forall t kk, (above q t kk == if tgross q t =? 0 then 0 else above p t kk)%Q;
  wf_other : forall k, k <> (user, lo, up) -> pm_get k (positions q) = pm_get k (positions p);
  wf_own : exists r nl, pm_get (user, lo, up) (positions p) = Some r /\ d_add (p_liq r) (d_neg l) = Ok nl /\
    pm_get (user, lo, up) (positions q) = if is_zero nl then None else Some (mkP nl (nf FX) (nf FY) (nf HX) (nf HY));
  wf_net_out : mant (io_netx o) = mant (io_x o) + mant (io_fx o) + mant (io_hx o) /\ mant (io_nety o) = mant (io_y o) + mant (io_fy o) + mant (io_hy o) /\ dscale (io_netx o) = 12 /\ dscale (io_nety o) = 12
}.
(** A tick without liquidity is not recorded. *)
Lemma tgross_none : forall orc p t, reachable orc p -> (tgross p t = 0 <-> tm_get t (ticks p) = None).
Proof.
  intros orc p t R. unfold tgross. destruct (tm_get t (ticks p)) as [ts |] eqn:E; [| tauto]. pose proof (proj2 (proj2 (proj2 (proj2 (reachable_ticks _ _ R)))) _ _ (tm_get_in _ _ _ E)). split; [lia | intros X; discriminate X].
Qed.
Lemma wd_all : forall orc p user l rpa rpb lo up q o, reachable orc p -> wf l -> wf rpa -> wf rpb -> range_of p rpa rpb lo up -> 0 < mant l ->
  withdraw p user l rpa rpb = Ok (q, o) -> exists nf, wd_fact orc p user l lo up q o nf.
Proof.
  intros orc p user l rpa rpb lo up q o R Wl Wa Wb RG Pl H. set (k := (user, lo, up)).
  destruct (wd_facts _ _ _ _ _ _ _ _ _ _ R Wl Wa Wb RG Pl H) as (nf & A1 & A2 & A3 & A4 & A5 & A6 & A7 & A8 & A9 & A10 & A11 & A12 & A13 & A14 & A15 & A16 & A17 & A18 & A19 & A20 & A21 & A22 & A23). fold k in A3, A5, A7, A8, A13, A14, A20, A21, A23.
  pose proof (reachable_nn _ _ R) as N. pose proof (proj1 N) as W. pose proof W as (_ & (Wg & _) & _ & (ND & PW) & _).
  destruct (withdraw_wf _ _ _ _ _ _ _ H W Wl Wa Wb) as [W' (V1 & V2 & V3 & V4 & V5 & V6 & V7 & V8 & V9)].
  destruct (withdraw_nn _ _ _ _ _ _ _ H N Wl Wa Wb) as (N' & _ & _ & X1 & X2 & X3 & X4 & X5 & X6). apply nn_m in X1, X2, X3, X4, X5, X6; auto.
  assert (R' : reachable orc q) by (eapply r_call with (c := CWithdraw user l rpa rpb); [exact R | cbn; auto | cbn; rewrite H; reflexivity]).
  destruct (withdraw_exact _ _ _ _ _ _ _ _ R Wl Wa Wb H) as (lo2 & up2 & RG2 & _ & (_ & KO & KT & _ & _ & _ & _) & _). pose proof RG as (G1 & G2 & G3 & _). pose proof RG2 as (K1 & K2 & _). rewrite G1 in K1. injection K1 as <-. rewrite G2 in K2. injection K2 as <-. fold k in KO.
  destruct (withdraw_inv _ _ _ _ _ _ _ H) as (lo' & up' & a & b & p1 & x0 & y0 & nx & ny & nxf & nxa & nyf & nya & D1 & D2 & D3 & _ & _ & _ & D7 & D8 & _ & _ & _ & _ & (xd & yd & F1 & F2 & F3 & F4) & _ & _ & _ & _ & _ & _ & _ & _ & Eq).
  rewrite G1 in D1. injection D1 as <-. rewrite G2 in D2. injection D2 as <-.
  apply set_position_inv in D8. pose proof D8 as D8'. destruct D8 as (nfx & nfy & nhx & nhy & pos' & base & ofx & ofy & ohx & ohy & m1 & m2 & L & R1 & R2 & R3 & R4 & PU & _ & TU1 & TU2 & GL & Ep1).
  assert (Hq : exists pq, pm_get k (positions p) = Some pq). { unfold held in A3. destruct (pm_get k (positions p)) as [pq |]; [eauto | lia]. } destruct Hq as (pq & Hq).
  pose proof (pos_upd_own _ _ _ _ _ _ _ PU ND) as PO. fold k in PO. rewrite Hq in PO. destruct PO as (nl & Z1 & _ & Z2).
  assert (En : nf FX = nfx /\ nf FY = nfy /\ nf HX = nhx /\ nf HY = nhy).
  { destruct (A5 FX) as (e1 & _). destruct (A5 FY) as (e2 & _). destruct (A5 HX) as (e3 & _). destruct (A5 HY) as (e4 & _). rewrite R1 in e1. rewrite R2 in e2. rewrite R3 in e3. rewrite R4 in e4. injection e1 as <-. injection e2 as <-. injection e3 as <-. injection e4 as <-. auto. }
  destruct En as (En1 & En2 & En3 & En4).
  pose proof (add_m _ _ _ F1) as (Z3 & Z3s & _). pose proof (add_m _ _ _ F2) as (Z4 & Z4s & _). pose proof (add_m _ _ _ F3) as (Z5 & Z5s & _). pose proof (add_m _ _ _ F4) as (Z6 & Z6s & _).
  assert (GT : forall t, tgross q t = tgross p t - (b2z (lo =? t) + b2z (up =? t)) * mant l).
  { intros t. destruct (KT t) as [J _]. rewrite (proj1 (tgross_q _ _ t R)), (proj1 (tgross_q _ _ t R')), (num12 _ A2), !is_b_z in J. apply q_eq_m. rewrite J. unfold Zminus. rewrite inject_Z_plus, inject_Z_opp, inject_Z_mult, inject_Z_plus. ring. }
  exists nf. constructor; fold k.
  - exact R'.
  - csplit; assumption.
  - split; [lia | exact A4].
  - exact A6.
  - intros kk. destruct (A5 kk) as (J1 & J2 & J3 & J4 & J5 & J6 & J7). assert (0 <= mant (out_fee o kk)) by (destruct kk; assumption). csplit; try assumption; lia.
  - csplit; try assumption; lia.
  - csplit; try assumption; lia.
  - exact A13.
  - exact A14.
  - exact GT.
  - intros t. destruct (KT t) as [_ J]. rewrite (proj2 (tgross_q _ _ t R)), (proj2 (tgross_q _ _ t R')), (num12 _ A2), !is_b_z in J. apply q_eq_m. rewrite J. unfold Zminus. rewrite inject_Z_plus, inject_Z_opp, inject_Z_mult, inject_Z_plus, inject_Z_opp. ring.
  - rewrite A22. destruct (_ && _); cbn [b2z]; lia.
  - csplit; [exact A17 | exact A18 | exact A19 | intros kk; rewrite Eq; cbn [gs with_funds]; rewrite Ep1; destruct kk; reflexivity | rewrite Eq; cbn [hmm_c with_funds]; rewrite Ep1; reflexivity | rewrite Eq; cbn [fee_rate with_funds]; rewrite Ep1; reflexivity].
  - intros t kk. assert (Tk : ticks q = ticks p1) by (rewrite Eq; reflexivity). assert (Ab : (above q t kk == above p1 t kk)%Q) by (rewrite Eq; reflexivity). rewrite Ab.
    destruct (Z.eqb_spec (tgross q t) 0) as [E | E].
    { apply (tgross_none _ _ t R') in E. rewrite Tk in E. unfold above. rewrite E. reflexivity. }
    assert (Et : tm_get t (ticks p1) <> None) by (intros X; rewrite <- Tk in X; apply (tgross_none _ _ t R') in X; contradiction).
    assert (Cs : t = lo \/ t = up \/ (t <> lo /\ t <> up)) by lia.
    destruct Cs as [Hc | [Hc | [C1 C2]]]; [apply (set_pos_above _ _ _ _ _ _ _ t kk D8' W) | apply (set_pos_above _ _ _ _ _ _ _ t kk D8' W) |]; try assumption; try lia; try (apply neg_wf; exact Wl).
    unfold above. rewrite Ep1. cbn [ticks]. rewrite (tick_upd_get _ _ _ _ _ _ t TU2) by lia. rewrite (tick_upd_get _ _ _ _ _ _ t TU1) by lia. reflexivity.
  - exact KO.
  - exists pq, nl. split; [exact Hq |]. split; [exact Z1 |]. rewrite Eq. cbn [positions with_funds]. rewrite Ep1. cbn [positions]. rewrite En1, En2, En3, En4. exact Z2.
  - csplit; [lia | lia | congruence | congruence].
Qed.
Lemma own_gross : forall orc p u lo up, reachable orc p -> 0 < held p (u, lo, up) -> tgross p lo <> 0 /\ tgross p up <> 0.
Proof.
  intros orc p u lo up R H. assert (Hq : exists pq, pm_get (u, lo, up) (positions p) = Some pq /\ 0 < mant (p_liq pq)). { unfold held in H. destruct (pm_get (u, lo, up) (positions p)) as [pq |]; [eauto | lia]. } destruct Hq as (pq & Hq & Pq).
  pose proof (proj1 (reachable_nn _ _ R)) as (_ & _ & _ & (_ & PW) & _). destruct (pos_nn _ _ _ _ R (pm_get_in _ _ _ Hq)) as (_ & B1 & B2 & B3).
  assert (Pn : (0 < num (p_liq pq))%Q). { rewrite (num12 _ B2). assert (U0 : (0 < ulp12)%Q) by reflexivity. assert (X : (inject_Z 0 < inject_Z (mant (p_liq pq)))%Q) by (rewrite <- Zlt_Qlt; exact Pq). change (inject_Z 0) with 0%Q in X. nra. }
  destruct (own_ticks _ _ _ _ _ (reachable_ticks _ _ R) Hq Pn) as [T3 T4]. split; intros E; apply (tgross_none _ _ _ R) in E; contradiction.
Qed.
Lemma withdraw_elsewhere : forall orc p p' user l rpa rpb lo up q o nf, reachable orc p -> reachable orc p' -> wf l -> wf rpa -> wf rpb ->
  range_of p rpa rpb lo up -> wd_fact orc p user l lo up q o nf -> glbl_rp p' = glbl_rp p -> glbl_tick p' = glbl_tick p -> spacing p' = spacing p ->
  (forall t kk, t = lo \/ t = up -> (above p' t kk == above p t kk)%Q) -> pm_get (user, lo, up) (positions p') = pm_get (user, lo, up) (positions p) ->
  (lo <= glbl_tick p < up -> mant l <= mant (glbl_liq p')) -> (forall kk, owed p (user, lo, up) nf kk <= pot p' kk) -> mant (io_x o) <= mant (rx p') -> mant (io_y o) <= mant (ry p') ->
  exists q' o' nf', withdraw p' user l rpa rpb = Ok (q', o') /\ wd_fact orc p' user l lo up q' o' nf' /\ mant (io_x o') = mant (io_x o) /\ mant (io_y o') = mant (io_y o) /\
    (forall kk, mant (out_fee o' kk) = mant (out_fee o kk)) /\ (forall kk, mant (nf' kk) = mant (nf kk)) /\ (forall kk, owed p' (user, lo, up) nf' kk = owed p (user, lo, up) nf kk).
Proof.
  intros orc p p' user l rpa rpb lo up q o nf R R' Wl Wa Wb RG F E1 E2 E3 Ab Po L1 Pt B1 B2. set (k := (user, lo, up)) in *.
  destruct (wf_scales _ _ _ _ _ _ _ _ _ F) as (Hu & Sl & _ & _ & _). destruct (wf_held _ _ _ _ _ _ _ _ _ F) as ((Pl & Hl) & _). pose proof (wf_comp _ _ _ _ _ _ _ _ _ F) as Cm. pose proof (wf_fees _ _ _ _ _ _ _ _ _ F) as Ff. destruct (wf_x _ _ _ _ _ _ _ _ _ F) as (X1 & X2 & _). destruct (wf_y _ _ _ _ _ _ _ _ _ F) as (Y1 & Y2 & _).
  pose proof (wf_bx _ _ _ _ _ _ _ _ _ F) as Bx. pose proof (wf_by _ _ _ _ _ _ _ _ _ F) as By. fold k in Hl, Ff, X1, Y1, Bx, By.
  assert (RG' : range_of p' rpa rpb lo up) by (unfold range_of in *; rewrite E3; exact RG).
  assert (NF : exists nf' : fkind -> decimal, forall kk, fee_rng p' lo up kk = Ok (nf' kk)).
  { assert (X : forall kk, exists f, fee_rng p' lo up kk = Ok f). { intros kk. apply (fee_rng_Ok _ _ _ _ _ R'). unfold inside. rewrite !Ab by auto. destruct (Ff kk) as (G & _). exact (fee_rng_nn _ _ _ _ _ _ R G). }
    destruct (X FX) as (f1 & F1). destruct (X FY) as (f2 & F2). destruct (X HX) as (f3 & F3). destruct (X HY) as (f4 & F4). exists (fun k => match k with FX => f1 | FY => f2 | HX => f3 | HY => f4 end). intros kk. destruct kk; assumption. }
  destruct NF as (nf' & NF).
  assert (Same : forall kk, mant (nf' kk) = mant (nf kk)). { intros kk. destruct (Ff kk) as (G & _). apply (mant_eq _ _ _ _ _ _ _ _ R R' G (NF kk)). unfold inside. rewrite !Ab by auto. reflexivity. }
  assert (Hd : held p' k = held p k) by (unfold held; rewrite Po; reflexivity). assert (Pd : forall kk, paid_to p' k kk = paid_to p k kk) by (intros; unfold paid_to; rewrite Po; reflexivity).
  assert (Ow : forall kk, owed p' k nf' kk = owed p k nf kk) by (intros kk; unfold owed; rewrite Hd, Pd, Same; reflexivity).
  destruct (pos_shape l Wl Pl) as [Nl Vl]. destruct (keep p p' E1 k (mant l)) as [KX KY]. 
  destruct (withdraw_Ok orc p' user l rpa rpb lo up nf' R' Wa Wb RG' Hu Nl Sl) as (q' & o' & D & D1 & D2 & D4 & D5 & D6 & D7).
  { fold k. rewrite Hd, Vl. exact Hl. } { rewrite E2, Vl. exact L1. }
  { intros kk. fold k. destruct (Ff kk) as (_ & G2 & G3 & _). rewrite Ow, Same, Hd, Pd. csplit; [apply NF | exact G2 | exact G3 | apply Pt]. }
  { rewrite Vl. unfold computable in *. rewrite E1. exact Cm. }
  { fold k. rewrite Vl, KX, <- X1. exact B1. } { fold k. rewrite Vl, KY, <- Y1. exact B2. } { fold k. rewrite Vl, KX, <- X1, !Ow. exact Bx. } { fold k. rewrite Vl, KY, <- Y1, !Ow. exact By. }
  fold k in D1, D2, D4, D5, D6, D7. destruct (wd_all _ _ _ _ _ _ _ _ _ _ R' Wl Wa Wb RG' Pl D) as (nf2 & F2).
  assert (E : forall kk, nf2 kk = nf' kk). { intros kk. destruct (wf_fees _ _ _ _ _ _ _ _ _ F2 kk) as (G & _). rewrite NF in G. injection G as ->. reflexivity. }
  exists q', o', nf2. split; [exact D |]. split; [exact F2 |]. split; [rewrite D1, Vl, KX, X1; reflexivity |]. split; [rewrite D2, Vl, KY, Y1; reflexivity |].
  split. { intros kk. destruct (Ff kk) as (_ & _ & _ & _ & G & _). rewrite G, <- Ow. destruct kk; assumption. }
  split. { intros kk. rewrite E. apply Same. } { intros kk. rewrite <- Ow. unfold owed. rewrite E. reflexivity. }
Qed.
Lemma wd_out_same : forall orc p u l lo up q o nf p' q' o' nf', wd_fact orc p u l lo up q o nf -> wd_fact orc p' u l lo up q' o' nf' -> mant (io_x o') = mant (io_x o) -> mant (io_y o') = mant (io_y o) ->
  (forall kk, mant (out_fee o' kk) = mant (out_fee o kk)) -> same_out o o'.
Proof.
  intros orc p u l lo up q o nf p' q' o' nf' F F' E2 E3 E4. destruct (wf_net_out _ _ _ _ _ _ _ _ _ F) as (A1 & A2 & A3 & A4). destruct (wf_net_out _ _ _ _ _ _ _ _ _ F') as (B1 & B2 & B3 & B4).
  destruct (wf_scales _ _ _ _ _ _ _ _ _ F) as (_ & _ & C1 & C2 & C3). destruct (wf_scales _ _ _ _ _ _ _ _ _ F') as (_ & _ & C4 & C5 & C6).
  pose proof (E4 FX) as H1. pose proof (E4 FY) as H2. pose proof (E4 HX) as H3. pose proof (E4 HY) as H4. cbn [out_fee] in *.
  split; [rewrite C3, C6; reflexivity |]. split; [apply m_num; auto |]. split; [apply m_num; auto |].
  split; [intros k; apply m_num; [apply (wf_fees _ _ _ _ _ _ _ _ _ F k) | apply (wf_fees _ _ _ _ _ _ _ _ _ F' k) | symmetry; apply E4] |].
  split; apply m_num; auto; lia.
Qed.
(** Pools with the same figures. *)
Lemma same_of : forall orc p q, reachable orc p -> reachable orc q -> spacing p = spacing q -> hmm_c p = hmm_c q -> fee_rate p = fee_rate q -> glbl_tick p = glbl_tick q -> glbl_rp p = glbl_rp q ->
  mant (glbl_liq p) = mant (glbl_liq q) -> (forall k, g_fee (gs p) k = g_fee (gs q) k) -> mant (rx p) = mant (rx q) -> mant (ry p) = mant (ry q) -> (forall k, pot p k = pot q k) ->
  (forall t, tgross p t = tgross q t /\ tnet p t = tnet q t) -> (forall t k, (above p t k == above q t k)%Q) -> (forall key, held p key = held q key /\ forall k, paid_to p key k = paid_to q key k) -> same_pool p q.
Proof.
  intros orc p q R12 R4 H1 H2 H3 H4 H5 H6 H7 H8 H9 Pots H10 H11 H12.
  pose proof (reachable_all12 _ _ R12) as ((Q1 & _) & _ & _ & Q2 & Q3 & Q4 & Q5 & Q6 & Q7). pose proof (reachable_all12 _ _ R4) as ((Z1 & _) & _ & _ & Z2 & Z3 & Z4 & Z5 & Z6 & Z7).
  unfold same_pool. split; [exact H1 |]. split; [exact H2 |]. split; [exact H3 |]. split; [exact H4 |]. split; [rewrite H5; reflexivity |].
  split; [apply m_num; [apply Q1 | apply Z1 | exact H6] |]. split; [intros kk; rewrite H7; reflexivity |].
  split; [apply m_num; [apply Q2 | apply Z2 | exact H8] |]. split; [apply m_num; [apply Q3 | apply Z3 | exact H9] |].
  split; [apply m_num; [apply Q6 | apply Z6 | exact (Pots FX)] |]. split; [apply m_num; [apply Q7 | apply Z7 | exact (Pots FY)] |]. split; [apply m_num; [apply Q4 | apply Z4 | exact (Pots HX)] |]. split; [apply m_num; [apply Q5 | apply Z5 | exact (Pots HY)] |].
  split.
  - intros t. rewrite (proj1 (tgross_q _ _ t R12)), (proj1 (tgross_q _ _ t R4)), (proj2 (tgross_q _ _ t R12)), (proj2 (tgross_q _ _ t R4)). destruct (H10 t) as [-> ->]. split; [reflexivity |]. split; [reflexivity |]. intros k. apply H11.
  - intros key. rewrite (held_q _ _ key R12), (held_q _ _ key R4). destruct (H12 key) as [-> E]. split; [reflexivity |]. intros kk. rewrite (paid_q _ _ _ _ R12), (paid_q _ _ _ _ R4), E. reflexivity.
Qed.

Lemma pos_m : forall d, dscale d = 12 -> (0 < num d)%Q -> 0 < mant d.
Proof. intros d S H. apply Z.nle_gt. intros C. apply (proj2 (q_of_m _ 0)) in C. rewrite <- (num12 _ S) in C. change (inject_Z 0) with 0%Q in C. lra. Qed.
Lemma b2z_nn : forall b, 0 <= b2z b. Proof. intros []; cbn; lia. Qed.
Theorem withdrawals_commute : forall orc p u1 l1 a1 b1 u2 l2 a2 b2 p1 o1 p12 o2 lo1 up1 lo2 up2, reachable orc p ->
  wf l1 -> wf l2 -> dscale l1 = 12 -> dscale l2 = 12 -> (0 < num l1)%Q -> (0 < num l2)%Q -> wf a1 -> wf b1 -> wf a2 -> wf b2 ->
  range_of p a1 b1 lo1 up1 -> range_of p a2 b2 lo2 up2 -> (u1, lo1, up1) <> (u2, lo2, up2) ->
  withdraw p u1 l1 a1 b1 = Ok (p1, o1) -> withdraw p1 u2 l2 a2 b2 = Ok (p12, o2) ->
  exists q2 o2' q21 o1', withdraw p u2 l2 a2 b2 = Ok (q2, o2') /\ withdraw q2 u1 l1 a1 b1 = Ok (q21, o1') /\ same_out o1 o1' /\ same_out o2 o2' /\ same_pool p12 q21.
Proof.
  intros orc p u1 l1 a1 b1 u2 l2 a2 b2 p1 o1 p12 o2 lo1 up1 lo2 up2 R W1 W2 S1 S2 N1 N2 Wa1 Wb1 Wa2 Wb2 RG1 RG2 Ne D1 D2. apply pos_m in N1, N2; auto.
  destruct (wd_all _ _ _ _ _ _ _ _ _ _ R W1 Wa1 Wb1 RG1 N1 D1) as (nf1 & F1). pose proof (wf_reach _ _ _ _ _ _ _ _ _ F1) as R1. destruct (wf_same _ _ _ _ _ _ _ _ _ F1) as (I1 & I2 & I3 & I4 & I5 & I6).
  assert (RG2' : range_of p1 a2 b2 lo2 up2) by (unfold range_of in *; rewrite I3; exact RG2).
  destruct (wd_all _ _ _ _ _ _ _ _ _ _ R1 W2 Wa2 Wb2 RG2' N2 D2) as (nf2 & F2). pose proof (wf_reach _ _ _ _ _ _ _ _ _ F2) as R12. destruct (wf_same _ _ _ _ _ _ _ _ _ F2) as (J1 & J2 & J3 & J4 & J5 & J6).
  pose proof (wf_gross _ _ _ _ _ _ _ _ _ F1) as G1. pose proof (wf_gross _ _ _ _ _ _ _ _ _ F2) as G2. pose proof (wf_net _ _ _ _ _ _ _ _ _ F1) as T1. pose proof (wf_net _ _ _ _ _ _ _ _ _ F2) as T2. pose proof (wf_liq _ _ _ _ _ _ _ _ _ F1) as L1. pose proof (wf_liq _ _ _ _ _ _ _ _ _ F2) as L2.
  destruct (wf_x _ _ _ _ _ _ _ _ _ F1) as (_ & X1 & X1'). destruct (wf_x _ _ _ _ _ _ _ _ _ F2) as (_ & X2 & X2'). destruct (wf_y _ _ _ _ _ _ _ _ _ F1) as (_ & Y1 & Y1'). destruct (wf_y _ _ _ _ _ _ _ _ _ F2) as (_ & Y2 & Y2').
  pose proof (wf_above _ _ _ _ _ _ _ _ _ F1) as V1. pose proof (wf_above _ _ _ _ _ _ _ _ _ F2) as V2. pose proof (wf_other _ _ _ _ _ _ _ _ _ F1) as P1. pose proof (wf_other _ _ _ _ _ _ _ _ _ F2) as P2. pose proof (wf_fees _ _ _ _ _ _ _ _ _ F1) as E1. pose proof (wf_fees _ _ _ _ _ _ _ _ _ F2) as E2.
  destruct (wf_held _ _ _ _ _ _ _ _ _ F1) as (H1 & C1). destruct (wf_held _ _ _ _ _ _ _ _ _ F2) as (H2 & C2).
  assert (Own2 : forall t, t = lo2 \/ t = up2 -> tgross p1 t <> 0) by (destruct (own_gross _ _ _ _ _ R1 ltac:(eapply Z.lt_le_trans; apply H2)) as [A B]; intros t [-> | ->]; assumption).
  destruct (withdraw_elsewhere orc p1 p u2 l2 a2 b2 lo2 up2 p12 o2 nf2 R1 R W2 Wa2 Wb2 RG2' F2) as (q2 & o2' & nf2' & D3 & F3 & O2 & O3 & O4 & O5 & O6); auto.
  { intros t kk Ht. rewrite (V1 t kk), (proj2 (Z.eqb_neq _ _) (Own2 t Ht)). reflexivity. } { symmetry. apply P1. congruence. }
  { intros C. specialize (C2 C). pose proof (b2z_nn ((lo1 <=? glbl_tick p) && (glbl_tick p <? up1))). rewrite L1 in C2. nia. }
  { intros kk. destruct (E1 kk) as (_ & _ & _ & e1 & _ & _ & e2). destruct (E2 kk) as (_ & _ & _ & e3 & _). lia. } { lia. } { lia. }
  pose proof (wf_reach _ _ _ _ _ _ _ _ _ F3) as R3. destruct (wf_same _ _ _ _ _ _ _ _ _ F3) as (K1 & K2 & K3 & K4 & K5 & K6).
  pose proof (wf_gross _ _ _ _ _ _ _ _ _ F3) as G3. pose proof (wf_net _ _ _ _ _ _ _ _ _ F3) as T3. pose proof (wf_liq _ _ _ _ _ _ _ _ _ F3) as L3. destruct (wf_x _ _ _ _ _ _ _ _ _ F3) as (_ & X3 & X3'). destruct (wf_y _ _ _ _ _ _ _ _ _ F3) as (_ & Y3 & Y3').
  pose proof (wf_above _ _ _ _ _ _ _ _ _ F3) as V3. pose proof (wf_other _ _ _ _ _ _ _ _ _ F3) as P3. pose proof (wf_fees _ _ _ _ _ _ _ _ _ F3) as E3.
  assert (Hd : held q2 (u1, lo1, up1) = held p (u1, lo1, up1)) by (unfold held; rewrite (P3 _ Ne); reflexivity).
  assert (Own1 : forall t, t = lo1 \/ t = up1 -> tgross q2 t <> 0) by (destruct (own_gross _ _ u1 lo1 up1 R3 ltac:(rewrite Hd; eapply Z.lt_le_trans; apply H1)) as [A B]; intros t [-> | ->]; assumption).
  pose proof (reachable_nn _ _ R12) as (Wn & _ & _ & _ & _ & Gn). pose proof Wn as (_ & (Wg & _) & _). apply nn_m in Gn; auto. change (g_liq (gs p12)) with (glbl_liq p12) in Gn.
  destruct (withdraw_elsewhere orc p q2 u1 l1 a1 b1 lo1 up1 p1 o1 nf1 R R3 W1 Wa1 Wb1 RG1 F1) as (q21 & o1' & nf1' & D4 & F4 & U2 & U3 & U4 & U5 & U6); auto.
  { intros t kk Ht. rewrite (V3 t kk), (proj2 (Z.eqb_neq _ _) (Own1 t Ht)). reflexivity. }
  { intros [c1 c2]. rewrite L2, L1, I2, (proj2 (Z.leb_le _ _) c1), (proj2 (Z.ltb_lt _ _) c2) in Gn. cbn [andb b2z] in Gn. rewrite L3. lia. }
  { intros kk. destruct (E1 kk) as (_ & _ & _ & e1 & _ & _ & e2). destruct (E2 kk) as (_ & _ & _ & e3 & _). destruct (E3 kk) as (_ & _ & _ & _ & _ & _ & e4). rewrite O6 in e4. lia. } { lia. } { lia. }
  exists q2, o2', q21, o1'. split; [exact D3 |]. split; [exact D4 |].
  split; [exact (wd_out_same _ _ _ _ _ _ _ _ _ _ _ _ _ F1 F4 U2 U3 U4) |]. split; [exact (wd_out_same _ _ _ _ _ _ _ _ _ _ _ _ _ F2 F3 O2 O3 O4) |].
  pose proof (wf_reach _ _ _ _ _ _ _ _ _ F4) as R4. destruct (wf_same _ _ _ _ _ _ _ _ _ F4) as (M1 & M2 & M3 & M4 & M5 & M6).
  pose proof (wf_gross _ _ _ _ _ _ _ _ _ F4) as G4. pose proof (wf_net _ _ _ _ _ _ _ _ _ F4) as T4. pose proof (wf_liq _ _ _ _ _ _ _ _ _ F4) as L4. destruct (wf_x _ _ _ _ _ _ _ _ _ F4) as (_ & X4 & X4'). destruct (wf_y _ _ _ _ _ _ _ _ _ F4) as (_ & Y4 & Y4').
  pose proof (wf_above _ _ _ _ _ _ _ _ _ F4) as V4. pose proof (wf_other _ _ _ _ _ _ _ _ _ F4) as P4. pose proof (wf_fees _ _ _ _ _ _ _ _ _ F4) as E4.
  assert (GE : forall t, tgross p12 t = tgross q21 t) by (intros t; rewrite (G2 t), (G1 t), (G4 t), (G3 t); lia).
  apply (same_of orc); try assumption; try congruence; try lia.
  - rewrite L2, L1, L4, L3, I2, K2. lia.
  - intros kk. destruct (E1 kk) as (_ & _ & _ & _ & _ & _ & e1). destruct (E2 kk) as (_ & _ & _ & _ & _ & _ & e2). destruct (E3 kk) as (_ & _ & _ & _ & _ & _ & e3). destruct (E4 kk) as (_ & _ & _ & _ & _ & _ & e4). rewrite O6 in e3. rewrite U6 in e4. lia.
  - intros t. split; [apply GE |]. rewrite (T2 t), (T1 t), (T4 t), (T3 t). lia.
  - intros t kk. rewrite (V2 t kk), (V4 t kk), <- GE. destruct (Z.eqb_spec (tgross p12 t) 0) as [E | E]; [reflexivity |].
    assert (A : tgross p1 t <> 0 /\ tgross q2 t <> 0).
    { pose proof (b2z_nn (lo1 =? t)). pose proof (b2z_nn (up1 =? t)). pose proof (b2z_nn (lo2 =? t)). pose proof (b2z_nn (up2 =? t)). pose proof (G2 t) as g2. pose proof (G4 t) as g4. rewrite <- GE in g4.
      assert (0 <= tgross p12 t) by (unfold tgross; destruct (tm_get t (ticks p12)) as [ts |] eqn:Et; [pose proof (proj2 (proj2 (proj2 (proj2 (reachable_ticks _ _ R12)))) _ _ (tm_get_in _ _ _ Et)); lia | lia]). nia. }
    destruct A as [A B]. rewrite (V1 t kk), (V3 t kk), (proj2 (Z.eqb_neq _ _) A), (proj2 (Z.eqb_neq _ _) B). reflexivity.
  - intros key. unfold held, paid_to. destruct (pkey_dec key (u1, lo1, up1)) as [-> | c1].
    + rewrite (P2 _ Ne). destruct (wf_own _ _ _ _ _ _ _ _ _ F1) as (r & nl & e1 & e2 & ->). destruct (wf_own _ _ _ _ _ _ _ _ _ F4) as (r' & nl' & e3 & e4 & ->). rewrite (P3 _ Ne), e1 in e3. injection e3 as <-. rewrite e2 in e4. injection e4 as <-.
      destruct (is_zero nl); [auto |]. split; [reflexivity |]. intros kk. destruct kk; cbn [p_fee]; symmetry; apply U5.
    + rewrite (P4 _ c1). destruct (pkey_dec key (u2, lo2, up2)) as [-> | c2].
      * destruct (wf_own _ _ _ _ _ _ _ _ _ F2) as (r & nl & e1 & e2 & ->). destruct (wf_own _ _ _ _ _ _ _ _ _ F3) as (r' & nl' & e3 & e4 & ->). rewrite (P1 _ c1), e3 in e1. injection e1 as ->. rewrite e2 in e4. injection e4 as <-.
        destruct (is_zero nl); [auto |]. split; [reflexivity |]. intros kk. destruct kk; cbn [p_fee]; symmetry; apply O5.
      * rewrite (P2 _ c2), (P1 _ c1), (P3 _ c2). auto.
Qed.

(** A deposit into a position that holds liquidity, and a withdrawal from another position. *)
Theorem deposit_withdraw_commute : forall orc p u1 x y a1 b1 u2 l a2 b2 p1 o1 p12 o2 q2 o2' lo1 up1 lo2 up2, reachable orc p ->
  nonneg x -> nonneg y -> dscale x = 12 -> dscale y = 12 -> nonneg a1 -> nonneg b1 -> wf l -> dscale l = 12 -> (0 < num l)%Q -> wf a2 -> wf b2 ->
  range_of p a1 b1 lo1 up1 -> range_of p a2 b2 lo2 up2 -> (u1, lo1, up1) <> (u2, lo2, up2) -> (0 < liq_of p (u1, lo1, up1))%Q ->
  deposit p u1 x y a1 b1 = Ok (p1, o1) -> withdraw p1 u2 l a2 b2 = Ok (p12, o2) -> withdraw p u2 l a2 b2 = Ok (q2, o2') ->
  exists q21 o1', deposit q2 u1 x y a1 b1 = Ok (q21, o1') /\ same_out o1 o1' /\ same_out o2 o2' /\ same_pool p12 q21.
Proof.
  intros orc p u1 x y a1 b1 u2 l a2 b2 p1 o1 p12 o2 q2 o2' lo1 up1 lo2 up2 R Nx Ny Sx Sy Na1 Nb1 W2 S2 N2 Wa2 Wb2 RG1 RG2 Ne Hp D1 D2 D3. apply pos_m in N2; auto.
  assert (Hd1 : 0 < held p (u1, lo1, up1)). { rewrite (held_q _ _ _ R) in Hp. apply Z.nle_gt. intros C. apply (proj2 (q_of_m _ 0)) in C. change (inject_Z 0) with 0%Q in C. lra. }
  destruct (dep_facts _ _ _ _ _ _ _ _ _ _ _ R Nx Ny (proj1 Na1) (proj1 Nb1) RG1 Sx Sy D1) as (nf1 & F1). pose proof (df_reach _ _ _ _ _ _ _ _ _ _ F1) as R1. destruct (df_same _ _ _ _ _ _ _ _ _ _ F1) as (I1 & I2 & I3 & I4 & I5 & I6).
  assert (RG2' : range_of p1 a2 b2 lo2 up2) by (unfold range_of in *; rewrite I3; exact RG2).
  destruct (wd_all _ _ _ _ _ _ _ _ _ _ R1 W2 Wa2 Wb2 RG2' N2 D2) as (nf2 & F2). pose proof (wf_reach _ _ _ _ _ _ _ _ _ F2) as R12. destruct (wf_same _ _ _ _ _ _ _ _ _ F2) as (J1 & J2 & J3 & J4 & J5 & J6).
  destruct (wd_all _ _ _ _ _ _ _ _ _ _ R W2 Wa2 Wb2 RG2 N2 D3) as (nf2' & F3). pose proof (wf_reach _ _ _ _ _ _ _ _ _ F3) as R3. destruct (wf_same _ _ _ _ _ _ _ _ _ F3) as (K1 & K2 & K3 & K4 & K5 & K6).
  destruct (df_pos _ _ _ _ _ _ _ _ _ _ F1) as (A1 & A2 & A3).
  pose proof (df_gross _ _ _ _ _ _ _ _ _ _ F1) as G1. pose proof (wf_gross _ _ _ _ _ _ _ _ _ F2) as G2. pose proof (wf_gross _ _ _ _ _ _ _ _ _ F3) as G3. pose proof (df_net _ _ _ _ _ _ _ _ _ _ F1) as T1. pose proof (wf_net _ _ _ _ _ _ _ _ _ F2) as T2. pose proof (wf_net _ _ _ _ _ _ _ _ _ F3) as T3.
  pose proof (df_liq _ _ _ _ _ _ _ _ _ _ F1) as L1. pose proof (wf_liq _ _ _ _ _ _ _ _ _ F2) as L2. pose proof (wf_liq _ _ _ _ _ _ _ _ _ F3) as L3.
  pose proof (df_rx _ _ _ _ _ _ _ _ _ _ F1) as X1. destruct (wf_x _ _ _ _ _ _ _ _ _ F2) as (X2'' & X2 & X2'). pose proof (df_ry _ _ _ _ _ _ _ _ _ _ F1) as Y1. destruct (wf_y _ _ _ _ _ _ _ _ _ F2) as (Y2'' & Y2 & Y2'). destruct (wf_x _ _ _ _ _ _ _ _ _ F3) as (X3'' & X3 & X3'). destruct (wf_y _ _ _ _ _ _ _ _ _ F3) as (Y3'' & Y3 & Y3').
  pose proof (df_above _ _ _ _ _ _ _ _ _ _ F1) as V1. pose proof (wf_above _ _ _ _ _ _ _ _ _ F2) as V2. pose proof (wf_above _ _ _ _ _ _ _ _ _ F3) as V3. pose proof (df_other _ _ _ _ _ _ _ _ _ _ F1) as P1. pose proof (wf_other _ _ _ _ _ _ _ _ _ F2) as P2. pose proof (wf_other _ _ _ _ _ _ _ _ _ F3) as P3.
  pose proof (df_fees _ _ _ _ _ _ _ _ _ _ F1) as E1. pose proof (wf_fees _ _ _ _ _ _ _ _ _ F2) as E2. pose proof (wf_fees _ _ _ _ _ _ _ _ _ F3) as E3.
  assert (Ne' : (u2, lo2, up2) <> (u1, lo1, up1)) by congruence.
  destruct (keep p p1 I1 (u2, lo2, up2) (mant l)) as [KX KY].
  assert (OX : mant (io_x o2') = mant (io_x o2)) by (rewrite X2'', X3'', KX; reflexivity). assert (OY : mant (io_y o2') = mant (io_y o2)) by (rewrite Y2'', Y3'', KY; reflexivity).
  assert (O5 : forall kk, mant (nf2' kk) = mant (nf2 kk)). { intros kk. destruct (E2 kk) as (e2 & _). destruct (E3 kk) as (e3 & _). apply (mant_eq _ _ _ _ _ _ _ _ R1 R e2 e3). unfold inside. rewrite !V1. reflexivity. }
  assert (O6 : forall kk, owed p (u2, lo2, up2) nf2' kk = owed p1 (u2, lo2, up2) nf2 kk) by (intros kk; unfold owed, held, paid_to; rewrite O5, (P1 _ Ne'); reflexivity).
  assert (O4 : forall kk, mant (out_fee o2' kk) = mant (out_fee o2 kk)). { intros kk. destruct (E2 kk) as (_ & _ & _ & _ & e2 & _). destruct (E3 kk) as (_ & _ & _ & _ & e3 & _). rewrite e2, e3. apply O6. }
  assert (Hd : held q2 (u1, lo1, up1) = held p (u1, lo1, up1)) by (unfold held; rewrite (P3 _ Ne); reflexivity).
  assert (Own1 : forall t, t = lo1 \/ t = up1 -> tgross q2 t <> 0) by (destruct (own_gross _ _ u1 lo1 up1 R3 ltac:(rewrite Hd; exact Hd1)) as [A B]; intros t [-> | ->]; assumption).
  pose proof (proj1 (reachable_nn _ _ R1)) as (_ & (Wg & _) & _ & _ & (Wx & Wy & _) & _). apply mant_bound in Wg, Wx, Wy. unfold U128 in Wg, Wx, Wy. change (g_liq (gs p1)) with (glbl_liq p1) in Wg.
  pose proof (fun t => tgross_lt _ _ t R1) as Tl.
  destruct (deposit_elsewhere orc p q2 u1 x y a1 b1 lo1 up1 p1 o1 nf1 R R3 Nx Ny Sx Sy Na1 Nb1 RG1 F1) as (q21 & o1' & nf1' & D4 & F4 & U1 & U2 & U3 & U4 & U5 & U6); auto.
  { intros t kk Ht. rewrite (V3 t kk), (proj2 (Z.eqb_neq _ _) (Own1 t Ht)). reflexivity. }
  { specialize (Tl lo1). rewrite (G1 lo1), Z.eqb_refl in Tl. cbn [b2z] in Tl. rewrite (G3 lo1). pose proof (b2z_nn (up1 =? lo1)). pose proof (b2z_nn (lo2 =? lo1)). pose proof (b2z_nn (up2 =? lo1)). nia. }
  { specialize (Tl up1). rewrite (G1 up1), Z.eqb_refl in Tl. cbn [b2z] in Tl. rewrite (G3 up1). pose proof (b2z_nn (lo1 =? up1)). pose proof (b2z_nn (lo2 =? up1)). pose proof (b2z_nn (up2 =? up1)). nia. }
  { intros [c1 c2]. rewrite L1, (proj2 (Z.leb_le _ _) c1), (proj2 (Z.ltb_lt _ _) c2) in Wg. cbn [andb b2z] in Wg. rewrite L3. pose proof (b2z_nn ((lo2 <=? glbl_tick p) && (glbl_tick p <? up2))). nia. }
  { intros kk. destruct (E1 kk) as (_ & _ & _ & e1 & _ & _ & e2). destruct (E2 kk) as (_ & _ & _ & e3 & _). destruct (E3 kk) as (_ & _ & _ & _ & _ & _ & e4). rewrite O6 in e4. lia. } { lia. } { lia. }
  exists q21, o1'. split; [exact D4 |]. split; [exact (out_same _ _ _ _ _ _ _ _ _ _ _ _ _ _ F1 F4 U1 U2 U3 U4) |]. split; [exact (wd_out_same _ _ _ _ _ _ _ _ _ _ _ _ _ F2 F3 OX OY O4) |].
  pose proof (df_reach _ _ _ _ _ _ _ _ _ _ F4) as R4. destruct (df_same _ _ _ _ _ _ _ _ _ _ F4) as (M1 & M2 & M3 & M4 & M5 & M6).
  pose proof (df_gross _ _ _ _ _ _ _ _ _ _ F4) as G4. pose proof (df_net _ _ _ _ _ _ _ _ _ _ F4) as T4. pose proof (df_liq _ _ _ _ _ _ _ _ _ _ F4) as L4. pose proof (df_rx _ _ _ _ _ _ _ _ _ _ F4) as X4. pose proof (df_ry _ _ _ _ _ _ _ _ _ _ F4) as Y4. pose proof (df_above _ _ _ _ _ _ _ _ _ _ F4) as V4. pose proof (df_other _ _ _ _ _ _ _ _ _ _ F4) as P4. pose proof (df_fees _ _ _ _ _ _ _ _ _ _ F4) as E4.
  rewrite U1 in G4, T4, L4. rewrite U2 in X4. rewrite U3 in Y4.
  assert (GE : forall t, tgross p12 t = tgross q21 t) by (intros t; rewrite (G2 t), (G1 t), (G4 t), (G3 t); lia).
  apply (same_of orc); try assumption; try congruence; try lia.
  - rewrite L2, L1, L4, L3, I2, K2. lia.
  - intros kk. destruct (E1 kk) as (_ & _ & _ & _ & _ & _ & e1). destruct (E2 kk) as (_ & _ & _ & _ & _ & _ & e2). destruct (E3 kk) as (_ & _ & _ & _ & _ & _ & e3). destruct (E4 kk) as (_ & _ & _ & _ & _ & _ & e4). rewrite O6 in e3. rewrite U6 in e4. lia.
  - intros t. split; [apply GE |]. rewrite (T2 t), (T1 t), (T4 t), (T3 t). lia.
  - intros t kk. rewrite (V2 t kk), (V4 t kk), (V3 t kk). destruct (Z.eqb_spec (tgross q2 t) 0) as [E | E].
    + destruct (Z.eqb_spec (tgross p12 t) 0) as [E' | E']; [reflexivity |]. exfalso. rewrite GE, (G4 t) in E'. rewrite E in E'. assert (C : t <> lo1 /\ t <> up1) by (split; intros ->; [apply (Own1 lo1) | apply (Own1 up1)]; auto). destruct C as [C1 C2].
      rewrite (proj2 (Z.eqb_neq lo1 t)), (proj2 (Z.eqb_neq up1 t)) in E' by congruence. cbn [b2z] in E'. lia.
    + destruct (Z.eqb_spec (tgross p12 t) 0) as [E' | E']; [| apply V1]. exfalso. rewrite GE, (G4 t) in E'. pose proof (b2z_nn (lo1 =? t)). pose proof (b2z_nn (up1 =? t)).
      assert (0 <= tgross q2 t) by (unfold tgross; destruct (tm_get t (ticks q2)) as [ts |] eqn:Et; [pose proof (proj2 (proj2 (proj2 (proj2 (reachable_ticks _ _ R3)))) _ _ (tm_get_in _ _ _ Et)); lia | lia]). nia.
  - intros key. unfold held, paid_to. destruct (pkey_dec key (u1, lo1, up1)) as [-> | c1].
    + rewrite (P2 _ Ne). pose proof (df_own _ _ _ _ _ _ _ _ _ _ F1) as s1. pose proof (df_own _ _ _ _ _ _ _ _ _ _ F4) as s4. rewrite (P3 _ Ne) in s4. rewrite U1 in s4. destruct (pm_get (u1, lo1, up1) (positions p)) as [r |].
      * destruct s1 as (nl & s1 & ->). destruct s4 as (nl' & s4 & ->). rewrite s1 in s4. injection s4 as <-. destruct (is_zero nl); [auto |]. split; [reflexivity |]. intros kk. destruct kk; cbn [p_fee]; symmetry; apply U5.
      * rewrite s1, s4. auto.
    + rewrite (P4 _ c1). destruct (pkey_dec key (u2, lo2, up2)) as [-> | c2].
      * destruct (wf_own _ _ _ _ _ _ _ _ _ F2) as (r & nl & e1 & e2 & ->). destruct (wf_own _ _ _ _ _ _ _ _ _ F3) as (r' & nl' & e3 & e4 & ->). rewrite (P1 _ c1), e3 in e1. injection e1 as ->. rewrite e2 in e4. injection e4 as <-.
        destruct (is_zero nl); [auto |]. split; [reflexivity |]. intros kk. destruct kk; cbn [p_fee]; symmetry; apply O5.
      * rewrite (P2 _ c2), (P1 _ c1), (P3 _ c2). auto.
Qed.
