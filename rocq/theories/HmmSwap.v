(** Whole swaps with an oracle price: the trader gets at least the worse of the oracle price and the final price. *)
From Coq Require Import ZArith QArith Qminmax List Bool Lia Lqa String Sorted.
From Verif Require Import Base BaseLemmas DecimalModel DecimalSpec DecimalProofs PowProofs WfProofs MathModel MathProofs TickProofs TickLoop PoolModel PoolWf SwapLoop SwapProofs LpProofs PoolInv PoolNonneg PoolLp PoolRange PoolFees PoolGain PoolScale SwapAmounts SwapCover SwapWorth SwapFair FeeCredit PowAccuracy HmmPrice.
Import ListNotations.
Open Scope Z_scope.

(** What leaves the pool, including the adjustment kept in its pot. *)
Definition out_y (p p' : pool) : Q := (num (ry p) + num (y_adj p) - num (ry p') - num (y_adj p'))%Q.
Definition out_x (p p' : pool) : Q := (num (rx p) + num (x_adj p) - num (rx p') - num (x_adj p'))%Q.
(** Rounding allowance of one step with liquidity l and oracle root price o *)
Definition slack_y (l o m : Q) : Q := (ulp12 * (m * m + inject_Z 14 + inject_Z 48 * (l * (o * o))))%Q.
Definition slack_x (l o m : Q) : Q := (ulp12 * (l + m * m * (inject_Z 11 + inject_Z 20 * l + (inject_Z 4 + inject_Z 16 * l) * o)))%Q.
Lemma q_sq : forall x : Q, (0 <= x)%Q -> (0 <= x * x)%Q. Proof. intros x H. apply Qmult_le_0_compat; auto. Qed.
Lemma slack_y_mono : forall l l' o m, (0 <= o)%Q -> (0 <= l)%Q -> (l <= l')%Q -> (0 <= m)%Q -> (0 <= slack_y l o m /\ slack_y l o m <= slack_y l' o m)%Q.
Proof.
  intros l l' o m O L LL M. unfold slack_y. pose proof ulp_pos as U. pose proof (q_sq o O) as O2. pose proof (q_sq m M) as M2. change (inject_Z 14) with (14#1)%Q. change (inject_Z 48) with (48#1)%Q.
  assert (A : (l * (o * o) <= l' * (o * o))%Q) by (apply Qmult_le_compat_r; auto). assert (B : (0 <= l * (o * o))%Q) by (apply Qmult_le_0_compat; auto).
  split; [apply Qmult_le_0_compat; lra | apply SwapFair.mul_mono; lra].
Qed.
Lemma slack_x_mono : forall l l' o m, (0 <= o)%Q -> (0 <= l)%Q -> (l <= l')%Q -> (0 <= m)%Q -> (0 <= slack_x l o m /\ slack_x l o m <= slack_x l' o m)%Q.
Proof.
  intros l l' o m O L LL M. unfold slack_x. pose proof ulp_pos as U. pose proof (q_sq m M) as M2. change (inject_Z 11) with (11#1)%Q. change (inject_Z 20) with (20#1)%Q. change (inject_Z 4) with (4#1)%Q. change (inject_Z 16) with (16#1)%Q.
  assert (A : (((4#1) + (16#1) * l) * o <= ((4#1) + (16#1) * l') * o)%Q) by (apply Qmult_le_compat_r; lra). assert (B : (0 <= ((4#1) + (16#1) * l) * o)%Q) by (apply Qmult_le_0_compat; lra).
  split; [apply Qmult_le_0_compat; [lra|]; assert (0 <= m * m * ((11 # 1) + (20 # 1) * l + ((4 # 1) + (16 # 1) * l) * o))%Q by (apply Qmult_le_0_compat; lra); lra|].
  apply SwapFair.mul_mono; [lra|]. assert (m * m * ((11 # 1) + (20 # 1) * l + ((4 # 1) + (16 # 1) * l) * o) <= m * m * ((11 # 1) + (20 # 1) * l' + ((4 # 1) + (16 # 1) * l') * o))%Q by (apply SwapFair.mul_mono; lra). lra.
Qed.

(** ** Moves *)
Lemma mv_x_pays : forall orc dx ro a b m, wf dx -> at_s 12 ro -> (1 <= num ro)%Q -> inv_x a -> tick_inv (fst a) -> nn (fst a) -> all12 (fst a) -> (0 <= num (fee_rate (fst a)))%Q -> dval (hmm_c (fst a)) = 0 \/ curved (hmm_c (fst a)) ->
  mv_x orc dx ro a b -> (0 <= m)%Q -> (m <= num ro)%Q -> (m <= num (glbl_rp (fst b)))%Q ->
  idle (fst a) (fst b) \/ (m * m * (dX (fst a) (fst b) * (1 - ulp12)) <= out_y (fst a) (fst b) + slack_y (num (glbl_liq (fst a))) (num ro) m)%Q.
Proof.
  intros orc dx ro a b m Wd Ao O1 Ia T N A12 Rt C0 M M0 MO ME. pose proof Ia as (I1 & I2 & I3 & I4). pose proof (proj1 Ao) as Wo.
  inversion M as [q s tk rp q' H1 H2 H3 H4 H5 | q s f gtk q' s' H1 H2 H3 H4 H5]; subst a b; cbn [fst snd] in *.
  - left. pose proof (cross_funds _ _ _ _ H5) as F. split; [| exact F]. pose proof N as (_ & _ & _ & _ & _ & N0). apply npos_q in H1; [lra | apply liq_wf; auto].
  - right. destruct (find_left _ _ _ H4) as [K1 K2]. pose proof (key_nn _ _ I1 K1) as G0.
    destruct (step_x_facts _ _ _ _ _ _ _ _ H5 I1 I2 Wd Wo K1) as (w & p1 & (rest & Q1 & Q2 & Q3) & F2 & F3 & F4 & F5 & F6 & F7 & F8).
    pose proof A12 as ((L12 & _) & _). assert (Lp : (0 < num (glbl_liq q))%Q) by (apply pos_q; auto; apply liq_wf; auto).
    assert (Mid : glbl_rp p1 = w_rp w /\ (dX q p1 == num (w_recv w))%Q /\ (out_y q p1 == - num (w_send w))%Q).
    { destruct F3 as (nx & y1 & ny & nya & nxf & fx & hy & M1 & M2 & M3 & M4 & M5 & M6 & M7 & ->). repeat match goal with K : d_add _ _ = Ok _ |- _ => apply add_q in K end. apply sub_q in M3. unfold dX, out_y; cbn [rx ry y_adj gs glbl_rp glbl_liq g_rp g_liq]. csplit; auto; lra. }
    destruct Mid as (P4 & PX & PY).
    assert (E : (dX q q' == num (w_recv w))%Q /\ (out_y q q' == - num (w_send w))%Q /\ glbl_rp q' = w_rp w).
    { destruct (w_cross w); [| subst q'; auto]. destruct F8 as [_ F8]. destruct (cross_tick_to _ _ _ F8 G0 (proj1 F5)) as (_ & _ & _ & C4). destruct (cross_funds _ _ _ _ F8) as (E1 & E2 & E3 & E4 & E5 & E6).
      unfold dX, out_y in *. rewrite E1, E2, E4. csplit; auto. congruence. }
    destruct E as (EX & EY & ER). rewrite ER in ME.
    pose proof (step_x_price _ _ _ _ _ _ _ _ m Q3 C0 I1 (srp_wf _ I2) (liq_wf _ I1) Q2 G0 (proj1 L12) Lp Rt Ao O1 M0 MO ME) as Y.
    rewrite EX, EY. unfold slack_y. lra.
Qed.
Lemma mv_y_pays : forall orc dx ro a b m, wf dx -> at_s 12 ro -> (1 <= num ro)%Q -> inv_y a -> tick_inv (fst a) -> nn (fst a) -> all12 (fst a) -> (0 <= num (fee_rate (fst a)))%Q -> dval (hmm_c (fst a)) = 0 \/ curved (hmm_c (fst a)) ->
  mv_y orc dx ro a b -> (num ro <= m)%Q -> (num (glbl_rp (fst b)) <= m)%Q ->
  idle (fst a) (fst b) \/ (dY (fst a) (fst b) <= m * m * out_x (fst a) (fst b) + slack_x (num (glbl_liq (fst a))) (num ro) m)%Q.
Proof.
  intros orc dx ro a b m Wd Ao O1 Ia T N A12 Rt C0 M MO ME. pose proof Ia as (I1 & I2 & I3 & I4). pose proof (proj1 Ao) as Wo.
  inversion M as [q s tk rp q' H1 H2 H3 H4 H5 | q s gtk q' s' H1 H2 H3 H4 H5]; subst a b; cbn [fst snd] in *.
  - left. pose proof (cross_funds _ _ _ _ H5) as F. split; [| exact F]. pose proof N as (_ & _ & _ & _ & _ & N0). apply npos_q in H1; [lra | apply liq_wf; auto].
  - right. destruct (find_right _ _ _ H4) as [K1 K2]. pose proof (key_nn _ _ I1 K1) as G0.
    destruct (step_y_facts _ _ _ _ _ _ _ _ H5 I1 I2 Wd Wo K1) as (w & p1 & (rest & Q1 & Q2 & Q3) & F2 & F3 & F4 & F5 & F6 & F7 & F8).
    pose proof A12 as ((L12 & _) & _). assert (Lp : (0 < num (glbl_liq q))%Q) by (apply pos_q; auto; apply liq_wf; auto).
    assert (H1' : (1 <= num (s_rp s))%Q) by (rewrite <- I3; apply N).
    assert (Mid : glbl_rp p1 = w_rp w /\ (dY q p1 == num (w_recv w))%Q /\ (out_x q p1 == - num (w_send w))%Q).
    { destruct F3 as (nx & y1 & ny & nya & nxf & fx & hy & M1 & M2 & M3 & M4 & M5 & M6 & M7 & ->). repeat match goal with K : d_add _ _ = Ok _ |- _ => apply add_q in K end. apply sub_q in M3. unfold dY, out_x; cbn [rx ry x_adj gs glbl_rp glbl_liq g_rp g_liq]. csplit; auto; lra. }
    destruct Mid as (P4 & PX & PY).
    assert (E : (dY q q' == num (w_recv w))%Q /\ (out_x q q' == - num (w_send w))%Q /\ glbl_rp q' = w_rp w).
    { destruct (w_cross w); [| subst q'; auto]. destruct F8 as [_ F8]. destruct (cross_tick_to_r _ _ _ F8) as (_ & _ & C4). destruct (cross_funds _ _ _ _ F8) as (E1 & E2 & E3 & E4 & E5 & E6).
      unfold dY, out_x in *. rewrite E1, E2, E3. csplit; auto. congruence. }
    destruct E as (EX & EY & ER). rewrite ER in ME.
    pose proof (step_y_price _ _ _ _ _ _ _ _ m Q3 C0 I1 (srp_wf _ I2) (liq_wf _ I1) Q2 G0 (proj1 L12) Lp H1' Rt Ao O1 MO ME) as Y.
    rewrite EX, EY. unfold slack_x. lra.
Qed.

(** ** Whole swaps *)
Definition pays_y (p0 : pool) (dx : decimal) (o m : Q) (c : pool * swp) : Prop :=
  let p := fst c in let K := slack_y (all_liq p0) o m in
  positions p = positions p0 /\ hmm_c p = hmm_c p0 /\
  ((settled p /\ liq_inv p /\ ((m <= num (glbl_rp p))%Q -> (m * m * (dX p0 p * (1 - ulp12)) + K * below p <= out_y p0 p + K * below p0)%Q)) \/
   (spent dx c /\ ((m <= num (glbl_rp p))%Q -> (m * m * (dX p0 p * (1 - ulp12)) <= out_y p0 p + K * (below p0 + 1))%Q))).
Definition pays_x (p0 : pool) (dx : decimal) (o m : Q) (c : pool * swp) : Prop :=
  let p := fst c in let K := slack_x (all_liq p0) o m in
  positions p = positions p0 /\ hmm_c p = hmm_c p0 /\
  ((settled p /\ liq_inv p /\ ((num (glbl_rp p) <= m)%Q -> (dY p0 p + K * above p <= m * m * out_x p0 p + K * above p0)%Q)) \/
   (spent dx c /\ ((num (glbl_rp p) <= m)%Q -> (dY p0 p <= m * m * out_x p0 p + K * (above p0 + 1))%Q))).
Lemma idle_y : forall p p', idle p p' -> (dX p p' == 0 /\ out_y p p' == 0)%Q.
Proof. intros p p' (_ & E1 & E2 & E3 & E4 & _). unfold dX, out_y. rewrite E1, E2, E4. split; ring. Qed.
Lemma idle_x : forall p p', idle p p' -> (dY p p' == 0 /\ out_x p p' == 0)%Q.
Proof. intros p p' (_ & E1 & E2 & E3 & E4 & _). unfold dY, out_x. rewrite E1, E2, E3. split; ring. Qed.
Lemma liq_le_all : forall p p0, tick_inv p -> liq_inv p -> positions p = positions p0 -> (num (glbl_liq p) <= all_liq p0)%Q.
Proof. intros p p0 T L E. pose proof (covering_all p (glbl_tick p) T) as [_ C]. unfold liq_inv in L. rewrite <- L in C. unfold all_liq in *. rewrite <- E. exact C. Qed.
Lemma pays_y_step : forall p0 orc dx ro m a b, wf dx -> at_s 12 ro -> (1 <= num ro)%Q -> 0 < mant dx -> inv_x a -> carried dx a -> (0 <= num (fee_rate (fst a)))%Q -> dval (hmm_c p0) = 0 \/ curved (hmm_c p0) ->
  (0 <= m)%Q -> (m <= num ro)%Q -> mv_x orc dx ro a b -> pays_y p0 dx (num ro) m a -> pays_y p0 dx (num ro) m b.
Proof.
  intros p0 orc dx ro m a b Wd Ao O1 Pd Ia Ca Rt C0 M0 MO M (PE & HE & HX). pose proof (proj1 Ao) as Wo. destruct HX as [(St & L & HX) | [Sp _]]; [| destruct (spent_stop_x _ _ _ _ _ Wd Wo Pd Ia M Sp)].
  pose proof (mv_x_records _ _ _ _ _ Wd Wo Ia M) as R. destruct Ca as (T & N & A & So & To). pose proof R as (R1 & _ & R3 & _).
  pose proof (mv_x_cases _ _ _ _ _ Wd Wo Ia T N A To M) as (g & rg & Hg & Lg & Nx & Eg & D).
  pose proof (proj1 (settled_keys _) St g Hg) as [Pg _]. specialize (Pg Lg). pose proof ulp_pos as U. rewrite (price_q_ok _ _ Eg) in Pg.
  assert (B2 : (num (glbl_rp (fst b)) <= num (glbl_rp (fst a)))%Q). { destruct D as [(Er & _) | (_ & D2 & _ & _ & _ & _ & (_ & _ & D9 & _))]; [rewrite Er; lra | auto]. }
  assert (C1 : dval (hmm_c (fst a)) = 0 \/ curved (hmm_c (fst a))) by (rewrite HE; exact C0).
  pose proof (fun ME => mv_x_pays _ _ _ _ _ m Wd Ao O1 Ia T N A Rt C1 M M0 MO ME) as Fa.
  unfold pays_y in *. set (p := fst a) in *. set (p' := fst b) in *. set (K := slack_y (all_liq p0) (num ro) m) in *.
  assert (Ln : (0 <= num (glbl_liq p))%Q) by apply N. destruct (slack_y_mono (num (glbl_liq p)) (all_liq p0) (num ro) m ltac:(lra) Ln (liq_le_all _ _ T L PE) M0) as [K0 K1]. fold K in K1.
  assert (TX : (m * m * (dX p0 p' * (1 - ulp12)) == m * m * (dX p0 p * (1 - ulp12)) + m * m * (dX p p' * (1 - ulp12)))%Q) by (unfold dX; ring). assert (TY : (out_y p0 p' == out_y p0 p + out_y p p')%Q) by (unfold out_y; ring).
  assert (ST : (m <= num (glbl_rp p'))%Q -> (m * m * (dX p p' * (1 - ulp12)) <= out_y p p' + K)%Q).
  { intros ME. destruct (Fa ME) as [F | F]; [| lra]. destruct (idle_y _ _ F) as [F1 F2]. rewrite F1, F2. lra. }
  split; [congruence|]. split; [congruence|]. assert (B0 : (0 <= K * below p)%Q) by (apply Qmult_le_0_compat; [lra | apply qlen_nn]).
  destruct D as [(Er & (Wt & Wl) & D) | (D1 & D2 & D3 & D4 & D5 & D6 & D7)].
  - destruct (cross_settled_down p p' g rg T So R Hg Lg Eg Er Wt) as [St' Bl]. pose proof (down_ok p p' g T Hg Lg Nx L R1 Wl Wt) as L'.
    left. split; [exact St'|]. split; [exact L'|]. intros ME. specialize (HX ltac:(lra)). specialize (ST ME). apply (SwapFair.mul_mono K) in Bl; [| lra]. lra.
  - right. split; [split; auto |]. intros ME. specialize (HX ltac:(lra)). specialize (ST ME). lra.
Qed.
Lemma pays_x_step : forall p0 orc dx ro m a b, wf dx -> at_s 12 ro -> (1 <= num ro)%Q -> 0 < mant dx -> inv_y a -> carried dx a -> (0 <= num (fee_rate (fst a)))%Q -> dval (hmm_c p0) = 0 \/ curved (hmm_c p0) ->
  (num ro <= m)%Q -> mv_y orc dx ro a b -> pays_x p0 dx (num ro) m a -> pays_x p0 dx (num ro) m b.
Proof.
  intros p0 orc dx ro m a b Wd Ao O1 Pd Ia Ca Rt C0 MO M (PE & HE & HX). pose proof (proj1 Ao) as Wo. destruct HX as [(St & L & HX) | [Sp _]]; [| destruct (spent_stop_y _ _ _ _ _ Wd Wo Pd Ia M Sp)].
  pose proof (mv_y_records _ _ _ _ _ Wd Wo Ia M) as R. destruct Ca as (T & N & A & So & To). pose proof R as (R1 & _ & R3 & _).
  pose proof (mv_y_cases _ _ _ _ _ Wd Wo Ia T N A M) as (g & rg & Hg & Lg & Nx & Eg & D).
  pose proof (proj1 (settled_keys _) St g Hg) as [_ Pg]. specialize (Pg Lg). pose proof ulp_pos as U. rewrite (price_q_ok _ _ Eg) in Pg.
  assert (B2 : (num (glbl_rp (fst a)) <= num (glbl_rp (fst b)))%Q). { destruct D as [(Er & _) | (_ & D2 & _ & _ & _ & (_ & D9 & _))]; [rewrite Er; lra | auto]. }
  assert (C1 : dval (hmm_c (fst a)) = 0 \/ curved (hmm_c (fst a))) by (rewrite HE; exact C0).
  pose proof (fun ME => mv_y_pays _ _ _ _ _ m Wd Ao O1 Ia T N A Rt C1 M MO ME) as Fa.
  unfold pays_x in *. set (p := fst a) in *. set (p' := fst b) in *. set (K := slack_x (all_liq p0) (num ro) m) in *.
  assert (Ln : (0 <= num (glbl_liq p))%Q) by apply N. destruct (slack_x_mono (num (glbl_liq p)) (all_liq p0) (num ro) m ltac:(lra) Ln (liq_le_all _ _ T L PE) ltac:(lra)) as [K0 K1]. fold K in K1.
  assert (TX : (dY p0 p' == dY p0 p + dY p p')%Q) by (unfold dY; ring). assert (TY : (m * m * out_x p0 p' == m * m * out_x p0 p + m * m * out_x p p')%Q) by (unfold out_x; ring).
  assert (ST : (num (glbl_rp p') <= m)%Q -> (dY p p' <= m * m * out_x p p' + K)%Q).
  { intros ME. destruct (Fa ME) as [F | F]; [| lra]. destruct (idle_x _ _ F) as [F1 F2]. rewrite F1, F2. lra. }
  split; [congruence|]. split; [congruence|]. assert (B0 : (0 <= K * above p)%Q) by (apply Qmult_le_0_compat; [lra | apply qlen_nn]).
  destruct D as [(Er & (Wt & Wl) & D) | (D1 & D2 & D3 & D4 & D5 & D6)].
  - destruct (cross_settled_up p p' g rg T So R Hg Lg Eg Er Wt) as [St' Bl]. pose proof (up_ok p p' g T Lg Nx L R1 Wl Wt) as L'.
    left. split; [exact St'|]. split; [exact L'|]. intros ME. specialize (HX ltac:(lra)). specialize (ST ME). apply (SwapFair.mul_mono K) in Bl; [| lra]. lra.
  - right. split; [split; auto |]. intros ME. specialize (HX ltac:(lra)). specialize (ST ME). lra.
Qed.
Theorem swap_x_price_floor : forall orc p dx ro p' o, reachable orc p -> settled p -> liq_inv p -> wf dx -> at_s 12 ro -> (1 <= num ro)%Q -> dval (hmm_c p) = 0 \/ curved (hmm_c p) -> execute_swap_from_x orc p dx ro = Ok (p', o) ->
  let m := Qmin (num ro) (num (glbl_rp p')) in
  (m * m * ((num (so_recv o) - num (so_fee o)) * (1 - ulp12)) <= - num (so_send o) + slack_y (all_liq p) (num ro) m * (qlen (ticks p) + 1))%Q.
Proof.
  intros orc p dx ro p' o Hr St L Wd Ao O1 C0 H m. pose proof (proj1 Ao) as Wo. pose proof (reachable_nn _ _ Hr) as (W & _). destruct (swap_x_chain _ _ _ _ _ _ H W Wd Wo) as (Pd & s' & C & _).
  destruct (swap_x_accounting _ _ _ _ _ _ W Wd Wo H) as (A1 & A2 & A3 & A4 & _).
  assert (MO : (m <= num ro)%Q) by apply Q.le_min_l. assert (ME : (m <= num (glbl_rp p'))%Q) by apply Q.le_min_r.
  assert (Inv : inv_x (p', s') /\ carried dx (p', s')).
  { refine (chain_inv _ _ (fun c => inv_x c /\ carried dx c) _ _ _ C _).
    - intros a b (I1 & I2) M. csplit; [exact (mv_x_inv _ _ _ _ _ Wd Wo I1 M) | exact (carried_x _ _ _ _ _ Wd Wo I1 I2 M)].
    - csplit; [apply (inv_start p W) | exact (carried0 _ _ _ Hr)]. }
  destruct Inv as (_ & (_ & N' & _)). pose proof (rp_one _ N') as E1. cbn [fst] in E1.
  assert (M0 : (0 <= m)%Q) by (unfold m; apply Q.min_glb; lra).
  assert (X : inv_x (p', s') /\ carried dx (p', s') /\ (0 <= num (fee_rate p'))%Q /\ pays_y p dx (num ro) m (p', s')).
  { refine (chain_inv _ _ (fun c => inv_x c /\ carried dx c /\ (0 <= num (fee_rate (fst c)))%Q /\ pays_y p dx (num ro) m c) _ _ _ C _).
    - intros a b (I1 & I2 & I3 & I4) M. csplit; [exact (mv_x_inv _ _ _ _ _ Wd Wo I1 M) | exact (carried_x _ _ _ _ _ Wd Wo I1 I2 M) | rewrite (rate_x _ _ _ _ _ Wd Wo I1 M); exact I3 | exact (pays_y_step _ _ _ _ _ _ _ Wd Ao O1 Pd I1 I2 I3 C0 M0 MO M I4)].
    - csplit; [apply (inv_start p W) | exact (carried0 _ _ _ Hr) | exact (reachable_rate _ _ Hr) |]. unfold pays_y; cbn [fst snd]. split; [reflexivity|]. split; [reflexivity|]. left. csplit; auto. intros _. unfold dX, out_y.
      assert (Z : (m * m * ((num (rx p) - num (rx p)) * (1 - ulp12)) == 0)%Q) by ring. lra. }
  destruct X as (_ & _ & _ & _ & _ & X). cbn [fst snd] in X. pose proof (below_all p) as B. set (K := slack_y (all_liq p) (num ro) m) in *.
  pose proof (reachable_ticks _ _ Hr) as T. pose proof (covering_all p 0 T) as [V1 V2].
  assert (K0 : (0 <= K)%Q) by (apply (slack_y_mono (all_liq p) (all_liq p)); lra). apply (SwapFair.mul_mono K) in B; auto.
  assert (B0 : (0 <= K * below p')%Q) by (apply Qmult_le_0_compat; [lra | apply qlen_nn]).
  assert (DX : (num (so_recv o) - num (so_fee o) == dX p p')%Q) by (unfold dX; lra). assert (DY : (- num (so_send o) == out_y p p')%Q) by (unfold out_y; lra).
  rewrite DX, DY. destruct X as [(_ & _ & X) | (_ & X)]; specialize (X ME); lra.
Qed.
Theorem swap_y_price_cap : forall orc p dy ro p' o, reachable orc p -> settled p -> liq_inv p -> wf dy -> at_s 12 ro -> (1 <= num ro)%Q -> dval (hmm_c p) = 0 \/ curved (hmm_c p) -> execute_swap_from_y orc p dy ro = Ok (p', o) ->
  let m := Qmax (num ro) (num (glbl_rp p')) in
  (num (so_recv o) - num (so_fee o) <= m * m * - num (so_send o) + slack_x (all_liq p) (num ro) m * (qlen (ticks p) + 1))%Q.
Proof.
  intros orc p dx ro p' o Hr St L Wd Ao O1 C0 H m. pose proof (proj1 Ao) as Wo. pose proof (reachable_nn _ _ Hr) as (W & _). destruct (swap_y_chain _ _ _ _ _ _ H W Wd Wo) as (Pd & s' & C & _).
  destruct (swap_y_accounting _ _ _ _ _ _ W Wd Wo H) as (A1 & A2 & A3 & A4 & _).
  assert (MO : (num ro <= m)%Q) by apply Q.le_max_l. assert (ME : (num (glbl_rp p') <= m)%Q) by apply Q.le_max_r.
  assert (X : inv_y (p', s') /\ carried dx (p', s') /\ (0 <= num (fee_rate p'))%Q /\ pays_x p dx (num ro) m (p', s')).
  { refine (chain_inv _ _ (fun c => inv_y c /\ carried dx c /\ (0 <= num (fee_rate (fst c)))%Q /\ pays_x p dx (num ro) m c) _ _ _ C _).
    - intros a b (I1 & I2 & I3 & I4) M. csplit; [exact (mv_y_inv _ _ _ _ _ Wd Wo I1 M) | exact (carried_y _ _ _ _ _ Wd Wo I1 I2 M) | rewrite (rate_y _ _ _ _ _ Wd Wo I1 M); exact I3 | exact (pays_x_step _ _ _ _ _ _ _ Wd Ao O1 Pd I1 I2 I3 C0 MO M I4)].
    - csplit; [apply (inv_start p W) | exact (carried0 _ _ _ Hr) | exact (reachable_rate _ _ Hr) |]. unfold pays_x; cbn [fst snd]. split; [reflexivity|]. split; [reflexivity|]. left. csplit; auto. intros _. unfold dY, out_x.
      assert (Z : (m * m * (num (rx p) + num (x_adj p) - num (rx p) - num (x_adj p)) == 0)%Q) by ring. lra. }
  destruct X as (_ & _ & _ & _ & _ & X). cbn [fst snd] in X. pose proof (above_all p) as B. set (K := slack_x (all_liq p) (num ro) m) in *.
  pose proof (reachable_ticks _ _ Hr) as T. pose proof (covering_all p 0 T) as [V1 V2].
  assert (K0 : (0 <= K)%Q) by (apply (slack_x_mono (all_liq p) (all_liq p)); lra). apply (SwapFair.mul_mono K) in B; auto.
  assert (B0 : (0 <= K * above p')%Q) by (apply Qmult_le_0_compat; [lra | apply qlen_nn]).
  assert (DX : (num (so_recv o) - num (so_fee o) == dY p p')%Q) by (unfold dY; lra). assert (DY : (- num (so_send o) == out_x p p')%Q) by (unfold out_x; lra).
  rewrite DX, DY. destruct X as [(_ & _ & X) | (_ & X)]; specialize (X ME); lra.
Qed.
