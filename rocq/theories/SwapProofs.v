(** Accounting, bounds, price direction and untouched records for completed swaps. *)
From Coq Require Import ZArith QArith List Bool Lia Lqa String Sorted.
From Verif Require Import Base BaseLemmas DecimalModel DecimalSpec DecimalProofs PowProofs WfProofs MathModel TickProofs TickLoop PoolModel PoolWf SwapLoop.
Import ListNotations.
Open Scope Z_scope.

Lemma add_q : forall a b c, d_add a b = Ok c -> (num c == num a + num b)%Q.
Proof.
  intros a b c H. destruct (add_m _ _ _ H) as [H1 [H2 H3]]. unfold num. rewrite H1, H2, H3, inject_Z_plus. unfold Qdiv. ring.
Qed.
Lemma sub_q : forall a b c, d_sub a b = Ok c -> (num c == num a - num b)%Q.
Proof.
  intros a b c H. destruct (sub_m _ _ _ H) as [H1 [H2 H3]]. unfold num. rewrite H1, H2, H3.
  unfold Z.sub. rewrite inject_Z_plus, inject_Z_opp. unfold Qdiv. ring.
Qed.
Lemma num_zero12 : (num (mkD 0 12 false) == 0)%Q. Proof. reflexivity. Qed.

(** ** Accounting *)
Local Open Scope Q_scope.
Definition acct_x (a b : pool * swp) : Prop :=
  let (p, s) := a in let (p', s') := b in
  num (rx p') - num (rx p) == (num (s_in s') - num (s_in s)) - (num (s_fee s') - num (s_fee s)) /\
  num (x_fee p') - num (x_fee p) == num (s_fee s') - num (s_fee s) /\
  num (ry p') - num (ry p) == (num (s_out s') - num (s_out s)) - (num (s_adj s') - num (s_adj s)) /\
  num (y_adj p') - num (y_adj p) == num (s_adj s') - num (s_adj s) /\
  y_fee p' = y_fee p /\ x_adj p' = x_adj p.
Definition acct_y (a b : pool * swp) : Prop :=
  let (p, s) := a in let (p', s') := b in
  num (ry p') - num (ry p) == (num (s_in s') - num (s_in s)) - (num (s_fee s') - num (s_fee s)) /\
  num (y_fee p') - num (y_fee p) == num (s_fee s') - num (s_fee s) /\
  num (rx p') - num (rx p) == (num (s_out s') - num (s_out s)) - (num (s_adj s') - num (s_adj s)) /\
  num (x_adj p') - num (x_adj p) == num (s_adj s') - num (s_adj s) /\
  x_fee p' = x_fee p /\ y_adj p' = y_adj p.

Definition same_funds (p q : pool) : Prop :=
  rx q = rx p /\ ry q = ry p /\ x_adj q = x_adj p /\ y_adj q = y_adj p /\ x_fee q = x_fee p /\ y_fee q = y_fee p.
Lemma cross_funds : forall p t l2r p', cross_tick p t l2r = Ok p' -> same_funds p p'.
Proof.
  intros p t l2r p' H. destruct (cross_inv _ _ _ _ H) as (ts & fx & fy & hx & hy & nt & L & C1 & C2 & C3 & C4 & C5 & C6 & C7 & C8 & C9 & ->).
  unfold same_funds; cbn. auto 10.
Qed.
Lemma after_funds : forall w gtk l2r p1 p', after_mid w gtk l2r p1 p' -> same_funds p1 p'.
Proof.
  intros w gtk l2r p1 p' H. unfold after_mid in H. destruct (w_cross w); [| subst; unfold same_funds; auto 10].
  destruct H as [_ H]. destruct (tm_get gtk (ticks p1)); [eapply cross_funds; eauto | subst; unfold same_funds; auto 10].
Qed.

Ltac qs := repeat match goal with
  | H : d_add ?a ?b = Ok ?c |- _ => apply add_q in H
  | H : d_sub ?a ?b = Ok ?c |- _ => apply sub_q in H
  end.
Lemma mv_x_acct : forall orc dx ro a b, mv_x orc dx ro a b -> acct_x a b.
Proof.
  intros orc dx ro a b M. inversion M as [p s tk rp p' H1 H2 H3 H4 H5 | p s f gtk p' s' H1 H2 H3 H4 H5]; subst; unfold acct_x.
  - destruct (cross_funds _ _ _ _ H5) as (-> & -> & -> & -> & -> & ->). cbn. csplit; auto; try ring.
  - destruct (step_x_inv _ _ _ _ _ _ _ _ H5) as (rest & w & p1 & E1 & E2 & E3 & E4 & E5).
    destruct (after_funds _ _ _ _ _ E5) as (-> & -> & -> & -> & -> & ->).
    destruct E3 as (nx & y1 & ny & nya & nxf & fx & hy & M1 & M2 & M3 & M4 & M5 & M6 & M7 & ->).
    destruct E4 as (rest' & c1 & ck & i1 & i2 & o2 & a2 & f2 & T1 & T2 & T3 & T4 & T5 & T6 & T7 & T8 & T9 & ->).
    cbn. qs. csplit; auto; lra.
Qed.
Lemma mv_y_acct : forall orc dx ro a b, mv_y orc dx ro a b -> acct_y a b.
Proof.
  intros orc dx ro a b M. inversion M as [p s tk rp p' H1 H2 H3 H4 H5 | p s gtk p' s' H1 H2 H3 H4 H5]; subst; unfold acct_y.
  - destruct (cross_funds _ _ _ _ H5) as (-> & -> & -> & -> & -> & ->). cbn. csplit; auto; try ring.
  - destruct (step_y_inv _ _ _ _ _ _ _ _ H5) as (rest & w & p1 & E1 & E2 & E3 & E4 & E5).
    destruct (after_funds _ _ _ _ _ E5) as (-> & -> & -> & -> & -> & ->).
    destruct E3 as (nx & y1 & ny & nya & nxf & fx & hy & M1 & M2 & M3 & M4 & M5 & M6 & M7 & ->).
    destruct E4 as (rest' & c1 & ck & i1 & i2 & o2 & a2 & f2 & T1 & T2 & T3 & T4 & T5 & T6 & T7 & T8 & T9 & ->).
    cbn. qs. csplit; auto; lra.
Qed.
Lemma chain_acct_x : forall orc dx ro a b, chain (mv_x orc dx ro) a b -> acct_x a b.
Proof.
  intros orc dx ro a b C. induction C as [[p s] | [p s] [p1 s1] [p2 s2] M C IH].
  - cbn. csplit; auto; ring.
  - apply mv_x_acct in M. cbn in M, IH |- *. destruct M as (M1 & M2 & M3 & M4 & M5 & M6), IH as (I1 & I2 & I3 & I4 & I5 & I6).
    csplit; try congruence; lra.
Qed.
Lemma chain_acct_y : forall orc dx ro a b, chain (mv_y orc dx ro) a b -> acct_y a b.
Proof.
  intros orc dx ro a b C. induction C as [[p s] | [p s] [p1 s1] [p2 s2] M C IH].
  - cbn. csplit; auto; ring.
  - apply mv_y_acct in M. cbn in M, IH |- *. destruct M as (M1 & M2 & M3 & M4 & M5 & M6), IH as (I1 & I2 & I3 & I4 & I5 & I6).
    csplit; try congruence; lra.
Qed.

Lemma swap_out_inv : forall a b c d e f o, swap_out_new a b c d e f = Ok o ->
  o = mkSO a b c d e f /\ is_negative a = false /\ is_positive b = false /\ (is_positive a && is_zero b)%bool = false /\ (is_zero a && negb (is_zero b))%bool = false /\
  is_negative c = false /\ is_negative d = false /\ is_negative e = false /\ is_negative f = false.
Proof.
  intros a b c d e f o H. unfold swap_out_new in H.
  destruct (is_negative a); [discriminate |]. destruct (is_positive b); [discriminate |]. destruct (is_positive a && is_zero b)%bool; [discriminate |].
  destruct (is_zero a && negb (is_zero b))%bool; [discriminate |]. destruct (is_negative c || is_negative d)%bool eqn:E1; [discriminate |].
  destruct (is_negative e || is_negative f)%bool eqn:E2; [discriminate |]. injection H as <-. apply orb_false_iff in E1, E2. tauto.
Qed.
Lemma finish_x_out : forall p s p' o, finish_x p s = Ok (p', o) ->
  so_recv o = s_in s /\ so_send o = s_out s /\ so_adj o = s_adj s /\ so_fee o = s_fee s /\ d_pow (glbl_rp p) 2 = Ok (so_end o) /\
  is_negative (s_in s) = false /\ is_positive (s_out s) = false /\ (is_positive (s_in s) && is_zero (s_out s))%bool = false /\
  (is_zero (s_in s) && negb (is_zero (s_out s)))%bool = false /\ is_negative (s_adj s) = false /\ is_negative (s_fee s) = false.
Proof.
  intros p s p' o H. unfold finish_x in H. bd H a E1. bd H b E2. bd H c E3. injection H as _ <-. apply swap_out_inv in E3.
  destruct E3 as (-> & E3). cbn. tauto.
Qed.
Lemma finish_y_out : forall p s p' o, finish_y p s = Ok (p', o) ->
  so_recv o = s_in s /\ so_send o = s_out s /\ so_adj o = s_adj s /\ so_fee o = s_fee s /\ d_pow (glbl_rp p) 2 = Ok (so_end o) /\
  is_negative (s_in s) = false /\ is_positive (s_out s) = false /\ (is_positive (s_in s) && is_zero (s_out s))%bool = false /\
  (is_zero (s_in s) && negb (is_zero (s_out s)))%bool = false /\ is_negative (s_adj s) = false /\ is_negative (s_fee s) = false.
Proof.
  intros p s p' o H. unfold finish_y in H. bd H a E1. bd H b E2. bd H c E3. injection H as _ <-. apply swap_out_inv in E3.
  destruct E3 as (-> & E3). cbn. tauto.
Qed.

Theorem swap_x_accounting : forall orc p dx ro p' o, pool_wf p -> wf dx -> wf ro -> execute_swap_from_x orc p dx ro = Ok (p', o) ->
  num (rx p') + num (x_fee p') == num (rx p) + num (x_fee p) + num (so_recv o) /\
  num (x_fee p') == num (x_fee p) + num (so_fee o) /\
  num (ry p') + num (y_adj p') == num (ry p) + num (y_adj p) + num (so_send o) /\
  num (y_adj p') == num (y_adj p) + num (so_adj o) /\
  y_fee p' = y_fee p /\ x_adj p' = x_adj p.
Proof.
  intros orc p dx ro p' o W Wd Wo H. destruct (swap_x_chain _ _ _ _ _ _ H W Wd Wo) as (_ & s' & C & _ & F & _).
  apply chain_acct_x in C. cbn in C. destruct C as (C1 & C2 & C3 & C4 & C5 & C6). pose proof num_zero12.
  destruct (finish_x_out _ _ _ _ F) as (-> & -> & -> & -> & _). csplit; auto; lra.
Qed.
Theorem swap_y_accounting : forall orc p dx ro p' o, pool_wf p -> wf dx -> wf ro -> execute_swap_from_y orc p dx ro = Ok (p', o) ->
  num (ry p') + num (y_fee p') == num (ry p) + num (y_fee p) + num (so_recv o) /\
  num (y_fee p') == num (y_fee p) + num (so_fee o) /\
  num (rx p') + num (x_adj p') == num (rx p) + num (x_adj p) + num (so_send o) /\
  num (x_adj p') == num (x_adj p) + num (so_adj o) /\
  x_fee p' = x_fee p /\ y_adj p' = y_adj p.
Proof.
  intros orc p dx ro p' o W Wd Wo H. destruct (swap_y_chain _ _ _ _ _ _ H W Wd Wo) as (_ & s' & C & _ & F & _).
  apply chain_acct_y in C. cbn in C. destruct C as (C1 & C2 & C3 & C4 & C5 & C6). pose proof num_zero12.
  destruct (finish_y_out _ _ _ _ F) as (-> & -> & -> & -> & _). csplit; auto; lra.
Qed.

Lemma liq_wf : forall p, pool_wf p -> wf (glbl_liq p). Proof. intros p W. apply W. Qed.
Lemma srp_wf : forall s, s_wf s -> wf (s_rp s). Proof. intros s W. apply W. Qed.

(** ** Bounds *)
Lemma num_sign : forall d, wf d -> (0 <= num d <-> (0 <= mant d)%Z) /\ (num d <= 0 <-> (mant d <= 0)%Z) /\ (num d == 0 <-> mant d = 0%Z).
Proof.
  intros d W. pose proof W as [_ S]. set (z := mkD 0 (dscale d) false). assert (Wz : wf z) by (split; cbn; lia).
  assert (Z : num z == 0) by (unfold num, mant, z; cbn; unfold Qdiv; ring).
  pose proof (num_le z d Wz eq_refl) as A. pose proof (num_le d z W eq_refl) as B. pose proof (num_eq d z W eq_refl) as C.
  rewrite Z in A, B, C. change (mant z) with 0%Z in *. auto.
Qed.
Local Open Scope Z_scope.
(** Running totals: never more taken than offered, fees never more than taken. *)
Definition tot_ok (dx : decimal) (s : swp) : Prop :=
  dscale (s_in s) = 12 /\ dscale (s_fee s) = 12 /\ 0 <= mant (s_fee s) <= mant (s_in s) /\ 0 <= mant (s_adj s) /\ mant (s_out s) <= 0 /\ (mant (s_in s) = 0 \/ (dscale dx = 12 /\ mant (s_in s) <= mant dx)).
Lemma tally_tot : forall dx s w s', tally dx s w s' -> wf dx -> s_wf s -> w_wf w -> tot_ok dx s ->
  0 <= mant (w_recv w) /\ mant (w_send w) <= 0 /\ 0 <= mant (w_adj w) /\ 0 <= mant (w_fee w) -> tot_ok dx s'.
Proof.
  intros dx s w s' (rest & c1 & ck & i1 & i2 & o2 & a2 & f2 & T1 & T2 & T3 & T4 & T5 & T6 & T7 & T8 & T9 & ->) Wd (S1 & S2 & S3 & S4 & S5) (V1 & V2 & V3 & V4 & V5 & V6)
    (O1 & O1' & O2 & O3 & O4 & O5) (P1 & P2 & P3 & P4).
  wfs. apply is_neg_f in T4; [| apply wf_nn; auto].
  apply add_m in T5, T6, T7, T8, T9. apply sub_m in T1, T2, T3. unfold tot_ok; cbn [s_in s_fee s_adj s_out].
  csplit; try lia.
Qed.
Lemma chain_tot_x : forall orc dx ro a b, wf dx -> wf ro -> chain (mv_x orc dx ro) a b -> inv_x a -> tot_ok dx (snd a) -> tot_ok dx (snd b).
Proof.
  intros orc dx ro a b Wd Wo C I T.
  assert (G : inv_x b /\ tot_ok dx (snd b)); [| tauto].
  apply (chain_inv _ _ (fun c => inv_x c /\ tot_ok dx (snd c))) with (2 := C); auto. clear - Wd Wo. intros a b (I & T) M. split; [exact (mv_x_inv _ _ _ _ _ Wd Wo I M) |].
  pose proof I as (I1 & I2 & I3 & I4). inversion M as [p s tk rp p' H1 H2 H3 H4 H5 | p s f gtk p' s' H1 H2 H3 H4 H5]; subst; cbn [fst snd] in *; [exact T |].
  destruct (find_left _ _ _ H4) as [K1 K2]. destruct (step_x_facts _ _ _ _ _ _ _ _ H5 I1 I2 Wd Wo K1) as (w & p1 & (rest & R1 & R2 & R3) & F2 & F3 & F4 & F5 & F6 & F7 & F8).
  destruct (within_x_facts _ _ _ _ _ _ _ _ R3 I1 (srp_wf _ I2) (liq_wf _ I1) R2 Wo (key_nn _ _ I1 K1)) as (rpg & cp & G1 & G2 & G3 & G4 & G5 & _).
  eapply tally_tot; eauto. tauto.
Qed.
Lemma chain_tot_y : forall orc dx ro a b, wf dx -> wf ro -> chain (mv_y orc dx ro) a b -> inv_y a -> tot_ok dx (snd a) -> tot_ok dx (snd b).
Proof.
  intros orc dx ro a b Wd Wo C I T.
  assert (G : inv_y b /\ tot_ok dx (snd b)); [| tauto].
  apply (chain_inv _ _ (fun c => inv_y c /\ tot_ok dx (snd c))) with (2 := C); auto. clear - Wd Wo. intros a b (I & T) M. split; [exact (mv_y_inv _ _ _ _ _ Wd Wo I M) |].
  pose proof I as (I1 & I2 & I3 & I4). inversion M as [p s tk rp p' H1 H2 H3 H4 H5 | p s gtk p' s' H1 H2 H3 H4 H5]; subst; cbn [fst snd] in *; [exact T |].
  destruct (find_right _ _ _ H4) as [K1 K2]. destruct (step_y_facts _ _ _ _ _ _ _ _ H5 I1 I2 Wd Wo K1) as (w & p1 & (rest & R1 & R2 & R3) & F2 & F3 & F4 & F5 & F6 & F7 & F8).
  destruct (within_y_facts _ _ _ _ _ _ _ _ R3 I1 (srp_wf _ I2) (liq_wf _ I1) R2 Wo (key_nn _ _ I1 K1)) as (rpg & cp & G1 & G2 & G3 & G4 & G5 & _).
  eapply tally_tot; eauto. tauto.
Qed.

Lemma tot0 : forall dx p, tot_ok dx (s0 p).
Proof. intros dx p. unfold tot_ok, s0, mant; cbn. csplit; auto; lia. Qed.

(** No active tick lies at or below the current tick (rounded down to the spacing grid) / above the current tick. *)
Definition no_active_below (p : pool) : Prop := forall t ts, In (t, ts) (ticks p) -> glbl_tick p / spacing p * spacing p < t.
Definition no_active_above (p : pool) : Prop := forall t ts, In (t, ts) (ticks p) -> t <= glbl_tick p.

Lemma end_bounds : forall dx s o, wf dx -> s_wf s -> 0 < mant dx -> tot_ok dx s -> so_recv o = s_in s -> so_send o = s_out s -> so_adj o = s_adj s -> so_fee o = s_fee s ->
  (is_positive (s_in s) && is_zero (s_out s))%bool = false -> (is_zero (s_in s) && negb (is_zero (s_out s)))%bool = false ->
  (0 <= num (so_fee o) /\ num (so_fee o) <= num (so_recv o) /\ num (so_recv o) <= num dx /\ num (so_send o) <= 0 /\ 0 <= num (so_adj o) /\
  (num (so_recv o) == 0 -> num (so_send o) == 0) /\ (0 < num (so_recv o) -> num (so_send o) < 0))%Q.
Proof.
  intros dx s o Wd (S1 & S2 & S3 & S4 & S5) Pd (O1 & O1' & O2 & O3 & O4 & O5) -> -> -> -> F1 F2.
  destruct (num_sign _ S1) as (A1 & A2 & A3). destruct (num_sign _ S2) as (B1 & B2 & B3). destruct (num_sign _ S4) as (C1 & C2 & C3). destruct (num_sign _ S3) as (D1 & D2 & D3).
  csplit.
  - apply C1; lia.
  - apply num_le; auto; try congruence; lia.
  - destruct O5 as [O5 | [O5 O6]]; [| apply num_le; auto; congruence]. apply A3 in O5. rewrite O5. apply num_sign; auto. lia.
  - apply B2; auto.
  - apply D1; auto.
  - intros H. apply A3 in H. apply is_zero_m in H. rewrite H in F2. cbn in F2. b2p. apply is_zero_m in F2. apply B3. auto.
  - intros H. apply Qnot_le_lt. intros G. assert (E : (num (s_out s) == 0)%Q) by (apply B3; apply B1 in G; lia). apply B3, is_zero_m in E.
    rewrite E, andb_true_r in F1. apply is_pos_f in F1; [| apply wf_nn; auto]. apply A2 in F1. lra.
Qed.
Lemma stop_lt : forall dx s, wf dx -> s_wf s -> 0 < mant dx -> (num (s_in s) < num dx)%Q -> d_lt (s_in s) dx = Ok false -> False.
Proof.
  intros dx s Wd (S1 & _) Hd L H. destruct (lt_m _ _ _ (wf_nn _ S1) (wf_nn _ Wd) H) as [E [_ [G _]]]. specialize (G eq_refl).
  apply num_lt in L; auto. lia.
Qed.
Lemma in_keys : forall p t ts, In (t, ts) (ticks p) -> In t (keys p).
Proof. intros p t ts H. apply (in_map fst) in H. auto. Qed.

Theorem swap_x_bounds : forall orc p dx ro p' o, pool_wf p -> wf dx -> wf ro -> execute_swap_from_x orc p dx ro = Ok (p', o) ->
  (0 <= num (so_fee o) /\ num (so_fee o) <= num (so_recv o) /\ num (so_recv o) <= num dx /\ num (so_send o) <= 0 /\ 0 <= num (so_adj o) /\
  (num (so_recv o) == 0 -> num (so_send o) == 0) /\ (0 < num (so_recv o) -> num (so_send o) < 0) /\
  (num (so_recv o) < num dx -> no_active_below p'))%Q.
Proof.
  intros orc p dx ro p' o W Wd Wo H. destruct (swap_x_chain _ _ _ _ _ _ H W Wd Wo) as (Pd & s' & C & I & F & N).
  pose proof (chain_tot_x _ _ _ _ _ Wd Wo C (proj1 (inv_start p W)) (tot0 dx p)) as T. cbn [snd] in T.
  destruct (finish_x_out _ _ _ _ F) as (F1 & F2 & F3 & F4 & _ & _ & _ & F5 & F6 & _).
  destruct I as (I1 & I2 & _). destruct (end_bounds dx s' o Wd I2 Pd T F1 F2 F3 F4 F5 F6) as (B1 & B2 & B3 & B4 & B5 & B6 & B7).
  csplit; auto. intros L. rewrite F1 in L. destruct N as [N | [_ N]]. { exfalso. exact (stop_lt dx s' Wd I2 Pd L N). }
  intros t ts Hi. apply N. eapply in_keys; eauto.
Qed.
Theorem swap_y_bounds : forall orc p dx ro p' o, pool_wf p -> wf dx -> wf ro -> execute_swap_from_y orc p dx ro = Ok (p', o) ->
  (0 <= num (so_fee o) /\ num (so_fee o) <= num (so_recv o) /\ num (so_recv o) <= num dx /\ num (so_send o) <= 0 /\ 0 <= num (so_adj o) /\
  (num (so_recv o) == 0 -> num (so_send o) == 0) /\ (0 < num (so_recv o) -> num (so_send o) < 0) /\
  (num (so_recv o) < num dx -> no_active_above p'))%Q.
Proof.
  intros orc p dx ro p' o W Wd Wo H. destruct (swap_y_chain _ _ _ _ _ _ H W Wd Wo) as (Pd & s' & C & I & F & N).
  pose proof (chain_tot_y _ _ _ _ _ Wd Wo C (proj2 (inv_start p W)) (tot0 dx p)) as T. cbn [snd] in T.
  destruct (finish_y_out _ _ _ _ F) as (F1 & F2 & F3 & F4 & _ & _ & _ & F5 & F6 & _).
  destruct I as (I1 & I2 & _). destruct (end_bounds dx s' o Wd I2 Pd T F1 F2 F3 F4 F5 F6) as (B1 & B2 & B3 & B4 & B5 & B6 & B7).
  csplit; auto. intros L. rewrite F1 in L. destruct N as [N | [_ N]]. { exfalso. exact (stop_lt dx s' Wd I2 Pd L N). }
  intros t ts Hi. apply N. eapply in_keys; eauto.
Qed.

(** ** Untouched records *)
Definition same_records (p q : pool) : Prop :=
  positions q = positions p /\ spacing q = spacing p /\ hmm_c q = hmm_c p /\ fee_rate q = fee_rate p /\
  map (fun kt => (fst kt, t_net (snd kt), t_gross (snd kt))) (ticks q) = map (fun kt => (fst kt, t_net (snd kt), t_gross (snd kt))) (ticks p).
Lemma set_records : forall k ts fx fy hx hy m, StronglySorted Z.lt (map fst m) -> tm_get k m = Some ts ->
  map (fun kt => (fst kt, t_net (snd kt), t_gross (snd kt))) (tm_set k (crossed ts fx fy hx hy) m) = map (fun kt => (fst kt, t_net (snd kt), t_gross (snd kt))) m.
Proof.
  induction m as [| [a b] m IH]; cbn; intros S H; [discriminate |]. inversion S as [| ? ? S1 S2]; subst.
  destruct (k =? a) eqn:E; b2p. { injection H as <-. subst. reflexivity. }
  pose proof (in_map fst _ _ (tm_get_in _ _ _ H)) as Hi. cbn in Hi. rewrite Forall_forall in S2. specialize (S2 _ Hi). replace (k <? a) with false by (symmetry; apply Z.ltb_ge; lia).
  cbn. rewrite IH; auto.
Qed.
Lemma cross_records : forall p t l2r p', cross_tick p t l2r = Ok p' -> StronglySorted Z.lt (keys p) -> same_records p p'.
Proof.
  intros p t l2r p' H S. destruct (cross_inv _ _ _ _ H) as (ts & fx & fy & hx & hy & nt & L & C1 & C2 & C3 & C4 & C5 & C6 & C7 & C8 & C9 & ->).
  unfold same_records. cbn. csplit; auto. apply set_records; auto.
Qed.
Lemma same_records_refl : forall p, same_records p p. Proof. intros; unfold same_records; auto 10. Qed.
Lemma same_records_trans : forall p q r, same_records p q -> same_records q r -> same_records p r.
Proof. unfold same_records; intros p q r (A1 & A2 & A3 & A4 & A5) (B1 & B2 & B3 & B4 & B5). csplit; congruence. Qed.
Lemma mv_x_records : forall orc dx ro a b, wf dx -> wf ro -> inv_x a -> mv_x orc dx ro a b -> same_records (fst a) (fst b).
Proof.
  intros orc dx ro a b Wd Wo (I1 & I2 & _) M. inversion M as [p s tk rp p' H1 H2 H3 H4 H5 | p s f gtk p' s' H1 H2 H3 H4 H5]; subst; cbn [fst snd] in *.
  - apply cross_records in H5; [exact H5 | apply (keys_sorted p I1)].
  - destruct (find_left _ _ _ H4) as [K1 K2]. destruct (step_x_facts _ _ _ _ _ _ _ _ H5 I1 I2 Wd Wo K1) as (w & p1 & F1 & F2 & F3 & F4 & F5 & F6 & F7 & F8).
    apply same_records_trans with p1.
    + destruct F3 as (nx & y1 & ny & nya & nxf & fx & hy & M1 & M2 & M3 & M4 & M5 & M6 & M7 & ->). unfold same_records; cbn; auto 10.
    + destruct (w_cross w); [| subst; apply same_records_refl]. eapply cross_records; [apply F8 | apply keys_sorted; auto].
Qed.
Lemma mv_y_records : forall orc dx ro a b, wf dx -> wf ro -> inv_y a -> mv_y orc dx ro a b -> same_records (fst a) (fst b).
Proof.
  intros orc dx ro a b Wd Wo (I1 & I2 & _) M. inversion M as [p s tk rp p' H1 H2 H3 H4 H5 | p s gtk p' s' H1 H2 H3 H4 H5]; subst; cbn [fst snd] in *.
  - apply cross_records in H5; [exact H5 | apply (keys_sorted p I1)].
  - destruct (find_right _ _ _ H4) as [K1 K2]. destruct (step_y_facts _ _ _ _ _ _ _ _ H5 I1 I2 Wd Wo K1) as (w & p1 & F1 & F2 & F3 & F4 & F5 & F6 & F7 & F8).
    apply same_records_trans with p1.
    + destruct F3 as (nx & y1 & ny & nya & nxf & fx & hy & M1 & M2 & M3 & M4 & M5 & M6 & M7 & ->). unfold same_records; cbn; auto 10.
    + destruct (w_cross w); [| subst; apply same_records_refl]. eapply cross_records; [apply F8 | apply keys_sorted; auto].
Qed.
Theorem swap_x_records : forall orc p dx ro p' o, pool_wf p -> wf dx -> wf ro -> execute_swap_from_x orc p dx ro = Ok (p', o) -> same_records p p' /\ pool_wf p'.
Proof.
  intros orc p dx ro p' o W Wd Wo H. destruct (swap_x_chain _ _ _ _ _ _ H W Wd Wo) as (Pd & s' & C & I & F & N). split; [| apply I].
  apply (chain_rel _ _ inv_x (fun a b => same_records (fst a) (fst b))) with (4 := C).
  - intros; apply same_records_refl.
  - intros a b c Ha Hm Hb Hq. eapply same_records_trans; [| exact Hq]. exact (mv_x_records _ _ _ _ _ Wd Wo Ha Hm).
  - intros a b Ha Hm. exact (mv_x_inv _ _ _ _ _ Wd Wo Ha Hm).
  - apply inv_start; auto.
Qed.
Theorem swap_y_records : forall orc p dx ro p' o, pool_wf p -> wf dx -> wf ro -> execute_swap_from_y orc p dx ro = Ok (p', o) -> same_records p p' /\ pool_wf p'.
Proof.
  intros orc p dx ro p' o W Wd Wo H. destruct (swap_y_chain _ _ _ _ _ _ H W Wd Wo) as (Pd & s' & C & I & F & N). split; [| apply I].
  apply (chain_rel _ _ inv_y (fun a b => same_records (fst a) (fst b))) with (4 := C).
  - intros; apply same_records_refl.
  - intros a b c Ha Hm Hb Hq. eapply same_records_trans; [| exact Hq]. exact (mv_y_records _ _ _ _ _ Wd Wo Ha Hm).
  - intros a b Ha Hm. exact (mv_y_inv _ _ _ _ _ Wd Wo Ha Hm).
  - apply inv_start; auto.
Qed.

(** ** Price direction *)
(** The active tick an X-in swap heads for: the greatest one at or below the current tick rounded down to the grid; a Y-in swap
    heads for the least one above the current tick. *)
Definition next_below (p : pool) (t : Z) : Prop :=
  In t (keys p) /\ t <= glbl_tick p / spacing p * spacing p /\ forall k, In k (keys p) -> k <= glbl_tick p / spacing p * spacing p -> k <= t.
Definition next_above (p : pool) (t : Z) : Prop :=
  In t (keys p) /\ glbl_tick p < t /\ forall k, In k (keys p) -> glbl_tick p < k -> t <= k.

Lemma find_first_sorted : forall (R : Z -> Z -> Prop) f l k, StronglySorted R l -> find f l = Some k -> forall x, In x l -> f x = true -> x = k \/ R k x.
Proof.
  induction l as [| a l IH]; cbn; intros k S H x Hx Fx; [contradiction |]. inversion S as [| ? ? S1 S2]; subst.
  destruct (f a) eqn:E.
  - injection H as <-. destruct Hx as [-> | Hx]; [auto |]. rewrite Forall_forall in S2. auto.
  - destruct Hx as [-> | Hx]; [congruence |]. eauto.
Qed.
Lemma next_left : forall p f gtk, pool_wf p -> tk_to_possible_tk (glbl_tick p) (spacing p) false = Ok f -> find (fun tk => tk <=? f) (rev (keys p)) = Some gtk -> next_below p gtk.
Proof.
  intros p f gtk W E H. pose proof W as (Hs & (_ & _ & Hg & _) & _). destruct (possible_down_le _ _ _ Hg Hs E) as [_ [-> _]].
  destruct (find_left _ _ _ H) as [K1 K2]. unfold next_below. csplit; auto. intros k Hk L. pose proof (find_first_sorted _ _ _ _ (sorted_rev _ (keys_sorted _ W)) H k) as G.
  rewrite <- in_rev in G. destruct (G Hk); [apply Z.leb_le; auto | lia | lia].
Qed.
Lemma next_right : forall p gtk, pool_wf p -> find (fun tk => glbl_tick p <? tk) (keys p) = Some gtk -> next_above p gtk.
Proof.
  intros p gtk W H. destruct (find_right _ _ _ H) as [K1 K2]. unfold next_above. csplit; auto. intros k Hk L. pose proof (find_first_sorted _ _ _ _ (keys_sorted _ W) H k) as G.
  destruct (G Hk); [apply Z.ltb_lt; auto | lia | lia].
Qed.

(** How prices evolve during a swap: in-range steps move the price towards the next active tick without passing it; while out of
    range (no liquidity) the price jumps to the price of the nearest active tick in the swap's direction. *)
Inductive price_path_down : pool -> pool -> Prop :=
| down_done : forall p, price_path_down p p
| down_in_range : forall p q r t pt, (0 < num (glbl_liq p))%Q -> next_below p t -> tick_to_rp t = Ok pt ->
    (num pt <= num (glbl_rp q))%Q -> (num (glbl_rp q) <= num (glbl_rp p))%Q -> price_path_down q r -> price_path_down p r
| down_gap : forall p q r t, (num (glbl_liq p) <= 0)%Q -> In t (keys p) -> (t <= glbl_tick p /\ forall k, In k (keys p) -> k <= glbl_tick p -> k <= t) -> tick_to_rp t = Ok (glbl_rp q) ->
    price_path_down q r -> price_path_down p r.
Inductive price_path_up : pool -> pool -> Prop :=
| up_done : forall p, price_path_up p p
| up_in_range : forall p q r t pt, (0 < num (glbl_liq p))%Q -> next_above p t -> tick_to_rp t = Ok pt ->
    (num (glbl_rp q) <= num pt)%Q -> (num (glbl_rp p) <= num (glbl_rp q))%Q -> price_path_up q r -> price_path_up p r
| up_gap : forall p q r t, (num (glbl_liq p) <= 0)%Q -> In t (keys p) -> (glbl_tick p < t /\ forall k, In k (keys p) -> glbl_tick p < k -> t <= k) -> tick_to_rp t = Ok (glbl_rp q) ->
    price_path_up q r -> price_path_up p r.

Lemma pos_q : forall d, wf d -> is_positive d = true -> (0 < num d)%Q.
Proof. intros d W H. apply is_pos_m in H; [| apply wf_nn; auto]. apply Qnot_le_lt. intros G. apply num_sign in G; auto. lia. Qed.
Lemma npos_q : forall d, wf d -> is_positive d = false -> (num d <= 0)%Q.
Proof. intros d W H. apply is_pos_f in H; [| apply wf_nn; auto]. apply num_sign; auto. Qed.

Lemma step_x_price : forall orc p s dx ro gtk p' s', step_x orc p s dx ro gtk = Ok (p', s') -> pool_wf p -> s_wf s -> wf dx -> wf ro -> In gtk (keys p) -> glbl_rp p = s_rp s ->
  exists pt, tick_to_rp gtk = Ok pt /\ (num pt <= num (glbl_rp p') <= num (glbl_rp p))%Q.
Proof.
  intros orc p s dx ro gtk p' s' H W Ws Wd Wo K1 E.
  destruct (step_x_facts _ _ _ _ _ _ _ _ H W Ws Wd Wo K1) as (w & p1 & (rest & R1 & R2 & R3) & F2 & F3 & F4 & F5 & F6 & F7 & F8).
  pose proof (key_nn _ _ W K1) as Hg.
  destruct (within_x_facts _ _ _ _ _ _ _ _ R3 W (srp_wf _ Ws) (liq_wf _ W) R2 Wo Hg) as (rpg & cp & G1 & G2 & G3 & G4 & G5 & G6 & G7 & G8 & G9 & G10 & G11 & G12 & G13 & G14 & G15 & G16).
  assert (RP : glbl_rp p' = w_rp w).
  { destruct F3 as (nx & y1 & ny & nya & nxf & fx & hy & M1 & M2 & M3 & M4 & M5 & M6 & M7 & ->). destruct (w_cross w); [| subst; reflexivity].
    destruct F8 as [_ F8]. destruct (cross_tick_to _ _ _ F8 Hg (proj1 W)) as [_ [_ [_ C]]]. rewrite C. reflexivity. }
  destruct (tick_rp_wf _ _ G1) as [Wg [Sg _]].
  exists rpg. split; auto. rewrite RP, E. destruct G4 as (V1 & V2 & V3 & V4). destruct (w_cross w).
  - destruct G16 as [-> _]. split; [lra |]. apply num_le; auto. congruence.
  - split; apply num_le; auto; try lia; congruence.
Qed.
Lemma step_y_price : forall orc p s dx ro gtk p' s', step_y orc p s dx ro gtk = Ok (p', s') -> pool_wf p -> s_wf s -> wf dx -> wf ro -> In gtk (keys p) -> glbl_rp p = s_rp s ->
  exists pt, tick_to_rp gtk = Ok pt /\ (num (glbl_rp p) <= num (glbl_rp p') <= num pt)%Q.
Proof.
  intros orc p s dx ro gtk p' s' H W Ws Wd Wo K1 E.
  destruct (step_y_facts _ _ _ _ _ _ _ _ H W Ws Wd Wo K1) as (w & p1 & (rest & R1 & R2 & R3) & F2 & F3 & F4 & F5 & F6 & F7 & F8).
  pose proof (key_nn _ _ W K1) as Hg.
  destruct (within_y_facts _ _ _ _ _ _ _ _ R3 W (srp_wf _ Ws) (liq_wf _ W) R2 Wo Hg) as (rpg & cp & G1 & G2 & G3 & G4 & G5 & G6 & G7 & G8 & G9 & G10 & G11 & G12 & G13 & G14 & G15 & G16).
  assert (RP : glbl_rp p' = w_rp w).
  { destruct F3 as (nx & y1 & ny & nya & nxf & fx & hy & M1 & M2 & M3 & M4 & M5 & M6 & M7 & ->). destruct (w_cross w); [| subst; reflexivity].
    destruct F8 as [_ F8]. destruct (cross_tick_to_r _ _ _ F8) as [_ [_ C]]. rewrite C. reflexivity. }
  destruct (tick_rp_wf _ _ G1) as [Wg [Sg _]].
  exists rpg. split; auto. rewrite RP, E. destruct G4 as (V1 & V2 & V3 & V4). pose proof Ws as (_ & _ & _ & _ & Wr). destruct (w_cross w).
  - destruct G16 as [-> _]. split; [| lra]. apply num_le; auto. congruence.
  - split; apply num_le; auto; try lia; congruence.
Qed.
Theorem swap_x_price_path : forall orc p dx ro p' o, pool_wf p -> wf dx -> wf ro -> execute_swap_from_x orc p dx ro = Ok (p', o) -> price_path_down p p'.
Proof.
  intros orc p dx ro p' o W Wd Wo H. destruct (swap_x_chain _ _ _ _ _ _ H W Wd Wo) as (Pd & s' & C & I & F & N).
  apply (chain_rel _ _ inv_x (fun a b => price_path_down (fst a) (fst b))) with (4 := C).
  - intros; constructor.
  - intros a b c (I1 & I2 & I3 & I4) M Ib P. inversion M as [q s tk rp q' H1 H2 H3 H4 H5 | q s f gtk q' s1 H1 H2 H3 H4 H5]; subst; cbn [fst snd] in *.
    + destruct (gap_x_wf _ _ _ _ I1 H2 H4 H5) as (G1 & G2 & _). eapply down_gap; [| exact H2 | auto | rewrite G2; exact H4 | exact P]. apply npos_q; auto. apply liq_wf; auto.
    + destruct (find_left _ _ _ H4) as [K1 K2]. destruct (step_x_price _ _ _ _ _ _ _ _ H5 I1 I2 Wd Wo K1 I3) as (pt & P1 & P2 & P3).
      eapply down_in_range; [| eapply next_left; eauto | exact P1 | exact P2 | exact P3 | exact P]. apply pos_q; auto. apply liq_wf; auto.
  - intros a b Ha Hm. exact (mv_x_inv _ _ _ _ _ Wd Wo Ha Hm).
  - apply inv_start; auto.
Qed.
Theorem swap_y_price_path : forall orc p dx ro p' o, pool_wf p -> wf dx -> wf ro -> execute_swap_from_y orc p dx ro = Ok (p', o) -> price_path_up p p'.
Proof.
  intros orc p dx ro p' o W Wd Wo H. destruct (swap_y_chain _ _ _ _ _ _ H W Wd Wo) as (Pd & s' & C & I & F & N).
  apply (chain_rel _ _ inv_y (fun a b => price_path_up (fst a) (fst b))) with (4 := C).
  - intros; constructor.
  - intros a b c (I1 & I2 & I3 & I4) M Ib P. inversion M as [q s tk rp q' H1 H2 H3 H4 H5 | q s gtk q' s1 H1 H2 H3 H4 H5]; subst; cbn [fst snd] in *.
    + destruct (gap_y_wf _ _ _ _ I1 H2 H4 H5) as (G1 & G2 & _). eapply up_gap; [| exact H2 | auto | rewrite G2; exact H4 | exact P]. apply npos_q; auto. apply liq_wf; auto.
    + destruct (find_right _ _ _ H4) as [K1 K2]. destruct (step_y_price _ _ _ _ _ _ _ _ H5 I1 I2 Wd Wo K1 I3) as (pt & P1 & P2 & P3).
      eapply up_in_range; [| eapply next_right; eauto | exact P1 | exact P3 | exact P2 | exact P]. apply pos_q; auto. apply liq_wf; auto.
  - intros a b Ha Hm. exact (mv_y_inv _ _ _ _ _ Wd Wo Ha Hm).
  - apply inv_start; auto.
Qed.
