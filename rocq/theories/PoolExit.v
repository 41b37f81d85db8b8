(** When deposits and withdrawals complete. *)
From Coq Require Import ZArith QArith List Bool Lia Lqa String Sorted.
From Verif Require Import Base BaseLemmas DecimalModel DecimalSpec DecimalProofs PowProofs WfProofs MathModel MathProofs TickProofs PoolModel PoolWf LpProofs SwapLoop SwapProofs PoolInv PoolNonneg PoolLp PoolFees PoolRange ChainLemmas PoolGain PoolScale.
Import ListNotations.
Open Scope Z_scope.

(** Liquidity recorded at a tick, growth a position has been paid up to (both 0 if there is no record). *)
Definition tgross (p : pool) (t : Z) : Z := match tm_get t (ticks p) with Some ts => mant (t_gross ts) | None => 0 end.
Definition tnet (p : pool) (t : Z) : Z := match tm_get t (ticks p) with Some ts => mant (t_net ts) | None => 0 end.
Definition paid_to (p : pool) (key : pkey) (k : fkind) : Z := match pm_get key (positions p) with Some q => mant (p_fee q k) | None => 0 end.

Lemma weighted_split : forall w k q m, pm_get k m = Some q -> exists m', (forall k' q', In (k', q') m' -> In (k', q') m) /\ (weighted w m == kw w k * num (p_liq q) + weighted w m')%Q.
Proof.
  intros w k q m. induction m as [| [a b] m IH]; intros H; cbn [pm_get] in H; [discriminate |].
  destruct (pkey_eqb k a) eqn:E.
  - apply pkey_eqb_eq in E. injection H as <-. subst a. exists m. split; [intros; right; auto |]. apply weighted_cons.
  - destruct (IH H) as (m' & I & Q). exists ((a, b) :: m'). split; [intros k' q' [X | X]; [left; auto | right; auto] |]. rewrite !weighted_cons, Q. ring.
Qed.
Lemma weighted_nn : forall w m, (forall k q, In (k, q) m -> (0 <= num (p_liq q))%Q) -> (forall a b, (0 <= w a b)%Q) -> (0 <= weighted w m)%Q.
Proof.
  intros w m H W. induction m as [| [[[u lo] up] q] m IH]; cbn [weighted]; [lra |]. assert (0 <= weighted w m)%Q by (apply IH; intros; eapply H; right; eauto).
  assert (0 <= w lo up * num (p_liq q))%Q by (apply Qmult_le_0_compat; [auto | eapply H; left; eauto]). lra.
Qed.
Lemma pos_nn : forall orc p k q, reachable orc p -> In (k, q) (positions p) -> (0 <= num (p_liq q))%Q /\ 0 <= mant (p_liq q) /\ dscale (p_liq q) = 12 /\ wf (p_liq q).
Proof.
  intros orc p [[u lo] up] q R I. pose proof (reachable_ticks _ _ R) as (W & _ & P & _). destruct (P _ _ _ _ I) as (_ & _ & _ & M). destruct W as (_ & _ & _ & (_ & W) & _). destruct (W _ _ I) as (Wq & _).
  split; [apply num_sign; auto |]. split; auto. split; auto. exact (proj1 (proj1 (proj2 (proj2 (reachable_all12 _ _ R))) _ _ I)).
Qed.
Lemma weighted_ge : forall orc p w u lo up, reachable orc p -> (forall a b, (0 <= w a b)%Q) -> (w lo up * liq_of p (u, lo, up) <= weighted w (positions p))%Q.
Proof.
  intros orc p w u lo up R W. unfold liq_of. destruct (pm_get (u, lo, up) (positions p)) as [q |] eqn:E.
  - destruct (weighted_split w _ _ _ E) as (m' & I & Q). rewrite Q. cbn [kw]. assert (0 <= weighted w m')%Q by (apply weighted_nn; auto; intros k q' J; eapply pos_nn; eauto). lra.
  - assert (0 <= weighted w (positions p))%Q by (apply weighted_nn; auto; intros k q' J; eapply pos_nn; eauto). lra.
Qed.
Lemma q_of_m : forall a b, (inject_Z a * ulp12 <= inject_Z b * ulp12)%Q <-> a <= b.
Proof.
  intros a b. split; intros H.
  - apply Qmult_le_r in H; [| reflexivity]. rewrite <- Zle_Qle in H. exact H.
  - apply Qmult_le_compat_r; [| discriminate]. rewrite <- Zle_Qle. exact H.
Qed.
Lemma held_q : forall orc p k, reachable orc p -> (liq_of p k == inject_Z (held p k) * ulp12)%Q.
Proof. intros orc p k R. unfold liq_of, held. destruct (pm_get k (positions p)) as [q |] eqn:E; [| reflexivity]. apply pm_get_in in E. apply num12. eapply pos_nn; eauto. Qed.
Lemma tgross_q : forall orc p t, reachable orc p -> (tick_gross p t == inject_Z (tgross p t) * ulp12 /\ tick_net p t == inject_Z (tnet p t) * ulp12)%Q.
Proof.
  intros orc p t R. unfold tick_gross, tgross, tick_net, tnet. destruct (tm_get t (ticks p)) as [ts |] eqn:E; [| split; reflexivity]. apply tm_get_in in E. destruct (reachable_all12 _ _ R) as (_ & T & _). destruct (T _ _ E) as (T1 & T2 & _).
  split; apply num12; [apply T2 | apply T1].
Qed.
(** Positions bounded by a tick, added up: the tick's gross liquidity bounds the position's, and its net liquidity. *)
Lemma tick_bounds : forall orc p u lo up, reachable orc p -> lo < up ->
  0 <= held p (u, lo, up) <= tgross p lo /\ held p (u, lo, up) <= tgross p up /\
  2 * held p (u, lo, up) <= tgross p lo + tnet p lo /\ 0 <= tgross p lo - tnet p lo /\
  2 * held p (u, lo, up) <= tgross p up - tnet p up /\ 0 <= tgross p up + tnet p up.
Proof.
  intros orc p u lo up R L. pose proof (tick_sums _ _ R) as S. destruct (S lo) as [S1 S2]. destruct (S up) as [S3 S4].
  destruct (tgross_q _ p lo R) as [G1 G2]. destruct (tgross_q _ p up R) as [G3 G4]. pose proof (held_q _ p (u, lo, up) R) as H.
  assert (B : forall b : bool, (0 <= is_b b)%Q) by (intros []; discriminate).
  assert (Add : forall w w' m, (weighted (fun a b => w a b + w' a b) m == weighted w m + weighted w' m)%Q).
  { intros w w' m. induction m as [| [[[? ?] ?] ?] m IH]; cbn [weighted]; [reflexivity |]. rewrite IH. ring. }
  assert (Sub : forall w w' m, (weighted (fun a b => w a b - w' a b) m == weighted w m - weighted w' m)%Q).
  { intros w w' m. induction m as [| [[[? ?] ?] ?] m IH]; cbn [weighted]; [reflexivity |]. rewrite IH. ring. }
  unfold gross_at in S1, S3. unfold net_at in S2, S4. rewrite Add in S1, S3. rewrite Sub in S2, S4.
  pose proof (weighted_ge _ p (fun a _ => is_b (a =? lo)) u lo up R (fun a _ => B (a =? lo))) as A1. pose proof (weighted_ge _ p (fun _ b => is_b (b =? lo)) u lo up R (fun _ b => B (b =? lo))) as A2.
  pose proof (weighted_ge _ p (fun a _ => is_b (a =? up)) u lo up R (fun a _ => B (a =? up))) as A3. pose proof (weighted_ge _ p (fun _ b => is_b (b =? up)) u lo up R (fun _ b => B (b =? up))) as A4.
  cbv beta in *. rewrite Z.eqb_refl in A1, A4. rewrite (proj2 (Z.eqb_neq up lo)) in A2 by lia. rewrite (proj2 (Z.eqb_neq lo up)) in A3 by lia. cbn [is_b] in *.
  assert (H0 : 0 <= held p (u, lo, up)). { unfold held. destruct (pm_get _ _) as [q |] eqn:E; [| lia]. apply pm_get_in in E. eapply pos_nn; eauto. }
  assert (T2 : forall x y : Z, (inject_Z x * ulp12 <= inject_Z y * ulp12)%Q -> x <= y) by (intros; apply q_of_m; auto).
  csplit; auto; apply T2; rewrite ?inject_Z_plus, ?inject_Z_mult; unfold Zminus; rewrite ?inject_Z_plus, ?inject_Z_opp; change (inject_Z 2) with (2#1)%Q; change (inject_Z 0) with 0%Q; lra.
Qed.

Lemma mul_Ok : forall a b, wf a -> wf b -> dscale b = 12 -> dval a * dval b < U128 -> exists c, d_mul a b = Ok c /\ wf c /\ dscale c = dscale a /\ dval c = dval a * dval b / 10 ^ 12 /\ dneg c = xorb (dneg a) (dneg b).
Proof.
  intros a b Wa Wb S H. pose proof (mul_spec a b Wa Wb) as X. destruct (d_mul a b) as [c | | |] eqn:E; cbn in X; try contradiction.
  - exists c. destruct X as (X1 & X2 & _). apply mul_ok_inv in E; auto. rewrite S in E. tauto.
  - exfalso. rewrite S in X. unfold U128 in *. lia.
Qed.
Lemma mul_m : forall a b c, wf a -> wf b -> 0 <= mant a -> 0 <= mant b -> dscale c = 12 -> dval c = dval a * dval b / 10 ^ 12 -> dneg c = xorb (dneg a) (dneg b) -> mant c = mant a * mant b / 10 ^ 12.
Proof.
  intros [va sa na] [vb sb nb] [vc sc nc] Wa Wb. apply wf_nn in Wa, Wb. cbn [dval] in Wa, Wb. unfold mant. cbn. intros Ha Hb _ -> ->. destruct na, nb; cbn; auto.
  - f_equal. lia.
  - assert (va = 0) by lia. subst. rewrite !Z.mul_0_l, Zdiv_0_l. lia.
  - assert (vb = 0) by lia. subst. rewrite !Z.mul_0_r, Zdiv_0_l. lia.
Qed.
Lemma abs_m : forall a, wf a -> 0 <= mant a -> dval a = mant a.
Proof. intros [v s n] W H. apply wf_nn in W. unfold mant in *. cbn in *. destruct n; lia. Qed.

Definition at_tick (p : pool) (t : Z) (m : list (Z * tstate)) : tstate := match tm_get t m with Some ts => ts | None => fresh p t end.
Lemma update_tick_Ok : forall p t d (upper : bool) n g, (forall k, is_negative (g_fee (gs p) k) = false) ->
  d_add (t_net (at_tick p t (ticks p))) (if upper then d_neg d else d) = Ok n -> d_add (t_gross (at_tick p t (ticks p))) d = Ok g -> is_negative g = false -> exists p', update_tick p t d upper = Ok p'.
Proof.
  intros p t d upper n g X H1 H2 H3. unfold update_tick, at_tick in *. destruct (tm_get t (ticks p)) as [ts |] eqn:E; cbn [bind].
  - rewrite E. unfold t_add_net, t_add_gross. rewrite H1. cbn [unwrap bind t_gross]. rewrite H2. cbn [unwrap bind]. rewrite H3. cbn [bind t_gross]. destruct (is_zero g); eauto.
  - unfold initialize_tick. rewrite zero_eq. cbn [bind]. change (mkD 0 12 false) with zero12 in *.
    assert (Y : exists ts, tstate_new zero12 zero12 (t_fx (fresh p t)) (t_fy (fresh p t)) (t_hx (fresh p t)) (t_hy (fresh p t)) = Ok ts /\ ts = fresh p t).
    { unfold tstate_new, fresh. pose proof (X FX) as X1. pose proof (X FY) as X2. pose proof (X HX) as X3. pose proof (X HY) as X4. cbn [g_fee] in *. destruct (t <=? glbl_tick p); cbn [t_fx t_fy t_hx t_hy]; rewrite ?X1, ?X2, ?X3, ?X4; change (is_negative zero12) with false; cbn [orb]; eauto. }
    destruct Y as (ts & Y & ->). assert (Z0 : (if t <=? glbl_tick p then (g_fx (gs p), g_fy (gs p), g_hx (gs p), g_hy (gs p)) else (zero12, zero12, zero12, zero12)) = (t_fx (fresh p t), t_fy (fresh p t), t_hx (fresh p t), t_hy (fresh p t))).
    { unfold fresh. destruct (t <=? glbl_tick p); reflexivity. }
    rewrite Z0, Y. cbn [bind with_ticks ticks]. rewrite tm_get_set_same. unfold t_add_net, t_add_gross. rewrite H1. cbn [unwrap bind t_gross]. rewrite H2. cbn [unwrap bind]. rewrite H3. cbn [bind t_gross]. destruct (is_zero g); eauto.
Qed.

(** Growth counters of positions are never negative. *)
Definition paid_nn (m : list (pkey * pstate)) : Prop := forall k q, In (k, q) m -> forall f, 0 <= mant (p_fee q f).
Lemma fee_rng_nn : forall p lo up k f, fee_rng p lo up k = Ok f -> pool_wf p -> 0 <= mant f.
Proof. intros p lo up k f H W. apply nn_m; [eapply fee_rng_wf; eauto |]. rewrite (fee_rng_inside _ _ _ _ _ H). eapply fee_rng_fails; eauto. Qed.
Lemma set_pos_paid : forall p u lo up d p' paid, set_pos p u lo up d p' paid -> pool_wf p -> paid_nn (positions p) -> paid_nn (positions p').
Proof.
  intros p u lo up d p' paid (nfx & nfy & nhx & nhy & pos' & base & ofx & ofy & ohx & ohy & m1 & m2 & L & R1 & R2 & R3 & R4 & PU & _ & _ & _ & _ & ->) W P k q I f. cbn [positions] in I.
  pose proof (fee_rng_nn _ _ _ _ _ R1 W). pose proof (fee_rng_nn _ _ _ _ _ R2 W). pose proof (fee_rng_nn _ _ _ _ _ R3 W). pose proof (fee_rng_nn _ _ _ _ _ R4 W).
  unfold pos_upd in PU. destruct (pm_get _ _) as [r |].
  - destruct PU as (nl & _ & _ & _ & -> & _). destruct (is_zero nl); [apply pm_del_in in I; eapply P; eauto |]. apply pm_set_in in I. destruct I as [[-> ->] | I]; [destruct f; auto | eapply P; eauto].
  - destruct PU as (_ & -> & _). apply pm_set_in in I. destruct I as [[-> ->] | I]; [destruct f; cbn; lia | eapply P; eauto].
Qed.
Lemma reachable_paid : forall orc p, reachable orc p -> paid_nn (positions p).
Proof.
  intros orc p H. induction H as [rp sp c rate p W1 W2 W3 Hs H | p c p' H IH C R].
  - destruct (pool_new_wf _ _ _ _ _ H W1 W2 W3 Hs) as (_ & _ & -> & _). intros ? ? [].
  - pose proof (proj1 (reachable_ticks _ _ H)) as W. destruct c as [u x y a b | u l a b | d o | d o]; cbn [run_call call_wf] in *; bd R r E; destruct r as [q out]; injection R as <-.
    + destruct (deposit_inv _ _ _ _ _ _ _ _ E) as (lo & up & a1 & b1 & p1 & nx & ny & nxf & nxa & nyf & nya & D1 & D2 & D3 & _ & _ & _ & _ & _ & _ & _ & _ & D12 & _ & _ & _ & _ & _ & _ & _ & _ & _ & _ & ->).
      apply set_position_inv in D12. exact (set_pos_paid _ _ _ _ _ _ _ D12 W IH).
    + destruct (withdraw_inv _ _ _ _ _ _ _ E) as (lo & up & a1 & b1 & p1 & x0 & y0 & nx & ny & nxf & nxa & nyf & nya & D1 & D2 & D3 & _ & _ & _ & _ & D8 & _ & _ & _ & _ & _ & _ & _ & _ & _ & _ & _ & _ & _ & ->).
      apply set_position_inv in D8. exact (set_pos_paid _ _ _ _ _ _ _ D8 W IH).
    + destruct (swap_x_records _ _ _ _ _ _ W (proj1 C) (proj2 C) E) as [(-> & _) _]. exact IH.
    + destruct (swap_y_records _ _ _ _ _ _ W (proj1 C) (proj2 C) E) as [(-> & _) _]. exact IH.
Qed.

Lemma fresh_zero : forall p t, t_net (fresh p t) = zero12 /\ t_gross (fresh p t) = zero12.
Proof. intros p t. unfold fresh. destruct (_ <=? _); auto. Qed.
Lemma at_tick_facts : forall orc p t, reachable orc p -> let ts := at_tick p t (ticks p) in
  (wf (t_net ts) /\ wf (t_gross ts)) /\ (dscale (t_net ts) = 12 /\ dscale (t_gross ts) = 12) /\ mant (t_net ts) = tnet p t /\ mant (t_gross ts) = tgross p t.
Proof.
  intros orc p t R. cbv zeta. unfold at_tick, tnet, tgross. destruct (tm_get t (ticks p)) as [ts |] eqn:E.
  - apply tm_get_in in E. destruct (reachable_all12 _ _ R) as (_ & T & _). destruct (T _ _ E) as ((T1 & _) & (T2 & _) & _). pose proof (proj1 (reachable_ticks _ _ R)) as (_ & _ & (_ & W) & _). destruct (W _ _ E) as (_ & W1 & W2 & _). auto.
  - destruct (fresh_zero p t) as [-> ->]. pose proof zero12_wf. csplit; auto.
Qed.

Theorem set_position_Ok : forall orc p u lo up d (nf : fkind -> decimal), reachable orc p -> wf d -> dscale d = 12 -> 0 <= lo < up ->
  0 <= held p (u, lo, up) + mant d < U128 -> tgross p lo + mant d < U128 -> tgross p up + mant d < U128 ->
  (lo <= glbl_tick p < up -> 0 <= mant (glbl_liq p) + mant d < U128) ->
  (forall k, fee_rng p lo up k = Ok (nf k) /\ paid_to p (u, lo, up) k <= mant (nf k) /\ held p (u, lo, up) * (mant (nf k) - paid_to p (u, lo, up) k) < U128) ->
  exists p' f, set_position p u lo up d = Ok (p', (f FX, f FY, f HX, f HY)) /\
    forall k, wf (f k) /\ dscale (f k) = 12 /\ mant (f k) = held p (u, lo, up) * (mant (nf k) - paid_to p (u, lo, up) k) / 10 ^ 12.
Proof.
  intros orc p u lo up d nf R Wd Sd [L0 L1] B0 B1 B2 B3 F. pose proof (reachable_nn _ _ R) as (W & _ & G & _ & _ & Gl). pose proof (reachable_all12 _ _ R) as ((Lg & _) & _ & P12 & _).
  destruct (tick_bounds _ p u lo up R L1) as (T0 & T1 & T2 & T3 & T4 & T5). destruct (at_tick_facts _ p lo R) as ((A1 & A2) & (A3 & A4) & A5 & A6). destruct (at_tick_facts _ p up R) as ((A7 & A8) & (A9 & A10) & A11 & A12).
  assert (Wn : wf (d_neg d)) by (apply neg_wf; auto). assert (Sn : dscale (d_neg d) = 12) by (rewrite neg_scale; auto). pose proof (neg_m d (wf_nn _ Wd)) as Mn. pose proof (mant_bound _ Wd) as Bd.
  destruct (add_Ok _ _ A1 Wd) as (n1 & N1 & _); [congruence | lia |]. destruct (add_Ok _ _ A2 Wd) as (g1 & N2 & W2 & _ & M2); [congruence | lia |].
  destruct (add_Ok _ _ A7 Wn) as (n2 & N3 & _); [congruence | lia |]. destruct (add_Ok _ _ A8 Wd) as (g2 & N4 & W4 & _ & M4); [congruence | lia |].
  assert (Z2 : is_negative g1 = false) by (apply is_neg_f; [apply wf_nn; auto | lia]). assert (Z4 : is_negative g2 = false) by (apply is_neg_f; [apply wf_nn; auto | lia]).
  unfold set_position. rewrite (proj1 (F FX)), (proj1 (F FY)), (proj1 (F HX)), (proj1 (F HY)). cbn [bind]. rewrite zero_eq. cbn [bind]. change (mkD 0 12 false) with zero12 in *.
  (* the position *)
  assert (X : exists pos' base o, (wf base /\ dscale base = 12 /\ mant base = held p (u, lo, up) /\ (forall k, wf (o k) /\ dscale (o k) = 12 /\ mant (o k) = paid_to p (u, lo, up) k)) /\
    match pm_get (u, lo, up) (positions p) with
    | None => if is_negative d then Panic else let* q := pstate_new d zero12 zero12 zero12 zero12 in Ok (with_positions p (pm_set (u, lo, up) q (positions p)), (zero12, zero12, zero12, zero12), zero12)
    | Some q => let base := p_liq q in if is_negative base then Panic else let* nl := unwrap (d_add base d) in if is_negative d && is_negative nl then Panic
        else let old := (p_fx q, p_fy q, p_hx q, p_hy q) in if is_zero nl then Ok (with_positions p (pm_del (u, lo, up) (positions p)), old, base)
          else let* q' := p_add_liq q d in Ok (with_positions p (pm_set (u, lo, up) (mkP (p_liq q') (nf FX) (nf FY) (nf HX) (nf HY)) (positions p)), old, base)
    end = Ok (with_positions p pos', (o FX, o FY, o HX, o HY), base)).
  { unfold held, paid_to in *. destruct (pm_get (u, lo, up) (positions p)) as [q |] eqn:Q.
    - pose proof (pm_get_in _ _ _ Q) as I. destruct (pos_nn _ _ _ _ R I) as (_ & Q1 & Q2 & Q3). destruct (add_Ok _ _ Q3 Wd) as (nl & E & Wnl & _ & Mnl); [congruence | lia |].
      assert (Z1 : is_negative (p_liq q) = false) by (apply is_neg_f; [apply wf_nn; auto | lia]). assert (Z3 : is_negative nl = false) by (apply is_neg_f; [apply wf_nn; auto | lia]).
      cbv zeta. unfold p_add_liq. rewrite E, Z1. cbn [unwrap bind]. rewrite Z3, andb_false_r. cbn [bind].
      exists (if is_zero nl then pm_del (u, lo, up) (positions p) else pm_set (u, lo, up) (mkP nl (nf FX) (nf FY) (nf HX) (nf HY)) (positions p)), (p_liq q), (p_fee q).
      split; [| destruct (is_zero nl); reflexivity]. csplit; auto. intros k. destruct W as (_ & _ & _ & (_ & W) & _). destruct (W _ _ I) as (_ & V1 & V2 & V3 & V4). split; [destruct k; auto |]. split; auto. apply (P12 _ _ I).
    - assert (Z1 : is_negative d = false) by (apply is_neg_f; [apply wf_nn; auto | lia]). unfold pstate_new. rewrite Z1. change (is_negative zero12) with false. cbn [orb bind].
      exists (pm_set (u, lo, up) (mkP d zero12 zero12 zero12 zero12) (positions p)), zero12, (fun _ => zero12). pose proof zero12_wf. split; [| reflexivity]. csplit; auto. }
  destruct X as (pos' & base & o & (X1 & X2 & X3 & X4) & X5). cbv zeta in X5 |- *. rewrite X5. clear X5. cbn [bind].
  assert (Pn : forall k, 0 <= paid_to p (u, lo, up) k). { intros k. unfold paid_to. destruct (pm_get _ _) as [q |] eqn:Q; [| lia]. apply pm_get_in in Q. exact (reachable_paid _ _ R _ _ Q k). }
  assert (Y : forall k, exists v f, d_sub (nf k) (o k) = Ok v /\ is_negative v = false /\ d_mul base v = Ok f /\ wf f /\ dscale f = 12 /\ mant f = held p (u, lo, up) * (mant (nf k) - paid_to p (u, lo, up) k) / 10 ^ 12).
  { intros k. destruct (F k) as (F1 & F2 & F3). destruct (X4 k) as (O1 & O2 & O3). pose proof (fee_rng_wf _ _ _ _ _ F1 W) as Wk. pose proof (proj1 (fee_rng_12 _ _ _ _ _ F1 W (reachable_all12 _ _ R))) as Sk. pose proof (mant_bound _ Wk). specialize (Pn k).
    destruct (sub_Ok _ _ Wk O1) as (v & V1 & V2 & V3 & V4); [congruence | lia |]. rewrite O3 in V4.
    assert (mant base * mant v < U128) by (rewrite X3, V4; auto).
    destruct (mul_Ok base v X1 V2) as (f & M1 & M2' & M3 & M4' & M5); [congruence | rewrite (abs_m base), (abs_m v) by (auto; lia); auto |].
    exists v, f. csplit; auto; [apply is_neg_f; [apply wf_nn; auto | lia] | congruence |]. rewrite <- V4, <- X3. apply (mul_m base v f); auto; [lia | lia | congruence]. }
  destruct (Y FX) as (v1 & f1 & Y1 & Y2 & Y3 & Y4). destruct (Y FY) as (v2 & f2 & Y5 & Y6 & Y7 & Y8). destruct (Y HX) as (v3 & f3 & Y9 & Y10 & Y11 & Y12). destruct (Y HY) as (v4 & f4 & Y13 & Y14 & Y15 & Y16).
  rewrite Y1, Y5, Y9, Y13. cbn [unwrap bind]. rewrite Y2, Y6, Y10, Y14. cbn [negb assert bind].
  assert (Gn : forall k, is_negative (g_fee (gs p) k) = false). { intros k. assert (wf (g_fee (gs p) k)) by (destruct W as (_ & (V1 & V2 & V3 & V4 & V5 & V6 & V7) & _); destruct k; auto). apply is_neg_f; [apply wf_nn; auto | apply nn_m; auto]. }
  destruct (update_tick_Ok (with_positions p pos') lo d false n1 g1 Gn N1 N2 Z2) as (p1 & U1). rewrite U1. cbn [bind]. destruct (update_tick_inv _ _ _ _ _ U1) as (m1 & K1 & ->).
  assert (Lk : tm_get up m1 = tm_get up (ticks p)) by (apply (tick_upd_get _ _ _ _ _ _ up K1); lia).
  destruct (update_tick_Ok (with_ticks (with_positions p pos') m1) up d true n2 g2 Gn) as (p2 & U2); auto.
  { unfold at_tick in *. cbn [ticks with_ticks]. rewrite Lk. exact N3. } { unfold at_tick in *. cbn [ticks with_ticks]. rewrite Lk. exact N4. }
  rewrite U2. cbn [bind]. destruct (update_tick_inv _ _ _ _ _ U2) as (m2 & K2 & ->).
  assert (V : exists p3, (if (lo <=? glbl_tick (with_ticks (with_ticks (with_positions p pos') m1) m2)) && (glbl_tick (with_ticks (with_ticks (with_positions p pos') m1) m2) <? up) then add_glbl_liq (with_ticks (with_ticks (with_positions p pos') m1) m2) d else Ok (with_ticks (with_ticks (with_positions p pos') m1) m2)) = Ok p3).
  { unfold glbl_tick. cbn [gs with_ticks with_positions]. fold (glbl_tick p). destruct ((lo <=? glbl_tick p) && (glbl_tick p <? up)) eqn:Hin; [| eauto]. apply andb_true_iff in Hin. destruct Hin as [I1 I2]. apply Z.leb_le in I1. apply Z.ltb_lt in I2. specialize (B3 (conj I1 I2)).
    unfold add_glbl_liq, g_add_liq. cbn [gs with_ticks with_positions]. assert (Wl : wf (g_liq (gs p))) by apply W. destruct (add_Ok (g_liq (gs p)) d Wl Wd) as (L & E1 & E2 & _ & E3); [rewrite (proj1 Lg); auto | unfold glbl_liq in *; lia |].
    rewrite E1. cbn [unwrap bind]. rewrite (proj2 (is_neg_f L (wf_nn _ E2))) by (unfold glbl_liq in *; lia). cbn [bind]. eauto. }
  destruct V as (p3 & V). rewrite V. cbn [bind]. rewrite Y3, Y7, Y11, Y15. cbn [bind]. exists p3, (fun k => match k with FX => f1 | FY => f2 | HX => f3 | HY => f4 end). split; [reflexivity |]. intros k. destruct k; auto.
Qed.

Lemma lt_false : forall pot f, wf pot -> wf f -> ok12 pot -> dscale f = 12 -> 0 <= mant f <= mant pot -> d_lt pot f = Ok false.
Proof.
  intros [vp sp np] [vf sf nf] Wp Wf [Sp Cp] Sf H. apply wf_nn in Wp, Wf. unfold mant, canonical, d_lt in *. cbn in *. subst. rewrite Z.eqb_refl. cbn [negb].
  destruct np; [specialize (Cp eq_refl); destruct nf; lia |]. cbn [andb negb]. destruct nf; cbn [andb]; auto. f_equal. apply Z.ltb_ge. lia.
Qed.
Lemma lt_or_false : forall a b c d, d_lt a b = Ok false -> d_lt c d = Ok false -> lt_or a b c d = Ok false.
Proof. intros a b c d H1 H2. unfold lt_or. rewrite H1. cbn [unwrap bind]. rewrite H2. reflexivity. Qed.

(** What is left of an amount after the withdrawal charge of 10^-12. *)
Definition cut (z : Z) : Z := z * (10 ^ 12 - 1) / 10 ^ 12.
Lemma cut_Ok : forall x, nonneg x -> dscale x = 12 -> dval x * 10 ^ 12 < U128 -> exists z, d_mul x (mkD 999999999999 12 false) = Ok z /\ wf z /\ dscale z = 12 /\ mant z = cut (dval x) /\ 0 <= cut (dval x) <= dval x.
Proof.
  intros x [W N] S H. pose proof (wf_nn _ W) as P. destruct (mul_Ok x (mkD 999999999999 12 false) W) as (z & E & Wz & Sz & Vz & Nz); [split; cbn; lia | reflexivity | cbn [dval]; lia |].
  exists z. rewrite N in Nz. cbn in Nz. cbn [dval] in Vz. unfold mant, cut. rewrite Nz, Vz. csplit; auto; [congruence | apply Z.div_pos; lia |]. apply Z.div_le_upper_bound; lia.
Qed.

(** No intermediate product of the amount formulas exceeds u128. *)
Definition computable (p : pool) (lo up l : Z) : Prop :=
  let a := tick_price lo in let b := tick_price up in let m := Z.max (Z.min (mant (glbl_rp p)) b) a in
  m * b < 2 ^ 128 /\ l * (b - m) < 2 ^ 128 /\ l * (m - a) < 2 ^ 128.
(** Fees and adjustments owed to a position, and the pots they are paid from. *)
Definition owed (p : pool) (key : pkey) (nf : fkind -> decimal) (k : fkind) : Z := held p key * (mant (nf k) - paid_to p key k) / 10 ^ 12.
Definition pot (p : pool) (k : fkind) : Z := match k with FX => mant (x_fee p) | FY => mant (y_fee p) | HX => mant (x_adj p) | HY => mant (y_adj p) end.

Lemma d12_nn : forall x, 0 <= x -> x * SC < U128 -> nonneg (d12 x).
Proof. intros x H1 H2. pose proof SCpos. assert (x <= x * SC) by nia. split; [split; cbn [d12 dval dscale]; unfold U128 in *; lia | reflexivity]. Qed.

Theorem withdraw_Ok : forall orc p user l rpa rpb lo up nf, reachable orc p -> wf rpa -> wf rpb -> range_of p rpa rpb lo up -> up < 2 ^ 19 ->
  nonneg l -> dscale l = 12 -> dval l <= held p (user, lo, up) ->
  (lo <= glbl_tick p < up -> dval l <= mant (glbl_liq p)) ->
  (forall k, fee_rng p lo up k = Ok (nf k) /\ paid_to p (user, lo, up) k <= mant (nf k) /\ held p (user, lo, up) * (mant (nf k) - paid_to p (user, lo, up) k) < 2 ^ 128 /\ owed p (user, lo, up) nf k <= pot p k) ->
  computable p lo up (dval l) ->
  cut (claim_x p (user, lo, up) (dval l)) <= mant (rx p) -> cut (claim_y p (user, lo, up) (dval l)) <= mant (ry p) ->
  cut (claim_x p (user, lo, up) (dval l)) + owed p (user, lo, up) nf FX + owed p (user, lo, up) nf HX < 2 ^ 128 ->
  cut (claim_y p (user, lo, up) (dval l)) + owed p (user, lo, up) nf FY + owed p (user, lo, up) nf HY < 2 ^ 128 ->
  exists p' o, withdraw p user l rpa rpb = Ok (p', o) /\
    mant (io_x o) = cut (claim_x p (user, lo, up) (dval l)) /\ mant (io_y o) = cut (claim_y p (user, lo, up) (dval l)) /\
    mant (io_fx o) = owed p (user, lo, up) nf FX /\ mant (io_fy o) = owed p (user, lo, up) nf FY /\ mant (io_hx o) = owed p (user, lo, up) nf HX /\ mant (io_hy o) = owed p (user, lo, up) nf HY.
Proof.
  intros orc p user l rpa rpb lo up nf R Wa Wb RG Hu Nl Sl Hl Hg F C B1 B2 B3 B4. pose proof Nl as [Wl Dl]. pose proof (wf_nn _ Wl) as Pl. assert (Ml : mant l = dval l) by (unfold mant; rewrite Dl; auto).
  pose proof (reachable_nn _ _ R) as (W & Fn & _ & _ & _ & _). pose proof (reachable_all12 _ _ R) as (_ & _ & _ & O1 & O2 & O3 & O4 & O5 & O6). pose proof W as (Ws & (Wg & _) & _ & _ & (U1 & U2 & U3 & U4 & U5 & U6) & _).
  destruct Fn as (N1 & N2 & N3 & N4 & N5 & N6). apply nn_m in N1, N2, N3, N4, N5, N6; auto. pose proof SCpos as Hsc.
  pose proof RG as (E1 & E2 & [L0 L1] & _ & _). destruct (tick_defined lo ltac:(lia)) as (a & Ea & _). destruct (tick_defined up ltac:(lia)) as (b & Eb & _).
  destruct (range_prices _ _ _ _ _ _ _ _ R RG Ea Eb) as (P1 & P2 & P3 & P4 & P5 & P6 & P7 & P8 & P9 & P10 & P11 & P12).
  assert (Wn : wf (d_neg l)) by (apply neg_wf; auto). assert (Sn : dscale (d_neg l) = 12) by (rewrite neg_scale; auto). pose proof (neg_m l Pl) as Mn. rewrite Ml in Mn.
  destruct (tick_bounds _ p user lo up R L1) as (T0 & T1 & T2 & T3 & T4 & T5). destruct (at_tick_facts _ p lo R) as ((_ & A2) & _ & _ & A6). destruct (at_tick_facts _ p up R) as ((_ & A8) & _ & _ & A12). pose proof (mant_bound _ A2) as Bz1. pose proof (mant_bound _ A8) as Bz2. pose proof (mant_bound _ Wg) as Bz3. fold (glbl_liq p) in *.
  assert (Hh : held p (user, lo, up) < U128) by lia.
  destruct (set_position_Ok orc p user lo up (d_neg l) nf R Wn Sn ltac:(lia) ltac:(lia) ltac:(lia) ltac:(lia) ltac:(intros I; specialize (Hg I); lia)) as (p1 & f & E3 & Ff).
  { intros k. destruct (F k) as (F1 & F2 & F3 & _). auto. }
  assert (Fk : forall k, wf (f k) /\ dscale (f k) = 12 /\ mant (f k) = owed p (user, lo, up) nf k /\ 0 <= mant (f k) <= pot p k).
  { intros k. destruct (Ff k) as (X1 & X2 & X3). destruct (F k) as (_ & F2 & _ & F4). fold (owed p (user, lo, up) nf k) in X3. csplit; auto; [| lia]. rewrite X3. apply Z.div_pos; nia. }
  destruct (Fk FX) as (G1 & G2 & G3 & G4). destruct (Fk FY) as (G5 & G6 & G7 & G8). destruct (Fk HX) as (G9 & G10 & G11 & G12). destruct (Fk HY) as (G13 & G14 & G15 & G16). cbn [pot] in G4, G8, G12, G16.
  destruct (set_pos_same _ _ _ _ _ _ _ (set_position_inv _ _ _ _ _ _ _ E3)) as (_ & _ & K1 & _ & K2 & K3 & K4 & K5 & K6 & K7).
  (* the amounts *)
  cbn [d12 dval] in P7, P10, P11, P12. set (px := dval (glbl_rp p)) in *.
  assert (Xe : claim_x p (user, lo, up) (dval l) = dval l * (b - cl px a b) / SC * SC / (cl px a b * b / SC)) by (unfold claim_x; rewrite P4, P11, P12, amount_x_cl; reflexivity).
  assert (Ye : claim_y p (user, lo, up) (dval l) = dval l * (cl px a b - a) / SC) by (unfold claim_y; rewrite P4, P11, P12, amount_y_cl; reflexivity).
  assert (C' : cl px a b * b < U128 /\ dval l * (b - cl px a b) < U128 /\ dval l * (cl px a b - a) < U128) by (unfold computable in C; rewrite P4, P11, P12 in C; exact C). destruct C' as (C1 & C2 & C3).
  pose proof (cl_bounds px a b ltac:(lia)) as Cb. set (c := cl px a b) in *. assert (Q : SC <= c * b / SC) by (apply Z.div_le_lower_bound; nia).
  assert (D1 : 0 <= dval l * (b - c) / SC) by (apply Z.div_pos; nia). assert (D2 : dval l * (b - c) / SC * SC <= dval l * (b - c)) by (rewrite Z.mul_comm; apply Z.mul_div_le; lia).
  assert (Ex : x_from_l_rp_rng l (glbl_rp p) (d12 a) (d12 b) = Ok (d12 (claim_x p (user, lo, up) (dval l)))).
  { transitivity (x_from_l_rp_rng (d12 (dval l)) (d12 px) (d12 a) (d12 b)); [unfold px; rewrite <- (d12_eta l), <- (d12_eta (glbl_rp p)) by (auto; apply P1); reflexivity |]. rewrite x12 by (try (unfold px); lia). cbv zeta. fold c. rewrite !(proj2 (Z.ltb_lt _ _)) by lia. rewrite Xe. reflexivity. }
  assert (Ey : y_from_l_rp_rng l (glbl_rp p) (d12 a) (d12 b) = Ok (d12 (claim_y p (user, lo, up) (dval l)))).
  { transitivity (y_from_l_rp_rng (d12 (dval l)) (d12 px) (d12 a) (d12 b)); [unfold px; rewrite <- (d12_eta l), <- (d12_eta (glbl_rp p)) by (auto; apply P1); reflexivity |]. rewrite y12 by (try (unfold px); lia). cbv zeta. fold c. rewrite !(proj2 (Z.ltb_lt _ _)) by lia. rewrite Ye. reflexivity. }
  set (X := claim_x p (user, lo, up) (dval l)) in *. set (Y := claim_y p (user, lo, up) (dval l)) in *.
  assert (X0 : 0 <= X /\ X * SC < U128). { rewrite Xe. split; [apply Z.div_pos; nia |]. apply Z.le_lt_trans with (dval l * (b - c) / SC * SC); [| lia]. set (n := dval l * (b - c) / SC * SC) in *. apply Z.le_trans with (n / (c * b / SC) * (c * b / SC)); [assert (0 <= n / (c * b / SC)) by (apply Z.div_pos; nia); nia | rewrite Z.mul_comm; apply Z.mul_div_le; lia]. }
  assert (Y0 : 0 <= Y /\ Y * SC < U128). { rewrite Ye. split; [apply Z.div_pos; nia |]. apply Z.le_lt_trans with (dval l * (c - a)); [rewrite Z.mul_comm; apply Z.mul_div_le; lia | lia]. }
  destruct (cut_Ok (d12 X)) as (xo & H1 & H2 & H3 & H4 & H5); [apply d12_nn; apply X0 | reflexivity | cbn [d12 dval]; apply X0 |].
  destruct (cut_Ok (d12 Y)) as (yo & H6 & H7 & H8 & H9 & H10); [apply d12_nn; apply Y0 | reflexivity | cbn [d12 dval]; apply Y0 |]. cbn [d12 dval] in H4, H5, H9, H10.
  unfold U128 in *.
  destruct (add_Ok xo (f FX) H2 G1) as (s1 & J1 & V1 & V2 & V3); [congruence | unfold U128; lia |]. destruct (add_Ok s1 (f HX) V1 G9) as (s2 & J2 & _); [congruence | unfold U128; lia |].
  destruct (add_Ok yo (f FY) H7 G5) as (s3 & J3 & V4 & V5 & V6); [congruence | unfold U128; lia |]. destruct (add_Ok s3 (f HY) V4 G13) as (s4 & J4 & _); [congruence | unfold U128; lia |].
  destruct (add_Ok (f FX) (f HX) G1 G9) as (s5 & J5 & _); [congruence | unfold U128; lia |]. destruct (add_Ok (f FY) (f HY) G5 G13) as (s6 & J6 & _); [congruence | unfold U128; lia |].
  pose proof (mant_bound _ U1). pose proof (mant_bound _ U2). pose proof (mant_bound _ U3). pose proof (mant_bound _ U4). pose proof (mant_bound _ U5). pose proof (mant_bound _ U6). 
  destruct (sub_Ok (rx p) xo U1 H2) as (r1 & I1 & _); [rewrite (proj1 O1); auto | unfold U128 in *; lia |]. destruct (sub_Ok (ry p) yo U2 H7) as (r2 & I2 & _); [rewrite (proj1 O2); auto | unfold U128 in *; lia |].
  destruct (sub_Ok (x_fee p) (f FX) U5 G1) as (r3 & I3 & _); [rewrite (proj1 O5); auto | unfold U128 in *; lia |]. destruct (sub_Ok (y_fee p) (f FY) U6 G5) as (r4 & I4 & _); [rewrite (proj1 O6); auto | unfold U128 in *; lia |].
  destruct (sub_Ok (x_adj p) (f HX) U3 G9) as (r5 & I5 & _); [rewrite (proj1 O3); auto | unfold U128 in *; lia |]. destruct (sub_Ok (y_adj p) (f HY) U4 G13) as (r6 & I6 & _); [rewrite (proj1 O4); auto | unfold U128 in *; lia |].
  unfold withdraw. rewrite (proj2 (is_neg_f l Pl)) by lia. cbn [negb assert bind]. unfold rp_to_possible_tick. rewrite E1. cbn [bind]. rewrite E2. cbn [bind]. rewrite (proj2 (Z.ltb_lt lo up) L1). cbn [assert bind]. rewrite Ea, Eb. cbn [bind]. rewrite E3. cbn [bind]. rewrite K1, K2, K3, K4, K5, K6, K7, Ex, Ey. cbn [bind]. rewrite one_eq. cbn [bind]. rewrite adj_eq. cbn [unwrap bind].
  rewrite H1, H6. cbn [bind]. rewrite J1. cbn [unwrap bind]. rewrite J2. cbn [unwrap bind]. rewrite J3. cbn [unwrap bind]. rewrite J4. cbn [unwrap bind].
  rewrite (lt_or_false (rx p) xo (ry p) yo) by (apply lt_false; auto; lia). cbn [bind]. rewrite (lt_or_false (x_fee p) (f FX) (y_fee p) (f FY)) by (apply lt_false; auto). cbn [bind]. rewrite (lt_or_false (x_adj p) (f HX) (y_adj p) (f HY)) by (apply lt_false; auto). cbn [bind].
  rewrite I1, I2, I3, I4, I5, I6, J5, J6. cbn [unwrap bind]. eexists; eexists. split; [reflexivity |]. cbn [io_x io_y io_fx io_fy io_hx io_hy]. csplit; auto.
Qed.

(** ** The same in terms of rational amounts *)
Definition paid_up (p : pool) (key : pkey) (k : fkind) : Q := match pm_get key (positions p) with Some q => num (p_fee q k) | None => 0%Q end.
Definition due (p : pool) (key : pkey) (k : fkind) : Q := let '(_, lo, up) := key in (liq_of p key * (inside p lo up k - paid_up p key k))%Q.
Definition pot_q (p : pool) (k : fkind) : Q := num (match k with FX => x_fee p | FY => y_fee p | HX => x_adj p | HY => y_adj p end).
Definition max12 : Q := (inject_Z (2 ^ 128) * ulp12)%Q.

Lemma uq_lt : forall a b, (inject_Z a * ulp12 < inject_Z b * ulp12)%Q <-> a < b.
Proof. intros a b. split; intros H; [apply Z.nle_gt; intros L; apply (proj2 (q_of_m _ _)) in L; lra | apply Qnot_le_lt; intros L; apply (proj1 (q_of_m _ _)) in L; lia]. Qed.
Lemma floor_div : forall n, (inject_Z (n / 10 ^ 12) <= inject_Z n * ulp12)%Q.
Proof.
  intros n. pose proof (Z.mul_div_le n (10 ^ 12) ltac:(lia)) as H. apply Qmult_le_r with (z := inject_Z (10 ^ 12)); [reflexivity |].
  setoid_replace (inject_Z n * ulp12 * inject_Z (10 ^ 12))%Q with (inject_Z n) by (unfold ulp12; change (inject_Z (10 ^ 12)) with (1000000000000#1)%Q; field). rewrite <- inject_Z_mult, <- Zle_Qle. lia.
Qed.
Lemma paid_q : forall orc p key k, reachable orc p -> (paid_up p key k == inject_Z (paid_to p key k) * ulp12)%Q.
Proof.
  intros orc p key k R. unfold paid_up, paid_to. destruct (pm_get key (positions p)) as [q |] eqn:E; [| reflexivity]. apply pm_get_in in E. apply num12. destruct (reachable_all12 _ _ R) as (_ & _ & P & _). destruct (P _ _ E) as [_ X]. apply X.
Qed.
Theorem withdraw_completes : forall orc p user l rpa rpb lo up, reachable orc p -> wf rpa -> wf rpb -> range_of p rpa rpb lo up -> up < 2 ^ 19 ->
  nonneg l -> dscale l = 12 -> (num l <= liq_of p (user, lo, up))%Q ->
  (lo <= glbl_tick p < up -> (num l <= num (glbl_liq p))%Q) ->
  (forall k, 0 <= inside p lo up k /\ paid_up p (user, lo, up) k <= inside p lo up k /\ due p (user, lo, up) k < max12 * ulp12 /\ due p (user, lo, up) k <= pot_q p k)%Q ->
  computable p lo up (dval l) ->
  (inject_Z (cut (claim_x p (user, lo, up) (dval l))) * ulp12 <= num (rx p) /\ inject_Z (cut (claim_y p (user, lo, up) (dval l))) * ulp12 <= num (ry p))%Q ->
  (num (rx p) + num (x_fee p) + num (x_adj p) < max12 /\ num (ry p) + num (y_fee p) + num (y_adj p) < max12)%Q ->
  exists p' o, withdraw p user l rpa rpb = Ok (p', o).
Proof.
  intros orc p user l rpa rpb lo up R Wa Wb RG Hu Nl Sl Hl Hg F C [B1 B2] [B3 B4]. pose proof Nl as [Wl Dl]. assert (Ml : mant l = dval l) by (unfold mant; rewrite Dl; auto).
  pose proof (reachable_nn _ _ R) as (W & _). pose proof (reachable_all12 _ _ R) as A12. pose proof A12 as ((Lg & _) & _ & _ & O1 & O2 & O3 & O4 & O5 & O6).
  assert (NF : exists nf : fkind -> decimal, forall k, fee_rng p lo up k = Ok (nf k)).
  { destruct (fee_rng_Ok _ p lo up FX R (proj1 (F FX))) as (f1 & E1). destruct (fee_rng_Ok _ p lo up FY R (proj1 (F FY))) as (f2 & E2). destruct (fee_rng_Ok _ p lo up HX R (proj1 (F HX))) as (f3 & E3). destruct (fee_rng_Ok _ p lo up HY R (proj1 (F HY))) as (f4 & E4).
    exists (fun k => match k with FX => f1 | FY => f2 | HX => f3 | HY => f4 end). intros k. destruct k; auto. }
  destruct NF as (nf & NF).
  assert (Iq : forall k, (inside p lo up k == inject_Z (mant (nf k)) * ulp12)%Q). { intros k. rewrite <- (fee_rng_inside _ _ _ _ _ (NF k)). apply num12. apply (fee_rng_12 _ _ _ _ _ (NF k) W A12). }
  assert (U0 : (0 < ulp12)%Q) by reflexivity.
  rewrite (num12 _ Sl), Ml, (held_q _ _ _ R) in Hl. apply (proj1 (q_of_m _ _)) in Hl.
  assert (Fk : forall k, paid_to p (user, lo, up) k <= mant (nf k) /\ held p (user, lo, up) * (mant (nf k) - paid_to p (user, lo, up) k) < 2 ^ 128 /\ owed p (user, lo, up) nf k <= pot p k).
  { intros k. destruct (F k) as (_ & F2 & F3 & F4). rewrite (paid_q _ _ _ _ R), Iq in F2. apply (proj1 (q_of_m _ _)) in F2. unfold due in F3, F4. rewrite (held_q _ _ _ R), (paid_q _ _ _ _ R), Iq in F3, F4. unfold max12 in F3.
    assert (E : (inject_Z (held p (user, lo, up)) * ulp12 * (inject_Z (mant (nf k)) * ulp12 - inject_Z (paid_to p (user, lo, up) k) * ulp12) == inject_Z (held p (user, lo, up) * (mant (nf k) - paid_to p (user, lo, up) k)) * ulp12 * ulp12)%Q).
    { unfold Zminus. rewrite inject_Z_mult, inject_Z_plus, inject_Z_opp. ring. }
    rewrite E in F3, F4. split; auto. split.
    - apply Qmult_lt_r in F3; [| auto]. apply (proj1 (uq_lt _ _)) in F3. exact F3.
    - unfold owed. set (n := held p (user, lo, up) * (mant (nf k) - paid_to p (user, lo, up) k)) in *. apply (proj1 (q_of_m _ _)). apply Qle_trans with (inject_Z n * ulp12 * ulp12)%Q; [apply Qmult_le_compat_r; [apply floor_div | lra] |].
      apply Qle_trans with (1 := F4). unfold pot_q, pot. destruct k; rewrite num12 by (apply O5 || apply O6 || apply O3 || apply O4); apply Qle_refl. }
  rewrite (num12 _ (proj1 O1)) in B1. rewrite (num12 _ (proj1 O2)) in B2. apply (proj1 (q_of_m _ _)) in B1, B2.
  assert (B3' : mant (rx p) + mant (x_fee p) + mant (x_adj p) < 2 ^ 128). { apply (proj1 (uq_lt _ _)). rewrite !inject_Z_plus. rewrite (num12 _ (proj1 O1)), (num12 _ (proj1 O5)), (num12 _ (proj1 O3)) in B3. unfold max12 in B3. lra. }
  assert (B4' : mant (ry p) + mant (y_fee p) + mant (y_adj p) < 2 ^ 128). { apply (proj1 (uq_lt _ _)). rewrite !inject_Z_plus. rewrite (num12 _ (proj1 O2)), (num12 _ (proj1 O6)), (num12 _ (proj1 O4)) in B4. unfold max12 in B4. lra. }
  pose proof (proj2 (proj2 (Fk FX))). pose proof (proj2 (proj2 (Fk FY))). pose proof (proj2 (proj2 (Fk HX))). pose proof (proj2 (proj2 (Fk HY))). cbn [pot] in *.
  assert (G1 : lo <= glbl_tick p < up -> dval l <= mant (glbl_liq p)) by (intros I; specialize (Hg I); rewrite (num12 _ Sl), Ml, (num12 (glbl_liq p)) in Hg by apply Lg; apply (proj1 (q_of_m _ _)) in Hg; exact Hg).
  destruct (withdraw_Ok orc p user l rpa rpb lo up nf R Wa Wb RG Hu Nl Sl Hl G1 (fun k => conj (NF k) (Fk k)) C B1 B2 ltac:(lia) ltac:(lia)) as (p' & o & E & _). eauto.
Qed.

(** ** Histories without swaps and without top-ups *)
Definition fits (p : pool) : Prop := forall u lo up q, In ((u, lo, up), q) (positions p) -> up < 2 ^ 19 /\ computable p lo up (mant (p_liq q)).
Lemma x_fits : forall l rp a b x y, wf l -> x_from_l_rp_rng l (d12 rp) (d12 a) (d12 b) = Ok x -> y_from_l_rp_rng l (d12 rp) (d12 a) (d12 b) = Ok y -> SC <= rp -> SC <= a -> a <= b -> wf (d12 rp) -> wf (d12 a) -> wf (d12 b) -> 
  cl rp a b * b < U128 /\ dval l * (b - cl rp a b) < U128 /\ dval l * (cl rp a b - a) < U128.
Proof.
  intros l rp a b x y Wl Hx Hy Hr Ha Hb Wr Wa Wb. pose proof SCpos. pose proof (cl_bounds rp a b Hb) as C. unfold x_from_l_rp_rng in Hx. destruct (_ || _); [discriminate Hx |]. rewrite clamp12 in Hx. cbn [bind] in Hx. rewrite sub12 in Hx by lia. cbn [unwrap bind] in Hx. bd Hx m E1. bd Hx n E2.
  unfold y_from_l_rp_rng in Hy. rewrite clamp12 in Hy. cbn [bind] in Hy. rewrite sub12 in Hy by lia. cbn [unwrap bind] in Hy. destruct (is_negative _); [discriminate Hy |].
  assert (Q : forall v, 0 <= v <= b -> wf (d12 v)) by (intros v Hv; destruct Wb as [Wb _]; cbn [d12 dval] in Wb; split; cbn [d12 dval dscale]; lia).
  apply mul_ok_inv in E1, E2, Hy; auto; try (apply Q; lia). cbn [d12 dval] in *. unfold U128. tauto.
Qed.
Definition no_topup (es : list ev) : Prop := forall e, In e es -> e_topup e = false.
Lemma fits_mono : forall p lo up l l', 0 <= l' <= l -> tick_price lo <= tick_price up -> computable p lo up l -> computable p lo up l'.
Proof. intros p lo up l l' H T (C1 & C2 & C3). unfold computable. csplit; [exact C1 | |]; set (m := Z.max _ _) in *; assert (tick_price lo <= m <= tick_price up) by lia; nia. Qed.
Lemma history_fits : forall rp sp c rate p0 es p, wf rp -> wf c -> wf rate -> 0 <= sp -> pool_new rp sp c rate = Ok p0 -> lp_history p0 es p -> no_topup es -> fits p.
Proof.
  intros rp sp c rate p0 es p W1 W2 W3 Hs H0 H. pose (orc := (fun _ _ => (0, false)) : log2_oracle). induction H as [| es p u x y a b lo up p' o H IH Wx Wy Wa Wb RG D | es p u l a b lo up p' o H IH Wl Wa Wb RG D]; intros NT.
  - destruct (new_ok _ _ _ _ _ W1 W2 W3 Hs H0) as (L & P & _). unfold fits. rewrite P. intros ? ? ? ? [].
  - destruct (history_inv orc _ _ _ _ _ _ _ W1 W2 W3 Hs H0 H) as (R & L & _). assert (IH' : fits p) by (apply IH; intros e I; apply NT; right; auto). clear IH.
    destruct (deposit_step _ _ _ _ _ _ _ _ _ _ _ R L Wx Wy Wa Wb RG D) as (L' & K & E1 & _ & Sl & Nl & S1 & S2 & _). assert (Hz : held p (u, lo, up) = 0). { specialize (NT _ (or_introl eq_refl)). cbn [e_topup] in NT. apply negb_false_iff, Z.eqb_eq in NT. exact NT. }
    pose proof (reachable_nn _ _ R) as N. pose proof (proj1 N) as W. destruct (deposit_wf _ _ _ _ _ _ _ _ D W Wx Wy Wa Wb) as [_ (V1 & _)].
    destruct (deposit_inv _ _ _ _ _ _ _ _ D) as (lo1 & up1 & a1 & b1 & p1 & nx & ny & nxf & nxa & nyf & nya & D1 & D2 & D3 & D4 & D5 & _ & _ & D8 & _ & D10 & _ & D12 & _ & _ & D18 & _ & _ & _ & _ & _ & _ & _ & E').
    pose proof RG as (RG1 & RG2 & _). assert (lo1 = lo) by congruence. subst lo1. assert (up1 = up) by congruence. subst up1.
    destruct (range_prices _ _ _ _ _ _ _ _ R RG D4 D5) as (P1 & P2 & P3 & P4 & P5 & P6 & P7 & P8 & P9 & P10 & P11 & P12).
    rewrite (d12_eta (glbl_rp p)), (d12_eta a1), (d12_eta b1) in D8, D10 by (auto; first [apply P1 | apply P5 | apply P8]).
    destruct (x_fits _ _ _ _ _ _ V1 D8 D10) as (X1 & X2 & X3); auto; try lia; try (rewrite <- d12_eta; auto; first [apply P1 | apply P5 | apply P8]).
    intros u' lo' up' q' I. assert (Cp : forall lo up l, computable p' lo up l <-> computable p lo up l) by (intros; unfold computable; rewrite E1; reflexivity). rewrite Cp. subst p'. cbn [positions with_funds] in I. apply set_position_inv in D12.
    destruct D12 as (g1 & g2 & g3 & g4 & pos' & base & ofx & ofy & ohx & ohy & m1 & m2 & L1 & _ & _ & _ & _ & PU & _ & _ & _ & _ & ->). cbn [positions] in I.
    assert (New : up < 2 ^ 19 /\ computable p lo up (mant (io_liq o))). { split; [exact (tick_small _ _ D5) |]. unfold computable. rewrite P4, P11, P12. rewrite <- (abs_m _ V1 Nl). exact (conj X1 (conj X2 X3)). }
    unfold pos_upd in PU. unfold held in Hz. destruct (pm_get (u, lo, up) (positions p)) as [r |] eqn:Q.
    + destruct PU as (nl & _ & A & _ & -> & _). destruct (is_zero nl); [apply pm_del_in in I; eapply IH'; eauto |]. apply pm_set_in in I. destruct I as [[E ->] | I]; [| eapply IH'; eauto]. injection E as -> -> ->. cbn [p_liq]. destruct (add_m _ _ _ A) as (M & _). rewrite M, Hz, Z.add_0_l. exact New.
    + destruct PU as (_ & -> & _). apply pm_set_in in I. destruct I as [[E ->] | I]; [| eapply IH'; eauto]. injection E as -> -> ->. exact New.
  - destruct (history_inv orc _ _ _ _ _ _ _ W1 W2 W3 Hs H0 H) as (R & L & _). assert (IH' : fits p) by (apply IH; intros e I; apply NT; right; auto). clear IH.
    destruct (withdraw_step _ _ _ _ _ _ _ _ _ _ R L Wl Wa Wb RG D) as (L' & K & E1 & _ & Sl & Nl & _).
    destruct (withdraw_inv _ _ _ _ _ _ _ D) as (lo1 & up1 & a1 & b1 & p1 & x0 & y0 & nx & ny & nxf & nxa & nyf & nya & D1 & D2 & D3 & D4 & D5 & _ & _ & D8 & D9 & D10 & _ & _ & _ & _ & _ & _ & _ & _ & _ & _ & _ & E').
    pose proof RG as (RG1 & RG2 & _). assert (lo1 = lo) by congruence. subst lo1. assert (up1 = up) by congruence. subst up1.
    intros u' lo' up' q' I. assert (Cp : forall lo up l, computable p' lo up l <-> computable p lo up l) by (intros; unfold computable; rewrite E1; reflexivity). rewrite Cp. subst p'. cbn [positions with_funds] in I. apply set_position_inv in D8. destruct (set_pos_same _ _ _ _ _ _ _ D8) as (_ & _ & G1 & _). rewrite G1 in D9, D10.
    destruct D8 as (g1 & g2 & g3 & g4 & pos' & base & ofx & ofy & ohx & ohy & m1 & m2 & L1 & _ & _ & _ & _ & PU & _ & _ & _ & _ & ->). cbn [positions] in I. pose proof (neg_m l (wf_nn _ Wl)) as Mn.
    unfold pos_upd in PU. unfold held in Nl. destruct (pm_get (u, lo, up) (positions p)) as [r |] eqn:Q.
    + destruct PU as (nl & _ & A & _ & -> & _). destruct (is_zero nl); [apply pm_del_in in I; eapply IH'; eauto |]. apply pm_set_in in I. destruct I as [[E ->] | I]; [| eapply IH'; eauto]. injection E as -> -> ->. cbn [p_liq]. destruct (add_m _ _ _ A) as (M & _).
      apply pm_get_in in Q. destruct (IH' _ _ _ _ Q) as [Hu Hc]. split; auto. apply (fits_mono _ _ _ (mant (p_liq r))); auto; [lia | destruct K; lia].
    + destruct PU as (Dn & -> & _). apply pm_set_in in I. destruct I as [[E ->] | I]; [| eapply IH'; eauto]. injection E as -> -> ->. cbn [p_liq].
      destruct (range_prices _ _ _ _ _ _ _ _ R RG D4 D5) as (P1 & P2 & P3 & P4 & P5 & P6 & P7 & P8 & P9 & P10 & P11 & P12).
      rewrite (d12_eta (glbl_rp p)), (d12_eta a1), (d12_eta b1) in D9, D10 by (auto; first [apply P1 | apply P5 | apply P8]).
      destruct (x_fits _ _ _ _ _ _ Wl D9 D10) as (X1 & X2 & X3); auto; try lia; try (rewrite <- d12_eta; auto; first [apply P1 | apply P5 | apply P8]).
      split; [exact (tick_small _ _ D5) |]. unfold computable. rewrite P4, P11, P12. assert (mant l = 0) by lia. replace (mant (d_neg l)) with (dval l) by (rewrite (abs_m _ Wl); lia). exact (conj X1 (conj X2 X3)).
Qed.

Definition covers_key (k : pkey) (t : Z) : bool := let '(_, lo, up) := k in (lo <=? t) && (t <? up).
Lemma psum_ge : forall f k q m, pm_get k m = Some q -> (forall k q, In (k, q) m -> 0 <= f k (mant (p_liq q))) -> f k (mant (p_liq q)) <= psum f m.
Proof.
  intros f k q m. induction m as [| [k' q'] m IH]; intros H N; cbn [pm_get] in H; [discriminate |]. cbn [psum fold_right fst snd]. fold (psum f m). pose proof (N k' q' (or_introl eq_refl)).
  assert (0 <= psum f m) by (apply psum_nn; intros; apply N; right; auto). destruct (pkey_eqb k k') eqn:E; [apply pkey_eqb_eq in E; injection H as <-; subst; lia |]. specialize (IH H ltac:(intros; apply N; right; auto)). lia.
Qed.
Lemma history_tidy : forall orc rp sp c rate p0 es p, wf rp -> wf c -> wf rate -> 0 <= sp -> pool_new rp sp c rate = Ok p0 -> lp_history p0 es p -> tidy orc p.
Proof.
  intros orc rp sp c rate p0 es p W1 W2 W3 Hs H0 H. induction H as [| es p u x y a b lo up p' o H IH Wx Wy Wa Wb RG D | es p u l a b lo up p' o H IH Wl Wa Wb RG D].
  - exact (td_new _ _ _ _ _ _ W1 W2 W3 Hs H0).
  - eapply td_deposit; [exact IH | | exact D]. cbn. auto.
  - eapply td_withdraw; [exact IH | | exact D]. cbn. auto.
Qed.
Theorem no_swap_withdraw : forall rp sp c rate p0 es p, wf rp -> wf c -> wf rate -> 0 <= sp -> pool_new rp sp c rate = Ok p0 -> lp_history p0 es p -> no_topup es ->
  forall user l rpa rpb lo up, wf rpa -> wf rpb -> range_of p rpa rpb lo up -> pm_get (user, lo, up) (positions p) <> None -> nonneg l -> dscale l = 12 -> (num l <= liq_of p (user, lo, up))%Q ->
  exists p' o, withdraw p user l rpa rpb = Ok (p', o).
Proof.
  intros rp sp c rate p0 es p W1 W2 W3 Hs H0 H NT user l rpa rpb lo up Wa Wb RG Ne Nl Sl Hl. pose (orc := (fun _ _ => (0, false)) : log2_oracle).
  destruct (history_inv orc _ _ _ _ _ _ _ W1 W2 W3 Hs H0 H) as (R & (Q & SK) & G & _ & (R1 & R2) & B). pose proof (history_fits _ _ _ _ _ _ _ W1 W2 W3 Hs H0 H NT) as Ft. pose proof (range_liquidity _ _ (history_tidy orc _ _ _ _ _ _ _ W1 W2 W3 Hs H0 H)) as Lq.
  assert (Tz : zsum (fun _ => true) tops es = 0). { clear - NT. induction es as [| e es IH]; [reflexivity |]. rewrite zsum_cons. rewrite IH by (intros e' I; apply NT; right; auto). unfold tops. rewrite (NT e (or_introl eq_refl)). reflexivity. }
  pose proof (reachable_nn _ _ R) as (W & _). pose proof Nl as [Wl Dl]. pose proof (wf_nn _ Wl) as Pl. assert (Ml : mant l = dval l) by (unfold mant; rewrite Dl; auto). pose proof (proj1 (reachable_all12 _ _ R)) as (Lg & _).
  destruct (pm_get (user, lo, up) (positions p)) as [q |] eqn:E; [| congruence]. clear Ne. pose proof (pm_get_in _ _ _ E) as I. destruct (Ft _ _ _ _ I) as [Hu Hc]. pose proof (SK _ _ I) as K. pose proof K as [K1 K2].
  assert (Hh : held p (user, lo, up) = mant (p_liq q)) by (unfold held; rewrite E; auto).
  assert (Hl' : dval l <= held p (user, lo, up)). { rewrite (num12 _ Sl), Ml, (held_q _ _ _ R) in Hl. apply (proj1 (q_of_m _ _)) in Hl. exact Hl. }
  assert (Mono : forall n, dval l <= n -> claim_x p (user, lo, up) (dval l) <= claim_x p (user, lo, up) n /\ claim_y p (user, lo, up) (dval l) <= claim_y p (user, lo, up) n).
  { intros n Hn. destruct (claim_facts p (user, lo, up) (dval l) (n - dval l) K) as (_ & _ & X1 & X2). destruct (claim_facts p (user, lo, up) (n - dval l) 0 K) as (_ & X3 & _). specialize (X3 ltac:(lia)). replace (dval l + (n - dval l)) with n in X1, X2 by lia. lia. }
  destruct (Mono _ Hl') as [MX MY]. destruct (B (fun _ => true)) as [BX BY]. rewrite Tz in BX, BY.
  assert (A : forall k r, In (k, r) (positions p) -> 0 <= mine_x p0 (fun _ => true) k (mant (p_liq r)) /\ 0 <= mine_y p0 (fun _ => true) k (mant (p_liq r))).
  { intros [[u' lo'] up'] r J. rewrite (proj1 (mine_at _ _ _ _ _ _)), (proj2 (mine_at _ _ _ _ _ _)). destruct (claim_facts p0 _ (mant (p_liq r)) 0 (SK _ _ J)) as (_ & C & _). apply C. eapply pos_nn; eauto. }
  pose proof (psum_ge (mine_x p0 (fun _ => true)) _ _ _ E (fun k r J => proj1 (A k r J))) as GX. pose proof (psum_ge (mine_y p0 (fun _ => true)) _ _ _ E (fun k r J => proj2 (A k r J))) as GY.
  rewrite (proj1 (mine_at _ _ _ _ _ _)) in GX. rewrite (proj2 (mine_at _ _ _ _ _ _)) in GY. destruct (keep p p0 (eq_sym G) (user, lo, up) (mant (p_liq q))) as [KX KY]. rewrite KX in GX. rewrite KY in GY. rewrite Hh in MX, MY.
  destruct (claim_facts p (user, lo, up) (dval l) 0 K) as (_ & CN & _). specialize (CN Pl).
  assert (Cut : forall z, 0 <= z -> cut z <= z) by (intros z Hz; unfold cut; apply Z.div_le_upper_bound; lia).
  pose proof (no_growth_no_fees _ _ R (proj1 Q) lo up) as NG.
  assert (NF : exists nf : fkind -> decimal, forall k, fee_rng p lo up k = Ok (nf k)).
  { assert (X : forall k, exists f, fee_rng p lo up k = Ok f) by (intros k; apply (fee_rng_Ok orc); auto; rewrite NG; lra). destruct (X FX) as (f1 & E1). destruct (X FY) as (f2 & E2). destruct (X HX) as (f3 & E3). destruct (X HY) as (f4 & E4).
    exists (fun k => match k with FX => f1 | FY => f2 | HX => f3 | HY => f4 end). intros k. destruct k; auto. }
  destruct NF as (nf & NF). assert (Nz : forall k, mant (nf k) = 0). { intros k. apply zero_mant; [apply (fee_rng_wf _ _ _ _ _ (NF k) W) |]. rewrite (fee_rng_inside _ _ _ _ _ (NF k)). apply NG. }
  assert (Pz : forall k, paid_to p (user, lo, up) k = 0). { intros k. unfold paid_to. rewrite E. destruct Q as [_ Q]. destruct (Q _ _ I) as (_ & _ & Z1 & Z2 & Z3 & Z4). pose proof W as (_ & _ & _ & (_ & Wp) & _). destruct (Wp _ _ I) as (_ & V1 & V2 & V3 & V4). destruct k; apply zero_mant; auto. }
  pose proof W as (_ & _ & _ & _ & (U1 & U2 & _) & _). pose proof (mant_bound _ U1). pose proof (mant_bound _ U2).
  assert (Oz : forall k, owed p (user, lo, up) nf k = 0) by (intros k; unfold owed; rewrite Nz, Pz, Z.sub_0_r, Z.mul_0_r; reflexivity).
  assert (Pn : forall k, 0 <= pot p k). { pose proof (reachable_nn _ _ R) as (_ & (F1 & F2 & F3 & F4 & F5 & F6) & _). pose proof W as (_ & _ & _ & _ & (V1 & V2 & V3 & V4 & V5 & V6) & _). intros k. destruct k; apply nn_m; auto. }
  destruct (withdraw_Ok orc p user l rpa rpb lo up nf R Wa Wb RG Hu Nl Sl Hl') as (p' & o & X & _).
  - intros In. assert (Y : (inject_Z (held p (user, lo, up)) * ulp12 <= num (glbl_liq p))%Q).
    { rewrite Lq. rewrite <- (held_q _ _ _ R). unfold covering. assert (Bn : forall a b : Z, (0 <= is_b ((a <=? glbl_tick p) && (glbl_tick p <? b)))%Q) by (intros a b; destruct (_ && _); discriminate).
      pose proof (weighted_ge _ p (fun a b => is_b ((a <=? glbl_tick p) && (glbl_tick p <? b))) user lo up R Bn) as X. cbv beta in X. rewrite (proj2 (Z.leb_le _ _)), (proj2 (Z.ltb_lt _ _)) in X by lia. cbn [andb is_b] in X. lra. }
    rewrite (num12 (glbl_liq p)) in Y by apply Lg. apply (proj1 (q_of_m _ _)) in Y. lia.
  - intros k. split; [apply NF |]. rewrite Nz, Pz, Oz, Z.sub_0_r, Z.mul_0_r. split; [lia |]. split; [lia | apply Pn].
  - apply (fits_mono _ _ _ (mant (p_liq q))); auto; [rewrite <- Hh; lia | lia].
  - pose proof (Cut _ (proj1 CN)). lia.
  - pose proof (Cut _ (proj2 CN)). lia.
  - rewrite !Oz. pose proof (Cut _ (proj1 CN)). unfold U128 in *. lia.
  - rewrite !Oz. pose proof (Cut _ (proj2 CN)). unfold U128 in *. lia.
  - eauto.
Qed.
