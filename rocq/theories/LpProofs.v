(** Deposits and withdrawals: inversion lemmas and preservation of well-formedness. *)
From Coq Require Import ZArith QArith List Bool Lia String Sorted.
From Verif Require Import Base BaseLemmas DecimalModel DecimalSpec DecimalProofs PowProofs WfProofs MathModel TickProofs TickLoop PoolModel PoolWf SwapLoop SwapProofs.
Import ListNotations.
Open Scope Z_scope.

Definition zero12 : decimal := mkD 0 12 false.

Lemma tm_set_set : forall k v w m, tm_set k v (tm_set k w m) = tm_set k v m.
Proof.
  induction m as [| [a b] m IH]; cbn. { rewrite Z.eqb_refl. auto. }
  destruct (k =? a) eqn:E; cbn; [rewrite Z.eqb_refl; auto |]. destruct (k <? a) eqn:F; cbn; [rewrite Z.eqb_refl; auto |]. rewrite E, F, IH. auto.
Qed.
Lemma tm_del_set : forall k w m, tm_get k m = None -> tm_del k (tm_set k w m) = m.
Proof.
  induction m as [| [a b] m IH]; cbn; intros H. { rewrite Z.eqb_refl. auto. }
  destruct (k =? a) eqn:E; [discriminate |]. destruct (k <? a) eqn:F; cbn; [rewrite Z.eqb_refl; auto |]. rewrite E, IH; auto.
Qed.
Lemma tm_del_none : forall k m, tm_get k m = None -> tm_del k m = m.
Proof. induction m as [| [a b] m IH]; cbn; intros H; auto. destruct (k =? a); [discriminate |]. rewrite IH; auto. Qed.

(** The record a tick gets when first used. *)
Definition fresh (p : pool) (t : Z) : tstate :=
  if t <=? glbl_tick p then mkT zero12 zero12 (g_fx (gs p)) (g_fy (gs p)) (g_hx (gs p)) (g_hy (gs p)) else mkT zero12 zero12 zero12 zero12 zero12 zero12.
Definition tick_upd (p : pool) (t : Z) (d : decimal) (upper : bool) (m m' : list (Z * tstate)) : Prop :=
  exists ts0 n g, (tm_get t m = Some ts0 \/ tm_get t m = None /\ ts0 = fresh p t) /\
    d_add (t_net ts0) (if upper then d_neg d else d) = Ok n /\ d_add (t_gross ts0) d = Ok g /\ is_negative g = false /\
    m' = if is_zero g then tm_del t m else tm_set t (mkT n g (t_fx ts0) (t_fy ts0) (t_hx ts0) (t_hy ts0)) m.

Lemma update_tick_inv : forall p t d upper p', update_tick p t d upper = Ok p' -> exists m', tick_upd p t d upper (ticks p) m' /\ p' = with_ticks p m'.
Proof.
  intros p t d upper p' H. unfold update_tick in H. bd H p1 E1.
  destruct (tm_get t (ticks p)) as [ts0 |] eqn:G.
  - injection E1 as <-. rewrite G in H. unfold t_add_net, t_add_gross in H. bd H a E2. bd E2 n E3. injection E2 as <-. bd H b E4. cbn [t_net t_gross t_fx t_fy t_hx t_hy] in E4. bd E4 g E5.
    destruct (is_negative g) eqn:N; [discriminate |]. injection E4 as <-. cbn [t_gross] in H.
    exists (if is_zero g then tm_del t (ticks p) else tm_set t (mkT n g (t_fx ts0) (t_fy ts0) (t_hx ts0) (t_hy ts0)) (ticks p)).
    split; [exists ts0, n, g; csplit; auto |]. destruct (is_zero g); injection H as <-; auto.
  - unfold initialize_tick in E1. rewrite zero_eq in E1. cbn [bind] in E1.
    assert (X : p1 = with_ticks p (tm_set t (fresh p t) (ticks p))).
    { unfold fresh, zero12. destruct (t <=? glbl_tick p); bd E1 ts E2; unfold tstate_new in E2;
        repeat match type of E2 with (if ?b then _ else _) = _ => destruct b; try discriminate end; injection E2 as <-; injection E1 as <-; auto. }
    subst p1. cbn [ticks with_ticks] in H. rewrite tm_get_set_same in H. unfold t_add_net, t_add_gross in H. bd H a E2. bd E2 n E3. injection E2 as <-. bd H b E4.
    cbn [t_net t_gross t_fx t_fy t_hx t_hy] in E4. bd E4 g E5.
    destruct (is_negative g) eqn:N; [discriminate |]. injection E4 as <-. cbn [t_gross] in H. 
    exists (if is_zero g then tm_del t (ticks p) else tm_set t (mkT n g (t_fx (fresh p t)) (t_fy (fresh p t)) (t_hx (fresh p t)) (t_hy (fresh p t))) (ticks p)).
    split; [exists (fresh p t), n, g; csplit; auto |].
    destruct (is_zero g); injection H as <-; unfold with_ticks; cbn [spacing gs ticks positions rx ry x_adj y_adj x_fee y_fee hmm_c fee_rate]; [rewrite tm_del_set, tm_del_none by auto | rewrite tm_set_set]; auto.
Qed.

(** What happens to the position record; [nf] are the current fee-growth figures of the range. *)
Definition fees : Type := (decimal * decimal * decimal * decimal)%type.
Definition pos_upd (key : pkey) (d : decimal) (nf : fees) (m m' : list (pkey * pstate)) (base : decimal) (old : fees) : Prop :=
  match pm_get key m with
  | None => is_negative d = false /\ m' = pm_set key (mkP d zero12 zero12 zero12 zero12) m /\ base = zero12 /\ old = (zero12, zero12, zero12, zero12)
  | Some q => exists nl, is_negative (p_liq q) = false /\ d_add (p_liq q) d = Ok nl /\ is_negative nl = false /\
      m' = (if is_zero nl then pm_del key m else let '(a, b, c, e) := nf in pm_set key (mkP nl a b c e) m) /\
      base = p_liq q /\ old = (p_fx q, p_fy q, p_hx q, p_hy q)
  end.
Definition fee_owed (base new old paid : decimal) : Prop :=
  exists u, d_sub new old = Ok u /\ is_negative u = false /\ d_mul base u = Ok paid.
Definition set_pos (p : pool) (user : string) (lower upper : Z) (d : decimal) (p' : pool) (paid : fees) : Prop :=
  exists nfx nfy nhx nhy pos' base ofx ofy ohx ohy m1 m2 L,
    fee_rng p lower upper FX = Ok nfx /\ fee_rng p lower upper FY = Ok nfy /\ fee_rng p lower upper HX = Ok nhx /\ fee_rng p lower upper HY = Ok nhy /\
    pos_upd (user, lower, upper) d (nfx, nfy, nhx, nhy) (positions p) pos' base (ofx, ofy, ohx, ohy) /\
    (let '(fx, fy, hx, hy) := paid in fee_owed base nfx ofx fx /\ fee_owed base nfy ofy fy /\ fee_owed base nhx ohx hx /\ fee_owed base nhy ohy hy) /\
    tick_upd p lower d false (ticks p) m1 /\ tick_upd p upper d true m1 m2 /\
    (if (lower <=? glbl_tick p) && (glbl_tick p <? upper) then d_add (glbl_liq p) d = Ok L /\ is_negative L = false else L = glbl_liq p) /\
    p' = mkPool (spacing p) (mkG L (glbl_rp p) (glbl_tick p) (g_fx (gs p)) (g_fy (gs p)) (g_hx (gs p)) (g_hy (gs p))) m2 pos'
           (rx p) (ry p) (x_adj p) (y_adj p) (x_fee p) (y_fee p) (hmm_c p) (fee_rate p).

Lemma zero_not_neg : forall d, is_zero d = true -> is_negative d = false.
Proof. intros [v s n] H. unfold is_zero, is_negative in *. cbn in *. b2p. subst. destruct n; auto. Qed.
Lemma set_position_inv : forall p user lower upper d p' paid, set_position p user lower upper d = Ok (p', paid) -> set_pos p user lower upper d p' paid.
Proof.
  intros p user lower upper d p' paid H. unfold set_position in H. bd H nfx E1. bd H nfy E2. bd H nhx E3. bd H nhy E4. rewrite zero_eq in H. cbn [bind] in H.
  bd H r E5. destruct r as [[p1 [[[ofx ofy] ohx] ohy]] base].
  bd H ux U1. bd H uy U2. bd H vx U3. bd H vy U4. bd H u1 A1. bd H u2 A2. bd H u3 A3. bd H u4 A4. bd H p2 T1. bd H p3 T2. bd H p4 G. bd H fx F1. bd H fy F2. bd H hx F3. bd H hy F4. injection H as <- <-.
  apply negb_true_iff in A1, A2, A3, A4. apply update_tick_inv in T1, T2. destruct T1 as (m1 & T1 & ->). destruct T2 as (m2 & T2 & ->).
  assert (X : exists pos', p1 = with_positions p pos' /\ pos_upd (user, lower, upper) d (nfx, nfy, nhx, nhy) (positions p) pos' base (ofx, ofy, ohx, ohy)).
  { unfold pos_upd. destruct (pm_get (user, lower, upper) (positions p)) as [q |] eqn:Q.
    - destruct (is_negative (p_liq q)) eqn:B; [discriminate |]. bd E5 nl Nl. destruct (is_negative d && is_negative nl) eqn:D; [discriminate |]. destruct (is_zero nl) eqn:Zn.
      + injection E5 as <- <- <- <- <- <-. eexists. split; [reflexivity |]. exists nl. rewrite Zn. csplit; auto. apply zero_not_neg; auto.
      + bd E5 q' N'. unfold p_add_liq in N'. rewrite Nl in N'. cbn [unwrap bind] in N'. destruct (is_negative nl) eqn:NN; [discriminate |]. injection N' as <-. injection E5 as <- <- <- <- <- <-.
        eexists. split; [reflexivity |]. exists nl. rewrite Zn. csplit; auto.
    - destruct (is_negative d) eqn:D; [discriminate |]. bd E5 q' Nq. unfold pstate_new in Nq. repeat match type of Nq with (if ?b then _ else _) = _ => destruct b; try discriminate end. injection Nq as <-.
      injection E5 as <- <- <- <- <- <-. eexists. split; [reflexivity |]. csplit; auto. }
  destruct X as (pos' & -> & X). cbn [glbl_tick with_ticks with_positions gs] in *.
  assert (Y : exists L, (if (lower <=? glbl_tick p) && (glbl_tick p <? upper) then d_add (glbl_liq p) d = Ok L /\ is_negative L = false else L = glbl_liq p) /\
    p4 = with_gs (with_ticks (with_positions p pos') m2) (mkG L (glbl_rp p) (glbl_tick p) (g_fx (gs p)) (g_fy (gs p)) (g_hx (gs p)) (g_hy (gs p)))).
  { destruct ((lower <=? glbl_tick p) && (glbl_tick p <? upper)) eqn:R.
    - unfold glbl_tick in *. cbn [gs with_ticks with_positions] in *. rewrite R in G. unfold add_glbl_liq, g_add_liq in G. bd G g E. bd E n E'. destruct (is_negative n) eqn:NN; [discriminate |]. injection E as <-. injection G as <-.
      exists n. csplit; auto.
    - unfold glbl_tick in *. cbn [gs with_ticks with_positions] in *. rewrite R in G. injection G as <-. exists (glbl_liq p). split; auto. unfold glbl_liq, glbl_rp. destruct p as [? [] ? ? ? ? ? ? ? ? ? ?]. reflexivity. }
  destruct Y as (L & Y & ->). exists nfx, nfy, nhx, nhy, pos', base, ofx, ofy, ohx, ohy, m1, m2, L. csplit; auto.
  all: unfold fee_owed; eauto.
Qed.

(** Deposit and withdrawal around [set_position]. *)
Definition dep_rel (p : pool) (user : string) (x y rpa rpb : decimal) (p' : pool) (o : lp_out) : Prop :=
  exists lower upper a b p1 nx ny nxf nxa nyf nya,
    rp_to_possible_tk rpa (spacing p) false 0 = Ok lower /\ rp_to_possible_tk rpb (spacing p) false lower = Ok upper /\ lower < upper /\
    tick_to_rp lower = Ok a /\ tick_to_rp upper = Ok b /\
    liq_from_x_y_rp_rng x y (glbl_rp p) a b = Ok (io_liq o) /\ is_negative (io_liq o) = false /\
    x_from_l_rp_rng (io_liq o) (glbl_rp p) a b = Ok (io_x o) /\ d_gt (io_x o) x = Ok false /\
    y_from_l_rp_rng (io_liq o) (glbl_rp p) a b = Ok (io_y o) /\ d_gt (io_y o) y = Ok false /\
    set_position p user lower upper (io_liq o) = Ok (p1, (io_fx o, io_fy o, io_hx o, io_hy o)) /\
    (exists xd0 yd0, d_sub (io_x o) (io_fx o) = Ok xd0 /\ d_sub xd0 (io_hx o) = Ok (io_netx o) /\ d_sub (io_y o) (io_fy o) = Ok yd0 /\ d_sub yd0 (io_hy o) = Ok (io_nety o)) /\
    (d_lt (x_fee p1) (io_fx o) = Ok false /\ d_lt (y_fee p1) (io_fy o) = Ok false /\ d_lt (x_adj p1) (io_hx o) = Ok false /\ d_lt (y_adj p1) (io_hy o) = Ok false) /\
    d_add (rx p1) (io_x o) = Ok nx /\ d_add (ry p1) (io_y o) = Ok ny /\ d_sub (x_fee p1) (io_fx o) = Ok nxf /\ d_sub (x_adj p1) (io_hx o) = Ok nxa /\
    d_sub (y_fee p1) (io_fy o) = Ok nyf /\ d_sub (y_adj p1) (io_hy o) = Ok nya /\
    is_negative x = false /\ is_negative y = false /\
    p' = with_funds p1 nx ny nxa nya nxf nyf.
Definition wd_rel (p : pool) (user : string) (liq rpa rpb : decimal) (p' : pool) (o : lp_out) : Prop :=
  exists lower upper a b p1 x0 y0 nx ny nxf nxa nyf nya,
    rp_to_possible_tk rpa (spacing p) false 0 = Ok lower /\ rp_to_possible_tk rpb (spacing p) false lower = Ok upper /\ lower < upper /\
    tick_to_rp lower = Ok a /\ tick_to_rp upper = Ok b /\ is_negative liq = false /\ io_liq o = liq /\
    set_position p user lower upper (d_neg liq) = Ok (p1, (io_fx o, io_fy o, io_hx o, io_hy o)) /\
    x_from_l_rp_rng liq (glbl_rp p1) a b = Ok x0 /\ y_from_l_rp_rng liq (glbl_rp p1) a b = Ok y0 /\
    d_mul x0 (mkD 999999999999 12 false) = Ok (io_x o) /\ d_mul y0 (mkD 999999999999 12 false) = Ok (io_y o) /\
    (exists xs0 ys0, d_add (io_x o) (io_fx o) = Ok xs0 /\ d_add xs0 (io_hx o) = Ok (io_netx o) /\ d_add (io_y o) (io_fy o) = Ok ys0 /\ d_add ys0 (io_hy o) = Ok (io_nety o)) /\
    (d_lt (rx p1) (io_x o) = Ok false /\ d_lt (ry p1) (io_y o) = Ok false) /\
    (d_lt (x_fee p1) (io_fx o) = Ok false /\ d_lt (y_fee p1) (io_fy o) = Ok false /\ d_lt (x_adj p1) (io_hx o) = Ok false /\ d_lt (y_adj p1) (io_hy o) = Ok false) /\
    d_sub (rx p1) (io_x o) = Ok nx /\ d_sub (ry p1) (io_y o) = Ok ny /\ d_sub (x_fee p1) (io_fx o) = Ok nxf /\ d_sub (x_adj p1) (io_hx o) = Ok nxa /\
    d_sub (y_fee p1) (io_fy o) = Ok nyf /\ d_sub (y_adj p1) (io_hy o) = Ok nya /\
    p' = with_funds p1 nx ny nxa nya nxf nyf.
Lemma lt_or_f : forall a b c d, lt_or a b c d = Ok false -> d_lt a b = Ok false /\ d_lt c d = Ok false.
Proof. intros a b c d H. unfold lt_or in H. bd H r E. destruct r; [discriminate |]. apply unwrap_ok in H. auto. Qed.
Lemma deposit_inv : forall p user x y rpa rpb p' o, deposit p user x y rpa rpb = Ok (p', o) -> dep_rel p user x y rpa rpb p' o.
Proof.
  intros p user x y rpa rpb p' o H. unfold deposit in H. bd H u1 A1. bd H u2 A2. bd H u3 A3. bd H u4 A4. bd H lower E1. bd H upper E2. bd H u5 E3. bd H a E4. bd H b E5. bd H liq E6.
  apply negb_true_iff in A1, A2. apply Z.ltb_lt in E3.
  destruct (is_negative liq) eqn:N; [discriminate |]. bd H xi E7. bd H gx E8. destruct gx; [discriminate |]. bd H yi E9. bd H gy E10. destruct gy; [discriminate |].
  bd H r E11. destruct r as [p1 [[[fx fy] hx] hy]]. bd H xd0 F1. bd H xd F2. bd H yd0 F3. bd H yd F4. bd H b1 F5. destruct b1; [discriminate |]. bd H b2 F6. destruct b2; [discriminate |].
  apply lt_or_f in F5, F6. bd H nx G1. bd H ny G2. bd H nxf G3. bd H nxa G4. bd H nyf G5. bd H nya G6. bd H w1 G7. bd H w2 G8. bd H w3 G9. bd H w4 G10. injection H as <- <-.
  exists lower, upper, a, b, p1, nx, ny, nxf, nxa, nyf, nya. cbn [io_liq io_x io_y io_fx io_fy io_hx io_hy io_netx io_nety]. csplit; auto; try tauto. eauto 10.
Qed.
Lemma adj_eq : d_sub (mkD (10 ^ 12) 12 false) ADJ_WITHDRAWAL = Ok (mkD 999999999999 12 false). Proof. vm_compute. reflexivity. Qed.
Lemma withdraw_inv : forall p user liq rpa rpb p' o, withdraw p user liq rpa rpb = Ok (p', o) -> wd_rel p user liq rpa rpb p' o.
Proof.
  intros p user liq rpa rpb p' o H. unfold withdraw in H. bd H u1 A1. bd H lower E1. bd H upper E2. bd H u5 E3. bd H a E4. bd H b E5. apply negb_true_iff in A1. apply Z.ltb_lt in E3.
  bd H r E6. destruct r as [p1 [[[fx fy] hx] hy]]. bd H x0 E7. bd H y0 E8. rewrite one_eq in H. cbn [bind] in H. bd H adj E9. rewrite adj_eq in E9. injection E9 as <-. bd H xo E10. bd H yo E11.
  bd H xd0 F1. bd H xd F2. bd H yd0 F3. bd H yd F4. bd H b0 F0. destruct b0; [discriminate |]. bd H b1 F5. destruct b1; [discriminate |]. bd H b2 F6. destruct b2; [discriminate |].
  apply lt_or_f in F0, F5, F6. bd H nx G1. bd H ny G2. bd H nxf G3. bd H nxa G4. bd H nyf G5. bd H nya G6. bd H w1 G7. bd H w2 G8. injection H as <- <-.
  exists lower, upper, a, b, p1, x0, y0, nx, ny, nxf, nxa, nyf, nya. cbn [io_liq io_x io_y io_fx io_fy io_hx io_hy io_netx io_nety]. csplit; auto; try tauto. eauto 10.
Qed.

(** ** Well-formedness *)
Lemma zero12_wf : wf zero12. Proof. exact zero_wf. Qed.
Lemma fresh_wf : forall p t, pool_wf p -> t_wf (fresh p t).
Proof. intros p t (_ & (G1 & G2 & G3 & G4 & G5 & G6 & G7) & _). pose proof zero12_wf. unfold fresh. destruct (t <=? glbl_tick p); unfold t_wf; cbn; auto 10. Qed.
Lemma tick_upd_wf : forall p t d up m m', tick_upd p t d up m m' -> pool_wf p -> ticks_wf m -> wf d -> 0 <= t -> ticks_wf m'.
Proof.
  intros p t d up m m' (ts0 & n & g & T0 & E1 & E2 & N & ->) W Wm Wd Ht.
  assert (t_wf ts0) as (T1 & T2 & T3 & T4 & T5 & T6). { destruct T0 as [T0 | [_ ->]]; [| apply fresh_wf; auto]. apply tm_get_in in T0. apply Wm in T0. tauto. }
  assert (wf (if up then d_neg d else d)) by (destruct up; auto; apply neg_wf; auto).
  destruct (is_zero g); [apply ticks_wf_del; auto |]. apply ticks_wf_set; auto. unfold t_wf. cbn. wfs. auto 10.
Qed.
Lemma tick_upd_get : forall p t d up m m' k, tick_upd p t d up m m' -> k <> t -> tm_get k m' = tm_get k m.
Proof. intros p t d up m m' k (ts0 & n & g & _ & _ & _ & _ & ->) H. destruct (is_zero g); [apply tm_get_del_other | apply tm_get_set_other]; auto. Qed.
Lemma fee_ba_wf : forall p t k r, fee_below_above p t k = Ok r -> pool_wf p -> wf (fst r) /\ wf (snd r).
Proof.
  intros p t k r H W. unfold fee_below_above in H. assert (Wg : wf (g_fee (gs p) k)) by (destruct W as (_ & (G1 & G2 & G3 & G4 & G5 & G6 & G7) & _); destruct k; auto).
  destruct (tm_get t (ticks p)) as [ts |] eqn:T.
  - apply tm_get_in in T. destruct W as (_ & _ & Wt & _). apply Wt in T. assert (wf (t_fee ts k)) by (destruct T as (_ & T1 & T2 & T3 & T4 & T5 & T6); destruct k; auto).
    bd H a E. destruct (t <=? glbl_tick p); injection H as <-; cbn; wfs; auto.
  - rewrite zero_eq in H. cbn [bind] in H. injection H as <-. cbn. split; [auto | apply zero_wf].
Qed.
Lemma fee_rng_wf : forall p lo up k f, fee_rng p lo up k = Ok f -> pool_wf p -> wf f.
Proof.
  intros p lo up k f H W. unfold fee_rng in H. bd H a E1. destruct a as [bl al]. bd H b E2. destruct b as [bu au]. apply fee_ba_wf in E1, E2; auto. cbn in E1, E2. destruct E1, E2.
  bd H sl E3. bd H su E4. bd H u E5. bd H a E6. bd H f' E7. destruct (is_negative f'); [discriminate |]. injection H as <-. wfs. auto.
Qed.
Lemma set_pos_wf : forall p u lo up d p' paid, set_pos p u lo up d p' paid -> pool_wf p -> wf d -> 0 <= lo -> 0 <= up ->
  pool_wf p' /\ (let '(fx, fy, hx, hy) := paid in wf fx /\ wf fy /\ wf hx /\ wf hy).
Proof.
  intros p u lo up d p' [[[fx fy] hx] hy] (nfx & nfy & nhx & nhy & pos' & base & ofx & ofy & ohx & ohy & m1 & m2 & L & R1 & R2 & R3 & R4 & P & (F1 & F2 & F3 & F4) & T1 & T2 & G & ->) W Wd Hl Hu.
  pose proof W as (W1 & (W2 & W3 & W4 & W5 & W6 & W7 & W8) & W9 & W10 & W11 & W12 & W13). pose proof zero12_wf as Wz.
  apply fee_rng_wf in R1, R2, R3, R4; auto.
  assert (Wm : ticks_wf m2) by (eapply tick_upd_wf; [exact T2 | auto | eapply tick_upd_wf; [exact T1 | | | |] | |]; auto).
  assert (WL : wf L). { destruct (_ && _); [destruct G as [G _]; unfold glbl_liq in G; wfs; auto | subst L; auto]. }
  assert (X : pos_wf pos' /\ wf base /\ wf ofx /\ wf ofy /\ wf ohx /\ wf ohy).
  { unfold pos_upd in P. destruct (pm_get (u, lo, up) (positions p)) as [q |] eqn:Q.
    - destruct P as (nl & P1 & P2 & P3 & -> & -> & P4). injection P4 as -> -> -> ->. apply pm_get_in in Q. pose proof (proj2 W10 _ _ Q) as (Q1 & Q2 & Q3 & Q4 & Q5).
      wfs. csplit; auto. destruct (is_zero nl); [apply pos_wf_del; auto | apply pos_wf_set; auto]. unfold p_wf; cbn; auto 10.
    - destruct P as (P1 & -> & -> & P4). injection P4 as -> -> -> ->. csplit; auto. apply pos_wf_set; auto. unfold p_wf; cbn; auto 10. }
  destruct X as (X1 & X2 & X3 & X4 & X5 & X6).
  assert (FW : forall n o f, wf n -> wf o -> fee_owed base n o f -> wf f) by (intros n o f Wn Wo (v & V1 & _ & V2); wfs; auto).
  split; [| exact (conj (FW _ _ _ R1 X3 F1) (conj (FW _ _ _ R2 X4 F2) (conj (FW _ _ _ R3 X5 F3) (FW _ _ _ R4 X6 F4))))]. unfold pool_wf, g_wf, glbl_rp, glbl_tick. cbn. csplit; auto; tauto.
Qed.
Lemma rtp_nn : forall rp s st r, wf rp -> 0 <= s -> 0 <= st -> rp_to_possible_tk rp s false st = Ok r -> 0 <= r /\ r mod s = 0 /\ 0 < s.
Proof.
  intros rp s st r W Hs Ht H. unfold rp_to_possible_tk in H. bd H t E. assert (Ht0 : 0 <= t) by (pose proof (rtl_nn _ _ _ _ W Ht E); lia). destruct (possible_down_le _ _ _ Ht0 Hs H) as (A & Er & B). split; [apply A |]. split; auto. subst r. apply Z.mod_mul. lia.
Qed.
Lemma liq_x_wf : forall x a b l, liq_x_only x a b = Ok l -> wf x -> wf a -> wf b -> wf l.
Proof. intros x a b l H Wx Wa Wb. unfold liq_x_only in H. bd H w E. destruct (_ || _); [discriminate |]. bd H c E1. bd H d E2. wfs. auto. Qed.
Lemma liq_y_wf : forall x a b l, liq_y_only x a b = Ok l -> wf x -> wf a -> wf b -> wf l.
Proof. intros x a b l H Wx Wa Wb. unfold liq_y_only in H. bd H w E. destruct (_ || _); [discriminate |]. wfs. auto. Qed.
Lemma liq_from_wf : forall x y rp a b l, liq_from_x_y_rp_rng x y rp a b = Ok l -> wf x -> wf y -> wf rp -> wf a -> wf b -> wf l.
Proof.
  intros x y rp a b l H Wx Wy Wr Wa Wb. unfold liq_from_x_y_rp_rng in H. bd H c1 E. destruct c1; [eapply liq_x_wf; eauto |]. bd H c2 E2. destruct c2; [| eapply liq_y_wf; eauto].
  bd H lx E3. bd H ly E4. eapply min_wf; eauto; [eapply liq_x_wf | eapply liq_y_wf]; eauto.
Qed.
Lemma clamp_wf : forall rp a b c, clamp_rp rp a b = Ok c -> wf rp -> wf a -> wf b -> wf c.
Proof. intros rp a b c H W1 W2 W3. unfold clamp_rp in H. bd H m E. eapply max_wf; eauto. eapply min_wf; eauto. Qed.
Lemma x_from_wf : forall l rp a b x, x_from_l_rp_rng l rp a b = Ok x -> wf l -> wf rp -> wf a -> wf b -> wf x.
Proof. intros l rp a b x H W1 W2 W3 W4. unfold x_from_l_rp_rng in H. destruct (_ || _); [discriminate |]. bd H c E. assert (wf c) by (eapply clamp_wf; eauto). bd H w E1. bd H m E2. bd H n E3. wfs. auto. Qed.
Lemma y_from_wf : forall l rp a b x, y_from_l_rp_rng l rp a b = Ok x -> wf l -> wf rp -> wf a -> wf b -> wf x.
Proof. intros l rp a b x H W1 W2 W3 W4. unfold y_from_l_rp_rng in H. bd H c E. assert (wf c) by (eapply clamp_wf; eauto). bd H w E1. destruct (is_negative w); [discriminate |]. wfs. auto. Qed.

Definition out_wf (o : lp_out) : Prop :=
  wf (io_liq o) /\ wf (io_x o) /\ wf (io_y o) /\ wf (io_fx o) /\ wf (io_fy o) /\ wf (io_hx o) /\ wf (io_hy o) /\ wf (io_netx o) /\ wf (io_nety o).
Lemma deposit_wf : forall p user x y rpa rpb p' o, deposit p user x y rpa rpb = Ok (p', o) -> pool_wf p -> wf x -> wf y -> wf rpa -> wf rpb -> pool_wf p' /\ out_wf o.
Proof.
  intros p user x y rpa rpb p' o H W Wx Wy Wa Wb. destruct (deposit_inv _ _ _ _ _ _ _ _ H) as (lo & up & a & b & p1 & nx & ny & nxf & nxa & nyf & nya & D1 & D2 & D3 & D4 & D5 & D6 & D7 & D8 & D9 & D10 & D11 & D12 & (xd0 & yd0 & D13 & D14 & D15 & D16) & D17 & D18 & D19 & D20 & D21 & D22 & D23 & _ & _ & ->).
  pose proof (proj1 W) as Ws. assert (Wr : wf (glbl_rp p)) by apply W.
  destruct (rtp_nn _ _ _ _ Wa Ws (Z.le_refl 0) D1) as (L1 & _ & _). destruct (rtp_nn _ _ _ _ Wb Ws L1 D2) as (L2 & _ & _).
  destruct (tick_rp_wf _ _ D4) as (Wra & _). destruct (tick_rp_wf _ _ D5) as (Wrb & _).
  assert (Wl : wf (io_liq o)) by (eapply liq_from_wf; [exact D6 | | | | |]; auto).
  assert (wf (io_x o)) by (eapply x_from_wf; [exact D8 | | | |]; auto). assert (wf (io_y o)) by (eapply y_from_wf; [exact D10 | | | |]; auto).
  apply set_position_inv in D12. destruct (set_pos_wf _ _ _ _ _ _ _ D12 W Wl L1 L2) as ((V1 & V2 & V3 & V4 & (V5 & V6 & V7 & V8 & V9 & V10) & V11 & V12) & F1 & F2 & F3 & F4).
  wfs. split; [| unfold out_wf; auto 12]. unfold pool_wf, with_funds. cbn. csplit; auto.
Qed.
Lemma adjc_wf : wf (mkD 999999999999 12 false). Proof. split; cbn; lia. Qed.
Lemma withdraw_wf : forall p user liq rpa rpb p' o, withdraw p user liq rpa rpb = Ok (p', o) -> pool_wf p -> wf liq -> wf rpa -> wf rpb -> pool_wf p' /\ out_wf o.
Proof.
  intros p user liq rpa rpb p' o H W Wl Wa Wb. destruct (withdraw_inv _ _ _ _ _ _ _ H) as (lo & up & a & b & p1 & x0 & y0 & nx & ny & nxf & nxa & nyf & nya & D1 & D2 & D3 & D4 & D5 & D6 & D7 & D8 & D9 & D10 & D11 & D12 & (xd0 & yd0 & D13 & D14 & D15 & D16) & D17 & D17' & D18 & D19 & D20 & D21 & D22 & D23 & ->).
  pose proof (proj1 W) as Ws.
  destruct (rtp_nn _ _ _ _ Wa Ws (Z.le_refl 0) D1) as (L1 & _ & _). destruct (rtp_nn _ _ _ _ Wb Ws L1 D2) as (L2 & _ & _).
  destruct (tick_rp_wf _ _ D4) as (Wra & _). destruct (tick_rp_wf _ _ D5) as (Wrb & _).
  apply set_position_inv in D8. destruct (set_pos_wf _ _ _ _ _ _ _ D8 W (neg_wf _ Wl) L1 L2) as (V & F1 & F2 & F3 & F4).
  assert (Wr : wf (glbl_rp p1)) by apply V. destruct V as (V1 & V2 & V3 & V4 & (V5 & V6 & V7 & V8 & V9 & V10) & V11 & V12).
  assert (wf x0) by (eapply x_from_wf; [exact D9 | | | |]; auto). assert (wf y0) by (eapply y_from_wf; [exact D10 | | | |]; auto). pose proof adjc_wf.
  wfs. split; [| unfold out_wf; rewrite D7; auto 12]. unfold pool_wf, with_funds. cbn. csplit; auto.
Qed.

Definition call_wf (c : call) : Prop :=
  match c with
  | CDeposit _ x y a b => wf x /\ wf y /\ wf a /\ wf b
  | CWithdraw _ l a b => wf l /\ wf a /\ wf b
  | CSwapX d o | CSwapY d o => wf d /\ wf o
  end.
Lemma run_call_wf : forall orc c p p', run_call orc p c = Ok p' -> pool_wf p -> call_wf c -> pool_wf p'.
Proof.
  intros orc [u x y a b | u l a b | d o | d o] p p' H W C; cbn [run_call call_wf] in *; bd H r E; destruct r as [q out]; injection H as <-.
  - eapply deposit_wf; eauto; tauto.
  - eapply withdraw_wf; eauto; tauto.
  - eapply swap_x_records; eauto; tauto.
  - eapply swap_y_records; eauto; tauto.
Qed.
Lemma pool_new_wf : forall rp sp c rate p, pool_new rp sp c rate = Ok p -> wf rp -> wf c -> wf rate -> 0 <= sp ->
  pool_wf p /\ ticks p = [] /\ positions p = [] /\ spacing p = sp /\ (rx p = zero12 /\ ry p = zero12 /\ x_adj p = zero12 /\ y_adj p = zero12 /\ x_fee p = zero12 /\ y_fee p = zero12) /\
  glbl_liq p = zero12 /\ glbl_tick p mod sp = 0 /\ (g_fx (gs p) = zero12 /\ g_fy (gs p) = zero12 /\ g_hx (gs p) = zero12 /\ g_hy (gs p) = zero12) /\ 0 < sp /\ tick_to_rp (glbl_tick p) = Ok (glbl_rp p).
Proof.
  intros rp sp c rate p H Wr Wc Wf Hs. unfold pool_new in H. destruct (is_negative rp); [discriminate |]. bd H big E. destruct big; [discriminate |]. destruct (is_negative rate); [discriminate |].
  bd H tk E1. bd H r E2. rewrite zero_eq in H. cbn [bind] in H. bd H g E3. injection H as <-. unfold gstate_new in E3. repeat match type of E3 with (if ?b then _ else _) = _ => destruct b; [discriminate E3 |] end. injection E3 as <-.
  destruct (rtp_nn _ _ _ _ Wr Hs (Z.le_refl 0) E1) as (L1 & L2 & L3). destruct (tick_rp_wf _ _ E2) as (Wk & _). pose proof zero_wf.
  split. { unfold pool_wf, g_wf, ticks_wf, pos_wf. cbn. csplit; auto; try constructor; try contradiction. }
  cbn. csplit; auto.
Qed.
