(** The fee pots hold what all positions are due. *)
From Coq Require Import ZArith QArith Qminmax List Bool Lia Lqa Sorted String.
From Verif Require Import Base BaseLemmas DecimalModel DecimalSpec DecimalProofs PowProofs WfProofs MathModel MathProofs TickProofs TickLoop PoolModel PoolWf SwapLoop SwapProofs LpProofs PoolInv PoolNonneg PoolLp PoolFees PoolRange PoolScale PoolGain PoolExit SwapAmounts SwapCover SwapWorth SwapFair FeeCredit.
Import ListNotations.
Open Scope Z_scope.

Fixpoint qsum (f : pkey -> pstate -> Q) (m : list (pkey * pstate)) : Q := match m with [] => 0 | (k, q) :: m => f k q + qsum f m end%Q.
Lemma qsum_ext : forall f g m, (forall k q, In (k, q) m -> (f k q == g k q)%Q) -> (qsum f m == qsum g m)%Q.
Proof. induction m as [| [k q] m IH]; intros H; cbn; [reflexivity |]. rewrite (H k q (or_introl eq_refl)), IH; [reflexivity |]. intros; apply H; right; auto. Qed.
Lemma qsum_le : forall f g m, (forall k q, In (k, q) m -> (f k q <= g k q)%Q) -> (qsum f m <= qsum g m)%Q.
Proof. induction m as [| [k q] m IH]; intros H; cbn; [lra |]. pose proof (H k q (or_introl eq_refl)). assert (qsum f m <= qsum g m)%Q; [| lra]. apply IH. intros; apply H; right; auto. Qed.
Lemma pkey_refl : forall k, pkey_eqb k k = true. Proof. intros k. apply pkey_eqb_eq; auto. Qed.
Lemma pm_del_absent : forall k m, ~ In k (map fst m) -> pm_del k m = m.
Proof. induction m as [| [a b] m IH]; cbn; intros H; auto. destruct (pkey_eqb k a) eqn:E; [apply pkey_eqb_eq in E; subst; tauto |]. rewrite IH; auto. Qed.
Lemma qsum_get : forall f k q m, NoDup (map fst m) -> pm_get k m = Some q -> (qsum f m == f k q + qsum f (pm_del k m))%Q.
Proof.
  induction m as [| [a b] m IH]; cbn; intros N H; [discriminate |]. inversion N as [| ? ? N1 N2]; subst. destruct (pkey_eqb k a) eqn:E.
  - apply pkey_eqb_eq in E. injection H as <-. subst a. reflexivity.
  - cbn. rewrite (IH N2 H). ring.
Qed.
Lemma qsum_set : forall f k v m, NoDup (map fst m) -> (qsum f (pm_set k v m) == f k v + qsum f (pm_del k m))%Q.
Proof.
  induction m as [| [a b] m IH]; cbn; intros N; [reflexivity |]. inversion N as [| ? ? N1 N2]; subst. destruct (pkey_eqb k a) eqn:E.
  - apply pkey_eqb_eq in E. subst a. cbn. reflexivity.
  - cbn. rewrite (IH N2). ring.
Qed.
Lemma qsum_none : forall f k m, pm_get k m = None -> qsum f (pm_del k m) = qsum f m.
Proof. intros f k m H. rewrite pm_del_absent; auto. apply pm_get_none; auto. Qed.
Lemma del_in : forall k m a b, NoDup (map fst m) -> In (a, b) (pm_del k m) -> In (a, b) m /\ a <> k.
Proof.
  induction m as [| [c d] m IH]; cbn; intros a b N H; [tauto |]. inversion N as [| ? ? N1 N2]; subst. destruct (pkey_eqb k c) eqn:E.
  - apply pkey_eqb_eq in E. subst c. split; auto. intros ->. apply N1. exact (in_map fst _ _ H).
  - destruct H as [H | H]; [| destruct (IH _ _ N2 H); auto]. injection H as -> ->. split; auto. intros ->. rewrite pkey_refl in E. discriminate.
Qed.

(** What a position is due: liquidity times the growth inside its range since its last settlement. *)
Definition share (p : pool) (k : fkind) (key : pkey) (q : pstate) : Q := let '(_, lo, up) := key in (num (p_liq q) * (inside p lo up k - num (p_fee q k)))%Q.
Definition dues (p : pool) (k : fkind) : Q := qsum (share p k) (positions p).
Definition forward (p : pool) (k : fkind) : Prop := forall u lo up q, In (u, lo, up, q) (positions p) -> (0 < num (p_liq q))%Q -> (num (p_fee q k) <= inside p lo up k)%Q.
Definition backed (p : pool) : Prop := forall k, forward p k /\ (dues p k <= pot_q p k)%Q.
Lemma share_nn : forall p k key q, tick_inv p -> forward p k -> In (key, q) (positions p) -> (0 <= share p k key q)%Q.
Proof.
  intros p k [[u lo] up] q T F Hi. unfold share. destruct (pos_keys _ _ _ _ _ T Hi) as (_ & Nq & _). destruct (Qlt_le_dec 0 (num (p_liq q))) as [Pq | Zq].
  - specialize (F _ _ _ _ Hi Pq). apply Qmult_le_0_compat; lra.
  - assert (Z0 : (num (p_liq q) == 0)%Q) by lra. rewrite Z0. lra.
Qed.
Lemma qsum_nn : forall f m, (forall k q, In (k, q) m -> (0 <= f k q)%Q) -> (0 <= qsum f m)%Q.
Proof. induction m as [| [k q] m IH]; intros H; cbn; [lra |]. pose proof (H k q (or_introl eq_refl)). assert (0 <= qsum f m)%Q; [| lra]. apply IH. intros; apply H; right; auto. Qed.

(** ** Swaps *)
Lemma weighted_psum : forall w m, (weighted w m == qsum (fun key q => kw w key * num (p_liq q)) m)%Q.
Proof. induction m as [| [k q] m IH]; [reflexivity |]. rewrite weighted_cons. cbn [qsum]. rewrite IH. reflexivity. Qed.
Lemma qsum_add : forall f g m, (qsum (fun k q => f k q + g k q) m == qsum f m + qsum g m)%Q.
Proof. induction m as [| [k q] m IH]; cbn; [reflexivity |]. rewrite IH. ring. Qed.
Lemma swap_backed : forall p p' n, tick_inv p -> positions p' = positions p -> sums p p' n -> credited p p' -> backed p -> backed p'.
Proof.
  intros p p' n T E S C B k. destruct (B k) as [F D]. split.
  - intros u lo up q Hi Pq. rewrite E in Hi. specialize (F _ _ _ _ Hi Pq). destruct (C u lo up q k Hi Pq) as [X _]. lra.
  - destruct (S k) as [S1 _]. unfold dues in *. rewrite E.
    assert (X : (qsum (share p' k) (positions p) == qsum (share p k) (positions p) + earned p p' k)%Q); [| lra].
    unfold earned. rewrite weighted_psum, <- qsum_add. apply qsum_ext. intros [[u lo] up] q _. unfold share. cbn [kw]. ring.
Qed.

(** ** Deposits and withdrawals *)
Lemma set_pos_inside : forall p u lo up d p' paid u' lo' up' q k, set_pos p u lo up d p' paid -> pool_wf p -> tick_inv p' -> wf d -> 0 <= lo < up -> In (u', lo', up', q) (positions p') -> (0 < num (p_liq q))%Q ->
  (inside p' lo' up' k == inside p lo' up' k)%Q.
Proof.
  intros p u lo up d p' paid u' lo' up' q k H W T' Wd B Hi Pq. pose proof (proj1 T') as W'. pose proof W' as (_ & _ & _ & (Nd & _) & _).
  destruct (own_ticks _ _ _ _ _ T' (in_pm_get _ _ _ Nd Hi) Pq) as [K1 K2].
  assert (X : forall t, tm_get t (ticks p') <> None -> (PoolFees.above p' t k == PoolFees.above p t k)%Q).
  { intros t Ht. destruct (Z.eq_dec t lo) as [-> | N1]; [apply (set_pos_above _ _ _ _ _ _ _ lo k H W); auto; lia |]. destruct (Z.eq_dec t up) as [-> | N2]; [apply (set_pos_above _ _ _ _ _ _ _ up k H W); auto; lia |].
    destruct H as (nfx & nfy & nhx & nhy & pos' & base & ofx & ofy & ohx & ohy & m1 & m2 & L & _ & _ & _ & _ & P & _ & T1 & T2 & _ & E). unfold PoolFees.above.
    assert (Ek : tm_get t (ticks p') = tm_get t (ticks p)). { subst p'. cbn [ticks]. rewrite (tick_upd_get _ _ _ _ _ _ t T2), (tick_upd_get _ _ _ _ _ _ t T1) by auto. reflexivity. }
    rewrite Ek. assert (Eg : glbl_tick p' = glbl_tick p) by (subst p'; reflexivity). rewrite Eg. assert (Ef : g_fee (gs p') k = g_fee (gs p) k) by (subst p'; destruct k; reflexivity). rewrite Ef. reflexivity. }
  unfold inside. rewrite (X lo' K1), (X up' K2). reflexivity.
Qed.
Definition paid_k (f : fees) (k : fkind) : decimal := let '(fx, fy, hx, hy) := f in match k with FX => fx | FY => fy | HX => hx | HY => hy end.
Lemma owed_le : forall base n o f, fee_owed base n o f -> wf base -> wf n -> wf o -> dscale base = 12 -> (0 <= num base)%Q ->
  (0 <= num n - num o /\ num f <= num base * (num n - num o) /\ num base * (num n - num o) < num f + ulp12)%Q.
Proof.
  intros base n o f (u & U1 & U2 & U3) Wb Wn Wo Sb Pb. assert (Wu : wf u) by (eapply sub_wf; eauto). apply notneg_q in U2; auto. apply sub_q in U1. rewrite U1 in U2.
  destruct (mul_t _ _ _ U3 Wb Wu Sb) as (_ & _ & T). destruct (trunc_pos _ _ _ T) as (_ & T1 & T2); [apply Qmult_le_0_compat; lra |]. change (ulp 12) with ulp12 in T2. rewrite U1 in T1, T2. split; auto.
Qed.
Lemma set_pos_dues : forall p u lo up d p' paid, set_pos p u lo up d p' paid -> tick_inv p -> all12 p -> wf d -> 0 <= lo < up -> lo mod spacing p = 0 -> up mod spacing p = 0 ->
  (pm_get (u, lo, up) (positions p) = None -> (0 < num d)%Q -> forall k, (inside p lo up k == 0)%Q) ->
  forall k, forward p k -> forward p' k /\ (dues p' k <= dues p k - num (paid_k paid k))%Q.
Proof.
  intros p u lo up d p' paid H T A12 Wd B1 B2 B3 New k F. pose proof (set_pos_inv _ _ _ _ _ _ _ H T Wd B1 B2 B3) as T'. pose proof (proj1 T) as W. pose proof (proj1 T') as W'.
  assert (In' : forall u' lo' up' q, In (u', lo', up', q) (positions p') -> (0 < num (p_liq q))%Q -> (inside p' lo' up' k == inside p lo' up' k)%Q) by (intros; eapply set_pos_inside; eauto).
  pose proof W as (_ & _ & _ & (Nd & Wp) & _). pose proof A12 as (_ & _ & P12 & _).
  pose proof H as (nfx & nfy & nhx & nhy & pos' & base & ofx & ofy & ohx & ohy & m1 & m2 & L & R1 & R2 & R3 & R4 & P & Fo & T1 & T2 & _ & E).
  assert (Ep : positions p' = pos') by (subst p'; reflexivity).
  assert (Rk : (num (paid_k (nfx, nfy, nhx, nhy) k) == inside p lo up k)%Q /\ wf (paid_k (nfx, nfy, nhx, nhy) k)).
  { destruct k; cbn [paid_k]; (split; [eapply fee_rng_inside; eauto | eapply fee_rng_wf; eauto]). }
  destruct Rk as [Rk Wk].
  assert (Fk : fee_owed base (paid_k (nfx, nfy, nhx, nhy) k) (paid_k (ofx, ofy, ohx, ohy) k) (paid_k paid k)). { destruct paid as [[[fx fy] hx] hy]. destruct Fo as (O1 & O2 & O3 & O4). destruct k; auto. }
  assert (Rest : (qsum (share p' k) (pm_del (u, lo, up) (positions p)) == qsum (share p k) (pm_del (u, lo, up) (positions p)))%Q /\ forall a b c q, In (a, b, c, q) (pm_del (u, lo, up) (positions p)) -> In (a, b, c, q) pos').
  { assert (Q : forall a b c q, In (a, b, c, q) (pm_del (u, lo, up) (positions p)) -> In (a, b, c, q) pos').
    { intros a b c q Hi. destruct (del_in _ _ _ _ Nd Hi) as [Hi1 Hi2]. apply pm_get_in. unfold pos_upd in P. destruct (pm_get (u, lo, up) (positions p)) as [q0 |].
      - destruct P as (nl & _ & _ & _ & -> & _). destruct (is_zero nl); [rewrite pm_get_del_other | rewrite pm_get_set_other]; auto; apply in_pm_get; auto.
      - destruct P as (_ & -> & _). rewrite pm_get_set_other; auto. apply in_pm_get; auto. }
    split; auto. apply qsum_ext. intros [[a b] c] q Hi. unfold share. destruct (Qlt_le_dec 0 (num (p_liq q))) as [Pq | Zq].
    - rewrite (In' a b c q); auto; [reflexivity | rewrite Ep; auto].
    - apply pm_del_in in Hi. destruct (pos_keys _ _ _ _ _ T Hi) as (_ & Nq & _). assert (Z0 : (num (p_liq q) == 0)%Q) by lra. rewrite Z0. ring. }
  destruct Rest as [Rest _]. unfold dues. rewrite Ep.
  assert (Own : forall v, pos' = pm_set (u, lo, up) v (positions p) -> forall a b c q, In (a, b, c, q) pos' -> (a, b, c, q) = (u, lo, up, v) \/ In (a, b, c, q) (positions p)).
  { intros v -> a b c q Hi. apply pm_set_in in Hi. destruct Hi as [[E1 E2] | Hi]; [left; congruence | auto]. }
  unfold pos_upd in P. destruct (pm_get (u, lo, up) (positions p)) as [q0 |] eqn:G.
  - destruct P as (nl & N0 & Ad & Nn & Ep' & -> & Eo). pose proof (pm_get_in _ _ _ G) as Hi0. destruct (Wp _ _ Hi0) as (Wq & Wq1 & Wq2 & Wq3 & Wq4). destruct (P12 _ _ Hi0) as [S0 _]. destruct (pos_keys _ _ _ _ _ T Hi0) as (_ & Nq & _).
    assert (Wok : wf (paid_k (ofx, ofy, ohx, ohy) k)) by (injection Eo as -> -> -> ->; destruct k; auto). assert (Ok : paid_k (ofx, ofy, ohx, ohy) k = p_fee q0 k) by (injection Eo as -> -> -> ->; destruct k; auto).
    destruct (owed_le _ _ _ _ Fk Wq Wk Wok S0 Nq) as (Y0 & Y1 & _). rewrite Ok, Rk in Y0, Y1.
    rewrite (qsum_get (share p k) _ _ _ Nd G). assert (Sh : share p k (u, lo, up) q0 = (num (p_liq q0) * (inside p lo up k - num (p_fee q0 k)))%Q) by reflexivity. rewrite Sh.
    destruct (is_zero nl) eqn:Zn.
    + rewrite Ep'. rewrite Rest. split; [| lra]. intros a b c q Hi Pq. rewrite (In' a b c q); auto. rewrite Ep, Ep' in Hi. apply pm_del_in in Hi. exact (F a b c q Hi Pq).
    + rewrite Ep'. rewrite qsum_set, Rest by auto. set (v := mkP nl nfx nfy nhx nhy) in *.
      assert (Fv : p_fee v k = paid_k (nfx, nfy, nhx, nhy) k) by (destruct k; reflexivity).
      assert (Iv : In (u, lo, up, v) (positions p')). { rewrite Ep, Ep'. apply pm_get_in. apply pm_get_set_same. }
      destruct (pos_keys _ _ _ _ _ T' Iv) as (_ & Nv & _).
      assert (Sv : (share p' k (u, lo, up) v == 0)%Q). { unfold share. rewrite Fv, Rk. destruct (Qlt_le_dec 0 (num (p_liq v))) as [Pq | Zq]; [rewrite (In' u lo up v); auto; ring |]. assert (Z0 : (num (p_liq v) == 0)%Q) by lra. rewrite Z0. ring. }
      split; [| lra]. intros a b c q Hi Pq. rewrite (In' a b c q); auto. rewrite Ep in Hi. destruct (Own v Ep' _ _ _ _ Hi) as [X | X]; [| exact (F a b c q X Pq)]. injection X as -> -> -> ->. rewrite Fv, Rk. lra.
  - destruct P as (Nn & Ep' & -> & Eo). specialize (New eq_refl). rewrite Ep'. rewrite qsum_set, Rest, (qsum_none _ _ _ G) by auto. set (v := mkP d zero12 zero12 zero12 zero12) in *.
    assert (Fv : (num (p_fee v k) == 0)%Q) by (destruct k; reflexivity). pose proof zero12_wf as Wz.
    assert (Wok : wf (paid_k (ofx, ofy, ohx, ohy) k)) by (injection Eo as -> -> -> ->; destruct k; auto).
    assert (Pz : (num (paid_k paid k) == 0)%Q). { destruct (owed_le zero12 _ _ _ Fk Wz Wk Wok eq_refl) as (_ & Y1 & Y2); [discriminate |]. assert (Z0 : (num zero12 == 0)%Q) by reflexivity. rewrite Z0 in Y1. 
      destruct Fk as (uu & U1 & U2 & U3). assert (Wu : wf uu) by (eapply sub_wf; eauto). apply notneg_q in U2; auto. destruct (mul_t _ _ _ U3 Wz Wu eq_refl) as (_ & _ & TT). destruct (trunc_pos _ _ _ TT) as (TT1 & _). { rewrite Z0. lra. } lra. }
    assert (Iv : In (u, lo, up, v) (positions p')). { rewrite Ep, Ep'. apply pm_get_in. apply pm_get_set_same. }
    assert (Sv : (share p' k (u, lo, up) v <= 0)%Q). { unfold share. rewrite Fv. change (p_liq v) with d. destruct (Qlt_le_dec 0 (num d)) as [Pq | Zq]; [rewrite (In' u lo up v), New by auto; lra |]. destruct (pos_keys _ _ _ _ _ T' Iv) as (_ & Nv & _). change (p_liq v) with d in Nv. assert (Z0 : (num d == 0)%Q) by lra. rewrite Z0. lra. }
    split; [| lra]. intros a b c q Hi Pq. rewrite (In' a b c q); auto. rewrite Ep in Hi. destruct (Own v Ep' _ _ _ _ Hi) as [X | X]; [| exact (F a b c q X Pq)]. injection X as -> -> -> ->. rewrite Fv, (New Pq). lra.
Qed.

(** ** Histories *)
Inductive steady (orc : log2_oracle) : pool -> Prop :=
| st_new : forall rp sp c rate p, wf rp -> wf c -> wf rate -> 0 <= sp -> pool_new rp sp c rate = Ok p -> steady orc p
| st_deposit : forall p u x y a b p' o, steady orc p -> call_wf (CDeposit u x y a b) -> deposit p u x y a b = Ok (p', o) ->
    (forall lo up, range_of p a b lo up -> pm_get (u, lo, up) (positions p) = None -> forall k, (inside p lo up k == 0)%Q) -> steady orc p'
| st_withdraw : forall p u l a b p' o, steady orc p -> call_wf (CWithdraw u l a b) -> withdraw p u l a b = Ok (p', o) -> steady orc p'
| st_swap_x : forall p dx ro p' o, steady orc p -> wf dx -> wf ro -> execute_swap_from_x orc p dx ro = Ok (p', o) ->
    (num (so_recv o) < num dx)%Q \/ clear_of_ticks p' -> steady orc p'
| st_swap_y : forall p dy ro p' o, steady orc p -> wf dy -> wf ro -> execute_swap_from_y orc p dy ro = Ok (p', o) ->
    (num (so_recv o) < num dy)%Q \/ clear_of_ticks p' -> steady orc p'.
Lemma steady_tidy : forall orc p, steady orc p -> tidy orc p.
Proof.
  intros orc p H. induction H as [rp sp c rate p W1 W2 W3 Hs H | p u x y a b p' o H IH C E _ | p u l a b p' o H IH C E | p d r p' o H IH C1 C2 E X | p d r p' o H IH C1 C2 E X].
  - exact (td_new _ _ _ _ _ _ W1 W2 W3 Hs H).
  - exact (td_deposit _ _ _ _ _ _ _ _ _ IH C E).
  - exact (td_withdraw _ _ _ _ _ _ _ _ IH C E).
  - exact (td_swap_x _ _ _ _ _ _ IH C1 C2 E X).
  - exact (td_swap_y _ _ _ _ _ _ IH C1 C2 E X).
Qed.
Lemma funds_same : forall p a b c d e f k, forward p k -> forward (with_funds p a b c d e f) k /\ dues (with_funds p a b c d e f) k = dues p k.
Proof. intros. split; auto. Qed.
Lemma pots_after : forall p1 p (f : fees) nx ny nxa nya nxf nyf, (forall k, pot_q p1 k = pot_q p k) -> let '(fx, fy, hx, hy) := f in
  d_sub (x_fee p1) fx = Ok nxf -> d_sub (x_adj p1) hx = Ok nxa -> d_sub (y_fee p1) fy = Ok nyf -> d_sub (y_adj p1) hy = Ok nya ->
  forall k, (pot_q (with_funds p1 nx ny nxa nya nxf nyf) k == pot_q p k - num (paid_k f k))%Q.
Proof.
  intros p1 p [[[fx fy] hx] hy] nx ny nxa nya nxf nyf E H1 H2 H3 H4 k. rewrite <- E. apply sub_q in H1, H2, H3, H4. unfold pot_q, with_funds, paid_k. destruct k; cbn [x_fee y_fee x_adj y_adj]; assumption.
Qed.
Lemma set_pos_pots : forall p u lo up d p' paid, set_pos p u lo up d p' paid -> forall k, pot_q p' k = pot_q p k.
Proof. intros p u lo up d p' paid (nfx & nfy & nhx & nhy & pos' & base & ofx & ofy & ohx & ohy & m1 & m2 & L & _ & _ & _ & _ & _ & _ & _ & _ & _ & ->) k. destruct k; reflexivity. Qed.
Lemma deposit_backed : forall orc p u x y a b p' o, reachable orc p -> call_wf (CDeposit u x y a b) -> deposit p u x y a b = Ok (p', o) ->
  (forall lo up, range_of p a b lo up -> pm_get (u, lo, up) (positions p) = None -> forall k, (inside p lo up k == 0)%Q) -> backed p -> backed p'.
Proof.
  intros orc p u x y a b p' o R (Wx & Wy & Wa & Wb) H New B k. pose proof (reachable_ticks _ _ R) as T. pose proof (proj1 T) as W.
  apply deposit_inv in H. destruct H as (lo & up & ra & rb & p1 & nx & ny & nxf & nxa & nyf & nya & E1 & E2 & Lt & E3 & E4 & E5 & E6 & _ & _ & _ & _ & S & _ & _ & _ & _ & F1 & F2 & F3 & F4 & _ & _ & ->).
  apply set_position_inv in S. assert (Hs : 0 <= spacing p) by (apply W). destruct (rtp_nn _ _ _ _ Wa Hs (Z.le_refl 0) E1) as (L1 & L2 & _). destruct (rtp_nn _ _ _ _ Wb Hs L1 E2) as (L3 & L4 & _).
  assert (Wr : wf (glbl_rp p)) by apply W. destruct (tick_rp_wf _ _ E3) as (Wra & _). destruct (tick_rp_wf _ _ E4) as (Wrb & _).
  assert (Wl : wf (io_liq o)) by (eapply liq_from_wf; [exact E5 | | | | |]; auto).
  destruct (B k) as [F D]. destruct (set_pos_dues _ _ _ _ _ _ _ S T (reachable_all12 _ _ R) Wl (conj L1 Lt) L2 L4 (fun G _ => New lo up (range_ok _ _ _ _ _ Hs Wa Wb E1 E2 Lt) G) k F) as [F' D'].
  pose proof (pots_after p1 p (io_fx o, io_fy o, io_hx o, io_hy o) nx ny nxa nya nxf nyf (set_pos_pots _ _ _ _ _ _ _ S) F1 F2 F3 F4 k) as Q. split; [exact F' |]. change (dues p1 k <= pot_q (with_funds p1 nx ny nxa nya nxf nyf) k)%Q. lra.
Qed.
Lemma withdraw_backed : forall orc p u l a b p' o, reachable orc p -> call_wf (CWithdraw u l a b) -> withdraw p u l a b = Ok (p', o) -> backed p -> backed p'.
Proof.
  intros orc p u l a b p' o R (Wl & Wa & Wb) H B k. pose proof (reachable_ticks _ _ R) as T. pose proof (proj1 T) as W.
  apply withdraw_inv in H. destruct H as (lo & up & ra & rb & p1 & x0 & y0 & nx & ny & nxf & nxa & nyf & nya & E1 & E2 & Lt & E3 & E4 & E5 & E6 & S & _ & _ & _ & _ & _ & _ & _ & _ & _ & F1 & F2 & F3 & F4 & ->).
  apply set_position_inv in S. assert (Hs : 0 <= spacing p) by (apply W). destruct (rtp_nn _ _ _ _ Wa Hs (Z.le_refl 0) E1) as (L1 & L2 & _). destruct (rtp_nn _ _ _ _ Wb Hs L1 E2) as (L3 & L4 & _).
  destruct (B k) as [F D].
  assert (New : pm_get (u, lo, up) (positions p) = None -> (0 < num (d_neg l))%Q -> forall k, (inside p lo up k == 0)%Q).
  { intros _ X. exfalso. assert (num (d_neg l) == - num l)%Q by (apply num_neg; auto). apply notneg_q in E5; auto. lra. }
  destruct (set_pos_dues _ _ _ _ _ _ _ S T (reachable_all12 _ _ R) (neg_wf _ Wl) (conj L1 Lt) L2 L4 New k F) as [F' D'].
  pose proof (pots_after p1 p (io_fx o, io_fy o, io_hx o, io_hy o) nx ny nxa nya nxf nyf (set_pos_pots _ _ _ _ _ _ _ S) F1 F2 F3 F4 k) as Q. split; [exact F' |]. change (dues p1 k <= pot_q (with_funds p1 nx ny nxa nya nxf nyf) k)%Q. lra.
Qed.
Theorem steady_backed : forall orc p, steady orc p -> backed p.
Proof.
  intros orc p H. induction H as [rp sp c rate p W1 W2 W3 Hs H | p u x y a b p' o H IH C E New | p u l a b p' o H IH C E | p d r p' o H IH C1 C2 E X | p d r p' o H IH C1 C2 E X].
  - intros k. destruct (new_ok _ _ _ _ _ W1 W2 W3 Hs H) as (_ & P0 & _). split; [intros u lo up q Hi; rewrite P0 in Hi; destruct Hi |]. unfold dues. rewrite P0. cbn [qsum]. destruct (new_nn _ _ _ _ _ W1 W2 W3 Hs H) as (_ & (_ & _ & N3 & N4 & N5 & N6) & _). unfold pot_q. destruct k; assumption.
  - exact (deposit_backed orc _ _ _ _ _ _ _ _ (tidy_reachable _ _ (steady_tidy _ _ H)) C E New IH).
  - exact (withdraw_backed orc _ _ _ _ _ _ _ (tidy_reachable _ _ (steady_tidy _ _ H)) C E IH).
  - pose proof (steady_tidy _ _ H) as T. destruct (swap_x_credit _ _ _ _ _ _ (tidy_reachable _ _ T) (range_liquidity _ _ T) C1 C2 E X) as (P & S & Q). pose proof (reachable_ticks _ _ (tidy_reachable _ _ T)) as TI. exact (swap_backed _ _ _ TI P S (quiet_credited _ _ TI Q) IH).
  - pose proof (steady_tidy _ _ H) as T. destruct (swap_y_credit _ _ _ _ _ _ (tidy_reachable _ _ T) (range_liquidity _ _ T) C1 C2 E X) as (P & S & Q). pose proof (reachable_ticks _ _ (tidy_reachable _ _ T)) as TI. exact (swap_backed _ _ _ TI P S (quiet_credited _ _ TI Q) IH).
Qed.

Lemma qsum_ge : forall f k q m, In (k, q) m -> (forall k q, In (k, q) m -> (0 <= f k q)%Q) -> (f k q <= qsum f m)%Q.
Proof.
  induction m as [| [a b] m IH]; intros Hi N; [destruct Hi |]. cbn [qsum]. pose proof (N a b (or_introl eq_refl)). assert (Nm : forall k q, In (k, q) m -> (0 <= f k q)%Q) by (intros; apply N; right; auto). pose proof (qsum_nn f m Nm).
  destruct Hi as [E | Hi]; [injection E as -> ->; lra | specialize (IH Hi Nm); lra].
Qed.
(** In such histories a withdrawal fails only for want of reserves, or of bits. *)
Theorem steady_withdraw : forall orc p user l rpa rpb lo up, steady orc p -> wf rpa -> wf rpb -> range_of p rpa rpb lo up -> up < 2 ^ 19 ->
  nonneg l -> dscale l = 12 -> (0 < num l)%Q -> (num l <= liq_of p (user, lo, up))%Q -> (forall k, pot_q p k < max12 * ulp12)%Q ->
  computable p lo up (dval l) ->
  (inject_Z (cut (claim_x p (user, lo, up) (dval l))) * ulp12 <= num (rx p) /\ inject_Z (cut (claim_y p (user, lo, up) (dval l))) * ulp12 <= num (ry p))%Q ->
  (num (rx p) + num (x_fee p) + num (x_adj p) < max12 /\ num (ry p) + num (y_fee p) + num (y_adj p) < max12)%Q ->
  exists p' o, withdraw p user l rpa rpb = Ok (p', o).
Proof.
  intros orc p user l rpa rpb lo up S Wa Wb RG Hu Nl Sl Pl Hl Fit C Rs Mx. pose proof (steady_tidy _ _ S) as Td. pose proof (tidy_reachable _ _ Td) as R. pose proof (reachable_ticks _ _ R) as T.
  assert (G : exists q, pm_get (user, lo, up) (positions p) = Some q). { unfold liq_of in Hl. destruct (pm_get (user, lo, up) (positions p)) as [q |]; [eauto | lra]. }
  destruct G as (q & G). assert (Lq : (liq_of p (user, lo, up) == num (p_liq q))%Q) by (unfold liq_of; rewrite G; reflexivity). pose proof (pm_get_in _ _ _ G) as Hi. assert (Pq : (0 < num (p_liq q))%Q) by lra.
  apply (withdraw_completes orc p user l rpa rpb lo up); auto.
  - intros I. rewrite (range_liquidity _ _ Td). pose proof (weighted_ge orc p (fun a b => is_b ((a <=? glbl_tick p) && (glbl_tick p <? b))) user lo up R) as X. 
    assert (Y : forall a b, (0 <= is_b ((a <=? glbl_tick p) && (glbl_tick p <? b)))%Q) by (intros a b; destruct (_ && _)%bool; cbn; lra). specialize (X Y). cbv beta in X.
    assert (Z1 : ((lo <=? glbl_tick p) && (glbl_tick p <? up))%bool = true) by (apply andb_true_intro; split; [apply Z.leb_le | apply Z.ltb_lt]; lia). rewrite Z1 in X. cbn [is_b] in X. unfold covering. lra.
  - intros k. destruct (steady_backed _ _ S k) as [F D]. pose proof (F _ _ _ _ Hi Pq) as F1. pose proof (reachable_paid _ _ R _ _ Hi k) as P0.
    assert (Pd : (paid_up p (user, lo, up) k == num (p_fee q k))%Q) by (unfold paid_up; rewrite G; reflexivity).
    assert (N0 : (0 <= num (p_fee q k))%Q). { destruct (reachable_all12 _ _ R) as (_ & _ & P12 & _). destruct (P12 _ _ Hi) as [_ S12]. rewrite (num12 _ (proj1 (S12 k))). setoid_replace 0%Q with (inject_Z 0 * ulp12)%Q by ring. apply (proj2 (q_of_m _ _)). exact P0. }
    assert (Du : (due p (user, lo, up) k <= dues p k)%Q). { unfold dues. apply Qle_trans with (share p k (user, lo, up) q); [unfold due, share; rewrite Pd, Lq; apply Qle_refl |]. apply qsum_ge; auto. intros k' q' Hi'. apply share_nn; auto. }
    rewrite Pd. specialize (Fit k). csplit; lra.
Qed.
