(** On the ledger nobody takes out of a position more than was put into it (up to a token per top-up). *)
From Coq Require Import ZArith List Bool Lia.
From Verif Require Import Base BaseLemmas DecimalModel MathModel BitmapModel PoolWf ChainModel ChainLemmas ChainSpec ChainInv ChainFlow ChainLive ChainOrder WorldModel WorldSpec WorldProofs WorldInv WorldSim WorldStep WorldThm WorldLive WorldFx.
Import ListNotations.
Open Scope Z_scope.

(** ** Vocabulary *)
(** A sum along a history, of something that depends on the instruction and on the ledger it is executed in. *)
Fixpoint walong (f : world -> winstr -> Z) (w : world) (is : list winstr) : Z := match is with [] => 0 | i :: r => f w i + walong f (wtx w i) r end.
(** Is the instruction a deposit into (a withdrawal from) position (u, l, h) of the pool of LP mint [m]? *)
Definition into (m : addr) (u : positive) (l h : Z) (i : winstr) : option passed :=
  match i with WDeposit d u' l' h' _ _ _ => if addr_eqb (a_pool d) (PoolAt m) && (u' =? u)%positive && (l' =? l) && (h' =? h) then Some d else None | _ => None end.
Definition outof (m : addr) (u : positive) (l h : Z) (i : winstr) : option passed :=
  match i with WWithdraw d u' l' h' _ _ => if addr_eqb (a_pool d) (PoolAt m) && (u' =? u)%positive && (l' =? l) && (h' =? h) then Some d else None | _ => None end.
(** What deposits into the position take from the depositor's account named by [acc] (X or Y), what withdrawals from it pay to it, and how many deposits go to a position that has liquidity already. *)
Definition paid (acc : passed -> addr) (m : addr) (u : positive) (l h : Z) (w : world) (i : winstr) : Z := match into m u l h i with Some d => balance w (acc d) - balance (wtx w i) (acc d) | None => 0 end.
Definition got (acc : passed -> addr) (m : addr) (u : positive) (l h : Z) (w : world) (i : winstr) : Z := match outof m u l h i with Some d => balance (wtx w i) (acc d) - balance w (acc d) | None => 0 end.
Definition added (m : addr) (u : positive) (l h : Z) (w : world) (i : winstr) : Z :=
  match into m u l h i, wexec w i with Some _, Ok _ => if 0 <? position_liq w m u l h then 1 else 0 | _, _ => 0 end.

(** ** Proofs *)
Lemma born_on : forall w0 is i m k g, initial w0 -> born_empty w0 is m -> wget (PoolAt m) (wrun w0 is) = Some (CPool k g) -> born_empty w0 (is ++ [i]) m.
Proof.
  intros w0 is i m k g IN B G js j r E N S. destruct r as [| x r] using rev_ind.
  - apply app_inj_tail in E. destruct E as [<- <-]. rewrite G in N. discriminate N.
  - clear IHr. apply (B js j r); [| exact N | exact S]. change (js ++ j :: r ++ [x]) with (js ++ (j :: r) ++ [x]) in E. rewrite app_assoc in E. apply app_inj_tail in E. apply E.
Qed.
(** Instructions that leave position [q] alone. *)
Definition aside (q : cpkey) (j : instr) : Prop := match j with IDeposit u l h _ _ _ _ => (u, l, h) <> q | IWithdraw u l h _ _ => (u, l, h) <> q | _ => True end.
Lemma aside_sums : forall v q js s, Forall (aside q) js -> along (withdrawn v q) s js = 0 /\ along (deposited v q) s js = 0 /\ along (topups_of q) s js = 0.
Proof.
  intros v q. induction js as [| j r IH]; intros s F; [repeat split |]. inversion F as [| a b A1 A2]; subst. destruct (IH (tx s j) A2) as (H1 & H2 & H3). cbn [along]. rewrite H1, H2, H3.
  destruct j; cbn [withdrawn deposited topups_of aside] in *; try (repeat split; reflexivity); rewrite cpkey_eqb_neq by auto; repeat split; reflexivity.
Qed.
Lemma external_aside : forall P q js, Forall (external P) js -> Forall (aside q) js.
Proof. intros P q js F. eapply Forall_impl; [| exact F]. intros j. destruct j; cbn; auto; intros []. Qed.
Lemma same_key : forall m u l h d u' l' h', (addr_eqb (a_pool d) (PoolAt m) && (u' =? u)%positive && (l' =? l) && (h' =? h)) = true -> a_pool d = PoolAt m /\ u' = u /\ l' = l /\ h' = h.
Proof. intros m u l h d u' l' h' E. rewrite !andb_true_iff in E. destruct E as (((E1 & E2) & E3) & E4). apply aeq in E1. apply Pos.eqb_eq in E2. apply Z.eqb_eq in E3, E4. auto. Qed.
Lemma seen_aside : forall w m u l h i js, seen_as w m i js -> into m u l h i = None -> outof m u l h i = None -> Forall (aside (Zpos u, l, h)) js.
Proof.
  intros w m u l h i js S I O. destruct i; cbn [seen_as into outof] in *; try (exact (external_aside _ _ _ S)); try (subst js; repeat constructor; fail);
  try (subst js; destruct (addr_eqb _ _); repeat constructor; fail).
  - destruct (addr_eqb (a_pool d) (PoolAt m)) eqn:EP; [| exact (external_aside _ _ _ S)]. destruct S as (o & n & _ & ->). constructor; [| constructor]. cbn [aside].
    intros Q. injection Q as -> -> ->. rewrite Pos.eqb_refl, !Z.eqb_refl in I. discriminate I.
  - destruct (addr_eqb (a_pool d) (PoolAt m)) eqn:EP; [| exact (external_aside _ _ _ S)]. subst js. constructor; [| constructor]. cbn [aside].
    intros Q. injection Q as -> -> ->. rewrite Pos.eqb_refl, !Z.eqb_refl in O. discriminate O.
Qed.
Lemma one_done : forall s j, all_succeed s [j] -> exists s', exec s j = Ok s' /\ run_txs s [j] = s'.
Proof. intros s j [[s' E] _]. exists s'. split; [exact E |]. cbn [run_txs fold_left]. unfold tx. rewrite E. reflexivity. Qed.
Lemma ag_ctk : forall w m k s g, agrees w m k s -> wget (PoolAt m) w = Some (CPool k g) -> ctk s = cg_tick g.
Proof. intros w m k s g A G. destruct (ag_pool _ _ _ _ A) as (g1 & G1 & C). rewrite G in G1. injection G1 as <-. unfold ctk. rewrite C. reflexivity. Qed.

Section One.
Variables (acc : passed -> addr) (wf : Z -> cpkey -> Z -> Z) (v : cstate -> Z) (sel : Z -> Z -> Z).
(** [sel] chooses X or Y. *)
Hypothesis F : flow wf v.
Hypothesis ACC : forall w w' m k g u l h c d o dx dy dl n, exchanged w w' m k g u l h c (a_ux d) (a_uy d) (a_lp d) o dx dy dl n -> balance w' (acc d) = balance w (acc d) - sel dx dy.
Hypothesis SEL : forall c q a, sel (worth_x c q a) (worth_y c q a) = wf c q a.
Hypothesis SELN : forall a b, sel (- a) (- b) = - sel a b.

Lemma step_flow : forall w0 is m k g u l h i, initial w0 -> born_empty w0 is m -> wget (PoolAt m) (wrun w0 is) = Some (CPool k g) -> pk_x k <> m -> pk_y k <> m ->
  let w := wrun w0 is in
  got acc m u l h w i + wf (cg_tick g) (Zpos u, l, h) (position_liq (wtx w i) m u l h) <= paid acc m u l h w i + added m u l h w i + wf (cg_tick g) (Zpos u, l, h) (position_liq w m u l h).
Proof.
  intros w0 is m k g u l h i IN B G NX NY w. unfold got, paid, added. destruct (wexec w i) as [w' | | |] eqn:E;
  try (assert (T : wtx w i = w) by (unfold wtx; rewrite E; reflexivity); rewrite T; destruct (into m u l h i), (outof m u l h i); lia).
  assert (T : wtx w i = w') by (unfold wtx; rewrite E; reflexivity). rewrite T.
  destruct (pool_sim _ _ _ _ _ IN B G NX NY) as [s S]. destruct (wrun_ok is w0 (initial_inv _ IN) (initial_place _ IN)) as (I & _ & P).
  fold w in S, I, P. assert (W : poolw w m k) by (split; eauto). destruct (step _ _ _ _ _ _ W S E) as (js & V & AS & A'). pose proof S as (A & R & _). pose proof (reached_inv _ R) as CI.
  destruct (pool_forever [i] w m k g I P G) as (g' & G' & TK & _). cbn [wrun fold_left] in G'. rewrite T in G'.
  pose proof (ag_ctk _ _ _ _ _ A G) as C1. pose proof (ag_ctk _ _ _ _ _ A' G') as C2. rewrite TK in C2.
  rewrite (pos_agree _ _ _ _ u l h A), (pos_agree _ _ _ _ u l h A').
  pose proof (flow_key _ _ F js s (Zpos u, l, h) CI) as FK. rewrite C1, C2 in FK.
  destruct (into m u l h i) as [d |] eqn:EI; [| destruct (outof m u l h i) as [d |] eqn:EO].
  - destruct i as [| | | | d' u' l' h' c xa ya | | | | | | | | ]; try discriminate EI. cbn [into outof] in *. destruct (_ && _) eqn:EK; [| discriminate EI]. injection EI as ->. destruct (same_key _ _ _ _ _ _ _ _ EK) as (PD & -> & -> & ->).
    cbn [seen_as] in V. rewrite PD, aeq_refl in V. destruct V as (o & n & _ & ->). destruct (one_done _ _ AS) as (s' & ES & RS). rewrite RS in *.
    destruct (ledger_deposit _ _ _ _ _ _ _ _ _ _ _ _ _ IN B G NX NY PD E) as (_ & _ & o' & dl & D0 & _ & _ & X). rewrite (ACC _ _ _ _ _ _ _ _ _ _ _ _ _ _ _ X), SEL. fold w.
    destruct X as (nx & ny & vx & vy & nl & sp & g2 & _ & _ & _ & _ & _ & _ & _ & _ & _ & _ & _ & _ & PL & _). fold w in PL. rewrite (pos_agree _ _ _ _ u l h A), (pos_agree _ _ _ _ u l h A') in PL.
    destruct (exec_deposit _ _ _ _ _ _ _ _ _ CI ES) as (_ & d2 & DE & _). pose proof (fl_dep _ _ F _ _ _ _ _ _ _ _ _ _ DE) as VV. destruct DE as (_ & _ & P1 & _). assert (d2 = dl) by lia. subst d2.
    cbn [along withdrawn deposited topups_of] in FK. unfold succeeds, tx in FK. rewrite ES, cpkey_eqb_refl in FK. cbn [andb when] in FK. destruct (0 <? pos_liq s (Zpos u, l, h)); cbn [when] in FK; lia.
  - destruct i as [| | | | | d' u' l' h' c n | | | | | | | ]; try discriminate EO. cbn [into outof] in *. destruct (_ && _) eqn:EK; [| discriminate EO]. injection EO as ->. destruct (same_key _ _ _ _ _ _ _ _ EK) as (PD & -> & -> & ->).
    cbn [seen_as] in V. rewrite PD, aeq_refl in V. subst js. destruct (one_done _ _ AS) as (s' & ES & RS). rewrite RS in *.
    destruct (ledger_withdraw _ _ _ _ _ _ _ _ _ _ _ _ IN B G NX NY PD E) as (_ & _ & _ & _ & _ & _ & _ & X). rewrite (ACC _ _ _ _ _ _ _ _ _ _ _ _ _ _ _ X), SELN, SEL. fold w.
    destruct (exec_withdraw _ _ _ _ _ _ _ CI ES) as (_ & DE & _). pose proof (fl_wd _ _ F _ _ _ _ _ _ _ DE) as VV.
    cbn [along withdrawn deposited topups_of] in FK. unfold tx in FK. rewrite ES, cpkey_eqb_refl in FK. cbn [when] in FK. lia.
  - destruct (aside_sums v _ js s (seen_aside _ _ _ _ _ _ _ V EI EO)) as (H1 & H2 & H3). rewrite H1, H2, H3 in FK. lia.
Qed.
Lemma run_flow : forall is' w0 is m k g u l h, initial w0 -> born_empty w0 is m -> wget (PoolAt m) (wrun w0 is) = Some (CPool k g) -> pk_x k <> m -> pk_y k <> m ->
  let w := wrun w0 is in
  walong (got acc m u l h) w is' + wf (cg_tick g) (Zpos u, l, h) (position_liq (wrun w is') m u l h) <= walong (paid acc m u l h) w is' + walong (added m u l h) w is' + wf (cg_tick g) (Zpos u, l, h) (position_liq w m u l h).
Proof.
  induction is' as [| i r IH]; intros w0 is m k g u l h IN B G NX NY w; [cbn; lia |]. pose proof (step_flow _ _ _ _ _ u l h i IN B G NX NY) as H. cbv zeta in H. fold w in H.
  destruct (wrun_ok is w0 (initial_inv _ IN) (initial_place _ IN)) as (I & _ & P). destruct (pool_forever [i] _ m k g I P G) as (g' & G' & TK & _). rewrite <- wrun_app in G'.
  pose proof (IH w0 (is ++ [i]) m k g' u l h IN (born_on _ _ i _ _ _ IN B G) G' NX NY) as H2. cbv zeta in H2. rewrite wrun_app in H2. fold w in H2. change (wrun w [i]) with (wtx w i) in H2. rewrite TK in H2.
  cbn [walong]. change (wrun w (i :: r)) with (wrun (wtx w i) r). lia.
Qed.
End One.
Lemma worths_nn : forall w0 is m k g u l h, initial w0 -> born_empty w0 is m -> wget (PoolAt m) (wrun w0 is) = Some (CPool k g) -> pk_x k <> m -> pk_y k <> m ->
  0 <= worth_x (cg_tick g) (Zpos u, l, h) (position_liq (wrun w0 is) m u l h) /\ 0 <= worth_y (cg_tick g) (Zpos u, l, h) (position_liq (wrun w0 is) m u l h).
Proof.
  intros w0 is m k g u l h IN B G NX NY. destruct (pool_sim _ _ _ _ _ IN B G NX NY) as [s S]. destruct S as (A & R & _). rewrite (pos_agree _ _ _ _ u l h A). destruct R as (x & y & js & FX & FY & ->).
  apply worth_nn; auto. destruct (ag_pool _ _ _ _ A) as (g1 & G1 & C). rewrite G in G1. injection G1 as <-. exists g. auto.
Qed.
Lemma ledger_flow : forall w0 is is' m k g u l h, initial w0 -> born_empty w0 is m -> wget (PoolAt m) (wrun w0 is) = Some (CPool k g) -> pk_x k <> m -> pk_y k <> m ->
  let w := wrun w0 is in
  walong (got a_ux m u l h) w is' + worth_x (cg_tick g) (Zpos u, l, h) (position_liq (wrun w is') m u l h) <= walong (paid a_ux m u l h) w is' + walong (added m u l h) w is' + worth_x (cg_tick g) (Zpos u, l, h) (position_liq w m u l h) /\
  walong (got a_uy m u l h) w is' + worth_y (cg_tick g) (Zpos u, l, h) (position_liq (wrun w is') m u l h) <= walong (paid a_uy m u l h) w is' + walong (added m u l h) w is' + worth_y (cg_tick g) (Zpos u, l, h) (position_liq w m u l h).
Proof.
  intros w0 is is' m k g u l h IN B G NX NY. split.
  - apply (run_flow a_ux worth_x vault_x (fun a _ => a) flow_x) with (k := k); auto. intros w w' m0 k0 g0 u0 l0 h0 c d o dx dy dl n (nx & ny & vx & vy & nl & s & g1 & U1 & U2 & _). unfold balance. rewrite U1, U2. reflexivity.
  - apply (run_flow a_uy worth_y vault_y (fun _ b => b) flow_y) with (k := k); auto. intros w w' m0 k0 g0 u0 l0 h0 c d o dx dy dl n (nx & ny & vx & vy & nl & s & g1 & _ & _ & U3 & U4 & _). unfold balance. rewrite U3, U4. reflexivity.
Qed.

(** ** All positions together *)
(** The sum over all positions of key holders in the pool of LP mint [m]. *)
Definition all_positions (f : cpkey -> Z -> Z) (w : world) (m : addr) : Z :=
  wsum (fun a c => match a, c with PositionAt p (Key u) l h, CPos q => if addr_eqb p (PoolAt m) then f (Zpos u, l, h) (cp_liq q) else 0 | _, _ => 0 end) w.
(** Deposits into positions of the pool that have liquidity already. *)
Definition topup (m : addr) (w : world) (i : winstr) : Z :=
  match i with
  | WDeposit d u l h _ _ _ => match wexec w i with Ok _ => if addr_eqb (a_pool d) (PoolAt m) && (0 <? position_liq w m u l h) then 1 else 0 | _ => 0 end
  | _ => 0
  end.
Lemma all_sum : forall f m w, all_positions f w m = lsum f (pos_list m w).
Proof.
  intros f m. unfold all_positions, wsum, lsum. induction w as [| [a c] r IH]; [reflexivity |]. unfold pos_list. cbn [flat_map fold_right fst snd]. fold (pos_list m r). rewrite IH.
  destruct a as [| | | p u l h | | |]; try reflexivity. destruct u as [u | | | | | |]; try reflexivity. destruct c; try reflexivity. destruct (addr_eqb p (PoolAt m)); reflexivity.
Qed.
Lemma all_agree : forall f w m k s, winv w -> agrees w m k s -> reached s -> all_positions f w m = lsum f (c_pos s).
Proof.
  intros f w m k s I A R. rewrite all_sum. symmetry. apply lsum_ext; [apply (i_nodup _ (reached_inv _ R)) | apply pos_nodup, (wi_nodup _ I) |]. intros [[u l] h]. rewrite pos_get by apply (wi_nodup _ I). exact (ag_pos _ _ _ _ A u l h).
Qed.
Lemma ext_topups : forall P js s, Forall (external P) js -> along topups s js = 0.
Proof. intros P. induction js as [| j r IH]; intros s F; [reflexivity |]. inversion F as [| a b A1 A2]; subst. cbn [along]. rewrite IH by auto. destruct j; cbn [external topups] in *; try reflexivity; contradiction. Qed.
Lemma seen_topups : forall w m k s i js w', agrees w m k s -> seen_as w m i js -> all_succeed s js -> wexec w i = Ok w' -> along topups s js = topup m w i.
Proof.
  intros w m k s i js w' A V AS E. destruct i; cbn [seen_as topup] in *; try (exact (ext_topups _ _ _ V)); try (subst js; reflexivity); try (subst js; destruct (addr_eqb _ _); reflexivity).
  - rewrite E. destruct (addr_eqb (a_pool d) (PoolAt m)) eqn:EP; [| exact (ext_topups _ _ _ V)]. destruct V as (o & n & _ & ->). destruct (one_done _ _ AS) as (s' & ES & _).
    cbn [along topups andb]. unfold succeeds. rewrite ES, (pos_agree _ _ _ _ user lower upper A). cbn [andb]. destruct (0 <? _); reflexivity.
  - destruct (addr_eqb (a_pool d) (PoolAt m)) eqn:EP; [| exact (ext_topups _ _ _ V)]. subst js. reflexivity.
Qed.
Lemma no_positions : forall lx ly t s, exec (genesis lx ly) (IInitPool t) = Ok s -> c_pos s = [].
Proof. intros lx ly t s H. unfold exec in H. destruct (args_ok _); [| discriminate H]. cbn [negb] in H. unfold i_init_pool in H. cbn [genesis c_pool] in H. bd H r E1. bd H r' E2. clear E1 E2. injection H as <-. reflexivity. Qed.
Lemma vault_agree : forall w m k s, poolw w m k -> agrees w m k s -> vault_x s = balance w (VaultAt (pk_x k) m) /\ vault_y s = balance w (VaultAt (pk_y k) m).
Proof.
  intros w m k s W A. pose proof (facts _ _ _ W) as F. pose proof (wi_nodup _ (pw_inv _ _ _ W)) as N. pose proof (ag_x _ _ _ _ A HVault) as B1. pose proof (ag_y _ _ _ _ A HVault) as B2. unfold full in B1, B2. cbn [reserve holder_eqb] in B1, B2.
  destruct (pf_vx _ _ _ F) as [n1 V1]. destruct (pf_vy _ _ _ F) as [n2 V2]. rewrite (vault_only _ _ _ _ _ N V1) in B1. rewrite (vault_only _ _ _ _ _ N V2) in B2. rewrite (pf_xv _ _ _ F) in V1. rewrite (pf_yv _ _ _ F) in V2. unfold vault_x, vault_y, balance. rewrite V1, V2. auto.
Qed.
Lemma walong_snoc : forall f is i w, walong f w (is ++ [i]) = walong f w is + f (wrun w is) i.
Proof. induction is as [| j r IH]; intros i w; [cbn; lia |]. cbn [app walong]. rewrite IH. change (wrun w (j :: r)) with (wrun (wtx w j) r). lia. Qed.
Lemma topup_nn : forall m w i, 0 <= topup m w i.
Proof. intros m w i. destruct i; cbn [topup]; try lia. destruct (wexec w _); try lia. destruct (_ && _); lia. Qed.
Lemma walong_nn : forall f is w, (forall w i, 0 <= f w i) -> 0 <= walong f w is.
Proof. intros f is w H. revert w. induction is as [| i r IH]; intros w; cbn [walong]; [lia |]. pose proof (H w i). pose proof (IH (wtx w i)). lia. Qed.
Lemma ledger_vaults : forall w0 is m k g, initial w0 -> born_empty w0 is m -> wget (PoolAt m) (wrun w0 is) = Some (CPool k g) -> pk_x k <> m -> pk_y k <> m ->
  all_positions (worth_x (cg_tick g)) (wrun w0 is) m <= balance (wrun w0 is) (VaultAt (pk_x k) m) + walong (topup m) w0 is /\
  all_positions (worth_y (cg_tick g)) (wrun w0 is) m <= balance (wrun w0 is) (VaultAt (pk_y k) m) + walong (topup m) w0 is.
Proof.
  intros w0 is m k g IN. revert k g. induction is as [| i is IH] using rev_ind; intros k g B G NX NY.
  - destruct (proj2 IN _ _ G) as [[q Q] _]. discriminate Q.
  - destruct (wrun_ok is w0 (initial_inv _ IN) (initial_place _ IN)) as (I & _ & P). pose proof (B is i [] eq_refl) as B1. pose proof (prefix_born _ _ _ _ B) as B0. rewrite walong_snoc. rewrite wrun_app in *. cbn [wrun fold_left] in *. fold (wrun w0 is) in *. pose proof (topup_nn m (wrun w0 is) i) as T0.
    pose proof (fun k g => pool_sim w0 is m k g IN B0) as PS. pose proof (walong_nn (topup m) is w0 (topup_nn m)) as TN. set (w := wrun w0 is) in *. unfold wtx in *. destruct (wexec w i) as [w' | | |] eqn:E; try (pose proof (IH _ _ B0 G NX NY); lia).
    destruct (wexec_inv _ _ _ I E) as [I' X]. assert (W' : poolw w' m k) by (split; eauto). destruct (wget (PoolAt m) w) as [c |] eqn:GO.
    + destruct (P _ _ GO) as (k0 & g0 & ->). destruct (ext_pool _ _ _ _ _ X GO) as [g1 G1]. rewrite G in G1. injection G1 as <- _. destruct (PS _ _ eq_refl NX NY) as [s S]. destruct (IH _ _ B0 eq_refl NX NY) as [H1 H2].
      assert (W : poolw w m k) by (split; eauto). destruct (step _ _ _ _ _ _ W S E) as (js & V & AS & A'). pose proof (sim_run _ _ _ _ _ _ S A') as (_ & R' & _). pose proof S as (A & R & _). pose proof (reached_inv _ R) as CI.
      destruct (pool_forever [i] w m k g0 I P GO) as (g' & G' & TK & _). cbn [wrun fold_left] in G'. unfold wtx in G'. rewrite E in G'. rewrite G in G'. injection G' as <-. rewrite TK.
      pose proof (ag_ctk _ _ _ _ _ A GO) as C1. pose proof (ag_ctk _ _ _ _ _ A' G) as C2. rewrite TK in C2. destruct (vault_agree _ _ _ _ W A) as [V1 V2]. destruct (vault_agree _ _ _ _ W' A') as [V3 V4].
      pose proof (flow_all _ _ flow_x js s CI) as F1. pose proof (flow_all _ _ flow_y js s CI) as F2. rewrite C1, C2, (seen_topups _ _ _ _ _ _ _ A V AS E) in F1, F2.
      rewrite (all_agree _ _ _ _ _ I A R) in H1. rewrite (all_agree _ _ _ _ _ I A R) in H2. rewrite !(all_agree _ _ _ _ _ I' A' R'). lia.
    + destruct (new_pool _ _ _ _ _ _ I P E GO G) as (p & xm & ym & xv & yv & lpv & t & ->). destruct B1 as [a Z]; [reflexivity | rewrite G; discriminate |].
      unfold wexec in E. destruct (wargs_ok _) eqn:AO; [| discriminate E]. cbn [negb] in E. cbn [wargs_ok] in AO. destruct (init_pool_parts _ _ _ _ _ _ _ _ _ _ I E) as (_ & _ & _ & M). destruct (birth _ _ _ _ _ _ I I' AO M) as (lx & ly & s & ES & A' & R' & _); [eauto |].
      rewrite !(all_agree _ _ _ _ _ I' A' R'), (no_positions _ _ _ _ ES). cbn [lsum psum fold_right map]. destruct (pf_vx _ _ _ (facts _ _ _ W')) as [n1 V1]. destruct (pf_vy _ _ _ (facts _ _ _ W')) as [n2 V2]. destruct (wi_token _ I' _ _ _ _ V1) as [N1 _]. destruct (wi_token _ I' _ _ _ _ V2) as [N2 _].
      rewrite (pf_xv _ _ _ (facts _ _ _ W')) in V1. rewrite (pf_yv _ _ _ (facts _ _ _ W')) in V2. unfold balance. rewrite V1, V2. unfold lsum. cbn. lia.
Qed.
