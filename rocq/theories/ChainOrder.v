(** On chain: what a call does is fixed by its arguments, and the order of calls does not matter. *)
From Coq Require Import ZArith QArith List Bool Lia Permutation.
From Verif Require Import Base BaseLemmas DecimalModel DecimalSpec DecimalProofs WfProofs MathModel MathProofs TickProofs BitmapModel BitmapProofs PoolWf LpProofs ChainModel ChainLemmas ChainProofs ChainSpec ChainInv ChainFlow ChainLive.
Import ListNotations.
Open Scope Z_scope.

(** ** Specification *)
(** Every instruction of the list succeeds when its turn comes. *)
Fixpoint all_succeed (s : cstate) (is : list instr) : Prop :=
  match is with [] => True | i :: r => (exists s', exec s i = Ok s') /\ all_succeed (tx s i) r end.
(** Two tick accounts with the same contents (the net liquidity as a signed number). *)
Definition same_tick (a b : option ctick) : Prop :=
  match a, b with
  | None, None => True
  | Some a, Some b => ct_tick a = ct_tick b /\ net a = net b /\ ct_gross a = ct_gross b /\ ct_fee a = ct_fee b /\ ct_net_scale a = ct_net_scale b /\ ct_gross_scale a = ct_gross_scale b
  | _, _ => False
  end.
(** The same balances, pool, positions and ticks; the bitmap is left out. *)
Definition same_accounts (s t : cstate) : Prop :=
  (forall h, bal h (c_x s) = bal h (c_x t)) /\ (forall h, bal h (c_y s) = bal h (c_y t)) /\ (forall h, bal h (c_lp s) = bal h (c_lp t)) /\ c_lp_supply s = c_lp_supply t /\
  c_pool s = c_pool t /\ (forall k, cp_get k (c_pos s) = cp_get k (c_pos t)) /\ (forall n, same_tick (ct_get n (c_ticks s)) (ct_get n (c_ticks t))).

(** ** The terms of a deposit *)
Definition granted (l h c xa ya : Z) : Z :=
  match liq_from_x_y_rp_rng (d12 (xa * SC)) (d12 (ya * SC)) (d12 (price c)) (d12 (price l)) (d12 (price h)) with Ok d => dval d | _ => 0 end.
Lemma granted_deposit : forall s u l h c xa ya to s', cinv s -> exec s (IDeposit u l h c xa ya to) = Ok s' ->
  same_price s s' /\ deposit_effect s u l h c xa ya to s' (granted l h c xa ya).
Proof.
  intros s u l h c xa ya to s' I H. unfold exec in H. destruct (args_ok _) eqn:AO; [| discriminate H]. cbn [negb args_ok] in *.
  assert (AO' : 0 <= l /\ 0 <= xa < U64 /\ 0 <= ya < U64) by (unfold is_u64 in AO; b2p; lia). destruct AO' as (B1 & B2 & B3).
  destruct (deposit_eff _ _ _ _ _ _ _ _ _ (i_shape _ I) B1 B2 B3 H) as (p & a & b & d & lx & ly & lp & bm & bm' & lt & ut & PR & BD & L & VV & X & Y & M & TX & TY & _ & MV).
  destruct (moved_pool _ _ _ _ _ _ _ _ _ _ _ _ MV (i_shape _ I)) as (P1 & P2 & P3 & P4 & P5 & P6 & P7 & P8 & P9 & _ & P10).
  assert (D : granted l h c xa ya = d) by (unfold granted; destruct (prices_price _ _ _ _ _ _ PR) as (-> & -> & ->); rewrite L; reflexivity). rewrite D. clear L D H.
  split; auto. destruct (worth_whole c u l h p a b d PR) as [W1 W2].
  apply transfer_moves in TX, TY; try discriminate; try lia. apply mint_ok in M. destruct M as (_ & _ & _ & _ & _ & M1 & M2).
  unfold deposit_effect. rewrite W1, W2, P6, P7, P8, P9. csplit; auto; lia.
Qed.
Theorem same_terms : forall s1 s2 u l h c xa ya to s1' s2', reached s1 -> reached s2 ->
  exec s1 (IDeposit u l h c xa ya to) = Ok s1' -> exec s2 (IDeposit u l h c xa ya to) = Ok s2' ->
  exists d, deposit_effect s1 u l h c xa ya to s1' d /\ deposit_effect s2 u l h c xa ya to s2' d.
Proof.
  intros s1 s2 u l h c xa ya to s1' s2' R1 R2 H1 H2. exists (granted l h c xa ya).
  split; [exact (proj2 (granted_deposit _ _ _ _ _ _ _ _ _ (reached_inv _ R1) H1)) | exact (proj2 (granted_deposit _ _ _ _ _ _ _ _ _ (reached_inv _ R2) H2))].
Qed.

(** ** What an instruction changes, as a function of the instruction alone *)
Definition mv (f t : holder) (n : Z) (h : holder) : Z := (if holder_eqb h f then - n else 0) + (if holder_eqb h t then n else 0).
Definition dx (i : instr) (k : holder) : Z :=
  match i with
  | IDeposit u l h c xa ya _ => mv (HUser u) HVault (worth_x c (u, l, h) (granted l h c xa ya)) k
  | IWithdraw u l h c n => mv HVault (HUser u) (worth_x c (u, l, h) (n * 10 ^ 12)) k
  | ETransferX f t a => mv (HUser f) t a k
  | _ => 0
  end.
Definition dy (i : instr) (k : holder) : Z :=
  match i with
  | IDeposit u l h c xa ya _ => mv (HUser u) HVault (worth_y c (u, l, h) (granted l h c xa ya)) k
  | IWithdraw u l h c n => mv HVault (HUser u) (worth_y c (u, l, h) (n * 10 ^ 12)) k
  | ETransferY f t a => mv (HUser f) t a k
  | _ => 0
  end.
Definition dlp (i : instr) (k : holder) : Z :=
  match i with
  | IDeposit u l h c xa ya to => if holder_eqb k to then granted l h c xa ya / 10 ^ 12 else 0
  | IWithdraw u l h c n => if holder_eqb k (HUser u) then - n else 0
  | ETransferLP f t a => mv (HUser f) t a k
  | EBurnLP f a => if holder_eqb k (HUser f) then - a else 0
  | _ => 0
  end.
Definition dsup (i : instr) : Z :=
  match i with IDeposit u l h c xa ya _ => granted l h c xa ya / 10 ^ 12 | IWithdraw _ _ _ _ n => - n | EBurnLP _ a => - a | _ => 0 end.
Definition dpos (i : instr) (k : cpkey) : Z :=
  match i with
  | IDeposit u l h c xa ya _ => if cpkey_eqb k (u, l, h) then granted l h c xa ya else 0
  | IWithdraw u l h c n => if cpkey_eqb k (u, l, h) then - (n * 10 ^ 12) else 0
  | _ => 0
  end.
Definition newpos (i : instr) (k : cpkey) : bool := match i with ICreatePosition u l h => cpkey_eqb k (u, l, h) | _ => false end.
Definition newtick (i : instr) (n : Z) : bool := match i with IInitTick t => n =? t | _ => false end.
Definition has_pos (s : cstate) (k : cpkey) : bool := match cp_get k (c_pos s) with Some _ => true | None => false end.
Definition has_tick (s : cstate) (n : Z) : bool := match ct_get n (c_ticks s) with Some _ => true | None => false end.
Definition ptick (s : cstate) : option Z := match c_pool s with Some g => Some (cg_tick g) | None => None end.

Record changes (i : instr) (s s' : cstate) : Prop := mkCh
  { ch_x : forall h, bal h (c_x s') = bal h (c_x s) + dx i h;
    ch_y : forall h, bal h (c_y s') = bal h (c_y s) + dy i h;
    ch_lp : forall h, bal h (c_lp s') = bal h (c_lp s) + dlp i h;
    ch_sup : c_lp_supply s' = c_lp_supply s + dsup i;
    ch_liq : forall k, pos_liq s' k = pos_liq s k + dpos i k;
    ch_pos : forall k, has_pos s' k = has_pos s k || newpos i k;
    ch_tick : forall n, has_tick s' n = has_tick s n || newtick i n;
    ch_pool : ptick s' = match i with IInitPool t => Some t | _ => ptick s end }.

Lemma moves_mv : forall l l' f t n, f <> t -> moves l l' f t n -> forall h, bal h l' = bal h l + mv f t n h.
Proof.
  intros l l' f t n N (_ & A & B & C) h. unfold mv. destruct (holder_eqb h f) eqn:E1.
  - apply holder_eqb_eq in E1. subst h. rewrite (holder_eqb_neq f t N). lia.
  - destruct (holder_eqb h t) eqn:E2; [apply holder_eqb_eq in E2; subst h; lia |].
    rewrite C; [lia | intros -> ; rewrite holder_eqb_refl in E1; discriminate | intros -> ; rewrite holder_eqb_refl in E2; discriminate].
Qed.
Lemma transfer_mv : forall l f t a l', spl_transfer l f t a = Ok l' -> forall h, bal h l' = bal h l + mv f t a h.
Proof.
  intros l f t a l' H. destruct (transfer_ok _ _ _ _ _ H) as (A & _ & _ & B & C & D). intros h.
  destruct (holder_eqb f t) eqn:E. { apply holder_eqb_eq in E. subst t. rewrite (D eq_refl). unfold mv. destruct (holder_eqb h f); lia. }
  assert (N : f <> t) by (intros ->; rewrite holder_eqb_refl in E; discriminate). destruct (C N) as (_ & C1 & C2). unfold mv.
  destruct (holder_eqb h f) eqn:E1; [apply holder_eqb_eq in E1; subst h; rewrite E; lia |].
  destruct (holder_eqb h t) eqn:E2; [apply holder_eqb_eq in E2; subst h; lia |].
  rewrite B; [lia | intros -> ; rewrite holder_eqb_refl in E1; discriminate | intros -> ; rewrite holder_eqb_refl in E2; discriminate].
Qed.
Lemma plus_mv : forall l l' t a, bal t l' = bal t l + a -> (forall k, k <> t -> bal k l' = bal k l) -> forall h, bal h l' = bal h l + (if holder_eqb h t then a else 0).
Proof. intros l l' t a A B h. destruct (holder_eqb h t) eqn:E; [apply holder_eqb_eq in E; subst; auto |]. rewrite B; [lia |]. intros ->. rewrite holder_eqb_refl in E. discriminate. Qed.
Lemma pos_at : forall s s' k0 d, pos_liq s' k0 = pos_liq s k0 + d -> (forall k, k <> k0 -> cp_get k (c_pos s') = cp_get k (c_pos s)) -> forall k, pos_liq s' k = pos_liq s k + (if cpkey_eqb k k0 then d else 0).
Proof. intros s s' k0 d A B k. destruct (cpkey_eqb k k0) eqn:E; [apply cpkey_eqb_eq in E; subst; auto |]. unfold pos_liq. rewrite B; [lia |]. intros ->. rewrite cpkey_eqb_refl in E. discriminate. Qed.
Lemma ptick_same : forall s s' c, at_tick s c -> same_price s s' -> ptick s' = ptick s.
Proof. intros s s' c (g & G & _) SP. destruct (SP _ G) as (g' & G' & T & _). unfold ptick. rewrite G, G', T. reflexivity. Qed.
Lemma moved_has : forall s u l h c e bm lx ly lp sup s', moved s u l h c e bm lx ly lp sup s' -> (forall k, has_pos s' k = has_pos s k) /\ (forall n, has_tick s' n = has_tick s n).
Proof.
  intros s u l h c e bm lx ly lp sup s' (g & bm0 & ps & lt0 & ut0 & cur & g' & ps' & lt' & ut' & A1 & A2 & A3 & A4 & A5 & A6 & _ & _ & _ & _ & _ & _ & _ & ->). unfold has_pos, has_tick, write_back. cbn [c_pos c_ticks]. split.
  - intros k. rewrite cp_get_set. destruct (cpkey_eqb k (u, l, h)) eqn:E; auto. apply cpkey_eqb_eq in E. subst k. rewrite A3. reflexivity.
  - intros n. rewrite !ct_get_set. destruct (n =? c) eqn:E1; [apply Z.eqb_eq in E1; subst n; rewrite A6; reflexivity |]. destruct (n =? h) eqn:E2; [apply Z.eqb_eq in E2; subst n; rewrite A5; reflexivity |]. destruct (n =? l) eqn:E3; [apply Z.eqb_eq in E3; subst n; rewrite A4; reflexivity |]. reflexivity.
Qed.

Lemma uv : forall u, HUser u <> HVault. Proof. discriminate. Qed.
Lemma vu : forall u, HVault <> HUser u. Proof. discriminate. Qed.
Lemma step_changes : forall s i s', cinv s -> exec s i = Ok s' -> changes i s s'.
Proof.
  intros s i s' I H. pose proof H as H0. unfold exec in H. destruct (args_ok i) eqn:AO; [| discriminate H]. cbn [negb] in H.
  destruct i as [t | | t | u l h | u l h c xa ya to | u l h c n | f to a | f to a | f to a | f a].
  - unfold i_init_pool in H. destruct (c_pool s) eqn:E; [discriminate H |]. bd H r E1. bd H r' E2. injection H as <-. split; intros; unfold ptick, has_pos, has_tick, pos_liq, newtick, newpos; cbn [c_pool c_ticks c_pos c_x c_y c_lp c_lp_supply dx dy dlp dsup dpos cg_tick]; rewrite ?E, ?orb_false_r; auto; try lia.
  - unfold i_init_bitmap in H. destruct (c_pool s) eqn:E; [| discriminate H]. destruct (c_bitmap s); [discriminate H |]. injection H as <-. split; intros; unfold ptick, has_pos, has_tick, pos_liq, newtick, newpos; cbn [c_pool c_ticks c_pos c_x c_y c_lp c_lp_supply dx dy dlp dsup dpos cg_tick]; rewrite ?E, ?orb_false_r; auto; try lia.
  - unfold i_init_tick in H. destruct (c_pool s) eqn:E; [| discriminate H]. destruct (ct_get t (c_ticks s)) eqn:E1; [discriminate H |]. injection H as <-. split; intros; unfold ptick, has_pos, has_tick, pos_liq, newtick, newpos; cbn [c_pool c_ticks c_pos c_x c_y c_lp c_lp_supply dx dy dlp dsup dpos]; rewrite ?E, ?orb_false_r; auto; try lia.
    rewrite ct_get_set. destruct (n =? t) eqn:E2; [apply Z.eqb_eq in E2; subst n; rewrite E1; reflexivity |]. rewrite orb_false_r. reflexivity.
  - unfold i_create_position in H. destruct (c_pool s) as [g |] eqn:E; [| discriminate H]. destruct (cp_get (u, l, h) (c_pos s)) eqn:E1; [discriminate H |]. destruct (ct_get l (c_ticks s)) eqn:E2; [| discriminate H]. destruct (ct_get h (c_ticks s)) eqn:E3; [| discriminate H]. destruct (l <? h) eqn:E4; [| discriminate H]. injection H as <-.
    split; intros; unfold ptick, has_pos, has_tick, pos_liq, newtick, newpos; cbn [c_pool c_ticks c_pos c_x c_y c_lp c_lp_supply dx dy dlp dsup dpos]; rewrite ?E, ?orb_false_r; auto; try lia.
    + rewrite cp_get_set. destruct (cpkey_eqb k (u, l, h)) eqn:E5; [apply cpkey_eqb_eq in E5; subst k; rewrite E1; reflexivity | lia].
    + rewrite cp_get_set. destruct (cpkey_eqb k (u, l, h)) eqn:E5; [rewrite orb_true_r; reflexivity | rewrite orb_false_r; reflexivity].
  - destruct (granted_deposit _ _ _ _ _ _ _ _ _ I H0) as [SP D]. destruct D as (D1 & D2 & D3 & D4 & D5 & D6 & D7 & D8 & D9 & D10 & D11).
    cbn [args_ok] in AO. assert (AO' : 0 <= l /\ 0 <= xa < U64 /\ 0 <= ya < U64) by (unfold is_u64 in AO; b2p; lia). destruct AO' as (B1 & B2 & B3).
    destruct (deposit_eff _ _ _ _ _ _ _ _ _ (i_shape _ I) B1 B2 B3 H) as (p & a & b & d & lx & ly & lp & bm & bm' & lt & ut & _ & _ & _ & _ & _ & _ & _ & _ & _ & _ & M). destruct (moved_has _ _ _ _ _ _ _ _ _ _ _ _ M) as [M1 M2].
    split; intros; cbn [dx dy dlp dsup dpos newpos newtick]; rewrite ?orb_false_r; auto.
    + exact (moves_mv _ _ _ _ _ (uv u) D7 h0).
    + exact (moves_mv _ _ _ _ _ (uv u) D8 h0).
    + exact (plus_mv _ _ _ _ D9 D10 h0).
    + exact (pos_at _ _ _ _ D3 D4 k).
    + exact (ptick_same _ _ _ D1 SP).
  - destruct (exec_withdraw _ _ _ _ _ _ _ I H0) as (SP & D & _). destruct D as (D1 & D2 & D3 & D4 & D5 & D6 & D7 & D8 & D9 & D10 & D11).
    cbn [args_ok] in AO. assert (AO' : 0 <= l /\ 0 <= n < U64) by (unfold is_u64 in AO; b2p; lia). destruct AO' as (B1 & B2).
    destruct (withdraw_eff _ _ _ _ _ _ _ (i_shape _ I) B1 B2 H) as (p & a & b & lx & ly & lp & bm & bm' & _ & _ & _ & _ & _ & _ & _ & M). destruct (moved_has _ _ _ _ _ _ _ _ _ _ _ _ M) as [M1 M2].
    split; intros; cbn [dx dy dlp dsup dpos newpos newtick]; rewrite ?orb_false_r; auto.
    + exact (moves_mv _ _ _ _ _ (vu u) D6 h0).
    + exact (moves_mv _ _ _ _ _ (vu u) D7 h0).
    + exact (plus_mv _ _ _ _ D9 D10 h0).
    + exact (pos_at _ _ _ _ D4 D5 k).
    + exact (ptick_same _ _ _ D1 SP).
  - bd H x E. injection H as <-. pose proof (transfer_mv _ _ _ _ _ E) as T. split; intros; unfold pos_liq, has_pos, has_tick, ptick; cbn [c_pool c_ticks c_pos c_x c_y c_lp c_lp_supply dx dy dlp dsup dpos newpos newtick]; rewrite ?orb_false_r; auto; try lia.
  - bd H x E. injection H as <-. pose proof (transfer_mv _ _ _ _ _ E) as T. split; intros; unfold pos_liq, has_pos, has_tick, ptick; cbn [c_pool c_ticks c_pos c_x c_y c_lp c_lp_supply dx dy dlp dsup dpos newpos newtick]; rewrite ?orb_false_r; auto; try lia.
  - bd H x E. injection H as <-. pose proof (transfer_mv _ _ _ _ _ E) as T. split; intros; unfold pos_liq, has_pos, has_tick, ptick; cbn [c_pool c_ticks c_pos c_x c_y c_lp c_lp_supply dx dy dlp dsup dpos newpos newtick]; rewrite ?orb_false_r; auto; try lia.
  - bd H x E. destruct x as [lp sup]. injection H as <-. apply burn_ok in E. destruct E as (-> & _ & _ & _ & _ & E1 & E2). assert (T : forall h, bal h lp = bal h (c_lp s) + (if holder_eqb h (HUser f) then - a else 0)) by (apply plus_mv; [lia | exact E1]).
    split; intros; unfold pos_liq, has_pos, has_tick, ptick; cbn [c_pool c_ticks c_pos c_x c_y c_lp c_lp_supply dx dy dlp dsup dpos newpos newtick]; rewrite ?orb_false_r; auto; try lia.
Qed.

(** ** Histories *)
Definition sumi (f : instr -> Z) (is : list instr) : Z := fold_right (fun i a => f i + a) 0 is.
Definition anyi (f : instr -> bool) (is : list instr) : bool := existsb f is.
Lemma sumi_perm : forall f is js, Permutation is js -> sumi f is = sumi f js.
Proof. unfold sumi. induction 1; cbn [fold_right] in *; lia. Qed.
Lemma anyi_perm : forall f is js, Permutation is js -> anyi f is = anyi f js.
Proof. unfold anyi. induction 1; cbn in *; auto; try congruence. rewrite !orb_assoc. f_equal. apply orb_comm. Qed.
Record total_changes (is : list instr) (s s' : cstate) : Prop := mkTot
  { tc_x : forall h, bal h (c_x s') = bal h (c_x s) + sumi (fun i => dx i h) is;
    tc_y : forall h, bal h (c_y s') = bal h (c_y s) + sumi (fun i => dy i h) is;
    tc_lp : forall h, bal h (c_lp s') = bal h (c_lp s) + sumi (fun i => dlp i h) is;
    tc_sup : c_lp_supply s' = c_lp_supply s + sumi dsup is;
    tc_liq : forall k, pos_liq s' k = pos_liq s k + sumi (fun i => dpos i k) is;
    tc_pos : forall k, has_pos s' k = has_pos s k || anyi (fun i => newpos i k) is;
    tc_tick : forall n, has_tick s' n = has_tick s n || anyi (fun i => newtick i n) is;
    tc_init : forall t, In (IInitPool t) is -> ptick s' = Some t;
    tc_keep : (forall t, ~ In (IInitPool t) is) -> ptick s' = ptick s }.
Lemma run_ptick : forall is s t, cinv s -> ptick s = Some t -> ptick (run_txs s is) = Some t.
Proof.
  intros is s t I P. unfold ptick in *. destruct (c_pool s) as [g |] eqn:G; [| discriminate P]. injection P as <-. destruct (run_same_price is s I g G) as (g' & G' & T & _). rewrite G', T. reflexivity.
Qed.
Lemma run_changes : forall is s, cinv s -> all_succeed s is -> total_changes is s (run_txs s is).
Proof.
  induction is as [| i r IH]; intros s I A.
  - split; intros; cbn; rewrite ?orb_false_r; auto; try lia. contradiction.
  - cbn [all_succeed] in A. destruct A as [[s' E] A]. assert (T : tx s i = s') by (unfold tx; rewrite E; reflexivity). rewrite T in A. change (run_txs s (i :: r)) with (run_txs (tx s i) r). rewrite T.
    pose proof (step_changes _ _ _ I E) as C. assert (I' : cinv s') by (eapply exec_inv; eauto). specialize (IH s' I' A). destruct C, IH. split; intros; unfold sumi, anyi in *; cbn [fold_right existsb].
    + rewrite tc_x0, ch_x0. lia.
    + rewrite tc_y0, ch_y0. lia.
    + rewrite tc_lp0, ch_lp0. lia.
    + rewrite tc_sup0, ch_sup0. lia.
    + rewrite tc_liq0, ch_liq0. lia.
    + rewrite tc_pos0, ch_pos0, orb_assoc. reflexivity.
    + rewrite tc_tick0, ch_tick0, orb_assoc. reflexivity.
    + destruct H as [-> | H]; [apply run_ptick; auto | auto].
    + rewrite tc_keep0; [rewrite ch_pool0; destruct i; auto; exfalso; exact (H tick (or_introl eq_refl)) | intros t Ht; exact (H t (or_intror Ht))].
Qed.

(** ** Equal positions make equal accounts *)
Definition pairs (m : list (cpkey * cpos)) : list (cpkey * Z) := map (fun kq => (fst kq, cp_liq (snd kq))) m.
Lemma lsum_pairs : forall f m, lsum f m = fold_right (fun kv a => f (fst kv) (snd kv) + a) 0 (pairs m).
Proof. intros f m. unfold lsum, pairs. induction m as [| [k q] r IH]; [reflexivity |]. cbn [map fold_right fst snd psum]. rewrite <- IH. reflexivity. Qed.
Lemma sum_perm : forall (f : cpkey -> Z -> Z) a b, Permutation a b -> fold_right (fun kv a => f (fst kv) (snd kv) + a) 0 a = fold_right (fun kv a => f (fst kv) (snd kv) + a) 0 b.
Proof. induction 1; cbn [fold_right] in *; lia. Qed.
Lemma pairs_in : forall m k v, NoDup (map fst m) -> In (k, v) (pairs m) <-> exists q, cp_get k m = Some q /\ cp_liq q = v.
Proof.
  intros m k v N. unfold pairs. rewrite in_map_iff. split.
  - intros ([k' q] & E & J). cbn in E. injection E as -> <-. exists q. split; auto. apply get_of_in; auto.
  - intros (q & G & <-). exists (k, q). split; auto. apply cp_get_in; auto.
Qed.
Lemma NoDup_pairs : forall m, NoDup (map fst m) -> NoDup (pairs m).
Proof. intros m N. apply (NoDup_map_inv fst). unfold pairs. rewrite map_map. cbn. exact N. Qed.
Lemma lsum_ext : forall f m m', NoDup (map fst m) -> NoDup (map fst m') -> (forall k, cp_get k m = cp_get k m') -> lsum f m = lsum f m'.
Proof.
  intros f m m' N N' E. rewrite !lsum_pairs. apply sum_perm. apply NoDup_Permutation; try (apply NoDup_pairs; assumption). intros [k v]. rewrite !pairs_in by auto. rewrite E. reflexivity.
Qed.
Lemma pos_ext : forall s t k, cinv s -> cinv t -> has_pos s k = has_pos t k -> pos_liq s k = pos_liq t k -> cp_get k (c_pos s) = cp_get k (c_pos t).
Proof.
  intros s t [[u l] h] I J E1 E2. unfold has_pos, pos_liq in *. destruct (i_shape _ I) as (_ & _ & S & _). destruct (i_shape _ J) as (_ & _ & S' & _).
  destruct (cp_get (u, l, h) (c_pos s)) as [q |] eqn:G; destruct (cp_get (u, l, h) (c_pos t)) as [q' |] eqn:G'; try discriminate E1; auto.
  destruct (S _ _ G) as (A1 & A2 & A3 & _ & A4 & _). destruct (S' _ _ G') as (B1 & B2 & B3 & _ & B4 & _). destruct q, q'. cbn in *. congruence.
Qed.
Lemma accounts_ext : forall s t, reached s -> reached t -> (forall k, cp_get k (c_pos s) = cp_get k (c_pos t)) -> (forall n, has_tick s n = has_tick t n) -> ptick s = ptick t ->
  c_pool s = c_pool t /\ forall n, same_tick (ct_get n (c_ticks s)) (ct_get n (c_ticks t)).
Proof.
  intros s t R Q EP ET PT. pose proof (reached_inv _ R) as I. pose proof (reached_inv _ Q) as J.
  assert (LS : forall f, lsum f (c_pos s) = lsum f (c_pos t)) by (intros f; apply lsum_ext; [apply (i_nodup _ I) | apply (i_nodup _ J) | exact EP]).
  unfold ptick in PT. destruct (c_pool s) as [g |] eqn:G; destruct (c_pool t) as [g' |] eqn:G'; try discriminate PT.
  - injection PT as PT. split.
    + f_equal. destruct (i_shape _ I) as (S & _). destruct (i_shape _ J) as (S' & _). destruct (S _ G) as (A1 & _ & A2). destruct (S' _ G') as (B1 & _ & B2).
      pose proof (price_of_tick _ _ R G) as P1. pose proof (price_of_tick _ _ Q G') as P2. rewrite PT, P2 in P1. injection P1 as P1.
      pose proof (i_liq _ I _ G) as L1. pose proof (i_liq _ J _ G') as L2. rewrite PT, LS in L1. clear P2. destruct g as [a1 a2 a3 a4 a5], g' as [b1 b2 b3 b4 b5]. cbn [cg_liq cg_liq_scale cg_rp cg_tick cg_fee] in *. congruence.
    + intros n. specialize (ET n). unfold has_tick in ET. destruct (ct_get n (c_ticks s)) as [a |] eqn:E1; destruct (ct_get n (c_ticks t)) as [b |] eqn:E2; try discriminate ET; [| exact Logic.I].
      destruct (i_ticks _ I _ _ _ G E1) as [X1 X2]. destruct (i_ticks _ J _ _ _ G' E2) as [Y1 Y2]. rewrite PT, LS in X1. rewrite PT, LS in X2. clear EP LS.
      destruct (i_shape _ I) as (_ & S & _). destruct (i_shape _ J) as (_ & S' & _). destruct (S _ _ E1) as [(A1 & A2 & A3 & _ & _ & A4) _]. destruct (S' _ _ E2) as [(B1 & B2 & B3 & _ & _ & B4) _].
      unfold same_tick. rewrite (net_tnet a), (net_tnet b). repeat split; congruence.
  - split; [reflexivity |]. intros n. destruct (i_empty _ I G) as [-> _]. destruct (i_empty _ J G') as [-> _]. exact Logic.I.
Qed.
Lemma reached_run : forall s is, reached s -> reached (run_txs s is).
Proof. intros s is (x & y & js & A & B & ->). exists x, y, (js ++ is). split; auto. split; auto. unfold run_txs. rewrite fold_left_app. reflexivity. Qed.
Theorem any_order : forall s is js, reached s -> Permutation is js -> all_succeed s is -> all_succeed s js -> same_accounts (run_txs s is) (run_txs s js).
Proof.
  intros s is js R P A B. pose proof (reached_inv _ R) as I. destruct (run_changes _ _ I A), (run_changes _ _ I B).
  assert (EP : forall k, cp_get k (c_pos (run_txs s is)) = cp_get k (c_pos (run_txs s js))).
  { intros k. apply pos_ext; try (apply run_inv; exact I). - rewrite tc_pos0, tc_pos1, (anyi_perm _ _ _ P). reflexivity. - rewrite tc_liq0, tc_liq1, (sumi_perm _ _ _ P). reflexivity. }
  assert (ET : forall n, has_tick (run_txs s is) n = has_tick (run_txs s js) n) by (intros n; rewrite tc_tick0, tc_tick1, (anyi_perm _ _ _ P); reflexivity).
  assert (PT : ptick (run_txs s is) = ptick (run_txs s js)).
  { assert (D : (exists t, In (IInitPool t) is) \/ (forall t, ~ In (IInitPool t) is)).
    { clear. induction is as [| i r IH]; [right; intros t [] |]. destruct IH as [[t IH] | IH]; [left; exists t; right; exact IH |]. destruct i; try (right; intros t [H | H]; [discriminate H | exact (IH t H)]). left. eexists. left. reflexivity. }
    destruct D as [[t D] | D]. - rewrite (tc_init0 t D), (tc_init1 t (Permutation_in _ P D)). reflexivity.
    - rewrite tc_keep0, tc_keep1; auto. intros t Ht. exact (D t (Permutation_in _ (Permutation_sym P) Ht)). }
  destruct (accounts_ext _ _ (reached_run s is R) (reached_run s js R) EP ET PT) as [E1 E2].
  unfold same_accounts. csplit; auto.
  - intros h. rewrite tc_x0, tc_x1, (sumi_perm _ _ _ P). reflexivity.
  - intros h. rewrite tc_y0, tc_y1, (sumi_perm _ _ _ P). reflexivity.
  - intros h. rewrite tc_lp0, tc_lp1, (sumi_perm _ _ _ P). reflexivity.
  - rewrite tc_sup0, tc_sup1, (sumi_perm _ _ _ P). reflexivity.
Qed.

(** ** A deposit that would succeed now cannot be blocked by others *)
(** The part of a deposit that depends on its arguments only. *)
Definition quoted (l h c xa ya d x y : Z) (p a b : Z) : Prop :=
  prices c l h p a b /\ 0 <= d < U128 /\ 0 <= x /\ 0 <= y /\ liq_from_x_y_rp_rng (d12 (xa * SC)) (d12 (ya * SC)) (d12 p) (d12 a) (d12 b) = Ok (d12 d) /\
  x_from_l_rp_rng (d12 d) (d12 p) (d12 a) (d12 b) = Ok (d12 x) /\ y_from_l_rp_rng (d12 d) (d12 p) (d12 a) (d12 b) = Ok (d12 y) /\
  d_gt (d12 x) (d12 (xa * SC)) = Ok false /\ d_gt (d12 y) (d12 (ya * SC)) = Ok false /\
  d / SC < U64 /\ x / SC < U64 /\ y / SC < U64.
Definition loaded (s : cstate) (u l h c : Z) : Prop :=
  at_tick s c /\ c_bitmap s <> None /\ (exists q, cp_get (u, l, h) (c_pos s) = Some q) /\
  (exists a, ct_get l (c_ticks s) = Some a) /\ (exists a, ct_get h (c_ticks s) = Some a) /\ (exists a, ct_get c (c_ticks s) = Some a).
Lemma deposit_quoted : forall s u l h c xa ya to s', shape s -> 0 <= l -> 0 <= xa < U64 -> 0 <= ya < U64 -> i_deposit s u l h c xa ya to = Ok s' ->
  loaded s u l h c /\ exists d x y p a b, quoted l h c xa ya d x y p a b /\ x / SC <= bal (HUser u) (c_x s) /\ y / SC <= bal (HUser u) (c_y s) /\ pos_liq s' (u, l, h) = pos_liq s (u, l, h) + d.
Proof.
  intros s u l h c xa ya to s' SH Hl Hx Hy H. pose proof SH as (SG & ST & SP & SB). pose proof SCpos as SCp.
  destruct (deposit_eff _ _ _ _ _ _ _ _ _ SH Hl Hx Hy H) as (p0 & a0 & b0 & d0 & lx0 & ly0 & lp0 & bm0 & bm0' & lt0 & ut0 & PR0 & BD & LQ0 & _ & _ & _ & _ & _ & _ & _ & MV).
  destruct (moved_pool _ _ _ _ _ _ _ _ _ _ _ _ MV SH) as (P1' & P2' & P3' & P4' & P5' & _).
  unfold i_deposit in H. bd H acc E0. destruct acc as [[[[[g bm] ps] lt] ut] cur].
  destruct (load_ok _ _ _ _ _ _ _ _ _ _ _ E0) as (L1 & L2 & L3 & L4 & L5 & L6 & L7 & L8).
  split. { unfold loaded, at_tick. rewrite L2. csplit; eauto. discriminate. }
  pose proof (SG _ L1) as PG. pose proof (SP _ _ L3) as PP. destruct (ST _ _ L4) as [PL NL]. destruct (ST _ _ L5) as [PU NU]. pose proof (SB _ L2) as WB.
  rewrite !from_u64_Ok in H by auto. cbn [bind] in H.
  bd H ra E1. bd H rb E2. bd H rp E3. destruct PR0 as (R1 & R2 & R3 & B1 & B2 & B3). pose proof (conj R1 (conj R2 (conj R3 (conj B1 (conj B2 B3))))) as PR.
  rewrite R1 in E3. rewrite R2 in E1. rewrite R3 in E2. injection E1 as <-. injection E2 as <-. injection E3 as <-.
  bd H dd E4. rewrite LQ0 in E4. injection E4 as <-.
  cbn [d12 dneg] in H. change (mkD d0 12 false) with (d12 d0) in H.
  bd H bm1 E5. bd H bm' E6.
  bd H vx E7. bd H vy E8. destruct (x12_ok d0 p0 a0 b0 vx ltac:(lia) B1 B2 ltac:(lia) E7) as (X1 & X2 & X3). destruct (y12_ok d0 p0 a0 b0 vy ltac:(lia) B1 B2 ltac:(lia) E8) as (Y1 & Y2 & Y3).
  set (x := dval vx) in *. set (y := dval vy) in *. clearbody x y. subst vx vy.
  destruct PG as (G1 & G2 & G3). destruct PP as (P1 & P2 & P3 & P4 & P5 & P6). rewrite G3, P5, (proj2 (proj2 (proj2 (proj2 (proj2 PL))))), (proj2 (proj2 (proj2 (proj2 (proj2 PU))))) in H. cbn [fe_scale fee0] in H. change (mkFee 12 0 0 0 0) with fee0 in H. rewrite fees_zero in H. cbn [bind] in H.
  bd H upd E9. destruct upd as [[ps' lt'] ut']. bd H g' E10.
  destruct (fee_part x) as (F1 & F2 & F3). rewrite F1, F2 in H. cbn [fe_scale fee0] in H. rewrite F3 in H. destruct (fee_part y) as (_ & _ & F4). rewrite F4 in H. cbn [bind] in H.
  bd H xd E11. apply sub_zero12 in E11; [| lia]. subst xd. bd H yd E12. apply sub_zero12 in E12; [| lia]. subst yd.
  bd H qx E13. destruct qx; [discriminate H |]. bd H qy E14. destruct qy; [discriminate H |].
  bd H n E15. rewrite abs12 in E15. destruct (d0 / SC <? U64) eqn:Q1; [| discriminate E15]. injection E15 as <-.
  bd H mint E16. destruct mint as [lp sup].
  bd H ax E17. rewrite abs12 in E17. destruct (x / SC <? U64) eqn:Q2; [| discriminate E17]. injection E17 as <-. bd H lx E18.
  bd H ay E19. rewrite abs12 in E19. destruct (y / SC <? U64) eqn:Q3; [| discriminate E19]. injection E19 as <-. bd H ly E20.
  apply transfer_ok in E18, E20. apply Z.ltb_lt in Q1, Q2, Q3.
  exists d0, x, y, p0, a0, b0. split; [| split; [exact (proj1 E18) | split; [exact (proj1 E20) | exact P3']]].
  unfold quoted. split; [exact PR |]. split; [exact BD |]. split; [lia |]. split; [lia |]. split; [exact LQ0 |]. split; [exact E7 |]. split; [exact E8 |]. split; [exact E13 |]. split; [exact E14 |]. split; [exact Q1 |]. split; [exact Q2 | exact Q3].
Qed.
Lemma gross_le_all : forall s t, cinv s -> lsum (f_gross t) (c_pos s) <= lsum f_all (c_pos s) /\ lsum (f_act t) (c_pos s) <= lsum f_all (c_pos s) /\ 0 <= lsum (f_gross t) (c_pos s) /\ 0 <= lsum (f_act t) (c_pos s).
Proof.
  intros s t I. assert (H : forall k q, In (k, q) (c_pos s) -> 0 <= cp_liq q) by (intros k q; apply inv_liqs; exact I). unfold lsum.
  induction (c_pos s) as [| [k q] r IH]; cbn [psum]; [lia |]. specialize (IH (fun k q J => H k q (or_intror J))). pose proof (H k q (or_introl eq_refl)) as Q.
  change (f_all k (cp_liq q)) with (cp_liq q). unfold f_gross at 1 3, f_act at 1 3, when. destruct (_ || _), (active _ _ _); lia.
Qed.
Lemma mint_Ok : forall l s t a, s + a < U64 -> bal t l + a < U64 -> exists r, spl_mint l s t a = Ok r.
Proof. intros l s t a H1 H2. unfold spl_mint. rewrite (proj2 (Z.leb_gt _ _)) by lia. rewrite (proj2 (Z.leb_gt _ _)) by lia. eauto. Qed.
Lemma act_Ok : forall (b : bool) m t, bm_wf m -> in_range t -> exists m', (if b then activate_tick m t else Ok m) = Ok m' /\ bm_wf m'.
Proof. intros [] m t W R; [destruct (activate_spec m t W R) as (m1 & E & W1 & _); eauto | eauto]. Qed.
Lemma sub_zero12_Ok : forall v, 0 <= v -> d_sub (d12 v) (mkD 0 12 false) = Ok (d12 v).
Proof. intros v Hv. change (mkD 0 12 false) with (d12 0). rewrite sub12 by lia. rewrite Z.sub_0_r. reflexivity. Qed.
Lemma two_le_total : forall l f t, funds_ok l -> f <> t -> bal f l + bal t l <= total l.
Proof.
  unfold funds_ok. induction l as [| [h' w] r IH]; intros f t H N; cbn; [lia |]. pose proof (bal_le_total r f (Forall_inv_tail H)). pose proof (bal_le_total r t (Forall_inv_tail H)). pose proof (Forall_inv H) as HW. cbn in HW. specialize (IH f t (Forall_inv_tail H) N).
  destruct (holder_eqb f h') eqn:E1; destruct (holder_eqb t h') eqn:E2; try lia. apply holder_eqb_eq in E1, E2. congruence.
Qed.
Lemma deposit_Ok : forall s u l h c xa ya to d x y p a b, cinv s -> 0 <= xa < U64 -> 0 <= ya < U64 -> loaded s u l h c -> quoted l h c xa ya d x y p a b ->
  lsum f_all (c_pos s) + d < U128 -> c_lp_supply s + d / SC < U64 -> x / SC <= bal (HUser u) (c_x s) -> bal HVault (c_x s) + x / SC < U64 -> y / SC <= bal (HUser u) (c_y s) -> bal HVault (c_y s) + y / SC < U64 ->
  exists s', i_deposit s u l h c xa ya to = Ok s'.
Proof.
  intros s u l h c xa ya to d x y p a b I Hxa Hya ((g & A1 & A7) & HB & [ps A3] & [lt A4] & [ut A5] & [cur A6]) (PR & BD & HX & HY & LQ & EX & EY & GX & GY & QD & QX & QY) HL HS X1 X2 Y1 Y2.
  destruct (c_bitmap s) as [bm |] eqn:A2; [| contradiction]. clear HB. pose proof (i_shape _ I) as SH. pose proof SH as (SG & ST & SP & SB). pose proof SCpos as SCp. pose proof PR as (Rp & Ra & Rb & B1 & B2 & B3).
  pose proof (SG _ A1) as PG. pose proof (SP _ _ A3) as PP. destruct (ST _ _ A4) as [PL NL]. destruct (ST _ _ A5) as [PU NU]. pose proof (SB _ A2) as WB.
  unfold i_deposit. rewrite (load_Ok s u l h c g bm ps lt ut cur SH A1 A2 A3 A4 A5 A6 A7). cbn [bind]. rewrite !from_u64_Ok by auto. cbn [bind]. rewrite Ra, Rb, Rp. cbn [bind]. rewrite LQ. cbn [bind]. cbn [d12 dneg]. change (mkD d 12 false) with (d12 d).
  destruct (act_Ok (ct_gross lt =? 0) bm 0 WB in0) as (bm1 & -> & W1). cbn [bind]. destruct (act_Ok (ct_gross ut =? 0) bm1 40000 W1 in40000) as (bm2 & -> & _). cbn [bind]. rewrite EX. cbn [bind]. rewrite EY. cbn [bind].
  pose proof (d12_is d BD) as ID. assert (MD : mant (d12 d) = d) by reflexivity.
  destruct (i_ticks _ I _ _ _ A1 A4) as [GL TL]. destruct (i_ticks _ I _ _ _ A1 A5) as [GU TU]. pose proof (i_liq _ I _ A1) as GG. rewrite A7 in GL, TL, GU, TU, GG.
  pose proof (net_le_gross l (c_pos s) (fun k q => inv_liqs s k q I)) as NGl. pose proof (net_le_gross h (c_pos s) (fun k q => inv_liqs s k q I)) as NGh.
  destruct (gross_le_all s l I) as (Al & _ & Al' & _). destruct (gross_le_all s h I) as (Ah & _ & Ah' & _). destruct (gross_le_all s c I) as (_ & Ac & _ & Ac').
  assert (PA : cp_liq ps <= lsum f_all (c_pos s)).
  { pose proof (psum_ge (fun k q => f_all k (cp_liq q)) (c_pos s) (u, l, h) ps (i_nodup _ I) A3) as Q. apply Q. intros j q J. exact (inv_liqs _ _ _ I J). }
  destruct PG as (G1 & G2 & G3). destruct PP as (P1 & P2 & P3 & P4 & P5 & P6).
  rewrite G3, P5, (proj2 (proj2 (proj2 (proj2 (proj2 PL))))), (proj2 (proj2 (proj2 (proj2 (proj2 PU))))). cbn [fe_scale fee0]. change (mkFee 12 0 0 0 0) with fee0. rewrite fees_zero. cbn [bind].
  destruct (update_tick_Ok lt l (d12 d) false PL NL ID) as [lt' E1]; [rewrite MD; destruct (l =? c); lia | rewrite MD; destruct (l =? c); lia |].
  destruct (update_tick_Ok ut h (d12 d) true PU NU ID) as [ut' E2]; [rewrite MD; destruct (h =? c); lia | rewrite MD; destruct (h =? c); lia |].
  destruct (update_position_Ok (u, l, h) ps lt ut (d12 d) l h fee0 lt' ut' ltac:(repeat split; auto; lia) ID ltac:(rewrite MD; lia) E1 E2) as [ps' E3]. rewrite E3. cbn [unwrap bind].
  destruct (update_global_Ok g l h c (d12 d) ltac:(repeat split; auto; lia) ID) as [g' E6]. { rewrite MD. destruct (active l h c); lia. }
  rewrite E6. cbn [bind]. destruct (fee_part x) as (F1 & F2 & F3). rewrite F1, F2. cbn [fe_scale fee0]. rewrite F3. destruct (fee_part y) as (_ & _ & F4). rewrite F4. cbn [bind].
  rewrite !sub_zero12_Ok by auto. cbn [unwrap bind]. rewrite GX, GY. cbn [unwrap bind]. rewrite abs12, (proj2 (Z.ltb_lt _ _) QD). cbn [bind].
  destruct (mint_Ok (c_lp s) (c_lp_supply s) to (d / SC) HS) as [[lp sup] ->].
  { destruct (i_lp _ I) as [E _]. destruct (i_funds _ I) as (_ & _ & FL). pose proof (bal_le_total (c_lp s) to FL). lia. }
  cbn [bind]. rewrite abs12, (proj2 (Z.ltb_lt _ _) QX). cbn [bind]. destruct (transfer_Ok (c_x s) (HUser u) HVault _ (uv u) X1 X2) as [lx ->]. cbn [bind].
  rewrite abs12, (proj2 (Z.ltb_lt _ _) QY). cbn [bind]. destruct (transfer_Ok (c_y s) (HUser u) HVault _ (uv u) Y1 Y2) as [ly ->]. cbn [bind]. eauto.
Qed.

Lemma others_keep : forall is s u l h c, cinv s -> (forall i, In i is -> signer i <> Some u) -> loaded s u l h c ->
  loaded (run_txs s is) u l h c /\ bal (HUser u) (c_x s) <= bal (HUser u) (c_x (run_txs s is)) /\ bal (HUser u) (c_y s) <= bal (HUser u) (c_y (run_txs s is)).
Proof.
  induction is as [| i r IH]; intros s u l h c I N L; [split; [exact L | cbn; lia] |]. change (run_txs s (i :: r)) with (run_txs (tx s i) r).
  destruct (tx_cases s i) as [(s' & E & T & S) | (T & S)]; rewrite T; [| apply IH; auto; intros j J; apply N; right; exact J].
  pose proof (bystander s i s' u I E (N i (or_introl eq_refl))) as (BX & BY & _ & BP). destruct (accounts_stay _ _ _ E I) as [AB AT].
  destruct (IH s' u l h c) as (R1 & R2 & R3); [eapply exec_inv; eauto | intros j J; apply N; right; exact J | | split; [exact R1 | lia]].
  destruct L as ((g & G & GT) & L2 & [q L3] & [a L4] & [b L5] & [e L6]). pose proof (exec_same_price _ _ _ I E _ G) as (g' & G' & T' & _).
  unfold loaded. split; [exists g'; split; congruence |]. split; [auto |]. split; [exists q; rewrite BP by reflexivity; exact L3 |]. split; [eapply AT; exact L4 |]. split; [eapply AT; exact L5 | eapply AT; exact L6].
Qed.
Theorem not_blocked : forall s u l h c xa ya to s' is, reached s -> exec s (IDeposit u l h c xa ya to) = Ok s' ->
  (forall i, In i is -> signer i <> Some u) -> total (c_x s) < 2 ^ 64 -> total (c_y s) < 2 ^ 64 ->
  let t := run_txs s is in let d := pos_liq s' (u, l, h) - pos_liq s (u, l, h) in
  over_positions t (fun _ v => v) + d < 2 ^ 128 -> c_lp_supply t + d / 10 ^ 12 < 2 ^ 64 ->
  exists t', exec t (IDeposit u l h c xa ya to) = Ok t'.
Proof.
  intros s u l h c xa ya to s' is R H N TX TY t d HL HS. pose proof (reached_inv _ R) as I. unfold exec in *. destruct (args_ok _) eqn:AO; [| discriminate H]. cbn [negb args_ok] in *.
  assert (AO' : 0 <= l /\ 0 <= xa < U64 /\ 0 <= ya < U64) by (unfold is_u64 in AO; b2p; lia). destruct AO' as (B1 & B2 & B3).
  destruct (deposit_quoted _ _ _ _ _ _ _ _ _ (i_shape _ I) B1 B2 B3 H) as (LD & d0 & x & y & p & a & b & Q & X & Y & D).
  assert (d = d0) by (unfold d; lia). clearbody d. subst d0. destruct (others_keep is s u l h c I N LD) as (LD' & X' & Y'). fold t in LD', X', Y'.
  pose proof (run_inv is s I) as I'. fold t in I'. destruct (run_total is s I) as [TX' TY']. fold t in TX', TY'. destruct (i_funds _ I') as (FX & FY & _).
  pose proof (two_le_total (c_x t) (HUser u) HVault FX (uv u)). pose proof (two_le_total (c_y t) (HUser u) HVault FY (uv u)). rewrite over_lsum in HL. change (10 ^ 12) with SC in HS. change U64 with (2 ^ 64) in *. change U128 with (2 ^ 128) in *.
  apply (deposit_Ok t u l h c xa ya to d x y p a b I' B2 B3 LD' Q HL HS); clear Q; change U64 with (2 ^ 64); lia.
Qed.
