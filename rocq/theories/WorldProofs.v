(** The whole ledger: invariants, and each pool as an instance of the single-pool model. *)
From Coq Require Import ZArith QArith List Bool Lia.
From Verif Require Import Base BaseLemmas DecimalModel DecimalSpec DecimalProofs WfProofs MathModel MathProofs TickProofs BitmapModel BitmapProofs PoolWf LpProofs ChainModel ChainLemmas ChainProofs ChainSpec ChainInv ChainFlow ChainLive ChainOrder WorldModel WorldSpec.
Import ListNotations.
Open Scope Z_scope.

Lemma aeq : forall a b, addr_eqb a b = true -> a = b. Proof. intros a b. unfold addr_eqb. destruct (addr_dec a b); [auto | discriminate]. Qed.
Lemma aeq_refl : forall a, addr_eqb a a = true. Proof. intros a. unfold addr_eqb. destruct (addr_dec a a); auto. Qed.
Lemma aneq : forall a b, a <> b -> addr_eqb a b = false. Proof. intros a b N. unfold addr_eqb. destruct (addr_dec a b); [contradiction | auto]. Qed.
Lemma get_set : forall w a b c, wget b (wset a c w) = if addr_eqb b a then Some c else wget b w.
Proof.
  induction w as [| [d e] r IH]; intros a b c; cbn; [reflexivity |]. destruct (addr_eqb a d) eqn:E.
  - apply aeq in E. subst d. cbn. destruct (addr_eqb b a); reflexivity.
  - cbn. rewrite IH. destruct (addr_eqb b d) eqn:E2; [| reflexivity]. apply aeq in E2. subst d. destruct (addr_eqb b a) eqn:E3; [| reflexivity]. apply aeq in E3. subst b. rewrite aeq_refl in E. discriminate E.
Qed.
Lemma get_same : forall w a c, wget a (wset a c w) = Some c. Proof. intros. rewrite get_set, aeq_refl. reflexivity. Qed.
Lemma get_other : forall w a b c, b <> a -> wget b (wset a c w) = wget b w. Proof. intros. rewrite get_set, aneq by auto. reflexivity. Qed.
Lemma sum_set : forall f w a c, wsum f (wset a c w) = wsum f w + f a c - match wget a w with Some d => f a d | None => 0 end.
Proof.
  intros f w a c. unfold wsum. induction w as [| [b d] r IH]; cbn [wset wget fold_right fst snd]; [lia |]. destruct (addr_eqb a b) eqn:E; cbn [fold_right fst snd]; [apply aeq in E; subst b; lia | lia].
Qed.
Lemma get_in : forall w a c, wget a w = Some c -> In (a, c) w.
Proof. induction w as [| [b d] r IH]; intros a c H; cbn in *; [discriminate |]. destruct (addr_eqb a b) eqn:E; [apply aeq in E; injection H as <-; subst; auto | auto]. Qed.
Lemma in_get : forall w a c, NoDup (map fst w) -> In (a, c) w -> wget a w = Some c.
Proof.
  induction w as [| [b d] r IH]; intros a c N H; cbn in *; [contradiction |]. inversion N; subst. destruct H as [H | H]; [injection H as <- <-; rewrite aeq_refl; reflexivity |].
  rewrite aneq; [auto |]. intros <-. apply H2. apply in_map_iff. exists (a, c). auto.
Qed.
Lemma set_keys : forall w a c b, In b (map fst (wset a c w)) -> b = a \/ In b (map fst w).
Proof. induction w as [| [d e] r IH]; intros a c b H; cbn in *; [destruct H as [H | []]; auto |]. destruct (addr_eqb a d); cbn in *; destruct H as [H | H]; auto. destruct (IH _ _ _ H); auto. Qed.
Lemma set_nodup : forall w a c, NoDup (map fst w) -> NoDup (map fst (wset a c w)).
Proof.
  induction w as [| [d e] r IH]; intros a c N; cbn in *; [repeat constructor; auto |]. inversion N; subst. destruct (addr_eqb a d) eqn:E; cbn; [apply aeq in E; subst; auto |]. constructor; [| auto].
  intros J. apply set_keys in J. destruct J as [-> | J]; [rewrite aeq_refl in E; discriminate E | auto].
Qed.

(** Parts of an amount held by the selected accounts. *)
Definition tk (m : addr) (sel : addr -> addr -> bool) (a : addr) (c : content) : Z := match c with CToken mt o n => if addr_eqb mt m && sel a o then n else 0 | _ => 0 end.
Lemma tokens_set : forall w m sel a c, tokens (wset a c w) m sel = tokens w m sel + tk m sel a c - match wget a w with Some d => tk m sel a d | None => 0 end.
Proof. intros. unfold tokens. exact (sum_set (tk m sel) w a c). Qed.
Definition not_token (c : content) : Prop := match c with CToken _ _ _ => False | _ => True end.
Lemma tk_not : forall m sel a c, not_token c -> tk m sel a c = 0. Proof. intros m sel a []; cbn; intros; auto. contradiction. Qed.
Lemma tokens_le : forall w m s1 s2, (forall a o, s1 a o = true -> s2 a o = true) -> (forall a mt o n, In (a, CToken mt o n) w -> 0 <= n) -> 0 <= tokens w m s1 <= tokens w m s2.
Proof.
  intros w m s1 s2 S N. unfold tokens, wsum. induction w as [| [a c] r IH]; cbn [fold_right fst snd]; [lia |]. specialize (IH (fun a mt o n J => N a mt o n (or_intror J))).
  destruct c as [| | | | mt o n |]; try lia. pose proof (N a mt o n (or_introl eq_refl)). specialize (S a o). destruct (addr_eqb mt m); cbn [andb]; [| lia]. destruct (s1 a o), (s2 a o); try lia; discriminate (S eq_refl).
Qed.
Lemma tokens_ge : forall w m sel a o n, (forall a mt o n, In (a, CToken mt o n) w -> 0 <= n) -> wget a w = Some (CToken m o n) -> sel a o = true -> n <= tokens w m sel.
Proof.
  intros w m sel a o n N G S. induction w as [| [b c] r IH]; [discriminate G |]. assert (N' : forall a mt o n, In (a, CToken mt o n) r -> 0 <= n) by (intros a' mt o' n' J; exact (N a' mt o' n' (or_intror J))).
  unfold tokens, wsum. cbn [fold_right fst snd wget] in *. destruct (addr_eqb a b) eqn:E.
  - apply aeq in E. subst b. injection G as ->. rewrite aeq_refl, S. cbn [andb]. pose proof (tokens_le r m sel sel (fun _ _ H => H) N') as L. unfold tokens, wsum in L. lia.
  - specialize (IH N' G). unfold tokens, wsum in IH. assert (0 <= match c with CToken mt o n => if addr_eqb mt m && sel b o then n else 0 | _ => 0 end); [| lia].
    destruct c as [| | | | mt o' n' |]; try lia. pose proof (N b mt o' n' (or_introl eq_refl)). destruct (_ && _); lia.
Qed.

(** ** What holds of every reached world *)
Definition all (a o : addr) : bool := true.
Record winv (w : world) : Prop := mkWinv
  { wi_nodup : NoDup (map fst w);
    wi_pool : forall a k g, wget a w = Some (CPool k g) -> a = PoolAt (pk_lp k) /\ pk_xv k = VaultAt (pk_x k) (pk_lp k) /\ pk_yv k = VaultAt (pk_y k) (pk_lp k) /\ pk_x k <> pk_y k /\
      (exists n, wget (pk_xv k) w = Some (CToken (pk_x k) a n)) /\ (exists n, wget (pk_yv k) w = Some (CToken (pk_y k) a n)) /\ exists s, wget (pk_lp k) w = Some (CMint s (Some a));
    wi_token : forall a m o n, wget a w = Some (CToken m o n) -> 0 <= n /\ exists s u, wget m w = Some (CMint s u);
    wi_mint : forall a s u, wget a w = Some (CMint s u) -> s = tokens w a all /\ s < U64 /\ exists k, a = Key k;
    wi_bitmap : forall p b, wget p w = None -> wget (BitmapAt p) w <> Some b;
    wi_tick : forall p n b, wget p w = None -> wget (TickAt p n) w <> Some b;
    wi_pos : forall p u l h b, wget p w = None -> wget (PositionAt p u l h) w <> Some b }.
Lemma wi_nn : forall w, winv w -> forall a mt o n, In (a, CToken mt o n) w -> 0 <= n.
Proof. intros w I a mt o n J. apply (in_get _ _ _ (wi_nodup _ I)) in J. apply (wi_token _ I) in J. tauto. Qed.

Lemma get_pool_Ok : forall w a r, get_pool w a = Ok r -> wget a w = Some (CPool (fst r) (snd r)). Proof. intros w a r H. unfold get_pool in H. destruct (wget a w) as [[] |]; try discriminate H. injection H as <-. reflexivity. Qed.
Lemma get_bitmap_Ok : forall w a r, get_bitmap w a = Ok r -> wget a w = Some (CBitmap r). Proof. intros w a r H. unfold get_bitmap in H. destruct (wget a w) as [[] |]; try discriminate H. injection H as <-. reflexivity. Qed.
Lemma get_pos_Ok : forall w a r, get_pos w a = Ok r -> wget a w = Some (CPos r). Proof. intros w a r H. unfold get_pos in H. destruct (wget a w) as [[] |]; try discriminate H. injection H as <-. reflexivity. Qed.
Lemma get_tick_Ok : forall w a r, get_tick w a = Ok r -> wget a w = Some (CTick r). Proof. intros w a r H. unfold get_tick in H. destruct (wget a w) as [[] |]; try discriminate H. injection H as <-. reflexivity. Qed.
Lemma get_token_Ok : forall w a m o n, get_token w a = Ok (m, o, n) -> wget a w = Some (CToken m o n). Proof. intros w a m o n H. unfold get_token in H. destruct (wget a w) as [[] |]; try discriminate H. injection H as <- <- <-. reflexivity. Qed.
Lemma get_mint_Ok : forall w a s u, get_mint w a = Ok (s, u) -> wget a w = Some (CMint s u). Proof. intros w a s u H. unfold get_mint in H. destruct (wget a w) as [[] |]; try discriminate H. injection H as <- <-. reflexivity. Qed.
Lemma need_Ok : forall b u, need b = Ok u -> b = true. Proof. intros [] u H; [auto | discriminate H]. Qed.
Lemma create_Ok : forall w a c w', create w a c = Ok w' -> wget a w = None /\ w' = wset a c w. Proof. intros w a c w' H. unfold create in H. destruct (wget a w); [discriminate H |]. injection H as <-. auto. Qed.

Lemma is_u64_ok : forall n, is_u64 n = true -> 0 <= n < U64. Proof. intros n H. unfold is_u64 in H. apply andb_true_iff in H. destruct H as [A B]. apply Z.leb_le in A. apply Z.ltb_lt in B. lia. Qed.
(** *** Token operations *)
Definition one (b : bool) (n : Z) : Z := if b then n else 0.
Record moves_tokens (w w' : world) (mt f fo t to : addr) (n : Z) : Prop := mkMT
  { mt_from : exists x, wget f w = Some (CToken mt fo x) /\ n <= x;
    mt_to : exists x, wget t w = Some (CToken mt to x);
    mt_other : forall b, b <> f -> b <> t -> wget b w' = wget b w;
    mt_kept : forall b m o x, wget b w = Some (CToken m o x) -> exists x', wget b w' = Some (CToken m o x') /\ (b <> f -> x <= x') /\ 0 <= x';
    mt_sum : forall m sel, tokens w' m sel = tokens w m sel + one (addr_eqb mt m) (one (sel t to) n - one (sel f fo) n);
    mt_inv : winv w' }.
Lemma tk_diff : forall m sel a mt o x y, tk m sel a (CToken mt o x) - tk m sel a (CToken mt o y) = one (addr_eqb mt m && sel a o) (x - y).
Proof. intros. unfold tk, one. destruct (_ && _); lia. Qed.

(** Accounts keep their kind, token accounts their mint, accounts of derived owners their owner, pools their keys. *)
Definition kept (c c' : option content) : Prop :=
  match c, c' with
  | None, None => True
  | Some (CPool k _), Some (CPool k' _) => k' = k
  | Some (CBitmap _), Some (CBitmap _) | Some (CPos _), Some (CPos _) | Some (CTick _), Some (CTick _) => True
  | Some (CToken m o n), Some (CToken m' o' n') => m' = m /\ 0 <= n' /\ ((exists k, o = Key k) \/ o' = o)
  | Some (CMint _ u), Some (CMint _ u') => (exists k, u = Some (Key k)) \/ u' = u
  | _, _ => False
  end.
Lemma kept_refl : forall w a, winv w -> kept (wget a w) (wget a w).
Proof. intros w a I. unfold kept. destruct (wget a w) as [[] |] eqn:E; auto. apply (wi_token _ I) in E. tauto. Qed.
Lemma kept_None : forall c c', kept c c' -> c' = None -> c = None.
Proof. intros c c' H ->. destruct c as [[] |]; cbn in H; auto; contradiction. Qed.
Lemma kept_None' : forall c c', kept c c' -> c = None -> c' = None.
Proof. intros c c' H ->. destruct c' as [[] |]; cbn in H; auto; contradiction. Qed.
Lemma winv_kept : forall w w', winv w -> NoDup (map fst w') -> (forall a, kept (wget a w) (wget a w')) ->
  (forall a s u, wget a w' = Some (CMint s u) -> s = tokens w' a all /\ s < U64) -> winv w'.
Proof.
  intros w w' I ND K M. assert (MM : forall a s u, wget a w = Some (CMint s u) -> exists s' u', wget a w' = Some (CMint s' u') /\ ((exists k, u = Some (Key k)) \/ u' = u)).
  { intros a s u G. specialize (K a). rewrite G in K. cbn in K. destruct (wget a w') as [[] |]; try contradiction. eauto. }
  assert (TT : forall a m n p, wget a w = Some (CToken m (PoolAt p) n) -> exists n', wget a w' = Some (CToken m (PoolAt p) n')).
  { intros a m n p G. specialize (K a). rewrite G in K. cbn in K. destruct (wget a w') as [[] |]; try contradiction. destruct K as (-> & _ & [[k K] | ->]); [discriminate K | eauto]. }
  split; [exact ND | | | | | |].
  - intros a k g G. pose proof (K a) as Ka. rewrite G in Ka. destruct (wget a w) as [[k0 g0 | | | | |] |] eqn:G0; try contradiction. cbn in Ka. subst k0.
    destruct (wi_pool _ I _ _ _ G0) as (-> & E1 & E2 & E3 & [n1 E4] & [n2 E5] & [s E6]). split; [reflexivity |]. split; [exact E1 |]. split; [exact E2 |]. split; [exact E3 |]. split; [eapply TT; exact E4 |]. split; [eapply TT; exact E5 |]. destruct (MM _ _ _ E6) as (s' & u' & Q1 & [[q Q2] | Q2]); [discriminate Q2 | subst u'; eauto].
  - intros a m o n G. pose proof (K a) as Ka. rewrite G in Ka. destruct (wget a w) as [[| | | | m0 o0 n0 |] |] eqn:G0; try contradiction. destruct Ka as (-> & N & _). split; [exact N |]. destruct (wi_token _ I _ _ _ _ G0) as (_ & s & u & E). destruct (MM _ _ _ E) as (s' & u' & E' & _). eauto.
  - intros a s u G. destruct (M a s u G) as (A & B). split; [exact A |]. split; [exact B |]. pose proof (K a) as Ka. rewrite G in Ka. destruct (wget a w) as [[| | | | | s0 u0] |] eqn:G0; try contradiction. apply (wi_mint _ I) in G0. tauto.
  - intros p b N G. pose proof (kept_None _ _ (K p) N) as N0. pose proof (K (BitmapAt p)) as Kb. rewrite G in Kb. destruct (wget (BitmapAt p) w) eqn:G0; [exact (wi_bitmap _ I _ _ N0 G0) | destruct b; contradiction].
  - intros p n b N G. pose proof (kept_None _ _ (K p) N) as N0. pose proof (K (TickAt p n)) as Kb. rewrite G in Kb. destruct (wget (TickAt p n) w) eqn:G0; [exact (wi_tick _ I _ _ _ N0 G0) | destruct b; contradiction].
  - intros p u l h b N G. pose proof (kept_None _ _ (K p) N) as N0. pose proof (K (PositionAt p u l h)) as Kb. rewrite G in Kb. destruct (wget (PositionAt p u l h) w) eqn:G0; [exact (wi_pos _ I _ _ _ _ _ N0 G0) | destruct b; contradiction].
Qed.
Lemma one_all : forall b n, one b (one true n - one true n) = 0. Proof. intros [] n; cbn; lia. Qed.
Lemma transfer_inv : forall w f t au n w', winv w -> t_transfer w f t au n = Ok w' -> exists mt to, moves_tokens w w' mt f au t to n /\ 0 <= n < U64.
Proof.
  intros w f t au n w' I H. unfold t_transfer in H. bd H a E1. destruct a as [[m o] x]. bd H b E2. destruct b as [[m' o'] x']. apply get_token_Ok in E1, E2.
  bd H q E3. apply need_Ok in E3. rewrite !andb_true_iff in E3. destruct E3 as (((A0 & A1) & A2) & A3). apply is_u64_ok in A0. apply aeq in A1, A2. subst m' o. apply Z.leb_le in A3. clear q. assert (Hn : 0 <= n) by lia.
  pose proof (wi_token _ I _ _ _ _ E1) as [P1 _]. pose proof (wi_token _ I _ _ _ _ E2) as [P2 _]. exists m, o'. split; [| exact A0].
  destruct (addr_eqb f t) eqn:FT.
  - apply aeq in FT. subst t. injection H as <-. rewrite E1 in E2. injection E2 as <- <-. split; eauto.
    + intros b m0 o0 y G. exists y. split; [exact G |]. pose proof (wi_token _ I _ _ _ _ G). split; [lia | tauto].
    + intros m0 sel. unfold one. destruct (addr_eqb m m0), (sel f au); lia.
  - bd H q E4. apply need_Ok in E4. apply Z.ltb_lt in E4. clear q. injection H as <-. assert (NE : t <> f) by (intros ->; rewrite aeq_refl in FT; discriminate FT).
    assert (SUM : forall m0 sel, tokens (wset t (CToken m o' (x' + n)) (wset f (CToken m au (x - n)) w)) m0 sel = tokens w m0 sel + one (addr_eqb m m0) (one (sel t o') n - one (sel f au) n)).
    { intros m0 sel. rewrite !tokens_set, get_other, E1, E2 by auto. pose proof (tk_diff m0 sel t m o' (x' + n) x') as D1. pose proof (tk_diff m0 sel f m au (x - n) x) as D2. unfold one in *. destruct (addr_eqb m m0), (sel t o'), (sel f au); cbn [andb] in *; lia. }
    assert (GET : forall b, wget b (wset t (CToken m o' (x' + n)) (wset f (CToken m au (x - n)) w)) = if addr_eqb b t then Some (CToken m o' (x' + n)) else if addr_eqb b f then Some (CToken m au (x - n)) else wget b w) by (intros b; rewrite !get_set; reflexivity).
    set (w' := wset t (CToken m o' (x' + n)) (wset f (CToken m au (x - n)) w)) in *. assert (ND : NoDup (map fst w')) by (apply set_nodup, set_nodup, (wi_nodup _ I)). clearbody w'.
    split; eauto.
    + intros b B1 B2. rewrite GET, !aneq by auto. reflexivity.
    + intros b m0 o0 y G. rewrite GET. destruct (addr_eqb b t) eqn:Et; [apply aeq in Et; subst b; rewrite E2 in G; injection G as <- <- <-; eexists; split; [reflexivity | lia] |].
      destruct (addr_eqb b f) eqn:Ef; [apply aeq in Ef; subst b; rewrite E1 in G; injection G as <- <- <-; eexists; split; [reflexivity | split; [intros C; contradiction | lia]] |].
      exists y. split; [exact G |]. pose proof (wi_token _ I _ _ _ _ G). split; [lia | tauto].
    + apply (winv_kept w); auto.
      * intros b. rewrite GET. destruct (addr_eqb b t) eqn:Et; [apply aeq in Et; subst b; rewrite E2; cbn; split; [auto |]; split; [lia | auto] |].
        destruct (addr_eqb b f) eqn:Ef; [apply aeq in Ef; subst b; rewrite E1; cbn; split; [auto |]; split; [lia | auto] | apply kept_refl; auto].
      * intros b s u G. rewrite GET in G. destruct (addr_eqb b t); [discriminate G |]. destruct (addr_eqb b f); [discriminate G |]. destruct (wi_mint _ I _ _ _ G) as (M1 & M2 & _).
        rewrite SUM. unfold all at 2 3. rewrite one_all, Z.add_0_r. split; [exact M1 | exact M2].
Qed.
(** [n] tokens more (fewer, if negative) in the account [a] and in circulation. *)
Record issues (w w' : world) (mt a o : addr) (n : Z) : Prop := mkIss
  { is_acct : exists x, wget a w = Some (CToken mt o x) /\ 0 <= x + n;
    is_mint : exists s u, wget mt w = Some (CMint s u) /\ wget mt w' = Some (CMint (s + n) u) /\ 0 <= s + n < U64;
    is_other : forall b, b <> a -> b <> mt -> wget b w' = wget b w;
    is_kept : forall b m o x, wget b w = Some (CToken m o x) -> exists x', wget b w' = Some (CToken m o x') /\ (b <> a -> x <= x') /\ (0 <= n -> x <= x') /\ 0 <= x';
    is_sum : forall m sel, tokens w' m sel = tokens w m sel + one (addr_eqb mt m) (one (sel a o) n);
    is_inv : winv w' }.
Lemma issue_inv : forall w mt a o x s u n, winv w -> wget a w = Some (CToken mt o x) -> wget mt w = Some (CMint s u) -> 0 <= x + n -> s + n < U64 ->
  issues w (wset a (CToken mt o (x + n)) (wset mt (CMint (s + n) u) w)) mt a o n.
Proof.
  intros w mt a o x s u n I E1 E2 X S. assert (NE : a <> mt) by (intros ->; rewrite E1 in E2; discriminate E2).
  assert (NS : 0 <= s + n). { pose proof (tokens_ge w mt all a o x (wi_nn _ I) E1 eq_refl). pose proof (wi_mint _ I _ _ _ E2) as (M & _). lia. }
  assert (SUM : forall m0 sel, tokens (wset a (CToken mt o (x + n)) (wset mt (CMint (s + n) u) w)) m0 sel = tokens w m0 sel + one (addr_eqb mt m0) (one (sel a o) n)).
  { intros m0 sel. rewrite !tokens_set, get_other, E1, E2 by auto. pose proof (tk_diff m0 sel a mt o (x + n) x) as D1. rewrite (tk_not m0 sel mt (CMint (s + n) u)), (tk_not m0 sel mt (CMint s u)) by exact Logic.I. unfold one in *. destruct (addr_eqb mt m0), (sel a o); cbn [andb] in *; lia. }
  assert (GET : forall b, wget b (wset a (CToken mt o (x + n)) (wset mt (CMint (s + n) u) w)) = if addr_eqb b a then Some (CToken mt o (x + n)) else if addr_eqb b mt then Some (CMint (s + n) u) else wget b w) by (intros b; rewrite !get_set; reflexivity).
  set (w' := wset a (CToken mt o (x + n)) (wset mt (CMint (s + n) u) w)) in *. assert (ND : NoDup (map fst w')) by (apply set_nodup, set_nodup, (wi_nodup _ I)). clearbody w'.
  split; eauto.
  - exists s, u. split; [exact E2 |]. split; [rewrite GET, aneq, aeq_refl by auto; reflexivity | lia].
  - intros b B1 B2. rewrite GET, !aneq by auto. reflexivity.
  - intros b m0 o0 y G. rewrite GET. destruct (addr_eqb b a) eqn:Et; [apply aeq in Et; subst b; rewrite E1 in G; injection G as <- <- <-; eexists; split; [reflexivity | split; [intros C; contradiction | lia]] |].
    destruct (addr_eqb b mt) eqn:Ef; [apply aeq in Ef; subst b; rewrite E2 in G; discriminate G |]. exists y. split; [exact G |]. pose proof (wi_token _ I _ _ _ _ G). split; [lia | split; [lia | tauto]].
  - apply (winv_kept w); auto.
    + intros b. rewrite GET. destruct (addr_eqb b a) eqn:Et; [apply aeq in Et; subst b; rewrite E1; cbn; split; [auto |]; split; [lia | auto] |].
      destruct (addr_eqb b mt) eqn:Ef; [apply aeq in Ef; subst b; rewrite E2; right; reflexivity | apply kept_refl; auto].
    + intros b s0 u0 G. rewrite GET in G. destruct (addr_eqb b a) eqn:Eb; [discriminate G |]. rewrite SUM. unfold all at 2. cbn [one].
      destruct (addr_eqb b mt) eqn:Ef.
      * apply aeq in Ef. subst b. injection G as <- <-. rewrite aeq_refl. cbn [one]. destruct (wi_mint _ I _ _ _ E2) as (M1 & _). split; [lia | exact S].
      * destruct (wi_mint _ I _ _ _ G) as (M1 & M2 & _). rewrite aneq by (intros ->; rewrite aeq_refl in Ef; discriminate Ef). cbn [one]. rewrite Z.add_0_r. split; [exact M1 | exact M2].
Qed.
Lemma t_mint_inv : forall w mt a au n w', winv w -> t_mint w mt a au n = Ok w' -> exists o, issues w w' mt a o n /\ 0 <= n < U64 /\ exists s, wget mt w = Some (CMint s (Some au)).
Proof.
  intros w mt a au n w' I H. unfold t_mint in H. bd H x E1. destruct x as [s u]. bd H y E2. destruct y as [[m o] x]. apply get_mint_Ok in E1. apply get_token_Ok in E2.
  bd H q E3. apply need_Ok in E3. rewrite !andb_true_iff in E3. destruct E3 as ((((A0 & A1) & A2) & A3) & A4). apply is_u64_ok in A0. apply aeq in A1. subst m. clear q. destruct u as [u |]; [| discriminate A2]. apply aeq in A2. subst u. apply Z.ltb_lt in A3, A4. injection H as <-.
  exists o. split; [| eauto]. apply (issue_inv w mt a o x s (Some au) n); auto. pose proof (wi_token _ I _ _ _ _ E2). lia.
Qed.
Lemma t_burn_inv : forall w mt a au n w', winv w -> t_burn w mt a au n = Ok w' -> issues w w' mt a au (- n) /\ 0 <= n < U64.
Proof.
  intros w mt a au n w' I H. unfold t_burn in H. bd H x E1. destruct x as [s u]. bd H y E2. destruct y as [[m o] x]. apply get_mint_Ok in E1. apply get_token_Ok in E2.
  bd H q E3. apply need_Ok in E3. rewrite !andb_true_iff in E3. destruct E3 as ((((A0 & A1) & A2) & A3) & A4). apply is_u64_ok in A0. split; [| exact A0]. apply aeq in A1, A2. subst m o. clear q. apply Z.leb_le in A3, A4. injection H as <-.
  replace (x - n) with (x + - n) by lia. replace (s - n) with (s + - n) by lia. destruct (wi_mint _ I _ _ _ E1) as (_ & M2 & _). apply (issue_inv w mt a au x s u (- n)); auto; lia.
Qed.

(** *** Writing the program's own accounts *)
Definition own (c : content) : Prop := match c with CToken _ _ _ | CMint _ _ => False | _ => True end.
Lemma write_inv : forall w a c c0, winv w -> wget a w = Some c0 -> own c0 -> own c -> kept (Some c0) (Some c) -> winv (wset a c w) /\ forall m sel, tokens (wset a c w) m sel = tokens w m sel.
Proof.
  intros w a c c0 I G O0 O K. assert (SUM : forall m sel, tokens (wset a c w) m sel = tokens w m sel).
  { intros m sel. rewrite tokens_set, G, !tk_not; [lia | destruct c0; try contradiction; exact Logic.I | destruct c; try contradiction; exact Logic.I]. }
  split; [| exact SUM]. apply (winv_kept w); auto.
  - apply set_nodup, (wi_nodup _ I).
  - intros b. rewrite get_set. destruct (addr_eqb b a) eqn:E; [apply aeq in E; subst b; rewrite G; exact K | apply kept_refl; auto].
  - intros b s u B. rewrite get_set in B. destruct (addr_eqb b a) eqn:E; [injection B as ->; contradiction |]. destruct (wi_mint _ I _ _ _ B) as (M1 & M2 & _). rewrite SUM. split; [exact M1 | exact M2].
Qed.

(** *** Creating accounts *)
Lemma create_inv : forall w a c, winv w -> wget a w = None ->
  match c with
  | CPool _ _ => False
  | CBitmap _ => exists p, a = BitmapAt p /\ wget p w <> None
  | CTick _ => exists p n, a = TickAt p n /\ wget p w <> None
  | CPos _ => exists p u l h, a = PositionAt p u l h /\ wget p w <> None
  | CToken m o n => n = 0 /\ (exists s u, wget m w = Some (CMint s u)) /\ match a with Key _ | VaultAt _ _ | LpVaultAt _ _ => True | _ => False end
  | CMint s u => s = 0 /\ exists k, a = Key k
  end -> winv (wset a c w) /\ forall m sel, tokens (wset a c w) m sel = tokens w m sel.
Proof.
  intros w a c I N C. assert (OLD : forall b x, wget b w = Some x -> wget b (wset a c w) = Some x) by (intros b x G; rewrite get_other; [exact G | intros ->; rewrite N in G; discriminate G]).
  assert (SUM : forall m sel, tokens (wset a c w) m sel = tokens w m sel).
  { intros m sel. rewrite tokens_set, N. destruct c as [| | | | mt o n |]; try (rewrite tk_not by exact Logic.I; lia). destruct C as (-> & _). unfold tk. destruct (_ && _); lia. }
  assert (NONE : forall b, wget b (wset a c w) = None -> wget b w = None) by (intros b H; destruct (wget b w) eqn:E; [rewrite (OLD _ _ E) in H; exact H | reflexivity]).
  split; [| exact SUM]. split.
  - apply set_nodup, (wi_nodup _ I).
  - intros b k g G. rewrite get_set in G. destruct (addr_eqb b a); [injection G as ->; contradiction |]. destruct (wi_pool _ I _ _ _ G) as (-> & E1 & E2 & E3 & [n1 E4] & [n2 E5] & [s E6]). repeat (split; [solve [auto | eauto] |]). eauto.
  - intros b m o n G. rewrite get_set in G. destruct (addr_eqb b a) eqn:E.
    + injection G as ->. destruct C as (-> & (s & u & M) & _). split; [lia |]. eauto.
    + destruct (wi_token _ I _ _ _ _ G) as (P & s & u & M). split; [exact P |]. eauto.
  - intros b s u G. rewrite SUM. rewrite get_set in G. destruct (addr_eqb b a) eqn:E.
    + apply aeq in E. subst b. injection G as ->. destruct C as (-> & K). split; [| split; [unfold U64; lia | exact K]].
      assert (Z0 : tokens w a all = 0); [| lia]. assert (NT : forall b o n, wget b w <> Some (CToken a o n)) by (intros b o n B; destruct (wi_token _ I _ _ _ _ B) as (_ & s & u0 & M); rewrite N in M; discriminate M).
      assert (NI : forall b o n, ~ In (b, CToken a o n) w) by (intros b o n B; exact (NT b o n (in_get _ _ _ (wi_nodup _ I) B))). clear - NI. unfold tokens, wsum. induction w as [| [b x] r IH]; [reflexivity |]. cbn [fold_right fst snd]. rewrite IH by (intros b0 o n J; exact (NI b0 o n (or_intror J))).
      destruct x as [| | | | mt o n |]; try reflexivity. destruct (addr_eqb mt a) eqn:E; [| reflexivity]. apply aeq in E. subst mt. exfalso. exact (NI b o n (or_introl eq_refl)).
    + exact (wi_mint _ I _ _ _ G).
  - intros p b Q G. pose proof (NONE _ Q) as Q'. rewrite get_set in G. destruct (addr_eqb (BitmapAt p) a) eqn:E; [| exact (wi_bitmap _ I _ _ Q' G)]. apply aeq in E. subst a. injection G as ->.
    destruct b as [| | | | mt oo n0 | s uu0]; [contradiction | | | | |].
    + destruct C as (pp & A & B). injection A as <-. contradiction. + destruct C as (pp & uu & ll & hh & A & B). discriminate A. + destruct C as (pp & nn & A & B). discriminate A. + destruct C as (_ & _ & C). exact C. + destruct C as (_ & [k C]). discriminate C.
  - intros p n b Q G. pose proof (NONE _ Q) as Q'. rewrite get_set in G. destruct (addr_eqb (TickAt p n) a) eqn:E; [| exact (wi_tick _ I _ _ _ Q' G)]. apply aeq in E. subst a. injection G as ->.
    destruct b as [| | | | mt oo n0 | s uu0]; [contradiction | | | | |].
    + destruct C as (pp & A & B). discriminate A. + destruct C as (pp & uu & ll & hh & A & B). discriminate A. + destruct C as (pp & nn & A & B). injection A as <- <-. contradiction. + destruct C as (_ & _ & C). exact C. + destruct C as (_ & [k C]). discriminate C.
  - intros p u l h b Q G. pose proof (NONE _ Q) as Q'. rewrite get_set in G. destruct (addr_eqb (PositionAt p u l h) a) eqn:E; [| exact (wi_pos _ I _ _ _ _ _ Q' G)]. apply aeq in E. subst a. injection G as ->.
    destruct b as [| | | | mt oo n0 | s uu0]; [contradiction | | | | |].
    + destruct C as (pp & A & B). discriminate A. + destruct C as (pp & uu & ll & hh & A & B). injection A as <- <- <- <-. contradiction. + destruct C as (pp & nn & A & B). discriminate A. + destruct C as (_ & _ & C). exact C. + destruct C as (_ & [k C]). discriminate C.
Qed.
