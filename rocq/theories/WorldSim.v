(** The whole ledger: each pool behaves like the single-pool model. *)
From Coq Require Import ZArith QArith List Bool Lia.
From Verif Require Import Base BaseLemmas DecimalModel DecimalSpec DecimalProofs WfProofs MathModel MathProofs TickProofs BitmapModel BitmapProofs PoolWf LpProofs ChainModel ChainLemmas ChainProofs ChainSpec ChainInv ChainFlow ChainLive ChainOrder WorldModel WorldSpec WorldProofs WorldInv.
Import ListNotations.
Open Scope Z_scope.

Lemma initial_inv : forall w, initial w -> winv w.
Proof.
  intros w [ND H]. split; auto.
  - intros a k g G. destruct (H _ _ G) as [_ []].
  - intros a m o n G. destruct (H _ _ G) as [_ X]. exact X.
  - intros a s u G. destruct (H _ _ G) as [X (A & B)]. split; [exact A |]. split; [exact B |]. exact X.
  - intros p b _ G. destruct (H _ _ G) as [[k X] _]. discriminate X.
  - intros p n b _ G. destruct (H _ _ G) as [[k X] _]. discriminate X.
  - intros p u l h b _ G. destruct (H _ _ G) as [[k X] _]. discriminate X.
Qed.
Lemma wexec_inv : forall w i w', winv w -> wexec w i = Ok w' -> winv w' /\ ext w w'.
Proof.
  intros w i w' I H. unfold wexec in H. destruct (wargs_ok i); [| discriminate H]. cbn [negb] in H. destruct i as [pool xm ym lpm xv yv lpv t | pool bm | pool tk t | pool ps lt ut u l h | d u l h c xa ya | d u l h c n | a auth | a mt o | f t u n | mt t u n | mt f u n | a u o | mt u o].
  - destruct (init_pool_parts _ _ _ _ _ _ _ _ _ _ I H) as (_ & A & B & _). auto.
  - unfold w_init_bitmap in H. bd H r E. destruct r as [k g]. apply get_pool_Ok in E. cbn [fst snd] in E. bd H r0 E0. apply need_Ok in E0. apply andb_true_iff in E0. destruct E0 as [_ E0]. apply aeq in E0. apply create_Ok in H. destruct H as [N ->]. split; [| apply new_ext; auto].
    apply (create_inv w bm (CBitmap bm_default) I N). exists pool. split; [exact E0 |]. rewrite E. discriminate.
  - unfold w_init_tick in H. bd H r E. destruct r as [k g]. apply get_pool_Ok in E. cbn [fst snd] in E. bd H r0 E0. apply need_Ok in E0. apply andb_true_iff in E0. destruct E0 as [_ E0]. apply aeq in E0. apply create_Ok in H. destruct H as [N ->]. split; [| apply new_ext; auto].
    apply (create_inv w tk (CTick _) I N). exists pool, t. split; [exact E0 |]. rewrite E. discriminate.
  - unfold w_create_position in H. bd H r E. destruct r as [k g]. apply get_pool_Ok in E. cbn [fst snd] in E. bd H r1 E1. bd H r2 E2. bd H r0 E0. apply need_Ok in E0. rewrite !andb_true_iff in E0. destruct E0 as ((((_ & E0) & _) & _) & _). apply aeq in E0. apply create_Ok in H. destruct H as [N ->]. split; [| apply new_ext; auto].
    apply (create_inv w ps (CPos _) I N). exists pool, (Key u), l, h. split; [exact E0 |]. rewrite E. discriminate.
  - destruct (deposit_parts _ _ _ _ _ _ _ _ _ I H) as (k & g & bm & ps & lt & ut & cur & g' & bm' & ps' & lt' & ut' & n & ax & ay & xd & yd & lo & w1 & w2 & w3 & D).
    destruct (ds_exit _ _ _ _ _ _ _ _ _ _ _ _ _ _ _ _ _ _ _ _ _ _ _ _ _ _ _ _ _ _ D) as (_ & A & B & _ & C1 & C2 & C3). split; [exact A |]. eauto using ext_trans.
  - destruct (withdraw_parts _ _ _ _ _ _ _ _ I H) as (k & g & bm & ps & lt & ut & cur & g' & bm' & ps' & lt' & ut' & ax & ay & xd & yd & w1 & w2 & w3 & D).
    destruct (ws_exit _ _ _ _ _ _ _ _ _ _ _ _ _ _ _ _ _ _ _ _ _ _ _ _ _ _ _ D) as (_ & A & B & _ & C1 & C2 & C3). split; [exact A |]. eauto using ext_trans.
  - apply create_Ok in H. destruct H as [N ->]. split; [| apply new_ext; auto]. apply (create_inv w (Key a) (CMint 0 auth) I N). eauto.
  - bd H r E. destruct r as [s v]. apply get_mint_Ok in E. apply create_Ok in H. destruct H as [N ->]. split; [| apply new_ext; auto]. apply (create_inv w (Key a) (CToken mt o 0) I N). eauto.
  - destruct (transfer_inv _ _ _ _ _ _ I H) as (mt & to & M & _). split; [exact (mt_inv _ _ _ _ _ _ _ _ M) | eapply moves_ext; eauto].
  - destruct (t_mint_inv _ _ _ _ _ _ I H) as (o & M & _). split; [exact (is_inv _ _ _ _ _ _ M) | eapply issues_ext; eauto].
  - destruct (t_burn_inv _ _ _ _ _ _ I H) as (M & _). split; [exact (is_inv _ _ _ _ _ _ M) | eapply issues_ext; eauto].
  - bd H r E. destruct r as [[mt o'] n]. apply get_token_Ok in E. bd H q E0. apply need_Ok in E0. apply aeq in E0. subst o'. injection H as <-. destruct (set_owner_inv w a mt u o n I E) as (A & B & _). auto.
  - bd H r E. destruct r as [s v]. apply get_mint_Ok in E. bd H q E0. apply need_Ok in E0. destruct v as [v |]; [| discriminate E0]. apply aeq in E0. subst v. injection H as <-. destruct (set_authority_inv w mt s u o I E) as (A & B & _). auto.
Qed.
Lemma wtx_inv : forall w i, winv w -> winv (wtx w i) /\ ext w (wtx w i).
Proof. intros w i I. unfold wtx. destruct (wexec w i) eqn:E; try (split; [exact I | apply ext_refl; exact I]). eapply wexec_inv; eauto. Qed.
Lemma wrun_inv : forall is w, winv w -> winv (wrun w is) /\ ext w (wrun w is).
Proof.
  induction is as [| i r IH]; intros w I; [split; [exact I | apply ext_refl; exact I] |]. change (wrun w (i :: r)) with (wrun (wtx w i) r). destruct (wtx_inv w i I) as [I1 X1]. destruct (IH _ I1) as [I2 X2]. split; [exact I2 | eapply ext_trans; eauto].
Qed.

(** ** A pool whose X and Y are not its own LP token *)
Record poolw (w : world) (m : addr) (k : pkeys) : Prop := mkPW
  { pw_inv : winv w;
    pw_pool : exists g, wget (PoolAt m) w = Some (CPool k g);
    pw_x : pk_x k <> m;
    pw_y : pk_y k <> m }.
Record pool_facts (w : world) (m : addr) (k : pkeys) : Prop := mkPF
  { pf_lp : pk_lp k = m;
    pf_xv : pk_xv k = VaultAt (pk_x k) m;
    pf_yv : pk_yv k = VaultAt (pk_y k) m;
    pf_xy : pk_x k <> pk_y k;
    pf_xm : pk_x k <> m;
    pf_ym : pk_y k <> m;
    pf_vx : exists n, wget (pk_xv k) w = Some (CToken (pk_x k) (PoolAt m) n);
    pf_vy : exists n, wget (pk_yv k) w = Some (CToken (pk_y k) (PoolAt m) n);
    pf_mint : exists s, wget m w = Some (CMint s (Some (PoolAt m))) }.
Lemma facts : forall w m k, poolw w m k -> pool_facts w m k.
Proof.
  intros w m k [I [g G] X Y]. destruct (wi_pool _ I _ _ _ G) as (E & E1 & E2 & E3 & [n1 E4] & [n2 E5] & [s E6]). injection E as E. rewrite <- E in *. split; auto; eexists; eassumption.
Qed.
Lemma poolw_on : forall w w' m k, poolw w m k -> winv w' -> ext w w' -> poolw w' m k.
Proof. intros w w' m k [I [g G] X Y] I' E. destruct (ext_pool _ _ _ _ _ E G) as [g' G']. split; eauto. Qed.

(** ** The program's accounts are untouched by token operations *)
Definition pv (c : option content) : option content := match c with Some (CToken _ _ _) | Some (CMint _ _) => None | _ => c end.
Definition same_program (w w' : world) : Prop := forall a, pv (wget a w') = pv (wget a w).
Lemma moves_program : forall w w' mt f fo t to n, winv w -> moves_tokens w w' mt f fo t to n -> same_program w w'.
Proof.
  intros w w' mt f fo t to n I M a. destruct (mt_from _ _ _ _ _ _ _ _ M) as (x & F & _). destruct (mt_to _ _ _ _ _ _ _ _ M) as (y & T). destruct (wget a w) as [c |] eqn:G.
  - pose proof (moves_ext _ _ _ _ _ _ _ _ I M _ _ G) as K. destruct c as [| | | | m o z |]; try (rewrite (mt_other _ _ _ _ _ _ _ _ M), G; [reflexivity | intros -> ; rewrite G in F; discriminate F | intros ->; rewrite G in T; discriminate T]).
    destruct (wget a w') as [[] |]; try contradiction. reflexivity.
  - rewrite (mt_other _ _ _ _ _ _ _ _ M), G; [reflexivity | intros -> ; rewrite G in F; discriminate F | intros ->; rewrite G in T; discriminate T].
Qed.
Lemma issues_program : forall w w' mt a o n, winv w -> issues w w' mt a o n -> same_program w w'.
Proof.
  intros w w' mt a o n I M b. destruct (is_acct _ _ _ _ _ _ M) as (y & E & _). destruct (is_mint _ _ _ _ _ _ M) as (s & u & E1 & E2 & _). destruct (wget b w) as [c |] eqn:G.
  - pose proof (issues_ext _ _ _ _ _ _ I M _ _ G) as K. destruct c as [| | | | m o' z | s' u']; try (rewrite (is_other _ _ _ _ _ _ M), G; [reflexivity | intros -> ; rewrite G in E; discriminate E | intros ->; rewrite G in E1; discriminate E1]).
    + destruct (wget b w') as [[] |]; try contradiction. reflexivity. + destruct (wget b w') as [[] |]; try contradiction. reflexivity.
  - rewrite (is_other _ _ _ _ _ _ M), G; [reflexivity | intros -> ; rewrite G in E; discriminate E | intros ->; rewrite G in E1; discriminate E1].
Qed.
Lemma token_program : forall w a m o n o' n', wget a w = Some (CToken m o n) -> same_program w (wset a (CToken m o' n') w).
Proof. intros w a m o n o' n' G b. rewrite get_set. destruct (addr_eqb b a) eqn:E; [apply aeq in E; subst b; rewrite G; reflexivity | reflexivity]. Qed.
(** The accounts of the pool at [m] that belong to the program. *)
Definition mine (m a : addr) : Prop := a = PoolAt m \/ a = BitmapAt (PoolAt m) \/ (exists n, a = TickAt (PoolAt m) n) \/ exists u l h, a = PositionAt (PoolAt m) u l h.
Definition as_bitmap (c : option content) : option bitmap := match c with Some (CBitmap b) => Some b | _ => None end.
Definition as_tick (c : option content) : option ctick := match c with Some (CTick b) => Some b | _ => None end.
Definition as_pos (c : option content) : option cpos := match c with Some (CPos b) => Some b | _ => None end.
Lemma pv_bitmap : forall c c', pv c' = pv c -> as_bitmap c' = as_bitmap c. Proof. intros c c' H. transitivity (as_bitmap (pv c')); [destruct c' as [[] |]; reflexivity | rewrite H; destruct c as [[] |]; reflexivity]. Qed.
Lemma pv_tick : forall c c', pv c' = pv c -> as_tick c' = as_tick c. Proof. intros c c' H. transitivity (as_tick (pv c')); [destruct c' as [[] |]; reflexivity | rewrite H; destruct c as [[] |]; reflexivity]. Qed.
Lemma pv_pos : forall c c', pv c' = pv c -> as_pos c' = as_pos c. Proof. intros c c' H. transitivity (as_pos (pv c')); [destruct c' as [[] |]; reflexivity | rewrite H; destruct c as [[] |]; reflexivity]. Qed.
Lemma pv_pool : forall c c' k g, pv c' = pv c -> c = Some (CPool k g) -> c' = Some (CPool k g). Proof. intros c c' k g H ->. destruct c' as [[] |]; cbn in H; try discriminate H; exact H. Qed.
Lemma agrees_tokens : forall w w' m k s x y lp sup, agrees w m k s -> (forall a, mine m a -> pv (wget a w') = pv (wget a w)) ->
  (forall h, bal h x = full w' (pk_x k) (Some (pk_xv k)) h) -> (forall h, bal h y = full w' (pk_y k) (Some (pk_yv k)) h) -> (forall h, bal h lp = held w' m None h) -> (exists a, wget m w' = Some (CMint sup a)) ->
  agrees w' m k (mkCS (c_pool s) (c_bitmap s) (c_ticks s) (c_pos s) x y lp sup).
Proof.
  intros w w' m k s x y lp sup A S HX HY HL HS. split; cbn [c_pool c_bitmap c_ticks c_pos c_x c_y c_lp c_lp_supply]; auto.
  - destruct (ag_pool _ _ _ _ A) as (g & G & E). exists g. split; [| exact E]. apply (pv_pool (wget (PoolAt m) w)); [| exact G]. apply S. left. reflexivity.
  - rewrite (ag_bitmap _ _ _ _ A). symmetry. apply (pv_bitmap (wget (BitmapAt (PoolAt m)) w)). apply S. right. left. reflexivity.
  - intros n. rewrite (ag_tick _ _ _ _ A). symmetry. apply (pv_tick (wget (TickAt (PoolAt m) n) w)). apply S. right. right. left. eauto.
  - intros u l h. rewrite (ag_pos _ _ _ _ A). destruct u as [| q | q]; auto. symmetry. apply (pv_pos (wget (PositionAt (PoolAt m) (Key q) l h) w)). apply S. right. right. right. eauto.
Qed.
Lemma eta_cs : forall s, s = mkCS (c_pool s) (c_bitmap s) (c_ticks s) (c_pos s) (c_x s) (c_y s) (c_lp s) (c_lp_supply s). Proof. intros []. reflexivity. Qed.
(** Nothing that concerns the pool has changed. *)
Lemma agrees_same : forall w w' m k s, agrees w m k s -> (forall a, mine m a -> pv (wget a w') = pv (wget a w)) ->
  (forall sel, tokens w' (pk_x k) sel = tokens w (pk_x k) sel) -> (forall sel, tokens w' (pk_y k) sel = tokens w (pk_y k) sel) -> (forall sel, tokens w' m sel = tokens w m sel) -> wget m w' = wget m w -> agrees w' m k s.
Proof.
  intros w w' m k s A S HX HY HL HS. rewrite (eta_cs s). apply (agrees_tokens w); auto; unfold full, held.
  - intros h. rewrite !HX. apply (ag_x _ _ _ _ A h). - intros h. rewrite !HY. apply (ag_y _ _ _ _ A h). - intros h. rewrite HL. apply (ag_lp _ _ _ _ A h). - rewrite HS. apply (ag_supply _ _ _ _ A).
Qed.

(** ** Movements of tokens that the pool's instructions have no part in *)
Definition sim (w : world) (m : addr) (k : pkeys) (s : cstate) : Prop := agrees w m k s /\ reached s /\ total (c_x s) < U64 /\ total (c_y s) < U64.
Lemma sim_run : forall w w' m k s is, sim w m k s -> agrees w' m k (run_txs s is) -> sim w' m k (run_txs s is).
Proof. intros w w' m k s is (_ & R & X & Y) A. destruct (run_total is s (reached_inv _ R)) as [E1 E2]. split; [exact A |]. split; [apply reached_run; exact R |]. rewrite E1, E2. auto. Qed.
Lemma hsym : forall a b, holder_eqb a b = holder_eqb b a.
Proof. intros a b. destruct (holder_eqb a b) eqn:E. - apply holder_eqb_eq in E. subst. symmetry. apply holder_eqb_refl. - symmetry. apply holder_eqb_neq. intros ->. rewrite holder_eqb_refl in E. discriminate E. Qed.
Lemma uid_nn : forall o, 0 <= uid o. Proof. intros []; cbn; lia. Qed.
Lemma held_reserve : forall v a o, holder_eqb (holder_of v a o) reserve = false.
Proof. intros v a o. apply holder_eqb_neq. assert (HUser (uid o) <> reserve) by (intros [=]; pose proof (uid_nn o); lia). destruct v as [v |]; cbn; [destruct (addr_eqb a v); [discriminate | auto] | auto]. Qed.
Lemma u64_ok : forall n, 0 <= n < U64 -> is_u64 n = true. Proof. intros n [A B]. unfold is_u64. rewrite (proj2 (Z.leb_le _ _) A), (proj2 (Z.ltb_lt _ _) B). reflexivity. Qed.
(** The ledger of one token follows a movement in the world. *)
Lemma follow : forall l (F : holder -> Z) h0 h1 n, funds_ok l -> total l < U64 -> (forall h, bal h l = F h) -> 0 <= n <= F h0 -> exists l', spl_transfer l h0 h1 n = Ok l' /\ forall h, bal h l' = F h + mv h0 h1 n h.
Proof.
  intros l F h0 h1 n FU T B Hn. assert (E : exists l', spl_transfer l h0 h1 n = Ok l').
  { destruct (holder_eqb h0 h1) eqn:E. - unfold spl_transfer. rewrite B, (proj2 (Z.ltb_ge _ _)) by lia. rewrite E. eauto.
    - assert (N : h0 <> h1) by (intros ->; rewrite holder_eqb_refl in E; discriminate E). apply transfer_Ok; [exact N | rewrite B; lia |]. pose proof (two_le_total l h0 h1 FU N). rewrite B in H at 1. lia. }
  destruct E as [l' E]. exists l'. split; [exact E |]. intros h. rewrite (transfer_mv _ _ _ _ _ E), B. reflexivity.
Qed.
Lemma holder_user : forall v f fo, (forall a, v = Some a -> f <> a) -> holder_of v f fo = HUser (uid fo).
Proof. intros [a |] f fo H; cbn; [rewrite aneq by (apply H; reflexivity); reflexivity | reflexivity]. Qed.
Definition follows (P : Z -> Prop) (w : world) (m : addr) (k : pkeys) (s : cstate) (w' : world) : Prop := exists is, Forall (external P) is /\ all_succeed s is /\ agrees w' m k (run_txs s is).
Lemma succeed_app : forall is js s, all_succeed s is -> all_succeed (run_txs s is) js -> all_succeed s (is ++ js).
Proof. induction is as [| i r IH]; intros js s A B; [exact B |]. destruct A as [A1 A2]. split; [exact A1 |]. apply IH; auto. Qed.
Lemma run_app : forall is js s, run_txs s (is ++ js) = run_txs (run_txs s is) js. Proof. intros. apply fold_left_app. Qed.
Lemma follows_trans : forall P w m k s w1 w2, sim w m k s -> follows P w m k s w1 -> (forall s1, sim w1 m k s1 -> follows P w1 m k s1 w2) -> follows P w m k s w2.
Proof.
  intros P w m k s w1 w2 S (is & F & A & G) H. destruct (H _ (sim_run _ _ _ _ _ _ S G)) as (js & F2 & A2 & G2). exists (is ++ js). split; [apply Forall_app; auto |]. split; [apply succeed_app; auto |]. rewrite run_app. exact G2.
Qed.
Lemma follows_none : forall P w m k s w', agrees w' m k s -> follows P w m k s w'. Proof. intros. exists []. split; [constructor |]. split; [exact Logic.I | exact H]. Qed.
Lemma follows_one : forall (P : Z -> Prop) w m k s w' i s', external P i -> exec s i = Ok s' -> agrees w' m k s' -> follows P w m k s w'.
Proof. intros P w m k s w' i s' X E A. exists [i]. split; [constructor; auto |]. cbn [all_succeed run_txs fold_left]. unfold tx. rewrite E. split; [split; [eauto | exact Logic.I] | exact A]. Qed.
(** Moving tokens, be it by transfer or by giving an account away. *)
Record moved_tokens (w w' : world) (mt f fo t to : addr) (n : Z) : Prop := mkMoved
  { mo_from : exists x, wget f w = Some (CToken mt fo x) /\ 0 <= n <= x;
    mo_program : same_program w w';
    mo_mint : forall a s u, wget a w = Some (CMint s u) -> wget a w' = Some (CMint s u);
    mo_sum : forall m sel, tokens w' m sel = tokens w m sel + one (addr_eqb mt m) (one (sel t to) n - one (sel f fo) n) }.
Lemma moved_of : forall w w' mt f fo t to n, winv w -> 0 <= n -> moves_tokens w w' mt f fo t to n -> moved_tokens w w' mt f fo t to n.
Proof.
  intros w w' mt f fo t to n I Hn M. destruct (mt_from _ _ _ _ _ _ _ _ M) as (x & F & L). destruct (mt_to _ _ _ _ _ _ _ _ M) as (y & T). split.
  - exists x. auto. - eapply moves_program; eauto. - intros a s u G. rewrite (mt_other _ _ _ _ _ _ _ _ M); [exact G | intros ->; rewrite G in F; discriminate F | intros ->; rewrite G in T; discriminate T]. - exact (mt_sum _ _ _ _ _ _ _ _ M).
Qed.
Lemma full_move : forall w w' mt f fo t to n b v h, (forall m sel, tokens w' m sel = tokens w m sel + one (addr_eqb mt m) (one (sel t to) n - one (sel f fo) n)) ->
  full w' b v h = full w b v h + one (addr_eqb mt b) (mv (holder_of v f fo) (holder_of v t to) n h).
Proof.
  intros w w' mt f fo t to n b v h S. unfold full, held, mv. rewrite !S. destruct (holder_eqb h reserve) eqn:E.
  - apply holder_eqb_eq in E. subst h. rewrite !(hsym reserve), !held_reserve. unfold one. destruct (addr_eqb mt b); lia.
  - rewrite !(hsym h). unfold one. destruct (addr_eqb mt b), (holder_eqb (holder_of v f fo) h), (holder_eqb (holder_of v t to) h); lia.
Qed.
Lemma full_issue : forall w w' mt a o n b v h, issues w w' mt a o n -> full w' b v h = full w b v h + one (addr_eqb mt b) (mv reserve (holder_of v a o) n h).
Proof.
  intros w w' mt a o n b v h M. unfold full, held, mv. rewrite !(is_sum _ _ _ _ _ _ M). destruct (holder_eqb h reserve) eqn:E.
  - apply holder_eqb_eq in E. subst h. rewrite !(hsym reserve), !held_reserve. unfold one. destruct (addr_eqb mt b); lia.
  - rewrite !(hsym h). unfold one. destruct (addr_eqb mt b), (holder_eqb (holder_of v a o) h); lia.
Qed.
Lemma full_ge : forall w mt v a o x, winv w -> wget a w = Some (CToken mt o x) -> x <= full w mt v (holder_of v a o).
Proof.
  intros w mt v a o x I G. unfold full. rewrite held_reserve. unfold held. apply (tokens_ge w mt _ a o x (wi_nn _ I) G). apply holder_eqb_refl.
Qed.
Lemma held_ge : forall w mt a o x, winv w -> wget a w = Some (CToken mt o x) -> x <= held w mt None (HUser (uid o)).
Proof. intros w mt a o x I G. unfold held. apply (tokens_ge w mt _ a o x (wi_nn _ I) G). apply holder_eqb_refl. Qed.
Lemma one_false : forall n, one false n = 0. Proof. reflexivity. Qed.
(** Which of the pool's tokens is concerned decides which ledger follows. *)
Lemma sim_move : forall (P : Z -> Prop) w w' m k s mt f fo t to n, poolw w m k -> sim w m k s -> moved_tokens w w' mt f fo t to n -> fo <> PoolAt m -> P (uid fo) -> n < U64 -> follows P w m k s w'.
Proof.
  intros P w w' m k s mt f fo t to n W (A & R & TX & TY) M FO HP Hn. pose proof (facts _ _ _ W) as F. pose proof (reached_inv _ R) as CI. destruct (i_funds _ CI) as (FX & FY & FL). destruct (mo_from _ _ _ _ _ _ _ _ M) as (x & G & Hx). pose proof (pw_inv _ _ _ W) as I.
  destruct (pf_vx _ _ _ F) as [vx VX]. destruct (pf_vy _ _ _ F) as [vy VY]. destruct (ag_supply _ _ _ _ A) as [au SU].
  assert (NX : f <> pk_xv k) by (intros ->; rewrite VX in G; injection G as _ <- _; apply FO; reflexivity). assert (NY : f <> pk_yv k) by (intros ->; rewrite VY in G; injection G as _ <- _; apply FO; reflexivity).
  assert (UN : is_u64 n = true) by (apply u64_ok; lia).
  assert (FULL : forall b v h, full w' b v h = full w b v h + one (addr_eqb mt b) (mv (holder_of v f fo) (holder_of v t to) n h)) by (intros; apply full_move; apply (mo_sum _ _ _ _ _ _ _ _ M)).
  assert (OTH : forall b, b <> mt -> forall v h, full w' b v h = full w b v h) by (intros b N v h; rewrite FULL, aneq by auto; rewrite one_false; lia).
  assert (LPO : m <> mt -> forall h, held w' m None h = held w m None h) by (intros N h; unfold held; rewrite (mo_sum _ _ _ _ _ _ _ _ M), aneq by auto; rewrite one_false; lia).
  assert (SV : forall a, mine m a -> pv (wget a w') = pv (wget a w)) by (intros a _; apply (mo_program _ _ _ _ _ _ _ _ M)).
  assert (SS : exists a, wget m w' = Some (CMint (c_lp_supply s) a)) by (exists au; apply (mo_mint _ _ _ _ _ _ _ _ M); exact SU).
  pose proof (ag_x _ _ _ _ A) as AX. pose proof (ag_y _ _ _ _ A) as AY. pose proof (ag_lp _ _ _ _ A) as AL. pose proof (pf_xy _ _ _ F) as XY. pose proof (pf_xm _ _ _ F) as XM. pose proof (pf_ym _ _ _ F) as YM.
  destruct (addr_dec mt (pk_x k)) as [-> | N1]; [| destruct (addr_dec mt (pk_y k)) as [-> | N2]; [| destruct (addr_dec mt m) as [-> | N3]]].
  - assert (H0 : holder_of (Some (pk_xv k)) f fo = HUser (uid fo)) by (apply holder_user; intros a [= <-]; exact NX). pose proof (full_ge w _ (Some (pk_xv k)) f fo x I G) as GE.
    destruct (follow (c_x s) (full w (pk_x k) (Some (pk_xv k))) (holder_of (Some (pk_xv k)) f fo) (holder_of (Some (pk_xv k)) t to) n FX TX AX) as (l' & E & B); [lia |]. rewrite H0 in E.
    apply (follows_one P w m k s w' (ETransferX (uid fo) (holder_of (Some (pk_xv k)) t to) n) (mkCS (c_pool s) (c_bitmap s) (c_ticks s) (c_pos s) l' (c_y s) (c_lp s) (c_lp_supply s))); [exact HP | unfold exec; cbn [args_ok]; rewrite UN; cbn [negb]; rewrite E; reflexivity |].
    apply (agrees_tokens w); auto. + intros h. rewrite FULL, aeq_refl. apply B. + intros h. rewrite OTH by auto. auto. + intros h. rewrite LPO by auto. auto.
  - assert (H0 : holder_of (Some (pk_yv k)) f fo = HUser (uid fo)) by (apply holder_user; intros a [= <-]; exact NY). pose proof (full_ge w _ (Some (pk_yv k)) f fo x I G) as GE.
    destruct (follow (c_y s) (full w (pk_y k) (Some (pk_yv k))) (holder_of (Some (pk_yv k)) f fo) (holder_of (Some (pk_yv k)) t to) n FY TY AY) as (l' & E & B); [lia |]. rewrite H0 in E.
    apply (follows_one P w m k s w' (ETransferY (uid fo) (holder_of (Some (pk_yv k)) t to) n) (mkCS (c_pool s) (c_bitmap s) (c_ticks s) (c_pos s) (c_x s) l' (c_lp s) (c_lp_supply s))); [exact HP | unfold exec; cbn [args_ok]; rewrite UN; cbn [negb]; rewrite E; reflexivity |].
    apply (agrees_tokens w); auto. + intros h. rewrite OTH by auto. auto. + intros h. rewrite FULL, aeq_refl. apply B. + intros h. rewrite LPO by auto. auto.
  - destruct (i_lp _ CI) as [LS _]. destruct (wi_mint _ I _ _ _ SU) as (_ & LT & _). pose proof (held_ge w m f fo x I G) as GE.
    assert (TL : total (c_lp s) < U64) by lia. destruct (follow (c_lp s) (held w m None) (HUser (uid fo)) (HUser (uid to)) n FL TL AL) as (l' & E & B); [lia |].
    apply (follows_one P w m k s w' (ETransferLP (uid fo) (HUser (uid to)) n) (mkCS (c_pool s) (c_bitmap s) (c_ticks s) (c_pos s) (c_x s) (c_y s) l' (c_lp_supply s))); [exact HP | unfold exec; cbn [args_ok]; rewrite UN; cbn [negb]; rewrite E; reflexivity |].
    apply (agrees_tokens w); auto. + intros h. rewrite OTH by auto. auto. + intros h. rewrite OTH by auto. auto.
    + intros h. rewrite B. unfold held. rewrite (mo_sum _ _ _ _ _ _ _ _ M), aeq_refl. cbn [one holder_of]. unfold mv, one. rewrite !(hsym h). destruct (holder_eqb _ h), (holder_eqb _ h); lia.
  - apply follows_none. rewrite (eta_cs s). apply (agrees_tokens w); auto. + intros h. rewrite OTH by auto. auto. + intros h. rewrite OTH by auto. auto. + intros h. rewrite LPO by auto. auto.
Qed.
(** Burning by a key holder. *)
Lemma mv_back : forall a b n h, mv a b (- n) h = mv b a n h. Proof. intros a b n h. unfold mv. destruct (holder_eqb h a), (holder_eqb h b); lia. Qed.
Lemma sim_burn : forall (P : Z -> Prop) w w' m k s mt f u n, poolw w m k -> sim w m k s -> issues w w' mt f (Key u) (- n) -> 0 <= n < U64 -> P (Zpos u) -> follows P w m k s w'.
Proof.
  intros P w w' m k s mt f u n W (A & R & TX & TY) M Hn HP. pose proof (facts _ _ _ W) as F. pose proof (reached_inv _ R) as CI. destruct (i_funds _ CI) as (FX & FY & FL). destruct (is_acct _ _ _ _ _ _ M) as (x & G & Hx). pose proof (pw_inv _ _ _ W) as I.
  destruct (pf_vx _ _ _ F) as [vx VX]. destruct (pf_vy _ _ _ F) as [vy VY]. destruct (ag_supply _ _ _ _ A) as [au SU]. destruct (is_mint _ _ _ _ _ _ M) as (s0 & au0 & M1 & M2 & M3).
  assert (NX : f <> pk_xv k) by (intros ->; rewrite VX in G; discriminate G). assert (NY : f <> pk_yv k) by (intros ->; rewrite VY in G; discriminate G).
  assert (UN : is_u64 n = true) by (apply u64_ok; lia).
  assert (FULL : forall b v h, full w' b v h = full w b v h + one (addr_eqb mt b) (mv (holder_of v f (Key u)) reserve n h)) by (intros b v h; rewrite (full_issue _ _ _ _ _ _ b v h M), mv_back; reflexivity).
  assert (OTH : forall b, b <> mt -> forall v h, full w' b v h = full w b v h) by (intros b N v h; rewrite FULL, aneq by auto; rewrite one_false; lia).
  assert (LPO : m <> mt -> forall h, held w' m None h = held w m None h) by (intros N h; unfold held; rewrite (is_sum _ _ _ _ _ _ M), aneq by auto; rewrite one_false; lia).
  assert (SV : forall a, mine m a -> pv (wget a w') = pv (wget a w)) by (intros a _; apply (issues_program _ _ _ _ _ _ I M)).
  assert (SS : m <> mt -> exists a, wget m w' = Some (CMint (c_lp_supply s) a)) by (intros N; exists au; rewrite (is_other _ _ _ _ _ _ M); [exact SU | intros ->; rewrite SU in G; discriminate G | exact N]).
  pose proof (ag_x _ _ _ _ A) as AX. pose proof (ag_y _ _ _ _ A) as AY. pose proof (ag_lp _ _ _ _ A) as AL. pose proof (pf_xy _ _ _ F) as XY. pose proof (pf_xm _ _ _ F) as XM. pose proof (pf_ym _ _ _ F) as YM.
  destruct (addr_dec mt (pk_x k)) as [-> | N1]; [| destruct (addr_dec mt (pk_y k)) as [-> | N2]; [| destruct (addr_dec mt m) as [-> | N3]]].
  - assert (H0 : holder_of (Some (pk_xv k)) f (Key u) = HUser (Zpos u)) by (apply (holder_user (Some (pk_xv k)) f (Key u)); intros a [= <-]; exact NX). pose proof (full_ge w _ (Some (pk_xv k)) f (Key u) x I G) as GE.
    destruct (follow (c_x s) (full w (pk_x k) (Some (pk_xv k))) (holder_of (Some (pk_xv k)) f (Key u)) reserve n FX TX AX) as (l' & E & B); [lia |]. rewrite H0 in E.
    apply (follows_one P w m k s w' (ETransferX (Zpos u) reserve n) (mkCS (c_pool s) (c_bitmap s) (c_ticks s) (c_pos s) l' (c_y s) (c_lp s) (c_lp_supply s))); [exact HP | unfold exec; cbn [args_ok]; rewrite UN; cbn [negb]; rewrite E; reflexivity |].
    apply (agrees_tokens w); auto. + intros h. rewrite FULL, aeq_refl. apply B. + intros h. rewrite OTH by auto. auto. + intros h. rewrite LPO by auto. auto.
  - assert (H0 : holder_of (Some (pk_yv k)) f (Key u) = HUser (Zpos u)) by (apply (holder_user (Some (pk_yv k)) f (Key u)); intros a [= <-]; exact NY). pose proof (full_ge w _ (Some (pk_yv k)) f (Key u) x I G) as GE.
    destruct (follow (c_y s) (full w (pk_y k) (Some (pk_yv k))) (holder_of (Some (pk_yv k)) f (Key u)) reserve n FY TY AY) as (l' & E & B); [lia |]. rewrite H0 in E.
    apply (follows_one P w m k s w' (ETransferY (Zpos u) reserve n) (mkCS (c_pool s) (c_bitmap s) (c_ticks s) (c_pos s) (c_x s) l' (c_lp s) (c_lp_supply s))); [exact HP | unfold exec; cbn [args_ok]; rewrite UN; cbn [negb]; rewrite E; reflexivity |].
    apply (agrees_tokens w); auto. + intros h. rewrite OTH by auto. auto. + intros h. rewrite FULL, aeq_refl. apply B. + intros h. rewrite LPO by auto. auto.
  - rewrite SU in M1. injection M1 as <- <-. pose proof (held_ge w m f (Key u) x I G) as GE. cbn [uid] in GE. destruct (burn_Ok (c_lp s) (c_lp_supply s) (HUser (Zpos u)) n) as [[lp sup] E]; [rewrite AL; lia | lia |].
    destruct (burn_ok _ _ _ _ _ _ E) as (-> & _ & _ & _ & _ & B1 & B2).
    apply (follows_one P w m k s w' (EBurnLP (Zpos u) n) (mkCS (c_pool s) (c_bitmap s) (c_ticks s) (c_pos s) (c_x s) (c_y s) lp (c_lp_supply s - n))); [exact HP | unfold exec; cbn [args_ok]; rewrite UN; cbn [negb]; rewrite E; reflexivity |].
    apply (agrees_tokens w); auto. + intros h. rewrite OTH by auto. auto. + intros h. rewrite OTH by auto. auto.
    + intros h. unfold held. rewrite (is_sum _ _ _ _ _ _ M), aeq_refl. cbn [one holder_of uid]. fold (held w m None h). rewrite hsym. unfold one. destruct (holder_eqb h (HUser (Zpos u))) eqn:EH; [apply holder_eqb_eq in EH; subst h; rewrite B2, AL; reflexivity |]. rewrite B1, AL; [unfold held; cbn [holder_of]; lia |]. intros ->. rewrite holder_eqb_refl in EH. discriminate EH.
    + exists au. exact M2.
  - apply follows_none. rewrite (eta_cs s). apply (agrees_tokens w); auto. + intros h. rewrite OTH by auto. auto. + intros h. rewrite OTH by auto. auto. + intros h. rewrite LPO by auto. auto.
Qed.
(** Minting of a token that is not the pool's LP token. *)
Lemma sim_issue : forall (P : Z -> Prop) w w' m k s mt f o n, poolw w m k -> sim w m k s -> issues w w' mt f o n -> 0 <= n < U64 -> mt <> m -> P (-1) -> follows P w m k s w'.
Proof.
  intros P w w' m k s mt f o n W (A & R & TX & TY) M Hn N3 HP. pose proof (facts _ _ _ W) as F. pose proof (reached_inv _ R) as CI. destruct (i_funds _ CI) as (FX & FY & FL). destruct (is_acct _ _ _ _ _ _ M) as (x & G & Hx). pose proof (pw_inv _ _ _ W) as I.
  destruct (ag_supply _ _ _ _ A) as [au SU]. destruct (is_mint _ _ _ _ _ _ M) as (s0 & au0 & M1 & M2 & M3). assert (UN : is_u64 n = true) by (apply u64_ok; lia).
  assert (FULL : forall b v h, full w' b v h = full w b v h + one (addr_eqb mt b) (mv reserve (holder_of v f o) n h)) by (intros b v h; exact (full_issue _ _ _ _ _ _ b v h M)).
  assert (OTH : forall b, b <> mt -> forall v h, full w' b v h = full w b v h) by (intros b N v h; rewrite FULL, aneq by auto; rewrite one_false; lia).
  assert (LPO : forall h, held w' m None h = held w m None h) by (intros h; unfold held; rewrite (is_sum _ _ _ _ _ _ M), aneq by auto; rewrite one_false; lia).
  assert (SV : forall a, mine m a -> pv (wget a w') = pv (wget a w)) by (intros a _; apply (issues_program _ _ _ _ _ _ I M)).
  assert (SS : exists a, wget m w' = Some (CMint (c_lp_supply s) a)) by (exists au; rewrite (is_other _ _ _ _ _ _ M); [exact SU | intros ->; rewrite SU in G; discriminate G | auto]).
  assert (RES : forall v, 0 <= n <= full w mt v reserve). { intros v. unfold full. rewrite holder_eqb_refl. destruct (wi_mint _ I _ _ _ M1) as (E & _). change (fun _ _ : addr => true) with all. rewrite <- E. change (2 ^ 64) with U64. lia. }
  pose proof (ag_x _ _ _ _ A) as AX. pose proof (ag_y _ _ _ _ A) as AY. pose proof (ag_lp _ _ _ _ A) as AL. pose proof (pf_xy _ _ _ F) as XY.
  assert (NL : forall h, bal h (c_lp s) = held w' m None h) by (intros h; rewrite LPO; auto).
  destruct (addr_dec mt (pk_x k)) as [-> | N1]; [| destruct (addr_dec mt (pk_y k)) as [-> | N2]].
  - destruct (follow (c_x s) _ reserve (holder_of (Some (pk_xv k)) f o) n FX TX AX (RES _)) as (l' & E & B).
    apply (follows_one P w m k s w' (ETransferX (-1) (holder_of (Some (pk_xv k)) f o) n) (mkCS (c_pool s) (c_bitmap s) (c_ticks s) (c_pos s) l' (c_y s) (c_lp s) (c_lp_supply s))); [exact HP | unfold exec; cbn [args_ok]; rewrite UN; cbn [negb]; unfold reserve in E; rewrite E; reflexivity |].
    apply (agrees_tokens w); auto. + intros h. rewrite FULL, aeq_refl. apply B. + intros h. rewrite OTH by auto. auto.
  - destruct (follow (c_y s) _ reserve (holder_of (Some (pk_yv k)) f o) n FY TY AY (RES _)) as (l' & E & B).
    apply (follows_one P w m k s w' (ETransferY (-1) (holder_of (Some (pk_yv k)) f o) n) (mkCS (c_pool s) (c_bitmap s) (c_ticks s) (c_pos s) (c_x s) l' (c_lp s) (c_lp_supply s))); [exact HP | unfold exec; cbn [args_ok]; rewrite UN; cbn [negb]; unfold reserve in E; rewrite E; reflexivity |].
    apply (agrees_tokens w); auto. + intros h. rewrite OTH by auto. auto. + intros h. rewrite FULL, aeq_refl. apply B.
  - apply follows_none. rewrite (eta_cs s). apply (agrees_tokens w); auto. + intros h. rewrite OTH by auto. auto. + intros h. rewrite OTH by auto. auto.
Qed.
