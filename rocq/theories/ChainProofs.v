(** Inversion of the on-chain deposit and withdrawal, invariants of all instruction histories. *)
From Coq Require Import ZArith QArith List Bool Lia.
From Verif Require Import Base BaseLemmas DecimalModel DecimalSpec DecimalProofs WfProofs MathModel MathProofs TickProofs BitmapModel BitmapProofs PoolWf LpProofs ChainModel ChainLemmas.
Import ListNotations.
Open Scope Z_scope.

Definition fee0 : fee := mkFee 12 0 0 0 0.
Definition tnet (t : ctick) : Z := if ct_net_neg t =? 0 then ct_net t else - ct_net t.
Definition pool_shape (g : cpool) : Prop := cg_liq_scale g = 12 /\ 0 <= cg_liq g < U128 /\ cg_fee g = fee0.
Definition tick_shape (k : Z) (t : ctick) : Prop :=
  ct_tick t = k /\ ct_net_scale t = 12 /\ ct_gross_scale t = 12 /\ 0 <= ct_net t < U128 /\ 0 <= ct_gross t < U128 /\ ct_fee t = fee0.
(** The stored sign flag is only set on non-zero values. *)
Definition net_canon (t : ctick) : Prop := ct_net t = 0 -> ct_net_neg t = 0.
Definition pos_shape (k : cpkey) (p : cpos) : Prop :=
  let '(_, l, h) := k in cp_scale p = 12 /\ cp_lower p = l /\ cp_upper p = h /\ 0 <= cp_liq p < U128 /\ cp_fee p = fee0 /\ l < h.
Definition shape (s : cstate) : Prop :=
  (forall g, c_pool s = Some g -> pool_shape g) /\ (forall k t, ct_get k (c_ticks s) = Some t -> tick_shape k t /\ net_canon t) /\
  (forall k p, cp_get k (c_pos s) = Some p -> pos_shape k p) /\ (forall b, c_bitmap s = Some b -> bm_wf b).

Lemma fees_zero : forall l u c, compute_latest_fee l u c fee0 fee0 fee0 12 = Ok fee0.
Proof.
  intros l u c. unfold compute_latest_fee, c_fee_within, c_fee_below_above.
  destruct (l <=? c), (u <=? c); vm_compute; reflexivity.
Qed.

(** ** Prices *)
Definition prices (c l h p a b : Z) : Prop :=
  tick_to_rp c = Ok (d12 p) /\ tick_to_rp l = Ok (d12 a) /\ tick_to_rp h = Ok (d12 b) /\ SC <= p /\ SC <= a /\ a < b.
Lemma tick_d12 : forall t r, tick_to_rp t = Ok r -> r = d12 (dval r) /\ SC <= dval r.
Proof. intros t r H. destruct (tick_rp_wf _ _ H) as (_ & S & N & B). split; [apply d12_eta; auto | exact B]. Qed.
Lemma prices_of : forall c l h p a b, 0 <= l -> l < h -> tick_to_rp c = Ok p -> tick_to_rp l = Ok a -> tick_to_rp h = Ok b ->
  p = d12 (dval p) /\ a = d12 (dval a) /\ b = d12 (dval b) /\ prices c l h (dval p) (dval a) (dval b).
Proof.
  intros c l h p a b Hl Hh Ep Ea Eb. destruct (tick_d12 _ _ Ep) as [P1 P2]. destruct (tick_d12 _ _ Ea) as [A1 A2]. destruct (tick_d12 _ _ Eb) as [B1 B2].
  assert (h < 2 ^ 19) by (destruct (Z.lt_ge_cases h (2 ^ 19)); auto; rewrite tick_panics in Eb by auto; discriminate).
  pose proof (tick_mono l h a b Hl Hh H Ea Eb). unfold prices. csplit; auto; congruence.
Qed.
Lemma prices_fun : forall c l h p a b p' a' b', prices c l h p a b -> prices c l h p' a' b' -> p = p' /\ a = a' /\ b = b'.
Proof.
  intros c l h p a b p' a' b' (H1 & H2 & H3 & _) (H4 & H5 & H6 & _). rewrite H1 in H4. rewrite H2 in H5. rewrite H3 in H6.
  injection H4 as ->. injection H5 as ->. injection H6 as ->. auto.
Qed.

(** ** Signed decimals at scale 12 *)
Definition is12 (d : decimal) : Prop := dscale d = 12 /\ 0 <= dval d < U128 /\ canonical d.
Lemma d12_is : forall v, 0 <= v < U128 -> is12 (d12 v).
Proof. intros v H. unfold is12, canonical. cbn. csplit; auto; try lia; discriminate. Qed.
Lemma neg_is : forall d, is12 d -> is12 (d_neg d).
Proof.
  intros [v s n] (H1 & H2 & H3). unfold is12, canonical in *. cbn in *. subst. unfold d_neg, is_negative, is_positive, is_zero. cbn. destruct n; cbn.
  - rewrite (proj2 (Z.eqb_neq v 0)) by auto. cbn. csplit; auto; try lia; discriminate.
  - destruct (v =? 0) eqn:E; cbn; b2p; csplit; auto; try lia; try discriminate. 
Qed.
Lemma add_is : forall a b c, is12 a -> is12 b -> d_add a b = Ok c -> is12 c /\ mant c = mant a + mant b.
Proof.
  intros a b c (A1 & A2 & A3) (B1 & B2 & B3) H. destruct (add_m _ _ _ H) as (M & S & _). split; auto.
  assert (wf a) by (split; [exact A2 | lia]). assert (wf b) by (split; [exact B2 | lia]). pose proof (add_wf _ _ _ H H0 H1) as [W _].
  split; [congruence |]. split; [exact W |]. eapply add_canon; eauto; lia.
Qed.
Lemma is_sign : forall d, is12 d -> dneg d = false -> d = d12 (mant d) /\ 0 <= mant d < U128.
Proof. intros d (H1 & H2 & H3) N. unfold mant. rewrite N. split; auto. apply d12_eta; auto. Qed.
Lemma is_sign_v : forall d, is12 d -> dneg d = false -> dval d = mant d /\ dscale d = 12 /\ 0 <= mant d < U128.
Proof. intros d (H1 & H2 & H3) N. unfold mant. rewrite N. auto. Qed.
Lemma is_sign_t : forall d, is12 d -> dneg d = true -> mant d < 0.
Proof. intros d (H1 & H2 & H3) N. unfold mant. rewrite N. specialize (H3 N). lia. Qed.
Lemma add_is_Ok : forall a b, is12 a -> is12 b -> - U128 < mant a + mant b < U128 -> exists c, d_add a b = Ok c.
Proof.
  intros [va sa na] [vb sb nb] (A1 & A2 & A3) (B1 & B2 & B3) H. unfold mant, d_add in *. cbn in *. subst. cbn.
  destruct na, nb; cbn; try (rewrite cadd_Ok by lia; cbn; eauto).
  - destruct (vb <? va) eqn:E; b2p; [rewrite csub_Ok by lia; cbn; eauto |]. destruct (va <? vb) eqn:E1; b2p; [rewrite csub_Ok by lia; cbn; eauto | eauto].
  - destruct (vb <? va) eqn:E; b2p; [rewrite csub_Ok by lia; cbn; eauto |]. destruct (va <? vb) eqn:E1; b2p; [rewrite csub_Ok by lia; cbn; eauto | eauto].
Qed.

(** ** Tick, position and pool updates *)
Definition tick_add (k e : Z) (up : bool) (t t' : ctick) : Prop :=
  tick_shape k t' /\ tnet t' = tnet t + (if up then - e else e) /\ ct_gross t' = ct_gross t + e.
Lemma update_tick_ok : forall t k d up t', c_update_tick t k d up = Ok t' -> tick_shape k t -> net_canon t -> is12 d ->
  tick_add k (mant d) up t t' /\ net_canon t'.
Proof.
  intros t k d up t' H (S1 & S2 & S3 & S4 & S5 & S6) NC D. unfold c_update_tick in H. destruct (negb (k =? ct_tick t)); [discriminate |].
  rewrite S2, S3, !compute12 in H by auto. cbn [bind] in H. bd H net E1. bd H ng E2.
  destruct (dneg ng) eqn:NG; [discriminate |]. injection H as <-.
  assert (N1 : is12 (mkD (ct_net t) 12 (negb (ct_net_neg t =? 0)))). { split; [reflexivity |]. split; [auto |]. unfold canonical. cbn. intros N Z. apply NC in Z. rewrite Z in N. discriminate. }
  assert (D1 : is12 (if up then d_neg d else d)) by (destruct up; auto; apply neg_is; auto).
  destruct (add_is _ _ _ N1 D1 E1) as [I1 M1]. assert (G : is12 (mkD (ct_gross t) 12 false)) by (apply d12_is; auto). destruct (add_is _ _ _ G D E2) as [I2 M2].
  pose proof I1 as (J1 & J2 & J3). pose proof I2 as (K1 & K2 & K3).
  assert (MG : mant ng = dval ng) by (unfold mant; rewrite NG; auto). assert (MG0 : mant (mkD (ct_gross t) 12 false) = ct_gross t) by reflexivity.
  split; [split; [| split] |].
  - unfold tick_shape. cbn. csplit; auto; lia.
  - unfold tnet. cbn [ct_net_neg ct_net]. assert (MN : mant net = if (if dneg net then 1 else 0) =? 0 then dval net else - dval net) by (unfold mant; destruct (dneg net); reflexivity). rewrite <- MN, M1.
    f_equal; [unfold mant; cbn; destruct (ct_net_neg t =? 0); reflexivity |]. destruct up; auto. apply neg_m. destruct D as (_ & D & _). lia.
  - cbn [ct_gross]. rewrite <- MG, M2, MG0. reflexivity.
  - unfold net_canon. cbn. intros Z. destruct (dneg net) eqn:NN; auto. exfalso. apply J3; auto.
Qed.
Lemma update_tick_Ok : forall t k d (up : bool), tick_shape k t -> net_canon t -> is12 d -> 0 <= ct_gross t + mant d < U128 ->
  - U128 < tnet t + (if up then - mant d else mant d) < U128 -> exists t', c_update_tick t k d up = Ok t'.
Proof.
  intros t k d up (S1 & S2 & S3 & S4 & S5 & S6) NC D HG HN. unfold c_update_tick. rewrite S1, Z.eqb_refl. cbn [negb]. rewrite S2, S3, !compute12 by auto. cbn [bind].
  assert (N1 : is12 (mkD (ct_net t) 12 (negb (ct_net_neg t =? 0)))). { split; [reflexivity |]. split; [auto |]. unfold canonical. cbn. intros N Z. apply NC in Z. rewrite Z in N. discriminate. }
  assert (D1 : is12 (if up then d_neg d else d)) by (destruct up; auto; apply neg_is; auto).
  assert (G : is12 (mkD (ct_gross t) 12 false)) by (apply d12_is; auto).
  assert (M1 : mant (mkD (ct_net t) 12 (negb (ct_net_neg t =? 0))) = tnet t) by (unfold mant, tnet; cbn; destruct (ct_net_neg t =? 0); reflexivity).
  assert (M2 : mant (if up then d_neg d else d) = if up then - mant d else mant d) by (destruct up; auto; apply neg_m; destruct D as (_ & D & _); lia).
  destruct (add_is_Ok _ _ N1 D1 ltac:(rewrite M1, M2; auto)) as [net ->]. cbn [unwrap bind].
  destruct (add_is_Ok _ _ G D) as [ng E]; [change (mant (mkD (ct_gross t) 12 false)) with (ct_gross t); lia |]. rewrite E. cbn [unwrap bind].
  destruct (add_is _ _ _ G D E) as [I M]. change (mant (mkD (ct_gross t) 12 false)) with (ct_gross t) in M.
  destruct (dneg ng) eqn:NG; [| eauto]. pose proof (is_sign_t _ I NG). lia.
Qed.

Lemma update_position_ok : forall k ps lt ut d l h nf ps' lt' ut', c_update_position ps lt ut d l h nf = Ok (ps', lt', ut') -> pos_shape k ps -> is12 d ->
  ps' = mkCPos (cp_liq ps + mant d) 12 (cp_lower ps) (cp_upper ps) nf /\ 0 <= cp_liq ps + mant d < U128 /\
  c_update_tick lt l d false = Ok lt' /\ c_update_tick ut h d true = Ok ut'.
Proof.
  intros [[u kl] kh] ps lt ut d l h nf ps' lt' ut' H (S1 & S2 & S3 & S4 & S5 & S6) D. unfold c_update_position in H. rewrite S1, compute12 in H by auto. cbn [bind] in H.
  bd H nl E. destruct (dneg nl) eqn:N; [discriminate |]. bd H a E1. bd H b E2. injection H as <- <- <-.
  assert (G : is12 (mkD (cp_liq ps) 12 false)) by (apply d12_is; auto). destruct (add_is _ _ _ G D E) as [I M]. destruct (is_sign_v _ I N) as (V & S & B).
  change (mant (mkD (cp_liq ps) 12 false)) with (cp_liq ps) in M. rewrite V, S, M in *. csplit; auto; lia.
Qed.
Lemma update_position_Ok : forall k ps lt ut d l h nf lt' ut', pos_shape k ps -> is12 d -> 0 <= cp_liq ps + mant d < U128 ->
  c_update_tick lt l d false = Ok lt' -> c_update_tick ut h d true = Ok ut' ->
  exists ps', c_update_position ps lt ut d l h nf = Ok (ps', lt', ut').
Proof.
  intros [[u kl] kh] ps lt ut d l h nf lt' ut' (S1 & S2 & S3 & S4 & S5 & S6) D B E1 E2. unfold c_update_position. rewrite S1, compute12 by auto. cbn [bind].
  assert (G : is12 (mkD (cp_liq ps) 12 false)) by (apply d12_is; auto). destruct (add_is_Ok _ _ G D) as [nl E]; [change (mant (mkD (cp_liq ps) 12 false)) with (cp_liq ps); lia |].
  rewrite E. cbn [unwrap bind]. destruct (add_is _ _ _ G D E) as [I M]. change (mant (mkD (cp_liq ps) 12 false)) with (cp_liq ps) in M.
  destruct (dneg nl) eqn:N; [pose proof (is_sign_t _ I N); lia |]. rewrite E1, E2. cbn. eauto.
Qed.

Definition active (l h c : Z) : bool := (l <=? c) && (c <? h).
Lemma update_global_ok : forall g l h c d g', c_update_global g l h c d = Ok g' -> pool_shape g -> is12 d ->
  cg_rp g' = cg_rp g /\ cg_tick g' = cg_tick g /\ pool_shape g' /\ cg_liq g' = cg_liq g + (if active l h c then mant d else 0).
Proof.
  intros g l h c d g' H (S1 & S2 & S3) D. unfold c_update_global in H. unfold active. destruct ((l <=? c) && (c <? h)).
  - bd H n E. destruct (dneg n) eqn:N; [discriminate |]. injection H as <-. rewrite S1 in E. assert (G : is12 (mkD (cg_liq g) 12 false)) by (apply d12_is; auto).
    destruct (add_is _ _ _ G D E) as [I M]. destruct (is_sign_v _ I N) as (V & S & B). change (mant (mkD (cg_liq g) 12 false)) with (cg_liq g) in M. unfold pool_shape. cbn. rewrite V, S, M in *. csplit; auto; lia.
  - injection H as <-. unfold pool_shape. csplit; auto; lia.
Qed.
Lemma update_global_Ok : forall g l h c d, pool_shape g -> is12 d -> 0 <= cg_liq g + (if active l h c then mant d else 0) < U128 ->
  exists g', c_update_global g l h c d = Ok g'.
Proof.
  intros g l h c d (S1 & S2 & S3) D B. unfold c_update_global. unfold active in B. destruct ((l <=? c) && (c <? h)); [| eauto].
  assert (G : is12 (mkD (cg_liq g) 12 false)) by (apply d12_is; auto). rewrite S1. destruct (add_is_Ok _ _ G D) as [n E]; [change (mant (mkD (cg_liq g) 12 false)) with (cg_liq g); lia |].
  rewrite E. cbn [unwrap bind]. destruct (add_is _ _ _ G D E) as [I M]. change (mant (mkD (cg_liq g) 12 false)) with (cg_liq g) in M.
  destruct (dneg n) eqn:N; [pose proof (is_sign_t _ I N); lia |]. eauto.
Qed.

(** ** Deposit and withdrawal *)
(** Effect common to both: [e] is the liquidity change in 10^-12, [c] the current tick. *)
Definition moved (s : cstate) (u l h c e : Z) (bm' : bitmap) (lx ly lp : ledger) (sup : Z) (s' : cstate) : Prop :=
  exists g bm ps lt ut cur g' ps' lt' ut',
    c_pool s = Some g /\ c_bitmap s = Some bm /\ cp_get (u, l, h) (c_pos s) = Some ps /\
    ct_get l (c_ticks s) = Some lt /\ ct_get h (c_ticks s) = Some ut /\ ct_get c (c_ticks s) = Some cur /\ l < h /\ cg_tick g = c /\
    (cg_rp g' = cg_rp g /\ cg_tick g' = c /\ pool_shape g' /\ cg_liq g' = cg_liq g + (if active l h c then e else 0)) /\
    ps' = mkCPos (cp_liq ps + e) 12 l h fee0 /\ 0 <= cp_liq ps + e < U128 /\
    (tick_add l e false lt lt' /\ net_canon lt') /\ (tick_add h e true ut ut' /\ net_canon ut') /\
    s' = write_back s g' bm' (u, l, h) ps' l h c lt' ut' cur lx ly lp sup.

Lemma load_ok : forall s u l h c g bm ps lt ut cur, load_accounts s u l h c = Ok (g, bm, ps, lt, ut, cur) ->
  c_pool s = Some g /\ c_bitmap s = Some bm /\ cp_get (u, l, h) (c_pos s) = Some ps /\
  ct_get l (c_ticks s) = Some lt /\ ct_get h (c_ticks s) = Some ut /\ ct_get c (c_ticks s) = Some cur /\ l < h /\ cg_tick g = c.
Proof.
  intros s u l h c g bm ps lt ut cur H. unfold load_accounts in H.
  destruct (c_pool s); [| discriminate]. destruct (c_bitmap s); [| discriminate]. destruct (cp_get _ _); [| discriminate].
  destruct (ct_get l _); [| discriminate]. destruct (ct_get h _); [| discriminate]. destruct (ct_get c _); [| discriminate].
  destruct (_ && _) eqn:E; [| discriminate]. injection H as <- <- <- <- <- <-. b2p. csplit; auto. congruence.
Qed.
Lemma load_Ok : forall s u l h c g bm ps lt ut cur, shape s -> c_pool s = Some g -> c_bitmap s = Some bm -> cp_get (u, l, h) (c_pos s) = Some ps ->
  ct_get l (c_ticks s) = Some lt -> ct_get h (c_ticks s) = Some ut -> ct_get c (c_ticks s) = Some cur -> cg_tick g = c ->
  load_accounts s u l h c = Ok (g, bm, ps, lt, ut, cur).
Proof.
  intros s u l h c g bm ps lt ut cur (_ & ST & SP & _) H1 H2 H3 H4 H5 H6 H7. unfold load_accounts. rewrite H1, H2, H3, H4, H5, H6.
  destruct (SP _ _ H3) as (P1 & P2 & P3 & P4 & P5 & P6). destruct (ST _ _ H4) as [(T1 & _) _]. destruct (ST _ _ H5) as [(T2 & _) _]. destruct (ST _ _ H6) as [(T3 & _) _].
  rewrite T1, T2, T3, P2, P3, H7, !Z.eqb_refl, (proj2 (Z.ltb_lt _ _) P6). reflexivity.
Qed.

Lemma in0 : in_range 0. Proof. unfold in_range. lia. Qed.
Lemma in40000 : in_range 40000. Proof. unfold in_range. lia. Qed.
Lemma act_if : forall b m t m', bm_wf m -> in_range t -> (if b : bool then activate_tick m t else Ok m) = Ok m' ->
  bm_wf m' /\ forall k, in_range k -> mem m' k = (b && (k =? t)) || mem m k.
Proof.
  intros [] m t m' W R H; [| injection H as <-; split; auto]. destruct (activate_spec m t W R) as (m1 & E & W1 & M). rewrite E in H. injection H as <-. split; auto.
Qed.

(** The zero fee never changes an amount. *)
Lemma fee_part : forall v, wadd (fe_fx fee0) (fe_hx fee0) = 0 /\ wadd (fe_fy fee0) (fe_hy fee0) = 0 /\ to_scale (mkD 0 12 false) (dscale (d12 v)) = Ok (mkD 0 12 false).
Proof. intros v. csplit; reflexivity. Qed.

Definition dep_eff (s : cstate) (u l h c xa ya : Z) (to : holder) (s' : cstate) : Prop :=
  exists p a b d lx ly lp bm bm' lt ut,
    prices c l h p a b /\ 0 <= d < U128 /\ liq_from_x_y_rp_rng (d12 (xa * SC)) (d12 (ya * SC)) (d12 p) (d12 a) (d12 b) = Ok (d12 d) /\
    (exists vx vy, x_from_l_rp_rng (d12 d) (d12 p) (d12 a) (d12 b) = Ok vx /\ y_from_l_rp_rng (d12 d) (d12 p) (d12 a) (d12 b) = Ok vy) /\
    0 <= whole_x p a b d <= xa /\ 0 <= whole_y p a b d <= ya /\
    spl_mint (c_lp s) (c_lp_supply s) to (d / SC) = Ok (lp, c_lp_supply s + d / SC) /\
    spl_transfer (c_x s) (HUser u) HVault (whole_x p a b d) = Ok lx /\ spl_transfer (c_y s) (HUser u) HVault (whole_y p a b d) = Ok ly /\
    (c_bitmap s = Some bm /\ ct_get l (c_ticks s) = Some lt /\ ct_get h (c_ticks s) = Some ut /\ bm_wf bm' /\
      forall k, in_range k -> mem bm' k = ((ct_gross ut =? 0) && (k =? 40000)) || (((ct_gross lt =? 0) && (k =? 0)) || mem bm k)) /\
    moved s u l h c d bm' lx ly lp (c_lp_supply s + d / SC) s'.

Lemma deposit_eff : forall s u l h c xa ya to s', shape s -> 0 <= l -> 0 <= xa < U64 -> 0 <= ya < U64 ->
  i_deposit s u l h c xa ya to = Ok s' -> dep_eff s u l h c xa ya to s'.
Proof.
  intros s u l h c xa ya to s' SH Hl Hx Hy H. pose proof SH as (SG & ST & SP & SB). pose proof SCpos as SCp. unfold i_deposit in H. bd H acc E0. destruct acc as [[[[[g bm] ps] lt] ut] cur].
  destruct (load_ok _ _ _ _ _ _ _ _ _ _ _ E0) as (L1 & L2 & L3 & L4 & L5 & L6 & L7 & L8).
  pose proof (SG _ L1) as PG. pose proof (SP _ _ L3) as PP. destruct (ST _ _ L4) as [PL NL]. destruct (ST _ _ L5) as [PU NU]. pose proof (SB _ L2) as WB.
  rewrite !from_u64_Ok in H by auto. cbn [bind] in H.
  bd H ra E1. bd H rb E2. bd H rp E3. destruct (prices_of c l h rp ra rb Hl L7 E3 E1 E2) as (Q1 & Q2 & Q3 & PR).
  generalize dependent (dval rp). intros p Q1 PR. generalize dependent (dval ra). intros a Q2 PR. generalize dependent (dval rb). intros b Q3 PR. subst rp ra rb.
  pose proof PR as (_ & _ & _ & B1 & B2 & B3).
  assert (NN : forall v, 0 <= v < U128 -> nonneg (d12 v)) by (intros v Hv; repeat split; cbn; try lia; apply Hv).
  assert (SMALL : forall n, 0 <= n < U64 -> 0 <= n * SC < U128) by (intros n Hn; change SC with 1000000000000; change U64 with 18446744073709551616 in Hn; change U128 with 340282366920938463463374607431768211456; lia).
  bd H dd E4.
  assert (Wp : nonneg (d12 p)) by (destruct (tick_rp_wf _ _ E3) as (W & _ & N & _); split; auto).
  assert (Wa : nonneg (d12 a)) by (destruct (tick_rp_wf _ _ E1) as (W & _ & N & _); split; auto).
  assert (Wb : nonneg (d12 b)) by (destruct (tick_rp_wf _ _ E2) as (W & _ & N & _); split; auto).
  pose proof (liq_spec _ _ _ _ _ _ (NN _ (SMALL _ Hx)) (NN _ (SMALL _ Hy)) Wp Wa Wb E4) as (ND & _ & _ & _ & SD).
  assert (D12 : dd = d12 (dval dd)) by (apply d12_eta; [destruct SD as [(_ & S & _) | [(_ & S & _) | (_ & S & _)]]; exact S | apply ND]).
  assert (BD : 0 <= dval dd < U128) by apply ND. set (d := dval dd) in *. clearbody d. subst dd. clear ND SD.
  cbn [d12 dneg] in H. change (mkD d 12 false) with (d12 d) in H.
  bd H bm1 E5. bd H bm' E6. destruct (act_if _ _ _ _ WB in0 E5) as [W1 M1]. destruct (act_if _ _ _ _ W1 in40000 E6) as [W2 M2].
  bd H vx E7. bd H vy E8. destruct (x12_ok d p a b vx ltac:(lia) B1 B2 ltac:(lia) E7) as (X1 & X2 & X3). destruct (y12_ok d p a b vy ltac:(lia) B1 B2 ltac:(lia) E8) as (Y1 & Y2 & Y3).
  set (x := dval vx) in *. set (y := dval vy) in *. clearbody x y. subst vx vy.
  destruct PG as (G1 & G2 & G3). destruct PP as (P1 & P2 & P3 & P4 & P5 & P6). rewrite G3, P5, (proj2 (proj2 (proj2 (proj2 (proj2 PL))))), (proj2 (proj2 (proj2 (proj2 (proj2 PU))))) in H. cbn [fe_scale fee0] in H. change (mkFee 12 0 0 0 0) with fee0 in H. rewrite fees_zero in H. cbn [bind] in H.
  bd H upd E9. destruct upd as [[ps' lt'] ut']. pose proof (d12_is d BD) as ID.
  destruct (update_position_ok (u, l, h) _ _ _ _ _ _ _ _ _ _ E9 ltac:(repeat split; auto; lia) ID) as (U1 & U2 & U3 & U4).
  bd H g' E10. destruct (update_global_ok _ _ _ _ _ _ E10 ltac:(repeat split; auto; lia) ID) as (V1 & V2 & V3 & V4).
  destruct (update_tick_ok _ _ _ _ _ U3 PL NL ID) as [T1 T2]. destruct (update_tick_ok _ _ _ _ _ U4 PU NU ID) as [T3 T4].
  change (mant (d12 d)) with d in *.
  destruct (fee_part x) as (F1 & F2 & F3). rewrite F1, F2 in H. cbn [fe_scale fee0] in H. rewrite F3 in H. destruct (fee_part y) as (_ & _ & F4). rewrite F4 in H. cbn [bind] in H.
  bd H xd E11. apply sub_zero12 in E11; [| lia]. subst xd. bd H yd E12. apply sub_zero12 in E12; [| lia]. subst yd.
  bd H qx E13. destruct qx; [discriminate H |]. bd H qy E14. destruct qy; [discriminate H |].
  apply gt_m in E13; [| cbn; lia | cbn; pose proof (SMALL _ Hx); lia]. apply gt_m in E14; [| cbn; lia | cbn; pose proof (SMALL _ Hy); lia].
  assert (x <= xa * SC). { destruct E13 as (_ & _ & G & _). exact (G eq_refl). }
  assert (y <= ya * SC). { destruct E14 as (_ & _ & G & _). exact (G eq_refl). }
  bd H n E15. rewrite abs12 in E15. destruct (d / SC <? U64); [| discriminate E15]. injection E15 as <-.
  bd H mint E16. destruct mint as [lp sup]. destruct (mint_ok _ _ _ _ _ _ E16) as (-> & _).
  bd H ax E17. rewrite abs12 in E17. destruct (x / SC <? U64); [| discriminate E17]. injection E17 as <-. rewrite X3 in H. bd H lx E18.
  bd H ay E19. rewrite abs12 in E19. destruct (y / SC <? U64); [| discriminate E19]. injection E19 as <-. rewrite Y3 in H. bd H ly E20. injection H as <-.
  pose proof (whole_nn p a b d ltac:(lia) B2 ltac:(lia)) as [NX NY].
  exists p, a, b, d, lx, ly, lp, bm, bm', lt, ut. split; [exact PR |]. split; [exact BD |]. split; [exact E4 |]. split; [eauto |].
  split. { split; auto. rewrite <- X3. apply Z.div_le_upper_bound; lia. }
  split. { split; auto. rewrite <- Y3. apply Z.div_le_upper_bound; lia. }
  split; [exact E16 |]. split; [exact E18 |]. split; [exact E20 |].
  split. { csplit; auto. intros k Hk. rewrite M2, M1 by auto. reflexivity. }
  exists g, bm, ps, lt, ut, cur, g', ps', lt', ut'. csplit; auto; try lia; try congruence; try apply T1; try apply T3; try apply V3. all: try (rewrite U1, P2, P3; reflexivity); try tauto.
Qed.

Definition wd_eff (s : cstate) (u l h c n : Z) (s' : cstate) : Prop :=
  exists p a b lx ly lp bm bm',
    prices c l h p a b /\ 0 <= whole_x p a b (n * SC) /\ 0 <= whole_y p a b (n * SC) /\
    spl_burn (c_lp s) (c_lp_supply s) (HUser u) n = Ok (lp, c_lp_supply s - n) /\
    spl_transfer (c_x s) HVault (HUser u) (whole_x p a b (n * SC)) = Ok lx /\ spl_transfer (c_y s) HVault (HUser u) (whole_y p a b (n * SC)) = Ok ly /\
    (c_bitmap s = Some bm /\ bm_wf bm' /\ forall k, in_range k -> mem bm' k = negb (k =? 40000) && (negb (k =? 0) && mem bm k)) /\
    moved s u l h c (- (n * SC)) bm' lx ly lp (c_lp_supply s - n) s'.

Lemma neg12 : forall v, 0 <= v -> d_neg (d_neg (d12 v)) = d12 v /\ mant (d_neg (d12 v)) = - v.
Proof.
  intros v H. unfold d_neg, is_negative, is_positive, is_zero, d12, mant. cbn. destruct (v =? 0) eqn:E; cbn; rewrite ?E; cbn; b2p; split; auto; lia.
Qed.
Lemma unset_ok : forall m t m', bm_wf m -> in_range t -> BitmapModel.unset_tick m t = Ok m' -> bm_wf m' /\ forall k, in_range k -> mem m' k = negb (k =? t) && mem m k.
Proof. intros m t m' W R H. destruct (unset_spec m t W R) as (m1 & E & W1 & M). rewrite E in H. injection H as <-. auto. Qed.

Lemma withdraw_eff : forall s u l h c n s', shape s -> 0 <= l -> 0 <= n < U64 ->
  i_withdraw s u l h c n = Ok s' -> wd_eff s u l h c n s'.
Proof.
  intros s u l h c n s' SH Hl Hn H. pose proof SH as (SG & ST & SP & SB). pose proof SCpos as SCp. unfold i_withdraw in H. bd H acc E0. destruct acc as [[[[[g bm] ps] lt] ut] cur].
  destruct (load_ok _ _ _ _ _ _ _ _ _ _ _ E0) as (L1 & L2 & L3 & L4 & L5 & L6 & L7 & L8).
  pose proof (SG _ L1) as PG. pose proof (SP _ _ L3) as PP. destruct (ST _ _ L4) as [PL NL]. destruct (ST _ _ L5) as [PU NU]. pose proof (SB _ L2) as WB.
  assert (BD : 0 <= n * SC < U128) by (change SC with 1000000000000; change U64 with 18446744073709551616 in Hn; change U128 with 340282366920938463463374607431768211456; lia).
  rewrite !from_u64_Ok in H by auto. cbn [bind] in H. cbv zeta in H. destruct (neg12 (n * SC) ltac:(lia)) as [N1 N2]. rewrite N1 in H.
  bd H ra E1. bd H rb E2. bd H rp E3. destruct (prices_of c l h rp ra rb Hl L7 E3 E1 E2) as (Q1 & Q2 & Q3 & PR).
  generalize dependent (dval rp). intros p Q1 PR. generalize dependent (dval ra). intros a Q2 PR. generalize dependent (dval rb). intros b Q3 PR. subst rp ra rb.
  pose proof PR as (_ & _ & _ & B1 & B2 & B3). set (d := n * SC) in *. 
  destruct PG as (G1 & G2 & G3). destruct PP as (P1 & P2 & P3 & P4 & P5 & P6). rewrite G3, P5, (proj2 (proj2 (proj2 (proj2 (proj2 PL))))), (proj2 (proj2 (proj2 (proj2 (proj2 PU))))) in H. cbn [fe_scale fee0] in H. change (mkFee 12 0 0 0 0) with fee0 in H. rewrite fees_zero in H. cbn [bind] in H.
  bd H upd E9. destruct upd as [[ps' lt'] ut']. pose proof (neg_is _ (d12_is d BD)) as ID.
  destruct (update_position_ok (u, l, h) _ _ _ _ _ _ _ _ _ _ E9 ltac:(repeat split; auto; lia) ID) as (U1 & U2 & U3 & U4).
  bd H bm1 E5. bd H bm' E6. destruct (unset_ok _ _ _ WB in0 E5) as [W1 M1]. destruct (unset_ok _ _ _ W1 in40000 E6) as [W2 M2].
  bd H g' E10. destruct (update_global_ok _ _ _ _ _ _ E10 ltac:(repeat split; auto; lia) ID) as (V1 & V2 & V3 & V4).
  destruct (update_tick_ok _ _ _ _ _ U3 PL NL ID) as [T1 T2]. destruct (update_tick_ok _ _ _ _ _ U4 PU NU ID) as [T3 T4].
  rewrite N2 in *.
  bd H vx E7. bd H vy E8. destruct (x12_ok d p a b vx ltac:(lia) B1 B2 ltac:(lia) E7) as (X1 & X2 & X3). destruct (y12_ok d p a b vy ltac:(lia) B1 B2 ltac:(lia) E8) as (Y1 & Y2 & Y3).
  set (x := dval vx) in *. set (y := dval vy) in *. clearbody x y. subst vx vy.
  destruct (fee_part x) as (F1 & F2 & F3). rewrite F1, F2 in H. cbn [fe_scale fee0] in H. rewrite F3 in H. destruct (fee_part y) as (_ & _ & F4). rewrite F4 in H. cbn [bind] in H.
  rewrite !add_zero12 in H by auto. cbn [unwrap bind] in H.
  bd H mint E16. destruct mint as [lp sup]. destruct (burn_ok _ _ _ _ _ _ E16) as (-> & _).
  bd H ax E17. rewrite abs12 in E17. destruct (x / SC <? U64); [| discriminate E17]. injection E17 as <-. rewrite X3 in H. bd H lx E18.
  bd H ay E19. rewrite abs12 in E19. destruct (y / SC <? U64); [| discriminate E19]. injection E19 as <-. rewrite Y3 in H. bd H ly E20. injection H as <-.
  pose proof (whole_nn p a b d ltac:(lia) B2 ltac:(lia)) as [NX NY].
  exists p, a, b, lx, ly, lp, bm, bm'. split; [exact PR |]. split; [exact NX |]. split; [exact NY |].
  split; [exact E16 |]. split; [exact E18 |]. split; [exact E20 |].
  split. { csplit; auto. intros k Hk. rewrite M2, M1 by auto. reflexivity. }
  exists g, bm, ps, lt, ut, cur, g', ps', lt', ut'. csplit; auto; try lia; try congruence; try apply T1; try apply T3; try apply V3. all: try (rewrite U1, P2, P3; reflexivity); try tauto.
Qed.

(** When a withdrawal succeeds. *)
Lemma withdraw_Ok : forall s u l h c n g bm ps lt ut cur p a b vx vy, shape s -> 0 <= l -> 0 <= n < U64 ->
  c_pool s = Some g -> c_bitmap s = Some bm -> cp_get (u, l, h) (c_pos s) = Some ps ->
  ct_get l (c_ticks s) = Some lt -> ct_get h (c_ticks s) = Some ut -> ct_get c (c_ticks s) = Some cur -> cg_tick g = c ->
  prices c l h p a b -> x_from_l_rp_rng (d12 (n * SC)) (d12 p) (d12 a) (d12 b) = Ok vx -> y_from_l_rp_rng (d12 (n * SC)) (d12 p) (d12 a) (d12 b) = Ok vy ->
  n * SC <= cp_liq ps -> n * SC <= ct_gross lt -> n * SC <= ct_gross ut -> - U128 < tnet lt - n * SC -> tnet ut + n * SC < U128 ->
  (active l h c = true -> n * SC <= cg_liq g) ->
  n <= bal (HUser u) (c_lp s) -> n <= c_lp_supply s ->
  whole_x p a b (n * SC) <= bal HVault (c_x s) -> bal (HUser u) (c_x s) + whole_x p a b (n * SC) < U64 ->
  whole_y p a b (n * SC) <= bal HVault (c_y s) -> bal (HUser u) (c_y s) + whole_y p a b (n * SC) < U64 ->
  0 <= bal (HUser u) (c_x s) -> 0 <= bal (HUser u) (c_y s) ->
  exists s', i_withdraw s u l h c n = Ok s'.
Proof.
  intros s u l h c n g bm ps lt ut cur p a b vx vy SH Hl Hn A1 A2 A3 A4 A5 A6 A7 PR EX EY C1 C2 C3 C4 C5 C6 C7 C8 X1 X2 Y1 Y2 NX NY.
  pose proof SH as (SG & ST & SP & SB). pose proof SCpos as SCp. pose proof PR as (Rp & Ra & Rb & B1 & B2 & B3).
  pose proof (SG _ A1) as PG. pose proof (SP _ _ A3) as PP. destruct (ST _ _ A4) as [PL NL]. destruct (ST _ _ A5) as [PU NU]. pose proof (SB _ A2) as WB.
  assert (BD : 0 <= n * SC < U128) by (change SC with 1000000000000; change U64 with 18446744073709551616 in Hn; change U128 with 340282366920938463463374607431768211456; lia).
  unfold i_withdraw. rewrite (load_Ok s u l h c g bm ps lt ut cur SH A1 A2 A3 A4 A5 A6 A7). cbn [bind]. rewrite from_u64_Ok by auto. cbn [bind]. cbv zeta.
  destruct (neg12 (n * SC) ltac:(lia)) as [N1 N2]. rewrite N1. rewrite Rp, Ra, Rb. cbn [bind]. pose proof (neg_is _ (d12_is _ BD)) as ID.
  destruct PG as (G1 & G2 & G3). destruct PP as (P1 & P2 & P3 & P4 & P5 & P6). rewrite G3, P5, (proj2 (proj2 (proj2 (proj2 (proj2 PL))))), (proj2 (proj2 (proj2 (proj2 (proj2 PU))))). cbn [fe_scale fee0]. change (mkFee 12 0 0 0 0) with fee0. rewrite fees_zero. cbn [bind].
  assert (GL : ct_gross lt < U128) by (destruct PL as (_ & _ & _ & _ & PL & _); lia). assert (GU : ct_gross ut < U128) by (destruct PU as (_ & _ & _ & _ & PU & _); lia).
  assert (TL : tnet lt < U128) by (destruct PL as (_ & _ & _ & PL & _); unfold tnet; destruct (_ =? _); lia). assert (TU : - U128 < tnet ut) by (destruct PU as (_ & _ & _ & PU & _); unfold tnet; destruct (_ =? _); lia).
  destruct (update_tick_Ok lt l (d_neg (d12 (n * SC))) false PL NL ID ltac:(rewrite N2; lia) ltac:(rewrite N2; lia)) as [lt' E1].
  destruct (update_tick_Ok ut h (d_neg (d12 (n * SC))) true PU NU ID ltac:(rewrite N2; lia) ltac:(rewrite N2; lia)) as [ut' E2].
  destruct (update_position_Ok (u, l, h) ps lt ut (d_neg (d12 (n * SC))) l h fee0 lt' ut' ltac:(repeat split; auto; lia) ID ltac:(rewrite N2; lia) E1 E2) as [ps' E3]. rewrite E3. cbn [unwrap bind].
  destruct (unset_spec bm 0 WB in0) as (bm1 & E4 & W1 & _). rewrite E4. cbn [bind]. destruct (unset_spec bm1 40000 W1 in40000) as (bm2 & E5 & _). rewrite E5. cbn [bind].
  destruct (update_global_Ok g l h c (d_neg (d12 (n * SC))) ltac:(repeat split; auto; lia) ID) as [g' E6]. { rewrite N2. destruct (active l h c); [specialize (C6 eq_refl) |]; lia. }
  rewrite E6. cbn [bind]. rewrite EX, EY. cbn [bind].
  destruct (x12_ok _ p a b vx (proj1 BD) B1 B2 ltac:(lia) EX) as (X3 & X4 & X5). destruct (y12_ok _ p a b vy (proj1 BD) B1 B2 ltac:(lia) EY) as (Y3 & Y4 & Y5).
  set (x := dval vx) in *. set (y := dval vy) in *. clearbody x y. subst vx vy.
  destruct (fee_part x) as (F1 & F2 & F3). rewrite F1, F2. cbn [fe_scale fee0]. rewrite F3. destruct (fee_part y) as (_ & _ & F4). rewrite F4. cbn [bind].
  rewrite !add_zero12 by auto. cbn [unwrap bind]. destruct (burn_Ok (c_lp s) (c_lp_supply s) (HUser u) n C7 C8) as [[lp sup] E7]. rewrite E7. cbn [bind].
  rewrite !abs12, X5, Y5. pose proof (whole_nn p a b (n * SC) ltac:(lia) B2 ltac:(lia)) as [WX WY].
  rewrite (proj2 (Z.ltb_lt (whole_x p a b (n * SC)) U64)) by lia. cbn [bind]. destruct (transfer_Ok (c_x s) HVault (HUser u) _ ltac:(discriminate) X1 X2) as [lx ->]. cbn [bind].
  rewrite (proj2 (Z.ltb_lt (whole_y p a b (n * SC)) U64)) by lia. cbn [bind]. destruct (transfer_Ok (c_y s) HVault (HUser u) _ ltac:(discriminate) Y1 Y2) as [ly ->]. cbn [bind]. eauto.
Qed.
