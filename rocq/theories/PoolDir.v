(** Availability of the next-tick lookup in both directions (C34). *)
From Coq Require Import ZArith Lia List Bool String QArith.QArith Sorted Lqa.
From Verif Require Import Base BaseLemmas DecimalModel DecimalSpec DecimalProofs WfProofs MathModel TickLoop MathProofs PoolModel PoolWf SwapLoop SwapProofs LpProofs PoolInv PoolRange TickProofs.
Import ListNotations.
Open Scope Z_scope.

(** ** The current tick stays small *)
Definition low_tick (p : pool) : Prop := glbl_tick p < 2 ^ 22.
Lemma mv_x_low : forall orc dx ro a b, wf dx -> wf ro -> inv_x a -> mv_x orc dx ro a b -> low_tick (fst b).
Proof.
  intros orc dx ro a b Wd Wo (I1 & I2 & I3 & I4) M. inversion M as [p s tk rp p' H1 H2 H3 H4 H5 | p s f gtk p' s' H1 H2 H3 H4 H5]; subst; cbn [fst snd] in *; unfold low_tick.
  - destruct (gap_x_wf _ _ _ _ I1 H2 H4 H5) as (_ & _ & G3 & _). pose proof (tick_small _ _ H4). lia.
  - destruct (find_left _ _ _ H4) as [K1 K2]. pose proof (key_nn _ _ I1 K1) as G0. destruct (step_x_facts _ _ _ _ _ _ _ _ H5 I1 I2 Wd Wo K1) as (w & p1 & (rest & Q1 & Q2 & Q3) & F2 & F3 & F4 & F5 & F6 & F7 & F8).
    destruct (within_x_facts _ _ _ _ _ _ _ _ Q3 I1 (srp_wf _ I2) (liq_wf _ I1) Q2 Wo G0) as (rpg & cp & X1 & X2 & X3 & X4 & X5 & X6 & X7 & X8 & X9 & X10 & X11 & X12 & X13 & X14 & X15 & X16).
    pose proof (tick_small _ _ X1) as S. destruct (w_cross w).
    + destruct F8 as [_ F8]. destruct (cross_tick_to _ _ _ F8 G0 (proj1 F5)) as (_ & C & _). lia.
    + subst p1. destruct X16 as (_ & _ & _ & Y4 & Y5). destruct F3 as (nx & y1 & ny & nya & nxf & fx & hy & _ & _ & _ & _ & _ & _ & _ & ->). unfold glbl_tick; cbn [gs g_tick].
      pose proof (search_short (w_rp w) false (gtk - 1) (w_tick w) (proj1 (proj2 (proj2 X4))) ltac:(lia) Y5). lia.
Qed.
Lemma mv_y_low : forall orc dx ro a b, wf dx -> wf ro -> inv_y a -> mv_y orc dx ro a b -> low_tick (fst b).
Proof.
  intros orc dx ro a b Wd Wo (I1 & I2 & I3 & I4) M. inversion M as [p s tk rp p' H1 H2 H3 H4 H5 | p s gtk p' s' H1 H2 H3 H4 H5]; subst; cbn [fst snd] in *; unfold low_tick.
  - destruct (gap_y_wf _ _ _ _ I1 H2 H4 H5) as (_ & _ & -> & _). pose proof (tick_small _ _ H4). lia.
  - destruct (find_right _ _ _ H4) as [K1 K2]. pose proof (key_nn _ _ I1 K1) as G0. destruct (step_y_facts _ _ _ _ _ _ _ _ H5 I1 I2 Wd Wo K1) as (w & p1 & (rest & Q1 & Q2 & Q3) & F2 & F3 & F4 & F5 & F6 & F7 & F8).
    destruct (within_y_facts _ _ _ _ _ _ _ _ Q3 I1 (srp_wf _ I2) (liq_wf _ I1) Q2 Wo G0) as (rpg & cp & X1 & X2 & X3 & X4 & X5 & X6 & X7 & X8 & X9 & X10 & X11 & X12 & X13 & X14 & X15 & X16).
    pose proof (tick_small _ _ X1) as S. destruct (w_cross w).
    + destruct F8 as [_ F8]. destruct (cross_tick_to_r _ _ _ F8) as (-> & _). lia.
    + subst p1. destruct X16 as (_ & _ & _ & Y3 & Y4 & Y5). destruct F3 as (nx & y1 & ny & nya & nxf & fx & hy & _ & _ & _ & _ & _ & _ & _ & ->). unfold glbl_tick at 1; cbn [gs g_tick].
      assert (A0 : 0 <= (glbl_tick p - 1) / spacing p * spacing p) by (apply Z.mul_nonneg_nonneg; [apply Z.div_pos; lia | lia]).
      pose proof (search_short (w_rp w) false _ (w_tick w) (proj1 (proj2 (proj2 X4))) A0 Y5). lia.
Qed.
Theorem tick_bounded : forall orc p, reachable orc p -> 0 <= glbl_tick p < 2 ^ 22.
Proof.
  intros orc p H. split. { apply reachable_ticks in H. apply H. }
  induction H as [rp sp c rate p W1 W2 W3 Hs H | p c p' Hr IH C H].
  - destruct (pool_new_wf _ _ _ _ _ H W1 W2 W3 Hs) as (W & _ & _ & _ & _ & _ & _ & _ & _ & R). pose proof (tick_small _ _ R). lia.
  - pose proof (proj1 (reachable_ticks _ _ Hr)) as W. destruct c as [u x y a b | u l a b | d o | d o]; cbn [run_call call_wf] in *; bd H r E; destruct r as [q out]; injection H as <-.
    + destruct (deposit_range _ _ _ _ _ _ _ _ E) as (_ & _ & -> & _). auto.
    + destruct (withdraw_range _ _ _ _ _ _ _ E) as (_ & _ & -> & _). auto.
    + destruct C as [C1 C2]. destruct (swap_x_chain _ _ _ _ _ _ E W C1 C2) as (_ & s' & Ch & _).
      refine (proj2 (chain_inv _ _ (fun c => inv_x c /\ low_tick (fst c)) _ _ _ Ch _)).
      * intros a b [A _] M. split; [exact (mv_x_inv _ _ _ _ _ C1 C2 A M) | exact (mv_x_low _ _ _ _ _ C1 C2 A M)].
      * split; [apply inv_start; auto | exact IH].
    + destruct C as [C1 C2]. destruct (swap_y_chain _ _ _ _ _ _ E W C1 C2) as (_ & s' & Ch & _).
      refine (proj2 (chain_inv _ _ (fun c => inv_y c /\ low_tick (fst c)) _ _ _ Ch _)).
      * intros a b [A _] M. split; [exact (mv_y_inv _ _ _ _ _ C1 C2 A M) | exact (mv_y_low _ _ _ _ _ C1 C2 A M)].
      * split; [apply inv_start; auto | exact IH].
Qed.

(** ** Lookups *)
Definition no_tick_below (p : pool) : Prop := forall k, In k (map fst (ticks p)) -> glbl_tick p < k.
Definition no_tick_above (p : pool) : Prop := forall k, In k (map fst (ticks p)) -> k <= glbl_tick p.
Definition nearest_below (p : pool) (t : Z) : Prop := In t (map fst (ticks p)) /\ t <= glbl_tick p /\ forall k, In k (map fst (ticks p)) -> k <= glbl_tick p -> k <= t.
Definition nearest_above (p : pool) (t : Z) : Prop := In t (map fst (ticks p)) /\ glbl_tick p < t /\ forall k, In k (map fst (ticks p)) -> glbl_tick p < k -> t <= k.

Lemma floor_ok : forall t s, 0 <= t < 2 ^ 128 -> 0 < s < 2 ^ 128 -> tk_to_possible_tk t s false = Ok (t / s * s).
Proof.
  intros t s Ht Hs. destruct (align_down t s Ht Hs) as (r & E & _). destruct (possible_down_le t s r) as (_ & -> & _); auto; lia.
Qed.
Theorem left_lookup : forall orc p, reachable orc p -> spacing p < 2 ^ 128 ->
  exists g, get_left_limit p (glbl_tick p) = Ok g /\ match g with Some t => nearest_below p t | None => no_tick_below p end.
Proof.
  intros orc p R Hs. pose proof (tick_bounded _ _ R) as B. pose proof (reachable_ticks _ _ R) as T. pose proof T as (W & Sp & _).
  pose proof (floor_ok (glbl_tick p) (spacing p) ltac:(lia) ltac:(lia)) as F. unfold get_left_limit, tick_to_possible_tick. rewrite Z.min_id, F. cbn [bind].
  eexists; split; [reflexivity |]. unfold tick_keys. fold (keys p). destruct (find _ _) as [t |] eqn:E.
  - destruct (next_left p _ t W F E) as (A1 & A2 & A3). unfold nearest_below. fold (keys p). csplit; auto.
    + apply (floor_keys (spacing p)); auto. apply (key_mod _ _ T A1).
    + intros k Hk Lk. apply A3; auto. apply floor_keys; auto. apply (key_mod _ _ T Hk).
  - intros k Hk. pose proof (find_none_left _ _ E k Hk) as N. destruct (Z.le_gt_cases k (glbl_tick p)) as [L |]; auto.
    apply (floor_keys (spacing p)) in L; auto; [lia |]. apply (key_mod _ _ T Hk).
Qed.
Theorem right_lookup : forall orc p, reachable orc p -> spacing p < 2 ^ 128 -> glbl_tick p mod spacing p = 0 ->
  exists g, get_right_limit p (glbl_tick p) (glbl_tick p) = Ok g /\ match g with Some t => nearest_above p t | None => no_tick_above p end.
Proof.
  intros orc p R Hs A. pose proof (tick_bounded _ _ R) as B. pose proof (reachable_ticks _ _ R) as T. pose proof T as (W & Sp & _).
  pose proof (floor_ok (glbl_tick p) (spacing p) ltac:(lia) ltac:(lia)) as F. unfold get_right_limit, tick_to_possible_tick. rewrite F. cbn [bind].
  assert (E0 : glbl_tick p / spacing p * spacing p = glbl_tick p) by (pose proof (Z.div_mod (glbl_tick p) (spacing p) ltac:(lia)); lia). rewrite E0, Z.eqb_refl.
  eexists; split; [reflexivity |]. unfold tick_keys. fold (keys p). destruct (find _ _) as [t |] eqn:E.
  - exact (next_right p t W E).
  - exact (find_none_right _ _ E).
Qed.
(** With liquidity in range and a current tick off the spacing grid, every Y-in swap panics. *)
Theorem unaligned_stuck : forall orc p dy ro, reachable orc p -> spacing p < 2 ^ 128 -> is_positive (glbl_liq p) = true -> glbl_tick p mod spacing p <> 0 ->
  wf dy -> execute_swap_from_y orc p dy ro = Panic.
Proof.
  intros orc p dy ro R Hs L A Wd. pose proof (tick_bounded _ _ R) as B. pose proof (reachable_ticks _ _ R) as (W & Sp & _).
  unfold execute_swap_from_y. destruct (is_positive dy) eqn:P; cbn [negb]; auto. rewrite zero_eq. cbn [bind].
  unfold swap_fuel. cbn [loop_y s_in s_t]. destruct (d_lt (mkD 0 12 false) dy) as [b | e | |] eqn:E; cbn [unwrap bind]; auto.
  2: { exfalso. unfold d_lt in E. repeat match type of E with (if ?c then _ else _) = _ => destruct c end; discriminate. }
  destruct b; cbn [negb].
  - rewrite L. unfold get_right_limit, tick_to_possible_tick. rewrite floor_ok by lia. cbn [bind].
    pose proof (Z.div_mod (glbl_tick p) (spacing p) ltac:(lia)). pose proof (Z.mod_pos_bound (glbl_tick p) (spacing p) Sp).
    rewrite (proj2 (Z.eqb_neq _ _)) by lia. rewrite (proj2 (Z.ltb_ge _ _)) by lia. reflexivity.
  - exfalso. assert (Pm : 0 < mant dy) by (apply is_pos_m in P; auto; apply wf_nn; auto). destruct (lt_m _ _ _ (wf_nn _ zero_wf) (wf_nn _ Wd) E) as (S & _ & N & _). specialize (N eq_refl). change (mant (mkD 0 12 false)) with 0 in N. lia.
Qed.
