(** The swap loops as chains of elementary moves (crossing a tick while out of range, or one in-range step);
    every property of completed swaps is then an invariant of moves. *)
From Coq Require Import ZArith QArith List Bool Lia String Sorted.
From Verif Require Import Base BaseLemmas DecimalModel DecimalSpec DecimalProofs PowProofs WfProofs MathModel TickProofs TickLoop PoolModel PoolWf.
Import ListNotations.
Open Scope Z_scope.

Definition keys (p : pool) : list Z := map fst (ticks p).
Definition seat (p : pool) (tk : Z) (rp : decimal) : pool := set_glbl_rp (set_glbl_tick p tk) rp.
Definition with_rp (s : swp) (rp : decimal) : swp := mkSwp (s_in s) (s_out s) (s_adj s) (s_fee s) (s_t s) rp.
Definition with_t_rp (s : swp) (t : Z) (rp : decimal) : swp := mkSwp (s_in s) (s_out s) (s_adj s) (s_fee s) t rp.

Inductive mv_x (orc : log2_oracle) (dx ro : decimal) : pool * swp -> pool * swp -> Prop :=
| X_gap : forall p s tk rp p', is_positive (glbl_liq p) = false -> In tk (keys p) -> (tk <= glbl_tick p /\ forall k, In k (keys p) -> k <= glbl_tick p -> k <= tk) ->
    tick_to_rp tk = Ok rp -> cross_tick (seat p tk rp) tk false = Ok p' -> mv_x orc dx ro (p, s) (p', with_rp s rp)
| X_step : forall p s f gtk p' s', is_positive (glbl_liq p) = true -> d_lt (s_in s) dx = Ok true ->
    tk_to_possible_tk (glbl_tick p) (spacing p) false = Ok f -> find (fun tk => tk <=? f) (rev (keys p)) = Some gtk ->
    step_x orc p s dx ro gtk = Ok (p', s') -> mv_x orc dx ro (p, s) (p', s').

Inductive mv_y (orc : log2_oracle) (dy ro : decimal) : pool * swp -> pool * swp -> Prop :=
| Y_gap : forall p s tk rp p', is_positive (glbl_liq p) = false -> In tk (keys p) -> (glbl_tick p < tk /\ forall k, In k (keys p) -> glbl_tick p < k -> tk <= k) ->
    tick_to_rp tk = Ok rp -> cross_tick (seat p tk rp) tk true = Ok p' -> mv_y orc dy ro (p, s) (p', with_t_rp s tk rp)
| Y_step : forall p s gtk p' s', is_positive (glbl_liq p) = true -> d_lt (s_in s) dy = Ok true ->
    tk_to_possible_tk (glbl_tick p) (spacing p) false = Ok (glbl_tick p) ->
    find (fun tk => glbl_tick p <? tk) (keys p) = Some gtk ->
    step_y orc p s dy ro gtk = Ok (p', s') -> mv_y orc dy ro (p, s) (p', s').

Inductive chain {A : Type} (R : A -> A -> Prop) : A -> A -> Prop :=
| ch_nil : forall a, chain R a a
| ch_cons : forall a b c, R a b -> chain R b c -> chain R a c.
Lemma chain_one : forall A (R : A -> A -> Prop) a b, R a b -> chain R a b.
Proof. intros. eapply ch_cons; eauto. constructor. Qed.
Lemma chain_app : forall A (R : A -> A -> Prop) a b c, chain R a b -> chain R b c -> chain R a c.
Proof. intros A R a b c H. induction H; intros; auto. eapply ch_cons; eauto. Qed.
Lemma chain_inv : forall A (R : A -> A -> Prop) (P : A -> Prop), (forall a b, P a -> R a b -> P b) -> forall a b, chain R a b -> P a -> P b.
Proof. intros A R P H a b C. induction C; intros; eauto. Qed.
(** Invariant relative to the starting point, with a second invariant available. *)
Lemma chain_rel : forall A (R : A -> A -> Prop) (P : A -> Prop) (Q : A -> A -> Prop),
  (forall a, P a -> Q a a) -> (forall a b c, P a -> R a b -> P b -> Q b c -> Q a c) -> (forall a b, P a -> R a b -> P b) ->
  forall a b, chain R a b -> P a -> Q a b.
Proof. intros A R P Q H1 H2 H3 a b C. induction C; intros; eauto. Qed.

(** ** Keys *)
Lemma cross_keys : forall p t l2r p', cross_tick p t l2r = Ok p' -> StronglySorted Z.lt (keys p) -> keys p' = keys p.
Proof.
  intros p t l2r p' H S. destruct (cross_inv _ _ _ _ H) as (ts & fx & fy & hx & hy & nt & L & C1 & C2 & C3 & C4 & C5 & C6 & C7 & C8 & C9 & ->).
  unfold keys; cbn. apply tm_set_keys; auto. apply tm_get_in, (in_map fst) in C2. auto.
Qed.
Lemma cross_tick_to : forall p t p', cross_tick p t false = Ok p' -> 0 <= t -> 0 <= spacing p -> glbl_tick p = t /\ 0 <= glbl_tick p' < t /\ spacing p' = spacing p /\ glbl_rp p' = glbl_rp p.
Proof.
  intros p t p' H Ht Hs. destruct (cross_inv _ _ _ _ H) as (ts & fx & fy & hx & hy & nt & L & C1 & C2 & C3 & C4 & C5 & C6 & C7 & C8 & C9 & ->).
  destruct C7 as [t1 [P1 P2]]. destruct (pred_ok _ _ P1 Ht) as [-> [P3 P4]]. destruct (possible_down_le _ _ _ P3 Hs P2) as [B _]. unfold glbl_tick, glbl_rp; cbn.
  csplit; auto; lia.
Qed.
Lemma cross_tick_to_r : forall p t p', cross_tick p t true = Ok p' -> glbl_tick p' = t /\ spacing p' = spacing p /\ glbl_rp p' = glbl_rp p.
Proof.
  intros p t p' H. destruct (cross_inv _ _ _ _ H) as (ts & fx & fy & hx & hy & nt & L & C1 & C2 & C3 & C4 & C5 & C6 & C7 & C8 & C9 & ->).
  unfold glbl_tick, glbl_rp; cbn. csplit; auto.
Qed.

Lemma seat_wf : forall p tk rp, pool_wf p -> 0 <= tk -> wf rp -> pool_wf (seat p tk rp).
Proof. intros p tk rp (W1 & (G1 & G2 & G3 & G4) & W3 & W4 & W5) Ht Hr. unfold pool_wf, g_wf, seat. cbn. auto 10. Qed.
Lemma key_nn : forall p k, pool_wf p -> In k (keys p) -> 0 <= k.
Proof. intros p k (W1 & W2 & W3 & W4) H. apply in_map_iff in H. destruct H as [[k' t] [<- H]]. apply (proj2 W3) in H. tauto. Qed.
Lemma keys_sorted : forall p, pool_wf p -> StronglySorted Z.lt (keys p).
Proof. intros p (W1 & W2 & W3 & W4). apply (proj1 W3). Qed.

(** ** One in-range step keeps pools well-formed *)
Lemma within_x_facts : forall orc p srp goal liq dx ro w, swap_within_x orc p srp goal liq dx ro = Ok w ->
  pool_wf p -> wf srp -> wf liq -> wf dx -> wf ro -> 0 <= goal ->
  exists rpg cp, tick_to_rp goal = Ok rpg /\ dy_from_l_drp liq srp (w_rp w) = Ok cp /\ wf cp /\
  (wf (w_recv w) /\ wf (w_send w) /\ wf (w_rp w) /\ wf (w_adj w) /\ wf (w_fee w) /\ 0 <= w_tick w) /\
  (0 <= mant (w_recv w) /\ mant (w_send w) <= 0 /\ 0 <= mant (w_adj w) /\ 0 <= mant (w_fee w) /\ 0 <= mant (w_rp w) /\ 0 <= mant dx) /\
  mant cp <= 0 /\ mant (w_adj w) = mant (w_send w) - mant cp /\ 0 <= mant (ry p) + mant cp /\
  dscale (w_adj w) = dscale (w_send w) /\ dscale cp = dscale (w_send w) /\
  ((is_zero (hmm_c p) = true \/ is_zero ro = true) -> w_send w = cp) /\
  mant rpg <= mant srp /\ dscale srp = 12 /\ dscale (w_rp w) = 12 /\ 
  core_x p srp goal liq dx = Ok (w_recv w, w_fee w, w_cross w, w_tick w, w_rp w) /\
  (if w_cross w then w_rp w = rpg /\ w_tick w = goal
   else mant (w_recv w) + mant (w_fee w) = mant dx /\ dscale (w_recv w) = dscale dx /\ mant rpg <= mant (w_rp w) <= mant srp /\
        0 < goal /\ rp_to_tick_loop (w_rp w) false (goal - 1) = Ok (w_tick w)).
Proof.
  intros orc p srp goal liq dx ro w H Wp Ws Wl Wd Wo Hg. pose proof Wp as (_ & _ & _ & _ & (Wrx & Wry & _) & Wc & Wf).
  destruct (within_x_core _ _ _ _ _ _ _ _ H) as (ddx & fee & cross & et & erp & cp & ddy & adj & ny & C1 & C2 & C3 & C4 & C5 & C6 & C7 & C8 & C9 & C10).
  destruct (core_x_facts _ _ _ _ _ _ _ _ _ _ C1 Ws Wl Wd Wf Hg) as (rpg & F1 & (F2 & F3 & F4 & F5) & F6 & F7 & F8 & F9 & F10).
  assert (Wcp : wf cp) by (eapply dy_drp_inv; eauto).
  assert (Wdy : wf ddy).
  { destruct C3 as [-> | [C3 | (d1 & d2 & D1 & D2 & D3)]]; auto.
    - eapply dy_hmm_wf; eauto.
    - eapply add_wf; [exact D3 | |]; [eapply dy_hmm_wf; eauto | eapply dy_drp_inv; eauto]. }
  assert (Wa : wf adj) by (eapply sub_wf; eauto).
  destruct (within_new_inv _ _ _ _ _ _ _ _ C10) as (-> & N1 & N2 & N3 & N4 & N5); auto. cbn [w_recv w_send w_tick w_rp w_cross w_adj w_fee].
  exists rpg, cp. destruct (sub_m _ _ _ C5) as [M1 [M2 M3]]. destruct (add_m _ _ _ C8) as [M4 [M5 M6]].
  apply is_pos_f in C6; [| apply wf_nn; auto]. apply is_neg_f in C9; [| apply wf_nn; eapply add_wf; eauto].
  csplit; auto; try lia; try congruence.
Qed.
Lemma within_y_facts : forall orc p srp goal liq dx ro w, swap_within_y orc p srp goal liq dx ro = Ok w ->
  pool_wf p -> wf srp -> wf liq -> wf dx -> wf ro -> 0 <= goal ->
  exists rpg cp, tick_to_rp goal = Ok rpg /\ dx_from_l_drp liq srp (w_rp w) = Ok cp /\ wf cp /\
  (wf (w_recv w) /\ wf (w_send w) /\ wf (w_rp w) /\ wf (w_adj w) /\ wf (w_fee w) /\ 0 <= w_tick w) /\
  (0 <= mant (w_recv w) /\ mant (w_send w) <= 0 /\ 0 <= mant (w_adj w) /\ 0 <= mant (w_fee w) /\ 0 <= mant (w_rp w) /\ 0 <= mant dx) /\
  mant cp <= 0 /\ mant (w_adj w) = mant (w_send w) - mant cp /\ 0 <= mant (rx p) + mant cp /\
  dscale (w_adj w) = dscale (w_send w) /\ dscale cp = dscale (w_send w) /\
  ((is_zero (hmm_c p) = true \/ is_zero ro = true) -> w_send w = cp) /\
  mant srp <= mant rpg /\ dscale srp = 12 /\ dscale (w_rp w) = 12 /\ 
  core_y p srp goal liq dx = Ok (w_recv w, w_fee w, w_cross w, w_tick w, w_rp w) /\
  (if w_cross w then w_rp w = rpg /\ w_tick w = goal
   else mant (w_recv w) + mant (w_fee w) = mant dx /\ dscale (w_recv w) = dscale dx /\ mant srp <= mant (w_rp w) <= mant rpg /\
        0 < glbl_tick p /\ 0 < spacing p /\ rp_to_tick_loop (w_rp w) false ((glbl_tick p - 1) / spacing p * spacing p) = Ok (w_tick w)).
Proof.
  intros orc p srp goal liq dx ro w H Wp Ws Wl Wd Wo Hg. pose proof Wp as (Hsp & (_ & _ & Hgt & _) & _ & _ & (Wrx & Wry & _) & Wc & Wf).
  destruct (within_y_core _ _ _ _ _ _ _ _ H) as (ddx & fee & cross & et & erp & cp & ddy & adj & ny & C1 & C2 & C3 & C4 & C5 & C6 & C7 & C8 & C9 & C10).
  destruct (core_y_facts _ _ _ _ _ _ _ _ _ _ C1 Ws Wl Wd Wf Hg Hsp Hgt) as (rpg & F1 & (F2 & F3 & F4 & F5) & F6 & F7 & F8 & F9 & F10).
  assert (Wcp : wf cp) by (eapply dx_drp_inv; eauto).
  assert (Wdy : wf ddy).
  { destruct C3 as [-> | [C3 | (d1 & d2 & D1 & D2 & D3)]]; auto.
    - eapply dx_hmm_wf; eauto.
    - eapply add_wf; [exact D3 | |]; [eapply dx_hmm_wf; eauto | eapply dx_drp_inv; eauto]. }
  assert (Wa : wf adj) by (eapply sub_wf; eauto).
  destruct (within_new_inv _ _ _ _ _ _ _ _ C10) as (-> & N1 & N2 & N3 & N4 & N5); auto. cbn [w_recv w_send w_tick w_rp w_cross w_adj w_fee].
  exists rpg, cp. destruct (sub_m _ _ _ C5) as [M1 [M2 M3]]. destruct (add_m _ _ _ C8) as [M4 [M5 M6]].
  apply is_pos_f in C6; [| apply wf_nn; auto]. apply is_neg_f in C9; [| apply wf_nn; eapply add_wf; eauto].
  csplit; auto; try lia; try congruence.
Qed.

Definition s_wf (s : swp) : Prop := wf (s_in s) /\ wf (s_out s) /\ wf (s_adj s) /\ wf (s_fee s) /\ wf (s_rp s).
Definition w_wf (w : within) : Prop := wf (w_recv w) /\ wf (w_send w) /\ wf (w_rp w) /\ wf (w_adj w) /\ wf (w_fee w) /\ 0 <= w_tick w.

Lemma mid_x_wf : forall p w p1, mid_x p w p1 -> pool_wf p -> w_wf w -> pool_wf p1.
Proof.
  intros p w p1 (nx & y1 & ny & nya & nxf & fx & hy & M1 & M2 & M3 & M4 & M5 & M6 & M7 & ->) W (V1 & V2 & V3 & V4 & V5 & V6).
  destruct W as (Ws & Wg & Wt & Wp & (R1 & R2 & R3 & R4 & R5 & R6) & Wc & Wf). destruct Wg as (G1 & G2 & G3 & G4 & G5 & G6 & G7).
  assert (wf fx /\ wf hy). { destruct (is_positive (glbl_liq p)); [destruct M7 as (q1 & q2 & Q1 & Q2 & Q3 & Q4); unfold glbl_liq in *; wfs; auto | destruct M7 as [-> ->]; auto]. }
  wfs. unfold pool_wf, g_wf. cbn. tauto.
Qed.
Lemma mid_y_wf : forall p w p1, mid_y p w p1 -> pool_wf p -> w_wf w -> pool_wf p1.
Proof.
  intros p w p1 (nx & y1 & ny & nya & nxf & fx & hy & M1 & M2 & M3 & M4 & M5 & M6 & M7 & ->) W (V1 & V2 & V3 & V4 & V5 & V6).
  destruct W as (Ws & Wg & Wt & Wp & (R1 & R2 & R3 & R4 & R5 & R6) & Wc & Wf). destruct Wg as (G1 & G2 & G3 & G4 & G5 & G6 & G7).
  assert (wf fx /\ wf hy). { destruct (is_positive (glbl_liq p)); [destruct M7 as (q1 & q2 & Q1 & Q2 & Q3 & Q4); unfold glbl_liq in *; wfs; auto | destruct M7 as [-> ->]; auto]. }
  wfs. unfold pool_wf, g_wf. cbn. tauto.
Qed.
Lemma tally_wf : forall dx s w s', tally dx s w s' -> s_wf s -> w_wf w -> s_wf s'.
Proof.
  intros dx s w s' (rest & c1 & ck & i1 & i2 & o2 & a2 & f2 & M1 & M2 & M3 & M4 & M5 & M6 & M7 & M8 & M9 & ->) (S1 & S2 & S3 & S4 & S5) (V1 & V2 & V3 & V4 & V5 & V6).
  wfs. unfold s_wf; cbn. auto.
Qed.
Lemma after_wf : forall w gtk l2r p1 p', after_mid w gtk l2r p1 p' -> pool_wf p1 -> 0 <= gtk -> pool_wf p'.
Proof.
  intros w gtk l2r p1 p' H W Hg. unfold after_mid in H. destruct (w_cross w); [| subst; auto]. destruct H as [_ H].
  destruct (tm_get gtk (ticks p1)); [| subst; auto]. eapply cross_wf; eauto.
Qed.

(** Facts about one in-range step, collected. *)
Lemma step_x_facts : forall orc p s dx ro gtk p' s', step_x orc p s dx ro gtk = Ok (p', s') -> pool_wf p -> s_wf s -> wf dx -> wf ro -> In gtk (keys p) ->
  exists w p1, (exists rest, d_sub dx (s_in s) = Ok rest /\ wf rest /\ swap_within_x orc p (s_rp s) gtk (glbl_liq p) rest ro = Ok w) /\
    w_wf w /\ mid_x p w p1 /\ tally dx s w s' /\ pool_wf p1 /\ pool_wf p' /\ s_wf s' /\
    (if w_cross w then w_tick w = gtk /\ cross_tick p1 gtk false = Ok p' else p' = p1).
Proof.
  intros orc p s dx ro gtk p' s' H W Ws Wd Wo Hk. destruct (step_x_inv _ _ _ _ _ _ _ _ H) as (rest & w & p1 & E1 & E2 & E3 & E4 & E5).
  exists w, p1. pose proof Ws as (S1 & _ & _ & _ & S5). assert (Wr : wf rest) by (eapply sub_wf; eauto). pose proof (key_nn _ _ W Hk) as Hg.
  destruct (within_x_facts _ _ _ _ _ _ _ _ E2 W S5 (proj1 (proj1 (proj2 W))) Wr Wo Hg) as (rpg & cp & F1 & F2 & F3 & F4 & _).
  pose proof (mid_x_wf _ _ _ E3 W F4). pose proof (after_wf _ _ _ _ _ E5 H0 Hg). pose proof (tally_wf _ _ _ _ E4 Ws F4).
  csplit; auto. { exists rest; auto. } unfold after_mid in E5. destruct (w_cross w); auto. destruct E5 as [E5 E6]. split; auto.
  destruct E3 as (nx & y1 & ny & nya & nxf & fx & hy & _ & _ & _ & _ & _ & _ & _ & ->). cbn [ticks] in E6. destruct (tm_get_some gtk (ticks p)) as [t Et]; auto. rewrite Et in E6. auto.
Qed.
Lemma step_y_facts : forall orc p s dx ro gtk p' s', step_y orc p s dx ro gtk = Ok (p', s') -> pool_wf p -> s_wf s -> wf dx -> wf ro -> In gtk (keys p) ->
  exists w p1, (exists rest, d_sub dx (s_in s) = Ok rest /\ wf rest /\ swap_within_y orc p (s_rp s) gtk (glbl_liq p) rest ro = Ok w) /\
    w_wf w /\ mid_y p w p1 /\ tally dx s w s' /\ pool_wf p1 /\ pool_wf p' /\ s_wf s' /\
    (if w_cross w then w_tick w = gtk /\ cross_tick p1 gtk true = Ok p' else p' = p1).
Proof.
  intros orc p s dx ro gtk p' s' H W Ws Wd Wo Hk. destruct (step_y_inv _ _ _ _ _ _ _ _ H) as (rest & w & p1 & E1 & E2 & E3 & E4 & E5).
  exists w, p1. pose proof Ws as (S1 & _ & _ & _ & S5). assert (Wr : wf rest) by (eapply sub_wf; eauto). pose proof (key_nn _ _ W Hk) as Hg.
  destruct (within_y_facts _ _ _ _ _ _ _ _ E2 W S5 (proj1 (proj1 (proj2 W))) Wr Wo Hg) as (rpg & cp & F1 & F2 & F3 & F4 & _).
  pose proof (mid_y_wf _ _ _ E3 W F4). pose proof (after_wf _ _ _ _ _ E5 H0 Hg). pose proof (tally_wf _ _ _ _ E4 Ws F4).
  csplit; auto. { exists rest; auto. } unfold after_mid in E5. destruct (w_cross w); auto. destruct E5 as [E5 E6]. split; auto.
  destruct E3 as (nx & y1 & ny & nya & nxf & fx & hy & _ & _ & _ & _ & _ & _ & _ & ->). cbn [ticks] in E6. destruct (tm_get_some gtk (ticks p)) as [t Et]; auto. rewrite Et in E6. auto.
Qed.

(** ** Moves preserve well-formedness and the loop's bookkeeping *)
Definition inv_x (c : pool * swp) : Prop := pool_wf (fst c) /\ s_wf (snd c) /\ glbl_rp (fst c) = s_rp (snd c) /\ glbl_tick (fst c) <= s_t (snd c).
Definition inv_y (c : pool * swp) : Prop := pool_wf (fst c) /\ s_wf (snd c) /\ glbl_rp (fst c) = s_rp (snd c) /\ glbl_tick (fst c) = s_t (snd c).

Lemma find_key : forall (f : Z -> bool) l k, find f l = Some k -> In k l /\ f k = true.
Proof. intros. split; [eapply find_some; eauto | eapply find_some; eauto]. Qed.
Lemma find_left : forall p f gtk, find (fun tk => tk <=? f) (rev (keys p)) = Some gtk -> In gtk (keys p) /\ gtk <= f.
Proof. intros p f gtk H. apply find_key in H. rewrite <- in_rev in H. destruct H. b2p. auto. Qed.
Lemma find_right : forall p f gtk, find (fun tk => f <? tk) (keys p) = Some gtk -> In gtk (keys p) /\ f < gtk.
Proof. intros p f gtk H. apply find_key in H. destruct H. b2p. auto. Qed.

Lemma gap_x_wf : forall p tk rp p', pool_wf p -> In tk (keys p) -> tick_to_rp tk = Ok rp -> cross_tick (seat p tk rp) tk false = Ok p' ->
  pool_wf p' /\ glbl_rp p' = rp /\ 0 <= glbl_tick p' < tk /\ keys p' = keys p /\ spacing p' = spacing p.
Proof.
  intros p tk rp p' W Hi Hr H. pose proof (key_nn _ _ W Hi) as Ht. destruct (tick_rp_wf _ _ Hr) as [Wr _].
  pose proof (seat_wf p tk rp W Ht Wr) as Wsd. split; [eapply cross_wf; eauto |].
  destruct (cross_tick_to _ _ _ H Ht (proj1 W)) as [C1 [C2 [C3 C4]]]. pose proof (cross_keys _ _ _ _ H (keys_sorted _ Wsd)). auto.
Qed.
Lemma gap_y_wf : forall p tk rp p', pool_wf p -> In tk (keys p) -> tick_to_rp tk = Ok rp -> cross_tick (seat p tk rp) tk true = Ok p' ->
  pool_wf p' /\ glbl_rp p' = rp /\ glbl_tick p' = tk /\ keys p' = keys p /\ spacing p' = spacing p.
Proof.
  intros p tk rp p' W Hi Hr H. pose proof (key_nn _ _ W Hi) as Ht. destruct (tick_rp_wf _ _ Hr) as [Wr _].
  pose proof (seat_wf p tk rp W Ht Wr) as Wsd. split; [eapply cross_wf; eauto |].
  destruct (cross_tick_to_r _ _ _ H) as [C1 [C2 C3]]. pose proof (cross_keys _ _ _ _ H (keys_sorted _ Wsd)). auto.
Qed.

Lemma mv_x_inv : forall orc dx ro a b, wf dx -> wf ro -> inv_x a -> mv_x orc dx ro a b -> inv_x b.
Proof.
  intros orc dx ro a b Wd Wo (I1 & I2 & I3 & I4) M. inversion M as [p s tk rp p' H1 H2 H3 H4 H5 | p s f gtk p' s' H1 H2 H3 H4 H5]; subst; cbn in I1, I2, I3, I4.
  - destruct (gap_x_wf _ _ _ _ I1 H2 H4 H5) as (G1 & G2 & G3 & G4 & G5). unfold inv_x, s_wf, with_rp in *. cbn. csplit; auto; try tauto; try lia.
    apply (tick_rp_wf _ _ H4).
  - destruct (find_left _ _ _ H4) as [K1 K2]. destruct (step_x_facts _ _ _ _ _ _ _ _ H5 I1 I2 Wd Wo K1) as (w & p1 & F1 & F2 & F3 & F4 & F5 & F6 & F7 & F8).
    unfold inv_x; cbn [fst snd]. csplit; auto; destruct F3 as (nx & y1 & ny & nya & nxf & fx & hy & _ & _ & _ & _ & _ & _ & _ & ->);
      destruct F4 as (rest & c1 & ck & i1 & i2 & o2 & a2 & f2 & M1 & M2 & M3 & M4 & M5 & M6 & M7 & M8 & M9 & ->); cbn [s_rp s_t].
    + destruct (w_cross w); [| subst; auto]. destruct F8 as [_ F8]. destruct (cross_tick_to _ _ _ F8 (key_nn _ _ I1 K1) (proj1 F5)) as [_ [_ [_ C]]]. auto.
    + destruct (w_cross w); [| subst; unfold glbl_tick; cbn; lia]. destruct F8 as [F9 F8]. destruct (cross_tick_to _ _ _ F8 (key_nn _ _ I1 K1) (proj1 F5)) as [_ [C _]]. lia.
Qed.
Lemma mv_y_inv : forall orc dx ro a b, wf dx -> wf ro -> inv_y a -> mv_y orc dx ro a b -> inv_y b.
Proof.
  intros orc dx ro a b Wd Wo (I1 & I2 & I3 & I4) M. inversion M as [p s tk rp p' H1 H2 H3 H4 H5 | p s gtk p' s' H1 H2 H3 H4 H5]; subst; cbn in I1, I2, I3, I4.
  - destruct (gap_y_wf _ _ _ _ I1 H2 H4 H5) as (G1 & G2 & G3 & G4 & G5). unfold inv_y, s_wf, with_t_rp in *. cbn. csplit; auto; try tauto; try lia.
    apply (tick_rp_wf _ _ H4).
  - destruct (find_right _ _ _ H4) as [K1 K2]. destruct (step_y_facts _ _ _ _ _ _ _ _ H5 I1 I2 Wd Wo K1) as (w & p1 & F1 & F2 & F3 & F4 & F5 & F6 & F7 & F8).
    unfold inv_y; cbn [fst snd]. csplit; auto; destruct F3 as (nx & y1 & ny & nya & nxf & fx & hy & _ & _ & _ & _ & _ & _ & _ & ->);
      destruct F4 as (rest & c1 & ck & i1 & i2 & o2 & a2 & f2 & M1 & M2 & M3 & M4 & M5 & M6 & M7 & M8 & M9 & ->); cbn [s_rp s_t].
    + destruct (w_cross w); [| subst; auto]. destruct F8 as [_ F8]. destruct (cross_tick_to_r _ _ _ F8) as [_ [_ C]]. auto.
    + destruct (w_cross w); [| subst; unfold glbl_tick; cbn; lia]. destruct F8 as [F9 F8]. destruct (cross_tick_to_r _ _ _ F8) as [C _]. lia.
Qed.

(** ** The loops are chains of moves *)
Lemma with_rp_id : forall s, with_rp s (s_rp s) = s. Proof. intros []; reflexivity. Qed.
Lemma with_t_rp_id : forall s, with_t_rp s (s_t s) (s_rp s) = s. Proof. intros []; reflexivity. Qed.

Lemma sorted_rev : forall l, StronglySorted Z.lt l -> StronglySorted Z.gt (rev l).
Proof.
  induction l as [| a l IH]; cbn; intros S; [constructor |]. inversion S as [| ? ? S1 S2]; subst. specialize (IH S1). rewrite Forall_forall in S2.
  assert (G : forall m, StronglySorted Z.gt m -> (forall x, In x m -> a < x) -> StronglySorted Z.gt (m ++ [a])).
  { induction m as [| b m IHm]; cbn; intros Sm Hm; [repeat constructor |]. inversion Sm as [| ? ? Q1 Q2]; subst. constructor; [apply IHm; auto |].
    rewrite Forall_forall in *. intros x Hx. apply in_app_iff in Hx. destruct Hx as [Hx | [<- | []]]; auto. specialize (Hm b (or_introl eq_refl)). lia. }
  apply G; auto. intros x Hx. apply in_rev in Hx. auto.
Qed.
Lemma gir_left_chain : forall orc dx ro ks p s p' r, gir_left p ks = Ok (p', r) -> pool_wf p -> (forall k, In k ks -> In k (keys p)) ->
  StronglySorted Z.gt ks -> (forall k, In k (keys p) -> In k ks \/ glbl_tick p < k) ->
  is_positive (glbl_liq p) = false -> glbl_rp p = s_rp s ->
  chain (mv_x orc dx ro) (p, s) (p', with_rp s (glbl_rp p')) /\ glbl_tick p' <= glbl_tick p /\ keys p' = keys p /\ spacing p' = spacing p /\
  match r with
  | None => is_positive (glbl_liq p') = false /\ forall k, In k ks -> glbl_tick p' < k
  | Some (goal, rp) => rp = glbl_rp p' /\ is_positive (glbl_liq p') = true /\ get_left_limit p' (glbl_tick p') = Ok goal
  end.
Proof.
  induction ks as [| tk ks IH]; intros p s p' r H W Hk Ss Ha Hp Hr.
  - cbn in H. injection H as <- <-. rewrite Hr, with_rp_id. csplit; try constructor; auto; try lia. intros k [].
  - inversion Ss as [| ? ? S1 S2]; subst. rewrite Forall_forall in S2. cbn [gir_left] in H. destruct (glbl_tick p <? tk) eqn:E; b2p.
    + destruct (IH _ s _ _ H W) as (C1 & C2 & C3 & C4 & C5); auto. { intros; apply Hk; cbn; auto. } { intros k Hi. destruct (Ha k Hi) as [[<- | Hj] | Hj]; auto. } csplit; auto.
      destruct r as [[g rp] |]; auto. destruct C5 as [C5 C6]. split; auto. intros k [<- | Hi]; [lia | auto].
    + bd H rp E1. bd H p1 E2. bd H goal E3. fold (seat p tk rp) in E2.
      assert (Hi : In tk (keys p)) by (apply Hk; cbn; auto).
      destruct (gap_x_wf _ _ _ _ W Hi E1 E2) as (G1 & G2 & G3 & G4 & G5).
      assert (MV : mv_x orc dx ro (p, s) (p1, with_rp s rp)) by (eapply X_gap; eauto; split; [auto |]; intros k Hi' L'; destruct (Ha k Hi') as [[<- | Hj] | Hj]; [lia | specialize (S2 _ Hj); lia | lia]).
      destruct (is_negative (glbl_liq p1)) eqn:E4; [discriminate |]. destruct (is_positive (glbl_liq p1)) eqn:E5.
      * destruct (is_negative (glbl_rp p1)); [discriminate |]. injection H as <- <-. rewrite G2. csplit; auto; try lia. apply chain_one; auto.
      * destruct (IH _ (with_rp s rp) _ _ H G1) as (C1 & C2 & C3 & C4 & C5); auto. { intros; rewrite G4; apply Hk; cbn; auto. } { rewrite G4. intros k Hi'. destruct (Ha k Hi') as [[<- | Hj] | Hj]; auto; right; lia. }
        csplit; auto; try lia; try congruence. { eapply ch_cons; eauto. } destruct r as [[g rp'] |]; auto. destruct C5 as [C5 C6]. split; auto. intros k [<- | Hi']; [lia | auto].
Qed.
Lemma gir_right_chain : forall orc dx ro ks p s p' r, gir_right p ks = Ok (p', r) -> pool_wf p -> (forall k, In k ks -> In k (keys p)) ->
  StronglySorted Z.lt ks -> (forall k, In k (keys p) -> In k ks \/ k <= glbl_tick p) ->
  is_positive (glbl_liq p) = false -> glbl_rp p = s_rp s -> glbl_tick p = s_t s ->
  chain (mv_y orc dx ro) (p, s) (p', with_t_rp s (glbl_tick p') (glbl_rp p')) /\ glbl_tick p <= glbl_tick p' /\ keys p' = keys p /\ spacing p' = spacing p /\
  match r with
  | None => is_positive (glbl_liq p') = false /\ forall k, In k ks -> k <= glbl_tick p'
  | Some (goal, rp) => rp = glbl_rp p' /\ is_positive (glbl_liq p') = true /\ get_right_limit p' (glbl_tick p') (glbl_tick p') = Ok goal
  end.
Proof.
  induction ks as [| tk ks IH]; intros p s p' r H W Hk Ss Ha Hp Hr Ht.
  - cbn in H. injection H as <- <-. rewrite Hr, Ht, with_t_rp_id. csplit; try constructor; auto; try lia. intros k [].
  - inversion Ss as [| ? ? S1 S2]; subst. rewrite Forall_forall in S2. cbn [gir_right] in H. destruct (tk <=? glbl_tick p) eqn:E; b2p.
    + destruct (IH _ s _ _ H W) as (C1 & C2 & C3 & C4 & C5); auto. { intros; apply Hk; cbn; auto. } { intros k Hi. destruct (Ha k Hi) as [[<- | Hj] | Hj]; auto. } csplit; auto.
      destruct r as [[g rp] |]; auto. destruct C5 as [C5 C6]. split; auto. intros k [<- | Hi]; [lia | auto].
    + bd H rp E1. bd H p1 E2. bd H goal E3. fold (seat p tk rp) in E2.
      assert (Hi : In tk (keys p)) by (apply Hk; cbn; auto).
      destruct (gap_y_wf _ _ _ _ W Hi E1 E2) as (G1 & G2 & G3 & G4 & G5).
      assert (MV : mv_y orc dx ro (p, s) (p1, with_t_rp s tk rp)) by (eapply Y_gap; eauto; split; [auto |]; intros k Hi' L'; destruct (Ha k Hi') as [[<- | Hj] | Hj]; [lia | specialize (S2 _ Hj); lia | lia]).
      destruct (is_negative (glbl_liq p1)) eqn:E4; [discriminate |]. destruct (is_positive (glbl_liq p1)) eqn:E5.
      * destruct (is_negative (glbl_rp p1)); [discriminate |]. injection H as <- <-. rewrite G2, G3. csplit; auto; try lia. apply chain_one; auto.
      * destruct (IH _ (with_t_rp s tk rp) _ _ H G1) as (C1 & C2 & C3 & C4 & C5); auto. { intros; rewrite G4; apply Hk; cbn; auto. } { rewrite G4. intros k Hi'. destruct (Ha k Hi') as [[<- | Hj] | Hj]; auto; right; lia. }
        csplit; auto; try lia; try congruence. { eapply ch_cons; eauto. } destruct r as [[g rp'] |]; auto. destruct C5 as [C5 C6]. split; auto. intros k [<- | Hi']; [lia | auto].
Qed.

(** What the end of a swap tells us. *)
Definition no_key_left (p : pool) : Prop := forall k, In k (keys p) -> glbl_tick p / spacing p * spacing p < k.
Definition no_key_right (p : pool) : Prop := forall k, In k (keys p) -> k <= glbl_tick p.

Lemma find_none_left : forall p f, find (fun tk => tk <=? f) (rev (keys p)) = None -> forall k, In k (keys p) -> f < k.
Proof. intros p f H k Hi. apply in_rev in Hi. pose proof (find_none _ _ H k Hi) as N. cbn in N. b2p. auto. Qed.
Lemma find_none_right : forall p f, find (fun tk => f <? tk) (keys p) = None -> forall k, In k (keys p) -> k <= f.
Proof. intros p f H k Hi. pose proof (find_none _ _ H k Hi) as N. cbn in N. b2p. auto. Qed.

Lemma left_limit_inv : forall p st g, get_left_limit p st = Ok g -> glbl_tick p <= st -> 0 <= glbl_tick p -> 0 <= spacing p ->
  exists f, tk_to_possible_tk (glbl_tick p) (spacing p) false = Ok f /\ find (fun tk => tk <=? f) (rev (keys p)) = g /\ f = glbl_tick p / spacing p * spacing p /\ f <= glbl_tick p.
Proof.
  intros p st g H L1 L2 L3. unfold get_left_limit, tick_to_possible_tick in H. bd H f E. injection H as <-.
  rewrite Z.min_r in E by lia. exists f. destruct (possible_down_le _ _ _ L2 L3 E) as [B1 [B2 B3]]. csplit; auto. lia.
Qed.
Lemma right_limit_inv : forall p g, get_right_limit p (glbl_tick p) (glbl_tick p) = Ok g -> 0 <= glbl_tick p -> 0 <= spacing p ->
  tk_to_possible_tk (glbl_tick p) (spacing p) false = Ok (glbl_tick p) /\ find (fun tk => glbl_tick p <? tk) (keys p) = g.
Proof.
  intros p g H L2 L3. unfold get_right_limit, tick_to_possible_tick in H. bd H f E. 
  destruct (possible_down_le _ _ _ L2 L3 E) as [B1 [B2 B3]]. destruct (f =? glbl_tick p) eqn:E1; b2p.
  - injection H as <-. split; [congruence |]. rewrite E1. reflexivity.
  - destruct (glbl_tick p <? f) eqn:E2; b2p; [lia | discriminate].
Qed.

Lemma finish_x_same : forall p s p' o, finish_x p s = Ok (p', o) -> p' = p.
Proof. intros p s p' o H. unfold finish_x in H. bd H a E1. bd H b E2. bd H c E3. congruence. Qed.
Lemma finish_y_same : forall p s p' o, finish_y p s = Ok (p', o) -> p' = p.
Proof. intros p s p' o H. unfold finish_y in H. bd H a E1. bd H b E2. bd H c E3. congruence. Qed.

Lemma loop_x_chain : forall orc dx ro fuel p s p' o, loop_x orc fuel p s dx ro = Ok (p', o) -> wf dx -> wf ro -> inv_x (p, s) ->
  exists s', chain (mv_x orc dx ro) (p, s) (p', s') /\ inv_x (p', s') /\ finish_x p' s' = Ok (p', o) /\
    (d_lt (s_in s') dx = Ok false \/ (d_lt (s_in s') dx = Ok true /\ no_key_left p')).
Proof.
  induction fuel as [| fuel IH]; intros p s p' o H Wd Wo I; [discriminate |]. cbn [loop_x] in H.
  pose proof I as (I1 & I2 & I3 & I4). cbn [fst snd] in I1, I2, I3, I4. pose proof I1 as (Hsp & (_ & _ & Hgt & _) & _).
  bd H more E1. destruct more; cbn [negb] in H.
  2:{ exists s. assert (p' = p) as -> by (eapply finish_x_same; eauto).
      csplit; auto. constructor. }
  bd H gg E2. destruct gg as [[p1 goal] crp].
  assert (X : exists s1, s1 = with_rp s crp /\ chain (mv_x orc dx ro) (p, s) (p1, s1) /\ inv_x (p1, s1) /\
            match goal with
            | None => no_key_left p1
            | Some gtk => is_positive (glbl_liq p1) = true /\ exists f, tk_to_possible_tk (glbl_tick p1) (spacing p1) false = Ok f /\ find (fun tk => tk <=? f) (rev (keys p1)) = Some gtk
            end).
  { destruct (is_positive (glbl_liq p)) eqn:Pl.
    - bd E2 g E3. injection E2 as <- <- <-. exists s. rewrite with_rp_id. csplit; auto; try constructor.
      destruct (left_limit_inv _ _ _ E3 I4 Hgt Hsp) as (f & F1 & F2 & F3 & F4). destruct g as [gtk |]; [split; eauto |].
      intros k Hk. pose proof (find_none_left _ _ F2 _ Hk). lia.
    - unfold try_get_in_range in E2. rewrite Pl in E2. bd E2 pr E3. destruct pr as [p2 r].
      destruct (gir_left_chain orc dx ro _ _ s _ _ E3 I1) as (C1 & C2 & C3 & C4 & C5); auto. { intros k Hk. apply in_rev in Hk. auto. } { apply sorted_rev, keys_sorted; auto. } { intros k Hk. left. unfold tick_keys. rewrite <- in_rev. auto. }
      assert (I' : inv_x (p2, with_rp s (glbl_rp p2))) by (exact (chain_inv _ _ inv_x (fun a b Ha Hm => mv_x_inv _ _ _ _ _ Wd Wo Ha Hm) _ _ C1 I)).
      pose proof I' as (J1 & J2 & J3 & J4). cbn [fst snd] in J1, J2, J3, J4. pose proof J1 as (Jsp & (_ & _ & Jgt & _) & _).
      destruct r as [[g rp] |].
      + injection E2 as <- <- <-. destruct C5 as [-> [C6 C7]]. exists (with_rp s (glbl_rp p2)). csplit; auto.
        destruct (left_limit_inv _ _ _ C7 (Z.le_refl _) Jgt Jsp) as (f & F1 & F2 & F3 & F4). destruct g as [gtk |]; [split; eauto |].
        intros k Hk. pose proof (find_none_left _ _ F2 _ Hk). lia.
      + destruct (is_negative (glbl_rp p2)); [discriminate |]. injection E2 as <- <- <-. exists (with_rp s (glbl_rp p2)). csplit; auto.
        destruct C5 as [_ C6]. intros k Hk. rewrite C3 in Hk. specialize (C6 k). unfold tick_keys in C6. rewrite <- in_rev in C6. specialize (C6 Hk).
        assert (glbl_tick p2 / spacing p2 * spacing p2 <= glbl_tick p2); [| lia].
        destruct (Z.eq_dec (spacing p2) 0) as [-> | N]; [rewrite Z.mul_0_r; exact Jgt |]. pose proof (Z.mul_div_le (glbl_tick p2) (spacing p2)). unfold glbl_tick in *. lia. }
  destruct X as (s1 & Es1 & C & I' & G). fold (with_rp s crp) in H. rewrite <- Es1 in H. assert (SI : s_in s1 = s_in s) by (subst; auto).
  destruct goal as [gtk |].
  - destruct G as [G1 [f [G2 G3]]]. bd H ps E4. destruct ps as [p2 s2].
    assert (MV : mv_x orc dx ro (p1, s1) (p2, s2)) by (eapply X_step; eauto; rewrite SI; auto).
    destruct (IH _ _ _ _ H Wd Wo (mv_x_inv _ _ _ _ _ Wd Wo I' MV)) as (s' & D1 & D2 & D3 & D4). exists s'. csplit; auto.
    eapply chain_app; [exact C |]. eapply ch_cons; eauto.
  - exists s1. assert (p' = p1) as -> by (eapply finish_x_same; eauto).
    csplit; auto. { rewrite <- H. subst s1. reflexivity. } right. split; auto. rewrite SI. auto.
Qed.

Lemma loop_y_chain : forall orc dx ro fuel p s p' o, loop_y orc fuel p s dx ro = Ok (p', o) -> wf dx -> wf ro -> inv_y (p, s) ->
  exists s', chain (mv_y orc dx ro) (p, s) (p', s') /\ inv_y (p', s') /\ finish_y p' s' = Ok (p', o) /\
    (d_lt (s_in s') dx = Ok false \/ (d_lt (s_in s') dx = Ok true /\ no_key_right p')).
Proof.
  induction fuel as [| fuel IH]; intros p s p' o H Wd Wo I; [discriminate |]. cbn [loop_y] in H.
  pose proof I as (I1 & I2 & I3 & I4). cbn [fst snd] in I1, I2, I3, I4. pose proof I1 as (Hsp & (_ & _ & Hgt & _) & _).
  bd H more E1. destruct more; cbn [negb] in H.
  2:{ exists s. assert (p' = p) as -> by (eapply finish_y_same; eauto).
      csplit; auto. constructor. }
  bd H gg E2. destruct gg as [[p1 goal] crp].
  assert (X : exists t, chain (mv_y orc dx ro) (p, s) (p1, with_t_rp s t crp) /\ inv_y (p1, with_t_rp s t crp) /\
            match goal with
            | None => no_key_right p1
            | Some gtk => is_positive (glbl_liq p1) = true /\ tk_to_possible_tk (glbl_tick p1) (spacing p1) false = Ok (glbl_tick p1) /\ find (fun tk => glbl_tick p1 <? tk) (keys p1) = Some gtk
            end).
  { destruct (is_positive (glbl_liq p)) eqn:Pl.
    - bd E2 g E3. injection E2 as <- <- <-. exists (s_t s). rewrite with_t_rp_id. csplit; auto; try constructor. rewrite <- I4 in E3.
      destruct (right_limit_inv _ _ E3 Hgt Hsp) as (F1 & F2). destruct g as [gtk |]; [split; eauto |].
      intros k Hk. pose proof (find_none_right _ _ F2 _ Hk). lia.
    - unfold try_get_in_range in E2. rewrite Pl in E2. bd E2 pr E3. destruct pr as [p2 r].
      destruct (gir_right_chain orc dx ro _ _ s _ _ E3 I1) as (C1 & C2 & C3 & C4 & C5); auto. { apply keys_sorted; auto. }
      assert (I' : inv_y (p2, with_t_rp s (glbl_tick p2) (glbl_rp p2))) by (exact (chain_inv _ _ inv_y (fun a b Ha Hm => mv_y_inv _ _ _ _ _ Wd Wo Ha Hm) _ _ C1 I)).
      pose proof I' as (J1 & J2 & J3 & J4). cbn [fst snd] in J1, J2, J3, J4. pose proof J1 as (Jsp & (_ & _ & Jgt & _) & _).
      destruct r as [[g rp] |].
      + injection E2 as <- <- <-. destruct C5 as [-> [C6 C7]]. exists (glbl_tick p2). csplit; auto.
        destruct (right_limit_inv _ _ C7 Jgt Jsp) as (F1 & F2). destruct g as [gtk |]; [split; eauto |].
        intros k Hk. pose proof (find_none_right _ _ F2 _ Hk). lia.
      + destruct (is_negative (glbl_rp p2)); [discriminate |]. injection E2 as <- <- <-. exists (glbl_tick p2). csplit; auto.
        destruct C5 as [_ C6]. intros k Hk. rewrite C3 in Hk. apply C6. auto. }
  destruct X as (t & C & I' & G).
  destruct goal as [gtk |].
  - destruct G as [G1 [G2 G3]]. bd H ps E4. destruct ps as [p2 s2].
    assert (MV : mv_y orc dx ro (p1, with_t_rp s t crp) (p2, s2)) by (eapply Y_step; eauto).
    destruct (IH _ _ _ _ H Wd Wo (mv_y_inv _ _ _ _ _ Wd Wo I' MV)) as (s' & D1 & D2 & D3 & D4). exists s'. csplit; auto.
    eapply chain_app; [exact C |]. eapply ch_cons; eauto.
  - exists (with_t_rp s t crp). assert (p' = p1) as -> by (eapply finish_y_same; eauto).
    csplit; auto.
Qed.

Definition s0 (p : pool) : swp := mkSwp (mkD 0 12 false) (mkD 0 12 false) (mkD 0 12 false) (mkD 0 12 false) (glbl_tick p) (glbl_rp p).
Lemma inv_start : forall p, pool_wf p -> inv_x (p, s0 p) /\ inv_y (p, s0 p).
Proof.
  intros p W. pose proof W as (_ & (_ & Wr & _) & _). pose proof zero_wf. split; unfold inv_x, inv_y, s_wf; cbn; csplit; auto; unfold glbl_tick; lia.
Qed.

Theorem swap_x_chain : forall orc p dx ro p' o, execute_swap_from_x orc p dx ro = Ok (p', o) -> pool_wf p -> wf dx -> wf ro ->
  0 < mant dx /\ exists s', chain (mv_x orc dx ro) (p, s0 p) (p', s') /\ inv_x (p', s') /\ finish_x p' s' = Ok (p', o) /\
    (d_lt (s_in s') dx = Ok false \/ (d_lt (s_in s') dx = Ok true /\ no_key_left p')).
Proof.
  intros orc p dx ro p' o H W Wd Wo. unfold execute_swap_from_x in H. destruct (is_positive dx) eqn:E; cbn [negb] in H; [| discriminate].
  rewrite zero_eq in H. cbn [bind] in H. split. { apply is_pos_m in E; auto. apply wf_nn; auto. }
  eapply loop_x_chain; eauto. apply inv_start; auto.
Qed.
Theorem swap_y_chain : forall orc p dx ro p' o, execute_swap_from_y orc p dx ro = Ok (p', o) -> pool_wf p -> wf dx -> wf ro ->
  0 < mant dx /\ exists s', chain (mv_y orc dx ro) (p, s0 p) (p', s') /\ inv_y (p', s') /\ finish_y p' s' = Ok (p', o) /\
    (d_lt (s_in s') dx = Ok false \/ (d_lt (s_in s') dx = Ok true /\ no_key_right p')).
Proof.
  intros orc p dx ro p' o H W Wd Wo. unfold execute_swap_from_y in H. destruct (is_positive dx) eqn:E; cbn [negb] in H; [| discriminate].
  rewrite zero_eq in H. cbn [bind] in H. split. { apply is_pos_m in E; auto. apply wf_nn; auto. }
  eapply loop_y_chain; eauto. apply inv_start; auto.
Qed.
