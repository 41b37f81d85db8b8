(** Whole swaps against the exact curve: worth of positions and average price. *)
From Coq Require Import ZArith QArith Qminmax List Bool Lia Lqa String Sorted.
From Verif Require Import Base BaseLemmas DecimalModel DecimalSpec DecimalProofs PowProofs WfProofs MathModel MathProofs TickProofs TickLoop PoolModel PoolWf SwapLoop SwapProofs LpProofs PoolInv PoolNonneg PoolLp PoolRange PoolFees PoolGain PoolScale SwapAmounts SwapCover.
Import ListNotations.
Open Scope Z_scope.

Definition spent (dx : decimal) (c : pool * swp) : Prop := (num (s_in (snd c)) == num dx)%Q /\ is_positive (glbl_liq (fst c)) = true.
Lemma spent_stop_x : forall orc dx ro a b, wf dx -> wf ro -> 0 < mant dx -> inv_x a -> mv_x orc dx ro a b -> spent dx a -> False.
Proof.
  intros orc dx ro a b Wd Wo Pd (I1 & I2 & _) M (E1 & E2). inversion M as [q s tk rp q' H1 H2 H3 H4 H5 | q s f gtk q' s' H1 H2 H3 H4 H5]; subst a b; cbn [fst snd] in *; [congruence |].
  exact (not_more s dx Wd I2 Pd H2 E1).
Qed.
Lemma spent_stop_y : forall orc dx ro a b, wf dx -> wf ro -> 0 < mant dx -> inv_y a -> mv_y orc dx ro a b -> spent dx a -> False.
Proof.
  intros orc dx ro a b Wd Wo Pd (I1 & I2 & _) M (E1 & E2). inversion M as [q s tk rp q' H1 H2 H3 H4 H5 | q s gtk q' s' H1 H2 H3 H4 H5]; subst a b; cbn [fst snd] in *; [congruence |].
  exact (not_more s dx Wd I2 Pd H2 E1).
Qed.

(** ** Worth of the positions *)
Definition cover_x (p0 : pool) (dx : decimal) (c : pool * swp) : Prop :=
  let p := fst c in
  (((settled p /\ liq_inv p /\ (owed_x p - owed_x p0 + (2#1) * ulp12 * below p <= dX p0 p + (2#1) * ulp12 * below p0)%Q) \/
   (spent dx c /\ (owed_x p - owed_x p0 <= dX p0 p + (2#1) * ulp12 * below p0 + ulp12 * (1 + num (glbl_liq p) + num dx))%Q)) /\
  (owed_y p - owed_y p0 <= dY p0 p)%Q).
Lemma rp_one : forall p, nn p -> (1 <= num (glbl_rp p))%Q. Proof. intros p N. apply N. Qed.
Lemma ulp_pos : (0 < ulp12)%Q. Proof. reflexivity. Qed.
Lemma chk_pos_q : forall p, pool_wf p -> is_positive (glbl_liq p) = true -> (0 < num (glbl_liq p))%Q. Proof. intros p W H. apply pos_q; auto. apply liq_wf; auto. Qed.
Lemma cover_x_step : forall p0 orc dx ro a b, wf dx -> wf ro -> 0 < mant dx -> inv_x a -> carried dx a -> mv_x orc dx ro a b -> cover_x p0 dx a -> cover_x p0 dx b.
Proof.
  intros p0 orc dx ro a b Wd Wo Pd Ia Ca M [HX HY]. destruct HX as [(St & L & HX) | [Sp _]]; [| destruct (spent_stop_x _ _ _ _ _ Wd Wo Pd Ia M Sp)].
  pose proof (mv_x_records _ _ _ _ _ Wd Wo Ia M) as R. pose proof (carried_x _ _ _ _ _ Wd Wo Ia Ca M) as (T' & N' & _). destruct Ca as (T & N & A & So & To). pose proof R as (R1 & _).
  pose proof (mv_x_cases _ _ _ _ _ Wd Wo Ia T N A To M) as (g & rg & Hg & Lg & Nx & Eg & D).
  pose proof (proj1 (settled_keys _) St g Hg) as [Pg _]. specialize (Pg Lg). pose proof (rp_one _ N) as S1. pose proof (rp_one _ N') as E1. pose proof ulp_pos as U.
  unfold cover_x. set (p := fst a) in *. set (p' := fst b) in *. 
  assert (OX : owed_x p' = ox (num (glbl_rp p')) (positions p)) by (unfold owed_x, ox; rewrite R1; auto). assert (OY : owed_y p' = oy (num (glbl_rp p')) (positions p)) by (unfold owed_y, oy; rewrite R1; auto).
  assert (TX : (dX p0 p' == dX p0 p + dX p p')%Q) by (unfold dX; ring). assert (TY : (dY p0 p' == dY p0 p + dY p p')%Q) by (unfold dY; ring).
  rewrite (price_q_ok _ _ Eg) in Pg. destruct D as [(Er & (Wt & Wl) & D) | (D1 & D2 & D3 & D4 & D5 & D6 & D7)].
  - destruct (cross_settled_down p p' g rg T So R Hg Lg Eg Er Wt) as [St' Bl]. pose proof (down_ok p p' g T Hg Lg Nx L R1 Wl Wt) as L'.
    assert (B1 : (price_q g <= num (glbl_rp p'))%Q) by (rewrite (price_q_ok _ _ Eg), Er; lra). assert (B2 : (num (glbl_rp p') <= num (glbl_rp p))%Q) by (rewrite Er; exact Pg).
    destruct (slide_down p g (num (glbl_rp p')) T So St L Hg Lg Nx B1 B2) as [SX SY]. rewrite <- OX in SX. rewrite <- OY in SY.
    assert (K : ((/ num (glbl_rp p') - / num (glbl_rp p)) * num (glbl_liq p) <= dX p p' + (2#1) * ulp12 /\ - dY p p' <= (num (glbl_rp p) - num (glbl_rp p')) * num (glbl_liq p))%Q).
    { destruct D as [(D1 & D2 & D3 & D4) | (D0 & D1 & D2 & D3 & D4 & D5 & D6 & D7)].
      - assert (Z0 : (num (glbl_liq p) == 0)%Q) by (pose proof N as (_ & _ & _ & _ & _ & N0); lra). unfold dX, dY. rewrite Z0, D3, D4. split; lra.
      - split; [apply inv_le; auto | lra]. }
    destruct K as [KX KY]. apply (Qmult_le_l _ _ ulp12 U) in Bl. split; [left; csplit; auto |]; lra.
  - destruct D7 as (D7 & D8 & D9 & D10 & D11 & D12 & D13).
    assert (B1 : (price_q g <= num (glbl_rp p'))%Q) by (rewrite (price_q_ok _ _ Eg); exact D2).
    destruct (slide_down p g (num (glbl_rp p')) T So St L Hg Lg Nx B1 D9) as [SX SY]. rewrite <- OX in SX. rewrite <- OY in SY.
    pose proof (inv_le _ _ _ _ S1 D8 D13) as KX.
    assert (KX' : (ulp12 * (1 + num (glbl_liq p) + dX p p') <= ulp12 * (1 + num (glbl_liq p) + num dx))%Q) by (apply Qmult_le_l; [auto | lra]).
    assert (B0 : (0 <= (2#1) * ulp12 * below p)%Q) by (apply Qmult_le_0_compat; [lra | apply qlen_nn]).
    split; [right; split; [split; auto |]; rewrite D3 |]; lra.
Qed.
Lemma carried0 : forall orc dx p, reachable orc p -> carried dx (p, s0 p).
Proof.
  intros orc dx p H. unfold carried; cbn [fst snd]. csplit; [exact (reachable_ticks _ _ H) | exact (reachable_nn _ _ H) | exact (reachable_all12 _ _ H) | exact (reachable_sound _ _ H) | apply tot0].
Qed.
Lemma below_all : forall p, (below p <= qlen (ticks p))%Q. Proof. intros p. rewrite <- keys_len. apply filter_all. Qed.
Lemma above_all : forall p, (above p <= qlen (ticks p))%Q. Proof. intros p. rewrite <- keys_len. apply filter_all. Qed.
Theorem swap_x_cover : forall orc p dx ro p' o, reachable orc p -> settled p -> liq_inv p -> wf dx -> wf ro -> execute_swap_from_x orc p dx ro = Ok (p', o) ->
  (owed_x p' - owed_x p <= num (rx p') - num (rx p) + ulp12 * ((2#1) * qlen (ticks p) + 1 + num (glbl_liq p') + num dx) /\ owed_y p' - owed_y p <= num (ry p') - num (ry p))%Q.
Proof.
  intros orc p dx ro p' o Hr St L Wd Wo H. pose proof (reachable_nn _ _ Hr) as (W & _). destruct (swap_x_chain _ _ _ _ _ _ H W Wd Wo) as (Pd & s' & C & _).
  assert (X : inv_x (p', s') /\ carried dx (p', s') /\ cover_x p dx (p', s')).
  { refine (chain_inv _ _ (fun c => inv_x c /\ carried dx c /\ cover_x p dx c) _ _ _ C _).
    - intros a b (A1 & A2 & A3) M. csplit; [exact (mv_x_inv _ _ _ _ _ Wd Wo A1 M) | exact (carried_x _ _ _ _ _ Wd Wo A1 A2 M) | exact (cover_x_step _ _ _ _ _ _ Wd Wo Pd A1 A2 M A3)].
    - csplit; [apply (inv_start p W) | exact (carried0 _ _ _ Hr) |]. unfold cover_x; cbn [fst snd]. unfold dX, dY. split; [left; csplit; auto |]; lra. }
  destruct X as (_ & (_ & N' & _) & [X Y]). cbn [fst snd] in *. split; [| exact Y]. fold (dX p p'). pose proof N' as (_ & _ & _ & _ & _ & N0). pose proof ulp_pos as U. pose proof (below_all p) as B.
  assert (Dx : (0 <= num dx)%Q) by (apply num_sign; auto; lia).
  assert (B0 : forall q, (0 <= ulp12 * below q)%Q) by (intros q; apply Qmult_le_0_compat; [lra | apply qlen_nn]).
  assert (B1 : (ulp12 * below p <= ulp12 * qlen (ticks p))%Q) by (apply Qmult_le_l; auto).
  assert (B2 : (0 <= ulp12 * (1 + num (glbl_liq p') + num dx))%Q) by (apply Qmult_le_0_compat; lra). specialize (B0 p').
  destruct X as [(_ & _ & X) | [_ X]]; lra.
Qed.

Definition cover_y (p0 : pool) (dx : decimal) (c : pool * swp) : Prop :=
  let p := fst c in
  (((settled p /\ liq_inv p /\ (owed_y p - owed_y p0 + ulp12 * above p <= dY p0 p + ulp12 * above p0)%Q) \/
   (spent dx c /\ (owed_y p - owed_y p0 <= dY p0 p + ulp12 * above p0)%Q)) /\
  (owed_x p - owed_x p0 <= dX p0 p * (1 - ulp12))%Q).
Lemma cover_y_step : forall p0 orc dx ro a b, wf dx -> wf ro -> 0 < mant dx -> inv_y a -> carried dx a -> mv_y orc dx ro a b -> cover_y p0 dx a -> cover_y p0 dx b.
Proof.
  intros p0 orc dx ro a b Wd Wo Pd Ia Ca M [HY HX]. destruct HY as [(St & L & HY) | [Sp _]]; [| destruct (spent_stop_y _ _ _ _ _ Wd Wo Pd Ia M Sp)].
  pose proof (mv_y_records _ _ _ _ _ Wd Wo Ia M) as R. pose proof (carried_y _ _ _ _ _ Wd Wo Ia Ca M) as (T' & N' & _). destruct Ca as (T & N & A & So & To). pose proof R as (R1 & _).
  pose proof (mv_y_cases _ _ _ _ _ Wd Wo Ia T N A M) as (g & rg & Hg & Lg & Nx & Eg & D).
  pose proof (proj1 (settled_keys _) St g Hg) as [_ Pg]. specialize (Pg Lg). pose proof (rp_one _ N) as S1. pose proof (rp_one _ N') as E1. pose proof ulp_pos as U.
  unfold cover_y. set (p := fst a) in *. set (p' := fst b) in *. 
  assert (OX : owed_x p' = ox (num (glbl_rp p')) (positions p)) by (unfold owed_x, ox; rewrite R1; auto). assert (OY : owed_y p' = oy (num (glbl_rp p')) (positions p)) by (unfold owed_y, oy; rewrite R1; auto).
  assert (TX : (dX p0 p' == dX p0 p + dX p p')%Q) by (unfold dX; ring). assert (TY : (dY p0 p' == dY p0 p + dY p p')%Q) by (unfold dY; ring).
  assert (TX' : (dX p0 p' * (1 - ulp12) == dX p0 p * (1 - ulp12) + dX p p' * (1 - ulp12))%Q) by (rewrite TX; ring).
  rewrite (price_q_ok _ _ Eg) in Pg. destruct D as [(Er & (Wt & Wl) & D) | (D1 & D2 & D3 & D4 & D5 & D6)].
  - destruct (cross_settled_up p p' g rg T So R Hg Lg Eg Er Wt) as [St' Bl]. pose proof (up_ok p p' g T Lg Nx L R1 Wl Wt) as L'.
    assert (B1 : (num (glbl_rp p') <= price_q g)%Q) by (rewrite (price_q_ok _ _ Eg), Er; lra). assert (B2 : (num (glbl_rp p) <= num (glbl_rp p'))%Q) by (rewrite Er; exact Pg).
    destruct (slide_up p g (num (glbl_rp p')) T So St L Hg Lg Nx B1 B2) as [SX SY]. rewrite <- OX in SX. rewrite <- OY in SY.
    assert (K : (- dX p p' * (1 - ulp12) <= (/ num (glbl_rp p) - / num (glbl_rp p')) * num (glbl_liq p) /\ (num (glbl_rp p') - num (glbl_rp p)) * num (glbl_liq p) <= dY p p' + ulp12)%Q).
    { destruct D as [(D1 & D2 & D3 & D4) | (D0 & D1 & D2 & D3 & D4 & D5 & D6 & D7)].
      - assert (Z0 : (num (glbl_liq p) == 0)%Q) by (pose proof N as (_ & _ & _ & _ & _ & N0); lra). unfold dX, dY. rewrite Z0, D3, D4. split; lra.
      - split; [apply inv_ge; auto | lra]. }
    destruct K as [KX KY]. apply (Qmult_le_l _ _ ulp12 U) in Bl. split; [left; csplit; auto |]; lra.
  - destruct D6 as (D7 & D8 & D9 & D10 & D11 & D12 & D13).
    assert (B1 : (num (glbl_rp p') <= price_q g)%Q) by (rewrite (price_q_ok _ _ Eg); exact D2).
    destruct (slide_up p g (num (glbl_rp p')) T So St L Hg Lg Nx B1 D8) as [SX SY]. rewrite <- OX in SX. rewrite <- OY in SY.
    pose proof (inv_ge _ _ _ _ S1 E1 D11) as KX.
    assert (B0 : (0 <= ulp12 * above p)%Q) by (apply Qmult_le_0_compat; [lra | apply qlen_nn]).
    split; [right; split; [split; auto |] |]; lra.
Qed.
Theorem swap_y_cover : forall orc p dy ro p' o, reachable orc p -> settled p -> liq_inv p -> wf dy -> wf ro -> execute_swap_from_y orc p dy ro = Ok (p', o) ->
  (owed_x p' - owed_x p <= num (rx p') - num (rx p) + ulp12 * (num (rx p) - num (rx p')) /\ owed_y p' - owed_y p <= num (ry p') - num (ry p) + ulp12 * qlen (ticks p))%Q.
Proof.
  intros orc p dx ro p' o Hr St L Wd Wo H. pose proof (reachable_nn _ _ Hr) as (W & _). destruct (swap_y_chain _ _ _ _ _ _ H W Wd Wo) as (Pd & s' & C & _).
  assert (X : inv_y (p', s') /\ carried dx (p', s') /\ cover_y p dx (p', s')).
  { refine (chain_inv _ _ (fun c => inv_y c /\ carried dx c /\ cover_y p dx c) _ _ _ C _).
    - intros a b (A1 & A2 & A3) M. csplit; [exact (mv_y_inv _ _ _ _ _ Wd Wo A1 M) | exact (carried_y _ _ _ _ _ Wd Wo A1 A2 M) | exact (cover_y_step _ _ _ _ _ _ Wd Wo Pd A1 A2 M A3)].
    - csplit; [apply (inv_start p W) | exact (carried0 _ _ _ Hr) |]. unfold cover_y; cbn [fst snd]. unfold dX, dY. split; [left; csplit; auto |]; lra. }
  destruct X as (_ & _ & [Y X]). cbn [fst snd] in *. pose proof ulp_pos as U. pose proof (above_all p) as B.
  assert (B0 : forall q, (0 <= ulp12 * above q)%Q) by (intros q; apply Qmult_le_0_compat; [lra | apply qlen_nn]).
  assert (B1 : (ulp12 * above p <= ulp12 * qlen (ticks p))%Q) by (apply Qmult_le_l; auto). specialize (B0 p').
  unfold dX, dY in *. split; [lra |]. destruct Y as [(_ & _ & Y) | [_ Y]]; lra.
Qed.

(** ** Average price *)
Definition at_ease (p : pool) : Prop := settled p \/ (0 < num (glbl_liq p))%Q.
Definition price_x (p0 : pool) (dx : decimal) (c : pool * swp) : Prop :=
  let p := fst c in let r2 := (num (glbl_rp p0) * num (glbl_rp p0))%Q in
  ((at_ease p /\ (num (glbl_rp p) <= num (glbl_rp p0))%Q /\ (- dY p0 p + (2#1) * ulp12 * below p * r2 <= (dX p0 p + (2#1) * ulp12 * below p0) * r2)%Q) \/
   (spent dx c /\ (- dY p0 p <= (dX p0 p + (2#1) * ulp12 * below p0 + ulp12 * (1 + num (glbl_liq p) + num dx)) * r2)%Q)).
Section PriceArith.
Local Open Scope Q_scope.
Lemma sq_le : forall s e r, 1 <= s -> 1 <= e -> s <= r -> e <= r -> s * e <= r * r.
Proof. intros s e r H1 H2 H3 H4. assert (s * e <= r * e) by (apply Qmult_le_compat_r; lra). assert (r * e <= r * r) by (rewrite (Qmult_comm r e); apply Qmult_le_compat_r; lra). lra. Qed.
Lemma sq_le_mul : forall D s e r A, 0 <= D -> 1 <= s -> 1 <= e -> s <= r -> e <= r -> A <= D * (s * e) -> A <= D * (r * r).
Proof. intros D s e r A H0 H1 H2 H3 H4 H. pose proof (sq_le s e r H1 H2 H3 H4) as K. assert (D * (s * e) <= D * (r * r)); [| lra]. rewrite !(Qmult_comm D). apply Qmult_le_compat_r; auto. Qed.
End PriceArith.
Lemma price_x_step : forall p0 orc dx ro a b, nn p0 -> wf dx -> wf ro -> 0 < mant dx -> inv_x a -> carried dx a -> mv_x orc dx ro a b -> price_x p0 dx a -> price_x p0 dx b.
Proof.
  intros p0 orc dx ro a b N0 Wd Wo Pd Ia Ca M HX. destruct HX as [(St & Le & HX) | [Sp _]]; [| destruct (spent_stop_x _ _ _ _ _ Wd Wo Pd Ia M Sp)].
  pose proof (mv_x_records _ _ _ _ _ Wd Wo Ia M) as R. pose proof (carried_x _ _ _ _ _ Wd Wo Ia Ca M) as (T' & N' & _). destruct Ca as (T & N & A & So & To).
  pose proof (mv_x_cases _ _ _ _ _ Wd Wo Ia T N A To M) as (g & rg & Hg & Lg & Nx & Eg & D).
  pose proof (rp_one _ N) as S1. pose proof (rp_one _ N') as E1. pose proof (rp_one _ N0) as Z1. pose proof ulp_pos as U. pose proof N as (_ & _ & _ & _ & _ & Nl).
  unfold price_x in *. set (p := fst a) in *. set (p' := fst b) in *. set (r := num (glbl_rp p0)) in *.
  assert (TX : (dX p0 p' * (r * r) == dX p0 p * (r * r) + dX p p' * (r * r))%Q) by (unfold dX; ring). assert (TY : (dY p0 p' == dY p0 p + dY p p')%Q) by (unfold dY; ring).
  assert (R2 : (0 < r * r)%Q) by (apply Qmult_lt_0_compat; lra).
  assert (UR : (0 < ulp12 * (r * r))%Q) by (apply Qmult_lt_0_compat; lra).
  destruct D as [(Er & (Wt & Wl) & D) | (D1 & D2 & D3 & D4 & D5 & D6 & D7)].
  - left. destruct (cross_settled_down p p' g rg T So R Hg Lg Eg Er Wt) as [St' Bl]. apply (Qmult_le_l _ _ _ UR) in Bl.
    assert (K : (num (glbl_rp p') <= num (glbl_rp p) /\ - dY p p' <= (dX p p' + (2#1) * ulp12) * (r * r))%Q).
    { destruct D as [(D1 & D2 & D3 & D4) | (D0 & D1 & D2 & D3 & D4 & D5 & D6 & D7)].
      - destruct St as [St | St]; [| lra]. pose proof (proj1 (settled_keys _) St g Hg) as [Pg _]. specialize (Pg Lg). rewrite (price_q_ok _ _ Eg) in Pg. rewrite Er. split; auto. unfold dX, dY. rewrite D3, D4. lra.
      - split; auto. apply (sq_le_mul _ (num (glbl_rp p)) (num (glbl_rp p'))); auto; try lra. }
    destruct K as [K1 K2]. csplit; [left; auto | lra |]. lra.
  - right. destruct D7 as (D7 & D8 & D9 & D10 & D11 & D12 & D13). split; [split; auto |]. rewrite D3.
    assert (KX' : (ulp12 * (1 + num (glbl_liq p) + dX p p') <= ulp12 * (1 + num (glbl_liq p) + num dx))%Q) by (apply Qmult_le_l; [auto | lra]).
    assert (KX0 : (0 <= ulp12 * (1 + num (glbl_liq p) + dX p p'))%Q) by (apply Qmult_le_0_compat; lra).
    assert (K2 : (- dY p p' <= (dX p p' + ulp12 * (1 + num (glbl_liq p) + dX p p')) * (r * r))%Q) by (apply (sq_le_mul _ (num (glbl_rp p)) (num (glbl_rp p'))); lra).
    apply (Qmult_le_l _ _ _ R2) in KX'.
    assert (B0 : (0 <= ulp12 * (r * r) * below p)%Q) by (apply Qmult_le_0_compat; [lra | apply qlen_nn]). lra.
Qed.
Theorem swap_x_price : forall orc p dx ro p' o, reachable orc p -> settled p \/ (0 < num (glbl_liq p))%Q -> wf dx -> wf ro -> execute_swap_from_x orc p dx ro = Ok (p', o) ->
  (- num (so_send o) <= (num (so_recv o) - num (so_fee o) + ulp12 * ((2#1) * qlen (ticks p) + 1 + num (glbl_liq p') + num dx)) * (num (glbl_rp p) * num (glbl_rp p)))%Q.
Proof.
  intros orc p dx ro p' o Hr St Wd Wo H. pose proof (reachable_nn _ _ Hr) as N. pose proof N as (W & _). destruct (swap_x_chain _ _ _ _ _ _ H W Wd Wo) as (Pd & s' & C & I & F & _).
  assert (X : inv_x (p', s') /\ carried dx (p', s') /\ price_x p dx (p', s')).
  { refine (chain_inv _ _ (fun c => inv_x c /\ carried dx c /\ price_x p dx c) _ _ _ C _).
    - intros a b (A1 & A2 & A3) M. csplit; [exact (mv_x_inv _ _ _ _ _ Wd Wo A1 M) | exact (carried_x _ _ _ _ _ Wd Wo A1 A2 M) | exact (price_x_step _ _ _ _ _ _ N Wd Wo Pd A1 A2 M A3)].
    - csplit; [apply (inv_start p W) | exact (carried0 _ _ _ Hr) |]. unfold price_x; cbn [fst snd]. unfold dX, dY. left. csplit; auto; lra. }
  destruct X as (_ & (_ & N' & _ & _ & To) & X). cbn [fst snd] in *. pose proof (chain_acct_x _ _ _ _ _ C) as (A1 & _ & A3 & _). 
  destruct (finish_x_out _ _ _ _ F) as (F1 & F2 & F3 & F4 & _). rewrite F1, F2, F4.
  assert (Z0 : (num (s_in (s0 p)) == 0 /\ num (s_fee (s0 p)) == 0 /\ num (s_out (s0 p)) == 0 /\ num (s_adj (s0 p)) == 0)%Q) by (csplit; reflexivity). destruct Z0 as (Z1 & Z2 & Z3 & Z4). rewrite Z1, Z2 in A1. rewrite Z3, Z4 in A3.
  assert (Aj : (0 <= num (s_adj s'))%Q). { destruct I as (_ & (_ & _ & I3 & _) & _). apply num_sign; auto. apply To. }
  assert (EX : (dX p p' == num (s_in s') - num (s_fee s'))%Q) by (unfold dX; lra). assert (EY : (- num (s_out s') <= - dY p p')%Q) by (unfold dY; lra). rewrite <- EX.
  pose proof N' as (_ & _ & _ & _ & _ & N0). pose proof ulp_pos as U. pose proof (rp_one _ N) as R1. pose proof (below_all p) as B.
  set (r2 := (num (glbl_rp p) * num (glbl_rp p))%Q) in *. assert (R2 : (0 < r2)%Q) by (apply Qmult_lt_0_compat; lra). assert (UR : (0 < ulp12 * r2)%Q) by (apply Qmult_lt_0_compat; lra).
  assert (Dx : (0 <= num dx)%Q) by (apply num_sign; auto; lia).
  apply (Qmult_le_l _ _ _ UR) in B. 
  assert (B0 : (0 <= ulp12 * r2 * below p')%Q) by (apply Qmult_le_0_compat; [lra | apply qlen_nn]).
  assert (B2 : (0 <= ulp12 * r2 * (1 + num (glbl_liq p') + num dx))%Q) by (apply Qmult_le_0_compat; lra).
  unfold price_x in X. cbn [fst snd] in X. fold r2 in X. destruct X as [(_ & _ & X) | [_ X]]; lra.
Qed.

Definition price_y (p0 : pool) (dx : decimal) (c : pool * swp) : Prop :=
  let p := fst c in let r2 := (num (glbl_rp p0) * num (glbl_rp p0))%Q in
  (((at_ease p /\ (num (glbl_rp p0) <= num (glbl_rp p))%Q) \/ spent dx c) /\ (- dX p0 p * r2 <= dY p0 p)%Q).
Lemma price_y_step : forall p0 orc dx ro a b, nn p0 -> wf dx -> wf ro -> 0 < mant dx -> inv_y a -> carried dx a -> mv_y orc dx ro a b -> price_y p0 dx a -> price_y p0 dx b.
Proof.
  intros p0 orc dx ro a b N0 Wd Wo Pd Ia Ca M [HL HX]. destruct HL as [(St & Le) | Sp]; [| destruct (spent_stop_y _ _ _ _ _ Wd Wo Pd Ia M Sp)].
  pose proof (mv_y_records _ _ _ _ _ Wd Wo Ia M) as R. pose proof (carried_y _ _ _ _ _ Wd Wo Ia Ca M) as (T' & N' & _). destruct Ca as (T & N & A & So & To).
  pose proof (mv_y_cases _ _ _ _ _ Wd Wo Ia T N A M) as (g & rg & Hg & Lg & Nx & Eg & D).
  pose proof (rp_one _ N0) as Z1. unfold price_y in *. set (p := fst a) in *. set (p' := fst b) in *. set (r := num (glbl_rp p0)) in *.
  assert (TX : (dX p0 p' * (r * r) == dX p0 p * (r * r) + dX p p' * (r * r))%Q) by (unfold dX; ring). assert (TY : (dY p0 p' == dY p0 p + dY p p')%Q) by (unfold dY; ring).
  assert (K : forall q ex, step_up p q ex -> (- dX p q * (r * r) <= dY p q)%Q).
  { intros q ex (D1 & D2 & D3 & D4 & D5 & D6 & D7). pose proof (sq_le r r (num (glbl_rp p)) Z1 Z1 Le Le) as Q. assert (- dX p q * (r * r) <= - dX p q * (num (glbl_rp p) * num (glbl_rp p)))%Q; [| lra]. rewrite !(Qmult_comm (- dX p q)). apply Qmult_le_compat_r; auto. }
  destruct D as [(Er & (Wt & Wl) & D) | (D1 & D2 & D3 & D4 & D5 & D6)].
  - destruct (cross_settled_up p p' g rg T So R Hg Lg Eg Er Wt) as [St' Bl].
    assert (K' : (num (glbl_rp p) <= num (glbl_rp p') /\ - dX p p' * (r * r) <= dY p p')%Q).
    { destruct D as [(D1 & D2 & D3 & D4) | (D0 & D)].
      - destruct St as [St | St]; [| lra]. pose proof (proj1 (settled_keys _) St g Hg) as [_ Pg]. specialize (Pg Lg). rewrite (price_q_ok _ _ Eg) in Pg. rewrite Er. split; auto. unfold dX, dY. rewrite D3, D4. lra.
      - split; [apply D | exact (K _ _ D)]. }
    destruct K' as [K1 K2]. split; [left; split; [left; auto | lra] | lra].
  - specialize (K _ _ D6). split; [right; split; auto | lra].
Qed.
Theorem swap_y_price : forall orc p dy ro p' o, reachable orc p -> settled p \/ (0 < num (glbl_liq p))%Q -> wf dy -> wf ro -> execute_swap_from_y orc p dy ro = Ok (p', o) ->
  (- num (so_send o) * (num (glbl_rp p) * num (glbl_rp p)) <= num (so_recv o) - num (so_fee o))%Q.
Proof.
  intros orc p dx ro p' o Hr St Wd Wo H. pose proof (reachable_nn _ _ Hr) as N. pose proof N as (W & _). destruct (swap_y_chain _ _ _ _ _ _ H W Wd Wo) as (Pd & s' & C & I & F & _).
  assert (X : inv_y (p', s') /\ carried dx (p', s') /\ price_y p dx (p', s')).
  { refine (chain_inv _ _ (fun c => inv_y c /\ carried dx c /\ price_y p dx c) _ _ _ C _).
    - intros a b (A1 & A2 & A3) M. csplit; [exact (mv_y_inv _ _ _ _ _ Wd Wo A1 M) | exact (carried_y _ _ _ _ _ Wd Wo A1 A2 M) | exact (price_y_step _ _ _ _ _ _ N Wd Wo Pd A1 A2 M A3)].
    - csplit; [apply (inv_start p W) | exact (carried0 _ _ _ Hr) |]. unfold price_y; cbn [fst snd]. unfold dX, dY. split; [left; split; auto; lra | lra]. }
  destruct X as (_ & (_ & N' & _ & _ & To) & (_ & X)). cbn [fst snd] in *. pose proof (chain_acct_y _ _ _ _ _ C) as (A1 & _ & A3 & _). 
  destruct (finish_y_out _ _ _ _ F) as (F1 & F2 & F3 & F4 & _). rewrite F1, F2, F4.
  assert (Z0 : (num (s_in (s0 p)) == 0 /\ num (s_fee (s0 p)) == 0 /\ num (s_out (s0 p)) == 0 /\ num (s_adj (s0 p)) == 0)%Q) by (csplit; reflexivity). destruct Z0 as (Z1 & Z2 & Z3 & Z4). rewrite Z1, Z2 in A1. rewrite Z3, Z4 in A3.
  assert (Aj : (0 <= num (s_adj s'))%Q). { destruct I as (_ & (_ & _ & I3 & _) & _). apply num_sign; auto. apply To. }
  assert (EX : (dY p p' == num (s_in s') - num (s_fee s'))%Q) by (unfold dY; lra). assert (EY : (- num (s_out s') <= - dX p p')%Q) by (unfold dX; lra). rewrite <- EX.
  pose proof (rp_one _ N) as R1. set (r2 := (num (glbl_rp p) * num (glbl_rp p))%Q) in *. assert (R2 : (0 < r2)%Q) by (apply Qmult_lt_0_compat; lra).
  apply (Qmult_le_r _ _ _ R2) in EY. lra.
Qed.
