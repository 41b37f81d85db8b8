(** Deposits in which X is the scarcer token. *)
From Coq Require Import ZArith QArith List Bool Lia.
From Verif Require Import Base BaseLemmas DecimalModel DecimalSpec DecimalProofs WfProofs MathModel MathProofs TickProofs BitmapModel BitmapProofs PoolModel PoolWf LpProofs SwapProofs PoolInv PoolNonneg PoolLp PoolGain PoolEnter ChainModel ChainLemmas ChainProofs ChainSpec ChainInv.
Import ListNotations.
Open Scope Z_scope.

(** ** Specification, on integers: amounts and root prices in units of 10^-12. *)
(** The X offered decides: the price [P] is below the range [A, B), or inside it and [X] gives at least one unit less liquidity than [Y] (exact values). *)
Definition x_decides (X Y P A B : Z) : Prop :=
  P <= A \/ (A < P < B /\ X * P * B * (P - A) <= (Y * SC - (P - A)) * SC * (B - P)).
(** What is lost when the product of the two prices that matter is cut to 12 decimals. *)
Definition cut (P A B : Z) : Z := (Z.max P A * B) mod SC.

Lemma liq_x12 : forall X c b l, 0 <= X -> SC <= c -> c < b -> liq_x_only (d12 X) (d12 c) (d12 b) = Ok l -> l = d12 (X * c / SC * b / SC * SC / (b - c)).
Proof.
  intros X c b l HX Hc Hb H. unfold liq_x_only in H. rewrite sub12 in H by (pose proof SCpos; lia). cbn [unwrap bind] in H. replace (is_negative (d12 (b - c)) || is_zero (d12 (b - c))) with false in H by (symmetry; unfold is_zero, d12; cbn [dval]; rewrite (proj2 (Z.eqb_neq (b - c) 0)) by lia; reflexivity). change (mkD X 12 false) with (d12 X) in H. change (mkD c 12 false) with (d12 c) in H.
  rewrite mul12 in H. destruct (X * c <? U128); cbn [bind] in H; [| discriminate H]. change (mkD b 12 false) with (d12 b) in H. rewrite mul12 in H. destruct (_ <? U128); cbn [bind] in H; [| discriminate H].
  change (mkD (b - c) 12 false) with (d12 (b - c)) in H. rewrite div12 in H by lia. destruct (_ <? U128); [| discriminate H]. injection H as <-. reflexivity.
Qed.
Lemma liq_y12 : forall Y a c l, 0 <= Y -> 0 <= a -> a < c -> liq_y_only (d12 Y) (d12 a) (d12 c) = Ok l -> l = d12 (Y * SC / (c - a)).
Proof.
  intros Y a c l HY Ha Hc H. unfold liq_y_only in H. rewrite sub12 in H by lia. cbn [unwrap bind] in H. replace (is_negative (d12 (c - a)) || is_zero (d12 (c - a))) with false in H by (symmetry; unfold is_zero, d12; cbn [dval]; rewrite (proj2 (Z.eqb_neq (c - a) 0)) by lia; reflexivity). change (mkD Y 12 false) with (d12 Y) in H. change (mkD (c - a) 12 false) with (d12 (c - a)) in H.
  rewrite div12 in H by lia. destruct (_ <? U128); [| discriminate H]. injection H as <-. reflexivity.
Qed.
(** the rounded products *)
Lemma floors : forall X c b, 0 <= X -> 0 < c -> 0 < b -> let S := SC in
  X * c / SC * b / SC * (SC * SC) <= X * c * b /\ X * c * b - SC * b - SC * SC < X * c / SC * b / SC * (SC * SC).
Proof.
  intros X c b HX Hc Hb. cbv zeta. pose proof SCpos as SP. set (u := X * c / SC). set (v := u * b / SC).
  pose proof (Z.div_mod (X * c) SC ltac:(lia)). pose proof (Z.mod_pos_bound (X * c) SC SP). fold u in H.
  pose proof (Z.div_mod (u * b) SC ltac:(lia)). pose proof (Z.mod_pos_bound (u * b) SC SP). fold v in H1.
  assert (E1 : X * c * b = SC * (u * b) + (X * c) mod SC * b) by nia. assert (0 <= (X * c) mod SC * b <= SC * b) by nia. nia.
Qed.
Lemma x_back_lo : forall X c b, 0 <= X -> SC <= c -> c < b ->
  let l := X * c / SC * b / SC * SC / (b - c) in let n := l * (b - c) / SC in n <= X * c / SC * b / SC /\ (X * c / SC * b / SC - n - 1) * SC < b - c.
Proof.
  intros X c b HX Hc Hb. cbv zeta. pose proof SCpos as SP. set (v := X * c / SC * b / SC). set (w := b - c). set (l := v * SC / w).
  pose proof (Z.div_mod (v * SC) w ltac:(lia)) as E. pose proof (Z.mod_pos_bound (v * SC) w ltac:(lia)) as M. fold l in E.
  pose proof (Z.div_mod (l * w) SC ltac:(lia)) as E2. pose proof (Z.mod_pos_bound (l * w) SC SP) as M2. nia.
Qed.
Theorem refused_core : forall X c b, 0 <= X -> SC <= c -> c < b ->
  let m := c * b / SC in SC * (m + b + (b - c) + 2 * SC) <= X * ((c * b) mod SC) ->
  let l := X * c / SC * b / SC * SC / (b - c) in X < l * (b - c) / SC * SC / m.
Proof.
  intros X c b HX Hc Hb m T l. pose proof SCpos as SP. destruct (floors X c b HX ltac:(lia) ltac:(lia)) as [_ F]. destruct (x_back_lo X c b HX Hc Hb) as [_ N]. fold l in N.
  set (v := X * c / SC * b / SC) in *. set (n := l * (b - c) / SC) in *.
  assert (MP : SC <= m) by (apply Z.div_le_lower_bound; nia).
  pose proof (Z.div_mod (c * b) SC ltac:(lia)) as E. fold m in E. set (d := (c * b) mod SC) in *.
  cut (X + 1 <= n * SC / m); [lia |]. apply Z.div_le_lower_bound; [lia |].
  (* SC * (m * (X + 1)) <= SC * (n * SC) *)
  assert (A : X * c * b = X * m * SC + X * d) by nia.
  assert (B : n * (SC * SC) > v * (SC * SC) - (SC * SC) - SC * (b - c)) by nia.
  apply Z.mul_le_mono_pos_l with (p := SC); [lia |]. nia.
Qed.
Theorem accepted_core : forall X c b, 0 <= X -> SC <= c -> c < b ->
  let m := c * b / SC in X * ((c * b) mod SC) < SC * m ->
  let l := X * c / SC * b / SC * SC / (b - c) in l * (b - c) / SC * SC / m <= X.
Proof.
  intros X c b HX Hc Hb m T l. pose proof SCpos as SP. destruct (floors X c b HX ltac:(lia) ltac:(lia)) as [F _]. destruct (x_back_lo X c b HX Hc Hb) as [N _]. fold l in N.
  set (v := X * c / SC * b / SC) in *. set (n := l * (b - c) / SC) in *.
  assert (MP : SC <= m) by (apply Z.div_le_lower_bound; nia).
  pose proof (Z.div_mod (c * b) SC ltac:(lia)) as E. fold m in E. set (d := (c * b) mod SC) in *.
  cut (n * SC / m < X + 1); [lia |]. apply Z.div_lt_upper_bound; [lia |].
  assert (A : X * c * b = X * m * SC + X * d) by nia. apply Z.mul_lt_mono_pos_l with (p := SC); [lia |]. nia.
Qed.
Lemma decided_le : forall X Y P A B, 0 <= X -> 0 < P -> A < P -> P < B -> X * P * B * (P - A) <= (Y * SC - (P - A)) * SC * (B - P) ->
  X * P / SC * B / SC * SC / (B - P) <= Y * SC / (P - A).
Proof.
  intros X Y P A B HX HP D1 D2 D. pose proof SCpos as SP. set (u := X * P / SC * B / SC * SC / (B - P)) in *.
  destruct (floors X P B HX ltac:(lia) ltac:(lia)) as [F _]. set (w := X * P / SC * B / SC) in *.
  apply Z.div_le_lower_bound; [lia |]. pose proof (Z.div_mod (w * SC) (B - P) ltac:(lia)) as E. pose proof (Z.mod_pos_bound (w * SC) (B - P) ltac:(lia)) as MB. fold u in E.
  assert (U1 : u * (B - P) * SC <= X * P * B) by nia. assert (U2 : u * (B - P) * SC * (P - A) <= X * P * B * (P - A)) by (apply Z.mul_le_mono_nonneg_r; lia).
  assert (U3 : ((P - A) * u) * (SC * (B - P)) <= (Y * SC - (P - A)) * (SC * (B - P))) by (replace ((P - A) * u * (SC * (B - P))) with (u * (B - P) * SC * (P - A)) by ring; nia).
  assert (U4 : (P - A) * u <= Y * SC - (P - A)) by (apply Z.mul_le_mono_pos_r with (p := SC * (B - P)); [nia | exact U3]). lia.
Qed.
Lemma decided : forall X Y P A B l, 0 <= X -> 0 <= Y -> SC <= P -> SC <= A -> A < B -> x_decides X Y P A B ->
  liq_from_x_y_rp_rng (d12 X) (d12 Y) (d12 P) (d12 A) (d12 B) = Ok l ->
  let c := Z.max P A in c < B /\ l = d12 (X * c / SC * B / SC * SC / (B - c)).
Proof.
  intros X Y P A B l HX HY HP HA HB D H. cbv zeta. pose proof SCpos as SP. unfold liq_from_x_y_rp_rng in H.
  assert (L : d_lte (d12 P) (d12 A) = Ok (P <=? A)) by (unfold d_lte, d12; cbn; reflexivity). rewrite L in H. cbn [unwrap bind] in H.
  destruct D as [D | ((D1 & D2) & D)].
  - rewrite (proj2 (Z.leb_le P A) D) in H. rewrite Z.max_r by lia. split; [lia |]. exact (liq_x12 _ _ _ _ HX HA HB H).
  - rewrite (proj2 (Z.leb_gt P A) D1) in H. assert (L2 : d_lt (d12 P) (d12 B) = Ok (P <? B)) by (unfold d_lt, d12; cbn; reflexivity). rewrite L2 in H. cbn [unwrap bind] in H.
    rewrite (proj2 (Z.ltb_lt P B) D2) in H. rewrite Z.max_l by lia. split; [lia |]. bd H lx E1. bd H ly E2. pose proof (liq_x12 _ _ _ _ HX HP D2 E1) as ->. pose proof (liq_y12 Y A P ly HY ltac:(lia) D1 E2) as ->.
    set (u := X * P / SC * B / SC * SC / (B - P)) in *. set (v := Y * SC / (P - A)) in *.
    assert (M : d_min (d12 u) (d12 v) = if u <=? v then Ok (d12 u) else Ok (d12 v)) by (unfold d_min, d_lte, d12; cbn; destruct (u <=? v); reflexivity). rewrite M in H.
    assert (UV : u <= v) by (apply decided_le; try lia).
    rewrite (proj2 (Z.leb_le u v) UV) in H. injection H as <-. reflexivity.
Qed.
Lemma cl_max : forall P A B, A < B -> Z.max P A < B -> cl P A B = Z.max P A.
Proof. intros. unfold cl. lia. Qed.
(** In every range, once the X offered is large enough for the loss to show, the X needed for the liquidity exceeds the X offered. *)
Theorem more_than_offered : forall X Y P A B l x', 0 <= X -> 0 <= Y -> SC <= P -> SC <= A -> A < B -> x_decides X Y P A B ->
  SC * (Z.max P A * B / SC + 2 * B - Z.max P A + 2 * SC) <= X * cut P A B ->
  liq_from_x_y_rp_rng (d12 X) (d12 Y) (d12 P) (d12 A) (d12 B) = Ok l -> x_from_l_rp_rng l (d12 P) (d12 A) (d12 B) = Ok x' -> exists v, x' = d12 v /\ X < v.
Proof.
  intros X Y P A B l x' HX HY HP HA HB D T H H'. destruct (decided _ _ _ _ _ _ HX HY HP HA HB D H) as [C ->]. rewrite x12 in H' by lia. cbv zeta in H'. rewrite cl_max in H' by lia.
  destruct (_ <? U128); [| discriminate H']. destruct (_ <? U128); [| discriminate H']. destruct (_ <? U128); [| discriminate H']. injection H' as <-. eexists. split; [reflexivity |].
  apply refused_core; try lia. unfold cut in T. lia.
Qed.
Theorem not_more_than_offered : forall X Y P A B l x', 0 <= X -> 0 <= Y -> SC <= P -> SC <= A -> A < B -> x_decides X Y P A B ->
  X * cut P A B < SC * (Z.max P A * B / SC) ->
  liq_from_x_y_rp_rng (d12 X) (d12 Y) (d12 P) (d12 A) (d12 B) = Ok l -> x_from_l_rp_rng l (d12 P) (d12 A) (d12 B) = Ok x' -> exists v, x' = d12 v /\ 0 <= v <= X.
Proof.
  intros X Y P A B l x' HX HY HP HA HB D T H H'. destruct (decided _ _ _ _ _ _ HX HY HP HA HB D H) as [C ->]. rewrite x12 in H' by lia. cbv zeta in H'. rewrite cl_max in H' by lia. pose proof SCpos as SP.
  destruct (_ <? U128); [| discriminate H']. destruct (_ <? U128); [| discriminate H']. destruct (_ <? U128); [| discriminate H']. injection H' as <-. eexists. split; [reflexivity |]. split.
  - assert (0 <= X * Z.max P A / SC) by (apply Z.div_pos; nia). assert (0 <= X * Z.max P A / SC * B / SC) by (apply Z.div_pos; nia). assert (0 <= X * Z.max P A / SC * B / SC * SC / (B - Z.max P A)) by (apply Z.div_pos; nia).
    assert (0 < Z.max P A * B / SC) by (apply Z.div_str_pos; nia). apply Z.div_pos; [| lia]. apply Z.mul_nonneg_nonneg; [apply Z.div_pos; nia | lia].
  - apply accepted_core; try lia. unfold cut in T. lia.
Qed.

(** ** The decimal pool *)
(** mod.rs:536-547: such a deposit panics, whatever the state of the pool. *)
Theorem x_deposit_refused : forall orc p user x y rpa rpb lo up a b, reachable orc p -> nonneg x -> nonneg y -> dscale x = 12 -> dscale y = 12 ->
  range_of p rpa rpb lo up -> tick_to_rp lo = Ok a -> tick_to_rp up = Ok b ->
  let '(X, Y, P, A, B) := (dval x, dval y, dval (glbl_rp p), dval a, dval b) in
  x_decides X Y P A B -> SC * (Z.max P A * B / SC + 2 * B - Z.max P A + 2 * SC) <= X * cut P A B ->
  forall r, deposit p user x y rpa rpb <> Ok r.
Proof.
  intros orc p user x y rpa rpb lo up a b R [Wx Fx] [Wy Fy] Sx Sy RO Ea Eb D T [p' o] H.
  destruct (range_prices _ _ _ _ _ _ _ _ R RO Ea Eb) as ([Wr Fr] & Sr & Br & _ & [Wa Fa] & Sa & Ba & [Wb Fb] & Sb & Lt & _).
  destruct (deposit_inv _ _ _ _ _ _ _ _ H) as (lo' & up' & a' & b' & p1 & nx & ny & nxf & nxa & nyf & nya & E1 & E2 & _ & E3 & E4 & E5 & _ & E6 & E7 & _).
  destruct RO as (O1 & O2 & _). rewrite O1 in E1. injection E1 as <-. rewrite O2 in E2. injection E2 as <-. rewrite Ea in E3. injection E3 as <-. rewrite Eb in E4. injection E4 as <-.
  rewrite (d12_eta x Sx Fx), (d12_eta y Sy Fy), (d12_eta _ Sr Fr), (d12_eta a Sa Fa), (d12_eta b Sb Fb) in E5. rewrite (d12_eta _ Sr Fr), (d12_eta a Sa Fa), (d12_eta b Sb Fb) in E6.
  assert (0 <= dval x) by apply Wx. assert (0 <= dval y) by apply Wy.
  destruct (more_than_offered _ _ _ _ _ _ _ H0 H1 Br Ba Lt D T E5 E6) as (v & V & L). rewrite V, (d12_eta x Sx Fx) in E7.
  unfold d_gt, d12 in E7; cbn in E7. injection E7 as E7. rewrite (proj2 (Z.ltb_lt (dval x) v) L) in E7 || rewrite (proj2 (Z.gtb_lt v (dval x)) L) in E7. discriminate E7.
Qed.
(** When the loss does not show, the amounts computed lie within the offer. *)
Theorem x_deposit_quoted : forall orc p x y rpa rpb lo up a b l xi yi, reachable orc p -> nonneg x -> nonneg y -> dscale x = 12 -> dscale y = 12 ->
  range_of p rpa rpb lo up -> tick_to_rp lo = Ok a -> tick_to_rp up = Ok b ->
  liq_from_x_y_rp_rng x y (glbl_rp p) a b = Ok l -> x_from_l_rp_rng l (glbl_rp p) a b = Ok xi -> y_from_l_rp_rng l (glbl_rp p) a b = Ok yi ->
  let '(X, Y, P, A, B) := (dval x, dval y, dval (glbl_rp p), dval a, dval b) in
  x_decides X Y P A B -> X * cut P A B < SC * (Z.max P A * B / SC) -> (num xi <= num x /\ num yi <= num y)%Q.
Proof.
  intros orc p x y rpa rpb lo up a b l xi yi R [Wx Fx] [Wy Fy] Sx Sy RO Ea Eb E5 E6 E7 D T.
  destruct (range_prices _ _ _ _ _ _ _ _ R RO Ea Eb) as ([Wr Fr] & Sr & Br & _ & [Wa Fa] & Sa & Ba & [Wb Fb] & Sb & Lt & _).
  rewrite (d12_eta x Sx Fx), (d12_eta y Sy Fy), (d12_eta _ Sr Fr), (d12_eta a Sa Fa), (d12_eta b Sb Fb) in E5. rewrite (d12_eta _ Sr Fr), (d12_eta a Sa Fa), (d12_eta b Sb Fb) in E6, E7.
  assert (HX : 0 <= dval x) by apply Wx. assert (HY : 0 <= dval y) by apply Wy.
  destruct (not_more_than_offered _ _ _ _ _ _ _ HX HY Br Ba Lt D T E5 E6) as (v & -> & L1 & L2).
  destruct (decided _ _ _ _ _ _ HX HY Br Ba Lt D E5) as [C EL]. pose proof SCpos as SP.
  assert (NUM : forall u w, u <= w -> (num (d12 u) <= num (d12 w))%Q).
  { intros u w Huw. unfold num, mant, d12. cbn [dneg dval dscale]. apply (proj2 (frac_le u (10 ^ 12) w (10 ^ 12) eq_refl eq_refl)). apply Z.mul_le_mono_nonneg_r; [discriminate | exact Huw]. }
  rewrite (d12_eta x Sx Fx), (d12_eta y Sy Fy). split; [apply NUM; lia |].
  set (c := Z.max (dval (glbl_rp p)) (dval a)) in *. set (lv := dval x * c / SC * dval b / SC * SC / (dval b - c)) in *. subst l.
  rewrite y12 in E7 by lia. cbv zeta in E7. destruct (_ <? U128); [| discriminate E7]. injection E7 as <-. apply NUM.
  rewrite cl_max by (fold c; lia). fold c. destruct D as [D | ((D1 & D2) & D)].
  - replace (c - dval a) with 0 by (unfold c; lia). rewrite Z.mul_0_r. rewrite Z.div_0_l by lia. lia.
  - assert (LV : lv <= dval y * SC / (dval (glbl_rp p) - dval a)).
    { unfold lv, c. rewrite Z.max_l by lia. apply decided_le; try lia. }
    assert (lv * (c - dval a) <= dval y * SC).
    { unfold c. rewrite Z.max_l by lia. pose proof (Z.mul_div_le (dval y * SC) (dval (glbl_rp p) - dval a) ltac:(lia)). assert (lv * (dval (glbl_rp p) - dval a) <= dval y * SC / (dval (glbl_rp p) - dval a) * (dval (glbl_rp p) - dval a)) by (apply Z.mul_le_mono_nonneg_r; lia). lia. }
    apply Z.div_le_upper_bound; lia.
Qed.

(** ** On chain *)
Lemma i_deposit_within : forall s u l h c xa ya to s' p a b, shape s -> 0 <= l -> 0 <= xa < U64 -> 0 <= ya < U64 ->
  tick_to_rp c = Ok p -> tick_to_rp l = Ok a -> tick_to_rp h = Ok b -> i_deposit s u l h c xa ya to = Ok s' ->
  exists d x, SC <= dval p /\ SC <= dval a /\ dval a < dval b /\ liq_from_x_y_rp_rng (d12 (xa * SC)) (d12 (ya * SC)) (d12 (dval p)) (d12 (dval a)) (d12 (dval b)) = Ok d /\
    x_from_l_rp_rng d (d12 (dval p)) (d12 (dval a)) (d12 (dval b)) = Ok (d12 x) /\ x <= xa * SC.
Proof.
  intros s u l h c xa ya to s' p' a' b' SH Hl Hx Hy Ep Ea Eb H. pose proof SH as (SG & ST & SP & SB). pose proof SCpos as SCp. unfold i_deposit in H. bd H acc E0. destruct acc as [[[[[g bm] ps] lt] ut] cur].
  destruct (load_ok _ _ _ _ _ _ _ _ _ _ _ E0) as (L1 & L2 & L3 & L4 & L5 & L6 & L7 & L8).
  pose proof (SG _ L1) as PG. pose proof (SP _ _ L3) as PP. destruct (ST _ _ L4) as [PL NL]. destruct (ST _ _ L5) as [PU NU]. pose proof (SB _ L2) as WB.
  rewrite !from_u64_Ok in H by auto. cbn [bind] in H. rewrite Ea in H. cbn [bind] in H. rewrite Eb in H. cbn [bind] in H. rewrite Ep in H. cbn [bind] in H.
  destruct (prices_of c l h p' a' b' Hl L7 Ep Ea Eb) as (Q1 & Q2 & Q3 & PR).
  pose proof PR as (E3 & E1 & E2 & B1 & B2 & B3). rewrite Q1, Q2, Q3 in H.
  set (p := dval p') in *. set (a := dval a') in *. set (b := dval b') in *.
  assert (NN : forall v, 0 <= v < U128 -> nonneg (d12 v)) by (intros v Hv; repeat split; cbn; try lia; apply Hv).
  assert (SMALL : forall n, 0 <= n < U64 -> 0 <= n * SC < U128) by (intros n Hn; change SC with 1000000000000; change U64 with 18446744073709551616 in Hn; change U128 with 340282366920938463463374607431768211456; lia).
  bd H dd E4.
  assert (Wp : nonneg (d12 p)) by (destruct (tick_rp_wf _ _ E3) as (W & _ & N & _); split; auto).
  assert (Wa : nonneg (d12 a)) by (destruct (tick_rp_wf _ _ E1) as (W & _ & N & _); split; auto).
  assert (Wb : nonneg (d12 b)) by (destruct (tick_rp_wf _ _ E2) as (W & _ & N & _); split; auto).
  pose proof (liq_spec _ _ _ _ _ _ (NN _ (SMALL _ Hx)) (NN _ (SMALL _ Hy)) Wp Wa Wb E4) as (ND & _ & _ & _ & SD).
  assert (D12 : dd = d12 (dval dd)) by (apply d12_eta; [destruct SD as [(_ & S & _) | [(_ & S & _) | (_ & S & _)]]; exact S | apply ND]).
  assert (BD : 0 <= dval dd < U128) by apply ND. set (d := dval dd) in *. clearbody d. subst dd. clear ND SD.
  cbn [d12 dneg] in H. change (mkD d 12 false) with (d12 d) in H.
  bd H bm1 E5. bd H bm' E6. bd H vx E7. bd H vy E8. destruct (x12_ok d p a b vx ltac:(lia) B1 B2 ltac:(lia) E7) as (X1 & X2 & X3). destruct (y12_ok d p a b vy ltac:(lia) B1 B2 ltac:(lia) E8) as (Y1 & Y2 & Y3).
  set (x := dval vx) in *. set (y := dval vy) in *. clearbody x y. subst vx vy.
  destruct PG as (G1 & G2 & G3). destruct PP as (P1 & P2 & P3 & P4 & P5 & P6). rewrite G3, P5, (proj2 (proj2 (proj2 (proj2 (proj2 PL))))), (proj2 (proj2 (proj2 (proj2 (proj2 PU))))) in H. cbn [fe_scale fee0] in H. change (mkFee 12 0 0 0 0) with fee0 in H. rewrite fees_zero in H. cbn [bind] in H.
  bd H upd E9. destruct upd as [[ps' lt'] ut']. bd H g' E10.
  destruct (fee_part x) as (F1 & F2 & F3). rewrite F1, F2 in H. cbn [fe_scale fee0] in H. rewrite F3 in H. destruct (fee_part y) as (_ & _ & F4). rewrite F4 in H. cbn [bind] in H.
  bd H xd E11. apply sub_zero12 in E11; [| lia]. subst xd. bd H yd E12. apply sub_zero12 in E12; [| lia]. subst yd.
  bd H qx E13. destruct qx; [discriminate H |].
  apply gt_m in E13; [| cbn; lia | cbn; pose proof (SMALL _ Hx); lia].
  assert (x <= xa * SC). { destruct E13 as (_ & _ & G & _). exact (G eq_refl). }
  exists (d12 d), x. csplit; auto.
Qed.
(** deposit.rs:273-279: in no state of the program does such a deposit go through. *)
Theorem x_deposit_refused_chain : forall s u l h c xa ya to p a b, reached s -> tick_to_rp c = Ok p -> tick_to_rp l = Ok a -> tick_to_rp h = Ok b ->
  let '(X, Y, P, A, B) := (xa * SC, ya * SC, dval p, dval a, dval b) in
  x_decides X Y P A B -> SC * (Z.max P A * B / SC + 2 * B - Z.max P A + 2 * SC) <= X * cut P A B ->
  forall s', exec s (IDeposit u l h c xa ya to) <> Ok s'.
Proof.
  intros s u l h c xa ya to p a b R Ep Ea Eb D T s' H. unfold exec in H. destruct (args_ok _) eqn:AO; cbn [negb] in H; [| discriminate H].
  cbn [args_ok] in AO. unfold is_u64 in AO. rewrite !andb_true_iff, !Z.leb_le, !Z.ltb_lt in AO. pose proof SCpos as SP.
  destruct (i_deposit_within s u l h c xa ya to s' p a b (i_shape _ (reached_inv _ R)) ltac:(lia) ltac:(lia) ltac:(lia) Ep Ea Eb H) as (d & x & B1 & B2 & B3 & E1 & E2 & L).
  destruct (more_than_offered (xa * SC) (ya * SC) _ _ _ _ _ ltac:(nia) ltac:(nia) B1 B2 B3 D T E1 E2) as (v & V & LV). injection V as ->. lia.
Qed.
Theorem x_deposit_fits : forall orc p x y rpa rpb lo up a b l xi yi, reachable orc p -> nonneg x -> nonneg y -> dscale x = 12 -> dscale y = 12 ->
  range_of p rpa rpb lo up -> tick_to_rp lo = Ok a -> tick_to_rp up = Ok b ->
  liq_from_x_y_rp_rng x y (glbl_rp p) a b = Ok l -> x_from_l_rp_rng l (glbl_rp p) a b = Ok xi -> y_from_l_rp_rng l (glbl_rp p) a b = Ok yi ->
  let '(X, Y, P, A, B) := (dval x, dval y, dval (glbl_rp p), dval a, dval b) in
  x_decides X Y P A B -> X * cut P A B < SC * (Z.max P A * B / SC) -> quoted p x y lo up l xi yi.
Proof.
  intros orc p x y rpa rpb lo up a b l xi yi R Nx Ny Sx Sy RO Ea Eb E1 E2 E3 D T. pose proof (x_deposit_quoted _ _ _ _ _ _ _ _ _ _ _ _ _ R Nx Ny Sx Sy RO Ea Eb E1 E2 E3 D T) as Q.
  exists a, b. exact (conj Ea (conj Eb (conj E1 (conj E2 (conj E3 Q))))).
Qed.
