(** The funds of the f64 pool: what is held against what was paid in and paid out, with the accumulated rounding. *)
From Coq Require Import ZArith Reals Lra Lia List Bool String Floats.SpecFloat.
From Flocq Require Import Core BinarySingleNaN.
From Verif Require Import Base FloatBase FloatModel FloatFacts FloatWf FloatSwap FloatLp.
Import ListNotations.
Open Scope R_scope.

(** *** one addition or subtraction *)
Lemma add_inv a b : f64_ok a -> f64_ok b -> f_finite (fadd a b) = true -> fok a /\ fok b.
Proof.
  intros A B F. destruct a as [s|s| |s m e], b as [s'|s'| |s' m' e']; try discriminate;
    try (split; split; auto; reflexivity). unfold fadd, SFadd in F. destruct (Bool.eqb s s'); discriminate.
Qed.
Lemma sub_inv a b : f64_ok a -> f64_ok b -> f_finite (fsub a b) = true -> fok a /\ fok b.
Proof.
  intros A B F. destruct a as [s|s| |s m e], b as [s'|s'| |s' m' e']; try discriminate;
    try (split; split; auto; reflexivity). unfold fsub, SFsub in F. destruct (Bool.eqb s _); discriminate.
Qed.
Lemma u53_small : 0 < u53 < / 4.
Proof. rewrite u53_val. lra. Qed.
Lemma back_err r s M : Rabs (r - s) <= u53 * Rabs s -> Rabs r <= M -> Rabs (r - s) <= 2 * u53 * M /\ Rabs s <= 2 * M.
Proof.
  intros E R. pose proof u53_small as U. pose proof (Rabs_pos s) as P.
  assert (T : Rabs s <= Rabs r + Rabs (r - s)) by (replace s with (r - (r - s)) at 1 by ring; eapply Rle_trans; [apply Rabs_triang|rewrite Rabs_Ropp; lra]).
  assert (u53 * Rabs s <= / 4 * Rabs s) by (apply Rmult_le_compat_r; lra).
  assert (S2 : Rabs s <= 2 * M) by lra. split; [|exact S2].
  assert (u53 * Rabs s <= u53 * (2 * M)) by (apply Rmult_le_compat_l; lra). lra.
Qed.
(** the rounding error of a sum, from the size of the result *)
Lemma add_back a b M : f64_ok a -> f64_ok b -> fok (fadd a b) -> Rabs (fval (fadd a b)) <= M ->
  fok a /\ fok b /\ Rabs (fval (fadd a b) - (fval a + fval b)) <= 2 * u53 * M /\ Rabs (fval a + fval b) <= 2 * M.
Proof.
  intros A B F R. destruct (add_inv a b A B (proj2 F)) as [FA FB]. split; [exact FA|]. split; [exact FB|].
  apply back_err; [|exact R]. rewrite (add_R a b FA FB (proj2 F)). apply plus_err; now apply fval_fmt.
Qed.
Lemma sub_back a b M : f64_ok a -> f64_ok b -> fok (fsub a b) -> Rabs (fval (fsub a b)) <= M ->
  fok a /\ fok b /\ Rabs (fval (fsub a b) - (fval a - fval b)) <= 2 * u53 * M /\ Rabs (fval a - fval b) <= 2 * M.
Proof.
  intros A B F R. destruct (sub_inv a b A B (proj2 F)) as [FA FB]. split; [exact FA|]. split; [exact FB|].
  apply back_err; [|exact R]. rewrite (sub_R a b FA FB (proj2 F)). apply minus_err; now apply fval_fmt.
Qed.
(** ... and from the size of the operands *)
Definition big : R := bpow radix2 1010.
Lemma big_top r s M : Rabs (r - s) <= u53 * Rabs s -> Rabs s <= M -> M <= big -> Rabs r < top /\ Rabs (r - s) <= u53 * M.
Proof.
  intros E S G. pose proof u53_small as U. pose proof (Rabs_pos s) as P.
  assert (T : Rabs r <= Rabs s + Rabs (r - s)) by (replace r with (s + (r - s)) at 1 by ring; apply Rabs_triang).
  assert (u53 * Rabs s <= / 4 * Rabs s) by (apply Rmult_le_compat_r; lra).
  assert (u53 * Rabs s <= u53 * M) by (apply Rmult_le_compat_l; lra). split; [|lra].
  assert (Q : 2 * big <= top) by (unfold big, top; change 2 with (bpow radix2 1); rewrite <- bpow_plus; apply bpow_le; lia).
  pose proof (bpow_gt_0 radix2 1010) as BP. fold big in BP. lra.
Qed.
Lemma add_fwd a b M : fok a -> fok b -> Rabs (fval a + fval b) <= M -> M <= big ->
  fok (fadd a b) /\ Rabs (fval (fadd a b) - (fval a + fval b)) <= u53 * M.
Proof.
  intros A B S G. destruct (big_top _ _ _ (plus_err _ _ (fval_fmt a (proj1 A)) (fval_fmt b (proj1 B))) S G) as [T E].
  destruct (add_R' a b A B T) as [F V]. rewrite V. auto.
Qed.
Lemma sub_fwd a b M : fok a -> fok b -> Rabs (fval a - fval b) <= M -> M <= big ->
  fok (fsub a b) /\ Rabs (fval (fsub a b) - (fval a - fval b)) <= u53 * M.
Proof.
  intros A B S G. destruct (big_top _ _ _ (minus_err _ _ (fval_fmt a (proj1 A)) (fval_fmt b (proj1 B))) S G) as [T E].
  destruct (sub_R' a b A B T) as [F V]. rewrite V. auto.
Qed.

Lemma room B : B <= bpow radix2 1000 -> 16 * B <= big.
Proof.
  intros G. apply Rle_trans with (16 * bpow radix2 1000); [lra|]. unfold big. change 16 with (bpow radix2 4). rewrite <- bpow_plus. apply bpow_le. lia.
Qed.

(** *** a swap as a chain of steps on the four funds it touches and its two totals *)
Record vec := mkV { va : f64; vf : f64; vs : f64; vj : f64; vi : f64; vo : f64 }.
Definition vwf (v : vec) : Prop := f64_ok (va v) /\ f64_ok (vf v) /\ f64_ok (vs v) /\ f64_ok (vj v) /\ f64_ok (vi v) /\ f64_ok (vo v).
Definition vfin (v : vec) : Prop := fok (va v) /\ fok (vf v) /\ fok (vs v) /\ fok (vj v) /\ fok (vi v) /\ fok (vo v).
Definition vstep (v : vec) (w : fwithin) (v' : vec) : Prop :=
  va v' = fadd (va v) (fw_recv w) /\ vf v' = fadd (vf v) (fw_fee w) /\ vs v' = fadd (vs v) (fsub (fw_send w) (fw_adj w)) /\
  vj v' = fadd (vj v) (fw_adj w) /\ vi v' = fadd (vi v) (fadd (fw_recv w) (fw_fee w)) /\ vo v' = fadd (vo v) (fw_send w) /\
  fle f_zero (fsub (fadd (vs v) (fw_send w)) (fw_adj w)) = true.
(** [c0]: without HMM adjustments *)
Inductive chain (c0 : Prop) : nat -> vec -> vec -> Prop :=
| ch_O v : chain c0 0 v v
| ch_S n v w v1 v2 : vwf v -> w_ok w -> (c0 -> fval (fw_adj w) = 0) -> vstep v w v1 -> chain c0 n v1 v2 -> chain c0 (S n) v v2.

Definition vle (v v' : vec) : Prop :=
  fval (va v) <= fval (va v') /\ fval (vf v) <= fval (vf v') /\ fval (vs v') <= fval (vs v) /\ fval (vj v) <= fval (vj v') /\
  fval (vi v) <= fval (vi v') /\ fval (vo v') <= fval (vo v).
Lemma add_up a b : f64_ok a -> f64_ok b -> flt b f_zero = false -> fok (fadd a b) -> fok a /\ fok b /\ 0 <= fval b /\ fval a <= fval (fadd a b).
Proof.
  intros A B L F. destruct (add_inv a b A B (proj2 F)) as [FA FB]. pose proof (flt_f _ _ FB fok_zero L) as P. rewrite fval_zero in P.
  split; [exact FA|]. split; [exact FB|]. split; [exact P|]. rewrite (add_R a b FA FB (proj2 F)), <- (rnd_fval a A) at 1. apply rnd_le. lra.
Qed.
Lemma add_down a b : f64_ok a -> f64_ok b -> fok (fadd a b) -> fval b <= 0 -> fok a /\ fok b /\ fval (fadd a b) <= fval a.
Proof.
  intros A B F P. destruct (add_inv a b A B (proj2 F)) as [FA FB].
  split; [exact FA|]. split; [exact FB|]. rewrite (add_R a b FA FB (proj2 F)). rewrite <- (rnd_fval a A) at 2. apply rnd_le. lra.
Qed.
Lemma vstep_wf v w v' : vwf v -> w_ok w -> vstep v w v' -> vwf v'.
Proof.
  intros (A & B & C & D & E & F) (W1 & W2 & W3 & W4 & W5 & _) (T1 & T2 & T3 & T4 & T5 & T6 & T7).
  unfold vwf. rewrite T1, T2, T3, T4, T5, T6. auto 12 with fok.
Qed.
Lemma vstep_back v w v' : vwf v -> w_ok w -> vstep v w v' -> vfin v' -> vfin v /\ vle v v' /\
  fok (fw_recv w) /\ fok (fw_send w) /\ fok (fw_adj w) /\ fok (fw_fee w) /\
  0 <= fval (fw_recv w) /\ fval (fw_send w) <= 0 /\ 0 <= fval (fw_adj w) /\ 0 <= fval (fw_fee w) /\
  fok (fsub (fw_send w) (fw_adj w)) /\ fok (fadd (fw_recv w) (fw_fee w)).
Proof.
  intros (A & B & C & D & E & F) (W1 & W2 & W3 & W4 & W5 & W6 & W7 & W8 & W9) (T1 & T2 & T3 & T4 & T5 & T6 & T7) (V1 & V2 & V3 & V4 & V5 & V6).
  unfold vfin, vle. rewrite T1 in *. rewrite T2 in *. rewrite T3 in *. rewrite T4 in *. rewrite T5 in *. rewrite T6 in *.
  destruct (add_up _ _ A W1 W6 V1) as (a1 & a2 & a3 & a4). destruct (add_up _ _ B W5 W9 V2) as (b1 & b2 & b3 & b4).
  destruct (add_up _ _ D W4 W8 V4) as (d1 & d2 & d3 & d4).
  destruct (add_inv _ _ F W2 (proj2 V6)) as [_ f2]. pose proof (flt_f _ _ fok_zero f2 W7) as f3. rewrite fval_zero in f3.
  destruct (add_down _ _ F W2 V6 f3) as (f1 & _ & f4).
  destruct (add_inv _ _ C (sub_ok _ _ W2 W4) (proj2 V3)) as [_ c2].
  assert (c3 : fval (fsub (fw_send w) (fw_adj w)) <= 0).
  { rewrite (sub_R _ _ f2 d2 (proj2 c2)). rewrite <- rnd_0. apply rnd_le. lra. }
  destruct (add_down _ _ C (sub_ok _ _ W2 W4) V3 c3) as (c1 & _ & c4).
  destruct (add_inv _ _ E (add_ok _ _ W1 W5) (proj2 V5)) as [e1 e2].
  assert (e3 : 0 <= fval (fadd (fw_recv w) (fw_fee w))).
  { rewrite (add_R _ _ a2 b2 (proj2 e2)). apply rnd_ge0. lra. }
  assert (e4 : fval (vi v) <= fval (fadd (vi v) (fadd (fw_recv w) (fw_fee w)))).
  { rewrite (add_R _ _ e1 e2 (proj2 V5)), <- (rnd_fval _ E) at 1. apply rnd_le. lra. }
  repeat split; solve [assumption|apply a1|apply b1|apply c1|apply d1|apply e1|apply f1|apply a2|apply b2|apply d2|apply f2|apply c2|apply e2].
Qed.
Lemma chain_back c0 n v v' : chain c0 n v v' -> vfin v' -> vfin v /\ vle v v'.
Proof.
  induction 1 as [v|n v w v1 v2 A W A0 S C IH]; intros F; [split; [exact F|repeat split; lra]|].
  destruct (IH F) as [F1 (L1 & L2 & L3 & L4 & L5 & L6)]. destruct (vstep_back _ _ _ A W S F1) as (F0 & (K1 & K2 & K3 & K4 & K5 & K6) & _).
  split; [exact F0|]. repeat split; lra.
Qed.

Definition vin (B : R) (v : vec) : Prop :=
  Rabs (fval (va v)) <= B /\ Rabs (fval (vf v)) <= B /\ Rabs (fval (vs v)) <= B /\ Rabs (fval (vj v)) <= B /\
  Rabs (fval (vi v)) <= 2 * B /\ Rabs (fval (vo v)) <= B.
Lemma between a b c M : a <= b -> b <= c -> Rabs a <= M -> Rabs c <= M -> Rabs b <= M.
Proof. intros H1 H2 H3 H4. apply Rabs_le. apply Rabs_le_inv in H3, H4. lra. Qed.
Lemma vin_between B v v1 v2 : vle v v1 -> vle v1 v2 -> vin B v -> vin B v2 -> vin B v1.
Proof.
  intros (L1 & L2 & L3 & L4 & L5 & L6) (K1 & K2 & K3 & K4 & K5 & K6) (I1 & I2 & I3 & I4 & I5 & I6) (J1 & J2 & J3 & J4 & J5 & J6).
  exact (conj (between _ _ _ _ L1 K1 I1 J1) (conj (between _ _ _ _ L2 K2 I2 J2) (conj (between _ _ _ _ K3 L3 J3 I3)
    (conj (between _ _ _ _ L4 K4 I4 J4) (conj (between _ _ _ _ L5 K5 I5 J5) (between _ _ _ _ K6 L6 J6 I6)))))).
Qed.
Definition in_gap (v v' : vec) : R := (fval (va v') + fval (vf v')) - (fval (va v) + fval (vf v)) - (fval (vi v') - fval (vi v)).
Definition out_gap (v v' : vec) : R := (fval (vs v') + fval (vj v')) - (fval (vs v) + fval (vj v)) - (fval (vo v') - fval (vo v)).
Ltac rabs := repeat match goal with H : Rabs _ <= _ |- _ => apply Rabs_le_inv in H end.
Lemma vstep_gap B v w v' : 0 <= B -> 8 * B <= big -> vwf v -> w_ok w -> vstep v w v' -> vfin v' -> vin B v -> vin B v' ->
  Rabs (in_gap v v') <= 24 * u53 * B /\ Rabs (out_gap v v') <= 24 * u53 * B.
Proof.
  intros P G A W S F I J. destruct (vstep_back _ _ _ A W S F) as (F0 & L & f1 & f2 & f3 & f4 & p1 & p2 & p3 & p4 & f5 & f6).
  destruct A as (A1 & A2 & A3 & A4 & A5 & A6). destruct S as (T1 & T2 & T3 & T4 & T5 & T6 & T7). destruct F as (V1 & V2 & V3 & V4 & V5 & V6).
  destruct I as (I1 & I2 & I3 & I4 & I5 & I6), J as (J1 & J2 & J3 & J4 & J5 & J6). unfold in_gap, out_gap. clear L F0 W.
  rewrite T1 in *. rewrite T2 in *. rewrite T3 in *. rewrite T4 in *. rewrite T5 in *. rewrite T6 in *.
  destruct (add_back _ _ _ A1 (proj1 f1) V1 J1) as (_ & _ & e1 & s1). destruct (add_back _ _ _ A2 (proj1 f4) V2 J2) as (_ & _ & e2 & s2).
  destruct (add_back _ _ _ A3 (proj1 f5) V3 J3) as (_ & _ & e3 & s3). destruct (add_back _ _ _ A4 (proj1 f3) V4 J4) as (_ & _ & e4 & s4).
  destruct (add_back _ _ _ A5 (proj1 f6) V5 J5) as (_ & _ & e5 & s5). destruct (add_back _ _ _ A6 (proj1 f2) V6 J6) as (_ & _ & e6 & s6).
  assert (R1 : Rabs (fval (fw_recv w) + fval (fw_fee w)) <= 6 * B) by (rabs; apply Rabs_le; lra).
  assert (R2 : Rabs (fval (fw_send w) - fval (fw_adj w)) <= 6 * B) by (rabs; apply Rabs_le; lra).
  destruct (add_fwd _ _ _ f1 f4 R1 ltac:(lra)) as [_ e7]. destruct (sub_fwd _ _ _ f2 f3 R2 ltac:(lra)) as [_ e8].
  pose proof u53_pos as U. assert (UB : 0 <= u53 * B) by (apply Rmult_le_pos; lra).
  clear s1 s2 s3 s4 s5 s6 R1 R2 I1 I2 I3 I4 I5 I6 J1 J2 J3 J4 J5 J6. rabs.
  split; apply Rabs_le; lra.
Qed.
Lemma chain_gap B c0 n v v' : 0 <= B -> 8 * B <= big -> chain c0 n v v' -> vfin v' -> vin B v -> vin B v' ->
  Rabs (in_gap v v') <= INR n * (24 * u53 * B) /\ Rabs (out_gap v v') <= INR n * (24 * u53 * B).
Proof.
  intros P G. induction 1 as [v|n v w v1 v2 A W A0 S C IH]; intros F I J.
  - unfold in_gap, out_gap. cbn [INR]. split; apply Rabs_le; lra.
  - destruct (chain_back _ _ _ _ C F) as [F1 L1]. destruct (vstep_back _ _ _ A W S F1) as (F0 & L0 & _).
    assert (I1 := vin_between _ _ _ _ L0 L1 I J). destruct (IH F I1 J) as [H1 H2]. destruct (vstep_gap _ _ _ _ P G A W S F1 I I1) as [H3 H4].
    rewrite S_INR. set (K := 24 * u53 * B) in *. clearbody K. unfold in_gap, out_gap in *.
    rabs. split; apply Rabs_le; lra.
Qed.

(** *** reserves stay above zero during a swap, up to rounding *)
Lemma rnd_pos_inv x y : generic_format radix2 fexp64 x -> generic_format radix2 fexp64 y -> 0 <= rnd (x + y) -> 0 <= x + y.
Proof.
  intros X Y H. pose proof (plus_err x y X Y) as E. pose proof u53_small as U. destruct (Rle_lt_dec 0 (x + y)) as [|N]; [assumption|].
  rewrite (Rabs_left _ N) in E. rabs. exfalso. nra.
Qed.
Lemma sub_neg a b : fsub a b = fadd a (fneg b).
Proof.
  destruct a as [[|]|[|]| |s m e], b as [[|]|[|]| |s' m' e']; try reflexivity. unfold fsub, fadd, fneg, SFsub, SFadd, SFopp.
  f_equal. destruct s'; cbn [cond_Zopp negb]; rewrite ?Z.sub_opp_r; lia.
Qed.
Lemma sign_R (c : bf) : (Bsign c = false -> 0 <= B2R c) /\ (Bsign c = true -> B2R c <= 0).
Proof.
  destruct c as [s|s| |s m e H]; cbn [Bsign B2R]; split; intros E; subst; try lra.
  - now apply F2R_ge_0.
  - now apply F2R_le_0.
Qed.
Lemma add_cases a b : fok a -> fok b -> fok (fadd a b) \/ top <= Rabs (rnd (fval a + fval b)) /\
  (fadd a b = S754_infinity false /\ 0 <= fval a /\ 0 <= fval b \/ fadd a b = S754_infinity true /\ fval a <= 0 /\ fval b <= 0).
Proof.
  intros FA FB. destruct (Rlt_le_dec (Rabs (rnd (fval a + fval b))) top) as [L|G]; [left; now apply add_R'|right; split; [exact G|]].
  destruct FA as [A FA], FB as [B FB]. bb a A. bb b B. rewrite b_fin in FA, FB. rewrite add_b. rewrite !b_val in *.
  pose proof (Bplus_correct 53 1024 _ _ mode_NE ba bb FA FB) as H.
  change (round radix2 fexp64 (round_mode mode_NE) (B2R ba + B2R bb)) with (rnd (B2R ba + B2R bb)) in H.
  rewrite Rlt_bool_false in H by exact G. destruct H as [H S]. rewrite H. unfold binary_overflow, overflow_to_inf.
  destruct (sign_R ba) as [P1 N1], (sign_R bb) as [P2 N2].
  destruct (Bsign ba); [right|left]; auto.
Qed.
Lemma pos_add a b : fok a -> fok b -> fle f_zero (fadd a b) = true -> 0 <= fval a + fval b.
Proof.
  intros A B L. destruct (add_cases a b A B) as [F|(_ & [(E & P & Q)|(E & _)])]; [| lra |rewrite E in L; discriminate].
  pose proof (fle_t _ _ fok_zero F L) as P. rewrite fval_zero, (add_R a b A B (proj2 F)) in P. apply rnd_pos_inv; auto; apply fval_fmt; [apply A|apply B].
Qed.
Lemma step_reserve v w v' : vwf v -> w_ok w -> vstep v w v' -> vfin v' ->
  0 <= fval (vs v) /\ - (5 * u53) * fval (vs v) <= fval (vs v') /\ (fval (fw_adj w) = 0 -> 0 <= fval (vs v')).
Proof.
  intros A W S F. destruct (vstep_back _ _ _ A W S F) as ((_ & _ & F0 & _) & _ & _ & f2 & f3 & _ & _ & p2 & p3 & _ & f5 & _).
  destruct S as (_ & _ & T3 & _ & _ & _ & T7). destruct F as (_ & _ & V3 & _). rewrite T3 in *. clear T3 A W.
  set (a := vs v) in *. set (sd := fw_send w) in *. set (j := fw_adj w) in *. clearbody a sd j. clear v v' w.
  assert (fa := fval_fmt a (proj1 F0)). assert (fs := fval_fmt sd (proj1 f2)). assert (fj := fval_fmt j (proj1 f3)).
  assert (Z : fok (fadd a sd)).
  { destruct (add_cases a sd F0 f2) as [Q|(G & [(E & P & Q)|(E & _)])]; [exact Q| |].
    - assert (fval sd = 0) by lra. rewrite H, Rplus_0_r, (rnd_fval a (proj1 F0)) in G. pose proof (fval_top a (proj1 F0)). lra.
    - rewrite E in T7. destruct j as [[|]|[|]| |? ? ?]; discriminate. }
  rewrite sub_neg in T7. apply pos_add in T7; [|exact Z|now apply fok_neg]. rewrite fval_opp in T7.
  rewrite (add_R a sd F0 f2 (proj2 Z)) in T7. pose proof (plus_err _ _ fa fs) as E1. pose proof (minus_err _ _ fs fj) as E2.
  assert (D : 0 <= fval a + fval sd) by (apply rnd_pos_inv; auto; lra). pose proof u53_small as U.
  assert (PA : 0 <= fval a) by lra. split; [exact PA|]. rewrite (add_R _ _ F0 f5 (proj2 V3)), (sub_R _ _ f2 f3 (proj2 f5)). split.
  - assert (fe : generic_format radix2 fexp64 (rnd (fval sd - fval j))) by (rewrite <- (sub_R _ _ f2 f3 (proj2 f5)); apply fval_fmt; apply f5).
    pose proof (plus_err _ _ fa fe) as E3. set (e := rnd (fval sd - fval j)) in *.
    assert (Y1 : Rabs (fval a + fval sd) <= fval a) by (apply Rabs_le; lra).
    assert (X1 : u53 * Rabs (fval a + fval sd) <= u53 * fval a) by (apply Rmult_le_compat_l; lra).
    assert (UA : 0 <= u53 * fval a <= / 4 * fval a) by (split; [apply Rmult_le_pos|apply Rmult_le_compat_r]; lra).
    assert (Y2 : Rabs (fval sd - fval j) <= 3 * fval a) by (rabs; apply Rabs_le; lra).
    assert (X2 : u53 * Rabs (fval sd - fval j) <= u53 * (3 * fval a)) by (apply Rmult_le_compat_l; lra).
    assert (Low : - (4 * u53 * fval a) <= fval a + e) by (rabs; lra).
    destruct (Rle_lt_dec 0 (fval a + e)) as [P|N]; [pose proof (rnd_ge0 _ P); lra|]. rewrite (Rabs_left _ N) in E3.
    assert (X3 : u53 * - (fval a + e) <= / 4 * (4 * u53 * fval a)).
    { apply Rle_trans with (/ 4 * - (fval a + e)); [apply Rmult_le_compat_r; lra|lra]. }
    rabs. lra.
  - intros J. rewrite J, Rminus_0_r, (rnd_fval sd (proj1 f2)). apply rnd_ge0. lra.
Qed.
Lemma chain_reserve c0 n v v' : chain c0 n v v' -> vfin v' -> 0 <= fval (vs v) ->
  - (5 * u53) * fval (vs v) <= fval (vs v') /\ (c0 -> 0 <= fval (vs v')).
Proof.
  induction 1 as [v|n v w v1 v2 A W A0 S C IH]; intros F P.
  - pose proof u53_pos. split; [nra|auto].
  - destruct (chain_back _ _ _ _ C F) as [F1 _]. destruct (step_reserve _ _ _ A W S F1) as (_ & R1 & R2).
    destruct (vstep_back _ _ _ A W S F1) as (_ & (_ & _ & L & _) & _). inversion C as [x E1 E2 E3|n' x w' y z A' W' A0' S' C']; subst.
    + auto.
    + destruct (chain_back _ _ _ _ C' F) as [F2 _]. destruct (step_reserve _ _ _ A' W' S' F2) as (P1 & _). destruct (IH F P1) as [I1 I2].
      split; [|exact I2]. pose proof u53_pos. assert (5 * u53 * fval (vs v1) <= 5 * u53 * fval (vs v)) by (apply Rmult_le_compat_l; lra). lra.
Qed.

(** *** the swap loops as chains *)
Definition viewX (p : fpool) (i o : f64) : vec := mkV (fx p) (fx_fee p) (fy p) (fy_adj p) i o.
Definition viewY (p : fpool) (i o : f64) : vec := mkV (fy p) (fy_fee p) (fx p) (fx_adj p) i o.
Definition funds (p : fpool) := (fx p, fy p, fx_adj p, fy_adj p, fx_fee p, fy_fee p).
Lemma viewX_eq p q i o : funds q = funds p -> viewX q i o = viewX p i o /\ fx_adj q = fx_adj p /\ fy_fee q = fy_fee p.
Proof. unfold funds, viewX. intros H. injection H as -> -> -> -> -> ->. auto. Qed.
Lemma viewY_eq p q i o : funds q = funds p -> viewY q i o = viewY p i o /\ fy_adj q = fy_adj p /\ fx_fee q = fx_fee p.
Proof. unfold funds, viewY. intros H. injection H as -> -> -> -> -> ->. auto. Qed.

Section Lm.
Variable lm : libm.
Hypothesis LM : libm_ok lm.

Lemma fcross_funds p t d p' : fcross_tick p t d = Ok p' -> funds p' = funds p.
Proof.
  intros H. unfold fcross_tick in H. destruct (negb d && _)%bool; [discriminate|].
  destruct (ftm_get t (fticks p)) as [ts|] eqn:G; [|discriminate]. mb H.
  unfold fadd_glbl_liq in H. mb H. injection H as <-. reflexivity.
Qed.
Lemma fgir_left_funds ks : forall p p' o, fgir_left lm p ks = Ok (p', o) -> funds p' = funds p.
Proof.
  induction ks as [|tk ks IH]; intros p p' o H; cbn [fgir_left] in H; [injection H as <- _; reflexivity|].
  destruct (_ <? _)%Z; [now apply (IH _ _ _ H)|]. mb H. apply fcross_funds in E. cbn in E.
  destruct (flt _ f_zero); [discriminate|]. destruct (flt f_zero _).
  - mb H. injection H as <- _. exact E.
  - apply IH in H. rewrite H. exact E.
Qed.
Lemma fgir_right_funds ks : forall p p' o, fgir_right lm p ks = Ok (p', o) -> funds p' = funds p.
Proof.
  induction ks as [|tk ks IH]; intros p p' o H; cbn [fgir_right] in H; [injection H as <- _; reflexivity|].
  destruct (_ <=? _)%Z; [now apply (IH _ _ _ H)|]. mb H. apply fcross_funds in E. cbn in E. mb H.
  destruct (flt _ f_zero); [discriminate|]. destruct (flt f_zero _).
  - mb H. injection H as <- _. exact E.
  - apply IH in H. rewrite H. exact E.
Qed.
Lemma fgir_funds p d p' g r : ftry_get_in_range lm p d = Ok (p', g, r) -> funds p' = funds p.
Proof.
  intros H. unfold ftry_get_in_range in H. destruct (flt f_zero _); [discriminate|]. mb H. destruct a as [q o].
  assert (Q : funds q = funds p) by (destruct d; [eapply fgir_right_funds|eapply fgir_left_funds]; eassumption).
  destruct o as [[g' r']|]; [injection H as <- _ _; exact Q|]. mb H. destruct a. injection H as <- _ _. exact Q.
Qed.
Lemma sub_self m : fval (fsub m m) = 0.
Proof.
  destruct m as [[|]|[|]| |s m e]; try reflexivity. unfold fsub, SFsub. rewrite Z.min_id, Z.sub_diag. reflexivity.
Qed.
Lemma fwithin_new_adj r s t e c a f w : fwithin_new r s t e c a f = Ok w -> fw_adj w = a.
Proof.
  unfold fwithin_new. intros H. repeat match type of H with (if ?b then _ else _) = _ => destruct b; [discriminate|] end. injection H as <-. reflexivity.
Qed.
Lemma fwithin_x_adj p st g l dx o w : fswap_within_x lm p st g l dx o = Ok w -> feq (f_c p) f_zero = true -> fval (fw_adj w) = 0.
Proof.
  intros H C. unfold fswap_within_x in H. rewrite C in H. cbn [orb] in H.
  destruct (fle dx f_zero); [discriminate|]. destruct (flt st _); [discriminate|]. destruct (flt (f_dx_from_l_drp _ _ _) f_zero); [discriminate|].
  mb H. destruct a as [[[[dn fe] cr] et] er]. clear E. mb H. injection E as <-.
  destruct (flt f_zero _); [discriminate|]. destruct (flt (fsub _ _) f_zero); [discriminate|]. destruct (flt (fadd (fy p) _) _); [discriminate|].
  apply fwithin_new_adj in H. rewrite H. apply sub_self.
Qed.
Lemma fwithin_y_adj p st g l dy o w : fswap_within_y lm p st g l dy o = Ok w -> feq (f_c p) f_zero = true -> fval (fw_adj w) = 0.
Proof.
  intros H C. unfold fswap_within_y in H. rewrite C in H. cbn [orb] in H.
  destruct (fle dy f_zero); [discriminate|]. destruct (flt _ st); [discriminate|]. destruct (flt (f_dy_from_l_drp _ _ _) f_zero); [discriminate|].
  mb H. destruct a as [[[[dn fe] cr] et] er]. clear E. mb H. injection E as <-.
  destruct (flt f_zero _); [discriminate|]. destruct (flt (fsub _ _) f_zero); [discriminate|]. destruct (flt (fadd (fx p) _) _); [discriminate|].
  apply fwithin_new_adj in H. rewrite H. apply sub_self.
Qed.
Lemma fstep_x_vec p s g dx o p' s' : fpool_ok p -> s_ok s -> f64_ok dx -> f64_ok o -> fswap_x_step lm p s g dx o = Ok (p', s') ->
  exists w, w_ok w /\ (feq (f_c p) f_zero = true -> fval (fw_adj w) = 0) /\ vstep (viewX p (fl_in s) (fl_out s)) w (viewX p' (fl_in s') (fl_out s')) /\ fx_adj p' = fx_adj p /\ fy_fee p' = fy_fee p.
Proof.
  intros K S D O H. unfold fswap_x_step in H. mb H. rename a into w.
  assert (W : w_ok w).
  { eapply (fwithin_x_ok lm LM); [exact K| | | | |exact E]; auto; try apply S; try apply K. apply sub_ok; [exact D|apply S]. }
  assert (W0 := fwithin_x_adj _ _ _ _ _ _ _ E).
  mb H. apply assertE in E0. mb H. mb H. rename a1 into q. injection H as <- <-.
  match type of E2 with (if _ then (let* _ := _ in match ftm_get _ (fticks ?rr) with _ => _ end) else _) = _ => set (r := rr) in E2 end.
  assert (Q : funds q = funds r).
  { destruct (fw_cross w); [|now injection E2 as <-]. mb E2. destruct (ftm_get g (fticks r)); [now apply fcross_funds in E2|now injection E2 as <-]. }
  assert (R : funds r = (fadd (fx p) (fw_recv w), fadd (fy p) (fsub (fw_send w) (fw_adj w)), fx_adj p, fadd (fy_adj p) (fw_adj w), fadd (fx_fee p) (fw_fee w), fy_fee p)).
  { subst r. destruct (flt f_zero _); reflexivity. }
  rewrite R in Q. unfold funds in Q. clear - Q W W0 E0. remember (fadd (fx p) (fw_recv w)) as q1. remember (fadd (fy p) (fsub (fw_send w) (fw_adj w))) as q2.
  remember (fadd (fy_adj p) (fw_adj w)) as q3. remember (fadd (fx_fee p) (fw_fee w)) as q4.
  injection Q as Q1 Q2 Q3 Q4 Q5 Q6. exists w. unfold vstep, viewX. cbn [va vf vs vj vi vo fl_in fl_out]. rewrite Q1, Q2, Q3, Q4, Q5, Q6. subst. auto 15.
Qed.
Lemma fstep_y_vec p s g dx o p' s' : fpool_ok p -> s_ok s -> f64_ok dx -> f64_ok o -> fswap_y_step lm p s g dx o = Ok (p', s') ->
  exists w, w_ok w /\ (feq (f_c p) f_zero = true -> fval (fw_adj w) = 0) /\ vstep (viewY p (fl_in s) (fl_out s)) w (viewY p' (fl_in s') (fl_out s')) /\ fy_adj p' = fy_adj p /\ fx_fee p' = fx_fee p.
Proof.
  intros K S D O H. unfold fswap_y_step in H. mb H. rename a into w.
  assert (W : w_ok w).
  { eapply (fwithin_y_ok lm LM); [exact K| | | | |exact E]; auto; try apply S; try apply K. apply sub_ok; [exact D|apply S]. }
  assert (W0 := fwithin_y_adj _ _ _ _ _ _ _ E).
  mb H. apply assertE in E0. mb H. mb H. rename a1 into q. injection H as <- <-.
  match type of E2 with (if _ then (let* _ := _ in match ftm_get _ (fticks ?rr) with _ => _ end) else _) = _ => set (r := rr) in E2 end.
  assert (Q : funds q = funds r).
  { destruct (fw_cross w); [|now injection E2 as <-]. mb E2. destruct (ftm_get g (fticks r)); [now apply fcross_funds in E2|now injection E2 as <-]. }
  assert (R : funds r = (fadd (fx p) (fsub (fw_send w) (fw_adj w)), fadd (fy p) (fw_recv w), fadd (fx_adj p) (fw_adj w), fy_adj p, fx_fee p, fadd (fy_fee p) (fw_fee w))).
  { subst r. destruct (flt f_zero _); reflexivity. }
  rewrite R in Q. unfold funds in Q. clear - Q W W0 E0. remember (fadd (fy p) (fw_recv w)) as q1. remember (fadd (fx p) (fsub (fw_send w) (fw_adj w))) as q2.
  remember (fadd (fx_adj p) (fw_adj w)) as q3. remember (fadd (fy_fee p) (fw_fee w)) as q4.
  injection Q as Q1 Q2 Q3 Q4 Q5 Q6. exists w. unfold vstep, viewY. cbn [va vf vs vj vi vo fl_in fl_out]. rewrite Q1, Q2, Q3, Q4, Q5, Q6. subst. auto 15.
Qed.
Lemma floop_x_chain n : forall p s dx o p' out, fpool_ok p -> s_ok s -> f64_ok dx -> f64_ok o -> fswap_x_loop lm n p s dx o = Ok (p', out) ->
  exists k, (k <= n)%nat /\ chain (feq (f_c p) f_zero = true) k (viewX p (fl_in s) (fl_out s)) (viewX p' (fso_recv out) (fso_send out)) /\ fx_adj p' = fx_adj p /\ fy_fee p' = fy_fee p.
Proof.
  induction n as [|n IH]; intros p s dx o p' out K S D O H; [discriminate|]. cbn [fswap_x_loop] in H.
  assert (Z : forall q t, fswap_x_end q t = Ok (p', out) -> funds q = funds p -> fl_in t = fl_in s -> fl_out t = fl_out s ->
    exists k, (k <= Datatypes.S n)%nat /\ chain (feq (f_c p) f_zero = true) k (viewX p (fl_in s) (fl_out s)) (viewX p' (fso_recv out) (fso_send out)) /\ fx_adj p' = fx_adj p /\ fy_fee p' = fy_fee p).
  { intros q t E F I1 I2. exists 0%nat. split; [lia|]. unfold fswap_x_end in E. mb E. injection E as -> <-.
    destruct (viewX_eq _ _ (fl_in s) (fl_out s) F) as (V & A1 & A2). split; [|auto].
    assert (E : fso_recv a = fl_in t /\ fso_send a = fl_out t).
    { unfold fswap_out_new in E0. repeat match type of E0 with (if ?b then _ else _) = _ => destruct b; [discriminate|] end. injection E0 as <-. auto. }
    destruct E as [-> ->]. rewrite I1, I2, V. constructor. }
  destruct (flt (fl_in s) dx) eqn:L; cbn [negb] in H; [|now apply (Z p s H)].
  mb H. destruct a as [[q g] rp].
  assert (Q : fpool_ok q /\ funds q = funds p /\ f64_ok rp /\ f_c q = f_c p).
  { destruct (flt f_zero _).
    - injection E as <- <- <-. split; [exact K|]. split; [reflexivity|]. split; [apply S|reflexivity].
    - destruct (fgir_ok lm LM _ _ _ _ _ K E) as (A & [_ _ (_ & B1 & _)] & B). split; [exact A|]. split; [exact (fgir_funds _ _ _ _ _ E)|]. split; [exact B|exact B1]. }
  destruct Q as (Q1 & Q2 & Q3 & Q4). set (s1 := mkFL _ _ _ _ _ _) in H.
  assert (S1 : s_ok s1) by (destruct S as (S1 & S2 & S3 & S4 & S5); unfold s_ok; cbn; auto).
  destruct g as [g|]; [|now apply (Z q s1 H)].
  mb H. destruct a as [q2 s2]. destruct (fstep_x_ok lm LM _ _ _ _ _ _ _ Q1 S1 D O E0) as (A & [_ _ (_ & B & _)] & C & _).
  destruct (fstep_x_vec _ _ _ _ _ _ _ Q1 S1 D O E0) as (w & W & W0 & V & V1 & V2). rewrite Q4 in W0.
  destruct (IH _ _ _ _ _ _ A C D O H) as (k & Hk & CH & C1 & C2). rewrite B, Q4 in CH. exists (Datatypes.S k). split; [lia|].
  destruct (viewX_eq _ _ (fl_in s) (fl_out s) Q2) as (EV & U1 & U2). cbn [fl_in fl_out s1] in V. rewrite EV in V.
  split; [|split; congruence]. apply (ch_S _ k _ w (viewX q2 (fl_in s2) (fl_out s2))); auto.
  destruct K as [_ _ _ _ (F1 & F2 & F3 & F4 & F5 & F6) _]. destruct S as (T1 & T2 & _). repeat split; assumption.
Qed.
Lemma floop_y_chain n : forall p s dx o p' out, fpool_ok p -> s_ok s -> f64_ok dx -> f64_ok o -> fswap_y_loop lm n p s dx o = Ok (p', out) ->
  exists k, (k <= n)%nat /\ chain (feq (f_c p) f_zero = true) k (viewY p (fl_in s) (fl_out s)) (viewY p' (fso_recv out) (fso_send out)) /\ fy_adj p' = fy_adj p /\ fx_fee p' = fx_fee p.
Proof.
  induction n as [|n IH]; intros p s dx o p' out K S D O H; [discriminate|]. cbn [fswap_y_loop] in H.
  assert (Z : forall q t, fswap_y_end q t = Ok (p', out) -> funds q = funds p -> fl_in t = fl_in s -> fl_out t = fl_out s ->
    exists k, (k <= Datatypes.S n)%nat /\ chain (feq (f_c p) f_zero = true) k (viewY p (fl_in s) (fl_out s)) (viewY p' (fso_recv out) (fso_send out)) /\ fy_adj p' = fy_adj p /\ fx_fee p' = fx_fee p).
  { intros q t E F I1 I2. exists 0%nat. split; [lia|]. unfold fswap_y_end in E. mb E. injection E as -> <-.
    destruct (viewY_eq _ _ (fl_in s) (fl_out s) F) as (V & A1 & A2). split; [|auto].
    assert (E : fso_recv a = fl_in t /\ fso_send a = fl_out t).
    { unfold fswap_out_new in E0. repeat match type of E0 with (if ?b then _ else _) = _ => destruct b; [discriminate|] end. injection E0 as <-. auto. }
    destruct E as [-> ->]. rewrite I1, I2, V. constructor. }
  destruct (flt (fl_in s) dx) eqn:L; cbn [negb] in H; [|now apply (Z p s H)].
  mb H. destruct a as [[q g] rp].
  assert (Q : fpool_ok q /\ funds q = funds p /\ f64_ok rp /\ f_c q = f_c p).
  { destruct (flt f_zero _).
    - mb E. injection E as <- <- <-. split; [exact K|]. split; [reflexivity|]. split; [apply S|reflexivity].
    - destruct (fgir_ok lm LM _ _ _ _ _ K E) as (A & [_ _ (_ & B1 & _)] & B). split; [exact A|]. split; [exact (fgir_funds _ _ _ _ _ E)|]. split; [exact B|exact B1]. }
  destruct Q as (Q1 & Q2 & Q3 & Q4). set (s1 := mkFL _ _ _ _ _ _) in H.
  assert (S1 : s_ok s1) by (destruct S as (S1 & S2 & S3 & S4 & S5); unfold s_ok; cbn; auto).
  destruct g as [g|]; [|now apply (Z q s1 H)].
  mb H. destruct a as [q2 s2]. destruct (fstep_y_ok lm LM _ _ _ _ _ _ _ Q1 S1 D O E0) as (A & [_ _ (_ & B & _)] & C & _).
  destruct (fstep_y_vec _ _ _ _ _ _ _ Q1 S1 D O E0) as (w & W & W0 & V & V1 & V2). rewrite Q4 in W0.
  destruct (IH _ _ _ _ _ _ A C D O H) as (k & Hk & CH & C1 & C2). rewrite B, Q4 in CH. exists (Datatypes.S k). split; [lia|].
  destruct (viewY_eq _ _ (fl_in s) (fl_out s) Q2) as (EV & U1 & U2). cbn [fl_in fl_out s1] in V. rewrite EV in V.
  split; [|split; congruence]. apply (ch_S _ k _ w (viewY q2 (fl_in s2) (fl_out s2))); auto.
  destruct K as [_ _ _ _ (F1 & F2 & F3 & F4 & F5 & F6) _]. destruct S as (T1 & T2 & _). repeat split; assumption.
Qed.

(** *** deposits and withdrawals *)
Lemma dep_gap B a j e i h f : 0 <= B -> 16 * B <= big -> f64_ok a -> f64_ok j -> f64_ok e -> f64_ok i -> f64_ok h -> f64_ok f ->
  fok (fadd a i) -> fok (fsub j h) -> fok (fsub e f) -> Rabs (fval a) <= B -> Rabs (fval j) <= B -> Rabs (fval e) <= B ->
  Rabs (fval (fadd a i)) <= B -> Rabs (fval (fsub j h)) <= B -> Rabs (fval (fsub e f)) <= B ->
  fok (fsub (fsub i f) h) /\
  Rabs ((fval (fadd a i) + fval (fsub j h) + fval (fsub e f)) - (fval a + fval j + fval e) - fval (fsub (fsub i f) h)) <= 24 * u53 * B.
Proof.
  intros P G A J E I H F V1 V2 V3 B1 B2 B3 C1 C2 C3.
  destruct (add_back _ _ _ A I V1 C1) as (_ & fi & e1 & s1). destruct (sub_back _ _ _ J H V2 C2) as (_ & fh & e2 & s2). destruct (sub_back _ _ _ E F V3 C3) as (_ & ff & e3 & s3).
  pose proof u53_small as U. assert (UB : 0 <= u53 * B <= / 4 * B) by (split; [apply Rmult_le_pos|apply Rmult_le_compat_r]; lra).
  assert (R1 : Rabs (fval i - fval f) <= 6 * B) by (rabs; apply Rabs_le; lra).
  destruct (sub_fwd _ _ _ fi ff R1 ltac:(lra)) as [f1 e4].
  assert (R2 : Rabs (fval (fsub i f) - fval h) <= 11 * B) by (rabs; apply Rabs_le; lra).
  destruct (sub_fwd _ _ _ f1 fh R2 ltac:(lra)) as [f2 e5]. split; [exact f2|].
  clear R1 R2 s1 s2 s3 B1 B2 B3 C1 C2 C3. rabs. apply Rabs_le. lra.
Qed.
Lemma wd_gap B a j e i h f : 0 <= B -> 16 * B <= big -> f64_ok a -> f64_ok j -> f64_ok e -> f64_ok i -> f64_ok h -> f64_ok f ->
  fok (fsub a i) -> fok (fsub j h) -> fok (fsub e f) -> Rabs (fval a) <= B -> Rabs (fval j) <= B -> Rabs (fval e) <= B ->
  Rabs (fval (fsub a i)) <= B -> Rabs (fval (fsub j h)) <= B -> Rabs (fval (fsub e f)) <= B ->
  fok (fadd (fadd i f) h) /\
  Rabs ((fval (fsub a i) + fval (fsub j h) + fval (fsub e f)) - (fval a + fval j + fval e) + fval (fadd (fadd i f) h)) <= 24 * u53 * B.
Proof.
  intros P G A J E I H F V1 V2 V3 B1 B2 B3 C1 C2 C3.
  destruct (sub_back _ _ _ A I V1 C1) as (_ & fi & e1 & s1). destruct (sub_back _ _ _ J H V2 C2) as (_ & fh & e2 & s2). destruct (sub_back _ _ _ E F V3 C3) as (_ & ff & e3 & s3).
  pose proof u53_small as U. assert (UB : 0 <= u53 * B <= / 4 * B) by (split; [apply Rmult_le_pos|apply Rmult_le_compat_r]; lra).
  assert (R1 : Rabs (fval i + fval f) <= 6 * B) by (rabs; apply Rabs_le; lra).
  destruct (add_fwd _ _ _ fi ff R1 ltac:(lra)) as [f1 e4].
  assert (R2 : Rabs (fval (fadd i f) + fval h) <= 11 * B) by (rabs; apply Rabs_le; lra).
  destruct (add_fwd _ _ _ f1 fh R2 ltac:(lra)) as [f2 e5]. split; [exact f2|].
  clear R1 R2 s1 s2 s3 B1 B2 B3 C1 C2 C3. rabs. apply Rabs_le. lra.
Qed.

(** what the pool holds of either token, as real numbers: the amount backing liquidity, the HMM adjustments and the fees *)
Definition holdX (p : fpool) : R := fval (fx p) + fval (fx_adj p) + fval (fx_fee p).
Definition holdY (p : fpool) : R := fval (fy p) + fval (fy_adj p) + fval (fy_fee p).
(** the six funds are numbers, of size at most [B] *)
Definition funds_within (B : R) (p : fpool) : Prop :=
  (fok (fx p) /\ Rabs (fval (fx p)) <= B) /\ (fok (fy p) /\ Rabs (fval (fy p)) <= B) /\
  (fok (fx_adj p) /\ Rabs (fval (fx_adj p)) <= B) /\ (fok (fy_adj p) /\ Rabs (fval (fy_adj p)) <= B) /\
  (fok (fx_fee p) /\ Rabs (fval (fx_fee p)) <= B) /\ (fok (fy_fee p) /\ Rabs (fval (fy_fee p)) <= B).

(** Executions in which the funds and the swapped amounts stay within [B], with the number of calls and loop passes, and the
    net amounts of the two tokens that the users were told they paid ([x_debited], [swapped], minus [x_sent] and amounts out). *)
Inductive flow (B : R) : fpool -> nat -> R -> R -> Prop :=
| fl_new rp s c r p : f64_ok c -> f64_ok r -> fpool_new lm rp s c r = Ok p -> flow B p 0 0 0
| fl_dep p N X Y u x y a b p' xd yd : flow B p N X Y -> f64_ok x -> f64_ok y -> fdeposit lm p u x y a b = Ok (p', xd, yd) ->
    funds_within B p' -> flow B p' (S N) (X + fval xd) (Y + fval yd)
| fl_wd p N X Y u l a b p' xs ys : flow B p N X Y -> f64_ok l -> fwithdraw lm p u l a b = Ok (p', xs, ys) ->
    funds_within B p' -> flow B p' (S N) (X - fval xs) (Y - fval ys)
| fl_x p N X Y n dx o p' out : flow B p N X Y -> fok dx -> fval dx <= B -> f64_ok o -> fexecute_swap_x lm n p dx o = Ok (p', out) ->
    funds_within B p' -> fok (fso_send out) -> - B <= fval (fso_send out) -> flow B p' (N + n) (X + fval (fso_recv out)) (Y + fval (fso_send out))
| fl_y p N X Y n dy o p' out : flow B p N X Y -> fok dy -> fval dy <= B -> f64_ok o -> fexecute_swap_y lm n p dy o = Ok (p', out) ->
    funds_within B p' -> fok (fso_send out) -> - B <= fval (fso_send out) -> flow B p' (N + n) (X + fval (fso_send out)) (Y + fval (fso_recv out)).
Lemma flow_freach B p N X Y : flow B p N X Y -> freach lm p.
Proof.
  induction 1; [exact (fr_new lm _ _ _ _ _ H H0 H1)|exact (fr_dep lm _ _ _ _ _ _ _ _ _ IHflow H0 H1 H2)|exact (fr_wd lm _ _ _ _ _ _ _ _ IHflow H0 H1)
    |exact (fr_x lm _ _ _ _ _ _ IHflow (proj1 H0) H2 H3)|exact (fr_y lm _ _ _ _ _ _ IHflow (proj1 H0) H2 H3)].
Qed.
Lemma flow_funds B p N X Y : 0 <= B -> flow B p N X Y -> funds_within B p.
Proof.
  intros P F. destruct F; try assumption. unfold fpool_new in H1. mb H1. injection H1 as <-.
  repeat split; cbn; rewrite ?Rabs_R0; auto.
Qed.

Lemma dep_flow B p u x y a b p' xd yd : 0 <= B -> 16 * B <= big -> fpool_ok p -> funds_within B p -> f64_ok x -> f64_ok y ->
  fdeposit lm p u x y a b = Ok (p', xd, yd) -> funds_within B p' ->
  Rabs (holdX p' - holdX p - fval xd) <= 24 * u53 * B /\ Rabs (holdY p' - holdY p - fval yd) <= 24 * u53 * B.
Proof.
  intros P G K (A1 & A2 & A3 & A4 & A5 & A6) X Y H (B1 & B2 & B3 & B4 & B5 & B6).
  unfold fdeposit in H. fold (dep_liq lm p x y a b) in H. destruct (_ || _)%bool; [discriminate|]. destruct (flt x _); [discriminate|]. destruct (flt y _); [discriminate|].
  mb H. destruct a0 as [q fe]. assert (DL := dep_liq_ok lm LM p x y a b K X Y).
  destruct (fset_position_spec _ _ _ _ _ _ _ K DL E) as (Q1 & (F1 & F2 & F3 & F4) & SR & _). apply sr_funds in SR.
  destruct K as [(_ & K1 & _) _ _ _ _ _].
  assert (XI := xrng_ok (dep_liq lm p x y a b) (fglbl_rp p) _ _ DL K1 (rp_ok lm LM (f_rp_to_possible_tick lm p a false)) (rp_ok lm LM (f_rp_to_possible_tick lm p b false))).
  assert (YI := yrng_ok (dep_liq lm p x y a b) (fglbl_rp p) _ _ DL K1 (rp_ok lm LM (f_rp_to_possible_tick lm p a false)) (rp_ok lm LM (f_rp_to_possible_tick lm p b false))).
  set (xi := f_x_from_l_rp_rng _ _ _ _) in *. set (yi := f_y_from_l_rp_rng _ _ _ _) in *. clearbody xi yi.
  injection SR as S1 S2 S3 S4 S5 S6. rewrite S1, S2, S3, S4, S5, S6 in H.
  remember (fsub (fsub xi (f_fx fe)) (f_hx fe)) as xd0. remember (fsub (fsub yi (f_fy fe)) (f_hy fe)) as yd0.
  injection H as <- <- <-. subst xd0 yd0. cbn [fwith_funds fx fy fx_adj fy_adj fx_fee fy_fee] in *. unfold holdX, holdY. cbn [fwith_funds fx fy fx_adj fy_adj fx_fee fy_fee].
  destruct A1, A2, A3, A4, A5, A6, B1, B2, B3, B4, B5, B6. split; apply dep_gap; auto; apply H || apply H1 || apply H3 || apply H5 || apply H7 || apply H9.
Qed.
Lemma wd_flow B p u l a b p' xs ys : 0 <= B -> 16 * B <= big -> fpool_ok p -> funds_within B p -> f64_ok l ->
  fwithdraw lm p u l a b = Ok (p', xs, ys) -> funds_within B p' ->
  Rabs (holdX p' - holdX p + fval xs) <= 24 * u53 * B /\ Rabs (holdY p' - holdY p + fval ys) <= 24 * u53 * B.
Proof.
  intros P G K (A1 & A2 & A3 & A4 & A5 & A6) L H (B1 & B2 & B3 & B4 & B5 & B6).
  unfold fwithdraw in H. destruct (flt l f_zero); [discriminate|].
  mb H. destruct a0 as [q fe]. assert (DL := neg_ok l L).
  destruct (fset_position_spec _ _ _ _ _ _ _ K DL E) as ([(_ & K1 & _) _ _ _ _ _] & (F1 & F2 & F3 & F4) & SR & _). apply sr_funds in SR.
  assert (XI := xrng_ok l (fglbl_rp q) _ _ L K1 (rp_ok lm LM (f_rp_to_possible_tick lm p a false)) (rp_ok lm LM (f_rp_to_possible_tick lm p b false))).
  assert (YI := yrng_ok l (fglbl_rp q) _ _ L K1 (rp_ok lm LM (f_rp_to_possible_tick lm p a false)) (rp_ok lm LM (f_rp_to_possible_tick lm p b false))).
  set (x0 := f_x_from_l_rp_rng _ _ _ _) in *. set (y0 := f_y_from_l_rp_rng _ _ _ _) in *. clearbody x0 y0.
  assert (XO : f64_ok (fmul x0 (fsub f_one f_adj))) by auto with fok. assert (YO : f64_ok (fmul y0 (fsub f_one f_adj))) by auto with fok.
  set (xi := fmul x0 _) in *. set (yi := fmul y0 _) in *. clearbody xi yi.
  injection SR as S1 S2 S3 S4 S5 S6. rewrite S1, S2, S3, S4, S5, S6 in H.
  remember (fadd (fadd xi (f_fx fe)) (f_hx fe)) as xd0. remember (fadd (fadd yi (f_fy fe)) (f_hy fe)) as yd0.
  injection H as <- <- <-. subst xd0 yd0. cbn [fwith_funds fx fy fx_adj fy_adj fx_fee fy_fee] in *. unfold holdX, holdY. cbn [fwith_funds fx fy fx_adj fy_adj fx_fee fy_fee].
  destruct A1, A2, A3, A4, A5, A6, B1, B2, B3, B4, B5, B6. split; apply wd_gap; auto; apply H || apply H1 || apply H3 || apply H5 || apply H7 || apply H9.
Qed.

Lemma out_x_neg n : forall p s dx o p' out, fswap_x_loop lm n p s dx o = Ok (p', out) -> flt f_zero (fso_send out) = false.
Proof.
  induction n as [|n IH]; intros p s dx o p' out H; [discriminate|]. cbn [fswap_x_loop] in H.
  assert (Z : forall q t, fswap_x_end q t = Ok (p', out) -> flt f_zero (fso_send out) = false).
  { intros q t E. unfold fswap_x_end in E. mb E. injection E as _ <-. unfold fswap_out_new in E0.
    destruct (flt (fl_in t) f_zero); [discriminate|]. destruct (flt f_zero (fl_out t)) eqn:F; [discriminate|].
    repeat match type of E0 with (if ?b then _ else _) = _ => destruct b; [discriminate|] end. injection E0 as <-. exact F. }
  destruct (negb _); [exact (Z _ _ H)|]. mb H. destruct a as [[q g] rp]. destruct g; [|exact (Z _ _ H)]. mb H. destruct a as [q2 s2]. exact (IH _ _ _ _ _ _ H).
Qed.
Lemma swap_x_flow B n p dx o p' out : 0 <= B -> 16 * B <= big -> fpool_ok p -> funds_within B p -> fok dx -> fval dx <= B -> f64_ok o ->
  fexecute_swap_x lm n p dx o = Ok (p', out) -> funds_within B p' -> fok (fso_send out) -> - B <= fval (fso_send out) ->
  Rabs (holdX p' - holdX p - fval (fso_recv out)) <= INR n * (24 * u53 * B) /\ Rabs (holdY p' - holdY p - fval (fso_send out)) <= INR n * (24 * u53 * B).
Proof.
  intros P G K FW D DB O H FW' S SB. destruct (fswap_x_good lm LM _ _ _ _ _ _ K (proj1 D) O H) as (_ & _ & R).
  assert (T : fval dx <= bpow radix2 1023) by (assert (big <= bpow radix2 1023) by (apply bpow_le; lia); lra).
  destruct (R D T) as (R1 & R2 & R3). clear R T.
  unfold fexecute_swap_x in H. destruct (fle dx f_zero); [discriminate|]. pose proof (flt_f _ _ fok_zero S (out_x_neg _ _ _ _ _ _ _ H)) as SN. rewrite fval_zero in SN.
  assert (S0 : s_ok (mkFL f_zero f_zero f_zero f_zero (fglbl_tick p) (fglbl_rp p))) by (unfold s_ok; cbn; destruct K as [(_ & K1 & _) _ _ _ _ _]; auto with fok).
  destruct (floop_x_chain _ _ _ _ _ _ _ K S0 (proj1 D) O H) as (k & Hk & CH & E1 & E2). cbn [fl_in fl_out] in CH.
  destruct FW as ((A1 & B1) & (A2 & B2) & (A3 & B3) & (A4 & B4) & (A5 & B5) & (A6 & B6)), FW' as ((A1' & B1') & (A2' & B2') & (A3' & B3') & (A4' & B4') & (A5' & B5') & (A6' & B6')).
  assert (SL : fval dx * slack <= 2 * B).
  { unfold slack. pose proof u53_small as U. assert ((1 + u53) * (1 + u53) <= 2) by nra. assert (1 <= slack) by exact slack_ge1. unfold slack in *.
    destruct (Rle_lt_dec 0 (fval dx)); [|nra]. apply Rle_trans with (fval dx * 2); [apply Rmult_le_compat_l; lra|lra]. }
  destruct (chain_gap B _ k _ _ P ltac:(lra) CH) as [C1 C2].
  - unfold vfin, viewX. cbn [va vf vs vj vi vo]. auto 12.
  - unfold vin, viewX. cbn [va vf vs vj vi vo]. rewrite fval_zero, Rabs_R0. repeat split; auto; lra.
  - unfold vin, viewX. cbn [va vf vs vj vi vo]. repeat split; auto; apply Rabs_le; lra.
  - assert (KN : INR k * (24 * u53 * B) <= INR n * (24 * u53 * B)).
    { apply Rmult_le_compat_r; [pose proof u53_pos; apply Rmult_le_pos; lra|]. now apply le_INR. }
    set (E := 24 * u53 * B) in *. clearbody E. unfold in_gap, out_gap, viewX in C1, C2. cbn [va vf vs vj vi vo] in C1, C2. rewrite fval_zero in C1, C2.
    unfold holdX, holdY. rewrite E1, E2. clear - C1 C2 KN. rabs. split; apply Rabs_le; lra.
Qed.

Lemma out_y_neg n : forall p s dx o p' out, fswap_y_loop lm n p s dx o = Ok (p', out) -> flt f_zero (fso_send out) = false.
Proof.
  induction n as [|n IH]; intros p s dx o p' out H; [discriminate|]. cbn [fswap_y_loop] in H.
  assert (Z : forall q t, fswap_y_end q t = Ok (p', out) -> flt f_zero (fso_send out) = false).
  { intros q t E. unfold fswap_y_end in E. mb E. injection E as _ <-. unfold fswap_out_new in E0.
    destruct (flt (fl_in t) f_zero); [discriminate|]. destruct (flt f_zero (fl_out t)) eqn:F; [discriminate|].
    repeat match type of E0 with (if ?b then _ else _) = _ => destruct b; [discriminate|] end. injection E0 as <-. exact F. }
  destruct (negb _); [exact (Z _ _ H)|]. mb H. destruct a as [[q g] rp]. destruct g; [|exact (Z _ _ H)]. mb H. destruct a as [q2 s2]. exact (IH _ _ _ _ _ _ H).
Qed.
Lemma swap_y_flow B n p dx o p' out : 0 <= B -> 16 * B <= big -> fpool_ok p -> funds_within B p -> fok dx -> fval dx <= B -> f64_ok o ->
  fexecute_swap_y lm n p dx o = Ok (p', out) -> funds_within B p' -> fok (fso_send out) -> - B <= fval (fso_send out) ->
  Rabs (holdY p' - holdY p - fval (fso_recv out)) <= INR n * (24 * u53 * B) /\ Rabs (holdX p' - holdX p - fval (fso_send out)) <= INR n * (24 * u53 * B).
Proof.
  intros P G K FW D DB O H FW' S SB. destruct (fswap_y_good lm LM _ _ _ _ _ _ K (proj1 D) O H) as (_ & _ & R).
  assert (T : fval dx <= bpow radix2 1023) by (assert (big <= bpow radix2 1023) by (apply bpow_le; lia); lra).
  destruct (R D T) as (R1 & R2 & R3). clear R T.
  unfold fexecute_swap_y in H. destruct (fle dx f_zero); [discriminate|]. pose proof (flt_f _ _ fok_zero S (out_y_neg _ _ _ _ _ _ _ H)) as SN. rewrite fval_zero in SN.
  assert (S0 : s_ok (mkFL f_zero f_zero f_zero f_zero (fglbl_tick p) (fglbl_rp p))) by (unfold s_ok; cbn; destruct K as [(_ & K1 & _) _ _ _ _ _]; auto with fok).
  destruct (floop_y_chain _ _ _ _ _ _ _ K S0 (proj1 D) O H) as (k & Hk & CH & E1 & E2). cbn [fl_in fl_out] in CH.
  destruct FW as ((A1 & B1) & (A2 & B2) & (A3 & B3) & (A4 & B4) & (A5 & B5) & (A6 & B6)), FW' as ((A1' & B1') & (A2' & B2') & (A3' & B3') & (A4' & B4') & (A5' & B5') & (A6' & B6')).
  assert (SL : fval dx * slack <= 2 * B).
  { unfold slack. pose proof u53_small as U. assert ((1 + u53) * (1 + u53) <= 2) by nra. assert (1 <= slack) by exact slack_ge1. unfold slack in *.
    destruct (Rle_lt_dec 0 (fval dx)); [|nra]. apply Rle_trans with (fval dx * 2); [apply Rmult_le_compat_l; lra|lra]. }
  destruct (chain_gap B _ k _ _ P ltac:(lra) CH) as [C1 C2].
  - unfold vfin, viewY. cbn [va vf vs vj vi vo]. auto 12.
  - unfold vin, viewY. cbn [va vf vs vj vi vo]. rewrite fval_zero, Rabs_R0. repeat split; auto; lra.
  - unfold vin, viewY. cbn [va vf vs vj vi vo]. repeat split; auto; apply Rabs_le; lra.
  - assert (KN : INR k * (24 * u53 * B) <= INR n * (24 * u53 * B)).
    { apply Rmult_le_compat_r; [pose proof u53_pos; apply Rmult_le_pos; lra|]. now apply le_INR. }
    set (E := 24 * u53 * B) in *. clearbody E. unfold in_gap, out_gap, viewY in C1, C2. cbn [va vf vs vj vi vo] in C1, C2. rewrite fval_zero in C1, C2.
    unfold holdY, holdX. rewrite E1, E2. clear - C1 C2 KN. rabs. split; apply Rabs_le; lra.
Qed.

Theorem flow_kept B p N X Y : 0 <= B -> B <= bpow radix2 1000 -> flow B p N X Y ->
  Rabs (holdX p - X) <= INR N * (24 * u53 * B) /\ Rabs (holdY p - Y) <= INR N * (24 * u53 * B).
Proof.
  intros P G0 F. assert (G := room B G0).
  clear G0. assert (HE : 0 <= 24 * u53 * B) by (pose proof u53_pos; apply Rmult_le_pos; lra).
  induction F as [rp s c r p HC HR E|p N X Y u x y a b p' xd yd F IH FX FY E W|p N X Y u l a b p' xs ys F IH FL E W
                 |p N X Y n dx o p' out F IH D DB O E W S SB|p N X Y n dy o p' out F IH D DB O E W S SB].
  - unfold fpool_new in E. mb E. injection E as <-. unfold holdX, holdY. cbn. split; apply Rabs_le; lra.
  - destruct (dep_flow _ _ _ _ _ _ _ _ _ _ P G (freach_ok lm LM _ (flow_freach _ _ _ _ _ F)) (flow_funds _ _ _ _ _ P F) FX FY E W) as [C1 C2].
    rewrite S_INR. set (K := 24 * u53 * B) in *. clearbody K. destruct IH as [I1 I2]. clear - C1 C2 I1 I2. rabs. split; apply Rabs_le; lra.
  - destruct (wd_flow _ _ _ _ _ _ _ _ _ P G (freach_ok lm LM _ (flow_freach _ _ _ _ _ F)) (flow_funds _ _ _ _ _ P F) FL E W) as [C1 C2].
    rewrite S_INR. set (K := 24 * u53 * B) in *. clearbody K. destruct IH as [I1 I2]. clear - C1 C2 I1 I2. rabs. split; apply Rabs_le; lra.
  - destruct (swap_x_flow _ _ _ _ _ _ _ P G (freach_ok lm LM _ (flow_freach _ _ _ _ _ F)) (flow_funds _ _ _ _ _ P F) D DB O E W S SB) as [C1 C2].
    rewrite plus_INR. set (K := 24 * u53 * B) in *. clearbody K. destruct IH as [I1 I2]. clear - C1 C2 I1 I2. rabs. split; apply Rabs_le; lra.
  - destruct (swap_y_flow _ _ _ _ _ _ _ P G (freach_ok lm LM _ (flow_freach _ _ _ _ _ F)) (flow_funds _ _ _ _ _ P F) D DB O E W S SB) as [C1 C2].
    rewrite plus_INR. set (K := 24 * u53 * B) in *. clearbody K. destruct IH as [I1 I2]. clear - C1 C2 I1 I2. rabs. split; apply Rabs_le; lra.
Qed.

(** *** what a swap leaves of the reserves *)
Definition funds_ge0 (p : fpool) : Prop :=
  0 <= fval (fx p) /\ 0 <= fval (fy p) /\ 0 <= fval (fx_adj p) /\ 0 <= fval (fy_adj p) /\ 0 <= fval (fx_fee p) /\ 0 <= fval (fy_fee p).
Definition funds_fin (p : fpool) : Prop := fok (fx p) /\ fok (fy p) /\ fok (fx_adj p) /\ fok (fy_adj p) /\ fok (fx_fee p) /\ fok (fy_fee p).
Lemma swap_x_reserve n p dx o p' out : fpool_ok p -> f64_ok dx -> f64_ok o -> fexecute_swap_x lm n p dx o = Ok (p', out) -> funds_fin p' ->
  fok (fso_recv out) -> fok (fso_send out) -> funds_ge0 p ->
  (0 <= fval (fx p') /\ 0 <= fval (fx_adj p') /\ 0 <= fval (fy_adj p') /\ 0 <= fval (fx_fee p') /\ 0 <= fval (fy_fee p')) /\
  - (5 * u53) * fval (fy p) <= fval (fy p') /\ (feq (f_c p) f_zero = true -> 0 <= fval (fy p')).
Proof.
  intros K D O H (A1 & A2 & A3 & A4 & A5 & A6) R S (P1 & P2 & P3 & P4 & P5 & P6).
  unfold fexecute_swap_x in H. destruct (fle dx f_zero); [discriminate|].
  assert (S0 : s_ok (mkFL f_zero f_zero f_zero f_zero (fglbl_tick p) (fglbl_rp p))) by (unfold s_ok; cbn; destruct K as [(_ & K1 & _) _ _ _ _ _]; auto with fok).
  destruct (floop_x_chain _ _ _ _ _ _ _ K S0 D O H) as (k & Hk & CH & E1 & E2). cbn [fl_in fl_out] in CH.
  assert (V : vfin (viewX p' (fso_recv out) (fso_send out))) by (unfold vfin, viewX; cbn [va vf vs vj vi vo]; auto 12).
  destruct (chain_back _ _ _ _ CH V) as (_ & L1 & L2 & L3 & L4 & _). destruct (chain_reserve _ _ _ _ CH V) as [C1 C2]; [exact P2|].
  cbn [viewX va vf vs vj] in *. rewrite E1, E2. split; [repeat split; lra|auto].
Qed.
Lemma swap_y_reserve n p dx o p' out : fpool_ok p -> f64_ok dx -> f64_ok o -> fexecute_swap_y lm n p dx o = Ok (p', out) -> funds_fin p' ->
  fok (fso_recv out) -> fok (fso_send out) -> funds_ge0 p ->
  (0 <= fval (fy p') /\ 0 <= fval (fx_adj p') /\ 0 <= fval (fy_adj p') /\ 0 <= fval (fx_fee p') /\ 0 <= fval (fy_fee p')) /\
  - (5 * u53) * fval (fx p) <= fval (fx p') /\ (feq (f_c p) f_zero = true -> 0 <= fval (fx p')).
Proof.
  intros K D O H (A1 & A2 & A3 & A4 & A5 & A6) R S (P1 & P2 & P3 & P4 & P5 & P6).
  unfold fexecute_swap_y in H. destruct (fle dx f_zero); [discriminate|].
  assert (S0 : s_ok (mkFL f_zero f_zero f_zero f_zero (fglbl_tick p) (fglbl_rp p))) by (unfold s_ok; cbn; destruct K as [(_ & K1 & _) _ _ _ _ _]; auto with fok).
  destruct (floop_y_chain _ _ _ _ _ _ _ K S0 D O H) as (k & Hk & CH & E1 & E2). cbn [fl_in fl_out] in CH.
  assert (V : vfin (viewY p' (fso_recv out) (fso_send out))) by (unfold vfin, viewY; cbn [va vf vs vj vi vo]; auto 12).
  destruct (chain_back _ _ _ _ CH V) as (_ & L1 & L2 & L3 & L4 & _). destruct (chain_reserve _ _ _ _ CH V) as [C1 C2]; [exact P1|].
  cbn [viewY va vf vs vj] in *. rewrite E1, E2. split; [repeat split; lra|auto].
Qed.
End Lm.
