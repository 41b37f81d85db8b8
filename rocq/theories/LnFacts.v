(** An exact log2 oracle (to show that the hypotheses about the oracle can be met) and the witnesses used by the claims on logarithms. *)
From Coq Require Import ZArith QArith Qreals Reals Lra Lia List Bool Psatz.
From Verif Require Import Base BaseLemmas DecimalModel DecimalSpec DecimalProofs MathModel PoolModel PowAccuracy LnSeries LnAccuracy LnUse LnHmm.
Import ListNotations.
Open Scope R_scope.

Definition exact_log2 : log2_oracle := fun v s =>
  if (v <? 10 ^ s)%Z then (Z.log2_up ((10 ^ s + v - 1) / v) * 10 ^ s, true)%Z else (Z.log2 (v / 10 ^ s) * 10 ^ s, false)%Z.
Definition bl_ok (k : Z) : bool :=
  match to_scale_up (mkD (sat_u128 (k * U12)) 12 true) 0, to_scale (mkD (sat_u128 (k * U12)) 12 false) 0 with
  | Ok a, Ok b => (dval a =? k)%Z && (dval b =? k)%Z | _, _ => false end.
Definition small_ks : list Z := map Z.of_nat (seq 0 131).
Lemma bl_all : forallb bl_ok small_ks = true. Proof. vm_compute. reflexivity. Qed.
Lemma bl_is : forall orc v k neg, (0 < v)%Z -> (0 <= k <= 130)%Z -> orc v 12%Z = (k * U12, neg)%Z -> bit_length orc (mkD v 12 false) = Ok (mkD k 0 neg).
Proof.
  intros orc v k neg V K E. assert (I : In k small_ks). { unfold small_ks. apply in_map_iff. exists (Z.to_nat k). split; [lia|]. apply in_seq. lia. }
  pose proof (proj1 (forallb_forall _ _) bl_all _ I) as G. unfold bl_ok in G.
  unfold bit_length. change (is_negative (mkD v 12 false)) with false. cbn iota. assert (Z0 : is_zero (mkD v 12 false) = false). { unfold is_zero. cbn [dval]. apply Z.eqb_neq. lia. } rewrite Z0. cbn [dval dscale]. rewrite E.
  destruct (to_scale_up (mkD (sat_u128 (k * U12)) 12 true) 0) as [a | | |] eqn:EA; try discriminate. destruct (to_scale (mkD (sat_u128 (k * U12)) 12 false) 0) as [b | | |] eqn:EB; try discriminate.
  apply andb_prop in G. destruct G as (G1 & G2). apply Z.eqb_eq in G1, G2. destruct neg; [rewrite EA, <- G1 | rewrite EB, <- G2]; reflexivity.
Qed.
Lemma up_cmp : forall v k, (0 <= k)%Z -> ((2 ^ k * U12 <= v)%Z -> (inject_Z (2 ^ k) <= inject_Z v / inject_Z U12)%Q) /\ ((v < 2 ^ k * U12)%Z -> (inject_Z v / inject_Z U12 < inject_Z (2 ^ k))%Q).
Proof.
  intros v k Hk. change U12 with 1000000000000%Z. unfold Qdiv, Qinv, inject_Z, Qle, Qlt, Qmult. cbn [Qnum Qden]. split; lia.
Qed.
Lemma down_cmp : forall v k, (0 <= k)%Z -> ((U12 <= v * 2 ^ k)%Z -> (/ inject_Z (2 ^ k) <= inject_Z v / inject_Z U12)%Q) /\ ((v * 2 ^ k < U12)%Z -> (inject_Z v / inject_Z U12 < / inject_Z (2 ^ k))%Q).
Proof.
  intros v k Hk. change U12 with 1000000000000%Z. pose proof (Z.pow_pos_nonneg 2 k ltac:(lia) Hk) as P. set (t := (2 ^ k)%Z) in *. clearbody t. destruct t as [|t|t]; try lia. unfold Qdiv, Qinv, inject_Z, Qle, Qlt, Qmult. cbn [Qnum Qden]. split; lia.
Qed.
Lemma exact_log2_right : forall d, at_s 12 d -> (0 < num d)%Q -> log2_right exact_log2 d.
Proof.
  intros [v s n] ((W1 & W2) & S & N) P. cbn [dval dscale dneg] in *. subst s n.
  assert (UV : U12 = 1000000000000%Z) by reflexivity. assert (V0 : (0 < v)%Z). { destruct (Z.eq_dec v 0) as [-> |]; [discriminate P | lia]. }
  assert (NE : num (mkD v 12 false) = (inject_Z v / inject_Z U12)%Q) by reflexivity.
  assert (OE : exact_log2 v 12%Z = (if (v <? U12)%Z then (Z.log2_up ((U12 + v - 1) / v) * U12, true)%Z else (Z.log2 (v / U12) * U12, false)%Z)) by reflexivity.
  unfold log2_right. rewrite NE. unfold found. destruct (Z.ltb_spec v U12) as [L | L].
  - set (q := ((U12 + v - 1) / v)%Z) in *. pose proof (Z.div_mod (U12 + v - 1) v ltac:(lia)) as D. fold q in D. pose proof (Z.mod_pos_bound (U12 + v - 1) v V0) as M.
    assert (Q2 : (1 < q)%Z) by (rewrite UV in *; nia). pose proof (Z.log2_up_spec q Q2) as (S1 & S2). pose proof (Z.log2_up_pos q Q2) as KP.
    assert (KU : (Z.log2_up q <= 40)%Z). { change 40%Z with (Z.log2_up 1000000000000). apply Z.log2_up_le_mono. rewrite UV in *. nia. }
    set (k := Z.log2_up q) in *. exists (- k)%Z. split.
    + split.
      * rewrite Qpower.Qpower_opp, <- (Qpower.Zpower_Qpower 2 k) by lia. apply down_cmp; [lia|]. nia.
      * replace (- k + 1)%Z with (- (k - 1))%Z by lia. rewrite Qpower.Qpower_opp, <- (Qpower.Zpower_Qpower 2 (k - 1)) by lia. apply down_cmp; [lia|]. replace (k - 1)%Z with (Z.pred k) by lia. nia.
    + rewrite (bl_is _ v k true V0 ltac:(lia) OE). do 2 f_equal; [lia|]. symmetry. apply Z.ltb_lt. lia.
  - assert (Q1 : (0 < v / U12)%Z) by (apply Z.div_str_pos; rewrite UV in *; lia). pose proof (Z.log2_spec _ Q1) as (S1 & S2). pose proof (Z.log2_nonneg (v / U12)) as K0.
    pose proof (Z.div_mod v U12 ltac:(rewrite UV; lia)) as D. pose proof (Z.mod_pos_bound v U12 ltac:(rewrite UV; lia)) as M.
    assert (KU : (Z.log2 (v / U12) <= 128)%Z). { change 128%Z with (Z.log2 (2 ^ 128)). apply Z.log2_le_mono. apply Z.div_le_upper_bound; rewrite UV; lia. }
    set (q := (v / U12)%Z) in *. set (k := Z.log2 q) in *. exists k. split.
    + split; [rewrite <- (Qpower.Zpower_Qpower 2 k) by lia; apply up_cmp; [lia|]; nia | rewrite <- (Qpower.Zpower_Qpower 2 (k + 1)) by lia; apply up_cmp; [lia|]; replace (k + 1)%Z with (Z.succ k) by lia; nia].
    + rewrite (bl_is _ v k false V0 ltac:(lia) OE). do 2 f_equal; [lia|]. symmetry. apply Z.ltb_ge. lia.
Qed.

(** ln 2 and ln 1.9 *)
Lemma ln2_near : 69314718055 / 10 ^ 11 <= ln 2 <= 69314718057 / 10 ^ 11.
Proof.
  assert (N : ln_near 30 (69314718055 # 100000000000) (69314718057 # 100000000000) 2 1 = true) by (vm_compute; reflexivity).
  apply ln_near_ok in N; [|lia]. unfold Q2R in N. cbn [Qnum Qden] in N. cbn [pow]. replace (2 / 1) with 2 in N by lra. lra.
Qed.
Lemma ln19_near : 641 / 1000 <= ln (19 / 10).
Proof.
  assert (N : ln_near 30 (641 # 1000) (642 # 1000) 19 10 = true) by (vm_compute; reflexivity).
  apply ln_near_ok in N; [|lia]. unfold Q2R in N. cbn [Qnum Qden] in N. lra.
Qed.
Lemma ln_2_pow : forall n, ln (2 ^ n) = INR n * ln 2.
Proof.
  induction n as [|n IH]; [cbn; rewrite ln_1; lra|]. rewrite <- tech_pow_Rmult, ln_mult by (try lra; apply pow_lt; lra). rewrite IH, S_INR. lra.
Qed.
(** x = 0.0000076 *)
Definition tiny : decimal := mkD 7600000 12 false.
Lemma tiny_ln : exists r, d_ln exact_log2 tiny = Ok r /\ log2_right exact_log2 tiny /\ Q2R (num r) < ln (Q2R (num tiny)) - 6 / 10.
Proof.
  exists (mkD 12463404023321 12 true). split; [vm_compute; reflexivity|]. split. { apply exact_log2_right; [|reflexivity]. split; [split; vm_compute; split; congruence | split; reflexivity]. }
  rewrite (q2r_num tiny) by (cbn; lia). rewrite q2r_num by (cbn; lia). change (mant tiny) with 7600000%Z. change (mant (mkD 12463404023321 12 true)) with (-12463404023321)%Z. cbn [dscale tiny]. change (10 ^ 12)%Z with 1000000000000%Z.
  assert (L : ln (19 / 10 / 2 ^ 18) <= ln (7600000 / 1000000000000)). { left. apply ln_increasing; cbn [pow]; lra. }
  rewrite ln_div in L by (try lra; apply pow_lt; lra). rewrite ln_2_pow in L. replace (INR 18) with 18 in L by (cbn; lra). pose proof ln2_near as A. pose proof ln19_near as B. cbn [pow] in A. lra.
Qed.
(** x = 2^11 - 10^-12, with the bit length the f64 computation finds: 11 *)
Definition below_pow : decimal := mkD (2048000000000000 - 1) 12 false.
Lemma below_pow_ln : exists orc r, bit_length orc below_pow = Ok (mkD 11 0 false) /\ d_ln orc below_pow = Ok r /\ Q2R (num r) > ln (Q2R (num below_pow)) + 9 / 100.
Proof.
  exists (fun _ _ => (11 * U12, false)%Z). eexists. split; [vm_compute; reflexivity|]. split; [vm_compute; reflexivity|].
  rewrite (q2r_num below_pow) by (cbn; lia). rewrite q2r_num by (cbn; lia). cbn [dscale below_pow]. unfold mant. cbn [dneg dval below_pow]. change (10 ^ 12)%Z with 1000000000000%Z.
  assert (L : ln (IZR (2048000000000000 - 1) / 1000000000000) < ln (2 ^ 11)). { apply ln_increasing; cbn [pow]; change (IZR (2048000000000000 - 1)) with 2047999999999999; lra. }
  rewrite ln_2_pow in L. replace (INR 11) with 11 in L by (cbn; lra). pose proof ln2_near as A. cbn [pow] in A. lra.
Qed.
