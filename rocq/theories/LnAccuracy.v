(** Accuracy and completeness of the natural logarithm (decimal.rs:868-991). *)
From Coq Require Import ZArith QArith Qreals Reals Lra Lia List Bool Psatz.
From Verif Require Import Base BaseLemmas DecimalModel DecimalSpec LnSeries.
Import ListNotations.
Open Scope Z_scope.

Definition U12 : Z := 10 ^ 12.
Lemma u128_num : U128 = 340282366920938463463374607431768211456. Proof. reflexivity. Qed.

(** One column of the table walk, on mantissas. *)
Definition col_s (s t : Z) : Z := s * U12 / t.
Definition col_r (s P : Z) : Z := s * P / U12 - P.
Definition col_t (s P : Z) : Z := s * P / U12 * (U12 / P).
Definition col_l (r c : Z) : Z := if r =? 0 then 0 else log_table (r - 1) c.

Lemma place : forall c, 0 <= c <= 9 -> exists K, 10 ^ (c + 1) * K = U12 /\ 10 <= 10 ^ (c + 1) <= 10 ^ 10 /\ U12 / 10 ^ (c + 1) = K /\ 100 <= K.
Proof.
  intros c H. exists (U12 / 10 ^ (c + 1)).
  assert (C : c = 0 \/ c = 1 \/ c = 2 \/ c = 3 \/ c = 4 \/ c = 5 \/ c = 6 \/ c = 7 \/ c = 8 \/ c = 9) by lia.
  repeat (destruct C as [-> | C]; [vm_compute; intuition discriminate|]). subst. vm_compute. intuition discriminate.
Qed.

Lemma col_arith : forall s P K, P * K = U12 -> 10 <= P -> 1 <= K -> U12 <= s < U12 + 10 * K ->
  0 <= col_r s P <= 9 /\ col_t s P = U12 + col_r s P * K /\ col_t s P <= s < col_t s P + K /\ U12 / P = K /\ U12 <= s * U12 / col_t s P < U12 + K.
Proof.
  intros s P K E HP HK Hs. assert (EK : U12 / P = K) by (rewrite <- E, Z.mul_comm; apply Z.div_mul; lia).
  unfold col_t, col_r. rewrite EK.
  assert (Q : s * P / U12 = s / K). { rewrite <- E, (Z.mul_comm P K). apply Z.div_mul_cancel_r; lia. }
  rewrite Q. pose proof (Z.div_mod s K ltac:(lia)) as D. pose proof (Z.mod_pos_bound s K ltac:(lia)) as B.
  set (q := s / K) in *. set (m := s mod K) in *. clearbody q m.
  assert (P <= q) by nia. assert (q <= P + 9) by nia.
  assert (T : q * K = U12 + (q - P) * K) by (rewrite <- E; ring).
  assert (U : 0 < U12) by reflexivity.
  split; [lia|]. split; [exact T|]. split; [lia|]. split; [reflexivity|].
  assert (U12 <= q * K) by nia.
  split; [apply Z.div_le_lower_bound; nia|]. apply Z.div_lt_upper_bound; [lia|]. nia.
Qed.

Lemma col_ok : forall sp tp c, 0 <= c <= 9 -> 0 < tp -> 0 <= sp -> sp * U12 < U128 -> U12 <= col_s sp tp < U12 + 10 * (U12 / 10 ^ (c + 1)) ->
  log_table_value (mkD sp 12 false) (mkD tp 12 false) c =
  Ok (mkD (col_s sp tp) 12 false, mkD (col_t (col_s sp tp) (10 ^ (c + 1))) 12 false, col_l (col_r (col_s sp tp) (10 ^ (c + 1))) c).
Proof.
  intros sp tp c Hc Htp Hsp Hov Hs. destruct (place c Hc) as (K & E & HP & EK & HK). rewrite EK in Hs.
  destruct (col_arith _ _ _ E (proj1 HP) ltac:(lia) Hs) as (R & T & TS & _ & _).
  set (P := 10 ^ (c + 1)) in *. set (s := col_s sp tp) in *.
  assert (UV : U12 = 1000000000000) by reflexivity.
  assert (PV : P <= 10000000000) by (exact (proj2 HP)).
  assert (KV : K <= 100000000000) by nia.
  assert (D12' : forall v n, denominator (mkD v 12 n) = Ok U12) by reflexivity.
  unfold log_table_value. unfold d_div at 1. rewrite D12'. cbn [bind dval dscale dneg].
  rewrite cmul_Ok by exact Hov. cbn [bind]. rewrite cdiv_Ok by lia. cbn [bind]. fold (col_s sp tp). fold s.
  rewrite pow10_Ok by lia. cbn [bind]. fold P.
  change (sign_mul false false) with false. cbn [dscale].
  unfold d_mul at 1. cbn [dval dscale dneg]. rewrite cmul_Ok by (rewrite u128_num; nia). cbn [bind]. rewrite D12'. cbn [bind]. rewrite cdiv_Ok by lia. cbn [bind].
  unfold d_div at 1. rewrite D12'. cbn [bind dval dscale dneg]. change (sign_mul false false) with false.
  assert (Q : s * P / U12 = P + col_r s P) by (unfold col_r; lia).
  rewrite cmul_Ok by (rewrite Q, u128_num; nia). cbn [bind]. rewrite cdiv_Ok by lia. cbn [bind].
  assert (T2 : s * P / U12 * U12 / P = col_t s P).
  { unfold col_t. rewrite EK. rewrite <- E at 2. rewrite (Z.mul_comm P K), Z.mul_assoc. apply Z.div_mul. lia. }
  rewrite T2. unfold d_mul at 1. cbn [dval dscale dneg]. change (sign_mul false false) with false. rewrite cmul_Ok by (rewrite u128_num; nia). cbn [bind]. rewrite D12'. cbn [bind]. rewrite cdiv_Ok by lia. cbn [bind].
  assert (M2 : col_t s P * P / U12 = P + col_r s P).
  { unfold col_t. rewrite EK, Q. rewrite <- Z.mul_assoc, (Z.mul_comm K P), E. apply Z.div_mul. lia. }
  rewrite M2. unfold d_sub, d_add. cbn [dval dscale dneg]. change (negb (12 =? 12)) with false. cbn [negb Bool.eqb].
  change (sign_mul false false) with false. cbn [Bool.eqb negb].
  assert (RR : exists n, unwrap (if P <? P + col_r s P then let* v := csub (P + col_r s P) P in Ok (mkD v 12 false) else if P + col_r s P <? P then let* v := csub P (P + col_r s P) in Ok (mkD v 12 true) else Ok (mkD 0 12 false)) = Ok (mkD (col_r s P) 12 n)).
  { destruct (Z.ltb_spec P (P + col_r s P)).
    - rewrite csub_Ok by lia. cbn. exists false. do 2 f_equal. lia.
    - destruct (Z.ltb_spec (P + col_r s P) P); [lia|]. exists false. cbn. do 2 f_equal. lia. }
  destruct RR as (n & ->). cbn [bind dval].
  unfold to_u64_chk. destruct (Z.ltb_spec (col_r s P) U64) as [_ | F]; [|unfold U64 in F; lia]. cbn [bind].
  unfold col_l. destruct (Z.eqb_spec (col_r s P) 0); [reflexivity|].
  destruct (Z.ltb_spec (col_r s P - 1) 9); [|lia]. destruct (Z.ltb_spec c 12); [|lia]. reflexivity.
Qed.

(** The table holds the logarithms of 1 + r / 10^(c+1) to within one unit of the twelfth decimal. *)
Definition col_terms : list (Z * nat) := [(0, 14%nat); (1, 6%nat); (2, 4%nat); (3, 3%nat); (4, 2%nat); (5, 2%nat); (6, 1%nat); (7, 1%nat); (8, 1%nat); (9, 1%nat)].
Definition entry_ok (c : Z) (n : nat) (r : Z) : bool :=
  ln_near n ((log_table (r - 1) c * 1000 - 1) # 1000000000000000) ((log_table (r - 1) c * 1000 + 1001) # 1000000000000000) (10 ^ (c + 1) + r) (10 ^ (c + 1)).
Lemma entries_ok : forallb (fun '(c, n) => forallb (entry_ok c n) [1; 2; 3; 4; 5; 6; 7; 8; 9]) col_terms = true.
Proof. vm_compute. reflexivity. Qed.
Definition units12 (x : R) : R := (ln x * 1000000000000)%R.
Lemma col_l_ok : forall c r, 0 <= c <= 9 -> 0 <= r <= 9 -> 0 <= col_l r c < 10 ^ 12 /\ 
  (IZR (col_l r c) - 1 / 1000 <= units12 (IZR (10 ^ (c + 1) + r) / IZR (10 ^ (c + 1))) <= IZR (col_l r c) + 1001 / 1000)%R.
Proof.
  intros c r Hc Hr. pose proof (pow10_pos (c + 1) ltac:(lia)) as PP.
  unfold col_l. destruct (Z.eqb_spec r 0) as [-> | N].
  { split; [split; reflexivity || discriminate|]. rewrite Z.add_0_r. unfold units12. replace (IZR (10 ^ (c + 1)) / IZR (10 ^ (c + 1)))%R with 1%R by (field; apply not_0_IZR; lia). rewrite ln_1. lra. }
  assert (C : exists n, In (c, n) col_terms). { unfold col_terms. assert (C : c = 0 \/ c = 1 \/ c = 2 \/ c = 3 \/ c = 4 \/ c = 5 \/ c = 6 \/ c = 7 \/ c = 8 \/ c = 9) by lia.
    repeat (destruct C as [-> | C]; [eexists; cbn [In]; eauto 12|]). subst. eexists; cbn [In]; eauto 12. }
  destruct C as (n & C). pose proof (proj1 (forallb_forall _ _) entries_ok _ C) as F. cbv beta iota in F.
  assert (IR : In r [1; 2; 3; 4; 5; 6; 7; 8; 9]) by (cbn [In]; lia).
  pose proof (proj1 (forallb_forall _ _) F _ IR) as G. unfold entry_ok in G.
  apply ln_near_ok in G; [|lia]. split.
  - clear - IR Hc. assert (C : c = 0 \/ c = 1 \/ c = 2 \/ c = 3 \/ c = 4 \/ c = 5 \/ c = 6 \/ c = 7 \/ c = 8 \/ c = 9) by lia. cbn [In] in IR.
    repeat (destruct C as [-> | C]; [repeat (destruct IR as [<- | IR]; [vm_compute; intuition discriminate|]); destruct IR|]). subst.
    repeat (destruct IR as [<- | IR]; [vm_compute; intuition discriminate|]); destruct IR.
  - unfold units12. set (y := ln _) in *. clearbody y. unfold Q2R in G. cbn [Qnum Qden] in G. rewrite minus_IZR, plus_IZR, !mult_IZR in G. lra.
Qed.

Open Scope R_scope.
Lemma ln_div : forall a b, 0 < a -> 0 < b -> ln (a / b) = ln a - ln b.
Proof. intros. unfold Rdiv. rewrite ln_mult; [|assumption | apply Rinv_0_lt_compat; assumption]. rewrite ln_Rinv by assumption. ring. Qed.
Lemma ln_le_sub : forall x, 0 < x -> ln x <= x - 1.
Proof. intros x H. pose proof (exp_ineq1_le (ln x)) as E. rewrite exp_ln in E by exact H. lra. Qed.
(** The logarithm moves by at most the relative change. *)
Lemma ln_close : forall a b, 0 < b -> b <= a -> 0 <= ln a - ln b <= (a - b) / b.
Proof.
  intros a b B A. split.
  - destruct (Req_dec a b) as [-> | N]; [lra|]. pose proof (ln_increasing b a B ltac:(lra)). lra.
  - rewrite <- ln_div by lra. pose proof (ln_le_sub (a / b) ltac:(apply Rdiv_lt_0_compat; lra)) as L. replace ((a - b) / b) with (a / b - 1) by (field; lra). exact L.
Qed.
Lemma floor_units : forall a b : Z, (0 < b)%Z -> (U12 <= a * U12 / b)%Z -> 0 <= units12 (IZR a / IZR b) - units12 (IZR (a * U12 / b) / IZR U12) <= 1.
Proof.
  intros a b B H. set (q := (a * U12 / b)%Z) in *.
  assert (U : IZR U12 = 1000000000000) by (apply f_equal; reflexivity).
  assert (Uz : (U12 = 1000000000000)%Z) by reflexivity.
  assert (D : (q * b <= a * U12 < (q + 1) * b)%Z).
  { pose proof (Z.div_mod (a * U12) b ltac:(lia)) as D. pose proof (Z.mod_pos_bound (a * U12) b B). fold q in D. nia. }
  destruct D as (D1 & D2). apply IZR_le in D1. apply IZR_lt in D2. rewrite !mult_IZR in D1, D2. rewrite plus_IZR in D2.
  apply IZR_lt in B. apply IZR_le in H. rewrite U in *.
  set (x := IZR a) in *. set (y := IZR b) in *. set (z := IZR q) in *. clearbody x y z. clear q U Uz.
  assert (X : z / 1000000000000 <= x / y). { apply Rmult_le_reg_r with (1000000000000 * y); [lra|]. unfold Rdiv. field_simplify; lra. }
  assert (Y : x / y - z / 1000000000000 <= 1 / 1000000000000). { apply Rmult_le_reg_r with (1000000000000 * y); [lra|]. unfold Rdiv. field_simplify; lra. }
  assert (Z1 : 1 <= z / 1000000000000) by lra.
  destruct (ln_close (x / y) (z / 1000000000000) ltac:(lra) X) as (L1 & L2). unfold units12.
  assert (L3 : (x / y - z / 1000000000000) / (z / 1000000000000) <= 1 / 1000000000000).
  { apply Rmult_le_reg_r with (z / 1000000000000); [lra|]. unfold Rdiv at 1. rewrite Rmult_assoc, Rinv_l by lra. nra. }
  lra.
Qed.

Definition slack (n : nat) : R := 1001 / 1000 * INR n + INR n + 98.
Lemma ln_cols_ok : forall n c sp tp acc, (Z.of_nat (S n) + c = 10)%Z -> (0 <= c)%Z -> (0 < tp)%Z -> (0 <= sp)%Z -> (sp * U12 < U128)%Z ->
  (U12 <= col_s sp tp < U12 + 10 * (U12 / 10 ^ (c + 1)))%Z -> (0 <= acc <= c * 10 ^ 12)%Z ->
  exists acc', ln_cols (S n) c (mkD sp 12 false) (mkD tp 12 false) acc = Ok acc' /\ (acc <= acc' <= 10 * 10 ^ 12)%Z /\
    IZR (acc' - acc) - INR (S n) / 1000 <= units12 (IZR (col_s sp tp) / IZR U12) <= IZR (acc' - acc) + slack (S n).
Proof.
  assert (U : IZR U12 = 1000000000000) by (apply f_equal; reflexivity).
  assert (UV : U12 = 1000000000000%Z) by reflexivity.
  induction n as [|n IH]; intros c sp tp acc Hn Hc Htp Hsp Hov Hs Hacc.
  - assert (c = 9)%Z by lia. subst c.
    assert (E9 : ln_cols 1 9 (mkD sp 12 false) (mkD tp 12 false) acc = let* (s', t', lx) := log_table_value (mkD sp 12 false) (mkD tp 12 false) 9 in let* acc' := cadd acc lx in Ok acc') by reflexivity.
    rewrite E9, (col_ok sp tp 9 ltac:(lia) Htp Hsp Hov Hs). cbn [bind].
    destruct (place 9 ltac:(lia)) as (K & EP & HP & EK & HK). rewrite EK in Hs.
    destruct (col_arith _ _ _ EP (proj1 HP) ltac:(lia) Hs) as (R & T & TS & _ & _).
    set (s := col_s sp tp) in *. set (P := (10 ^ (9 + 1))%Z) in *. set (r := col_r s P) in *.
    destruct (col_l_ok 9 r ltac:(lia) R) as (L0 & L1). fold P in L1.
    rewrite cadd_Ok by (rewrite u128_num; lia). cbn [bind]. eexists. split; [reflexivity|]. split; [lia|].
    replace (acc + col_l r 9 - acc)%Z with (col_l r 9) by ring.
    assert (KV : K = 100%Z) by (rewrite <- EK; reflexivity).
    assert (PV : P = 10000000000%Z) by reflexivity.
    assert (Ur : IZR s / IZR U12 = IZR (P + r) / IZR P * (IZR s / IZR (col_t s P))).
    { rewrite T, KV, PV, UV, !plus_IZR, mult_IZR. assert (0 <= IZR r) by (apply IZR_le; lia). field. lra. }
    assert (TP : 1000000000000 <= IZR (col_t s P)) by (rewrite <- U; apply IZR_le; lia).
    assert (ST : IZR (col_t s P) <= IZR s <= IZR (col_t s P) + 99). { split; [apply IZR_le; lia|]. rewrite <- plus_IZR. apply IZR_le. lia. }
    assert (PR : 0 < IZR (P + r) / IZR P) by (apply Rdiv_lt_0_compat; apply IZR_lt; lia).
    rewrite Ur. unfold units12 in *. rewrite ln_mult by first [exact PR | apply Rdiv_lt_0_compat; lra]. rewrite ln_div with (a := IZR s) by lra.
    destruct (ln_close (IZR s) (IZR (col_t s P)) ltac:(lra) ltac:(lra)) as (C1 & C2).
    assert (C3 : (IZR s - IZR (col_t s P)) / IZR (col_t s P) <= 99 / 1000000000000).
    { apply Rmult_le_reg_r with (IZR (col_t s P)); [lra|]. unfold Rdiv at 1. rewrite Rmult_assoc, Rinv_l by lra. lra. }
    unfold slack. cbn [INR]. lra.
  - destruct (place c ltac:(lia)) as (K & EP & HP & EK & HK).
    assert (E9 : ln_cols (S (S n)) c (mkD sp 12 false) (mkD tp 12 false) acc = let* (s', t', lx) := log_table_value (mkD sp 12 false) (mkD tp 12 false) c in let* acc' := cadd acc lx in ln_cols (S n) (c + 1) s' t' acc') by reflexivity.
    rewrite E9, (col_ok sp tp c ltac:(lia) Htp Hsp Hov Hs). cbn [bind]. clear E9. rewrite EK in Hs.
    destruct (col_arith _ _ _ EP (proj1 HP) ltac:(lia) Hs) as (R & T & TS & _ & N).
    set (s := col_s sp tp) in *. set (P := (10 ^ (c + 1))%Z) in *. set (r := col_r s P) in *.
    destruct (col_l_ok c r ltac:(lia) R) as (L0 & L1). fold P in L1.
    rewrite cadd_Ok by (rewrite u128_num; nia). cbn [bind].
    assert (KV : (K <= 100000000000)%Z) by nia.
    destruct (place (c + 1) ltac:(lia)) as (K' & EP' & HP' & EK' & HK').
    assert (PP : (10 ^ (c + 1 + 1) = 10 * P)%Z) by (unfold P; rewrite <- (Z.pow_succ_r 10 (c + 1)) by lia; f_equal; lia).
    assert (KK : K = (10 * K')%Z) by nia.
    destruct (IH (c + 1)%Z s (col_t s P) (acc + col_l r c)%Z) as (acc' & F1 & F2 & F3); try lia.
    { rewrite u128_num, UV. lia. }
    { rewrite EK'. unfold col_s. lia. }
    exists acc'. split; [exact F1|]. split; [lia|].
    destruct (floor_units s (col_t s P) ltac:(lia) (proj1 N)) as (G1 & G2). fold (col_s s (col_t s P)) in G1, G2.
    assert (Ur : IZR s / IZR U12 = IZR (P + r) / IZR P * (IZR s / IZR (col_t s P))).
    { rewrite T, <- EP. replace (P * K + r * K)%Z with (K * (P + r))%Z by ring. rewrite !mult_IZR.
      assert (0 < IZR K) by (apply IZR_lt; lia). assert (0 < IZR P) by (apply IZR_lt; lia). assert (0 < IZR (P + r)) by (apply IZR_lt; lia). field. lra. }
    assert (TP : 0 < IZR (col_t s P)) by (apply IZR_lt; lia).
    assert (SP : 0 < IZR s) by (apply IZR_lt; lia).
    assert (PR : 0 < IZR (P + r) / IZR P) by (apply Rdiv_lt_0_compat; apply IZR_lt; lia).
    assert (Um : units12 (IZR s / IZR U12) = units12 (IZR (P + r) / IZR P) + units12 (IZR s / IZR (col_t s P))).
    { rewrite Ur. unfold units12. rewrite ln_mult by first [exact PR | apply Rdiv_lt_0_compat; lra]. ring. }
    rewrite Um. replace (acc' - acc)%Z with (acc' - (acc + col_l r c) + col_l r c)%Z by ring. rewrite plus_IZR.
    unfold slack in *. rewrite (S_INR (S n)). set (w := INR (S n)) in *. clearbody w. lra.
Qed.

(** The power of two that [d_ln] divides by, for the exponents at which it is exact. *)
Definition two_pow (b : Z) : Z := if (b <? 0)%Z then (U12 / 2 ^ (- b))%Z else (2 ^ b * U12)%Z.
Definition max_of (b : Z) : res decimal :=
  let* two := to_scale (from_u64 2) 6 in
  let* bl6 := to_scale (mkD (Z.abs b) 0 (b <? 0)%Z) 6 in
  let* m6 := d_pow_dec two bl6 in
  to_compute_scale m6.
Definition max_good (b : Z) : bool :=
  match max_of b with Ok m => ((dval m =? two_pow b) && (dscale m =? 12) && negb (dneg m))%bool%Z | _ => false end.
Definition exps : list Z := map (fun i => (Z.of_nat i - 6)%Z) (seq 0 55).
Lemma max_all : forallb max_good exps = true.
Proof. vm_compute. reflexivity. Qed.
Lemma max_ok : forall b, (-6 <= b <= 48)%Z -> max_of b = Ok (mkD (two_pow b) 12 false).
Proof.
  intros b H. assert (I : In b exps). { unfold exps. apply in_map_iff. exists (Z.to_nat (b + 6)). split; [lia|]. apply in_seq. lia. }
  pose proof (proj1 (forallb_forall _ _) max_all _ I) as G. unfold max_good in G. destruct (max_of b) as [[v s n] | | |]; try discriminate. cbn [dval dscale dneg] in G.
  apply andb_prop in G. destruct G as (G & G3). apply andb_prop in G. destruct G as (G1 & G2). apply Z.eqb_eq in G1, G2. destruct n; [discriminate|]. subst. reflexivity.
Qed.
Lemma ln2_units : 693147180559 <= units12 2 <= 693147180560.
Proof.
  assert (N : ln_near 16 (693147180559 # 1000000000000) (693147180560 # 1000000000000) 2 1 = true) by (vm_compute; reflexivity).
  apply ln_near_ok in N; [|lia]. unfold Q2R in N. cbn [Qnum Qden] in N. replace (2 / 1) with 2 in N by field. unfold units12. lra.
Qed.
Lemma two_pow_ln : forall b, (-6 <= b <= 48)%Z -> (0 < two_pow b)%Z /\ units12 (IZR (two_pow b) / IZR U12) = IZR b * units12 2 /\ (two_pow b * U12 < U128)%Z.
Proof.
  intros b H. unfold two_pow, units12. destruct (Z.ltb_spec b 0).
  - assert (C : (b = -6 \/ b = -5 \/ b = -4 \/ b = -3 \/ b = -2 \/ b = -1)%Z) by lia.
    assert (D : (U12 / 2 ^ (- b) * 2 ^ (- b) = U12)%Z) by (repeat (destruct C as [-> | C]; [reflexivity|]); subst; reflexivity).
    set (q := (U12 / 2 ^ (- b))%Z) in *. assert (PB : (0 < 2 ^ (- b))%Z) by (apply Z.pow_pos_nonneg; lia).
    assert (QP : (0 < q)%Z). { assert (0 < U12)%Z by reflexivity. nia. }
    split; [exact QP|]. split.
    + rewrite <- D. rewrite mult_IZR. replace (IZR q / (IZR q * IZR (2 ^ (- b)))) with (/ IZR (2 ^ (- b))).
      2: { apply IZR_lt in QP, PB. field. lra. }
      rewrite ln_Rinv by (apply IZR_lt; exact PB). rewrite <- (Z2Nat.id (- b)) by lia. rewrite <- pow_IZR. rewrite ln_pow by lra.
      rewrite INR_IZR_INZ, Z2Nat.id by lia. rewrite opp_IZR. ring.
    + assert (q <= U12)%Z by nia. rewrite u128_num. unfold U12 in *. lia.
  - assert (PB : (0 < 2 ^ b)%Z) by (apply Z.pow_pos_nonneg; lia). assert (U : (0 < U12)%Z) by reflexivity.
    split; [lia|]. split.
    + rewrite mult_IZR. replace (IZR (2 ^ b) * IZR U12 / IZR U12) with (IZR (2 ^ b)) by (apply IZR_lt in U; field; lra).
      rewrite <- (Z2Nat.id b) at 1 by lia. rewrite <- pow_IZR, ln_pow by lra. rewrite INR_IZR_INZ, Z2Nat.id by lia. ring.
    + assert (2 ^ b <= 2 ^ 48)%Z by (apply Z.pow_le_mono_r; lia). assert (2 ^ 48 = 281474976710656)%Z by reflexivity. rewrite u128_num. change U12 with 1000000000000%Z. lia.
Qed.

(** The bit length that the f64 computation should find: the exponent of the largest power of two not above x. *)
Definition exponent (x : Q) (b : Z) : Prop := (Qpower 2 b <= x /\ x < Qpower 2 (b + 1))%Q.
Definition found (orc : log2_oracle) (d : decimal) (b : Z) : Prop := bit_length orc d = Ok (mkD (Z.abs b) 0 (b <? 0)%Z).

Lemma exponent_val : forall X b, (-6 <= b <= 48)%Z -> (0 <= X)%Z -> exponent (inject_Z X / inject_Z U12) b -> (two_pow b <= X < 2 * two_pow b)%Z.
Proof.
  intros X b Hb HX (E1 & E2).
  assert (G : (Qpower 2 b == inject_Z (two_pow b) / inject_Z U12)%Q).
  { unfold two_pow. destruct (Z.ltb_spec b 0).
    - assert (C : (b = -6 \/ b = -5 \/ b = -4 \/ b = -3 \/ b = -2 \/ b = -1)%Z) by lia.
      repeat (destruct C as [-> | C]; [vm_compute; reflexivity|]); subst; vm_compute; reflexivity.
    - rewrite inject_Z_mult. rewrite <- (Qpower.Zpower_Qpower 2 b) by lia. field. intros F. vm_compute in F. discriminate. }
  rewrite Qpower.Qpower_plus in E2 by (intros F; vm_compute in F; discriminate). change (2 ^ 1)%Q with 2%Q in E2. rewrite G in E1, E2.
  assert (UP : (0 < inject_Z U12)%Q) by reflexivity.
  assert (UN : ~ (inject_Z U12 == 0)%Q) by (intros F; vm_compute in F; discriminate).
  split.
  - apply Qmult_le_compat_r with (z := inject_Z U12) in E1; [|apply Qlt_le_weak; exact UP].
    setoid_replace (inject_Z (two_pow b) / inject_Z U12 * inject_Z U12)%Q with (inject_Z (two_pow b)) in E1 by (field; exact UN).
    setoid_replace (inject_Z X / inject_Z U12 * inject_Z U12)%Q with (inject_Z X) in E1 by (field; exact UN). rewrite <- Zle_Qle in E1. exact E1.
  - apply (Qmult_lt_compat_r _ _ (inject_Z U12) UP) in E2.
    setoid_replace (inject_Z (two_pow b) / inject_Z U12 * 2 * inject_Z U12)%Q with (inject_Z (2 * two_pow b)) in E2 by (rewrite inject_Z_mult; field; exact UN).
    setoid_replace (inject_Z X / inject_Z U12 * inject_Z U12)%Q with (inject_Z X) in E2 by (field; exact UN). rewrite <- Zlt_Qlt in E2. exact E2.
Qed.

Lemma ln_sum : forall b acc, (-6 <= b <= 48)%Z -> (0 <= acc <= 10 * 10 ^ 12)%Z -> exists p q, d_mul (mkD 693147180559 12 false) (mkD (Z.abs b) 0 (b <? 0)%Z) = Ok p /\
  d_add p (mkD acc 12 false) = Ok q /\ dscale q = 12%Z /\ (0 <= dval q < 10 ^ 14)%Z /\ mant q = (b * 693147180559 + acc)%Z.
Proof.
  intros b acc Hb Ha. unfold d_mul. cbn [dval dscale dneg]. rewrite cmul_Ok by (rewrite u128_num; lia). cbn [bind]. unfold denominator. cbn [dscale]. rewrite pow10_Ok by lia. cbn [bind].
  rewrite cdiv_Ok by (intro F; discriminate). cbn [bind]. change (10 ^ 0)%Z with 1%Z. rewrite Z.div_1_r.
  set (n := sign_mul false (b <? 0)%Z). assert (N : n = (b <? 0)%Z) by (unfold n; destruct (b <? 0)%Z; reflexivity). rewrite N. clear n N.
  eexists. assert (G : exists q, d_add (mkD (693147180559 * Z.abs b) 12 (b <? 0)%Z) (mkD acc 12 false) = Ok q /\ dscale q = 12%Z /\ (0 <= dval q < 10 ^ 14)%Z /\ mant q = (b * 693147180559 + acc)%Z).
  2: { destruct G as (q & G). exists q. split; [reflexivity | exact G]. }
  unfold d_add. cbn [dval dscale dneg]. change (negb (12 =? 12)%Z) with false. cbn [negb].
  destruct (Z.ltb_spec b 0); cbn [Bool.eqb].
  - destruct (Z.ltb_spec acc (693147180559 * Z.abs b)).
    + rewrite csub_Ok by lia. cbn [bind]. eexists. split; [reflexivity|]. unfold mant. cbn [dval dscale dneg]. split; [reflexivity|]. lia.
    + destruct (Z.ltb_spec (693147180559 * Z.abs b) acc).
      * rewrite csub_Ok by lia. cbn [bind]. eexists. split; [reflexivity|]. unfold mant. cbn [dval dscale dneg]. split; [reflexivity|]. lia.
      * eexists. split; [reflexivity|]. unfold mant. cbn [dval dscale dneg]. split; [reflexivity|]. lia.
  - rewrite cadd_Ok by (rewrite u128_num; lia). cbn [bind]. eexists. split; [reflexivity|]. unfold mant. cbn [dval dscale dneg]. split; [reflexivity|]. lia.
Qed.

(** The sum before the final change of scale. *)
Lemma ln_core : forall orc d b X, dneg d = false -> (-6 <= b <= 48)%Z -> found orc d b -> to_compute_scale d = Ok (mkD X 12 false) -> (two_pow b <= X < 2 * two_pow b)%Z -> (X * U12 < U128)%Z ->
  exists q, d_ln orc d = to_scale q (dscale d) /\ dscale q = 12%Z /\ (0 <= dval q < 10 ^ 14)%Z /\ (0 <= b -> 0 <= mant q)%Z /\
   IZR (mant q) - (1 + IZR (Z.max 0 (- b))) <= units12 (IZR X / IZR U12) <= IZR (mant q) + (120 + IZR (Z.max 0 b)).
Proof.
  intros orc d b X Hn Hb Hf Hs HX OV. destruct (two_pow_ln b Hb) as (T0 & T1 & T2).
  unfold d_ln. unfold is_negative. rewrite Hn, Hs. cbn [bind]. unfold found in Hf. rewrite Hf. cbn [unwrap bind].
  pose proof (max_ok b Hb) as M. unfold max_of in M.
  apply bind_ok in M. destruct M as (two & M1 & M). rewrite M1. cbn [bind].
  apply bind_ok in M. destruct M as (bl6 & M2 & M). rewrite M2. cbn [bind].
  apply bind_ok in M. destruct M as (m6 & M3 & M). rewrite M3. cbn [bind]. rewrite M. cbn [bind].
  assert (UV : U12 = 1000000000000%Z) by reflexivity.
  assert (CS : (U12 <= col_s X (two_pow b) < U12 + 10 * (U12 / 10 ^ (0 + 1)))%Z).
  { change (U12 / 10 ^ (0 + 1))%Z with 100000000000%Z. unfold col_s. rewrite UV in *. split; [apply Z.div_le_lower_bound; lia | apply Z.div_lt_upper_bound; lia]. }
  destruct (ln_cols_ok 9 0 X (two_pow b) 0 eq_refl ltac:(lia) T0 ltac:(lia) OV CS ltac:(lia)) as (acc & A1 & A2 & A3).
  rewrite A1. cbn [bind dneg]. rewrite Z.sub_0_r in A3.
  destruct (ln_sum b acc Hb A2) as (p & q & P1 & P2 & P3 & P4 & P5). rewrite P1. cbn [bind]. rewrite P2. cbn [unwrap bind].
  exists q. split; [reflexivity|]. split; [exact P3|]. split; [exact P4|]. split; [lia|].
  destruct (floor_units X (two_pow b) T0 ltac:(exact (proj1 CS))) as (F1 & F2). fold (col_s X (two_pow b)) in F1, F2.
  assert (Ux : units12 (IZR X / IZR U12) = units12 (IZR (two_pow b) / IZR U12) + units12 (IZR X / IZR (two_pow b))).
  { unfold units12. assert (0 < IZR (two_pow b)) by (apply IZR_lt; lia). assert (0 < IZR X) by (apply IZR_lt; lia). assert (0 < IZR U12) by (apply IZR_lt; rewrite UV; lia).
    rewrite !ln_div by assumption. ring. }
  rewrite Ux, T1, P5, plus_IZR, mult_IZR. pose proof ln2_units as L2. unfold slack in A3. cbn [INR] in A3.
  assert (L3 : IZR b * 693147180559 - IZR (Z.max 0 (- b)) <= IZR b * units12 2 <= IZR b * 693147180559 + IZR (Z.max 0 b)).
  { destruct (Z.le_gt_cases 0 b).
    - rewrite (Z.max_l 0 (- b)), (Z.max_r 0 b) by lia. apply IZR_le in H. set (y := IZR b) in *. set (w := units12 2) in *. clearbody y w. nra.
    - rewrite (Z.max_r 0 (- b)), (Z.max_l 0 b), opp_IZR by lia. apply IZR_lt in H. set (y := IZR b) in *. set (w := units12 2) in *. clearbody y w. nra. }
  set (w := IZR b * units12 2) in *. set (z := units12 (IZR X / IZR (two_pow b))) in *. set (y := units12 (IZR (col_s X (two_pow b)) / IZR U12)) in *. clearbody w z y. lra.
Qed.

Lemma q2r_num : forall d, (0 <= dscale d)%Z -> Q2R (num d) = IZR (mant d) / IZR (10 ^ dscale d).
Proof.
  intros d H. pose proof (pow10_pos _ H). unfold num. rewrite Q2R_div, !q2r_z; [reflexivity|]. intros F. unfold Qeq in F. cbn in F. lia.
Qed.
(** Beyond this size the first division of the table walk overflows. *)
Definition ln_room : Q := (inject_Z (2 ^ 128) / (inject_Z (10 ^ 12) * inject_Z (10 ^ 12)))%Q.
(** Every input at one of the scales 0 to 12 reaches the table walk unchanged. *)
Lemma scaled_up : forall d b, wf d -> dneg d = false -> (dscale d <= 12)%Z -> (-6 <= b <= 48)%Z -> exponent (num d) b -> (num d < ln_room)%Q ->
  exists X, to_compute_scale d = Ok (mkD X 12 false) /\ (two_pow b <= X < 2 * two_pow b)%Z /\ (X * U12 < U128)%Z /\ Q2R (num d) = IZR X / IZR U12.
Proof.
  intros d b (W1 & W2) N S Hb E RM. set (k := (12 - dscale d)%Z). pose proof (pow10_pos k ltac:(unfold k; lia)) as K. pose proof (pow10_pos (dscale d) ltac:(lia)) as P.
  assert (PK : (10 ^ dscale d * 10 ^ k = U12)%Z) by (unfold k, U12; rewrite <- Z.pow_add_r by lia; f_equal; lia).
  assert (MV : mant d = dval d) by (unfold mant; rewrite N; reflexivity).
  assert (NE : (num d == inject_Z (dval d * 10 ^ k) / inject_Z U12)%Q).
  { unfold num. rewrite MV, <- PK, !inject_Z_mult. field. split; intros F; unfold Qeq in F; cbn in F; lia. }
  assert (E' : exponent (inject_Z (dval d * 10 ^ k) / inject_Z U12) b) by (destruct E; split; rewrite <- NE; assumption).
  assert (V0 : (0 <= dval d * 10 ^ k)%Z) by (apply Z.mul_nonneg_nonneg; lia). pose proof (exponent_val _ b Hb V0 E') as V.
  assert (OV : (dval d * 10 ^ k * U12 < U128)%Z).
  { rewrite NE in RM. apply (Qmult_lt_compat_r _ _ (inject_Z U12 * inject_Z U12)) in RM; [|reflexivity].
    assert (UN : ~ (inject_Z U12 == 0)%Q) by (intros F; vm_compute in F; discriminate).
    setoid_replace (inject_Z (dval d * 10 ^ k) / inject_Z U12 * (inject_Z U12 * inject_Z U12))%Q with (inject_Z (dval d * 10 ^ k * U12)) in RM by (rewrite (inject_Z_mult _ U12); field; exact UN).
    unfold ln_room in RM. fold U12 in RM. setoid_replace (inject_Z (2 ^ 128) / (inject_Z U12 * inject_Z U12) * (inject_Z U12 * inject_Z U12))%Q with (inject_Z (2 ^ 128)) in RM by (field; exact UN).
    rewrite <- Zlt_Qlt in RM. exact RM. }
  exists (dval d * 10 ^ k)%Z. split; [|split; [exact V|split; [exact OV|]]].
  - unfold to_compute_scale, to_scale. change COMPUTE_SCALE with 12%Z. destruct (Z.ltb_spec 12 (dscale d)); [lia|]. fold k.
    rewrite pow10_Ok by (unfold k; lia). cbn [bind]. rewrite cmul_Ok; [cbn [bind]; rewrite N; reflexivity|].
    assert (U12 = 1000000000000%Z) by reflexivity. lia.
  - rewrite (Qeq_eqR _ _ NE). rewrite Q2R_div, !q2r_z; [reflexivity|]. intros F. vm_compute in F. discriminate.
Qed.
Lemma units_ln : forall x, ln x = units12 x / 1000000000000.
Proof. intros. unfold units12. field. Qed.

Theorem ln_accurate : forall orc d b, wf d -> dneg d = false -> dscale d = 12%Z -> (-6 <= b <= 48)%Z -> exponent (num d) b -> (num d < ln_room)%Q -> found orc d b ->
  exists r, d_ln orc d = Ok r /\ wf r /\ dscale r = 12%Z /\
    ln (Q2R (num d)) - (120 + IZR (Z.max 0 b)) / 10 ^ 12 <= Q2R (num r) <= ln (Q2R (num d)) + (1 + IZR (Z.max 0 (- b))) / 10 ^ 12.
Proof.
  intros orc d b W N S Hb E RM F. destruct (scaled_up d b W N ltac:(lia) Hb E RM) as (X & X1 & X2 & XO & X3).
  destruct (ln_core orc d b X N Hb F X1 X2 XO) as (q & Q1 & Q2 & Q3 & QP & Q4).
  exists q. split.
  - rewrite Q1, S. unfold to_scale. rewrite Q2. change (12 <? 12)%Z with false. cbn iota. change (pow10 (12 - 12)) with (Ok 1%Z). cbn [bind]. rewrite cmul_Ok by (rewrite u128_num; lia). cbn [bind]. rewrite Z.mul_1_r. destruct q; cbn in *; subst; reflexivity.
  - split; [split; [lia | rewrite Q2; lia]|]. split; [exact Q2|]. rewrite X3, units_ln, q2r_num by lia. rewrite Q2. change (IZR (10 ^ 12)) with (IZR 1000000000000). cbn [pow].
    set (u := units12 _) in *. clearbody u. lra.
Qed.

Theorem ln_accurate_scaled : forall orc d b, wf d -> dneg d = false -> (dscale d <= 12)%Z -> (-6 <= b <= 48)%Z -> exponent (num d) b -> (num d < ln_room)%Q -> found orc d b ->
  exists r, d_ln orc d = Ok r /\ wf r /\ dscale r = dscale d /\ Rabs (Q2R (num r) - ln (Q2R (num d))) <= 168 / 10 ^ 12 + Q2R (ulp (dscale d)).
Proof.
  intros orc d b W N S Hb E RM F. destruct (scaled_up d b W N ltac:(lia) Hb E RM) as (X & X1 & X2 & XO & X3).
  destruct (ln_core orc d b X N Hb F X1 X2 XO) as (q & Q1 & Q2 & Q3 & QP & Q4). destruct W as (W1 & W2).
  assert (B1 : IZR (Z.max 0 b) <= 48) by (apply IZR_le; lia). assert (B2 : IZR (Z.max 0 (- b)) <= 6) by (apply IZR_le; lia).
  set (k := (12 - dscale d)%Z). pose proof (pow10_pos k ltac:(unfold k; lia)) as K. pose proof (pow10_pos (dscale d) ltac:(lia)) as P.
  assert (PK : (10 ^ dscale d * 10 ^ k = 1000000000000)%Z) by (unfold k; rewrite <- Z.pow_add_r by lia; replace (dscale d + (12 - dscale d))%Z with 12%Z by lia; reflexivity).
  exists (mkD (dval q / 10 ^ k) (dscale d) (dneg q)). cbn [dscale]. split; [|split; [|split; [reflexivity|]]].
  - rewrite Q1. unfold to_scale. rewrite Q2. fold k. destruct (Z.ltb_spec (dscale d) 12).
    + rewrite pow10_Ok by (unfold k; lia). cbn [bind]. rewrite cdiv_Ok by lia. reflexivity.
    + assert (Sd : dscale d = 12%Z) by lia. unfold k. rewrite Sd. change (pow10 (12 - 12)) with (Ok 1%Z). cbn [bind]. rewrite cmul_Ok by (rewrite u128_num; lia). cbn [bind]. change (10 ^ (12 - 12))%Z with 1%Z. rewrite Z.mul_1_r, Z.div_1_r. reflexivity.
  - split; cbn [dval dscale]; [|lia]. split; [apply Z.div_pos; lia|]. apply Z.le_lt_trans with (dval q); [apply Z.div_le_upper_bound; nia | lia].
  - rewrite X3, units_ln, q2r_num by (cbn [dscale]; lia). unfold ulp. rewrite Q2R_div, q2r_1, q2r_z by (intros Fz; unfold Qeq in Fz; cbn in Fz; lia). cbn [dscale].
    assert (M : mant (mkD (dval q / 10 ^ k) (dscale d) (dneg q)) = (if dneg q then - (dval q / 10 ^ k) else dval q / 10 ^ k)%Z) by reflexivity. rewrite M.
    assert (T : (- 10 ^ k < mant q - (if dneg q then - (dval q / 10 ^ k) else dval q / 10 ^ k) * 10 ^ k < 10 ^ k)%Z).
    { pose proof (Z.div_mod (dval q) (10 ^ k) ltac:(lia)). pose proof (Z.mod_pos_bound (dval q) (10 ^ k) K). unfold mant. destruct (dneg q); lia. }
    set (m := (if dneg q then _ else _)%Z) in *. clearbody m. clear M. destruct T as (T1 & T2). apply IZR_lt in T1, T2. rewrite minus_IZR, mult_IZR in T1, T2. rewrite opp_IZR in T1.
    apply IZR_lt in K, P. apply f_equal with (f := IZR) in PK. rewrite mult_IZR in PK. set (pk := IZR (10 ^ k)) in *. set (ps := IZR (10 ^ dscale d)) in *. clearbody pk ps.
    set (u := units12 _) in *. clearbody u. set (mq := IZR (mant q)) in *. clearbody mq. set (mm := IZR m) in *. clearbody mm.
    assert (PI : / ps = pk / 1000000000000) by (rewrite <- PK; field; lra). unfold Rdiv. rewrite PI.
    replace (10 ^ 12) with 1000000000000 by (cbn [pow]; lra). apply Rabs_le. unfold Rdiv. split; lra.
Qed.

(** ** Where the logarithm cannot be taken *)
Lemma bd_unwrap : forall A B (m : res A) (k : A -> res B) r, (let* x := unwrap m in k x) = Ok r -> exists a, m = Ok a /\ k a = Ok r.
Proof. intros A B m k r H. apply bind_ok in H. destruct H as (a & E & H). apply unwrap_ok in E. eauto. Qed.
Lemma ln_walks : forall orc d r, d_ln orc d = Ok r -> exists s bl m u, to_compute_scale d = Ok s /\ bit_length orc d = Ok bl /\
  (let* two := to_scale (from_u64 2) 6 in let* bl6 := to_scale bl 6 in let* m6 := d_pow_dec two bl6 in to_compute_scale m6) = Ok m /\ log_table_value s m 0 = Ok u /\
  exists s' t' lx v, u = (s', t', lx) /\ log_table_value s' t' 1 = Ok v.
Proof.
  intros orc d r H. unfold d_ln in H. destruct (is_negative d); [discriminate|].
  apply bind_ok in H. destruct H as (s & S & H). apply bd_unwrap in H. destruct H as (bl & B & H).
  apply bind_ok in H. destruct H as (two & T & H). apply bind_ok in H. destruct H as (b6 & B6 & H).
  apply bind_ok in H. destruct H as (m6 & M6 & H). apply bind_ok in H. destruct H as (m & M & H).
  apply bind_ok in H. destruct H as (lx & L & H). cbn [ln_cols] in L. apply bind_ok in L. destruct L as (u & L1 & L).
  exists s, bl, m, u. split; [exact S|]. split; [exact B|]. split; [rewrite T; cbn [bind]; rewrite B6; cbn [bind]; rewrite M6; exact M|]. split; [exact L1|].
  destruct u as ((s' & t') & l'). apply bind_ok in L. destruct L as (a & _ & L). apply bind_ok in L. destruct L as (v & L2 & _). exists s', t', l', v. split; [reflexivity | exact L2].
Qed.
Lemma ltv_div : forall s m c u, log_table_value s m c = Ok u -> exists q, d_div s m = Ok q.
Proof. intros s m c u H. unfold log_table_value in H. apply bind_ok in H. destruct H as (q & Q & _). eauto. Qed.
Theorem ln_too_large : forall orc d r, wf d -> dneg d = false -> (dscale d <= 12)%Z -> (ln_room <= num d)%Q -> d_ln orc d <> Ok r.
Proof.
  intros orc d r (W1 & W2) N S R H. apply ln_walks in H. destruct H as (s & bl & m & u & Hs & _ & Hm & Hu & _).
  apply ltv_div in Hu. destruct Hu as (q & Q).
  apply bind_ok in Hm. destruct Hm as (two & _ & Hm). apply bind_ok in Hm. destruct Hm as (b6 & _ & Hm). apply bind_ok in Hm. destruct Hm as (m6 & _ & Hm).
  assert (M12 : dscale m = 12%Z). { unfold to_compute_scale, to_scale in Hm. change COMPUTE_SCALE with 12%Z in Hm. destruct (12 <? dscale m6)%Z; apply bind_ok in Hm; destruct Hm as (? & _ & Hm); apply bind_ok in Hm; destruct Hm as (? & _ & Hm); injection Hm as <-; reflexivity. }
  unfold d_div, denominator in Q. rewrite M12 in Q. change (pow10 12) with (Ok U12) in Q. cbn [bind] in Q. apply bind_ok in Q. destruct Q as (p & P & _). apply cmul_ok in P. destruct P as (_ & P).
  set (k := (12 - dscale d)%Z) in *. pose proof (pow10_pos k ltac:(unfold k; lia)) as K. pose proof (pow10_pos (dscale d) ltac:(lia)) as PD.
  assert (PK : (10 ^ dscale d * 10 ^ k = U12)%Z) by (unfold k, U12; rewrite <- Z.pow_add_r by lia; f_equal; lia).
  assert (V : dval s = (dval d * 10 ^ k)%Z). { unfold to_compute_scale, to_scale in Hs. change COMPUTE_SCALE with 12%Z in Hs. destruct (Z.ltb_spec 12 (dscale d)); [lia|]. fold k in Hs. apply bind_ok in Hs. destruct Hs as (a & A & Hs). apply pow10_ok in A. destruct A as (-> & _). apply bind_ok in Hs. destruct Hs as (b & B & Hs). apply cmul_ok in B. destruct B as (-> & _). injection Hs as <-. reflexivity. }
  rewrite V in P. assert (NE : (num d == inject_Z (dval d * 10 ^ k) / inject_Z U12)%Q).
  { unfold num, mant. rewrite N, <- PK, !inject_Z_mult. field. split; intros F; unfold Qeq in F; cbn in F; lia. }
  rewrite NE in R. apply Qmult_le_compat_r with (z := (inject_Z U12 * inject_Z U12)%Q) in R; [|vm_compute; discriminate].
  assert (UN : ~ (inject_Z U12 == 0)%Q) by (intros F; vm_compute in F; discriminate).
  setoid_replace (inject_Z (dval d * 10 ^ k) / inject_Z U12 * (inject_Z U12 * inject_Z U12))%Q with (inject_Z (dval d * 10 ^ k * U12)) in R by (rewrite (inject_Z_mult _ U12); field; exact UN).
  unfold ln_room in R. fold U12 in R. setoid_replace (inject_Z (2 ^ 128) / (inject_Z U12 * inject_Z U12) * (inject_Z U12 * inject_Z U12))%Q with (inject_Z (2 ^ 128)) in R by (field; exact UN).
  rewrite <- Zle_Qle in R. unfold U128 in P. lia.
Qed.
Theorem ln_of_zero : forall orc d r, dval d = 0%Z -> d_ln orc d <> Ok r.
Proof.
  intros orc d r V H. apply ln_walks in H. destruct H as (s & bl & m & u & Hs & B & Hm & Hu & s' & t' & lx & v & -> & Hv).
  unfold bit_length in B. destruct (is_negative d); [discriminate|]. unfold is_zero in B. rewrite V in B. cbn in B. injection B as <-.
  assert (Hm' : (let* two := to_scale (from_u64 2) 6 in let* bl6 := to_scale (from_u64 0) 6 in let* m6 := d_pow_dec two bl6 in to_compute_scale m6) = Ok (mkD U12 12 false)) by (vm_compute; reflexivity).
  assert (E : m = mkD U12 12 false) by congruence. subst m. clear Hm Hm'.
  assert (S0 : dval s = 0%Z /\ dscale s = 12%Z). { unfold to_compute_scale, to_scale in Hs. change COMPUTE_SCALE with 12%Z in Hs. rewrite V in Hs. destruct (12 <? dscale d)%Z; apply bind_ok in Hs; destruct Hs as (? & _ & Hs); apply bind_ok in Hs; destruct Hs as (? & Z0 & Hs); injection Hs as <-; cbn [dval dscale]; split; try reflexivity; [apply cdiv_ok in Z0 | apply cmul_ok in Z0]; destruct Z0 as (-> & _); [apply Zdiv_0_l | reflexivity]. }
  destruct s as [sv ss sn]. cbn in S0. destruct S0 as (-> & ->).
  destruct sn; vm_compute in Hu; injection Hu as <- <- <-; vm_compute in Hv; discriminate.
Qed.
Definition tiny_exps : list Z := map (fun i => (- Z.of_nat i - 20)%Z) (seq 0 21).
Lemma tiny_all : forallb (fun b => match max_of b with Ok m => (dval m =? 0)%Z | _ => false end) tiny_exps = true.
Proof. vm_compute. reflexivity. Qed.
Theorem ln_too_small : forall orc d b r, (-40 <= b <= -20)%Z -> found orc d b -> d_ln orc d <> Ok r.
Proof.
  intros orc d b r Hb F H. apply ln_walks in H. destruct H as (s & bl & m & u & Hs & B & Hm & Hu & _). unfold found in F. assert (E : bl = mkD (Z.abs b) 0 (b <? 0)%Z) by congruence. subst bl.
  assert (I : In b tiny_exps). { unfold tiny_exps. apply in_map_iff. exists (Z.to_nat (- b - 20)). split; [lia|]. apply in_seq. lia. }
  pose proof (proj1 (forallb_forall _ _) tiny_all _ I) as G. cbv beta in G. unfold max_of in G. rewrite Hm in G. apply Z.eqb_eq in G.
  apply ltv_div in Hu. destruct Hu as (q & Q). unfold d_div in Q. apply bind_ok in Q. destruct Q as (e & _ & Q). apply bind_ok in Q. destruct Q as (p & _ & Q). rewrite G in Q. discriminate.
Qed.

(** The form used in later proofs: mantissas in units of the twelfth decimal. *)
Lemma ln_at12 : forall orc d b, wf d -> dneg d = false -> dscale d = 12%Z -> (-6 <= b <= 48)%Z -> exponent (num d) b -> (num d < ln_room)%Q -> found orc d b ->
  exists r, d_ln orc d = Ok r /\ wf r /\ dscale r = 12%Z /\ (0 <= dval r < 10 ^ 14)%Z /\ (0 <= b -> mant r = dval r)%Z /\ 0 < Q2R (num d) /\
    IZR (mant r) - (1 + IZR (Z.max 0 (- b))) <= units12 (Q2R (num d)) <= IZR (mant r) + (120 + IZR (Z.max 0 b)).
Proof.
  intros orc d b W N S Hb E RM F. destruct (scaled_up d b W N ltac:(lia) Hb E RM) as (X & X1 & X2 & XO & X3).
  destruct (ln_core orc d b X N Hb F X1 X2 XO) as (q & Q1 & Q2 & Q3 & QP & Q4). destruct (two_pow_ln b Hb) as (TP & _).
  exists q. split.
  - rewrite Q1, S. unfold to_scale. rewrite Q2. change (12 <? 12)%Z with false. cbn iota. change (pow10 (12 - 12)) with (Ok 1%Z). cbn [bind]. rewrite cmul_Ok by (rewrite u128_num; lia). cbn [bind]. rewrite Z.mul_1_r. destruct q; cbn in *; subst; reflexivity.
  - split; [split; [lia | rewrite Q2; lia]|]. split; [exact Q2|]. split; [exact Q3|]. split; [intros B0; specialize (QP B0); unfold mant in *; destruct (dneg q); lia|]. rewrite X3. split; [|exact Q4]. apply Rdiv_lt_0_compat; apply IZR_lt; [lia | reflexivity].
Qed.
