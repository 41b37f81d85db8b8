(** The HMM adjustment for C > 1 (cl_math.rs:275-358) against the exact curve, in real numbers. *)
From Coq Require Import ZArith QArith Qreals Reals Lra Lia List Bool Psatz.
From Verif Require Import Base BaseLemmas DecimalModel DecimalSpec DecimalProofs WfProofs MathModel MathProofs PoolModel PoolWf SwapLoop LpProofs PowAccuracy PowDec HmmProofs HmmUse LnSeries LnAccuracy LnUse LnHmm.
Import ListNotations.
Open Scope R_scope.

Definition u12 : R := 1 / 1000000000000.
Definition rv (d : decimal) : R := Q2R (num d).
Lemma u12_pos : 0 < u12. Proof. unfold u12. lra. Qed.
Lemma ulp_u12 : Q2R (ulp 12) = u12. Proof. exact ulp12_r. Qed.

(** ** Arithmetic *)
Lemma rv_nonneg : forall d, at_s 12 d -> 0 <= rv d.
Proof. intros d A. unfold rv. rewrite <- RMicromega.Q2R_0. apply Qle_Rle. exact (at_nn _ _ A). Qed.
Lemma div_near : forall a b c, wf a -> wf b -> dscale a = 12%Z -> d_div a b = Ok c -> rv b <> 0 /\ Rabs (rv c - rv a / rv b) <= u12.
Proof.
  intros a b c Wa Wb S H. pose proof (div_spec a b Wa Wb) as M. rewrite H in M. destruct M as (NZ & _ & Sc & T1 & T2 & T3). rewrite S in T2.
  assert (Nb : ~ (num b == 0)%Q). { unfold num, mant. intros F. destruct Wb as (_ & Wb). pose proof (pow10_pos (dscale b) ltac:(lia)). apply NZ. unfold Qdiv, Qeq, Qinv, inject_Z, Qmult in F. destruct (10 ^ dscale b)%Z eqn:E; try lia. cbn in F. destruct (dneg b); lia. }
  assert (Rb : rv b <> 0). { unfold rv. intros F. apply Nb. apply eqR_Qeq. rewrite F, RMicromega.Q2R_0. reflexivity. }
  split; [exact Rb|]. unfold rv.
  apply Qle_Rle in T1. apply Qlt_Rlt in T2. unfold same_sign in T3. apply Qle_Rle in T3. rewrite RMicromega.Q2R_0, Q2R_mult in T3. rewrite Q2R_plus, ulp_u12, !q2r_abs, Q2R_div in T2 by exact Nb. rewrite !q2r_abs, Q2R_div in T1 by exact Nb. rewrite Q2R_div in T3 by exact Nb.
  set (x := Q2R (num c)) in *. set (y := Q2R (num a) / Q2R (num b)) in *. clearbody x y. pose proof u12_pos.
  unfold Rabs in *. destruct (Rcase_abs x), (Rcase_abs y), (Rcase_abs (x - y)); nra.
Qed.
Lemma mul_near' : forall a b c, wf a -> wf b -> dscale a = 12%Z -> d_mul a b = Ok c -> Rabs (rv c - rv a * rv b) <= u12.
Proof. exact mul_near. Qed.
Lemma sub_exact : forall a b c, wf a -> wf b -> d_sub a b = Ok c -> wf c /\ dscale c = dscale a /\ rv c = rv a - rv b.
Proof.
  intros a b c Wa Wb H. pose proof (sub_spec a b Wa Wb) as M. rewrite H in M. destruct M as (_ & W & S & E). split; [exact W|]. split; [exact S|]. unfold rv. rewrite (Qeq_eqR _ _ E). rewrite Q2R_minus. reflexivity.
Qed.
Lemma cut_r : forall z y, cut (ulp 12) z y -> 0 <= Q2R y /\ Q2R z - u12 <= Q2R y <= Q2R z.
Proof. intros z y (A & B & C). apply Qle_Rle in A, B. apply Qlt_Rlt in C. rewrite Q2R_plus, ulp_u12 in C. rewrite RMicromega.Q2R_0 in A. lra. Qed.

(** ** Powers *)
Lemma sqroot_near : forall x y, (0 <= x)%Q -> sqroot (ulp 12) x y -> 0 <= Q2R y /\ Rabs (Q2R y - sqrt (Q2R x)) <= u12.
Proof.
  intros x y X (A & B & C). apply Qle_Rle in A, X. rewrite RMicromega.Q2R_0 in A, X. apply Qlt_Rlt in C. rewrite Q2R_mult, !Q2R_plus, ulp_u12 in C. pose proof u12_pos as U. split; [exact A|].
  pose proof (sqrt_pos (Q2R x)) as S0. pose proof (sqrt_sqrt _ X) as SS. set (s := sqrt (Q2R x)) in *.
  assert (Q2R y - u12 <= s). { destruct (Qlt_le_dec y (ulp 12)) as [L | L]; [apply Qlt_Rlt in L; rewrite ulp_u12 in L; lra|]. specialize (B L). apply Qle_Rle in B. apply Qle_Rle in L. rewrite ulp_u12 in L. rewrite Q2R_mult, !Q2R_minus, ulp_u12 in B. nra. }
  assert (s <= Q2R y + u12) by nra. apply Rabs_le. lra.
Qed.
Lemma root_near : forall d r, at_s 12 d -> d_sqrt d = Ok r -> at_s 12 r /\ Rabs (rv r - sqrt (rv d)) <= u12.
Proof.
  intros d r A H. destruct (root_spec 12 d r A H) as (B & S). split; [exact B|]. apply sqroot_near in S; [exact (proj2 S) | exact (at_nn _ _ A)].
Qed.
Lemma sqrt_ge1 : forall x, 1 <= x -> 1 <= sqrt x. Proof. intros x H. rewrite <- sqrt_1. apply sqrt_le_1_alt. exact H. Qed.
Lemma sqrt_lip : forall x y e, 1 <= x -> 0 <= y -> Rabs (y - x) <= e -> Rabs (sqrt y - sqrt x) <= e.
Proof.
  intros x y e X Y E. pose proof (sqrt_ge1 x X) as S. pose proof (sqrt_pos y) as T. pose proof (sqrt_sqrt x ltac:(lra)) as SS. pose proof (sqrt_sqrt y Y) as TT.
  assert (K : Rabs (y - x) = Rabs (sqrt y - sqrt x) * (sqrt y + sqrt x)). { rewrite <- (Rabs_right (sqrt y + sqrt x)) by lra. rewrite <- Rabs_mult. f_equal. nra. }
  pose proof (Rabs_pos (sqrt y - sqrt x)). nra.
Qed.
Lemma root2_near : forall d r q, at_s 12 d -> 1 <= rv d -> d_sqrt d = Ok r -> d_sqrt r = Ok q -> at_s 12 q /\ Rabs (rv q - sqrt (sqrt (rv d))) <= 2 * u12.
Proof.
  intros d r q A G H1 H2. destruct (root_near _ _ A H1) as (B & E1). destruct (root_near _ _ B H2) as (C & E2). split; [exact C|].
  pose proof (sqrt_lip (sqrt (rv d)) (rv r) u12 (sqrt_ge1 _ G) (rv_nonneg _ B) E1) as L.
  replace (rv q - sqrt (sqrt (rv d))) with ((rv q - sqrt (rv r)) + (sqrt (rv r) - sqrt (sqrt (rv d)))) by ring. eapply Rle_trans; [apply Rabs_triang | lra].
Qed.
Lemma rp_half : forall x, 0 < x -> Rpower x (1 / 2) = sqrt x.
Proof. intros x X. replace (1 / 2) with (/ 2) by lra. apply Rpower_sqrt. exact X. Qed.
Lemma rp_quarter : forall x, 0 < x -> Rpower x (1 / 4) = sqrt (sqrt x).
Proof.
  intros x X. rewrite <- (Rpower_sqrt (sqrt x)) by (apply sqrt_lt_R0; exact X). rewrite <- (Rpower_sqrt x X). rewrite Rpower_mult. f_equal. lra.
Qed.
Lemma rp_5_4 : forall x, 0 < x -> Rpower x (5 / 4) = x * sqrt (sqrt x).
Proof. intros x X. replace (5 / 4) with (1 + 1 / 4) by lra. rewrite Rpower_plus, Rpower_1, rp_quarter by exact X. reflexivity. Qed.
Lemma rp_3_2 : forall x, 0 < x -> Rpower x (3 / 2) = x * sqrt x.
Proof. intros x X. replace (3 / 2) with (1 + 1 / 2) by lra. rewrite Rpower_plus, Rpower_1, rp_half by exact X. reflexivity. Qed.
Lemma rp_2 : forall x, 0 < x -> Rpower x 2 = x * x.
Proof. intros x X. replace 2 with (1 + 1) at 1 by lra. rewrite Rpower_plus, Rpower_1 by exact X. reflexivity. Qed.
Lemma rpower_ge1 : forall x e, 1 <= x -> 0 <= e -> 1 <= Rpower x e.
Proof.
  intros x e X E. destruct (Req_dec x 1) as [-> | N]; [unfold Rpower; rewrite ln_1, Rmult_0_r, exp_0; lra|]. rewrite <- (Rpower_O x) by lra. apply Rle_Rpower; [lra | exact E].
Qed.

(** The three parameters that are computed, with C - 1 and 1 - C. *)
Inductive cpar : decimal -> decimal -> R -> Prop :=
| C54 : cpar (mkD 1250000000000 12 false) (mkD 250000000000 12 false) (5 / 4)
| C32 : cpar (mkD 1500000000000 12 false) (mkD 500000000000 12 false) (3 / 2)
| C2 : cpar (mkD 2000000000000 12 false) (mkD 1000000000000 12 false) 2.
Ltac pc d A H := destruct d as [v s n]; destruct A as (_ & S & _); cbn in S; subst s; lazy -[d_sqrt d_mul d_pow] in H.
Ltac un H E := match type of H with context [match d_sqrt ?x with _ => _ end] => destruct (d_sqrt x) eqn:E; try discriminate end.
Lemma pow_quarter : forall d c, at_s 12 d -> d_pow_dec d (mkD 250000000000 12 false) = Ok c -> exists r, d_sqrt d = Ok r /\ d_sqrt r = Ok c.
Proof. intros d c A H. pc d A H. un H G1. un H G2. injection H as <-. eauto. Qed.
Lemma pow_half : forall d c, at_s 12 d -> d_pow_dec d (mkD 500000000000 12 false) = Ok c -> d_sqrt d = Ok c.
Proof. intros d c A H. pc d A H. un H G1. injection H as <-. auto. Qed.
Lemma pow_one : forall d c, at_s 12 d -> d_pow_dec d (mkD 1000000000000 12 false) = Ok c -> c = d.
Proof. intros d c A H. pc d A H. injection H as <-. reflexivity. Qed.
Lemma pow_5_4 : forall d c, at_s 12 d -> d_pow_dec d (mkD 1250000000000 12 false) = Ok c -> exists r q, d_sqrt d = Ok r /\ d_sqrt r = Ok q /\ d_mul d q = Ok c.
Proof. intros d c A H. pc d A H. un H G1. un H G2. eauto. Qed.
Lemma pow_3_2 : forall d c, at_s 12 d -> d_pow_dec d (mkD 1500000000000 12 false) = Ok c -> exists r, d_sqrt d = Ok r /\ d_mul d r = Ok c.
Proof. intros d c A H. pc d A H. un H G1. eauto. Qed.
Lemma pow_2 : forall d c, at_s 12 d -> d_pow_dec d (mkD 2000000000000 12 false) = Ok c -> d_pow d 2 = Ok c.
Proof. intros d c A H. pc d A H. exact H. Qed.
Lemma at_pow2 : forall d y, at_s 12 d -> d_pow d 2 = Ok y -> at_s 12 y.
Proof. intros d y A H. exact (proj1 (power_int 12 d 2 y (inject_Z 2) A H ltac:(reflexivity))). Qed.
Lemma base_near : forall c k e d y, cpar c k e -> at_s 12 d -> 1 <= rv d -> d_pow_dec d k = Ok y -> at_s 12 y /\ Rabs (rv y - Rpower (rv d) (e - 1)) <= 2 * u12.
Proof.
  intros c k e d y P A G H. pose proof u12_pos as U. destruct P.
  - apply pow_quarter in H; [|exact A]. destruct H as (r & H1 & H2). replace (5 / 4 - 1) with (1 / 4) by lra. rewrite rp_quarter by lra. exact (root2_near _ _ _ A G H1 H2).
  - apply pow_half in H; [|exact A]. replace (3 / 2 - 1) with (1 / 2) by lra. rewrite rp_half by lra. destruct (root_near _ _ A H) as (B & E). split; [exact B | lra].
  - apply pow_one in H; [|exact A]. subst y. split; [exact A|]. replace (2 - 1) with 1 by lra. rewrite Rpower_1 by lra. unfold Rminus. rewrite Rplus_opp_r, Rabs_R0. lra.
Qed.
Lemma rel_mul : forall x s r y e, 1 <= x -> 1 <= s -> 0 <= e -> Rabs (r - s) <= e * u12 -> x * r - u12 <= y <= x * r -> Rabs (y - x * s) <= (e + 1) * u12 * (x * s).
Proof.
  intros x s r y e X S E H (Y1 & Y2). pose proof u12_pos as U. apply Rabs_le. assert (K : - (e * u12) <= r - s <= e * u12) by (unfold Rabs in H; destruct (Rcase_abs (r - s)); lra).
  assert (x * (r - s) <= x * (e * u12)) by (apply Rmult_le_compat_l; lra). assert (x * - (e * u12) <= x * (r - s)) by (apply Rmult_le_compat_l; lra).
  assert (XS : x <= x * s) by nra. assert (0 <= e * u12) by nra. assert (e * u12 * x <= e * u12 * (x * s)) by (apply Rmult_le_compat_l; lra). assert (u12 * 1 <= u12 * (x * s)) by (apply Rmult_le_compat_l; lra). lra.
Qed.
Lemma cut_mul_r : forall a b c, at_s 12 a -> at_s 12 b -> d_mul a b = Ok c -> at_s 12 c /\ rv a * rv b - u12 <= rv c <= rv a * rv b.
Proof. intros a b c A B H. destruct (cut_mul 12 a b c A B H) as (C & K). split; [exact C|]. apply cut_r in K. rewrite Q2R_mult in K. exact (proj2 K). Qed.
Lemma full_near : forall c k e d y, cpar c k e -> at_s 12 d -> 1 <= rv d -> d_pow_dec d c = Ok y -> at_s 12 y /\ Rabs (rv y - Rpower (rv d) e) <= 3 * u12 * Rpower (rv d) e.
Proof.
  intros c k e d y P A G H. pose proof u12_pos as U. destruct P.
  - apply pow_5_4 in H; [|exact A]. destruct H as (r & q & H1 & H2 & H3). destruct (root2_near _ _ _ A G H1 H2) as (B & E). destruct (cut_mul_r _ _ _ A B H3) as (C & K). split; [exact C|]. rewrite rp_5_4 by lra.
    apply Rle_trans with ((2 + 1) * u12 * (rv d * sqrt (sqrt (rv d)))); [|lra]. apply rel_mul with (rv q); auto; try lra. apply sqrt_ge1, sqrt_ge1. exact G.
  - apply pow_3_2 in H; [|exact A]. destruct H as (r & H1 & H2). destruct (root_near _ _ A H1) as (B & E). destruct (cut_mul_r _ _ _ A B H2) as (C & K). split; [exact C|]. rewrite rp_3_2 by lra.
    pose proof (sqrt_ge1 _ G) as S1. apply Rle_trans with ((1 + 1) * u12 * (rv d * sqrt (rv d))). { apply rel_mul with (rv r); auto; try lra. } assert (0 < u12 * (rv d * sqrt (rv d))) by (apply Rmult_lt_0_compat; nra). lra.
  - apply pow_2 in H; [|exact A]. split; [exact (at_pow2 _ _ A H)|]. rewrite rp_2 by lra. destruct A as (W & S & N).
    assert (G1 : (1 <= num d)%Q). { apply Rle_Qle. rewrite q2r_1. exact G. }
    destruct (pow_above d 2 y W N G1 H) as (K1 & K2). rewrite S in K2. apply Qle_Rle in K1, K2. rewrite Q2R_mult, Q2R_minus, Q2R_mult, ulp_u12, q2r_1, q2r_z in K2.
    assert (E2 : Q2R (num d ^ 2) = rv d * rv d). { unfold rv. rewrite <- Q2R_mult. apply Qeq_eqR. cbn. reflexivity. } rewrite E2 in K1, K2. fold (rv y) in K1, K2.
    apply Rabs_le. assert (0 < u12 * (rv d * rv d)) by (apply Rmult_lt_0_compat; nra). lra.
Qed.
Lemma c_par : forall c, dneg c = false -> dscale c = 12%Z -> (num c == 5 # 4 \/ num c == 3 # 2 \/ num c == 2)%Q -> exists k e, cpar c k e /\ rv c = e /\ d_sub c one12 = Ok k.
Proof.
  intros [v s n] N S H. cbn in N, S. subst s n.
  assert (V : num (mkD v 12 false) = (inject_Z v / inject_Z 1000000000000)%Q) by reflexivity. rewrite V in H.
  destruct H as [H | [H | H]].
  - assert (v = 1250000000000)%Z as ->. { unfold Qeq in H. cbn in H. lia. } exists (mkD 250000000000 12 false), (5 / 4). split; [constructor|]. split; [|reflexivity]. unfold rv. rewrite q2r_num by (cbn; lia). unfold mant. cbn [dneg dval dscale]. change (10 ^ 12)%Z with 1000000000000%Z. lra.
  - assert (v = 1500000000000)%Z as ->. { unfold Qeq in H. cbn in H. lia. } exists (mkD 500000000000 12 false), (3 / 2). split; [constructor|]. split; [|reflexivity]. unfold rv. rewrite q2r_num by (cbn; lia). unfold mant. cbn [dneg dval dscale]. change (10 ^ 12)%Z with 1000000000000%Z. lra.
  - assert (v = 2000000000000)%Z as ->. { unfold Qeq in H. cbn in H. lia. } exists (mkD 1000000000000 12 false), 2. split; [constructor|]. split; [|reflexivity]. unfold rv. rewrite q2r_num by (cbn; lia). unfold mant. cbn [dneg dval dscale]. change (10 ^ 12)%Z with 1000000000000%Z. lra.
Qed.
Lemma cpar_k : forall c k e, cpar c k e -> wf k /\ wf (d_neg k) /\ rv (d_neg k) = - (e - 1) /\ 1 / 4 <= e - 1 <= 1 /\ d_sub c one12 = Ok k /\ d_eq c one12 = Ok false /\ d_lt c one12 = Ok false /\ to_compute_scale c = Ok c.
Proof.
  assert (L : forall v, rv (mkD v 12 true) = - (IZR v / 1000000000000)). { intros v. unfold rv. rewrite q2r_num by (cbn; lia). unfold mant. cbn [dneg dval dscale]. change (10 ^ 12)%Z with 1000000000000%Z. rewrite opp_IZR. lra. }
  intros c k e P. destruct P; match goal with |- context [d_neg ?k] => let z := eval vm_compute in (d_neg k) in change (d_neg k) with z end; rewrite L;
    (split; [split; cbn; lia|]); (split; [split; cbn; lia|]); (split; [lra|]); (split; [lra|]); repeat split; vm_compute; reflexivity.
Qed.

(** ** The exact curve: amounts for a move of the root price from a to b, with oracle root price o, liquidity l and C = c *)
Definition hmm_x (c l o a b : R) : R := l / Rpower o c * (Rpower a (c - 1) - Rpower b (c - 1)) / (c - 1).
Definition hmm_y (c l o a b : R) : R := l * Rpower o c * (Rpower a (1 - c) - Rpower b (1 - c)) / (c - 1).

Lemma abs_lr : forall x e, Rabs x <= e -> - e <= x <= e.
Proof. intros x e H. unfold Rabs in H. destruct (Rcase_abs x); lra. Qed.
Lemma u12_small : u12 <= 1 / 1000000. Proof. unfold u12. lra. Qed.
Lemma prod_err : forall q K y D t eq ey, 0 <= K -> Rabs (q - K) <= eq -> Rabs (y - D) <= ey -> Rabs (t - q * y) <= u12 -> 0 <= ey -> Rabs (t - K * D) <= u12 + (K + eq) * ey + eq * Rabs D.
Proof.
  intros q K y D t eq ey K0 H1 H2 H3 E0. replace (t - K * D) with ((t - q * y) + (q * (y - D) + (q - K) * D)) by ring.
  eapply Rle_trans; [apply Rabs_triang|]. eapply Rle_trans; [apply Rplus_le_compat_l, Rabs_triang|]. rewrite !Rabs_mult.
  assert (Rabs q <= K + eq). { replace q with (K + (q - K)) by ring. eapply Rle_trans; [apply Rabs_triang|]. rewrite (Rabs_right K) by lra. lra. }
  assert (Rabs q * Rabs (y - D) <= (K + eq) * ey) by (apply Rmult_le_compat; auto using Rabs_pos).
  assert (Rabs (q - K) * Rabs D <= eq * Rabs D) by (apply Rmult_le_compat_r; auto using Rabs_pos). lra.
Qed.
Lemma inv_err : forall P O e, 1 <= O -> 0 <= e <= 1 / 100 -> Rabs (P - O) <= e * O -> Rabs (1 / P - 1 / O) <= (e + 2 * e * e) * (1 / O).
Proof.
  intros P O e O1 E H. apply abs_lr in H. assert (PP : O * (1 - e) <= P) by lra. assert (P0 : 0 < P) by nra.
  assert (I0 : 0 < / P) by (apply Rinv_0_lt_compat; exact P0). assert (J0 : 0 < / O) by (apply Rinv_0_lt_compat; lra). assert (IP : / P * P = 1) by (field; lra). assert (JO : / O * O = 1) by (field; lra).
  assert (IJ : / P <= / O * (1 + 2 * e)). { apply Rmult_le_reg_r with P; [exact P0|]. rewrite IP. apply Rmult_le_reg_r with O; [lra|]. replace (/ O * (1 + 2 * e) * P * O) with ((/ O * O) * ((1 + 2 * e) * P)) by ring. rewrite JO. nra. }
  replace (1 / P - 1 / O) with (/ P * / O * (O - P)) by (field; lra). rewrite Rabs_mult, (Rabs_right (/ P * / O)) by nra.
  assert (Rabs (O - P) <= e * O) by (apply Rabs_le; lra).
  apply Rle_trans with (/ P * / O * (e * O)). { apply Rmult_le_compat_l; [nra | assumption]. }
  replace (/ P * / O * (e * O)) with (e * / P * (/ O * O)) by ring. rewrite JO. unfold Rdiv. nra.
Qed.
Lemma quot_err : forall l P O q, 0 <= l -> 1 <= O -> Rabs (P - O) <= 3 * u12 * O -> Rabs (q - l / P) <= u12 -> Rabs (q - l / O) <= u12 + 4 * u12 * (l / O).
Proof.
  intros l P O q L O1 H1 H2. pose proof u12_pos as U. pose proof u12_small as U2. pose proof (inv_err P O (3 * u12) O1 ltac:(lra) H1) as E.
  replace (q - l / O) with ((q - l / P) + l * (1 / P - 1 / O)) by (unfold Rdiv; ring). eapply Rle_trans; [apply Rabs_triang|]. rewrite Rabs_mult, (Rabs_right l) by lra.
  assert (K : l * Rabs (1 / P - 1 / O) <= l * ((3 * u12 + 2 * (3 * u12) * (3 * u12)) * (1 / O))) by (apply Rmult_le_compat_l; assumption).
  assert (3 * u12 + 2 * (3 * u12) * (3 * u12) <= 4 * u12) by nra. assert (I0 : 0 < / O) by (apply Rinv_0_lt_compat; lra). assert (0 <= l * / O) by nra.
  replace (l * ((3 * u12 + 2 * (3 * u12) * (3 * u12)) * (1 / O))) with ((3 * u12 + 2 * (3 * u12) * (3 * u12)) * (l * / O)) in K by (unfold Rdiv; ring). unfold Rdiv. nra.
Qed.
Lemma recip_err : forall np B inp, 1 <= B -> Rabs (np - B) <= 2 * u12 -> Rabs (inp - 1 / np) <= u12 -> Rabs (inp - 1 / B) <= 4 * u12.
Proof.
  intros np B inp B1 H1 H2. pose proof u12_pos as U. pose proof u12_small as U2. assert (H : Rabs (np - B) <= 2 * u12 * B) by nra. pose proof (inv_err np B (2 * u12) B1 ltac:(lra) H) as E.
  assert (1 / B <= 1). { unfold Rdiv. rewrite Rmult_1_l. rewrite <- Rinv_1. apply Rinv_le_contravar; lra. }
  replace (inp - 1 / B) with ((inp - 1 / np) + (1 / np - 1 / B)) by ring. eapply Rle_trans; [apply Rabs_triang|].
  assert ((2 * u12 + 2 * (2 * u12) * (2 * u12)) * (1 / B) <= (2 * u12 + 2 * (2 * u12) * (2 * u12)) * 1) by (apply Rmult_le_compat_l; nra). nra.
Qed.
Lemma last_div : forall t k r z e, 1 / 4 <= k <= 1 -> Rabs (r - t / (- k)) <= u12 -> Rabs (t - - z) <= e -> Rabs (r - z / k) <= u12 + e / k.
Proof.
  intros t k r z e Hk H1 H2. replace (r - z / k) with ((r - t / (- k)) + - ((t - - z) / k)) by (field; lra). eapply Rle_trans; [apply Rabs_triang|]. rewrite Rabs_Ropp. unfold Rdiv at 2. rewrite Rabs_mult. assert (0 < / k) by (apply Rinv_0_lt_compat; lra). rewrite (Rabs_right (/ k)) by lra.
  assert (Rabs (t - - z) * / k <= e * / k) by (apply Rmult_le_compat_r; lra). unfold Rdiv in *. lra.
Qed.
Lemma hmm_parts_x : forall orc l a b c k e o r, cpar c k e -> dx_from_l_drp_hmm orc l a b c o = Ok r -> a = b /\ dval r = 0%Z \/
  exists opc np op diff q t, d_pow_dec o c = Ok opc /\ d_pow_dec b k = Ok np /\ d_pow_dec a k = Ok op /\ d_sub np op = Ok diff /\ d_div l opc = Ok q /\ d_mul q diff = Ok t /\ d_div t (d_neg k) = Ok r.
Proof.
  intros orc l a b c k e o r P H. destruct (cpar_k _ _ _ P) as (_ & _ & _ & _ & Sk & Eq1 & Lt1 & C12). destruct (d_eq a b) as [[|] | | |] eqn:Eab.
  { left. apply eq_true in Eab. subst b. split; [reflexivity|]. exact (dx_hmm_same _ _ _ _ _ _ H). }
  all: right; unfold dx_from_l_drp_hmm in H; rewrite one_eq in H; bd H one Eo; injection Eo as <-; fold one12 in H; rewrite C12 in H; cbn [bind] in H; rewrite Lt1 in H; cbn [unwrap bind] in H; rewrite Eab in H; try discriminate.
  cbn [unwrap bind] in H. rewrite Eq1 in H. cbn [unwrap bind] in H. rewrite Sk in H. cbn [unwrap bind] in H. bd H opc F1. bd H np F2. bd H op F3. bd H diff F4. bd H q F5. bd H t F6. exists opc, np, op, diff, q, t. auto 8.
Qed.
Lemma hmm_parts_y : forall orc l a b c k e o r, cpar c k e -> dy_from_l_drp_hmm orc l a b c o = Ok r -> a = b /\ dval r = 0%Z \/
  exists opc np op inp iop diff q t, d_pow_dec o c = Ok opc /\ d_pow_dec b k = Ok np /\ d_pow_dec a k = Ok op /\ d_div one12 np = Ok inp /\ d_div one12 op = Ok iop /\ d_sub inp iop = Ok diff /\ d_mul l opc = Ok q /\ d_mul q diff = Ok t /\ d_div t (d_neg k) = Ok r.
Proof.
  intros orc l a b c k e o r P H. destruct (cpar_k _ _ _ P) as (_ & _ & _ & _ & Sk & Eq1 & Lt1 & C12). destruct (d_eq a b) as [[|] | | |] eqn:Eab.
  { left. apply eq_true in Eab. subst b. split; [reflexivity|]. exact (dy_hmm_same _ _ _ _ _ _ H). }
  all: right; unfold dy_from_l_drp_hmm in H; rewrite one_eq in H; bd H one Eo; injection Eo as <-; fold one12 in H; rewrite C12 in H; cbn [bind] in H; rewrite Lt1 in H; cbn [unwrap bind] in H; rewrite Eab in H; try discriminate.
  cbn [unwrap bind] in H. destruct (is_zero a || is_zero b)%bool; [discriminate|]. rewrite Eq1 in H. cbn [unwrap bind] in H. rewrite Sk in H. cbn [unwrap bind] in H. bd H opc F1. bd H np F2. bd H op F3. bd H inp F4. bd H iop F5. bd H diff F6. bd H q F7. bd H t F8.
  exists opc, np, op, inp, iop, diff, q, t. auto 10.
Qed.
Lemma rv_zero : forall r, dval r = 0%Z -> rv r = 0.
Proof. intros r H. unfold rv. rewrite (Qeq_eqR _ _ (num_zero r H)). apply RMicromega.Q2R_0. Qed.
Lemma opp_pow : forall x c, Rpower x (1 - c) = 1 / Rpower x (c - 1).
Proof. intros x c. replace (1 - c) with (- (c - 1)) by ring. rewrite Rpower_Ropp. unfold Rdiv. ring. Qed.
Theorem hmm_curve_x : forall orc l a b c k e o r, cpar c k e -> at_s 12 l -> at_s 12 a -> at_s 12 b -> at_s 12 o -> 1 <= rv a -> 1 <= rv b -> 1 <= rv o ->
  dx_from_l_drp_hmm orc l a b c o = Ok r ->
  Rabs (rv r - hmm_x e (rv l) (rv o) (rv a) (rv b)) <= u12 * (1 + (2 + 5 * rv l + (1 + 4 * rv l) * Rabs (Rpower (rv a) (e - 1) - Rpower (rv b) (e - 1))) / (e - 1)).
Proof.
  intros orc l a b c k e o r P Al Aa Ab Ao Ga Gb Go H. pose proof u12_pos as U. pose proof u12_small as U2. destruct (cpar_k _ _ _ P) as (Wk & Wn & Rn & Bk & _). pose proof (rv_nonneg _ Al) as L0.
  assert (O1 : 1 <= Rpower (rv o) e) by (apply rpower_ge1; lra). assert (IO : / Rpower (rv o) e <= 1) by (rewrite <- Rinv_1; apply Rinv_le_contravar; lra). assert (IO0 : 0 < / Rpower (rv o) e) by (apply Rinv_0_lt_compat; lra).
  destruct (hmm_parts_x _ _ _ _ _ _ _ _ _ P H) as [(-> & Z0) | (opc & np & op & diff & q & t & H1 & H2 & H3 & H4 & H5 & H6 & H7)].
  - rewrite (rv_zero _ Z0). unfold hmm_x. replace (Rpower (rv b) (e - 1) - Rpower (rv b) (e - 1)) with 0 by ring. replace (0 - rv l / Rpower (rv o) e * 0 / (e - 1)) with 0 by (field; lra). rewrite Rabs_R0.
    apply Rmult_le_pos; [lra|]. apply Rplus_le_le_0_compat; [lra|]. apply Rmult_le_pos; [lra|]. left. apply Rinv_0_lt_compat. lra.
  - destruct (full_near _ _ _ _ _ P Ao Go H1) as (A1 & N1). destruct (base_near _ _ _ _ _ P Ab Gb H2) as (A2 & N2). destruct (base_near _ _ _ _ _ P Aa Ga H3) as (A3 & N3).
    destruct (sub_exact _ _ _ (proj1 A2) (proj1 A3) H4) as (W4 & S4 & N4). assert (Sl : dscale l = 12%Z) by apply Al. destruct (div_near _ _ _ (proj1 Al) (proj1 A1) Sl H5) as (_ & N5).
    pose proof (div_spec _ _ (proj1 Al) (proj1 A1)) as D5. rewrite H5 in D5. destruct D5 as (_ & W5 & S5 & _). rewrite Sl in S5.
    pose proof (mul_near' _ _ _ W5 W4 S5 H6) as N6. pose proof (mul_spec _ _ W5 W4) as D6. rewrite H6 in D6. destruct D6 as (W6 & S6 & _). rewrite S5 in S6.
    destruct (div_near _ _ _ W6 Wn S6 H7) as (_ & N7). rewrite Rn in N7.
    set (O := Rpower (rv o) e) in *. set (A := Rpower (rv a) (e - 1)) in *. set (B := Rpower (rv b) (e - 1)) in *.
    pose proof (quot_err _ _ _ _ L0 O1 N1 N5) as Q. assert (K0 : 0 <= rv l / O) by (unfold Rdiv; apply Rmult_le_pos; lra). assert (KL : rv l / O <= rv l) by (unfold Rdiv; rewrite <- (Rmult_1_r (rv l)) at 2; apply Rmult_le_compat_l; lra).
    assert (ND : Rabs (rv diff - (B - A)) <= 4 * u12). { rewrite N4. replace (rv np - rv op - (B - A)) with ((rv np - B) + - (rv op - A)) by ring. eapply Rle_trans; [apply Rabs_triang|]. rewrite Rabs_Ropp. lra. }
    pose proof (prod_err _ _ _ _ _ _ _ K0 Q ND N6 ltac:(lra)) as T.
    assert (T' : Rabs (rv t - - (rv l / O * (A - B))) <= u12 * (2 + 5 * rv l + (1 + 4 * rv l) * Rabs (A - B))).
    { replace (- (rv l / O * (A - B))) with (rv l / O * (B - A)) by ring. eapply Rle_trans; [exact T|]. rewrite <- (Rabs_Ropp (A - B)). replace (- (A - B)) with (B - A) by ring.
      set (K := rv l / O) in *. clearbody K. pose proof (Rabs_pos (B - A)) as R0. set (D := Rabs (B - A)) in *. clearbody D.
      assert (X1 : (u12 + 4 * u12 * K) * D <= u12 * ((1 + 4 * rv l) * D)). { replace (u12 * ((1 + 4 * rv l) * D)) with ((u12 + 4 * u12 * rv l) * D) by ring. apply Rmult_le_compat_r; [lra|]. nra. }
      assert (X2 : (K + (u12 + 4 * u12 * K)) * (4 * u12) <= u12 * (1 + 5 * rv l)). { replace ((K + (u12 + 4 * u12 * K)) * (4 * u12)) with (u12 * (4 * K + 4 * u12 + 16 * u12 * K)) by ring. apply Rmult_le_compat_l; [lra|]. nra. }
      lra. }
    pose proof (last_div (rv t) (e - 1) (rv r) (rv l / O * (A - B)) _ Bk N7 T') as F. unfold hmm_x. fold O A B. eapply Rle_trans; [exact F|]. unfold Rdiv. nra.
Qed.
Theorem hmm_curve_y : forall orc l a b c k e o r, cpar c k e -> at_s 12 l -> at_s 12 a -> at_s 12 b -> at_s 12 o -> 1 <= rv a -> 1 <= rv b -> 1 <= rv o ->
  dy_from_l_drp_hmm orc l a b c o = Ok r ->
  Rabs (rv r - hmm_y e (rv l) (rv o) (rv a) (rv b)) <= u12 * (1 + (3 + 12 * (rv l * Rpower (rv o) e)) / (e - 1)).
Proof.
  intros orc l a b c k e o r P Al Aa Ab Ao Ga Gb Go H. pose proof u12_pos as U. pose proof u12_small as U2. destruct (cpar_k _ _ _ P) as (Wk & Wn & Rn & Bk & _). pose proof (rv_nonneg _ Al) as L0.
  assert (O1 : 1 <= Rpower (rv o) e) by (apply rpower_ge1; lra). assert (J0 : 0 <= rv l * Rpower (rv o) e) by (apply Rmult_le_pos; lra).
  destruct (hmm_parts_y _ _ _ _ _ _ _ _ _ P H) as [(-> & Z0) | (opc & np & op & inp & iop & diff & q & t & H1 & H2 & H3 & H4 & H5 & H6 & H7 & H8 & H9)].
  - rewrite (rv_zero _ Z0). unfold hmm_y. replace (Rpower (rv b) (1 - e) - Rpower (rv b) (1 - e)) with 0 by ring. replace (0 - rv l * Rpower (rv o) e * 0 / (e - 1)) with 0 by (field; lra). rewrite Rabs_R0.
    apply Rmult_le_pos; [lra|]. apply Rplus_le_le_0_compat; [lra|]. apply Rmult_le_pos; [lra|]. left. apply Rinv_0_lt_compat. lra.
  - destruct (full_near _ _ _ _ _ P Ao Go H1) as (A1 & N1). destruct (base_near _ _ _ _ _ P Ab Gb H2) as (A2 & N2). destruct (base_near _ _ _ _ _ P Aa Ga H3) as (A3 & N3).
    assert (WO : wf one12) by (split; cbn; lia). assert (RO : rv one12 = 1) by (unfold rv; rewrite (Qeq_eqR _ _ one12_num); exact q2r_1).
    destruct (div_near one12 _ _ WO (proj1 A2) eq_refl H4) as (_ & N4). destruct (div_near one12 _ _ WO (proj1 A3) eq_refl H5) as (_ & N5). rewrite RO in N4, N5.
    pose proof (div_spec _ _ WO (proj1 A2)) as D4. rewrite H4 in D4. destruct D4 as (_ & W4 & S4 & _). pose proof (div_spec _ _ WO (proj1 A3)) as D5. rewrite H5 in D5. destruct D5 as (_ & W5 & S5 & _).
    destruct (sub_exact _ _ _ W4 W5 H6) as (W6 & S6 & N6). assert (Sl : dscale l = 12%Z) by apply Al.
    pose proof (mul_near' _ _ _ (proj1 Al) (proj1 A1) Sl H7) as N7. pose proof (mul_spec _ _ (proj1 Al) (proj1 A1)) as D7. rewrite H7 in D7. destruct D7 as (W7 & S7 & _). rewrite Sl in S7.
    pose proof (mul_near' _ _ _ W7 W6 S7 H8) as N8. pose proof (mul_spec _ _ W7 W6) as D8. rewrite H8 in D8. destruct D8 as (W8 & S8 & _). rewrite S7 in S8.
    destruct (div_near _ _ _ W8 Wn S8 H9) as (_ & N9). rewrite Rn in N9.
    assert (GA : 1 <= Rpower (rv a) (e - 1)) by (apply rpower_ge1; lra). assert (GB : 1 <= Rpower (rv b) (e - 1)) by (apply rpower_ge1; lra).
    unfold hmm_y. rewrite !opp_pow.
    set (O := Rpower (rv o) e) in *. set (A := Rpower (rv a) (e - 1)) in *. set (B := Rpower (rv b) (e - 1)) in *.
    pose proof (recip_err _ _ _ GB N2 N4) as RB. pose proof (recip_err _ _ _ GA N3 N5) as RA.
    assert (IA : 0 < 1 / A <= 1). { unfold Rdiv. rewrite Rmult_1_l. split; [apply Rinv_0_lt_compat; lra | rewrite <- Rinv_1; apply Rinv_le_contravar; lra]. }
    assert (IB : 0 < 1 / B <= 1). { unfold Rdiv. rewrite Rmult_1_l. split; [apply Rinv_0_lt_compat; lra | rewrite <- Rinv_1; apply Rinv_le_contravar; lra]. }
    assert (NQ : Rabs (rv q - rv l * O) <= u12 + 3 * u12 * (rv l * O)).
    { replace (rv q - rv l * O) with ((rv q - rv l * rv opc) + rv l * (rv opc - O)) by ring. eapply Rle_trans; [apply Rabs_triang|]. rewrite Rabs_mult, (Rabs_right (rv l)) by lra. assert (rv l * Rabs (rv opc - O) <= rv l * (3 * u12 * O)) by (apply Rmult_le_compat_l; assumption). lra. }
    assert (ND : Rabs (rv diff - (1 / B - 1 / A)) <= 8 * u12). { rewrite N6. replace (rv inp - rv iop - (1 / B - 1 / A)) with ((rv inp - 1 / B) + - (rv iop - 1 / A)) by ring. eapply Rle_trans; [apply Rabs_triang|]. rewrite Rabs_Ropp. lra. }
    pose proof (prod_err _ _ _ _ _ _ _ J0 NQ ND N8 ltac:(lra)) as T.
    assert (AB : Rabs (1 / B - 1 / A) <= 1) by (apply Rabs_le; lra).
    assert (T' : Rabs (rv t - - (rv l * O * (1 / A - 1 / B))) <= u12 * (3 + 12 * (rv l * O))).
    { replace (- (rv l * O * (1 / A - 1 / B))) with (rv l * O * (1 / B - 1 / A)) by ring. eapply Rle_trans; [exact T|].
      set (K := rv l * O) in *. clearbody K. set (D := Rabs (1 / B - 1 / A)) in *. clearbody D.
      assert (X1 : (u12 + 3 * u12 * K) * D <= (u12 + 3 * u12 * K) * 1) by (apply Rmult_le_compat_l; nra).
      assert (X2 : (K + (u12 + 3 * u12 * K)) * (8 * u12) <= u12 * (1 + 9 * K)). { replace ((K + (u12 + 3 * u12 * K)) * (8 * u12)) with (u12 * (8 * K + 8 * u12 + 24 * u12 * K)) by ring. apply Rmult_le_compat_l; [lra|]. nra. }
      lra. }
    pose proof (last_div (rv t) (e - 1) (rv r) (rv l * O * (1 / A - 1 / B)) _ Bk N9 T') as F. eapply Rle_trans; [exact F|]. unfold Rdiv. nra.
Qed.
