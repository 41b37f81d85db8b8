(** Swaps that complete: amounts that fit the current range and are not too small for the resolution of the root price. *)
From Coq Require Import ZArith QArith Qabs List Bool Lia Lqa String.
From Verif Require Import Base BaseLemmas DecimalModel DecimalSpec DecimalProofs PowProofs WfProofs MathModel MathProofs TickProofs TickLoop PoolModel PoolWf SwapLoop SwapProofs LpProofs PoolInv PoolNonneg PoolLp PoolRange PoolDir PoolFees PoolGain PoolScale PoolExit SwapAmounts SwapCover SwapWorth SwapFair HmmProofs PowAccuracy SwapReport SwapStuck.
Import ListNotations.
Open Scope Z_scope.

(** ** Operations that succeed *)
(** Products and dividends must stay below this bound (2^128 units of 10^-24), sums below [max12] (2^128 units of 10^-12). *)
Definition lim : Q := (inject_Z (2 ^ 128) * ulp12 * ulp12)%Q.
Notation at12 := (at_s 12).
Lemma at_num : forall d, at12 d -> (num d == inject_Z (dval d) * ulp12)%Q /\ 0 <= dval d.
Proof. intros d (W & S & N). split; [| apply W]. rewrite (num12 _ S). unfold mant. rewrite N. reflexivity. Qed.
Lemma at_nn : forall d, at12 d -> (0 <= num d)%Q.
Proof. intros d A. destruct (at_num _ A) as [E H]. rewrite E. setoid_replace 0%Q with (inject_Z 0 * ulp12)%Q by reflexivity. apply (proj2 (q_of_m _ _)). auto. Qed.
Lemma u_mul_gen : forall (u a b c : Q), (0 < u -> a * u * (b * u) < c * u * u -> a * b < c)%Q.
Proof.
  intros u a b c U H. apply (Qmult_lt_r _ _ (u * u)); [apply Qmult_lt_0_compat; auto |].
  setoid_replace (a * b * (u * u))%Q with (a * u * (b * u))%Q by ring. setoid_replace (c * (u * u))%Q with (c * u * u)%Q by ring. exact H.
Qed.
Lemma u_mul_lt : forall a b c : Z, (inject_Z a * ulp12 * (inject_Z b * ulp12) < inject_Z c * ulp12 * ulp12)%Q -> a * b < c.
Proof. intros a b c H. rewrite Zlt_Qlt, inject_Z_mult. exact (u_mul_gen _ _ _ _ u_pos H). Qed.
Lemma mulS : forall a b, at12 a -> at12 b -> (num a * num b < lim)%Q -> exists c, d_mul a b = Ok c /\ at12 c /\ (num c <= num a * num b /\ num a * num b < num c + ulp12)%Q.
Proof.
  intros a b A B H. destruct (at_num _ A) as [Ea Ha], (at_num _ B) as [Eb Hb]. rewrite Ea, Eb in H. unfold lim in H. apply u_mul_lt in H.
  destruct A as (Wa & Sa & Na), B as (Wb & Sb & Nb). destruct (mul_Ok a b Wa Wb Sb H) as (c & E & Wc & Sc & _ & Nc). exists c. split; auto.
  destruct (mul_t _ _ _ E Wa Wb Sa) as (_ & _ & T). apply trunc_pos in T; [| apply Qmult_le_0_compat; [apply at_nn; repeat split; auto; apply Wa | apply at_nn; repeat split; auto; apply Wb]]. rewrite ulp_12 in T.
  split; [split; [auto | split; [congruence | rewrite Nc, Na, Nb; reflexivity]] | lra].
Qed.
Lemma divS : forall a b, at12 a -> at12 b -> (num a < lim)%Q -> (0 < num b)%Q -> exists c, d_div a b = Ok c /\ at12 c /\ (num c * num b <= num a /\ num a < (num c + ulp12) * num b)%Q.
Proof.
  intros a b A B H P. destruct (at_num _ A) as [Ea Ha], (at_num _ B) as [Eb Hb]. pose proof (at_nn _ A) as Na0. pose proof A as (Wa & Sa & Na). pose proof B as (Wb & Sb & Nb).
  assert (H2 : dval a * 10 ^ 12 < U128). { unfold U128. apply u_mul_lt. rewrite Ea in H. unfold lim in H. change (inject_Z (10 ^ 12) * ulp12)%Q with (1000000000000 # 1000000000000)%Q. setoid_replace (1000000000000 # 1000000000000)%Q with 1%Q by reflexivity. rewrite Qmult_1_r. exact H. }
  assert (V0 : dval b <> 0). { intros E. rewrite E in Eb. assert (num b == 0)%Q by (rewrite Eb; reflexivity). lra. }
  unfold d_div, denominator, pow10. rewrite Sb. change (12 <=? 38) with true. cbn [bind]. unfold cmul. rewrite (proj2 (Z.ltb_lt _ _)) by auto. cbn [bind]. unfold cdiv. rewrite (proj2 (Z.eqb_neq _ _)) by auto. cbn [bind].
  eexists. split; [reflexivity |]. assert (E : d_div a b = Ok (mkD (dval a * 10 ^ 12 / dval b) (dscale a) (sign_mul (dneg a) (dneg b)))).
  { unfold d_div, denominator, pow10. rewrite Sb. change (12 <=? 38) with true. cbn [bind]. unfold cmul. rewrite (proj2 (Z.ltb_lt _ _)) by auto. cbn [bind]. unfold cdiv. rewrite (proj2 (Z.eqb_neq _ _)) by auto. reflexivity. }
  destruct (div_t _ _ _ E Wa Wb Sa) as (_ & Wc & Sc & _). split; [split; [auto | split; [auto | cbn [dneg]; rewrite Na, Nb; reflexivity]] |]. exact (div_back _ _ _ E Wa Wb Sa Na0 P).
Qed.
Lemma addS : forall a b, at12 a -> at12 b -> (num a + num b < max12)%Q -> exists c, d_add a b = Ok c /\ at12 c /\ (num c == num a + num b)%Q.
Proof.
  intros a b A B H. destruct (at_num _ A) as [Ea Ha], (at_num _ B) as [Eb Hb]. destruct A as (Wa & Sa & Na), B as (Wb & Sb & Nb).
  assert (H2 : dval a + dval b < U128). { unfold U128, max12 in *. apply uq_lt. rewrite inject_Z_plus. rewrite Ea, Eb in H. lra. }
  assert (E : d_add a b = Ok (mkD (dval a + dval b) 12 false)). { unfold d_add. rewrite Sa, Sb, Na, Nb. cbn. unfold cadd. rewrite (proj2 (Z.ltb_lt _ _)) by auto. reflexivity. }
  exists (mkD (dval a + dval b) 12 false). split; auto. split; [| exact (add_q _ _ _ E)]. split; [| auto]. split; cbn [dval dscale]; unfold U128 in *; lia.
Qed.
Lemma subS : forall a b, at12 a -> at12 b -> (num b <= num a)%Q -> exists c, d_sub a b = Ok c /\ at12 c /\ (num c == num a - num b)%Q.
Proof.
  intros a b A B H. destruct (at_num _ A) as [Ea Ha], (at_num _ B) as [Eb Hb]. destruct A as (Wa & Sa & Na), B as (Wb & Sb & Nb).
  assert (H2 : dval b <= dval a). { apply q_of_m. rewrite Ea, Eb in H. lra. }
  assert (E : d_sub a b = Ok (mkD (dval a - dval b) 12 false)).
  { unfold d_sub, d_add. cbn [dval dscale dneg]. rewrite Sa, Sb, Na, Nb. cbn [negb Z.eqb Bool.eqb]. change (12 =? 12) with true. cbn [negb]. unfold csub.
    destruct (dval b <? dval a) eqn:L1. { b2p. rewrite (proj2 (Z.leb_le _ _)) by lia. reflexivity. }
    destruct (dval a <? dval b) eqn:L2; b2p; [lia |]. replace (dval a - dval b) with 0 by lia. reflexivity. }
  exists (mkD (dval a - dval b) 12 false). split; auto. split; [| exact (sub_q _ _ _ E)]. split; [| auto]. destruct Wa. split; cbn [dval dscale]; lia.
Qed.
Lemma ltS : forall a b, at12 a -> at12 b -> d_lt a b = Ok (dval a <? dval b).
Proof. intros a b (Wa & Sa & Na) (Wb & Sb & Nb). unfold d_lt. rewrite Sa, Sb, Na, Nb. reflexivity. Qed.
Lemma lt_f : forall a b, at12 a -> at12 b -> (num b <= num a)%Q -> d_lt a b = Ok false.
Proof. intros a b A B H. rewrite (ltS _ _ A B). f_equal. apply Z.ltb_ge. destruct (at_num _ A) as [Ea Ha], (at_num _ B) as [Eb Hb]. apply q_of_m. rewrite Ea, Eb in H. lra. Qed.
Lemma lt_t : forall a b, at12 a -> at12 b -> (num a < num b)%Q -> d_lt a b = Ok true.
Proof. intros a b A B H. rewrite (ltS _ _ A B). f_equal. apply Z.ltb_lt. destruct (at_num _ A) as [Ea Ha], (at_num _ B) as [Eb Hb]. apply uq_lt. rewrite Ea, Eb in H. lra. Qed.
Lemma gt_f : forall a b, at12 a -> at12 b -> (num a <= num b)%Q -> d_gt a b = Ok false.
Proof. intros a b A B H. rewrite gt_lt. apply lt_f; auto. Qed.
Lemma at_neg : forall d, at12 d -> is_negative d = false.
Proof. intros d (_ & _ & N). unfold is_negative. rewrite N. reflexivity. Qed.
(** A rounded quotient is at least any number of the grid that does not exceed the exact quotient. *)
Lemma div_ge : forall a b c g, at12 c -> at12 g -> (0 < b)%Q -> (a < (num c + ulp12) * b)%Q -> (num g * b <= a)%Q -> (num g <= num c)%Q.
Proof.
  intros a b c g C G P H1 H2. apply Qnot_lt_le. intros L. apply grid_step in L; [| apply C | apply G].
  assert ((num c + ulp12) * b <= num g * b)%Q by (apply Qmult_le_compat_r; lra). lra.
Qed.
(** [pow] squares once more than needed, so the fourth power must fit. *)
Lemma powS : forall d, at12 d -> (num d * num d < lim)%Q -> (num d * num d * (num d * num d) < lim)%Q -> exists c, d_pow d 2 = Ok c /\ at12 c /\ (num c <= num d * num d /\ num d * num d < num c + ulp12)%Q.
Proof.
  intros d A H H4. destruct (mulS _ _ A A H) as (b & E1 & B & B1). pose proof (at_nn _ B) as B0. pose proof A as (Wd & Sd & Nd). pose proof B as (Wb & Sb & Nb). exists b. split; [| auto].
  assert (H5 : (num b * num b < lim)%Q) by nra. destruct (mulS _ _ B B H5) as (q & E2 & _).
  unfold d_pow, denominator, pow10. rewrite Sd. change (12 <=? 38) with true. cbn [bind pow_loop]. rewrite E1. cbn [bind]. rewrite Nd.
  assert (E3 : d_mul (mkD (10 ^ 12) 12 false) b = Ok b).
  { unfold d_mul, cmul, denominator, pow10. rewrite Sb. cbn [dval dscale dneg]. change (12 <=? 38) with true.
    destruct (at_num _ B) as [Eb Hb]. assert (L : 10 ^ 12 * dval b < U128).
    { unfold U128. rewrite Z.mul_comm. apply u_mul_lt. change (inject_Z (10 ^ 12) * ulp12)%Q with (1000000000000 # 1000000000000)%Q. setoid_replace (1000000000000 # 1000000000000)%Q with 1%Q by reflexivity. rewrite Qmult_1_r, <- Eb. unfold lim in H. lra. }
    rewrite (proj2 (Z.ltb_lt _ _) L). cbn [bind]. unfold cdiv. change (10 ^ 12 =? 0) with false. cbn [bind]. replace (10 ^ 12 * dval b / 10 ^ 12) with (dval b) by (rewrite Z.mul_comm, Z.div_mul; lia). f_equal. destruct b; cbn in *. subst. reflexivity. }
  rewrite E3. cbn [bind]. rewrite E2. reflexivity.
Qed.

Lemma one_nz : forall d, at12 d -> (1 <= num d)%Q -> is_zero d = false.
Proof. intros d A H. apply is_zero_f. intros E. pose proof A as (W & _). apply (num_sign _ W) in E. lra. Qed.
Lemma dxS : forall l s g, at12 l -> at12 s -> at12 g -> (1 <= num g)%Q -> (num g <= num s)%Q -> (num l * num s < lim)%Q -> (num s * num s < lim)%Q ->
  exists d, dx_from_l_drp l s g = Ok d /\ at12 d /\ forall m, at12 m -> (num m * (num s * num g) + ulp12 <= num l * (num s - num g))%Q -> (num m <= num d)%Q.
Proof.
  intros l s g Al As Ag G1 Gs H1 H2. pose proof (at_nn _ Al) as L0. unfold dx_from_l_drp. rewrite (one_nz _ As) by lra. rewrite (one_nz _ Ag) by lra. cbn [orb].
  destruct (subS _ _ As Ag Gs) as (w & Ew & Aw & Qw). rewrite Ew. cbn [bind unwrap].
  assert (B1 : (num s * num g <= num s * num s)%Q) by (apply SwapFair.mul_mono; lra). destruct (mulS _ _ As Ag) as (m1 & Em & Am & Qm); [lra |]. rewrite Em. cbn [bind unwrap].
  assert (B2 : (num l * num w <= num l * num s)%Q) by (apply SwapFair.mul_mono; lra). destruct (mulS _ _ Al Aw) as (n1 & En & An & Qn); [lra |]. rewrite En. cbn [bind unwrap].
  assert (U : (ulp12 < 1)%Q) by reflexivity. assert (B3 : (1 <= num s * num g)%Q) by (apply one_mul; lra). assert (Mp : (0 < num m1)%Q) by lra.
  destruct (divS _ _ An Am) as (d & Ed & Ad & Qd); [lra | auto |]. exists d. split; auto. split; auto. intros m M Hm. pose proof (at_nn _ M) as M0.
  apply (div_ge (num n1) (num m1)); auto; [lra |]. assert (num m * num m1 <= num m * (num s * num g))%Q by (apply SwapFair.mul_mono; lra). rewrite Qw in Qn. lra.
Qed.
Lemma lim_max : ((2#1) * lim < max12)%Q. Proof. reflexivity. Qed.
Lemma rp_dxS : forall l s x, at12 l -> at12 s -> at12 x -> (1 <= num s)%Q -> (0 < num l)%Q -> (num l * num s < lim)%Q -> (num x * num s < lim)%Q ->
  exists e, rp_new_from_l_dx l s x = Ok e /\ at12 e /\ (num e <= num s)%Q /\ forall g, at12 g -> (num x * (num s * num g) + ulp12 <= num l * (num s - num g))%Q -> (num g <= num e)%Q.
Proof.
  intros l s x Al As Ax S1 L0 H1 H2. pose proof (at_nn _ Ax) as X0. unfold rp_new_from_l_dx.
  destruct (mulS _ _ Al As H1) as (n & En & An & Qn). rewrite En. cbn [bind unwrap]. destruct (mulS _ _ Ax As H2) as (a & Ea & Aa & Qa). rewrite Ea. cbn [bind unwrap]. pose proof (at_nn _ Aa) as A0.
  assert (B0 : (num l <= num l * num s)%Q) by (apply le_mul; lra). pose proof lim_max as Lm. destruct (addS _ _ Aa Al) as (den & Ed & Ad & Qd); [lra |]. rewrite Ed. cbn [bind unwrap].
  assert (Z : is_zero den = false). { apply is_zero_f. intros E. pose proof Ad as (W & _). apply (num_sign _ W) in E. lra. } rewrite Z.
  destruct (divS _ _ An Ad) as (e & Ee & Ae & Qe); [lra | lra |]. rewrite Ee. cbn [bind unwrap]. rewrite (at_neg _ Ae). exists e. split; auto. split; auto. split.
  - apply Qnot_lt_le. intros B. assert (num s * num den < num e * num den)%Q by (apply Qmult_lt_r; lra). assert (0 <= num s * num a)%Q by (apply Qmult_le_0_compat; lra). rewrite Qd in *. lra.
  - intros g G Hg. pose proof (at_nn _ G) as G0. apply (div_ge (num n) (num den)); auto; [lra | lra |]. rewrite Qd. assert (num g * num a <= num g * (num x * num s))%Q by (apply SwapFair.mul_mono; lra). lra.
Qed.
(** Non-positive amounts. *)
Definition out12 (d : decimal) : Prop := wf d /\ dscale d = 12 /\ (num d <= 0)%Q.
Lemma dyS : forall l s e, at12 l -> at12 s -> at12 e -> (num e <= num s)%Q -> (num l * num s < lim)%Q -> exists d, dy_from_l_drp l s e = Ok d /\ out12 d /\ (- num d <= num l * (num s - num e) /\ num l * (num s - num e) < - num d + ulp12)%Q.
Proof.
  intros l s e Al As Ae H H1. pose proof (at_nn _ Al) as L0. pose proof (at_nn _ Ae) as E0. unfold dy_from_l_drp. destruct (at_num _ As) as [Es Hs], (at_num _ Ae) as [Ee He], (at_num _ Al) as [El Hl].
  assert (V : dval e <= dval s) by (apply q_of_m; lra). pose proof As as (Ws & Ss & Ns). pose proof Ae as (We & Se & Ne). pose proof Al as (Wl & Sl & Nl).
  assert (W0 : wf (mkD (dval s - dval e) 12 (negb (dval s - dval e =? 0)))). { destruct Ws. split; cbn [dval dscale]; lia. }
  assert (E : d_sub e s = Ok (mkD (dval s - dval e) 12 (negb (dval s - dval e =? 0)))).
  { unfold d_sub, d_add. cbn [dval dscale dneg]. rewrite Ss, Se, Ns, Ne. change (12 =? 12) with true. cbn [negb Bool.eqb]. unfold csub.
    destruct (dval s <? dval e) eqn:L1; b2p; [lia |]. destruct (dval e <? dval s) eqn:L2; b2p.
    - rewrite (proj2 (Z.leb_le _ _)) by lia. rewrite (proj2 (Z.eqb_neq _ _)) by lia. reflexivity.
    - replace (dval s - dval e) with 0 by lia. reflexivity. }
  rewrite E. cbn [bind unwrap]. pose proof (sub_q _ _ _ E) as Qw. set (w := mkD (dval s - dval e) 12 (negb (dval s - dval e =? 0))) in *.
  assert (F : dval w * dval l < U128). { unfold U128. apply u_mul_lt. unfold w; cbn [dval]. unfold Zminus. rewrite inject_Z_plus, inject_Z_opp.
    setoid_replace ((inject_Z (dval s) + - inject_Z (dval e)) * ulp12)%Q with (num s - num e)%Q by (rewrite Es, Ee; ring). rewrite <- El. change (inject_Z (2 ^ 128) * ulp12 * ulp12)%Q with lim.
    assert (num l * (num s - num e) <= num l * num s)%Q by (apply SwapFair.mul_mono; lra). lra. }
  destruct (mul_Ok w l W0 Wl Sl F) as (d & Ed & Wd & Sd & _). exists d. split; auto. destruct (mul_t _ _ _ Ed W0 Wl eq_refl) as (_ & Sd' & T). assert (Np : (num w * num l <= 0)%Q).
  { assert (0 <= num l * (num s - num e))%Q by (apply Qmult_le_0_compat; lra). rewrite Qw. lra. }
  apply trunc_neg in T; auto. rewrite ulp_12, Qw in T. split; [repeat split; auto; try apply Wd; lra | lra].
Qed.
Lemma add_out : forall a b, at12 a -> out12 b -> (- num b <= num a)%Q -> exists c, d_add a b = Ok c /\ at12 c /\ (num c == num a + num b)%Q.
Proof.
  intros a b A (Wb & Sb & Nb) H. destruct (at_num _ A) as [Ea Ha]. pose proof A as (Wa & Sa & Na). rewrite (num12 _ Sb) in *.
  assert (M1 : mant b <= 0). { apply (q_of_m _ 0). setoid_replace (inject_Z 0 * ulp12)%Q with 0%Q by reflexivity. lra. }
  assert (M2 : - mant b <= dval a). { apply q_of_m. rewrite inject_Z_opp. lra. }
  assert (E : exists v, d_add a b = Ok (mkD v 12 false) /\ 0 <= v < 2 ^ 128).
  { unfold mant in *. destruct Wa as [Va _], Wb as [Vb _]. unfold d_add. rewrite Sa, Sb, Na. change (12 =? 12) with true. cbn [negb]. destruct (dneg b) eqn:Eb; cbn [Bool.eqb].
    - unfold csub. destruct (dval b <? dval a) eqn:L1; b2p; [rewrite (proj2 (Z.leb_le _ _)) by lia; cbn [bind]; eexists; split; [reflexivity | lia] |]. destruct (dval a <? dval b) eqn:L2; b2p; [lia |]. exists 0. split; [reflexivity | lia].
    - unfold cadd. rewrite (proj2 (Z.ltb_lt _ _)) by (unfold U128; lia). cbn [bind]. eexists. split; [reflexivity | lia]. }
  destruct E as (v & E & Hv). exists (mkD v 12 false). split; auto. split; [| exact (add_q _ _ _ E)]. split; [| auto]. split; cbn [dval dscale]; lia.
Qed.
Lemma sub_self : forall b, out12 b -> d_sub b b = Ok (mkD 0 12 false).
Proof.
  intros b (Wb & Sb & Nb). unfold d_sub, d_add. cbn [dval dscale dneg]. rewrite Sb. change (12 =? 12) with true. cbn [negb]. destruct (dneg b); cbn [Bool.eqb negb]; rewrite Z.ltb_irrefl; reflexivity.
Qed.
Lemma at_zero : at12 (mkD 0 12 false). Proof. split; [split; cbn; lia | auto]. Qed.
Lemma ok_at : forall d, wf d -> ok12 d -> (0 <= num d)%Q -> at12 d.
Proof.
  intros d W [S C] H. split; auto. split; auto. destruct (dneg d) eqn:N; auto. exfalso. pose proof (C N) as V. apply (num_sign _ W) in H. unfold mant in H. rewrite N in H. destruct W. lia.
Qed.
Lemma pos_at : forall d, wf d -> dscale d = 12 -> (0 < num d)%Q -> at12 d.
Proof. intros d W S H. destruct (pos_nonneg _ W H). split; auto. Qed.
Lemma pos_is : forall d, at12 d -> (0 < num d)%Q -> is_positive d = true /\ is_zero d = false.
Proof.
  intros d (W & S & N) H. assert (Z : is_zero d = false). { apply is_zero_f. intros E. apply (num_sign _ W) in E. lra. } split; auto. unfold is_positive. rewrite Z, N. reflexivity.
Qed.
Lemma out_is : forall d, out12 d -> is_positive d = false.
Proof. intros d (W & S & N). apply is_pos_f; [apply wf_nn; auto |]. apply num_sign; auto. Qed.
Lemma neg_at : forall d, out12 d -> (num d < 0)%Q -> at12 (d_neg d) /\ is_zero d = false.
Proof.
  intros d (W & S & _) H. split; [| apply is_zero_f; intros E; apply (num_sign _ W) in E; lra]. apply pos_at; [apply neg_wf; auto | rewrite neg_scale; auto | rewrite PoolInv.num_neg by auto; lra].
Qed.
Lemma one_at : at12 (mkD (10 ^ 12) 12 false). Proof. split; [split; cbn; lia | auto]. Qed.
Lemma one_num : (num (mkD (10 ^ 12) 12 false) == 1)%Q. Proof. reflexivity. Qed.
Lemma search_S : forall e s start, at12 e -> (num e <= s)%Q -> (1 <= s)%Q -> (s * s * (s * s) < lim)%Q -> 0 <= start < 2 ^ 19 -> exists x, rp_to_tick_loop e false start = Ok x.
Proof.
  intros e s start A L S1 S4 St. destruct (at_num _ A) as [E H]. apply search_total; [apply A | apply A | auto |]. apply u_mul_lt. rewrite <- E. fold lim. change (inject_Z MB * ulp12)%Q with (1000049998750 # 1000000000000)%Q.
  change (inject_Z (2 ^ 128) * ulp12 * ulp12)%Q with lim. destruct (Qlt_le_dec s 100) as [B | B].
  - assert (lim > 200)%Q by reflexivity. lra.
  - assert (s <= s * s)%Q by (apply le_mul; lra). assert (s * s * 2 <= s * s * (s * s))%Q by (apply SwapFair.mul_mono; [apply Qmult_le_0_compat |]; lra). lra.
Qed.
(** One step that stays inside the range, selling X. *)
Lemma within_x_S : forall orc p s t g l x ro, at12 s -> at12 l -> at12 x -> at12 (fee_rate p) -> at12 (ry p) -> is_zero (hmm_c p) = true \/ is_zero ro = true -> tick_to_rp t = Ok g -> 0 < t ->
  (1 <= num s)%Q -> (num g <= num s)%Q -> (0 < num l)%Q -> (num l * num s < lim)%Q -> (num x * num s < lim)%Q -> (num s * num s * (num s * num s) < lim)%Q ->
  ((3#1) * ulp12 <= num x * (1 - num (fee_rate p)))%Q -> (ulp12 * (1 + num l + num x) <= num (fee_rate p) * num x)%Q ->
  (num x * (1 - num (fee_rate p)) * (num s * num g) + ulp12 <= num l * (num s - num g))%Q -> (num l * (num s - num g) <= num (ry p))%Q ->
  exists m cp et e fee, swap_within_x orc p s t l x ro = Ok (mkW m cp et e false (mkD 0 12 false) fee) /\ at12 m /\ at12 fee /\ at12 e /\ out12 cp /\
    (num m + num fee == num x /\ num cp < 0 /\ - num cp <= num (ry p) /\ - num cp < lim /\ 0 < num m /\ num e <= num s)%Q.
Proof.
  intros orc p s t g l x ro As Al Ax Ar Ay Off Eg Ht S1 Gs L0 H1 H2 H4 Net Dust Fit Res. pose proof u_pos as U. pose proof (at_nn _ Ax) as X0. pose proof (at_nn _ Ar) as R0.
  destruct (tick_rp_wf _ _ Eg) as (Wg & Sg & Ng & _). destruct (PoolNonneg.tick_price_ok _ _ Eg) as [G1 _]. assert (Ag : at12 g) by (split; auto).
  assert (T19 : t < 2 ^ 19). { destruct (Z.lt_ge_cases t (2 ^ 19)); auto. rewrite tick_panics in Eg by lia. discriminate. }
  assert (R1 : (num (fee_rate p) < 1)%Q). { apply Qnot_le_lt. intros B. assert (0 <= num x * (num (fee_rate p) - 1))%Q by (apply Qmult_le_0_compat; lra). lra. }
  assert (S2 : (1 <= num s * num s)%Q) by (apply one_mul; lra). assert (S3 : (num s * num s < lim)%Q). { apply Qle_lt_trans with (num s * num s * (num s * num s))%Q; auto. apply le_mul; lra. }
  unfold swap_within_x. rewrite (at_neg _ Ax), Eg. cbn [bind]. rewrite (gt_f _ _ Ag As) by auto. cbn [bind unwrap]. rewrite one_eq. cbn [bind].
  destruct (subS _ _ one_at Ar) as (ff & Ef & Af & Qf); [rewrite one_num; lra |]. rewrite one_num in Qf. rewrite Ef. cbn [bind unwrap].
  assert (XR : (0 <= num x * num (fee_rate p))%Q) by (apply Qmult_le_0_compat; lra).
  assert (Xl : (num x <= num x * num s)%Q) by (apply le_mul; lra). assert (Xf : (num x * num ff <= num x)%Q). { rewrite Qf. assert (0 <= num x * num (fee_rate p))%Q by (apply Qmult_le_0_compat; lra). lra. }
  destruct (mulS _ _ Ax Af) as (m & Em & Am & Qm); [lra |]. rewrite Em. cbn [bind unwrap]. rewrite Qf in Qm. pose proof (at_nn _ Am) as M0.
  assert (Fit2 : (num m * (num s * num g) + ulp12 <= num l * (num s - num g))%Q).
  { assert (B : (1 <= num s * num g)%Q) by (apply one_mul; lra). assert (num m * (num s * num g) <= num x * (1 - num (fee_rate p)) * (num s * num g))%Q by (apply Qmult_le_compat_r; lra). lra. }
  destruct (dxS _ _ _ Al As Ag G1 Gs H1 S3) as (db & Ed & Ad & Qd). rewrite Ed. cbn [bind]. rewrite (at_neg _ Ad). rewrite (lt_f _ _ Ad Am) by (apply Qd; auto). cbn [bind unwrap].
  destruct (subS _ _ Ax Am) as (fee & Ee & Afe & Qfe); [lra |]. rewrite Ee. cbn [bind unwrap].
  assert (Ms : (num m * num s < lim)%Q). { apply Qle_lt_trans with (num x * num s)%Q; auto. apply Qmult_le_compat_r; lra. }
  destruct (rp_dxS _ _ _ Al As Am S1 L0 H1 Ms) as (e & Er & Ae & Es & Qe). rewrite Er. cbn [bind]. pose proof (Qe _ Ag Fit2) as Ge.
  unfold pred_u128. rewrite (proj2 (Z.eqb_neq t 0)) by lia. cbn [bind]. destruct (search_S e (num s) (t - 1) Ae Es S1 H4 ltac:(lia)) as (et & Et). rewrite Et. cbn [bind].
  rewrite (gt_f _ _ Ae As Es). cbn [bind unwrap]. rewrite (lt_f _ _ Ae Ag Ge). cbn [bind unwrap].
  destruct (dyS _ _ _ Al As Ae Es H1) as (cp & Ec & Oc & Qc1 & Qc2). rewrite Ec. cbn [bind].
  assert (Pl : (if is_zero (hmm_c p) || is_zero ro then Ok true else unwrap (d_gte ro s)) = Ok true). { destruct Off as [-> | ->]; [reflexivity | rewrite orb_true_r; reflexivity]. }
  rewrite Pl. cbn [bind]. rewrite (sub_self _ Oc). cbn [bind unwrap]. rewrite (out_is _ Oc). change (is_negative (mkD 0 12 false)) with false. cbv iota.
  (* the amounts *)
  pose proof Am as (Wm & Sm & _). pose proof Al as (Wl & Sl & _). pose proof As as (Ws & Ss & _). pose proof Ae as (We & Se & _).
  assert (E1 : (1 <= num e)%Q) by lra. assert (SE : (1 <= num s * num e)%Q) by (apply one_mul; lra).
  pose proof (rp_dx_hi _ _ _ _ Er Wl Ws Wm Sl Sm L0 S1 M0) as Hi. pose proof (rp_dx _ _ _ _ Er Wl Ws Wm Sl Sm L0 S1 M0 E1) as Lo.
  assert (Neg : (num cp < 0)%Q).
  { assert (B1 : (num m <= num m * num s)%Q) by (apply le_mul; lra). assert (B2 : (ulp12 * 1 <= (num m * num s - ulp12) * num e)%Q).
    { apply Qle_trans with ((num m * num s - ulp12) * 1)%Q; [lra | apply SwapFair.mul_mono; lra]. } lra. }
  assert (Cy : (- num cp <= num (ry p))%Q). { assert (num l * (num s - num e) <= num l * (num s - num g))%Q by (apply SwapFair.mul_mono; lra). lra. }
  assert (Cl : (- num cp < lim)%Q). { assert (num l * (num s - num e) <= num l * num s)%Q by (apply SwapFair.mul_mono; lra). lra. }
  destruct (add_out _ _ Ay Oc Cy) as (ny & Ey & Any & _). rewrite Ey. cbn [bind unwrap]. rewrite (at_neg _ Any).
  destruct (pos_is _ Am ltac:(lra)) as [_ Zm]. destruct (neg_at _ Oc Neg) as [Anc Zc]. rewrite Zm, Zc. cbn [negb andb].
  assert (Lx : (lim < max12)%Q) by reflexivity. destruct (addS _ _ Am Afe) as (tot & Eto & Ato & Qto); [lra |]. rewrite Eto. cbn [bind unwrap].
  pose proof Oc as (Wc & _). destruct (divS _ _ Anc Ato) as (avg & Ea & Aa & Qa); [rewrite PoolInv.num_neg by auto; auto | lra |]. rewrite Ea. cbn [bind]. rewrite PoolInv.num_neg in Qa by auto.
  destruct (powS _ As S3 H4) as (q2 & Eq & Aq & Qq). rewrite Eq. cbn [bind].
  assert (Av : (num avg <= num q2)%Q).
  { apply Qnot_lt_le. intros B. apply grid_step in B; [| apply Aq | apply Aa].
    assert (B1 : (num s * num s * num tot < num avg * num tot)%Q) by (apply Qmult_lt_r; lra).
    assert (B2 : ((num m + ulp12 * (1 + num l + num m)) * (num s * num e) <= (num m + ulp12 * (1 + num l + num m)) * (num s * num s))%Q).
    { apply SwapFair.mul_mono; [| apply SwapFair.mul_mono; lra]. assert (0 <= ulp12 * (1 + num l + num m))%Q by (apply Qmult_le_0_compat; lra). lra. }
    assert (B3 : (num m + ulp12 * (1 + num l + num m) <= num x)%Q). { assert (ulp12 * (1 + num l + num m) <= ulp12 * (1 + num l + num x))%Q by (apply SwapFair.mul_mono; lra). lra. }
    assert (B4 : ((num m + ulp12 * (1 + num l + num m)) * (num s * num s) <= num x * (num s * num s))%Q) by (apply Qmult_le_compat_r; lra).
    assert (B5 : (num tot == num x)%Q) by lra. rewrite B5 in *. lra. }
  rewrite (gt_f _ _ Aa Aq Av). cbn [bind unwrap]. unfold within_new. rewrite (at_neg _ Am), (out_is _ Oc), (at_neg _ Afe), (at_neg _ Ae). change (is_negative (mkD 0 12 false)) with false. cbn [orb].
  do 5 eexists. split; [reflexivity |]. csplit; auto; lra.
Qed.
Lemma zero_at : at12 (mkD 0 12 false). Proof. split; [split; cbn; lia | auto]. Qed.
Lemma zero_num : (num (mkD 0 12 false) == 0)%Q. Proof. reflexivity. Qed.
Lemma zero_out : forall c, out12 c -> exists o, d_add (mkD 0 12 false) c = Ok o /\ out12 o /\ (num o == num c)%Q.
Proof.
  intros c (W & S & N). assert (E : exists o, d_add (mkD 0 12 false) c = Ok o).
  { unfold d_add. cbn [dval dscale dneg]. rewrite S. change (12 =? 12) with true. cbn [negb]. pose proof W as [V _]. unfold csub, cadd, U128. destruct (dneg c); cbn [Bool.eqb].
    - rewrite (proj2 (Z.ltb_ge _ _)) by lia. destruct (0 <? dval c); [rewrite (proj2 (Z.leb_le _ _)) by lia |]; cbn [bind]; eauto.
    - rewrite (proj2 (Z.ltb_lt _ _)) by lia. cbn [bind]. eauto. }
  destruct E as (o & E). exists o. split; auto. pose proof (add_q _ _ _ E) as Q. rewrite zero_num in Q. split; [| lra]. split; [| split; [| lra]].
  - eapply add_wf; eauto. exact zero_wf.
  - apply add_m in E. cbn in E. lia.
Qed.
Lemma sub_zero : forall a, at12 a -> d_sub a (mkD 0 12 false) = Ok a.
Proof.
  intros a A. pose proof (at_nn _ A) as H0. rewrite <- zero_num in H0. destruct (subS _ _ A zero_at H0) as (c & E & C & Q). rewrite E. f_equal. rewrite zero_num in Q. destruct (at_num _ A) as [Ea Ha], (at_num _ C) as [Ec Hc].
  assert (dval c = dval a). { apply Z.le_antisymm; apply q_of_m; lra. } destruct A as (_ & S1 & N1), C as (_ & S2 & N2). destruct a, c; cbn in *. congruence.
Qed.
(** The bookkeeping of one step that stays inside the range. *)
Lemma step_x_S : forall orc p s dx ro gtk m cp et e fee, swap_within_x orc p (s_rp s) gtk (glbl_liq p) dx ro = Ok (mkW m cp et e false (mkD 0 12 false) fee) ->
  s_in s = mkD 0 12 false -> s_out s = mkD 0 12 false -> s_adj s = mkD 0 12 false -> s_fee s = mkD 0 12 false ->
  at12 dx -> at12 m -> at12 fee -> out12 cp -> (num m + num fee == num dx)%Q -> (- num cp <= num (ry p))%Q ->
  at12 (ry p) -> at12 (rx p) -> at12 (x_fee p) -> at12 (y_adj p) -> at12 (glbl_liq p) -> at12 (g_fx (gs p)) -> at12 (g_hy (gs p)) -> (0 < num (glbl_liq p))%Q ->
  (num dx < lim)%Q -> (num (rx p) + num dx < max12)%Q -> (num (x_fee p) + num dx < max12)%Q -> (num dx + num (g_fx (gs p)) * num (glbl_liq p) < max12 * num (glbl_liq p))%Q ->
  exists p' i2 o2 a2 f2, step_x orc p s dx ro gtk = Ok (p', mkSwp i2 o2 a2 f2 et e) /\ glbl_rp p' = e /\ at12 i2 /\ out12 o2 /\ at12 a2 /\ at12 f2 /\ (num i2 == num dx /\ num o2 == num cp /\ num f2 == num fee /\ num a2 == 0)%Q.
Proof.
  intros orc p s dx ro gtk m cp et e fee H E1 E2 E3 E4 Ax Am Af Oc Sum Hy Ay Ar Axf Aya Al Ag Ah L0 Lm Rx Rf Gr.
  pose proof (at_nn _ Am) as M0. pose proof (at_nn _ Af) as F0. pose proof zero_num as Z0. pose proof lim_max as Lx. pose proof zero_at as Az. assert (Lp : (0 < max12)%Q) by reflexivity.
  assert (Small : forall d, at12 d -> (num d < max12)%Q). { intros d D. destruct (at_num _ D) as [Ed _]. rewrite Ed. unfold max12. apply (proj2 (uq_lt _ _)). destruct D as [[V _] _]. lia. }
  unfold step_x. rewrite E1, E2, E3, E4. rewrite (sub_zero _ Ax). cbn [bind unwrap]. rewrite H. cbn [bind unwrap w_send w_adj w_recv w_fee w_tick w_rp w_cross].
  destruct (add_out _ _ Ay Oc Hy) as (y1 & Y1 & Ay1 & _). rewrite Y1. cbn [bind unwrap]. rewrite (sub_zero _ Ay1). cbn [bind unwrap]. rewrite (at_neg _ Ay1). cbn [assert negb bind].
  destruct (subS _ _ Ax Am) as (c1 & C1 & Ac1 & Qc1); [lra |]. rewrite C1. cbn [bind unwrap]. destruct (subS _ _ Ac1 Af) as (ck & C2 & Ack & _); [lra |]. rewrite C2. cbn [bind unwrap]. rewrite (at_neg _ Ack). cbn [assert negb bind].
  destruct (addS _ _ Az Am) as (i1 & I1 & Ai1 & Qi1); [lra |]. rewrite I1. cbn [bind unwrap]. destruct (addS _ _ Ai1 Af) as (i2 & I2 & Ai2 & Qi2); [lra |]. rewrite I2. cbn [bind unwrap].
  destruct (zero_out _ Oc) as (o2 & O2 & Ao2 & Qo2). rewrite O2. cbn [bind unwrap]. destruct (addS _ _ Az Az) as (a2 & A2 & Aa2 & Qa2); [lra |]. rewrite A2. cbn [bind unwrap].
  destruct (addS _ _ Az Af) as (f2 & F2 & Af2 & Qf2); [lra |]. rewrite F2. cbn [bind unwrap].
  destruct (addS _ _ Ar Am) as (nx & N1 & An1 & _); [lra |]. change (rx (set_glbl_rp (set_glbl_tick p et) e)) with (rx p). rewrite N1. cbn [bind unwrap].
  change (x_fee (set_glbl_rp (set_glbl_tick p et) e)) with (x_fee p). destruct (addS _ _ Axf Af) as (nf & N2 & An2 & _); [lra |]. rewrite N2. cbn [bind unwrap].
  change (y_adj (set_glbl_rp (set_glbl_tick p et) e)) with (y_adj p). destruct (addS _ _ Aya Az) as (ny & N3 & An3 & _); [pose proof (Small _ Aya); lra |]. rewrite N3. cbn [bind unwrap].
  set (q := with_funds _ _ _ _ _ _ _). change (glbl_liq q) with (glbl_liq p). change (g_fx (gs q)) with (g_fx (gs p)). change (g_hy (gs q)) with (g_hy (gs p)). destruct (pos_is _ Al L0) as [Pl _]. rewrite Pl.
  destruct (divS _ _ Af Al) as (q1 & D1 & Aq1 & Qq1); [lra | auto |]. rewrite D1. cbn [bind unwrap].
  destruct (addS _ _ Aq1 Ag) as (g1 & G1 & Ag1 & _). { apply (Qmult_lt_r _ _ (num (glbl_liq p)) L0). lra. } rewrite G1. cbn [bind unwrap].
  destruct (divS _ _ Az Al) as (q2 & D2 & Aq2 & Qq2); [lra | auto |]. rewrite D2. cbn [bind unwrap].
  assert (Q20 : (num q2 == 0)%Q). { apply Qle_antisym; [| apply at_nn; auto]. apply Qnot_lt_le. intros B. assert (0 < num q2 * num (glbl_liq p))%Q by (apply Qmult_lt_0_compat; auto). lra. }
  destruct (addS _ _ Aq2 Ah) as (g2 & G2 & Ag2 & _); [pose proof (Small _ Ah); lra |]. change (g_hy (gs q)) with (g_hy (gs p)). rewrite G2. cbn [bind unwrap].
  do 5 eexists. split; [reflexivity |]. split; [reflexivity |]. csplit; auto; lra.
Qed.
Lemma funds_at : forall orc p, reachable orc p -> at12 (rx p) /\ at12 (ry p) /\ at12 (x_adj p) /\ at12 (y_adj p) /\ at12 (x_fee p) /\ at12 (y_fee p) /\ (forall k, at12 (g_fee (gs p) k)) /\ at12 (glbl_rp p).
Proof.
  intros orc p Hr. pose proof (reachable_all12 _ _ Hr) as ((G1 & G2) & _ & _ & (P1 & P2 & P3 & P4 & P5 & P6)). pose proof (reachable_nn _ _ Hr) as Nn. pose proof Nn as (W & (F1 & F2 & F3 & F4 & F5 & F6) & Gn & _ & Pr & _).
  pose proof (rp_one _ Nn) as R1. pose proof W as (_ & Wg & _).
  destruct W as (_ & (V1 & V2 & _ & V3 & V4 & V5 & V6) & _ & _ & (U1 & U2 & U3 & U4 & U5 & U6) & _ & _). csplit; try (apply ok_at; auto; fail).
  - intros k. apply ok_at; auto. destruct k; auto.
  - apply pos_at; auto; [apply Pr | lra].
Qed.
(** What the swap needs: numbers that fit, room in the range, an amount large enough for the resolution. *)
Definition x_sizes (p : pool) (x : Q) : Prop :=
  (num (glbl_liq p) * num (glbl_rp p) < lim /\ x * num (glbl_rp p) < lim /\ num (glbl_rp p) * num (glbl_rp p) * (num (glbl_rp p) * num (glbl_rp p)) < lim /\
   num (rx p) + x < max12 /\ num (x_fee p) + x < max12 /\ x + num (g_fx (gs p)) * num (glbl_liq p) < max12 * num (glbl_liq p))%Q.
Definition x_room (p : pool) (x g : Q) : Prop :=
  (x * (1 - num (fee_rate p)) * (num (glbl_rp p) * g) + ulp12 <= num (glbl_liq p) * (num (glbl_rp p) - g) /\ num (glbl_liq p) * (num (glbl_rp p) - g) <= num (ry p))%Q.
Definition x_enough (p : pool) (x : Q) : Prop :=
  ((3#1) * ulp12 <= x * (1 - num (fee_rate p)) /\ ulp12 * (1 + num (glbl_liq p) + x) <= num (fee_rate p) * x)%Q.
Lemma rate_pos : forall p x, wf (fee_rate p) -> dscale (fee_rate p) = 12 -> (0 < num (glbl_liq p))%Q -> (0 < x)%Q -> x_enough p x -> at12 (fee_rate p).
Proof.
  intros p x W S L X [_ E]. apply pos_at; auto. pose proof u_pos as U. apply Qnot_le_lt. intros B. assert (0 < ulp12 * (1 + num (glbl_liq p) + x))%Q by (apply Qmult_lt_0_compat; lra).
  assert (0 <= (- num (fee_rate p)) * x)%Q by (apply Qmult_le_0_compat; lra). lra.
Qed.
Theorem swap_x_completes : forall orc p dx ro gtk g, reachable orc p -> wf dx -> dscale dx = 12 -> (0 < num dx)%Q -> hmm_off p ro -> dscale (fee_rate p) = 12 -> spacing p < 2 ^ 128 ->
  nearest_below p gtk -> 0 < gtk -> tick_to_rp gtk = Ok g -> (0 < num (glbl_liq p))%Q -> x_sizes p (num dx) -> x_room p (num dx) (num g) -> x_enough p (num dx) ->
  exists p' o, execute_swap_from_x orc p dx ro = Ok (p', o) /\ (num (so_recv o) == num dx)%Q /\ (0 < - num (so_send o))%Q.
Proof.
  intros orc p dx ro gtk g Hr Wd Sd D0 Off Sf Sp Nb G0 Eg L0 (Z1 & Z2 & Z3 & Z4 & Z5 & Z6) (Rm1 & Rm2) En. pose proof (pos_at _ Wd Sd D0) as Ad. destruct (funds_at _ _ Hr) as (A1 & A2 & A3 & A4 & A5 & A6 & A7 & As).
  pose proof (reachable_nn _ _ Hr) as Nn. pose proof (rp_one _ Nn) as R1. pose proof Nn as (W & _ & _ & _ & Pr & _). pose proof (reachable_all12 _ _ Hr) as ((G1 & _) & _).
  assert (Al : at12 (glbl_liq p)). { apply ok_at; auto; [apply W | lra]. } pose proof (rate_pos _ _ (proj2 (proj2 (proj2 (proj2 (proj2 (proj2 W)))))) Sf L0 D0 En) as Af. pose proof En as [En1 En2].
  destruct (PoolNonneg.tick_price_ok _ _ Eg) as [Gp _]. assert (Gs : (num g <= num (glbl_rp p))%Q).
  { apply Qnot_lt_le. intros B. assert (0 <= num (glbl_liq p) * (num g - num (glbl_rp p)))%Q by (apply Qmult_le_0_compat; lra). pose proof u_pos.
    assert (0 <= num dx * (1 - num (fee_rate p)) * (num (glbl_rp p) * num g))%Q by (apply Qmult_le_0_compat; [lra | apply Qmult_le_0_compat; lra]). lra. }
  destruct (within_x_S orc p (glbl_rp p) gtk g (glbl_liq p) dx ro As Al Ad Af A2 Off Eg G0 R1 Gs L0 Z1 Z2 Z3 En1 En2 Rm1 Rm2) as (m & cp & et & e & fee & Ew & Am & Afe & Ae & Oc & F1 & F2 & F3 & F4 & F5 & F6).
  set (s0' := mkSwp (mkD 0 12 false) (mkD 0 12 false) (mkD 0 12 false) (mkD 0 12 false) (glbl_tick p) (glbl_rp p)).
  assert (Dl : (num dx < lim)%Q). { assert (num dx <= num dx * num (glbl_rp p))%Q by (apply le_mul; lra). lra. }
  destruct (step_x_S orc p s0' dx ro gtk m cp et e fee Ew eq_refl eq_refl eq_refl eq_refl Ad Am Afe Oc F1 F3 A2 A1 A5 A4 Al (A7 FX) (A7 HY) L0 Dl Z4 Z5 Z6) as (p' & i2 & o2 & a2 & f2 & Es & Rp & Ai & Oo & Aa & Aff & Q1 & Q2 & Q3 & Q4).
  destruct (left_lookup _ _ Hr Sp) as (go & Eg1 & Eg2). destruct go as [t |]; [| exfalso; destruct Nb as (B1 & B2 & _); pose proof (Eg2 _ B1); lia].
  assert (t = gtk). { destruct Nb as (B1 & B2 & B3), Eg2 as (C1 & C2 & C3). pose proof (B3 _ C1 C2). pose proof (C3 _ B1 B2). lia. } subst t.
  unfold execute_swap_from_x. destruct (pos_is _ Ad D0) as [Pd _]. destruct (pos_is _ Al L0) as [Pl _]. rewrite Pd. cbn [negb]. rewrite zero_eq. cbn [bind]. unfold swap_fuel. cbn [loop_x s_in s_t s_rp s_out s_adj s_fee].
  rewrite (lt_t _ _ zero_at Ad) by (rewrite zero_num; auto). cbn [bind unwrap negb]. rewrite Pl, Eg1. cbn [bind]. fold s0'. rewrite Es. cbn [bind s_in s_t s_rp s_out s_adj s_fee].
  rewrite (lt_f _ _ Ai Ad) by lra. cbn [bind unwrap negb]. unfold finish_x. cbn [s_in s_t s_rp s_out s_adj s_fee]. rewrite Rp.
  assert (Ip : (0 < num i2)%Q) by lra. assert (On : (num o2 < 0)%Q) by lra. destruct (pos_is _ Ai Ip) as [Pi Zi]. rewrite Zi. destruct (neg_at _ Oo On) as [Ano Zo]. pose proof Oo as (Wo & _).
  destruct (divS _ _ Ano Ai) as (avg & Eav & Aav & _); [rewrite PoolInv.num_neg by auto; lra | auto |]. rewrite Eav. cbn [bind].
  pose proof (at_nn _ Ae) as E0. assert (E2 : (num e * num e <= num (glbl_rp p) * num (glbl_rp p))%Q) by nra. assert (S2 : (1 <= num (glbl_rp p) * num (glbl_rp p))%Q) by (apply one_mul; lra).
  assert (S3 : (num (glbl_rp p) * num (glbl_rp p) < lim)%Q). { eapply Qle_lt_trans; [| exact Z3]. apply le_mul; lra. }
  destruct (powS _ Ae) as (ep & Eep & Aep & _); [lra | assert (0 <= num e * num e)%Q by (apply Qmult_le_0_compat; auto); nra |]. rewrite Eep. cbn [bind].
  unfold swap_out_new. rewrite (at_neg _ Ai), (out_is _ Oo), Pi, Zo, Zi, (at_neg _ Aa), (at_neg _ Aff), (at_neg _ Aav), (at_neg _ Aep). cbn [andb orb negb bind].
  do 2 eexists. split; [reflexivity |]. cbn [so_recv so_send]. split; lra.
Qed.

(** ** Selling Y *)
Lemma subN : forall e s, at12 s -> at12 e -> (num e <= num s)%Q -> exists w, d_sub e s = Ok w /\ wf w /\ dscale w = 12 /\ dval w = dval s - dval e /\ (num w == num e - num s)%Q.
Proof.
  intros e s As Ae H. destruct (at_num _ As) as [Es Hs], (at_num _ Ae) as [Ee He]. assert (V : dval e <= dval s) by (apply q_of_m; lra). pose proof As as (Ws & Ss & Ns). pose proof Ae as (We & Se & Ne).
  assert (W0 : wf (mkD (dval s - dval e) 12 (negb (dval s - dval e =? 0)))). { destruct Ws. split; cbn [dval dscale]; lia. }
  assert (E : d_sub e s = Ok (mkD (dval s - dval e) 12 (negb (dval s - dval e =? 0)))).
  { unfold d_sub, d_add. cbn [dval dscale dneg]. rewrite Ss, Se, Ns, Ne. change (12 =? 12) with true. cbn [negb Bool.eqb]. unfold csub.
    destruct (dval s <? dval e) eqn:L1; b2p; [lia |]. destruct (dval e <? dval s) eqn:L2; b2p.
    - rewrite (proj2 (Z.leb_le _ _)) by lia. rewrite (proj2 (Z.eqb_neq _ _)) by lia. reflexivity.
    - replace (dval s - dval e) with 0 by lia. reflexivity. }
  exists (mkD (dval s - dval e) 12 (negb (dval s - dval e =? 0))). csplit; auto. exact (sub_q _ _ _ E).
Qed.
Lemma dx_upS : forall l s e, at12 l -> at12 s -> at12 e -> (1 <= num s)%Q -> (num s <= num e)%Q -> (num l * (num e - num s) < lim)%Q -> (num e * num e < lim)%Q ->
  exists d, dx_from_l_drp l s e = Ok d /\ out12 d /\ (- num d * (1 - ulp12) * (num s * num e) <= num l * (num e - num s) /\ num l * (num e - num s) <= (- num d + (2#1) * ulp12) * (num s * num e))%Q.
Proof.
  intros l s e Al As Ae S1 Se H1 H2. pose proof (at_nn _ Al) as L0. pose proof As as (Ws & Ss & Ns). pose proof Ae as (We & Sce & Ne). pose proof Al as (Wl & Sl & Nl).
  assert (E : exists d, dx_from_l_drp l s e = Ok d /\ wf d /\ dscale d = 12).
  { unfold dx_from_l_drp. rewrite (one_nz _ As) by lra. rewrite (one_nz _ Ae) by lra. cbn [orb]. destruct (subN s e Ae As Se) as (w & Ew & Ww & Sw & Vw & Qw). rewrite Ew. cbn [bind unwrap].
    assert (B1 : (num s * num e <= num e * num e)%Q) by (apply Qmult_le_compat_r; lra). destruct (mulS _ _ As Ae) as (m1 & Em & Am & Qm); [lra |]. rewrite Em. cbn [bind unwrap].
    destruct (at_num _ As) as [Es Hs], (at_num _ Ae) as [Ee He], (at_num _ Al) as [El Hl].
    assert (F : dval l * dval w < U128). { unfold U128. apply u_mul_lt. rewrite Vw. unfold Zminus. rewrite inject_Z_plus, inject_Z_opp.
      setoid_replace ((inject_Z (dval e) + - inject_Z (dval s)) * ulp12)%Q with (num e - num s)%Q by (rewrite Es, Ee; ring). rewrite <- El. exact H1. }
    destruct (mul_Ok l w Wl Ww Sw F) as (n & En & Wn & Sn & Vn & _). rewrite En. cbn [bind unwrap]. assert (U : (ulp12 < 1)%Q) by reflexivity. assert (B3 : (1 <= num s * num e)%Q) by (apply one_mul; lra).
    destruct (at_num _ Am) as [Emm Hm]. assert (V0 : dval m1 <> 0). { intros V. rewrite V in Emm. assert (num m1 == 0)%Q by (rewrite Emm; reflexivity). lra. }
    assert (Vn2 : dval n * 10 ^ 12 < U128). { rewrite Vn. pose proof (Z.mul_div_le (dval l * dval w) (10 ^ 12) ltac:(lia)). lia. }
    assert (G : exists d, d_div n m1 = Ok d). { unfold d_div, denominator, pow10. rewrite (proj1 (proj2 Am)). change (12 <=? 38) with true. cbn [bind]. unfold cmul. rewrite (proj2 (Z.ltb_lt _ _)) by auto. cbn [bind]. unfold cdiv. rewrite (proj2 (Z.eqb_neq _ _)) by auto. cbn [bind]. eauto. }
    destruct G as (d & G). exists d. split; auto. destruct (div_t _ _ _ G Wn (proj1 Am) (eq_trans Sn Sl)) as (_ & Wd & Sd & _). auto. }
  destruct E as (d & E & Wd & Sd). exists d. split; auto. destruct (dx_up _ _ _ _ E Wl Ws We Sl Ss Sce L0 S1 Se) as (Y1 & Y2 & _). pose proof (dx_up_lo _ _ _ _ E Wl Ws We Sl Ss L0 S1 Se) as Y3.
  split; [split; [auto | split; auto] | split; auto].
Qed.
Lemma dy_upS : forall l s g, at12 l -> at12 s -> at12 g -> (num s <= num g)%Q -> (num l * (num g - num s) < lim)%Q -> exists d, dy_from_l_drp l s g = Ok d /\ at12 d /\ (num l * (num g - num s) < num d + ulp12)%Q.
Proof.
  intros l s g Al As Ag H H1. pose proof (at_nn _ Al) as L0. unfold dy_from_l_drp. destruct (subS _ _ Ag As H) as (w & Ew & Aw & Qw). rewrite Ew. cbn [bind unwrap].
  destruct (mulS _ _ Aw Al) as (d & Ed & Ad & Qd); [rewrite Qw; lra |]. exists d. split; auto. split; auto. rewrite Qw in Qd. lra.
Qed.
Lemma rp_dyS : forall l s y g, at12 l -> at12 s -> at12 y -> at12 g -> (0 < num l)%Q -> (num y < lim)%Q -> (num y <= num l * (num g - num s))%Q -> exists e, rp_new_from_l_dy l s y = Ok e /\ at12 e /\ (num s <= num e /\ num e <= num g)%Q.
Proof.
  intros l s y g Al As Ay Ag L0 H1 H2. unfold rp_new_from_l_dy. destruct (pos_is _ Al L0) as [_ Zl]. rewrite Zl. destruct (divS _ _ Ay Al H1 L0) as (q & Eq & Aq & Qq). rewrite Eq. cbn [bind unwrap]. pose proof (at_nn _ Aq) as Q0.
  assert (Qg : (num q <= num g - num s)%Q). { apply Qnot_lt_le. intros B. assert ((num g - num s) * num l < num q * num l)%Q by (apply Qmult_lt_r; auto). lra. }
  assert (Small : (num g < max12)%Q). { destruct (at_num _ Ag) as [Ed _]. rewrite Ed. unfold max12. apply (proj2 (uq_lt _ _)). destruct Ag as [[V _] _]. lia. }
  destruct (addS _ _ Aq As) as (e & Ee & Ae & Qe); [lra |]. rewrite Ee. cbn [bind unwrap]. rewrite (at_neg _ Ae). exists e. split; auto. split; auto. split; lra.
Qed.
Lemma within_y_S : forall orc p s t g l y ro, at12 s -> at12 l -> at12 y -> at12 (fee_rate p) -> at12 (rx p) -> is_zero (hmm_c p) = true \/ is_zero ro = true -> tick_to_rp t = Ok g -> 0 < glbl_tick p < 2 ^ 19 -> 0 < spacing p < 2 ^ 128 ->
  (1 <= num s)%Q -> (num s <= num g)%Q -> (0 < num l)%Q -> (num l * (num g - num s) < lim)%Q -> (num y < lim)%Q -> (num g * num g * (num g * num g) < lim)%Q ->
  (ulp12 * ((2#1) + num l + (2#1) * (num s * num g)) <= num y * (1 - num (fee_rate p)))%Q ->
  (num y * (1 - num (fee_rate p)) + ulp12 <= num l * (num g - num s))%Q -> (num l * (num g - num s) <= num (rx p) * (1 - ulp12) * (num s * num g))%Q ->
  exists m cp et e fee, swap_within_y orc p s t l y ro = Ok (mkW m cp et e false (mkD 0 12 false) fee) /\ at12 m /\ at12 fee /\ at12 e /\ out12 cp /\
    (num m + num fee == num y /\ num cp < 0 /\ - num cp <= num (rx p) /\ 0 < num m /\ num e <= num g)%Q.
Proof.
  intros orc p s t g l y ro As Al Ay Ar Arx Off Eg Ht Hsp S1 Sg L0 H1 H2 H4 Net Fit Res. pose proof u_pos as U. pose proof (at_nn _ Ay) as Y0. pose proof (at_nn _ Ar) as R0.
  destruct (tick_rp_wf _ _ Eg) as (Wg & Scg & Ng & _). assert (Ag : at12 g) by (split; auto). assert (SG : (1 <= num s * num g)%Q) by (apply one_mul; lra).
  assert (Big : (0 < ulp12 * ((2#1) + num l + (2#1) * (num s * num g)))%Q) by (apply Qmult_lt_0_compat; lra).
  assert (R1 : (num (fee_rate p) < 1)%Q). { apply Qnot_le_lt. intros B. assert (0 <= num y * (num (fee_rate p) - 1))%Q by (apply Qmult_le_0_compat; lra). lra. }
  assert (G2 : (1 <= num g * num g)%Q) by (apply one_mul; lra). assert (G3 : (num g * num g < lim)%Q). { apply Qle_lt_trans with (num g * num g * (num g * num g))%Q; auto. apply le_mul; lra. }
  unfold swap_within_y. rewrite (at_neg _ Ay), Eg. cbn [bind]. rewrite (lt_f _ _ Ag As) by auto. cbn [bind unwrap]. rewrite one_eq. cbn [bind].
  destruct (subS _ _ one_at Ar) as (ff & Ef & Af & Qf); [rewrite one_num; lra |]. rewrite one_num in Qf. rewrite Ef. cbn [bind unwrap].
  assert (YR : (0 <= num y * num (fee_rate p))%Q) by (apply Qmult_le_0_compat; lra). destruct (mulS _ _ Ay Af) as (m & Em & Am & Qm); [rewrite Qf; lra |]. rewrite Em. cbn [bind unwrap]. rewrite Qf in Qm. pose proof (at_nn _ Am) as M0.
  destruct (dy_upS _ _ _ Al As Ag Sg H1) as (db & Ed & Ad & Qd). rewrite Ed. cbn [bind]. rewrite (at_neg _ Ad). rewrite (lt_f _ _ Ad Am) by lra. cbn [bind unwrap].
  destruct (subS _ _ Ay Am) as (fee & Ee & Afe & Qfe); [lra |]. rewrite Ee. cbn [bind unwrap].
  destruct (rp_dyS _ _ _ _ Al As Am Ag L0) as (e & Er & Ae & Es & Ge); [lra | lra |]. rewrite Er. cbn [bind].
  unfold pred_u128. rewrite (proj2 (Z.eqb_neq _ 0)) by lia. cbn [bind]. unfold tick_to_possible_tick. rewrite floor_ok by lia. cbn [bind].
  assert (Fl : 0 <= (glbl_tick p - 1) / spacing p * spacing p < 2 ^ 19). { pose proof (Z.mul_div_le (glbl_tick p - 1) (spacing p) ltac:(lia)). pose proof (Z.div_pos (glbl_tick p - 1) (spacing p) ltac:(lia) ltac:(lia)). split; [apply Z.mul_nonneg_nonneg; lia | lia]. }
  destruct (search_S e (num g) _ Ae Ge ltac:(lra) H4 Fl) as (et & Et). rewrite Et. cbn [bind].
  rewrite (lt_f _ _ Ae As Es). cbn [bind unwrap]. rewrite (gt_f _ _ Ae Ag Ge). cbn [bind unwrap].
  assert (Le : (num l * (num e - num s) <= num l * (num g - num s))%Q) by (apply SwapFair.mul_mono; lra). assert (Ee2 : (num e * num e <= num g * num g)%Q) by nra.
  destruct (dx_upS _ _ _ Al As Ae S1 Es) as (cp & Ec & Oc & Qc1 & Qc2); [lra | lra |]. rewrite Ec. cbn [bind].
  assert (Pl : (if is_zero (hmm_c p) || is_zero ro then Ok true else unwrap (d_lte ro s)) = Ok true). { destruct Off as [-> | ->]; [reflexivity | rewrite orb_true_r; reflexivity]. }
  rewrite Pl. cbn [bind]. rewrite (sub_self _ Oc). cbn [bind unwrap]. rewrite (out_is _ Oc). change (is_negative (mkD 0 12 false)) with false. cbv iota.
  pose proof Am as (Wm & Sm & _). pose proof Al as (Wl & Sl & _). pose proof As as (Ws & Ss & _). pose proof Ae as (We & Se & _).
  pose proof (rp_dy_hi _ _ _ _ Er Wl Ws Wm Sm L0 M0) as Hi. assert (SE : (1 <= num s * num e)%Q) by (apply one_mul; lra). assert (SE2 : (num s * num e <= num s * num g)%Q) by (apply SwapFair.mul_mono; lra).
  assert (Neg : (num cp < 0)%Q).
  { apply Qnot_le_lt. intros B. assert (0 <= num cp * (num s * num e))%Q by (apply Qmult_le_0_compat; lra). assert (ulp12 * (num s * num e) <= ulp12 * (num s * num g))%Q by (apply SwapFair.mul_mono; lra). lra. }
  assert (Cx : (- num cp <= num (rx p))%Q).
  { apply Qnot_lt_le. intros B. assert (U1 : (0 < 1 - ulp12)%Q) by reflexivity.
    assert (B1 : (num (rx p) * ((1 - ulp12) * (num s * num g) * num e) < - num cp * ((1 - ulp12) * (num s * num g) * num e))%Q).
    { apply Qmult_lt_r; auto. apply Qmult_lt_0_compat; [apply Qmult_lt_0_compat; lra | lra]. }
    assert (B2 : (- num cp * (1 - ulp12) * (num s * num e) * num g <= num l * (num e - num s) * num g)%Q) by (apply Qmult_le_compat_r; lra).
    assert (B3 : (num l * (num g - num s) * num e <= num (rx p) * (1 - ulp12) * (num s * num g) * num e)%Q) by (apply Qmult_le_compat_r; lra).
    assert (B4 : (num l * (num s * num e) <= num l * (num s * num g))%Q) by (apply SwapFair.mul_mono; lra). lra. }
  destruct (add_out _ _ Arx Oc Cx) as (nx & Ex & Anx & _). rewrite Ex. cbn [bind unwrap]. rewrite (at_neg _ Anx).
  assert (Mp : (0 < num m)%Q). { assert (0 <= ulp12 * num l)%Q by (apply Qmult_le_0_compat; lra). assert (0 <= ulp12 * (num s * num g))%Q by (apply Qmult_le_0_compat; lra). lra. }
  destruct (pos_is _ Am Mp) as [_ Zm]. rewrite Zm. rewrite andb_false_r. cbn [bind]. unfold within_new. rewrite (at_neg _ Am), (out_is _ Oc), (at_neg _ Afe), (at_neg _ Ae). change (is_negative (mkD 0 12 false)) with false. cbn [orb].
  do 5 eexists. split; [reflexivity |]. csplit; auto; lra.
Qed.
Lemma step_y_S : forall orc p s dy ro gtk m cp et e fee, swap_within_y orc p (s_rp s) gtk (glbl_liq p) dy ro = Ok (mkW m cp et e false (mkD 0 12 false) fee) ->
  s_in s = mkD 0 12 false -> s_out s = mkD 0 12 false -> s_adj s = mkD 0 12 false -> s_fee s = mkD 0 12 false ->
  at12 dy -> at12 m -> at12 fee -> out12 cp -> (num m + num fee == num dy)%Q -> (- num cp <= num (rx p))%Q ->
  at12 (rx p) -> at12 (ry p) -> at12 (y_fee p) -> at12 (x_adj p) -> at12 (glbl_liq p) -> at12 (g_fy (gs p)) -> at12 (g_hx (gs p)) -> (0 < num (glbl_liq p))%Q ->
  (num dy < lim)%Q -> (num (ry p) + num dy < max12)%Q -> (num (y_fee p) + num dy < max12)%Q -> (num dy + num (g_fy (gs p)) * num (glbl_liq p) < max12 * num (glbl_liq p))%Q ->
  exists p' i2 o2 a2 f2, step_y orc p s dy ro gtk = Ok (p', mkSwp i2 o2 a2 f2 et e) /\ glbl_rp p' = e /\ at12 i2 /\ out12 o2 /\ at12 a2 /\ at12 f2 /\ (num i2 == num dy /\ num o2 == num cp /\ num f2 == num fee /\ num a2 == 0)%Q.
Proof.
  intros orc p s dy ro gtk m cp et e fee H E1 E2 E3 E4 Ax Am Af Oc Sum Hy Ay Ar Axf Aya Al Ag Ah L0 Lm Rx Rf Gr.
  pose proof (at_nn _ Am) as M0. pose proof (at_nn _ Af) as F0. pose proof zero_num as Z0. pose proof lim_max as Lx. pose proof zero_at as Az. assert (Lp : (0 < max12)%Q) by reflexivity.
  assert (Small : forall d, at12 d -> (num d < max12)%Q). { intros d D. destruct (at_num _ D) as [Ed _]. rewrite Ed. unfold max12. apply (proj2 (uq_lt _ _)). destruct D as [[V _] _]. lia. }
  unfold step_y. rewrite E1, E2, E3, E4. rewrite (sub_zero _ Ax). cbn [bind unwrap]. rewrite H. cbn [bind unwrap w_send w_adj w_recv w_fee w_tick w_rp w_cross].
  destruct (add_out _ _ Ay Oc Hy) as (y1 & Y1 & Ay1 & _). rewrite Y1. cbn [bind unwrap]. rewrite (sub_zero _ Ay1). cbn [bind unwrap]. rewrite (at_neg _ Ay1). cbn [assert negb bind].
  destruct (subS _ _ Ax Am) as (c1 & C1 & Ac1 & Qc1); [lra |]. rewrite C1. cbn [bind unwrap]. destruct (subS _ _ Ac1 Af) as (ck & C2 & Ack & _); [lra |]. rewrite C2. cbn [bind unwrap]. rewrite (at_neg _ Ack). cbn [assert negb bind].
  destruct (addS _ _ Az Am) as (i1 & I1 & Ai1 & Qi1); [lra |]. rewrite I1. cbn [bind unwrap]. destruct (addS _ _ Ai1 Af) as (i2 & I2 & Ai2 & Qi2); [lra |]. rewrite I2. cbn [bind unwrap].
  destruct (zero_out _ Oc) as (o2 & O2 & Ao2 & Qo2). rewrite O2. cbn [bind unwrap]. destruct (addS _ _ Az Az) as (a2 & A2 & Aa2 & Qa2); [lra |]. rewrite A2. cbn [bind unwrap].
  destruct (addS _ _ Az Af) as (f2 & F2 & Af2 & Qf2); [lra |]. rewrite F2. cbn [bind unwrap].
  destruct (addS _ _ Ar Am) as (nx & N1 & An1 & _); [lra |]. change (ry (set_glbl_rp (set_glbl_tick p et) e)) with (ry p). rewrite N1. cbn [bind unwrap].
  change (y_fee (set_glbl_rp (set_glbl_tick p et) e)) with (y_fee p). destruct (addS _ _ Axf Af) as (nf & N2 & An2 & _); [lra |]. rewrite N2. cbn [bind unwrap].
  change (x_adj (set_glbl_rp (set_glbl_tick p et) e)) with (x_adj p). destruct (addS _ _ Aya Az) as (ny & N3 & An3 & _); [pose proof (Small _ Aya); lra |]. rewrite N3. cbn [bind unwrap].
  set (q := with_funds _ _ _ _ _ _ _). change (glbl_liq q) with (glbl_liq p). change (g_fy (gs q)) with (g_fy (gs p)). change (g_hx (gs q)) with (g_hx (gs p)). destruct (pos_is _ Al L0) as [Pl _]. rewrite Pl.
  destruct (divS _ _ Af Al) as (q1 & D1 & Aq1 & Qq1); [lra | auto |]. rewrite D1. cbn [bind unwrap].
  destruct (addS _ _ Aq1 Ag) as (g1 & G1 & Ag1 & _). { apply (Qmult_lt_r _ _ (num (glbl_liq p)) L0). lra. } rewrite G1. cbn [bind unwrap].
  destruct (divS _ _ Az Al) as (q2 & D2 & Aq2 & Qq2); [lra | auto |]. rewrite D2. cbn [bind unwrap].
  assert (Q20 : (num q2 == 0)%Q). { apply Qle_antisym; [| apply at_nn; auto]. apply Qnot_lt_le. intros B. assert (0 < num q2 * num (glbl_liq p))%Q by (apply Qmult_lt_0_compat; auto). lra. }
  destruct (addS _ _ Aq2 Ah) as (g2 & G2 & Ag2 & _); [pose proof (Small _ Ah); lra |]. change (g_hx (gs q)) with (g_hx (gs p)). rewrite G2. cbn [bind unwrap].
  do 5 eexists. split; [reflexivity |]. split; [reflexivity |]. csplit; auto; lra.
Qed.
Definition y_sizes (p : pool) (y g : Q) : Prop :=
  (num (glbl_liq p) * (g - num (glbl_rp p)) < lim /\ y < lim /\ g * g * (g * g) < lim /\
   num (ry p) + y < max12 /\ num (y_fee p) + y < max12 /\ y + num (g_fy (gs p)) * num (glbl_liq p) < max12 * num (glbl_liq p))%Q.
Definition y_room (p : pool) (y g : Q) : Prop :=
  (y * (1 - num (fee_rate p)) + ulp12 <= num (glbl_liq p) * (g - num (glbl_rp p)) /\ num (glbl_liq p) * (g - num (glbl_rp p)) <= num (rx p) * (1 - ulp12) * (num (glbl_rp p) * g))%Q.
Definition y_enough (p : pool) (y g : Q) : Prop := (ulp12 * ((2#1) + num (glbl_liq p) + (2#1) * (num (glbl_rp p) * g)) <= y * (1 - num (fee_rate p)))%Q.
Theorem swap_y_completes : forall orc p dy ro gtk g, reachable orc p -> wf dy -> dscale dy = 12 -> (0 < num dy)%Q -> hmm_off p ro -> at12 (fee_rate p) -> spacing p < 2 ^ 128 -> 0 < glbl_tick p -> glbl_tick p mod spacing p = 0 ->
  nearest_above p gtk -> tick_to_rp gtk = Ok g -> (0 < num (glbl_liq p))%Q -> y_sizes p (num dy) (num g) -> y_room p (num dy) (num g) -> y_enough p (num dy) (num g) ->
  exists p' o, execute_swap_from_y orc p dy ro = Ok (p', o) /\ (num (so_recv o) == num dy)%Q /\ (0 < - num (so_send o))%Q.
Proof.
  intros orc p dy ro gtk g Hr Wd Sd D0 Off Af Sp T0 Al0 Nb Eg L0 (Z1 & Z2 & Z3 & Z4 & Z5 & Z6) (Rm1 & Rm2) En. unfold y_enough in En. pose proof (pos_at _ Wd Sd D0) as Ad. destruct (funds_at _ _ Hr) as (A1 & A2 & A3 & A4 & A5 & A6 & A7 & As).
  pose proof (reachable_nn _ _ Hr) as Nn. pose proof (rp_one _ Nn) as R1. pose proof Nn as (W & _ & _ & _ & Pr & _). pose proof (reachable_all12 _ _ Hr) as ((G1 & _) & _). pose proof (reachable_ticks _ _ Hr) as (_ & Sp0 & _).
  assert (Al : at12 (glbl_liq p)). { apply ok_at; auto; [apply W | lra]. } pose proof u_pos as U.
  destruct (PoolNonneg.tick_price_ok _ _ Eg) as [Gp _]. assert (SG : (0 <= num (glbl_rp p) * num g)%Q) by (apply Qmult_le_0_compat; lra). assert (Bp : (0 < ulp12 * ((2#1) + num (glbl_liq p) + (2#1) * (num (glbl_rp p) * num g)))%Q) by (apply Qmult_lt_0_compat; lra).
  assert (Gs : (num (glbl_rp p) <= num g)%Q). { apply Qnot_lt_le. intros B. assert (0 <= num (glbl_liq p) * (num (glbl_rp p) - num g))%Q by (apply Qmult_le_0_compat; lra). lra. }
  assert (T19 : gtk < 2 ^ 19). { destruct (Z.lt_ge_cases gtk (2 ^ 19)); auto. rewrite tick_panics in Eg by lia. discriminate. }
  assert (Tk : 0 < glbl_tick p < 2 ^ 19) by (destruct Nb as (_ & B & _); lia).
  destruct (within_y_S orc p (glbl_rp p) gtk g (glbl_liq p) dy ro As Al Ad Af A1 Off Eg Tk (conj Sp0 Sp) R1 Gs L0 Z1 Z2 Z3 En Rm1 Rm2) as (m & cp & et & e & fee & Ew & Am & Afe & Ae & Oc & F1 & F2 & F3 & F5 & F6).
  set (s0' := mkSwp (mkD 0 12 false) (mkD 0 12 false) (mkD 0 12 false) (mkD 0 12 false) (glbl_tick p) (glbl_rp p)).
  destruct (step_y_S orc p s0' dy ro gtk m cp et e fee Ew eq_refl eq_refl eq_refl eq_refl Ad Am Afe Oc F1 F3 A1 A2 A6 A3 Al (A7 FY) (A7 HX) L0 Z2 Z4 Z5 Z6) as (p' & i2 & o2 & a2 & f2 & Es & Rp & Ai & Oo & Aa & Aff & Q1 & Q2 & Q3 & Q4).
  destruct (right_lookup _ _ Hr Sp Al0) as (go & Eg1 & Eg2). destruct go as [t |]; [| exfalso; destruct Nb as (B1 & B2 & _); pose proof (Eg2 _ B1); lia].
  assert (t = gtk). { destruct Nb as (B1 & B2 & B3), Eg2 as (C1 & C2 & C3). pose proof (B3 _ C1 C2). pose proof (C3 _ B1 B2). lia. } subst t.
  unfold execute_swap_from_y. destruct (pos_is _ Ad D0) as [Pd _]. destruct (pos_is _ Al L0) as [Pl _]. rewrite Pd. cbn [negb]. rewrite zero_eq. cbn [bind]. unfold swap_fuel. cbn [loop_y s_in s_t s_rp s_out s_adj s_fee].
  rewrite (lt_t _ _ zero_at Ad) by (rewrite zero_num; auto). cbn [bind unwrap negb]. rewrite Pl, Eg1. cbn [bind]. fold s0'. rewrite Es. cbn [bind s_in s_t s_rp s_out s_adj s_fee].
  rewrite (lt_f _ _ Ai Ad) by lra. cbn [bind unwrap negb]. unfold finish_y. cbn [s_in s_t s_rp s_out s_adj s_fee]. rewrite Rp.
  assert (Ip : (0 < num i2)%Q) by lra. assert (On : (num o2 < 0)%Q) by lra. destruct (pos_is _ Ai Ip) as [Pi Zi]. destruct (neg_at _ Oo On) as [Ano Zo]. rewrite Zo. pose proof Oo as (Wo & _).
  destruct (divS _ _ Ai Ano) as (avg & Eav & Aav & _); [lra | rewrite PoolInv.num_neg by auto; lra |]. rewrite Eav. cbn [bind].
  pose proof (at_nn _ Ae) as E0. assert (E2 : (num e * num e <= num g * num g)%Q) by nra. assert (S2 : (1 <= num g * num g)%Q) by (apply one_mul; lra).
  assert (S3 : (num g * num g < lim)%Q). { eapply Qle_lt_trans; [| exact Z3]. apply le_mul; lra. }
  destruct (powS _ Ae) as (ep & Eep & Aep & _); [lra | assert (0 <= num e * num e)%Q by (apply Qmult_le_0_compat; auto); nra |]. rewrite Eep. cbn [bind].
  unfold swap_out_new. rewrite (at_neg _ Ai), (out_is _ Oo), Pi, Zo, Zi, (at_neg _ Aa), (at_neg _ Aff), (at_neg _ Aav), (at_neg _ Aep). cbn [andb orb negb bind].
  do 2 eexists. split; [reflexivity |]. cbn [so_recv so_send]. split; lra.
Qed.
