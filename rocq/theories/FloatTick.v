(** The f64 bit length on the prices of ticks: tick prices stay clear of powers of two, so the logarithm and the tick of a tick price are right with
    every accurate library.  And where the f64 bit length is wrong whatever the library. *)
From Coq Require Import ZArith QArith Qreals Reals Lra Lia Bool Psatz List Floats.SpecFloat.
From Verif Require Import Base BaseLemmas DecimalModel DecimalSpec MathModel TickProofs TickLoop FloatBase FloatFacts FloatModel FloatWf LnSeries LnAccuracy LnUse LnFacts PowAccuracy FloatLog FloatLib.
Import ListNotations.
Open Scope Z_scope.

(** the last tick below 2, 4, 8, ... *)
Definition last_ticks : list Z := [13863; 27727; 41590; 55454; 69318; 83181; 97045; 110909; 124772; 138636; 152500; 166363; 180227; 194090; 207954; 221818; 235681; 249545; 263409;
  277272; 291136; 305000; 318863; 332727; 346590; 360454; 374318; 388181; 402045; 415909; 429772; 443636; 457500; 471363; 485227; 499090; 512954; 524287].
Definition clear_ofb (x : Q) (b : Z) : bool := Qle_bool (Qpower 2 b * (1 + (1 # 1000000000000))) x && Qle_bool x (Qpower 2 (b + 1) * (1 - (1 # 1000000000000))).
Lemma clear_ofb_ok x b : clear_ofb x b = true -> clear_of x b.
Proof. intros H. apply andb_prop in H as [A B]. split; now apply Qle_bool_iff. Qed.
Definition price_clear (t b : Z) : bool := match tick_to_rp t with Ok p => clear_ofb (num p) b | _ => false end.
Fixpoint segments (t0 b : Z) (l : list Z) : bool :=
  match l with [] => true | t1 :: l' => (0 <=? t1) && price_clear t0 b && price_clear t1 b && segments (t1 + 1) (b + 1) l' end.
Lemma segments_all : segments 1 0 last_ticks = true. Proof. vm_compute. reflexivity. Qed.

Lemma tick_mono t u p q : 0 <= t <= u -> tick_to_rp t = Ok p -> tick_to_rp u = Ok q -> (num p <= num q)%Q.
Proof.
  intros H P Q. destruct (Z.eq_dec t u) as [E|N]; [subst u; rewrite P in Q; injection Q as ->; apply Qle_refl|].
  apply Qlt_le_weak. apply (tick_increasing t u); auto; lia.
Qed.
Lemma segments_clear l : forall t0 b t p, 0 <= t0 -> segments t0 b l = true -> t0 <= t <= last l (t0 - 1) -> tick_to_rp t = Ok p ->
  exists c, b <= c < b + Z.of_nat (length l) /\ clear_of (num p) c.
Proof.
  induction l as [|t1 l IH]; intros t0 b t p T0 S T P; [cbn in T; lia|].
  cbn [segments] in S. apply andb_prop in S as [S S3]. apply andb_prop in S as [S S2]. apply andb_prop in S as [S0 S1]. apply Z.leb_le in S0.
  destruct (Z.le_gt_cases t t1) as [L|L].
  - exists b. cbn [length]. split; [lia|]. unfold price_clear in S1, S2.
    destruct (tick_to_rp t0) as [p0| | |] eqn:E0; [|discriminate S1..]. destruct (tick_to_rp t1) as [p1| | |] eqn:E1; [|discriminate S2..].
    apply clear_ofb_ok in S1, S2. destruct S1 as [A _], S2 as [_ B].
    split; [eapply Qle_trans; [exact A|]; eapply (tick_mono t0 t); eauto; lia|eapply Qle_trans; [|exact B]; eapply (tick_mono t t1); eauto; lia].
  - destruct (IH (t1 + 1) (b + 1) t p ltac:(lia) S3) as (c & C1 & C2); [|exact P|exists c; split; [cbn [length]; lia|exact C2]].
    replace (t1 + 1 - 1) with t1 by lia. split; [lia|]. destruct l as [|t2 l]; [cbn in *; lia|]. change (last (t1 :: t2 :: l) (t0 - 1)) with (last (t2 :: l) (t0 - 1)) in T.
    assert (X : forall l (a b : Z) x, last (x :: l) a = last (x :: l) b) by (induction l0 as [|y l0 IHl]; intros; [reflexivity|exact (IHl a b0 y)]). rewrite (X l _ (t0 - 1)). lia.
Qed.
Theorem tick_clear t p : 0 < t < 2 ^ 19 -> tick_to_rp t = Ok p -> exists b, 0 <= b <= 37 /\ clear_of (num p) b.
Proof.
  intros T P. destruct (segments_clear last_ticks 1 0 t p ltac:(lia) segments_all) as (b & B & C); [change (last last_ticks (1 - 1)) with 524287; lia|exact P|].
  exists b. split; [|exact C]. change (Z.of_nat (length last_ticks)) with 38 in B. lia.
Qed.

(** *** with every accurate library *)
Theorem f64_right lm d b : libm_ln lm -> at_s 12 d -> -40 <= b <= 48 -> clear_of (num d) b -> log2_right (f64_log2 lm) d.
Proof. intros L (W & S & N) B C. exists b. split; [now apply clear_exponent|now apply f64_found]. Qed.
Lemma f64_right_one lm : libm_ln lm -> log2_right (f64_log2 lm) (mkD (10 ^ 12) 12 false).
Proof. intros L. exists 0. split; [split; vm_compute; [discriminate|reflexivity]|now apply f64_found_one]. Qed.
Lemma f64_right_root lm : libm_ln lm -> log2_right (f64_log2 lm) root.
Proof. intros L. apply f64_right with 0; [exact L|split; [split; vm_compute; split; congruence|split; reflexivity]|lia|apply clear_ofb_ok; vm_compute; reflexivity]. Qed.
Theorem f64_right_tick lm t p : libm_ln lm -> 0 <= t < 2 ^ 19 -> tick_to_rp t = Ok p -> log2_right (f64_log2 lm) p.
Proof.
  intros L T P. destruct (Z.eq_dec t 0) as [->|N].
  - assert (E : tick_to_rp 0 = Ok (mkD (10 ^ 12) 12 false)) by (vm_compute; reflexivity). rewrite E in P. injection P as <-. now apply f64_right_one.
  - destruct (tick_clear t p ltac:(lia) P) as (b & B & C). destruct (tick_range t p T P) as (W & Ng & S & _). apply (f64_right lm p b L); [exact (conj W (conj S Ng))|lia|exact C].
Qed.
Theorem f64_tick_round_trip lm t p lr : libm_ln lm -> 0 <= t < 2 ^ 19 -> tick_to_rp t = Ok p -> rp_to_tick (f64_log2 lm) p lr = Ok (if t =? 2 then 1 else t).
Proof. intros L T P. apply tick_round_trip; [exact T|exact P|exact (f64_right_tick lm t p L T P)|exact (f64_right_root lm L)]. Qed.

(** *** a power of two and the number 10^-12 below it are the same f64 *)
Definition pow_two (k : Z) : decimal := mkD (2 ^ k * U12) 12 false.
Definition under (k : Z) : decimal := mkD (2 ^ k * U12 - 1) 12 false.
Fixpoint upto (n : nat) (k : Z) (f : Z -> bool) : bool := match n with O => true | S m => f k && upto m (k + 1) f end.
Lemma upto_ok n : forall k f j, upto n k f = true -> k <= j < k + Z.of_nat n -> f j = true.
Proof.
  induction n as [|n IH]; intros k f j H J; [lia|]. cbn [upto] in H. apply andb_prop in H as [A B]. destruct (Z.eq_dec j k) as [->|N]; [exact A|]. apply (IH (k + 1)); [exact B|lia].
Qed.
Lemma same_f64 k : 14 <= k <= 48 -> into_f64 (2 ^ k * U12) 12 = into_f64 (2 ^ k * U12 - 1) 12.
Proof.
  intros K. assert (H : (if f_eq_dec (into_f64 (2 ^ k * U12) 12) (into_f64 (2 ^ k * U12 - 1) 12) then true else false) = true).
  { apply (upto_ok 35 14 (fun k => if f_eq_dec (into_f64 (2 ^ k * U12) 12) (into_f64 (2 ^ k * U12 - 1) 12) then true else false)); [vm_compute; reflexivity|lia]. }
  destruct (f_eq_dec _ _); [assumption|discriminate H].
Qed.
Lemma q_pow_two k : 0 <= k -> (num (pow_two k) == Qpower 2 k)%Q.
Proof.
  intros K. unfold num, mant, pow_two. cbn [dneg dval dscale]. change (10 ^ 12) with U12. rewrite inject_Z_mult. rewrite (Qpower.Zpower_Qpower 2 k K). change (inject_Z 2) with 2%Q.
  field. intros F. vm_compute in F. discriminate.
Qed.
Lemma exp_pow_two k : 0 <= k -> exponent (num (pow_two k)) k.
Proof.
  intros K. split; rewrite q_pow_two by exact K; [apply Qle_refl|]. rewrite <- (Qpower.Zpower_Qpower 2 k), <- (Qpower.Zpower_Qpower 2 (k + 1)) by lia. rewrite <- Zlt_Qlt. apply Z.pow_lt_mono_r; lia.
Qed.
Lemma exp_under k : 1 <= k -> exponent (num (under k)) (k - 1).
Proof.
  intros K. assert (E : (num (under k) == inject_Z (2 ^ k * U12 - 1) / inject_Z U12)%Q) by reflexivity. assert (U : 0 < U12) by reflexivity.
  assert (P2 : 2 ^ k = 2 * 2 ^ (k - 1)) by (rewrite <- Z.pow_succ_r by lia; f_equal; lia). assert (P0 : 0 < 2 ^ (k - 1)) by (apply Z.pow_pos_nonneg; lia).
  split; rewrite E; replace (k - 1 + 1) with k by lia; try rewrite <- (Qpower.Zpower_Qpower 2 (k - 1)) by lia; try rewrite <- (Qpower.Zpower_Qpower 2 k) by lia.
  - apply Qle_shift_div_l; [now rewrite <- (Zlt_Qlt 0)|]. rewrite <- inject_Z_mult, <- Zle_Qle. assert (1 < U12) by reflexivity. nia.
  - apply Qlt_shift_div_r; [now rewrite <- (Zlt_Qlt 0)|]. rewrite <- inject_Z_mult, <- Zlt_Qlt. lia.
Qed.
Lemma same_found lm k b : 14 <= k <= 48 -> found (f64_log2 lm) (pow_two k) b <-> found (f64_log2 lm) (under k) b.
Proof.
  intros K. assert (P : 16384 <= 2 ^ k) by (change 16384 with (2 ^ 14); apply Z.pow_le_mono_r; lia). assert (U1 : U12 = 1000000000000) by reflexivity.
  unfold found, bit_length, is_negative, is_zero, pow_two, under. cbn [dneg dval dscale].
  replace (2 ^ k * U12 =? 0) with false by (symmetry; apply Z.eqb_neq; nia). replace (2 ^ k * U12 - 1 =? 0) with false by (symmetry; apply Z.eqb_neq; nia).
  unfold f64_log2. rewrite (same_f64 k K). reflexivity.
Qed.
(** whatever the library, one of the two gets a wrong bit length *)
Theorem f64_never_right lm k : 14 <= k <= 48 -> ~ (log2_right (f64_log2 lm) (pow_two k) /\ log2_right (f64_log2 lm) (under k)).
Proof.
  intros K [(a & A1 & A2) (b & B1 & B2)].
  assert (a = k) as -> by (apply exponent_unique with (num (pow_two k)); [exact A1|apply exp_pow_two; lia]).
  assert (b = k - 1) as -> by (apply exponent_unique with (num (under k)); [exact B1|apply exp_under; lia]).
  apply (same_found lm k (k - 1) K) in B2. unfold found in A2, B2. rewrite A2 in B2. injection B2 as B2 _. lia.
Qed.
(** a bit length of k just below 2^k: the logarithm comes out at least 0.09 too high *)
Lemma ln_oracle o1 o2 d b : found o1 d b -> found o2 d b -> d_ln o1 d = d_ln o2 d.
Proof. unfold found, d_ln. intros H1 H2. now rewrite H1, H2. Qed.
Definition fixed (k : Z) : log2_oracle := fun _ _ => (k * U12, false).
Definition too_high (k : Z) : bool :=
  match bit_length (fixed k) (under k), d_ln (fixed k) (under k) with
  | Ok b, Ok r => (dval b =? k) && (dscale b =? 0) && negb (dneg b) && (dscale r =? 12) && negb (dneg r) && (k * 693147180560 + 90000000000 <? dval r)
  | _, _ => false end.
Lemma too_high_all k : 11 <= k <= 48 -> too_high k = true.
Proof. intros K. apply (upto_ok 38 11); [vm_compute; reflexivity|lia]. Qed.
Lemma too_high_ln orc k : 11 <= k <= 48 -> found orc (under k) k -> exists r, d_ln orc (under k) = Ok r /\ (Q2R (num r) > ln (Q2R (num (under k))) + 9 / 100)%R.
Proof.
  intros K F. pose proof (too_high_all k K) as H. unfold too_high in H.
  destruct (bit_length (fixed k) (under k)) as [b| | |] eqn:EB; [|discriminate H..]. destruct (d_ln (fixed k) (under k)) as [r| | |] eqn:ER; [|discriminate H..].
  repeat (apply andb_prop in H as [H ?]). apply Z.eqb_eq in H, H4, H2. apply negb_true_iff in H3, H1. apply Z.ltb_lt in H0.
  exists r. split.
  { rewrite <- ER. apply ln_oracle with k; [exact F|]. unfold found. rewrite EB. destruct b as [bv bs bn]. cbn [dval dscale dneg] in *. subst. f_equal. f_equal; [lia|symmetry; apply Z.ltb_ge; lia]. }
  assert (R1 : (Q2R (num r) = IZR (dval r) / 1000000000000)%R).
  { rewrite q2r_num by lia. unfold mant. rewrite H1, H2. reflexivity. }
  assert (U : (Q2R (num (under k)) = IZR (2 ^ k * 1000000000000 - 1) / 1000000000000)%R) by (rewrite q2r_num by (cbn; lia); reflexivity).
  assert (P : 2048 <= 2 ^ k) by (change 2048 with (2 ^ 11); apply Z.pow_le_mono_r; lia).
  assert (L : (ln (Q2R (num (under k))) < IZR k * ln 2)%R).
  { rewrite <- FloatLib.ln_bpow. apply ln_increasing.
    - rewrite U. apply Rmult_lt_0_compat; [apply (IZR_lt 0); lia|apply Rinv_0_lt_compat; lra].
    - rewrite U, <- Raux.IZR_Zpower by lia. rewrite minus_IZR, mult_IZR. change (Z.pow (Zaux.radix_val Zaux.radix2) k) with (2 ^ k). lra. }
  pose proof ln2_tight as [_ T]. assert (T' : (ln 2 <= 693147180560 / 1000000000000)%R).
  { eapply Rle_trans; [exact T|]. unfold Q2R. cbn [Qnum Qden]. lra. }
  assert (KR : (11 <= IZR k)%R) by (apply (IZR_le 11); lia).
  apply IZR_lt in H0. rewrite plus_IZR, mult_IZR in H0. rewrite R1. nra.
Qed.
(** Whatever the library: if it gets the bit length of 2^k right, then the logarithm just below 2^k is wrong. *)
Theorem f64_under_ln lm k : 14 <= k <= 48 -> found (f64_log2 lm) (pow_two k) k -> exists r, d_ln (f64_log2 lm) (under k) = Ok r /\ (Q2R (num r) > ln (Q2R (num (under k))) + 9 / 100)%R.
Proof. intros K F. apply too_high_ln; [lia|]. now apply same_found. Qed.
(** Below 2^14 an accurate library can still be wrong: the values of the GNU library at 2^11 - 10^-12. *)
Lemma gnu_eleven : found (f64_log2 gnu) (under 11) 11.
Proof.
  unfold found, bit_length. change (is_negative (under 11)) with false. change (is_zero (under 11)) with false. cbn iota. unfold f64_log2, flog.
  replace (into_f64 (dval (under 11)) (dscale (under 11))) with g_x by (vm_compute; reflexivity).
  destruct gnu_values as (-> & -> & _). vm_compute. reflexivity.
Qed.
Theorem gnu_under_ln : libm_ok gnu /\ libm_ln gnu /\ exists r, d_ln (f64_log2 gnu) (under 11) = Ok r /\ (Q2R (num r) > ln (Q2R (num (under 11))) + 9 / 100)%R.
Proof. split; [exact gnu_ok|]. split; [exact gnu_ln|]. apply too_high_ln; [lia|exact gnu_eleven]. Qed.
