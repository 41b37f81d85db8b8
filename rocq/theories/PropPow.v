(** Claims C62-C64: integer powers, powers with a decimal exponent, and which HMM parameters can be traded with. *)
From Coq Require Import ZArith QArith Qabs Qpower List Bool Lia Lqa String.
From Verif Require Import Base DecimalModel DecimalSpec MathModel PoolModel PoolInv PowAccuracy PowDec HmmUse Concrete Examples.
Import ListNotations.
Open Scope Z_scope.
Open Scope string_scope.

(** ** C62.  Repeated squaring: never above the exact power; error below [e] units in the last place for bases up to 1, and
    below the fraction [e] * 10^-s of the exact power for larger ones. *)
Theorem C62_pow_below_one : forall d e c, wf d -> dneg d = false -> (num d <= 1)%Q -> d_pow d (Zpos e) = Ok c ->
  (0 <= num c /\ num c <= num d ^ Zpos e /\ num d ^ Zpos e <= num c + inject_Z (Zpos e) * ulp (dscale d))%Q.
Proof. exact pow_below. Qed.
Theorem C62_pow_above_one : forall d e c, wf d -> dneg d = false -> (1 <= num d)%Q -> d_pow d (Zpos e) = Ok c ->
  (num c <= num d ^ Zpos e /\ num d ^ Zpos e * (1 - inject_Z (Zpos e) * ulp (dscale d)) <= num c)%Q.
Proof. exact pow_above. Qed.
Theorem C62_pow_monotone : forall a b n c, wf a -> wf b -> dneg a = false -> dneg b = false -> dscale a = dscale b -> (num a <= num b)%Q -> d_pow b n = Ok c ->
  exists c', d_pow a n = Ok c' /\ (num c' <= num c)%Q.
Proof. exact pow_monotone. Qed.
(** A base above 1 needs room for the next power of two above the exponent, squared mantissas included; [pow_room] is
    2^128 / 10^(2s).  With that room the power is computed, without it (up to the rounding of the squares) it panics. *)
Theorem C62_pow_completes : forall d e, wf d -> dneg d = false -> dscale d <= 38 -> (1 <= num d)%Q ->
  (num d ^ (2 * 2 ^ Z.log2 (Zpos e)) < pow_room (dscale d))%Q -> exists c, d_pow d (Zpos e) = Ok c.
Proof. exact pow_completes. Qed.
Theorem C62_pow_needs_room : forall d e c, wf d -> dneg d = false -> (1 <= num d)%Q -> d_pow d (Zpos e) = Ok c ->
  ((num d * (1 - ulp (dscale d))) ^ (2 * 2 ^ Z.log2 (Zpos e)) < pow_room (dscale d))%Q.
Proof. exact pow_needs_room. Qed.
(** 1.5^20, 0.7^20, 1000^3; and 1000^4 = 10^12, which would fit, panics because the loop squares once more than it needs. *)
Example C62_case :
  d_pow (D12 1500000000000) 20 = Ok (D12 3325256730079650) /\ d_pow (D12 700000000000) 20 = Ok (D12 797922662) /\
  (num (D12 1500000000000) ^ (2 * 2 ^ Z.log2 20) < pow_room 12)%Q /\
  (exists c, d_pow (units 1000) 3 = Ok c) /\ d_pow (units 1000) 4 = Panic /\ wf (units 1000) /\ 10 ^ 12 * 10 ^ 12 < 2 ^ 128.
Proof. split; [vm_compute; reflexivity |]. split; [vm_compute; reflexivity |]. split; [vm_compute; reflexivity |]. split; [eexists; vm_compute; reflexivity |]. split; [vm_compute; reflexivity |]. split; [apply wfb_wf; vm_compute; reflexivity | vm_compute; reflexivity]. Qed.

(** ** C63.  [power u x e y] (PowDec.v) says that [y] is [x] to the power [e] with each elementary operation rounded by at most
    one unit [u]. *)
Theorem C63_pow_decimal_partial : forall d e c, wf d -> dneg d = false -> 2 <= dscale d -> wf e -> d_pow_dec d e = Ok c ->
  wf c /\ dscale c = dscale d /\ dneg c = false /\ power (ulp (dscale d)) (num d) (num e) (num c).
Proof. exact pow_dec_spec. Qed.
Theorem C63_exponents_computed : forall d e, wf d -> dneg d = false -> 2 <= dscale d <= 18 -> wf e -> dneg e = false -> dscale e = dscale d ->
  (num e == 0 \/ num e == 1 # 4 \/ num e == 1 # 2 \/ num e == 1 \/ num e == 5 # 4 \/ num e == 3 # 2)%Q -> (num d * (num d + 1) < pow_room (dscale d))%Q ->
  exists c, d_pow_dec d e = Ok c.
Proof. exact pow_dec_completes. Qed.
Theorem C63_other_exponents : forall d e c, wf d -> dneg d = false -> 2 <= dscale d -> wf e -> ~ on_menu (num e) -> d_pow_dec d e <> Ok c.
Proof. intros d e c W N S We M H. exact (M (pow_dec_menu d e c W N S We H)). Qed.
Theorem C63_other_scale_panics : forall d e, 0 <= dscale d -> dscale e <> dscale d -> dval e <> 0 -> d_pow_dec d e = Panic.
Proof. exact pow_dec_scales. Qed.
(** Finding: at scale 1 the constant 1/4 is rounded to 0.2, so 16 to the power 0.2 comes out as the fourth root, 2.0, although
    even 1.8^5 is above 16. *)
Theorem C63_pow_decimal_refuted : exists d e c, wf d /\ wf e /\ dneg d = false /\ dscale d = dscale e /\ (num e == 1 # 5)%Q /\ d_pow_dec d e = Ok c /\
  (num d < (num c - 2 * ulp (dscale d)) ^ 5)%Q.
Proof. exists (mkD 160 1 false), (mkD 2 1 false), (mkD 20 1 false). split; [apply wfb_wf; reflexivity |]. split; [apply wfb_wf; reflexivity |]. repeat split; vm_compute; reflexivity. Qed.
Example C63_case :
  d_pow_dec (D12 2000000000000) (D12 250000000000) = Ok (D12 1189207115002) /\ d_pow_dec (D12 2000000000000) (D12 1500000000000) = Ok (D12 2828427124746) /\
  d_pow_dec (D12 2000000000000) (mkD 1250000000000 12 true) = Ok (D12 420448207627) /\ d_pow_dec (D12 2000000000000) (mkD 3000000000000 12 true) = Ok (D12 125000000000) /\
  d_pow_dec (D12 2000000000000) (D12 300000000000) = Panic /\ d_pow_dec (D12 2000000000000) (mkD 5 1 false) = Panic /\
  ~ on_menu (num (D12 300000000000)) /\ (num (D12 2000000000000) * (num (D12 2000000000000) + 1) < pow_room 12)%Q.
Proof.
  do 6 (split; [vm_compute; reflexivity |]). split; [| vm_compute; reflexivity].
  assert (E : (num (D12 300000000000) == 3 # 10)%Q) by (vm_compute; reflexivity).
  intros [M | M]; destruct M as [K | [K | [K | [K | (n & P & K)]]]]; rewrite E in K; try (unfold Qeq in K; cbn in K; lia).
Qed.

(** ** C64: "a pool that can be created with HMM parameter C can be traded with once an oracle price is supplied" - false. *)
Definition one_lp (c : decimal) : res pool := start (pool_new (near 10) 1 c (D12 3000000000)) [CDeposit "ann" (units 1000) (units 1000) (near 4) (near 16)].
Definition half_pool : pool := Eval vm_compute in get (one_lp (D12 500000000000)).
Definition tenth_pool : pool := Eval vm_compute in get (one_lp (D12 1100000000000)).
Definition one_pool : pool := Eval vm_compute in get (one_lp (D12 1000000000000)).
Definition scale_pool : pool := Eval vm_compute in get (one_lp (mkD 15 1 false)).
Definition two_pool : pool := Eval vm_compute in get (one_lp (D12 2000000000000)).
Lemma hp_reach : reachable no_orc half_pool. Proof. apply (start_reachable (near 10) 1 (D12 500000000000) (D12 3000000000) [CDeposit "ann" (units 1000) (units 1000) (near 4) (near 16)]); vm_compute; reflexivity. Qed.
Lemma tp_reach : reachable no_orc tenth_pool. Proof. apply (start_reachable (near 10) 1 (D12 1100000000000) (D12 3000000000) [CDeposit "ann" (units 1000) (units 1000) (near 4) (near 16)]); vm_compute; reflexivity. Qed.
Lemma op_reach : reachable no_orc one_pool. Proof. apply (start_reachable (near 10) 1 (D12 1000000000000) (D12 3000000000) [CDeposit "ann" (units 1000) (units 1000) (near 4) (near 16)]); vm_compute; reflexivity. Qed.
Lemma sp_reach : reachable no_orc scale_pool. Proof. apply (start_reachable (near 10) 1 (mkD 15 1 false) (D12 3000000000) [CDeposit "ann" (units 1000) (units 1000) (near 4) (near 16)]); vm_compute; reflexivity. Qed.
Lemma wp_reach : reachable no_orc two_pool. Proof. apply (start_reachable (near 10) 1 (D12 2000000000000) (D12 3000000000) [CDeposit "ann" (units 1000) (units 1000) (near 4) (near 16)]); vm_compute; reflexivity. Qed.
(** The same swap completes without an oracle price and panics with one. *)
Definition stuck_x (p : pool) (dx ro : decimal) : Prop := (exists p' o, execute_swap_from_x no_orc p dx (D12 0) = Ok (p', o)) /\ execute_swap_from_x no_orc p dx ro = Panic.
Definition stuck_y (p : pool) (dy ro : decimal) : Prop := (exists p' o, execute_swap_from_y no_orc p dy (D12 0) = Ok (p', o)) /\ execute_swap_from_y no_orc p dy ro = Panic.
(** C = 1/2, C = 11/10 and C = 3/2 given at scale 1 (all accepted by [Pool::new]) stop every trade towards the oracle price. *)
Theorem C64_hmm_parameter_refuted :
  (reachable no_orc half_pool /\ (num (hmm_c half_pool) == 1 # 2)%Q /\ stuck_x half_pool (units 100) (near 7) /\ stuck_y half_pool (units 100) (near 14)) /\
  (reachable no_orc tenth_pool /\ (num (hmm_c tenth_pool) == 11 # 10)%Q /\ stuck_x tenth_pool (units 100) (near 7) /\ stuck_y tenth_pool (units 100) (near 14)) /\
  (reachable no_orc scale_pool /\ (num (hmm_c scale_pool) == 3 # 2)%Q /\ stuck_x scale_pool (units 100) (near 7) /\ stuck_y scale_pool (units 100) (near 14)).
Proof.
  split; [| split]; (split; [first [exact hp_reach | exact tp_reach | exact sp_reach] |]); (split; [vm_compute; reflexivity |]);
    (split; (split; [do 2 eexists; vm_compute; reflexivity | vm_compute; reflexivity])).
Qed.
(** C = 1: the formula for Y has the sign of the logarithm the wrong way round, so trades that sell X panic. *)
Theorem C64_log_sign_refuted : reachable no_orc one_pool /\ (num (hmm_c one_pool) == 1)%Q /\ stuck_x one_pool (units 100) (near 7) /\
  exists p' o, execute_swap_from_y no_orc one_pool (units 100) (near 14) = Ok (p', o).
Proof. split; [exact op_reach |]. split; [vm_compute; reflexivity |]. split; [split; [do 2 eexists; vm_compute; reflexivity | vm_compute; reflexivity] | do 2 eexists; vm_compute; reflexivity]. Qed.
(** C = 2, which the formulas do handle: an oracle price 10^-10 away from the pool price stops trading too, because the
    rounded adjustment comes out negative. *)
Theorem C64_close_oracle_refuted : reachable no_orc two_pool /\ (num (hmm_c two_pool) == 2)%Q /\
  stuck_x two_pool (units 100) (D12 (dval (glbl_rp two_pool) - 100)) /\ stuck_y two_pool (units 100) (D12 (dval (glbl_rp two_pool) + 100)).
Proof. split; [exact wp_reach |]. split; [vm_compute; reflexivity |]. split; (split; [do 2 eexists; vm_compute; reflexivity | vm_compute; reflexivity]). Qed.
(** For all pools: with 0 < C < 1, or any C outside [handled], no swap towards the oracle price changes anything. *)
Theorem C64_below_one_x : forall orc p dx ro p' o, reachable orc p -> wf dx -> wf ro -> dscale ro = 12 -> (0 < num (hmm_c p) < 1)%Q -> (0 < num (glbl_liq p))%Q -> (0 < num ro < num (glbl_rp p))%Q ->
  execute_swap_from_x orc p dx ro = Ok (p', o) -> p' = p /\ (num (so_recv o) == 0)%Q.
Proof. exact swap_x_below_one. Qed.
Theorem C64_below_one_y : forall orc p dy ro p' o, reachable orc p -> wf dy -> wf ro -> dscale ro = 12 -> (0 < num (hmm_c p) < 1)%Q -> (0 < num (glbl_liq p))%Q -> (0 < num (glbl_rp p) < num ro)%Q ->
  execute_swap_from_y orc p dy ro = Ok (p', o) -> p' = p /\ (num (so_recv o) == 0)%Q.
Proof. exact swap_y_below_one. Qed.
Theorem C64_unhandled_x : forall orc p dx ro p' o, reachable orc p -> wf dx -> wf ro -> dscale ro = 12 -> (0 < num (hmm_c p) <= 2)%Q -> ~ handled (hmm_c p) -> (0 < num (glbl_liq p))%Q -> off_ticks p -> (0 < num ro < num (glbl_rp p))%Q ->
  execute_swap_from_x orc p dx ro = Ok (p', o) -> p' = p /\ (num (so_recv o) == 0)%Q.
Proof. exact swap_x_unhandled. Qed.
Theorem C64_unhandled_y : forall orc p dy ro p' o, reachable orc p -> wf dy -> wf ro -> dscale ro = 12 -> (0 < num (hmm_c p) <= 2)%Q -> ~ handled (hmm_c p) -> (0 < num (glbl_liq p))%Q -> off_ticks p -> (0 < num (glbl_rp p) < num ro)%Q ->
  execute_swap_from_y orc p dy ro = Ok (p', o) -> p' = p /\ (num (so_recv o) == 0)%Q.
Proof. exact swap_y_unhandled. Qed.
(** The pools above meet the hypotheses. *)
Example C64_case : (0 < num (hmm_c half_pool) < 1)%Q /\ (0 < num (glbl_liq half_pool))%Q /\ (0 < num (near 7) < num (glbl_rp half_pool))%Q /\ (0 < num (glbl_rp half_pool) < num (near 14))%Q /\
  (0 < num (hmm_c tenth_pool) <= 2)%Q /\ ~ handled (hmm_c tenth_pool) /\ off_ticks tenth_pool /\ ~ handled (hmm_c scale_pool).
Proof.
  do 4 (split; [split || idtac; vm_compute; try reflexivity; discriminate |]). split; [split; vm_compute; [reflexivity | discriminate] |].
  split; [| split].
  - assert (E : (num (hmm_c tenth_pool) == 11 # 10)%Q) by (vm_compute; reflexivity). assert (U : (ulp 12 <= 1 # 100)%Q) by (vm_compute; discriminate). intros [[H1 H2] | [_ [H | [H | H]]]]; rewrite E in *; try lra.
  - intros k rp [<- | [<- | []]] R; vm_compute in R; injection R as <-; intros Q; vm_compute in Q; discriminate.
  - assert (E : (num (hmm_c scale_pool) == 3 # 2)%Q) by (vm_compute; reflexivity). assert (U : (ulp 12 <= 1 # 100)%Q) by (vm_compute; discriminate). intros [[H1 H2] | [H _]]; [rewrite E in *; lra | vm_compute in H; discriminate].
Qed.

Print Assumptions C62_pow_below_one.
Print Assumptions C62_pow_above_one.
Print Assumptions C62_pow_monotone.
Print Assumptions C62_pow_completes.
Print Assumptions C62_pow_needs_room.
Print Assumptions C63_pow_decimal_partial.
Print Assumptions C63_exponents_computed.
Print Assumptions C63_other_exponents.
Print Assumptions C63_other_scale_panics.
Print Assumptions C63_pow_decimal_refuted.
Print Assumptions C64_hmm_parameter_refuted.
Print Assumptions C64_log_sign_refuted.
Print Assumptions C64_close_oracle_refuted.
Print Assumptions C64_below_one_x.
Print Assumptions C64_below_one_y.
Print Assumptions C64_unhandled_x.
Print Assumptions C64_unhandled_y.
