(** Claims C23-C25, C27, C29-C34, C47-C51: liquidity providers' records, reserves and fees, over all histories of calls.
    [reachable orc p]: [p] results from [Pool::new] by some completed calls; [orc]: an arbitrary outcome of the f64 logarithm. *)
From Coq Require Import ZArith QArith List Bool Lia Lqa String Sorted.
From Verif Require Import Base DecimalModel DecimalSpec MathModel MathProofs PoolModel PoolWf LpProofs PoolInv PoolNonneg PoolLp PoolFees PoolRange PoolDir Concrete Examples.
Import ListNotations.
Open Scope string_scope. Open Scope Z_scope.

(** ** C23, C24.  [gross_at] / [net_at] are sums over the positions; [tick_gross] / [tick_net] what the tick map holds. *)
Theorem C23_tick_sums : forall orc p, reachable orc p -> forall t, (tick_gross p t == gross_at p t /\ tick_net p t == net_at p t)%Q.
Proof. exact tick_sums. Qed.
Theorem C24_active_ticks : forall orc p, reachable orc p ->
  StronglySorted Z.lt (map fst (ticks p)) /\ forall t, In t (map fst (ticks p)) <-> (0 < gross_at p t)%Q.
Proof. exact tick_active. Qed.
Example ticks_case : reachable no_orc ex2 /\ map fst (ticks ex2) = [4; 8; 12; 16] /\ (0 < gross_at ex2 8)%Q /\ (net_at ex2 12 < 0)%Q /\ (gross_at ex2 10 == 0)%Q.
Proof. split; [exact ex2_reachable |]. repeat split; vm_compute; reflexivity. Qed.

(** ** C25.  The full claim is [forall p, reachable orc p -> num (glbl_liq p) == covering p (glbl_tick p)].  It is false: the
    tick computed for a price on (or within one tick of) an active tick can fall on the wrong side of it.  Proved: it holds
    as long as no completely filled swap ends within one tick of an active tick ([tidy], [clear_of_ticks]). *)
Definition in_range_sum (p : pool) : Prop := (num (glbl_liq p) == covering p (glbl_tick p))%Q.
Theorem C25_liquidity_in_range_partial : forall orc p, tidy orc p -> in_range_sum p.
Proof. exact range_liquidity. Qed.
Definition edge_calls : list call := [CDeposit "ann" (units 1000) (units 1000) (near 2) (near 16); CDeposit "bob" (units 0) (units 500) (near 4) (near 10); CSwapY (D12 4000000) (units 0)].
Definition edge : pool := Eval vm_compute in get (start (pool_new (near 10) 1 (D12 0) (D12 3000000000)) edge_calls).
Theorem C25_liquidity_in_range_refuted : exists p, reachable no_orc p /\ ~ in_range_sum p.
Proof.
  exists edge. split.
  - apply (start_reachable (near 10) 1 (D12 0) (D12 3000000000) edge_calls); vm_compute; reflexivity.
  - vm_compute. discriminate.
Qed.
Definition price_of (t : Z) : decimal := match tick_to_rp t with Ok p => p | _ => zero12 end.
(** A history that stays clear of the active ticks: 1200 X across tick 8 and 1200 Y back. *)
Definition calm1 : pool := Eval vm_compute in get (start P0 (calls0 ++ [CSwapX (units 1200) (near 7)])).
Definition calm2 : pool := Eval vm_compute in get (start P0 (calls0 ++ [CSwapX (units 1200) (near 7); CSwapY (units 1200) (near 11)])).
Lemma clear_ok : forall p, forallb (fun k => ((1 <=? k) && match tick_to_rp (k - 1) with Ok r => negb (Qle_bool (num r) (num (glbl_rp p))) | _ => false end) ||
    match tick_to_rp (k + 1) with Ok r => negb (Qle_bool (num (glbl_rp p)) (num r)) | _ => false end) (map fst (ticks p)) = true -> clear_of_ticks p.
Proof.
  intros p H k Hk. rewrite forallb_forall in H. specialize (H _ Hk). apply orb_prop in H. destruct H as [H | H].
  - left. apply andb_prop in H. destruct H as [H1 H]. apply Z.leb_le in H1. split; auto. destruct (tick_to_rp (k - 1)) as [r | | |]; try discriminate. exists r. split; auto. apply Qnot_le_lt. intros X. apply Qle_bool_iff in X. rewrite X in H. discriminate.
  - right. destruct (tick_to_rp (k + 1)) as [r | | |]; try discriminate. exists r. split; auto. apply Qnot_le_lt. intros X. apply Qle_bool_iff in X. rewrite X in H. discriminate.
Qed.
Lemma calm1_clear : clear_of_ticks calm1. Proof. apply clear_ok. vm_compute. reflexivity. Qed.
Lemma calm2_clear : clear_of_ticks calm2. Proof. apply clear_ok. vm_compute. reflexivity. Qed.
Definition out1 : swap_out := Eval vm_compute in match execute_swap_from_x no_orc ex0 (units 1200) (near 7) with Ok (_, o) => o | _ => mkSO zero12 zero12 zero12 zero12 zero12 zero12 end.
Definition out2 : swap_out := Eval vm_compute in match execute_swap_from_y no_orc calm1 (units 1200) (near 11) with Ok (_, o) => o | _ => mkSO zero12 zero12 zero12 zero12 zero12 zero12 end.
Lemma swap1_runs : execute_swap_from_x no_orc ex0 (units 1200) (near 7) = Ok (calm1, out1). Proof. vm_compute. reflexivity. Qed.
Lemma swap2_runs : execute_swap_from_y no_orc calm1 (units 1200) (near 11) = Ok (calm2, out2). Proof. vm_compute. reflexivity. Qed.
Lemma calm2_tidy : tidy no_orc calm2.
Proof.
  assert (W : Forall call_wf calls0) by (apply calls_wf; vm_compute; reflexivity). inversion W as [| ? ? W1 W']; subst. inversion W' as [| ? ? W2 _]; subst. clear W W'.
  assert (Wu : wf (units 1200)) by (apply wfb_wf; vm_compute; reflexivity). assert (W7 : wf (near 7)) by (apply wfb_wf; vm_compute; reflexivity). assert (W11 : wf (near 11)) by (apply wfb_wf; vm_compute; reflexivity).
  refine (td_swap_y no_orc calm1 (units 1200) (near 11) calm2 out2 _ Wu W11 swap2_runs (or_intror calm2_clear)).
  refine (td_swap_x no_orc ex0 (units 1200) (near 7) calm1 out1 _ Wu W7 swap1_runs (or_intror calm1_clear)). clear Wu W7 W11.
  destruct P0 as [p0 | | |] eqn:E0; [| vm_compute in E0; discriminate E0 ..].
  assert (S0 : tidy no_orc p0) by (refine (td_new _ _ _ _ _ _ _ _ _ _ E0); try (apply wfb_wf; vm_compute; reflexivity); discriminate).
  destruct (deposit p0 "ann" (units 1000) (units 1000) (near 4) (near 16)) as [[p1 o1] | | |] eqn:E1; [| clear - E0 E1; vm_compute in E0; injection E0 as <-; vm_compute in E1; discriminate E1 ..].
  pose proof (td_deposit _ _ _ _ _ _ _ _ _ S0 W1 E1) as S1.
  destruct (deposit p1 "bob" (units 500) (units 500) (near 8) (near 12)) as [[p2 o2] | | |] eqn:E2; [| clear - E0 E1 E2; vm_compute in E0; injection E0 as <-; vm_compute in E1; injection E1 as <- <-; vm_compute in E2; discriminate E2 ..].
  pose proof (td_deposit _ _ _ _ _ _ _ _ _ S1 W2 E2) as S2.
  assert (X : p2 = ex0). { clear - E0 E1 E2. vm_compute in E0. injection E0 as <-. vm_compute in E1. injection E1 as <- <-. vm_compute in E2. injection E2 as <- <-. reflexivity. }
  rewrite <- X. exact S2.
Qed.
Example tidy_case : tidy no_orc calm2 /\ glbl_tick calm1 = 5 /\ glbl_tick calm2 = 9 /\ map fst (ticks calm2) = [4; 8; 12; 16] /\ (0 < num (glbl_liq calm2))%Q.
Proof. split; [exact calm2_tidy |]. repeat split; vm_compute; reflexivity. Qed.

(** ** C50: the recorded tick and the price agree to within one tick (on ticks the spacing admits). *)
Theorem C50_price_near_tick : forall orc p, reachable orc p -> forall k, 0 <= k -> k mod spacing p = 0 ->
  (k <= glbl_tick p -> forall r, 1 <= k -> tick_to_rp (k - 1) = Ok r -> (num r <= num (glbl_rp p))%Q) /\
  (glbl_tick p < k -> forall r, tick_to_rp (k + 1) = Ok r -> (num (glbl_rp p) <= num r)%Q).
Proof. exact price_near_tick. Qed.
Theorem C50_tick_bounded : forall orc p, reachable orc p -> 0 <= glbl_tick p < 2 ^ 22.
Proof. exact tick_bounded. Qed.
Example near_case : (num (price_of 7) <= num (glbl_rp ex2))%Q /\ (num (glbl_rp ex2) <= num (price_of 11))%Q /\ glbl_tick ex2 = 9.
Proof. repeat split; vm_compute; congruence. Qed.

(** ** C27 *)
Theorem C27_never_negative : forall orc p, reachable orc p ->
  (0 <= num (rx p) /\ 0 <= num (ry p) /\ 0 <= num (x_adj p) /\ 0 <= num (y_adj p) /\ 0 <= num (x_fee p) /\ 0 <= num (y_fee p) /\ 0 <= num (glbl_liq p) /\ 1 <= num (glbl_rp p))%Q /\
  (0 <= num (g_fx (gs p)) /\ 0 <= num (g_fy (gs p)) /\ 0 <= num (g_hx (gs p)) /\ 0 <= num (g_hy (gs p)))%Q.
Proof. exact never_negative. Qed.
Theorem C27_growth_monotone : forall orc p cs p', reachable orc p -> Forall call_wf cs -> run_calls orc p cs = Ok p' ->
  (num (g_fx (gs p)) <= num (g_fx (gs p')) /\ num (g_fy (gs p)) <= num (g_fy (gs p')) /\ num (g_hx (gs p)) <= num (g_hx (gs p')) /\ num (g_hy (gs p)) <= num (g_hy (gs p')))%Q.
Proof. exact growth_monotone. Qed.
Theorem C47_tick_growth_bounded : forall orc p, reachable orc p -> forall t ts, In (t, ts) (ticks p) ->
  (0 <= num (t_fx ts) <= num (g_fx (gs p)) /\ 0 <= num (t_fy ts) <= num (g_fy (gs p)) /\ 0 <= num (t_hx ts) <= num (g_hx (gs p)) /\ 0 <= num (t_hy ts) <= num (g_hy (gs p)))%Q.
Proof. exact tick_growth_bounded. Qed.
Example growth_case : reachable no_orc ex1 /\ run_calls no_orc ex1 [swap2] = Ok ex2 /\ call_wf swap2 /\
  map (fun d => dval d) [g_fx (gs ex1); g_fx (gs ex2); g_fy (gs ex1); g_fy (gs ex2); g_hx (gs ex2); g_hy (gs ex2)] <> [0; 0; 0; 0; 0; 0] /\
  (exists ts, In (8, ts) (ticks ex2) /\ 0 < dval (t_fx ts)).
Proof.
  split; [exact ex1_reachable |]. split; [vm_compute; reflexivity |]. split; [split; apply wfb_wf; vm_compute; reflexivity |]. split; [vm_compute; discriminate |].
  eexists. split; [right; left; vm_compute; reflexivity | vm_compute; reflexivity].
Qed.

(** ** C29, C30.  [liquidity_added] also says that every other position is untouched. *)
Theorem C29_deposit_exact : forall orc p user x y rpa rpb p' o, reachable orc p -> wf x -> wf y -> wf rpa -> wf rpb ->
  deposit p user x y rpa rpb = Ok (p', o) ->
  exists lower upper, range_of p rpa rpb lower upper /\ (0 <= num (io_liq o))%Q /\
    liquidity_added p p' user lower upper (num (io_liq o)) /\
    (num (rx p') == num (rx p) + num (io_x o) /\ num (ry p') == num (ry p) + num (io_y o))%Q /\
    (0 <= num (io_x o) <= num x /\ 0 <= num (io_y o) <= num y)%Q /\
    (num (x_fee p') == num (x_fee p) - num (io_fx o) /\ num (y_fee p') == num (y_fee p) - num (io_fy o) /\
     num (x_adj p') == num (x_adj p) - num (io_hx o) /\ num (y_adj p') == num (y_adj p) - num (io_hy o))%Q /\
    (num (io_netx o) == num (io_x o) - num (io_fx o) - num (io_hx o) /\ num (io_nety o) == num (io_y o) - num (io_fy o) - num (io_hy o))%Q.
Proof. exact deposit_exact. Qed.
Theorem C29_withdraw_exact : forall orc p user liq rpa rpb p' o, reachable orc p -> wf liq -> wf rpa -> wf rpb ->
  withdraw p user liq rpa rpb = Ok (p', o) ->
  exists lower upper, range_of p rpa rpb lower upper /\ (0 <= num liq /\ num liq <= liq_of p (user, lower, upper))%Q /\
    liquidity_added p p' user lower upper (- num liq) /\
    (pm_get (user, lower, upper) (positions p) <> None -> (pm_get (user, lower, upper) (positions p') = None <-> (num liq == liq_of p (user, lower, upper))%Q)) /\
    (num (rx p') == num (rx p) - num (io_x o) /\ num (ry p') == num (ry p) - num (io_y o))%Q /\
    (0 <= num (io_x o) /\ 0 <= num (io_y o))%Q /\
    (num (x_fee p') == num (x_fee p) - num (io_fx o) /\ num (y_fee p') == num (y_fee p) - num (io_fy o) /\
     num (x_adj p') == num (x_adj p) - num (io_hx o) /\ num (y_adj p') == num (y_adj p) - num (io_hy o))%Q /\
    (num (io_netx o) == num (io_x o) + num (io_fx o) + num (io_hx o) /\ num (io_nety o) == num (io_y o) + num (io_fy o) + num (io_hy o))%Q.
Proof. exact withdraw_exact. Qed.
(** An exception to "positions exist exactly while they hold liquidity": withdrawing nothing from a position that does not
    exist creates an empty one. *)
Theorem C29_empty_position_refuted : exists p p' o key q, reachable no_orc p /\ pm_get key (positions p) = None /\
  withdraw p "eve" (units 0) (near 4) (near 16) = Ok (p', o) /\ pm_get key (positions p') = Some q /\ (num (p_liq q) == 0)%Q.
Proof.
  destruct (withdraw ex0 "eve" (units 0) (near 4) (near 16)) as [[p' o] | | |] eqn:E; [| vm_compute in E; discriminate E ..].
  exists ex0, p', o, ("eve", 4, 16). vm_compute in E. injection E as <- <-. eexists. split; [exact ex0_reachable |]. repeat split; vm_compute; reflexivity.
Qed.
Theorem C30_deposit_frame : forall orc p user x y rpa rpb p' o lower upper, reachable orc p -> wf x -> wf y -> wf rpa -> wf rpb ->
  deposit p user x y rpa rpb = Ok (p', o) -> range_of p rpa rpb lower upper ->
  forall k, k <> (user, lower, upper) -> pm_get k (positions p') = pm_get k (positions p).
Proof.
  intros orc p user x y rpa rpb p' o lower upper R Wx Wy Wa Wb H (R1 & R2 & _).
  destruct (deposit_exact orc p user x y rpa rpb p' o R Wx Wy Wa Wb H) as (lo & up & (S1 & S2 & _) & _ & (_ & F & _) & _).
  rewrite R1 in S1. injection S1 as <-. rewrite R2 in S2. injection S2 as <-. exact F.
Qed.
Theorem C30_withdraw_frame : forall orc p user l rpa rpb p' o lower upper, reachable orc p -> wf l -> wf rpa -> wf rpb ->
  withdraw p user l rpa rpb = Ok (p', o) -> range_of p rpa rpb lower upper ->
  forall k, k <> (user, lower, upper) -> pm_get k (positions p') = pm_get k (positions p).
Proof.
  intros orc p user l rpa rpb p' o lower upper R Wl Wa Wb H (R1 & R2 & _).
  destruct (withdraw_exact orc p user l rpa rpb p' o R Wl Wa Wb H) as (lo & up & (S1 & S2 & _) & _ & (_ & F & _) & _).
  rewrite R1 in S1. injection S1 as <-. rewrite R2 in S2. injection S2 as <-. exact F.
Qed.
(** Cases: a top-up of ann's position and a partial and a complete withdrawal after both swaps. *)
Definition lp_fig (r : res (pool * lp_out)) : option (list Z) :=
  match r with Ok (_, o) => Some (map (fun d => mant d) [io_liq o; io_x o; io_y o; io_fx o; io_fy o; io_hx o; io_hy o]) | _ => None end.
Example lp_case :
  lp_fig (deposit ex2 "ann" (units 10) (units 10) (near 4) (near 16)) = Some [33338647958333197; 9999186345220; 9999999999999; 2996837575436; 2997557359491; 297947278510; 56243126312] /\
  lp_fig (withdraw ex2 "ann" (D12 1000000000000000000) (near 4) (near 16)) = Some [1000000000000000000; 299927770247572; 299952175999700; 2996837575436; 2997557359491; 297947278510; 56243126312] /\
  range_of ex2 (near 4) (near 16) 4 16 /\ ("ann", 4, 16) <> ("bob", 8, 12) /\ pm_get ("bob", 8, 12) (positions ex2) <> None.
Proof. repeat split; vm_compute; try reflexivity; discriminate. Qed.

(** ** C31.  The full claim - opening a position and closing it at once pays no fees - is false: a new position is created with
    all fee counters at zero, so it is paid for all growth since the pool was created.  Proved: the exact amount it is paid
    ([inside]: growth per unit of liquidity inside the range since creation), that this is zero in a pool that has not
    collected fees, and that topping up an existing position pays nothing for the added liquidity. *)
Theorem C31_new_position_fees_partial : forall orc p user x y rpa rpb lower upper p' o p2 o', reachable orc p -> wf x -> wf y -> wf rpa -> wf rpb ->
  range_of p rpa rpb lower upper -> pm_get (user, lower, upper) (positions p) = None -> (0 < num (io_liq o))%Q ->
  deposit p user x y rpa rpb = Ok (p', o) -> withdraw p' user (io_liq o) rpa rpb = Ok (p2, o') ->
  (num (io_fx o) == 0 /\ num (io_fy o) == 0 /\ num (io_hx o) == 0 /\ num (io_hy o) == 0)%Q /\
  paid_from_start (num (io_liq o)) (inside p lower upper FX) (num (io_fx o')) /\ paid_from_start (num (io_liq o)) (inside p lower upper FY) (num (io_fy o')) /\
  paid_from_start (num (io_liq o)) (inside p lower upper HX) (num (io_hx o')) /\ paid_from_start (num (io_liq o)) (inside p lower upper HY) (num (io_hy o')).
Proof. exact new_position_fees. Qed.
Theorem C31_no_growth_partial : forall orc p, reachable orc p -> (forall k, (num (g_fee (gs p) k) == 0)%Q) -> forall lo up k, (inside p lo up k == 0)%Q.
Proof. exact no_growth_no_fees. Qed.
Theorem C31_top_up_partial : forall orc p user x y l rpa rpb lower upper q0 p' o p2 o', reachable orc p -> wf x -> wf y -> wf l -> wf rpa -> wf rpb ->
  range_of p rpa rpb lower upper -> pm_get (user, lower, upper) (positions p) = Some q0 -> (0 < num (p_liq q0))%Q ->
  deposit p user x y rpa rpb = Ok (p', o) -> withdraw p' user l rpa rpb = Ok (p2, o') ->
  (num (io_fx o') == 0 /\ num (io_fy o') == 0 /\ num (io_hx o') == 0 /\ num (io_hy o') == 0)%Q.
Proof. exact top_up_no_fees. Qed.
Definition eve_in : res (pool * lp_out) := deposit ex2 "eve" (units 1000) (units 1000) (near 4) (near 16).
Definition then_withdraw (r : res (pool * lp_out)) (user : string) (a b : decimal) : res (pool * lp_out) :=
  let* (p, o) := r in withdraw p user (io_liq o) a b.
(** Eve, a new provider, deposits and withdraws at once and is paid about 3 X and 3 Y of other providers' fees. *)
Theorem C31_new_position_fees_refuted : exists p user x y rpa rpb p' o p2 o', reachable no_orc p /\
  (forall lo up, pm_get (user, lo, up) (positions p) = None) /\
  deposit p user x y rpa rpb = Ok (p', o) /\ withdraw p' user (io_liq o) rpa rpb = Ok (p2, o') /\ (0 < num (io_fx o') /\ 0 < num (io_fy o'))%Q.
Proof.
  destruct eve_in as [[p' o] | | |] eqn:E; [| vm_compute in E; discriminate E ..]. 
  destruct (withdraw p' "eve" (io_liq o) (near 4) (near 16)) as [[p2 o'] | | |] eqn:F; [| vm_compute in E; injection E as <- <-; vm_compute in F; discriminate F ..].
  exists ex2, "eve", (units 1000), (units 1000), (near 4), (near 16), p', o, p2, o'. split; [exact ex2_reachable |]. split; [intros; reflexivity |]. split; [exact E |]. split; [exact F |].
  vm_compute in E. injection E as <- <-. vm_compute in F. injection F as <- <-. split; vm_compute; reflexivity.
Qed.
Example eve_case : lp_fig eve_in = Some [3333864795833319775; 999918634522166; 999999999999999; 0; 0; 0; 0] /\
  lp_fig (then_withdraw eve_in "eve" (near 4) (near 16)) = Some [3333864795833319775; 999918634521166; 999999999998999; 2998214622053; 2998934736849; 298084185260; 56268970024] /\
  (* ann, who already has a position, is paid nothing for a top-up *)
  lp_fig (then_withdraw (deposit ex2 "ann" (units 10) (units 10) (near 4) (near 16)) "ann" (near 4) (near 16)) = Some [33338647958333197; 9999186345210; 9999999999989; 0; 0; 0; 0] /\
  range_of ex2 (near 4) (near 16) 4 16 /\ (0 < liq_of ex2 ("ann", 4%Z, 16%Z))%Q /\ (0 < inside ex2 4 16 FX)%Q.
Proof. repeat split; vm_compute; try reflexivity; discriminate. Qed.

(** ** C32.  The full claim - withdrawing up to a position's liquidity always completes - is false, in three ways.  (Proved in
    [PropLp]: it holds in histories without swaps and top-ups, and in general if pots, reserves and growth suffice.) *)
Definition can_withdraw (p : pool) (user : string) (rpa rpb : decimal) : Prop :=
  forall lower upper l, range_of p rpa rpb lower upper -> pm_get (user, lower, upper) (positions p) <> None ->
    nonneg l -> dscale l = 12 -> (num l <= liq_of p (user, lower, upper))%Q -> exists p' o, withdraw p user l rpa rpb = Ok (p', o).
Lemma nonneg_12 : forall v, (0 <=? v) && (v <? 2 ^ 128) = true -> nonneg (D12 v).
Proof. intros v H. apply andb_true_iff in H. destruct H as [H1 H2]. apply Z.leb_le in H1. apply Z.ltb_lt in H2. split; [split; cbn; lia | reflexivity]. Qed.
(** The only provider, after a single X-in swap (the price is rounded down, so the reserves fall short of the position). *)
Definition solo : pool := Eval vm_compute in get (start P0 [CDeposit "ann" (units 1000) (units 1000) (near 4) (near 16); CSwapX (units 1) (units 0)]).
Lemma solo_reachable : reachable no_orc solo.
Proof. apply (start_reachable (near 10) 1 (D12 1500000000000) (D12 3000000000) [CDeposit "ann" (units 1000) (units 1000) (near 4) (near 16); CSwapX (units 1) (units 0)]); vm_compute; reflexivity. Qed.
Theorem C32_withdraw_after_swap_refuted : exists p user rpa rpb, reachable no_orc p /\ positions p <> [] /\ (forall k q, In (k, q) (positions p) -> fst (fst k) = user) /\ ~ can_withdraw p user rpa rpb.
Proof.
  exists solo, "ann", (near 4), (near 16). split; [exact solo_reachable |]. split; [discriminate |]. split; [intros k q [H | []]; injection H as <- _; reflexivity |].
  intros C. destruct (C 4 16 (D12 3332333588825571144)) as (p' & o & H); [repeat split; vm_compute; try reflexivity; discriminate | vm_compute; discriminate | apply nonneg_12; vm_compute; reflexivity | reflexivity | vm_compute; discriminate |]. vm_compute in H. discriminate.
Qed.
(** After eve's round trip has drained the fee pots (C31) neither ann nor bob can withdraw. *)
Definition drained : pool := Eval vm_compute in match then_withdraw eve_in "eve" (near 4) (near 16) with Ok (p, _) => p | _ => ex2 end.
Theorem C32_withdraw_after_drain_refuted : reachable no_orc ex2 /\
  (exists r o o', eve_in = Ok (r, o) /\ withdraw r "eve" (io_liq o) (near 4) (near 16) = Ok (drained, o')) /\
  (exists p' o, withdraw ex2 "ann" (D12 3332333588825571144) (near 4) (near 16) = Ok (p', o)) /\
  ~ can_withdraw drained "ann" (near 4) (near 16) /\ ~ can_withdraw drained "bob" (near 8) (near 12).
Proof.
  split; [exact ex2_reachable |]. split; [| split; [| split]].
  - destruct eve_in as [[r o] | | |] eqn:E; [| vm_compute in E; discriminate E ..].
    exists r, o. vm_compute in E. injection E as <- <-. eexists. split; [reflexivity |]. vm_compute. reflexivity.
  - eexists. eexists. vm_compute. reflexivity.
  - intros C. destruct (C 4 16 (D12 3332333588825571144)) as (p' & o & H); [repeat split; vm_compute; try reflexivity; discriminate | vm_compute; discriminate | apply nonneg_12; vm_compute; reflexivity | reflexivity | vm_compute; discriminate |]. vm_compute in H. discriminate.
  - intros C. destruct (C 8 12 (D12 4998000599840039990)) as (p' & o & H); [repeat split; vm_compute; try reflexivity; discriminate | vm_compute; discriminate | apply nonneg_12; vm_compute; reflexivity | reflexivity | vm_compute; discriminate |]. vm_compute in H. discriminate.
Qed.
(** Without any swap: deposits too small to be charged for still grant liquidity, so five of them cannot be withdrawn. *)
Definition dust_calls : list call := repeat (CDeposit "ann" (units 0) (D12 1) (near 4) (near 9)) 5.
Definition dusty : pool := Eval vm_compute in get (start P0 dust_calls).
Lemma dusty_reachable : reachable no_orc dusty.
Proof. apply (start_reachable (near 10) 1 (D12 1500000000000) (D12 3000000000) dust_calls); vm_compute; reflexivity. Qed.
Theorem C32_withdraw_dust_refuted : reachable no_orc dusty /\ (num (rx dusty) == 0 /\ num (ry dusty) == 0)%Q /\ ~ can_withdraw dusty "ann" (near 4) (near 9).
Proof.
  split; [exact dusty_reachable |]. split; [split; vm_compute; reflexivity |].
  intros C. destruct (C 4 9 (D12 19990)) as (p' & o & H); [repeat split; vm_compute; try reflexivity; discriminate | vm_compute; discriminate | apply nonneg_12; vm_compute; reflexivity | reflexivity | vm_compute; discriminate |]. vm_compute in H. discriminate.
Qed.

(** ** C33 *)
Theorem C33_withdraw_le_deposit : forall orc p q user user' x y l rpa rpb p' o q' o', reachable orc p -> reachable orc q ->
  wf x -> wf y -> wf rpa -> wf rpb -> wf l ->
  deposit p user x y rpa rpb = Ok (p', o) -> withdraw q user' l rpa rpb = Ok (q', o') ->
  glbl_rp q = glbl_rp p -> spacing q = spacing p -> (num l <= num (io_liq o))%Q ->
  (num (io_x o') <= num (io_x o) /\ num (io_y o') <= num (io_y o))%Q.
Proof. exact withdraw_le_deposit. Qed.
Theorem C33_round_trip : forall orc p user x y rpa rpb p' o q' o', reachable orc p -> wf x -> wf y -> wf rpa -> wf rpb ->
  deposit p user x y rpa rpb = Ok (p', o) -> withdraw p' user (io_liq o) rpa rpb = Ok (q', o') ->
  (num (io_x o) * (1 - ulp12) - ulp12 < num (io_x o') /\ num (io_x o') <= num (io_x o))%Q /\
  (num (io_y o) * (1 - ulp12) - ulp12 < num (io_y o') /\ num (io_y o') <= num (io_y o))%Q.
Proof. exact round_trip. Qed.
(** [eve_case] is a concrete round trip. *)

(** ** C51: "no sequence of deposits and withdrawals, without swaps, returns more than was taken" - false by a few units in the
    last place: eve's five dust deposits cost nothing and are then paid from ann's funds. *)
Definition dust_prey : pool := Eval vm_compute in get (start P0 (CDeposit "ann" (units 0) (units 1) (near 4) (near 9) :: repeat (CDeposit "eve" (units 0) (D12 1) (near 4) (near 9)) 5)).
Theorem C51_dust_deposits_refuted : reachable no_orc dust_prey /\
  (num (rx dust_prey) == 0)%Q /\ ry dust_prey = ry (get (start P0 [CDeposit "ann" (units 0) (units 1) (near 4) (near 9)])) /\
  exists p' o, withdraw dust_prey "eve" (D12 19990) (near 4) (near 9) = Ok (p', o) /\ (0 < num (io_y o))%Q /\ ~ can_withdraw p' "ann" (near 4) (near 9).
Proof.
  split; [apply (start_reachable (near 10) 1 (D12 1500000000000) (D12 3000000000) (CDeposit "ann" (units 0) (units 1) (near 4) (near 9) :: repeat (CDeposit "eve" (units 0) (D12 1) (near 4) (near 9)) 5)); vm_compute; reflexivity |].
  split; [vm_compute; reflexivity |]. split; [vm_compute; reflexivity |].
  destruct (withdraw dust_prey "eve" (D12 19990) (near 4) (near 9)) as [[p' o] | | |] eqn:E; [| vm_compute in E; discriminate E ..].
  exists p', o. split; [reflexivity |]. vm_compute in E. injection E as <- <-. split; [vm_compute; reflexivity |].
  intros C. match type of C with can_withdraw ?q _ _ _ => set (pl := q) in C end.
  destruct (C 4 9 (D12 3998900270434428)) as (p' & o & H); [repeat split; vm_compute; try reflexivity; discriminate | vm_compute; discriminate | apply nonneg_12; vm_compute; reflexivity | reflexivity | vm_compute; discriminate |]. vm_compute in H. discriminate.
Qed.

(** ** C34.  The full claim - after any completed swap, a pool with liquidity in range accepts swaps in both directions - is
    false for spacings above 1: an X-in swap can leave the current tick off the spacing grid, and then every Y-in swap panics.
    Proved: the tick lookups succeed and find the nearest active tick in every other case. *)
Theorem C34_left_lookup_partial : forall orc p, reachable orc p -> spacing p < 2 ^ 128 ->
  exists g, get_left_limit p (glbl_tick p) = Ok g /\ match g with Some t => nearest_below p t | None => no_tick_below p end.
Proof. exact left_lookup. Qed.
Theorem C34_right_lookup_partial : forall orc p, reachable orc p -> spacing p < 2 ^ 128 -> glbl_tick p mod spacing p = 0 ->
  exists g, get_right_limit p (glbl_tick p) (glbl_tick p) = Ok g /\ match g with Some t => nearest_above p t | None => no_tick_above p end.
Proof. exact right_lookup. Qed.
Theorem C34_off_grid_stuck : forall orc p dy ro, reachable orc p -> spacing p < 2 ^ 128 -> is_positive (glbl_liq p) = true -> glbl_tick p mod spacing p <> 0 ->
  wf dy -> execute_swap_from_y orc p dy ro = Panic.
Proof. exact unaligned_stuck. Qed.
Definition wide_calls : list call := [CDeposit "ann" (units 1000) (units 1000) (near 10) (near 50); CSwapX (units 200) (units 0)].
Definition wide : pool := Eval vm_compute in get (start (pool_new (near 30) 10 (D12 0) (D12 3000000000)) wide_calls).
Theorem C34_both_directions_refuted : exists p, reachable no_orc p /\ is_positive (glbl_liq p) = true /\
  (forall dy ro, wf dy -> execute_swap_from_y no_orc p dy ro = Panic) /\ exists p' o, execute_swap_from_x no_orc p (units 10) (units 0) = Ok (p', o).
Proof.
  assert (R : reachable no_orc wide) by (apply (start_reachable (near 30) 10 (D12 0) (D12 3000000000) wide_calls); vm_compute; reflexivity).
  exists wide. split; [exact R |]. split; [reflexivity |]. split.
  - intros dy ro Wd. apply unaligned_stuck; auto; vm_compute; congruence.
  - eexists. eexists. vm_compute. reflexivity.
Qed.
Example lookup_case : glbl_tick ex2 = 9 /\ get_left_limit ex2 9 = Ok (Some 8) /\ get_right_limit ex2 9 9 = Ok (Some 12) /\ glbl_tick wide = 26 /\ get_right_limit wide 26 26 = Panic.
Proof. repeat split; vm_compute; reflexivity. Qed.

(** ** C48: "a deposit is never refused because of fee bookkeeping" - false: the growth between two ticks, taken as the growth
    above the lower minus that above the upper one, is negative when only the upper one has recorded fees. *)
Definition lopsided_calls : list call := (calls0 ++ [CSwapY (units 1100) (units 0); CSwapX (units 1000) (units 0)])%list.
Definition lopsided : pool := Eval vm_compute in get (start P0 lopsided_calls).
Theorem C48_deposit_refused_refuted : exists p, reachable no_orc p /\
  (exists p' o, deposit p "cat" (units 10) (units 10) (near 6) (near 14) = Ok (p', o)) /\ (exists p' o, deposit p "cat" (units 10) (units 10) (near 8) (near 12) = Ok (p', o)) /\
  deposit p "cat" (units 10) (units 10) (near 6) (near 12) = Panic /\ fee_rng p 6 12 FX = Panic.
Proof.
  exists lopsided. split; [apply (start_reachable (near 10) 1 (D12 1500000000000) (D12 3000000000) lopsided_calls); vm_compute; reflexivity |].
  split; [eexists; eexists; vm_compute; reflexivity |]. split; [eexists; eexists; vm_compute; reflexivity |]. split; vm_compute; reflexivity.
Qed.

(** ** C49: "a swap larger than the pool can fill is filled in part" - false: the rounded amount for the last tick range can
    exceed the reserve by one unit, and the swap panics, although smaller swaps would have taken the pool as far. *)
Theorem C49_partial_fill_refuted : exists p p' o p'' o', reachable no_orc p /\
  execute_swap_from_x no_orc p (units 1500) (units 0) = Ok (p', o) /\ execute_swap_from_x no_orc p' (units 100) (units 0) = Ok (p'', o') /\ (num (so_recv o') < num (units 100))%Q /\
  execute_swap_from_x no_orc p (units 1600) (units 0) = Panic.
Proof.
  destruct (execute_swap_from_x no_orc ex0 (units 1500) (units 0)) as [[p' o] | | |] eqn:E; [| vm_compute in E; discriminate E ..].
  destruct (execute_swap_from_x no_orc p' (units 100) (units 0)) as [[p'' o'] | | |] eqn:F; [| vm_compute in E; injection E as <- <-; vm_compute in F; discriminate F ..].
  exists ex0, p', o, p'', o'. split; [exact ex0_reachable |]. split; [exact E |]. split; [exact F |]. split; [| vm_compute; reflexivity].
  vm_compute in E. injection E as <- <-. vm_compute in F. injection F as <- <-. vm_compute. reflexivity.
Qed.

Print Assumptions C23_tick_sums.
Print Assumptions C24_active_ticks.
Print Assumptions C25_liquidity_in_range_partial.
Print Assumptions C25_liquidity_in_range_refuted.
Print Assumptions C50_price_near_tick.
Print Assumptions C50_tick_bounded.
Print Assumptions C27_never_negative.
Print Assumptions C27_growth_monotone.
Print Assumptions C47_tick_growth_bounded.
Print Assumptions C29_deposit_exact.
Print Assumptions C29_withdraw_exact.
Print Assumptions C29_empty_position_refuted.
Print Assumptions C30_deposit_frame.
Print Assumptions C30_withdraw_frame.
Print Assumptions C31_new_position_fees_partial.
Print Assumptions C31_no_growth_partial.
Print Assumptions C31_top_up_partial.
Print Assumptions C31_new_position_fees_refuted.
Print Assumptions C32_withdraw_after_swap_refuted.
Print Assumptions C32_withdraw_after_drain_refuted.
Print Assumptions C32_withdraw_dust_refuted.
Print Assumptions C33_withdraw_le_deposit.
Print Assumptions C33_round_trip.
Print Assumptions C51_dust_deposits_refuted.
Print Assumptions C34_left_lookup_partial.
Print Assumptions C34_right_lookup_partial.
Print Assumptions C34_off_grid_stuck.
Print Assumptions C34_both_directions_refuted.
Print Assumptions C48_deposit_refused_refuted.
Print Assumptions C49_partial_fill_refuted.
