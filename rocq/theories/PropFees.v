(** Properties C60, C61 and a further part of C32: who is credited with the fees of a swap, and whether the pots can pay. *)
From Coq Require Import ZArith QArith Qminmax List Bool Lia Lqa String.
From Verif Require Import Base DecimalModel DecimalSpec WfProofs MathModel MathProofs PoolModel PoolWf LpProofs SwapLoop SwapProofs PoolInv PoolNonneg PoolLp PoolFees PoolRange PoolScale PoolGain PoolExit Concrete Examples PropPool PropLp SwapCover PropWorth FeeCredit FeePots.
Import ListNotations.
Open Scope string_scope. Open Scope Z_scope.

Lemma earned_nn : forall p p' k, tick_inv p -> quiet p p' -> (0 <= earned p p' k)%Q.
Proof.
  intros p p' k T Q. unfold earned. rewrite weighted_psum. apply qsum_nn. intros [[u lo] up] q Hi. cbn [kw]. destruct (pos_keys _ _ _ _ _ T Hi) as (_ & Nq & _).
  destruct (Qlt_le_dec 0 (num (p_liq q))) as [P | Z]; [| assert (Z0 : (num (p_liq q) == 0)%Q) by lra; rewrite Z0; lra]. destruct (quiet_credited _ _ T Q _ _ _ _ k Hi P) as [X _]. apply Qmult_le_0_compat; lra.
Qed.

(** ** C60.  [inside p lo up k]: growth of kind [k] per unit of liquidity in the range (PoolFees.v); [earned p p' k]: its rise, times
    liquidity, summed over all positions; [all_liq p]: the liquidity of all positions.
    A swap credits the positions with what it charges - the fee in the token sold, the adjustment in the token bought - up to
    one unit of 10^-12 per unit of liquidity and tick crossed, never more than it charges; nothing of the other two kinds.
    Positions whose range lies to one side of the whole price movement get nothing, nobody loses ([credited]); a wider
    range gets at least as much per unit, and the same if the price started and ended inside the narrower one ([nested]). *)
Theorem C60_swap_x_credits : forall orc p dx ro p' o, reachable orc p -> liq_inv p -> wf dx -> wf ro -> execute_swap_from_x orc p dx ro = Ok (p', o) ->
  (num (so_recv o) < num dx)%Q \/ clear_of_ticks p' ->
  positions p' = positions p /\
  (earned p p' FX <= num (so_fee o) /\ num (so_fee o) <= earned p p' FX + ulp12 * all_liq p * (qlen (ticks p) + 1))%Q /\
  (earned p p' HY <= num (so_adj o) /\ num (so_adj o) <= earned p p' HY + ulp12 * all_liq p * (qlen (ticks p) + 1))%Q /\
  (earned p p' FY == 0 /\ earned p p' HX == 0)%Q /\ credited p p' /\ nested p p'.
Proof.
  intros orc p dx ro p' o R L Wd Wo H D. destruct (swap_x_credit _ _ _ _ _ _ R L Wd Wo H D) as (P & S & Q). pose proof (reachable_ticks _ _ R) as T. split; auto.
  pose proof (swap_x_accounting orc p dx ro p' o (proj1 T) Wd Wo H) as A. assert (A1 : (num (x_fee p') == num (x_fee p) + num (so_fee o) /\ num (y_adj p') == num (y_adj p) + num (so_adj o))%Q /\ y_fee p' = y_fee p /\ x_adj p' = x_adj p) by tauto. clear A. destruct A1 as ((A1 & A2) & A3 & A4).
  pose proof (S FX) as S1. pose proof (S FY) as S2. pose proof (S HX) as S3. pose proof (S HY) as S4. unfold pot_q in S1, S2, S3, S4. rewrite A3 in S2. rewrite A4 in S3. pose proof (earned_nn _ _ FY T Q). pose proof (earned_nn _ _ HX T Q).
  split; [lra |]. split; [lra |]. split; [lra |]. split; [apply quiet_credited; auto | apply quiet_nested; auto].
Qed.
Theorem C60_swap_y_credits : forall orc p dy ro p' o, reachable orc p -> liq_inv p -> wf dy -> wf ro -> execute_swap_from_y orc p dy ro = Ok (p', o) ->
  (num (so_recv o) < num dy)%Q \/ clear_of_ticks p' ->
  positions p' = positions p /\
  (earned p p' FY <= num (so_fee o) /\ num (so_fee o) <= earned p p' FY + ulp12 * all_liq p * (qlen (ticks p) + 1))%Q /\
  (earned p p' HX <= num (so_adj o) /\ num (so_adj o) <= earned p p' HX + ulp12 * all_liq p * (qlen (ticks p) + 1))%Q /\
  (earned p p' FX == 0 /\ earned p p' HY == 0)%Q /\ credited p p' /\ nested p p'.
Proof.
  intros orc p dx ro p' o R L Wd Wo H D. destruct (swap_y_credit _ _ _ _ _ _ R L Wd Wo H D) as (P & S & Q). pose proof (reachable_ticks _ _ R) as T. split; auto.
  pose proof (swap_y_accounting orc p dx ro p' o (proj1 T) Wd Wo H) as A. assert (A1 : (num (y_fee p') == num (y_fee p) + num (so_fee o) /\ num (x_adj p') == num (x_adj p) + num (so_adj o))%Q /\ x_fee p' = x_fee p /\ y_adj p' = y_adj p) by tauto. clear A. destruct A1 as ((A1 & A2) & A3 & A4).
  pose proof (S FX) as S1. pose proof (S FY) as S2. pose proof (S HX) as S3. pose proof (S HY) as S4. unfold pot_q in S1, S2, S3, S4. rewrite A3 in S1. rewrite A4 in S4. pose proof (earned_nn _ _ FX T Q). pose proof (earned_nn _ _ HY T Q).
  split; [lra |]. split; [lra |]. split; [lra |]. split; [apply quiet_credited; auto | apply quiet_nested; auto].
Qed.
(** 1200 X crosses ticks of [ex0]: about 3.6 X of fees are credited; the allowance is a thousandth of that. *)
Example C60_case : reachable no_orc ex0 /\ liq_inv ex0 /\ execute_swap_from_x no_orc ex0 (units 1200) (near 7) = Ok (calm1, out1) /\ clear_of_ticks calm1 /\
  (3 < earned ex0 calm1 FX /\ ulp12 * all_liq ex0 * (qlen (ticks ex0) + 1) < 1 # 1000)%Q /\
  (0 < inside calm1 8 12 FX - inside ex0 8 12 FX)%Q /\ (inside calm1 8 12 FX - inside ex0 8 12 FX < inside calm1 4 16 FX - inside ex0 4 16 FX)%Q.
Proof.
  split; [exact ex0_reachable |]. split; [apply liq_ok; vm_compute; reflexivity |]. split; [exact swap1_runs |]. split; [exact calm1_clear |].
  split; [split; vm_compute; reflexivity |]. split; vm_compute; reflexivity.
Qed.
Lemma calm1_reachable : reachable no_orc calm1.
Proof. apply (start_reachable (near 10) 1 (D12 1500000000000) (D12 3000000000) (calls0 ++ [CSwapX (units 1200) (near 7)])); vm_compute; reflexivity. Qed.
Example C60_case_y : reachable no_orc calm1 /\ liq_inv calm1 /\ execute_swap_from_y no_orc calm1 (units 1200) (near 11) = Ok (calm2, out2) /\ clear_of_ticks calm2 /\ (3 < earned calm1 calm2 FY)%Q.
Proof.
  split; [exact calm1_reachable |]. split; [apply liq_ok; vm_compute; reflexivity |]. split; [exact swap2_runs |]. split; [exact calm2_clear |]. vm_compute; reflexivity.
Qed.

(** ** C61.  The full claim: each pot holds at least what all positions together are due from it.
    [backed p]: no position is due a negative amount, and for each kind the sum of
    liquidity * (growth inside the range - growth already paid for) over all positions is at most the pot. *)
(** False: as soon as eve opens her position in [ex2] (C31) the positions are due more X than the pot holds. *)
Definition eve_pool : pool := Eval vm_compute in match eve_in with Ok (p, _) => p | _ => ex2 end.
Theorem C61_pots_backed_refuted : reachable no_orc eve_pool /\ ~ backed eve_pool /\ (dues eve_pool FX > pot_q eve_pool FX + 2)%Q.
Proof.
  split; [| split].
  - apply (start_reachable (near 10) 1 (D12 1500000000000) (D12 3000000000) (calls0 ++ [swap1; swap2; CDeposit "eve" (units 1000) (units 1000) (near 4) (near 16)])); vm_compute; reflexivity.
  - intros B. destruct (B FX) as [_ X]. vm_compute in X. apply X. reflexivity.
  - vm_compute. reflexivity.
Qed.
(** Proved: it holds in every history of deposits, withdrawals and swaps in which
    - new positions are opened only where no growth is recorded inside the range (new ticks, or no fees collected yet), and
    - no completely filled swap ends within one tick of an active tick (C25). *)
Theorem C61_pots_backed_partial : forall orc p, steady orc p -> backed p.
Proof. exact steady_backed. Qed.
Lemma calm_deposit : forall orc p u x y a b p' o, steady orc p -> call_wf (CDeposit u x y a b) -> deposit p u x y a b = Ok (p', o) -> (forall k, (num (g_fee (gs p) k) == 0)%Q) -> steady orc p'.
Proof. intros orc p u x y a b p' o S C H G. apply (st_deposit _ _ _ _ _ _ _ _ _ S C H). intros lo up _ _ k. exact (C31_no_growth_partial _ _ (tidy_reachable _ _ (steady_tidy _ _ S)) G lo up k). Qed.
Lemma calm2_steady : steady no_orc calm2.
Proof.
  assert (W : Forall call_wf calls0) by (apply calls_wf; vm_compute; reflexivity). inversion W as [| ? ? W1 W']; subst. inversion W' as [| ? ? W2 _]; subst. clear W W'.
  assert (Wu : wf (units 1200)) by (apply wfb_wf; vm_compute; reflexivity). assert (W7 : wf (near 7)) by (apply wfb_wf; vm_compute; reflexivity). assert (W11 : wf (near 11)) by (apply wfb_wf; vm_compute; reflexivity).
  refine (st_swap_y no_orc calm1 (units 1200) (near 11) calm2 out2 _ Wu W11 swap2_runs (or_intror calm2_clear)).
  refine (st_swap_x no_orc ex0 (units 1200) (near 7) calm1 out1 _ Wu W7 swap1_runs (or_intror calm1_clear)). clear Wu W7 W11.
  destruct P0 as [p0 | | |] eqn:E0; [| vm_compute in E0; discriminate E0 ..].
  assert (S0 : steady no_orc p0) by (refine (st_new _ _ _ _ _ _ _ _ _ _ E0); try (apply wfb_wf; vm_compute; reflexivity); discriminate).
  destruct (deposit p0 "ann" (units 1000) (units 1000) (near 4) (near 16)) as [[p1 o1] | | |] eqn:E1; [| clear - E0 E1; vm_compute in E0; injection E0 as <-; vm_compute in E1; discriminate E1 ..].
  assert (S1 : steady no_orc p1). { apply (calm_deposit _ _ _ _ _ _ _ _ _ S0 W1 E1). clear - E0. vm_compute in E0. injection E0 as <-. intros k; destruct k; vm_compute; reflexivity. }
  destruct (deposit p1 "bob" (units 500) (units 500) (near 8) (near 12)) as [[p2 o2] | | |] eqn:E2; [| clear - E0 E1 E2; vm_compute in E0; injection E0 as <-; vm_compute in E1; injection E1 as <- <-; vm_compute in E2; discriminate E2 ..].
  assert (S2 : steady no_orc p2). { apply (calm_deposit _ _ _ _ _ _ _ _ _ S1 W2 E2). clear - E0 E1. vm_compute in E0. injection E0 as <-. vm_compute in E1. injection E1 as <- <-. intros k; destruct k; vm_compute; reflexivity. }
  assert (X : p2 = ex0). { clear - E0 E1 E2. vm_compute in E0. injection E0 as <-. vm_compute in E1. injection E1 as <- <-. vm_compute in E2. injection E2 as <- <-. reflexivity. }
  rewrite <- X. exact S2.
Qed.
(** In [calm2] more than 3 X and 3 Y of fees are due. *)
Example C61_case : steady no_orc calm2 /\ (3 < dues calm2 FX /\ 3 < dues calm2 FY)%Q /\ (dues calm2 FX <= pot_q calm2 FX)%Q.
Proof. split; [exact calm2_steady |]. split; [split; vm_compute; reflexivity | vm_compute; discriminate]. Qed.

(** ** C32 again: in the histories of C61 neither growth, pots nor the liquidity in range can stand in the way of a withdrawal;
    what remains are reserves short by rounding (the first witness) and the 128 bits. *)
Theorem C32_withdraw_steady_partial : forall orc p user l rpa rpb lo up, steady orc p -> wf rpa -> wf rpb -> range_of p rpa rpb lo up -> up < 2 ^ 19 ->
  nonneg l -> dscale l = 12 -> (0 < num l)%Q -> (num l <= liq_of p (user, lo, up))%Q -> (forall k, pot_q p k < max12 * ulp12)%Q ->
  computable p lo up (dval l) ->
  (inject_Z (cut (claim_x p (user, lo, up) (dval l))) * ulp12 <= num (rx p) /\ inject_Z (cut (claim_y p (user, lo, up) (dval l))) * ulp12 <= num (ry p))%Q ->
  (num (rx p) + num (x_fee p) + num (x_adj p) < max12 /\ num (ry p) + num (y_fee p) + num (y_adj p) < max12)%Q ->
  exists p' o, withdraw p user l rpa rpb = Ok (p', o).
Proof. exact steady_withdraw. Qed.
Example C32_steady_case : steady no_orc calm2 /\ (num (D12 a_liq) <= liq_of calm2 ann_key)%Q /\ (forall k, pot_q calm2 k < max12 * ulp12)%Q /\ computable calm2 a_lo a_up a_liq /\
  (inject_Z (cut (claim_x calm2 ann_key a_liq)) * ulp12 <= num (rx calm2) /\ inject_Z (cut (claim_y calm2 ann_key a_liq)) * ulp12 <= num (ry calm2))%Q /\
  (num (rx calm2) + num (x_fee calm2) + num (x_adj calm2) < max12 /\ num (ry calm2) + num (y_fee calm2) + num (y_adj calm2) < max12)%Q.
Proof.
  split; [exact calm2_steady |]. split; [vm_compute; discriminate |]. split; [intros k; destruct k; vm_compute; reflexivity |].
  split; [repeat split; vm_compute; reflexivity |]. split; [split; vm_compute; discriminate | split; vm_compute; reflexivity].
Qed.

Print Assumptions C60_swap_x_credits.
Print Assumptions C60_swap_y_credits.
Print Assumptions C61_pots_backed_refuted.
Print Assumptions C61_pots_backed_partial.
Print Assumptions C32_withdraw_steady_partial.
