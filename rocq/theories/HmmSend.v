(** How a swap step computes the amount paid out (mod.rs:652-764, 913-1022). *)
From Coq Require Import ZArith QArith Qabs Qpower List Bool Lia Lqa.
From Verif Require Import Base BaseLemmas DecimalModel DecimalSpec DecimalProofs SqrtProofs PowProofs WfProofs MathModel MathProofs PoolModel PoolWf SwapLoop LpProofs SwapProofs PoolInv PoolNonneg PoolLp PoolFees PoolScale PowAccuracy PowDec HmmUse.
Open Scope Z_scope.

(** ** One step *)
Lemma within_x_send : forall orc p srp goal liq dx ro w, swap_within_x orc p srp goal liq dx ro = Ok w ->
  dy_from_l_drp liq srp (w_rp w) = Ok (w_send w) \/
  (exists d1 d2, dy_from_l_drp_hmm orc liq srp ro (hmm_c p) ro = Ok d1 /\ dy_from_l_drp liq ro (w_rp w) = Ok d2 /\ d_add d1 d2 = Ok (w_send w) /\ d_lt ro srp = Ok true /\ d_gte ro (w_rp w) = Ok true) \/
  (dy_from_l_drp_hmm orc liq srp (w_rp w) (hmm_c p) ro = Ok (w_send w) /\ d_lt ro (w_rp w) = Ok true).
Proof.
  intros orc p srp goal liq dx ro w H. unfold swap_within_x in H. destruct (is_negative dx); [discriminate |]. bd H rpg G1. bd H gup G2. destruct gup; [discriminate |].
  bd H one G3. bd H ff G4. bd H dxm G5. bd H dbl G6. destruct (is_negative dbl); [discriminate |]. bd H pt G7. bd H t G8. destruct t as [[[[ddx fee] cross] et] erp].
  bd H cp G9. bd H plain G10. bd H ddy G11. bd H adj G12. destruct (is_positive cp) eqn:G13; [discriminate |]. destruct (is_negative adj) eqn:G14; [discriminate |]. bd H ny G15. destruct (is_negative ny) eqn:G16; [discriminate |]. bd H u G17.
  unfold within_new in H. destruct (is_negative ddx); [discriminate |]. destruct (is_positive ddy) eqn:Pd; [discriminate |]. match type of H with context [if (?a || ?b)%bool then _ else _] => destruct (a || b)%bool; [discriminate |] end. destruct (is_negative erp); [discriminate |]. injection H as <-. cbn [w_rp w_send].
  destruct plain; [left; injection G11 as <-; exact G9|]. right. bd G11 a F1. bd G11 b F2. destruct b.
  - left. bd G11 d1 F3. bd G11 d2 F4. destruct (is_positive d1 || is_positive d2)%bool; [discriminate |]. destruct a; [| discriminate]. exists d1, d2. auto 10 using unwrap_ok.
  - right. bd G11 c F3. destruct c; [| discriminate]. auto.
Qed.
Lemma within_y_send : forall orc p srp goal liq dx ro w, swap_within_y orc p srp goal liq dx ro = Ok w ->
  dx_from_l_drp liq srp (w_rp w) = Ok (w_send w) \/
  (exists d1 d2, dx_from_l_drp_hmm orc liq srp ro (hmm_c p) ro = Ok d1 /\ dx_from_l_drp liq ro (w_rp w) = Ok d2 /\ d_add d1 d2 = Ok (w_send w) /\ d_gt ro srp = Ok true /\ d_lte ro (w_rp w) = Ok true) \/
  (dx_from_l_drp_hmm orc liq srp (w_rp w) (hmm_c p) ro = Ok (w_send w) /\ d_gt ro (w_rp w) = Ok true).
Proof.
  intros orc p srp goal liq dx ro w H. unfold swap_within_y in H. destruct (is_negative dx); [discriminate |]. bd H rpg G1. bd H gup G2. destruct gup; [discriminate |].
  bd H one G3. bd H ff G4. bd H dxm G5. bd H dbl G6. destruct (is_negative dbl); [discriminate |]. bd H pt G7. bd H t G8. destruct t as [[[[ddx fee] cross] et] erp].
  bd H cp G9. bd H plain G10. bd H ddy G11. bd H adj G12. destruct (is_positive cp) eqn:G13; [discriminate |]. destruct (is_negative adj) eqn:G14; [discriminate |]. bd H ny G15. destruct (is_negative ny) eqn:G16; [discriminate |]. bd H u G17.
  unfold within_new in H. destruct (is_negative ddx); [discriminate |]. destruct (is_positive ddy) eqn:Pd; [discriminate |]. match type of H with context [if (?a || ?b)%bool then _ else _] => destruct (a || b)%bool; [discriminate |] end. destruct (is_negative erp); [discriminate |]. injection H as <-. cbn [w_rp w_send].
  destruct plain; [left; injection G11 as <-; exact G9|]. right. bd G11 a F1. bd G11 b F2. destruct b.
  - left. bd G11 d1 F3. bd G11 d2 F4. destruct (is_positive d1 || is_positive d2)%bool; [discriminate |]. destruct a; [| discriminate]. exists d1, d2. auto 10 using unwrap_ok.
  - right. bd G11 c F3. destruct c; [| discriminate]. auto.
Qed.
