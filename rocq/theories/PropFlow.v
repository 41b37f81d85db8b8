(** Properties C92 to C94 of the f64 pool: the funds it records, the liquidity in force and its reserves. *)
From Coq Require Import ZArith QArith Reals Qreals Lra Lia List Bool String Floats.SpecFloat.
From Flocq Require Import Core BinarySingleNaN.
From Verif Require Import Base FloatBase FloatModel FloatFacts FloatWf FloatSwap FloatLp FloatBook FloatWit FloatFlow.
Import ListNotations.
Open Scope R_scope.

(** the rational value of a finite f64 number *)
Definition fq (x : f64) : Q :=
  match x with
  | S754_finite s m e => ((if s then Zneg m else Zpos m) * 2 ^ Z.max e 0 # Z.to_pos (2 ^ Z.max (- e) 0))%Q
  | _ => 0%Q
  end.
Lemma fq_val x : fval x = Q2R (fq x).
Proof.
  destruct x as [s|s| |s m e]; try (unfold fval, fq, Q2R; cbn; lra).
  unfold fval, fq, SF2R, F2R, Q2R. cbn [Fnum Fexp Qnum Qden]. rewrite Z2Pos.id by (apply Z.pow_pos_nonneg; lia).
  destruct (Z.le_ge_cases 0 e) as [E|E].
  - rewrite (Z.max_l e 0 E), (Z.max_r (- e) 0) by lia. rewrite mult_IZR. change (2 ^ e)%Z with (radix2 ^ e)%Z. rewrite (IZR_Zpower radix2 e E). change (2 ^ 0)%Z with 1%Z. destruct s; cbn [cond_Zopp Z.opp]; rewrite Rinv_1; ring.
  - rewrite (Z.max_r e 0 E), (Z.max_l (- e) 0) by lia. change (2 ^ (- e))%Z with (radix2 ^ (- e))%Z. rewrite (IZR_Zpower radix2 (- e)) by lia. rewrite bpow_opp, Rinv_inv. change (2 ^ 0)%Z with 1%Z. rewrite Z.mul_1_r. destruct s; reflexivity.
Qed.

(** ** C92: at every reachable state of the f64 pool the recorded amounts of a token (backing liquidity, HMM adjustments and fees together) are what users
    were told they paid in minus what they were told they received, up to rounding: at most 24 units of relative rounding error 2^-53 of the largest amount
    involved, per call and loop pass.  [flow lm B p N X Y]: [p] is reached by [N] calls and loop passes with all amounts within [B], the printed amounts
    adding up to [X] and [Y].  Any number of calls, any math library. *)
Theorem C92_f64_flow : forall lm B p N X Y, libm_ok lm -> 0 <= B <= bpow radix2 1000 -> flow lm B p N X Y ->
  Rabs ((fval (fx p) + fval (fx_adj p) + fval (fx_fee p)) - X) <= INR N * (24 * bpow radix2 (-53) * B) /\
  Rabs ((fval (fy p) + fval (fy_adj p) + fval (fy_fee p)) - Y) <= INR N * (24 * bpow radix2 (-53) * B).
Proof. intros lm B p N X Y LM [P G] F. exact (flow_kept lm LM B p N X Y P G F). Qed.
(** The same for one call, from any reachable state. *)
Theorem C92_f64_deposit : forall lm B p u x y a b p' xd yd, libm_ok lm -> 0 <= B <= bpow radix2 1000 -> freach lm p -> f64_ok x -> f64_ok y ->
  fdeposit lm p u x y a b = Ok (p', xd, yd) -> funds_within B p -> funds_within B p' ->
  Rabs (((fval (fx p') + fval (fx_adj p') + fval (fx_fee p')) - (fval (fx p) + fval (fx_adj p) + fval (fx_fee p))) - fval xd) <= 24 * bpow radix2 (-53) * B /\
  Rabs (((fval (fy p') + fval (fy_adj p') + fval (fy_fee p')) - (fval (fy p) + fval (fy_adj p) + fval (fy_fee p))) - fval yd) <= 24 * bpow radix2 (-53) * B.
Proof.
  intros lm B p u x y a b p' xd yd LM [P G] R X Y H W W'.
  exact (dep_flow lm LM B p u x y a b p' xd yd P (room _ G) (freach_ok lm LM p R) W X Y H W').
Qed.

(** A history of three calls: two deposits and an X swap that first has to move down into the ranges. *)
Definition ev_dep (p : fpool) (e : fev) : fpool * f64 * f64 :=
  match e with EDep u x y a b => get (nopool, f_zero, f_zero) (fdeposit wlm p u x y a b) | _ => (nopool, f_zero, f_zero) end.
Definition noout : fswap_out := mkFSO f_zero f_zero f_zero f_zero f_zero f_zero.
Definition c1 := Eval vm_compute in ev_dep over_p0 (nth 0 over_evs over_last).
Definition c2 := Eval vm_compute in ev_dep (fst (fst c1)) (nth 1 over_evs over_last).
Definition c3 := Eval vm_compute in match over_last with EX d o => get (nopool, noout) (fexecute_swap_x wlm 5 (fst (fst c2)) d o) | _ => (nopool, noout) end.
Definition lim : f64 := f_int 1024.
Definition small (x : f64) : bool := valid_binary 53 1024 x && f_finite x && fle x lim && fle (fneg lim) x.
Lemma lim_ok : fok lim /\ fval lim = 1024. Proof. apply f_int_R. lia. Qed.
Lemma small_ok x : small x = true -> fok x /\ Rabs (fval x) <= 1024.
Proof.
  intros H. unfold small in H. apply andb_prop in H as [H H4]. apply andb_prop in H as [H H3]. apply andb_prop in H as [H1 H2].
  assert (F : fok x) by (split; assumption). destruct lim_ok as [L1 L2]. split; [exact F|].
  apply fle_t in H3; [|assumption..]. apply fle_t in H4; [|now apply fok_neg|assumption]. rewrite fval_opp in H4. rewrite L2 in *. apply Rabs_le. lra.
Qed.
Lemma funds_small p : small (fx p) && small (fy p) && small (fx_adj p) && small (fy_adj p) && small (fx_fee p) && small (fy_fee p) = true -> funds_within 1024 p.
Proof.
  intros H. repeat (let E := fresh "E" in apply andb_prop in H as [H E]; apply small_ok in E). apply small_ok in H. repeat split; assumption || apply H || apply E || apply E0 || apply E1 || apply E2 || apply E3.
Qed.
Lemma c_flow : flow wlm 1024 (fst c3) 7 (0 + fval (snd (fst c1)) + fval (snd (fst c2)) + fval (fso_recv (snd c3))) (0 + fval (snd c1) + fval (snd c2) + fval (fso_send (snd c3))).
Proof.
  assert (F0 : flow wlm 1024 over_p0 0 0 0) by (refine (fl_new wlm 1024 _ _ _ _ _ _ _ over_new_ok); vm_compute; reflexivity).
  assert (F1 : flow wlm 1024 (fst (fst c1)) 1 (0 + fval (snd (fst c1))) (0 + fval (snd c1))).
  { refine (fl_dep wlm 1024 _ _ _ _ "b"%string (F 5951285662696485 (-43)) (F 7089411561201777 (-46)) (F 7737284217241689 (-47)) (F 7738444838888606 (-47)) _ _ _ F0 _ _ _ _);
      [vm_compute; reflexivity..|apply funds_small; vm_compute; reflexivity]. }
  assert (F2 : flow wlm 1024 (fst (fst c2)) 2 (0 + fval (snd (fst c1)) + fval (snd (fst c2))) (0 + fval (snd c1) + fval (snd c2))).
  { refine (fl_dep wlm 1024 _ _ _ _ "a"%string (F 8271416552211418 (-47)) (F 7434951320265212 (-43)) (F 7651114394152370 (-47)) (F 7680626483309814 (-47)) _ _ _ F1 _ _ _ _);
      [vm_compute; reflexivity..|apply funds_small; vm_compute; reflexivity]. }
  refine (fl_x wlm 1024 _ _ _ _ 5 (F 6771817404817449 (-55)) (F 7741076222393877 (-47)) _ _ F2 _ _ _ _ _ _ _).
  - split; reflexivity.
  - refine (proj2 (Rabs_le_inv _ _ (proj2 (small_ok _ _)))). vm_compute. reflexivity.
  - reflexivity.
  - vm_compute. reflexivity.
  - apply funds_small. vm_compute. reflexivity.
  - split; vm_compute; reflexivity.
  - refine (proj1 (Rabs_le_inv _ _ (proj2 (small_ok _ _)))). vm_compute. reflexivity.
Qed.
Example C92_case : exists p X Y, flow wlm 1024 p 7 X Y /\ List.length (fpositions p) = 2%nat /\ List.length (fticks p) = 4%nat /\ (fglbl_tick p < fglbl_tick over_p0)%Z.
Proof. exists (fst c3). eexists _, _. split; [exact c_flow|]. repeat split; vm_compute; reflexivity. Qed.
(** False without the allowance: after these three calls the pool records less of token X than it was paid. *)
Theorem C92_f64_flow_exact_refuted : exists lm B p N X Y, libm_ok lm /\ flow lm B p N X Y /\ fval (fx p) + fval (fx_adj p) + fval (fx_fee p) < X.
Proof.
  exists wlm, 1024, (fst c3), 7%nat. eexists _, _. split; [exact wlm_ok|]. split; [exact c_flow|].
  rewrite !fq_val. replace 0 with (Q2R 0) by apply RMicromega.Q2R_0. rewrite <- !Q2R_plus. apply Qlt_Rlt. vm_compute. reflexivity.
Qed.
Print Assumptions C92_f64_flow.
Print Assumptions C92_f64_deposit.
Print Assumptions C92_f64_flow_exact_refuted.

(** ** C93: the liquidity in force is the total of the positions whose range contains the current tick.  Deposits and withdrawals of whole liquidity keep it so,
    whatever happened before, and new pools start so; hence it holds in every history without swaps. *)
Definition in_force_right (p : fpool) : Prop :=
  exists zs : list (fkey * Z),
    Forall2 (fun kv kz => fst kv = fst kz /\ fint (fp_liq (snd kv)) (snd kz) /\ (0 <= snd kz)%Z) (fpositions p) zs /\
    fint (fglbl_liq p) (fold_right Z.add 0%Z (map (fun kz => if (snd (fst (fst kz)) <=? fglbl_tick p)%Z && (fglbl_tick p <? snd (fst kz))%Z then snd kz else 0%Z) zs)).
Lemma in_force_backed p : in_force_right p <-> backed p.
Proof.
  assert (E : forall zs t, fold_right Z.add 0%Z (map (fun kz : fkey * Z => if (snd (fst (fst kz)) <=? t)%Z && (t <? snd (fst kz))%Z then snd kz else 0%Z) zs) = zsum (inside t) zs).
  { intros zs t. induction zs as [|[k z] zs IH]; [reflexivity|]. cbn [map fold_right zsum fst snd]. rewrite IH. unfold inside. destruct (_ && _); lia. }
  split; intros (zs & A & B); exists zs; (split; [exact A|]); [rewrite <- E|rewrite E]; exact B.
Qed.
Inductive lp_whole (lm : libm) : fpool -> Z -> Prop :=
| lw_new rp s c r p : f64_ok c -> f64_ok r -> fpool_new lm rp s c r = Ok p -> lp_whole lm p 0
| lw_dep p T u x y a b p' xd yd z : lp_whole lm p T -> f64_ok x -> f64_ok y -> fdeposit lm p u x y a b = Ok (p', xd, yd) ->
    fint (dep_liq lm p x y a b) z -> (Z.abs z < 2 ^ 52)%Z -> (T + z < 2 ^ 52)%Z -> lp_whole lm p' (T + z)
| lw_wd p T u l a b p' xs ys z : lp_whole lm p T -> fwithdraw lm p u l a b = Ok (p', xs, ys) -> fint l z -> (z < 2 ^ 52)%Z -> lp_whole lm p' (T - z).
Theorem C93_f64_in_force_partial : forall lm, libm_ok lm ->
  (forall p T, lp_whole lm p T -> in_force_right p) /\
  (forall p T u x y a b p' xd yd z, wreach lm p T -> f64_ok x -> f64_ok y -> fdeposit lm p u x y a b = Ok (p', xd, yd) ->
     fint (dep_liq lm p x y a b) z -> (Z.abs z < 2 ^ 52)%Z -> (T + z < 2 ^ 52)%Z -> in_force_right p -> in_force_right p') /\
  (forall p T u l a b p' xs ys z, wreach lm p T -> fwithdraw lm p u l a b = Ok (p', xs, ys) -> fint l z -> (z < 2 ^ 52)%Z -> in_force_right p -> in_force_right p').
Proof.
  intros lm LM.
  assert (D : forall p T u x y a b p' xd yd z, wreach lm p T -> f64_ok x -> f64_ok y -> fdeposit lm p u x y a b = Ok (p', xd, yd) ->
     fint (dep_liq lm p x y a b) z -> (Z.abs z < 2 ^ 52)%Z -> (T + z < 2 ^ 52)%Z -> in_force_right p -> in_force_right p').
  { intros p T u x y a b p' xd yd z W X Y E F Z1 Z2 B. apply in_force_backed. apply in_force_backed in B. exact (dep_backed lm LM _ _ _ _ _ _ _ _ _ _ _ W X Y E F Z1 Z2 B). }
  assert (V : forall p T u l a b p' xs ys z, wreach lm p T -> fwithdraw lm p u l a b = Ok (p', xs, ys) -> fint l z -> (z < 2 ^ 52)%Z -> in_force_right p -> in_force_right p').
  { intros p T u l a b p' xs ys z W E F Z1 B. apply in_force_backed. apply in_force_backed in B. exact (wd_backed lm LM _ _ _ _ _ _ _ _ _ _ W E F Z1 B). }
  split; [|split; [exact D|exact V]]. intros p T L. assert (Q : wreach lm p T /\ in_force_right p); [|apply Q].
  induction L as [rp s c r p C R E|p T u x y a b p' xd yd z L [IW IB] X Y E F Z1 Z2|p T u l a b p' xs ys z L [IW IB] E F Z1].
  - split; [exact (wr_new lm _ _ _ _ _ C R E)|]. apply in_force_backed. exact (new_backed lm _ _ _ _ _ E).
  - split; [exact (wr_dep lm _ _ _ _ _ _ _ _ _ _ _ IW X Y E F Z1 Z2)|]. exact (D _ _ _ _ _ _ _ _ _ _ _ IW X Y E F Z1 Z2 IB).
  - split; [exact (wr_wd lm _ _ _ _ _ _ _ _ _ _ IW E F Z1)|]. exact (V _ _ _ _ _ _ _ _ _ _ IW E F Z1 IB).
Qed.
(** the states of the two runs named edge and drain of FloatWit.v *)
Definition after (p : fpool) (es : list fev) (n : nat) : fpool := get nopool (frun p (firstn n es)).
Definition e1 : fpool := Eval vm_compute in after drain_p0 drain_evs 1.
Definition e2 : fpool := Eval vm_compute in after drain_p0 drain_evs 2.
Definition e3 : fpool := Eval vm_compute in after drain_p0 drain_evs 3.
Definition e6 : fpool := Eval vm_compute in after drain_p0 drain_evs 6.
Definition q30 := F 8444249301319680 (-48).
Definition q150 := F 5277655813324800 (-45).
Definition qlo := F 8984433457645250 (-52).
Definition qup := F 4516087485598202 (-51).
Lemma e1_dep : exists xd yd, fdeposit wlm drain_p0 "a" q30 q150 qlo qup = Ok (e1, xd, yd).
Proof. eexists _, _. vm_compute. reflexivity. Qed.
Lemma e1_whole : fint (dep_liq wlm drain_p0 q30 q150 qlo qup) 21458.
Proof. replace (dep_liq wlm drain_p0 q30 q150 qlo qup) with (f_int 21458) by (vm_compute; reflexivity). apply fint_int. lia. Qed.
Lemma e1_reach : wreach wlm e1 21458.
Proof.
  destruct e1_dep as (xd & yd & E). refine (wr_dep wlm _ 0 _ _ _ _ _ _ _ _ 21458 _ _ _ E e1_whole _ _); try lia; try reflexivity.
  refine (wr_new wlm _ _ _ _ _ _ _ drain_new_ok); vm_compute; reflexivity.
Qed.
Lemma e2_reach : wreach wlm e2 21458.
Proof. refine (wr_y wlm _ _ 50 (F 8492479242139049 (-46)) (F 5629499534213120 (-50)) _ _ e1_reach _ _ _); vm_compute; reflexivity. Qed.
Lemma e3_reach : wreach wlm e3 (21458 - 21458).
Proof.
  assert (E : exists xs ys, fwithdraw wlm e2 "a" (f_int 21458) qlo qup = Ok (e3, xs, ys)) by (eexists _, _; vm_compute; reflexivity).
  destruct E as (xs & ys & E). refine (wr_wd wlm _ _ _ _ _ _ _ _ _ _ e2_reach E _ _); [apply fint_int; lia|lia].
Qed.
(** False after swaps: one deposit of 21458, then a Y swap that ends exactly at the upper end of its range.  No position contains the tick, the liquidity stays in force.
    When the provider withdraws everything, the pool has no positions and no active ticks, but still claims a liquidity of 21458. *)
Theorem C93_f64_in_force_refuted : exists lm p T p' , libm_ok lm /\ wreach lm p T /\ ~ in_force_right p /\
  wreach lm p' 0 /\ ~ in_force_right p' /\ fpositions p' = [] /\ fticks p' = [] /\ fint (fglbl_liq p') 21458.
Proof.
  exists wlm, e2, 21458%Z, e3. split; [exact wlm_ok|]. split; [exact e2_reach|].
  assert (N : forall zs, wholes (fpositions e2) zs -> zsum (inside (fglbl_tick e2)) zs = 0%Z).
  { intros zs W. inversion W as [|x [k z] l l' (A & _) W']; subst. inversion W'; subst. cbn in A. subst k. reflexivity. }
  assert (L : fint (fglbl_liq e2) 21458 /\ fint (fglbl_liq e3) 21458).
  { split; [replace (fglbl_liq e2) with (f_int 21458) by (vm_compute; reflexivity)|replace (fglbl_liq e3) with (f_int 21458) by (vm_compute; reflexivity)]; apply fint_int; lia. }
  destruct L as [L2 L3]. split; [|split; [exact e3_reach|]].
  - intros H. apply in_force_backed in H. destruct H as (zs & W & F). rewrite (N zs W) in F. pose proof (fint_inj _ _ _ F L2). discriminate.
  - split; [|split; [reflexivity|split; [reflexivity|exact L3]]].
    intros H. apply in_force_backed in H. destruct H as (zs & W & F). inversion W; subst. pose proof (fint_inj _ _ _ F L3). discriminate.
Qed.
(** a history the positive part applies to: the deposit alone *)
Example C93_case : lp_whole wlm e1 21458 /\ List.length (fpositions e1) = 1%nat /\ fint (fglbl_liq e1) 21458.
Proof.
  split; [|split; [reflexivity|replace (fglbl_liq e1) with (f_int 21458) by (vm_compute; reflexivity); apply fint_int; lia]].
  destruct e1_dep as (xd & yd & E). refine (lw_dep wlm _ 0 _ _ _ _ _ _ _ _ 21458 _ _ _ E e1_whole _ _); try lia; try reflexivity.
  refine (lw_new wlm _ _ _ _ _ _ _ drain_new_ok); vm_compute; reflexivity.
Qed.
Print Assumptions C93_f64_in_force_partial.
Print Assumptions C93_f64_in_force_refuted.

(** ** C94: the f64 pool never records a negative amount.  Swaps cannot make a reserve negative when there is no HMM adjustment (c = 0), and otherwise by no more than
    five units of rounding of the reserve they started from; the funds they pay into only grow. *)
Theorem C94_f64_reserves_partial : forall lm p n amt o p' out, libm_ok lm -> freach lm p -> f64_ok amt -> f64_ok o ->
  funds_ge0 p -> funds_fin p' -> fok (fso_recv out) -> fok (fso_send out) ->
  (fexecute_swap_x lm n p amt o = Ok (p', out) ->
     (0 <= fval (fx p') /\ 0 <= fval (fx_adj p') /\ 0 <= fval (fy_adj p') /\ 0 <= fval (fx_fee p') /\ 0 <= fval (fy_fee p')) /\
     - (5 * bpow radix2 (-53)) * fval (fy p) <= fval (fy p') /\ (feq (f_c p) f_zero = true -> 0 <= fval (fy p'))) /\
  (fexecute_swap_y lm n p amt o = Ok (p', out) ->
     (0 <= fval (fy p') /\ 0 <= fval (fx_adj p') /\ 0 <= fval (fy_adj p') /\ 0 <= fval (fx_fee p') /\ 0 <= fval (fy_fee p')) /\
     - (5 * bpow radix2 (-53)) * fval (fx p) <= fval (fx p') /\ (feq (f_c p) f_zero = true -> 0 <= fval (fx p'))).
Proof.
  intros lm p n amt o p' out LM R A O G F F1 F2. assert (K := freach_ok lm LM p R). split; intros H.
  - exact (swap_x_reserve lm LM n p amt o p' out K A O H F F1 F2 G).
  - exact (swap_y_reserve lm LM n p amt o p' out K A O H F F1 F2 G).
Qed.
(** False of whole histories, even without HMM and with whole liquidity only: continuing the history above, b deposits 8032 next to the left-over liquidity, a Y swap
    of 1 trades against both, and b withdraws everything.  The pool then records -0.18 of token X: it has sent more than it ever held. *)
Theorem C94_f64_reserves_refuted : exists lm p, libm_ok lm /\ freach lm p /\ feq (f_c p) f_zero = true /\ fok (fx p) /\ fval (fx p) < - (18 / 100).
Proof.
  exists wlm, e6. split; [exact wlm_ok|]. split.
  - apply (frun_reach drain_evs drain_p0); [vm_compute; reflexivity| |vm_compute; reflexivity].
    refine (fr_new wlm _ _ _ _ _ _ _ drain_new_ok); vm_compute; reflexivity.
  - split; [reflexivity|]. split; [split; vm_compute; reflexivity|]. rewrite fq_val. replace (- (18 / 100)) with (Q2R (- 18 # 100)) by (unfold Q2R; cbn; lra).
    apply Qlt_Rlt. vm_compute. reflexivity.
Qed.
(** the swaps of these histories meet the hypotheses of the positive part *)
Example C94_case : freach wlm e1 /\ funds_ge0 e1 /\ exists out, fexecute_swap_y wlm 50 e1 (F 8492479242139049 (-46)) (F 5629499534213120 (-50)) = Ok (e2, out) /\
  funds_fin e2 /\ fok (fso_recv out) /\ fok (fso_send out) /\ fval (fso_send out) < 0.
Proof.
  split; [exact (wreach_freach wlm _ _ e1_reach)|]. split.
  - assert (P : forall x, fle f_zero x && valid_binary 53 1024 x && f_finite x = true -> 0 <= fval x).
    { intros x H. apply andb_prop in H as [H H3]. apply andb_prop in H as [H1 H2]. rewrite <- fval_zero. apply fle_t; [exact fok_zero|split; assumption|exact H1]. }
    repeat split; apply P; vm_compute; reflexivity.
  - eexists. split; [vm_compute; reflexivity|]. split; [repeat split; vm_compute; reflexivity|]. split; [split; vm_compute; reflexivity|]. split; [split; vm_compute; reflexivity|].
    rewrite <- fval_zero. apply flt_t; [split; vm_compute; reflexivity|exact fok_zero|vm_compute; reflexivity].
Qed.
Print Assumptions C94_f64_reserves_partial.
Print Assumptions C94_f64_reserves_refuted.
