(** Every swap of the f64 pool ends: lemmas for the loops of [execute_swap_from_X] and [execute_swap_from_Y]. *)
From Coq Require Import ZArith Reals Lra Lia List Bool String Sorted Floats.SpecFloat.
From Flocq Require Import Core BinarySingleNaN Relative.
From Verif Require Import Base FloatBase FloatModel FloatFacts FloatWf FloatSwap FloatLp FloatStuck FloatFlow.
Import ListNotations.
Open Scope Z_scope.

(** *** the amount taken in grows *)
Section Up.
Open Scope R_scope.
Definition tiny : R := bpow radix2 (-1074).
Lemma tiny_pos : 0 < tiny. Proof. apply bpow_gt_0. Qed.
Lemma flt_nftz : Exp_not_FTZ fexp64.
Proof. apply (@monotone_exp_not_FTZ _ (FLT_exp_valid (-1074) 53) (FLT_exp_monotone (-1074) 53)). Qed.
Lemma tiny_ulp x : tiny <= ulp radix2 fexp64 x.
Proof.
  apply Rle_trans with (ulp radix2 fexp64 0); [|apply ulp_ge_ulp_0; [apply (FLT_exp_valid (-1074) 53)|exact flt_nftz]].
  right. symmetry. apply (ulp_FLT_0 radix2 (-1074) 53).
Qed.
(** half of the distance to the next f64 and a bit is enough to reach it *)
Lemma reach_succ i s : generic_format radix2 fexp64 i -> 0 <= i -> ulp radix2 fexp64 i / 2 < s -> i + tiny <= rnd (i + s).
Proof.
  intros F P H. apply Rle_trans with (succ radix2 fexp64 i).
  - rewrite succ_eq_pos by exact P. pose proof (tiny_ulp i). lra.
  - apply round_N_ge_midp; auto with typeclass_instances.
    + apply generic_format_succ; auto with typeclass_instances.
    + rewrite pred_succ by auto with typeclass_instances. rewrite succ_eq_pos by exact P. lra.
Qed.
Lemma gap_ulp x i : generic_format radix2 fexp64 x -> generic_format radix2 fexp64 i -> 0 <= i < x -> ulp radix2 fexp64 i <= rnd (x - i).
Proof.
  intros X I [P L]. assert (S : succ radix2 fexp64 i <= x) by (apply succ_le_lt; auto with typeclass_instances).
  rewrite succ_eq_pos in S by exact P.
  rewrite <- (round_generic radix2 fexp64 ZnearestE (ulp radix2 fexp64 i)).
  - apply rnd_le. lra.
  - apply generic_format_ulp; [apply (FLT_exp_valid (-1074) 53)|exact flt_nftz].
Qed.
Lemma add_nn a b : f64_ok a -> f64_ok b -> flt a f_zero = false -> flt b f_zero = false -> flt (fadd a b) f_zero = false.
Proof.
  intros A B NA NB.
  destruct (f_finite a) eqn:FA; [destruct (f_finite b) eqn:FB|].
  - assert (KA : fok a) by (split; assumption). assert (KB : fok b) by (split; assumption).
    pose proof (flt_f _ _ KA fok_zero NA) as PA. pose proof (flt_f _ _ KB fok_zero NB) as PB. rewrite fval_zero in PA, PB.
    destruct (Rlt_le_dec (Rabs (rnd (fval a + fval b))) top) as [L|G].
    + destruct (add_R' a b KA KB L) as [F E]. rewrite flt_R by (auto using fok_zero). apply Rlt_bool_false. rewrite E, fval_zero. apply rnd_ge0. lra.
    + rewrite (add_over a b) by assumption. reflexivity.
  - destruct b as [s|[|]| |s m e]; try discriminate; destruct a as [s|[|]| |s m e]; try discriminate; reflexivity.
  - destruct a as [s|[|]| |s m e]; try discriminate; destruct b as [s|[|]| |s m e]; try discriminate; reflexivity.
Qed.
Lemma nn_below a b : f64_ok a -> flt a f_zero = false -> flt a b = true -> fok a /\ 0 <= fval a.
Proof.
  intros A N L. assert (F : f_finite a = true).
  { destruct a as [s|[|]| |s m e]; try reflexivity; try discriminate; destruct b as [s|[|]| |s m e]; discriminate. }
  split; [split; assumption|]. pose proof (flt_f _ _ (conj A F) fok_zero N) as P. now rewrite fval_zero in P.
Qed.

(** what a step adds to the amount taken in, when the loop goes on *)
Lemma in_up amt s s' w : s_ok s -> w_ok w -> totals amt s s' w -> flt (fl_in s) f_zero = false -> flt (fl_in s') f_zero = false /\
  (flt (fl_in s') amt = true -> fok (fl_in s') /\ fval (fl_in s) <= fval (fl_in s')).
Proof.
  intros S (W1 & W2 & W3 & W4 & W5 & W6 & W7 & W8 & W9) (T & _) N.
  assert (N1 := add_nn _ _ W1 W5 W6 W9). assert (K1 := add_ok _ _ W1 W5). rewrite T.
  assert (N2 := add_nn _ _ (proj1 S) K1 N N1). split; [exact N2|]. intros L.
  destruct (nn_below _ _ (add_ok _ _ (proj1 S) K1) N2 L) as [F _]. split; [exact F|].
  apply (add_up (fl_in s) (fadd (fw_recv w) (fw_fee w)) (proj1 S) K1 N1 F).
Qed.
(** a step that does not cross uses up the rest: finite amounts *)
Lemma in_strict amt i m : fok amt -> fok i -> f64_ok m -> 0 <= fval i < fval amt ->
  let d := fsub amt i in flt m f_zero = false -> flt (fsub d m) f_zero = false -> fle (fadd m (fsub d m)) d = true ->
  fok (fadd i (fadd m (fsub d m))) -> fval i + tiny <= fval (fadd i (fadd m (fsub d m))).
Proof.
  intros FA FI M [P L] d NM NF H F. unfold d in *.
  assert (BD : Rabs (rnd (fval amt - fval i)) < top).
  { assert (0 <= rnd (fval amt - fval i)) by (apply rnd_ge0; lra). rewrite Rabs_pos_eq by assumption.
    apply Rle_lt_trans with (fval amt); [|pose proof (fval_top amt (proj1 FA)) as TT; unfold Rabs in TT; destruct (Rcase_abs _); lra].
    rewrite <- (rnd_fval amt (proj1 FA)) at 2. apply rnd_le. lra. }
  destruct (sub_R' amt i FA FI BD) as [FD ED].
  assert (GU := gap_ulp (fval amt) (fval i) (fval_fmt _ (proj1 FA)) (fval_fmt _ (proj1 FI)) (conj P L)). rewrite <- ED in GU.
  set (D := fsub amt i) in *. assert (OF : f64_ok (fsub D m)) by (apply sub_ok; [apply FD|exact M]).
  destruct (sum_le m (fsub D m) D M OF NM NF FD H) as (FS & [S0 S1] & FM & FF & PM & PF).
  assert (EF : fval (fsub D m) = rnd (fval D - fval m)) by (apply sub_R; try assumption; apply FF).
  assert (ES : fval (fadd m (fsub D m)) = rnd (fval m + fval (fsub D m))) by (apply add_R; try assumption; apply FS).
  assert (EI : fval (fadd i (fadd m (fsub D m))) = rnd (fval i + fval (fadd m (fsub D m)))) by (apply add_R; try assumption; apply F).
  pose proof (minus_err (fval D) (fval m) (fval_fmt _ (proj1 FD)) (fval_fmt _ M)) as R1. rewrite <- EF in R1.
  pose proof (plus_err (fval m) (fval (fsub D m)) (fval_fmt _ M) (fval_fmt _ OF)) as R2. rewrite <- ES in R2.
  assert (MD : 0 <= fval D - fval m).
  { apply (rnd_pos_inv (fval D) (- fval m)); [apply fval_fmt, FD|apply generic_format_opp, fval_fmt, M|]. rewrite EF in PF. exact PF. }
  pose proof u53_small as U. pose proof u53_pos as U0. pose proof (tiny_ulp (fval i)) as TU. pose proof tiny_pos as TP.
  rewrite EI. apply reach_succ; [apply fval_fmt, FI|exact P|].
  rewrite (Rabs_pos_eq _ MD) in R1. rewrite (Rabs_pos_eq (fval m + fval (fsub D m))) in R2 by lra.
  set (v := fval (fadd m (fsub D m))) in *. set (f := fval (fsub D m)) in *. set (dd := fval D) in *. set (mm := fval m) in *.
  assert (f >= (dd - mm) - u53 * (dd - mm)) by (unfold Rabs in R1; destruct (Rcase_abs _); lra).
  assert (v >= (mm + f) - u53 * (mm + f)) by (unfold Rabs in R2; destruct (Rcase_abs _); lra).
  set (ul := ulp radix2 fexp64 (fval i)) in *. clearbody v f dd mm ul.
  assert (mm + f >= 3 / 4 * dd) by nra. nra.
Qed.
(** ... and an infinite amount *)
Lemma in_inf i r : fok i -> let d := fsub (S754_infinity false) i in let m := fmul d r in
  flt m f_zero = false -> fle (fadd m (fsub d m)) d = false.
Proof.
  intros [_ F]. destruct i as [s|s| |s k e]; try discriminate; cbn; destruct r as [[|]|[|]| |[|] rm re]; cbn; intros H; try reflexivity; discriminate.
Qed.
End Up.

(** *** ticks *)
Definition u32 (z : Z) : Prop := 0 <= z < 2 ^ 32.
Definition keys (p : fpool) : list Z := map fst (fticks p).
Lemma same_keys p q : same_book p q -> keys q = keys p.
Proof.
  intros [_ T _]. unfold keys. apply (f_equal (map (fun k => fst (fst k)))) in T. rewrite !map_map in T. exact T.
Qed.
Lemma to_u32 x : u32 (f_to_u32 x).
Proof.
  unfold u32. destruct x as [s|s| |s m e]; cbn [f_to_u32]; try lia; destruct s; try lia.
  destruct (0 <=? e) eqn:E; split; try lia.
  - apply Z.min_glb; [lia|]. apply Z.shiftl_nonneg; lia.
  - apply Z.min_glb; [lia|]. apply Z.shiftr_nonneg; lia.
Qed.
Lemma aligned t s : u32 t -> u32 s -> 0 <= f_tk_to_possible_tk t s false <= t.
Proof.
  unfold u32. intros T S. destruct (Z.eq_dec s 0) as [->|N].
  - split; [apply to_u32|]. assert (f_tk_to_possible_tk t 0 false = 0); [|lia].
    unfold f_tk_to_possible_tk, f_u32. change (f_int 0) with f_zero. destruct (f_int t) as [[|]|[|]| |[|] m e]; reflexivity.
  - rewrite possible_exact by lia. split; [apply Z.mul_nonneg_nonneg; [apply Z.div_pos; lia|lia]|]. rewrite Z.mul_comm. apply Z.mul_div_le. lia.
Qed.
Definition pool_u (p : fpool) : Prop := u32 (fspacing p) /\ u32 (fglbl_tick p) /\ forall k, In k (keys p) -> u32 k.

Lemma cross_l p t p' : fcross_tick p t false = Ok p' -> fglbl_tick p = t /\ In t (keys p) /\ t <> 0 /\
  fglbl_tick p' = f_tk_to_possible_tk (t - 1) (fspacing p) false.
Proof.
  unfold fcross_tick. cbn [negb andb]. destruct (Z.eqb_spec (fglbl_tick p) t) as [E|]; [|discriminate]. cbn [negb].
  destruct (ftm_get t (fticks p)) as [ts|] eqn:G; [|discriminate]. unfold pred_u32. destruct (Z.eqb_spec t 0) as [|N]; [discriminate|]. cbn [bind].
  unfold fadd_glbl_liq. intros H. mb H. injection H as <-. unfold fg_add_liq in E0. destruct (flt _ f_zero); [discriminate|]. injection E0 as <-.
  split; [exact E|]. split; [exact (ftm_get_in _ _ _ G)|]. split; [exact N|reflexivity].
Qed.
Lemma cross_r p t p' : fcross_tick p t true = Ok p' -> In t (keys p) /\ fglbl_tick p' = t.
Proof.
  unfold fcross_tick. cbn [negb andb].
  destruct (ftm_get t (fticks p)) as [ts|] eqn:G; [|discriminate]. cbn [bind].
  unfold fadd_glbl_liq. intros H. mb H. injection H as <-. unfold fg_add_liq in E. destruct (flt _ f_zero); [discriminate|]. injection E as <-.
  split; [exact (ftm_get_in _ _ _ G)|reflexivity].
Qed.
Lemma in_get k m : In k (map fst m) -> exists v : ftstate, ftm_get k m = Some v.
Proof.
  induction m as [|[k' v] m IH]; cbn; [contradiction|]. destruct (Z.eqb_spec k' k) as [->|N]; [intros _; exists v; now rewrite ?Z.eqb_refl|].
  intros [|H]; [contradiction|]. destruct (IH H) as [w W]. exists w. rewrite W. destruct (k =? k') eqn:E; [apply Z.eqb_eq in E; congruence|reflexivity].
Qed.
Lemma left_in p t g : fget_left_limit p t = Some g -> In g (keys p) /\ g <= f_tk_to_possible_tk (Z.min t (fglbl_tick p)) (fspacing p) false.
Proof.
  unfold fget_left_limit, f_tick_to_possible_tick, ftick_keys. intros H. apply find_some in H as [A B]. apply in_rev in A. apply Z.leb_le in B. split; assumption.
Qed.
Lemma right_in p t gt g : fget_right_limit p t gt = Ok (Some g) -> In g (keys p) /\ gt < g.
Proof.
  unfold fget_right_limit, ftick_keys. set (st := f_tick_to_possible_tick p t false). destruct (Z.eqb_spec st gt) as [E|N].
  - intros H. injection H as H. apply find_some in H as [A B]. apply Z.ltb_lt in B. split; [assumption|lia].
  - destruct (gt <? st) eqn:E; [|discriminate]. apply Z.ltb_lt in E. intros H. injection H as H. apply find_some in H as [A B]. apply Z.leb_le in B. split; [assumption|lia].
Qed.

Section Lm.
Variable lm : libm.
Hypothesis LM : libm_ok lm.

Lemma pool_u_same p q : same_book p q -> pool_u p -> u32 (fglbl_tick q) -> pool_u q.
Proof. intros B (A1 & A2 & A3) T. unfold pool_u. rewrite (same_keys _ _ B). destruct B as [_ _ (-> & _)]. auto. Qed.
Lemma set_ok p tk : fpool_ok p -> let q := fset_rp (fset_tick p tk) (f_tick_to_rp lm tk) in fpool_ok q /\ same_book p q /\ fglbl_tick q = tk.
Proof.
  intros K q. destruct (fset_tick_ok p tk K) as [K1 S1]. destruct (fset_rp_ok _ (f_tick_to_rp lm tk) K1 (rp_ok lm LM tk)) as [K2 S2].
  split; [exact K2|]. split; [exact (same_trans _ _ _ S1 S2)|reflexivity].
Qed.
Lemma gir_left ks : forall p p' o, fpool_ok p -> pool_u p -> fgir_left lm p ks = Ok (p', o) ->
  pool_u p' /\ fglbl_tick p' <= fglbl_tick p /\ (forall g r, o = Some (Some g, r) -> In g (keys p') /\ g <= fglbl_tick p').
Proof.
  induction ks as [|tk ks IH]; intros p p' o K U H; cbn [fgir_left] in H.
  - injection H as <- <-. split; [exact U|]. split; [lia|discriminate].
  - destruct (Z.ltb_spec (fglbl_tick p) tk) as [|L]; [now apply IH|].
    destruct (set_ok p tk K) as (K2 & S2 & T2). set (p2 := fset_rp _ _) in *. mb H. rename a into q.
    destruct (fcross_ok _ _ _ _ K2 E) as (K3 & S3 & _). destruct (cross_l _ _ _ E) as (C1 & C2 & C3 & C4).
    rewrite (same_keys _ _ S2) in C2. assert (S := same_trans _ _ _ S2 S3).
    assert (SP : fspacing p2 = fspacing p) by (destruct S2 as [_ _ (X & _)]; exact X). rewrite SP in C4.
    destruct U as (U1 & U2 & U3). assert (UT := U3 _ C2).
    assert (AL : 0 <= fglbl_tick q <= tk - 1) by (rewrite C4; apply aligned; [unfold u32 in *; lia|exact U1]).
    assert (UQ : pool_u q) by (apply (pool_u_same p q S); [split; auto|unfold u32 in *; lia]).
    destruct (flt (fglbl_liq q) f_zero); [discriminate|]. destruct (flt f_zero (fglbl_liq q)).
    + mb H. injection H as <- <-. split; [exact UQ|]. split; [lia|]. intros g r [= ->].
      unfold fgir_new in E0. destruct (flt _ _); [discriminate|]. injection E0 as E0 _. apply left_in in E0 as [I1 I2].
      split; [exact I1|]. rewrite Z.min_id in I2. destruct UQ as (Q1 & Q2 & _). pose proof (aligned _ _ Q2 Q1). lia.
    + destruct (IH _ _ _ K3 UQ H) as (A & B & C). split; [exact A|]. split; [lia|exact C].
Qed.
Lemma gir_right ks : forall p p' o, fpool_ok p -> pool_u p -> fgir_right lm p ks = Ok (p', o) ->
  pool_u p' /\ fglbl_tick p <= fglbl_tick p' /\ (forall g r, o = Some (Some g, r) -> In g (keys p') /\ fglbl_tick p' < g).
Proof.
  induction ks as [|tk ks IH]; intros p p' o K U H; cbn [fgir_right] in H.
  - injection H as <- <-. split; [exact U|]. split; [lia|discriminate].
  - destruct (Z.leb_spec tk (fglbl_tick p)) as [|L]; [now apply IH|].
    destruct (set_ok p tk K) as (K2 & S2 & T2). set (p2 := fset_rp _ _) in *. mb H. rename a into q.
    destruct (fcross_ok _ _ _ _ K2 E) as (K3 & S3 & _). destruct (cross_r _ _ _ E) as (C2 & C4).
    rewrite (same_keys _ _ S2) in C2. assert (S := same_trans _ _ _ S2 S3).
    assert (UQ : pool_u q) by (apply (pool_u_same p q S U); rewrite C4; apply U, C2).
    mb H. destruct (flt (fglbl_liq q) f_zero); [discriminate|]. destruct (flt f_zero (fglbl_liq q)).
    + mb H. injection H as <- <-. split; [exact UQ|]. split; [lia|]. intros g r [= ->].
      unfold fgir_new in E1. destruct (flt _ _); [discriminate|]. injection E1 as -> _. apply right_in in E0 as [I1 I2].
      split; [exact I1|lia].
    + destruct (IH _ _ _ K3 UQ H) as (A & B & C). split; [exact A|]. split; [lia|exact C].
Qed.
Lemma get_left p p' g r : fpool_ok p -> pool_u p -> ftry_get_in_range lm p false = Ok (p', g, r) ->
  pool_u p' /\ fglbl_tick p' <= fglbl_tick p /\ (forall t, g = Some t -> In t (keys p') /\ t <= fglbl_tick p').
Proof.
  intros K U H. unfold ftry_get_in_range in H. destruct (flt f_zero _); [discriminate|]. mb H. destruct a as [q o].
  destruct (gir_left _ _ _ _ K U E) as (A & B & C). destruct o as [[g' r']|].
  - injection H as <- <- <-. split; [exact A|]. split; [exact B|]. intros t ->. exact (C t r' eq_refl).
  - mb H. destruct a as [g' r']. injection H as <- <- <-. split; [exact A|]. split; [exact B|].
    unfold fgir_new in E0. destruct (flt _ _); [discriminate|]. injection E0 as <- _. discriminate.
Qed.
Lemma get_right p p' g r : fpool_ok p -> pool_u p -> ftry_get_in_range lm p true = Ok (p', g, r) ->
  pool_u p' /\ fglbl_tick p <= fglbl_tick p' /\ (forall t, g = Some t -> In t (keys p') /\ fglbl_tick p' < t).
Proof.
  intros K U H. unfold ftry_get_in_range in H. destruct (flt f_zero _); [discriminate|]. mb H. destruct a as [q o].
  destruct (gir_right _ _ _ _ K U E) as (A & B & C). destruct o as [[g' r']|].
  - injection H as <- <- <-. split; [exact A|]. split; [exact B|]. intros t ->. exact (C t r' eq_refl).
  - mb H. destruct a as [g' r']. injection H as <- <- <-. split; [exact A|]. split; [exact B|].
    unfold fgir_new in E0. destruct (flt _ _); [discriminate|]. injection E0 as <- _. discriminate.
Qed.

(** *** one step *)
Lemma within_x p st g l dx o w : fswap_within_x lm p st g l dx o = Ok w ->
  fw_cross w = true /\ fw_tick w = g \/
  fw_cross w = false /\ u32 (fw_tick w) /\ exists r, fw_recv w = fmul dx r /\ fw_fee w = fsub dx (fw_recv w).
Proof.
  intros H. unfold fswap_within_x in H.
  destruct (fle dx f_zero); [discriminate|]. destruct (flt st _); [discriminate|]. destruct (flt (f_dx_from_l_drp _ _ _) f_zero); [discriminate|].
  mb H. destruct a as [[[[dn fe] cr] et] er]. mb H. clear E0.
  destruct (flt f_zero _); [discriminate|]. destruct (flt (fsub _ _) f_zero); [discriminate|]. destruct (flt (fadd (fy p) _) _); [discriminate|].
  unfold fwithin_new in H. repeat match type of H with (if ?b then _ else _) = _ => destruct b; [discriminate|] end. injection H as <-.
  cbn [fw_cross fw_tick fw_recv fw_fee]. destruct (flt (f_dx_from_l_drp _ _ _) _).
  - apply t5 in E as (<- & <- & <- & <- & <-). now left.
  - destruct (flt st _); [discriminate|]. destruct (flt _ (f_tick_to_rp lm g)); [discriminate|]. apply t5 in E as (<- & <- & <- & <- & <-).
    right. split; [reflexivity|]. split; [apply to_u32|]. eexists; split; reflexivity.
Qed.
Lemma within_y p st g l dx o w : fswap_within_y lm p st g l dx o = Ok w ->
  fw_cross w = true /\ fw_tick w = g \/
  fw_cross w = false /\ u32 (fw_tick w) /\ exists r, fw_recv w = fmul dx r /\ fw_fee w = fsub dx (fw_recv w).
Proof.
  intros H. unfold fswap_within_y in H.
  destruct (fle dx f_zero); [discriminate|]. destruct (flt _ st); [discriminate|]. destruct (flt (f_dy_from_l_drp _ _ _) f_zero); [discriminate|].
  mb H. destruct a as [[[[dn fe] cr] et] er]. mb H. clear E0.
  destruct (flt f_zero _); [discriminate|]. destruct (flt (fsub _ _) f_zero); [discriminate|]. destruct (flt (fadd (fx p) _) _); [discriminate|].
  unfold fwithin_new in H. repeat match type of H with (if ?b then _ else _) = _ => destruct b; [discriminate|] end. injection H as <-.
  cbn [fw_cross fw_tick fw_recv fw_fee]. destruct (flt (f_dy_from_l_drp _ _ _) _).
  - apply t5 in E as (<- & <- & <- & <- & <-). now left.
  - destruct (flt _ st); [discriminate|]. destruct (flt (f_tick_to_rp lm g) _); [discriminate|]. apply t5 in E as (<- & <- & <- & <- & <-).
    right. split; [reflexivity|]. split; [apply to_u32|]. eexists; split; reflexivity.
Qed.

(** *** no part of a pass of the loop runs out of fuel *)
Lemma nf_bind {A B} (m : res A) (k : A -> res B) : m <> NoFuel -> (forall a, k a <> NoFuel) -> bind m k <> NoFuel.
Proof. intros H K. destruct m; cbn [bind]; [apply K|discriminate|discriminate|congruence]. Qed.
Ltac nf := cbv zeta; repeat first
  [ discriminate
  | match goal with
    | |- bind _ _ <> NoFuel => apply nf_bind; [|intros ?; cbv beta zeta]
    | |- (if ?b then _ else _) <> NoFuel => destruct b
    | |- assert ?b <> NoFuel => unfold assert; destruct b
    | |- (match ?x with _ => _ end) <> NoFuel => destruct x
    end ].
Lemma nf_cross p t d : fcross_tick p t d <> NoFuel.
Proof. unfold fcross_tick, pred_u32, fadd_glbl_liq, fg_add_liq. nf. Qed.
Lemma nf_right p t g : fget_right_limit p t g <> NoFuel.
Proof. unfold fget_right_limit. nf. Qed.
Lemma nf_gir_left ks : forall p, fgir_left lm p ks <> NoFuel.
Proof.
  induction ks as [|tk ks IH]; intros p; [discriminate|]. cbn [fgir_left]. unfold fgir_new. destruct (_ <? _); [apply IH|].
  apply nf_bind; [apply nf_cross|]. intros q. destruct (flt _ _); [discriminate|]. destruct (flt _ _); [nf|apply IH].
Qed.
Lemma nf_gir_right ks : forall p, fgir_right lm p ks <> NoFuel.
Proof.
  induction ks as [|tk ks IH]; intros p; [discriminate|]. cbn [fgir_right]. unfold fgir_new. destruct (_ <=? _); [apply IH|].
  apply nf_bind; [apply nf_cross|]. intros q. apply nf_bind; [apply nf_right|]. intros g. destruct (flt _ _); [discriminate|]. destruct (flt _ _); [nf|apply IH].
Qed.
Lemma nf_get p d : ftry_get_in_range lm p d <> NoFuel.
Proof.
  unfold ftry_get_in_range, fgir_new. destruct (flt _ _); [discriminate|]. apply nf_bind; [destruct d; [apply nf_gir_right|apply nf_gir_left]|]. intros [q o]. nf.
Qed.
Lemma nf_step_x p s g dx o : fswap_x_step lm p s g dx o <> NoFuel.
Proof.
  unfold fswap_x_step. cbv zeta. apply nf_bind; [unfold fswap_within_x, fwithin_new; nf|]. intros w. apply nf_bind; [unfold assert; nf|intros _].
  apply nf_bind; [unfold assert; nf|intros _]. apply nf_bind; [|intros; discriminate]. destruct (fw_cross w); [|discriminate].
  apply nf_bind; [unfold assert; nf|intros _]. destruct (ftm_get _ _); [apply nf_cross|discriminate].
Qed.
Lemma nf_step_y p s g dx o : fswap_y_step lm p s g dx o <> NoFuel.
Proof.
  unfold fswap_y_step. cbv zeta. apply nf_bind; [unfold fswap_within_y, fwithin_new; nf|]. intros w. apply nf_bind; [unfold assert; nf|intros _].
  apply nf_bind; [unfold assert; nf|intros _]. apply nf_bind; [|intros; discriminate]. destruct (fw_cross w); [|discriminate].
  apply nf_bind; [unfold assert; nf|intros _]. destruct (ftm_get _ _); [apply nf_cross|discriminate].
Qed.
Lemma nf_end_x p s : fswap_x_end p s <> NoFuel.
Proof. unfold fswap_x_end, fswap_out_new. nf. Qed.
Lemma nf_end_y p s : fswap_y_end p s <> NoFuel.
Proof. unfold fswap_y_end, fswap_out_new. nf. Qed.

(** the amount taken from the rest of the input by a step that does not cross *)
Definition all_of (amt : f64) (s : floopst) (w : fwithin) : Prop :=
  exists r, fw_recv w = fmul (fsub amt (fl_in s)) r /\ fw_fee w = fsub (fsub amt (fl_in s)) (fw_recv w).

Lemma step_x p s g dx o p' s' : fpool_ok p -> s_ok s -> f64_ok dx -> f64_ok o -> pool_u p -> In g (keys p) ->
  fswap_x_step lm p s g dx o = Ok (p', s') ->
  exists w, w_ok w /\ totals dx s s' w /\ pool_u p' /\ fglbl_tick p' <= fl_t s' /\ (fglbl_tick p' < g \/ all_of dx s w).
Proof.
  intros K S D O U I H. destruct (fstep_x_ok lm LM _ _ _ _ _ _ _ K S D O H) as (_ & SB & _). unfold fswap_x_step in H. mb H. rename a into w.
  assert (W : w_ok w).
  { eapply (fwithin_x_ok lm LM); [exact K| | | | |exact E]; auto; try apply S; try apply K. apply sub_ok; [exact D|apply S]. }
  exists w. mb H. clear E0. mb H. apply assertE in E0. mb H. rename a1 into q. injection H as <- <-.
  split; [exact W|]. split; [repeat split; assumption|]. cbn [fl_t].
  match type of E1 with (if _ then (let* _ := _ in match ftm_get _ (fticks ?rr) with _ => _ end) else _) = _ => set (r := rr) in E1 end.
  assert (R : fglbl_tick r = fw_tick w /\ fspacing r = fspacing p /\ fticks r = fticks p) by (subst r; destruct (flt f_zero _); repeat split).
  destruct R as (R1 & R2 & R3). clearbody r.
  destruct (within_x _ _ _ _ _ _ _ E) as [(C & T)|(C & T & A)]; rewrite C in E1.
  - mb E1. rewrite R3 in E1. destruct (in_get g (fticks p) I) as [v V]. rewrite V in E1. destruct (cross_l _ _ _ E1) as (X1 & X2 & X3 & X4).
    destruct U as (U1 & U2 & U3). assert (UG := U3 _ I). rewrite R2 in X4.
    assert (AL : 0 <= fglbl_tick q <= g - 1) by (rewrite X4; apply aligned; [unfold u32 in *; lia|exact U1]).
    split; [apply (pool_u_same p q SB); [split; auto|unfold u32 in *; lia]|]. rewrite T. split; [lia|left; lia].
  - injection E1 as <-. rewrite R1. split; [apply (pool_u_same p r SB U); rewrite R1; exact T|]. split; [lia|right; exact A].
Qed.
Lemma step_y p s g dx o p' s' : fpool_ok p -> s_ok s -> f64_ok dx -> f64_ok o -> pool_u p -> In g (keys p) ->
  fswap_y_step lm p s g dx o = Ok (p', s') ->
  exists w, w_ok w /\ totals dx s s' w /\ pool_u p' /\ (fglbl_tick p' = g \/ all_of dx s w).
Proof.
  intros K S D O U I H. destruct (fstep_y_ok lm LM _ _ _ _ _ _ _ K S D O H) as (_ & SB & _). unfold fswap_y_step in H. mb H. rename a into w.
  assert (W : w_ok w).
  { eapply (fwithin_y_ok lm LM); [exact K| | | | |exact E]; auto; try apply S; try apply K. apply sub_ok; [exact D|apply S]. }
  exists w. mb H. clear E0. mb H. apply assertE in E0. mb H. rename a1 into q. injection H as <- <-.
  split; [exact W|]. split; [repeat split; assumption|].
  match type of E1 with (if _ then (let* _ := _ in match ftm_get _ (fticks ?rr) with _ => _ end) else _) = _ => set (r := rr) in E1 end.
  assert (R : fglbl_tick r = fw_tick w /\ fspacing r = fspacing p /\ fticks r = fticks p) by (subst r; destruct (flt f_zero _); repeat split).
  destruct R as (R1 & R2 & R3). clearbody r.
  destruct (within_y _ _ _ _ _ _ _ E) as [(C & T)|(C & T & A)]; rewrite C in E1.
  - mb E1. rewrite R3 in E1. destruct (in_get g (fticks p) I) as [v V]. rewrite V in E1. destruct (cross_r _ _ _ E1) as (X2 & X4).
    split; [apply (pool_u_same p q SB U); rewrite X4; apply U, I|left; exact X4].
  - injection E1 as <-. split; [apply (pool_u_same p r SB U); rewrite R1; exact T|right; exact A].
Qed.

(** *** the loops *)
Lemma filter_le (f g : Z -> bool) l : (forall k, f k = true -> g k = true) -> (List.length (filter f l) <= List.length (filter g l))%nat.
Proof.
  intros S. induction l as [|k l IH]; [reflexivity|]. cbn [filter]. destruct (f k) eqn:F.
  - rewrite (S k F). cbn [List.length]. lia.
  - destruct (g k); cbn [List.length]; lia.
Qed.
Lemma filter_lt (f g : Z -> bool) l t : (forall k, f k = true -> g k = true) -> In t l -> f t = false -> g t = true ->
  (List.length (filter f l) < List.length (filter g l))%nat.
Proof.
  intros S I F G. induction l as [|k l IH]; [contradiction|]. cbn [filter]. destruct I as [->|I].
  - rewrite F, G. cbn [List.length]. pose proof (filter_le f g l S). lia.
  - specialize (IH I). destruct (f k) eqn:FK; [rewrite (S k FK); cbn [List.length]; lia|]. destruct (g k); cbn [List.length]; lia.
Qed.
Definition below (p : fpool) : nat := List.length (filter (fun k => k <=? fglbl_tick p) (keys p)).
Definition above (p : fpool) : nat := List.length (filter (fun k => fglbl_tick p <? k) (keys p)).

(** what is left of the input, in units of the smallest f64 *)
Definition rest (amt : f64) (s : floopst) (n : nat) : Prop :=
  flt (fl_in s) amt = true -> fok amt -> (fval amt - fval (fl_in s) <= INR n * tiny)%R.
Lemma rest_step amt s s' w n : s_ok s -> w_ok w -> totals amt s s' w -> flt (fl_in s) f_zero = false -> flt (fl_in s) amt = true ->
  rest amt s n -> rest amt s' n.
Proof.
  intros S W T N L R L' A. destruct (in_up _ _ _ _ S W T N) as [_ G]. destruct (G L') as [_ M]. specialize (R L A). lra.
Qed.
Lemma rest_all amt s s' w n : s_ok s -> w_ok w -> f64_ok amt -> totals amt s s' w -> flt (fl_in s) f_zero = false -> flt (fl_in s) amt = true ->
  all_of amt s w -> rest amt s n -> exists m, n = Datatypes.S m /\ rest amt s' m.
Proof.
  intros SO W AO T N L (r & A1 & A2) R. destruct (nn_below _ _ (proj1 SO) N L) as [FI PI]. pose proof T as (T1 & _ & _ & _ & _ & _ & T7).
  destruct W as (W1 & W2 & W3 & W4 & W5 & W6 & W7 & W8 & W9).
  destruct (flt_fin _ _ AO FI L) as [->|FA].
  - exfalso. rewrite A2, A1 in T7. rewrite A1 in W6. now rewrite (in_inf (fl_in s) r FI W6) in T7.
  - pose proof (flt_t _ _ FI FA L) as LT. specialize (R L FA). destruct n as [|m]; [exfalso; cbn [INR] in R; lra|].
    exists m. split; [reflexivity|]. intros L' _. destruct (in_up amt s s' w SO) as [_ G]; [repeat split; assumption|exact T|exact N|].
    destruct (G L') as [FO _]. rewrite A2 in T1, W9, T7. rewrite T1 in FO |- *.
    pose proof (in_strict amt (fl_in s) (fw_recv w) FA FI W1 (conj PI LT) W6 W9 T7 FO) as IS. rewrite S_INR in R. lra.
Qed.

Lemma loop_x amt o : f64_ok amt -> f64_ok o -> forall N M p s, fpool_ok p -> s_ok s -> pool_u p -> flt (fl_in s) f_zero = false -> fglbl_tick p <= fl_t s ->
  rest amt s N -> (below p <= M)%nat -> exists n, fswap_x_loop lm n p s amt o <> NoFuel.
Proof.
  intros AO OO. induction N as [N IHN] using lt_wf_ind. induction M as [M IHM] using lt_wf_ind. intros p s K S U NN TT R B.
  destruct (flt (fl_in s) amt) eqn:L; [|exists 1%nat; cbn [fswap_x_loop]; rewrite L; apply nf_end_x].
  destruct (if flt f_zero (fglbl_liq p) then Ok (p, fget_left_limit p (fl_t s), fl_rp s) else ftry_get_in_range lm p false) as [[[p1 g] rp]|e| |] eqn:E.
  2, 3: exists 1%nat; cbn [fswap_x_loop]; rewrite L; cbn [negb]; rewrite E; discriminate.
  2: exfalso; destruct (flt f_zero _); [discriminate|now apply nf_get in E].
  assert (Q : fpool_ok p1 /\ same_book p p1 /\ f64_ok rp /\ pool_u p1 /\ fglbl_tick p1 <= fglbl_tick p /\ (forall t, g = Some t -> In t (keys p1) /\ t <= fglbl_tick p1)).
  { destruct (flt f_zero (fglbl_liq p)).
    - injection E as <- <- <-. split; [exact K|]. split; [apply same_refl|]. split; [apply S|]. split; [exact U|]. split; [lia|].
      intros t H. apply left_in in H as [I1 I2]. rewrite Z.min_r in I2 by exact TT. split; [exact I1|]. pose proof (aligned _ _ (proj1 (proj2 U)) (proj1 U)). lia.
    - destruct (fgir_ok lm LM _ _ _ _ _ K E) as (Q1 & Q2 & Q3). destruct (get_left _ _ _ _ K U E) as (Q4 & Q5 & Q6). auto 8. }
  destruct Q as (K1 & SB & RP & U1 & LE & G).
  destruct g as [g|]; [|exists 1%nat; cbn [fswap_x_loop]; rewrite L; cbn [negb]; rewrite E; apply nf_end_x].
  destruct (G g eq_refl) as [GI GL]. set (s1 := mkFL (fl_in s) (fl_out s) (fl_adj s) (fl_fee s) (fl_t s) rp).
  assert (S1 : s_ok s1) by (destruct S as (A1 & A2 & A3 & A4 & A5); repeat split; assumption).
  destruct (fswap_x_step lm p1 s1 g amt o) as [[p2 s2]|e| |] eqn:E2.
  2, 3: exists 1%nat; cbn [fswap_x_loop]; rewrite L; cbn [negb]; rewrite E; cbn [bind]; fold s1; rewrite E2; discriminate.
  2: exfalso; now apply nf_step_x in E2.
  assert (D : exists n, fswap_x_loop lm n p2 s2 amt o <> NoFuel).
  2: { destruct D as [n D]. exists (Datatypes.S n). cbn [fswap_x_loop]. rewrite L. cbn [negb]. rewrite E. cbn [bind]. fold s1. rewrite E2. exact D. }
  destruct (fstep_x_ok lm LM _ _ _ _ _ _ _ K1 S1 AO OO E2) as (K2 & SB2 & S2 & _).
  destruct (step_x _ _ _ _ _ _ _ K1 S1 AO OO U1 GI E2) as (w & W & T & U2 & T2 & C).
  assert (N2 : flt (fl_in s2) f_zero = false) by apply (in_up _ _ _ _ S1 W T NN).
  destruct C as [C|C].
  - assert (LT : (below p2 < below p)%nat).
    { unfold below. rewrite (same_keys _ _ SB2), (same_keys _ _ SB). rewrite (same_keys _ _ SB) in GI. apply (filter_lt _ _ _ g); [|exact GI|apply Z.leb_gt; lia|apply Z.leb_le; lia].
      intros k. rewrite !Z.leb_le. lia. }
    apply (IHM (below p2)); auto; [lia|]. exact (rest_step amt s1 s2 w N S1 W T NN L R).
  - destruct (rest_all amt s1 s2 w N S1 W AO T NN L C R) as (m & -> & R2). apply (IHN m (Nat.lt_succ_diag_r m) (below p2)); auto.
Qed.
Lemma loop_y amt o : f64_ok amt -> f64_ok o -> forall N M p s, fpool_ok p -> s_ok s -> pool_u p -> flt (fl_in s) f_zero = false ->
  rest amt s N -> (above p <= M)%nat -> exists n, fswap_y_loop lm n p s amt o <> NoFuel.
Proof.
  intros AO OO. induction N as [N IHN] using lt_wf_ind. induction M as [M IHM] using lt_wf_ind. intros p s K S U NN R B.
  destruct (flt (fl_in s) amt) eqn:L; [|exists 1%nat; cbn [fswap_y_loop]; rewrite L; apply nf_end_y].
  destruct (if flt f_zero (fglbl_liq p) then let* g := fget_right_limit p (fl_t s) (fglbl_tick p) in Ok (p, g, fl_rp s) else ftry_get_in_range lm p true) as [[[p1 g] rp]|e| |] eqn:E.
  2, 3: exists 1%nat; cbn [fswap_y_loop]; rewrite L; cbn [negb]; rewrite E; discriminate.
  2: { exfalso. destruct (flt f_zero _); [|now apply nf_get in E]. revert E. apply nf_bind; [apply nf_right|discriminate]. }
  assert (Q : fpool_ok p1 /\ same_book p p1 /\ f64_ok rp /\ pool_u p1 /\ fglbl_tick p <= fglbl_tick p1 /\ (forall t, g = Some t -> In t (keys p1) /\ fglbl_tick p1 < t)).
  { destruct (flt f_zero (fglbl_liq p)) eqn:LQ.
    - pose proof E as E'. mb E'. injection E' as <- <- <-. split; [exact K|]. split; [apply same_refl|]. split; [apply S|]. split; [exact U|]. split; [lia|].
      intros t ->. exact (right_in _ _ _ _ E0).
    - destruct (fgir_ok lm LM _ _ _ _ _ K E) as (Q1 & Q2 & Q3). destruct (get_right _ _ _ _ K U E) as (Q4 & Q5 & Q6). auto 8. }
  destruct Q as (K1 & SB & RP & U1 & LE & G).
  destruct g as [g|]; [|exists 1%nat; cbn [fswap_y_loop]; rewrite L; cbn [negb]; rewrite E; apply nf_end_y].
  destruct (G g eq_refl) as [GI GL]. set (s1 := mkFL (fl_in s) (fl_out s) (fl_adj s) (fl_fee s) (fl_t s) rp).
  assert (S1 : s_ok s1) by (destruct S as (A1 & A2 & A3 & A4 & A5); repeat split; assumption).
  destruct (fswap_y_step lm p1 s1 g amt o) as [[p2 s2]|e| |] eqn:E2.
  2, 3: exists 1%nat; cbn [fswap_y_loop]; rewrite L; cbn [negb]; rewrite E; cbn [bind]; fold s1; rewrite E2; discriminate.
  2: exfalso; now apply nf_step_y in E2.
  assert (D : exists n, fswap_y_loop lm n p2 s2 amt o <> NoFuel).
  2: { destruct D as [n D]. exists (Datatypes.S n). cbn [fswap_y_loop]. rewrite L. cbn [negb]. rewrite E. cbn [bind]. fold s1. rewrite E2. exact D. }
  destruct (fstep_y_ok lm LM _ _ _ _ _ _ _ K1 S1 AO OO E2) as (K2 & SB2 & S2 & _).
  destruct (step_y _ _ _ _ _ _ _ K1 S1 AO OO U1 GI E2) as (w & W & T & U2 & C).
  assert (N2 : flt (fl_in s2) f_zero = false) by apply (in_up _ _ _ _ S1 W T NN).
  destruct C as [C|C].
  - assert (LT : (above p2 < above p)%nat).
    { unfold above. rewrite (same_keys _ _ SB2), (same_keys _ _ SB). rewrite (same_keys _ _ SB) in GI. apply (filter_lt _ _ _ g); [|exact GI|apply Z.ltb_ge; lia|apply Z.ltb_lt; lia].
      intros k. rewrite !Z.ltb_lt. lia. }
    apply (IHM (above p2)); auto; [lia|]. exact (rest_step amt s1 s2 w N S1 W T NN L R).
  - destruct (rest_all amt s1 s2 w N S1 W AO T NN L C R) as (m & -> & R2). apply (IHN m (Nat.lt_succ_diag_r m) (above p2)); auto.
Qed.

(** *** ticks of reachable pools *)
Lemma update_keys p t d up p' k : fpool_ok p -> f64_ok d -> fupdate_tick p t d up = Ok p' -> In k (keys p') -> k = t \/ In k (keys p).
Proof.
  intros K D H I. destruct (fupdate_tick_spec _ _ _ _ _ K D H) as (_ & _ & _ & _ & _ & O & _).
  destruct (Z.eq_dec k t) as [->|N]; [now left|right]. apply in_get in I as [v V]. rewrite (O k N) in V. exact (ftm_get_in _ _ _ V).
Qed.
Lemma position_u p u lo up d p' fe : fpool_ok p -> f64_ok d -> u32 lo -> u32 up -> fset_position p u lo up d = Ok (p', fe) -> pool_u p -> pool_u p'.
Proof.
  intros K D L P H (U1 & U2 & U3). destruct (fset_position_spec _ _ _ _ _ _ _ K D H) as (_ & _ & R & ps & p1 & p2 & _ & _ & _ & K1 & T1 & _ & E1 & p3 & K2 & _ & E2 & T3).
  destruct R as [(S & _) (_ & G & _) _]. unfold pool_u. rewrite S, G. split; [exact U1|]. split; [exact U2|].
  unfold keys. rewrite T3. intros k I. apply (update_keys _ _ _ _ _ k K2 D E2) in I as [->|I]; [exact P|].
  apply (update_keys _ _ _ _ _ k K1 D E1) in I as [->|I]; [exact L|]. unfold keys in I. rewrite T1 in I. exact (U3 k I).
Qed.
Lemma loop_x_u n : forall p s dx o p' out, fpool_ok p -> s_ok s -> f64_ok dx -> f64_ok o -> pool_u p ->
  fswap_x_loop lm n p s dx o = Ok (p', out) -> pool_u p'.
Proof.
  induction n as [|n IH]; intros p s dx o p' out K S D O U H; [discriminate|]. cbn [fswap_x_loop] in H.
  destruct (flt (fl_in s) dx) eqn:L; cbn [negb] in H; [|apply fend_x_ok in H as [-> _]; exact U].
  mb H. destruct a as [[q g] rp].
  assert (Q : fpool_ok q /\ f64_ok rp /\ pool_u q /\ (forall t, g = Some t -> In t (keys q))).
  { destruct (flt f_zero _).
    - injection E as <- <- <-. split; [exact K|]. split; [apply S|]. split; [exact U|]. intros t T. exact (proj1 (left_in _ _ _ T)).
    - destruct (fgir_ok lm LM _ _ _ _ _ K E) as (Q1 & _ & Q3). destruct (get_left _ _ _ _ K U E) as (Q4 & _ & Q6).
      split; [exact Q1|]. split; [exact Q3|]. split; [exact Q4|]. intros t T. exact (proj1 (Q6 t T)). }
  destruct Q as (Q1 & Q3 & Q4 & Q6). set (s1 := mkFL _ _ _ _ _ _) in H.
  assert (S1 : s_ok s1) by (destruct S as (A1 & A2 & A3 & A4 & A5); repeat split; assumption).
  destruct g as [g|]; [|apply fend_x_ok in H as [-> _]; exact Q4]. mb H. destruct a as [q2 s2].
  destruct (fstep_x_ok lm LM _ _ _ _ _ _ _ Q1 S1 D O E0) as (A & _ & C & _). destruct (step_x _ _ _ _ _ _ _ Q1 S1 D O Q4 (Q6 g eq_refl) E0) as (w & _ & _ & V & _).
  exact (IH _ _ _ _ _ _ A C D O V H).
Qed.
Lemma loop_y_u n : forall p s dx o p' out, fpool_ok p -> s_ok s -> f64_ok dx -> f64_ok o -> pool_u p ->
  fswap_y_loop lm n p s dx o = Ok (p', out) -> pool_u p'.
Proof.
  induction n as [|n IH]; intros p s dx o p' out K S D O U H; [discriminate|]. cbn [fswap_y_loop] in H.
  destruct (flt (fl_in s) dx) eqn:L; cbn [negb] in H; [|apply fend_y_ok in H as [-> _]; exact U].
  mb H. destruct a as [[q g] rp].
  assert (Q : fpool_ok q /\ f64_ok rp /\ pool_u q /\ (forall t, g = Some t -> In t (keys q))).
  { destruct (flt f_zero _).
    - mb E. injection E as <- <- <-. split; [exact K|]. split; [apply S|]. split; [exact U|]. intros t ->. exact (proj1 (right_in _ _ _ _ E0)).
    - destruct (fgir_ok lm LM _ _ _ _ _ K E) as (Q1 & _ & Q3). destruct (get_right _ _ _ _ K U E) as (Q4 & _ & Q6).
      split; [exact Q1|]. split; [exact Q3|]. split; [exact Q4|]. intros t T. exact (proj1 (Q6 t T)). }
  destruct Q as (Q1 & Q3 & Q4 & Q6). set (s1 := mkFL _ _ _ _ _ _) in H.
  assert (S1 : s_ok s1) by (destruct S as (A1 & A2 & A3 & A4 & A5); repeat split; assumption).
  destruct g as [g|]; [|apply fend_y_ok in H as [-> _]; exact Q4]. mb H. destruct a as [q2 s2].
  destruct (fstep_y_ok lm LM _ _ _ _ _ _ _ Q1 S1 D O E0) as (A & _ & C & _). destruct (step_y _ _ _ _ _ _ _ Q1 S1 D O Q4 (Q6 g eq_refl) E0) as (w & _ & _ & V & _).
  exact (IH _ _ _ _ _ _ A C D O V H).
Qed.
Lemma start_ok p : fpool_ok p -> s_ok (mkFL f_zero f_zero f_zero f_zero (fglbl_tick p) (fglbl_rp p)).
Proof. intros [(K1 & K2 & K3) _ _ _ _ _]. unfold s_ok; cbn. auto 8 with fok. Qed.
Lemma possible_u32 p rp : u32 (f_rp_to_possible_tick lm p rp false).
Proof. apply to_u32. Qed.
Lemma reach_u p : freach lm p -> u32 (fspacing p) -> pool_u p.
Proof.
  induction 1 as [rp s c r p C R H|p u x y a b p' xd yd F IH X Y H|p u l a b p' xs ys F IH X H|p n dx o p' out F IH D O H|p n dx o p' out F IH D O H]; intros SP.
  - unfold fpool_new in H. mb H. injection H as <-. unfold fgstate_new in E. destruct (flt f_zero f_zero); [discriminate|]. injection E as <-.
    split; [exact SP|]. split; [apply to_u32|]. intros k [].
  - assert (K := freach_ok lm LM p F). unfold fdeposit in H. destruct (_ || _); [discriminate|]. destruct (flt x _); [discriminate|]. destruct (flt y _); [discriminate|].
    fold (dep_liq lm p x y a b) in H. assert (DL := dep_liq_ok lm LM p x y a b K X Y). mb H. destruct a0 as [q fe]. injection H as <- _ _.
    destruct (fset_position_spec _ _ _ _ _ _ _ K DL E) as (_ & _ & [(S & _) _ _] & _).
    assert (U : pool_u q) by (apply (position_u _ _ _ _ _ _ _ K DL (possible_u32 p a) (possible_u32 p b) E); apply IH; rewrite <- S; exact SP). exact U.
  - assert (K := freach_ok lm LM p F). unfold fwithdraw in H. destruct (flt l f_zero); [discriminate|].
    assert (DL := neg_ok l X). mb H. destruct a0 as [q fe]. injection H as <- _ _.
    destruct (fset_position_spec _ _ _ _ _ _ _ K DL E) as (_ & _ & [(S & _) _ _] & _).
    assert (U : pool_u q) by (apply (position_u _ _ _ _ _ _ _ K DL (possible_u32 p a) (possible_u32 p b) E); apply IH; rewrite <- S; exact SP). exact U.
  - assert (K := freach_ok lm LM p F). destruct (fswap_x_good lm LM _ _ _ _ _ _ K D O H) as (_ & [_ _ (S & _)] & _). unfold fexecute_swap_x in H. destruct (fle dx f_zero); [discriminate|].
    refine (loop_x_u _ _ _ _ _ _ _ K (start_ok p K) D O _ H). apply IH. rewrite <- S. exact SP.
  - assert (K := freach_ok lm LM p F). destruct (fswap_y_good lm LM _ _ _ _ _ _ K D O H) as (_ & [_ _ (S & _)] & _). unfold fexecute_swap_y in H. destruct (fle dx f_zero); [discriminate|].
    refine (loop_y_u _ _ _ _ _ _ _ K (start_ok p K) D O _ H). apply IH. rewrite <- S. exact SP.
Qed.

(** *** every swap ends *)
Lemma rest_start amt s : exists n, rest amt s n.
Proof.
  set (x := ((fval amt - fval (fl_in s)) / tiny)%R). destruct (archimed x) as [H _]. exists (Z.to_nat (Z.max 0 (up x))). intros _ _. pose proof tiny_pos as T.
  rewrite INR_IZR_INZ, Z2Nat.id by lia. assert (IZR (up x) <= IZR (Z.max 0 (up x)))%R by (apply IZR_le; lia). set (k := IZR (Z.max 0 (up x))) in *. clearbody k.
  apply Rmult_le_reg_r with (/ tiny)%R; [now apply Rinv_0_lt_compat|]. rewrite Rmult_assoc, Rinv_r by lra. unfold x, Rdiv in *. lra.
Qed.
Lemma swap_x_ends p dx o : freach lm p -> u32 (fspacing p) -> f64_ok dx -> f64_ok o -> exists n, forall m, (n <= m)%nat ->
  fexecute_swap_x lm m p dx o <> NoFuel /\ fexecute_swap_x lm m p dx o = fexecute_swap_x lm n p dx o.
Proof.
  intros F SP D O. assert (K := freach_ok lm LM p F). assert (U := reach_u p F SP). unfold fexecute_swap_x.
  destruct (fle dx f_zero); [exists 0%nat; intros; split; [discriminate|reflexivity]|]. set (s := mkFL _ _ _ _ _ _). destruct (rest_start dx s) as [N R].
  destruct (loop_x dx o D O N (below p) p s K (start_ok p K) U eq_refl (Z.le_refl _) R (le_n _)) as [n H].
  exists n. intros m L. replace m with (n + (m - n))%nat by lia. rewrite (fuel_x lm n (m - n) p s dx o _ eq_refl H). auto.
Qed.
Lemma swap_y_ends p dy o : freach lm p -> u32 (fspacing p) -> f64_ok dy -> f64_ok o -> exists n, forall m, (n <= m)%nat ->
  fexecute_swap_y lm m p dy o <> NoFuel /\ fexecute_swap_y lm m p dy o = fexecute_swap_y lm n p dy o.
Proof.
  intros F SP D O. assert (K := freach_ok lm LM p F). assert (U := reach_u p F SP). unfold fexecute_swap_y.
  destruct (fle dy f_zero); [exists 0%nat; intros; split; [discriminate|reflexivity]|]. set (s := mkFL _ _ _ _ _ _). destruct (rest_start dy s) as [N R].
  destruct (loop_y dy o D O N (above p) p s K (start_ok p K) U eq_refl R (le_n _)) as [n H].
  exists n. intros m L. replace m with (n + (m - n))%nat by lia. rewrite (fuel_y lm n (m - n) p s dy o _ eq_refl H). auto.
Qed.
End Lm.
