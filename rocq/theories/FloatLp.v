(** Deposits and withdrawals of the f64 pool: reachable states, whose position a call may change, and the liquidity recorded at ticks. *)
From Coq Require Import ZArith Reals Lra Lia List Bool String Sorted Floats.SpecFloat.
From Flocq Require Import Core BinarySingleNaN.
From Verif Require Import Base FloatBase FloatModel FloatFacts FloatWf FloatSwap.
Import ListNotations.
Open Scope Z_scope.

(** everything a position update leaves alone *)
Record same_rest (p p' : fpool) : Prop := mkRest
  { sr_par : fspacing p' = fspacing p /\ f_c p' = f_c p /\ f_fee_rate p' = f_fee_rate p;
    sr_gs : fglbl_rp p' = fglbl_rp p /\ fglbl_tick p' = fglbl_tick p /\ fglbl_fees p' = fglbl_fees p;
    sr_funds : (fx p', fy p', fx_adj p', fy_adj p', fx_fee p', fy_fee p') = (fx p, fy p, fx_adj p, fy_adj p, fx_fee p, fy_fee p) }.
Lemma rest_trans p q r : same_rest p q -> same_rest q r -> same_rest p r.
Proof. intros [(A1 & A2 & A3) (B1 & B2 & B3) C] [(A1' & A2' & A3') (B1' & B2' & B3') C']. constructor; [repeat split; congruence|repeat split; congruence|congruence]. Qed.

(** the tick map after [fupdate_tick], as a function of the tick's entry *)
Definition new_entry (p : fpool) (t : Z) : ftstate :=
  match ftm_get t (fticks p) with
  | Some ts => ts
  | None => mkFT f_zero f_zero (if t <=? fglbl_tick p then fglbl_fees p else f4_zero)
  end.
Lemma ftm_set_twice k v v' m : ftm_set k v (ftm_set k v' m) = ftm_set k v m.
Proof.
  induction m as [|[k1 v1] m IH]; cbn; [now rewrite Z.eqb_refl|].
  destruct (Z.eqb_spec k k1) as [<-|N]; cbn; [now rewrite Z.eqb_refl|].
  destruct (k <? k1) eqn:L; cbn; [now rewrite Z.eqb_refl|].
  destruct (Z.eqb_spec k k1); [contradiction|]. now rewrite L, IH.
Qed.
Lemma ftm_del_other k m k' : k' <> k -> ftm_get k' (ftm_del k m) = ftm_get k' m.
Proof.
  intros N. induction m as [|[k1 v1] m IH]; cbn; [reflexivity|].
  destruct (Z.eqb_spec k k1) as [<-|N1]; cbn.
  - destruct (Z.eqb_spec k' k); [contradiction|reflexivity].
  - destruct (k' =? k1); [reflexivity|exact IH].
Qed.
Lemma ftm_get_in k v m : ftm_get k m = Some v -> In k (map fst m).
Proof. induction m as [|[a b] m IH]; cbn; [discriminate|]. destruct (Z.eqb_spec k a); auto. Qed.
Lemma ftm_del_same k m : StronglySorted Z.lt (map fst m) -> ftm_get k (ftm_del k m) = None.
Proof.
  induction m as [|[k1 v1] m IH]; cbn; intros S; [reflexivity|]. inversion S as [|? ? S' F]; subst.
  destruct (Z.eqb_spec k k1) as [->|N]; cbn.
  - destruct (ftm_get k1 m) eqn:G; [|reflexivity]. apply ftm_get_in in G. rewrite Forall_forall in F. specialize (F _ G). lia.
  - destruct (Z.eqb_spec k k1); [contradiction|]. now apply IH.
Qed.
Lemma fupdate_tick_spec p t d up p' : fpool_ok p -> f64_ok d -> fupdate_tick p t d up = Ok p' ->
  let n := new_entry p t in let g := fadd (ft_gross n) d in let nt := fadd (ft_net n) (if negb up then d else fneg d) in
  fpool_ok p' /\ same_rest p p' /\ fglbl_liq p' = fglbl_liq p /\ fpositions p' = fpositions p /\ flt g f_zero = false /\
  (forall t', t' <> t -> ftm_get t' (fticks p') = ftm_get t' (fticks p)) /\
  ftm_get t (fticks p') = (if feq g f_zero then None else Some (mkFT nt g (ft_fees n))).
Proof.
  intros K D H. cbv zeta. set (n := new_entry p t). set (g := fadd (ft_gross n) d).
  set (nt := fadd (ft_net n) (if negb up then d else fneg d)).
  assert (N : ts_ok n).
  { unfold n, new_entry. destruct (ftm_get t (fticks p)) eqn:G; [eapply ftm_get_P; [apply K|exact G]|].
    destruct K as [(A & B & C) _ _ _ _ _]. unfold ts_ok; cbn. destruct (t <=? fglbl_tick p); auto with fok. }
  destruct N as (N1 & N2 & N3).
  assert (NT : f64_ok nt) by (unfold nt; destruct up; cbn; auto with fok).
  assert (GK : f64_ok g) by (unfold g; auto with fok).
  unfold fupdate_tick in H. mb H. rename a into q.
  assert (Q : exists m, fticks q = m /\ StronglySorted Z.lt (map fst m) /\ Forall (fun kv => ts_ok (snd kv)) m /\ ftm_get t m = Some n /\
              (forall t', t' <> t -> ftm_get t' m = ftm_get t' (fticks p)) /\ q = fwith_ticks p m).
  { unfold n, new_entry in *. destruct (ftm_get t (fticks p)) as [ts|] eqn:G.
    - injection E as <-. exists (fticks p). repeat split; auto; try apply K. destruct p; reflexivity.
    - unfold finitialize_tick in E. mb E. injection E as <-. unfold ftstate_new in E0.
      destruct (flt f_zero f_zero); [discriminate|]. injection E0 as <-.
      eexists. split; [reflexivity|]. split; [apply ftm_set_keys; apply K|]. split; [apply ftm_set_P; [apply K|split; auto]|].
      split; [apply ftm_set_same|]. split; [intros; now apply ftm_set_other|reflexivity]. }
  destruct Q as (m & Q1 & Q2 & Q3 & Q4 & Q5 & ->). clear E Q1. cbn [fticks fwith_ticks] in H. rewrite Q4 in H.
  mb H. rename a into ts. unfold ft_add_gross in E. cbn [ft_add_net ft_gross ft_net ft_fees] in E. fold g nt in E.
  destruct (flt g f_zero) eqn:GN; [discriminate|]. injection E as <-. cbn [ft_gross] in H.
  destruct K as [K1 K2 K3 K4 K5 K6].
  destruct (feq g f_zero) eqn:GZ; injection H as <-; cbn [fticks fwith_ticks fpositions].
  - split; [constructor; cbn; auto using ftm_del_P, ftm_del_keys|]. split; [repeat split|]. repeat split; auto.
    + intros t' Nt. rewrite ftm_del_other by exact Nt. auto.
    + now apply ftm_del_same.
  - split; [constructor; cbn; auto using ftm_set_keys|].
    { apply ftm_set_P; [exact Q3|]. unfold ts_ok. cbn. auto. }
    split; [repeat split|]. repeat split; auto.
    + intros t' Nt. rewrite ftm_set_other by exact Nt. auto.
    + apply ftm_set_same.
Qed.

Lemma fee_ba_ok p t k : fpool_ok p -> f64_ok (fst (ffee_below_above p t k)) /\ f64_ok (snd (ffee_below_above p t k)).
Proof.
  intros K. unfold ffee_below_above. assert (A : f64_ok (f4_get (fglbl_fees p) k)) by (apply f4_get_ok; apply K).
  destruct (ftm_get t (fticks p)) as [ts|] eqn:G; cbn; [|auto with fok].
  assert (B : f64_ok (f4_get (ft_fees ts) k)) by (apply f4_get_ok; eapply (ftm_get_P ts_ok) in G; [apply G|apply K]).
  destruct (t <=? fglbl_tick p); cbn; auto with fok.
Qed.
Lemma fee_rng_ok p lo up k r : fpool_ok p -> ffee_rng p lo up k = Ok r -> f64_ok r.
Proof.
  intros K H. unfold ffee_rng in H. destruct (fee_ba_ok p lo k K) as [A B]. destruct (fee_ba_ok p up k K) as [C D].
  destruct (ffee_below_above p lo k) as [bl al], (ffee_below_above p up k) as [bu au]. cbn in A, B, C, D.
  mb H. injection H as <-. auto with fok.
Qed.

(** what [fset_position] does to the caller's position *)
Definition after_delta (q : option fpstate) (d : f64) (r : option f64) : Prop :=
  match q with
  | None => flt d f_zero = false /\ r = Some d
  | Some q => r = (if feq (fadd (fp_liq q) d) f_zero then None else Some (fadd (fp_liq q) d)) /\
              (flt d f_zero && flt (fadd (fp_liq q) d) f_zero = false) /\
              (feq (fadd (fp_liq q) d) f_zero = false -> flt (fadd (fp_liq q) d) f_zero = false)
  end.
Definition fmap_liq (o : option fpstate) : option f64 := option_map fp_liq o.
Lemma fset_position_spec p u lo up d p' fe : fpool_ok p -> f64_ok d -> fset_position p u lo up d = Ok (p', fe) ->
  fpool_ok p' /\ f4_ok fe /\ same_rest p p' /\
  exists ps p1 p2, fpositions p' = ps /\ (forall k, k <> (u, lo, up) -> fpm_get k ps = fpm_get k (fpositions p)) /\
    (ps = fpm_del (u, lo, up) (fpositions p) /\ (exists q, fpm_get (u, lo, up) (fpositions p) = Some q /\ feq (fadd (fp_liq q) d) f_zero = true)
     \/ exists q, ps = fpm_set (u, lo, up) q (fpositions p) /\ after_delta (fpm_get (u, lo, up) (fpositions p)) d (Some (fp_liq q))) /\
    fpool_ok p1 /\ fticks p1 = fticks p /\ same_rest p p1 /\
    fupdate_tick p1 lo d false = Ok p2 /\
    exists p3, fpool_ok p2 /\ same_rest p p2 /\ fupdate_tick p2 up d true = Ok p3 /\ fticks p' = fticks p3.
Proof.
  intros K D H. unfold fset_position in H.
  mb H. mb H. mb H. mb H.
  assert (F1 := fee_rng_ok _ _ _ _ _ K E). assert (F2 := fee_rng_ok _ _ _ _ _ K E0). assert (F3 := fee_rng_ok _ _ _ _ _ K E1). assert (F4 := fee_rng_ok _ _ _ _ _ K E2).
  clear E E0 E1 E2. set (new := mkF4 a a0 a1 a2) in *. assert (NW : f4_ok new) by (unfold f4_ok; cbn; auto). clearbody new.
  mb H. destruct a3 as [[p1 old] base].
  assert (Q : fpool_ok p1 /\ fticks p1 = fticks p /\ same_rest p p1 /\ f4_ok old /\ f64_ok base /\
    (forall k, k <> (u, lo, up) -> fpm_get k (fpositions p1) = fpm_get k (fpositions p)) /\
    (fpositions p1 = fpm_del (u, lo, up) (fpositions p) /\ (exists q, fpm_get (u, lo, up) (fpositions p) = Some q /\ feq (fadd (fp_liq q) d) f_zero = true)
     \/ exists q, fpositions p1 = fpm_set (u, lo, up) q (fpositions p) /\ after_delta (fpm_get (u, lo, up) (fpositions p)) d (Some (fp_liq q)))).
  { assert (WP : forall m, Forall (fun kv => ps_ok (snd kv)) m -> fpool_ok (fwith_positions p m))
      by (intros m M; destruct K as [K1 K2 K3 K4 K5 K6]; constructor; cbn; auto).
    assert (OT : forall k v, k <> (u, lo, up) -> fpm_get k (fpm_set (u, lo, up) v (fpositions p)) = fpm_get k (fpositions p)).
    { intros k v N. rewrite fpm_get_set. destruct (fkey_eqb_spec k (u, lo, up)); [contradiction|reflexivity]. }
    destruct (fpm_get (u, lo, up) (fpositions p)) as [q|] eqn:G.
    - assert (QK : ps_ok q) by (eapply fpm_get_P; [apply K|exact G]). destruct QK as [Q1 Q2].
      destruct (flt d f_zero && _) eqn:C1; [discriminate|]. destruct (feq _ f_zero) eqn:C2.
      + injection E as <- <- <-. split; [apply WP; apply fpm_del_P; apply K|]. split; [reflexivity|]. split; [repeat split|].
        split; [exact Q2|]. split; [exact Q1|]. split; [intros; now apply fpm_get_del_other|]. left. split; [reflexivity|]. exists q. auto.
      + mb E. unfold fp_add_liq in E0. destruct (flt (fadd (fp_liq q) d) f_zero) eqn:C3; [discriminate|]. injection E0 as <-.
        injection E as <- <- <-. cbn [fp_liq].
        split; [apply WP; apply fpm_set_P; [apply K|split; cbn; auto with fok]|]. split; [reflexivity|]. split; [repeat split|].
        split; [exact Q2|]. split; [exact Q1|]. split; [intros; now apply OT|]. right. eexists. split; [reflexivity|].
        cbn. rewrite C2, C3. auto.
    - destruct (flt d f_zero) eqn:C1; [discriminate|]. mb E. unfold fpstate_new in E0. rewrite C1 in E0. injection E0 as <-.
      injection E as <- <- <-.
      split; [apply WP; apply fpm_set_P; [apply K|split; cbn; auto with fok]|]. split; [reflexivity|]. split; [repeat split|].
      split; [auto with fok|]. split; [auto with fok|]. split; [intros; now apply OT|]. right. eexists. split; [reflexivity|]. cbn. auto. }
  destruct Q as (Q1 & Q2 & Q3 & Q4 & Q5 & Q6 & Q7). clear E.
  mb H. clear E. mb H. rename a4 into p2. mb H. rename a4 into p3. mb H. rename a4 into p4. injection H as <- <-.
  destruct (fupdate_tick_spec _ _ _ _ _ Q1 D E) as (U1 & U2 & U3 & U4 & _).
  destruct (fupdate_tick_spec _ _ _ _ _ U1 D E0) as (V1 & V2 & V3 & V4 & _).
  assert (W : fpool_ok p4 /\ same_rest p3 p4 /\ fticks p4 = fticks p3 /\ fpositions p4 = fpositions p3).
  { destruct (_ && _) in E1.
    - unfold fadd_glbl_liq, fg_add_liq in E1. mb E1. injection E1 as <-. destruct (flt _ f_zero); [discriminate|]. injection E2 as <-.
      destruct V1 as [(A & B & C) A1 A2 A3 A4 A5]. split; [|repeat split].
      constructor; cbn; auto. split; [cbn; auto with fok|]. split; cbn; auto.
    - injection E1 as <-. repeat split; auto; apply V1. }
  destruct W as (W1 & W2 & W3 & W4).
  split; [exact W1|]. split.
  { apply (f4_sub_ok new old NW) in Q4 as (S1 & S2 & S3 & S4). repeat split; cbn; auto with fok. }
  split; [eapply rest_trans; [exact Q3|eapply rest_trans; [exact U2|eapply rest_trans; [exact V2|exact W2]]]|].
  exists (fpositions p1), p1, p2. split; [congruence|]. split; [exact Q6|]. split; [exact Q7|]. split; [exact Q1|]. split; [exact Q2|].
  split; [exact Q3|]. split; [exact E|]. exists p3. split; [exact U1|]. split; [eapply rest_trans; eassumption|]. split; [exact E0|exact W3].
Qed.

Section Lm.
Variable lm : libm.
Hypothesis LM : libm_ok lm.
Local Hint Resolve rp_ok : fok.

Lemma xrng_ok l r a b : f64_ok l -> f64_ok r -> f64_ok a -> f64_ok b -> f64_ok (f_x_from_l_rp_rng l r a b).
Proof. intros. unfold f_x_from_l_rp_rng. destruct (fle r a); [auto 12 with fok|]. destruct (flt r b); auto 12 with fok. Qed.
Lemma yrng_ok l r a b : f64_ok l -> f64_ok r -> f64_ok a -> f64_ok b -> f64_ok (f_y_from_l_rp_rng l r a b).
Proof. intros. unfold f_y_from_l_rp_rng. destruct (fle r a); [auto 12 with fok|]. destruct (flt r b); auto 12 with fok. Qed.
Lemma liq_ok x y r a b : f64_ok x -> f64_ok y -> f64_ok r -> f64_ok a -> f64_ok b -> f64_ok (f_liq_from_x_y_rp_rng x y r a b).
Proof.
  intros. unfold f_liq_from_x_y_rp_rng, f_liq_x_only, f_liq_y_only. destruct (fle r a); [auto 12 with fok|]. destruct (flt r b); auto 20 with fok.
Qed.
Lemma funds_ok p a b c d e f : fpool_ok p -> f64_ok a -> f64_ok b -> f64_ok c -> f64_ok d -> f64_ok e -> f64_ok f -> fpool_ok (fwith_funds p a b c d e f).
Proof. intros [K1 K2 K3 K4 K5 K6] A B C D E F. constructor; cbn; auto 8. Qed.
Lemma fpool_new_ok rp s c r p : f64_ok c -> f64_ok r -> fpool_new lm rp s c r = Ok p -> fpool_ok p.
Proof.
  intros C R H. unfold fpool_new in H. mb H. injection H as <-. unfold fgstate_new in E. destruct (flt f_zero f_zero); [discriminate|]. injection E as <-.
  constructor; cbn; auto with fok; try (repeat split; fail).
  - unfold gs_ok; cbn. auto with fok.
  - constructor.
Qed.
(** the position a call names *)
Definition dep_key (p : fpool) (u : string) (rpa rpb : f64) : fkey := (u, f_rp_to_possible_tick lm p rpa false, f_rp_to_possible_tick lm p rpb false).
Definition dep_liq (p : fpool) (x y rpa rpb : f64) : f64 :=
  ffloor (f_liq_from_x_y_rp_rng x y (fglbl_rp p) (f_tick_to_rp lm (f_rp_to_possible_tick lm p rpa false)) (f_tick_to_rp lm (f_rp_to_possible_tick lm p rpb false))).
Lemma dep_liq_ok p x y a b : fpool_ok p -> f64_ok x -> f64_ok y -> f64_ok (dep_liq p x y a b).
Proof. intros K X Y. apply floor_ok, liq_ok; auto with fok. apply K. Qed.
Lemma fdeposit_spec p u x y a b p' xd yd : fpool_ok p -> f64_ok x -> f64_ok y -> fdeposit lm p u x y a b = Ok (p', xd, yd) ->
  fpool_ok p' /\ exists q fe, fset_position p u (snd (fst (dep_key p u a b))) (snd (dep_key p u a b)) (dep_liq p x y a b) = Ok (q, fe) /\
    fpositions p' = fpositions q /\ fticks p' = fticks q.
Proof.
  intros K X Y H. unfold fdeposit in H. fold (dep_liq p x y a b) in H. destruct (_ || _); [discriminate|]. destruct (flt x _); [discriminate|]. destruct (flt y _); [discriminate|].
  mb H. destruct a0 as [q fe]. assert (DL := dep_liq_ok p x y a b K X Y).
  destruct (fset_position_spec _ _ _ _ _ _ _ K DL E) as (Q1 & (F1 & F2 & F3 & F4) & _).
  injection H as <- _ _. split.
  - destruct Q1 as [A1 A2 A3 A4 A5 A6]. destruct K as [(B0 & B1 & B2) _ _ _ _ _].
    assert (XI := xrng_ok (dep_liq p x y a b) (fglbl_rp p) _ _ DL B1 (rp_ok lm LM (f_rp_to_possible_tick lm p a false)) (rp_ok lm LM (f_rp_to_possible_tick lm p b false))).
    assert (YI := yrng_ok (dep_liq p x y a b) (fglbl_rp p) _ _ DL B1 (rp_ok lm LM (f_rp_to_possible_tick lm p a false)) (rp_ok lm LM (f_rp_to_possible_tick lm p b false))).
    destruct A5 as (S1 & S2 & S3 & S4 & S5 & S6).
    apply funds_ok; auto with fok. constructor; auto 8.
  - exists q, fe. auto.
Qed.
Lemma fwithdraw_spec p u l a b p' xs ys : fpool_ok p -> f64_ok l -> fwithdraw lm p u l a b = Ok (p', xs, ys) ->
  fpool_ok p' /\ flt l f_zero = false /\ exists q fe, fset_position p u (snd (fst (dep_key p u a b))) (snd (dep_key p u a b)) (fneg l) = Ok (q, fe) /\
    fpositions p' = fpositions q /\ fticks p' = fticks q.
Proof.
  intros K L H. unfold fwithdraw in H. destruct (flt l f_zero); [discriminate|].
  mb H. destruct a0 as [q fe]. assert (DL := neg_ok l L).
  destruct (fset_position_spec _ _ _ _ _ _ _ K DL E) as (Q1 & (F1 & F2 & F3 & F4) & _).
  injection H as <- _ _. split; [|split; [reflexivity|exists q, fe; auto]].
  destruct Q1 as [A1 A2 A3 A4 A5 A6].
  assert (XI := xrng_ok l (fglbl_rp q) _ _ L (proj1 (proj2 A1)) (rp_ok lm LM (f_rp_to_possible_tick lm p a false)) (rp_ok lm LM (f_rp_to_possible_tick lm p b false))).
  assert (YI := yrng_ok l (fglbl_rp q) _ _ L (proj1 (proj2 A1)) (rp_ok lm LM (f_rp_to_possible_tick lm p a false)) (rp_ok lm LM (f_rp_to_possible_tick lm p b false))).
  destruct A5 as (S1 & S2 & S3 & S4 & S5 & S6).
  apply funds_ok; auto 8 with fok. constructor; auto 8.
Qed.

(** *** reachable states, for any libm *)
Inductive freach : fpool -> Prop :=
| fr_new rp s c r p : f64_ok c -> f64_ok r -> fpool_new lm rp s c r = Ok p -> freach p
| fr_dep p u x y a b p' xd yd : freach p -> f64_ok x -> f64_ok y -> fdeposit lm p u x y a b = Ok (p', xd, yd) -> freach p'
| fr_wd p u l a b p' xs ys : freach p -> f64_ok l -> fwithdraw lm p u l a b = Ok (p', xs, ys) -> freach p'
| fr_x p n dx o p' out : freach p -> f64_ok dx -> f64_ok o -> fexecute_swap_x lm n p dx o = Ok (p', out) -> freach p'
| fr_y p n dy o p' out : freach p -> f64_ok dy -> f64_ok o -> fexecute_swap_y lm n p dy o = Ok (p', out) -> freach p'.
Lemma freach_ok p : freach p -> fpool_ok p.
Proof.
  induction 1; eauto using fpool_new_ok.
  - exact (proj1 (fdeposit_spec _ _ _ _ _ _ _ _ _ IHfreach H0 H1 H2)).
  - exact (proj1 (fwithdraw_spec _ _ _ _ _ _ _ _ IHfreach H0 H1)).
  - exact (proj1 (fswap_x_good lm LM _ _ _ _ _ _ IHfreach H0 H1 H2)).
  - exact (proj1 (fswap_y_good lm LM _ _ _ _ _ _ IHfreach H0 H1 H2)).
Qed.
Lemma fdeposit_frame p u x y a b p' xd yd : fpool_ok p -> f64_ok x -> f64_ok y -> fdeposit lm p u x y a b = Ok (p', xd, yd) ->
  (forall k, k <> dep_key p u a b -> fpm_get k (fpositions p') = fpm_get k (fpositions p)) /\
  fspacing p' = fspacing p /\ f_c p' = f_c p /\ f_fee_rate p' = f_fee_rate p /\ fglbl_rp p' = fglbl_rp p /\ fglbl_tick p' = fglbl_tick p /\ fglbl_fees p' = fglbl_fees p.
Proof.
  intros K X Y H. assert (H' := H). destruct (fdeposit_spec _ _ _ _ _ _ _ _ _ K X Y H) as (_ & q & fe & E & P & _).
  destruct (fset_position_spec _ _ _ _ _ _ _ K (dep_liq_ok _ _ _ _ _ K X Y) E) as (_ & _ & [(R1 & R2 & R3) (R4 & R5 & R6) _] & ps & _ & _ & F1 & F2 & _).
  split; [intros k N; rewrite P, F1; apply F2; exact N|].
  unfold fdeposit in H'. fold (dep_liq p x y a b) in H'. cbn [dep_key fst snd] in E. destruct (_ || _); [discriminate|]. destruct (flt x _); [discriminate|]. destruct (flt y _); [discriminate|].
  rewrite E in H'. cbn [bind] in H'. injection H' as <- _ _. cbn. auto 8.
Qed.
Lemma fwithdraw_frame p u l a b p' xs ys : fpool_ok p -> f64_ok l -> fwithdraw lm p u l a b = Ok (p', xs, ys) ->
  (forall k, k <> dep_key p u a b -> fpm_get k (fpositions p') = fpm_get k (fpositions p)) /\
  fspacing p' = fspacing p /\ f_c p' = f_c p /\ f_fee_rate p' = f_fee_rate p /\ fglbl_rp p' = fglbl_rp p /\ fglbl_tick p' = fglbl_tick p /\ fglbl_fees p' = fglbl_fees p.
Proof.
  intros K L H. assert (H' := H). destruct (fwithdraw_spec _ _ _ _ _ _ _ _ K L H) as (_ & _ & q & fe & E & P & _).
  destruct (fset_position_spec _ _ _ _ _ _ _ K (neg_ok _ L) E) as (_ & _ & [(R1 & R2 & R3) (R4 & R5 & R6) _] & ps & _ & _ & F1 & F2 & _).
  split; [intros k N; rewrite P, F1; apply F2; exact N|].
  unfold fwithdraw in H'. cbn [dep_key fst snd] in E. destruct (flt l f_zero); [discriminate|].
  rewrite E in H'. cbn [bind] in H'. injection H' as <- _ _. cbn. auto 8.
Qed.
End Lm.
