(** Deposits into the f64 pool that are accepted. *)
From Coq Require Import ZArith Reals Lra Lia List Bool String Sorted Floats.SpecFloat.
From Flocq Require Import Core BinarySingleNaN.
From Verif Require Import Base FloatBase FloatModel FloatFacts FloatWf FloatSwap FloatLp FloatBook FloatTrip FloatOut FloatFlow.
Import ListNotations.
Open Scope Z_scope.

(** the sum of two numbers that are not below zero is not below zero, also if it is too large for f64 or one of them is not a number *)
Lemma nn_add a b : f64_ok a -> f64_ok b -> flt a f_zero = false -> flt b f_zero = false -> flt (fadd a b) f_zero = false.
Proof.
  intros A B NA NB. destruct (f_finite a) eqn:FA; [destruct (f_finite b) eqn:FB|].
  - assert (KA : fok a) by (split; auto). assert (KB : fok b) by (split; auto).
    assert (PA := flt_f _ _ KA fok_zero NA). assert (PB := flt_f _ _ KB fok_zero NB). rewrite fval_zero in *.
    destruct (add_cases a b KA KB) as [S|(G & [(E & _)|(E & P & Q)])].
    + destruct (flt (fadd a b) f_zero) eqn:L; [|reflexivity]. apply (flt_t _ _ S fok_zero) in L.
      rewrite fval_zero, (add_R a b KA KB (proj2 S)) in L. pose proof (rnd_ge0 (fval a + fval b)%R ltac:(lra)). lra.
    + now rewrite E.
    + exfalso. assert (Z : (fval a + fval b = 0)%R) by lra. rewrite Z in G. rewrite (rnd_int 0) in G by reflexivity. rewrite Rabs_R0 in G.
      pose proof (bpow_gt_0 radix2 1024). unfold top in G. lra.
  - clear A B NA. destruct b as [[]|[]| |[] ? ?]; try discriminate; destruct a as [[]|[]| |[] ? ?]; try discriminate; reflexivity.
  - clear A B. destruct a as [[]|[]| |[] ? ?]; try discriminate; destruct b as [[]|[]| |[] ? ?]; try discriminate; reflexivity.
Qed.
Definition lnn (p : fpool) : Prop := flt (fglbl_liq p) f_zero = false.
Definition gnn (p : fpool) : Prop := forall t ts, ftm_get t (fticks p) = Some ts -> flt (ft_gross ts) f_zero = false.
Definition pnn (p : fpool) : Prop := Forall (fun kv => flt (fp_liq (snd kv)) f_zero = false) (fpositions p).
Lemma add_glbl_nn p d q : fadd_glbl_liq p d = Ok q -> lnn q.
Proof. unfold fadd_glbl_liq, fg_add_liq. intros H. mb H. injection H as <-. destruct (flt _ f_zero) eqn:L in E; [discriminate|]. injection E as <-. exact L. Qed.
Lemma add_glbl_rest p d q : fadd_glbl_liq p d = Ok q -> fticks q = fticks p /\ fpositions q = fpositions p.
Proof. unfold fadd_glbl_liq. intros H. mb H. injection H as <-. auto. Qed.
Lemma cross_lnn p t d q : fcross_tick p t d = Ok q -> lnn q.
Proof.
  unfold fcross_tick. intros H. destruct (_ && _); [discriminate|]. destruct (ftm_get _ _); [|discriminate]. mb H. now apply add_glbl_nn in H.
Qed.
Lemma upd_gnn p t d up q : fpool_ok p -> f64_ok d -> gnn p -> fupdate_tick p t d up = Ok q -> gnn q.
Proof.
  intros K D G H. destruct (fupdate_tick_spec _ _ _ _ _ K D H) as (_ & _ & _ & _ & N & O & S). intros t' ts E.
  destruct (Z.eq_dec t' t) as [->|NE]; [|rewrite O in E by exact NE; eauto].
  rewrite S in E. destruct (feq _ _); [discriminate|]. injection E as <-. exact N.
Qed.
Lemma set_nn p u lo up d q fe : fpool_ok p -> f64_ok d -> lnn p /\ gnn p /\ pnn p -> fset_position p u lo up d = Ok (q, fe) -> lnn q /\ gnn q /\ pnn q.
Proof.
  intros K D (L & G & P) H. assert (SP := fset_position_spec _ _ _ _ _ _ _ K D H). unfold fset_position in H. mb H. mb H. mb H. mb H. clear E E0 E1 E2.
  mb H. destruct a3 as [[p1 old] base]. mb H. mb H. mb H. mb H. injection H as <- _. clear E0.
  assert (I : lnn p1 /\ gnn p1 /\ pnn p1).
  { destruct (fpm_get _ _) as [q0|] eqn:F in E.
    - destruct (_ && _); [discriminate|]. destruct (feq _ _).
      + injection E as <- _ _. split; [exact L|]. split; [exact G|]. apply (fpm_del_P (fun v => flt (fp_liq v) f_zero = false)). exact P.
      + mb E. injection E as <- _ _. split; [exact L|]. split; [exact G|]. apply (fpm_set_P (fun v => flt (fp_liq v) f_zero = false)); [exact P|].
        unfold fp_add_liq in E0. destruct (flt _ f_zero) eqn:Q in E0; [discriminate|]. injection E0 as <-. exact Q.
    - destruct (flt d f_zero) eqn:DN; [discriminate|]. mb E. injection E as <- _ _. unfold fpstate_new in E0. rewrite DN in E0. injection E0 as <-.
      split; [exact L|]. split; [exact G|]. apply (fpm_set_P (fun v => flt (fp_liq v) f_zero = false)); [exact P|exact DN]. }
  destruct SP as (_ & _ & _ & ps & q1 & q2 & _ & _ & _ & KQ1 & T1 & _ & U1 & q3 & KQ2 & _ & U2 & TQ). destruct I as (L1 & G1 & P1).
  assert (GQ : gnn q3). { apply (upd_gnn q2 up d true); [exact KQ2|exact D| |exact U2]. apply (upd_gnn q1 lo d false); [exact KQ1|exact D| |exact U1]. intros t ts; rewrite T1; apply G. }
  assert (UG : forall p t d up p', fupdate_tick p t d up = Ok p' -> fgs p' = fgs p /\ fpositions p' = fpositions p).
  { clear. intros p t d up p' H. split; [exact (fupdate_tick_gs _ _ _ _ _ H)|]. unfold fupdate_tick in H. mb H. destruct (ftm_get t (fticks a)); [|discriminate].
    assert (fpositions a = fpositions p). { destruct (ftm_get t (fticks p)); [injection E as <-; reflexivity|]. unfold finitialize_tick in E. mb E. injection E as <-. reflexivity. }
    mb H. destruct (feq _ _); injection H as <-; exact H0. }
  destruct (UG _ _ _ _ _ E1) as [S1 R1], (UG _ _ _ _ _ E2) as [S2 R2].
  split; [|split; [intros t ts; rewrite TQ; apply GQ|]].
  - destruct (_ && _) in E3; [exact (add_glbl_nn _ _ _ E3)|]. injection E3 as <-. unfold lnn, fglbl_liq in *. rewrite S2, S1. exact L1.
  - unfold pnn. destruct (_ && _) in E3; [destruct (add_glbl_rest _ _ _ E3) as [_ ->]|injection E3 as <-]; rewrite R2, R1; exact P1.
Qed.
Section Lm.
Variable lm : libm.
Hypothesis LM : libm_ok lm.
Lemma gir_left_lnn ks : forall p q o, lnn p -> fgir_left lm p ks = Ok (q, o) -> lnn q.
Proof.
  induction ks as [|k ks IH]; intros p q o L H; cbn [fgir_left] in H; [injection H as <- _; exact L|].
  destruct (_ <? k); [exact (IH _ _ _ L H)|]. mb H. apply cross_lnn in E. destruct (flt _ f_zero) eqn:N in H; [discriminate|].
  destruct (flt f_zero _); [mb H; injection H as <- _; exact E|exact (IH _ _ _ E H)].
Qed.
Lemma gir_right_lnn ks : forall p q o, lnn p -> fgir_right lm p ks = Ok (q, o) -> lnn q.
Proof.
  induction ks as [|k ks IH]; intros p q o L H; cbn [fgir_right] in H; [injection H as <- _; exact L|].
  destruct (k <=? _); [exact (IH _ _ _ L H)|]. mb H. apply cross_lnn in E. mb H. destruct (flt _ f_zero) eqn:N in H; [discriminate|].
  destruct (flt f_zero _); [mb H; injection H as <- _; exact E|exact (IH _ _ _ E H)].
Qed.
Lemma gir_lnn p d q g r : lnn p -> ftry_get_in_range lm p d = Ok (q, g, r) -> lnn q.
Proof.
  unfold ftry_get_in_range. intros L H. destruct (flt f_zero _); [discriminate|]. mb H. destruct a as [q1 o1].
  assert (lnn q1) by (destruct d; [eapply gir_right_lnn|eapply gir_left_lnn]; eassumption).
  destruct o1 as [[]|]; [|mb H; destruct a]; injection H as <- _ _; assumption.
Qed.
Lemma lnn_gs p q : lnn p -> fglbl_liq q = fglbl_liq p -> lnn q. Proof. unfold lnn. now intros ? ->. Qed.
Lemma step_x_lnn p s g dx o q s' : lnn p -> fswap_x_step lm p s g dx o = Ok (q, s') -> lnn q.
Proof.
  unfold fswap_x_step. intros L H. mb H. mb H. mb H. clear E E0 E1. mb H. injection H as <- _. destruct (fw_cross a).
  - mb E. destruct (ftm_get _ _) in E; [exact (cross_lnn _ _ _ _ E)|]. injection E as <-. destruct (flt f_zero _); exact L.
  - injection E as <-. destruct (flt f_zero _); exact L.
Qed.
Lemma step_y_lnn p s g dx o q s' : lnn p -> fswap_y_step lm p s g dx o = Ok (q, s') -> lnn q.
Proof.
  unfold fswap_y_step. intros L H. mb H. mb H. mb H. clear E E0 E1. mb H. injection H as <- _. destruct (fw_cross a).
  - mb E. destruct (ftm_get _ _) in E; [exact (cross_lnn _ _ _ _ E)|]. injection E as <-. destruct (flt f_zero _); exact L.
  - injection E as <-. destruct (flt f_zero _); exact L.
Qed.
Lemma loop_x_lnn n : forall p s dx o q out, lnn p -> fswap_x_loop lm n p s dx o = Ok (q, out) -> lnn q.
Proof.
  induction n as [|n IH]; intros p s dx o q out L H; [discriminate|]. cbn [fswap_x_loop] in H. destruct (negb _); [apply fend_x_ok in H as [-> _]; exact L|].
  mb H. destruct a as [[q1 g] rp]. assert (L1 : lnn q1) by (destruct (flt f_zero _); [injection E as <- _ _; exact L|eapply gir_lnn; eassumption]).
  destruct g as [g|]; [|apply fend_x_ok in H as [-> _]; exact L1]. mb H. destruct a as [q2 s2]. eapply IH; [|exact H]. eapply step_x_lnn; eassumption.
Qed.
Lemma loop_y_lnn n : forall p s dx o q out, lnn p -> fswap_y_loop lm n p s dx o = Ok (q, out) -> lnn q.
Proof.
  induction n as [|n IH]; intros p s dx o q out L H; [discriminate|]. cbn [fswap_y_loop] in H. destruct (negb _); [apply fend_y_ok in H as [-> _]; exact L|].
  mb H. destruct a as [[q1 g] rp]. assert (L1 : lnn q1) by (destruct (flt f_zero _); [mb E; injection E as <- _ _; exact L|eapply gir_lnn; eassumption]).
  destruct g as [g|]; [|apply fend_y_ok in H as [-> _]; exact L1]. mb H. destruct a as [q2 s2]. eapply IH; [|exact H]. eapply step_y_lnn; eassumption.
Qed.
Lemma book_gnn m : forall m', map (fun kv => (fst kv, ft_net (snd kv), ft_gross (snd kv))) m' = map (fun kv => (fst kv, ft_net (snd kv), ft_gross (snd kv))) m ->
  (forall t ts, ftm_get t m = Some ts -> flt (ft_gross ts) f_zero = false) -> forall t ts, ftm_get t m' = Some ts -> flt (ft_gross ts) f_zero = false.
Proof.
  intros m' E G t ts H. assert (X : exists ts', ftm_get t m = Some ts' /\ ft_gross ts' = ft_gross ts).
  { clear G. revert m' E H. induction m as [|[a b] m IH]; intros [|[a' b'] m'] E H; try discriminate. injection E as E1 E2 E3 E4. cbn in E1, E2, E3. subst a'. cbn in *.
    destruct (t =? a); [injection H as <-; eauto|eauto]. }
  destruct X as (ts' & X & <-). eauto.
Qed.
Lemma same_nn p q : same_book p q -> gnn p -> pnn p -> gnn q /\ pnn q.
Proof. intros [S1 S2 S3] G P. split; [exact (book_gnn _ _ S2 G)|unfold pnn; rewrite S1; exact P]. Qed.
Lemma reach_nn p : freach lm p -> lnn p /\ gnn p /\ pnn p.
Proof.
  induction 1 as [rp s c r p C R E|p u x y a b p' xd yd W I X Y E|p u l a b p' xs ys W I L E|p n dx o p' out W I D O E|p n dx o p' out W I D O E].
  - unfold fpool_new in E. mb E. injection E as <-. unfold fgstate_new in E0. destruct (flt f_zero f_zero); [discriminate|]. injection E0 as <-.
    split; [reflexivity|]. split; [intros t ts; discriminate|constructor].
  - assert (K := freach_ok lm LM _ W). unfold fdeposit in E. fold (dep_liq lm p x y a b) in E. destruct (_ || _); [discriminate|]. destruct (flt x _); [discriminate|]. destruct (flt y _); [discriminate|].
    mb E. destruct a0 as [q fe]. injection E as <- _ _. exact (set_nn _ _ _ _ _ _ _ K (dep_liq_ok lm LM p x y a b K X Y) I E0).
  - assert (K := freach_ok lm LM _ W). unfold fwithdraw in E. destruct (flt l f_zero); [discriminate|]. mb E. destruct a0 as [q fe].
    remember (fsub f_one f_adj) as ka. injection E as <- _ _. exact (set_nn _ _ _ _ _ _ _ K (neg_ok _ L) I E0).
  - destruct I as (L & G & P). destruct (fswap_x_good lm LM _ _ _ _ _ _ (freach_ok lm LM _ W) D O E) as (_ & S & _). split; [|exact (same_nn _ _ S G P)].
    unfold fexecute_swap_x in E. destruct (fle dx f_zero); [discriminate|]. exact (loop_x_lnn _ _ _ _ _ _ _ L E).
  - destruct I as (L & G & P). destruct (fswap_y_good lm LM _ _ _ _ _ _ (freach_ok lm LM _ W) D O E) as (_ & S & _). split; [|exact (same_nn _ _ S G P)].
    unfold fexecute_swap_y in E. destruct (fle dx f_zero); [discriminate|]. exact (loop_y_lnn _ _ _ _ _ _ _ L E).
Qed.
(** the growths recorded for the provider's position, none if there is no position *)
Definition owned (p : fpool) (k : string * Z * Z) : f4 := match fpm_get k (fpositions p) with Some q => fp_fees q | None => f4_zero end.
Lemma set_done p u lo up d : fpool_ok p -> f64_ok d -> lnn p -> gnn p -> pnn p -> flt d f_zero = false -> fees_pass p lo up (owned p (u, lo, up)) ->
  exists r, fset_position p u lo up d = Ok r.
Proof.
  intros K D L G P N (fa & fb & fc & fd & F1 & F2 & F3 & F4 & G1 & G2 & G3 & G4). unfold fset_position. rewrite F1, F2, F3, F4. cbn [bind].
  assert (WP : forall m, Forall (fun kv => ps_ok (snd kv)) m -> fpool_ok (fwith_positions p m)) by (intros m M; destruct K as [K1 K2 K3 K4 K5 K6]; constructor; cbn; auto).
  unfold owned in *. match goal with |- exists r, bind ?m ?k = _ => assert (PR : exists p1 base, m = Ok (p1, owned p (u, lo, up), base) /\ fpool_ok p1 /\ fticks p1 = fticks p /\ fgs p1 = fgs p) end.
  { unfold owned. destruct (fpm_get _ _) as [q|] eqn:Q.
    - rewrite N. cbn [andb]. assert (QK := fpm_get_P ps_ok _ _ _ (ok_pos _ K) Q). destruct QK as [Q1 Q2].
      assert (QN := fpm_get_P (fun v => flt (fp_liq v) f_zero = false) _ _ _ P Q). cbn beta in QN. assert (AN := nn_add _ _ Q1 D QN N). destruct (feq _ f_zero).
      + eexists _, _. split; [reflexivity|]. split; [apply WP, (fpm_del_P ps_ok), K|auto].
      + unfold fp_add_liq. rewrite AN. cbn [bind]. eexists _, _. split; [reflexivity|]. split; [|auto]. apply WP, (fpm_set_P ps_ok); [apply K|].
        split; cbn; [auto with fok|]. split; [|split; [|split]]; eapply fee_rng_ok; eauto.
    - rewrite N. unfold fpstate_new. rewrite N. cbn [bind]. eexists _, _. split; [reflexivity|]. split; [|auto]. apply WP, (fpm_set_P ps_ok); [apply K|]. split; cbn; auto with fok. }
  destruct PR as (p1 & base & -> & K1 & T1 & S1). unfold owned. cbn [bind f4_map2 f_fx f_fy f_hx f_hy]. rewrite G1, G2, G3, G4. cbn [andb assert bind].
  assert (NE : forall q t, fpool_ok q -> gnn q -> flt (fadd (ft_gross (new_entry q t)) d) f_zero = false).
  { intros q t KQ GQ. unfold new_entry. destruct (ftm_get t (fticks q)) as [ts|] eqn:E; cbn [ft_gross].
    - assert (TK := ftm_get_P ts_ok _ _ _ (ok_ticks _ KQ) E). destruct TK as (_ & TK & _). apply nn_add; eauto.
    - apply nn_add; auto. reflexivity. }
  assert (GN1 : gnn p1) by (intros t ts; rewrite T1; apply G).
  destruct (fupdate_tick_done p1 lo d false (NE _ _ K1 GN1)) as [p2 U1]. rewrite U1. cbn [bind].
  destruct (fupdate_tick_spec _ _ _ _ _ K1 D U1) as (K2 & _). assert (GN2 := upd_gnn _ _ _ _ _ K1 D GN1 U1).
  destruct (fupdate_tick_done p2 up d true (NE _ _ K2 GN2)) as [p3 U2]. rewrite U2. cbn [bind].
  assert (GS : fgs p3 = fgs p) by (rewrite (fupdate_tick_gs _ _ _ _ _ U2), (fupdate_tick_gs _ _ _ _ _ U1); exact S1).
  destruct (_ && _); [|eexists; reflexivity]. unfold fadd_glbl_liq, fg_add_liq. rewrite GS.
  assert (X : flt (fadd (fg_liq (fgs p)) d) f_zero = false) by (apply nn_add; auto; apply K). rewrite X. cbn [bind]. eexists; reflexivity.
Qed.
Lemma deposit_done p u x y a b : freach lm p -> f64_ok x -> f64_ok y -> flt x f_zero = false -> flt y f_zero = false ->
  let lo := f_rp_to_possible_tick lm p a false in let up := f_rp_to_possible_tick lm p b false in
  let l := dep_liq lm p x y a b in flt l f_zero = false ->
  flt x (f_x_from_l_rp_rng l (fglbl_rp p) (f_tick_to_rp lm lo) (f_tick_to_rp lm up)) = false ->
  flt y (f_y_from_l_rp_rng l (fglbl_rp p) (f_tick_to_rp lm lo) (f_tick_to_rp lm up)) = false ->
  fees_pass p lo up (owned p (u, lo, up)) -> exists p' xd yd, fdeposit lm p u x y a b = Ok (p', xd, yd).
Proof.
  intros W X Y NX NY lo up l NL LX LY F. assert (K := freach_ok lm LM _ W). destruct (reach_nn _ W) as (L & G & P).
  destruct (set_done p u lo up l K (dep_liq_ok lm LM p x y a b K X Y) L G P NL F) as [[q fe] S].
  unfold fdeposit. fold (dep_liq lm p x y a b). fold l lo up. rewrite NX, NY, LX, LY. cbn [orb]. rewrite S. cbn [bind]. eexists _, _, _. reflexivity.
Qed.
Lemma lp_reach p : lp_only lm p -> freach lm p.
Proof. induction 1; [exact (fr_new lm _ _ _ _ _ H H0 H1)|exact (fr_dep lm _ _ _ _ _ _ _ _ _ IHlp_only H0 H1 H2)|exact (fr_wd lm _ _ _ _ _ _ _ _ IHlp_only H0 H1)]. Qed.
Lemma none_pass p k lo up : no_fees p -> fees_pass p lo up (owned p k).
Proof.
  intros N. unfold owned. destruct (fpm_get k (fpositions p)) as [q|] eqn:Q; [exact (no_fees_pass p lo up q k N Q)|]. destruct N as [G T P].
  assert (B : forall t k, ffee_below_above p t k = (f_zero, f_zero)).
  { intros t kd. unfold ffee_below_above. rewrite G. destruct (ftm_get t (fticks p)) as [ts|] eqn:E.
    - rewrite (T _ _ E). destruct (t <=? fglbl_tick p); destruct kd; reflexivity.
    - destruct kd; reflexivity. }
  exists f_zero, f_zero, f_zero, f_zero. unfold ffee_rng. rewrite !B. repeat split.
Qed.
End Lm.
