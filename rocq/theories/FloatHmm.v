(** Two f64 swaps that differ in the HMM parameter and the oracle price only: lemmas. *)
From Coq Require Import ZArith List Bool Floats.SpecFloat.
From Verif Require Import Base FloatBase FloatModel FloatWf FloatSwap FloatLp FloatTerm.
Import ListNotations.
Open Scope Z_scope.

(** a pool without what the adjustment touches; [k] tells which reserve is kept (X: true) *)
Definition plain4 (q : f4) : f4 := mkF4 (f_fx q) (f_fy q) f_zero f_zero.
Definition plain_t (kv : Z * ftstate) : Z * ftstate := (fst kv, mkFT (ft_net (snd kv)) (ft_gross (snd kv)) (plain4 (ft_fees (snd kv)))).
Definition plain_p (kv : fkey * fpstate) : fkey * fpstate := (fst kv, mkFP (fp_liq (snd kv)) (plain4 (fp_fees (snd kv)))).
Definition plain (k : bool) (p : fpool) : fpool :=
  mkFPool (fspacing p) (mkFG (fg_liq (fgs p)) (fg_rp (fgs p)) (fg_tick (fgs p)) (plain4 (fg_fees (fgs p)))) (map plain_t (fticks p)) (map plain_p (fpositions p))
    (if k then fx p else f_zero) (if k then f_zero else fy p) f_zero f_zero (fx_fee p) (fy_fee p) f_zero (f_fee_rate p).
Record sim (k : bool) (p q : fpool) : Prop := mkSim
  { si_sp : fspacing p = fspacing q; si_liq : fglbl_liq p = fglbl_liq q; si_rp : fglbl_rp p = fglbl_rp q; si_tick : fglbl_tick p = fglbl_tick q;
    si_fx : f_fx (fglbl_fees p) = f_fx (fglbl_fees q); si_fy : f_fy (fglbl_fees p) = f_fy (fglbl_fees q);
    si_ticks : map plain_t (fticks p) = map plain_t (fticks q); si_pos : map plain_p (fpositions p) = map plain_p (fpositions q);
    si_res : if k then fx p = fx q else fy p = fy q;
    si_xf : fx_fee p = fx_fee q; si_yf : fy_fee p = fy_fee q; si_rate : f_fee_rate p = f_fee_rate q }.
Lemma sim_plain k p q : sim k p q <-> plain k p = plain k q.
Proof.
  unfold plain, plain4. split.
  - intros [A B C D E F G H I J K L]. unfold fglbl_liq, fglbl_rp, fglbl_tick, fglbl_fees in *. rewrite A, B, C, D, E, F, G, H, J, K, L. destruct k; now rewrite I.
  - intros H. inversion H. constructor; auto. destruct k; assumption.
Qed.
Lemma plain_keys l l' : map plain_t l = map plain_t l' -> map fst l = map fst l'.
Proof. intros H. apply (f_equal (map fst)) in H. now rewrite !map_map in H. Qed.
Lemma plain_get t l : forall l', map plain_t l = map plain_t l' ->
  match ftm_get t l, ftm_get t l' with
  | Some a, Some b => ft_net a = ft_net b /\ ft_gross a = ft_gross b /\ f_fx (ft_fees a) = f_fx (ft_fees b) /\ f_fy (ft_fees a) = f_fy (ft_fees b)
  | None, None => True
  | _, _ => False
  end.
Proof.
  induction l as [|[k v] l IH]; intros [|[k' v'] l'] H; try discriminate; [exact I|]. unfold plain_t, plain4 in H. cbn [map fst snd] in H. inversion H; subst. cbn [ftm_get].
  destruct (t =? k'); [auto|]. apply IH. assumption.
Qed.
Lemma plain_set t a b l : plain_t (t, a) = plain_t (t, b) -> forall l', map plain_t l = map plain_t l' -> map plain_t (ftm_set t a l) = map plain_t (ftm_set t b l').
Proof.
  intros E. induction l as [|[k v] l IH]; intros [|[k' v'] l'] H; try discriminate; cbn [ftm_set map]; [now rewrite E|].
  cbn [map] in H. injection H as H1 H2 H3 H4 H5 H6. cbn [fst snd] in H1. subst k'.
  assert (V : plain_t (k, v) = plain_t (k, v')) by (unfold plain_t, plain4; cbn [fst snd] in *; congruence).
  destruct (t =? k); cbn [map]; [now rewrite E, H6|]. destruct (t <? k); cbn [map]; [now rewrite E, V, H6|]. rewrite V. f_equal. now apply IH.
Qed.
Lemma sim_tick k p q t : sim k p q -> sim k (fset_tick p t) (fset_tick q t).
Proof. intros [A B C D E F G H I J K L]. constructor; auto. Qed.
Lemma sim_set_rp k p q t : sim k p q -> sim k (fset_rp p t) (fset_rp q t).
Proof. intros [A B C D E F G H I J K L]. constructor; auto. Qed.
Lemma sim_cross k p q t d p' q' : sim k p q -> fcross_tick p t d = Ok p' -> fcross_tick q t d = Ok q' -> sim k p' q'.
Proof.
  intros [A B C D E F G H I J K L] X Y. unfold fcross_tick in X, Y. destruct (negb d && _); [discriminate|]. destruct (negb d && _); [discriminate|].
  pose proof (plain_get t _ _ G) as PG. destruct (ftm_get t (fticks p)) as [a|]; [|discriminate]. destruct (ftm_get t (fticks q)) as [b|]; [|discriminate].
  destruct PG as (P1 & P2 & P3 & P4).
  mb X. rename a0 into nt. mb Y. rename a0 into nt'. assert (NT : nt = nt').
  { unfold f_tick_to_possible_tick in *. cbn [fwith_ticks fspacing] in *. rewrite A in E0. rewrite E0 in E1. now injection E1. }
  subst nt'. clear E0 E1. unfold fadd_glbl_liq in X, Y. mb X. injection X as <-. mb Y. injection Y as <-. unfold fg_add_liq in E0, E1.
  destruct (flt _ f_zero); [discriminate|]. destruct (flt _ f_zero); [discriminate|]. injection E0 as <-. injection E1 as <-.
  constructor; cbn; auto.
  - unfold fglbl_liq; cbn. fold (fglbl_liq p) (fglbl_liq q). rewrite B. destruct d; now rewrite P1.
  - apply plain_set; [|exact G]. unfold plain_t, plain4; cbn. unfold fglbl_fees in *. now rewrite P1, P2, P3, P4, E, F.
Qed.
Lemma sim_left k p q t : sim k p q -> fget_left_limit p t = fget_left_limit q t.
Proof. intros S. unfold fget_left_limit, f_tick_to_possible_tick, ftick_keys. now rewrite (si_tick _ _ _ S), (si_sp _ _ _ S), (plain_keys _ _ (si_ticks _ _ _ S)). Qed.
Lemma sim_right k p q t g : sim k p q -> fget_right_limit p t g = fget_right_limit q t g.
Proof. intros S. unfold fget_right_limit, f_tick_to_possible_tick, ftick_keys. now rewrite (si_sp _ _ _ S), (plain_keys _ _ (si_ticks _ _ _ S)). Qed.

Section Lm.
Variable lm : libm.
Lemma sim_gir_left k ks : forall p q p' q' o o', sim k p q -> fgir_left lm p ks = Ok (p', o) -> fgir_left lm q ks = Ok (q', o') -> sim k p' q' /\ o = o'.
Proof.
  induction ks as [|t ks IH]; intros p q p' q' o o' S X Y; cbn [fgir_left] in X, Y; [injection X as <- <-; injection Y as <- <-; auto|].
  rewrite <- (si_tick _ _ _ S) in Y. destruct (fglbl_tick p <? t); [exact (IH _ _ _ _ _ _ S X Y)|].
  mb X. mb Y. assert (S1 := sim_cross _ _ _ _ _ _ _ (sim_set_rp _ _ _ (f_tick_to_rp lm t) (sim_tick _ _ _ t S)) E E0). clear E E0. rename a into p1, a0 into q1.
  rewrite <- (si_liq _ _ _ S1), <- (si_tick _ _ _ S1), <- (si_rp _ _ _ S1), <- (sim_left _ _ _ _ S1) in Y. destruct (flt (fglbl_liq p1) f_zero); [discriminate|].
  destruct (flt f_zero (fglbl_liq p1)); [|exact (IH _ _ _ _ _ _ S1 X Y)]. mb X. mb Y. injection X as <- <-. injection Y as <- <-. split; [exact S1|]. congruence.
Qed.
Lemma sim_gir_right k ks : forall p q p' q' o o', sim k p q -> fgir_right lm p ks = Ok (p', o) -> fgir_right lm q ks = Ok (q', o') -> sim k p' q' /\ o = o'.
Proof.
  induction ks as [|t ks IH]; intros p q p' q' o o' S X Y; cbn [fgir_right] in X, Y; [injection X as <- <-; injection Y as <- <-; auto|].
  rewrite <- (si_tick _ _ _ S) in Y. destruct (t <=? fglbl_tick p); [exact (IH _ _ _ _ _ _ S X Y)|].
  mb X. mb Y. assert (S1 := sim_cross _ _ _ _ _ _ _ (sim_set_rp _ _ _ (f_tick_to_rp lm t) (sim_tick _ _ _ t S)) E E0). clear E E0. rename a into p1, a0 into q1.
  rewrite <- (si_liq _ _ _ S1), <- (si_rp _ _ _ S1), <- (sim_right _ _ _ _ _ S1) in Y. mb X. mb Y. rewrite E in E0. injection E0 as <-. destruct (flt (fglbl_liq p1) f_zero); [discriminate|].
  destruct (flt f_zero (fglbl_liq p1)); [|exact (IH _ _ _ _ _ _ S1 X Y)]. mb X. mb Y. injection X as <- <-. injection Y as <- <-. split; [exact S1|]. congruence.
Qed.
Lemma sim_get k p q d p' q' g g' r r' : sim k p q -> ftry_get_in_range lm p d = Ok (p', g, r) -> ftry_get_in_range lm q d = Ok (q', g', r') -> sim k p' q' /\ g = g' /\ r = r'.
Proof.
  intros S X Y. unfold ftry_get_in_range in X, Y. destruct (flt f_zero _); [discriminate|]. destruct (flt f_zero _); [discriminate|].
  mb X. destruct a as [p1 o1]. mb Y. destruct a as [q1 o2].
  assert (Q : sim k p1 q1 /\ o1 = o2).
  { unfold ftick_keys in E, E0. rewrite <- (plain_keys _ _ (si_ticks _ _ _ S)) in E0. destruct d; [exact (sim_gir_right _ _ _ _ _ _ _ _ S E E0)|exact (sim_gir_left _ _ _ _ _ _ _ _ S E E0)]. }
  destruct Q as [S1 <-]. destruct o1 as [[g1 r1]|].
  - injection X as <- <- <-. injection Y as <- <- <-. auto.
  - rewrite <- (si_rp _ _ _ S1) in Y. mb X. mb Y. rewrite E1 in E2. injection E2 as <-. destruct a as [g1 r1]. injection X as <- <- <-. injection Y as <- <- <-. auto.
Qed.

Definition w_sim (w w' : fwithin) : Prop := fw_recv w = fw_recv w' /\ fw_tick w = fw_tick w' /\ fw_rp w = fw_rp w' /\ fw_cross w = fw_cross w' /\ fw_fee w = fw_fee w'.
Lemma within_x_sim p q st g l d o o' w w' : f_fee_rate p = f_fee_rate q -> fswap_within_x lm p st g l d o = Ok w -> fswap_within_x lm q st g l d o' = Ok w' -> w_sim w w'.
Proof.
  intros R X Y. unfold fswap_within_x in X, Y. rewrite <- R in Y.
  destruct (fle d f_zero); [discriminate|]. destruct (flt st _); [discriminate|]. destruct (flt (f_dx_from_l_drp _ _ _) f_zero); [discriminate|].
  mb X. destruct a as [[[[dn fe] cr] et] er]. rewrite E in Y. cbn [bind] in Y. clear E. mb X. clear E. mb Y. clear E.
  destruct (flt f_zero _); [discriminate|]. destruct (flt (fsub _ _) f_zero); [discriminate|]. destruct (flt (fsub _ _) f_zero); [discriminate|].
  destruct (flt (fadd (fy p) _) _); [discriminate|]. destruct (flt (fadd (fy q) _) _); [discriminate|].
  unfold fwithin_new in X, Y. repeat match type of X with (if ?b then _ else _) = _ => destruct b; [discriminate|] end.
  repeat match type of Y with (if ?b then _ else _) = _ => destruct b; [discriminate|] end. injection X as <-. injection Y as <-. repeat split.
Qed.
Lemma within_y_sim p q st g l d o o' w w' : f_fee_rate p = f_fee_rate q -> fswap_within_y lm p st g l d o = Ok w -> fswap_within_y lm q st g l d o' = Ok w' -> w_sim w w'.
Proof.
  intros R X Y. unfold fswap_within_y in X, Y. rewrite <- R in Y.
  destruct (fle d f_zero); [discriminate|]. destruct (flt _ st); [discriminate|]. destruct (flt (f_dy_from_l_drp _ _ _) f_zero); [discriminate|].
  mb X. destruct a as [[[[dn fe] cr] et] er]. rewrite E in Y. cbn [bind] in Y. clear E. mb X. clear E. mb Y. clear E.
  destruct (flt f_zero _); [discriminate|]. destruct (flt (fsub _ _) f_zero); [discriminate|]. destruct (flt (fsub _ _) f_zero); [discriminate|].
  destruct (flt (fadd (fx p) _) _); [discriminate|]. destruct (flt (fadd (fx q) _) _); [discriminate|].
  unfold fwithin_new in X, Y. repeat match type of X with (if ?b then _ else _) = _ => destruct b; [discriminate|] end.
  repeat match type of Y with (if ?b then _ else _) = _ => destruct b; [discriminate|] end. injection X as <-. injection Y as <-. repeat split.
Qed.
Definition l_sim (s s' : floopst) : Prop := fl_in s = fl_in s' /\ fl_fee s = fl_fee s' /\ fl_t s = fl_t s' /\ fl_rp s = fl_rp s'.
Lemma step_x_sim p q s s2 g d o o' p' q' s' s2' : sim true p q -> l_sim s s2 -> fswap_x_step lm p s g d o = Ok (p', s') -> fswap_x_step lm q s2 g d o' = Ok (q', s2') ->
  sim true p' q' /\ l_sim s' s2'.
Proof.
  intros S (L1 & L2 & L3 & L4) X Y. unfold fswap_x_step in X, Y. rewrite <- L1, <- L2, <- L4, <- (si_liq _ _ _ S) in Y.
  mb X. rename a into w. mb Y. rename a into w'. destruct (within_x_sim _ _ _ _ _ _ _ _ _ _ (si_rate _ _ _ S) E E0) as (W1 & W2 & W3 & W4 & W5). clear E E0.
  mb X. clear E. mb X. clear E. mb Y. clear E. mb Y. clear E. mb X. mb Y. rename a3 into p1, a4 into q1. injection X as <- <-. injection Y as <- <-.
  split; [|unfold l_sim; cbn; rewrite W1, W2, W3, W5; auto].
  match type of E with (if _ then (let* _ := _ in match ftm_get _ (fticks ?rr) with _ => _ end) else _) = _ => set (r := rr) in E end.
  match type of E0 with (if _ then (let* _ := _ in match ftm_get _ (fticks ?rr) with _ => _ end) else _) = _ => set (r' := rr) in E0 end.
  assert (SR : sim true r r').
  { unfold r, r'. clear E E0 r r'. destruct S as [A B C D E F G H I J K L]. cbn [fglbl_liq fgs fwith_funds fset_rp fset_tick fwith_gs fg_liq]. 
    unfold fglbl_liq, fglbl_fees in *. rewrite <- B. destruct (flt f_zero (fg_liq (fgs p)));
    (constructor; cbn; unfold fglbl_liq, fglbl_rp, fglbl_tick, fglbl_fees in *; cbn in *; auto; rewrite ?W1, ?W5, ?E, ?I, ?J, ?B; auto). }
  clearbody r r'. rewrite <- W4 in E0. destruct (fw_cross w); [|injection E as <-; injection E0 as <-; exact SR].
  mb E. clear E1. mb E0. clear E1. pose proof (plain_get g _ _ (si_ticks _ _ _ SR)) as PG. destruct (ftm_get g (fticks r)), (ftm_get g (fticks r')); try contradiction.
  - exact (sim_cross _ _ _ _ _ _ _ SR E E0).
  - injection E as <-. injection E0 as <-. exact SR.
Qed.
Lemma step_y_sim p q s s2 g d o o' p' q' s' s2' : sim false p q -> l_sim s s2 -> fswap_y_step lm p s g d o = Ok (p', s') -> fswap_y_step lm q s2 g d o' = Ok (q', s2') ->
  sim false p' q' /\ l_sim s' s2'.
Proof.
  intros S (L1 & L2 & L3 & L4) X Y. unfold fswap_y_step in X, Y. rewrite <- L1, <- L2, <- L4, <- (si_liq _ _ _ S) in Y.
  mb X. rename a into w. mb Y. rename a into w'. destruct (within_y_sim _ _ _ _ _ _ _ _ _ _ (si_rate _ _ _ S) E E0) as (W1 & W2 & W3 & W4 & W5). clear E E0.
  mb X. clear E. mb X. clear E. mb Y. clear E. mb Y. clear E. mb X. mb Y. rename a3 into p1, a4 into q1. injection X as <- <-. injection Y as <- <-.
  split; [|unfold l_sim; cbn; rewrite W1, W2, W3, W5; auto].
  match type of E with (if _ then (let* _ := _ in match ftm_get _ (fticks ?rr) with _ => _ end) else _) = _ => set (r := rr) in E end.
  match type of E0 with (if _ then (let* _ := _ in match ftm_get _ (fticks ?rr) with _ => _ end) else _) = _ => set (r' := rr) in E0 end.
  assert (SR : sim false r r').
  { unfold r, r'. clear E E0 r r'. destruct S as [A B C D E F G H I J K L]. cbn [fglbl_liq fgs fwith_funds fset_rp fset_tick fwith_gs fg_liq].
    unfold fglbl_liq, fglbl_fees in *. rewrite <- B. destruct (flt f_zero (fg_liq (fgs p)));
    (constructor; cbn; unfold fglbl_liq, fglbl_rp, fglbl_tick, fglbl_fees in *; cbn in *; auto; rewrite ?W1, ?W5, ?F, ?I, ?K, ?B; auto). }
  clearbody r r'. rewrite <- W4 in E0. destruct (fw_cross w); [|injection E as <-; injection E0 as <-; exact SR].
  mb E. clear E1. mb E0. clear E1. pose proof (plain_get g _ _ (si_ticks _ _ _ SR)) as PG. destruct (ftm_get g (fticks r)), (ftm_get g (fticks r')); try contradiction.
  - exact (sim_cross _ _ _ _ _ _ _ SR E E0).
  - injection E as <-. injection E0 as <-. exact SR.
Qed.
Definition o_sim (a b : fswap_out) : Prop := fso_recv a = fso_recv b /\ fso_fee a = fso_fee b /\ fso_end a = fso_end b.
Lemma end_x_sim k p q s s2 p' q' a b : sim k p q -> l_sim s s2 -> fswap_x_end p s = Ok (p', a) -> fswap_x_end q s2 = Ok (q', b) -> sim k p' q' /\ o_sim a b.
Proof.
  intros S (L1 & L2 & L3 & L4) X Y. unfold fswap_x_end in X, Y. mb X. mb Y. injection X as <- <-. injection Y as <- <-. split; [exact S|].
  unfold fswap_out_new in E, E0. repeat match type of E with (if ?b then _ else _) = _ => destruct b; [discriminate|] end.
  repeat match type of E0 with (if ?b then _ else _) = _ => destruct b; [discriminate|] end. injection E as <-. injection E0 as <-.
  unfold o_sim; cbn. now rewrite L1, L2, (si_rp _ _ _ S).
Qed.
Lemma end_y_sim k p q s s2 p' q' a b : sim k p q -> l_sim s s2 -> fswap_y_end p s = Ok (p', a) -> fswap_y_end q s2 = Ok (q', b) -> sim k p' q' /\ o_sim a b.
Proof.
  intros S (L1 & L2 & L3 & L4) X Y. unfold fswap_y_end in X, Y. mb X. mb Y. injection X as <- <-. injection Y as <- <-. split; [exact S|].
  unfold fswap_out_new in E, E0. repeat match type of E with (if ?b then _ else _) = _ => destruct b; [discriminate|] end.
  repeat match type of E0 with (if ?b then _ else _) = _ => destruct b; [discriminate|] end. injection E as <-. injection E0 as <-.
  unfold o_sim; cbn. now rewrite L1, L2, (si_rp _ _ _ S).
Qed.
(** the two swaps may be given different numbers of passes to finish in *)
Lemma loop_x_sim n : forall m p q s s2 d o o' p' q' a b, sim true p q -> l_sim s s2 -> fswap_x_loop lm n p s d o = Ok (p', a) -> fswap_x_loop lm m q s2 d o' = Ok (q', b) ->
  sim true p' q' /\ o_sim a b.
Proof.
  induction n as [|n IH]; intros [|m] p q s s2 d o o' p' q' a b S L X Y; try discriminate. cbn [fswap_x_loop] in X, Y.
  destruct L as (L1 & L2 & L3 & L4). rewrite <- L1, <- (si_liq _ _ _ S) in Y. destruct (flt (fl_in s) d); cbn [negb] in X, Y.
  2: { refine (end_x_sim _ _ _ _ _ _ _ _ _ S _ X Y). repeat split; assumption. }
  mb X. destruct a0 as [[p1 g] r]. mb Y. destruct a0 as [[q1 g2] r2].
  assert (Q : sim true p1 q1 /\ g = g2 /\ r = r2).
  { destruct (flt f_zero _); [|exact (sim_get _ _ _ _ _ _ _ _ _ _ S E E0)]. injection E as <- <- <-. injection E0 as <- <- <-. split; [exact S|].
    rewrite <- L3. split; [exact (sim_left _ _ _ _ S)|exact L4]. }
  destruct Q as (S1 & <- & <-). assert (L' : l_sim (mkFL (fl_in s) (fl_out s) (fl_adj s) (fl_fee s) (fl_t s) r) (mkFL (fl_in s) (fl_out s2) (fl_adj s2) (fl_fee s2) (fl_t s2) r)) by (repeat split; assumption).
  destruct g as [g|]; [|exact (end_x_sim _ _ _ _ _ _ _ _ _ S1 L' X Y)].
  mb X. destruct a0 as [p2 t]. mb Y. destruct a0 as [q2 t']. destruct (step_x_sim _ _ _ _ _ _ _ _ _ _ _ _ S1 L' E1 E2) as [S2 L2'].
  exact (IH _ _ _ _ _ _ _ _ _ _ _ _ S2 L2' X Y).
Qed.
Lemma loop_y_sim n : forall m p q s s2 d o o' p' q' a b, sim false p q -> l_sim s s2 -> fswap_y_loop lm n p s d o = Ok (p', a) -> fswap_y_loop lm m q s2 d o' = Ok (q', b) ->
  sim false p' q' /\ o_sim a b.
Proof.
  induction n as [|n IH]; intros [|m] p q s s2 d o o' p' q' a b S L X Y; try discriminate. cbn [fswap_y_loop] in X, Y.
  destruct L as (L1 & L2 & L3 & L4). rewrite <- L1, <- (si_liq _ _ _ S) in Y. destruct (flt (fl_in s) d); cbn [negb] in X, Y.
  2: { refine (end_y_sim _ _ _ _ _ _ _ _ _ S _ X Y). repeat split; assumption. }
  mb X. destruct a0 as [[p1 g] r]. mb Y. destruct a0 as [[q1 g2] r2].
  assert (Q : sim false p1 q1 /\ g = g2 /\ r = r2).
  { destruct (flt f_zero _); [|exact (sim_get _ _ _ _ _ _ _ _ _ _ S E E0)]. mb E. mb E0. injection E as <- <- <-. injection E0 as <- <- <-. split; [exact S|].
    rewrite <- L3, <- (si_tick _ _ _ S), <- (sim_right _ _ _ _ _ S), E1 in E2. injection E2 as <-. split; [reflexivity|exact L4]. }
  destruct Q as (S1 & <- & <-). assert (L' : l_sim (mkFL (fl_in s) (fl_out s) (fl_adj s) (fl_fee s) (fl_t s) r) (mkFL (fl_in s) (fl_out s2) (fl_adj s2) (fl_fee s2) (fl_t s2) r)) by (repeat split; assumption).
  destruct g as [g|]; [|exact (end_y_sim _ _ _ _ _ _ _ _ _ S1 L' X Y)].
  mb X. destruct a0 as [p2 t]. mb Y. destruct a0 as [q2 t']. destruct (step_y_sim _ _ _ _ _ _ _ _ _ _ _ _ S1 L' E1 E2) as [S2 L2'].
  exact (IH _ _ _ _ _ _ _ _ _ _ _ _ S2 L2' X Y).
Qed.
Lemma swap_x_hmm n m p q d o o' p' q' a b : plain true p = plain true q -> fexecute_swap_x lm n p d o = Ok (p', a) -> fexecute_swap_x lm m q d o' = Ok (q', b) ->
  plain true p' = plain true q' /\ o_sim a b.
Proof.
  intros S X Y. apply sim_plain in S. unfold fexecute_swap_x in X, Y. destruct (fle d f_zero); [discriminate|].
  assert (L : l_sim (mkFL f_zero f_zero f_zero f_zero (fglbl_tick p) (fglbl_rp p)) (mkFL f_zero f_zero f_zero f_zero (fglbl_tick q) (fglbl_rp q))) by (destruct S; repeat split; assumption).
  destruct (loop_x_sim _ _ _ _ _ _ _ _ _ _ _ _ _ S L X Y) as [A B]. split; [now apply sim_plain|exact B].
Qed.
Lemma swap_y_hmm n m p q d o o' p' q' a b : plain false p = plain false q -> fexecute_swap_y lm n p d o = Ok (p', a) -> fexecute_swap_y lm m q d o' = Ok (q', b) ->
  plain false p' = plain false q' /\ o_sim a b.
Proof.
  intros S X Y. apply sim_plain in S. unfold fexecute_swap_y in X, Y. destruct (fle d f_zero); [discriminate|].
  assert (L : l_sim (mkFL f_zero f_zero f_zero f_zero (fglbl_tick p) (fglbl_rp p)) (mkFL f_zero f_zero f_zero f_zero (fglbl_tick q) (fglbl_rp q))) by (destruct S; repeat split; assumption).
  destruct (loop_y_sim _ _ _ _ _ _ _ _ _ _ _ _ _ S L X Y) as [A B]. split; [now apply sim_plain|exact B].
Qed.

(** *** without an adjustment *)
Lemma sub_self z : f_finite z = true -> fsub z z = f_zero.
Proof.
  destruct z as [s|s| |s m e]; try discriminate; intros _; [now destruct s|].
  unfold fsub, SFsub. destruct s; cbn [negb]; rewrite ?Z.min_id; cbn [cond_Zopp]; unfold shl_align; rewrite ?Z.sub_diag; cbn [fst]; rewrite ?Z.add_opp_diag_l, ?Z.add_opp_diag_r; reflexivity.
Qed.
Lemma sub_self_le a z : fle f_zero (fsub a (fsub z z)) = true -> fsub z z = f_zero.
Proof.
  intros H. destruct (f_finite z) eqn:F; [exact (sub_self z F)|]. exfalso.
  assert (N : fsub z z = S754_nan) by (destruct z as [s|[|]| |s m e]; try discriminate; reflexivity). rewrite N in H.
  destruct a as [s|[|]| |s m e]; discriminate.
Qed.
Lemma within_x_off p st g l d o w : feq (f_c p) f_zero = true -> fswap_within_x lm p st g l d o = Ok w -> exists z, fw_adj w = fsub z z.
Proof.
  intros C X. unfold fswap_within_x in X.
  destruct (fle d f_zero); [discriminate|]. destruct (flt st _); [discriminate|]. destruct (flt (f_dx_from_l_drp _ _ _) f_zero); [discriminate|].
  mb X. destruct a as [[[[dn fe] cr] et] er]. rewrite C in X. cbn [orb bind] in X.
  destruct (flt f_zero _); [discriminate|]. destruct (flt (fsub _ _) f_zero); [discriminate|]. destruct (flt (fadd (fy p) _) _); [discriminate|].
  unfold fwithin_new in X. repeat match type of X with (if ?b then _ else _) = _ => destruct b; [discriminate|] end. injection X as <-. cbn [fw_adj]. eexists. reflexivity.
Qed.
Lemma within_y_off p st g l d o w : feq (f_c p) f_zero = true -> fswap_within_y lm p st g l d o = Ok w -> exists z, fw_adj w = fsub z z.
Proof.
  intros C X. unfold fswap_within_y in X.
  destruct (fle d f_zero); [discriminate|]. destruct (flt _ st); [discriminate|]. destruct (flt (f_dy_from_l_drp _ _ _) f_zero); [discriminate|].
  mb X. destruct a as [[[[dn fe] cr] et] er]. rewrite C in X. cbn [orb bind] in X.
  destruct (flt f_zero _); [discriminate|]. destruct (flt (fsub _ _) f_zero); [discriminate|]. destruct (flt (fadd (fx p) _) _); [discriminate|].
  unfold fwithin_new in X. repeat match type of X with (if ?b then _ else _) = _ => destruct b; [discriminate|] end. injection X as <-. cbn [fw_adj]. eexists. reflexivity.
Qed.
Lemma step_x_off p s g d o p' s' : feq (f_c p) f_zero = true -> fl_adj s = f_zero -> fswap_x_step lm p s g d o = Ok (p', s') -> fl_adj s' = f_zero.
Proof.
  intros C A X. unfold fswap_x_step in X. mb X. mb X. apply assertE in E0. mb X. mb X. injection X as _ <-. cbn [fl_adj]. destruct (within_x_off _ _ _ _ _ _ _ C E) as [z Z].
  rewrite Z in E0. apply sub_self_le in E0. now rewrite A, Z, E0.
Qed.
Lemma step_y_off p s g d o p' s' : feq (f_c p) f_zero = true -> fl_adj s = f_zero -> fswap_y_step lm p s g d o = Ok (p', s') -> fl_adj s' = f_zero.
Proof.
  intros C A X. unfold fswap_y_step in X. mb X. mb X. apply assertE in E0. mb X. mb X. injection X as _ <-. cbn [fl_adj]. destruct (within_y_off _ _ _ _ _ _ _ C E) as [z Z].
  rewrite Z in E0. apply sub_self_le in E0. now rewrite A, Z, E0.
Qed.
Hypothesis LM : libm_ok lm.
Lemma loop_x_off n : forall p s d o p' a, fpool_ok p -> s_ok s -> f64_ok d -> f64_ok o -> feq (f_c p) f_zero = true -> fl_adj s = f_zero ->
  fswap_x_loop lm n p s d o = Ok (p', a) -> fso_adj a = f_zero.
Proof.
  assert (EN : forall p s p' a, fl_adj s = f_zero -> fswap_x_end p s = Ok (p', a) -> fso_adj a = f_zero).
  { intros p s p' a A X. unfold fswap_x_end in X. mb X. injection X as _ <-. unfold fswap_out_new in E.
    repeat match type of E with (if ?b then _ else _) = _ => destruct b; [discriminate|] end. injection E as <-. exact A. }
  induction n as [|n IH]; intros p s d o p' a K SK D O C A X; [discriminate|]. cbn [fswap_x_loop] in X. destruct (flt (fl_in s) d); cbn [negb] in X; [|exact (EN _ _ _ _ A X)].
  mb X. destruct a0 as [[q g] r].
  assert (Q : fpool_ok q /\ f_c q = f_c p /\ f64_ok r).
  { destruct (flt f_zero _); [injection E as <- <- <-; split; [exact K|]; split; [reflexivity|apply SK]|].
    destruct (fgir_ok lm LM _ _ _ _ _ K E) as (Q1 & [_ _ (_ & Q2 & _)] & Q3). auto. }
  destruct Q as (Q1 & Q2 & Q3). set (s1 := mkFL _ _ _ _ _ _) in X. assert (S1 : s_ok s1) by (destruct SK as (A1 & A2 & A3 & A4 & A5); repeat split; assumption).
  destruct g as [g|]; [|exact (EN _ s1 _ _ A X)]. mb X. destruct a0 as [q2 s2].
  destruct (fstep_x_ok lm LM _ _ _ _ _ _ _ Q1 S1 D O E0) as (B1 & [_ _ (_ & B2 & _)] & B3 & _). rewrite <- Q2 in C.
  refine (IH _ _ _ _ _ _ B1 B3 D O _ (step_x_off _ s1 _ _ _ _ _ C A E0) X). now rewrite B2.
Qed.
Lemma loop_y_off n : forall p s d o p' a, fpool_ok p -> s_ok s -> f64_ok d -> f64_ok o -> feq (f_c p) f_zero = true -> fl_adj s = f_zero ->
  fswap_y_loop lm n p s d o = Ok (p', a) -> fso_adj a = f_zero.
Proof.
  assert (EN : forall p s p' a, fl_adj s = f_zero -> fswap_y_end p s = Ok (p', a) -> fso_adj a = f_zero).
  { intros p s p' a A X. unfold fswap_y_end in X. mb X. injection X as _ <-. unfold fswap_out_new in E.
    repeat match type of E with (if ?b then _ else _) = _ => destruct b; [discriminate|] end. injection E as <-. exact A. }
  induction n as [|n IH]; intros p s d o p' a K SK D O C A X; [discriminate|]. cbn [fswap_y_loop] in X. destruct (flt (fl_in s) d); cbn [negb] in X; [|exact (EN _ _ _ _ A X)].
  mb X. destruct a0 as [[q g] r].
  assert (Q : fpool_ok q /\ f_c q = f_c p /\ f64_ok r).
  { destruct (flt f_zero _); [mb E; injection E as <- <- <-; split; [exact K|]; split; [reflexivity|apply SK]|].
    destruct (fgir_ok lm LM _ _ _ _ _ K E) as (Q1 & [_ _ (_ & Q2 & _)] & Q3). auto. }
  destruct Q as (Q1 & Q2 & Q3). set (s1 := mkFL _ _ _ _ _ _) in X. assert (S1 : s_ok s1) by (destruct SK as (A1 & A2 & A3 & A4 & A5); repeat split; assumption).
  destruct g as [g|]; [|exact (EN _ s1 _ _ A X)]. mb X. destruct a0 as [q2 s2].
  destruct (fstep_y_ok lm LM _ _ _ _ _ _ _ Q1 S1 D O E0) as (B1 & [_ _ (_ & B2 & _)] & B3 & _). rewrite <- Q2 in C.
  refine (IH _ _ _ _ _ _ B1 B3 D O _ (step_y_off _ s1 _ _ _ _ _ C A E0) X). now rewrite B2.
Qed.
Lemma swap_off n p d o p' a : freach lm p -> f64_ok d -> f64_ok o -> feq (f_c p) f_zero = true ->
  fexecute_swap_x lm n p d o = Ok (p', a) \/ fexecute_swap_y lm n p d o = Ok (p', a) -> fso_adj a = f_zero.
Proof.
  intros F D O C. assert (K := freach_ok lm LM p F). assert (S : s_ok (mkFL f_zero f_zero f_zero f_zero (fglbl_tick p) (fglbl_rp p))) by (apply start_ok; exact K).
  intros [X|X]; [unfold fexecute_swap_x in X|unfold fexecute_swap_y in X]; (destruct (fle d f_zero); [discriminate|]).
  - exact (loop_x_off n _ _ _ _ _ _ K S D O C eq_refl X).
  - exact (loop_y_off n _ _ _ _ _ _ K S D O C eq_refl X).
Qed.
End Lm.
