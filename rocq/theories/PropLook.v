(** C117 and the swaps of C93: where a swap of the f64 pool heads, and the liquidity in force after swaps. *)
From Coq Require Import ZArith Reals Lia List Bool String Floats.SpecFloat.
From Verif Require Import Base FloatBase FloatModel FloatFacts FloatWf FloatSwap FloatLp FloatStuck FloatFlow FloatBook FloatWit FloatTerm FloatLook PropFlow.
Import ListNotations.
Open Scope Z_scope.

(** ** C117: a swap heads for the nearest tick in use.  Going left from tick [t] (never right of the current tick) that is the largest tick in use not above it; going
    right from the current tick it is the smallest tick in use above it; if there is no such tick the lookup says so.  (Going right the lookup panics when the current
    tick is not a multiple of the spacing: C86.) *)
Theorem C117_f64_goal_left : forall lm p t, libm_ok lm -> freach lm p -> 0 < fspacing p < 2 ^ 32 -> 0 <= t < 2 ^ 32 ->
  let from := Z.min t (fglbl_tick p) in let used := map fst (fticks p) in
  match fget_left_limit p t with
  | Some g => In g used /\ g <= from /\ forall k, In k used -> k <= from -> k <= g
  | None => forall k, In k used -> from < k
  end.
Proof. intros lm p t LM F S T. exact (look_left lm LM p t F S T). Qed.
Theorem C117_f64_goal_right : forall lm p r, libm_ok lm -> freach lm p -> 0 < fspacing p < 2 ^ 32 ->
  fget_right_limit p (fglbl_tick p) (fglbl_tick p) = Ok r ->
  let used := map fst (fticks p) in
  match r with
  | Some g => In g used /\ fglbl_tick p < g /\ forall k, In k used -> fglbl_tick p < k -> g <= k
  | None => forall k, In k used -> k <= fglbl_tick p
  end.
Proof. intros lm p r LM F S H. exact (look_right lm LM p r F S H). Qed.
(** the case: the position of C93, ticks 13813 and 13919, current tick 13863; a swap that starts at the lower end itself heads for it *)
Example C117_case : freach wlm e1 /\ map fst (fticks e1) = [13813; 13919] /\ fget_left_limit e1 13863 = Some 13813 /\ fget_left_limit e1 13813 = Some 13813 /\
  fget_left_limit e1 13812 = None /\ fget_right_limit e1 13863 13863 = Ok (Some 13919) /\ fspacing e1 = 1.
Proof. split; [exact (wreach_freach wlm _ _ e1_reach)|]. vm_compute. auto 8. Qed.
Print Assumptions C117_f64_goal_left.
Print Assumptions C117_f64_goal_right.

(** ** C93, swaps: a swap keeps the liquidity in force right if each of its passes either crosses the tick it heads for or ends on a tick between there and where the
    pass started; going right the last pass must end before the tick it heads for.  [lands] says this of every pass ([all_land_x], [all_land_y] follow the loops and look at
    [fw_cross] and [fw_tick] of each pass).  Hence it holds in all histories of whole amounts, of ranges the right way round, whose swaps land. *)
Definition start (p : fpool) : floopst := mkFL f_zero f_zero f_zero f_zero (fglbl_tick p) (fglbl_rp p).
Definition right_way (lm : libm) (p : fpool) (a b : f64) : Prop := f_rp_to_possible_tick lm p a false < f_rp_to_possible_tick lm p b false.
Inductive landed (lm : libm) : fpool -> Z -> Prop :=
| la_new rp s c r p : f64_ok c -> f64_ok r -> 0 < s < 2 ^ 32 -> fpool_new lm rp s c r = Ok p -> landed lm p 0
| la_dep p T u x y a b p' xd yd z : landed lm p T -> f64_ok x -> f64_ok y -> right_way lm p a b -> fdeposit lm p u x y a b = Ok (p', xd, yd) ->
    fint (dep_liq lm p x y a b) z -> Z.abs z < 2 ^ 52 -> T + z < 2 ^ 52 -> landed lm p' (T + z)
| la_wd p T u l a b p' xs ys z : landed lm p T -> right_way lm p a b -> fwithdraw lm p u l a b = Ok (p', xs, ys) -> fint l z -> z < 2 ^ 52 -> landed lm p' (T - z)
| la_x p T n dx o p' out : landed lm p T -> f64_ok dx -> f64_ok o -> fexecute_swap_x lm n p dx o = Ok (p', out) -> all_land_x lm n p (start p) dx o = true -> landed lm p' T
| la_y p T n dy o p' out : landed lm p T -> f64_ok dy -> f64_ok o -> fexecute_swap_y lm n p dy o = Ok (p', out) -> all_land_y lm n p (start p) dy o = true -> landed lm p' T.
Lemma ord_set k q ps : snd (fst k) < snd k -> Forall (fun kv : fkey * fpstate => snd (fst (fst kv)) < snd (fst kv)) ps ->
  Forall (fun kv : fkey * fpstate => snd (fst (fst kv)) < snd (fst kv)) (fpm_set k q ps).
Proof.
  intros L. induction 1 as [|[k' v] ps A F IH]; cbn [fpm_set]; [constructor; [exact L|constructor]|].
  destruct (fkey_eqb k k'); [constructor; [exact L|exact F]|constructor; [exact A|exact IH]].
Qed.
Lemma ord_del k ps : Forall (fun kv : fkey * fpstate => snd (fst (fst kv)) < snd (fst kv)) ps ->
  Forall (fun kv : fkey * fpstate => snd (fst (fst kv)) < snd (fst kv)) (fpm_del k ps).
Proof. induction 1 as [|[k' v] ps A F IH]; cbn [fpm_del]; [constructor|]. destruct (fkey_eqb k k'); [exact F|constructor; [exact A|exact IH]]. Qed.
Lemma ord_pos p u lo up d p' fe : fpool_ok p -> f64_ok d -> lo < up -> fset_position p u lo up d = Ok (p', fe) -> ordered_p p -> ordered_p p' /\ fspacing p' = fspacing p.
Proof.
  intros K D L H O. destruct (fset_position_spec _ _ _ _ _ _ _ K D H) as (_ & _ & [(S & _) _ _] & ps & p1 & p2 & P & _ & C & _). split; [|exact S].
  unfold ordered_p. rewrite P. destruct C as [[-> _]|(q & -> & _)]; [now apply ord_del|now apply ord_set].
Qed.
Lemma landed_all lm p T : libm_ok lm -> landed lm p T -> wreach lm p T /\ 0 < fspacing p < 2 ^ 32 /\ ordered_p p /\ backed p.
Proof.
  intros LM. induction 1 as [rp s c r p C R S E|p T u x y a b p' xd yd z L (W & SP & OR & B) X Y RW E F Z1 Z2|p T u l a b p' xs ys z L (W & SP & OR & B) RW E F Z1
                            |p T n dx o p' out L (W & SP & OR & B) D O E LA|p T n dx o p' out L (W & SP & OR & B) D O E LA].
  - split; [exact (wr_new lm _ _ _ _ _ C R E)|]. assert (BK := new_backed lm _ _ _ _ _ E). unfold fpool_new in E. mb E. injection E as <-.
    split; [exact S|]. split; [constructor|exact BK].
  - split; [exact (wr_dep lm _ _ _ _ _ _ _ _ _ _ _ W X Y E F Z1 Z2)|]. assert (BK := dep_backed lm LM _ _ _ _ _ _ _ _ _ _ _ W X Y E F Z1 Z2 B).
    assert (K := freach_ok lm LM p (wreach_freach lm _ _ W)). unfold fdeposit in E. destruct (_ || _); [discriminate|]. destruct (flt x _); [discriminate|]. destruct (flt y _); [discriminate|].
    fold (dep_liq lm p x y a b) in E. assert (DL := dep_liq_ok lm LM p x y a b K X Y). mb E. destruct a0 as [q fe]. injection E as <- _ _.
    destruct (ord_pos _ _ _ _ _ _ _ K DL RW E0 OR) as [OQ SQ]. split; [|split; [exact OQ|exact BK]]. rewrite <- SQ in SP. exact SP.
  - split; [exact (wr_wd lm _ _ _ _ _ _ _ _ _ _ W E F Z1)|]. assert (BK := wd_backed lm LM _ _ _ _ _ _ _ _ _ _ W E F Z1 B).
    assert (K := freach_ok lm LM p (wreach_freach lm _ _ W)). unfold fwithdraw in E. destruct (flt l f_zero); [discriminate|].
    assert (DL := neg_ok l (proj1 (proj1 F))). mb E. destruct a0 as [q fe]. injection E as <- _ _.
    destruct (ord_pos _ _ _ _ _ _ _ K DL RW E0 OR) as [OQ SQ]. split; [|split; [exact OQ|exact BK]]. rewrite <- SQ in SP. exact SP.
  - split; [exact (wr_x lm _ _ _ _ _ _ _ W D O E)|]. assert (BK := swap_x_backed lm LM _ _ _ _ _ _ _ W SP OR B D O E LA).
    assert (K := freach_ok lm LM p (wreach_freach lm _ _ W)). destruct (fswap_x_good lm LM _ _ _ _ _ _ K D O E) as (_ & [S1 _ (S3 & _)] & _).
    unfold ordered_p. rewrite S1, S3. auto.
  - split; [exact (wr_y lm _ _ _ _ _ _ _ W D O E)|]. assert (BK := swap_y_backed lm LM _ _ _ _ _ _ _ W SP OR B D O E LA).
    assert (K := freach_ok lm LM p (wreach_freach lm _ _ W)). destruct (fswap_y_good lm LM _ _ _ _ _ _ K D O E) as (_ & [S1 _ (S3 & _)] & _).
    unfold ordered_p. rewrite S1, S3. auto.
Qed.
Theorem C93_f64_in_force_swaps_partial : forall lm p T, libm_ok lm -> landed lm p T -> in_force_right p.
Proof. intros lm p T LM L. apply in_force_backed. apply (landed_all lm p T LM L). Qed.
(** The case: the deposit of 21458 at tick 13863, an X swap that crosses 13813 and empties the range, a Y swap that enters it again at 13813 and leaves it at 13919, and an X
    swap that goes back through it.  The Y swap of the refutation above does not land. *)
Definition o5 : f64 := F 5629499534213120 (-50).
Definition lx : fpool := Eval vm_compute in match fexecute_swap_x wlm 50 e1 (f_int 100) o5 with Ok (p, _) => p | _ => nopool end.
Definition ly : fpool := Eval vm_compute in match fexecute_swap_y wlm 50 lx (f_int 1000) o5 with Ok (p, _) => p | _ => nopool end.
Definition lz : fpool := Eval vm_compute in match fexecute_swap_x wlm 50 ly (f_int 1000) o5 with Ok (p, _) => p | _ => nopool end.
Example C93_swaps_case : landed wlm lz 21458 /\ (fglbl_tick e1, fglbl_tick lx, fglbl_tick ly, fglbl_tick lz) = (13863, 13812, 13919, 13812) /\
  flt (fx e1) (fx lx) = true /\ flt (fy lx) (fy ly) = true /\ flt (fx ly) (fx lz) = true /\
  all_land_y wlm 50 e1 (start e1) (F 8492479242139049 (-46)) (F 5629499534213120 (-50)) = false.
Proof.
  split; [|vm_compute; auto 8]. destruct e1_dep as (xd & yd & E).
  assert (L0 : landed wlm drain_p0 0) by (refine (la_new wlm _ _ _ _ _ _ _ _ drain_new_ok); [vm_compute; reflexivity|vm_compute; reflexivity|lia]).
  assert (L1 : landed wlm e1 21458).
  { refine (la_dep wlm _ 0 _ _ _ _ _ _ _ _ 21458 L0 _ _ _ E e1_whole _ _); try lia; try reflexivity. }
  assert (X1 : exists out, fexecute_swap_x wlm 50 e1 (f_int 100) o5 = Ok (lx, out)) by (eexists; vm_compute; reflexivity). destruct X1 as [o1 X1].
  assert (X2 : exists out, fexecute_swap_y wlm 50 lx (f_int 1000) o5 = Ok (ly, out)) by (eexists; vm_compute; reflexivity). destruct X2 as [o2 X2].
  assert (X3 : exists out, fexecute_swap_x wlm 50 ly (f_int 1000) o5 = Ok (lz, out)) by (eexists; vm_compute; reflexivity). destruct X3 as [o3 X3].
  assert (L2 : landed wlm lx 21458) by (refine (la_x wlm _ _ _ _ _ _ _ L1 _ _ X1 _); vm_compute; reflexivity).
  assert (L3 : landed wlm ly 21458) by (refine (la_y wlm _ _ _ _ _ _ _ L2 _ _ X2 _); vm_compute; reflexivity).
  refine (la_x wlm _ _ _ _ _ _ _ L3 _ _ X3 _); vm_compute; reflexivity.
Qed.
Print Assumptions C93_f64_in_force_swaps_partial.
