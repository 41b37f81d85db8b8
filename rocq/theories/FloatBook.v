(** The liquidity the f64 pool records at ticks is exact as long as all amounts are whole and add up to less than 2^52. *)
From Coq Require Import ZArith Reals Lra Lia List Bool String Sorted Floats.SpecFloat.
From Flocq Require Import Core BinarySingleNaN.
From Verif Require Import Base FloatBase FloatModel FloatFacts FloatWf FloatSwap FloatLp.
Import ListNotations.
Open Scope Z_scope.

(** *** specification: integer liquidity of each position, and its sums at ticks *)
Definition zbook : Type := list (fkey * Z).
Definition ends (t : Z) (k : fkey) : Z := (if snd (fst k) =? t then 1 else 0) + (if snd k =? t then 1 else 0).
Definition signs (t : Z) (k : fkey) : Z := (if snd (fst k) =? t then 1 else 0) - (if snd k =? t then 1 else 0).
Fixpoint zsum (f : fkey -> Z) (zs : zbook) : Z := match zs with [] => 0 | (k, z) :: r => f k * z + zsum f r end.
Definition ztotal (zs : zbook) : Z := zsum (fun _ => 1) zs.
Definition wholes (ps : list (fkey * fpstate)) (zs : zbook) : Prop :=
  Forall2 (fun kv kz => fst kv = fst kz /\ fint (fp_liq (snd kv)) (snd kz) /\ 0 <= snd kz) ps zs.
Definition tick_is (o : option ftstate) (g n : Z) : Prop :=
  match o with
  | None => g = 0 /\ n = 0
  | Some ts => fint (ft_gross ts) g /\ fint (ft_net ts) n /\ 0 < g
  end.

(** *** operations on books mirror those on the position map *)
Fixpoint zget (k : fkey) (zs : zbook) : Z := match zs with [] => 0 | (k', z) :: r => if fkey_eqb k k' then z else zget k r end.
Fixpoint zput (k : fkey) (z : Z) (zs : zbook) : zbook :=
  match zs with [] => [(k, z)] | (k', z') :: r => if fkey_eqb k k' then (k, z) :: r else (k', z') :: zput k z r end.
Fixpoint zrem (k : fkey) (zs : zbook) : zbook := match zs with [] => [] | (k', z') :: r => if fkey_eqb k k' then r else (k', z') :: zrem k r end.
Lemma zsum_put f k z zs : zsum f (zput k z zs) = zsum f zs + f k * (z - zget k zs).
Proof. induction zs as [|[k' z'] zs IH]; cbn; [lia|]. destruct (fkey_eqb_spec k k') as [->|N]; cbn; [lia|rewrite IH; lia]. Qed.
Lemma zsum_rem f k zs : zsum f (zrem k zs) = zsum f zs - f k * zget k zs.
Proof. induction zs as [|[k' z'] zs IH]; cbn; [lia|]. destruct (fkey_eqb_spec k k') as [->|N]; cbn; [lia|rewrite IH; lia]. Qed.
Lemma wholes_get ps zs k q : wholes ps zs -> fpm_get k ps = Some q -> fint (fp_liq q) (zget k zs) /\ 0 <= zget k zs.
Proof.
  induction 1 as [|[a b] [c d] ps zs (E & F & G) W IH]; cbn; [discriminate|]. cbn in E, F, G. subst c.
  destruct (fkey_eqb k a); [intros [= <-]; auto|exact IH].
Qed.
Lemma wholes_none ps zs k : wholes ps zs -> fpm_get k ps = None -> zget k zs = 0.
Proof.
  induction 1 as [|[a b] [c d] ps zs (E & F & G) W IH]; cbn; [reflexivity|]. cbn in E. subst c.
  destruct (fkey_eqb k a); [discriminate|exact IH].
Qed.
Lemma wholes_put ps zs k q z : wholes ps zs -> fint (fp_liq q) z -> 0 <= z -> wholes (fpm_set k q ps) (zput k z zs).
Proof.
  intros W Q Z0. induction W as [|[a b] [c d] ps zs (E & F & G) W IH]; cbn; [repeat constructor; auto; apply Q|]. cbn in E, F, G. subst c.
  destruct (fkey_eqb k a); constructor; auto.
Qed.
Lemma wholes_rem ps zs k : wholes ps zs -> wholes (fpm_del k ps) (zrem k zs).
Proof.
  induction 1 as [|[a b] [c d] ps zs (E & F & G) W IH]; cbn; [constructor|]. cbn in E, F, G. subst c.
  destruct (fkey_eqb k a); [exact W|constructor; auto].
Qed.
Definition znn (zs : zbook) : Prop := Forall (fun kz => 0 <= snd kz) zs.
Lemma wholes_nn ps zs : wholes ps zs -> znn zs.
Proof. induction 1 as [|? ? ? ? (A & B & C)]; constructor; auto. Qed.
Lemma znn_tot zs : znn zs -> 0 <= ztotal zs.
Proof. unfold ztotal. induction 1 as [|[a b] zs A B IH]; cbn [zsum]; [lia|]. cbn in A. lia. Qed.
Lemma znn_get zs k : znn zs -> 0 <= zget k zs <= ztotal zs.
Proof.
  induction 1 as [|[a b] zs A B IH]; unfold ztotal; cbn [zsum zget]; [lia|]. cbn in A. fold (ztotal zs). pose proof (znn_tot _ B). 
  destruct (fkey_eqb k a); lia.
Qed.
Lemma znn_gross zs t : znn zs -> 0 <= zsum (ends t) zs <= 2 * ztotal zs.
Proof. unfold ztotal, ends. induction 1 as [|[k b] zs A B IH]; cbn [zsum]; [lia|]. cbn in A. destruct (snd (fst k) =? t), (snd k =? t); lia. Qed.
Lemma znn_net zs t : znn zs -> Z.abs (zsum (signs t) zs) <= ztotal zs.
Proof. unfold ztotal, signs. induction 1 as [|[k b] zs A B IH]; cbn [zsum]; [lia|]. cbn in A. destruct (snd (fst k) =? t), (snd k =? t); lia. Qed.
Lemma znn_net0 zs t : znn zs -> Z.abs (zsum (signs t) zs) <= zsum (ends t) zs.
Proof. unfold signs, ends. induction 1 as [|[k b] zs A B IH]; cbn [zsum]; [lia|]. cbn in A. destruct (snd (fst k) =? t), (snd k =? t); lia. Qed.

(** *** one tick update *)
Lemma upd_tick p t d up p' (G N : Z -> Z) dz : fpool_ok p -> fint d dz ->
  (forall t, tick_is (ftm_get t (fticks p)) (G t) (N t)) ->
  let s := if up : bool then - dz else dz in
  Z.abs (G t + dz) < 2 ^ 53 -> Z.abs (N t + s) < 2 ^ 53 -> (G t + dz = 0 -> N t + s = 0) ->
  fupdate_tick p t d up = Ok p' ->
  0 <= G t + dz /\
  (forall t', tick_is (ftm_get t' (fticks p')) (G t' + (if t =? t' then dz else 0)) (N t' + (if t =? t' then s else 0))).
Proof.
  intros K D I s B1 B2 Z0 H. destruct (fupdate_tick_spec _ _ _ _ _ K (proj1 (proj1 D)) H) as (_ & _ & _ & _ & GN & OT & SM).
  set (n := new_entry p t) in *.
  assert (E : fint (ft_gross n) (G t) /\ fint (ft_net n) (N t)).
  { specialize (I t). unfold n, new_entry. destruct (ftm_get t (fticks p)) as [ts|]; cbn in I |- *; [tauto|]. destruct I as [-> ->]. split; exact fint_zero. }
  destruct E as [E1 E2]. assert (S1 := fint_add _ _ _ _ E1 D B1).
  assert (DS : fint (if negb up then d else fneg d) s) by (destruct up; cbn; [now apply fint_neg|exact D]).
  assert (S2 := fint_add _ _ _ _ E2 DS B2). rewrite (fint_lt0 _ _ S1) in GN. rewrite (fint_eq0 _ _ S1) in SM.
  apply Z.ltb_ge in GN. split; [exact GN|]. intros t'. destruct (Z.eqb_spec t t') as [<-|Nt].
  - rewrite SM. destruct (Z.eqb_spec (G t + dz) 0) as [Q|Q]; cbn; [auto|]. repeat split; try apply S1; try apply S2. lia.
  - rewrite OT by congruence. rewrite !Z.add_0_r. apply I.
Qed.

(** *** one position update *)
Definition book_ok (p : fpool) (zs : zbook) : Prop :=
  wholes (fpositions p) zs /\ (forall t, tick_is (ftm_get t (fticks p)) (zsum (ends t) zs) (zsum (signs t) zs)).
Lemma fset_position_book p u lo up d dz p' fe zs : fpool_ok p -> fint d dz -> fset_position p u lo up d = Ok (p', fe) ->
  book_ok p zs -> ztotal zs < 2 ^ 52 -> Z.abs dz < 2 ^ 52 -> ztotal zs + dz < 2 ^ 52 ->
  exists zs', book_ok p' zs' /\ ztotal zs' = ztotal zs + dz /\ (forall f, zsum f zs' = zsum f zs + f (u, lo, up) * dz).
Proof.
  intros K D H [W T] B BD B'. destruct (fset_position_spec _ _ _ _ _ _ _ K (proj1 (proj1 D)) H) as (K' & _ & _ & ps & p1 & p2 & P & _ & PC & K1 & T1 & _ & U1 & p3 & K2 & _ & U2 & T3).
  assert (NN := wholes_nn _ _ W). set (k := (u, lo, up)) in *. set (z := zget k zs) in *.
  assert (ZG := znn_get zs k NN). fold z in ZG. assert (P52 : 2 ^ 53 = 2 * 2 ^ 52) by reflexivity.
  assert (DB : 0 <= z + dz /\ exists zs', wholes ps zs' /\ (forall f, zsum f zs' = zsum f zs + f k * dz)).
  { destruct PC as [[PD (q & Q & QZ)]|(q & PD & AD)].
    - destruct (wholes_get _ _ _ _ W Q) as [Q1 Q2]. fold z in Q1, Q2. assert (A := fint_add _ _ _ _ Q1 D ltac:(lia)).
      rewrite (fint_eq0 _ _ A) in QZ. apply Z.eqb_eq in QZ. split; [lia|]. exists (zrem k zs). rewrite PD. split; [now apply wholes_rem|].
      intros f. rewrite zsum_rem. fold z. replace z with (- dz) by lia. lia.
    - assert (A : fint (fp_liq q) (z + dz) /\ 0 <= z + dz).
      { unfold after_delta in AD. destruct (fpm_get k (fpositions p)) as [q0|] eqn:Q.
        - destruct (wholes_get _ _ _ _ W Q) as [Q1 Q2]. fold z in Q1, Q2. assert (A := fint_add _ _ _ _ Q1 D ltac:(lia)).
          rewrite (fint_eq0 _ _ A) in AD. rewrite (fint_lt0 _ _ A) in AD. destruct AD as (A1 & _ & A3).
          destruct (z + dz =? 0) eqn:Z0; [discriminate|]. injection A1 as ->. specialize (A3 eq_refl). split; [exact A|]. apply Z.ltb_ge in A3. exact A3.
        - destruct AD as (A1 & [= ->]). assert (E : z = 0) by (exact (wholes_none _ _ _ W Q)). rewrite E.
          rewrite (fint_lt0 _ _ D) in A1. apply Z.ltb_ge in A1. cbn. auto. }
      destruct A as [A1 A2]. split; [exact A2|]. exists (zput k (z + dz) zs). rewrite PD. split; [now apply wholes_put|].
      intros f. rewrite zsum_put. fold z. lia. }
  destruct DB as (Z0 & zs' & W' & SM). assert (NN' := wholes_nn _ _ W').
  assert (TT : ztotal zs' = ztotal zs + dz) by (unfold ztotal; rewrite SM; lia).
  exists zs'. split; [|split; [exact TT|exact SM]]. split; [rewrite P; exact W'|].
  assert (EL : ends lo k = 1 + (if up =? lo then 1 else 0)) by (unfold ends, k; cbn; now rewrite Z.eqb_refl).
  assert (EU : ends up k = (if lo =? up then 1 else 0) + 1) by (unfold ends, k; cbn; now rewrite Z.eqb_refl).
  assert (NL : signs lo k = 1 - (if up =? lo then 1 else 0)) by (unfold signs, k; cbn; now rewrite Z.eqb_refl).
  assert (NU : signs up k = (if lo =? up then 1 else 0) - 1) by (unfold signs, k; cbn; now rewrite Z.eqb_refl).
  assert (GL := znn_gross zs lo NN). assert (GL' := znn_gross zs' lo NN'). assert (GU := znn_gross zs up NN). assert (GU' := znn_gross zs' up NN').
  assert (HL := znn_net zs lo NN). assert (HL' := znn_net zs' lo NN'). assert (HU := znn_net zs up NN). assert (HU' := znn_net zs' up NN').
  assert (HL0 := znn_net0 zs lo NN). assert (HL0' := znn_net0 zs' lo NN'). assert (HU0' := znn_net0 zs' up NN').
  rewrite SM in GL', GU', HL', HU', HL0', HU0'. rewrite SM in HL0', HU0'. rewrite EL in *. rewrite EU in *. rewrite NL in *. rewrite NU in *. rewrite TT in *.
  rewrite <- T1 in T.
  destruct (Z.eqb_spec lo up) as [E|E].
  - subst up. rewrite Z.eqb_refl in *.
    assert (NZ : zsum (ends lo) zs + dz = 0 -> zsum (signs lo) zs + dz = 0) by lia.
    assert (N1 : Z.abs (zsum (ends lo) zs + dz) < 2 ^ 53) by lia. assert (N2 : Z.abs (zsum (signs lo) zs + dz) < 2 ^ 53) by lia.
    destruct (upd_tick _ _ _ false _ (fun t => zsum (ends t) zs) (fun t => zsum (signs t) zs) _ K1 D T N1 N2 NZ U1) as [R1 R2]. cbn beta iota in R1, R2.
    assert (R2L : Z.abs (zsum (ends lo) zs + (if lo =? lo then dz else 0) + dz) < 2 ^ 53) by (rewrite Z.eqb_refl; lia).
    assert (R3L : Z.abs (zsum (signs lo) zs + (if lo =? lo then dz else 0) + - dz) < 2 ^ 53) by (rewrite Z.eqb_refl; lia).
    assert (R4L : zsum (ends lo) zs + (if lo =? lo then dz else 0) + dz = 0 -> zsum (signs lo) zs + (if lo =? lo then dz else 0) + - dz = 0) by (rewrite Z.eqb_refl; lia).
    destruct (upd_tick _ _ _ true _ (fun t => zsum (ends t) zs + (if lo =? t then dz else 0)) (fun t => zsum (signs t) zs + (if lo =? t then dz else 0)) _ K2 D R2 R2L R3L R4L U2) as [_ R].
    intros t. rewrite T3, !SM. specialize (R t). cbn beta iota in R. unfold ends at 2, signs at 2, k. cbn [fst snd].
    replace (zsum (ends t) zs + ((if lo =? t then 1 else 0) + (if lo =? t then 1 else 0)) * dz) with (zsum (ends t) zs + (if lo =? t then dz else 0) + (if lo =? t then dz else 0)) by (destruct (lo =? t); lia).
    replace (zsum (signs t) zs + ((if lo =? t then 1 else 0) - (if lo =? t then 1 else 0)) * dz) with (zsum (signs t) zs + (if lo =? t then dz else 0) + (if lo =? t then - dz else 0)) by (destruct (lo =? t); lia).
    exact R.
  - destruct (Z.eqb_spec up lo); [congruence|].
    assert (N1 : Z.abs (zsum (ends lo) zs + dz) < 2 ^ 53) by lia. assert (N2 : Z.abs (zsum (signs lo) zs + dz) < 2 ^ 53) by lia.
    assert (NZ : zsum (ends lo) zs + dz = 0 -> zsum (signs lo) zs + dz = 0) by lia.
    destruct (upd_tick _ _ _ false _ (fun t => zsum (ends t) zs) (fun t => zsum (signs t) zs) _ K1 D T N1 N2 NZ U1) as [R1 R2]. cbn beta iota in R1, R2.
    assert (EE : (lo =? up) = false) by now apply Z.eqb_neq.
    assert (R2L : Z.abs (zsum (ends up) zs + (if lo =? up then dz else 0) + dz) < 2 ^ 53) by (rewrite EE; lia).
    assert (R3L : Z.abs (zsum (signs up) zs + (if lo =? up then dz else 0) + - dz) < 2 ^ 53) by (rewrite EE; lia).
    assert (R4L : zsum (ends up) zs + (if lo =? up then dz else 0) + dz = 0 -> zsum (signs up) zs + (if lo =? up then dz else 0) + - dz = 0) by (rewrite EE; lia).
    destruct (upd_tick _ _ _ true _ (fun t => zsum (ends t) zs + (if lo =? t then dz else 0)) (fun t => zsum (signs t) zs + (if lo =? t then dz else 0)) _ K2 D R2 R2L R3L R4L U2) as [_ R].
    intros t. rewrite T3, !SM. specialize (R t). cbn beta iota in R. unfold ends at 2, signs at 2, k. cbn [fst snd].
    replace (zsum (ends t) zs + ((if lo =? t then 1 else 0) + (if up =? t then 1 else 0)) * dz) with (zsum (ends t) zs + (if lo =? t then dz else 0) + (if up =? t then dz else 0)) by (destruct (lo =? t), (up =? t); lia).
    replace (zsum (signs t) zs + ((if lo =? t then 1 else 0) - (if up =? t then 1 else 0)) * dz) with (zsum (signs t) zs + (if lo =? t then dz else 0) + (if up =? t then - dz else 0)) by (destruct (lo =? t), (up =? t); lia).
    exact R.
Qed.

(** *** liquidity in force *)
Definition inside (t : Z) (k : fkey) : Z := if (snd (fst k) <=? t) && (t <? snd k) then 1 else 0.
(** the liquidity in force is the total of the positions whose range contains the current tick *)
Definition backed (p : fpool) : Prop := exists zs, wholes (fpositions p) zs /\ fint (fglbl_liq p) (zsum (inside (fglbl_tick p)) zs).
Lemma fint_inj f z z' : fint f z -> fint f z' -> z = z'.
Proof. intros [_ A] [_ B]. rewrite A in B. now apply eq_IZR in B. Qed.
Lemma wholes_det ps zs : wholes ps zs -> forall zs', wholes ps zs' -> zs = zs'.
Proof.
  induction 1 as [|[a b] [c d] ps zs (E & F & G) W IH]; intros zs' H; inversion H as [|x y l l' (E' & F' & G') W']; subst; [reflexivity|].
  destruct y as [c' d']. cbn in *. subst. f_equal; [f_equal; exact (fint_inj _ _ _ F F')|auto].
Qed.
Lemma znn_in zs t : znn zs -> 0 <= zsum (inside t) zs <= ztotal zs.
Proof. unfold ztotal, inside. induction 1 as [|[k b] zs A B IH]; cbn [zsum]; [lia|]. cbn in A. destruct (_ && _); lia. Qed.
Lemma fupdate_tick_gs p t d up p' : fupdate_tick p t d up = Ok p' -> fgs p' = fgs p.
Proof.
  unfold fupdate_tick. intros H. mb H. assert (Q : fgs a = fgs p).
  { destruct (ftm_get t (fticks p)); [now injection E as <-|]. unfold finitialize_tick in E. repeat mb E.
    repeat match type of E with (if ?b then _ else _) = _ => destruct b; [discriminate|] end. now injection E as <-. }
  destruct (ftm_get t (fticks a)); [|discriminate]. mb H. destruct (feq _ _); injection H as <-; exact Q.
Qed.
Lemma fset_position_liq p u lo up d p' fe : fset_position p u lo up d = Ok (p', fe) ->
  fglbl_tick p' = fglbl_tick p /\ fglbl_liq p' = (if (lo <=? fglbl_tick p) && (fglbl_tick p <? up) then fadd (fglbl_liq p) d else fglbl_liq p).
Proof.
  intros H. unfold fset_position in H. mb H. mb H. mb H. mb H. clear E E0 E1 E2. mb H. destruct a3 as [[p1 old] base].
  assert (Q : fgs p1 = fgs p).
  { destruct (fpm_get (u, lo, up) (fpositions p)) as [q|] eqn:G.
    - destruct (flt d f_zero && _) eqn:C1; [discriminate|]. destruct (feq _ f_zero) eqn:C2; [now injection E as <- <- <-|mb E; now injection E as <- <- <-].
    - destruct (flt d f_zero); [discriminate|]. mb E. now injection E as <- <- <-. }
  clear E. mb H. clear E. mb H. mb H. mb H. injection H as <- _. apply fupdate_tick_gs in E, E0.
  assert (G : fgs a5 = fgs p) by congruence. unfold fglbl_tick, fglbl_liq in *. rewrite G in E1.
  destruct (_ && _).
  - unfold fadd_glbl_liq, fg_add_liq in E1. mb E1. injection E1 as <-. destruct (flt _ f_zero); [discriminate|]. injection E2 as <-. cbn. rewrite G. auto.
  - injection E1 as <-. rewrite G. auto.
Qed.
Lemma fset_position_backed p u lo up d dz p' fe zs : fpool_ok p -> fint d dz -> fset_position p u lo up d = Ok (p', fe) ->
  book_ok p zs -> ztotal zs < 2 ^ 52 -> Z.abs dz < 2 ^ 52 -> ztotal zs + dz < 2 ^ 52 -> backed p -> backed p'.
Proof.
  intros K D H B T1 T2 T3 (zs0 & W0 & L). rewrite (wholes_det _ _ W0 _ (proj1 B)) in L. clear W0 zs0.
  destruct (fset_position_book _ _ _ _ _ _ _ _ _ K D H B T1 T2 T3) as (zs' & [W' _] & TT & SM).
  destruct (fset_position_liq _ _ _ _ _ _ _ H) as [E1 E2]. exists zs'. split; [exact W'|]. rewrite E1, E2, SM.
  assert (N := znn_in zs (fglbl_tick p) (wholes_nn _ _ (proj1 B))). assert (N' := znn_in zs' (fglbl_tick p) (wholes_nn _ _ W')). rewrite SM in N'.
  unfold inside at 2. unfold inside at 2 in N'. cbn [fst snd] in *. destruct (_ && _).
  - rewrite Z.mul_1_l in *. apply fint_add; auto. assert (2 ^ 53 = 2 * 2 ^ 52) by reflexivity. lia.
  - now rewrite Z.mul_0_l, Z.add_0_r.
Qed.

(** ** Histories with whole amounts.  [T] is the sum of what was deposited minus what was withdrawn. *)
Section Lm.
Variable lm : libm.
Hypothesis LM : libm_ok lm.
Inductive wreach : fpool -> Z -> Prop :=
| wr_new rp s c r p : f64_ok c -> f64_ok r -> fpool_new lm rp s c r = Ok p -> wreach p 0
| wr_dep p T u x y a b p' xd yd z : wreach p T -> f64_ok x -> f64_ok y -> fdeposit lm p u x y a b = Ok (p', xd, yd) ->
    fint (dep_liq lm p x y a b) z -> Z.abs z < 2 ^ 52 -> T + z < 2 ^ 52 -> wreach p' (T + z)
| wr_wd p T u l a b p' xs ys z : wreach p T -> fwithdraw lm p u l a b = Ok (p', xs, ys) -> fint l z -> z < 2 ^ 52 -> wreach p' (T - z)
| wr_x p T n dx o p' out : wreach p T -> f64_ok dx -> f64_ok o -> fexecute_swap_x lm n p dx o = Ok (p', out) -> wreach p' T
| wr_y p T n dy o p' out : wreach p T -> f64_ok dy -> f64_ok o -> fexecute_swap_y lm n p dy o = Ok (p', out) -> wreach p' T.
Lemma wreach_freach p T : wreach p T -> freach lm p.
Proof.
  induction 1; [exact (fr_new lm _ _ _ _ _ H H0 H1)|exact (fr_dep lm _ _ _ _ _ _ _ _ _ IHwreach H0 H1 H2)|exact (fr_wd lm _ _ _ _ _ _ _ _ IHwreach (proj1 (proj1 H1)) H0)|exact (fr_x lm _ _ _ _ _ _ IHwreach H0 H1 H2)|exact (fr_y lm _ _ _ _ _ _ IHwreach H0 H1 H2)].
Qed.
Lemma book_get m : forall m' t, map (fun kv => (fst kv, ft_net (snd kv), ft_gross (snd kv))) m' = map (fun kv => (fst kv, ft_net (snd kv), ft_gross (snd kv))) m ->
  forall g n, tick_is (ftm_get t m) g n -> tick_is (ftm_get t m') g n.
Proof.
  induction m as [|[a b] m IH]; intros [|[a' b'] m'] t E g n; try discriminate; [auto|].
  injection E as E1 E2 E3 E4. cbn in E1, E2, E3. subst a'. cbn. destruct (t =? a); [|now apply IH].
  unfold tick_is. now rewrite E2, E3.
Qed.
Lemma wreach_book p T : wreach p T -> T < 2 ^ 52 /\ exists zs, book_ok p zs /\ ztotal zs = T.
Proof.
  induction 1 as [rp s c r p HC HR E|p T u x y a b p' xd yd z W [IB (zs & IH & IT)] X Y E F ZB ZT|p T u l a b p' xs ys z W [IB (zs & IH & IT)] E F ZB
                 |p T n dx o p' out W [IB (zs & IH & IT)] D O E|p T n dy o p' out W [IB (zs & IH & IT)] D O E].
  - split; [reflexivity|]. exists []. split; [|reflexivity]. unfold fpool_new in E. mb E. injection E as <-. split; cbn; [constructor|auto].
  - split; [exact ZT|]. assert (K := freach_ok lm LM _ (wreach_freach _ _ W)).
    destruct (fdeposit_spec lm LM _ _ _ _ _ _ _ _ _ K X Y E) as (_ & q & fe & S & P & Q).
    rewrite <- IT in *. destruct (fset_position_book _ _ _ _ _ _ _ _ _ K F S IH IB ZB ZT) as (zs' & (B1 & B2) & BT & _).
    exists zs'. split; [|exact BT]. split; [rewrite P; exact B1|intros t; rewrite Q; apply B2].
  - assert (K := freach_ok lm LM _ (wreach_freach _ _ W)).
    destruct (fwithdraw_spec lm LM _ _ _ _ _ _ _ _ K (proj1 (proj1 F)) E) as (_ & NL & q & fe & S & P & Q).
    rewrite (fint_lt0 _ _ F) in NL. apply Z.ltb_ge in NL. split; [lia|].
    rewrite <- IT in *. destruct (fset_position_book _ _ _ _ _ _ _ _ _ K (fint_neg _ _ F) S IH IB ltac:(lia) ltac:(lia)) as (zs' & (B1 & B2) & BT & _).
    exists zs'. split; [|lia]. split; [rewrite P; exact B1|intros t; rewrite Q; apply B2].
  - split; [exact IB|]. assert (K := freach_ok lm LM _ (wreach_freach _ _ W)).
    destruct (fswap_x_good lm LM _ _ _ _ _ _ K D O E) as (_ & S & _). exists zs. split; [|exact IT]. destruct IH as [I1 I2].
    destruct S as [S1 S2 S3]. split; [rewrite S1; exact I1|]. intros t. eapply book_get; [exact S2|apply I2].
  - split; [exact IB|]. assert (K := freach_ok lm LM _ (wreach_freach _ _ W)).
    destruct (fswap_y_good lm LM _ _ _ _ _ _ K D O E) as (_ & S & _). exists zs. split; [|exact IT]. destruct IH as [I1 I2].
    destruct S as [S1 S2 S3]. split; [rewrite S1; exact I1|]. intros t. eapply book_get; [exact S2|apply I2].
Qed.

(** deposits and withdrawals keep the liquidity in force right, whatever happened before *)
Lemma dep_backed p T u x y a b p' xd yd z : wreach p T -> f64_ok x -> f64_ok y -> fdeposit lm p u x y a b = Ok (p', xd, yd) ->
  fint (dep_liq lm p x y a b) z -> Z.abs z < 2 ^ 52 -> T + z < 2 ^ 52 -> backed p -> backed p'.
Proof.
  intros W X Y E F ZB ZT B. assert (K := freach_ok lm LM _ (wreach_freach _ _ W)). destruct (wreach_book _ _ W) as (TB & zs & BK & TZ).
  assert (E' := E). unfold fdeposit in E'. fold (dep_liq lm p x y a b) in E'. destruct (_ || _); [discriminate|]. destruct (flt x _); [discriminate|]. destruct (flt y _); [discriminate|].
  mb E'. destruct a0 as [q fe]. rewrite <- TZ in *. assert (Q := fset_position_backed _ _ _ _ _ _ _ _ _ K F E0 BK TB ZB ZT B).
  injection E' as <- _ _. exact Q.
Qed.
Lemma wd_backed p T u l a b p' xs ys z : wreach p T -> fwithdraw lm p u l a b = Ok (p', xs, ys) -> fint l z -> z < 2 ^ 52 -> backed p -> backed p'.
Proof.
  intros W E F ZB B. assert (K := freach_ok lm LM _ (wreach_freach _ _ W)). destruct (wreach_book _ _ W) as (TB & zs & BK & TZ).
  unfold fwithdraw in E. destruct (flt l f_zero) eqn:NL; [discriminate|]. rewrite (fint_lt0 _ _ F) in NL. apply Z.ltb_ge in NL.
  mb E. destruct a0 as [q fe]. rewrite <- TZ in *. assert (Q := fset_position_backed _ _ _ _ _ _ _ _ _ K (fint_neg _ _ F) E0 BK TB ltac:(lia) ltac:(lia) B).
  injection E as <- _ _. exact Q.
Qed.
Lemma new_backed rp s c r p : fpool_new lm rp s c r = Ok p -> backed p.
Proof.
  intros E. unfold fpool_new in E. mb E. injection E as <-. unfold fgstate_new in E0. repeat match type of E0 with (if ?b then _ else _) = _ => destruct b; [discriminate|] end.
  injection E0 as <-. exists []. split; [constructor|]. exact fint_zero.
Qed.
End Lm.
