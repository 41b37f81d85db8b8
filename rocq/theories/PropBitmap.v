(** Claims C35 and C36: the tick bitmap.  [mem m t] says that bit [t mod 8] of byte [t / 8] is set. *)
From Coq Require Import ZArith List Bool Lia.
From Verif Require Import Base BaseLemmas BitmapModel BitmapProofs.
Open Scope Z_scope.

(** ** C35 *)
Theorem C35_is_active_reads_set : forall m t, bm_wf m -> in_range t -> tick_is_active m t = Ok (mem m t).
Proof. exact active_mem. Qed.
Theorem C35_activate_adds_one : forall m t, bm_wf m -> in_range t ->
  exists m', activate_tick m t = Ok m' /\ bm_wf m' /\ forall u, in_range u -> mem m' u = (u =? t) || mem m u.
Proof. exact activate_spec. Qed.
Theorem C35_unset_removes_one : forall m t, bm_wf m -> in_range t ->
  exists m', unset_tick m t = Ok m' /\ bm_wf m' /\ forall u, in_range u -> mem m' u = negb (u =? t) && mem m u.
Proof. exact unset_spec. Qed.
Theorem C35_fresh_empty : bm_wf bm_default /\ forall t, mem bm_default t = false.
Proof. exact (conj default_wf default_empty). Qed.
Theorem C35_out_of_range_panics : forall m t d, bm_wf m -> ~ in_range t ->
  activate_tick m t = Panic /\ unset_tick m t = Panic /\ tick_is_active m t = Panic /\ get_next_tick m t d = Panic.
Proof. exact out_of_range_panics. Qed.

(** ** C36 *)
Theorem C36_next_below : forall m t, bm_wf m -> in_range t ->
  exists r, get_next_tick m t 0 = Ok r /\
  match r with
  | Some u => 0 <= u < t /\ mem m u = true /\ forall v, u < v < t -> mem m v = false
  | None => forall v, 0 <= v < t -> mem m v = false
  end.
Proof. exact next_down. Qed.
Theorem C36_next_above : forall m t, bm_wf m -> in_range t ->
  exists r, get_next_tick m t 1 = Ok r /\
  match r with
  | Some u => t < u < 80000 /\ mem m u = true /\ forall v, t < v < u -> mem m v = false
  | None => forall v, t < v < 80000 -> mem m v = false
  end.
Proof. exact next_up. Qed.

(** A bitmap holding 3, 5, 6 and 21 (words 0 and 2), and its neighbours of 5 and of 6. *)
Definition demo_bm : bitmap := (104 :: 0 :: 32 :: List.repeat 0 (100 * 100 - 3))%Z%list.
Lemma demo_wf : bm_wf demo_bm.
Proof.
  split. { unfold demo_bm. cbn [length]. rewrite List.repeat_length. reflexivity. }
  unfold demo_bm. do 3 (apply List.Forall_cons; [lia |]).
  apply List.Forall_forall. intros x Hx. apply List.repeat_spec in Hx. subst. lia.
Qed.
Example C35_case :
  bm_wf demo_bm /\ tick_is_active demo_bm 5 = Ok true /\ tick_is_active demo_bm 4 = Ok false /\
  tick_is_active demo_bm (-1) = Panic /\ tick_is_active demo_bm 80000 = Panic /\
  (let* m := unset_tick demo_bm 5 in tick_is_active m 5) = Ok false /\
  (let* m := unset_tick demo_bm 5 in tick_is_active m 6) = Ok true /\
  (let* m := activate_tick demo_bm 4 in tick_is_active m 4) = Ok true.
Proof.
  split; [exact demo_wf |].
  repeat (rewrite (C35_is_active_reads_set _ _ demo_wf) by (unfold in_range; lia)).
  destruct (C35_out_of_range_panics demo_bm (-1) 0 demo_wf) as (_ & _ & -> & _); [unfold in_range; lia |].
  destruct (C35_out_of_range_panics demo_bm 80000 0 demo_wf) as (_ & _ & -> & _); [unfold in_range; lia |].
  destruct (C35_unset_removes_one demo_bm 5 demo_wf) as (m & -> & W & M); [unfold in_range; lia |].
  destruct (C35_activate_adds_one demo_bm 4 demo_wf) as (m' & -> & W' & M'); [unfold in_range; lia |].
  cbn [bind].
  repeat (rewrite (C35_is_active_reads_set m _ W) by (unfold in_range; lia)).
  rewrite (C35_is_active_reads_set m' _ W') by (unfold in_range; lia).
  rewrite !M, M' by (unfold in_range; lia). repeat split.
Qed.
Example C36_case :
  get_next_tick demo_bm 5 0 = Ok (Some 3) /\ get_next_tick demo_bm 5 1 = Ok (Some 6) /\
  get_next_tick demo_bm 6 1 = Ok (Some 21) /\ get_next_tick demo_bm 21 0 = Ok (Some 6) /\
  get_next_tick demo_bm 3 0 = Ok None.
Proof. repeat split. Qed.

(** Finding (outside the two documented directions): with direction 2 the search goes upwards but ignores the rest of
    the current word. *)
Theorem C36_other_direction_refuted : exists m t, bm_wf m /\ in_range t /\
  mem m (t + 1) = true /\ get_next_tick m t 2 = Ok (Some 21).
Proof.
  exists demo_bm, 5. split; [apply C35_case |]. split; [unfold in_range; lia |]. vm_compute. auto.
Qed.

Print Assumptions C35_is_active_reads_set.
Print Assumptions C35_activate_adds_one.
Print Assumptions C35_unset_removes_one.
Print Assumptions C35_fresh_empty.
Print Assumptions C35_out_of_range_panics.
Print Assumptions C36_next_below.
Print Assumptions C36_next_above.
Print Assumptions C36_other_direction_refuted.
