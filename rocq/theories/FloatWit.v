(** Concrete runs of the f64 pool.  The mathematical library is given by a table of the values the GNU C library returns for the arguments
    that occur (generated outside Coq; the model takes any library, see DESIGN.md). *)
From Coq Require Import ZArith List Bool String Floats.SpecFloat.
From Verif Require Import Base FloatBase FloatModel FloatFacts FloatWf FloatLp.
Import ListNotations.
Open Scope Z_scope.

Definition F (m : positive) (e : Z) : f64 := S754_finite false m e.
Definition f_same (a b : f64) : bool :=
  match a, b with
  | S754_finite false m e, S754_finite false m' e' => Pos.eqb m m' && (e =? e')
  | _, _ => false
  end.
Fixpoint look (x : f64) (t : list (f64 * f64)) : f64 :=
  match t with [] => S754_nan | (a, b) :: r => if f_same x a then b else look x r end.

(** [ln] *)
Definition tab_ln : list (f64 * f64) := [
  ((F 4503599627370496 (-51)), (F 6243314768165359 (-53)));
  ((F 4503824801722646 (-52)), (F 7378328719181482 (-67)));
  ((F 8962001547148836 (-52)), (F 6198003279783540 (-53)));
  ((F 4526033317186670 (-51)), (F 6288070769031363 (-53)));
  ((F 9006867723404598 (-52)), (F 6242983230727417 (-53)));
  ((F 7740561859543040 (-47)), (F 4511856059940595 (-50)));
  ((F 7737284217241689 (-47)), (F 4511379211004559 (-50)));
  ((F 7738444838888606 (-47)), (F 4511548087546899 (-50)));
  ((F 7651114394152370 (-47)), (F 8997539525019729 (-51)));
  ((F 7680626483309814 (-47)), (F 9006208520859832 (-51)));
  ((F 7664510248337940 (-47)), (F 9001478612109619 (-51)));
  ((F 8917305607134819 (-52)), (F 6152969535159630 (-53)));
  ((F 8960657414934694 (-52)), (F 6196652267444824 (-53)));
  ((F 4525354497042318 (-51)), (F 6286719756692644 (-53)));
  ((F 9005516862009525 (-52)), (F 6241632218293047 (-53)));
  ((F 4503622020668811 (-52)), (F 5870254199134464 (-70)));
  ((F 8871581662830159 (-52)), (F 6106665842544444 (-53)));
  ((F 8937471564669311 (-52)), (F 6173315784587831 (-53)));
  ((F 8999350260591848 (-52)), (F 6235462352168826 (-53)));
  ((F 4504402034031677 (-51)), (F 6244919438539849 (-53)));
  ((F 9005651695952814 (-52)), (F 6241767076416175 (-53)));
  ((F 9006552261122408 (-52)), (F 6242667751308653 (-53)));
  ((F 9006912508355176 (-52)), (F 6243028017215126 (-53)));
  ((F 4505302959482501 (-51)), (F 6246720788324804 (-53)));
  ((F 9004230261160375 (-52)), (F 6240345285150669 (-53)));
  ((F 9006921515265259 (-52)), (F 6243037024407451 (-53)));
  ((F 8984433457645250 (-52)), (F 6220520152095496 (-53)));
  ((F 4516087485598202 (-51)), (F 6268255921396841 (-53)));
  ((F 4516082969515233 (-51)), (F 6268246914202091 (-53)));
  ((F 4527391262967348 (-51)), (F 6290772793708795 (-53)));
  ((F 4516159098522159 (-51)), (F 6268398750065058 (-53)))].
(** powers of the root of 1.0001 *)
Definition tab_pow : list (f64 * f64) := [
  ((F 7621264847929344 (-39)), (F 9006912508352751 (-52)));
  ((F 7566289266540544 (-39)), (F 8961992585156252 (-52)));
  ((F 7676240429318144 (-39)), (F 4526028791157879 (-51)));
  ((F 5507866060390400 (-36)), (F 7740302192174660 (-47)));
  ((F 5507316304576512 (-36)), (F 7737206845173237 (-47)));
  ((F 5507522463006720 (-36)), (F 7738367455214053 (-47)));
  ((F 5491923141787648 (-36)), (F 7651037883773532 (-47)));
  ((F 5497214541496320 (-36)), (F 7680549677813035 (-47)));
  ((F 7511313685151744 (-39)), (F 8917296689838130 (-52)));
  ((F 7619615580487680 (-39)), (F 9005561640336410 (-52)));
  ((F 7564639999098880 (-39)), (F 8960648454286240 (-52)));
  ((F 7674591161876480 (-39)), (F 4525349971692347 (-51)));
  ((F 7454688836321280 (-39)), (F 8871492947900679 (-52)));
  ((F 7536052696776704 (-39)), (F 8937382190847402 (-52)));
  ((F 7611918999093248 (-39)), (F 8999260267989168 (-52)));
  ((F 7623463871184896 (-39)), (F 4504356990461772 (-51)));
  ((F 7620715092115456 (-39)), (F 9006462196500442 (-52)));
  ((F 7625662894440448 (-39)), (F 4505257906903432 (-51)));
  ((F 7593777057234944 (-39)), (F 8984424473220778 (-52)));
  ((F 7652051173507072 (-39)), (F 4516082969515233 (-51)));
  ((F 7679538964201472 (-39)), (F 4527386735580613 (-51)))].
Definition wlm : libm := mkLibm (fun x => look x tab_ln) (fun a b => if f_same a (fsqrt f_tick_base) then look b tab_pow else S754_nan).
Lemma look_ok x (t : list (f64 * f64)) : Forall (fun ab => f64_ok (snd ab)) t -> f64_ok (look x t).
Proof. induction 1 as [|[a b] t A B IH]; cbn; [reflexivity|]. destruct (f_same x a); [exact A|exact IH]. Qed.
Lemma tab_ok (t : list (f64 * f64)) : forallb (fun ab => valid_binary 53 1024 (snd ab)) t = true -> Forall (fun ab => f64_ok (snd ab)) t.
Proof. intros H. apply Forall_forall. intros x I. rewrite forallb_forall in H. exact (H x I). Qed.
Lemma wlm_ok : libm_ok wlm.
Proof.
  split; intros; cbn [m_ln m_powf wlm].
  - apply look_ok, tab_ok. vm_compute. reflexivity.
  - destruct (f_same _ _); [|reflexivity]. apply look_ok, tab_ok. vm_compute. reflexivity.
Qed.

(** events, and runs of several *)
Inductive fev : Type :=
| EDep (u : string) (x y a b : f64)
| EWd (u : string) (l a b : f64)
| EX (dx o : f64)
| EY (dy o : f64).
Definition fev_step (p : fpool) (e : fev) : res fpool :=
  match e with
  | EDep u x y a b => let* (q, _, _) := fdeposit wlm p u x y a b in Ok q
  | EWd u l a b => let* (q, _, _) := fwithdraw wlm p u l a b in Ok q
  | EX dx o => let* (q, _) := fexecute_swap_x wlm 50 p dx o in Ok q
  | EY dy o => let* (q, _) := fexecute_swap_y wlm 50 p dy o in Ok q
  end.
Fixpoint frun (p : fpool) (es : list fev) : res fpool :=
  match es with [] => Ok p | e :: r => let* q := fev_step p e in frun q r end.
Definition fev_ok (e : fev) : bool :=
  let v := valid_binary 53 1024 in
  match e with EDep _ x y _ _ => v x && v y | EWd _ l _ _ => v l | EX d o => v d && v o | EY d o => v d && v o end.
Lemma frun_reach es : forall p q, forallb fev_ok es = true -> freach wlm p -> frun p es = Ok q -> freach wlm q.
Proof.
  induction es as [|e es IH]; intros p q V R H; cbn in H; [now injection H as <-|].
  cbn in V. apply andb_prop in V as [V VS]. mb H. apply (IH a); auto. clear H IH VS.
  destruct e as [u x y ra rb|u l ra rb|d o|d o]; cbn in V, E; mb E.
  - apply andb_prop in V as [V1 V2]. destruct a0 as [[p1 xd] yd]. injection E as <-. exact (fr_dep wlm _ _ _ _ _ _ _ _ _ R V1 V2 E0).
  - destruct a0 as [[p1 xs] ys]. injection E as <-. exact (fr_wd wlm _ _ _ _ _ _ _ _ R V E0).
  - apply andb_prop in V as [V1 V2]. destruct a0 as [p1 out]. injection E as <-. exact (fr_x wlm _ _ _ _ _ _ R V1 V2 E0).
  - apply andb_prop in V as [V1 V2]. destruct a0 as [p1 out]. injection E as <-. exact (fr_y wlm _ _ _ _ _ _ R V1 V2 E0).
Qed.
Definition get {A} (d : A) (r : res A) : A := match r with Ok a => a | _ => d end.
Definition nopool : fpool := mkFPool 0 (mkFG f_zero f_zero 0 f4_zero) [] [] f_zero f_zero f_zero f_zero f_zero f_zero f_zero f_zero.

(** a and b deposit 401 each; b withdraws 120.3 and the rest, a withdraws everything; price tick 13863 *)
Definition ghost_new : res fpool := fpool_new wlm (F 4503599627370496 (-51)) 1 f_zero (F 6917529027641082 (-61)).
Definition ghost_evs : list fev := [
  EDep "a" (F 4503599627370496 (-52)) (F 5629499534213120 (-50)) (F 8962001547148836 (-52)) (F 4526033317186670 (-51));
  EDep "b" (F 4503599627370496 (-52)) (F 5629499534213120 (-50)) (F 8962001547148836 (-52)) (F 4526033317186670 (-51));
  EWd "b" (F 8465359924572979 (-46)) (F 8962001547148836 (-52)) (F 4526033317186670 (-51));
  EWd "b" (F 4938126622667571 (-44)) (F 8962001547148836 (-52)) (F 4526033317186670 (-51));
  EWd "a" (F 7054466603810816 (-44)) (F 8962001547148836 (-52)) (F 4526033317186670 (-51))]%string.
Definition ghost_last : fev := last ghost_evs (EX f_zero f_zero).
Definition ghost_p0 : fpool := Eval vm_compute in get nopool ghost_new.
Definition ghost_p : fpool := Eval vm_compute in get nopool (frun ghost_p0 (removelast ghost_evs)).
Lemma ghost_new_ok : ghost_new = Ok ghost_p0. Proof. vm_compute. reflexivity. Qed.
Lemma ghost_run_ok : frun ghost_p0 (removelast ghost_evs) = Ok ghost_p. Proof. vm_compute. reflexivity. Qed.
Lemma ghost_reach : freach wlm ghost_p.
Proof.
  refine (frun_reach _ _ _ _ _ ghost_run_ok); [vm_compute; reflexivity|].
  refine (fr_new wlm _ _ _ _ _ _ _ ghost_new_ok); vm_compute; reflexivity.
Qed.

(** a deposits 401, b 1203; b withdraws 360.9 and the rest; the last event is a withdrawing its 401; price tick 13863 *)
Definition block_new : res fpool := fpool_new wlm (F 4503599627370496 (-51)) 1 f_zero (F 6917529027641082 (-61)).
Definition block_evs : list fev := [
  EDep "a" (F 4503599627370496 (-52)) (F 5629499534213120 (-50)) (F 8962001547148836 (-52)) (F 4526033317186670 (-51));
  EDep "b" (F 6755399441055744 (-51)) (F 8444249301319680 (-49)) (F 8962001547148836 (-52)) (F 4526033317186670 (-51));
  EWd "b" (F 6349019943429734 (-44)) (F 8962001547148836 (-52)) (F 4526033317186670 (-51));
  EWd "b" (F 7407189934001357 (-43)) (F 8962001547148836 (-52)) (F 4526033317186670 (-51));
  EWd "a" (F 7054466603810816 (-44)) (F 8962001547148836 (-52)) (F 4526033317186670 (-51))]%string.
Definition block_last : fev := last block_evs (EX f_zero f_zero).
Definition block_p0 : fpool := Eval vm_compute in get nopool block_new.
Definition block_p : fpool := Eval vm_compute in get nopool (frun block_p0 (removelast block_evs)).
Lemma block_new_ok : block_new = Ok block_p0. Proof. vm_compute. reflexivity. Qed.
Lemma block_run_ok : frun block_p0 (removelast block_evs) = Ok block_p. Proof. vm_compute. reflexivity. Qed.
Lemma block_reach : freach wlm block_p.
Proof.
  refine (frun_reach _ _ _ _ _ block_run_ok); [vm_compute; reflexivity|].
  refine (fr_new wlm _ _ _ _ _ _ _ block_new_ok); vm_compute; reflexivity.
Qed.

(** a deposits, somebody swaps, b deposits and withdraws at once; price tick 13863 *)
Definition trip_new : res fpool := fpool_new wlm (F 4503599627370496 (-51)) 1 f_zero (F 6917529027641082 (-61)).
Definition trip_evs : list fev := [
  EDep "a" (F 8796093022208000 (-43)) (F 5497558138880000 (-40)) (F 8962001547148836 (-52)) (F 4526033317186670 (-51));
  EX (F 4503599627370496 (-52)) (F 4503599627370496 (-52));
  EDep "b" (F 8796093022208000 (-43)) (F 5497558138880000 (-40)) (F 8962001547148836 (-52)) (F 4526033317186670 (-51));
  EWd "b" (F 6882393034063872 (-34)) (F 8962001547148836 (-52)) (F 4526033317186670 (-51))]%string.
Definition trip_last : fev := last trip_evs (EX f_zero f_zero).
Definition trip_p0 : fpool := Eval vm_compute in get nopool trip_new.
Definition trip_p : fpool := Eval vm_compute in get nopool (frun trip_p0 (removelast trip_evs)).
Lemma trip_new_ok : trip_new = Ok trip_p0. Proof. vm_compute. reflexivity. Qed.
Lemma trip_run_ok : frun trip_p0 (removelast trip_evs) = Ok trip_p. Proof. vm_compute. reflexivity. Qed.
Lemma trip_reach : freach wlm trip_p.
Proof.
  refine (frun_reach _ _ _ _ _ trip_run_ok); [vm_compute; reflexivity|].
  refine (fr_new wlm _ _ _ _ _ _ _ trip_new_ok); vm_compute; reflexivity.
Qed.

(** two deposits; the last event is an X swap across a gap; price tick 80150 *)
Definition over_new : res fpool := fpool_new wlm (F 7740561859543040 (-47)) 1 f_zero (F 4611686018427388 (-63)).
Definition over_evs : list fev := [
  EDep "b" (F 5951285662696485 (-43)) (F 7089411561201777 (-46)) (F 7737284217241689 (-47)) (F 7738444838888606 (-47));
  EDep "a" (F 8271416552211418 (-47)) (F 7434951320265212 (-43)) (F 7651114394152370 (-47)) (F 7680626483309814 (-47));
  EX (F 6771817404817449 (-55)) (F 7741076222393877 (-47))]%string.
Definition over_last : fev := last over_evs (EX f_zero f_zero).
Definition over_p0 : fpool := Eval vm_compute in get nopool over_new.
Definition over_p : fpool := Eval vm_compute in get nopool (frun over_p0 (removelast over_evs)).
Lemma over_new_ok : over_new = Ok over_p0. Proof. vm_compute. reflexivity. Qed.
Lemma over_run_ok : frun over_p0 (removelast over_evs) = Ok over_p. Proof. vm_compute. reflexivity. Qed.
Lemma over_reach : freach wlm over_p.
Proof.
  refine (frun_reach _ _ _ _ _ over_run_ok); [vm_compute; reflexivity|].
  refine (fr_new wlm _ _ _ _ _ _ _ over_new_ok); vm_compute; reflexivity.
Qed.

(** a deposits, somebody swaps; the last event is b depositing just below the range of a; price tick 13863 *)
Definition below_new : res fpool := fpool_new wlm (F 4503599627370496 (-51)) 1 f_zero (F 6917529027641082 (-61)).
Definition below_evs : list fev := [
  EDep "a" (F 8796093022208000 (-43)) (F 5497558138880000 (-40)) (F 8962001547148836 (-52)) (F 4526033317186670 (-51));
  EX (F 4503599627370496 (-52)) (F 4503599627370496 (-52));
  EDep "b" (F 5629499534213120 (-49)) (F 7036874417766400 (-47)) (F 8917305607134819 (-52)) (F 8962001547148836 (-52))]%string.
Definition below_last : fev := last below_evs (EX f_zero f_zero).
Definition below_p0 : fpool := Eval vm_compute in get nopool below_new.
Definition below_p : fpool := Eval vm_compute in get nopool (frun below_p0 (removelast below_evs)).
Lemma below_new_ok : below_new = Ok below_p0. Proof. vm_compute. reflexivity. Qed.
Lemma below_run_ok : frun below_p0 (removelast below_evs) = Ok below_p. Proof. vm_compute. reflexivity. Qed.
Lemma below_reach : freach wlm below_p.
Proof.
  refine (frun_reach _ _ _ _ _ below_run_ok); [vm_compute; reflexivity|].
  refine (fr_new wlm _ _ _ _ _ _ _ below_new_ok); vm_compute; reflexivity.
Qed.

(** spacing 10: a deposits, an X swap; the last event is a Y swap; price tick 13860 *)
Definition spaced_new : res fpool := fpool_new wlm (F 4503599627370496 (-51)) 10 f_zero (F 6917529027641082 (-61)).
Definition spaced_evs : list fev := [
  EDep "a" (F 8796093022208000 (-43)) (F 5497558138880000 (-40)) (F 8960657414934694 (-52)) (F 4525354497042318 (-51));
  EX (F 4503599627370496 (-52)) (F 4503599627370496 (-52));
  EY (F 4503599627370496 (-52)) (F 4503599627370496 (-52))]%string.
Definition spaced_last : fev := last spaced_evs (EX f_zero f_zero).
Definition spaced_p0 : fpool := Eval vm_compute in get nopool spaced_new.
Definition spaced_p : fpool := Eval vm_compute in get nopool (frun spaced_p0 (removelast spaced_evs)).
Lemma spaced_new_ok : spaced_new = Ok spaced_p0. Proof. vm_compute. reflexivity. Qed.
Lemma spaced_run_ok : frun spaced_p0 (removelast spaced_evs) = Ok spaced_p. Proof. vm_compute. reflexivity. Qed.
Lemma spaced_reach : freach wlm spaced_p.
Proof.
  refine (frun_reach _ _ _ _ _ spaced_run_ok); [vm_compute; reflexivity|].
  refine (fr_new wlm _ _ _ _ _ _ _ spaced_new_ok); vm_compute; reflexivity.
Qed.

(** c = 1: a deposits; the last event is an X swap with an oracle price below; price tick 13863 *)
Definition cone_new : res fpool := fpool_new wlm (F 4503599627370496 (-51)) 1 (F 4503599627370496 (-52)) (F 6917529027641082 (-61)).
Definition cone_evs : list fev := [
  EDep "a" (F 8796093022208000 (-43)) (F 5497558138880000 (-40)) (F 8962001547148836 (-52)) (F 4526033317186670 (-51));
  EX (F 4503599627370496 (-52)) (F 4503599627370496 (-52))]%string.
Definition cone_last : fev := last cone_evs (EX f_zero f_zero).
Definition cone_p0 : fpool := Eval vm_compute in get nopool cone_new.
Definition cone_p : fpool := Eval vm_compute in get nopool (frun cone_p0 (removelast cone_evs)).
Lemma cone_new_ok : cone_new = Ok cone_p0. Proof. vm_compute. reflexivity. Qed.
Lemma cone_run_ok : frun cone_p0 (removelast cone_evs) = Ok cone_p. Proof. vm_compute. reflexivity. Qed.
Lemma cone_reach : freach wlm cone_p.
Proof.
  refine (frun_reach _ _ _ _ _ cone_run_ok); [vm_compute; reflexivity|].
  refine (fr_new wlm _ _ _ _ _ _ _ cone_new_ok); vm_compute; reflexivity.
Qed.

(** whole amounts only; the last event is a withdrawing exactly what it deposited; price tick 13863 *)
Definition rngeq_new : res fpool := fpool_new wlm (F 4503599627370496 (-51)) 1 f_zero (F 6917529027641082 (-61)).
Definition rngeq_evs : list fev := [
  EDep "b" (F 6354392184187117 (-43)) (F 8675726228616670 (-44)) (F 8871581662830159 (-52)) (F 8937471564669311 (-52));
  EDep "b" (F 8240407384101706 (-43)) (F 7015535744417295 (-43)) (F 8999350260591848 (-52)) (F 4504402034031677 (-51));
  EDep "a" (F 8687109189893312 (-49)) (F 8649981702527622 (-44)) (F 9005651695952814 (-52)) (F 9006552261122408 (-52));
  EY (F 4787897149022450 (-74)) (F 4503906599801793 (-51));
  EDep "b" (F 6391248285037675 (-43)) (F 8344914942793049 (-43)) (F 9006552261122408 (-52)) (F 4505302959482501 (-51));
  EWd "b" (F 7803517490167808 (-31)) (F 9006552261122408 (-52)) (F 4505302959482501 (-51));
  EX (F 6806509344467049 (-45)) (F 9006912508355176 (-52));
  EWd "a" (F 5280488344256512 (-31)) (F 9005651695952814 (-52)) (F 9006552261122408 (-52))]%string.
Definition rngeq_last : fev := last rngeq_evs (EX f_zero f_zero).
Definition rngeq_p0 : fpool := Eval vm_compute in get nopool rngeq_new.
Definition rngeq_p : fpool := Eval vm_compute in get nopool (frun rngeq_p0 (removelast rngeq_evs)).
Lemma rngeq_new_ok : rngeq_new = Ok rngeq_p0. Proof. vm_compute. reflexivity. Qed.
Lemma rngeq_run_ok : frun rngeq_p0 (removelast rngeq_evs) = Ok rngeq_p. Proof. vm_compute. reflexivity. Qed.
Lemma rngeq_reach : freach wlm rngeq_p.
Proof.
  refine (frun_reach _ _ _ _ _ rngeq_run_ok); [vm_compute; reflexivity|].
  refine (fr_new wlm _ _ _ _ _ _ _ rngeq_new_ok); vm_compute; reflexivity.
Qed.

(** a deposits between equal ticks; price tick 13863 *)
Definition flat_new : res fpool := fpool_new wlm (F 4503599627370496 (-51)) 1 f_zero (F 6917529027641082 (-61)).
Definition flat_evs : list fev := [
  EDep "a" (F 4503599627370496 (-52)) (F 5629499534213120 (-50)) (F 9006921515265259 (-52)) (F 9006921515265259 (-52))]%string.
Definition flat_last : fev := last flat_evs (EX f_zero f_zero).
Definition flat_p0 : fpool := Eval vm_compute in get nopool flat_new.
Definition flat_p : fpool := Eval vm_compute in get nopool (frun flat_p0 (removelast flat_evs)).
Lemma flat_new_ok : flat_new = Ok flat_p0. Proof. vm_compute. reflexivity. Qed.
Lemma flat_run_ok : frun flat_p0 (removelast flat_evs) = Ok flat_p. Proof. vm_compute. reflexivity. Qed.
Lemma flat_reach : freach wlm flat_p.
Proof.
  refine (frun_reach _ _ _ _ _ flat_run_ok); [vm_compute; reflexivity|].
  refine (fr_new wlm _ _ _ _ _ _ _ flat_new_ok); vm_compute; reflexivity.
Qed.

(** a deposits; the last event is a Y swap that ends at the upper end of the range; price tick 13863 *)
Definition edge_new : res fpool := fpool_new wlm (F 4503599627370496 (-51)) 1 f_zero (F 6917529027641082 (-61)).
Definition edge_evs : list fev := [
  EDep "a" (F 8444249301319680 (-48)) (F 5277655813324800 (-45)) (F 8984433457645250 (-52)) (F 4516087485598202 (-51));
  EY (F 8492479242139049 (-46)) (F 5629499534213120 (-50))]%string.
Definition edge_last : fev := last edge_evs (EX f_zero f_zero).
Definition edge_p0 : fpool := Eval vm_compute in get nopool edge_new.
Definition edge_p : fpool := Eval vm_compute in get nopool (frun edge_p0 (removelast edge_evs)).
Lemma edge_new_ok : edge_new = Ok edge_p0. Proof. vm_compute. reflexivity. Qed.
Lemma edge_run_ok : frun edge_p0 (removelast edge_evs) = Ok edge_p. Proof. vm_compute. reflexivity. Qed.
Lemma edge_reach : freach wlm edge_p.
Proof.
  refine (frun_reach _ _ _ _ _ edge_run_ok); [vm_compute; reflexivity|].
  refine (fr_new wlm _ _ _ _ _ _ _ edge_new_ok); vm_compute; reflexivity.
Qed.

(** as before; a withdraws everything, b deposits, somebody swaps; the last event is b withdrawing everything; price tick 13863 *)
Definition drain_new : res fpool := fpool_new wlm (F 4503599627370496 (-51)) 1 f_zero (F 6917529027641082 (-61)).
Definition drain_evs : list fev := [
  EDep "a" (F 8444249301319680 (-48)) (F 5277655813324800 (-45)) (F 8984433457645250 (-52)) (F 4516087485598202 (-51));
  EY (F 8492479242139049 (-46)) (F 5629499534213120 (-50));
  EWd "a" (F 5898330127204352 (-38)) (F 8984433457645250 (-52)) (F 4516087485598202 (-51));
  EDep "b" (F 5629499534213120 (-49)) (F 8796093022208000 (-43)) (F 4516087485598202 (-51)) (F 4527391262967348 (-51));
  EY (F 4503599627370496 (-52)) (F 5629499534213120 (-50));
  EWd "b" (F 8831277394296832 (-40)) (F 4516087485598202 (-51)) (F 4527391262967348 (-51))]%string.
Definition drain_last : fev := last drain_evs (EX f_zero f_zero).
Definition drain_p0 : fpool := Eval vm_compute in get nopool drain_new.
Definition drain_p : fpool := Eval vm_compute in get nopool (frun drain_p0 (removelast drain_evs)).
Lemma drain_new_ok : drain_new = Ok drain_p0. Proof. vm_compute. reflexivity. Qed.
Lemma drain_run_ok : frun drain_p0 (removelast drain_evs) = Ok drain_p. Proof. vm_compute. reflexivity. Qed.
Lemma drain_reach : freach wlm drain_p.
Proof.
  refine (frun_reach _ _ _ _ _ drain_run_ok); [vm_compute; reflexivity|].
  refine (fr_new wlm _ _ _ _ _ _ _ drain_new_ok); vm_compute; reflexivity.
Qed.
