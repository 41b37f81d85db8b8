(** Model of /repo/programs/hmmcl-sandbox/src/cl_pool_float (the f64 twin of the pool): mod.rs ("fmod.rs"), cl_math.rs ("fmath.rs")
    and cl_components.rs ("fcomp.rs").  Every arithmetic operation is the IEEE 754 one (FloatBase.v), in the order the code performs it.
    [ln] and [powf] come from the platform's mathematical library and are the parameter [lm].  Printed lines are not modelled, except
    that [deposit] and [withdraw] also return the amounts they print as debited and sent. *)
From Coq Require Import ZArith List Bool String Floats.SpecFloat.
From Verif Require Import Base FloatBase.
Import ListNotations.
Open Scope Z_scope.

(** fmath.rs:4-6 (the f64 values nearest to 1.0001 and 1.0e-12) *)
Definition f_tick_base : f64 := S754_finite false 4504049987333233 (-52).
Definition f_adj : f64 := S754_finite false 4951760157141521 (-92).

(** u32 as f64 *)
Definition f_u32 (n : Z) : f64 := f_int n.

Section Lib.
Variable lm : libm.

(** fmath.rs:9-11 *)
Definition f_tick_to_rp (t : Z) : f64 := m_powf lm (fsqrt f_tick_base) (f_u32 t).

(** fmath.rs:13-19 *)
Definition f_rp_to_tick (rp : f64) (l2r : bool) : Z :=
  let l := flog lm rp (fsqrt f_tick_base) in
  f_to_u32 (if l2r then fceil l else ffloor l).

(** fmath.rs:21-32 *)
Definition f_tk_to_possible_tk (t sp : Z) (l2r : bool) : Z :=
  let q := fdiv (f_u32 t) (f_u32 sp) in
  f_to_u32 (fmul (if l2r then fceil q else ffloor q) (f_u32 sp)).

(** fmath.rs:34-38 *)
Definition f_rp_to_possible_tk (rp : f64) (sp : Z) (l2r : bool) : Z :=
  f_tk_to_possible_tk (f_rp_to_tick rp l2r) sp l2r.

(** fmath.rs:40-45 *)
Definition f_liq_x_only (x rpa rpb : f64) : f64 := fdiv (fmul (fmul x rpa) rpb) (fsub rpb rpa).
(** fmath.rs:47-52 *)
Definition f_liq_y_only (y rpa rpb : f64) : f64 := fdiv y (fsub rpb rpa).
(** fmath.rs:54-72 *)
Definition f_liq_from_x_y_rp_rng (x y rp rpa rpb : f64) : f64 :=
  if fle rp rpa then f_liq_x_only x rpa rpb
  else if flt rp rpb then fmin (f_liq_x_only x rp rpb) (f_liq_y_only y rpa rp)
  else f_liq_y_only y rpa rpb.
(** fmath.rs:74-80 *)
Definition f_liq_from_x_y_tick_rng (x y : f64) (t ta tb : Z) : f64 :=
  f_liq_from_x_y_rp_rng x y (f_tick_to_rp t) (f_tick_to_rp ta) (f_tick_to_rp tb).
(** fmath.rs:82-87 *)
Definition f_x_from_l_rp_rng (l rp rpa rpb : f64) : f64 :=
  let rp := fmax (fmin rp rpb) rpa in
  fdiv (fmul l (fsub rpb rp)) (fmul rp rpb).
(** fmath.rs:89-95 *)
Definition f_x_from_l_tick_rng (l : f64) (t ta tb : Z) : f64 :=
  f_x_from_l_rp_rng l (f_tick_to_rp t) (f_tick_to_rp ta) (f_tick_to_rp tb).
(** fmath.rs:97-102 *)
Definition f_y_from_l_rp_rng (l rp rpa rpb : f64) : f64 :=
  let rp := fmax (fmin rp rpb) rpa in
  fmul l (fsub rp rpa).
(** fmath.rs:103-109 *)
Definition f_y_from_l_tick_rng (l : f64) (t ta tb : Z) : f64 :=
  f_y_from_l_rp_rng l (f_tick_to_rp t) (f_tick_to_rp ta) (f_tick_to_rp tb).
(** fmath.rs:111-114 *)
Definition f_rpa_from_l_rp_y (l rp y : f64) : f64 := fsub rp (fdiv y l).
(** fmath.rs:116-119 *)
Definition f_rpb_from_l_rp_x (l rp x : f64) : f64 := fdiv (fmul l rp) (fsub l (fmul rp x)).
(** fmath.rs:121-124 *)
Definition f_rpa_from_x_y_rp_rpb (x y rp rpb : f64) : f64 :=
  fsub (fadd (fdiv y (fmul rpb x)) rp) (fdiv y (fmul rp x)).
(** fmath.rs:126-129 *)
Definition f_rpb_from_x_y_rp_rpa (x y rp rpa : f64) : f64 :=
  fdiv (fmul rp y) (fadd (fmul (fmul (fsub rpa rp) rp) x) y).
(** fmath.rs:131-134 *)
Definition f_dx_from_l_drp (l rp_old rp_new : f64) : f64 :=
  fmul l (fsub (fdiv f_one rp_new) (fdiv f_one rp_old)).
(** fmath.rs:136-139 *)
Definition f_dy_from_l_drp (l rp_old rp_new : f64) : f64 := fmul l (fsub rp_new rp_old).
(** fmath.rs:141-150 *)
Definition f_dx_from_l_drp_hmm (l rp_old rp_new c rp_oracle : f64) : f64 :=
  if feq c f_one then fmul (fdiv l rp_oracle) (m_ln lm (fdiv rp_old rp_new))
  else
    let omc := fsub f_one c in
    let cmo := fneg omc in
    fdiv (fmul (fdiv l (m_powf lm rp_oracle c)) (fsub (m_powf lm rp_new cmo) (m_powf lm rp_old cmo))) omc.
(** fmath.rs:152-160 *)
Definition f_dy_from_l_drp_hmm (l rp_old rp_new c rp_oracle : f64) : f64 :=
  if feq c f_one then fmul (fmul l rp_oracle) (m_ln lm (fdiv rp_old rp_new))
  else
    let omc := fsub f_one c in
    fdiv (fmul (fmul l (m_powf lm rp_oracle c)) (fsub (m_powf lm rp_new omc) (m_powf lm rp_old omc))) omc.
(** fmath.rs:162-166 *)
Definition f_rp_new_from_l_dx (l rp_old dx : f64) : f64 := fdiv f_one (fadd (fdiv dx l) (fdiv f_one rp_old)).
(** fmath.rs:168-171 *)
Definition f_rp_new_from_l_dy (l rp_old dy : f64) : f64 := fadd (fdiv dy l) rp_old.

(** ** State.  The four fee numbers (token x or y, swap fee or hmm adjustment) of each record are grouped in [f4]. *)
Inductive fkind : Type := FX | FY | HX | HY.
Record f4 : Type := mkF4 { f_fx : f64; f_fy : f64; f_hx : f64; f_hy : f64 }.
Definition f4_get (q : f4) (k : fkind) : f64 :=
  match k with FX => f_fx q | FY => f_fy q | HX => f_hx q | HY => f_hy q end.
Definition f4_set (q : f4) (k : fkind) (v : f64) : f4 :=
  match k with
  | FX => mkF4 v (f_fy q) (f_hx q) (f_hy q)
  | FY => mkF4 (f_fx q) v (f_hx q) (f_hy q)
  | HX => mkF4 (f_fx q) (f_fy q) v (f_hy q)
  | HY => mkF4 (f_fx q) (f_fy q) (f_hx q) v
  end.
Definition f4_map2 (op : f64 -> f64 -> f64) (a b : f4) : f4 :=
  mkF4 (op (f_fx a) (f_fx b)) (op (f_fy a) (f_fy b)) (op (f_hx a) (f_hx b)) (op (f_hy a) (f_hy b)).
Definition f4_zero : f4 := mkF4 f_zero f_zero f_zero f_zero.

(** fcomp.rs:15-24 *)
Record fgstate : Type := mkFG { fg_liq : f64; fg_rp : f64; fg_tick : Z; fg_fees : f4 }.
(** fcomp.rs:94-103 *)
Record ftstate : Type := mkFT { ft_net : f64; ft_gross : f64; ft_fees : f4 }.
(** fcomp.rs:166-173 *)
Record fpstate : Type := mkFP { fp_liq : f64; fp_fees : f4 }.
(** fmod.rs:13 *)
Definition fkey : Type := (string * Z * Z)%type.
Definition fkey_eqb (a b : fkey) : bool :=
  let '(u, l, h) := a in let '(u', l', h') := b in
  String.eqb u u' && (l =? l') && (h =? h').
(** fmod.rs:16-31.  Token names and decimals omitted; maps as in PoolModel.v. *)
Record fpool : Type := mkFPool
  { fspacing : Z;
    fgs : fgstate;
    fticks : list (Z * ftstate);
    fpositions : list (fkey * fpstate);
    fx : f64; fy : f64;
    fx_adj : f64; fy_adj : f64;
    fx_fee : f64; fy_fee : f64;
    f_c : f64; f_fee_rate : f64 }.

Fixpoint ftm_get (k : Z) (m : list (Z * ftstate)) : option ftstate :=
  match m with
  | [] => None
  | (k', v) :: r => if k =? k' then Some v else ftm_get k r
  end.
Fixpoint ftm_set (k : Z) (v : ftstate) (m : list (Z * ftstate)) : list (Z * ftstate) :=
  match m with
  | [] => [(k, v)]
  | (k', v') :: r =>
      if k =? k' then (k, v) :: r
      else if k <? k' then (k, v) :: (k', v') :: r
      else (k', v') :: ftm_set k v r
  end.
Fixpoint ftm_del (k : Z) (m : list (Z * ftstate)) : list (Z * ftstate) :=
  match m with
  | [] => []
  | (k', v) :: r => if k =? k' then r else (k', v) :: ftm_del k r
  end.
Fixpoint fpm_get (k : fkey) (m : list (fkey * fpstate)) : option fpstate :=
  match m with
  | [] => None
  | (k', v) :: r => if fkey_eqb k k' then Some v else fpm_get k r
  end.
Fixpoint fpm_set (k : fkey) (v : fpstate) (m : list (fkey * fpstate)) : list (fkey * fpstate) :=
  match m with
  | [] => [(k, v)]
  | (k', v') :: r => if fkey_eqb k k' then (k, v) :: r else (k', v') :: fpm_set k v r
  end.
Fixpoint fpm_del (k : fkey) (m : list (fkey * fpstate)) : list (fkey * fpstate) :=
  match m with
  | [] => []
  | (k', v) :: r => if fkey_eqb k k' then r else (k', v) :: fpm_del k r
  end.

Definition fwith_gs (p : fpool) (g : fgstate) : fpool :=
  mkFPool (fspacing p) g (fticks p) (fpositions p) (fx p) (fy p) (fx_adj p) (fy_adj p) (fx_fee p) (fy_fee p) (f_c p) (f_fee_rate p).
Definition fwith_ticks (p : fpool) (t : list (Z * ftstate)) : fpool :=
  mkFPool (fspacing p) (fgs p) t (fpositions p) (fx p) (fy p) (fx_adj p) (fy_adj p) (fx_fee p) (fy_fee p) (f_c p) (f_fee_rate p).
Definition fwith_positions (p : fpool) (q : list (fkey * fpstate)) : fpool :=
  mkFPool (fspacing p) (fgs p) (fticks p) q (fx p) (fy p) (fx_adj p) (fy_adj p) (fx_fee p) (fy_fee p) (f_c p) (f_fee_rate p).
Definition fwith_funds (p : fpool) (x y xa ya xf yf : f64) : fpool :=
  mkFPool (fspacing p) (fgs p) (fticks p) (fpositions p) x y xa ya xf yf (f_c p) (f_fee_rate p).

(** ** fcomp.rs constructors and updates with their checks ([if bad { panic!() }]) *)

(** fcomp.rs:27-40 *)
Definition fgstate_new (liq rp : f64) (t : Z) (q : f4) : res fgstate :=
  if flt liq f_zero then Panic else Ok (mkFG liq rp t q).
(** fcomp.rs:44-49 *)
Definition fg_add_liq (g : fgstate) (d : f64) : res fgstate :=
  if flt (fadd (fg_liq g) d) f_zero then Panic
  else Ok (mkFG (fadd (fg_liq g) d) (fg_rp g) (fg_tick g) (fg_fees g)).
(** fcomp.rs:106-118 *)
Definition ftstate_new (net gross : f64) (q : f4) : res ftstate :=
  if flt gross f_zero then Panic else Ok (mkFT net gross q).
(** fcomp.rs:122-124 *)
Definition ft_add_net (t : ftstate) (d : f64) : ftstate := mkFT (fadd (ft_net t) d) (ft_gross t) (ft_fees t).
(** fcomp.rs:128-133 *)
Definition ft_add_gross (t : ftstate) (d : f64) : res ftstate :=
  if flt (fadd (ft_gross t) d) f_zero then Panic
  else Ok (mkFT (ft_net t) (fadd (ft_gross t) d) (ft_fees t)).
(** fcomp.rs:176-187 *)
Definition fpstate_new (liq : f64) (q : f4) : res fpstate :=
  if flt liq f_zero then Panic else Ok (mkFP liq q).
(** fcomp.rs:191-196 *)
Definition fp_add_liq (q : fpstate) (d : f64) : res fpstate :=
  if flt (fadd (fp_liq q) d) f_zero then Panic
  else Ok (mkFP (fadd (fp_liq q) d) (fp_fees q)).
(** fcomp.rs:246-287 *)
Record fwithin : Type := mkFW
  { fw_recv : f64; fw_send : f64; fw_tick : Z; fw_rp : f64; fw_cross : bool; fw_adj : f64; fw_fee : f64 }.
Definition fwithin_new (recv send : f64) (t : Z) (rp : f64) (cross : bool) (adj fee : f64) : res fwithin :=
  if flt recv f_zero then Panic
  else if flt f_zero send then Panic
  else if flt adj f_zero || flt fee f_zero then Panic
  else if flt rp f_zero then Panic
  else Ok (mkFW recv send t rp cross adj fee).
(** fcomp.rs:311-352 *)
Record fswap_out : Type := mkFSO
  { fso_recv : f64; fso_send : f64; fso_adj : f64; fso_fee : f64; fso_avg : f64; fso_end : f64 }.
Definition fswap_out_new (recv send adj fee avg endp : f64) : res fswap_out :=
  if flt recv f_zero then Panic
  else if flt f_zero send then Panic
  else if flt adj f_zero || flt fee f_zero then Panic
  else if flt avg f_zero || flt endp f_zero then Panic
  else Ok (mkFSO recv send adj fee avg endp).

(** ** fmod.rs *)

(** fmod.rs:36-65 *)
Definition fpool_new (bootstrap_rp : f64) (tick_spacing : Z) (hmm_c rate : f64) : res fpool :=
  let tk := f_rp_to_possible_tk bootstrap_rp tick_spacing false in
  let rp := f_tick_to_rp tk in
  let* g := fgstate_new f_zero rp tk f4_zero in
  Ok (mkFPool tick_spacing g [] [] f_zero f_zero f_zero f_zero f_zero f_zero hmm_c rate).

(** fmod.rs:78-105 *)
Definition fglbl_liq (p : fpool) : f64 := fg_liq (fgs p).
Definition fglbl_tick (p : fpool) : Z := fg_tick (fgs p).
Definition fglbl_rp (p : fpool) : f64 := fg_rp (fgs p).
Definition fglbl_fees (p : fpool) : f4 := fg_fees (fgs p).
Definition fadd_glbl_liq (p : fpool) (d : f64) : res fpool :=
  let* g := fg_add_liq (fgs p) d in Ok (fwith_gs p g).
Definition fset_tick (p : fpool) (t : Z) : fpool :=
  fwith_gs p (mkFG (fglbl_liq p) (fglbl_rp p) t (fglbl_fees p)).
Definition fset_rp (p : fpool) (rp : f64) : fpool :=
  fwith_gs p (mkFG (fglbl_liq p) rp (fglbl_tick p) (fglbl_fees p)).
Definition fset_fee (p : fpool) (k : fkind) (v : f64) : fpool :=
  fwith_gs p (mkFG (fglbl_liq p) (fglbl_rp p) (fglbl_tick p) (f4_set (fglbl_fees p) k v)).

(** fmod.rs:107-117 *)
Definition f_tick_to_possible_tick (p : fpool) (t : Z) (l2r : bool) : Z := f_tk_to_possible_tk t (fspacing p) l2r.
Definition f_rp_to_possible_tick (p : fpool) (rp : f64) (l2r : bool) : Z := f_rp_to_possible_tk rp (fspacing p) l2r.

(** fmod.rs:119-129 *)
Definition finitialize_tick (p : fpool) (t : Z) : res fpool :=
  let q := if t <=? fglbl_tick p then fglbl_fees p else f4_zero in
  let* ts := ftstate_new f_zero f_zero q in
  Ok (fwith_ticks p (ftm_set t ts (fticks p))).

(** fmod.rs:135-150, with [unset_tick] (131-133) inlined *)
Definition fupdate_tick (p : fpool) (t : Z) (liq_delta : f64) (upper : bool) : res fpool :=
  let* p := (match ftm_get t (fticks p) with None => finitialize_tick p t | Some _ => Ok p end) in
  match ftm_get t (fticks p) with
  | None => Panic
  | Some ts =>
      let ts := ft_add_net ts (if negb upper then liq_delta else fneg liq_delta) in
      let* ts := ft_add_gross ts liq_delta in
      if feq (ft_gross ts) f_zero then Ok (fwith_ticks p (ftm_del t (fticks p)))
      else Ok (fwith_ticks p (ftm_set t ts (fticks p)))
  end.

(** [provided_tick - 1] on u32 (fmod.rs:183), overflow-checked build *)
Definition pred_u32 (a : Z) : res Z := if a =? 0 then Panic else Ok (a - 1).

(** fmod.rs:152-188 *)
Definition fcross_tick (p : fpool) (t : Z) (l2r : bool) : res fpool :=
  if negb l2r && negb (fglbl_tick p =? t) then Panic
  else
    match ftm_get t (fticks p) with
    | None => Panic
    | Some ts =>
        let d := if l2r then ft_net ts else fneg (ft_net ts) in
        let ts' := mkFT (ft_net ts) (ft_gross ts) (f4_map2 fsub (fglbl_fees p) (ft_fees ts)) in
        let p := fwith_ticks p (ftm_set t ts' (fticks p)) in
        let* nt := (if l2r then Ok t
                    else let* t1 := pred_u32 t in Ok (f_tick_to_possible_tick p t1 l2r)) in
        fadd_glbl_liq (fset_tick p nt) d
    end.

(** fmod.rs:246-253 *)
Definition ftick_keys (p : fpool) (reverse : bool) : list Z :=
  let ks := map fst (fticks p) in if reverse then rev ks else ks.

(** fmod.rs:190-203 *)
Definition fget_left_limit (p : fpool) (start_t : Z) : option Z :=
  let tick := f_tick_to_possible_tick p (Z.min start_t (fglbl_tick p)) false in
  find (fun tk => tk <=? tick) (ftick_keys p true).

(** fmod.rs:205-244 *)
Definition fget_right_limit (p : fpool) (start_t gtick : Z) : res (option Z) :=
  let st := f_tick_to_possible_tick p start_t false in
  if st =? gtick then Ok (find (fun tk => st <? tk) (ftick_keys p false))
  else if gtick <? st then Ok (find (fun tk => st <=? tk) (ftick_keys p false))
  else Panic.

(** fcomp.rs:226-234: [GetInRangeOutput::new] *)
Definition fgir_new (goal : option Z) (rp : f64) : res (option Z * f64) :=
  if flt rp f_zero then Panic else Ok (goal, rp).

(** fmod.rs:264-285, over the snapshot of keys (descending) *)
Fixpoint fgir_left (p : fpool) (ks : list Z) : res (fpool * option (option Z * f64)) :=
  match ks with
  | [] => Ok (p, None)
  | tk :: ks' =>
      if fglbl_tick p <? tk then fgir_left p ks'
      else
        let p := fset_rp (fset_tick p tk) (f_tick_to_rp tk) in
        let* p := fcross_tick p tk false in
        let goal := fget_left_limit p (fglbl_tick p) in
        if flt (fglbl_liq p) f_zero then Panic
        else if flt f_zero (fglbl_liq p) then
          let* o := fgir_new goal (fglbl_rp p) in Ok (p, Some o)
        else fgir_left p ks'
  end.

(** fmod.rs:287-306 *)
Fixpoint fgir_right (p : fpool) (ks : list Z) : res (fpool * option (option Z * f64)) :=
  match ks with
  | [] => Ok (p, None)
  | tk :: ks' =>
      if tk <=? fglbl_tick p then fgir_right p ks'
      else
        let p := fset_rp (fset_tick p tk) (f_tick_to_rp tk) in
        let* p := fcross_tick p tk true in
        let* goal := fget_right_limit p tk tk in
        if flt (fglbl_liq p) f_zero then Panic
        else if flt f_zero (fglbl_liq p) then
          let* o := fgir_new goal (fglbl_rp p) in Ok (p, Some o)
        else fgir_right p ks'
  end.

(** fmod.rs:255-309 *)
Definition ftry_get_in_range (p : fpool) (l2r : bool) : res (fpool * option Z * f64) :=
  if flt f_zero (fglbl_liq p) then Panic
  else
    let* (p, r) := (if l2r then fgir_right p (ftick_keys p false) else fgir_left p (ftick_keys p true)) in
    match r with
    | Some (goal, rp) => Ok (p, goal, rp)
    | None => let* (goal, rp) := fgir_new None (fglbl_rp p) in Ok (p, goal, rp)
    end.

(** fmod.rs:312-330 *)
Definition ffee_below_above (p : fpool) (t : Z) (k : fkind) : f64 * f64 :=
  let fg := f4_get (fglbl_fees p) k in
  match ftm_get t (fticks p) with
  | None => (fg, f_zero)
  | Some ts =>
      let f0 := f4_get (ft_fees ts) k in
      if t <=? fglbl_tick p then (f0, fsub fg f0) else (fsub fg f0, f0)
  end.

(** fmod.rs:332-342 *)
Definition ffee_rng (p : fpool) (lower upper : Z) (k : fkind) : res f64 :=
  let '(bl, al) := ffee_below_above p lower k in
  let '(bu, au) := ffee_below_above p upper k in
  let* _ := assert (feq (fadd bl al) (fadd bu au)) in
  Ok (fsub (fsub (fadd bl al) bl) au).

(** fmod.rs:344-420 *)
Definition fset_position (p : fpool) (user : string) (lower upper : Z) (liq_delta : f64) : res (fpool * f4) :=
  let* nfx := ffee_rng p lower upper FX in
  let* nfy := ffee_rng p lower upper FY in
  let* nhx := ffee_rng p lower upper HX in
  let* nhy := ffee_rng p lower upper HY in
  let new := mkF4 nfx nfy nhx nhy in
  let key := (user, lower, upper) in
  let* (p, old, base) :=
    match fpm_get key (fpositions p) with
    | None =>
        if flt liq_delta f_zero then Panic
        else
          let* q := fpstate_new liq_delta f4_zero in
          Ok (fwith_positions p (fpm_set key q (fpositions p)), f4_zero, f_zero)
    | Some q =>
        let base := fp_liq q in
        if flt liq_delta f_zero && flt (fadd base liq_delta) f_zero then Panic
        else if feq (fadd base liq_delta) f_zero then
          Ok (fwith_positions p (fpm_del key (fpositions p)), fp_fees q, base)
        else
          let* q' := fp_add_liq q liq_delta in
          Ok (fwith_positions p (fpm_set key (mkFP (fp_liq q') new) (fpositions p)), fp_fees q, base)
    end in
  let u := f4_map2 fsub new old in
  let* _ := assert (fle f_zero (f_fx u) && fle f_zero (f_fy u) && fle f_zero (f_hx u) && fle f_zero (f_hy u)) in
  let* p := fupdate_tick p lower liq_delta false in
  let* p := fupdate_tick p upper liq_delta true in
  let* p := (if (lower <=? fglbl_tick p) && (fglbl_tick p <? upper) then fadd_glbl_liq p liq_delta else Ok p) in
  Ok (p, mkF4 (fmul base (f_fx u)) (fmul base (f_fy u)) (fmul base (f_hx u)) (fmul base (f_hy u))).

(** fmod.rs:422-475; also returns the printed [x_debited], [y_debited] *)
Definition fdeposit (p : fpool) (user : string) (x y rpa rpb : f64) : res (fpool * f64 * f64) :=
  if flt x f_zero || flt y f_zero then Panic
  else
    let lower := f_rp_to_possible_tick p rpa false in
    let upper := f_rp_to_possible_tick p rpb false in
    let rpa_used := f_tick_to_rp lower in
    let rpb_used := f_tick_to_rp upper in
    let rp_used := fglbl_rp p in
    let liq := ffloor (f_liq_from_x_y_rp_rng x y rp_used rpa_used rpb_used) in
    let x_in := f_x_from_l_rp_rng liq rp_used rpa_used rpb_used in
    let y_in := f_y_from_l_rp_rng liq rp_used rpa_used rpb_used in
    if flt x x_in then Panic
    else if flt y y_in then Panic
    else
      let* (p, fe) := fset_position p user lower upper liq in
      let x_debited := fsub (fsub x_in (f_fx fe)) (f_hx fe) in
      let y_debited := fsub (fsub y_in (f_fy fe)) (f_hy fe) in
      Ok (fwith_funds p (fadd (fx p) x_in) (fadd (fy p) y_in)
            (fsub (fx_adj p) (f_hx fe)) (fsub (fy_adj p) (f_hy fe))
            (fsub (fx_fee p) (f_fx fe)) (fsub (fy_fee p) (f_fy fe)), x_debited, y_debited).

(** fmod.rs:477-516; also returns the printed [x_sent], [y_sent] *)
Definition fwithdraw (p : fpool) (user : string) (liq rpa rpb : f64) : res (fpool * f64 * f64) :=
  if flt liq f_zero then Panic
  else
    let lower := f_rp_to_possible_tick p rpa false in
    let upper := f_rp_to_possible_tick p rpb false in
    let rpa_used := f_tick_to_rp lower in
    let rpb_used := f_tick_to_rp upper in
    let* (p, fe) := fset_position p user lower upper (fneg liq) in
    let rp_used := fglbl_rp p in
    let x_out := f_x_from_l_rp_rng liq rp_used rpa_used rpb_used in
    let y_out := f_y_from_l_rp_rng liq rp_used rpa_used rpb_used in
    let x_out := fmul x_out (fsub f_one f_adj) in
    let y_out := fmul y_out (fsub f_one f_adj) in
    let x_sent := fadd (fadd x_out (f_fx fe)) (f_hx fe) in
    let y_sent := fadd (fadd y_out (f_fy fe)) (f_hy fe) in
    Ok (fwith_funds p (fsub (fx p) x_out) (fsub (fy p) y_out)
          (fsub (fx_adj p) (f_hx fe)) (fsub (fy_adj p) (f_hy fe))
          (fsub (fx_fee p) (f_fx fe)) (fsub (fy_fee p) (f_fy fe)), x_sent, y_sent).

(** fmod.rs:519-621 *)
Definition fswap_within_x (p : fpool) (start_rp : f64) (goal : Z) (liq dx rp_oracle : f64) : res fwithin :=
  if fle dx f_zero then Panic
  else
    let rp_goal := f_tick_to_rp goal in
    if flt start_rp rp_goal then Panic
    else
      let r := f_fee_rate p in
      let dx_max := fmul dx (fsub f_one r) in
      let doable := f_dx_from_l_drp liq start_rp rp_goal in
      if flt doable f_zero then Panic
      else
        let* (done, fee, cross, end_t, end_rp) :=
          if flt doable dx_max then
            Ok (doable, fmul (fdiv doable (fsub f_one r)) r, true, goal, rp_goal)
          else
            let end_rp := f_rp_new_from_l_dx liq start_rp dx_max in
            let end_t := f_rp_to_tick end_rp false in
            if flt start_rp end_rp then Panic
            else if flt end_rp rp_goal then Panic
            else Ok (dx_max, fsub dx dx_max, false, end_t, end_rp) in
        let cpmm := f_dy_from_l_drp liq start_rp end_rp in
        let* dy :=
          if feq (f_c p) f_zero || fle start_rp rp_oracle then Ok cpmm
          else if flt rp_oracle start_rp && fle end_rp rp_oracle then
            Ok (fadd (f_dy_from_l_drp_hmm liq start_rp rp_oracle (f_c p) rp_oracle) (f_dy_from_l_drp liq rp_oracle end_rp))
          else if flt rp_oracle end_rp then
            Ok (f_dy_from_l_drp_hmm liq start_rp end_rp (f_c p) rp_oracle)
          else Panic in
        let dy := fmul dy (fsub f_one f_adj) in
        let cpmm := fmul cpmm (fsub f_one f_adj) in
        let adj := fsub dy cpmm in
        if flt f_zero cpmm then Panic
        else if flt adj f_zero then Panic
        else if flt (fadd (fy p) cpmm) f_zero then Panic
        else fwithin_new done dy end_t end_rp cross adj fee.

(** The running totals and the loop variables of fmod.rs:633-641 and 873-881: amount swapped in, amount swapped out (negative),
    adjustment, fee, current tick, current root price *)
Record floopst : Type := mkFL
  { fl_in : f64; fl_out : f64; fl_adj : f64; fl_fee : f64; fl_t : Z; fl_rp : f64 }.

(** fmod.rs:663-684 and 740-755: the result of a finished loop *)
Definition fswap_x_end (p : fpool) (s : floopst) : res (fpool * fswap_out) :=
  let avg := if negb (feq (fl_in s) f_zero) then fdiv (fneg (fl_out s)) (fl_in s) else f_zero in
  let* o := fswap_out_new (fl_in s) (fl_out s) (fl_adj s) (fl_fee s) avg (fsquare (fglbl_rp p)) in
  Ok (p, o).

(** fmod.rs:688-736: one pass of the loop once the goal tick is known *)
Definition fswap_x_step (p : fpool) (s : floopst) (gtk : Z) (dx rp_oracle : f64) : res (fpool * floopst) :=
  let d := fsub dx (fl_in s) in
  let* w := fswap_within_x p (fl_rp s) gtk (fglbl_liq p) d rp_oracle in
  let* _ := assert (fle f_zero (fsub (fadd (fy p) (fw_send w)) (fw_adj w))) in
  let* _ := assert (fle (fadd (fw_recv w) (fw_fee w)) d) in
  let s := mkFL (fadd (fl_in s) (fadd (fw_recv w) (fw_fee w))) (fadd (fl_out s) (fw_send w))
                (fadd (fl_adj s) (fw_adj w)) (fadd (fl_fee s) (fw_fee w)) (fw_tick w) (fw_rp w) in
  let p := fset_rp (fset_tick p (fw_tick w)) (fw_rp w) in
  let p := fwith_funds p (fadd (fx p) (fw_recv w)) (fadd (fy p) (fsub (fw_send w) (fw_adj w)))
             (fx_adj p) (fadd (fy_adj p) (fw_adj w)) (fadd (fx_fee p) (fw_fee w)) (fy_fee p) in
  let lg := fglbl_liq p in
  let p := if flt f_zero lg
           then let fe := fglbl_fees p in
                fset_fee (fset_fee p FX (fadd (f_fx fe) (fdiv (fw_fee w) lg))) HY (fadd (f_hy fe) (fdiv (fw_adj w) lg))
           else p in
  let* p := (if fw_cross w then
               let* _ := assert (fw_tick w =? gtk) in
               match ftm_get gtk (fticks p) with
               | Some _ => fcross_tick p gtk false
               | None => Ok p
               end
             else Ok p) in
  Ok (p, s).

(** fmod.rs:643-739 *)
Fixpoint fswap_x_loop (fuel : nat) (p : fpool) (s : floopst) (dx rp_oracle : f64) : res (fpool * fswap_out) :=
  match fuel with
  | O => NoFuel
  | S n =>
      if negb (flt (fl_in s) dx) then fswap_x_end p s
      else
        let* (p, goal, rp) :=
          (if flt f_zero (fglbl_liq p) then Ok (p, fget_left_limit p (fl_t s), fl_rp s)
           else ftry_get_in_range p false) in
        let s := mkFL (fl_in s) (fl_out s) (fl_adj s) (fl_fee s) (fl_t s) rp in
        match goal with
        | None => fswap_x_end p s
        | Some gtk => let* (p, s) := fswap_x_step p s gtk dx rp_oracle in fswap_x_loop n p s dx rp_oracle
        end
  end.

(** fmod.rs:623-756 *)
Definition fexecute_swap_x (fuel : nat) (p : fpool) (dx rp_oracle : f64) : res (fpool * fswap_out) :=
  if fle dx f_zero then Panic
  else fswap_x_loop fuel p (mkFL f_zero f_zero f_zero f_zero (fglbl_tick p) (fglbl_rp p)) dx rp_oracle.

(** fmod.rs:758-861 *)
Definition fswap_within_y (p : fpool) (start_rp : f64) (goal : Z) (liq dy rp_oracle : f64) : res fwithin :=
  if fle dy f_zero then Panic
  else
    let rp_goal := f_tick_to_rp goal in
    if flt rp_goal start_rp then Panic
    else
      let r := f_fee_rate p in
      let dy_max := fmul dy (fsub f_one r) in
      let doable := f_dy_from_l_drp liq start_rp rp_goal in
      if flt doable f_zero then Panic
      else
        let* (done, fee, cross, end_t, end_rp) :=
          if flt doable dy_max then
            Ok (doable, fmul (fdiv doable (fsub f_one r)) r, true, goal, rp_goal)
          else
            let end_rp := f_rp_new_from_l_dy liq start_rp dy_max in
            let end_t := f_rp_to_tick end_rp false in
            if flt end_rp start_rp then Panic
            else if flt rp_goal end_rp then Panic
            else Ok (dy_max, fsub dy dy_max, false, end_t, end_rp) in
        let cpmm := f_dx_from_l_drp liq start_rp end_rp in
        let* dx :=
          if feq (f_c p) f_zero || fle rp_oracle start_rp then Ok cpmm
          else if flt start_rp rp_oracle && fle rp_oracle end_rp then
            Ok (fadd (f_dx_from_l_drp_hmm liq start_rp rp_oracle (f_c p) rp_oracle) (f_dx_from_l_drp liq rp_oracle end_rp))
          else if flt end_rp rp_oracle then
            Ok (f_dx_from_l_drp_hmm liq start_rp end_rp (f_c p) rp_oracle)
          else Panic in
        let cpmm := fmul cpmm (fsub f_one f_adj) in
        let dx := fmul dx (fsub f_one f_adj) in
        let adj := fsub dx cpmm in
        if flt f_zero cpmm then Panic
        else if flt adj f_zero then Panic
        else if flt (fadd (fx p) cpmm) f_zero then Panic
        else fwithin_new done dx end_t end_rp cross adj fee.

(** fmod.rs:903-924 and 980-995: the average price is minus what went in over what went out *)
Definition fswap_y_end (p : fpool) (s : floopst) : res (fpool * fswap_out) :=
  let avg := if negb (feq (fl_out s) f_zero) then fdiv (fneg (fl_in s)) (fl_out s) else f_zero in
  let* o := fswap_out_new (fl_in s) (fl_out s) (fl_adj s) (fl_fee s) avg (fsquare (fglbl_rp p)) in
  Ok (p, o).

(** fmod.rs:928-976 *)
Definition fswap_y_step (p : fpool) (s : floopst) (gtk : Z) (dy rp_oracle : f64) : res (fpool * floopst) :=
  let d := fsub dy (fl_in s) in
  let* w := fswap_within_y p (fl_rp s) gtk (fglbl_liq p) d rp_oracle in
  let* _ := assert (fle f_zero (fsub (fadd (fx p) (fw_send w)) (fw_adj w))) in
  let* _ := assert (fle (fadd (fw_recv w) (fw_fee w)) d) in
  let s := mkFL (fadd (fl_in s) (fadd (fw_recv w) (fw_fee w))) (fadd (fl_out s) (fw_send w))
                (fadd (fl_adj s) (fw_adj w)) (fadd (fl_fee s) (fw_fee w)) (fw_tick w) (fw_rp w) in
  let p := fset_rp (fset_tick p (fw_tick w)) (fw_rp w) in
  let p := fwith_funds p (fadd (fx p) (fsub (fw_send w) (fw_adj w))) (fadd (fy p) (fw_recv w))
             (fadd (fx_adj p) (fw_adj w)) (fy_adj p) (fx_fee p) (fadd (fy_fee p) (fw_fee w)) in
  let lg := fglbl_liq p in
  let p := if flt f_zero lg
           then let fe := fglbl_fees p in
                fset_fee (fset_fee p HX (fadd (f_hx fe) (fdiv (fw_adj w) lg))) FY (fadd (f_fy fe) (fdiv (fw_fee w) lg))
           else p in
  let* p := (if fw_cross w then
               let* _ := assert (fw_tick w =? gtk) in
               match ftm_get gtk (fticks p) with
               | Some _ => fcross_tick p gtk true
               | None => Ok p
               end
             else Ok p) in
  Ok (p, s).

(** fmod.rs:883-979 *)
Fixpoint fswap_y_loop (fuel : nat) (p : fpool) (s : floopst) (dy rp_oracle : f64) : res (fpool * fswap_out) :=
  match fuel with
  | O => NoFuel
  | S n =>
      if negb (flt (fl_in s) dy) then fswap_y_end p s
      else
        let* (p, goal, rp) :=
          (if flt f_zero (fglbl_liq p)
           then let* g := fget_right_limit p (fl_t s) (fglbl_tick p) in Ok (p, g, fl_rp s)
           else ftry_get_in_range p true) in
        let s := mkFL (fl_in s) (fl_out s) (fl_adj s) (fl_fee s) (fl_t s) rp in
        match goal with
        | None => fswap_y_end p s
        | Some gtk => let* (p, s) := fswap_y_step p s gtk dy rp_oracle in fswap_y_loop n p s dy rp_oracle
        end
  end.

(** fmod.rs:863-996 *)
Definition fexecute_swap_y (fuel : nat) (p : fpool) (dy rp_oracle : f64) : res (fpool * fswap_out) :=
  if fle dy f_zero then Panic
  else fswap_y_loop fuel p (mkFL f_zero f_zero f_zero f_zero (fglbl_tick p) (fglbl_rp p)) dy rp_oracle.
End Lib.
