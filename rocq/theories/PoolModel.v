(** Model of /repo/programs/hmmcl-sandbox/src/cl_pool/mod.rs ("mod.rs") and
    /repo/programs/hmmcl-sandbox/src/cl_pool/cl_components.rs ("comp.rs"). *)
From Coq Require Import ZArith List Bool String.
From Verif Require Import Base DecimalModel MathModel.
Import ListNotations.
Open Scope Z_scope.

(** The four valid (token, f_or_h) character pairs of [fee]/[set_fee] (comp.rs:80-101 etc.);
    other pairs panic there and are never used by callers. *)
Inductive fkind : Type := FX | FY | HX | HY.

(** comp.rs:17-26 *)
Record gstate : Type := mkG
  { g_liq : decimal; g_rp : decimal; g_tick : Z;
    g_fx : decimal; g_fy : decimal; g_hx : decimal; g_hy : decimal }.

(** comp.rs:108-116 *)
Record tstate : Type := mkT
  { t_net : decimal; t_gross : decimal;
    t_fx : decimal; t_fy : decimal; t_hx : decimal; t_hy : decimal }.

(** comp.rs:185-192 *)
Record pstate : Type := mkP
  { p_liq : decimal; p_fx : decimal; p_fy : decimal; p_hx : decimal; p_hy : decimal }.

(** mod.rs:18 *)
Definition pkey : Type := (string * Z * Z)%type.
Definition pkey_eqb (a b : pkey) : bool :=
  let '(u, l, h) := a in let '(u', l', h') := b in
  String.eqb u u' && (l =? l') && (h =? h').

(** mod.rs:21-36.  The token names/decimals are display data only and omitted.
    [BTreeMap<u128,TickState>] is an association list kept sorted by key (see [tm_set]);
    [HashMap<PositionKey,PositionState>] is an association list (the code never iterates it). *)
Record pool : Type := mkPool
  { spacing : Z;
    gs : gstate;
    ticks : list (Z * tstate);
    positions : list (pkey * pstate);
    rx : decimal; ry : decimal;        (* self.x, self.y *)
    x_adj : decimal; y_adj : decimal;
    x_fee : decimal; y_fee : decimal;
    hmm_c : decimal; fee_rate : decimal }.

(** ** Map operations (std BTreeMap / HashMap) *)
Fixpoint tm_get (k : Z) (m : list (Z * tstate)) : option tstate :=
  match m with
  | [] => None
  | (k', v) :: r => if k =? k' then Some v else tm_get k r
  end.

Fixpoint tm_set (k : Z) (v : tstate) (m : list (Z * tstate)) : list (Z * tstate) :=
  match m with
  | [] => [(k, v)]
  | (k', v') :: r =>
      if k =? k' then (k, v) :: r
      else if k <? k' then (k, v) :: (k', v') :: r
      else (k', v') :: tm_set k v r
  end.

Fixpoint tm_del (k : Z) (m : list (Z * tstate)) : list (Z * tstate) :=
  match m with
  | [] => []
  | (k', v) :: r => if k =? k' then r else (k', v) :: tm_del k r
  end.

Fixpoint pm_get (k : pkey) (m : list (pkey * pstate)) : option pstate :=
  match m with
  | [] => None
  | (k', v) :: r => if pkey_eqb k k' then Some v else pm_get k r
  end.

Fixpoint pm_set (k : pkey) (v : pstate) (m : list (pkey * pstate)) : list (pkey * pstate) :=
  match m with
  | [] => [(k, v)]
  | (k', v') :: r => if pkey_eqb k k' then (k, v) :: r else (k', v') :: pm_set k v r
  end.

Fixpoint pm_del (k : pkey) (m : list (pkey * pstate)) : list (pkey * pstate) :=
  match m with
  | [] => []
  | (k', v) :: r => if pkey_eqb k k' then r else (k', v) :: pm_del k r
  end.

(** ** Field updates *)
Definition with_gs (p : pool) (g : gstate) : pool :=
  mkPool (spacing p) g (ticks p) (positions p) (rx p) (ry p) (x_adj p) (y_adj p) (x_fee p) (y_fee p) (hmm_c p) (fee_rate p).
Definition with_ticks (p : pool) (t : list (Z * tstate)) : pool :=
  mkPool (spacing p) (gs p) t (positions p) (rx p) (ry p) (x_adj p) (y_adj p) (x_fee p) (y_fee p) (hmm_c p) (fee_rate p).
Definition with_positions (p : pool) (q : list (pkey * pstate)) : pool :=
  mkPool (spacing p) (gs p) (ticks p) q (rx p) (ry p) (x_adj p) (y_adj p) (x_fee p) (y_fee p) (hmm_c p) (fee_rate p).
Definition with_funds (p : pool) (x y xa ya xf yf : decimal) : pool :=
  mkPool (spacing p) (gs p) (ticks p) (positions p) x y xa ya xf yf (hmm_c p) (fee_rate p).

(** ** comp.rs constructors with their validation *)

(** comp.rs:29-56 *)
Definition gstate_new (liq rp : decimal) (tick : Z) (fx fy hx hy : decimal) : res gstate :=
  if is_negative liq then Panic
  else if is_negative rp then Panic
  else if is_negative fx || is_negative fy || is_negative hx || is_negative hy then Panic
  else Ok (mkG liq rp tick fx fy hx hy).

(** comp.rs:60-67 *)
Definition g_add_liq (g : gstate) (d : decimal) : res gstate :=
  let* n := unwrap (d_add (g_liq g) d) in
  if is_negative n then Panic
  else Ok (mkG n (g_rp g) (g_tick g) (g_fx g) (g_fy g) (g_hx g) (g_hy g)).

(** comp.rs:71-73, 77-79 *)
Definition g_set_rp (g : gstate) (rp : decimal) : gstate :=
  mkG (g_liq g) rp (g_tick g) (g_fx g) (g_fy g) (g_hx g) (g_hy g).
Definition g_set_tick (g : gstate) (t : Z) : gstate :=
  mkG (g_liq g) (g_rp g) t (g_fx g) (g_fy g) (g_hx g) (g_hy g).

(** comp.rs:80-101 *)
Definition g_fee (g : gstate) (k : fkind) : decimal :=
  match k with FX => g_fx g | FY => g_fy g | HX => g_hx g | HY => g_hy g end.
Definition g_set_fee (g : gstate) (k : fkind) (f : decimal) : gstate :=
  match k with
  | FX => mkG (g_liq g) (g_rp g) (g_tick g) f (g_fy g) (g_hx g) (g_hy g)
  | FY => mkG (g_liq g) (g_rp g) (g_tick g) (g_fx g) f (g_hx g) (g_hy g)
  | HX => mkG (g_liq g) (g_rp g) (g_tick g) (g_fx g) (g_fy g) f (g_hy g)
  | HY => mkG (g_liq g) (g_rp g) (g_tick g) (g_fx g) (g_fy g) (g_hx g) f
  end.

(** comp.rs:119-141 *)
Definition tstate_new (net gross fx fy hx hy : decimal) : res tstate :=
  if is_negative gross then Panic
  else if is_negative fx || is_negative fy || is_negative hx || is_negative hy then Panic
  else Ok (mkT net gross fx fy hx hy).

(** comp.rs:145-147 *)
Definition t_add_net (t : tstate) (d : decimal) : res tstate :=
  let* n := unwrap (d_add (t_net t) d) in
  Ok (mkT n (t_gross t) (t_fx t) (t_fy t) (t_hx t) (t_hy t)).

(** comp.rs:151-157 *)
Definition t_add_gross (t : tstate) (d : decimal) : res tstate :=
  let* n := unwrap (d_add (t_gross t) d) in
  if is_negative n then Panic
  else Ok (mkT (t_net t) n (t_fx t) (t_fy t) (t_hx t) (t_hy t)).

(** comp.rs:158-168 *)
Definition t_fee (t : tstate) (k : fkind) : decimal :=
  match k with FX => t_fx t | FY => t_fy t | HX => t_hx t | HY => t_hy t end.

(** comp.rs:195-209 *)
Definition pstate_new (liq fx fy hx hy : decimal) : res pstate :=
  if is_negative liq then Panic
  else if is_negative fx || is_negative fy || is_negative hx || is_negative hy then Panic
  else Ok (mkP liq fx fy hx hy).

(** comp.rs:213-219 *)
Definition p_add_liq (q : pstate) (d : decimal) : res pstate :=
  let* n := unwrap (d_add (p_liq q) d) in
  if is_negative n then Panic
  else Ok (mkP n (p_fx q) (p_fy q) (p_hx q) (p_hy q)).

(** comp.rs:292-335 *)
Record within : Type := mkW
  { w_recv : decimal; w_send : decimal; w_tick : Z; w_rp : decimal; w_cross : bool;
    w_adj : decimal; w_fee : decimal }.
Definition within_new (recv send : decimal) (t : Z) (rp : decimal) (cross : bool) (adj fee : decimal) : res within :=
  if is_negative recv then Panic
  else if is_positive send then Panic
  else if is_negative adj || is_negative fee then Panic
  else if is_negative rp then Panic
  else Ok (mkW recv send t rp cross adj fee).

(** comp.rs:360-407 *)
Record swap_out : Type := mkSO
  { so_recv : decimal; so_send : decimal; so_adj : decimal; so_fee : decimal;
    so_avg : decimal; so_end : decimal }.
Definition swap_out_new (recv send adj fee avg endp : decimal) : res swap_out :=
  if is_negative recv then Panic
  else if is_positive send then Panic
  else if is_positive recv && is_zero send then Panic
  else if is_zero recv && negb (is_zero send) then Panic
  else if is_negative adj || is_negative fee then Panic
  else if is_negative avg || is_negative endp then Panic
  else Ok (mkSO recv send adj fee avg endp).

(** ** mod.rs *)

(** mod.rs:41-93.  Token names/decimals omitted. *)
Definition pool_new (bootstrap_rp : decimal) (tick_spacing : Z) (c rate : decimal) : res pool :=
  if is_negative bootstrap_rp then Panic
  else
    let* big :=
      (if is_negative c then Ok true
       else let* c12 := to_compute_scale c in
            let* two := d_two in
            let* two := to_compute_scale two in
            unwrap (d_gt c12 two)) in
    if big then Panic
    else if is_negative rate then Panic
    else
      let* tk := rp_to_possible_tk bootstrap_rp tick_spacing false 0 in
      let* rp := tick_to_rp tk in
      let* z := m_zero in
      let* g := gstate_new z rp tk z z z z in
      Ok (mkPool tick_spacing g [] [] z z z z z z c rate).

(** mod.rs:95-134 *)
Definition glbl_liq (p : pool) : decimal := g_liq (gs p).
Definition glbl_tick (p : pool) : Z := g_tick (gs p).
Definition glbl_rp (p : pool) : decimal := g_rp (gs p).
Definition add_glbl_liq (p : pool) (d : decimal) : res pool :=
  let* g := g_add_liq (gs p) d in Ok (with_gs p g).
Definition set_glbl_tick (p : pool) (t : Z) : pool := with_gs p (g_set_tick (gs p) t).
Definition set_glbl_rp (p : pool) (rp : decimal) : pool := with_gs p (g_set_rp (gs p) rp).
Definition set_fee_glbl (p : pool) (k : fkind) (f : decimal) : pool := with_gs p (g_set_fee (gs p) k f).

(** mod.rs:136-146 *)
Definition tick_to_possible_tick (p : pool) (t : Z) (l2r : bool) : res Z :=
  tk_to_possible_tk t (spacing p) l2r.
Definition rp_to_possible_tick (p : pool) (rp : decimal) (l2r : bool) (start : Z) : res Z :=
  rp_to_possible_tk rp (spacing p) l2r start.

(** mod.rs:148-158 *)
Definition initialize_tick (p : pool) (tick : Z) : res pool :=
  let* z := m_zero in
  let '(fx, fy, hx, hy) :=
    if tick <=? glbl_tick p then (g_fx (gs p), g_fy (gs p), g_hx (gs p), g_hy (gs p))
    else (z, z, z, z) in
  let* ts := tstate_new z z fx fy hx hy in
  Ok (with_ticks p (tm_set tick ts (ticks p))).

(** mod.rs:164-183 (with [unset_tick], 160-162, inlined) *)
Definition update_tick (p : pool) (tick : Z) (liq_delta : decimal) (upper : bool) : res pool :=
  let* p := (match tm_get tick (ticks p) with
             | None => initialize_tick p tick
             | Some _ => Ok p
             end) in
  match tm_get tick (ticks p) with
  | None => Panic
  | Some ts =>
      let d := if upper then d_neg liq_delta else liq_delta in
      let* ts := t_add_net ts d in
      let* ts := t_add_gross ts liq_delta in
      if is_zero (t_gross ts) then Ok (with_ticks p (tm_del tick (ticks p)))
      else Ok (with_ticks p (tm_set tick ts (ticks p)))
  end.

(** [a - 1] on u128 (mod.rs:216, 702, 965), overflow-checked build: panics at 0.  (In a build without
    overflow checks it wraps to 2^128-1; at lines 702 and 965 the following price lookup then panics as well.) *)
Definition pred_u128 (a : Z) : res Z := if a =? 0 then Panic else Ok (a - 1).

(** mod.rs:185-221 *)
Definition cross_tick (p : pool) (t : Z) (l2r : bool) : res pool :=
  if negb l2r && negb (glbl_tick p =? t) then Panic
  else
    match tm_get t (ticks p) with
    | None => Panic
    | Some ts =>
        let d := if l2r then t_net ts else d_neg (t_net ts) in
        let* fx := unwrap (d_sub (g_fx (gs p)) (t_fx ts)) in
        let* fy := unwrap (d_sub (g_fy (gs p)) (t_fy ts)) in
        let* hx := unwrap (d_sub (g_hx (gs p)) (t_hx ts)) in
        let* hy := unwrap (d_sub (g_hy (gs p)) (t_hy ts)) in
        let ts' := mkT (t_net ts) (t_gross ts) fx fy hx hy in
        let p := with_ticks p (tm_set t ts' (ticks p)) in
        let* nt := (if l2r then Ok t
                    else let* t1 := pred_u128 t in tick_to_possible_tick p t1 l2r) in
        add_glbl_liq (set_glbl_tick p nt) d
    end.

(** mod.rs:279-286 *)
Definition tick_keys (p : pool) (reverse : bool) : list Z :=
  let ks := map fst (ticks p) in if reverse then rev ks else ks.

(** mod.rs:223-236: first key (in the iteration order) satisfying the test *)
Definition get_left_limit (p : pool) (start_t : Z) : res (option Z) :=
  let* tick := tick_to_possible_tick p (Z.min start_t (glbl_tick p)) false in
  Ok (find (fun tk => tk <=? tick) (tick_keys p true)).

(** mod.rs:238-277 *)
Definition get_right_limit (p : pool) (start_t gtick : Z) : res (option Z) :=
  let* st := tick_to_possible_tick p start_t false in
  if st =? gtick then Ok (find (fun tk => st <? tk) (tick_keys p false))
  else if gtick <? st then Ok (find (fun tk => st <=? tk) (tick_keys p false))
  else Panic.

(** mod.rs:297-320, loop body over the snapshot of keys (descending).  [inr] = returned. *)
Fixpoint gir_left (p : pool) (ks : list Z) : res (pool * option (option Z * decimal)) :=
  match ks with
  | [] => Ok (p, None)
  | tk :: ks' =>
      if glbl_tick p <? tk then gir_left p ks'
      else
        let p := set_glbl_tick p tk in
        let* rp := tick_to_rp tk in
        let p := set_glbl_rp p rp in
        let* p := cross_tick p tk false in
        let* goal := get_left_limit p (glbl_tick p) in
        if is_negative (glbl_liq p) then Panic
        else if is_positive (glbl_liq p) then
          (if is_negative (glbl_rp p) then Panic else Ok (p, Some (goal, glbl_rp p)))
        else gir_left p ks'
  end.

(** mod.rs:321-344 *)
Fixpoint gir_right (p : pool) (ks : list Z) : res (pool * option (option Z * decimal)) :=
  match ks with
  | [] => Ok (p, None)
  | tk :: ks' =>
      if tk <=? glbl_tick p then gir_right p ks'
      else
        let p := set_glbl_tick p tk in
        let* rp := tick_to_rp tk in
        let p := set_glbl_rp p rp in
        let* p := cross_tick p tk true in
        let* goal := get_right_limit p tk tk in
        if is_negative (glbl_liq p) then Panic
        else if is_positive (glbl_liq p) then
          (if is_negative (glbl_rp p) then Panic else Ok (p, Some (goal, glbl_rp p)))
        else gir_right p ks'
  end.

(** mod.rs:288-346; result: new pool, goal tick, new root price *)
Definition try_get_in_range (p : pool) (l2r : bool) : res (pool * option Z * decimal) :=
  if is_positive (glbl_liq p) then Panic
  else
    let* (p, r) := (if l2r then gir_right p (tick_keys p false) else gir_left p (tick_keys p true)) in
    match r with
    | Some (goal, rp) => Ok (p, goal, rp)
    | None => if is_negative (glbl_rp p) then Panic else Ok (p, None, glbl_rp p)
    end.

(** mod.rs:349-372 *)
Definition fee_below_above (p : pool) (tick : Z) (k : fkind) : res (decimal * decimal) :=
  let fg := g_fee (gs p) k in
  match tm_get tick (ticks p) with
  | None => let* z := m_zero in Ok (fg, z)
  | Some ts =>
      let f0 := t_fee ts k in
      let* r := unwrap (d_sub fg f0) in
      if tick <=? glbl_tick p then Ok (f0, r) else Ok (r, f0)
  end.

(** mod.rs:374-391 *)
Definition fee_rng (p : pool) (lower upper : Z) (k : fkind) : res decimal :=
  let* (bl, al) := fee_below_above p lower k in
  let* (bu, au) := fee_below_above p upper k in
  let* sl := unwrap (d_add bl al) in
  let* su := unwrap (d_add bu au) in
  let* _ := assert (d_struct_eqb sl su) in
  let* a := unwrap (d_sub sl bl) in
  let* f := unwrap (d_sub a au) in
  if is_negative f then Panic else Ok f.

(** mod.rs:393-499; result: new pool and (fees_x, fees_y, adj_x, adj_y) *)
Definition set_position (p : pool) (user : string) (lower upper : Z) (d : decimal)
  : res (pool * (decimal * decimal * decimal * decimal)) :=
  let* nfx := fee_rng p lower upper FX in
  let* nfy := fee_rng p lower upper FY in
  let* nhx := fee_rng p lower upper HX in
  let* nhy := fee_rng p lower upper HY in
  let* z := m_zero in
  let key := (user, lower, upper) in
  let* (p, old, base) :=
    match pm_get key (positions p) with
    | None =>
        if is_negative d then Panic
        else
          let* q := pstate_new d z z z z in
          Ok (with_positions p (pm_set key q (positions p)), (z, z, z, z), z)
    | Some q =>
        let base := p_liq q in
        if is_negative base then Panic
        else
          let* nl := unwrap (d_add base d) in
          if is_negative d && is_negative nl then Panic
          else
            let old := (p_fx q, p_fy q, p_hx q, p_hy q) in
            if is_zero nl then Ok (with_positions p (pm_del key (positions p)), old, base)
            else
              let* q' := p_add_liq q d in
              Ok (with_positions p (pm_set key (mkP (p_liq q') nfx nfy nhx nhy) (positions p)), old, base)
    end in
  let '(ofx, ofy, ohx, ohy) := old in
  let* ux := unwrap (d_sub nfx ofx) in
  let* uy := unwrap (d_sub nfy ofy) in
  let* vx := unwrap (d_sub nhx ohx) in
  let* vy := unwrap (d_sub nhy ohy) in
  let* _ := assert (negb (is_negative ux)) in
  let* _ := assert (negb (is_negative uy)) in
  let* _ := assert (negb (is_negative vx)) in
  let* _ := assert (negb (is_negative vy)) in
  let* p := update_tick p lower d false in
  let* p := update_tick p upper d true in
  let* p := (if (lower <=? glbl_tick p) && (glbl_tick p <? upper) then add_glbl_liq p d else Ok p) in
  let* fx := d_mul base ux in
  let* fy := d_mul base uy in
  let* hx := d_mul base vx in
  let* hy := d_mul base vy in
  Ok (p, (fx, fy, hx, hy)).

(** [a.lt(b).unwrap() || c.lt(d).unwrap()] with Rust's short-circuit evaluation *)
Definition lt_or (a b c d : decimal) : res bool :=
  let* r1 := unwrap (d_lt a b) in
  if r1 then Ok true else unwrap (d_lt c d).

(** Amounts a deposit/withdrawal reports (mod.rs prints them); [io_x]/[io_y] are the token amounts
    moved to/from the reserves, the rest the fees and adjustments paid out. *)
Record lp_out : Type := mkLO
  { io_liq : decimal; io_x : decimal; io_y : decimal;
    io_fx : decimal; io_fy : decimal; io_hx : decimal; io_hy : decimal;
    io_netx : decimal; io_nety : decimal }.

(** mod.rs:501-584.  FLOOR_LIQ is the constant false (cl_math.rs:10), so 539-541 is dead. *)
Definition deposit (p : pool) (user : string) (x y rpa rpb : decimal) : res (pool * lp_out) :=
  let* _ := assert (negb (is_negative x)) in
  let* _ := assert (negb (is_negative y)) in
  let* _ := assert (negb (is_negative rpa)) in
  let* _ := assert (negb (is_negative rpb)) in
  let* lower := rp_to_possible_tick p rpa false 0 in
  let* upper := rp_to_possible_tick p rpb false lower in
  let* _ := assert (lower <? upper) in
  let* a := tick_to_rp lower in
  let* b := tick_to_rp upper in
  let rp := glbl_rp p in
  let* liq := liq_from_x_y_rp_rng x y rp a b in
  if is_negative liq then Panic
  else
    let* x_in := x_from_l_rp_rng liq rp a b in
    let* gx := unwrap (d_gt x_in x) in
    if gx then Panic
    else
      let* y_in := y_from_l_rp_rng liq rp a b in
      let* gy := unwrap (d_gt y_in y) in
      if gy then Panic
      else
        let* (p, fees) := set_position p user lower upper liq in
        let '(fx, fy, hx, hy) := fees in
        let* xd0 := unwrap (d_sub x_in fx) in
        let* xd := unwrap (d_sub xd0 hx) in
        let* yd0 := unwrap (d_sub y_in fy) in
        let* yd := unwrap (d_sub yd0 hy) in
        let* bad := lt_or (x_fee p) fx (y_fee p) fy in
        if bad then Panic
        else
          let* bad := lt_or (x_adj p) hx (y_adj p) hy in
          if bad then Panic
          else
            let* nx := unwrap (d_add (rx p) x_in) in
            let* ny := unwrap (d_add (ry p) y_in) in
            let* nxf := unwrap (d_sub (x_fee p) fx) in
            let* nxa := unwrap (d_sub (x_adj p) hx) in
            let* nyf := unwrap (d_sub (y_fee p) fy) in
            let* nya := unwrap (d_sub (y_adj p) hy) in
            (* arguments of the println! at 574-583 *)
            let* _ := unwrap (d_add fx hx) in
            let* _ := unwrap (d_add fy hy) in
            let* _ := unwrap (d_sub x xd) in
            let* _ := unwrap (d_sub y yd) in
            Ok (with_funds p nx ny nxa nya nxf nyf,
                mkLO liq x_in y_in fx fy hx hy xd yd).

(** mod.rs:586-649 *)
Definition withdraw (p : pool) (user : string) (liq rpa rpb : decimal) : res (pool * lp_out) :=
  let* _ := assert (negb (is_negative liq)) in
  let* lower := rp_to_possible_tick p rpa false 0 in
  let* upper := rp_to_possible_tick p rpb false lower in
  let* _ := assert (lower <? upper) in
  let* a := tick_to_rp lower in
  let* b := tick_to_rp upper in
  let* (p, fees) := set_position p user lower upper (d_neg liq) in
  let '(fx, fy, hx, hy) := fees in
  let rp := glbl_rp p in
  let* x0 := x_from_l_rp_rng liq rp a b in
  let* y0 := y_from_l_rp_rng liq rp a b in
  let* one := m_one in
  let* adj := unwrap (d_sub one ADJ_WITHDRAWAL) in
  let* x_out := d_mul x0 adj in
  let* y_out := d_mul y0 adj in
  let* xs0 := unwrap (d_add x_out fx) in
  let* xs := unwrap (d_add xs0 hx) in
  let* ys0 := unwrap (d_add y_out fy) in
  let* ys := unwrap (d_add ys0 hy) in
  let* bad := lt_or (rx p) x_out (ry p) y_out in
  if bad then Panic
  else
    let* bad := lt_or (x_fee p) fx (y_fee p) fy in
    if bad then Panic
    else
      let* bad := lt_or (x_adj p) hx (y_adj p) hy in
      if bad then Panic
      else
        let* nx := unwrap (d_sub (rx p) x_out) in
        let* ny := unwrap (d_sub (ry p) y_out) in
        let* nxf := unwrap (d_sub (x_fee p) fx) in
        let* nxa := unwrap (d_sub (x_adj p) hx) in
        let* nyf := unwrap (d_sub (y_fee p) fy) in
        let* nya := unwrap (d_sub (y_adj p) hy) in
        (* arguments of the println! at 644-648 *)
        let* _ := unwrap (d_add fx hx) in
        let* _ := unwrap (d_add fy hy) in
        Ok (with_funds p nx ny nxa nya nxf nyf,
            mkLO liq x_out y_out fx fy hx hy xs ys).

(** mod.rs:652-764 *)
Definition swap_within_x (orc : log2_oracle) (p : pool) (start_rp : decimal) (goal : Z)
    (liq dx rp_oracle : decimal) : res within :=
  if is_negative dx then Panic
  else
    let* rp_goal := tick_to_rp goal in
    let* up := unwrap (d_gt rp_goal start_rp) in
    if up then Panic
    else
      let* one := m_one in
      let* ff := unwrap (d_sub one (fee_rate p)) in
      let* dx_max := d_mul dx ff in
      let* doable := dx_from_l_drp liq start_rp rp_goal in
      if is_negative doable then Panic
      else
        let* part := unwrap (d_lt doable dx_max) in
        let* (done_dx, fee_x, cross, end_t, end_rp) :=
          (if part then
             let* q := d_div doable ff in
             let* fee := d_mul q (fee_rate p) in
             Ok (doable, fee, true, goal, rp_goal)
           else
             let* fee := unwrap (d_sub dx dx_max) in
             let* erp := rp_new_from_l_dx liq start_rp dx_max in
             let* g1 := pred_u128 goal in
             let* et := rp_to_tick_loop erp false g1 in
             let* c1 := unwrap (d_gt erp start_rp) in
             if c1 then Panic
             else
               let* c2 := unwrap (d_lt erp rp_goal) in
               if c2 then Panic
               else Ok (dx_max, fee, false, et, erp)) in
        let* dy_cpmm := dy_from_l_drp liq start_rp end_rp in
        let* plain :=
          (if is_zero (hmm_c p) || is_zero rp_oracle then Ok true
           else unwrap (d_gte rp_oracle start_rp)) in
        let* done_dy :=
          (if plain then Ok dy_cpmm
           else
             let* a := unwrap (d_lt rp_oracle start_rp) in
             let* b := (if a then unwrap (d_gte rp_oracle end_rp) else Ok false) in
             if b then
               let* d1 := dy_from_l_drp_hmm orc liq start_rp rp_oracle (hmm_c p) rp_oracle in
               let* d2 := dy_from_l_drp liq rp_oracle end_rp in
               if is_positive d1 || is_positive d2 then Panic
               else unwrap (d_add d1 d2)
             else
               let* c := unwrap (d_lt rp_oracle end_rp) in
               if c then dy_from_l_drp_hmm orc liq start_rp end_rp (hmm_c p) rp_oracle
               else Panic) in
        let* adj := unwrap (d_sub done_dy dy_cpmm) in
        if is_positive dy_cpmm then Panic
        else if is_negative adj then Panic
        else
          let* ny := unwrap (d_add (ry p) dy_cpmm) in
          if is_negative ny then Panic
          else
            let* _ :=
              (if negb (is_zero done_dx) && negb (is_zero done_dy) then
                 let* tot := unwrap (d_add done_dx fee_x) in
                 let* avg := d_div (d_neg done_dy) tot in
                 let* sq := d_pow start_rp 2 in
                 let* c := unwrap (d_gt avg sq) in
                 if c then Panic else Ok tt
               else Ok tt) in
            within_new done_dx done_dy end_t end_rp cross adj fee_x.

(** Local totals of the swap loop: (swpd_in, swpd_out, adjusted, total_fee) plus (curr_t, curr_rp). *)
Record swp : Type := mkSwp
  { s_in : decimal; s_out : decimal; s_adj : decimal; s_fee : decimal; s_t : Z; s_rp : decimal }.

(** mod.rs:806-827 / 898-911: final figures for an X-in swap *)
Definition finish_x (p : pool) (s : swp) : res (pool * swap_out) :=
  let* avg := (if is_zero (s_in s) then m_zero else d_div (d_neg (s_out s)) (s_in s)) in
  let* ep := d_pow (glbl_rp p) 2 in
  let* o := swap_out_new (s_in s) (s_out s) (s_adj s) (s_fee s) avg ep in
  Ok (p, o).

(** mod.rs:830-894: one within-step of an X-in swap, including the state update *)
Definition step_x (orc : log2_oracle) (p : pool) (s : swp) (dx rp_oracle : decimal) (gtk : Z) : res (pool * swp) :=
  let* rest := unwrap (d_sub dx (s_in s)) in
  let* w := swap_within_x orc p (s_rp s) gtk (glbl_liq p) rest rp_oracle in
  let* y1 := unwrap (d_add (ry p) (w_send w)) in
  let* new_y := unwrap (d_sub y1 (w_adj w)) in
  let* _ := assert (negb (is_negative new_y)) in
  let* c0 := unwrap (d_sub dx (s_in s)) in
  let* c1 := unwrap (d_sub c0 (w_recv w)) in
  let* check := unwrap (d_sub c1 (w_fee w)) in
  let* _ := assert (negb (is_negative check)) in
  let* i1 := unwrap (d_add (s_in s) (w_recv w)) in
  let* i2 := unwrap (d_add i1 (w_fee w)) in
  let* o2 := unwrap (d_add (s_out s) (w_send w)) in
  let* a2 := unwrap (d_add (s_adj s) (w_adj w)) in
  let* f2 := unwrap (d_add (s_fee s) (w_fee w)) in
  let p := set_glbl_rp (set_glbl_tick p (w_tick w)) (w_rp w) in
  let* nx := unwrap (d_add (rx p) (w_recv w)) in
  let* nxf := unwrap (d_add (x_fee p) (w_fee w)) in
  let* nya := unwrap (d_add (y_adj p) (w_adj w)) in
  let p := with_funds p nx new_y (x_adj p) nya nxf (y_fee p) in
  let L := glbl_liq p in
  let* p := (if is_positive L then
               let* q1 := d_div (w_fee w) L in
               let* g1 := unwrap (d_add q1 (g_fx (gs p))) in
               let* q2 := d_div (w_adj w) L in
               let* g2 := unwrap (d_add q2 (g_hy (gs p))) in
               Ok (set_fee_glbl (set_fee_glbl p FX g1) HY g2)
             else Ok p) in
  let* p := (if w_cross w then
               let* _ := assert (w_tick w =? gtk) in
               match tm_get gtk (ticks p) with
               | Some _ => cross_tick p gtk false
               | None => Ok p
               end
             else Ok p) in
  Ok (p, mkSwp i2 o2 a2 f2 (w_tick w) (w_rp w)).

(** mod.rs:788-896: the [while] loop, fuel-bounded *)
Fixpoint loop_x (orc : log2_oracle) (fuel : nat) (p : pool) (s : swp) (dx rp_oracle : decimal) : res (pool * swap_out) :=
  match fuel with
  | O => NoFuel
  | S fuel' =>
      let* more := unwrap (d_lt (s_in s) dx) in
      if negb more then finish_x p s
      else
        let* (p, goal, crp) :=
          (if is_positive (glbl_liq p) then
             let* g := get_left_limit p (s_t s) in Ok (p, g, s_rp s)
           else try_get_in_range p false) in
        match goal with
        | None => finish_x p s
        | Some gtk =>
            let* (p, s) := step_x orc p (mkSwp (s_in s) (s_out s) (s_adj s) (s_fee s) (s_t s) crp) dx rp_oracle gtk in
            loop_x orc fuel' p s dx rp_oracle
        end
  end.

(** Loop iterations are bounded by the number of active ticks plus two (theorem in the proofs). *)
Definition swap_fuel (p : pool) : nat := S (S (List.length (ticks p))).

(** mod.rs:766-912 *)
Definition execute_swap_from_x (orc : log2_oracle) (p : pool) (dx rp_oracle : decimal) : res (pool * swap_out) :=
  if negb (is_positive dx) then Panic
  else
    let* z := m_zero in
    loop_x orc (swap_fuel p) p (mkSwp z z z z (glbl_tick p) (glbl_rp p)) dx rp_oracle.

(** mod.rs:914-1028.  The guard at 1020 is transcribed as written (no [!] before [done_dy.is_zero()]). *)
Definition swap_within_y (orc : log2_oracle) (p : pool) (start_rp : decimal) (goal : Z)
    (liq dy rp_oracle : decimal) : res within :=
  if is_negative dy then Panic
  else
    let* rp_goal := tick_to_rp goal in
    let* down := unwrap (d_lt rp_goal start_rp) in
    if down then Panic
    else
      let* one := m_one in
      let* ff := unwrap (d_sub one (fee_rate p)) in
      let* dy_max := d_mul dy ff in
      let* doable := dy_from_l_drp liq start_rp rp_goal in
      if is_negative doable then Panic
      else
        let* part := unwrap (d_lt doable dy_max) in
        let* (done_dy, fee_y, cross, end_t, end_rp) :=
          (if part then
             let* q := d_div doable ff in
             let* fee := d_mul q (fee_rate p) in
             Ok (doable, fee, true, goal, rp_goal)
           else
             let* fee := unwrap (d_sub dy dy_max) in
             let* erp := rp_new_from_l_dy liq start_rp dy_max in
             let* t1 := pred_u128 (glbl_tick p) in
             let* seek := tick_to_possible_tick p t1 false in
             let* et := rp_to_tick_loop erp false seek in
             let* c1 := unwrap (d_lt erp start_rp) in
             if c1 then Panic
             else
               let* c2 := unwrap (d_gt erp rp_goal) in
               if c2 then Panic
               else Ok (dy_max, fee, false, et, erp)) in
        let* dx_cpmm := dx_from_l_drp liq start_rp end_rp in
        let* plain :=
          (if is_zero (hmm_c p) || is_zero rp_oracle then Ok true
           else unwrap (d_lte rp_oracle start_rp)) in
        let* done_dx :=
          (if plain then Ok dx_cpmm
           else
             let* a := unwrap (d_gt rp_oracle start_rp) in
             let* b := (if a then unwrap (d_lte rp_oracle end_rp) else Ok false) in
             if b then
               let* d1 := dx_from_l_drp_hmm orc liq start_rp rp_oracle (hmm_c p) rp_oracle in
               let* d2 := dx_from_l_drp liq rp_oracle end_rp in
               if is_positive d1 || is_positive d2 then Panic
               else unwrap (d_add d1 d2)
             else
               let* c := unwrap (d_gt rp_oracle end_rp) in
               if c then dx_from_l_drp_hmm orc liq start_rp end_rp (hmm_c p) rp_oracle
               else Panic) in
        let* adj := unwrap (d_sub done_dx dx_cpmm) in
        if is_positive dx_cpmm then Panic
        else if is_negative adj then Panic
        else
          let* nx := unwrap (d_add (rx p) dx_cpmm) in
          if is_negative nx then Panic
          else
            let* _ :=
              (if negb (is_zero done_dx) && is_zero done_dy then
                 let* tot := unwrap (d_add done_dy fee_y) in
                 let* avg := d_div tot done_dx in
                 let* sq := d_pow start_rp 2 in
                 let* c := unwrap (d_lt avg sq) in
                 if c then Panic else Ok tt
               else Ok tt) in
            within_new done_dy done_dx end_t end_rp cross adj fee_y.

(** mod.rs:1069-1090 / 1161-1175 *)
Definition finish_y (p : pool) (s : swp) : res (pool * swap_out) :=
  let* avg := (if is_zero (s_out s) then m_zero else d_div (s_in s) (d_neg (s_out s))) in
  let* ep := d_pow (glbl_rp p) 2 in
  let* o := swap_out_new (s_in s) (s_out s) (s_adj s) (s_fee s) avg ep in
  Ok (p, o).

(** mod.rs:1093-1157 *)
Definition step_y (orc : log2_oracle) (p : pool) (s : swp) (dy rp_oracle : decimal) (gtk : Z) : res (pool * swp) :=
  let* rest := unwrap (d_sub dy (s_in s)) in
  let* w := swap_within_y orc p (s_rp s) gtk (glbl_liq p) rest rp_oracle in
  let* x1 := unwrap (d_add (rx p) (w_send w)) in
  let* new_x := unwrap (d_sub x1 (w_adj w)) in
  let* _ := assert (negb (is_negative new_x)) in
  let* c0 := unwrap (d_sub dy (s_in s)) in
  let* c1 := unwrap (d_sub c0 (w_recv w)) in
  let* check := unwrap (d_sub c1 (w_fee w)) in
  let* _ := assert (negb (is_negative check)) in
  let* o2 := unwrap (d_add (s_out s) (w_send w)) in
  let* i1 := unwrap (d_add (s_in s) (w_recv w)) in
  let* i2 := unwrap (d_add i1 (w_fee w)) in
  let* a2 := unwrap (d_add (s_adj s) (w_adj w)) in
  let* f2 := unwrap (d_add (s_fee s) (w_fee w)) in
  let p := set_glbl_rp (set_glbl_tick p (w_tick w)) (w_rp w) in
  let* ny := unwrap (d_add (ry p) (w_recv w)) in
  let* nxa := unwrap (d_add (x_adj p) (w_adj w)) in
  let* nyf := unwrap (d_add (y_fee p) (w_fee w)) in
  let p := with_funds p new_x ny nxa (y_adj p) (x_fee p) nyf in
  let L := glbl_liq p in
  let* p := (if is_positive L then
               let* q1 := d_div (w_adj w) L in
               let* g1 := unwrap (d_add q1 (g_hx (gs p))) in
               let* q2 := d_div (w_fee w) L in
               let* g2 := unwrap (d_add q2 (g_fy (gs p))) in
               Ok (set_fee_glbl (set_fee_glbl p HX g1) FY g2)
             else Ok p) in
  let* p := (if w_cross w then
               let* _ := assert (w_tick w =? gtk) in
               match tm_get gtk (ticks p) with
               | Some _ => cross_tick p gtk true
               | None => Ok p
               end
             else Ok p) in
  Ok (p, mkSwp i2 o2 a2 f2 (w_tick w) (w_rp w)).

(** mod.rs:1051-1159 *)
Fixpoint loop_y (orc : log2_oracle) (fuel : nat) (p : pool) (s : swp) (dy rp_oracle : decimal) : res (pool * swap_out) :=
  match fuel with
  | O => NoFuel
  | S fuel' =>
      let* more := unwrap (d_lt (s_in s) dy) in
      if negb more then finish_y p s
      else
        let* (p, goal, crp) :=
          (if is_positive (glbl_liq p) then
             let* g := get_right_limit p (s_t s) (glbl_tick p) in Ok (p, g, s_rp s)
           else try_get_in_range p true) in
        match goal with
        | None => finish_y p s
        | Some gtk =>
            let* (p, s) := step_y orc p (mkSwp (s_in s) (s_out s) (s_adj s) (s_fee s) (s_t s) crp) dy rp_oracle gtk in
            loop_y orc fuel' p s dy rp_oracle
        end
  end.

(** mod.rs:1030-1176 *)
Definition execute_swap_from_y (orc : log2_oracle) (p : pool) (dy rp_oracle : decimal) : res (pool * swap_out) :=
  if negb (is_positive dy) then Panic
  else
    let* z := m_zero in
    loop_y orc (swap_fuel p) p (mkSwp z z z z (glbl_tick p) (glbl_rp p)) dy rp_oracle.

(** ** Histories of public calls.  A panicking call aborts the process; a history therefore contains only
    completed calls. *)
Inductive call : Type :=
| CDeposit (user : string) (x y rpa rpb : decimal)
| CWithdraw (user : string) (liq rpa rpb : decimal)
| CSwapX (dx rp_oracle : decimal)
| CSwapY (dy rp_oracle : decimal).

Definition run_call (orc : log2_oracle) (p : pool) (c : call) : res pool :=
  match c with
  | CDeposit u x y a b => let* (p, _) := deposit p u x y a b in Ok p
  | CWithdraw u l a b => let* (p, _) := withdraw p u l a b in Ok p
  | CSwapX dx o => let* (p, _) := execute_swap_from_x orc p dx o in Ok p
  | CSwapY dy o => let* (p, _) := execute_swap_from_y orc p dy o in Ok p
  end.

Fixpoint run_calls (orc : log2_oracle) (p : pool) (cs : list call) : res pool :=
  match cs with
  | [] => Ok p
  | c :: cs' => let* p := run_call orc p c in run_calls orc p cs'
  end.
