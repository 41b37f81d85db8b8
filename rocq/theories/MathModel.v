(** Model of /repo/programs/hmmcl-sandbox/src/cl_pool/cl_math.rs (trait PoolMath).
    All line numbers refer to that file. *)
From Coq Require Import ZArith List Bool.
From Verif Require Import Base DecimalModel.
Import ListNotations.
Open Scope Z_scope.

(** cl_math.rs:12-16 *)
Definition ADJ_WITHDRAWAL : decimal := mkD 1 COMPUTE_SCALE false.

(** cl_math.rs:18-26 *)
Definition m_zero : res decimal := to_compute_scale d_default.
Definition m_one : res decimal := let* o := d_one in to_compute_scale o.
Definition m_two : res decimal := let* o := d_two in to_compute_scale o.

(** cl_math.rs:28-34 *)
Definition tick_base : res decimal := to_compute_scale (mkD 10001 4 false).
Definition tick_base_root : res decimal := let* b := tick_base in unwrap (d_sqrt b).

(** cl_math.rs:36-38 *)
Definition tick_to_rp (tick : Z) : res decimal := let* m := tick_base_root in d_pow m tick.

(** cl_math.rs:40-47 *)
Definition rp_to_tick (orc : log2_oracle) (rp : decimal) (left_to_right : bool) : res Z :=
  let* base := tick_base_root in
  let* lr := unwrap (d_ln orc rp) in
  let* lb := unwrap (d_ln orc base) in
  let* t := (if left_to_right then d_div_up lr lb else d_div lr lb) in
  let* z := to_scale t 0 in
  Ok (dval z).

(** cl_math.rs:53-62, one loop iteration; state is (rez, x). *)
Definition rtl_step (m rp : decimal) (l2r : bool) (s : decimal * Z) : (decimal * Z) + res Z :=
  let '(rez, x) := s in
  match d_mul rez m with
  | Ok rez' =>
      match unwrap (d_gte rez' rp) with
      | Ok true => inr (if l2r then cadd x 1 else Ok x)
      | Ok false => match cadd x 1 with Ok x' => inl (rez', x') | _ => inr Panic end
      | _ => inr Panic
      end
  | _ => inr Panic
  end.

(** cl_math.rs:49-64 *)
Definition rp_to_tick_loop (rp : decimal) (l2r : bool) (start : Z) : res Z :=
  let* m := tick_base_root in
  let* rez := d_pow m start in
  loop2 129 (rtl_step m rp l2r) (rez, start).

(** cl_math.rs:66-77 *)
Definition tk_to_possible_tk (tick spacing : Z) (l2r : bool) : res Z :=
  let ts := from_u128 spacing in
  let tk := from_u128 tick in
  let* q := (if l2r then d_div_up tk ts else d_div tk ts) in
  let* r := d_mul q ts in
  into_u128 r.

(** cl_math.rs:79-83 *)
Definition rp_to_possible_tk (rp : decimal) (spacing : Z) (l2r : bool) (start : Z) : res Z :=
  let* t := rp_to_tick_loop rp l2r start in
  tk_to_possible_tk t spacing l2r.

(** cl_math.rs:85-96 *)
Definition liq_x_only (x rpa rpb : decimal) : res decimal :=
  let* w := unwrap (d_sub rpb rpa) in
  if is_negative w || is_zero w then Panic
  else
    let* a := d_mul x rpa in
    let* b := d_mul a rpb in
    d_div b w.

(** cl_math.rs:98-108 *)
Definition liq_y_only (y rpa rpb : decimal) : res decimal :=
  let* w := unwrap (d_sub rpb rpa) in
  if is_negative w || is_zero w then Panic
  else d_div y w.

(** cl_math.rs:110-134 *)
Definition liq_from_x_y_rp_rng (x y rp rpa rpb : decimal) : res decimal :=
  let* c1 := unwrap (d_lte rp rpa) in
  if c1 then liq_x_only x rpa rpb
  else
    let* c2 := unwrap (d_lt rp rpb) in
    if c2 then
      let* lx := liq_x_only x rp rpb in
      let* ly := liq_y_only y rpa rp in
      d_min lx ly
    else liq_y_only y rpa rpb.

(** cl_math.rs:136-142 *)
Definition liq_from_x_y_tick_rng (x y : decimal) (t ta tb : Z) : res decimal :=
  let* rp := tick_to_rp t in
  let* rpa := tick_to_rp ta in
  let* rpb := tick_to_rp tb in
  liq_from_x_y_rp_rng x y rp rpa rpb.

(** [rp.min(rpb).max(rpa)], cl_math.rs:150 and 170 *)
Definition clamp_rp (rp rpa rpb : decimal) : res decimal :=
  let* a := d_min rp rpb in d_max a rpa.

(** cl_math.rs:144-157 *)
Definition x_from_l_rp_rng (l rp rpa rpb : decimal) : res decimal :=
  if is_zero rp || is_zero rpb || is_zero rpa then Panic
  else
    let* rp := clamp_rp rp rpa rpb in
    let* w := unwrap (d_sub rpb rp) in
    let* m := d_mul rp rpb in
    let* n := d_mul l w in
    d_div n m.

(** cl_math.rs:159-165 *)
Definition x_from_l_tick_rng (l : decimal) (t ta tb : Z) : res decimal :=
  let* rp := tick_to_rp t in
  let* rpa := tick_to_rp ta in
  let* rpb := tick_to_rp tb in
  x_from_l_rp_rng l rp rpa rpb.

(** cl_math.rs:167-178 *)
Definition y_from_l_rp_rng (l rp rpa rpb : decimal) : res decimal :=
  let* rp := clamp_rp rp rpa rpb in
  let* w := unwrap (d_sub rp rpa) in
  if is_negative w then Panic else d_mul l w.

(** cl_math.rs:180-186 *)
Definition y_from_l_tick_rng (l : decimal) (t ta tb : Z) : res decimal :=
  let* rp := tick_to_rp t in
  let* rpa := tick_to_rp ta in
  let* rpb := tick_to_rp tb in
  y_from_l_rp_rng l rp rpa rpb.

(** cl_math.rs:188-200 *)
Definition rpa_from_l_rp_y (l rp y : decimal) : res decimal :=
  if is_zero l then Panic
  else
    let* q := d_div y l in
    let* r := unwrap (d_sub rp q) in
    if is_negative r then Panic else Ok r.

(** cl_math.rs:202-216 *)
Definition rpb_from_l_rp_x (l rp x : decimal) : res decimal :=
  let* a := d_mul rp x in
  let* den := unwrap (d_sub l a) in
  if is_zero den then Panic
  else
    let* n := d_mul l rp in
    let* r := d_div n den in
    if is_negative r then Panic else Ok r.

(** cl_math.rs:218-236 *)
Definition rpa_from_x_y_rp_rpb (x y rp rpb : decimal) : res decimal :=
  let* bx := d_mul rpb x in
  if is_zero bx then Panic
  else
    let* t1 := d_div y bx in
    let* px := d_mul rp x in
    let* t2 := d_div y px in
    let* s := unwrap (d_add t1 rp) in
    let* r := unwrap (d_sub s t2) in
    if is_negative r then Panic else Ok r.

(** cl_math.rs:238-253 *)
Definition rpb_from_x_y_rp_rpa (x y rp rpa : decimal) : res decimal :=
  let* n := d_mul rp y in
  let* w := unwrap (d_sub rp rpa) in
  if is_negative w then Panic
  else
    let* a := d_mul w rp in
    let* d1 := d_mul a x in
    let* den := unwrap (d_sub y d1) in
    if is_negative den || is_zero den then Panic
    else d_div n den.

(** cl_math.rs:255-267 *)
Definition dx_from_l_drp (l rp_old rp_new : decimal) : res decimal :=
  if is_zero rp_old || is_zero rp_new then Panic
  else
    let* diff := unwrap (d_sub rp_old rp_new) in
    let* m := d_mul rp_old rp_new in
    let* n := d_mul l diff in
    d_div n m.

(** cl_math.rs:269-273 *)
Definition dy_from_l_drp (l rp_old rp_new : decimal) : res decimal :=
  let* w := unwrap (d_sub rp_new rp_old) in
  d_mul w l.

(** cl_math.rs:275-314 *)
Definition dx_from_l_drp_hmm (orc : log2_oracle) (l rp_old rp_new c rp_oracle : decimal) : res decimal :=
  let* one := m_one in
  let* c12 := to_compute_scale c in
  let* lt1 := unwrap (d_lt c12 one) in
  if lt1 then Panic
  else
    let* same := unwrap (d_eq rp_old rp_new) in
    if same then m_zero
    else
      let* is1 := unwrap (d_eq c12 one) in
      if is1 then
        let* lo := unwrap (d_ln orc rp_old) in
        let* ln := unwrap (d_ln orc rp_new) in
        let* lr := unwrap (d_sub lo ln) in
        if is_zero rp_oracle then Panic
        else let* q := d_div l rp_oracle in d_mul q lr
      else
        let* cmo := unwrap (d_sub c one) in
        let omc := d_neg cmo in
        let* opc := d_pow_dec rp_oracle c in
        let* np := d_pow_dec rp_new cmo in
        let* op := d_pow_dec rp_old cmo in
        let* diff := unwrap (d_sub np op) in
        let* q := d_div l opc in
        let* r := d_mul q diff in
        d_div r omc.

(** cl_math.rs:316-358 *)
Definition dy_from_l_drp_hmm (orc : log2_oracle) (l rp_old rp_new c rp_oracle : decimal) : res decimal :=
  let* one := m_one in
  let* c12 := to_compute_scale c in
  let* lt1 := unwrap (d_lt c12 one) in
  if lt1 then Panic
  else
    let* same := unwrap (d_eq rp_old rp_new) in
    if same then m_zero
    else if is_zero rp_old || is_zero rp_new then Panic
    else
      let* is1 := unwrap (d_eq c12 one) in
      if is1 then
        let* lo := unwrap (d_ln orc rp_old) in
        let* ln := unwrap (d_ln orc rp_new) in
        let* lr := unwrap (d_sub lo ln) in
        let* q := d_mul l rp_oracle in
        d_mul q lr
      else
        let* cmo := unwrap (d_sub c one) in
        let omc := d_neg cmo in
        let* opc := d_pow_dec rp_oracle c in
        let* np := d_pow_dec rp_new cmo in
        let* op := d_pow_dec rp_old cmo in
        let* inp := d_div one np in
        let* iop := d_div one op in
        let* diff := unwrap (d_sub inp iop) in
        let* q := d_mul l opc in
        let* r := d_mul q diff in
        d_div r omc.

(** cl_math.rs:360-376 *)
Definition rp_new_from_l_dx (l rp_old dx : decimal) : res decimal :=
  let* n := d_mul l rp_old in
  let* a := d_mul dx rp_old in
  let* den := unwrap (d_add a l) in
  if is_zero den then Panic
  else
    let* r := d_div n den in
    if is_negative r then Panic else Ok r.

(** cl_math.rs:378-389 *)
Definition rp_new_from_l_dy (l rp_old dy : decimal) : res decimal :=
  if is_zero l then Panic
  else
    let* q := d_div dy l in
    let* r := unwrap (d_add q rp_old) in
    if is_negative r then Panic else Ok r.
