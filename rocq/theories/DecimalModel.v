(** Model of /repo/programs/hmmcl-sandbox/src/decimal.rs (arithmetic part).
    All line numbers refer to that file. *)
From Coq Require Import ZArith List Bool.
From Verif Require Import Base.
Import ListNotations.
Open Scope Z_scope.

(** decimal.rs:33-38.  [value : u128] and [scale : u8] are [Z]; well-formedness (0 <= value < 2^128,
    0 <= scale < 256) is a separate predicate in the specifications. *)
Record decimal : Type := mkD { dval : Z; dscale : Z; dneg : bool }.

(** decimal.rs:10 *)
Definition COMPUTE_SCALE : Z := 12.

(** decimal.rs:41-49 *)
Definition d_default : decimal := mkD 0 0 false.

(** decimal.rs:70-75, 83-89, 104-110 *)
Definition from_u64 (n : Z) : decimal := mkD n 0 false.
Definition from_u128 (n : Z) : decimal := mkD n 0 false.
Definition from_scaled_amount (n s : Z) : decimal := mkD n s false.

(** decimal.rs:78-80 *)
Definition to_u64 (d : decimal) : res Z := to_u64_chk (dval d).

(** decimal.rs:124-138 *)
Definition to_scale (d : decimal) (s : Z) : res decimal :=
  if s <? dscale d then
    let* p := pow10 (dscale d - s) in
    let* v := cdiv (dval d) p in
    Ok (mkD v s (dneg d))
  else
    let* p := pow10 (s - dscale d) in
    let* v := cmul (dval d) p in
    Ok (mkD v s (dneg d)).

(** decimal.rs:160-162 *)
Definition to_compute_scale (d : decimal) : res decimal := to_scale d COMPUTE_SCALE.

(** decimal.rs:61-67 *)
Definition d_one : res decimal := to_compute_scale (from_u64 1).
Definition d_two : res decimal := to_compute_scale (from_u64 2).

(** decimal.rs:93-95 *)
Definition d_abs (d : decimal) : res Z := let* e := to_scale d 0 in to_u64 e.

(** decimal.rs:113-115 *)
Definition to_scaled_amount (d : decimal) (s : Z) : res Z := let* e := to_scale d s in to_u64 e.

(** decimal.rs:165-167 *)
Definition denominator (d : decimal) : res Z := pow10 (dscale d).

(** decimal.rs:170-182 *)
Definition is_zero (d : decimal) : bool := dval d =? 0.
Definition is_positive (d : decimal) : bool := negb (dneg d) && negb (is_zero d).
Definition is_negative (d : decimal) : bool := dneg d && negb (is_zero d).

(** [!(a == b)] on the sign flags, decimal.rs:287 etc. *)
Definition sign_mul (a b : bool) : bool := negb (Bool.eqb a b).

(** decimal.rs:277-290.  The denominator is evaluated after the product, so an overflowing product and an
    overflowing denominator both panic; order is irrelevant. *)
Definition d_mul (a b : decimal) : res decimal :=
  let* p := cmul (dval a) (dval b) in
  let* q := denominator b in
  let* v := cdiv p q in
  Ok (mkD v (dscale a) (sign_mul (dneg a) (dneg b))).

(** decimal.rs:293-301 *)
Definition d_mul_u128 (a : decimal) (n : Z) : res decimal :=
  let* v := cmul (dval a) n in Ok (mkD v (dscale a) (dneg a)).

(** decimal.rs:305-322 *)
Definition d_mul_up (a b : decimal) : res decimal :=
  let* q := denominator b in
  let* p := cmul (dval a) (dval b) in
  let* q1 := csub q 1 in
  let* s := cadd p q1 in
  let* v := cdiv s q in
  Ok (mkD v (dscale a) (sign_mul (dneg a) (dneg b))).

(** decimal.rs:325-368 *)
Definition d_add (a b : decimal) : res decimal :=
  if negb (dscale a =? dscale b) then Err DifferentScale
  else if Bool.eqb (dneg a) (dneg b) then
    let* v := cadd (dval a) (dval b) in Ok (mkD v (dscale a) (dneg a))
  else if dval b <? dval a then
    let* v := csub (dval a) (dval b) in Ok (mkD v (dscale a) (dneg a))
  else if dval a <? dval b then
    let* v := csub (dval b) (dval a) in Ok (mkD v (dscale a) (dneg b))
  else Ok (mkD 0 (dscale a) false).

(** decimal.rs:371-381 *)
Definition d_sub (a b : decimal) : res decimal :=
  d_add a (mkD (dval b) (dscale b) (negb (dneg b))).

(** decimal.rs:384-397 *)
Definition d_div (a b : decimal) : res decimal :=
  let* q := denominator b in
  let* p := cmul (dval a) q in
  let* v := cdiv p (dval b) in
  Ok (mkD v (dscale a) (sign_mul (dneg a) (dneg b))).

(** decimal.rs:401-416 *)
Definition d_div_up (a b : decimal) : res decimal :=
  let* q := denominator b in
  let* p := cmul (dval a) q in
  let* b1 := csub (dval b) 1 in
  let* s := cadd p b1 in
  let* v := cdiv s (dval b) in
  Ok (mkD v (dscale a) (sign_mul (dneg a) (dneg b))).

(** decimal.rs:142-157 *)
Definition to_scale_up (d : decimal) (s : Z) : res decimal :=
  let d' := mkD (dval d) s (dneg d) in
  if s <=? dscale d then
    let* p := pow10 (dscale d - s) in
    d_div_up d' (mkD p 0 (dneg d))
  else
    let* p := pow10 (s - dscale d) in
    d_mul_up d' (mkD p 0 (dneg d)).

(** decimal.rs:99-101, 119-121 *)
Definition d_abs_up (d : decimal) : res Z := let* e := to_scale_up d 0 in to_u64 e.
Definition to_scaled_amount_up (d : decimal) (s : Z) : res Z := let* e := to_scale_up d s in to_u64 e.

(** decimal.rs:420-448 *)
Definition d_div_to_scale (a b : decimal) (s : Z) : res decimal :=
  let diff := dscale a - s - dscale b in
  let* v :=
    (if 0 <? diff then
       let* q := cdiv (dval a) (dval b) in
       let* p := pow10 diff in
       cdiv q p
     else
       let* p := pow10 (- diff) in
       let* n := cmul (dval a) p in
       cdiv n (dval b)) in
  Ok (mkD v s (sign_mul (dneg a) (dneg b))).

(** decimal.rs:185-189 *)
Definition is_integer (d : decimal) : res bool :=
  let* z := to_scale d 0 in
  let* z' := to_scale z (dscale d) in
  let* r := unwrap (d_sub d z') in
  Ok (is_zero r).

(** decimal.rs:564-657 *)
Definition d_eq (a b : decimal) : res bool :=
  if negb (dscale a =? dscale b) then Err DifferentScale
  else Ok ((dval a =? dval b) && Bool.eqb (dneg a) (dneg b)).

Definition d_lt (a b : decimal) : res bool :=
  if negb (dscale a =? dscale b) then Err DifferentScale
  else Ok (if dneg a && dneg b then dval b <? dval a
           else if dneg a && negb (dneg b) then true
           else if negb (dneg a) && dneg b then false
           else dval a <? dval b).

Definition d_gt (a b : decimal) : res bool :=
  if negb (dscale a =? dscale b) then Err DifferentScale
  else Ok (if dneg a && dneg b then dval a <? dval b
           else if dneg a && negb (dneg b) then false
           else if negb (dneg a) && dneg b then true
           else dval b <? dval a).

Definition d_gte (a b : decimal) : res bool :=
  if negb (dscale a =? dscale b) then Err DifferentScale
  else Ok (if dneg a && dneg b then dval a <=? dval b
           else if dneg a && negb (dneg b) then false
           else if negb (dneg a) && dneg b then true
           else dval b <=? dval a).

Definition d_lte (a b : decimal) : res bool :=
  if negb (dscale a =? dscale b) then Err DifferentScale
  else Ok (if dneg a && dneg b then dval b <=? dval a
           else if dneg a && negb (dneg b) then true
           else if negb (dneg a) && dneg b then false
           else dval a <=? dval b).

Definition d_min (a b : decimal) : res decimal :=
  let* c := unwrap (d_lte a b) in Ok (if c then a else b).

Definition d_max (a b : decimal) : res decimal :=
  let* c := unwrap (d_gte a b) in Ok (if c then a else b).

(** decimal.rs:659-679 *)
Definition d_neg (d : decimal) : decimal :=
  if is_negative d then mkD (dval d) (dscale d) false
  else if is_positive d then mkD (dval d) (dscale d) true
  else d.

(** Derived [PartialEq] on the struct (decimal.rs:33), used by [assert_eq!] in cl_pool and manage_fee. *)
Definition d_struct_eqb (a b : decimal) : bool :=
  (dval a =? dval b) && (dscale a =? dscale b) && Bool.eqb (dneg a) (dneg b).

(** decimal.rs:526-537 ([Into<u64>], [Into<u128>]) *)
Definition into_u64 (d : decimal) : res Z := to_u64_chk (dval d).
Definition into_u128 (d : decimal) : res Z := Ok (dval d).

(** [v as i32] for a u128 [v]: keep the low 32 bits, two's complement. *)
Definition wrap_i32 (v : Z) : Z :=
  let m := v mod 2 ^ 32 in if m <? 2 ^ 31 then m else m - 2 ^ 32.

(** decimal.rs:554-561.  [checked_mul(-1)] overflows exactly for i32::MIN. *)
Definition into_i32 (d : decimal) : res Z :=
  let v := wrap_i32 (dval d) in
  if dneg d then (if v =? - 2 ^ 31 then Panic else Ok (- v)) else Ok v.

(** decimal.rs:498-523.  The [while current_exp > 0] loop consumes the exponent's bits from the
    least significant one; it is structural recursion on the binary representation.  The loop squares the
    base after every bit, including the last. *)
Fixpoint pow_loop (e : positive) (base result : decimal) : res decimal :=
  match e with
  | xH =>
      let* r := d_mul result base in
      let* _ := d_mul base base in
      Ok r
  | xO e' =>
      let* b := d_mul base base in
      pow_loop e' b result
  | xI e' =>
      let* r := d_mul result base in
      let* b := d_mul base base in
      pow_loop e' b r
  end.

Definition d_pow (d : decimal) (exp : Z) : res decimal :=
  let* den := denominator d in
  let one := mkD den (dscale d) (dneg d) in
  match exp with
  | Zpos e => pow_loop e d one
  | _ => Ok one
  end.

(** decimal.rs:1013-1015: [128 - leading_zeros(n)] *)
Definition bits_u128 (n : Z) : Z := if n =? 0 then 0 else Z.log2 n + 1.

(** decimal.rs:1026-1040: Newton iteration; state is (y, y_0). *)
Definition sqrt_step (n : Z) (s : Z * Z) : (Z * Z) + res Z :=
  let '(y, y0) := s in
  if (y0 <? y) && (1 <? y - y0) then
    match (let* t := cdiv n y in cadd y t) with
    | Ok s => inl (s / 2, y)
    | _ => inr Panic
    end
  else if (y <? y0) && (1 <? y0 - y) then
    match (let* t := cdiv n y in cadd y t) with
    | Ok s => inl (s / 2, y)
    | _ => inr Panic
    end
  else inr (Ok y).

(** decimal.rs:995-1048.  The range check at 1000-1002 can never fire on a u128 and is omitted. *)
Definition d_sqrt (d : decimal) : res decimal :=
  let zero := mkD 0 (dscale d) false in
  let* one := to_scale (from_u128 1) (dscale d) in
  let* e0 := unwrap (d_eq d zero) in
  let* e1 := (if e0 then Ok true else unwrap (d_eq d one)) in
  if e1 then Ok d
  else
    let* den := denominator d in
    let n := dval d * den in
    if negb (n <? U128) then Err ExceedsPrecisionRange
    else
      let mid := bits_u128 n / 2 in
      let* y := cdiv n (2 ^ mid) in
      let* r := loop2 130 (sqrt_step n) (y, 0) in
      Ok (mkD r (dscale d) (dneg d)).

(** decimal.rs:451-495, everything except the last-but-one arm (negative non-integer exponent), which recurses once. *)
Definition d_pow_dec_nonneg (fallback : decimal -> res decimal) (d exp : decimal) : res decimal :=
  let s := dscale d in
  let* one := to_scale (from_u64 1) s in
  let* four := to_scale (from_u64 4) s in
  let* two := to_scale (from_u64 2) s in
  let* five := to_scale (from_u64 5) s in
  let* three := to_scale (from_u64 3) s in
  let* p25 := d_div one four in
  let* p5 := d_div one two in
  let* p125 := d_div five four in
  let* p15 := d_div three two in
  if is_zero exp then Ok one else
  let* c := unwrap (d_eq exp p25) in
  if c then let* r := unwrap (d_sqrt d) in unwrap (d_sqrt r) else
  let* c := unwrap (d_eq exp p5) in
  if c then unwrap (d_sqrt d) else
  let* c := unwrap (d_eq exp one) in
  if c then Ok d else
  let* c := unwrap (d_eq exp p125) in
  if c then let* r := unwrap (d_sqrt d) in let* r2 := unwrap (d_sqrt r) in d_mul d r2 else
  let* c := unwrap (d_eq exp p15) in
  if c then let* r := unwrap (d_sqrt d) in d_mul d r else
  let* i := is_integer exp in
  if i && is_positive exp then let* n := d_abs exp in d_pow d n else
  if i && is_negative exp then
    let* n := d_abs exp in let* r := d_pow d n in d_div one r else
  if is_negative exp then
    let* r := fallback (mkD (dval exp) (dscale exp) false) in d_div one r
  else Panic.

Definition d_pow_dec (d exp : decimal) : res decimal :=
  d_pow_dec_nonneg (fun e => d_pow_dec_nonneg (fun _ => Panic) d e) d exp.

(** decimal.rs:734-865 *)
Definition log_table_data : list (list Z) :=
  [ [95310179804; 9950330853; 999500333; 99995000; 9999950; 999999; 99999; 9999; 1000; 100; 10; 1];
    [182321556793; 19802627296; 1998002662; 199980002; 19999800; 1999998; 199999; 19999; 1999; 200; 20; 1];
    [262364264467; 29558802241; 2995508979; 299955008; 29999550; 2999995; 299999; 29999; 3000; 300; 30; 3];
    [336472236621; 39220713153; 3992021269; 399920021; 39999200; 3999991; 399999; 39999; 4000; 400; 40; 3];
    [405465108108; 48790164169; 4987541511; 499875041; 49998750; 4999987; 499999; 49999; 4999; 500; 50; 5];
    [470003629245; 58268908123; 5982071677; 599820071; 59998200; 5999982; 599999; 59999; 6000; 600; 60; 6];
    [530628251062; 67658648473; 6975613736; 699755114; 69997550; 6999975; 699999; 69999; 6999; 700; 70; 6];
    [587786664902; 76961041136; 7968169649; 799680170; 79996800; 7999968; 799999; 79999; 7999; 800; 80; 8];
    [641853886172; 86177696241; 8959741371; 899595242; 89995950; 8999959; 899999; 89999; 9000; 900; 90; 8] ].

Definition log_table (row col : Z) : Z :=
  nth (Z.to_nat col) (nth (Z.to_nat row) log_table_data []) 0.

(** decimal.rs:869-900.  [row] is [usize] (64 bit): [Into<usize>] panics above 2^64 (decimal.rs:540-544). *)
Definition log_table_value (s_value t_value : decimal) (col : Z) : res (decimal * decimal * Z) :=
  let* s := d_div s_value t_value in
  let* place := pow10 (col + 1) in
  let f := mkD place (dscale s) false in
  let* m := d_mul s f in
  let* t := d_div m f in
  let* m2 := d_mul t f in
  let* r := unwrap (d_sub m2 f) in
  let* row := to_u64_chk (dval r) in
  let lx :=
    if row =? 0 then 0
    else if (row - 1 <? 9) && (col <? 12) then log_table (row - 1) col else 0 in
  Ok (s, t, lx).

(** The f64 computation of decimal.rs:912-919 as an oracle: from (value, scale) to
    (integer part of [|log2 x| * 10^scale], [is_sign_negative(log2 x)]). *)
Definition log2_oracle : Type := Z -> Z -> Z * bool.

(** The float-to-integer cast [as u128] of decimal.rs:918 saturates. *)
Definition sat_u128 (v : Z) : Z := Z.max 0 (Z.min v (U128 - 1)).

(** decimal.rs:904-930, with the f64 part given by [orc]. *)
Definition bit_length (orc : log2_oracle) (d : decimal) : res decimal :=
  if is_negative d then Err SignedDecimalsNotSupported
  else if is_zero d then Ok (from_u64 0)
  else
    let '(v, neg) := orc (dval d) (dscale d) in
    let x := mkD (sat_u128 v) (dscale d) neg in
    let* z := (if neg then to_scale_up x 0 else to_scale x 0) in
    Ok (mkD (dval z) 0 neg).

(** decimal.rs:934-991.  The ten [log_table_value] calls are a recursion over the columns 0..9. *)
Fixpoint ln_cols (n : nat) (col : Z) (s t : decimal) (acc : Z) : res Z :=
  match n with
  | O => Ok acc
  | S n' =>
      let* (s', t', lx) := log_table_value s t col in
      let* acc' := cadd acc lx in
      ln_cols n' (col + 1) s' t' acc'
  end.

Definition d_ln (orc : log2_oracle) (d : decimal) : res decimal :=
  if is_negative d then Err SignedDecimalsNotSupported
  else
    let* scaled := to_compute_scale d in
    let ln2 := mkD 693147180559 12 false in
    let* bl := unwrap (bit_length orc d) in
    let* two := to_scale (from_u64 2) 6 in
    let* bl6 := to_scale bl 6 in
    let* m6 := d_pow_dec two bl6 in
    let* m := to_compute_scale m6 in
    let* lx := ln_cols 10 0 scaled m 0 in
    let lxd := mkD lx 12 (dneg scaled) in
    let* p := d_mul ln2 bl in
    let* s := unwrap (d_add p lxd) in
    to_scale s (dscale d).
