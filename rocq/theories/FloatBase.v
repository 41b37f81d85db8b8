(** IEEE 754 binary64 ("f64") as used by /repo/programs/hmmcl-sandbox/src/cl_pool_float: the operations are those of the standard
    library's [Coq.Floats.SpecFloat] at precision 53 and maximal exponent 1024 (round to nearest, ties to even), which is what Rust's
    [+ - * / sqrt] and comparisons on f64 do.  A number is a [spec_float]; [f64_ok] says that it is one of the f64 values. *)
From Coq Require Import ZArith Bool Floats.SpecFloat.
Open Scope Z_scope.

Definition f64 : Type := spec_float.
Definition f64_ok (x : f64) : Prop := valid_binary 53 1024 x = true.
Definition fadd (a b : f64) : f64 := SFadd 53 1024 a b.
Definition fsub (a b : f64) : f64 := SFsub 53 1024 a b.
Definition fmul (a b : f64) : f64 := SFmul 53 1024 a b.
Definition fdiv (a b : f64) : f64 := SFdiv 53 1024 a b.
Definition fsqrt (a : f64) : f64 := SFsqrt 53 1024 a.
Definition fneg (a : f64) : f64 := SFopp a.
(** [<], [<=], [==]: false when an operand is NaN *)
Definition flt (a b : f64) : bool := SFltb a b.
Definition fle (a b : f64) : bool := SFleb a b.
Definition feq (a b : f64) : bool := SFeqb a b.
Definition f_zero : f64 := S754_zero false.
Definition f_one : f64 := S754_finite false 4503599627370496 (-52).
(** An integer as f64 (exact below 2^53; [as f64] on u32) *)
Definition f_int (z : Z) : f64 := binary_normalize 53 1024 z 0 false.
(** [f64::floor], [f64::ceil] *)
Definition ffloor (x : f64) : f64 :=
  match x with
  | S754_finite s m e =>
      if 0 <=? e then x
      else let q := Z.shiftr (cond_Zopp s (Zpos m)) (- e) in
           if q =? 0 then S754_zero s else f_int q
  | _ => x
  end.
Definition fceil (x : f64) : f64 := fneg (ffloor (fneg x)).
(** [as u32]: truncates, saturates, NaN becomes 0 *)
Definition f_to_u32 (x : f64) : Z :=
  match x with
  | S754_finite false m e =>
      Z.min (2 ^ 32 - 1) (if 0 <=? e then Z.shiftl (Zpos m) e else Z.shiftr (Zpos m) (- e))
  | S754_infinity false => 2 ^ 32 - 1
  | _ => 0
  end.
Definition f_is_nan (x : f64) : bool := match x with S754_nan => true | _ => false end.
Definition f_finite (x : f64) : bool := match x with S754_zero _ | S754_finite _ _ _ => true | _ => false end.
(** [f64::min], [f64::max]: the other operand if one is NaN.  (For two zeros of different sign Rust may return either.) *)
Definition fmin (a b : f64) : f64 := if flt b a then b else if f_is_nan a then b else a.
Definition fmax (a b : f64) : f64 := if flt a b then b else if f_is_nan a then b else a.
(** [powi(2)] *)
Definition fsquare (x : f64) : f64 := fmul x x.
(** The functions of the platform's mathematical library that IEEE 754 leaves open: parameters of the model. *)
Record libm : Type := mkLibm { m_ln : f64 -> f64; m_powf : f64 -> f64 -> f64 }.
(** [log(base)] is [ln(self) / ln(base)] in Rust's standard library *)
Definition flog (lm : libm) (x base : f64) : f64 := fdiv (m_ln lm x) (m_ln lm base).
