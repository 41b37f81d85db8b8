(** What a decimal means, and the rounding relations used in the claims.  Nothing here uses the model's functions;
    only the record type [decimal] is shared. *)
From Coq Require Import ZArith QArith Qabs.
From Verif Require Import Base DecimalModel.
Open Scope Z_scope.

(** A Rust value of type [Decimal]: u128 magnitude and u8 scale. *)
Definition wf (d : decimal) : Prop := 0 <= dval d < 2 ^ 128 /\ 0 <= dscale d <= 255.

(** Signed mantissa and rational number denoted by a decimal. *)
Definition mant (d : decimal) : Z := if dneg d then - dval d else dval d.
Definition num (d : decimal) : Q := (inject_Z (mant d) / inject_Z (10 ^ dscale d))%Q.

(** One unit in the last place at scale [s]. *)
Definition ulp (s : Z) : Q := (1 / inject_Z (10 ^ s))%Q.

(** No negative zero. *)
Definition canonical (d : decimal) : Prop := dneg d = true -> dval d <> 0.

Definition same_sign (r e : Q) : Prop := (0 <= r * e)%Q.

(** [r] is the exact number [e] truncated towards zero at scale [s]: error below one unit, never beyond [e]. *)
Definition truncated (s : Z) (r e : Q) : Prop :=
  (Qabs r <= Qabs e)%Q /\ (Qabs e < Qabs r + ulp s)%Q /\ same_sign r e.

(** [r] is the exact number [e] rounded away from zero at scale [s]. *)
Definition rounded_away (s : Z) (r e : Q) : Prop :=
  (Qabs e <= Qabs r)%Q /\ (Qabs r < Qabs e + ulp s)%Q /\ same_sign r e.

(** Same, for operations that are specified on magnitudes only. *)
Definition ceil_mag (s : Z) (r e : Q) : Prop :=
  (Qabs e <= Qabs r)%Q /\ (Qabs r < Qabs e + ulp s)%Q.

(** "The computation never fails to terminate and never returns an error value." *)
Definition returns_or_panics {A} (m : res A) (ok : A -> Prop) (panics : Prop) : Prop :=
  match m with
  | Ok a => ok a
  | Panic => panics
  | Err _ => False
  | NoFuel => False
  end.
