(** Numerals as texts, used to state the printing/parsing claims.  Independent of the model's parser. *)
From Coq Require Import ZArith QArith List Bool Ascii String.
Import ListNotations.
Open Scope Z_scope.

Definition is_digit (z : Z) : Prop := 0 <= z <= 9.
Definition digit_text (z : Z) : ascii :=
  match z with
  | 0 => "0" | 1 => "1" | 2 => "2" | 3 => "3" | 4 => "4"
  | 5 => "5" | 6 => "6" | 7 => "7" | 8 => "8" | _ => "9"
  end%char.

(** Text and value of a digit sequence, most significant first. *)
Fixpoint dtext (ds : list Z) : string :=
  match ds with [] => EmptyString | d :: r => String (digit_text d) (dtext r) end.
Fixpoint dvalue (ds : list Z) : Z :=
  match ds with [] => 0 | d :: r => d * 10 ^ Z.of_nat (List.length r) + dvalue r end.

Definition sign_text (neg : bool) : string := if neg then "-"%string else EmptyString.

(** [-]lead[.trail] : the point is written iff [point]; then [trail] follows. *)
Definition plain_text (neg : bool) (lead : list Z) (point : bool) (trail : list Z) : string :=
  (sign_text neg ++ dtext lead ++ (if point then "." ++ dtext trail else EmptyString))%string.

(** The number written as [-]lead.trail * 10^e *)
Definition written (neg : bool) (lead trail : list Z) (e : Z) : Q :=
  (inject_Z (if neg then - dvalue (lead ++ trail) else dvalue (lead ++ trail))
   * (if 0 <=? e - Z.of_nat (List.length trail) then inject_Z (10 ^ (e - Z.of_nat (List.length trail)))
      else 1 / inject_Z (10 ^ (Z.of_nat (List.length trail) - e))))%Q.

(** Exponent sign: none, plus or minus. *)
Inductive esign : Type := ENone | EPlus | EMinus.
Definition esign_text (s : esign) : string :=
  match s with ENone => EmptyString | EPlus => "+" | EMinus => "-" end.
Definition evalue (s : esign) (ds : list Z) : Z := match s with EMinus => - dvalue ds | _ => dvalue ds end.
Definition sci_text (neg : bool) (lead : list Z) (point : bool) (trail : list Z) (cap : bool) (s : esign) (ds : list Z) : string :=
  (plain_text neg lead point trail ++ (if cap then "E" else "e") ++ esign_text s ++ dtext ds)%string.
