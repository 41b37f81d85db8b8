(** Model of printing and parsing in /repo/programs/hmmcl-sandbox/src/decimal.rs
    (Display 690-718, FromStr 682-688, from_str_radix 196-273).  Strings are byte strings. *)
From Coq Require Import ZArith List Bool Ascii String.
From Verif Require Import Base DecimalModel.
Import ListNotations.
Open Scope Z_scope.

Definition I64_MAX : Z := 2 ^ 63 - 1.

Definition digit_char (d : Z) : ascii := ascii_of_N (Z.to_N (48 + d)).

(** Decimal value of an ASCII digit ([char::to_digit(10)]). *)
Definition char_digit (c : ascii) : option Z :=
  let v := Z.of_N (N_of_ascii c) - 48 in
  if (0 <=? v) && (v <=? 9) then Some v else None.

(** [u128::to_string] (core library): most significant digit first, no leading zeros, "0" for zero.
    40 steps suffice for a u128 (2^128 < 10^39). *)
Fixpoint digits_aux (fuel : nat) (n : Z) (acc : string) : string :=
  match fuel with
  | O => acc
  | S f =>
      let acc' := String (digit_char (n mod 10)) acc in
      if n / 10 =? 0 then acc' else digits_aux f (n / 10) acc'
  end.
Definition u128_to_string (n : Z) : string := digits_aux 40 n EmptyString.

Fixpoint repeat_char (c : ascii) (n : nat) : string :=
  match n with O => EmptyString | S n' => String c (repeat_char c n') end.

(** [String::insert(n, '.')] *)
Fixpoint insert_at (n : nat) (c : ascii) (s : string) : string :=
  match n with
  | O => String c s
  | S n' => match s with
            | EmptyString => String c EmptyString
            | String a s' => String a (insert_at n' c s')
            end
  end.

(** decimal.rs:690-718.  [value.to_string()] is never empty, so the arm at 711-714 is dead.
    [pad_integral] without format flags only prepends "-" for negatives. *)
Definition d_to_string (d : decimal) : string :=
  let rep := u128_to_string (dval d) in
  let len := String.length rep in
  let scale := Z.to_nat (dscale d) in
  let rep :=
    if 0 <? dscale d then
      if Nat.ltb len scale then
        String.append "0." (String.append (repeat_char "0"%char (scale - len)) rep)
      else if Nat.eqb scale len then
        String.append "0." rep
      else insert_at (len - scale) "."%char rep
    else rep in
  if dneg d then String "-"%char rep else rep.

(** [str::find] for a predicate on characters: the string before and after the first match *)
Fixpoint split_at (f : ascii -> bool) (s : string) : option (string * string) :=
  match s with
  | EmptyString => None
  | String c s' =>
      if f c then Some (EmptyString, s')
      else match split_at f s' with
           | None => None
           | Some (a, b) => Some (String c a, b)
           end
  end.

(** Digits of an unsigned number, most significant first; [None] on empty input or a non-digit. *)
Fixpoint parse_digits (s : string) (acc : Z) : option Z :=
  match s with
  | EmptyString => Some acc
  | String c s' =>
      match char_digit c with
      | None => None
      | Some v => parse_digits s' (10 * acc + v)
      end
  end.
Definition parse_nat (s : string) : option Z :=
  match s with EmptyString => None | _ => parse_digits s 0 end.

(** [u128::from_str_radix(s, 10).unwrap()]: optional '+', digits, must fit. *)
Definition parse_u128 (s : string) : res Z :=
  let body := match s with String "+"%char t => t | _ => s end in
  match parse_nat body with
  | Some v => if v <? U128 then Ok v else Panic
  | None => Panic
  end.

(** [i64::from_str(s).unwrap()]: optional sign, digits, must fit. *)
Definition parse_i64 (s : string) : res Z :=
  match s with
  | String "-"%char t =>
      match parse_nat t with
      | Some v => if v <=? 2 ^ 63 then Ok (- v) else Panic
      | None => Panic
      end
  | _ =>
      let body := match s with String "+"%char t => t | _ => s end in
      match parse_nat body with
      | Some v => if v <=? I64_MAX then Ok v else Panic
      | None => Panic
      end
  end.

Definition is_exp_char (c : ascii) : bool := Ascii.eqb c "e"%char || Ascii.eqb c "E"%char.
Definition is_minus (c : ascii) : bool := Ascii.eqb c "-"%char.
Definition is_dot (c : ascii) : bool := Ascii.eqb c "."%char.

(** decimal.rs:216-273 given the split of the input into [base] and [exp].
    [from_base] stands for the recursive call at 258. [(decimal_offset - exp).abs() as u8] at 254:
    the subtraction is overflow-checked, the cast keeps the low 8 bits. *)
Definition from_base_exp (from_base : string -> res decimal) (base : string) (exp : Z) : res decimal :=
  match base with
  | EmptyString => Err ParseErrorEmpty
  | _ =>
      let* (base, negative) :=
        match split_at is_minus base with
        | None => Ok (base, false)
        | Some (EmptyString, rest) => Ok (rest, true)
        | Some (_, _) => Err ParseError
        end in
      let '(digits, off) :=
        match split_at is_dot base with
        | None => (base, 0)
        | Some (lead, trail) => (String.append lead trail, Z.of_nat (String.length trail))
        end in
      let* _ := (if off - exp <=? I64_MAX then Ok tt else Panic) in
      let scale := Z.abs (off - exp) mod 256 in
      if 0 <? exp then
        let* b := unwrap (from_base base) in
        let* b' := to_scale b (exp mod 256) in
        to_scale (mkD (dval b') 0 negative) (exp mod 256)
      else
        let* v := parse_u128 digits in
        Ok (mkD v scale negative)
  end.

(** The recursive call: its argument is a prefix of the text before the first 'e'/'E', so it has no exponent and does
    not recurse again (exp = 0). *)
Definition from_str_noexp (s : string) : res decimal := from_base_exp (fun _ => Panic) s 0.

(** decimal.rs:682-688 with 196-214 *)
Definition from_str (s : string) : res decimal :=
  match split_at is_exp_char s with
  | None => from_base_exp from_str_noexp s 0
  | Some (base, exp) =>
      let* e := parse_i64 exp in
      from_base_exp from_str_noexp base e
  end.
