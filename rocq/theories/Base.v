(** Outcome monad and checked machine arithmetic used by all model files. *)
From Coq Require Import ZArith List Bool String.
Import ListNotations.
Open Scope Z_scope.

(** Error codes.  The first seven are decimal.rs:14-29 ([decimal::ErrorCode]); the others are
    errors/mod.rs:3-37 (only the codes that some compiled code path returns) plus one code for
    failures raised by the Anchor/SPL runtime (account constraints, token program). *)
Inductive err : Type :=
| ParseError | ParseErrorEmpty | ParseErrorBase10 | DifferentScale
| ExceedsRange | ExceedsPrecisionRange | SignedDecimalsNotSupported
| NegativeDepositLiquidity | NegativeGlobalLiquidity | InsufficientPositionLiquidity
| NegativeTickGrossLiquidity | TickMismatch | DepositAmountExceeded
| RuntimeError.

(** Outcome of running a Rust function: a value, an [Err(code)] value, a panic, or (model
    artefact only) exhaustion of the recursion fuel standing for a non-terminating loop. *)
Inductive res (A : Type) : Type :=
| Ok (a : A)
| Err (e : err)
| Panic
| NoFuel.
Arguments Ok {A} _.
Arguments Err {A} _.
Arguments Panic {A}.
Arguments NoFuel {A}.

Definition bind {A B} (m : res A) (f : A -> res B) : res B :=
  match m with
  | Ok a => f a
  | Err e => Err e
  | Panic => Panic
  | NoFuel => NoFuel
  end.

Notation "'let*' x ':=' e 'in' k" := (bind e (fun x => k))
  (at level 200, x pattern, e at level 100, k at level 200, right associativity).

(** [.unwrap()] / [.expect(..)] on a [Result]: an [Err] becomes a panic. *)
Definition unwrap {A} (m : res A) : res A :=
  match m with
  | Err _ => Panic
  | r => r
  end.

(** [assert!(b)] / [if !b { panic!() }]. *)
Definition assert (b : bool) : res unit := if b then Ok tt else Panic.

(** [if b { return Err(e) }] *)
Definition require (b : bool) (e : err) : res unit := if b then Ok tt else Err e.

(** Machine integer bounds. *)
Definition U128 : Z := 2 ^ 128.
Definition U64 : Z := 2 ^ 64.

(** [u128::checked_add(..).unwrap()], etc. (core library semantics). *)
Definition cadd (a b : Z) : res Z := if a + b <? U128 then Ok (a + b) else Panic.
Definition csub (a b : Z) : res Z := if b <=? a then Ok (a - b) else Panic.
Definition cmul (a b : Z) : res Z := if a * b <? U128 then Ok (a * b) else Panic.
Definition cdiv (a b : Z) : res Z := if b =? 0 then Panic else Ok (a / b).

(** [10u128.pow(n)], overflow-checked: 10^39 does not fit.  (In a release build without overflow
    checks it would wrap for n >= 39; the program only ever uses scales <= 12.) *)
Definition pow10 (n : Z) : res Z := if n <=? 38 then Ok (10 ^ n) else Panic.

(** [x.try_into::<u64>().unwrap()] *)
Definition to_u64_chk (a : Z) : res Z := if a <? U64 then Ok a else Panic.

(** Generic loop: runs [step] at most [2^d] times; [inl s] = continue with state [s],
    [inr r] = leave the loop with result [r].  Running out of iterations gives [NoFuel]. *)
Fixpoint iter2 {S R : Type} (d : nat) (step : S -> S + R) (s : S) : S + R :=
  match d with
  | O => step s
  | Datatypes.S d' =>
      match iter2 d' step s with
      | inl s' => iter2 d' step s'
      | inr r => inr r
      end
  end.

Definition loop2 {S R : Type} (d : nat) (step : S -> S + res R) (s : S) : res R :=
  match iter2 d step s with
  | inl _ => NoFuel
  | inr r => r
  end.
