(** Notations for concrete values used by the examples, witnesses and conformance tests. *)
From Coq Require Import ZArith.
From Verif Require Import Base DecimalModel MathModel PoolModel.
Open Scope Z_scope.

Definition D12 (v : Z) : decimal := mkD v 12 false.
Definition units (n : Z) : decimal := D12 (n * 10 ^ 12).
Definition root (n : Z) : res decimal := unwrap (d_sqrt (units n)).
Definition no_orc : log2_oracle := fun _ _ => (0, false).

(** a pool with another HMM parameter / fee rate (Pool::new and deposit do not use them otherwise) *)
Definition with_params (p : pool) (c rate : decimal) : pool :=
  mkPool (spacing p) (gs p) (ticks p) (positions p) (rx p) (ry p) (x_adj p) (y_adj p) (x_fee p) (y_fee p) c rate.
