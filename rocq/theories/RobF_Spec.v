(** What the robust loss should be, for the statements of C118. *)
From Coq Require Import ZArith Reals Lra.
From Flocq Require Import Core BinarySingleNaN.
From Verif Require Import Acc_Spec.
Local Open Scope R_scope.

Section Spec.
  Context {prec emax : Z}.
  Notation F := (binary_float prec emax).
  (** A positive number that is neither infinite nor NaN. *)
  Definition positive (x : F) : Prop := is_finite x = true /\ 0 < B2R x.
  (** Comparison as IEEE 754 defines it: false when an operand is NaN. *)
  Definition at_most (x y : F) : Prop := Bleb x y = true.
End Spec.

(** The loss of one cell with scaled residual [x]: its square up to [a], then linear. *)
Definition bounded_loss (a x : R) : R := if Rle_dec (Rabs x) a then x * x else a * Rabs x.

(** The exact numbers met on the way are in the range of the format. *)
Definition cell_range (emax : Z) (a r u : R) : Prop :=
  let x := Rabs (r / u) in
  let ok := in_range (emax := emax) in
  ok x /\ (x <= a -> ok (x * x)) /\
  (a < x -> ok (x / a) /\ ok (sqrt (x / a) * u) /\ ok (sqrt (a * x)) /\ ok (a * x)).
