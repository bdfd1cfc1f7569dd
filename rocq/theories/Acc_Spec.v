(** Vocabulary for statements about the accuracy of LS-NMF in IEEE arithmetic. *)
From Coq Require Import ZArith Reals.
From Flocq Require Import Core BinarySingleNaN.
From Verif Require Import Base.
Local Open Scope R_scope.

Section Spec.
  Context {prec emax : Z}.
  Notation F := (binary_float prec emax).

  (** A number that is not negative, nor infinite, nor NaN. *)
  Definition proper (x : F) : Prop := Bsign x = false /\ is_finite x = true.
  (** The exact value of a matrix of floats. *)
  Definition value (A : nat -> nat -> F) : mat := fun i j => B2R (A i j).
  (** Zero, or well inside the range of normal numbers. *)
  Definition in_range (x : R) : Prop := x = 0 \/ bpow radix2 (3 - emax) <= x <= bpow radix2 (emax - 2).
End Spec.

(** The relative difference of [x] to [r] is at most [2 p] units of rounding
    (half the distance from 1 to the next number). *)
Definition close (prec : Z) (p : nat) (x r : R) : Prop := Rabs (x - r) <= 2 * INR p * bpow radix2 (- prec) * r.

(** Root of the weighted sum of squares of a matrix. *)
Definition norm (m n : nat) (We A : mat) : R := sqrt (msum m n (fun i j => We i j * (A i j * A i j))).
(** Root of the weighted sum of squared residuals, i.e. of Q(true) when the weights
    are the inverse squares of the uncertainties. *)
Definition root_q (m n k : nat) (V We W H : mat) : R := norm m n We (fun i j => V i j - rsum k (fun a => W i a * H a j)).

(** Every product, sum and quotient met in the two halves of an exact iteration is
    in the range of the format. *)
Section Range.
  Context (emax : Z) (m n k : nat) (V We W H : mat).
  Notation ok := (in_range (emax := emax)).
  Definition model (i j : nat) : R := rsum k (fun a => W i a * H a j).
  Definition common_range : Prop := forall i j, (i < m)%nat -> (j < n)%nat ->
    ok (We i j * V i j) /\ ok (model i j) /\ ok (We i j * model i j) /\ forall a, (a < k)%nat -> ok (W i a * H a j).
  Definition profile_range : Prop := common_range /\ forall a j, (a < k)%nat -> (j < n)%nat ->
    let num := rsum m (fun i => W i a * (We i j * V i j)) in
    let den := rsum m (fun i => W i a * (We i j * model i j)) in
    ok num /\ ok den /\ 0 < den /\ ok (num / den) /\ ok (H a j * (num / den)) /\
    forall i, (i < m)%nat -> ok (W i a * (We i j * V i j)) /\ ok (W i a * (We i j * model i j)).
  Definition contribution_range : Prop := common_range /\ forall i a, (i < m)%nat -> (a < k)%nat ->
    let num := rsum n (fun j => We i j * V i j * H a j) in
    let den := rsum n (fun j => We i j * model i j * H a j) in
    ok num /\ ok den /\ 0 < den /\ ok (num / den) /\ ok (W i a * (num / den)) /\
    forall j, (j < n)%nat -> ok (We i j * V i j * H a j) /\ ok (We i j * model i j * H a j).
End Range.
