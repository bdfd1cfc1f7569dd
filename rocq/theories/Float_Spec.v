(** Vocabulary for the statements about IEEE arithmetic. *)
From Coq Require Import ZArith Reals List.
From Flocq Require Import Core BinarySingleNaN.

Section Spec.
  Context {prec emax : Z}.
  Notation F := (binary_float prec emax).

  (** NaN, or a number (zero and infinity included) with sign bit clear. *)
  Definition nonneg (x : F) : Prop := is_nan x = true \/ Bsign x = false.
  Definition isnan (x : F) : Prop := is_nan x = true.
  Definition iszero (x : F) : Prop := exists s, x = B754_zero s.

  (** [P] holds of every entry of an r x c matrix. *)
  Definition every (r c : nat) (P : F -> Prop) (A : nat -> nat -> F) : Prop :=
    forall i j, i < r -> j < c -> P (A i j).
  Definition somewhere (r c : nat) (P : F -> Prop) (A : nat -> nat -> F) : Prop :=
    exists i j, i < r /\ j < c /\ P (A i j).

  (** Some factor entry is NaN. *)
  Definition poisoned (m n k : nat) (st : (nat -> nat -> F) * (nat -> nat -> F)) : Prop :=
    somewhere m k isnan (fst st) \/ somewhere k n isnan (snd st).

  (** The real value of a list of numbers summed exactly. *)
  Definition exact_sum (l : list F) : R := fold_right (fun x s => (B2R x + s)%R) 0%R l.
End Spec.
