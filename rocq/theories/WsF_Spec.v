(** Vocabulary for C125: the exact WS-NMF profile step and the range in which the
    floating-point step follows it. *)
From Coq Require Import ZArith Reals.
From Flocq Require Import Core BinarySingleNaN.
From Verif Require Import Base Acc_Spec.
Local Open Scope R_scope.

(** Positive and negative part of a number. *)
Definition up (x : R) : R := Rmax x 0.
Definition down (x : R) : R := Rmax (- x) 0.

Section Exact.
  Context (m k : nat) (V We W H : mat) (eps : R).
  (** Weighted data of feature [j] against a part of the contributions of factor [a]. *)
  Definition lin (p : R -> R) (a j : nat) : R := rsum m (fun i => We i j * V i j * p (W i a)).
  (** Weighted products of a part of the contributions of factors [b] and [a]. *)
  Definition gram (p : R -> R) (b a j : nat) : R := rsum m (fun i => p (W i b) * We i j * p (W i a)).
  Definition quad (p : R -> R) (a j : nat) : R := rsum k (fun b => H b j * gram p b a j).
  (** The profile entry an exact WS-NMF step would give. *)
  Definition exact_profile (a j : nat) : R :=
    H a j * sqrt ((lin up a j + quad down a j + eps) / (lin down a j + quad up a j + eps)).
End Exact.

Section Range.
  Context (emax : Z) (m k : nat) (V We W H : mat) (eps : R) (j : nat).
  Notation ok := (in_range (emax := emax)).
  (** The products and sums of one column, for one of the two parts. *)
  Definition part_range (p : R -> R) : Prop :=
    (forall i a, (i < m)%nat -> (a < k)%nat ->
       ok (We i j * V i j) /\ ok (We i j * V i j * p (W i a)) /\ ok (p (W i a) * We i j)) /\
    (forall i a b, (i < m)%nat -> (a < k)%nat -> (b < k)%nat -> ok (p (W i b) * We i j * p (W i a))) /\
    (forall a, (a < k)%nat -> ok (lin m V We W p a j) /\ ok (quad m k We W H p a j)) /\
    (forall a b, (a < k)%nat -> (b < k)%nat -> ok (gram m We W p b a j) /\ ok (H b j * gram m We W p b a j)).
  Definition column_range : Prop :=
    part_range up /\ part_range down /\
    forall a, (a < k)%nat ->
      ok (lin m V We W up a j + quad m k We W H down a j + eps) /\
      ok (lin m V We W down a j + quad m k We W H up a j + eps) /\
      ok ((lin m V We W up a j + quad m k We W H down a j + eps) / (lin m V We W down a j + quad m k We W H up a j + eps)) /\
      ok (exact_profile m k V We W H eps a j).
End Range.
