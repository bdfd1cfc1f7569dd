(** Independent description of a training run: the infinite sequence of states
    obtained by updating forever, and when it should stop. *)
From Coq Require Import List Bool ZArith.
Import ListNotations.

Section Spec.
  Context {S F : Type}.
  Context (upd : bool -> S -> S) (loss : S -> F) (below : F -> F -> bool).

  (** Is the profile held at iteration [i] (0-based)? *)
  Definition held (hold_h : bool) (delay_h : Z) (i : nat) : Prop :=
    hold_h = true /\ ((delay_h <= 0)%Z \/ (Z.of_nat i <= delay_h)%Z).

  (** State after [i] iterations, when [holds i] says whether iteration [i]
      holds the profile. *)
  Fixpoint state_at (holds : nat -> bool) (st0 : S) (i : nat) : S :=
    match i with
    | O => st0
    | Datatypes.S j => upd (holds j) (state_at holds st0 j)
    end.

  (** Loss recorded by iteration [i]. *)
  Definition loss_at (holds : nat -> bool) (st0 : S) (i : nat) : F :=
    loss (state_at holds st0 (Datatypes.S i)).

  (** Number of iterations spanned by the convergence window. *)
  Definition span (cn : Z) : nat := Z.to_nat (cn - 1).

  (** Iteration [i] satisfies the convergence criterion. *)
  Definition criterion (cn : Z) (q : nat -> F) (i : nat) : Prop :=
    span cn <= i /\ below (q (i - span cn)) (q i) = true.

  (** [j] is the first iteration satisfying [P]. *)
  Definition first_such (P : nat -> Prop) (j : nat) : Prop :=
    P j /\ forall i, i < j -> ~ P i.
End Spec.
