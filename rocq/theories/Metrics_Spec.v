(** Independent specification of the losses: what a user reads in the
    documentation of Q(true) and Q(robust). *)
From Coq Require Import Reals.
From Verif Require Import Base.
Open Scope R_scope.

(** The model reproduces the data in every cell. *)
Definition reproduces (m n k : nat) (V W H : mat) : Prop :=
  forall i j, (i < m)%nat -> (j < n)%nat -> V i j = rsum k (fun p => W i p * H p j).

(** Uncertainty-scaled absolute residual of one cell. *)
Definition cell_resid (k : nat) (V U W H : mat) (i j : nat) : R :=
  Rabs (V i j - rsum k (fun p => W i p * H p j)) / U i j.

(** Robust contribution of a cell with scaled residual [s]. *)
Definition robust_cell (alpha s : R) : R := if Rle_dec s alpha then s * s else alpha * s.

Definition q_spec (m n k : nat) (V U W H : mat) : R :=
  msum m n (fun i j => cell_resid k V U W H i j * cell_resid k V U W H i j).
