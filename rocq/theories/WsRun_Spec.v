From Coq Require Import Reals.
From Verif Require Import Base SA_Model.
Open Scope R_scope.

(** The inverse of a k x k matrix depends on its k x k entries only. *)
Definition inside (k : nat) (solve : nat -> mat -> mat) : Prop :=
  forall A B, meq k k A B -> meq k k (solve k A) (solve k B).

(** The user asked for ws-nmf, or some value is negative. *)
Definition needs_ws (m n : nat) (v : mat) (mth : method) : Prop :=
  mth = WSNMF \/ exists i j, (i < m)%nat /\ (j < n)%nat /\ v i j < 0.
