(** Property C12: the compiled determinant/adjugate inverse. *)
From mathcomp Require Import all_ssreflect all_algebra.
From Verif Require Import Inverse_Model Inverse_Proofs.
Import GRing.Theory.
Local Open Scope ring_scope.

(** C12: whatever it returns for size >= 2 is the two-sided inverse. *)
Theorem C12_inverse_correct :
  forall (F : fieldType) (n : nat) (A B : nat -> nat -> F),
    (2 <= n)%N -> calculate_inverse F false n A = Some B ->
    forall i j, (i < n)%N -> (j < n)%N ->
      \sum_(0 <= p < n) A i p * B p j = (i == j)%:R /\
      \sum_(0 <= p < n) B i p * A p j = (i == j)%:R.
Proof. exact inverse_correct. Qed.
Print Assumptions C12_inverse_correct.

(** C12: it returns something for every invertible matrix of size >= 2. *)
Theorem C12_inverse_complete :
  forall (F : fieldType) (n : nat) (A C : nat -> nat -> F),
    (2 <= n)%N ->
    (forall i j, (i < n)%N -> (j < n)%N ->
      \sum_(0 <= p < n) A i p * C p j = (i == j)%:R /\
      \sum_(0 <= p < n) C i p * A p j = (i == j)%:R) ->
    exists B, calculate_inverse F false n A = Some B.
Proof. exact inverse_complete. Qed.
Print Assumptions C12_inverse_complete.

(** With candle's rank check on to_scalar the function fails on every input. *)
Theorem C12_rank_check_always_errors :
  forall (F : fieldType) (n : nat) (A : nat -> nat -> F), calculate_inverse F true n A = None.
Proof. exact strict_always_error. Qed.
Print Assumptions C12_rank_check_always_errors.

(** A model with a single factor: the 1x1 "inverse" is zero. *)
Theorem C12_one_factor_refuted :
  forall (F : fieldType) (A : nat -> nat -> F), A 0%N 0%N != 0 ->
    exists B, calculate_inverse F false 1 A = Some B /\ B 0%N 0%N = 0.
Proof. exact inverse_1x1. Qed.
Print Assumptions C12_one_factor_refuted.

(** [[0, 1], [2, 1]] over the rationals has inverse [[-1/2, 1/2], [1, 0]]. *)
Example C12_instance :
  let A : nat -> nat -> rat := fun i j => if i is 0%N then (if j is 0%N then 0 else 1) else (if j is 0%N then 2%:R else 1) in
  exists B, calculate_inverse [fieldType of rat] false 2 A = Some B /\
    (B 0%N 0%N, B 0%N 1%N, B 1%N 0%N, B 1%N 1%N) = (- (1 / 2%:R), 1 / 2%:R, 1, 0).
Proof. by eexists; split; [reflexivity|]; apply/eqP; vm_compute. Qed.

Example C12_inverse_correct_example :
  let A : nat -> nat -> rat := fun i j => if i is 0%N then (if j is 0%N then 0 else 1) else (if j is 0%N then 2%:R else 1) in
  exists B, \sum_(0 <= p < 2) A 1%N p * B p 0%N = 0 /\ \sum_(0 <= p < 2) B 0%N p * A p 0%N = 1.
Proof.
  move=> A. case: C12_instance => B [E _]. exists B.
  have := C12_inverse_correct [fieldType of rat] 2 A B isT E.
  by move=> H; split; [case: (H 1%N 0%N isT isT)|case: (H 0%N 0%N isT isT)].
Qed.
Example C12_inverse_complete_example :
  let A : nat -> nat -> rat := fun i j => if i is 0%N then (if j is 0%N then 0 else 1) else (if j is 0%N then 2%:R else 1) in
  exists B, calculate_inverse [fieldType of rat] false 2 A = Some B.
Proof.
  move=> A. case: C12_instance => B [E _].
  exact: (C12_inverse_complete [fieldType of rat] 2 A B isT (C12_inverse_correct [fieldType of rat] 2 A B isT E)).
Qed.
Example C12_rank_check_example := C12_rank_check_always_errors [fieldType of rat] 2 (fun i j => (i + j)%:R).
Example C12_one_factor_example := C12_one_factor_refuted [fieldType of rat] (fun _ _ => 2%:R) isT.
