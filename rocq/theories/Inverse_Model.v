(** Model of the determinant/adjugate inverse of the GPU path: rust/lib.rs
    47-62 (calculate_inverse), 77-95 (calculate_adjoint), 97-118
    (calculate_determinant), 138-160 (extract_minor).  Entries are taken in an
    arbitrary field (mathcomp [fieldType]): rounding is not modelled.  Candle
    tensors are functions of row and column with an explicit size. *)
From mathcomp Require Import all_ssreflect all_algebra.
Import GRing.Theory.
Local Open Scope ring_scope.

Section Inverse.
  Variable F : fieldType.

  (** Candle's [to_scalar] only accepts rank-0 tensors.  [strict = true] is that
      behaviour; with [strict = false] a one-element tensor is accepted, which
      is what lib.rs 57, 60, 90, 106 intend. *)
  Definition to_scalar (strict : bool) (rank : nat) (x : F) : option F :=
    if strict && (0 < rank)%N then None else Some x.

  (** lib.rs:138-160 [extract_minor]: drop one row and one column.  Reading
      element (i, j) of the compacted data. *)
  Definition extract_minor (A : nat -> nat -> F) (row col : nat) : nat -> nat -> F :=
    fun i j => A (if (i < row)%N then i else i.+1) (if (j < col)%N then j else j.+1).

  (** lib.rs:97-118 [calculate_determinant]: 1x1 base case (106: rank-1 tensor
      read as scalar), otherwise expansion along row 0.  The 0x0 case is the
      empty sum 0 (lib.rs:110). *)
  Fixpoint calculate_determinant (strict : bool) (n : nat) (A : nat -> nat -> F) : option F :=
    match n with
    | 0%N => Some 0
    | n'.+1 =>
        if n' is 0%N then to_scalar strict 1 (A 0%N 0%N)
        else
          foldl (fun acc i =>
            match acc, calculate_determinant strict n' (extract_minor A 0 i) with
            | Some d, Some dm => Some (d + (A 0%N i * (-1) ^+ i) * dm)
            | _, _ => None
            end) (Some 0) (iota 0 n)
    end.

  (** lib.rs:85-92: one entry of the (transposed) cofactor matrix. *)
  Definition cofactor_entry (strict : bool) (n : nat) (A : nat -> nat -> F) (i j : nat) : option F :=
    match calculate_determinant strict n.-1 (extract_minor A i j) with
    | Some d =>
        match to_scalar strict 1 d with
        | Some x => Some ((-1) ^+ (i + j) * x)
        | None => None
        end
    | None => None
    end.

  (** lib.rs:77-95 [calculate_adjoint]: entry (r, c) is written by the loop step
      i = c, j = r (line 90); any failing entry fails the whole. *)
  Definition calculate_adjoint (strict : bool) (n : nat) (A : nat -> nat -> F)
    : option (nat -> nat -> F) :=
    if all (fun i => all (fun j => cofactor_entry strict n A i j) (iota 0 n)) (iota 0 n)
    then Some (fun r c => odflt 0 (cofactor_entry strict n A c r))
    else None.

  (** lib.rs:47-75 [calculate_inverse].  The pseudo-inverse branch (64-74) starts
      from integer identity tensors multiplied with float ones, which candle
      rejects: it is modelled as an error. *)
  Definition calculate_inverse (strict : bool) (n : nat) (A : nat -> nat -> F)
    : option (nat -> nat -> F) :=
    match calculate_determinant strict n A with
    | None => None
    | Some d0 =>
        match to_scalar strict 1 d0 with
        | None => None
        | Some d =>
            if d != 0 then
              match calculate_adjoint strict n A with
              | None => None
              | Some adj => Some (fun i j => adj i j / d)
              end
            else None
        end
    end.
End Inverse.
