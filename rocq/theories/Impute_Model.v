(** Model of esat/data/impute.py: the names the module defines (1-12), the
    constructor (27-39), impute (41-83) and the three imputers (85-136).
    A cell is [None] when missing (NaN).  scikit-learn's imputers drop the columns
    without any value and replace the missing cells of the others; what they put
    there is concrete for the strategy "mean" and an argument for the others. *)
From Coq Require Import List Bool Arith Reals String.
Import ListNotations.
Local Open Scope string_scope.

(** ** Names.  What a global name is bound to. *)
Inductive bound := Bound | BoundNone.
Definition namespace := list (string * bound).
Fixpoint lookup (g : namespace) (x : string) : option bound :=
  match g with [] => None | (y, v) :: t => if String.eqb x y then Some v else lookup t x end.

(** lines 1-12: an import statement binds the names it lists and no others; the
    first that fails ends the try block.  [has1], [has2]: whether the two import
    statements of lines 9 and 10 succeed. *)
Definition imported (names : list string) (g : namespace) : namespace :=
  fold_left (fun g x => (x, Bound) :: g) names g.
Definition module_names (has1 has2 : bool) : namespace :=
  let g := imported ["logging"; "pd"; "np"; "DataHandler"] [] in
  let failed := fun g : namespace => ("sklearn", BoundNone) :: g in
  if has1 then
    let g := imported ["enable_iterative_imputer"] g in
    if has2 then imported ["SimpleImputer"; "KNNImputer"; "IterativeImputer"] g else failed g
  else failed g.

Inductive exc := NameError | ImportError | ValueError | AttributeError.
Inductive outcome (A : Type) := Raises (e : exc) | Returns (a : A).
Arguments Raises {A}. Arguments Returns {A}.

(** lines 27-39 *)
Definition construct (g : namespace) : outcome unit :=
  match lookup g "sklearn" with
  | None => Raises NameError
  | Some BoundNone => Raises ImportError
  | Some Bound => Returns tt
  end.

(** ** impute.  A table of [m] rows and [n] columns. *)
Definition cells := nat -> nat -> option R.
Definition observed (m : nat) (A : cells) (j : nat) : list R :=
  flat_map (fun i => match A i j with Some x => [x] | None => [] end) (seq 0 m).
Definition has_value (m : nat) (A : cells) (j : nat) : bool := negb (List.length (observed m A j) =? 0)%nat.
(** columns kept by the imputer *)
Definition kept (m n : nat) (A : cells) : list nat := filter (has_value m A) (seq 0 n).
(** [fill A i j]: what the imputer puts into the missing cell (i, j). *)
Definition filled (fill : cells -> nat -> nat -> R) (A : cells) : nat -> nat -> R :=
  fun i j => match A i j with Some x => x | None => fill A i j end.
(** SimpleImputer(strategy="mean") *)
Definition mean_fill (m : nat) (A : cells) (i j : nat) : R :=
  (fold_right Rplus 0 (observed m A j) / INR (List.length (observed m A j)))%R.

(** lines 58-60: a comparison with NaN never holds; np.where turns the data frame
    of uncertainties into an array. *)
Inductive missing := MNone | MNaN | MValue (x : R).
Definition mark (mv : missing) (A : cells) : cells :=
  match mv with
  | MValue x => fun i j => match A i j with Some y => if Req_EM_T y x then None else Some y | None => None end
  | _ => A
  end.
Definition is_frame (mv : missing) : bool := match mv with MNone => true | _ => false end.

Definition strategies : list string := ["mean"; "median"; "most_frequent"; "knn"; "iterative"].

(** The tables of the result and whether a cell is marked as imputed (line 63). *)
Record imputed := mkImputed { i_data : nat -> nat -> R; i_unc : nat -> nat -> R; i_mask : nat -> nat -> bool }.

Definition missing_at (A : cells) (i j : nat) : bool := match A i j with None => true | Some _ => false end.

(** lines 41-83; [handler]: the data and uncertainties, if there is a handler. *)
Definition impute (fills : string -> cells -> nat -> nat -> R) (m n : nat) (handler : option (cells * cells))
    (mv : missing) (strategy : string) : outcome (option imputed) :=
  if negb (existsb (String.eqb strategy) strategies) then Raises ValueError
  else match handler with
  | None => Returns None
  | Some (V0, U0) =>
      let V := mark mv V0 in let U := mark mv U0 in
      let fill := if String.eqb strategy "mean" then mean_fill m else fills strategy in
      if negb (is_frame mv) then Raises AttributeError                       (* U.columns *)
      else if negb (List.length (kept m n V) =? n)%nat then Raises ValueError     (* shapes differ *)
      else if negb (List.length (kept m n U) =? n)%nat then Raises ValueError
      else Returns (Some (mkImputed (filled fill V) (filled fill U)
                            (fun i j => missing_at V i j || missing_at U i j)))
  end.
