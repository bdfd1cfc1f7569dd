(** What the text of expressions should mean. *)
From Coq Require Import List Bool ZArith Ascii String Reals.
From Verif Require Import Base Constr_Model Expr_Model.
Import ListNotations.
Local Open Scope string_scope.

(** No character of [bad] occurs in [s]. *)
Definition clean (bad s : string) : Prop :=
  forall c, In c (list_ascii_of_string bad) -> ~ In c (list_ascii_of_string s).

(** ** The documented form (esat/rotational/constrained.py:276-290):
    (coef*[factor:F|feature:E]), preceded by what stands before its parenthesis *)
Record written := mkW { w_op : string; w_coef : string; w_f : string; w_kind : string; w_e : string }.
Definition label (w : written) : string := "factor:" ++ w_f w ++ "|" ++ w_kind w ++ ":" ++ w_e w.
Definition write (w : written) : string := w_op w ++ "(" ++ w_coef w ++ "*[" ++ label w ++ "])".
Fixpoint write_all (ws : list written) : string :=
  match ws with [] => "" | w :: t => write w ++ write_all t end.
(** The pieces of a term do not contain the punctuation. *)
Definition well_written (w : written) : Prop :=
  clean "()=*[" (w_coef w) /\ clean (String newline "()=:|]") (w_f w) /\
  clean (String newline "()=:|]") (w_kind w) /\ w_kind w <> "" /\ clean (String newline "()=:|]") (w_e w).
(** One character other than the punctuation between parentheses. *)
Definition operator (s : string) : Prop := String.length s = 1%nat /\ clean "()=" s.

(** The meaning of a term: kind, two integers, and the signed coefficient. *)
Definition means (to_float : string -> option R) (negative : bool) (w : written) (t : term) : Prop :=
  py_int (w_f w) = Some (t_i t) /\ py_int (w_e w) = Some (t_j t) /\ t_kind t = w_kind w /\ t_label t = label w /\
  exists c, to_float (w_coef w) = Some c /\ t_coef t = (if negative then - c else c)%R.

(** The cell a term names, and the token of C66 to C69 for a term. *)
Definition cell (t : term) : elem := (String.eqb (t_kind t) "feature", Z.to_nat (t_i t), Z.to_nat (t_j t)).
Definition entry_cell (e : entry) : elem := (String.eqb (e_kind e) "feature", Z.to_nat (e_i e), Z.to_nat (e_j e)).
Definition tokens (ts : list term) : list token := map (fun t => TTerm (t_coef t) (cell t)) ts.
(** All terms with the number of their expression, in the order of the text. *)
Fixpoint numbered (exprs : list (list term * R)) (i : nat) : list (term * nat) :=
  match exprs with [] => [] | (ts, _) :: l => map (fun t => (t, i)) ts ++ numbered l (S i) end.
Definition occurrences (lab : string) (l : list (term * nat)) : list (R * nat) :=
  map (fun p => (t_coef (fst p), snd p)) (filter (fun p => String.eqb (t_label (fst p)) lab) l).
