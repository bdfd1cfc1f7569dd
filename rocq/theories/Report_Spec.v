(** What the tables and plots of a constrained model should show. *)
From Coq Require Import List Bool ZArith String Reals.
From Verif Require Import Base Fl Constr_Model Expr_Model Report_Model.
Import ListNotations.
Local Open Scope R_scope.

(** ** Histories *)
Section History.
  Context (to_float : string -> option R) (m n k : nat).
  Definition state (ops : list op) : cmodel := run to_float m n k ops fresh.
  (** In state [p] train gets past reading the expressions. *)
  Definition parses (p : cmodel) (t : training) (es : list (list term * R)) : Prop :=
    (m_reg p <> [] \/ m_exprs p <> []) /\ read_all to_float (m_exprs p) = inr es.
  (** In state [p] train completes with solution [o]. *)
  Definition completes (p : cmodel) (t : training) (o : sol) : Prop :=
    exists es, parses p t es /\ t (m_reg p) es = inr o.
  Definition latest {X : Type} (event : cmodel -> training -> X -> Prop) (ops : list op) (x : X) : Prop :=
    exists pre t post, ops = pre ++ Train t :: post /\ event (state pre) t x /\
      forall pre' t' post', ops = pre' ++ Train t' :: post' -> (List.length pre < List.length pre')%nat -> forall y, ~ event (state pre') t' y.
  Definition never {X : Type} (event : cmodel -> training -> X -> Prop) (ops : list op) : Prop :=
    forall pre t post, ops = pre ++ Train t :: post -> forall y, ~ event (state pre) t y.
End History.

(** Shown to four decimals. *)
Definition shows (shown x : R) : Prop := Rabs (shown - x) <= / 20000 /\ exists z, shown = IZR z / 10000.

(** ** Rows of the constraint table *)
Section Rows.
  Context (m n k : nat) (bW bH : mat).
  Definition in_matrix (c : constr) : Prop :=
    match c_tgt c with
    | Feature => (0 <= c_i c < Z.of_nat k)%Z /\ (0 <= c_j c < Z.of_nat n)%Z
    | _ => (0 <= c_i c < Z.of_nat m)%Z /\ (0 <= c_j c < Z.of_nat k)%Z
    end.
  Definition value_of (W H : mat) (c : constr) : R :=
    match c_tgt c with Feature => H | _ => W end (Z.to_nat (c_i c)) (Z.to_nat (c_j c)).
  Definition row_ok (o : sol) (c : constr) (r : crow) : Prop :=
    r_of r = c /\ shows (r_base r) (value_of bW bH c) /\ shows (r_sol r) (value_of (o_W o) (o_H o) c) /\
    match c_type c with
    | PullDown d | PullUp d => r_target r = NoTarget /\ r_dQ r = Some d
    | PullTo x d => r_target r = Value x /\ r_dQ r = Some d
    | SetZero => r_target r = Value 0 /\ r_dQ r = None
    | SetBase => (exists x, r_target r = Value x /\ shows x (value_of bW bH c)) /\ r_dQ r = None
    | Limits lo hi => (exists a b, r_target r = Range a b /\ Rabs (a - lo) <= / 2000 /\ Rabs (b - hi) <= / 2000) /\ r_dQ r = None
    | Unknown => r_target r = NoTarget /\ r_dQ r = None
    end.

  (** ** Rows of the expression table *)
  (** the cell a label is read at: sample labels unswapped (C66) *)
  Definition term_in_matrix (t : term) : Prop :=
    if String.eqb (t_kind t) "feature"
    then (0 <= t_i t < Z.of_nat k)%Z /\ (0 <= t_j t < Z.of_nat n)%Z
    else (0 <= t_i t < Z.of_nat m)%Z /\ (0 <= t_j t < Z.of_nat k)%Z.
  Definition term_value (W H : mat) (t : term) : R :=
    (if String.eqb (t_kind t) "feature" then H else W) (Z.to_nat (t_i t)) (Z.to_nat (t_j t)).
  Definition xrow_ok (o : sol) (width : nat) (e : list term * R) (r : xrow) : Prop :=
    x_dQ r = snd e /\
    x_terms r = (map (fun t => Some (t_coef t, t_label t)) (fst e) ++ repeat None (width - List.length (fst e)))%list /\
    shows (x_base r) (lsum (map (fun t => term_value bW bH t * t_coef t) (fst e))) /\
    shows (x_sol r) (lsum (map (fun t => term_value (o_W o) (o_H o) t * t_coef t) (fst e))).
  Definition erow_ok (o : sol) (t : term) (r : erow) : Prop :=
    er_i r = t_i t /\ er_j r = t_j t /\ er_kind r = t_kind t /\
    shows (er_base r) (term_value bW bH t) /\ shows (er_sol r) (term_value (o_W o) (o_H o) t).
End Rows.
(** The first term of every label, in the order of the text. *)
Fixpoint firsts (seen : list string) (ts : list term) : list term :=
  match ts with
  | [] => []
  | t :: l => if existsb (String.eqb (t_label t)) seen then firsts seen l else t :: firsts (t_label t :: seen) l
  end.
