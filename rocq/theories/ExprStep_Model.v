(** Model of esat/rotational/constrained.py _apply_expressions (360-432) as a whole, of
    _calculate_pull_matrices (434-441) and of the training iteration (494-499) with both
    expressions and constraints.  [solver] is scipy's lsq_linear(A, B, bounds): rows, columns,
    matrix, right-hand side and the two bounds give the solution vector; it raises unless the
    lower bound is below the upper one.  Elements outside the matrices (IndexError) are not
    modelled.  Arithmetic is exact. *)
From Coq Require Import List Bool ZArith Lia Reals Lra.
From Verif Require Import Base Fl Metrics_Model LSNMF_Model Disp_Model Constr_Model.
Import ListNotations.
Local Open Scope R_scope.

Definition zero_mat : mat := fun _ _ => 0.
Definition madd (A B : mat) : mat := fun i j => A i j + B i j.

(** lines 423-424, [j] times *)
Definition shrink (j : nat) (D : mat) : mat := Nat.iter j (fun (E : mat) a b => E a b * (98 / 100)) D.

(** line 395 np.max *)
Definition largest (l : list R) : R := fold_left Rmax (tl l) (hd 0 l).

Section Step.
  Context (solver : nat -> nat -> mat -> (nat -> R) -> R -> R -> nat -> R).
  Context (m n k : nat) (V U bW bH : mat) (qbase soft : R).
  Context (exprs : list (list token * R)).

  (** lines 414-420 *)
  Definition exp_dQ (iW iH Dw Dh : mat) : R :=
    q_loss m n k true V U (madd iW Dw) (madd iH Dh) + q_aux m n k soft bW (madd iW Dw) Dw bH (madd iH Dh) Dh - qbase.

  (** lines 360-432; [None]: an exception. *)
  Definition apply_expressions (iW iH : mat) : option (mat * mat) :=
    match exprs with
    | [] => Some (zero_mat, zero_mat)
    | _ =>
        let mp := map_expressions exprs 0 [] in
        let B := exp_B iW iH exprs in
        let hi := largest (map B (seq 0 (length exprs))) in
        if Rlt_dec (/ 100000000) hi then
          let x := solver (length exprs) (length mp) (exp_A mp) B (/ 100000000) hi in
          let Dw := exp_diff_W mp x iW in
          let Dh := exp_diff_H mp x iH in
          match budget (fun j => Fin (exp_dQ iW iH (shrink j Dw) (shrink j Dh))) (lsum (map snd exprs)) 102 with
          | Some (Some j) => Some (shrink j Dw, shrink j Dh)
          | Some None => Some (zero_mat, zero_mat)
          | None => None
          end
        else None
    end.

  (** lines 434-441, 494-499 *)
  Definition ce_iter (r : registry) (o : option (mat * mat)) : option (mat * mat) :=
    match o with
    | Some (W, H) => match apply_expressions W H with
                     | Some D => c_iter m n k V U bW bH r (fun _ _ => D) (W, H)
                     | None => None
                     end
    | None => None
    end.
End Step.
