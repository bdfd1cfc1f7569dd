(** Model of a FactorEstimator as an object: run (esat/estimator.py 91-155), what
    _results stores (157-200) and plot (202-233).  It joins [Est_Model] (errors of a
    sample, columns, estimate) and [Workers_Model] (process pool).  The generator is
    a function of the number of calls made so far; what a process returns (or that it
    raises) and the order of arrival are arguments.  Not modelled: progress bar, axis
    titles, size and line styles other than the colour of the vertical lines. *)
From Coq Require Import List Bool Arith ZArith Reals String.
From Verif Require Import Base Fl Est_Model Workers_Model.
Import ListNotations.
Local Open Scope nat_scope.

(** results_df (189-199); the column Factors counts from the lowest. *)
Record table := mkTable { t_factors : list nat; t_test : list fl; t_train : list fl; t_delta : list fl; t_ratio : list fl;
                          t_k : list fl; t_qt : list fl; t_qr : list fl }.
(** [e_hi]: max_factors as stored, one more than the highest count (line 121);
    [e_pos]: calls of the generator so far; [e_rows]: features in the loop of 58. *)
Record est := mkEst { e_kc : R; e_rows : nat; e_lo : nat; e_hi : nat; e_pos : nat; e_table : option table; e_est : option Z }.
(** lines 33-54 *)
Definition new_est (kc : R) (rows : nat) : est := mkEst kc rows 2 15 0 None None.

(** lines 150-200: [None] is the ValueError of line 162. *)
Definition results (kc : R) (lo hi : nat) (arrivals : list sample) : option (table * Z) :=
  let col f := column f arrivals lo (hi - 1) in
  match estimate kc lo (hi - 1) (col s_test) with
  | None => None
  | Some z => Some (mkTable (seq lo (hi - lo)) (col s_test) (col s_train) (delta_column (col s_test)) (ratio_column (col s_test))
                      (scores kc lo (fmin_list (col s_test)) (col s_test)) (col s_qt) (col s_qr), z)
  end.

(** lines 91-155.  A sample makes one call for its seed (132), one for its factor count
    (133) and one per row of the mask (58-59); [draw p lo hi]: what the process of the
    sample whose first call has number [p] returns, its factor count being drawn from
    [lo..hi-1]; [arrive]: order of arrival. *)
Definition set_range (e : est) (lo hi pos : nat) : est := mkEst (e_kc e) (e_rows e) lo hi pos (e_table e) (e_est e).
Fixpoint all_some {A} (l : list (option A)) : option (list A) :=
  match l with
  | [] => Some []
  | x :: t => match x, all_some t with Some a, Some r => Some (a :: r) | _, _ => None end
  end.
Definition est_run (cpu : Z) (draw : nat -> nat -> nat -> option sample) (arrive : list sample -> list sample)
    (samples lo max_factors : nat) (e : est) : est * option exn :=
  let hi := S max_factors in
  if (0 <? samples) && (hi <=? lo) then (set_range e lo hi (S (e_pos e)), Some ValueError)   (* line 133 *)
  else
    let each := 2 + e_rows e in
    let e1 := set_range e lo hi (e_pos e + samples * each) in
    match pool (estimator_processes cpu) with                                                (* line 137 *)
    | Some x => (e1, Some x)
    | None =>
        match all_some (map (fun i => draw (e_pos e + i * each) lo hi) (seq 0 samples)) with
        | None => (e1, Some WorkError)                                                       (* line 145 *)
        | Some l =>
            match results (e_kc e) lo hi (arrive l) with
            | None => (e1, Some ValueError)
            | Some (t, z) => (mkEst (e_kc e) (e_rows e) lo hi (e_pos e1) (Some t) (Some z), None)
            end
        end
    end.

(** lines 202-233.  plotly pairs the two lists of a trace as far as both go. *)
Record figure := mkFig { f_traces : list (string * list (nat * fl)); f_lines : list (string * Z) }.
Definition est_plot (actual : option Z) (e : est) : option figure :=
  let x := seq (e_lo e) (e_hi e - e_lo e) in
  match e_table e, e_est e with
  | Some t, Some z =>
      Some (mkFig [("Train MSE", combine x (t_train t)); ("Test MSE", combine x (t_test t)); ("Delta MSE", combine x (t_delta t));
                   ("Ratio Delta", combine x (t_ratio t)); ("K Estimate", combine x (t_k t)); ("Q(True)", combine x (t_qt t))]%string
                  (match actual with Some a => if (a =? 0)%Z then [("red", z)] else [("black", a); ("red", z)] | None => [("red", z)] end)%string)
  | _, _ => None
  end.
