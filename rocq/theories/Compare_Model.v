(** Comparison of a base solution with the models of a batch:
    eval/factor_comparison.py, class FactorCompare (lines 18-449).

    Correlations are exact and NaN for constant vectors ([Boot_Model.r2]).  Base
    factors and model factors are numbered; the names only serve as dictionary
    keys (assumed distinct).  The worker pool evaluates a pure function with
    [starmap], which keeps the order, so it is modelled by [map].  Progress bars
    and log output are left out. *)
From Coq Require Import List Bool String Reals Arith.
From Verif Require Import Base Fl Metrics_Model Boot_Model Est_Model.
Import ListNotations.
Local Open Scope R_scope.

Inductive cres (A : Type) := Done (a : A) | KeyErr | ValErr | TypeErr.
Arguments Done {A} _. Arguments KeyErr {A}. Arguments ValErr {A}. Arguments TypeErr {A}.

(** A solution: contributions (rows samples) and profiles (rows factors). *)
Record solution := mkSol { s_W : mat; s_H : mat }.

(** lines 200-211 and 239-245: one factor's share of every cell, row by row as
    [flatten] lists them. *)
Definition share (n : nat) (s : solution) (f : nat) : nat -> R := fun t => s_W s (t / n)%nat f * s_H s f (t mod n)%nat.

(** lines 275-291 with 413-423: the three correlations of base factor [i] with
    model factor [j]. *)
Definition corr_H (n : nat) (b o : solution) (i j : nat) : fl := r2 n (s_H o j) (s_H b i).
Definition corr_W (m : nat) (b o : solution) (i j : nat) : fl := r2 m (fun t => s_W o t j) (fun t => s_W b t i).
Definition corr_WH (m n : nat) (b o : solution) (i j : nat) : fl := r2 (m * n) (share n o j) (share n b i).

(** itertools.permutations: arrangements of [r] elements, by position. *)
Fixpoint picks {A} (l : list A) : list (A * list A) :=
  match l with [] => [] | x :: t => (x, t) :: map (fun p => (fst p, x :: snd p)) (picks t) end.
Fixpoint perms {A} (r : nat) (l : list A) : list (list A) :=
  match r with
  | O => [[]]
  | S r' => flat_map (fun p => map (cons (fst p)) (perms r' (snd p))) (picks l)
  end.

(** line 89: any other method means 'all'. *)
Inductive cmethod := All | OnlyW | OnlyH | OnlyWH.
Definition method_of (s : string) : cmethod :=
  if String.eqb s "W" then OnlyW else if String.eqb s "H" then OnlyH else if String.eqb s "WH" then OnlyWH else All.

(** lines 425-449: the values of one arrangement. *)
Record combo := mkCombo { co_map : list nat; co_H : list fl; co_W : list fl; co_WH : list fl }.
Definition pair_at (base_k : bool) (i f : nat) : nat * nat := if base_k then (f, i) else (i, f).
Definition enumerate (p : list nat) : list (nat * nat) := combine (seq 0 (List.length p)) p.
Definition combine_factors (m n : nat) (b o : solution) (base_k : bool) (p : list nat) : combo :=
  let vals f := map (fun q => let '(i, j) := pair_at base_k (fst q) (snd q) in f i j) (enumerate p) in
  mkCombo p (vals (corr_H n b o)) (vals (corr_W m b o)) (vals (corr_WH m n b o)).
(** lines 338-345. *)
Definition model_avg (me : cmethod) (c : combo) : fl :=
  match me with
  | All => fdiv (fadd (fadd (lmean (co_H c)) (lmean (co_W c))) (lmean (co_WH c))) (Fin 3)
  | OnlyW => lmean (co_W c) | OnlyH => lmean (co_H c) | OnlyWH => lmean (co_WH c)
  end.

(** lines 347-369: the running best over all models and the best of this model;
    both only move for a strictly larger average, starting from 0. *)
Definition running := (option (nat * combo) * fl)%type.
Fixpoint scan (me : cmethod) (m : nat) (l : list combo) (best : running) (mine : option combo * fl) : running * (option combo * fl) :=
  match l with
  | [] => (best, mine)
  | c :: t =>
    let a := model_avg me c in
    let best' := if flt (snd best) a then (Some (m, c), a) else best in
    let mine' := if flt (snd mine) a then (Some c, a) else mine in
    scan me m t best' mine'
  end.
(** lines 317-371: all models in turn; the list holds what [model_results] has
    for each model ([None]: no entry). *)
Fixpoint scan_models (me : cmethod) (combos : list (list combo)) (m : nat) (best : running) : running * list (option combo) :=
  match combos with
  | [] => (best, [])
  | l :: t =>
    let '(best', mine) := scan me m l best (None, Fin 0) in
    let '(best'', rest) := scan_models me t (S m) best' in
    (best'', fst mine :: rest)
  end.

(** lines 223-249: the batch's results, [None] for a failed model, are filed under
    their position; lines 262-291 look up positions 0 .. count-1. *)
Definition parsed_count (results : list (option solution)) : nat := List.length (filter (fun r => match r with Some _ => true | None => false end) results).
Fixpoint lookup_all (results : list (option solution)) (count : nat) {struct count} : option (list solution) :=
  match count with
  | O => Some []
  | S c => match results with
           | Some s :: t => match lookup_all t c with Some l => Some (s :: l) | None => None end
           | _ => None
           end
  end.

(** lines 251-383.  [m] samples, [n] features, [kb] base factors, [ks] model
    factors. *)
Record comparison := mkCmp { cmp_model : nat; cmp_best : combo; cmp_avg : fl; cmp_models : list (option combo); cmp_base_k : bool }.
Definition compare (cpus m n kb ks : nat) (me : cmethod) (b : solution) (results : list (option solution)) : cres comparison :=
  let count := parsed_count results in
  match lookup_all results (if (kb =? 0)%nat then 0%nat else count) with
  | None => KeyErr
  | Some _ =>
    if (cpus <=? 1)%nat then ValErr                                  (* line 302: Pool(processes=0) *)
    else
      let base_k := (ks <=? kb)%nat in
      let arrangements := if base_k then perms ks (seq 0 kb) else perms kb (seq 0 ks) in
      match lookup_all results count with
      | None => KeyErr
      | Some sols =>
        let '(best, models) := scan_models me (map (fun o => map (combine_factors m n b o base_k) arrangements) sols) 0 (None, Fin 0) in
        match best with
        | (Some (i, c), a) => Done (mkCmp i c a models base_k)
        | (None, _) => TypeErr                                        (* line 381: list(None) *)
        end
      end
  end.

(** lines 397-401 and 411: the Q printed for the base solution; the data take the
    place of the uncertainties. *)
Definition printed_base_Q (m n k : nat) (V U : mat) (b : solution) : R := q_loss m n k true V V (s_W b) (s_H b).

(** ** load_pmf_output (92-196): files as lists of lines already split at tabs,
    [None] for a missing file; [num] tells which strings [float] accepts. *)
Definition drop_name (x : string) (l : list string) : list string := filter (fun y => negb (String.eqb x y)) l.
Fixpoint header (width : nat) (lines : list (list string)) (found : option (list string)) : option (list string) :=
  match lines with
  | [] => found
  | line :: t =>
    if (List.length line =? width)%nat && String.eqb (nth 0 line EmptyString) EmptyString && String.eqb (nth 1 line EmptyString) EmptyString
    then header width t (Some ("run"%string :: "species"%string :: skipn 2 line))
    else header width t found
  end.
(** The [n] first data lines. *)
Definition body (width n : nat) (lines : list (list string)) : list (list string) :=
  firstn n (filter (fun line => (List.length line =? width)%nat && negb (String.eqb (nth 0 line EmptyString) EmptyString && String.eqb (nth 1 line EmptyString) EmptyString)) lines).
(** lines 159-165: every column but the first left after removing "run" becomes
    float, with all columns of the same name. *)
Definition cells_ok (num : string -> bool) (labels : list string) (rows : list (list string)) : bool :=
  let kept := drop_name "run" labels in
  forallb (fun row => forallb (fun q => negb (existsb (String.eqb (fst q)) (skipn 1 kept)) || num (snd q)) (combine labels row)) rows.
Definition rows_ok (num : string -> bool) (width : nat) (rows : list (list string)) : bool :=
  forallb (fun row => (List.length row =? width)%nat && forallb num row) rows.

Inductive loaded := NoFile | Loaded.
Definition load_pmf (num : string -> bool) (factors n : nat) (profile contribution : option (list (list string))) : cres loaded :=
  match profile, contribution with
  | Some plines, Some clines =>
    match header (factors + 2) plines None with
    | None => KeyErr                                                  (* line 157: no column "run" *)
    | Some labels =>
      if negb (cells_ok num labels (body (factors + 2) n plines)) then ValErr
      else match nth_error clines 3 with
           | None => TypeErr                                          (* line 186: iterating None *)
           | Some head =>
             let ccols := skipn 2 head in
             let crows := map (skipn 2) (filter (fun r => (1 <? List.length r)%nat) (skipn 4 clines)) in
             if negb (rows_ok num (List.length ccols) crows) then ValErr
             else (* 198-202: every remaining column of the profile table is looked
                     up among the contribution columns and "Datetime".  (With a
                     contribution column called "species" more can fail: not
                     modelled.) *)
               if forallb (fun c => existsb (String.eqb c) (ccols ++ ["Datetime"%string])%list) (drop_name "run" labels)
               then Done Loaded else KeyErr
           end
    end
  | _, _ => Done NoFile
  end.
