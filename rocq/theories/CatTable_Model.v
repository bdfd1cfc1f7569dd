(** The table of a factor catalog: eval/factor_catalog.py 189-208 (to_df).

    On top of [Catalog_Model].  The rows are given as they are made, in the order of
    the entries; sort_values puts them in descending order of the percentage rounded
    to two decimals and leaves the order of equal ones open, so a table is any such
    rearrangement.  [rnd] is the rounding of the percentages; the rounding of the
    mean to four decimals is left out. *)
From Coq Require Import List Bool Reals Arith Permutation Sorting.Sorted.
From Verif Require Import Base Fl Est_Model Catalog_Model.
Import ListNotations.
Local Open Scope R_scope.

Record row := mkRow { rw_key : nat; rw_count : nat; rw_pct : R; rw_mean : fl }.
(** lines 202-204 *)
Definition row_of (c : catalog) (key : nat) (e : entry) : row :=
  mkRow key (List.length e) (100 * INR (List.length e) / INR (ct_count c)) (lmean (map mb_corr e)).
(** lines 198-205; [None]: ZeroDivisionError in the first row. *)
Definition rows (c : catalog) : option (list row) :=
  match ct_entries c with
  | [] => Some []
  | es => if (ct_count c =? 0)%nat then None else Some (map (fun p => row_of c (fst p) (snd p)) (combine (seq 0 (List.length es)) es))
  end.
(** lines 206-208 *)
Definition table (rnd : R -> R) (c : catalog) (t : list row) : Prop :=
  exists r, rows c = Some r /\ Permutation t r /\ StronglySorted (fun a b => rnd (rw_pct b) <= rnd (rw_pct a)) t.
