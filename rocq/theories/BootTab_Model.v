(** Model of the tables of esat/error/bootstrap.py: show_q_table (597-608) and
    show_factor_results (610-647), on top of ErrPlot_Model (the runs and their
    statistics).  Exact reals; losses of the runs are finite.  Not modelled: layout
    of the tables; a run without any bootstrap (bootstrap_n = 0). *)
From Coq Require Import List Bool Arith ZArith Reals.
From Flocq Require Import Core.
From Verif Require Import Base Fl Boot_Model ErrPlot_Model.
From Verif Require Align_Model.
Import ListNotations.
Local Open Scope R_scope.

Inductive terr := NoRuns | BadLabels | NoLoss | NanLoss | InfLoss.
Inductive tres (A : Type) := Table (a : A) | Info | Failed (e : terr).
Arguments Table {A}. Arguments Info {A}. Arguments Failed {A}.

(** pandas: quantile with linear interpolation, median, standard deviation with
    [N - 1] in the denominator (NaN for a single value) *)
Definition pquant (xs : list R) (q : nat) : R := Align_Model.quantile xs 100 q.
Definition pmedian (xs : list R) : R :=
  let s := Align_Model.sorted_copy xs in
  let N := List.length s in
  if (N mod 2 =? 1)%nat then nth (N / 2) s 0 else (nth (N / 2 - 1) s 0 + nth (N / 2) s 0) / 2.
Definition pmean (xs : list R) : R := lsum xs / INR (List.length xs).
Definition pstd (xs : list R) : fl :=
  if (List.length xs <=? 1)%nat then NaN
  else Fin (sqrt (lsum (map (fun x => (x - pmean xs) * (x - pmean xs)) xs) / INR (List.length xs - 1))).
Definition round6 (x : R) : R := IZR (ZnearestE (x * 1000000)) / 1000000.
Definition fround6 (x : fl) : fl := match x with Fin r => Fin (round6 r) | y => y end.
Definition zap (eps x : R) : R := if Rltb x eps then 0 else x.

(** Lines 635-640, one feature. *)
Record brow := mkBrow { b_base : R; b_within : bool; b_mean : R; b_std : fl; b_p5 : R; b_p25 : R; b_med : R; b_p75 : R; b_p95 : R }.
(** lines 624-640: [x] is the base model's value, [vs] those of the table built at
    555-568. *)
Definition feature_row (x : R) (table : list R) : brow :=
  let vs := map (zap EPS5) table in
  let b := zap EPS5 x in
  mkBrow (round6 b) (Rleb (pquant vs 25) b && Rleb b (pquant vs 75)) (round6 (pmean vs)) (fround6 (pstd vs))
         (round6 (pquant vs 5)) (round6 (pquant vs 25)) (round6 (pmedian vs)) (round6 (pquant vs 75)) (round6 (pquant vs 95)).
(** lines 610-647; [None]: run has not been called, factor_tables is empty.
    [labels] is the number of feature labels. *)
Definition show_results (k n labels : nat) (runs : option (list run)) (base_H : mat) (factor : Z) : tres (list brow) :=
  if bad_factor k factor then Info
  else match runs with
       | None => Failed NoRuns
       | Some rs =>
           if negb (labels =? n)%nat then Failed BadLabels
           else Table (map (fun j => feature_row (base_H (pos_of factor) j) (factor_table k rs (pos_of factor) j)) (seq 0 n))
       end.

(** lines 597-608: base, minimum, 25 percent, median, 75 percent, maximum, rounded to
    integers.  [None] as loss: the base model was not trained. *)
Definition lowest (xs : list R) : R := nth 0 (Align_Model.sorted_copy xs) 0.
Definition highest (xs : list R) : R := nth (List.length xs - 1) (Align_Model.sorted_copy xs) 0.
Definition show_q (base_Q : option fl) (qs : list R) : tres (list Z) :=
  match base_Q with
  | None => Failed NoLoss
  | Some NaN => Failed NanLoss
  | Some (Fin b) => Table [ZnearestE b; ZnearestE (lowest qs); ZnearestE (pquant qs 25); ZnearestE (pmedian qs); ZnearestE (pquant qs 75); ZnearestE (highest qs)]
  | Some _ => Failed InfLoss
  end.
