(** Model of esat/data/datahandler.py 377-415 (loading) with row labels, 436-466
    (data kept for plotting), 490-505, 565-574, 633-665 (choice of features in the
    plots), 882-902 (load_dataframe) and esat/data/analysis.py 285-310, 352-375.

    A frame has labelled rows; labels are any type with decidable equality (the
    index column, or the positions 0, 1, ... without one).  Labels may repeat only
    when both frames list the same labels (pandas joins repeated labels
    otherwise; not modelled).  For a label only the right one of two boolean series
    has, [|] of pandas may ignore the value there; [fill] says whether it counts and is
    left open.  Quantiles are exact; infinite values do not occur in [columns].
    Drawing is left out: a plot is the data drawn. *)
From Coq Require Import List Bool String Reals Arith ZArith.
From Verif Require Import Base Fl Data_Model.
Import ListNotations.
Local Open Scope R_scope.

Section Labels.
Context {L : Type} (ldec : forall a b : L, {a = b} + {a <> b}) (fill : bool).

Record lframe := mkLF { lf_cols : list string; lf_rows : list (L * row) }.
Definition plain (f : lframe) : frame := mkF (lf_cols f) (map snd (lf_rows f)).
Definition labels (f : lframe) : list L := map fst (lf_rows f).
Definition same {A} (dec : forall a b : A, {a = b} + {a <> b}) (x y : list A) : bool :=
  if list_eq_dec dec x y then true else false.
Definition row_at (f : lframe) (l : L) : option row :=
  option_map snd (find (fun q => if ldec (fst q) l then true else false) (lf_rows f)).

(** lines 387-389.  Equal indexes: position by position; otherwise label by
    label, each frame keeping its own order. *)
Definition nan_filter (fi fu : lframe) : lframe * lframe :=
  let ni := all_nan (lf_cols fi) in let nu := all_nan (lf_cols fu) in
  if same ldec (labels fi) (labels fu) then
    let kept := filter (fun q => negb (ni (snd (fst q)) || nu (snd (snd q)))) (combine (lf_rows fi) (lf_rows fu)) in
    (mkLF (lf_cols fi) (map fst kept), mkLF (lf_cols fu) (map snd kept))
  else
    (mkLF (lf_cols fi) (filter (fun q => negb (ni (snd q) || match row_at fu (fst q) with Some r => nu r | None => false end)) (lf_rows fi)),
     mkLF (lf_cols fu) (filter (fun q => negb match row_at fi (fst q) with Some r => ni r || nu (snd q) | None => fill && nu (snd q) end) (lf_rows fu))).

(** lines 391-415.  Subtraction (403) aligns; comparison (404) insists on equal
    labels and columns in equal order. *)
Definition load_labelled (fi fu : lframe) (dr lc : option (list string)) : dres (list L * handler * (string -> fl)) :=
  let '(fi', fu') := nan_filter fi fu in
  if has_text (plain fi') || has_text (plain fu') then Raise TypeError
  else if negb (same ldec (labels fi') (labels fu') && same string_dec (lf_cols fi') (lf_cols fu')) then Raise ValueError
  else if (List.length (lf_rows fi') =? 0)%nat then Raise ZeroDivisionError
  else Ok (labels fi', mkH (plain fi') (plain fu') dr lc (map (fun c => (c, Strong)) (lf_cols fi')),
           signal_noise (plain fi') (plain fu')).
End Labels.
Arguments mkLF {L}. Arguments lf_cols {L}. Arguments lf_rows {L}. Arguments lframe L : clear implicits.

(** ** Data for plotting *)
(** lines 451-455, Series.quantile: the known values of a column in ascending
    order, linear interpolation at [k / N] of the way. *)
Fixpoint insert (x : R) (l : list R) : list R :=
  match l with [] => [x] | y :: t => if Rle_dec x y then x :: l else y :: insert x t end.
Fixpoint sorted_copy (l : list R) : list R := match l with [] => [] | x :: t => insert x (sorted_copy t) end.
Definition known (col : list fl) : list R := flat_map (fun x => match x with Fin a => [a] | _ => [] end) col.
Definition quantile (xs : list R) (N k : nat) : R :=
  let s := sorted_copy xs in
  let p := (k * (List.length xs - 1))%nat in
  let a := nth (p / N) s 0 in let b := nth (S (p / N)) s a in
  a + (b - a) * (INR (p mod N) / INR N).

(** lines 452-456, pandas.cut: bin edges that repeat are dropped (unless there are
    just two edges), and then there are more labels than bins, which raises.  A
    column without known values has only NaN edges, which raises too. *)
Fixpoint no_repeat (e : list R) : bool :=
  match e with a :: ((b :: _) as t) => (if Req_EM_T a b then false else true) && no_repeat t | _ => true end.
Definition edges (xs : list R) (N : nat) : list R := map (quantile xs N) (seq 0 (S N)).
Definition column_ok (N : nat) (col : list fl) : bool :=
  negb (List.length (known col) =? 0)%nat && ((N <=? 1)%nat || no_repeat (edges (known col) N)).

(** lines 436-466: [None] is the value of input_data_plot; for more rows than
    [max_plotting_n] the aggregate is stored under another name (464). *)
Inductive aggregated := Kept (rows : nat) | Absent | Raised.
Definition aggregate (max_n rows : nat) (columns : list (list fl)) : aggregated :=
  if (rows <=? max_n)%nat then Kept rows
  else if forallb (column_ok max_n) columns then Absent else Raised.

(** How a handler came about: DataHandler(...), or load_dataframe (also
    split_locations), which does not prepare plot data. *)
Inductive origin := FromFiles (max_n : nat) | FromFrames.
(** The constructor: None when it raises, else whether input_data_plot is there. *)
Definition construct (o : origin) (rows : nat) (columns : list (list fl)) : option bool :=
  match o with
  | FromFrames => Some false
  | FromFiles n => match aggregate n rows columns with Kept _ => Some true | Absent => Some false | Raised => None end
  end.

(** ** Which features a plot shows *)
Inductive perr := AttributeErr | TypeErr | IndexErr | KeyErr | LinAlgErr | SomeErr.
Inductive shown := Features (l : list nat) | Message | Error (e : perr).
Definition py_at (n : nat) (i : Z) : option nat :=
  if (0 <=? i)%Z then (if (i <? Z.of_nat n)%Z then Some (Z.to_nat i) else None)
  else if (- Z.of_nat n <=? i)%Z then Some (Z.to_nat (Z.of_nat n + i)) else None.
Definition one (n : nat) (i : Z) : shown := match py_at n i with Some f => Features [f] | None => Error IndexErr end.

(** lines 490-500 *)
Definition plot_data_uncertainty (ready : bool) (n : nat) (menu : bool) (feature : option Z) : shown :=
  if negb ready then Message
  else match menu, feature with false, Some i => one n i | _, _ => Features (seq 0 n) end.
(** lines 565-574 *)
Definition plot_feature_data (ready : bool) (n : nat) (x y : Z) : shown :=
  if negb ready then Error AttributeErr
  else if ((Z.of_nat n - 1 <? x) || (x <? 0))%Z then Message
  else if ((Z.of_nat n - 1 <? y) || (y <? 0))%Z then Message
  else Features [Z.to_nat x; Z.to_nat y].
(** lines 643-652: an index is first reduced modulo the number of rows *)
Inductive selection := ByIndex (i : Z) | ByList (l : list Z).
Fixpoint all_at (n : nat) (l : list Z) : option (list nat) :=
  match l with
  | [] => Some []
  | i :: t => match py_at n i, all_at n t with Some f, Some fs => Some (f :: fs) | _, _ => None end
  end.
Definition plot_feature_timeseries (ready : bool) (m n : nat) (s : selection) : shown :=
  if negb ready then Error AttributeErr
  else match s with
       | ByIndex i => one n (i mod Z.of_nat m)
       | ByList l => match all_at n l with Some fs => Features fs | None => Error IndexErr end
       end.
(** lines 689-690, 725-735, 775-782: all features, or None[...]; plot_ridgeline in FeatPlot_Model *)
Definition plot_heatmap (ready : bool) (n : nat) : shown := if ready then Features (seq 0 n) else Error AttributeErr.
Definition plot_histograms (ready : bool) (n : nat) : shown := if ready then Features (seq 0 n) else Error AttributeErr.
Definition plot_2d (ready : bool) (n : nat) (x y : nat) : shown :=
  if ready then (if ((x <? n) && (y <? n))%nat then Features [x; y] else Error KeyErr) else Error TypeErr.
(** analysis.py 289-313: [m_df] rows remain in the processed data; lstsq needs as
    many predictions as observations.  Without plot data None[...] or, after
    aggregation, a frame of the wrong size raises. *)
Definition plot_estimated_observed (ready : bool) (m_plot m_df n : nat) (i : Z) : shown :=
  if ((i <? 0) || (Z.of_nat n <=? i))%Z then Message
  else if negb ready then Error SomeErr
  else if (m_plot =? m_df)%nat then Features [Z.to_nat i] else Error LinAlgErr.
