(** Model of the class CompareAnalyzer, esat/data/test_tools.py 7-269: six kinds of
    figures that compare a PMF solution with an LS-NMF and a WS-NMF solution.  Each
    solution is a table of profiles (one row per species, one column per factor) and
    one of contributions; the columns of all tables are "Factor 1" .. "Factor k" (a
    mapping gives for each PMF factor the name of a column, here its number from 1).
    Exact reals with [fl] where a division by zero can occur.  Features are all text.
    Not modelled: sizes, axis titles, colours; a table with other columns. *)
From Coq Require Import List Bool Arith ZArith Reals String.
From Verif Require Import Base Fl TimePlot_Model.
Import ListNotations.
Local Open Scope R_scope.

Inductive cexn := KeyError | IndexError | ValueError | ZeroDivisionError | TypeError.
Inductive res (A : Type) := Ok (a : A) | Raise (e : cexn).
Arguments Ok {A}. Arguments Raise {A}.
Definition bind {A B} (r : res A) (f : A -> res B) : res B := match r with Ok a => f a | Raise e => Raise e end.

(** A solution: species in order of the rows of its profile table, profile value of
    factor [f] (from 0) in row [j], contribution of factor [f] to sample [t]. *)
Record solution := mkSol { species : list string; prof : nat -> nat -> R; contr : nat -> nat -> R }.
(** lines 12-40; [c_array]: features given as a numpy array, not a list; [c_stamps]:
    datetimestamps; input_df: [c_index] its index, columns [c_columns]. *)
Record analyzer := mkAn { c_k : nat; c_m : nat; c_features : list string; c_array : bool;
                          pmf : solution; ls : solution; ws : solution; ls_map : list nat; ws_map : list nat;
                          c_stamps : nat -> Z; c_index : list Z; c_columns : list string; c_input : nat -> string -> R }.

(** lines 42-46: shares of the factors in a row. *)
Definition standardize (k : nat) (s : solution) (f j : nat) : fl := fdiv (Fin (prof s f j)) (Fin (rsum k (fun g => prof s g j))).
Fixpoint index_of (x : string) (l : list string) : option nat :=
  match l with [] => None | y :: t => if String.eqb y x then Some O else option_map S (index_of x t) end.
Definition py_index (len : nat) (i : Z) : option nat :=
  if ((- Z.of_nat len <=? i) && (i <? Z.of_nat len))%Z then Some (Z.to_nat (if (i <? 0)%Z then i + Z.of_nat len else i)) else None.
(** The name of a column given by a mapping, and its position; a mapping that is too
    short raises, and so does a column that is not there. *)
Definition mapped (k : nat) (mp : list nat) (f : nat) : res nat :=
  match nth_error mp f with
  | None => Raise IndexError
  | Some q => if (1 <=? q)%nat && (q <=? k)%nat then Ok (q - 1)%nat else Raise KeyError
  end.

(** ** plot_factor_contribution, lines 55-79: three pies of (factor number, share). *)
Definition pick (a : analyzer) (feature : option string) (feature_i : Z) (wrap : bool) : res string :=
  let n := List.length (c_features a) in
  let at_ q := match nth_error (c_features a) q with Some y => Ok y | None => Raise IndexError end in
  let fallback :=
    if wrap then (if (n =? 0)%nat then Raise ZeroDivisionError else at_ (Z.to_nat (feature_i mod Z.of_nat n)))
    else match py_index n feature_i with Some q => at_ q | None => Raise IndexError end in
  match feature with
  | Some x => if index_of x (c_features a) then Ok x else fallback
  | None => fallback
  end.
(** line 45: a column of another length than the table raises. *)
Definition with_features (a : analyzer) (s : solution) : res unit :=
  if (List.length (species s) =? List.length (c_features a))%nat then Ok tt else Raise ValueError.
Definition pie (a : analyzer) (s : solution) (j : nat) : list (nat * fl) :=
  map (fun f => (S f, standardize (c_k a) s f j)) (seq 0 (c_k a)).
Definition plot_factor_contribution (a : analyzer) (feature : option string) (feature_i : Z) : res (string * list (list (nat * fl))) :=
  bind (pick a feature feature_i true) (fun x =>
  bind (with_features a (pmf a)) (fun _ => bind (with_features a (ls a)) (fun _ => bind (with_features a (ws a)) (fun _ =>
    if c_array a then
      match index_of x (c_features a) with                                  (* 63-65, values[0] *)
      | Some j => Ok (x, [pie a (pmf a) j; pie a (ls a) j; pie a (ws a) j])
      | None => Raise IndexError
      end
    else Raise KeyError)))).                                                (* a list == text is False *)

(** ** plot_fingerprints, lines 81-127 *)
(** A bar: name (factor number), and per row its species and height. *)
Definition bar := (nat * list (string * fl))%type.
Definition percent (a : analyzer) (s : solution) (f : nat) : list (string * fl) :=
  map (fun j => (nth j (species s) EmptyString, fmul (Fin 100) (standardize (c_k a) s f j))) (seq 0 (List.length (species s))).
Fixpoint each {A B} (f : A -> res B) (l : list A) : res (list B) :=
  match l with
  | [] => Ok []
  | x :: t => bind (f x) (fun y => bind (each f t) (fun r => Ok (y :: r)))
  end.
Record fig3 := mkFig3 { g_pmf : list bar; g_ls : list bar; g_ws : list bar; title_ls : option R; title_ws : option R }.
Definition plot_fingerprints (a : analyzer) (ls_r2 ws_r2 : R) : res fig3 :=
  bind (each (fun f => bind (mapped (c_k a) (ws_map a) f) (fun w => bind (mapped (c_k a) (ls_map a) f) (fun l =>
              Ok ((S f, percent a (pmf a) f), (S l, percent a (ls a) l), (S w, percent a (ws a) w))))) (rev (seq 0 (c_k a)))) (fun l =>
  Ok (mkFig3 (map (fun x => fst (fst x)) l) (map (fun x => snd (fst x)) l) (map snd l)
        (if Rltb 0 ls_r2 then Some ls_r2 else None) (if Rltb 0 ws_r2 then Some ws_r2 else None))).

(** ** plot_factors, lines 129-153: a figure of six rows. *)
Definition share_bars (a : analyzer) (s : solution) (f : nat) : list (string * fl) :=
  map (fun j => (nth j (species s) EmptyString, standardize (c_k a) s f j)) (seq 0 (List.length (species s))).
Definition plot_factors (a : analyzer) : res (list (bar * bar * bar)) :=
  each (fun f => bind (mapped (c_k a) (ws_map a) f) (fun w => bind (mapped (c_k a) (ls_map a) f) (fun l =>
          if (f <? 6)%nat then Ok ((S f, share_bars a (pmf a) f), (S w, share_bars a (ws a) w), (S l, share_bars a (ls a) l))
          else Raise ValueError))) (seq 0 (c_k a)).

(** ** plot_feature_timeseries, lines 155-201 *)
Inductive which := OneFeature (i : Z) | AllFeatures | SomeText | Several (l : list Z).
Definition line := list (Z * fl).
(** The column of a feature in the product of a factor's contributions and profile; the
    columns carry the species of the PMF table (162, 170, 178).  A table of another
    number of rows raises. *)
Definition product (a : analyzer) (s : solution) (f : nat) : res (string -> res line) :=
  if (List.length (species s) =? List.length (species (pmf a)))%nat then
    Ok (fun x => match index_of x (species (pmf a)) with
                 | None => Raise KeyError
                 | Some j => Ok (map (fun t => (c_stamps a t, Fin (contr s t f * prof s f j))) (seq 0 (c_m a)))
                 end)
  else Raise ValueError.
Definition input_line (a : analyzer) (x : string) : res (list fl) :=
  match index_of x (c_columns a) with None => Raise KeyError | Some _ => Ok (map (fun t => Fin (c_input a t x)) (seq 0 (List.length (c_index a)))) end.
Definition feature_list (a : analyzer) (w : which) : list (option Z) :=
  match w with
  | OneFeature i => [Some i]
  | AllFeatures => map (fun j => Some (Z.of_nat j)) (seq 0 (List.length (species (pmf a))))
  | SomeText => [None]
  | Several l => map Some l
  end.
Record tsfig := mkTs { ts_name : string; ts_pmf : line; ts_ls : line; ts_ws : line; ts_in : option (list fl) }.
Definition plot_feature_timeseries (a : analyzer) (f : nat) (w : which) (show_input : bool) : res (list tsfig) :=
  if (c_k a <=? f)%nat then Raise IndexError else
  bind (product a (pmf a) f) (fun p =>
  bind (mapped (c_k a) (ls_map a) f) (fun lf => bind (product a (ls a) lf) (fun l =>
  bind (mapped (c_k a) (ws_map a) f) (fun wf => bind (product a (ws a) wf) (fun v =>
    each (fun i => match i with
      | None => Raise TypeError
      | Some i =>
        match py_index (List.length (c_features a)) i with
        | None => Raise IndexError
        | Some q => match nth_error (c_features a) q with
          | None => Raise IndexError
          | Some x => bind (p x) (fun y1 => bind (l x) (fun y2 => bind (v x) (fun y3 =>
              if show_input then bind (input_line a x) (fun y4 => Ok (mkTs x y1 y2 y3 (Some y4))) else Ok (mkTs x y1 y2 y3 None))))
          end
        end
      end) (feature_list a w)))))).

(** ** timeseries_plot, lines 203-226, and feature_histogram, lines 228-269 *)
(** lines 48-53: the fitted data; the columns carry the features, and another number
    of rows in the profile table raises. *)
Definition fitted (a : analyzer) (s : solution) : res (string -> nat -> R) :=
  if (List.length (species s) =? List.length (c_features a))%nat then
    Ok (fun x t => match index_of x (c_features a) with Some j => rsum (c_k a) (fun f => contr s t f * prof s f j) | None => 0 end)
  else Raise ValueError.
Definition input_at (a : analyzer) (x : string) : res (nat -> R) :=
  match index_of x (c_columns a) with None => Raise KeyError | Some _ => Ok (fun t => c_input a t x) end.
Definition timeseries_plot (a : analyzer) (feature : option string) (feature_i : Z) : res (string * list series) :=
  bind (fitted a (pmf a)) (fun p => bind (fitted a (ls a)) (fun l => bind (fitted a (ws a)) (fun w =>
  bind (pick a feature feature_i false) (fun x => bind (input_at a x) (fun v =>
    let one (y : string -> nat -> R) := daily (c_stamps a) (seq 0 (c_m a)) (fun t => Fin (y x t)) in
    Ok (x, [one p; one l; one w; daily (fun t => nth t (c_index a) 0%Z) (seq 0 (List.length (c_index a))) (fun t => Fin (v t))])))))).

(** Subtraction of tables with the same index, and otherwise by label: NaN where a label
    is missing on one side.  (Labels that occur once.) *)
Fixpoint zindex (x : Z) (l : list Z) : option nat :=
  match l with [] => None | y :: t => if (y =? x)%Z then Some O else option_map S (zindex x t) end.
Definition residuals (a : analyzer) (x : string) (y : nat -> R) : list fl :=
  let stamps := map (c_stamps a) (seq 0 (c_m a)) in
  let labels := zsort (nodup Z.eq_dec (c_index a ++ stamps)) in
  map (fun z => match zindex z (c_index a), zindex z stamps with
                | Some i, Some t => Fin (c_input a i x - y t)
                | _, _ => NaN
                end) (if list_eq_dec Z.eq_dec (c_index a) stamps then c_index a else labels).
Definition values (l : list fl) : list R := flat_map (fun x => match x with Fin r => [r] | _ => [] end) l.
(** min, mean, max, and the number of values of at least the threshold in size. *)
Record stats := mkStats { st_min : fl; st_mean : fl; st_max : fl; st_count : nat }.
Definition describe (threshold : R) (l : list fl) : stats :=
  match values l with
  | [] => mkStats NaN NaN NaN 0
  | v :: t => mkStats (Fin (fold_left Rmin t v)) (Fin (lsum (v :: t) / INR (S (List.length t)))) (Fin (fold_left Rmax t v))
                (List.length (filter (fun r => Rleb threshold (Rabs r)) (v :: t)))
  end.
Definition feature_histogram (a : analyzer) (feature : option string) (feature_i : Z) (threshold : R) : res (string * list (list fl * stats)) :=
  bind (fitted a (pmf a)) (fun p => bind (fitted a (ls a)) (fun l => bind (fitted a (ws a)) (fun w =>
  bind (pick a feature feature_i false) (fun x =>
    let one (y : string -> nat -> R) :=
      let r := if index_of x (c_columns a) then residuals a x (y x) else map (fun _ => NaN) (residuals a x (y x)) in (r, describe threshold r) in
    Ok (x, [one p; one l; one w]))))).
