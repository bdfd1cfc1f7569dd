(** Model of what the plots of esat/data/analysis.py:ModelAnalysis show and when they
    fail, lines 33-73, 271-926, in exact reals.  The model is trained, the handler
    keeps all its samples and has the data for plotting (C98), feature names are
    distinct, and all models put into one analysis have the same sizes.  Drawing, axes, colours and the detection of the time step (C75) are
    not modelled. *)
From Coq Require Import List Bool ZArith Reals.
From Verif Require Import Base Fl Boot_Model Analysis_Model.
Import ListNotations.
Local Open Scope R_scope.

Inductive exn := TypeErr | IndexErr.
(** Nothing drawn (a logged message), an exception, or figures, with the model
    number in their titles if there is one. *)
Inductive result (A : Type) := Nothing | Raises (e : exn) | Shown (number : option Z) (x : A).
Arguments Nothing {A}. Arguments Raises {A} e. Arguments Shown {A} number x.

Record solution := mkSol { s_m : nat; s_n : nat; s_k : nat; s_W : mat; s_H : mat; s_V : mat }.
(** Titles with "Model {self.selected_model+1}" (390, 467, 475, 535, 703, 746, 795,
    812); [None] is the default of the constructor. *)
Definition titled {A : Type} (sel : option Z) (x : A) : result A :=
  match sel with None => Raises TypeErr | Some i => Shown (Some (i + 1)%Z) x end.
(** lines 424, 731, 734, 868 *)
Definition bad_factor (k : nat) (f : Z) : bool := ((Z.of_nat k <? f) || (f <? 1))%Z.
Definition or_else {A : Type} (o : option A) (d : A) : A := match o with Some x => x | None => d end.
Definition row {A : Type} (n : nat) (f : nat -> A) : list A := map f (seq 0 n).

(** ** plot_factor_profile, 403-483: label, shares, bars, normalised contributions *)
Definition plot_factor_profile (sel : option Z) (s : solution) (f : Z) (oH oW : option mat)
  : result (Z * list fl * list R * list fl) :=
  if bad_factor (s_k s) f then Nothing
  else let i := Z.to_nat (f - 1) in
       let H := or_else oH (s_H s) in
       let W := or_else oW (s_W s) in
       titled sel (f, row (s_n s) (norm_profile (s_k s) H i), row (s_n s) (conc_sum (s_m s) W H i),
                   row (s_m s) (fun t => profile_contribution (s_m s) W t i)).

(** ** plot_all_factors, 485-541: label, bars, shares of each factor shown *)
Definition plot_all_factors (sel : option Z) (s : solution) (chosen : option (list Z)) (oH oW : option mat)
  : result (list (Z * list R * list fl)) :=
  let H := or_else oH (s_H s) in
  let W := or_else oW (s_W s) in
  let kept i := match chosen with None => true | Some l => existsb (Z.eqb (Z.of_nat i)) l end in
  titled sel (map (fun i => ((Z.of_nat i + 1)%Z, row (s_n s) (conc_sum (s_m s) W H i), row (s_n s) (norm_profile (s_k s) H i)))
                  (filter kept (seq 0 (s_k s)))).

(** ** plot_all_factors_3d, 543-690: heights of the bars of each factor.  [Both] and
    [Conc] are plot_type "both" and "conc" in any case, [Other] any other string. *)
Inductive plot_type := Conc | Both | Other.
Definition log10 (x : R) : R := ln x / ln 10.
Definition plot_3d (s : solution) (p : plot_type) (oH oW : option mat) : result (list (Z * list fl)) :=
  let H := or_else oH (s_H s) in
  let W := or_else oW (s_W s) in
  let conc := map (fun i => ((Z.of_nat i + 1)%Z, row (s_n s) (fun j => Fin (log10 (conc_sum (s_m s) W H i j + 1))))) (seq 0 (s_k s)) in
  let percent := map (fun i => ((Z.of_nat i + 1)%Z, row (s_n s) (norm_profile (s_k s) H i))) (seq 0 (s_k s)) in
  let traces := match p with Conc | Both => [conc] | Other => [percent] end in      (* 645-649 *)
  match p with
  | Both => match nth_error traces 1 with                                           (* 651 *)
            | None => Raises IndexErr
            | Some _ => Shown None (hd [] traces)
            end
  | _ => Shown None (hd [] traces)
  end.

(** ** plot_factor_fingerprints, 692-711: the title is set inside the loop *)
Definition plot_fingerprints (sel : option Z) (s : solution) : result (list (Z * list fl)) :=
  let bars := map (fun i => ((Z.of_nat i + 1)%Z, row (s_n s) (norm_profile (s_k s) (s_H s) i))) (rev (seq 0 (s_k s))) in
  match bars with [] => Shown None [] | _ => titled sel bars end.

(** ** plot_g_space, 713-752 *)
Definition plot_g_space (sel : option Z) (s : solution) (f1 f2 : Z) : result (list (fl * fl)) :=
  if bad_factor (s_k s) f1 then Nothing else if bad_factor (s_k s) f2 then Nothing
  else titled sel (row (s_m s) (fun t => (gspace_contribution (s_m s) (s_W s) t (Z.to_nat (f1 - 1)),
                                          gspace_contribution (s_m s) (s_W s) t (Z.to_nat (f2 - 1))))).

(** ** plot_factor_contributions, 754-819: the pie and the series of each factor *)
Definition plot_contributions (sel : option Z) (s : solution) (j : Z) (c : R)
  : result (list (Z * fl) * list (Z * list fl)) :=
  if ((Z.of_nat (s_n s) - 1 <? j) || (j <? 0))%Z then Nothing
  else if threshold_rejected c then Nothing
  else titled sel (map (fun p => ((Z.of_nat (fst p) + 1)%Z, snd p)) (pie (s_k s) (s_H s) (Z.to_nat j) c),
                   map (fun i => ((Z.of_nat i + 1)%Z, row (s_m s) (fun t => percent_contribution (s_m s) (s_W s) t i))) (seq 0 (s_k s))).

(** ** plot_factor_composition, 821-841 *)
Definition plot_composition (s : solution) : result (list (Z * list fl)) :=
  Shown None (map (fun i => ((Z.of_nat i + 1)%Z, row (s_n s) (composition (s_k s) (s_H s) i))) (seq 0 (s_k s))).

(** ** plot_factor_surface, 843-926: the surface as samples x columns; a column is a
    factor or a feature; for a factor also the features with a tick *)
Inductive surface := OfFeature (j : nat) (z : list (list fl)) | OfFactor (f : Z) (z : list (list fl)) (ticks : list nat).
Definition height (s : solution) (percentage : bool) (i t j : nat) : fl :=
  if percentage then percent_matrix (s_W s) (s_H s) (s_V s) i t j else Fin (factor_matrix (s_W s) (s_H s) i t j).
Definition plot_surface (s : solution) (factor feature : option Z) (percentage : bool) (zero : R) : result surface :=
  match factor, feature with
  | None, None => Nothing
  | _, _ =>
    if match factor with Some f => bad_factor (s_k s) f | None => false end then Nothing
    else if match feature with Some j => ((j <? 1) || (Z.of_nat (s_n s) <? j))%Z | None => false end then Nothing
    else match factor with
         | Some f =>
             let i := Z.to_nat (f - 1) in
             let z t j := if flt (height s percentage i t j) (Fin zero) then NaN else height s percentage i t j in
             Shown None (OfFactor f (row (s_m s) (fun t => row (s_n s) (z t)))
                           (filter (fun j => negb (forallb (fun t => is_nan (z t j)) (seq 0 (s_m s)))) (seq 0 (s_n s))))
         | None =>
             let j := Z.to_nat (or_else feature 1%Z - 1) in
             Shown None (OfFeature j (row (s_m s) (fun t => row (s_k s) (fun i => height s percentage i t j))))
         end
  end.

(** ** Estimated and observed values *)
(** numpy.linalg.lstsq of [x 1] against y: the least-squares solution of minimal norm *)
Definition lstsq (m : nat) (x y : nat -> R) : R * R :=
  if Reqb (cov m x x) 0
  then let c := mean m x in (c * mean m y / (c * c + 1), mean m y / (c * c + 1))
  else let a := cov m x y / cov m x x in (a, mean m y - a * mean m x).

Record analysis := mkAna { a_sol : solution; a_sel : option Z; a_cache : option mat }.
Section Estimates.
  Context {name : Type} (name_eqb : name -> name -> bool) (features : list name).
  (** dh.input_data_plot *)
  Context (obs : mat).
  (** lines 57-73: V_prime_plot *)
  Definition vprime (s : solution) : mat := factor_vprime (s_k s) (s_W s) (s_H s).
  Definition shown_estimate (a : analysis) : mat := match a_cache a with Some c => c | None => vprime (a_sol a) end.
  Definition fill (a : analysis) : analysis := mkAna (a_sol a) (a_sel a) (Some (shown_estimate a)).

  (** 271-334: observed, predicted, regression line and "one-to-one" line *)
  Definition estimated_observed (a : analysis) (idx : option Z) (nm : option name)
    : analysis * result (list R * list R * list R * list R) :=
    match choose_feature name_eqb features idx nm with
    | None => (a, Nothing)
    | Some (j, _) =>
        let m := s_m (a_sol a) in
        let x t := obs t j in
        let y t := shown_estimate a t j in
        let (b, c) := lstsq m x y in
        let (b1, c1) := lstsq m x x in
        (fill a, Shown None (row m x, row m y, row m (fun t => b * x t + c), row m (fun t => b1 * x t + c1)))
    end.
  (** 336-401: [bins] are the samples of the consecutive time steps of resample *)
  Definition bin_mean (f : nat -> R) (b : list nat) : fl :=
    match b with [] => NaN | _ => Fin (lsum (map f b) / INR (length b)) end.
  Definition estimated_timeseries (bins : list (list nat)) (a : analysis) (idx : option Z) (nm : option name)
    : analysis * result (list fl * list fl * list fl) :=
    match choose_feature name_eqb features idx nm with
    | None => (a, Nothing)
    | Some (j, _) =>
        let o := map (bin_mean (fun t => obs t j)) bins in
        let p := map (bin_mean (fun t => shown_estimate a t j)) bins in
        (fill a, titled (a_sel a) (o, p, map (fun q => fsub (fst q) (snd q)) (combine o p)))
    end.

  (** What happens to an analysis object: its model is replaced or trained again, or
      one of the two plots is asked for. *)
  Inductive op := Replace (s : solution) | Observed (idx : option Z) (nm : option name)
    | Series (bins : list (list nat)) (idx : option Z) (nm : option name).
  Definition step (a : analysis) (o : op) : analysis :=
    match o with
    | Replace s => mkAna s (a_sel a) (a_cache a)
    | Observed idx nm => fst (estimated_observed a idx nm)
    | Series bins idx nm => fst (estimated_timeseries bins a idx nm)
    end.
  Definition run (a : analysis) (l : list op) : analysis := fold_left step l a.
End Estimates.
