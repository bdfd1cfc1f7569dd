(** What the plots of features of the data handler show
    (esat/data/datahandler.py 555-632, 679-720, 793-879), in exact reals with IEEE
    specials.  [A] is the data kept for plotting, [m] samples of [n] features;
    None when the handler keeps none (see C98).  Titles, labels, colours and hover
    texts are left out. *)
From Coq Require Import List Bool Arith ZArith Reals.
From Verif Require Import Base Fl.
From Verif Require Boot_Model Recomb_Model Show_Model.
Import ListNotations.
Local Open Scope R_scope.

Definition cells := nat -> nat -> fl.
Inductive outcome (A : Type) := Figure (f : A) | NoFigure | Fails.
Arguments Figure {A} f.
Arguments NoFigure {A}.
Arguments Fails {A}.

(** ** One feature against another *)
(** lines 577-580: the samples with both values finite *)
Definition finite_pairs (m : nat) (A : cells) (x y : nat) : list (nat * (R * R)) :=
  flat_map (fun t => match A t x, A t y with Fin a, Fin b => [(t, (a, b))] | _, _ => [] end) (seq 0 m).
Definition greatest (l : list R) : fl := fold_right (fun a acc => match acc with Fin b => Fin (Rmax a b) | _ => Fin a end) NaN l.
Definition fplus_half (x : fl) : fl := fadd x (Fin (1 / 2)).
(** points (sample, x, y), the two lines at the points, the upper ends of the axes *)
Record scatter := mkScatter { sc_points : list (nat * (R * R)); sc_fit : list R; sc_one : list R; sc_x0 : R; sc_x1 : fl; sc_y0 : R; sc_y1 : fl }.
(** lines 566-632 *)
Definition plot_feature_data (data : option cells) (m n : nat) (x y : Z) : outcome scatter :=
  match data with
  | None => Fails
  | Some A =>
      if ((Z.of_nat n - 1 <? x) || (x <? 0))%Z then NoFigure
      else if ((Z.of_nat n - 1 <? y) || (y <? 0))%Z then NoFigure
      else
        let pts := finite_pairs m A (Z.to_nat x) (Z.to_nat y) in
        let xs := map (fun p => fst (snd p)) pts in
        let ys := map (fun p => snd (snd p)) pts in
        let at_ l i := nth i l 0 in
        let (b, c) := Show_Model.lstsq (length pts) (at_ xs) (at_ ys) in
        let (b1, c1) := Show_Model.lstsq (length pts) (at_ xs) (at_ xs) in
        Figure (mkScatter pts (map (fun v => b * v + c) xs) (map (fun v => b1 * v + c1) xs)
                  0 (fplus_half (greatest xs)) 0 (fplus_half (greatest ys)))
  end.

(** ** Correlations (lines 697-707, method pearson): pandas uses for each pair of
    features the samples with both values finite *)
Definition correlation (m : nat) (A : cells) (i j : nat) : fl :=
  let pts := finite_pairs m A i j in
  Recomb_Model.corr (length pts) (fun t => nth t (map (fun p => fst (snd p)) pts) 0) (fun t => nth t (map (fun p => snd (snd p)) pts) 0).
Definition plot_heatmap (data : option cells) (m n : nat) : outcome (list (list fl)) :=
  match data with
  | None => Fails
  | Some A => Figure (map (fun i => map (fun j => correlation m A i j) (seq 0 n)) (seq 0 n))
  end.

(** ** Ridgelines *)
(** lines 826-828: dropna, and with [log_x] only what is positive *)
Definition column (m : nat) (A : cells) (j : nat) : list fl := map (fun t => A t j) (seq 0 m).
Definition present (l : list fl) : list fl := filter (fun x => match x with NaN => false | _ => true end) l.
Definition positive (l : list fl) : list fl := filter (fun x => flt (Fin 0) x) l.
(** scipy.stats.gaussian_kde raises for infinite values, for fewer than two values
    and for a variance of 0; Scott's bandwidth *)
Fixpoint all_finite (l : list fl) : option (list R) :=
  match l with
  | [] => Some []
  | Fin a :: t => option_map (cons a) (all_finite t)
  | _ :: _ => None
  end.
Definition variance (l : list R) : R :=
  let c := lsum l / INR (length l) in lsum (map (fun v => (v - c) * (v - c)) l) / (INR (length l) - 1).
Definition gaussian_kde (l : list R) : option (R -> R) :=
  if (length l <? 2)%nat then None
  else if Reqb (variance l) 0 then None
  else let h2 := variance l * Rpower (INR (length l)) (- (2 / 5)) in
       Some (fun x => lsum (map (fun v => exp (- ((x - v) * (x - v)) / (2 * h2))) l) / (INR (length l) * sqrt (2 * PI * h2))).
Definition linspace (a b : R) (k : nat) : list R := map (fun i => a + INR i * ((b - a) / (INR k - 1))) (seq 0 k).
Definition least (l : list R) : R := fold_right Rmin (hd 0 l) l.
Definition most (l : list R) : R := fold_right Rmax (hd 0 l) l.

Record ridge := mkRidge { rd_feature : nat; rd_base : R; rd_x : list R; rd_y : list R }.
(** lines 825-856: the curve of one feature; [Fails] aborts the plot, [NoFigure] is
    the [continue] of line 838 *)
Definition ridge_of (log_x : bool) (spacing : R) (nbins m : nat) (A : cells) (j : nat) : outcome ridge :=
  let data := present (column m A j) in
  let draw vals :=
    match gaussian_kde vals with
    | None => Fails
    | Some kde =>
        let grid := linspace (least vals) (most vals) nbins in
        Figure (mkRidge j (INR j * spacing) grid (map (fun x => kde x + INR j * spacing) grid))
    end in
  if log_x then
    match all_finite (positive data) with None => Fails | Some l => draw (map Recomb_Model.log10 l) end
  else if (length data <? 2)%nat then NoFigure
  else match all_finite data with None => Fails | Some l => draw l end.
Fixpoint ridges (f : nat -> outcome ridge) (l : list nat) : option (list ridge) :=
  match l with
  | [] => Some []
  | j :: t =>
      match f j with
      | Fails => None
      | NoFigure => ridges f t
      | Figure r => option_map (cons r) (ridges f t)
      end
  end.
(** line 821 *)
Definition spacing_of (max_height min_spacing max_spacing : R) (n : nat) : R :=
  Rmin max_spacing (Rmax min_spacing ((max_height - 100) / INR n / 50)).
(** lines 820-879; no features: division by 0 *)
Definition plot_ridgeline (data : option cells) (m n : nat) (log_x : bool) (max_height min_spacing max_spacing : R) (nbins : nat) : outcome (list ridge) :=
  match data with
  | None => Fails
  | Some A =>
      if (n =? 0)%nat then Fails
      else match ridges (ridge_of log_x (spacing_of max_height min_spacing max_spacing n) nbins m A) (seq 0 n) with
           | None => Fails
           | Some l => Figure l
           end
  end.
