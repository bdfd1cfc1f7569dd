(** Model of the numbers behind esat/data/analysis.py, in exact reals; drawing
    (plotly) is not modelled, only what is handed to it. *)
From Coq Require Import List Bool ZArith Reals.
From Flocq Require Import Core.
From Verif Require Import Base Fl Boot_Model.
Import ListNotations.
Local Open Scope R_scope.

(** ** features_metrics, lines 75-119 *)
(** round(x, 4) of a numpy double: scale, round half to even, scale back. *)
Definition round4 (x : R) : R := IZR (ZnearestE (x * 10000)) / 10000.
(** ndarray.var, ddof = 0 *)
Definition pvar (m : nat) (x : nat -> R) : R := cov m x x / INR m.
Record metrics := mkMetrics { fm_mean : R; fm_var : R; fm_est_mean : R; fm_est_var : R; fm_rmse : R }.
Definition feature_metrics (m : nat) (v e : nat -> R) : metrics :=
  mkMetrics (round4 (mean m v)) (round4 (pvar m v)) (round4 (mean m e)) (round4 (pvar m e))
            (round4 (sqrt (rsum m (fun t => (v t - e t) * (v t - e t))) / 14)).
Definition features_metrics (m : nat) (V E : mat) (j : nat) : metrics := feature_metrics m (fun t => V t j) (fun t => E t j).

(** ** Shares of a feature, lines 446, 522, 698, 781; factors are rows of [H] *)
Definition norm_profile (k : nat) (H : mat) (i j : nat) : fl :=
  fmul (Fin 100) (fdiv (Fin (H i j)) (Fin (rsum k (fun l => H l j)))).
(** line 827: the same without the percent *)
Definition composition (k : nat) (H : mat) (i j : nat) : fl := fdiv (Fin (H i j)) (Fin (rsum k (fun l => H l j))).
(** line 448 *)
Definition profile_contribution (m : nat) (W : mat) (t i : nat) : fl := fdiv (Fin (W t i)) (Fin (mean m (fun s => W s i))).
(** line 737 *)
Definition gspace_contribution (m : nat) (W : mat) (t i : nat) : fl := fdiv (Fin (W t i)) (Fin (rsum m (fun s => W s i))).
(** line 801 *)
Definition percent_contribution (m : nat) (W : mat) (t i : nat) : fl := fmul (Fin 100) (fdiv (Fin (W t i)) (Fin (rsum m (fun s => W s i)))).
(** lines 441-444, 518-520: bar heights *)
Definition conc_sum (m : nat) (W H : mat) (i j : nat) : R :=
  let s := rsum m (fun t => W t i * H i j) in if Reqb s 0 then / 1000000000000 else s.
(** lines 771-773: Python's chained comparison 50.0 > c < 0; [true] is rejected *)
Definition threshold_rejected (c : R) : bool := Rltb c 50 && Rltb c 0.
(** lines 783-794: factors of the pie chart with their values *)
Definition pie (k : nat) (H : mat) (j : nat) (c : R) : list (nat * fl) :=
  filter (fun p => flt (Fin c) (snd p)) (map (fun i => (i, norm_profile k H i j)) (rev (seq 0 k))).
(** lines 57-73, without binning: one matrix per factor and their sum *)
Definition factor_matrix (W H : mat) (i t j : nat) : R := W t i * H i j.
Definition factor_vprime (k : nat) (W H : mat) (t j : nat) : R := fold_left (fun acc i => acc + factor_matrix W H i t j) (seq 0 k) 0.
(** lines 880-890 *)
Definition percent_matrix (W H V : mat) (i t j : nat) : fl := fdiv (Fin (factor_matrix W H i t j)) (Fin (V t j)).

(** ** calculate_statistics, lines 121-189 *)
(** scipy.stats.linregress(observed, predicted); equal observations raise. *)
Record regression := mkReg { rg_slope : R; rg_intercept : R; rg_r : R }.
Definition linregress (n : nat) (x y : nat -> R) : option regression :=
  if Reqb (cov n x x) 0 then None
  else let slope := cov n x y / cov n x x in
       Some (mkReg slope (mean n y - slope * mean n x)
              (if Reqb (cov n y y) 0 then 0 else cov n x y / sqrt (cov n x x * cov n y y))).
Definition pstd (n : nat) (x : nat -> R) : R := sqrt (pvar n x).
(** lines 157, 167 *)
Definition stat_se (n : nat) (x y : nat -> R) : R := pstd n (fun t => x t - y t) / sqrt (INR n).
Definition se_regression (n : nat) (y : nat -> R) (r : regression) : R := sqrt (1 - rg_r r * rg_r r) * pstd n y.
(** lines 169-173: label of the Anderson-Darling test; [None] is "No". *)
Fixpoint anderson_label (stat : R) (cvs : list (R * R)) : option R :=
  match cvs with [] => None | (cv, level) :: t => if Rltb stat cv then Some level else anderson_label stat t end.
(** lines 186-187: [true] is Yes *)
Definition normal_yes (p : fl) : bool := fle (Fin (5 / 100)) p.

(** ** Choice of the feature, lines 217-229, 283-295, 352-364 *)
Section Feature.
  Context {name : Type} (name_eqb : name -> name -> bool).
  Fixpoint index_of (x : name) (l : list name) : option nat :=
    match l with [] => None | y :: t => if name_eqb x y then Some 0%nat else option_map S (index_of x t) end.
  Definition choose_feature (features : list name) (idx : option Z) (nm : option name) : option (nat * name) :=
    match idx with
    | Some i => if ((i <? 0) || (Z.of_nat (List.length features) <=? i))%Z then None
                else option_map (pair (Z.to_nat i)) (nth_error features (Z.to_nat i))
    | None => match nm with
              | Some x => option_map (fun i => (i, x)) (index_of x features)
              | None => None
              end
    end.
End Feature.
(** lines 230, 262-265: rows of the returned residuals; NaN compares false. *)
Definition residual_rows (m : nat) (v e u : nat -> R) (thr : R) : list nat :=
  let res t := fdiv (Fin (v t - e t)) (Fin (u t)) in
  if Reqb thr (-1) then seq 0 m
  else filter (fun t => flt (Fin thr) (match res t with Fin a => Fin (Rabs a) | NInf => PInf | x => x end)) (seq 0 m).

(** ** BatchAnalysis, lines 928-1056: traces as (model number shown, content,
    visible from the start) *)
Section Batch.
  Context {model : Type}.
  Record trace := mkTrace { tr_label : nat; tr_model : model; tr_visible : bool }.
  Fixpoint enumerate {A} (i : nat) (l : list A) : list (nat * A) := match l with [] => [] | a :: t => (i, a) :: enumerate (S i) t end.
  Definition keep {A} (l : list (nat * option A)) : list (nat * A) :=
    flat_map (fun p => match snd p with Some a => [(fst p, a)] | None => [] end) l.
  (** plot_loss, 951-955 *)
  Definition loss_traces (results : list (option model)) : list (nat * model) :=
    map (fun p => (fst p + 1, snd p)%nat) (keep (enumerate 0 results)).
  (** plot_loss_distribution, 979-983 *)
  Definition loss_points (results : list (option model)) : list (nat * model) := keep (enumerate 0 results).
  (** plot_temporal_residuals, 1002-1046: [handler] tells whether a data handler
      was given; the residual of a trace is determined by its model. *)
  Definition temporal_traces (handler : bool) (best : nat) (results : list (option model)) : list trace :=
    let v_primes := if handler then results else filter (fun r => match r with Some _ => true | None => false end) results in
    map (fun p => mkTrace (fst p + 1) (snd p) (fst p =? best)%nat) (keep (enumerate 0 v_primes)).
End Batch.
Arguments trace : clear implicits.
