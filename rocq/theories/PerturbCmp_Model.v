(** Model of eval/perturbation.py, compare (190-280) and the four figures (282-431),
    on top of Perturb_Model.  Exact reals with [fl] where a division by zero can
    occur.  Oracles: scipy's matching.  Not modelled: log output (except that
    building it can raise), layout of the figures, numpy's formatting.  The base
    model, the perturbed models and [factors] of the object agree in their sizes,
    which is what run (112-138) produces. *)
From Coq Require Import List Bool ZArith Reals String.
From Flocq Require Import Core.
From Verif Require Import Base Fl Boot_Model Analysis_Model Perturb_Model.
From Verif Require Align_Model Cli_Model.
Import ListNotations.
Local Open Scope R_scope.

(** ** numpy reductions over [N] values *)
Definition fmean (N : nat) (f : nat -> fl) : fl := fdiv (fsum N f) (Fin (INR N)).
Definition fstd (N : nat) (f : nat -> fl) : fl :=
  let mu := fmean N f in fsqrt (fmean N (fun p => fmul (fsub (f p) mu) (fsub (f p) mu))).
Definition np_pick (less : fl -> fl -> bool) (x y : fl) : fl :=
  if is_nan x || is_nan y then NaN else if less y x then y else x.
Fixpoint freduce (op : fl -> fl -> fl) (f : nat -> fl) (N : nat) : fl :=
  match N with O => NaN | S O => f 0%nat | S N' => op (freduce op f N') (f N') end.
Definition fminimum := freduce (np_pick flt).
Definition fmaximum := freduce (np_pick (fun x y => flt y x)).
Definition round10 (x : R) : R := IZR (ZnearestE (x * 10000000000)) / 10000000000.
Definition fround10 (x : fl) : fl := match x with Fin r => Fin (round10 r) | y => y end.

(** ** The object *)
(** [p_stack]: perturb_H or perturb_W with the number of models stacked, indexed by
    factor, feature (or sample), model (253-254). *)
Record stack := mkStack { st_count : nat; st_at : nat -> nat -> nat -> fl }.
(** One line of perturbed_H_df (262-274). *)
Record prow := mkRow { r_base : fl; r_mean : fl; r_diff : fl; r_std : fl; r_min : fl; r_max : fl }.
Record pobj := mkObj {
  o_base : fmodel;
  o_models : option (list fmodel);           (** perturbed_models, None before run *)
  o_mults : list mat;                        (** perturbed_multipliers *)
  o_method : string;                         (** compare_method *)
  o_mapping : option (list (list nat));
  o_values : option (list (list entry));     (** perturb_correlations *)
  o_stats : option (list R);                 (** multiplier_stats without sigma *)
  o_W : option stack;
  o_H : option stack;
  o_table : option (list prow) }.

(** perturbation.py 200-202 *)
Definition chosen (arg : option string) (cur : string) : string :=
  match arg with
  | Some s => let l := Cli_Model.lower s in
              if String.eqb l "raae" || String.eqb l "emc" || String.eqb l "corr" then l else cur
  | None => cur
  end.
(** factor_comparison.py 581-592: any other name compares by correlation. *)
Definition method_of (s : string) : method :=
  if String.eqb s "raae" then RAAE else if String.eqb s "emc" then EMC else CORR.
Definition measure (me : method) (m k n : nat) (b o : fmodel) : nat -> nat -> fl :=
  match me with RAAE => raae m b o | EMC => emc m k n b o | CORR => corr_w m b o end.

(** factor_comparison.py 568-607 over all models.  The oracle for each model is
    what scipy's matching does with the matrix; it is asked only when two factors
    have the same best partner. *)
Fixpoint map_all (k : nat) (me : method) (Ms : list (nat -> nat -> fl)) (orc : list (res (list nat * list nat)))
  : res (list (list nat) * list (list entry)) :=
  match Ms, orc with
  | M :: Ms', o :: orc' =>
      let here := if nodupb (optimal_indices k me M) then Ok (determine_map k me M [] [])
                  else match o with Ok (r, c) => Ok (determine_map k me M r c) | Raise e => Raise e end in
      match here with
      | Raise e => Raise e
      | Ok (mp, vs) => match map_all k me Ms' orc' with
                       | Raise e => Raise e
                       | Ok (mps, vss) => Ok (mp :: mps, vs :: vss)
                       end
      end
  | _, _ => Ok ([], [])
  end.
(** perturbation.py 208: numpy cannot stack values that are not all numbers (for
    two factors whose entries are both arrays, pandas refuses the result). *)
Definition is_number (e : entry) : bool := match e with Number _ => true | _ => false end.

(** perturbation.py 213-218: numpy percentiles of every multiplier array, averaged
    over the models. *)
Definition flat (m n : nat) (A : mat) : list R := flat_map (fun t => map (fun j => A t j) (seq 0 n)) (seq 0 m).
Definition percents : list nat := [1; 25; 50; 75; 99]%nat.
Definition mult_stats (m n : nat) (ms : list mat) : list R :=
  map (fun q => lsum (map (fun A => Align_Model.quantile (flat m n A) 100 q) ms) / INR (List.length ms)) percents.

(** perturbation.py 225-229 and 237-238: shares of the factors in a feature, and in
    a sample. *)
Definition share_H (k : nat) (o : fmodel) (i j : nat) : fl := fdiv (Fin (f_H o i j)) (Fin (rsum k (fun q => f_H o q j))).
Definition share_W (k : nat) (o : fmodel) (t i : nat) : fl := fdiv (Fin (f_W o t i)) (Fin (rsum k (fun q => f_W o t q))).
Definition dfl : fmodel := mkF (fun _ _ => 0) (fun _ _ => 0).
(** lines 236-254 *)
Definition stack_H (k : nat) (ms : list fmodel) (mps : list (list nat)) : stack :=
  mkStack (List.length ms) (fun i j p => share_H k (nth p ms dfl) (nth i (nth p mps []) 0%nat) j).
Definition stack_W (k : nat) (ms : list fmodel) (mps : list (list nat)) : stack :=
  mkStack (List.length ms) (fun i t p => share_W k (nth p ms dfl) t (nth i (nth p mps []) 0%nat)).

(** lines 256-274: the table is about the factor with index 1. *)
Definition table_row (k : nat) (b : fmodel) (st : stack) (j : nat) : prow :=
  let vals p := st_at st 1 j p in
  let N := st_count st in
  let base := share_H k b 1 j in
  let mu := fmean N vals in
  let diff := fround4 (fdiv (fmul (Fin 100) (fsub mu base)) (fdiv (fadd mu base) (Fin 2))) in
  mkRow (fround10 base) (fround10 mu)
        (fround10 (if flt mu (Fin (/ 1000000)) then Fin 0 else diff))
        (fround10 (fstd N vals)) (fround10 (fminimum vals N)) (fround10 (fmaximum vals N)).

(** ** compare, lines 190-280: the object afterwards and the exception, if any *)
Definition compare (m n k : nat) (orc : list (res (list nat * list nat))) (arg : option string) (s : pobj) : pobj * option exn :=
  let me := chosen arg (o_method s) in
  let s1 := mkObj (o_base s) (o_models s) (o_mults s) me (o_mapping s) (o_values s) (o_stats s) (o_W s) (o_H s) (o_table s) in
  match o_models s with
  | None => (s1, Some TypeError)
  | Some ms =>
      match map_all k (method_of me) (map (measure (method_of me) m k n (o_base s)) ms) orc with
      | Raise e => (s1, Some e)
      | Ok (mps, vss) =>
          let s2 := mkObj (o_base s) (o_models s) (o_mults s) me (Some mps) (Some vss) (o_stats s) (o_W s) (o_H s) (o_table s) in
          match ms with
          | [] => (s2, Some (if (k =? 1)%nat then TypeError else ValueError))
          | _ :: _ =>
              if negb (forallb (forallb is_number) vss) then (s2, Some ValueError)
              else
                let H := stack_H k ms mps in
                let W := stack_W k ms mps in
                let s3 := mkObj (o_base s) (o_models s) (o_mults s) me (Some mps) (Some vss)
                                (Some (mult_stats m n (o_mults s))) (Some W) (Some H) (o_table s) in
                if (k <=? 1)%nat then (s3, Some IndexError)
                else (mkObj (o_base s) (o_models s) (o_mults s) me (Some mps) (Some vss)
                            (Some (mult_stats m n (o_mults s))) (Some W) (Some H)
                            (Some (map (table_row k (o_base s) H) (seq 0 n))), None)
          end
      end
  end.

(** ** The figures *)
(** [Nothing] is an error message and the value None. *)
Inductive shown (A : Type) := Nothing | Figure (a : A) | Fails (e : exn).
Arguments Nothing {A}. Arguments Figure {A}. Arguments Fails {A}.

(** lines 282-318: heights of the two series of bars *)
Definition plot_norm (m k : nat) (s : pobj) : shown (list fl * list fl) :=
  match o_W s with
  | None => Nothing
  | Some W =>
      let N := st_count W in
      let pm i := fdiv (fsum m (fun t => fsum N (fun p => st_at W i t p))) (Fin (INR (m * N))) in
      let bm i := fmean m (fun t => share_W k (o_base s) t i) in
      Figure (map (fun i => fmul (Fin 100) (pm i)) (seq 0 k), map (fun i => fmul (Fin 100) (bm i)) (seq 0 k))
  end.
(** lines 320-357: the values of each box, and the markers *)
Definition plot_average (m k : nat) (s : pobj) : shown (list (list fl) * list fl) :=
  match o_W s with
  | None => Nothing
  | Some W =>
      Figure (map (fun i => map (fun p => fmean m (fun t => st_at W i t p)) (seq 0 (st_count W))) (seq 0 k),
              map (fun i => fmean m (fun t => share_W k (o_base s) t i)) (seq 0 k))
  end.
(** lines 359-392: the values of each box, the horizontal line and the axis title
    before it is put in upper case *)
Definition number (e : entry) : fl := match e with Number x => x | _ => NaN end.
Definition corr_cell (mps : list (list nat)) (vss : list (list entry)) (p i : nat) : fl :=
  number (nth (nth i (nth p mps []) 0%nat) (nth p vss []) Unset).
Definition plot_corr (k : nat) (s : pobj) : shown (list (list fl) * fl * string) :=
  match o_W s, o_mapping s, o_values s with
  | Some _, Some mps, Some vss =>
      if negb (forallb (forallb is_number) vss) then Fails ValueError
      else let N := List.length mps in
           Figure (map (fun i => map (fun p => corr_cell mps vss p i) (seq 0 N)) (seq 0 k),
                   fdiv (fsum N (fun p => fsum k (fun i => corr_cell mps vss p i))) (Fin (INR (N * k))),
                   o_method s)
  | _, _, _ => Nothing
  end.
(** lines 394-431: [factors] index and python's negative indices *)
Definition plot_factor (n k : nat) (idx : Z) (s : pobj) : shown (list (list fl) * list fl) :=
  match o_W s, o_H s with
  | Some _, Some H =>
      if (Z.of_nat k <=? idx)%Z then Nothing
      else
        let pos := if (idx <? 0)%Z then (idx + Z.of_nat k)%Z else idx in
        if (pos <? 0)%Z then Fails IndexError
        else let i := Z.to_nat pos in
             Figure (map (fun j => map (fun p => st_at H i j p) (seq 0 (st_count H))) (seq 0 n),
                     map (fun j => share_H k (o_base s) i j) (seq 0 n))
  | _, _ => Nothing
  end.
