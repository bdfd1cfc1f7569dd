(** Model of what the error estimates show: the bootstrap distributions
    (esat/error/bootstrap.py:496-528, 555-568, 646-720), the displacement table and
    its plots (esat/error/displacement.py:124-245, 563-606), the BS-DISP plots
    (esat/error/bs_disp.py:268-400) and the combined summary (esat/error/error.py).

    Exact reals; a share of a feature no factor contributes to is NaN (0/0).  A
    figure is the list of its values per feature; labels are feature positions,
    titles and layout are not modelled. *)
From Coq Require Import List Bool Arith ZArith Lia Reals Lra.
From Flocq Require Import Core.
From Verif Require Import Base Fl Boot_Model Disp_Model BSDisp_Model.
Import ListNotations.
Local Open Scope R_scope.

(** [Shows x]: the figure; [Message]: something is logged and nothing shown. *)
Inductive outcome (A : Type) := Shows (x : A) | Message | Raises.
Arguments Shows {A} _.
Arguments Message {A}.
Arguments Raises {A}.

(** numpy.round(x, 4): scaled, rounded to the nearest integer (ties to even),
    scaled back. *)
Definition round4 (x : R) : R := IZR (ZnearestE (x * 10000)) / 10000.
Definition fround4 (x : fl) : fl := match x with Fin r => Fin (round4 r) | _ => x end.

(** A factor's share of a feature: H / H.sum(axis=0). *)
Definition share (k : nat) (H : mat) (i j : nat) : fl := fdiv (Fin (H i j)) (Fin (rsum k (fun a => H a j))).

(** ** Bootstrap *)
(** One bootstrap run's model: [r_m] samples. *)
Record run := mkRun { r_m : nat; r_W : mat; r_H : mat }.

(** lines 488-494: the statistics are taken first, so that H has its entries
    below 1e-8 replaced (lines 561-565). *)
Definition run_H (k : nat) (r : run) : mat := factor_statistics k (r_H r).

(** lines 500-511 *)
Definition bs_profile (k : nat) (r : run) (i j : nat) : fl :=
  let p := share k (run_H k r) i j in
  fround4 (if flt p (Fin EPS8) then Fin 0 else p).
Definition bs_profiles (k : nat) (runs : list run) (i j : nat) : list fl :=
  map (fun r => bs_profile k r i j) runs.

(** lines 514-528 *)
Definition bs_contribution (k : nat) (r : run) (i j : nat) : R :=
  let c := Boot_Model.conc (r_m r) (r_W r) (run_H k r) i j in
  round4 (if Rltb c EPS8 then 0 else c).
Definition bs_contributions (k : nat) (runs : list run) (i j : nat) : list R :=
  map (fun r => bs_contribution k r i j) runs.

(** lines 555-568 *)
Definition factor_table (k : nat) (runs : list run) (i j : nat) : list R :=
  map (fun r => round4 (run_H k r i j)) runs.

(** The check of lines 657-659, 697-699 (and of the other plots). *)
Definition bad_factor (k : nat) (factor : Z) : bool := ((Z.of_nat k <? factor) || (factor <? 1))%Z.
Definition pos_of (factor : Z) : nat := Z.to_nat (factor - 1).

(** Per feature: the values of the box, and the marker. *)
Definition boxplot (A : Type) := list (list A * A).

(** lines 646-684; indexing a table without runs by feature raises. *)
Definition plot_factor (k n : nat) (runs : list run) (base_H : mat) (factor : Z) : outcome (boxplot fl) :=
  if bad_factor k factor then Message
  else if ((length runs =? 0) && negb (n =? 0))%nat then Raises
  else Shows (map (fun j => (map (fmul (Fin 100)) (bs_profiles k runs (pos_of factor) j),
                             fmul (Fin 100) (share k base_H (pos_of factor) j))) (seq 0 n)).

(** [x[x < 1e-4] = 1e-4] (lines 705, 710; error.py:78, 80; displacement.py:221). *)
Definition floor4 (x : R) : R := if Rltb x (/ 10000) then / 10000 else x.

(** lines 686-720; [m] samples in the base model. *)
Definition plot_contribution (k n m : nat) (runs : list run) (base_W base_H : mat) (factor : Z) : outcome (boxplot R) :=
  if bad_factor k factor then Message
  else if ((length runs =? 0) && negb (n =? 0))%nat then Raises
  else Shows (map (fun j => (map floor4 (bs_contributions k runs (pos_of factor) j),
                             floor4 (Boot_Model.conc m base_W base_H (pos_of factor) j))) (seq 0 n)).

(** ** Displacement *)
(** What a search stores for one factor, feature and target (displacement.py:
    319-330, 475-485): percent, conc and Q_drop. *)
Record found_at := mkAt { a_percent : R; a_conc : R; a_drop : fl }.
(** The entry of the value found with modifier [x] whose refit has Q [q]. *)
Definition found_of (m k : nat) (W H : mat) (base : R) (i j : nat) (x : R) (q : fl) : found_at :=
  mkAt (percent k (displaced H i j x) i j) (Disp_Model.conc m W (displaced H i j x) i j) (fsub (Fin base) q).

(** A row of the compiled table (lines 571-606). *)
Record drow := mkRow { w_dQ : R; w_factor : nat; w_feature : nat;
                       w_profile : R; w_pmax : R; w_pmin : R;
                       w_conc : R; w_cmax : R; w_cmin : R; w_drop : fl }.

(** lines 579-606: row of target number [t] (of value [dQ]). *)
Definition disp_row (m k : nat) (W H : mat) (excluded : nat -> bool)
    (inc dec : nat -> nat -> nat -> found_at) (t : nat) (dQ : R) (i j : nat) : drow :=
  let p := percent k H i j in
  let c := Disp_Model.conc m W H i j in
  if excluded j then mkRow dQ i j p p p c (clamp c) (clamp c) (Fin 0)
  else mkRow dQ i j p (a_percent (inc i j t)) (a_percent (dec i j t))
             c (clamp (a_conc (inc i j t))) (clamp (a_conc (dec i j t)))
             (q_drop (a_drop (inc i j t)) (a_drop (dec i j t))).

(** lines 571-578: targets, then factors, then features. *)
Fixpoint disp_rows_from (m k n : nat) (W H : mat) (excluded : nat -> bool)
    (inc dec : nat -> nat -> nat -> found_at) (targets : list R) (t : nat) : list drow :=
  match targets with
  | [] => []
  | dQ :: l => flat_map (fun i => map (fun j => disp_row m k W H excluded inc dec t dQ i j) (seq 0 n)) (seq 0 k)
               ++ disp_rows_from m k n W H excluded inc dec l (S t)
  end.
Definition disp_rows (m k n : nat) (W H : mat) (excluded : nat -> bool)
    (inc dec : nat -> nat -> nat -> found_at) (targets : list R) : list drow :=
  disp_rows_from m k n W H excluded inc dec targets 0.

(** lines 181-182, 215-216: rows of one factor and one target value. *)
Definition select (f : nat) (dQ : R) (rows : list drow) : list drow :=
  filter (fun r => Reqb (w_dQ r) dQ) (filter (fun r => (w_factor r =? f)%nat) rows).
(** line 157: [dQ if dQ in self.dQmax else default]. *)
Definition pick_dQ (targets : list R) (default dQ : R) : R :=
  if existsb (Reqb dQ) targets then dQ else default.

(** One feature of a bar figure: marker, lower end and height of the bar. *)
Record bar := mkBar { g_feature : nat; g_mark : R; g_base : R; g_height : R }.

(** lines 176-200 and 210-238; returns the dQ of the title as well.  [default]
    is 4 in both classes (displacement.py:180, 214; bs_disp.py:325, 371). *)
Definition plot_profile (targets : list R) (default : R) (k : nat) (rows : list drow) (factor : Z) (dQ : R)
  : outcome (R * list bar) :=
  if bad_factor k factor then Message
  else let q := pick_dQ targets default dQ in
       Shows (q, map (fun r => mkBar (w_feature r) (100 * w_profile r) (100 * w_pmin r) (100 * (w_pmax r - w_pmin r)))
                     (select (pos_of factor) q rows)).
Definition plot_conc (targets : list R) (default : R) (k : nat) (rows : list drow) (factor : Z) (dQ : R)
  : outcome (R * list bar) :=
  if bad_factor k factor then Message
  else let q := pick_dQ targets default dQ in
       Shows (q, map (fun r => mkBar (w_feature r) (floor4 (w_conc r)) (w_cmin r) (w_cmax r - w_cmin r))
                     (select (pos_of factor) q rows)).

(** displacement.py:142-158 *)
Definition disp_profile := plot_profile dQmax 4.
Definition disp_conc := plot_conc dQmax 4.
Definition disp_results (k : nat) (rows : list drow) (factor : Z) (dQ : R) :=
  let q := pick_dQ dQmax 4 dQ in (disp_profile k rows factor q, disp_conc k rows factor q).
(** bs_disp.py:285-306, 325, 371 *)
Definition bsd_profile := plot_profile bs_dQmax 4.
Definition bsd_conc := plot_conc bs_dQmax 4.
Definition bsd_results (k : nat) (rows : list drow) (factor : Z) (dQ : R) :=
  let q := pick_dQ bs_dQmax (1 / 2) dQ in (bsd_profile k rows factor q, bsd_conc k rows factor q).

(** bs_disp.py:219-256 on whole rows: a copy of the first stored run's table in
    which every column but the labels and "profile" is replaced; "profiles" is a
    further column that nothing reads. *)
Definition drow_crow (r : drow) : crow :=
  mkCrow (w_profile r) (w_pmax r) (w_pmin r) (w_conc r) (w_cmax r) (w_cmin r)
         (match w_drop r with Fin x => x | _ => 0 end).
Definition bsd_row (tab : nat -> nat -> drow) (order : list nat) (x : nat) : drow :=
  let r0 := tab (keys0 order) x in
  let b := compile_row (fun i y => drow_crow (tab i y)) order x in
  mkRow (w_dQ r0) (w_factor r0) (w_feature r0) (w_profile r0) (b_pmax b) (b_pmin b)
        (b_conc b) (b_cmax b) (b_cmin b) (Fin (b_drop b)).
(** [tab i x] is row [x] of run [i]'s table of [nrows] rows. *)
Definition bsd_rows (tab : nat -> nat -> drow) (nrows : nat) (order : list nat) : list drow :=
  map (bsd_row tab order) (seq 0 nrows).

(** displacement.py:128-136, bs_disp.py:277-289: pandas max and min leave NaN out. *)
Fixpoint col_max (l : list fl) : fl :=
  match l with
  | [] => NaN
  | x :: t => let m := col_max t in
              if is_nan x then m else if is_nan m then x else if flt m x then x else m
  end.
Fixpoint col_min (l : list fl) : fl :=
  match l with
  | [] => NaN
  | x :: t => let m := col_min t in
              if is_nan x then m else if is_nan m then x else if flt x m then x else m
  end.
(** The value logged as "Largest dQ Decrease" (before it is rounded to 2
    decimals). *)
Definition largest_decrease (rows : list drow) : fl :=
  let mx := col_max (map w_drop rows) in
  let mn := col_min (map w_drop rows) in
  if flt (fabs mn) (fabs mx) then mx else mn.

(** ** The combined summary (error.py) *)
Record boot_res := mkBoot { bt_k : nat; bt_n : nat; bt_m : nat; bt_W : mat; bt_H : mat; bt_runs : list run }.
Record disp_res := mkDisp { dp_k : nat; dp_n : nat; dp_m : nat; dp_W : mat; dp_H : mat; dp_rows : list drow }.
(** of a BS-DISP: the base model of its bootstrap, and its table. *)
Record bsd_res := mkBsd { bd_k : nat; bd_n : nat; bd_m : nat; bd_W : mat; bd_H : mat; bd_rows : list drow }.

Inductive method := BS | DISP | BSDISP.
(** Bars per method (lower end, height), and the markers. *)
Record summary_plot := mkSum { sp_bars : list (method * list (R * R)); sp_marks : list R }.

(** numpy max and min over the runs of one feature. *)
Definition lmax (l : list R) : R := match l with [] => 0 | x :: t => fold_left npmax t x end.
Definition lmin (l : list R) : R := match l with [] => 0 | x :: t => fold_left npmin t x end.

(** error.py:75-86; the factor must exist in the bootstrap and it must have runs
    (the maximum over no runs raises). *)
Definition bs_bars (b : boot_res) (f : nat) : option (list (R * R)) :=
  if ((bt_k b <=? f) || (length (bt_runs b) =? 0))%nat then None
  else Some (map (fun j => let l := map floor4 (bs_contributions (bt_k b) (bt_runs b) f j) in
                           (lmin l, lmax l - lmin l)) (seq 0 (bt_n b))).
(** lines 92-101, 109-118 *)
Definition row_bars (k : nat) (rows : list drow) (f : nat) : option (list (R * R)) :=
  if (k <=? f)%nat then None
  else Some (map (fun r => (w_cmin r, w_cmax r - w_cmin r)) (select f 4 rows)).
(** lines 74-78, 88-92, 103-107 *)
Definition base_marks (m n : nat) (W H : mat) (f : nat) : list R :=
  map (fun j => floor4 (Boot_Model.conc m W H f j)) (seq 0 n).

(** lines 39-50: the number of factors is that of the last method given. *)
Definition err_factors (bs : option boot_res) (dp : option disp_res) (bd : option bsd_res) : nat :=
  match bd, dp, bs with
  | Some d, _, _ => bd_k d
  | _, Some d, _ => dp_k d
  | _, _, Some b => bt_k b
  | _, _, _ => 0%nat
  end.

(** One method after the other: bars are added, the markers are replaced. *)
Definition add_method (m : method) (bars : option (list (R * R))) (marks : list R)
    (acc : option summary_plot) : option summary_plot :=
  match bars, acc with
  | Some b, Some a => Some (mkSum (sp_bars a ++ [(m, b)]) marks)
  | _, _ => None
  end.

(** lines 52-128 *)
Definition plot_summary (bs : option boot_res) (dp : option disp_res) (bd : option bsd_res) (factor : Z)
  : outcome summary_plot :=
  match bs, dp with
  | None, None => Message
  | _, _ =>
      if bad_factor (err_factors bs dp bd) factor then Message
      else
        let f := pos_of factor in
        let s0 := Some (mkSum [] []) in
        let s1 := match bs with
                  | Some b => add_method BS (bs_bars b f) (base_marks (bt_m b) (bt_n b) (bt_W b) (bt_H b) f) s0
                  | None => s0 end in
        let s2 := match dp with
                  | Some d => add_method DISP (row_bars (dp_k d) (dp_rows d) f) (base_marks (dp_m d) (dp_n d) (dp_W d) (dp_H d) f) s1
                  | None => s1 end in
        let s3 := match bd with
                  | Some d => add_method BSDISP (row_bars (bd_k d) (bd_rows d) f) (base_marks (bd_m d) (bd_n d) (bd_W d) (bd_H d) f) s2
                  | None => s2 end in
        match s3 with Some p => Shows p | None => Raises end
  end.
