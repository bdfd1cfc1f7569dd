(** Model of esat/error/bs_disp.py: the compiled statistics (215-266) and when a
    run completes (150-201).  The bootstrap runs are numbered 1..n; [order] is the
    order in which they were stored (esat/error/bootstrap.py:417-418, 455), which
    the displacement results follow (165, 183-195). *)
From Coq Require Import List Bool Arith Lia Reals Lra.
From Verif Require Import Base Fl Disp_Model.
Import ListNotations.
Local Open Scope R_scope.

(** One row of a displacement's compiled table (displacement.py:563-606). *)
Record crow := mkCrow { profile : R; profile_max : R; profile_min : R;
                        cconc : R; conc_max : R; conc_min : R; dQ_drop : R }.
(** What BS-DISP compiles for a row (248-256). *)
Record brow := mkBrow { b_profiles : R; b_pmax : R; b_pmin : R;
                        b_conc : R; b_cmax : R; b_cmin : R; b_drop : R }.

Definition npmax (a b : R) : R := if Rltb a b then b else a.
Definition npmin (a b : R) : R := if Rltb b a then b else a.
Definition lmean (l : list R) : R := lsum l / INR (length l).

(** lines 219-256, row [x]: starts from the first stored run, then runs over the
    keys 1 .. n-1 where n is the number of runs. *)
Definition keys0 (order : list nat) : nat := hd O order.
Definition loop_keys (order : list nat) : list nat := seq 1 (length order - 1).
Definition compile_row (comp : nat -> nat -> crow) (order : list nat) (x : nat) : brow :=
  let c0 := comp (keys0 order) x in
  let ks := loop_keys order in
  mkBrow (lmean (profile c0 :: map (fun i => profile (comp i x)) ks))
         (fold_left (fun a i => npmax a (profile_max (comp i x))) ks (profile_max c0))
         (fold_left (fun a i => npmin a (profile (comp i x))) ks (profile_min c0))
         (lmean (cconc c0 :: map (fun i => cconc (comp i x)) ks))
         (fold_left (fun a i => npmax a (conc_max (comp i x))) ks (conc_max c0))
         (fold_left (fun a i => npmin a (conc_min (comp i x))) ks (conc_min c0))
         (fold_left (fun a i => npmin a (dQ_drop (comp i x))) ks (dQ_drop c0)).

(** lines 246-247; [nrows] rows. *)
Definition n_drops (comp : nat -> nat -> crow) (nrows : nat) (order : list nat) : nat :=
  length (filter (fun i => existsb (fun x => Rltb (dQ_drop (comp i x)) 0) (seq 0 nrows)) (loop_keys order)).

(** lines 258-262: tables summed over every run; runs with any swap. *)
Definition sum_tables (tabs : nat -> tables) (order : list nat) : tables :=
  fun r c => fold_left (fun a i => (fst a + fst (tabs i r c), snd a + snd (tabs i r c))%nat) order (0, 0)%nat.
Definition disp_swap (tabs : nat -> tables) (rows k : nat) (order : list nat) : nat :=
  length (filter (fun i => existsb (fun r => existsb (fun c => negb (snd (tabs i r c) =? 0)%nat) (seq 0 k)) (seq 0 rows)) order).
(** lines 263-266: [maps i j] is the bootstrap's mapping table. *)
Definition fit_swaps (maps : nat -> nat -> nat) (n k : nat) : nat :=
  length (filter (fun i => (maps i i <? n)%nat) (seq 0 k)).

(** lines 165-201.  A pool calls the static method of line 204, of eight
    parameters, with the one tuple of line 169; in the other mode each
    displacement runs in parallel (its own default), after the bootstrap
    (model number up to n, bootstrap.py:447). *)
Definition call_ok (params args : nat) : bool := (params =? args)%nat.
Definition bsdisp_completes (parallel : bool) (n k : nat) (features : list nat) : bool :=
  negb (n =? 0)%nat && forallb engine_accepts (seq 1 n) &&
  (if parallel then call_ok 8 1 else par_completes k features).
