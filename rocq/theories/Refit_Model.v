(** Model of the trainings that start from another model's profiles: the bootstrap runs
    (esat/error/bootstrap.py 345-388, 390-488), the refits of the displacement method
    (esat/error/displacement.py 73-75, 294-321 and its copies 386-411, 447-476, 523-551)
    and the perturbed models (eval/perturbation.py 140-145).  It joins [Boot_Model]
    (resampling, mapping), [Utils_Model] (swap test) and [Pipeline_Model] (SA, the
    compiled LS-NMF engine, memory order).  copy.copy, copy.deepcopy, addition of a
    number and astype keep the memory order of an array.  Not modelled: WS-NMF models,
    the conversion to single precision, the mapping of a result with NaN. *)
From Coq Require Import Reals Arith List Bool ZArith.
From Verif Require Import Base Fl Layout_Model SA_Model Pipeline_Model Boot_Model Utils_Model.
Import ListNotations.
Local Open Scope R_scope.

(** What is read from a trained model: V and U with their memory orders, W, H, and the
    settings kept in its metadata (sa.py:475-477). *)
Record base := mkBase {
  b_V : nd; b_U : nd; b_oV : order; b_oU : order;
  b_W : arr R; b_H : arr R;
  b_max_iter : Z; b_delta : R; b_cn : Z }.

(** Training with the settings of the base model and the defaults of train otherwise. *)
Definition settings_of (B : base) : settings := mkSet (b_max_iter B) (b_delta B) (b_cn B) 4 false (-1).

(** SA(V, U, factors); initialize(H=H); train(model_i=i).  [H] absent: drawn, by rows.
    W is drawn, by rows.  [draw]: the normal numbers.  The compiled function takes the
    model number as an i8 (lib.rs:206); larger ones raise OverflowError. *)
Definition refit (B : base) (oV oU : order) (V U : nd) (H : option (arr R)) (draw : init_kind)
  (tick : nat -> bool) (i : Z) : Pipeline_Model.outcome :=
  let k := a_rows (b_H B) in
  let oH := match H with Some h => a_order h | None => COrder end in
  match fit (mkOrd oV oU COrder oH) V U k
          (Some (option_map (fun h => HArg (as_nd h) false) H, None, draw)) draw tick (settings_of B) with
  | Trained f => if (127 <? i)%Z || (i <? -128)%Z then Raised else Trained f
  | o => o
  end.

(** ** Bootstrap *)
Definition rows_at (idx : list nat) (a : nd) : nd := ND (rows a) (cols a) (take_rows idx (cell a)).

(** lines 420-430, 459-468 *)
Definition resampled (block overlapping : bool) (bs : bsize) (r : nat -> nat) (B : base) : res (nd * nd * list nat) :=
  let N := rows (b_V B) in
  match (if block then snd (block_index overlapping N bs r) else Ok (resample_index N r)) with
  | Raise e => Raise e
  | Ok idx => Ok (rows_at idx (b_V B), rows_at idx (b_U B), idx)
  end.

(** The entry of bs_results for one run. *)
Record bs_entry := mkEntry { be_index : list nat; be_model : fitted; be_mapping : option (list mapped_to) }.
Inductive bs_end := BsRaises | BsOther (o : Pipeline_Model.outcome) | BsDone (e : bs_entry).

(** lines 418-455, 457-488; [single]: memory orders of data[random_index]. *)
Definition bs_run (B : base) (keep_H block overlapping : bool) (bs : bsize) (thr : fl) (single : order * order)
  (r : nat -> nat) (draw : init_kind) (tick : nat -> bool) (i : nat) : bs_end :=
  match resampled block overlapping bs r B with
  | Raise _ => BsRaises
  | Ok (V, U, idx) =>
      match refit B (if block then b_oV B else fst single) (if block then b_oU B else snd single) V U
              (if keep_H then Some (b_H B) else None) draw tick (Z.of_nat i) with
      | Raised => BsRaises
      | Trained f =>
          let m := rows (b_V B) in let n := cols (b_V B) in let k := a_rows (b_H B) in
          BsDone (mkEntry idx f
            (match f_WH f with
             | None => None
             | Some (w, h) => Some (map_contributions m m n k (aget w) (aget h) (aget (b_W B)) (aget (b_H B)) thr)
             end))
      | o => BsOther o
      end
  end.

(** lines 390-455: all runs; [r i], [draw i] belong to run [i]. *)
Definition bs_work (B : base) keep_H block overlapping bs thr single (r : nat -> nat -> nat) (draw : nat -> init_kind)
  (tick : nat -> nat -> bool) (i : nat) : option bs_entry :=
  match bs_run B keep_H block overlapping bs thr single (r i) (draw i) (tick i) i with BsDone e => Some e | _ => None end.

(** ** Displacement *)
Definition DISP_EPS : R := / 10 ^ 12.
(** line 75 *)
Definition disp_base (B : base) : arr R :=
  mkArr (a_rows (b_H B)) (a_cols (b_H B)) (a_order (b_H B)) (fun q => a_buf (b_H B) q + DISP_EPS).
(** new_H[factor_i, feature_j] = new_value *)
Definition put_cell (a : arr R) (f j : nat) (x : R) : arr R :=
  mkArr (a_rows a) (a_cols a) (a_order a)
    (fun q => if (q =? match a_order a with COrder => f * a_cols a + j | FOrder => j * a_rows a + f end)%nat then x else a_buf a q).
(** lines 294-321: the refit after setting cell (f, j) of the profiles to [x], and the
    swap flag of its result; [i]: batch (sequential) or the number of the worker. *)
Definition disp_refit (B : base) (f j : nat) (x : R) (draw : init_kind) (tick : nat -> bool) (i : Z) : Pipeline_Model.outcome :=
  refit B (b_oV B) (b_oU B) (b_V B) (b_U B) (Some (put_cell (disp_base B) f j x)) draw tick i.
Definition disp_swap (B : base) (f : fitted) : option bool :=
  match f_WH f with
  | None => None
  | Some (_, h) => Some (compare_all_factors (a_rows (b_H B)) (a_rows (b_H B)) (a_cols (b_H B)) (aget h) (aget (disp_base B)))
  end.

(** ** Perturbation *)
(** eval/perturbation.py 142-145: SA(V, other U); initialize(H=base.H, W=base.W);
    train with the settings of the analysis. *)
Definition perturbed (B : base) (oU : order) (U : nd) (tick : nat -> bool) (maxit : Z) (delta : R) (cn : Z) (i : Z) : Pipeline_Model.outcome :=
  let k := a_rows (b_H B) in
  let kind := ColumnMean false (fun _ _ => Fin 0) (fun _ _ => Fin 0) (fun x => x) in
  match fit (mkOrd (b_oV B) oU (a_order (b_W B)) (a_order (b_H B))) (b_V B) U k
          (Some (Some (HArg (as_nd (b_H B)) false), Some (as_nd (b_W B)), kind)) kind tick (mkSet maxit delta cn 4 false (-1)) with
  | Trained f => if (127 <? i)%Z || (i <? -128)%Z then Raised else Trained f
  | o => o
  end.
