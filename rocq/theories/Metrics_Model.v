(** Model of esat/metrics.py and of the loss functions of rust/lib.rs.
    Exact real arithmetic: float32/float64 rounding is not modelled.
    [V] data, [U] uncertainty (m x n), [W] contributions (m x k),
    [H] profiles (k x n). *)
From Coq Require Import Reals.
From Verif Require Import Base.
Open Scope R_scope.

(** esat/metrics.py:7 *)
Definition EPS : R := / 10 ^ 12.

(** esat/metrics.py:15-16 (also 27-28): residual matrix [V - WH]. *)
Definition resid (k : nat) (V W H : mat) : mat := fun i j => V i j - mmul k W H i j.

(** esat/metrics.py:10-11 [calculate_Q(residuals, uncertainty)]. *)
Definition calculate_Q (m n : nat) (Res U : mat) : R :=
  msum m n (fun i j => Rsqr (Res i j / U i j)).

(** esat/metrics.py:14-23 [q_loss]; [unc] is the [uncertainty] flag.
    rust/lib.rs:911-921 [calculate_q_cpu] is the [unc = true] case (the
    transpose at line 917 only reorders the sum). *)
Definition q_loss (m n k : nat) (unc : bool) (V U W H : mat) : R :=
  if unc then msum m n (fun i j => let ru := resid k V W H i j / U i j in ru * ru)
  else msum m n (fun i j => resid k V W H i j * resid k V W H i j).

(** esat/metrics.py:29 *)
Definition scaled_resid (k : nat) (V U W H : mat) : mat :=
  fun i j => Rabs (resid k V W H i j / U i j).

(** esat/metrics.py:30-31 (square root, floor at 1e-12). *)
Definition robust_unc (k : nat) (alpha : R) (V U W H : mat) : mat :=
  fun i j =>
    let x := sqrt (scaled_resid k V U W H i j / alpha) * U i j in
    if Rle_dec x 0 then EPS else x.

(** esat/metrics.py:32-33: scaled residuals after the masked overwrite. *)
Definition robust_scaled (k : nat) (alpha : R) (V U W H : mat) : mat :=
  fun i j =>
    let s := scaled_resid k V U W H i j in
    if Rlt_dec alpha s
    then Rabs (resid k V W H i j / robust_unc k alpha V U W H i j)
    else s.

(** esat/metrics.py:34 first result of [qr_loss]. *)
Definition qr_loss (m n k : nat) (alpha : R) (V U W H : mat) : R :=
  msum m n (fun i j => Rsqr (robust_scaled k alpha V U W H i j)).

(** esat/metrics.py:36-37 second result of [qr_loss]; the mask at line 37 uses
    the already overwritten scaled residuals. *)
Definition updated_unc (k : nat) (alpha : R) (V U W H : mat) : mat :=
  fun i j =>
    if Rlt_dec alpha (robust_scaled k alpha V U W H i j)
    then robust_unc k alpha V U W H i j
    else U i j.

(** rust/lib.rs:924-941 [calculate_q_robust_cpu] with [matrix_merge] 980-1002:
    no floor on the robust uncertainty, mask from the original residuals. *)
Definition q_robust_cpu (m n k : nat) (alpha : R) (V U W H : mat) : R :=
  msum m n (fun i j =>
    let r := resid k V W H i j in
    let s := Rabs (r / U i j) in
    let ru := sqrt (s / alpha) * U i j in
    let rr := Rabs (r / ru) in
    let merged := if Rlt_dec alpha s then rr else s in
    merged * merged).

(** esat/metrics.py:42-43: reconstruction floored at 1e-12. *)
Definition wh_floor (k : nat) (W H : mat) : mat :=
  fun i j => if Rle_dec (mmul k W H i j) 0 then EPS else mmul k W H i j.

(** esat/metrics.py:44-53 for one factor [f], before [np.round]. *)
Definition q_factor_raw (m n k : nat) (V U W H : mat) (f : nat) : R :=
  msum m n (fun i j =>
    Rsqr ((V i j - wh_floor k W H i j) / U i j)
    * (W i f * H f j / wh_floor k W H i j)).

(** esat/metrics.py:41-55 [q_factor]: list of per-factor values; [rnd] is
    [np.round(., 4)], a parameter. *)
Definition q_factor (rnd : R -> R) (m n k : nat) (V U W H : mat) : list R :=
  List.map (fun f => rnd (q_factor_raw m n k V U W H f)) (List.seq 0 k).
