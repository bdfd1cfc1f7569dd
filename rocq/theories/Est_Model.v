(** Model of esat/estimator.py (FactorEstimator).  The random draws, the fitted
    solutions, the rounding to five decimals and the completion order of the pool
    are arguments. *)
From Coq Require Import List Bool ZArith Reals Lra.
From Verif Require Import Base Fl Metrics_Model Constr_Model.
Import ListNotations.
Local Open Scope R_scope.

(** lines 56-61: entries of the mask, from uniform draws [u]. *)
Definition get_mask (u : mat) (threshold : R) : nat -> nat -> Z :=
  fun i j => if Rltb threshold (u i j) then 1%Z else 0%Z.
(** lines 74-76: in-place replacement of 1 by 0, then of 0 by 1. *)
Definition test_mask (mask : nat -> nat -> Z) : nat -> nat -> Z :=
  fun i j => let a := if (mask i j =? 1)%Z then 0%Z else mask i j in if (a =? 0)%Z then 1%Z else a.
Definition count_nonzero (m n : nat) (mask : nat -> nat -> Z) : R :=
  msum m n (fun i j => if (mask i j =? 0)%Z then 0 else 1).
(** lines 81-87: error under a mask (before rounding). *)
Definition masked_mse (m n k : nat) (V W H : mat) (mask : nat -> nat -> Z) : fl :=
  fdiv (Fin (msum m n (fun i j => IZR (mask i j) * (resid k V W H i j) ^ 2))) (Fin (count_nonzero m n mask)).
(** lines 71-88: (train, test, factors, Q(true), Q(robust)); [fit] is the model
    trained on the data (78-80: neither mask is used). *)
Record sample := mkS { s_train : fl; s_test : fl; s_k : nat; s_qt : fl; s_qr : fl }.
Definition random_sample (m n : nat) (round5 : fl -> fl) (fit : nat -> nat -> mat * mat) (q : mat * mat -> fl * fl)
    (V : mat) (mask : nat -> nat -> Z) (seed k : nat) : sample :=
  let '(W, H) := fit seed k in
  mkS (round5 (masked_mse m n k V W H mask)) (round5 (masked_mse m n k V W H (test_mask mask))) k (fst (q (W, H))) (snd (q (W, H))).

(** lines 63-69, 124-127: results grouped by factor count in order of arrival. *)
Definition grouped (f : sample -> fl) (arrivals : list sample) (k : nat) : list fl :=
  map f (filter (fun s => (s_k s =? k)%nat) arrivals).
(** lines 150-153; the mean of no values is NaN. *)
Definition lfsum (l : list fl) : fl := fold_left fadd l (Fin 0).
Definition lmean (l : list fl) : fl := fdiv (lfsum l) (Fin (INR (length l))).
(** Columns from [lo] to [hi] (120: [hi + 1] excluded). *)
Definition column (f : sample -> fl) (arrivals : list sample) (lo hi : nat) : list fl :=
  map (fun k => lmean (grouped f arrivals k)) (seq lo (S hi - lo)).

(** line 174; NaN propagates. *)
Definition fmin_list (l : list fl) : fl := match l with [] => NaN | x :: t => fold_left fminn t x end.
(** lines 175-178 *)
Fixpoint scores (kc : R) (k : nat) (mn : fl) (l : list fl) : list fl :=
  match l with [] => [] | e :: t => fdiv mn (fmul e (Fin (Rpower (INR k) kc))) :: scores kc (S k) mn t end.
(** line 186: first maximum ignoring NaN.  (A score of minus infinity cannot
    arise from non-negative errors.) *)
Fixpoint nanargmax (l : list fl) (i : nat) (best : option (fl * nat)) : option nat :=
  match l with
  | [] => match best with Some (_, j) => Some j | None => None end
  | x :: t => nanargmax t (S i)
      (if is_nan x then best
       else match best with None => Some (x, i) | Some (b, j) => if flt b x then Some (x, i) else best end)
  end.
(** lines 157-186: [None] is the ValueError of line 162 (no difference to take
    the maximum of). *)
Definition estimate (kc : R) (lo hi : nat) (mse : list fl) : option Z :=
  if (length mse <=? 1)%nat then None
  else Some match nanargmax (scores kc lo (fmin_list mse) mse) 0 None with
            | Some i => Z.of_nat (i + lo)
            | None => (-1)%Z
            end.
(** lines 179-182 *)
Fixpoint deltas (l : list fl) : list fl :=
  match l with a :: ((b :: _) as t) => fsub a b :: deltas t | _ => [] end.
Definition delta_column (l : list fl) : list fl := NaN :: deltas l.
(** lines 158-169: the interior ratios, scaled by 1.01 times the largest delta. *)
Fixpoint ratios (c : fl) (d : list fl) : list fl :=
  match d with a :: ((b :: _) as t) => fmul c (fdiv a b) :: ratios c t | _ => [] end.
Definition fmax_list (l : list fl) : fl := match l with [] => NaN | x :: t => fold_left fmaxn t x end.
Definition ratio_column (l : list fl) : list fl :=
  NaN :: ratios (fmul (Fin (101 / 100)) (fmax_list (deltas l))) (deltas l) ++ [NaN].
(** lines 119-188 *)
Definition run (kc : R) (lo hi : nat) (arrivals : list sample) : option Z :=
  estimate kc lo hi (column s_test arrivals lo hi).
