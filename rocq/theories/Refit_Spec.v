(** Vocabulary for trainings that start from another model's profiles. *)
From Coq Require Import Reals Arith List Bool ZArith.
From Verif Require Import Base Fl Metrics_Model LSNMF_Model Train_Model Train_Spec Train_LS Layout_Model Layout_Proofs
  Pipeline_Model Pipeline_Spec.
Import ListNotations.
Open Scope R_scope.

(** The samples of a resample. *)
Definition drawn (idx : list nat) (v : mat) : mat := fun i j => v (nth i idx i) j.

(** A k x n table written out column after column and filled in again row after row. *)
Definition rearranged (k n : nat) (h : mat) : mat := fun a j => h ((a * n + j) mod k)%nat ((a * n + j) / k)%nat.

(** Profiles with one cell displaced, every other one raised by 1e-12. *)
Definition displaced (f j : nat) (x : R) (h : mat) : mat :=
  fun a b => if ((a =? f) && (b =? j))%nat then x else h a b + / 10 ^ 12.

(** Starting contributions: the square root of the sample's mean over k times the draw,
    made positive; starting profiles likewise. *)
Definition drawn_W (n k : nat) (v c : mat) : mat := fun i a => lifted (sqrt (rsum n (v i) / INR n / INR k) * c i a).
Definition drawn_H (m k : nat) (v g : mat) : mat := fun a j => lifted (sqrt (rsum m (fun i => v i j) / INR m / INR k) * g a j).

(** A run of at most [maxit] iterations from (w, h), on the arrays v', u' the engine
    sees, for the user's data v, u: length, convergence, history and results. *)
Definition reports (m n k : nat) (v u v' u' w h : mat) (alpha : R) (b : nat -> bool) (maxit cn : Z) (delta : R) (f : fitted) : Prop :=
  let at_ t := ls_iter m n k v' (weights u') b 0 t (w, h) in
  let N := length (f_hist f) in
  (N <= Z.to_nat maxit)%nat /\ (f_conv f = false -> N = Z.to_nat maxit) /\ f_steps f = (N - 1)%nat /\
  (f_conv f = true <-> exists t, (t < Z.to_nat maxit)%nat /\
     criterion (fbelow delta) cn (fun i => match at_ (S i) with None => NaN | Some (W, H) => Fin (misfit m n k v' u' W H) end) t) /\
  (forall t, (t < N)%nat -> nth_error (f_hist f) t =
     Some (match at_ (S t) with None => NaN | Some (W, H) => Fin (misfit m n k v' u' W H) end)) /\
  match at_ N with
  | None => f_WH f = None /\ f_prod f = None /\ f_Qtrue f = NaN /\ f_Qrobust f = NaN
  | Some (W, H) => exists w1 h1 P, f_WH f = Some (w1, h1) /\ f_prod f = Some P /\
      shaped m k FOrder w1 /\ shaped k n FOrder h1 /\
      meq m k (aget w1) W /\ meq k n (aget h1) H /\ meq m n P (mmul k W H) /\
      f_Qtrue f = Fin (misfit m n k v u W H) /\ f_Qrobust f = Fin (qr_loss m n k alpha v u W H)
  end.

(** A run that works: positive results, never worse than the start. *)
Definition improves (m n k : nat) (v u w h : mat) (alpha : R) (maxit cn : Z) (delta : R) (f : fitted) : Prop :=
  let q0 := misfit m n k v u w h in
  exists w1 h1 P q r, f_WH f = Some (w1, h1) /\ shaped m k FOrder w1 /\ shaped k n FOrder h1 /\
      mall m k (fun z => 0 < z) (aget w1) /\ mall k n (fun z => 0 < z) (aget h1) /\
      f_prod f = Some P /\ meq m n P (fun i j => rsum k (fun a => aget w1 i a * aget h1 a j)) /\
      f_Qtrue f = Fin q /\ q = misfit m n k v u (aget w1) (aget h1) /\
      f_Qrobust f = Fin r /\ 0 <= r <= q /\ q <= q0 /\
      ((0 < maxit)%Z -> last (f_hist f) NaN = Fin q) /\
      (exists qs : nat -> R, (forall t, (t < length (f_hist f))%nat -> nth_error (f_hist f) t = Some (Fin (qs t))) /\
         qs 0%nat <= q0 /\ forall t, qs (S t) <= qs t) /\
      (forall K, 0 < delta -> q0 < INR K * delta -> (Z.of_nat (K * span cn) < maxit)%Z -> f_conv f = true).

