(** Model of the k-means initialisation with init_norm (esat/model/sa.py
    253-270): scipy.cluster.vq.whiten and what is made of the clusters.  The
    clustering itself (scipy's kmeans2 with the model's seed) is an argument,
    a function of the observations. *)
From Coq Require Import Reals Arith.
From Verif Require Import Base.
Open Scope R_scope.

(** numpy's mean and std (population) of column [j]. *)
Definition col_avg (m : nat) (X : mat) (j : nat) : R := rsum m (fun i => X i j) / INR m.
Definition col_std (m : nat) (X : mat) (j : nat) : R :=
  sqrt (rsum m (fun i => (X i j - col_avg m X j) * (X i j - col_avg m X j)) / INR m).

(** scipy.cluster.vq.whiten: every column divided by its standard deviation, a
    zero deviation replaced by one. *)
Definition whiten (m : nat) (X : mat) : mat :=
  fun i j => X i j / (if Req_EM_T (col_std m X j) 0 then 1 else col_std m X j).

(** sa.py:253-255 *)
Definition observations (init_norm : bool) (m : nat) (V : mat) : mat :=
  if init_norm then whiten m V else V.

(** sa.py:265-270: contributions 1/k but for the sample's own cluster, which gets a draw. *)
Definition km_W (k : nat) (clus : nat -> nat) (draws : nat -> R) : mat :=
  fun i a => if (a =? clus i)%nat then draws i else 1 / INR k.
(** sa.py:270, 301 *)
Definition km_H (cents : mat) : mat := fun a j => if Rle_dec (cents a j) 0 then / 10 ^ 12 else cents a j.

(** sa.py:263-270, 301: the start; [km] is kmeans2. *)
Definition km_start (init_norm : bool) (m k : nat) (km : mat -> mat * (nat -> nat)) (draws : nat -> R) (V : mat) : mat * mat :=
  let (cents, clus) := km (observations init_norm m V) in (km_W k clus draws, km_H cents).
