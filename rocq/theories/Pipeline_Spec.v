(** Vocabulary for whole runs, independent of the model. *)
From Coq Require Import Reals Arith List.
From Verif Require Import Base Fl SA_Model Layout_Model.
Open Scope R_scope.

(** A matrix of finite numbers given by the user. *)
Definition data (m n : nat) (v : mat) : nd := ND m n (fun i j => Fin (v i j)).

(** What a reader taking column after column makes of an m x n data array:
    the array itself if stored by columns; if stored by rows, its entries in
    row order laid out column by column. *)
Definition reread (o : order) (m n : nat) (v : mat) : mat :=
  fun i j => match o with
             | FOrder => v i j
             | COrder => v ((j * m + i) / n)%nat ((j * m + i) mod n)%nat
             end.

(** The same for a reader taking row after row. *)
Definition reread_rows (o : order) (r c : nat) (x : mat) : mat :=
  fun i j => match o with
             | COrder => x i j
             | FOrder => x ((i * c + j) mod r)%nat ((i * c + j) / r)%nat
             end.

(** The uncertainties used: at least 1e-12. *)
Definition used_unc (u : mat) : mat := fun i j => Rmax (/ 10 ^ 12) (u i j).

(** Sum over all cells of the squared residual over the uncertainty. *)
Definition misfit (m n k : nat) (v u w h : mat) : R :=
  msum m n (fun i j => Rsqr ((v i j - rsum k (fun a => w i a * h a j)) / u i j)).

(** A value made positive: 1e-12 in place of zero or less. *)
Definition lifted (x : R) : R := if Rle_dec x 0 then / 10 ^ 12 else x.
