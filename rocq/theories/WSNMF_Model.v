(** Model of the WS-NMF update: esat/model/ws_nmf.py 42-98 and the loop body of
    rust/lib.rs ws_nmf_update_cpu 692-733.  Exact real arithmetic.  The matrix
    inverse / pseudo-inverse (numpy.linalg, nalgebra) is the argument [solve]. *)
From Coq Require Import Reals List Bool ZArith.
From Verif Require Import Base Metrics_Model LSNMF_Model.
Open Scope R_scope.

Section WS.
  (** [solve k A]: inverse if the determinant is non-zero, pseudo-inverse
      otherwise (ws_nmf.py:61-66; lib.rs:702). *)
  Context (solve : nat -> mat -> mat).

  (** ws_nmf.py:53; lib.rs:699: right-hand side of sample [i]. *)
  Definition ws_wn (n : nat) (V We H : mat) (i : nat) : nat -> R :=
    fun a => rsum n (fun j => H a j * wev V We i j).

  (** ws_nmf.py:55-56; lib.rs:700-701: normal matrix of sample [i]. *)
  Definition ws_wd (n : nat) (We H : mat) (i : nat) : mat :=
    fun a b => rsum n (fun j => H a j * (We i j * H b j)).

  (** ws_nmf.py:45-69; lib.rs:694-705 *)
  Definition ws_w_step (n k : nat) (V We H : mat) : mat :=
    fun i b => rsum k (fun a => ws_wn n V We H i a * solve k (ws_wd n We H i) a b).

  (** ws_nmf.py:71-72; lib.rs:709-710 *)
  Definition neg_part (W : mat) : mat := fun i a => (Rabs (W i a) - W i a) / 2.
  Definition pos_part (W : mat) : mat := fun i a => (Rabs (W i a) + W i a) / 2.

  (** ws_nmf.py:82-83; lib.rs:716-717 *)
  Definition ws_lin (m : nat) (V We Wx : mat) (a j : nat) : R :=
    rsum m (fun i => wev V We i j * Wx i a).

  (** ws_nmf.py:85-92; lib.rs:719-726 *)
  Definition ws_quad (m k : nat) (We Wx H : mat) (a j : nat) : R :=
    rsum k (fun b => H b j * rsum m (fun i => Wx i b * We i j * Wx i a)).

  (** ws_nmf.py:94; lib.rs:727 *)
  Definition ws_n (m k : nat) (V We W H : mat) (a j : nat) : R :=
    (ws_lin m V We (pos_part W) a j + ws_quad m k We (neg_part W) H a j) + EPS.

  (** ws_nmf.py:95; lib.rs:728 *)
  Definition ws_d (m k : nat) (V We W H : mat) (a j : nat) : R :=
    (ws_lin m V We (neg_part W) a j + ws_quad m k We (pos_part W) H a j) + EPS.

  (** Is [sqrt (n / d)] an ordinary number? *)
  Definition sqrt_ok (x y : R) : bool :=
    nzb y && (if Rle_dec 0 (x / y) then true else false).

  (** ws_nmf.py:74-98; lib.rs:712-733; [None] when some square root is NaN. *)
  Definition ws_h_step (m n k : nat) (V We W H : mat) : option mat :=
    if forallb (fun a => forallb (fun j => sqrt_ok (ws_n m k V We W H a j) (ws_d m k V We W H a j))
                           (seq 0 n)) (seq 0 k)
    then Some (fun a j => H a j * sqrt (ws_n m k V We W H a j / ws_d m k V We W H a j))
    else None.

  (** One iteration: contributions first, then profiles with the new
      contributions unless held (lib.rs:694-733; ws_nmf.py has no hold). *)
  Definition ws_update (m n k : nat) (V We : mat) (hold : bool) (st : mat * mat)
    : option (mat * mat) :=
    let (W, H) := st in
    let W' := ws_w_step n k V We H in
    if hold then Some (W', H)
    else match ws_h_step m n k V We W' H with
         | None => None
         | Some H' => Some (W', H')
         end.

  (** lib.rs:692 iterated. *)
  Fixpoint ws_iter (m n k : nat) (V We : mat) (hold : nat -> bool) (i0 N : nat) (st : mat * mat)
    : option (mat * mat) :=
    match N with
    | O => Some st
    | S N' =>
        match ws_update m n k V We (hold i0) st with
        | None => None
        | Some st' => ws_iter m n k V We hold (S i0) N' st'
        end
    end.
End WS.

(** What an inverse and a pseudo-inverse have in common: [A G A = A]. *)
Definition ginverse (k : nat) (A G : mat) : Prop := meq k k (mmul k (mmul k A G) A) A.
