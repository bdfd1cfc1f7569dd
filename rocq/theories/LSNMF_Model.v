(** Model of the LS-NMF update: esat/model/ls_nmf.py and the loop body of
    rust/lib.rs ls_nmf_update_cpu.  Exact real arithmetic.  A zero denominator
    (numpy: nan or inf, Rust: nan or inf) makes the update return [None]. *)
From Coq Require Import Reals List Bool ZArith.
From Verif Require Import Base.
Open Scope R_scope.

(** "is not zero" as a decision on reals. *)
Definition nzb (x : R) : bool := if Req_EM_T x 0 then false else true.

(** No zero entry inside the size. *)
Definition all_nz (m n : nat) (D : mat) : bool :=
  forallb (fun i => forallb (fun j => nzb (D i j)) (seq 0 n)) (seq 0 m).

(** ls_nmf.py:39; lib.rs:348 *)
Definition wev (V We : mat) : mat := fun i j => We i j * V i j.

(** ls_nmf.py:42; lib.rs:356 *)
Definition h_num (m : nat) (V We W : mat) : mat :=
  fun a j => rsum m (fun i => W i a * wev V We i j).

(** ls_nmf.py:41,43; lib.rs:355,357 *)
Definition h_den (m k : nat) (We W H : mat) : mat :=
  fun a j => rsum m (fun i => W i a * (We i j * mmul k W H i j)).

(** ls_nmf.py:44; lib.rs:358 *)
Definition h_step (m n k : nat) (V We W H : mat) : option mat :=
  if all_nz k n (h_den m k We W H)
  then Some (fun a j => H a j * (h_num m V We W a j / h_den m k We W H a j))
  else None.

(** ls_nmf.py:47; lib.rs:361 *)
Definition w_num (n : nat) (V We H : mat) : mat :=
  fun i a => rsum n (fun j => wev V We i j * H a j).

(** ls_nmf.py:46,48; lib.rs:360,362 *)
Definition w_den (n k : nat) (We W H : mat) : mat :=
  fun i a => rsum n (fun j => We i j * mmul k W H i j * H a j).

(** ls_nmf.py:49; lib.rs:363 *)
Definition w_step (m n k : nat) (V We W H : mat) : option mat :=
  if all_nz m k (w_den n k We W H)
  then Some (fun i a => W i a * (w_num n V We H i a / w_den n k We W H i a))
  else None.

(** ls_nmf.py:39-51 [LSNMF.update]; lib.rs:354-363.  Profiles first (unless
    held), then contributions with the new profiles. *)
Definition ls_update (m n k : nat) (V We : mat) (hold : bool) (st : mat * mat)
  : option (mat * mat) :=
  let (W, H) := st in
  match (if hold then Some H else h_step m n k V We W H) with
  | None => None
  | Some H' =>
      match w_step m n k V We W H' with
      | None => None
      | Some W' => Some (W', H')
      end
  end.

(** lib.rs:354, sa.py:435-437: is the profile held at iteration [i]? *)
Definition hold_at (hold_h : bool) (delay_h : Z) (i : nat) : bool :=
  negb (negb hold_h || ((0 <? delay_h) && (delay_h <? Z.of_nat i)))%Z.

(** lib.rs:353-363 iterated [N] times from iteration index [i0], stopping with
    [None] at the first zero denominator. *)
Fixpoint ls_iter (m n k : nat) (V We : mat) (hold : nat -> bool) (i0 N : nat) (st : mat * mat)
  : option (mat * mat) :=
  match N with
  | O => Some st
  | S N' =>
      match ls_update m n k V We (hold i0) st with
      | None => None
      | Some st' => ls_iter m n k V We hold (S i0) N' st'
      end
  end.

(** sa.py:79: weights from uncertainties. *)
Definition weights (U : mat) : mat := fun i j => 1 / (U i j) ^ 2.
