(** Model of the memory layout conversions between numpy and the compiled
    engine: rust/lib.rs 22-26 (na_to_ndarray), 261-281 (ls_nmf), 594-614
    (ws_nmf).  Only contiguous 2-D arrays; a non-contiguous array makes
    [to_vec().unwrap()] panic and is not modelled. *)
From Coq Require Import Arith.

(** Memory order of a contiguous numpy array. *)
Inductive order := COrder | FOrder.

(** A contiguous numpy array: shape, memory order, flat memory. *)
Record arr (A : Type) := mkArr { a_rows : nat; a_cols : nat; a_order : order; a_buf : nat -> A }.
Arguments mkArr {A}.
Arguments a_rows {A}. Arguments a_cols {A}. Arguments a_order {A}. Arguments a_buf {A}.

(** Logical element [a[i, j]] as Python sees it (numpy semantics). *)
Definition aget {A} (a : arr A) (i j : nat) : A :=
  match a_order a with
  | COrder => a_buf a (i * a_cols a + j)
  | FOrder => a_buf a (j * a_rows a + i)
  end.

(** nalgebra [OMatrix::from_vec(rows, cols, data)]: column-major. *)
Definition from_vec {A} (rows cols : nat) (data : nat -> A) : nat -> nat -> A :=
  fun i j => data (j * rows + i).

(** lib.rs:262-264, 595-597: V, U and We. *)
Definition seen_data {A} (a : arr A) : nat -> nat -> A :=
  from_vec (a_rows a) (a_cols a) (a_buf a).

(** lib.rs:266-267, 599-600: W and H (dims swapped, then transposed). *)
Definition seen_factor {A} (a : arr A) : nat -> nat -> A :=
  fun i j => from_vec (a_cols a) (a_rows a) (a_buf a) j i.

(** lib.rs:22-26 [na_to_ndarray]: iterate column by column, store the values in
    a row-major ndarray of the same shape. *)
Definition na_to_ndarray {A} (rows cols : nat) (M : nat -> nat -> A) : arr A :=
  mkArr rows cols COrder (fun p => M (p mod rows) (p / rows)).

(** ndarray [.t()]: swapped shape, other order, same memory. *)
Definition t_view {A} (a : arr A) : arr A :=
  mkArr (a_cols a) (a_rows a)
    (match a_order a with COrder => FOrder | FOrder => COrder end) (a_buf a).

(** rust-numpy [reshape] (any order): contiguous memory is kept, read in the
    order of the source. *)
Definition reshape {A} (rows cols : nat) (a : arr A) : arr A :=
  mkArr rows cols (a_order a) (a_buf a).

(** lib.rs:280-281, 613-614: [final.t().to_pyarray(py).reshape(dims)]. *)
Definition to_python {A} (rows cols : nat) (M : nat -> nat -> A) : arr A :=
  reshape rows cols (t_view (na_to_ndarray rows cols M)).

(** lib.rs:195-297, 529-629: the entry point around an arbitrary engine working
    on matrices; returns the new W and H arrays. *)
Definition entry {A}
  (engine : (nat -> nat -> A) -> (nat -> nat -> A) -> (nat -> nat -> A) ->
            (nat -> nat -> A) -> (nat -> nat -> A) -> (nat -> nat -> A) * (nat -> nat -> A))
  (v u we w h : arr A) : arr A * arr A :=
  let (w', h') := engine (seen_data v) (seen_data u) (seen_data we) (seen_factor w) (seen_factor h) in
  (to_python (a_rows w) (a_cols w) w', to_python (a_rows h) (a_cols h) h').
