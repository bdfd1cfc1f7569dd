(** Model of a whole LS-NMF run with the compiled engine: from the arrays given
    to the constructor to the fields set at the end of [SA.train]
    (esat/model/sa.py 58-140, 219-308, 382-428, 466-479; rust/lib.rs 195-297,
    299-408).  It joins [SA_Model] (validation, starting matrices),
    [Layout_Model] (memory at the Python/Rust boundary) and [Train_Model] (the
    training loop).  Numbers given to the engine are finite; the WS-NMF engine
    and the GPU are not part of this model. *)
From Coq Require Import Reals Arith List Bool ZArith.
From Verif Require Import Base Fl Metrics_Model LSNMF_Model Train_Model Layout_Model SA_Model.
Open Scope R_scope.

(** The number in a cell; only used where cells are finite. *)
Definition num (x : fl) : R := match x with Fin r => r | _ => 0 end.

(** Memory of a 2-D array of order [o] (numpy; astype, sa.py:72-73, 79,
    402-406, keeps the order of its source). *)
Definition memory (o : order) (a : nd) : arr R :=
  mkArr (rows a) (cols a) o
    (fun p => num (match o with
                   | COrder => cell a (p / cols a) (p mod cols a)
                   | FOrder => cell a (p mod rows a) (p / rows a)
                   end)).

(** Arguments of train used by the compiled engine (sa.py:407-415). *)
Record settings := mkSet {
  p_max_iter : Z; p_delta : R; p_cn : Z; p_alpha : R; p_hold : bool; p_delay : Z }.

(** Memory orders of V, U and of the current W and H. The weights (sa.py:79)
    have the order of U. *)
Record orders := mkOrd { oV : order; oU : order; oW : order; oH : order }.

(** Fields after training.  [None] for the matrices: a division by zero put NaN
    or infinities in them. *)
Record fitted := mkFit {
  f_WH : option (arr R * arr R);   (* self.W, self.H: sa.py:418-419 *)
  f_prod : option mat;             (* self.WH: sa.py:467 *)
  f_Qtrue : fl;                    (* sa.py:468 *)
  f_Qrobust : fl;                  (* sa.py:469 *)
  f_hist : list fl;                (* self.q_list: sa.py:422, 470 *)
  f_conv : bool; f_steps : nat     (* sa.py:420-421 *)
}.

Inductive outcome :=
| Raised
| Refused                  (* train returned -1 *)
| OtherEngine              (* WS-NMF, not modelled here *)
| Trained (f : fitted).

(** One update by the engine (lib.rs:354-363) from the weights it was given. *)
Definition engine_step (m n k : nat) (V We : mat) (hold : bool) (o : option (mat * mat)) : option (mat * mat) :=
  match o with None => None | Some st => ls_update m n k V We hold st end.

(** sa.py:400-428, 466-470 with the entry point lib.rs:195-297: train on the
    stored arrays. *)
Definition run_engine (o : orders) (V U We W H : nd) (k : nat) (tick : nat -> bool) (p : settings) : fitted :=
  let m := rows V in let n := cols V in
  let r := rust_train
             (engine_step m n k (seen_data (memory (oV o) V)) (seen_data (memory (oU o) We)))
             (ls_loss m n k (seen_data (memory (oV o) V)) (seen_data (memory (oU o) U)))
             (fbelow (p_delta p)) (p_cn p) (p_hold p) (p_delay p) tick (p_max_iter p)
             (Some (seen_factor (memory (oW o) W), seen_factor (memory (oH o) H))) in
  let out := match rr_state r with
             | None => None
             | Some (w, h) => Some (to_python m k w, to_python k n h)
             end in
  let v := (fun i j => num (cell V i j)) : mat in
  let u := (fun i j => num (cell U i j)) : mat in
  {| f_WH := out;
     f_prod := match out with None => None | Some (w, h) => Some (mmul k (aget w) (aget h)) end;
     f_Qtrue := match out with None => NaN | Some (w, h) => Fin (q_loss m n k true v u (aget w) (aget h)) end;
     f_Qrobust := match out with None => NaN | Some (w, h) => Fin (qr_loss m n k (p_alpha p) v u (aget w) (aget h)) end;
     f_hist := rr_hist r; f_conv := rr_conv r; f_steps := rr_ci r |}.

(** [SA.train] on a constructed and possibly initialised model. *)
Definition train (o : orders) (s : sa) (deflt : init_kind) (tick : nat -> bool) (p : settings) : outcome :=
  match train_guard s deflt with
  | TRaises => Raised
  | TRefused _ => Refused
  | TRun WSNMF _ _ _ _ _ _ => OtherEngine
  | TRun LSNMF V U We W H s1 => Trained (run_engine o V U We W H (s_k s1) tick p)
  end.

(** SA(V, U, factors=k); initialize(H, W, init_method); train(...).  [init] is
    [None] when initialize is not called (train then draws [deflt]). *)
Definition fit (o : orders) (V U : nd) (k : nat) (init : option (option harg * option nd * init_kind))
  (deflt : init_kind) (tick : nat -> bool) (p : settings) : outcome :=
  match construct V U k LSNMF with
  | None => Raised
  | Some s =>
      match init with
      | None => train o s deflt tick p
      | Some (H0, W0, kind) =>
          match initialize s H0 W0 kind with
          | InitRaises => Raised
          | InitOk s1 _ => train o s1 deflt tick p
          end
      end
  end.

(** A numpy array as the model's matrices see it (the result of one run given to
    another). *)
Definition as_nd (a : arr R) : nd := ND (a_rows a) (a_cols a) (fun i j => Fin (aget a i j)).

(** The model after a run (sa.py:417-418), ready for another call of train, and
    the memory orders of its arrays. *)
Definition again (s : sa) (w h : arr R) : sa :=
  {| sV := sV s; sU := sU s; sWe := sWe s; s_m := s_m s; s_n := s_n s; s_k := s_k s;
     s_method := s_method s; s_engine := s_engine s;
     s_H := Some (as_nd h); s_W := Some (as_nd w);
     s_neg := s_neg s; s_valid := s_valid s; s_init := s_init s |}.
Definition orders_again (o : orders) (w h : arr R) : orders := mkOrd (oV o) (oU o) (a_order w) (a_order h).
