(** Model of a whole WS-NMF run: the constructor's choice of the algorithm
    (esat/model/sa.py 85, 121-140), SA.train around the compiled engine (382-428,
    466-470; rust/lib.rs 529-629, 631-779) and around the Python engine (430-464),
    which is used when esat_rust cannot be imported (138-140).  Joins
    [Pipeline_Model] with [WSNMF_Model].  Numbers given to the engine are finite.
    [None] for the matrices means that the root of a negative number, or a division
    by zero, put NaN or infinities in them; what the linear algebra of the
    compiled engine does with such matrices is not modelled (the loss is NaN). *)
From Coq Require Import Reals Arith List Bool ZArith.
From Verif Require Import Base Fl Metrics_Model LSNMF_Model WSNMF_Model Train_Model Layout_Model SA_Model Pipeline_Model.
Open Scope R_scope.

Section Run.
  (** inverse or pseudo-inverse of a k x k matrix, as in [WSNMF_Model] *)
  Context (solve : nat -> mat -> mat).

  (** lib.rs:692-735 *)
  Definition ws_engine_step (m n k : nat) (V We : mat) (hold : bool) (o : option (mat * mat)) : option (mat * mat) :=
    match o with None => None | Some st => ws_update solve m n k V We hold st end.

  (** sa.py:400-428, 466-470 with the entry point lib.rs:529-629. *)
  Definition run_ws (o : orders) (V U We W H : nd) (k : nat) (tick : nat -> bool) (p : settings) : fitted :=
    let m := rows V in let n := cols V in
    let r := rust_train
               (ws_engine_step m n k (seen_data (memory (oV o) V)) (seen_data (memory (oU o) We)))
               (ls_loss m n k (seen_data (memory (oV o) V)) (seen_data (memory (oU o) U)))
               (fbelow (p_delta p)) (p_cn p) (p_hold p) (p_delay p) tick (p_max_iter p)
               (Some (seen_factor (memory (oW o) W), seen_factor (memory (oH o) H))) in
    let out := match rr_state r with
               | None => None
               | Some (w, h) => Some (to_python m k w, to_python k n h)
               end in
    let v := (fun i j => num (cell V i j)) : mat in
    let u := (fun i j => num (cell U i j)) : mat in
    {| f_WH := out;
       f_prod := match out with None => None | Some (w, h) => Some (mmul k (aget w) (aget h)) end;
       f_Qtrue := match out with None => NaN | Some (w, h) => Fin (q_loss m n k true v u (aget w) (aget h)) end;
       f_Qrobust := match out with None => NaN | Some (w, h) => Fin (qr_loss m n k (p_alpha p) v u (aget w) (aget h)) end;
       f_hist := rr_hist r; f_conv := rr_conv r; f_steps := rr_ci r |}.

  (** [SA.train] with the compiled engine, either algorithm. *)
  Definition train_any (o : orders) (s : sa) (deflt : init_kind) (tick : nat -> bool) (p : settings) : outcome :=
    match train_guard s deflt with
    | TRaises => Raised
    | TRefused _ => Refused
    | TRun LSNMF V U We W H s1 => Trained (run_engine o V U We W H (s_k s1) tick p)
    | TRun WSNMF V U We W H s1 => Trained (run_ws o V U We W H (s_k s1) tick p)
    end.

  (** SA(V, U, factors=k, method=mth); initialize(...) or not; train(...). *)
  Definition fit_any (mth : method) (o : orders) (V U : nd) (k : nat) (init : option (option harg * option nd * init_kind))
    (deflt : init_kind) (tick : nat -> bool) (p : settings) : outcome :=
    match construct V U k mth with
    | None => Raised
    | Some s =>
        match init with
        | None => train_any o s deflt tick p
        | Some (H0, W0, kind) =>
            match initialize s H0 W0 kind with
            | InitRaises => Raised
            | InitOk s1 _ => train_any o s1 deflt tick p
            end
        end
    end.
End Run.

(** ** Without the compiled module *)

(** The parameters of the two update functions: ls_nmf.py:10-16 has hold_h,
    ws_nmf.py:9-14 does not. *)
Definition takes_hold (eng : method) : bool := match eng with LSNMF => true | WSNMF => false end.

Inductive python_outcome :=
| PyRaised                                      (* before the loop *)
| PyRefused
| PyTypeError                                   (* unexpected keyword argument *)
| PyTrained (r : presult (option (mat * mat)) fl).

(** sa.py:430-464: every iteration calls update_step(V=, We=, W=, H=, hold_h=). *)
Definition train_python (s : sa) (deflt : init_kind) (p : settings) : python_outcome :=
  match train_guard s deflt with
  | TRaises => PyRaised
  | TRefused _ => PyRefused
  | TRun eng V U We W H s1 =>
      let c := fun (a : nd) => (fun i j => num (cell a i j)) : mat in
      let loss := ls_loss (rows V) (cols V) (s_k s1) (c V) (c U) in
      if (Z.to_nat (p_max_iter p) =? 0)%nat then PyTrained (mkP (Some (c W, c H)) PDone nil 0)
      else if takes_hold eng then
        PyTrained (py_train (engine_step (rows V) (cols V) (s_k s1) (c V) (c We)) loss (fbelow (p_delta p))
                     (fun o => is_nan (loss o)) (p_cn p) (p_delay p) (p_hold p) (p_max_iter p) (Some (c W, c H)))
      else PyTypeError
  end.
Definition fit_python (mth : method) (V U : nd) (k : nat) (init : option (option harg * option nd * init_kind))
  (deflt : init_kind) (p : settings) : python_outcome :=
  match construct V U k mth with
  | None => PyRaised
  | Some s =>
      match init with
      | None => train_python s deflt p
      | Some (H0, W0, kind) =>
          match initialize s H0 W0 kind with
          | InitRaises => PyRaised
          | InitOk s1 _ => train_python s1 deflt p
          end
      end
  end.
