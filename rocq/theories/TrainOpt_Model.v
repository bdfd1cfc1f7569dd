(** Model of all the arguments of [SA.train] (esat/model/sa.py 325-476) around the two
    loops of [Train_Model], for one call and for sessions of several calls on one model.
    Generic in the factors [T] (W and H), the losses [F] and the updates, so it covers
    LS-NMF and WS-NMF.  Initialisation is not repeated here (SA_Model): the model was
    initialised, and [validated] is what validation found.  The exec of update_step (line
    393) is not modelled: its argument is the resulting function.  The progress callback,
    the GPU and the time stamps are not part of this model. *)
From Coq Require Import Reals ZArith List Bool.
From Verif Require Import Train_Model.
Import ListNotations.

Section TrainOpt.
  Context {T F : Type}.
  (** metrics.py: q_loss, qr_loss with cut-off; np.isnan; first - last < converge_delta. *)
  Context (qtrue : T -> F) (qrob : R -> T -> F) (isnan : F -> bool) (below : R -> F -> F -> bool).
  (** self.optimized_update: what it reads from the arrays, its update and loss, what it
      returns (lib.rs 195-408, 528-786). *)
  Context (read : T -> T) (native : bool -> T -> T) (nloss : T -> F) (back : T -> T).

  (** sa.py:325-337; [update_step] is [None] when not given. *)
  Record opts := mkOpts {
    max_iter : Z; delta : R; cn : Z; model_i : Z;
    robust_mode : bool; robust_n : Z; robust_alpha : R;
    hold_h : bool; delay_h : Z; update_step : option (bool -> T -> T) }.

  (** sa.py:471-476 *)
  Record meta := mkMeta { me_max_iter : Z; me_delta : R; me_cn : Z; me_model_i : Z; me_robust_mode : bool }.

  (** Fields of the SA object that train reads or writes. *)
  Record model := mkModel {
    fac : T;                          (* self.W, self.H *)
    step : bool -> T -> T;            (* self.update_step *)
    optimized : bool; validated : bool;
    converged : bool; steps : Z;      (* self.converged, self.converge_steps *)
    number : Z;                       (* self.model_i *)
    q_t : option F; q_r : option F;   (* self.Qtrue, self.Qrobust *)
    hist : option (list F);           (* self.q_list *)
    metadata : option meta }.

  Inductive outcome :=
  | Done (s : model)                  (* returns None *)
  | Refused (s : model)               (* returns -1 *)
  | Raises (s : model).               (* exception; the model as it is left *)
  Definition left_by (o : outcome) : model := match o with Done s | Refused s | Raises s => s end.

  (** lib.rs 203-208: arguments of type i32 and i8; other numbers raise OverflowError,
      which line 423 does not catch. *)
  Definition fits (bits : Z) (x : Z) : bool := ((- 2 ^ (bits - 1) <=? x) && (x <? 2 ^ (bits - 1)))%Z.
  Definition accepted (o : opts) : bool :=
    fits 32 (max_iter o) && fits 32 (cn o) && fits 8 (model_i o) && fits 32 (delay_h o).

  (** sa.py:391-394 *)
  Definition install (s : model) (o : opts) : model :=
    match update_step o with
    | None => s
    | Some f => mkModel (fac s) f (optimized s) (validated s) (converged s) (steps s) (number s) (q_t s) (q_r s) (hist s) (metadata s)
    end.

  (** sa.py:466-476 *)
  Definition finish (s : model) (o : opts) (st : T) (conv : bool) (n : Z) (h : list F) : model :=
    mkModel st (step s) (optimized s) (validated s) conv n (model_i o) (Some (qtrue st)) (Some (qrob (robust_alpha o) st))
      (Some h) (Some (mkMeta (max_iter o) (delta o) (cn o) (model_i o) (robust_mode o))).

  (** sa.py:385-476 *)
  Definition train (tick : nat -> bool) (s0 : model) (o : opts) : outcome :=
    if negb (validated s0) then Refused s0 else
    let s := install s0 o in
    if optimized s then
      if negb (accepted o) then Raises s else
      let r := rust_train native nloss (below (delta o)) (cn o) (hold_h o) (delay_h o) tick (max_iter o) (read (fac s)) in
      Done (finish s o (back (rr_state r)) (rr_conv r) (Z.of_nat (rr_ci r)) (rr_hist r))
    else
      let r := py_train (step s) qtrue (below (delta o))
                 (fun st => isnan (qtrue st) || isnan (qrob (robust_alpha o) st))
                 (cn o) (delay_h o) (hold_h o) (max_iter o) (fac s) in
      match pr_stop r with
      | PIndexError =>
          Raises (mkModel (pr_state r) (step s) (optimized s) (validated s) (converged s) (steps s + Z.of_nat (pr_steps r))
                    (number s) (q_t s) (q_r s) (hist s) (metadata s))
      | PConverged => Done (finish s o (pr_state r) true (steps s + Z.of_nat (pr_steps r)) (pr_hist r))
      | _ => Done (finish s o (pr_state r) (converged s) (steps s + Z.of_nat (pr_steps r)) (pr_hist r))
      end.

  (** Several calls; the caller catches exceptions. *)
  Fixpoint session (tick : nat -> nat -> bool) (s : model) (os : list opts) : model :=
    match os with
    | [] => s
    | o :: r => session (fun c => tick (S c)) (left_by (train (tick 0%nat) s o)) r
    end.
End TrainOpt.
Arguments opts : clear implicits.
Arguments model : clear implicits.
Arguments outcome : clear implicits.
