(** Model of the two training loops: the compiled engine
    (rust/lib.rs ls_nmf_update_cpu 353-407; ws_nmf_update_cpu has the same
    loop skeleton, 706-778) and the pure-Python engine (esat/model/sa.py
    430-464).  Generic in the state [S] (W and H), the losses [F] (which may be
    NaN), the update ([upd hold state]) and the test [below first last]
    standing for [first - last < converge_delta]. *)
From Coq Require Import List Bool ZArith.
From Verif Require Import LSNMF_Model.
Import ListNotations.

Section Engines.
  Context {S F : Type}.
  Context (upd : bool -> S -> S) (loss : S -> F) (below : F -> F -> bool).

  (** One progress callback event (lib.rs:391): iteration, loss, completed. *)
  Record event := mkEvent { ev_i : nat; ev_q : F; ev_completed : bool }.

  (** lib.rs:407: (w, h), q, converged, converge_i, q_list_full; plus the
      callback events.  [rr_q = None] is the initial [q = 0.0] (lib.rs:319). *)
  Record rresult := mkR {
    rr_state : S; rr_q : option F; rr_conv : bool; rr_ci : nat;
    rr_hist : list F; rr_events : list event }.

  (** lib.rs:353-398.  [rem] iterations remain, [i] is the loop index, [win] is
      q_list, [hist] q_list_full, [tick i] tells whether the progress interval
      elapsed (wall clock, line 379). *)
  Fixpoint rust_loop (cn : Z) (hold_h : bool) (delay_h : Z) (tick : nat -> bool)
    (rem i : nat) (st : S) (win hist : list F) (q : option F) (ci : nat) (evs : list event)
    : rresult :=
    match rem with
    | O => mkR st q false ci hist evs
    | Datatypes.S rem' =>
        let st' := upd (hold_at hold_h delay_h i) st in
        let q' := loss st' in
        let win' := win ++ [q'] in
        let hist' := hist ++ [q'] in
        let full := (cn <=? Z.of_nat (length win'))%Z in
        let conv := full && below (hd q' win') q' in
        let win'' := if full then tl win' else win' in
        let last := match rem' with O => true | _ => false end in
        let evs' := if tick i || conv || last then evs ++ [mkEvent i q' (conv || last)] else evs in
        if conv then mkR st' (Some q') true i hist' evs'
        else rust_loop cn hold_h delay_h tick rem' (Datatypes.S i) st' win'' hist' (Some q') i evs'
    end.

  (** lib.rs:299-408 (loop part).  A negative [max_iter] gives an empty range. *)
  Definition rust_train (cn : Z) (hold_h : bool) (delay_h : Z) (tick : nat -> bool)
    (max_iter : Z) (st : S) : rresult :=
    rust_loop cn hold_h delay_h tick (Z.to_nat max_iter) 0 st [] [] None 0 [].

  (** Outcome of the Python loop. *)
  Inductive pstop := PDone | PConverged | PNaN | PIndexError.
  Record presult := mkP { pr_state : S; pr_stop : pstop; pr_hist : list F; pr_steps : nat }.

  (** sa.py:434-464.  [hold] is the local variable hold_h, overwritten at line
      436; [isnan st] is the test at line 443 on Q(true) or Q(robust);
      [steps] counts line 464.  Line 449-451 on an empty list raises
      IndexError. *)
  Fixpoint py_loop (isnan : S -> bool) (cn delay_h : Z)
    (rem i : nat) (hold : bool) (st : S) (prior hist : list F) (steps : nat) : presult :=
    match rem with
    | O => mkP st PDone hist steps
    | Datatypes.S rem' =>
        let hold' := if ((0 <? delay_h) && (delay_h <? Z.of_nat i))%Z then false else hold in
        let st' := upd hold' st in
        let q' := loss st' in
        let prior' := prior ++ [q'] in
        let hist' := hist ++ [q'] in
        if isnan st' then mkP st' PNaN hist' steps
        else if (cn <? Z.of_nat (length prior'))%Z then
          match tl prior' with
          | [] => mkP st' PIndexError hist' steps
          | (first :: _) as prior'' =>
              if below first (List.last prior'' first) then mkP st' PConverged hist' steps
              else py_loop isnan cn delay_h rem' (Datatypes.S i) hold' st' prior'' hist' (Datatypes.S steps)
          end
        else py_loop isnan cn delay_h rem' (Datatypes.S i) hold' st' prior' hist' (Datatypes.S steps)
    end.

  (** sa.py:430-464. *)
  Definition py_train (isnan : S -> bool) (cn delay_h : Z) (hold_h : bool)
    (max_iter : Z) (st : S) : presult :=
    py_loop isnan cn delay_h (Z.to_nat max_iter) 0 hold_h st [] [] 0.
End Engines.

Arguments event F : clear implicits.
Arguments rresult S F : clear implicits.
Arguments presult S F : clear implicits.

(** sa.py: status fields of a model: converged (110, 420, 462) and
    converge_steps (111, 421, 464). *)
Record status := mkStatus { s_converged : bool; s_steps : Z }.

(** sa.py:110-111 *)
Definition status0 := mkStatus false 0.

(** sa.py:462-464: the Python engine only ever sets the flag and adds steps. *)
Definition py_status {S F} (r : presult S F) (s : status) : status :=
  mkStatus (match pr_stop r with PConverged => true | _ => s_converged s end)
           (s_steps s + Z.of_nat (pr_steps r)).

(** sa.py:420-421: the compiled engine overwrites both. *)
Definition rust_status {S F} (r : rresult S F) (s : status) : status :=
  mkStatus (rr_conv r) (Z.of_nat (rr_ci r)).

(** ** The engines running LS-NMF *)
From Coq Require Import Reals.
From Verif Require Import Base Fl Metrics_Model.

(** The test [q_list.front() - q_list.back() < converge_delta]
    (lib.rs:372, sa.py:452) on floating-point values. *)
Definition fbelow (delta : R) (first last : fl) : bool := flt (fsub first last) (Fin delta).

(** LS-NMF as a total step: [None] once a division by zero happened. *)
Definition ls_step (m n k : nat) (V U : mat) (hold : bool) (o : option (mat * mat))
  : option (mat * mat) :=
  match o with None => None | Some st => ls_update m n k V (weights U) hold st end.

(** Loss of a state.  Simplification: after a division by zero the loss is NaN
    (in floating point it may also be infinite). *)
Definition ls_loss (m n k : nat) (V U : mat) (o : option (mat * mat)) : fl :=
  match o with None => NaN | Some (W, H) => Fin (q_loss m n k true V U W H) end.

(** lib.rs:299-408 [ls_nmf_update_cpu] *)
Definition ls_rust_train m n k V U (delta : R) cn hold_h delay_h tick max_iter W H :=
  rust_train (ls_step m n k V U) (ls_loss m n k V U) (fbelow delta)
    cn hold_h delay_h tick max_iter (Some (W, H)).

(** sa.py:430-464 with update_method ls-nmf *)
Definition ls_py_train m n k V U (delta : R) cn delay_h hold_h max_iter W H :=
  py_train (ls_step m n k V U) (ls_loss m n k V U) (fbelow delta)
    (fun o => is_nan (ls_loss m n k V U o)) cn delay_h hold_h max_iter (Some (W, H)).
