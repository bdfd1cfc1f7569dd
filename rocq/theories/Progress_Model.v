(** Progress reports of a batch run: the processes, the queue, the listener
    thread and the main thread of [BatchSA.train] as a transition system.

    Modelled: esat/model/batch_sa.py:190-266 (queue, listener, pool, DONE, join),
    287-307 (sequential mode), 475-496 ([_train_task]: the callback of a worker
    puts its arguments in the queue), 536-541 ([_progress_listener]);
    rust/lib.rs:383-394 and 751-764 (what is passed to the callback; an exception
    of the callback is dropped).
    Simplified: the pool gives any model that has not started to any idle
    process (the real pool hands out chunks, which allows fewer executions); the
    robust Q passed along is left out; the log queue is left out. *)
From Coq Require Import List Bool ZArith Arith.
From Verif Require Import Train_Model.
Import ListNotations.

Section Progress.
  Context {F : Type}.

  (** lib.rs:390 (model_i, i, max_iter, qtrue, _, mse, completed) *)
  Record msg := mkMsg { g_model : nat; g_i : nat; g_max : Z; g_q : F; g_mse : F; g_completed : bool }.
  Definition message (over : F -> F) (max_iter : Z) (i : nat) (e : event F) : msg :=
    mkMsg i (ev_i e) max_iter (ev_q e) (over (ev_q e)) (ev_completed e).

  (** what is in the queue (lines 482, 263) *)
  Inductive item := Put (x : msg) | DONE.
  (** a model: not yet given to a process, in a process, returned, raised *)
  Inductive wstate := Waiting | Running | Finished | Failed.
  (** the main thread: in starmap (line 258), after putting DONE (263) and so in
      join (264), returned [(True, "")] or [(False, message)] *)
  Inductive mstate := Training | Joining | Returned (ok : bool).
  (** the listener thread: in its loop, left by [break], ended by an exception of
      the callback *)
  Inductive lstate := Listening | Stopped | Died.

  Record state := mkState {
    work : nat -> wstate; todo : nat -> list msg; queue : list item;
    shown : list msg; main : mstate; lis : lstate }.

  Definition upd {A : Type} (f : nat -> A) (i : nat) (x : A) : nat -> A := fun j => if j =? i then x else f j.
  Definition runs (w : wstate) : bool := match w with Running => true | _ => false end.
  Definition busy (n : nat) (s : state) : nat := length (filter (fun i => runs (work s i)) (seq 1 n)).
  Definition over_with (w : wstate) : bool := match w with Finished | Failed => true | _ => false end.

  (** [n] models in [cores] processes; [msgs i] are the calls the engine makes for
      model [i]; [fails i]: its task raises; [raises x]: the user's callback raises
      when called with [x]. *)
  Context (n cores : nat) (msgs : nat -> list msg) (fails : nat -> bool) (raises : msg -> bool).

  (** Before starmap: the listener is started (lines 209-217), nothing is sent *)
  Definition start : state := mkState (fun _ => Waiting) msgs [] [] Training Listening.

  Inductive step : state -> state -> Prop :=
  | Start i s : (1 <= i <= n)%nat -> main s = Training -> work s i = Waiting -> (busy n s < cores)%nat ->
      step s (mkState (upd (work s) i Running) (todo s) (queue s) (shown s) (main s) (lis s))
  | Send i x r s : (1 <= i <= n)%nat -> work s i = Running -> todo s i = x :: r ->
      step s (mkState (work s) (upd (todo s) i r) (queue s ++ [Put x]) (shown s) (main s) (lis s))
  | End i s : (1 <= i <= n)%nat -> work s i = Running -> todo s i = [] ->
      step s (mkState (upd (work s) i (if fails i then Failed else Finished)) (todo s) (queue s) (shown s) (main s) (lis s))
  | Show x q s : lis s = Listening -> queue s = Put x :: q ->
      step s (mkState (work s) (todo s) q (shown s ++ [x]) (main s) (if raises x then Died else Listening))
  | Stop q s : lis s = Listening -> queue s = DONE :: q ->
      step s (mkState (work s) (todo s) q (shown s) (main s) Stopped)
  (** starmap returns once every task has ended (lines 258-261); then line 263 *)
  | Post s : main s = Training -> (forall i, (1 <= i <= n)%nat -> work s i = Finished) ->
      step s (mkState (work s) (todo s) (queue s ++ [DONE]) (shown s) Joining (lis s))
  (** starmap raises the exception of a task, again once every task has ended; line 346 *)
  | Raise i s : main s = Training -> (forall j, (1 <= j <= n)%nat -> over_with (work s j) = true) ->
      (1 <= i <= n)%nat -> work s i = Failed ->
      step s (mkState (work s) (todo s) (queue s) (shown s) (Returned false) (lis s))
  (** line 264 *)
  | Join s : main s = Joining -> lis s <> Listening ->
      step s (mkState (work s) (todo s) (queue s) (shown s) (Returned true) (lis s)).

  Inductive steps : nat -> state -> state -> Prop :=
  | Stay s : steps 0 s s
  | Go k s s' s'' : steps k s s' -> step s' s'' -> steps (S k) s s''.

  (** Sequential mode (lines 287-307): the engine calls the callback itself, and
      drops its exceptions.  [(what was shown, whether train returned True)] *)
  Fixpoint sequential (is : list nat) : list msg * bool :=
    match is with
    | [] => ([], true)
    | i :: t => if fails i then (msgs i, false)
                else let '(l, ok) := sequential t in (msgs i ++ l, ok)
    end.

  (** The whole of parallel mode: the callback is among the arguments of every
      task (lines 250-254), so each task is pickled with it; when it cannot be,
      starmap raises and no task runs. *)
  Definition train_parallel (picklable : bool) (sh : list msg) (ok : bool) : Prop :=
    if picklable || (n =? 0) then exists k s, steps k start s /\ main s = Returned ok /\ shown s = sh
    else sh = [] /\ ok = false.
End Progress.
Arguments msg : clear implicits.
Arguments item : clear implicits.
Arguments state : clear implicits.
