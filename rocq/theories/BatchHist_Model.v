(** A batch object over several calls of train, and its report:
    esat/model/batch_sa.py 73-168 (constructor, details) and 170-352 (train, the
    model of Batch_Model).

    A call carries the settings the object has at that moment (all of them are
    plain attributes), the order in which workers finish, the run times, and, for a
    call that does not succeed, how many seeds had been drawn by then; a successful
    call draws one seed per model (lines 212, 284).  [stream] is the sequence of
    seeds the object's generator, made once in the constructor (line 107), yields.
    A printed line is its numbers and the model whose seed, converged flag and steps
    it shows; the formatting to four decimals is left out. *)
From Coq Require Import List Bool ZArith Reals.
From Verif Require Import Fl Batch_Model.
Import ListNotations.
Open Scope Z_scope.

Inductive exn := TypeErr | IndexErr | AttrErr.

Section Hist.
  Context {M X : Type}.
  Context (qrobust qtrue : M -> option fl).
  Context (fit : Z -> mats X -> mats X -> Z -> nat -> option M).

  Record call := mkCall {
    c_parallel : bool; c_robust : bool; c_verbose : bool; c_n : nat;
    c_H : mats X; c_W : mats X; c_delay : Z; c_limit : option Z;
    c_sched : list nat; c_dur : nat -> Z; c_drawn : nat }.

  (** The object: how far its generator has been read, results and best_model. *)
  Record bobj := mkObj { o_pos : nat; o_state : bstate M }.
  (** lines 107, 129-130 *)
  Definition new_object : bobj := mkObj 0 (mkB [] None).

  Definition train (stream : nat -> Z) (c : call) (o : bobj) : bool * bobj :=
    let draw i := stream (o_pos o + i)%nat in
    let r := if c_parallel c
             then par_train qrobust qtrue fit (c_robust c) (c_verbose c) (c_n c) draw (c_H c) (c_W c) (c_delay c) (c_sched c) (o_state o)
             else seq_train qrobust qtrue fit (c_robust c) (c_verbose c) (c_n c) draw (c_H c) (c_W c) (c_delay c) (c_limit c) (c_dur c) (o_state o) in
    (fst r, mkObj (o_pos o + (if fst r then c_n c else c_drawn c)) (snd r)).

  Fixpoint train_all (stream : nat -> Z) (cs : list call) (o : bobj) : bobj :=
    match cs with
    | [] => o
    | c :: r => train_all stream r (snd (train stream c o))
    end.

  Record line := mkLine { l_number : Z; l_model : M; l_qtrue : fl; l_msetrue : fl; l_qrobust : fl; l_mserobust : fl }.

  (** lines 156-161, 163-168; formatting None raises TypeError. *)
  Definition line_of (size : R) (number : Z) (x : M) : exn + line :=
    match qtrue x, qrobust x with
    | Some a, Some b => inr (mkLine number x a (fdiv a (Fin size)) b (fdiv b (Fin size)))
    | _, _ => inl TypeErr
    end.

  (** lines 152-161 *)
  Fixpoint model_lines (size : R) (i : nat) (rs : list (option M)) : exn + list line :=
    match rs with
    | [] => inr []
    | None :: r => model_lines size (S i) r
    | Some x :: r =>
        match line_of size (Z.of_nat i + 1) x with
        | inl e => inl e
        | inr l => match model_lines size (S i) r with inl e => inl e | inr ls => inr (l :: ls) end
        end
    end.

  (** Python list access. *)
  Definition py_get {A} (l : list A) (i : Z) : option A :=
    if (0 <=? i)%Z then nth_error l (Z.to_nat i)
    else if (- Z.of_nat (length l) <=? i)%Z then nth_error l (Z.to_nat (Z.of_nat (length l) + i)) else None.

  (** lines 142-168: the lines of the models and the line of the best one. *)
  Definition details (size : R) (s : bstate M) : exn + (list line * option line) :=
    match b_results s with
    | [] => inr ([], None)
    | rs =>
        match model_lines size 0 rs with
        | inl e => inl e
        | inr ls =>
            match b_best s with
            | None => inl TypeErr
            | Some b =>
                match py_get rs b with
                | None => inl IndexErr
                | Some None => inl AttrErr
                | Some (Some x) => match line_of size (b + 1) x with inl e => inl e | inr l => inr (ls, Some l) end
                end
            end
        end
    end.
End Hist.
Arguments call X : clear implicits.
Arguments bobj M : clear implicits.
Arguments line M : clear implicits.
