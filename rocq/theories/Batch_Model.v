(** Model of esat/model/batch_sa.py BatchSA.train (170-352) and _train_task
    (475-496).  Building, initialising and training one SA model is the
    argument [fit seed H W delay_h model_i]; [None] is an exception.  The random
    stream, the workers' completion order and the run times are arguments. *)
From Coq Require Import List Bool ZArith Lia.
From Verif Require Import Fl.
Import ListNotations.
Open Scope Z_scope.

(** Seed matrices given to the batch (lines 231-244): absent, 2-D, or a stack. *)
Inductive mats (X : Type) := MNone | M2 (x : X) | M3 (l : list X).
Arguments MNone {X}. Arguments M2 {X}. Arguments M3 {X}.

Section Batch.
  Context {M X : Type}.
  Context (qrobust qtrue : M -> option fl).
  Context (fit : Z -> mats X -> mats X -> Z -> nat -> option M).

  (** Attributes results and best_model of the batch object. *)
  Record bstate := mkB { b_results : list (option M); b_best : option Z }.

  (** The returned flag and the new attributes. *)
  Definition outcome := (bool * bstate)%type.

  (** lines 267, 312: the loss used for selection; [None] is the attribute's
      initial value, whose comparison raises TypeError. *)
  Definition sel_q (robust : bool) (m : M) : option fl := if robust then qrobust m else qtrue m.

  (** Python list indexing with a possibly negative index. *)
  Definition py_index_ok {A} (l : list A) (i : Z) : bool :=
    (- Z.of_nat (length l) <=? i) && (i <? Z.of_nat (length l)).

  (** lines 318-346: common ending. [best] counts models from 1 (or is -1). *)
  Definition finish (verbose : bool) (results : list (option M)) (best : Z) (s : bstate) : outcome :=
    let best := best - 1 in
    if verbose && negb (py_index_ok results best) then (false, mkB results (b_best s))
    else match results with
         | [] => (false, mkB results (Some best))                     (* results[-1] IndexError *)
         | _ => match last results None with
                | None => (true, mkB (removelast results) (Some best))
                | Some _ => (true, mkB results (Some best))
                end
         end.

  (** lines 231-244: model [i]'s seed matrix; [None] is the IndexError. *)
  Definition par_sel (m : mats X) (i : nat) : option (mats X) :=
    match m with
    | MNone => Some MNone
    | M2 x => Some (M2 x)
    | M3 l => match nth_error l (i - 1) with Some x => Some (M2 x) | None => None end
    end.

  (** line 257: starmap.  Workers finish in the order [sched] (model numbers);
      each stores its result in its own slot; the caller reads the slots. *)
  Definition store (slots : nat -> option (option M)) (i : nat) (r : option M) : nat -> option (option M) :=
    fun j => if (j =? i)%nat then Some r else slots j.
  Definition run_workers (work : nat -> option M) (sched : list nat) : nat -> option (option M) :=
    fold_left (fun slots i => store slots i (work i)) sched (fun _ => None).
  (** results of models 1..n, or [None] if a worker raised (or never finished). *)
  Fixpoint collect (slots : nat -> option (option M)) (ids : list nat) : option (list (nat * M)) :=
    match ids with
    | [] => Some []
    | i :: r => match slots i, collect slots r with
                | Some (Some m), Some l => Some ((i, m) :: l)
                | _, _ => None
                end
    end.

  (** lines 264-275: place each result and keep the first strictly smaller loss. *)
  Fixpoint pick (robust : bool) (rs : list (nat * M)) (bq : fl) (bm : Z) : option Z :=
    match rs with
    | [] => Some bm
    | (i, m) :: r =>
        match sel_q robust m with
        | None => None
        | Some q => if flt q bq then pick robust r q (Z.of_nat i) else pick robust r bq bm
        end
    end.
  Definition place (slots : list (option M)) (i : nat) (m : M) : list (option M) :=
    firstn (i - 1) slots ++ [Some m] ++ skipn i slots.
  Definition ordered (rs : list (nat * M)) : list (option M) :=
    fold_left (fun acc p => place acc (fst p) (snd p)) rs (repeat None (length rs + 1)).

  Fixpoint all_some {A} (l : list (option A)) : option (list A) :=
    match l with
    | [] => Some []
    | Some a :: r => match all_some r with Some l' => Some (a :: l') | None => None end
    | None :: _ => None
    end.

  (** lines 207-277. [draw i] is the seed of model i+1. *)
  Definition par_train (robust verbose : bool) (n : nat) (draw : nat -> Z) (Hm Wm : mats X)
    (delay_h : Z) (sched : list nat) (s : bstate) : outcome :=
    let ids := seq 1 n in
    (* initialisation of every model, before any worker starts *)
    match all_some (map (fun i => match par_sel Hm i, par_sel Wm i with
                                  | Some h, Some w => Some (h, w) | _, _ => None end) ids) with
    | None => (false, s)
    | Some sels =>
        let work i := match nth_error sels (i - 1) with
                      | Some (h, w) => fit (draw (i - 1)%nat) h w delay_h i
                      | None => None
                      end in
        match collect (run_workers work sched) ids with
        | None => (false, s)
        | Some rs =>
            match pick robust rs PInf (-1) with
            | None => (false, s)
            | Some best => finish verbose (ordered rs) best s
            end
        end
    end.

  (** line 305: datetime.timedelta.seconds of a duration in microseconds. *)
  Definition td_seconds (us : Z) : Z := (us / 1000000) mod 86400.

  (** line 306: [min_limit and t_delta.seconds / 60 > min_limit]. *)
  Definition over_limit (limit : option Z) (us : Z) : bool :=
    match limit with
    | None => false
    | Some l => negb (l =? 0) && (60 * l <? td_seconds us)
    end.

  Inductive seq_end := SeqDone (best : Z) | SeqFail.

  (** lines 283-316; note that train is called without delay_h (default -1). *)
  Fixpoint seq_loop (robust : bool) (draw : nat -> Z) (Hm Wm : mats X) (limit : option Z)
    (dur : nat -> Z) (rem i : nat) (results : list (option M)) (bq : fl) (bm : Z)
    : list (option M) * seq_end :=
    match rem with
    | O => (results, SeqDone bm)
    | S rem' =>
        match fit (draw (i - 1)%nat) Hm Wm (-1) i with
        | None => (results, SeqFail)
        | Some m =>
            if over_limit limit (dur i) then (results, SeqFail)
            else match sel_q robust m with
                 | None => (results, SeqFail)
                 | Some q =>
                     if flt q bq
                     then seq_loop robust draw Hm Wm limit dur rem' (S i) (results ++ [Some m]) q (Z.of_nat i)
                     else seq_loop robust draw Hm Wm limit dur rem' (S i) (results ++ [Some m]) bq bm
                 end
        end
    end.

  (** lines 279-352, sequential branch. *)
  Definition seq_train (robust verbose : bool) (n : nat) (draw : nat -> Z) (Hm Wm : mats X)
    (delay_h : Z) (limit : option Z) (dur : nat -> Z) (s : bstate) : outcome :=
    match seq_loop robust draw Hm Wm limit dur n 1 [] PInf (-1) with
    | (results, SeqDone best) => finish verbose results best s
    | (results, SeqFail) => (false, mkB results (b_best s))
    end.
End Batch.

Arguments bstate M : clear implicits.

(** rust/lib.rs:206, 540: [model_i: i8]; larger integers raise OverflowError,
    which SA.train does not catch (sa.py:423 catches RuntimeError only). *)
Definition i8_engine {M X} (fit : Z -> mats X -> mats X -> Z -> nat -> option M)
  : Z -> mats X -> mats X -> Z -> nat -> option M :=
  fun seed H W delay i => if (127 <? Z.of_nat i)%Z then None else fit seed H W delay i.
