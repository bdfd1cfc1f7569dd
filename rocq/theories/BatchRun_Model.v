(** Model of a whole batch of LS-NMF models (esat/model/batch_sa.py 94-130, 170-352,
    475-496): [Batch_Model] (scheduling, selection) with [Pipeline_Model] as the training of
    one model.  Not modelled: WS-NMF batches, the GPU, a stack of matrices given to the
    sequential mode. *)
From Coq Require Import Reals Arith List Bool ZArith.
From Verif Require Import Base Fl Layout_Model SA_Model Pipeline_Model Batch_Model.
Import ListNotations.
Local Open Scope R_scope.

(** Attributes of the batch object read by every model. *)
Record job := mkJob {
  j_V : nd; j_U : nd; j_oV : order; j_oU : order; j_k : nat;
  j_max_iter : Z; j_delta : R; j_cn : Z; j_hold : bool }.

(** The matrix passed to initialize and its memory order; drawn matrices are stored by rows. *)
Definition one_of (m : mats (arr R)) : option (option (arr R)) :=
  match m with MNone => Some None | M2 x => Some (Some x) | M3 _ => None end.
Definition order_of (a : option (arr R)) : order := match a with Some x => a_order x | None => COrder end.

(** lines 219-245, 285-301, 486-495: SA(V, U, factors, seed); initialize(H, W);
    train(max_iter, converge_delta, converge_n, hold_h, delay_h).  [draw seed]: the numbers
    drawn from that seed; [tick i]: the progress clock.  The robust alpha is train's default.
    An inner [None] is a model whose training was refused, its Q attributes are None. *)
Definition member (J : job) (draw : Z -> init_kind) (tick : nat -> nat -> bool)
  (seed : Z) (H W : mats (arr R)) (delay : Z) (i : nat) : option (option fitted) :=
  match one_of H, one_of W with
  | Some h, Some w =>
      match Pipeline_Model.fit (mkOrd (j_oV J) (j_oU J) (order_of w) (order_of h)) (j_V J) (j_U J) (j_k J)
              (Some (option_map (fun x => HArg (as_nd x) false) h, option_map as_nd w, draw seed)) (draw seed) (tick i)
              (mkSet (j_max_iter J) (j_delta J) (j_cn J) 4 (j_hold J) delay) with
      | Trained f => Some (Some f)
      | Refused => Some None
      | Raised | OtherEngine => None
      end
  | _, _ => None
  end.

(** Attributes Qrobust and Qtrue of a member. *)
Definition rob_of (x : option fitted) : option fl := option_map f_Qrobust x.
Definition true_of (x : option fitted) : option fl := option_map f_Qtrue x.

(** BatchSA.train, parallel and sequential. *)
Definition batch_parallel (J : job) draw tick (robust verbose : bool) (models : nat) (seeds : nat -> Z) (H W : mats (arr R))
  (delay : Z) (sched : list nat) (s : bstate (option fitted)) :=
  par_train rob_of true_of (i8_engine (member J draw tick)) robust verbose models seeds H W delay sched s.
Definition batch_sequential (J : job) draw tick (robust verbose : bool) (models : nat) (seeds : nat -> Z) (H W : mats (arr R))
  (delay : Z) (limit : option Z) (dur : nat -> Z) (s : bstate (option fitted)) :=
  seq_train rob_of true_of (i8_engine (member J draw tick)) robust verbose models seeds H W delay limit dur s.
