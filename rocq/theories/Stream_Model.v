(** Model of the random generator of an SA object (esat/model/sa.py:93, 268, 279, 288)
    over several calls of initialize, on top of [initialize] (SA_Model).  The generator
    is the sequence [g] of standard normal numbers that the seed gives; numpy fills an
    array by rows, and normal(1, 0.1) is 1 + 0.1 times a standard normal number.
    Simplifications: the conversion of the draws to float32 is the identity; kmeans2 is
    an argument and has a generator of its own, started from the seed in every call
    (sa.py:265); a call that raises leaves the matrices as they were. *)
From Coq Require Import Reals Arith List Bool.
From Verif Require Import Base Fl Metrics_Model SA_Model.
Import ListNotations.
Open Scope R_scope.

(** Arguments of a call: init_method (with "update", or k-means with its result), H, W. *)
Inductive ask := AskMean (upd : bool) | AskKmeans (cents : nat -> nat -> fl) (clus : nat -> nat).
Record icall := Icall { c_H : option harg; c_W : option nd; c_ask : ask }.

(** sa.py:257-261, 277-279: profiles are drawn unless a matrix of the right shape is given. *)
Definition draws_H (s : sa) (c : icall) : bool :=
  match c_ask c with
  | AskKmeans _ _ => false
  | AskMean _ => match c_H c with Some h => negb (same_shape (h_arr h) (s_k s) (s_n s)) | None => true end
  end.
(** sa.py:280-289: contributions are drawn unless they are given or "update" is asked for. *)
Definition draws_W (c : icall) : bool :=
  match c_ask c, c_W c with AskMean false, None => true | _, _ => false end.

(** How many numbers a call takes from the generator (268, 279, 288). *)
Definition used_H (s : sa) (c : icall) : nat := if draws_H s c then (s_k s * s_n s)%nat else 0%nat.
Definition used (s : sa) (c : icall) : nat :=
  match c_ask c with
  | AskKmeans _ _ => s_m s
  | AskMean _ => (used_H s c + if draws_W c then s_m s * s_k s else 0)%nat
  end.

(** The draws of a call when [p] numbers have been taken before it. *)
Definition kind_at (g : nat -> R) (wsW : nd -> nd) (s : sa) (p : nat) (c : icall) : init_kind :=
  match c_ask c with
  | AskKmeans cents clus => Kmeans cents clus (fun i => Fin (1 + g (p + i)%nat / 10))
  | AskMean upd => ColumnMean upd (fun a j => Fin (g (p + (a * s_n s + j))%nat))
                     (fun i a => Fin (g (p + used_H s c + (i * s_k s + a))%nat)) wsW
  end.

(** A call on an object and its generator, and a sequence of calls. *)
Definition init_at (g : nat -> R) (wsW : nd -> nd) (o : sa * nat) (c : icall) : init_result * (sa * nat) :=
  let r := initialize (fst o) (c_H c) (c_W c) (kind_at g wsW (fst o) (snd o) c) in
  (r, (match r with InitOk s _ => s | InitRaises => fst o end, (snd o + used (fst o) c)%nat)).
Definition after (g : nat -> R) (wsW : nd -> nd) (s : sa) (cs : list icall) : sa * nat :=
  fold_left (fun o c => snd (init_at g wsW o c)) cs (s, 0%nat).
