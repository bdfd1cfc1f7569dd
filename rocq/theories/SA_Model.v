(** Model of the SA object: constructor, validation, initialisation and the
    guards of train (esat/model/sa.py 58-308, 385-416).  Inputs are 2-D numpy
    arrays.  Numbers are [fl] (exact reals with NaN and infinities; the
    conversion to float32 at lines 72-73 is the identity).  Random draws,
    k-means and the WS-NMF step used by "update" are arguments. *)
From Coq Require Import Reals Arith List Bool.
From Verif Require Import Base Fl Metrics_Model.
Open Scope R_scope.

(** A two-dimensional array. *)
Record nd := ND { rows : nat; cols : nat; cell : nat -> nat -> fl }.

Definition ndany (p : fl -> bool) (a : nd) : bool :=
  existsb (fun i => existsb (fun j => p (cell a i j)) (seq 0 (cols a))) (seq 0 (rows a)).

Definition has_nan (a : nd) : bool := ndany is_nan a.

(** [a.min() < 0.0]: numpy's min of an empty array raises, and is NaN (so the
    comparison is false) as soon as an entry is NaN. *)
Definition min_neg (a : nd) : option bool :=
  if (rows a =? 0)%nat || (cols a =? 0)%nat then None
  else if has_nan a then Some false
  else Some (ndany (fun x => flt x (Fin 0)) a).

Definition ndmap (f : fl -> fl) (a : nd) : nd := ND (rows a) (cols a) (fun i j => f (cell a i j)).

Definition same_shape (a : nd) (r c : nat) : bool := (rows a =? r)%nat && (cols a =? c)%nat.

Inductive method := LSNMF | WSNMF.

Record sa := SA {
  sV : nd; sU : nd; sWe : nd;
  s_m : nat; s_n : nat; s_k : nat;
  s_method : method;
  s_engine : method;           (* update_step / optimized_update *)
  s_H : option nd; s_W : option nd;
  s_neg : bool;                (* __has_neg *)
  s_valid : bool;              (* __validated *)
  s_init : bool                (* __initialized *)
}.

(** sa.py:76 *)
Definition floor_u (u : fl) : fl := if flt u (Fin EPS) then Fin EPS else u.

(** sa.py:79 *)
Definition weight_of (u : fl) : fl := fdiv (Fin 1) (fmul u u).

(** sa.py:142-217; the result is (validated, has_neg); [None] is the ValueError
    of min() on an empty array. *)
Definition validate (V U : nd) (m n k : nat) (H W : option nd) : option (bool * bool) :=
  match min_neg V, min_neg U with
  | Some vneg, Some uneg =>
      let vok := negb (has_nan V) in
      let uok := negb (has_nan U) && negb uneg in
      let shape_ok := same_shape U (rows V) (cols V) in
      let hres := match H with
                  | None => Some false
                  | Some h => match min_neg h with
                              | None => None
                              | Some hneg => Some (same_shape h k n && negb (has_nan h) && negb hneg)
                              end
                  end in
      let wres := match W with
                  | None => Some (false, false)
                  | Some w => match min_neg w with
                              | None => None
                              | Some wneg => Some (same_shape w m k && negb (has_nan w), wneg)
                              end
                  end in
      match hres, wres with
      | Some hok, Some (wok, wneg) => Some (vok && uok && shape_ok && hok && wok, vneg || wneg)
      | _, _ => None
      end
  | _, _ => None
  end.

(** sa.py:58-140; [None] when the constructor raises. *)
Definition construct (V U : nd) (k : nat) (mth : method) : option sa :=
  let U' := ndmap floor_u U in
  match validate V U' (rows V) (cols V) k None None with
  | None => None
  | Some (_, neg) =>
      Some {| sV := V; sU := U'; sWe := ndmap weight_of U';
              s_m := rows V; s_n := cols V; s_k := k;
              s_method := mth;
              s_engine := match mth with LSNMF => if neg then WSNMF else LSNMF | WSNMF => WSNMF end;
              s_H := None; s_W := None;
              s_neg := neg; s_valid := false; s_init := false |}
  end.

(** Where initial matrices come from. [Kmeans cents clus draws]: scipy's result
    and the normal draws (sa.py:263-270). [ColumnMean upd rngH rngW wsW]:
    [upd] says whether init_method contains "update" (sa.py:274-291), [wsW] is
    the contribution matrix WSNMF.update would return. *)
Inductive init_kind :=
| Kmeans (cents : nat -> nat -> fl) (clus : nat -> nat) (draws : nat -> fl)
| ColumnMean (upd : bool) (rngH rngW : nat -> nat -> fl) (wsW : nd -> nd).

(** sa.py:274-275 *)
Definition col_mean (V : nd) (j : nat) : fl :=
  fdiv (fsum (rows V) (fun i => cell V i j)) (Fin (INR (rows V))).
Definition row_mean (V : nd) (i : nat) : fl :=
  fdiv (fsum (cols V) (fun j => cell V i j)) (Fin (INR (cols V))).

(** sa.py:277-279 *)
Definition random_H (V : nd) (k n : nat) (rngH : nat -> nat -> fl) : nd :=
  ND k n (fun a j => fmul (fsqrt (fdiv (col_mean V j) (Fin (INR k)))) (rngH a j)).

(** sa.py:286-291 *)
Definition floor_w (x : fl) : fl := if fle x (Fin 0) then Fin EPS else x.
Definition random_W (mth : method) (V : nd) (m k : nat) (rngW : nat -> nat -> fl) : nd :=
  let w := ND m k (fun i a => fmul (fsqrt (fdiv (row_mean V i) (Fin (INR k)))) (rngW i a)) in
  match mth with LSNMF => ndmap floor_w w | WSNMF => w end.

(** sa.py:282: V H^T *)
Definition matmul_T (V H : nd) : nd :=
  ND (rows V) (rows H) (fun i a => fsum (cols V) (fun j => fmul (cell V i j) (cell H a j))).

(** sa.py:297-299: assign the prior rows (numpy broadcasts a one-column prior);
    [None] is the IndexError / ValueError. *)
Definition insert_prior (H P : nd) : option nd :=
  if (rows P =? 0)%nat then Some H
  else if (rows H <? rows P)%nat then None
  else if (cols P =? cols H)%nat then
    Some (ND (rows H) (cols H) (fun a j => if (a <? rows P)%nat then cell P a j else cell H a j))
  else if (cols P =? 1)%nat then
    Some (ND (rows H) (cols H) (fun a j => if (a <? rows P)%nat then cell P a 0%nat else cell H a j))
  else None.

(** sa.py:300 *)
Definition col_normalise (H : nd) : nd :=
  ND (rows H) (cols H) (fun a j => fdiv (cell H a j) (fsum (rows H) (fun b => cell H b j))).

(** sa.py:301; [h_int]: the array has an integer dtype, so 1e-12 is stored as 0. *)
Definition floor_h (h_int : bool) (x : fl) : fl :=
  if fle x (Fin 0) then (if h_int then Fin 0 else Fin EPS) else x.

(** A profile matrix passed by the caller, and whether its dtype is integer. *)
Record harg := HArg { h_arr : nd; h_is_int : bool }.

Inductive init_result :=
| InitRaises
| InitOk (s : sa) (caller_H : option nd).   (* caller's array after the call *)

(** sa.py:219-308 *)
Definition initialize (s : sa) (H0 : option harg) (W0 : option nd) (kind : init_kind) : init_result :=
  let usable := match H0 with Some h => same_shape (h_arr h) (s_k s) (s_n s) | None => false end in
  let H1 := if usable then H0 else None in
  let prior := if usable then None else option_map h_arr H0 in
  let '(Hg, h_int, fresh, W) :=
    match kind with
    | Kmeans cents clus draws =>
        (ND (s_k s) (s_n s) cents, false, true,
         ND (s_m s) (s_k s) (fun i a => if (a =? clus i)%nat then draws i else Fin (1 / INR (s_k s))))
    | ColumnMean upd rngH rngW wsW =>
        let '(Hx, hi, fr) := match H1 with
                             | Some h => (h_arr h, h_is_int h, false)
                             | None => (random_H (sV s) (s_k s) (s_n s) rngH, false, true)
                             end in
        let Wx := if upd then
                    Some (match s_method s with LSNMF => matmul_T (sV s) Hx | WSNMF => wsW Hx end)
                  else W0 in
        (Hx, hi, fr,
         match Wx with
         | Some w => w
         | None => random_W (s_method s) (sV s) (s_m s) (s_k s) rngW
         end)
    end in
  let H2 := match prior with
            | None => Some Hg
            | Some p => option_map col_normalise (insert_prior Hg p)
            end in
  match H2 with
  | None => InitRaises
  | Some h2 =>
      let Hf := ndmap (floor_h h_int) h2 in
      match validate (sV s) (sU s) (s_m s) (s_n s) (s_k s) (Some Hf) (Some W) with
      | None => InitRaises
      | Some (ok, neg) =>
          InitOk {| sV := sV s; sU := sU s; sWe := sWe s;
                    s_m := s_m s; s_n := s_n s; s_k := s_k s;
                    s_method := s_method s; s_engine := s_engine s;
                    s_H := Some Hf; s_W := Some W;
                    s_neg := neg; s_valid := ok; s_init := true |}
                 (match H0 with
                  | None => None
                  | Some h => Some (if fresh then h_arr h else Hf)
                  end)
      end
  end.

Inductive train_result :=
| TRaises
| TRefused (s : sa)                                  (* returns -1 *)
| TRun (eng : method) (V U We W H : nd) (s : sa).    (* the update engine is called *)

(** sa.py:382-416 up to the call of the engine: [deflt] is the default
    initialisation drawn when the model was not initialised. *)
Definition train_guard (s : sa) (deflt : init_kind) : train_result :=
  let s' := if s_init s then InitOk s None else initialize s None None deflt in
  match s' with
  | InitRaises => TRaises
  | InitOk s1 _ =>
      if s_valid s1 then
        match s_H s1, s_W s1 with
        | Some H, Some W => TRun (s_engine s1) (sV s1) (sU s1) (sWe s1) W H s1
        | _, _ => TRaises
        end
      else TRefused s1
  end.
