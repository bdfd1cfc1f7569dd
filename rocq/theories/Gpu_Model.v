(** Model of the CUDA branch of the compiled engine: rust/lib.rs 218-258 and
    550-590 (conversion to tensors), 410-526 (ls_nmf_update_gpu), 774-908
    (ws_nmf_update_gpu), 944-978 (calculate_q_gpu, calculate_q_robust_gpu),
    278-297 and 611-629 (return to Python), and esat/model/sa.py 396-431,
    464-470 (SA.train around the engine).

    A candle tensor is an element type, a shape and its elements in row-major
    order.  Operations return [None] where candle 0.9.1 returns [Err]: element
    types that differ, shapes that differ (the methods add/sub/mul/div do not
    broadcast), inner dimensions of a product that differ, to_scalar at another
    element type or on a tensor that is not a scalar.  Values are exact reals;
    only 2-D products are modelled (no other product is reached).  Terminal
    output is left out.  The clock is the argument [tick]. *)
From Coq Require Import Reals List Bool ZArith Arith.
From Verif Require Import Base Layout_Model.
Import ListNotations.

Inductive dtype := F32 | F64.
Definition dtype_eqb (a b : dtype) : bool :=
  match a, b with F32, F32 | F64, F64 => true | _, _ => false end.

Record tensor := mkT { t_dt : dtype; t_dims : list nat; t_dat : nat -> R }.

Definition dims_eqb (a b : list nat) : bool :=
  if list_eq_dec Nat.eq_dec a b then true else false.

Notation "'do' x <- e ; f" := (match e with Some x => f | None => None end)
  (at level 200, x name, e at level 100, f at level 200).

(** Tensor::from_vec of f64 values. *)
Definition from_f64 (dims : list nat) (dat : nat -> R) : tensor := mkT F64 dims dat.

(** Methods add, sub, mul, div and lt. *)
Definition binop (f : R -> R -> R) (a b : tensor) : option tensor :=
  if dtype_eqb (t_dt a) (t_dt b) && dims_eqb (t_dims a) (t_dims b)
  then Some (mkT (t_dt a) (t_dims a) (fun p => f (t_dat a p) (t_dat b p)))
  else None.
Definition tadd := binop Rplus.
Definition tsub := binop Rminus.
Definition tmul := binop Rmult.
Definition tdiv := binop Rdiv.

Definition tmap (f : R -> R) (a : tensor) : tensor := mkT (t_dt a) (t_dims a) (fun p => f (t_dat a p)).
Definition tabs := tmap Rabs.
Definition tsqrt := tmap sqrt.

Definition matmul (a b : tensor) : option tensor :=
  match t_dims a, t_dims b with
  | [r; c], [c'; s] =>
      if dtype_eqb (t_dt a) (t_dt b) && (c =? c')%nat
      then Some (mkT (t_dt a) [r; s]
             (fun p => rsum c (fun l => t_dat a (p / s * c + l) * t_dat b (l * s + p mod s))%R))
      else None
  | _, _ => None
  end.

(** Method t. *)
Definition transp (a : tensor) : option tensor :=
  match t_dims a with
  | [r; c] => Some (mkT (t_dt a) [c; r] (fun p => t_dat a (p mod r * c + p / r)))
  | _ => None
  end.

Definition elem_count (a : tensor) : nat := fold_right Nat.mul 1%nat (t_dims a).
Definition sum_all (a : tensor) : tensor := mkT (t_dt a) [] (fun _ => rsum (elem_count a) (t_dat a)).
Definition to_scalar (d : dtype) (a : tensor) : option R :=
  match t_dims a with
  | [] => if dtype_eqb d (t_dt a) then Some (t_dat a 0) else None
  | _ => None
  end.

(** lines 944-957 *)
Definition calculate_q_gpu (v u w h : tensor) : option R :=
  do wh <- matmul w h;
  do res <- tsub v wh;
  do wr <- tdiv res u;
  do wr2 <- tmul wr wr;
  to_scalar F32 (sum_all wr2).

(** lines 959-978; line 972 [lt] compares like the other methods; lines 972-973
    select cell by cell. *)
Definition calculate_q_robust_gpu (v u w h : tensor) (alpha : R) : option R :=
  do wh <- matmul w h;
  do res <- tsub v wh;
  do sr0 <- tdiv res u;
  let sr := tabs sr0 in
  do ru0 <- tdiv sr (from_f64 [1%nat] (fun _ => alpha));
  do ru <- tmul (tsqrt ru0) u;
  do rr0 <- tdiv res ru;
  let rr := tabs rr0 in
  do mask <- binop (fun x a => if Rlt_dec x a then 1 else 0)%R sr (from_f64 [1%nat] (fun _ => alpha));
  let merged := mkT (t_dt sr) (t_dims sr)
                  (fun p => if Req_EM_T (t_dat mask p) 1 then t_dat sr p else t_dat rr p) in
  do mr2 <- tmul merged merged;
  to_scalar F32 (sum_all mr2).

(** Shared by both engines: lines 480-484 and 841-846 (update of W). *)
Definition gpu_w (we wev w h : tensor) : option tensor :=
  do wh <- matmul w h;
  do ht <- transp h;
  do num <- matmul wev ht;
  do wewh <- tmul we wh;
  do den <- matmul wewh ht;
  do delta <- tdiv num den;
  tmul w delta.

(** lines 471-476 *)
Definition ls_gpu_h (we wev w h : tensor) : option tensor :=
  do wh <- matmul w h;
  do wt <- transp w;
  do num <- matmul wt wev;
  do wewh <- tmul we wh;
  do den <- matmul wt wewh;
  do delta <- tdiv num den;
  tmul h delta.

(** lines 848-868 *)
Definition ws_gpu_h (we wev w h : tensor) : option tensor :=
  let half := from_f64 [1%nat] (fun _ => / 2)%R in
  let eps := from_f64 [1%nat] (fun _ => / 10 ^ 12)%R in
  let wa := tabs w in
  do dneg <- tsub wa w;
  do wneg <- tmul dneg half;
  do dpos <- tadd wa w;
  do wpos <- tmul dpos half;
  do wh <- matmul w h;
  do wpt <- transp wpos;
  do wnt <- transp wneg;
  do hnum <- matmul wpt wev;
  do hden <- matmul wnt wev;
  do n2a <- matmul wnt we;
  do n2b <- matmul n2a wneg;
  do d2a <- matmul wpt we;
  do d2b <- matmul d2a wpos;
  do hj <- transp h;
  do n2 <- matmul hj n2b;
  do d2 <- matmul hj d2b;
  do n0 <- tadd hnum n2;
  do n <- tadd n0 eps;
  do d0 <- tadd hden d2;
  do d <- tadd d0 eps;
  do q <- tdiv n d;
  do dt <- transp (tsqrt q);
  tmul h dt.

(** lines 470, 848: is H updated in iteration [i]? *)
Definition h_moves (hold_h : bool) (delay_h i : Z) : bool :=
  negb hold_h || ((0 <? delay_h)%Z && (delay_h <? i)%Z).

(** lines 467-484 *)
Definition ls_gpu_update (we wev : tensor) (hold_h : bool) (delay_h i : Z) (w h : tensor)
  : option (tensor * tensor) :=
  do h' <- (if h_moves hold_h delay_h i then ls_gpu_h we wev w h else Some h);
  do w' <- gpu_w we wev w h';
  Some (w', h').

(** lines 839-868 *)
Definition ws_gpu_update (we wev : tensor) (hold_h : bool) (delay_h i : Z) (w h : tensor)
  : option (tensor * tensor) :=
  do w' <- gpu_w we wev w h;
  do h' <- (if h_moves hold_h delay_h i then ws_gpu_h we wev w' h else Some h);
  Some (w', h').

(** Result of an engine: W, H, q, converged, converge_i, q_list. *)
Record gpu_out := mkOut { go_w : tensor; go_h : tensor; go_q : R; go_conv : bool; go_ci : Z; go_ql : list R }.

Section Loop.
  Context (update : Z -> tensor -> tensor -> option (tensor * tensor)).
  Context (v u : tensor) (delta : R) (cn : Z) (alpha : R) (tick : Z -> bool) (max_iter : Z).

  (** lines 467-511, 838-894: [fuel] iterations left, the window [ql] (oldest
      first) and the full history [full]. *)
  Fixpoint gpu_loop (fuel : nat) (i : Z) (w h : tensor) (q : R) (ci : Z) (ql full : list R) : option gpu_out :=
    match fuel with
    | O => Some (mkOut w h q false ci full)
    | S fuel' =>
        do wh <- update i w h;
        do q' <- calculate_q_gpu v u (fst wh) (snd wh);
        let ql' := ql ++ [q'] in
        let full' := full ++ [q'] in
        let reached := (cn <=? Z.of_nat (length ql'))%Z in
        let conv := reached && if Rlt_dec (hd 0 ql' - q') delta then true else false in
        let ql'' := if reached then tl ql' else ql' in
        do _r <- (if tick i || conv || (i + 1 =? max_iter)%Z
                  then calculate_q_robust_gpu v u (fst wh) (snd wh) alpha else Some 0%R);
        if conv then Some (mkOut (fst wh) (snd wh) q' true i full')
        else gpu_loop fuel' (i + 1) (fst wh) (snd wh) q' i ql'' full'
    end.
End Loop.

(** lines 410-511: ls_nmf_update_gpu up to the conversion of the result. *)
Definition ls_nmf_update_gpu (v u we w h : tensor) (max_iter : Z) (delta : R) (cn : Z) (alpha : R)
  (hold_h : bool) (delay_h : Z) (tick : Z -> bool) : option gpu_out :=
  do wev <- tmul we v;
  gpu_loop (ls_gpu_update we wev hold_h delay_h) v u delta cn alpha tick max_iter
    (Z.to_nat max_iter) 0 w h 0 0 [] [].

(** lines 774-894 *)
Definition ws_nmf_update_gpu (v u we w h : tensor) (max_iter : Z) (delta : R) (cn : Z) (alpha : R)
  (hold_h : bool) (delay_h : Z) (tick : Z -> bool) : option gpu_out :=
  do wev <- tmul we v;
  gpu_loop (ws_gpu_update we wev hold_h delay_h) v u delta cn alpha tick max_iter
    (Z.to_nat max_iter) 0 w h 0 0 [] [].

(** lines 223-227: an array in logical order; lines 238-247: transposed. *)
Definition tensor_of (a : arr R) : tensor :=
  from_f64 [a_rows a; a_cols a] (fun p => aget a (p / a_cols a) (p mod a_cols a)).
Definition tensor_of_t (a : arr R) : tensor :=
  from_f64 [a_cols a; a_rows a] (fun p => aget a (p mod a_rows a) (p / a_rows a)).

(** lines 513-524, 896-907: back to a row-major array. *)
Definition array_of (t : tensor) : option (arr R) :=
  match t_dims t with [r; c] => Some (mkArr r c COrder (t_dat t)) | _ => None end.

(** The Python dictionary built at lines 278-294, 611-626. *)
Record results := mkRes { rs_w : arr R; rs_h : arr R; rs_q : R; rs_conv : bool; rs_ci : Z; rs_ql : list R }.

(** lines 280-281, 613-614: reshape fails when the sizes differ. *)
Definition back (rows cols : nat) (a : arr R) : option (arr R) :=
  if (a_rows a * a_cols a =? rows * cols)%nat then Some (reshape rows cols (t_view a)) else None.
Definition to_results (w h : arr R) (o : gpu_out) : option results :=
  do fw <- array_of (go_w o);
  do fh <- array_of (go_h o);
  do rw <- back (a_rows w) (a_cols w) fw;
  do rh <- back (a_rows h) (a_cols h) fh;
  Some (mkRes rw rh (go_q o) (go_conv o) (go_ci o) (go_ql o)).

(** Arguments shared by the two entry points. *)
Record opts := mkOpts { o_max_iter : Z; o_delta : R; o_cn : Z; o_alpha : R;
                        o_hold_h : bool; o_delay_h : Z; o_tick : Z -> bool }.

Definition ls_gpu (v u we w h : arr R) (o : opts) : option results :=
  do r <- ls_nmf_update_gpu (tensor_of v) (tensor_of u) (tensor_of we) (tensor_of_t w) (tensor_of_t h)
            (o_max_iter o) (o_delta o) (o_cn o) (o_alpha o) (o_hold_h o) (o_delay_h o) (o_tick o);
  to_results w h r.
Definition ws_gpu (v u we w h : arr R) (o : opts) : option results :=
  do r <- ws_nmf_update_gpu (tensor_of v) (tensor_of u) (tensor_of we) (tensor_of w) (tensor_of h)
            (o_max_iter o) (o_delta o) (o_cn o) (o_alpha o) (o_hold_h o) (o_delay_h o) (o_tick o);
  to_results w h r.

Inductive algorithm := LS | WS.
Definition engine := arr R -> arr R -> arr R -> arr R -> arr R -> opts -> option results.

(** lines 195-297, 529-629: the entry point; [cuda] says whether a CUDA device
    was found (line 215, 547), [cpu] is the CPU branch; [None] is the Python
    RuntimeError. *)
Definition entry_point (alg : algorithm) (cuda prefer_gpu : bool) (cpu : engine) : engine :=
  if prefer_gpu && cuda
  then match alg with LS => ls_gpu | WS => ws_gpu end
  else cpu.

(** The attributes of an SA object that training reads or writes. *)
Record sa_state := mkSA { s_w : arr R; s_h : arr R; s_wh : option (nat -> nat -> R);
                          s_qtrue : option R; s_qrobust : option R; s_conv : bool; s_steps : Z;
                          s_ql : option (list R) }.

(** What SA.train returns: None at the end, False after a RuntimeError. *)
Inductive ret := RNone | RFalse.

(** sa.py 396-431, 464-470: the optimized branch, an initialised and valid
    model; [qt] and [qr] are q_loss and qr_loss of V and U. *)
Definition sa_train (alg : algorithm) (cuda use_gpu : bool) (cpu : engine)
  (qt qr : arr R -> arr R -> R) (v u we : arr R) (o : opts) (s : sa_state) : ret * sa_state :=
  match entry_point alg cuda use_gpu cpu v u we (s_w s) (s_h s) o with
  | None => (RFalse, s)
  | Some r =>
      let w := rs_w r in let h := rs_h r in
      (RNone, mkSA w h (Some (fun i j => rsum (a_cols w) (fun l => aget w i l * aget h l j)%R))
                (Some (qt w h)) (Some (qr w h)) (rs_conv r) (rs_ci r) (Some (rs_ql r)))
  end.
