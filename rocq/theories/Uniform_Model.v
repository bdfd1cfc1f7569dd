(** Model of an LS-NMF engine in IEEE arithmetic whose products treat every cell
    alike (rust/lib.rs ls_nmf_update_cpu 354-363, esat/model/ls_nmf.py 39-51): the
    value of a cell of a matrix product is a fixed function - a kernel - of the list
    of pairs of factors, whatever the position of the cell.  Each of the six products
    of an iteration has its own kernel: any order of summation, blocking or use of
    fused operations.  For WS-NMF, where every sample and feature has calls of its own,
    it is enough that a library call is repeatable.  [Float_Model] lets the order vary from cell to cell, as the
    edge blocks of some BLAS kernels do.  Which libraries do is not modelled. *)
From Coq Require Import ZArith List Bool.
From Flocq Require Import Core BinarySingleNaN.
From Verif Require Import Float_Model RobF_Model WsF_Model.

Section Uniform.
  Context {prec emax : Z} {Hprec : Prec_gt_0 prec} {Hmax : Prec_lt_emax prec emax}.
  Notation F := (binary_float prec emax).
  Notation fmat := (fmat prec emax).
  Definition kernel := list (F * F) -> F.

  (** W H, W^T (We o V), W^T (We o WH) of the update of H; W H, (We o V) H^T,
      (We o WH) H^T of the update of W. *)
  Record kernels := mkK { k_wh1 : kernel; k_hn : kernel; k_hd : kernel; k_wh2 : kernel; k_wn : kernel; k_wd : kernel }.

  (** [C] is the product of the r x p matrix [A] and the p x c matrix [B]. *)
  Definition product_by (d : kernel) (r p c : nat) (A B C : fmat) : Prop :=
    forall i j, i < r -> j < c -> C i j = d (map (fun l => (A i l, B l j)) (seq 0 p)).

  (** ls_nmf.py:41-44; lib.rs:355-358 *)
  Definition h_update_by (K : kernels) (m n k : nat) (V We W H H' : fmat) : Prop :=
    exists WH Num Den,
      product_by (k_wh1 K) m k n W H WH /\
      product_by (k_hn K) k m n (transpose W) (emul We V) Num /\
      product_by (k_hd K) k m n (transpose W) (emul We WH) Den /\
      forall a j, a < k -> j < n -> H' a j = fmul (H a j) (fdiv (Num a j) (Den a j)).

  (** ls_nmf.py:46-49; lib.rs:360-363 *)
  Definition w_update_by (K : kernels) (m n k : nat) (V We W H W' : fmat) : Prop :=
    exists WH Num Den,
      product_by (k_wh2 K) m k n W H WH /\
      product_by (k_wn K) m n k (emul We V) (transpose H) Num /\
      product_by (k_wd K) m n k (emul We WH) (transpose H) Den /\
      forall i a, i < m -> a < k -> W' i a = fmul (W i a) (fdiv (Num i a) (Den i a)).

  (** ls_nmf.py:39-51; lib.rs:354-363 *)
  Definition step_by (K : kernels) (m n k : nat) (V We : fmat) (hold : bool) (st st' : fmat * fmat) : Prop :=
    (if hold then forall a j, a < k -> j < n -> snd st' a j = snd st a j
     else h_update_by K m n k V We (fst st) (snd st) (snd st')) /\
    w_update_by K m n k V We (fst st) (snd st') (fst st').

  (** An engine that treats every cell alike. *)
  Definition uniform (K : kernels) (m n k : nat) (V We : fmat) (upd : bool -> fmat * fmat -> fmat * fmat) : Prop :=
    forall hold st, step_by K m n k V We hold st (upd hold st).
  (** Every kernel computes the sum of the products in some way. *)
  Definition sums (K : kernels) : Prop :=
    forall l, dot l (k_wh1 K l) /\ dot l (k_hn K l) /\ dot l (k_hd K l) /\
              dot l (k_wh2 K l) /\ dot l (k_wn K l) /\ dot l (k_wd K l).

  (** ** WS-NMF: lib.rs 692-735, ws_nmf.py 42-98.  Each sample and each feature has its own
      calls of the library, all of the same sizes; a call is a function of the sizes and
      the entries of its arguments, in whatever order it sums. *)
  Definition agree (r c : nat) (A B : fmat) : Prop := forall i j, i < r -> j < c -> A i j = B i j.
  (** Product of an r x p and a p x c matrix. *)
  Definition multiply := nat -> nat -> nat -> fmat -> fmat -> fmat.
  Definition repeatable (mm : multiply) : Prop :=
    forall r p c A A' B B', agree r p A A' -> agree p c B B' -> agree r c (mm r p c A B) (mm r p c A' B').
  Definition repeatable_solve (solve : nat -> fmat -> fmat) : Prop :=
    forall k A A', agree k k A A' -> agree k k (solve k A) (solve k A').

  (** ws_nmf.py:45-69; lib.rs:694-705: contributions of one sample with data [v] and weights [we]. *)
  Definition ws_sample (mm : multiply) (solve : nat -> fmat -> fmat) (n k : nat) (v we : nat -> F) (H : fmat) : nat -> F :=
    let Wn := mm k n 1 H (fun j _ => fmul (we j) (v j)) in
    let Uh := mm n n k (diag we) (transpose H) in
    let Wd := mm k n k H Uh in
    fun b => mm 1 k k (transpose Wn) (solve k Wd) 0 b.

  (** ws_nmf.py:74-97; lib.rs:712-733: profile entries of one feature; [h] its old ones. *)
  Definition ws_feature (mm : multiply) (tiny : F) (m k : nat) (v we : nat -> F) (W : fmat) (h : nat -> F) : nat -> F :=
    let wev := (fun _ i => fmul (we i) (v i)) : fmat in
    let row := (fun _ b => h b) : fmat in
    let N1 := mm 1 m k wev (fpos_part W) in
    let D1 := mm 1 m k wev (fneg_part W) in
    let N2 := mm 1 k k row (mm k m k (mm k m m (transpose (fneg_part W)) (diag we)) (fneg_part W)) in
    let D2 := mm 1 k k row (mm k m k (mm k m m (transpose (fpos_part W)) (diag we)) (fpos_part W)) in
    fun a => fmul (h a) (fsqrt (fdiv (fadd (fadd (N1 0 a) (N2 0 a)) tiny) (fadd (fadd (D1 0 a) (D2 0 a)) tiny))).

  (** lib.rs:692-735 *)
  Definition ws_by (mm : multiply) (solve : nat -> fmat -> fmat) (tiny : F) (m n k : nat) (V We : fmat)
    (hold : bool) (st : fmat * fmat) : fmat * fmat :=
    let H := snd st in
    let W' := (fun i b => ws_sample mm solve n k (V i) (We i) H b) : fmat in
    let H' := if hold then H else fun a j => ws_feature mm tiny m k (fun i => V i j) (fun i => We i j) W' (fun b => H b j) a in
    (W', H').
End Uniform.
Arguments multiply : clear implicits.
Arguments kernel : clear implicits.
Arguments kernels : clear implicits.
