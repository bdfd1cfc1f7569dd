(** Model of the robust loss in IEEE 754 arithmetic (esat/metrics.py qr_loss
    26-39; rust/lib.rs calculate_q_robust_cpu 924-941 and matrix_merge 980-1001),
    next to the loss of Float_Model.  [WH] is the matrix product as computed; it
    is the same in both losses.  Every operation rounds to nearest even; [alpha]
    is robust_alpha and [tiny] the number 1e-12 in the format. *)
From Coq Require Import ZArith List Bool Permutation.
From Flocq Require Import Core BinarySingleNaN.
From Verif Require Import Float_Model.
Import ListNotations.

Section Rob.
  Context {prec emax : Z} {Hprec : Prec_gt_0 prec} {Hmax : Prec_lt_emax prec emax}.
  Notation F := (binary_float prec emax).
  Notation fmat := (fmat prec emax).

  Definition fsqrt (x : F) : F := Bsqrt mode_NE x.
  Definition fabs (x : F) : F := Babs x.

  Section Cell.
    Variables (alpha tiny : F) (V U WH : fmat).
    (** metrics.py:28-29; lib.rs:930-931 *)
    Definition res (i j : nat) : F := fsub (V i j) (WH i j).
    Definition sres (i j : nat) : F := fabs (fdiv (res i j) (U i j)).
    (** lib.rs:932; metrics.py:30 *)
    Definition runc (i j : nat) : F := fmul (fsqrt (fdiv (sres i j) alpha)) (U i j).
    (** metrics.py:31 *)
    Definition runc_py (i j : nat) : F := if Bleb (runc i j) fzero then tiny else runc i j.
    (** metrics.py:32-33 *)
    Definition merged_py (i j : nat) : F :=
      if Bltb alpha (sres i j) then fabs (fdiv (res i j) (runc_py i j)) else sres i j.
    (** lib.rs:933-936, 992-996 *)
    Definition merged_rs (i j : nat) : F :=
      if Bltb alpha (sres i j) then fabs (fdiv (res i j) (runc i j)) else sres i j.
    (** metrics.py:36-37: the mask is taken from the overwritten residuals. *)
    Definition updated (i j : nat) : F := if Bltb alpha (merged_py i j) then runc_py i j else U i j.
  End Cell.

  (** A way of adding up one number per element of a list: some order, some
      bracketing, the same whatever the numbers are. *)
  Inductive summing {A : Type} : list A -> ((A -> F) -> F) -> Prop :=
  | sum_none : summing [] (fun _ => fzero)
  | sum_one : forall x, summing [x] (fun f => f x)
  | sum_both : forall l1 l2 s1 s2, summing l1 s1 -> summing l2 s2 ->
      summing (l1 ++ l2) (fun f => fadd (s1 f) (s2 f))
  | sum_perm : forall l l' s, Permutation l l' -> summing l s -> summing l' s.

  (** The two losses of a computed product, added up by [s] (metrics.py:17-20, 34;
      lib.rs:917-919, 938-939). *)
  Definition term_true (V U WH : fmat) (p : nat * nat) : F :=
    let r := scaled V U WH (fst p) (snd p) in fmul r r.
  Definition term_py (alpha tiny : F) (V U WH : fmat) (p : nat * nat) : F :=
    let r := merged_py alpha tiny V U WH (fst p) (snd p) in fmul r r.
  Definition term_rs (alpha : F) (V U WH : fmat) (p : nat * nat) : F :=
    let r := merged_rs alpha V U WH (fst p) (snd p) in fmul r r.

  (** nalgebra adds the entries of a matrix from the first to the last in memory,
      that is column by column.  Q(true) adds up a transposed matrix (lib.rs:917). *)
  Definition by_columns (m n : nat) : list (nat * nat) :=
    flat_map (fun j => map (fun i => (i, j)) (seq 0 m)) (seq 0 n).
  Definition by_rows (m n : nat) : list (nat * nat) := list_prod (seq 0 m) (seq 0 n).
  Definition rust_true (m n : nat) (V U WH : fmat) : F :=
    total_ltr _ _ _ _ (map (term_true V U WH) (by_rows m n)).
  Definition rust_robust (m n : nat) (alpha : F) (V U WH : fmat) : F :=
    total_ltr _ _ _ _ (map (term_rs alpha V U WH) (by_columns m n)).
End Rob.
