(** Model of the LS-NMF update, the loss and the convergence test in IEEE 754
    arithmetic (rust/lib.rs ls_nmf_update_cpu 299-408 and calculate_q_cpu
    911-921 in binary32; esat/model/ls_nmf.py 39-51 and esat/metrics.py q_loss
    in the format numpy works in).  Generic in the format ([prec] bits of
    mantissa, exponents below [emax]); every operation rounds to nearest even,
    overflows to infinity and produces NaN as IEEE 754 prescribes.

    The libraries' matrix products and sums do not document their order of
    summation and may contract a product and a sum into one fused operation.
    [dot] and [total] therefore relate a list to every value obtainable by some
    order, bracketing and use of fused operations; an engine is any function
    that respects these relations.  Sign and payload of NaN are not modelled. *)
From Coq Require Import ZArith List Bool Permutation.
From Flocq Require Import Core BinarySingleNaN.
Import ListNotations.

Section Float.
  Variables prec emax : Z.
  Context (Hprec : Prec_gt_0 prec) (Hmax : Prec_lt_emax prec emax).

  Notation F := (binary_float prec emax).
  Definition fmat := nat -> nat -> F.

  Definition fadd (x y : F) : F := Bplus mode_NE x y.
  Definition fsub (x y : F) : F := Bminus mode_NE x y.
  Definition fmul (x y : F) : F := Bmult mode_NE x y.
  Definition fdiv (x y : F) : F := Bdiv mode_NE x y.
  Definition ffma (x y z : F) : F := Bfma mode_NE x y z.
  Definition fzero : F := B754_zero false.

  (** A sum of products, evaluated in any way. *)
  Inductive dot : list (F * F) -> F -> Prop :=
  | dot_nil : dot [] fzero
  | dot_one : forall x y, dot [(x, y)] (fmul x y)
  | dot_app : forall l1 l2 a b, dot l1 a -> dot l2 b -> dot (l1 ++ l2) (fadd a b)
  | dot_fma : forall l x y a, dot l a -> dot ((x, y) :: l) (ffma x y a)
  | dot_perm : forall l l' a, Permutation l l' -> dot l a -> dot l' a.

  (** A sum, evaluated in any way. *)
  Inductive total : list F -> F -> Prop :=
  | total_nil : total [] fzero
  | total_one : forall x, total [x] x
  | total_app : forall l1 l2 a b, total l1 a -> total l2 b -> total (l1 ++ l2) (fadd a b)
  | total_perm : forall l l' a, Permutation l l' -> total l a -> total l' a.

  (** [C] is a computed product of the r x p matrix [A] and the p x c matrix [B]. *)
  Definition product (r p c : nat) (A B C : fmat) : Prop :=
    forall i j, i < r -> j < c -> dot (map (fun l => (A i l, B l j)) (seq 0 p)) (C i j).

  Definition transpose (A : fmat) : fmat := fun i j => A j i.
  (** np.multiply, component_mul *)
  Definition emul (A B : fmat) : fmat := fun i j => fmul (A i j) (B i j).

  (** ls_nmf.py:41-44; lib.rs:355-358 *)
  Definition h_update (m n k : nat) (V We W H H' : fmat) : Prop :=
    exists WH Num Den,
      product m k n W H WH /\
      product k m n (transpose W) (emul We V) Num /\
      product k m n (transpose W) (emul We WH) Den /\
      forall a j, a < k -> j < n -> H' a j = fmul (H a j) (fdiv (Num a j) (Den a j)).

  (** ls_nmf.py:46-49; lib.rs:360-363 *)
  Definition w_update (m n k : nat) (V We W H W' : fmat) : Prop :=
    exists WH Num Den,
      product m k n W H WH /\
      product m n k (emul We V) (transpose H) Num /\
      product m n k (emul We WH) (transpose H) Den /\
      forall i a, i < m -> a < k -> W' i a = fmul (W i a) (fdiv (Num i a) (Den i a)).

  (** ls_nmf.py:39-51; lib.rs:354-363: one iteration. *)
  Definition fstep (m n k : nat) (V We : fmat) (hold : bool) (st st' : fmat * fmat) : Prop :=
    (if hold then forall a j, a < k -> j < n -> snd st' a j = snd st a j
     else h_update m n k V We (fst st) (snd st) (snd st')) /\
    w_update m n k V We (fst st) (snd st') (fst st').

  (** lib.rs:911-921; metrics.py q_loss with uncertainties: residuals over
      uncertainties, squared, summed. *)
  Definition scaled (V U WH : fmat) : fmat := fun i j => fdiv (fsub (V i j) (WH i j)) (U i j).
  Definition fq (m n k : nat) (V U : fmat) (st : fmat * fmat) (q : F) : Prop :=
    exists WH, product m k n (fst st) (snd st) WH /\
      total (map (fun p => let r := scaled V U WH (fst p) (snd p) in fmul r r)
                 (list_prod (seq 0 m) (seq 0 n))) q.

  (** lib.rs:372, sa.py:452: front - back < converge_delta. *)
  Definition ieee_below (delta first last : F) : bool := Bltb (fsub first last) delta.

  (** sa.py:79: We = 1 / U**2. *)
  Definition fone : F := Bone.
  Definition fweights (U : fmat) : fmat := fun i j => fdiv fone (fmul (U i j) (U i j)).

  (** An engine: any function performing the steps in some evaluation order;
      likewise a function computing the loss. *)
  Definition implements (m n k : nat) (V We : fmat) (upd : bool -> fmat * fmat -> fmat * fmat) : Prop :=
    forall hold st, fstep m n k V We hold st (upd hold st).
  Definition measures (m n k : nat) (V U : fmat) (loss : fmat * fmat -> F) : Prop :=
    forall st, fq m n k V U st (loss st).

  (** One such engine: plain loops from left to right. *)
  Definition dot_ltr (l : list (F * F)) : F :=
    fold_left (fun s p => fadd s (fmul (fst p) (snd p))) l fzero.
  Definition total_ltr (l : list F) : F := fold_left fadd l fzero.
  (** r x c entries computed once and stored *)
  Definition stored (r c : nat) (A : fmat) : fmat :=
    let rows := map (fun i => map (fun j => A i j) (seq 0 c)) (seq 0 r) in
    fun i j => nth j (nth i rows []) fzero.
  Definition prod_ltr (p : nat) (A B : fmat) : fmat :=
    fun i j => dot_ltr (map (fun l => (A i l, B l j)) (seq 0 p)).
  Definition upd_ltr (m n k : nat) (V We : fmat) (hold : bool) (st : fmat * fmat) : fmat * fmat :=
    let (W, H) := st in
    let H' := if hold then H else
      let WH := stored m n (prod_ltr k W H) in
      let Num := prod_ltr m (transpose W) (emul We V) in
      let Den := prod_ltr m (transpose W) (emul We WH) in
      stored k n (fun a j => fmul (H a j) (fdiv (Num a j) (Den a j))) in
    let WH := stored m n (prod_ltr k W H') in
    let Num := prod_ltr n (emul We V) (transpose H') in
    let Den := prod_ltr n (emul We WH) (transpose H') in
    (stored m k (fun i a => fmul (W i a) (fdiv (Num i a) (Den i a))), H').
  Definition q_ltr (m n k : nat) (V U : fmat) (st : fmat * fmat) : F :=
    let WH := prod_ltr k (fst st) (snd st) in
    total_ltr (map (fun p => let r := scaled V U WH (fst p) (snd p) in fmul r r)
                   (list_prod (seq 0 m) (seq 0 n))).
End Float.

Arguments fadd {prec emax Hprec Hmax}.
Arguments fsub {prec emax Hprec Hmax}.
Arguments fmul {prec emax Hprec Hmax}.
Arguments fdiv {prec emax Hprec Hmax}.
Arguments ffma {prec emax Hprec Hmax}.
Arguments fzero {prec emax}.
Arguments ieee_below {prec emax Hprec Hmax}.
Arguments fweights {prec emax Hprec Hmax}.
Arguments dot {prec emax Hprec Hmax}.
Arguments total {prec emax Hprec Hmax}.
Arguments product {prec emax Hprec Hmax}.
Arguments transpose {prec emax}.
Arguments emul {prec emax Hprec Hmax}.
Arguments h_update {prec emax Hprec Hmax}.
Arguments w_update {prec emax Hprec Hmax}.
Arguments fstep {prec emax Hprec Hmax}.
Arguments scaled {prec emax Hprec Hmax}.
Arguments fq {prec emax Hprec Hmax}.
Arguments implements {prec emax Hprec Hmax}.
Arguments measures {prec emax Hprec Hmax}.
Arguments upd_ltr {prec emax Hprec Hmax}.
Arguments q_ltr {prec emax Hprec Hmax}.

(** The two formats in use. *)
Global Instance prec32 : Prec_gt_0 24 := eq_refl.
Global Instance max32 : Prec_lt_emax 24 128 := eq_refl.
Global Instance prec64 : Prec_gt_0 53 := eq_refl.
Global Instance max64 : Prec_lt_emax 53 1024 := eq_refl.
Definition b32 := binary_float 24 128.
Definition b64 := binary_float 53 1024.

(** A float from an integer mantissa and exponent (for examples). *)
Definition lit32 (mant e : Z) : b32 := binary_normalize 24 128 prec32 max32 mode_NE mant e false.
