(** Model of the WS-NMF update in IEEE 754 arithmetic (rust/lib.rs ws_nmf_update_cpu 672-735
    in binary32; esat/model/ws_nmf.py 42-98 in the format numpy works in), with the
    vocabulary of [Float_Model]: every product of matrices may be summed in any order, with
    or without fused operations.  The inverse or pseudo-inverse of a computed matrix is the
    argument [solve], any function; a call that does not return is not modelled.  [tiny] is
    1e-12 in the format. *)
From Coq Require Import ZArith List Bool.
From Flocq Require Import Core BinarySingleNaN.
From Verif Require Import Float_Model RobF_Model.
Import ListNotations.

Section Ws.
  Context {prec emax : Z} {Hprec : Prec_gt_0 prec} {Hmax : Prec_lt_emax prec emax}.
  Notation F := (binary_float prec emax).
  Notation fmat := (fmat prec emax).

  (** np.diagflat, DMatrix::from_diagonal *)
  Definition diag (d : nat -> F) : fmat := fun p q => if (p =? q)%nat then d p else fzero.
  Definition ftwo : F := binary_normalize prec emax Hprec Hmax mode_NE 1 1 false.

  (** ws_nmf.py:71-72; lib.rs:709-710 *)
  Definition fneg_part (W : fmat) : fmat := fun i a => fdiv (fsub (fabs (W i a)) (W i a)) ftwo.
  Definition fpos_part (W : fmat) : fmat := fun i a => fdiv (fadd (fabs (W i a)) (W i a)) ftwo.

  (** ws_nmf.py:45-69; lib.rs:694-705: the contributions of all samples from the profiles. *)
  Definition ws_w_update (solve : fmat -> fmat) (m n k : nat) (V We H W' : fmat) : Prop :=
    forall i, i < m -> exists Wn Uh Wd,
      product k n 1 H (fun j _ => fmul (We i j) (V i j)) Wn /\
      product n n k (diag (We i)) (transpose H) Uh /\
      product k n k H Uh Wd /\
      forall b, b < k -> dot (map (fun a => (Wn a 0, solve Wd a b)) (seq 0 k)) (W' i b).

  (** ws_nmf.py:74-97; lib.rs:712-733 *)
  Definition ws_h_update (tiny : F) (m n k : nat) (V We W H H' : fmat) : Prop :=
    forall j, j < n -> exists N1 D1 N2a N2b D2a D2b N2 D2,
      product 1 m k (fun _ i => fmul (We i j) (V i j)) (fpos_part W) N1 /\
      product 1 m k (fun _ i => fmul (We i j) (V i j)) (fneg_part W) D1 /\
      product k m m (transpose (fneg_part W)) (diag (fun i => We i j)) N2a /\
      product k m k N2a (fneg_part W) N2b /\
      product k m m (transpose (fpos_part W)) (diag (fun i => We i j)) D2a /\
      product k m k D2a (fpos_part W) D2b /\
      product 1 k k (fun _ b => H b j) N2b N2 /\
      product 1 k k (fun _ b => H b j) D2b D2 /\
      forall a, a < k ->
        H' a j = fmul (H a j) (fsqrt (fdiv (fadd (fadd (N1 0 a) (N2 0 a)) tiny) (fadd (fadd (D1 0 a) (D2 0 a)) tiny))).

  (** lib.rs:692-735; ws_nmf.py has no hold. *)
  Definition ws_fstep (solve : fmat -> fmat) (tiny : F) (m n k : nat) (V We : fmat) (hold : bool) (st st' : fmat * fmat) : Prop :=
    ws_w_update solve m n k V We (snd st) (fst st') /\
    (if hold then forall a j, a < k -> j < n -> snd st' a j = snd st a j
     else ws_h_update tiny m n k V We (fst st') (snd st) (snd st')).

  (** An engine: any function performing the steps in some evaluation order. *)
  Definition ws_implements (solve : fmat -> fmat) (tiny : F) (m n k : nat) (V We : fmat) (upd : bool -> fmat * fmat -> fmat * fmat) : Prop :=
    forall hold st, ws_fstep solve tiny m n k V We hold st (upd hold st).

  (** One such engine: plain loops from left to right. *)
  Definition ws_upd_ltr (solve : fmat -> fmat) (tiny : F) (m n k : nat) (V We : fmat) (hold : bool) (st : fmat * fmat) : fmat * fmat :=
    let H := snd st in
    let W' := stored prec emax m k (fun i b =>
      let Wn := prod_ltr prec emax Hprec Hmax n H (fun j _ => fmul (We i j) (V i j)) in
      let Uh := prod_ltr prec emax Hprec Hmax n (diag (We i)) (transpose H) in
      let Wd := stored prec emax k k (prod_ltr prec emax Hprec Hmax n H Uh) in
      prod_ltr prec emax Hprec Hmax k (fun _ a => Wn a 0) (solve Wd) 0 b) in
    let H' := if hold then H else stored prec emax k n (fun a j =>
      let wev := (fun _ i => fmul (We i j) (V i j)) : fmat in
      let quad (P : fmat) := prod_ltr prec emax Hprec Hmax k (fun _ b => H b j)
        (prod_ltr prec emax Hprec Hmax m (prod_ltr prec emax Hprec Hmax m (transpose P) (diag (fun i => We i j))) P) 0 a in
      let nu := fadd (fadd (prod_ltr prec emax Hprec Hmax m wev (fpos_part W') 0 a) (quad (fneg_part W'))) tiny in
      let de := fadd (fadd (prod_ltr prec emax Hprec Hmax m wev (fneg_part W') 0 a) (quad (fpos_part W'))) tiny in
      fmul (H a j) (fsqrt (fdiv nu de))) in
    (W', H').
End Ws.
