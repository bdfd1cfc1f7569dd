(** Floating-point values as seen by comparisons: a real number, one of the two
    infinities, or NaN.  Arithmetic between finite values is exact (no rounding,
    no overflow); the rules for NaN and infinities are those of IEEE 754.
    Used where the code compares losses that may not be finite. *)
From Coq Require Import Reals Lra Bool.
Open Scope R_scope.

Inductive fl := Fin (x : R) | PInf | NInf | NaN.

Definition Rltb (x y : R) : bool := if Rlt_dec x y then true else false.
Definition Rleb (x y : R) : bool := if Rle_dec x y then true else false.
Definition Reqb (x y : R) : bool := if Req_EM_T x y then true else false.

Definition is_nan (x : fl) : bool := match x with NaN => true | _ => false end.

Definition fopp (x : fl) : fl :=
  match x with Fin a => Fin (- a) | PInf => NInf | NInf => PInf | NaN => NaN end.

Definition fadd (x y : fl) : fl :=
  match x, y with
  | NaN, _ | _, NaN => NaN
  | Fin a, Fin b => Fin (a + b)
  | PInf, NInf | NInf, PInf => NaN
  | PInf, _ | _, PInf => PInf
  | NInf, _ | _, NInf => NInf
  end.

Definition fsub (x y : fl) : fl := fadd x (fopp y).

(** IEEE "less than": false as soon as NaN is involved. *)
Definition flt (x y : fl) : bool :=
  match x, y with
  | NaN, _ | _, NaN => false
  | Fin a, Fin b => Rltb a b
  | NInf, NInf => false
  | NInf, _ => true
  | _, NInf => false
  | PInf, _ => false
  | _, PInf => true
  end.

Lemma Rltb_iff x y : Rltb x y = true <-> x < y.
Proof. unfold Rltb. destruct (Rlt_dec x y); split; intros; auto; discriminate. Qed.

Lemma Rltb_false x y : Rltb x y = false <-> y <= x.
Proof. unfold Rltb. destruct (Rlt_dec x y); split; intros; try discriminate; try reflexivity; lra. Qed.

Lemma Rleb_iff x y : Rleb x y = true <-> x <= y.
Proof. unfold Rleb. destruct (Rle_dec x y); split; intros; auto; discriminate. Qed.

Lemma Rleb_false x y : Rleb x y = false <-> y < x.
Proof. unfold Rleb. destruct (Rle_dec x y); split; intros; try discriminate; try reflexivity; lra. Qed.

Lemma Reqb_iff x y : Reqb x y = true <-> x = y.
Proof. unfold Reqb. destruct (Req_EM_T x y); split; intros; auto; discriminate. Qed.

Lemma flt_irrefl x : flt x x = false.
Proof. destruct x; cbn; auto. apply Rltb_false. lra. Qed.

Lemma flt_trans x y z : flt x y = true -> flt y z = true -> flt x z = true.
Proof.
  destruct x, y, z; cbn; auto; try discriminate.
  rewrite !Rltb_iff. lra.
Qed.

Lemma flt_nan_l y : flt NaN y = false.
Proof. reflexivity. Qed.

Lemma flt_nan_r x : flt x NaN = false.
Proof. destruct x; reflexivity. Qed.

Lemma flt_fin a b : flt (Fin a) (Fin b) = true <-> a < b.
Proof. cbn. apply Rltb_iff. Qed.

(** Two non-NaN values are comparable. *)
Lemma flt_total x y :
  x <> NaN -> y <> NaN -> flt x y = true \/ x = y \/ flt y x = true.
Proof.
  intros Hx Hy. destruct x, y; try contradiction; cbn; auto.
  destruct (Rtotal_order x x0) as [H|[H|H]].
  - left. apply Rltb_iff. exact H.
  - right. left. subst. reflexivity.
  - right. right. apply Rltb_iff. exact H.
Qed.

(** IEEE multiplication, division and square root (zeros are unsigned here). *)
Definition fsign (x : fl) : R :=
  match x with
  | Fin a => if Rlt_dec 0 a then 1 else if Rlt_dec a 0 then -1 else 0
  | PInf => 1 | NInf => -1 | NaN => 0
  end.

Definition inf_of_sign (s : R) : fl :=
  if Rlt_dec 0 s then PInf else if Rlt_dec s 0 then NInf else NaN.

Definition fmul (x y : fl) : fl :=
  match x, y with
  | NaN, _ | _, NaN => NaN
  | Fin a, Fin b => Fin (a * b)
  | _, _ => inf_of_sign (fsign x * fsign y)
  end.

Definition fdiv (x y : fl) : fl :=
  match x, y with
  | NaN, _ | _, NaN => NaN
  | Fin a, Fin b => if Req_EM_T b 0 then inf_of_sign (fsign x) else Fin (a / b)
  | Fin _, _ => Fin 0
  | _, Fin b => if Req_EM_T b 0 then x else inf_of_sign (fsign x * fsign y)
  | _, _ => NaN
  end.

Definition fsqrt (x : fl) : fl :=
  match x with
  | Fin a => if Rlt_dec a 0 then NaN else Fin (sqrt a)
  | PInf => PInf
  | NInf | NaN => NaN
  end.

Definition fle (x y : fl) : bool :=
  match x, y with
  | NaN, _ | _, NaN => false
  | Fin a, Fin b => Rleb a b
  | NInf, _ => true
  | _, PInf => true
  | _, _ => false
  end.

Fixpoint fsum (n : nat) (f : nat -> fl) : fl :=
  match n with O => Fin 0 | S n' => fadd (fsum n' f) (f n') end.

Lemma fle_not_lt x y : x <> NaN -> y <> NaN -> fle x y = negb (flt y x).
Proof.
  destruct x, y; cbn; intros; try congruence; auto.
  unfold Rleb, Rltb. destruct (Rle_dec x x0), (Rlt_dec x0 x); cbn; auto; lra.
Qed.
