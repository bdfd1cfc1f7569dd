(** Model of esat/model/recombinator.py and of
    DataHandler._determine_optimal_block (esat/data/datahandler.py 417-435), in
    exact reals; [NaN] stands for 0/0 (a constant series, too few samples). *)
From Coq Require Import List Bool ZArith Reals Lra.
From Flocq Require Import Core.
From Verif Require Import Base Fl Boot_Model.
Import ListNotations.
Local Open Scope R_scope.

(** lines 51-58; [b2r] is Python's conversion of a truth value. *)
Definition b2r (b : bool) : R := if b then 1 else 0.
Definition lam (k : R) : R :=
  b2r (Rleb 0 (Rabs k)) * b2r (Rltb (Rabs k) (1 / 2)) + 2 * (1 - Rabs k) * b2r (Rleb (1 / 2) (Rabs k)) * b2r (Rleb (Rabs k) 1).

(** lines 9-48: column [icnt + j] from row [j + 1] on is column [i] of [x]. *)
Definition assign_lag {X} (x : nat -> nat -> X) (icnt i j : nat) (xlag : nat -> nat -> X) : nat -> nat -> X :=
  fun r c => if ((c =? icnt + j) && (j + 1 <=? r))%nat then x (r - (j + 1))%nat i else xlag r c.
Definition mlag {X} (nvar n : nat) (init : X) (x : nat -> nat -> X) : nat -> nat -> X :=
  fold_left (fun xlag i => fold_left (fun xlag j => assign_lag x (i * n) i j xlag) (seq 0 n) xlag) (seq 0 nvar) (fun _ _ => init).

(** line 112; the second argument of max exceeds 5 only from 10^25 samples on. *)
Definition kn : nat := 5.
(** line 116 *)
Definition m_max (n : nat) : nat := Nat.sqrt_up n + kn.
(** line 121 *)
Definition b_max (n : nat) : R := IZR (Zceil (Rmin (3 * sqrt (INR n)) (INR n / 3))).
(** np.corrcoef of two series *)
Definition corr (n : nat) (x y : nat -> R) : fl :=
  if Reqb (cov n x x) 0 then NaN else if Reqb (cov n y y) 0 then NaN
  else Fin (cov n x y / sqrt (cov n x x * cov n y y)).
Definition log10 (x : R) : R := ln x / ln 10.
(** lines 155, 171 *)
Definition critical (n : nat) : R := 2 * sqrt (log10 (INR n) / INR n).
Definition fabs (x : fl) : fl := match x with Fin a => Fin (Rabs a) | NInf => PInf | _ => x end.

(** lines 135-140: correlation of the series with its lag [j + 1], both from
    sample [m_max] on. *)
Definition autocorr (n : nat) (x : nat -> R) : nat -> fl :=
  let M := m_max n in
  let lags := mlag 1 M 0 (fun r _ => x r) in
  fun j => corr (n - M) (fun t => x (M + t)%nat) (fun t => lags (M + t)%nat j).
(** lines 147-150: kn rows, m_max - kn + 1 columns. *)
Definition windows (M : nat) (temp : nat -> fl) : nat -> nat -> fl :=
  let lags := mlag 1 kn (Fin 0) (fun r _ => temp r) in
  fun j c => if (c + kn <? M)%nat then lags (c + kn)%nat j else temp (M - kn + j)%nat.
(** lines 153-165 *)
Definition insignificant (n : nat) (w : nat -> nat -> fl) (c : nat) : bool :=
  (List.length (filter (fun j => flt (fabs (w j c)) (Fin (critical n))) (seq 0 kn)) =? kn)%nat.
(** lines 167-175: [None] is the ValueError of max over no value. *)
Definition m_hat (n : nat) (x : nat -> R) : option nat :=
  let M := m_max n in
  let temp := autocorr n x in
  match filter (insignificant n (windows M temp)) (seq 0 (M - kn + 1)) with
  | c :: _ => Some (c + 1)%nat
  | [] => match rev (filter (fun j => flt (Fin (critical n)) (fabs (temp j))) (seq 0 M)) with
          | j :: _ => Some j
          | [] => None
          end
  end.
(** lines 177-180 *)
Definition bandwidth (n mh : nat) : nat := if (m_max n <? 2 * mh)%nat then m_max n else (2 * mh)%nat.

(** lines 188-206: covariance of the series with its lag [j]; fewer than two
    samples give NaN. *)
Definition autocov (n m : nat) (x : nat -> R) (j : nat) : fl :=
  let lags := mlag 1 m 0 (fun r _ => x r) in
  let T := (n - m)%nat in
  if (T <=? 1)%nat then NaN
  else Fin (cov T (fun t => x (m + t)%nat) (fun t => match j with O => x (m + t)%nat | S j' => lags (m + t)%nat j' end) / (INR T - 1)).
(** lines 207-212: sum over kk from -m to m. *)
Definition zlist (m : nat) : list Z := map (fun i => (Z.of_nat i - Z.of_nat m)%Z) (seq 0 (2 * m + 1)).
Definition sum_kk (m : nat) (f : Z -> fl) : fl := fold_left fadd (map f (zlist m)) (Fin 0).
Definition g_hat (n m : nat) (x : nat -> R) : fl :=
  sum_kk m (fun k => fmul (fmul (Fin (lam (IZR k / INR m))) (Fin (Rabs (IZR k)))) (autocov n m x (Z.to_nat (Z.abs k)))).
Definition s_hat (n m : nat) (x : nat -> R) : fl :=
  sum_kk m (fun k => fmul (Fin (lam (IZR k / INR m))) (autocov n m x (Z.to_nat (Z.abs k)))).
(** ** (1/3) of a non-negative number *)
Definition cbrt (x : fl) : fl :=
  match x with Fin a => Fin (if Req_EM_T a 0 then 0 else Rpower a (1 / 3)) | PInf => PInf | _ => NaN end.
Definition fsq (x : fl) : fl := fmul x x.
(** lines 218-229 *)
Definition b_star (n : nat) (g d : fl) : fl :=
  let b := fmul (cbrt (fdiv (fmul (Fin 2) (fsq g)) d)) (cbrt (Fin (INR n))) in
  if flt (Fin (b_max n)) b then Fin (b_max n) else b.
(** lines 127-240: (stationary, circular) for one series. *)
Definition block_length (n : nat) (x : nat -> R) : option (fl * fl) :=
  match m_hat n x with
  | None => None
  | Some mh =>
      let m := bandwidth n mh in
      if (m =? 0)%nat then Some (Fin 1, Fin 1)
      else let g := g_hat n m x in let s := s_hat n m x in
           Some (b_star n g (fmul (Fin 2) (fsq s)), b_star n g (fmul (Fin (4 / 3)) (fsq s)))
  end.
(** lines 125, 242: all columns, in order. *)
Fixpoint optimal_block_length (n : nat) (xs : list (nat -> R)) : option (list (fl * fl)) :=
  match xs with
  | [] => Some []
  | x :: t => match block_length n x, optimal_block_length n t with Some b, Some l => Some (b :: l) | _, _ => None end
  end.

(** datahandler.py 426-435: floor of the mean circular block length; NaN has no
    floor (ValueError); the fallback is a fifth of the number of features.  An
    infinite mean cannot arise ([b_star] is capped). *)
Definition lmean (l : list fl) : fl := fdiv (fold_left fadd l (Fin 0)) (Fin (INR (List.length l))).
Definition determine_optimal_block (n : nat) (xs : list (nat -> R)) : Z :=
  let default := (Z.of_nat (List.length xs) / 5)%Z in
  match optimal_block_length n xs with
  | None => default
  | Some bs => match lmean (map snd bs) with Fin a => Zfloor a | _ => default end
  end.
