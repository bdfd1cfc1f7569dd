(** Model of eval/perturbation.py (perturb, reordering in compare) and of the class
    FactorCompareV2 of eval/factor_comparison.py, in exact reals with [fl] where a
    division by zero can occur.  Random draws are arguments.  Not modelled: the
    process pool, training of the perturbed models, plots. *)
From Coq Require Import List Bool ZArith Reals.
From Verif Require Import Base Fl Boot_Model Analysis_Model.
Import ListNotations.
Local Open Scope R_scope.

(** ** perturb, perturbation.py 147-188 *)
(** How perturb_percent and sigma can be given: a float, a list, another sequence
    (tuple, array) or an int. *)
Inductive setting := AsFloat (r : R) | AsList (l : list R) | AsSeq (l : list R) | AsInt.
(** lines 166-175: the sequence the loop uses; [None] is the int left as it is. *)
Definition expand (n : nat) (s : setting) : res (option (list R)) :=
  match s with
  | AsFloat r => Ok (Some (repeat r n))
  | AsList l => if (List.length l =? n)%nat then Ok (Some l)
                else if (n =? 0)%nat then Ok (Some [])
                else match l with [] => Raise IndexError | x :: _ => Ok (Some (repeat x n)) end
  | AsSeq l => Ok (Some l)
  | AsInt => Ok None
  end.
(** Draws per column and row: uniform (line 178) and standard normal (180; a
    lognormal draw is exp(sigma * z)). *)
Record pdraws := mkPDraws { pu_unif : nat -> nat -> R; pu_norm : nat -> nat -> R }.
Definition upd_col (A : mat) (i : nat) (c : nat -> R) : mat := fun t j => if (j =? i)%nat then c t else A t j.
(** lines 178-187 for column [i]; the masked assignments are written as in the
    code. *)
Definition perturb_col (d : pdraws) (i : nat) (p s : R) (st : mat * mat) : mat * mat :=
  let mask t := Rltb p (pu_unif d i t) in
  let logn t := exp (s * pu_norm d i t) in
  let m1 := logn in
  let m2 t := if mask t then m1 t else m1 t in
  let u1 t := fst st t i * logn t in
  let u2 t := if mask t then u1 t else u1 t in
  let u3 t := if Rleb (u2 t) 0 then / 1000000000000 else u2 t in
  (upd_col (fst st) i u3, upd_col (snd st) i m2).
(** lines 177-187: the loop; U[:, i] raises beyond the last column, sigma[i] raises
    TypeError for an int and IndexError beyond its end, lognormal refuses a
    negative sigma. *)
Fixpoint perturb_loop (n : nat) (d : pdraws) (sg : option (list R)) (i : nat) (ps : list R) (st : mat * mat) : res (mat * mat) :=
  match ps with
  | [] => Ok st
  | p :: ps' =>
      if (n <=? i)%nat then Raise IndexError
      else match sg with
           | None => Raise TypeError
           | Some l => match nth_error l i with
                       | None => Raise IndexError
                       | Some s => if Rltb s 0 then Raise ValueError
                                   else perturb_loop n d sg (S i) ps' (perturb_col d i p s st)
                       end
           end
  end.
(** The result is the pair of new uncertainties and multipliers. *)
Definition perturb (n : nat) (U : mat) (percent sigma : setting) (d : pdraws) : res (mat * mat) :=
  match expand n percent with
  | Raise e => Raise e
  | Ok ps => match expand n sigma with
             | Raise e => Raise e
             | Ok sg => match ps with
                        | None => Raise TypeError
                        | Some l => perturb_loop n d sg 0 l (U, fun _ _ => 0)
                        end
             end
  end.

(** ** FactorCompareV2, factor_comparison.py 452-607 *)
Record fmodel := mkF { f_W : mat; f_H : mat }.
(** lines 541: [j] a factor of the base model, [q] of the other model, [m] samples *)
Definition raae (m : nat) (b o : fmodel) (j q : nat) : fl :=
  fdiv (Fin (rsum m (fun t => Rabs (f_W o t q - f_W b t j)) * (1 / INR m))) (Fin (rsum m (fun t => f_W b t j) * (1 / INR m))).
(** lines 539-540 *)
Definition corr_w (m : nat) (b o : fmodel) (j q : nat) : fl := r2 m (fun t => f_W o t q) (fun t => f_W b t j).
(** lines 492-493, 515-516, 542-543: the scalar is the mean contribution of the
    first factor; a zero total makes the whole matrix NaN or infinite and the
    correlation NaN. *)
Definition mass_total (m k n : nat) (o : fmodel) : R := msum k n (fun q j => mean m (fun t => f_W o t 0%nat) * f_H o q j).
Definition mass (m k n : nat) (o : fmodel) (q j : nat) : R := mean m (fun t => f_W o t 0%nat) * f_H o q j / mass_total m k n o.
Definition emc (m k n : nat) (b o : fmodel) (j q : nat) : fl :=
  if Reqb (mass_total m k n b) 0 || Reqb (mass_total m k n o) 0 then NaN
  else r2 n (mass m k n o q) (mass m k n b j).

(** numpy argmin and argmax: the first NaN if there is one, else the first best *)
Fixpoint first_nan (l : list fl) (i : nat) : option nat :=
  match l with [] => None | x :: t => if is_nan x then Some i else first_nan t (S i) end.
Fixpoint best_at (better : fl -> fl -> bool) (l : list fl) (i : nat) (bi : nat) (bx : fl) : nat :=
  match l with [] => bi | x :: t => if better x bx then best_at better t (S i) i x else best_at better t (S i) bi bx end.
Definition np_arg (better : fl -> fl -> bool) (l : list fl) : nat :=
  match first_nan l 0 with
  | Some i => i
  | None => match l with [] => 0%nat | x :: t => best_at better t 1 0 x end
  end.
(** lines 581-592; the matrix is indexed [base factor][other factor] and the
    search runs along axis 0. *)
Inductive method := RAAE | EMC | CORR.
Definition better_of (me : method) : fl -> fl -> bool := match me with RAAE => fun x y => flt x y | _ => fun x y => flt y x end.
Definition optimal (k : nat) (me : method) (M : nat -> nat -> fl) (c : nat) : nat := np_arg (better_of me) (map (fun j => M j c) (seq 0 k)).
Definition optimal_indices (k : nat) (me : method) (M : nat -> nat -> fl) : list nat := map (optimal k me M) (seq 0 k).
(** lines 594-603: entries of the returned values.  In the second branch the pair
    (row indices, column indices) of scipy's matching is zipped with the factor
    numbers, so that only the first two entries are written, with whole rows. *)
Inductive entry := Number (x : fl) | Array (l : list fl) | Unset.
Definition fround4 (x : fl) : fl := match x with Fin r => Fin (round4 r) | y => y end.
Fixpoint nodupb (l : list nat) : bool := match l with [] => true | x :: t => negb (existsb (Nat.eqb x) t) && nodupb t end.
Definition map_values (k : nat) (M : nat -> nat -> fl) (opt : list nat) (rows cols : list nat) : list entry :=
  if nodupb opt then map (fun j => Number (fround4 (M j (nth j opt 0%nat)))) (seq 0 k)
  else map (fun j => match j with
                     | 0%nat => Array (map (fun c => fround4 (M 0%nat c)) rows)
                     | 1%nat => Array (map (fun c => fround4 (M 1%nat c)) cols)
                     | _ => Unset
                     end) (seq 0 k).
(** lines 605-607: what is returned for one model; [rows] and [cols] come from
    scipy and are only used in the second branch. *)
Definition determine_map (k : nat) (me : method) (M : nat -> nat -> fl) (rows cols : list nat) : list nat * list entry :=
  (optimal_indices k me M, map_values k M (optimal_indices k me M) rows cols).
(** perturbation.py 237-247: normalised profiles of a perturbed model reordered by
    the mapping *)
Definition reordered_profile (k : nat) (o : fmodel) (mapping : list nat) (i j : nat) : fl :=
  fdiv (Fin (f_H o (nth i mapping 0%nat) j)) (Fin (rsum k (fun q => f_H o q j))).
