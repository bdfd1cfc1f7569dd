(** Catalog of factors found in different models: eval/factor_catalog.py.

    All factors are assumed to have the same number of features [n] and samples
    [m > 0]; arithmetic is exact, correlations of constant vectors are NaN.  The
    dictionary of entries has keys 0, 1, ... in the order of creation and nothing
    is ever removed, so it is a list.  Progress bars, log output and the rounding
    of the tables are left out. *)
From Coq Require Import List Bool Reals Arith.
From Verif Require Import Base Fl Boot_Model Est_Model.
Import ListNotations.
Local Open Scope R_scope.

(** lines 93-108, 234-241: any other name counts as 'corr'. *)
Inductive kmethod := KRAAE | KEMC | KCORR.
Definition is_raae (me : kmethod) : bool := match me with KRAAE => true | _ => false end.

(** lines 30-41, 114-132: a member of an entry, with the value it was added with. *)
Record member := mkMember { mb_H : nat -> R; mb_W : nat -> R; mb_model : nat; mb_corr : fl }.
Definition entry := list member.
Record catalog := mkCat { ct_entries : list entry; ct_count : nat }.
Definition empty_catalog : catalog := mkCat [] 0.

(** lines 91-92, 101-102: the share of every feature in a factor's average mass. *)
Definition mass_sum (m n : nat) (H W : nat -> R) : R := rsum n (fun j => mean m W * H j).
Definition mass_of (m n : nat) (H W : nat -> R) (j : nat) : R := mean m W * H j / mass_sum m n H W.

(** lines 96-109: one member against a candidate. *)
Definition compare_member (m n : nat) (me : kmethod) (profile_only : bool) (f : member) (H W : nat -> R) : fl :=
  if profile_only then r2 n H (mb_H f)
  else match me with
       | KRAAE => fdiv (Fin (rsum m (fun t => Rabs (mb_W f t - W t)) * (1 / INR m))) (Fin (rsum m (mb_W f) * (1 / INR m)))
       | KEMC => if Reqb (mass_sum m n (mb_H f) (mb_W f)) 0 || Reqb (mass_sum m n H W) 0 then NaN
                 else r2 n (mass_of m n H W) (mass_of m n (mb_H f) (mb_W f))
       | KCORR => r2 m W (mb_W f)
       end.
(** lines 72-112: the mean over the members. *)
Definition check (m n : nat) (me : kmethod) (profile_only : bool) (e : entry) (H W : nat -> R) : fl :=
  lmean (map (fun f => compare_member m n me profile_only f H W) e).

(** lines 230-242: the best entry so far, strictly better only, starting from no
    entry and 1 (raae) or 0. *)
Definition better (me : kmethod) (x y : fl) : bool := if is_raae me then flt x y else flt y x.
Fixpoint search (me : kmethod) (vals : list fl) (i : nat) (best : option nat * fl) : option nat * fl :=
  match vals with
  | [] => best
  | v :: t => search me t (S i) (if better me v (snd best) then (Some i, v) else best)
  end.
Definition check_factor (m n : nat) (me : kmethod) (po : bool) (c : catalog) (H W : nat -> R) : option nat * fl :=
  search me (map (fun e => check m n me po e H W) (ct_entries c)) 0 (None, Fin (if is_raae me then 1 else 0)).

Fixpoint append_to (es : list entry) (i : nat) (f : member) : list entry :=
  match es, i with
  | [], _ => []
  | e :: t, O => (e ++ [f]) :: t
  | e :: t, S i' => e :: append_to t i' f
  end.

(** lines 270-314; [None]: KeyError from [self.factors[None]].  A negated
    comparison is not written as the opposite one because of NaN. *)
Definition new_count (count model : nat) : nat := if (count <? model)%nat then S model else count.
Definition add_factor (m n : nat) (me : kmethod) (thr : R) (po : bool) (c : catalog) (H W : nat -> R) (model : nat) : option (bool * catalog) :=
  let count := new_count (ct_count c) model in
  let '(best, corr) := check_factor m n me po c H W in
  let beyond := if is_raae me then flt (Fin thr) corr else flt corr (Fin thr) in
  if (List.length (ct_entries c) =? 0)%nat || beyond
  then Some (true, mkCat (ct_entries c ++ [[mkMember H W model (Fin (if is_raae me then 0 else 1))]]) count)
  else match best with
       | None => None
       | Some i => Some (false, mkCat (append_to (ct_entries c) i (mkMember H W model corr)) count)
       end.

(** A factor to add: profile, contributions, index of the model. *)
Definition item := ((nat -> R) * (nat -> R) * nat)%type.
Fixpoint add_all (m n : nat) (me : kmethod) (thr : R) (po : bool) (c : catalog) (items : list item) : option (nat * catalog) :=
  match items with
  | [] => Some (0%nat, c)
  | (H, W, i) :: t =>
    match add_factor m n me thr po c H W i with
    | None => None
    | Some (b, c') => match add_all m n me thr po c' t with
                      | None => None
                      | Some (k, c'') => Some (((if b then 1 else 0) + k)%nat, c'')
                      end
    end
  end.

(** lines 316-348 and 350-372: the factors of the models of a batch, model by
    model; models with a Q above the multiple of the smallest are left out if
    asked.  [np.min] gives NaN if any Q is NaN. *)
Record cmodel := mkCM { cm_Q : fl; cm_k : nat; cm_W : mat; cm_H : mat }.
Definition model_items (i : nat) (x : cmodel) : list item := map (fun f => ((fun j => cm_H x f j), (fun t => cm_W x t f), i)) (seq 0 (cm_k x)).
Definition fmin_all (l : list fl) : fl := fmin_list l.
Definition kept (exclude : bool) (othr : R) (l : list cmodel) (x : cmodel) : bool :=
  negb exclude || negb (flt (fmul (fmin_all (map cm_Q l)) (Fin othr)) (cm_Q x)).
Definition batch_items (exclude : bool) (othr : R) (l : list cmodel) : list item :=
  flat_map (fun q => if kept exclude othr l (snd q) then model_items (fst q) (snd q) else []) (combine (seq 0 (List.length l)) l).
Definition add_batch (m n : nat) (me : kmethod) (thr : R) (po exclude : bool) (othr : R) (c : catalog) (l : list cmodel) : option (nat * catalog) :=
  add_all m n me thr po c (batch_items exclude othr l).

(** lines 181-208: the share of models per entry, in percent; [None]:
    ZeroDivisionError. *)
Definition occurrence (c : catalog) (e : entry) : option R := if (ct_count c =? 0)%nat then None else Some (100 * INR (List.length e) / INR (ct_count c)).

(** lines 374-404: an entry of another catalog against this one. *)
Definition compare_entry (m n : nat) (me : kmethod) (po : bool) (c : catalog) (other : entry) : option nat * fl :=
  search KCORR (map (fun e => lmean (map (fun f => check m n me po e (mb_H f) (mb_W f)) other)) (ct_entries c)) 0 (None, Fin 0).
(** lines 46-69 and 244-268: a factor given as a matrix (row by row). *)
Definition check_matrix (m n : nat) (c : catalog) (wh : nat -> R) : option nat * fl :=
  search KCORR (map (fun e => lmean (map (fun f => r2 (m * n) wh (fun t => mb_W f (t / n)%nat * mb_H f (t mod n)%nat)) e)) (ct_entries c)) 0 (None, Fin 0).
