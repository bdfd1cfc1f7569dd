(** Model of esat/rotational/constrained.py: constraint registry (174-263),
    application of constraints (322-358), expressions (360-430, 549-579), the pull
    searches (581-731), Q(aux) (733-738) and the training loop (441-539).
    Labels are modelled by the data they are formatted from (the format is
    injective on integers); types other than those listed are [Unknown].  A
    missing target value (None) is not modelled. *)
From Coq Require Import List Bool ZArith Lia Reals Lra.
From Verif Require Import Base Fl Metrics_Model LSNMF_Model Disp_Model.
Import ListNotations.
Local Open Scope R_scope.

(** ** Registry *)
(** lines 65-73 *)
Inductive ctype :=
| PullDown (dQ : R) | PullUp (dQ : R) | PullTo (v dQ : R) | SetZero | SetBase
| Limits (lo hi : R) | Unknown.
Inductive tgt := Feature | Sample | Other.
Record constr := mkC { c_type : ctype; c_i : Z; c_j : Z; c_tgt : tgt }.
(** lines 213, 225, 231 *)
Inductive clabel := LFeature (i j : Z) | LSample (i j : Z) | LEmpty.
Definition clabel_eqb (a b : clabel) : bool :=
  match a, b with
  | LFeature i j, LFeature i' j' | LSample i j, LSample i' j' => (i =? i')%Z && (j =? j')%Z
  | LEmpty, LEmpty => true
  | _, _ => false
  end.
Definition registry := list (clabel * constr).

Definition label_of (c : constr) : clabel :=
  match c_tgt c with
  | Feature => LFeature (c_i c) (c_j c)
  | Sample => LSample (c_i c) (c_j c)
  | Other => LEmpty
  end.

(** lines 213-230; [m] samples, [n] features, [k] factors. *)
Definition index_ok (m n k : Z) (c : constr) : bool :=
  match c_tgt c with
  | Feature => negb ((k <=? c_i c) || (c_i c <? 0))%Z && negb ((n <=? c_j c) || (c_j c <? 0))%Z
  | Sample => negb ((m <=? c_i c) || (c_i c <? 0))%Z && negb ((m <=? c_j c) || (c_j c <? 0))%Z
  | Other => true
  end.

(** lines 174-249 *)
Definition add_constraint (m n k : Z) (r : registry) (c : constr) : registry * bool :=
  if negb (index_ok m n k c) then (r, false)
  else if existsb (fun p => clabel_eqb (fst p) (label_of c)) r then (r, false)
  else (r ++ [(label_of c, c)], true).

(** lines 251-263: [None] is KeyError. *)
Fixpoint remove_constraint (r : registry) (l : clabel) : option registry :=
  match r with
  | [] => None
  | p :: t => if clabel_eqb (fst p) l then Some t
              else match remove_constraint t l with Some t' => Some (p :: t') | None => None end
  end.

(** ** Pull searches.  [loss v] is the loss with the cell set to [v]. *)
Section Pull.
  Context (loss : R -> fl) (cur limit : R).
  Definition dQ_of (v : R) : fl := fabs (fsub (loss cur) (loss v)).

  (** lines 581-621.  The cell is multiplied again at every step (600, 603).
      Result: value and number of evaluations. *)
  Record pd := mkPd { p_low : R; p_high : R; p_mod : R; p_prev : R; p_n : nat; p_val : R }.
  Definition pd_body (s : pd) : pd + (R * nat) :=
    let v := p_val s * p_mod s in
    let d := dQ_of v in
    let up := flt (Fin limit) d in
    let down := flt d (Fin (limit - 100)) in
    let low' := if up then p_mod s else p_low s in
    let high' := if up then p_high s else if down then p_mod s else p_high s in
    let mod' := if up then (p_mod s + p_high s) / 2
                else if down then (p_low s + p_mod s) / 2 else p_mod s in
    let stop := (negb up && negb down) || Rleb (Rabs (p_prev s - mod')) (/ 100000000)
                || (30 <=? p_n s)%nat in
    if stop then inr (v, S (p_n s)) else inl (mkPd low' high' mod' mod' (S (p_n s)) v).
  Definition pull_down (fuel : nat) : option (R * nat) :=
    match loop pd_body fuel (mkPd 0 1 (1 / 2) 0 0 cur) with
    | Some (v, n) => Some (if Reqb v 0 then / 100000000 else v, n)
    | None => None
    end.

  (** lines 623-650: early return (value) or bracket. *)
  Definition pu_high (s : R * R * nat) : (R * R * nat) + (R + R * R) :=
    let '(low, high, n) := s in
    let v := cur * high in
    let below := flt (dQ_of v) (Fin limit) in
    let low' := if below then high else low in
    let high' := if below then high * 2 else high in
    let n' := S n in
    if (30 <=? n')%nat then inr (inl v)
    else if below then inl (low', high', n') else inr (inr (low', high')).
  (** lines 651-675 *)
  Definition pu_body (s : R * R * R * nat) : (R * R * R * nat) + (R * nat) :=
    let '(low, high, md, n) := s in
    let v := cur * md in
    let d := dQ_of v in
    let n' := S n in
    let up := flt (Fin limit) d in
    let down := flt d (Fin (limit - 100)) in
    let s' := if up then (low, md, (md + low) / 2, n')
              else if down then (md, high, (high + md) / 2, n') else (low, high, md, n') in
    if (negb up && negb down) || (30 <=? n')%nat then inr (v, n') else inl s'.
  Inductive pull_result := Exhausted (v : R) | Searched (v : R) (n : nat).
  Definition pull_up (fuel : nat) : option pull_result :=
    match loop pu_high fuel (0, 2, 0%nat) with
    | Some (inl v) => Some (Exhausted v)
    | Some (inr (low, high)) =>
        match loop pu_body fuel (low, high, (high + low) / 2, 0%nat) with
        | Some (v, n) => Some (Searched v n)
        | None => None
        end
    | None => None
    end.

  (** lines 677-731; [n] counts the evaluations of the loop. *)
  Record pt := mkPt { t_low : R; t_high : R; t_mid : R; t_prev : R; t_n : nat }.
  Definition pt_body (s : pt) : pt + (R * nat) :=
    let v := t_mid s in
    let d := dQ_of v in
    let up := flt (Fin limit) d in
    let down := flt d (Fin (limit - 100)) in
    let low' := if up then v else t_low s in
    let high' := if up then t_high s else if down then v else t_high s in
    let mid' := if up then (v + t_high s) / 2 else if down then (t_low s + v) / 2 else v in
    let stop := (negb up && negb down) || Rleb (Rabs (t_prev s - mid')) (/ 100000000)
                || (30 <=? t_n s)%nat in
    if stop then inr (v, S (t_n s)) else inl (mkPt low' high' mid' mid' (S (t_n s))).
  Definition pull_to (target : R) (fuel : nat) : option (R * nat) :=
    if flt (dQ_of target) (Fin limit) then Some (target, 0%nat)
    else
      let high := if Rltb cur target then target else cur in
      let low := if Rltb cur target then cur else target in
      loop pt_body fuel (mkPt low high ((high + low) / 2) 0 0).
End Pull.
Definition pull_value (r : pull_result) : R := match r with Exhausted v | Searched v _ => v end.

(** ** Difference matrices *)
Definition set_cell (A : mat) (i j : nat) (v : R) : mat :=
  fun a b => if ((a =? i) && (b =? j))%nat then v else A a b.

(** Python indexing of one axis of length [len]. *)
Definition py_index (len : nat) (i : Z) : option nat :=
  let l := Z.of_nat len in
  if ((0 <=? i) && (i <? l))%Z then Some (Z.to_nat i)
  else if ((- l <=? i) && (i <? 0))%Z then Some (Z.to_nat (l + i)) else None.

(** lines 330-353: difference for a cell with current value [cur] and base value
    [base].  31 evaluations suffice for every search (C43). *)
Definition new_diff (loss : R -> fl) (cur base : R) (t : ctype) : option R :=
  match t with
  | PullDown dQ => match pull_down loss cur dQ 31 with Some (v, _) => Some (v - cur) | None => None end
  | PullUp dQ => match pull_up loss cur dQ 31 with Some r => Some (pull_value r - cur) | None => None end
  | PullTo v dQ => match pull_to loss cur dQ v 31 with Some (w, _) => Some (w - cur) | None => None end
  | SetZero => Some (-1 * cur)
  | SetBase => Some (base - cur)
  | Limits lo hi => Some (if Rltb cur lo then lo - cur else if Rltb hi cur then cur - hi else cur)
  | Unknown => Some 0
  end.

Section Apply.
  Context (m n k : nat) (V U bW bH : mat).          (** data and base solution *)

  (** lines 322-358: one constraint; [None] is IndexError. *)
  Definition apply_one (iW iH : mat) (D : mat * mat) (c : constr) : option (mat * mat) :=
    match c_tgt c with
    | Feature =>
        match py_index k (c_i c), py_index n (c_j c) with
        | Some i, Some j =>
            match new_diff (fun v => Fin (q_loss m n k true V U iW (set_cell iH i j v))) (iH i j) (bH i j) (c_type c) with
            | Some d => Some (fst D, set_cell (snd D) i j d)
            | None => None
            end
        | _, _ => None
        end
    | _ =>
        match py_index m (c_i c), py_index k (c_j c) with
        | Some i, Some j =>
            match new_diff (fun v => Fin (q_loss m n k true V U (set_cell iW i j v) iH)) (iW i j) (bW i j) (c_type c) with
            | Some d => Some (set_cell (fst D) i j d, snd D)
            | None => None
            end
        | _, _ => None
        end
    end.
  Fixpoint apply_constraints (iW iH : mat) (r : registry) (D : mat * mat) : option (mat * mat) :=
    match r with
    | [] => Some D
    | (_, c) :: r' => match apply_one iW iH D c with
                      | Some D' => apply_constraints iW iH r' D'
                      | None => None
                      end
    end.

  (** lines 733-738; [s] is the softness. *)
  Definition q_aux (s : R) (W Wp Dw H Hp Dh : mat) : R :=
    rsum m (fun i => rsum k (fun a => (W i a + Dw i a - Wp i a) * (W i a + Dw i a - Wp i a)) / (s * s)) +
    rsum k (fun a => rsum n (fun j => (H a j + Dh a j - Hp a j) * (H a j + Dh a j - Hp a j)) / (s * s)).

  (** lines 494-499: one training iteration with the LS-NMF update; [E] are the
      difference matrices of the expressions. *)
  Definition c_iter (r : registry) (E : mat -> mat -> mat * mat) (st : mat * mat) : option (mat * mat) :=
    let (W, H) := st in
    match apply_constraints W H r (E W H) with
    | None => None
    | Some (Dw, Dh) =>
        ls_update m n k V (weights U) false
          ((fun i a => Dw i a + W i a), (fun a j => Rabs (Dh a j + H a j)))
    end.
End Apply.

(** ** Expressions *)
(** lines 549-579.  An element is its kind and the two integers of its label;
    kind [true] is feature.  Tokens: a term (length above one), a minus sign, any
    other one-character separator. *)
Definition elem := (bool * nat * nat)%type.
Definition elem_eqb (a b : elem) : bool :=
  let '(ka, ia, ja) := a in let '(kb, ib, jb) := b in Bool.eqb ka kb && (ia =? ib)%nat && (ja =? jb)%nat.
Inductive token := TTerm (coef : R) (e : elem) | TMinus | TSep.
(** lines 559-577: signed terms; the label list of an expression is [map fst]. *)
Fixpoint signed_terms (neg : bool) (l : list token) : list (elem * R) :=
  match l with
  | [] => []
  | TTerm c e :: t => (e, c * (if neg then -1 else 1)) :: signed_terms false t
  | TMinus :: t => signed_terms true t
  | TSep :: t => signed_terms false t
  end.
(** the mapping: element, coefficients with the expression they come from; the
    column of an element is its position *)
Definition emap := list (elem * list (R * nat)).
Fixpoint map_add (mp : emap) (e : elem) (c : R) (i : nat) : emap :=
  match mp with
  | [] => [(e, [(c, i)])]
  | (e', l) :: t => if elem_eqb e' e then (e', l ++ [(c, i)]) :: t else (e', l) :: map_add t e c i
  end.
Fixpoint map_expressions (exprs : list (list token * R)) (i : nat) (mp : emap) : emap :=
  match exprs with
  | [] => mp
  | (toks, _) :: t => map_expressions t (S i) (fold_left (fun mp ec => map_add mp (fst ec) (snd ec) i) (signed_terms false toks) mp)
  end.

(** lines 382-396: value of an element, coefficient matrix, right-hand side.  The
    first coefficient of an element in an expression is used (393). *)
Definition elem_value (W H : mat) (e : elem) : R :=
  let '(feature, i, j) := e in if feature then H i j else W j i.
Definition first_coef (occ : list (R * nat)) (i : nat) : R :=
  match find (fun p => (snd p =? i)%nat) occ with Some (v, _) => v | None => 0 end.
Definition exp_A (mp : emap) (i c : nat) : R :=
  match nth_error mp c with Some (_, occ) => first_coef occ i | None => 0 end.
Definition exp_B (W H : mat) (exprs : list (list token * R)) (i : nat) : R :=
  match nth_error exprs i with
  | Some (toks, _) => lsum (map (fun ec => elem_value W H (fst ec)) (signed_terms false toks))
  | None => 0
  end.

(** lines 398-409: the solution [x] of the solver as differences. *)
Fixpoint index_from (mp : emap) (e : elem) (c : nat) : option nat :=
  match mp with
  | [] => None
  | (e', _) :: t => if elem_eqb e' e then Some c else index_from t e (S c)
  end.
Definition elem_index (mp : emap) (e : elem) : option nat := index_from mp e 0.
Definition exp_diff_H (mp : emap) (x : nat -> R) (iH : mat) : mat :=
  fun a j => match elem_index mp (true, a, j) with Some c => x c - iH a j | None => 0 end.
Definition exp_diff_W (mp : emap) (x : nat -> R) (iW : mat) : mat :=
  fun i a => match elem_index mp (false, a, i) with Some c => x c - iW i a | None => 0 end.

(** lines 848-861: reported value of expression [i]; sample elements are read at
    (factor, sample), not swapped as at line 389. *)
Definition eval_value (W H : mat) (e : elem) : R :=
  let '(feature, i, j) := e in if feature then H i j else W i j.
Definition occ_of (mp : emap) (e : elem) : list (R * nat) :=
  match find (fun p => elem_eqb (fst p) e) mp with Some (_, occ) => occ | None => [] end.
Definition eval_expr (W H : mat) (mp : emap) (exprs : list (list token * R)) (i : nat) : R :=
  match nth_error exprs i with
  | Some (toks, _) => lsum (map (fun ec => eval_value W H (fst ec) * first_coef (occ_of mp (fst ec)) i) (signed_terms false toks))
  | None => 0
  end.

(** lines 411-429: [dq s] is the change of the main loss after [s] reductions by
    0.98; the result is the number of reductions, or [None] for zero matrices. *)
Definition budget_body (dq : nat -> fl) (total : R) (s : nat * Z) : (nat * Z) + (option nat) :=
  let (j, ms) := s in
  let ok := flt (dq j) (Fin total) in
  if (ms <? 0)%Z then inr None
  else if ok then inr (Some j) else inl (S j, (ms - 1)%Z).
Definition budget (dq : nat -> fl) (total : R) (fuel : nat) : option (option nat) :=
  loop (budget_body dq total) fuel (0%nat, 100%Z).

(** ** Training loop (485-531).  A step gives the new state and its three
    losses (true, robust, aux). *)
Section Loop.
  Context {St : Type} (step : St -> St) (losses : St -> fl * fl * fl).
  Definition q_main (s : St) : fl := let '(t, _, a) := losses s in fadd t a.
  Definition fmaxn (a b : fl) : fl := match a, b with NaN, _ | _, NaN => NaN | _, _ => if flt a b then b else a end.
  Definition fminn (a b : fl) : fl := match a, b with NaN, _ | _, NaN => NaN | _, _ => if flt b a then b else a end.
  (** lines 511-517; [None] is the ValueError of an empty window. *)
  Definition spread (l : list fl) : option fl :=
    match l with [] => None | x :: t => Some (fsub (fold_left fmaxn t x) (fold_left fminn t x)) end.
  Record cres := mkRes { cr_state : St; cr_hist : list (fl * fl * fl); cr_conv : bool; cr_steps : nat }.
  Fixpoint c_loop (cn : nat) (delta : R) (rem i : nat) (st : St) (qm : list fl) (hist : list (fl * fl * fl)) : option cres :=
    match rem with
    | O => Some (mkRes st hist false (i - 1))
    | S rem' =>
        let st' := step st in
        let hist' := hist ++ [losses st'] in
        let qm' := qm ++ [q_main st'] in
        if (cn <? length qm')%nat then
          match spread (tl qm') with
          | None => None
          | Some d => if flt (Fin delta) d || is_nan d then c_loop cn delta rem' (S i) st' (tl qm') hist'
                      else Some (mkRes st' hist' true i)
          end
        else c_loop cn delta rem' (S i) st' qm' hist'
    end.
  (** lines 476-479, 485-539: [None] also for no iterations (514 is never
      reached and rounding None at 536 raises). *)
  Definition c_train (nconstr : nat) (cn : nat) (delta : R) (max_iter : nat) (st : St) : option (option cres) :=
    if (nconstr =? 0)%nat then Some None
    else if (max_iter =? 0)%nat then None
    else match c_loop cn delta max_iter 0 st [] [] with Some r => Some (Some r) | None => None end.
End Loop.
(** lines 766-769: the series plotted for Q(main) is two lists added. *)
Definition plot_main (hist : list (fl * fl * fl)) : list nat * list fl :=
  (seq 0 (length hist), map (fun q => fst (fst q)) hist ++ map snd hist).
