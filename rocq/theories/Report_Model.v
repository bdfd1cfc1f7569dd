(** Model of what a constrained model keeps and shows, esat/rotational/constrained.py:
    the constructor's fields (138-172), the lists of constraints and expressions
    (174-320), what train stores (476-546), the tables (793-879) and plots (881-1144).
    Exact reals.  A run of the training loop (C68) is an argument of the operation.
    The constraint type is one of the six documented or another text than "feature".
    The time axis is regular (resampling changes nothing); axes' ranges and widths
    are not modelled. *)
From Coq Require Import List Bool ZArith Ascii String Reals.
From Flocq Require Import Core.
From Verif Require Import Base Fl Constr_Model Expr_Model Analysis_Model.
Import ListNotations.
Local Open Scope R_scope.

(** numpy.round(x, d): scale, round half to even, scale back *)
Definition rnd (d : nat) (x : R) : R := IZR (ZnearestE (x * 10 ^ d)) / 10 ^ d.
Definition frnd (d : nat) (x : fl) : fl := match x with Fin r => Fin (rnd d r) | _ => x end.
Definition row {A : Type} (n : nat) (f : nat -> A) : list A := map f (seq 0 n).

(** ** State (138-172) *)
Record sol := mkSol { o_W : mat; o_H : mat }.
Record cmodel := mkCM {
  m_reg : registry;                                       (* constraints *)
  m_exprs : list string;                                  (* expressions *)
  m_labeled : option (list (list string * R));            (* expression_labeled *)
  m_mapped : option (list entry);                         (* expression_mapped *)
  m_sol : option sol }.                                   (* constrained_model *)
Definition fresh : cmodel := mkCM [] [] None None None.
Inductive reply := Gives (b : option bool) | Raised (e : exn).

(** A training loop: from the constraints and the parsed expressions to a solution. *)
Notation training := (registry -> list (list term * R) -> exn + sol).
Inductive op := AddC (c : constr) | DelC (l : clabel) | AddE (s : string) | DelE (i : Z) | Train (t : training).

Fixpoint delete {A : Type} (i : nat) (l : list A) : list A :=
  match l, i with [], _ => [] | _ :: t, O => t | x :: t, S j => x :: delete j t end.

Section Model.
  Context (to_float : string -> option R) (m n k : nat) (bW bH : mat).

  (** lines 476-484, 532-546 *)
  Definition train (t : training) (s : cmodel) : cmodel * reply :=
    if ((List.length (m_reg s) =? 0) && (List.length (m_exprs s) =? 0))%nat then (s, Gives None)
    else match read_all to_float (m_exprs s) with
         | inl e => (s, Raised e)
         | inr es =>
             let lab := Some (map (fun e => (map t_label (fst e), snd e)) es) in
             let mp := Some (map_all es 0 []) in
             match t (m_reg s) es with
             | inl e => (mkCM (m_reg s) (m_exprs s) lab mp (m_sol s), Raised e)
             | inr o => (mkCM (m_reg s) (m_exprs s) lab mp (Some o), Gives None)
             end
         end.
  Definition step (o : op) (s : cmodel) : cmodel * reply :=
    match o with
    | AddC c => let (r, b) := add_constraint (Z.of_nat m) (Z.of_nat n) (Z.of_nat k) (m_reg s) c in
                (mkCM r (m_exprs s) (m_labeled s) (m_mapped s) (m_sol s), Gives (Some b))
    | DelC l => match remove_constraint (m_reg s) l with
                | Some r => (mkCM r (m_exprs s) (m_labeled s) (m_mapped s) (m_sol s), Gives None)
                | None => (s, Raised KeyErr)
                end
    | AddE e => (mkCM (m_reg s) (m_exprs s ++ [e]) (m_labeled s) (m_mapped s) (m_sol s), Gives (Some true))    (* 296-298 *)
    | DelE i => (if ((0 <=? i) && (i <? Z.of_nat (List.length (m_exprs s))))%Z                             (* 319-320 *)
                 then mkCM (m_reg s) (delete (Z.to_nat i) (m_exprs s)) (m_labeled s) (m_mapped s) (m_sol s)
                 else s, Gives None)
    | Train t => train t s
    end.
  Fixpoint run (l : list op) (s : cmodel) : cmodel :=
    match l with [] => s | o :: l' => run l' (fst (step o s)) end.

  (** H[(i, j)] or W[(i, j)] *)
  Definition at_index (feature : bool) (W H : mat) (i j : Z) : option R :=
    if feature
    then match py_index k i, py_index n j with Some a, Some b => Some (H a b) | _, _ => None end
    else match py_index m i, py_index k j with Some a, Some b => Some (W a b) | _, _ => None end.

  (** ** evaluate_constraints, 793-830 *)
  Inductive target := NoTarget | Value (x : R) | Range (lo hi : R).
  Record crow := mkRow { r_of : constr; r_base : R; r_target : target; r_sol : R; r_dQ : option R }.
  Definition is_feature (c : constr) : bool := match c_tgt c with Feature => true | _ => false end.
  Definition constraint_row (s : cmodel) (c : constr) : exn + crow :=
    match m_sol s with
    | None => inl AttrErr
    | Some o =>
        match at_index (is_feature c) (o_W o) (o_H o) (c_i c) (c_j c), at_index (is_feature c) bW bH (c_i c) (c_j c) with
        | Some v, Some b =>
            let (t, q) := match c_type c with
                          | PullDown d | PullUp d => (NoTarget, Some d)
                          | PullTo x d => (Value x, Some d)
                          | SetZero => (Value 0, None)
                          | Limits lo hi => (Range (rnd 3 lo) (rnd 3 hi), None)
                          | SetBase => (Value (rnd 4 b), None)
                          | Unknown => (NoTarget, None)
                          end in
            inr (mkRow c (rnd 4 b) t (rnd 4 v) q)
        | _, _ => inl IndexErr
        end
    end.
  Fixpoint collect {A B : Type} (f : A -> exn + B) (l : list A) : exn + list B :=
    match l with
    | [] => inr []
    | x :: t => match f x with inl e => inl e | inr y => match collect f t with inl e => inl e | inr ys => inr (y :: ys) end end
    end.
  Definition evaluate_constraints (s : cmodel) : exn + list crow := collect (fun p => constraint_row s (snd p)) (m_reg s).

  (** ** evaluate_expressions, 832-879 *)
  Record erow := mkE { er_i : Z; er_j : Z; er_kind : string; er_base : R; er_sol : R }.
  (** one term: coefficient, label, value in the base and in the solution *)
  Record cell := mkCell { ce_coef : R; ce_label : string; ce_base : R; ce_sol : R }.
  Definition entry_of (mp : list entry) (lab : string) : option entry := find (fun e => String.eqb (e_label e) lab) mp.
  Definition term_cell (s : cmodel) (mp : list entry) (i : nat) (lab : string) : exn + (cell * erow) :=
    match entry_of mp lab with
    | None => inl KeyErr
    | Some e =>
      match find (fun p => (snd p =? i)%nat) (e_coefs e) with
      | None => inl ValueErr
      | Some (c, _) =>
        match m_sol s with
        | None => inl AttrErr
        | Some o =>
          let f := String.eqb (e_kind e) "feature" in
          match at_index f (o_W o) (o_H o) (e_i e) (e_j e), at_index f bW bH (e_i e) (e_j e) with
          | Some v, Some b => inr (mkCell c lab b v, mkE (e_i e) (e_j e) (e_kind e) (rnd 4 b) (rnd 4 v))
          | _, _ => inl IndexErr
          end
        end
      end
    end.
  (** exp_element[ele] = ... *)
  Fixpoint put (d : list (string * erow)) (lab : string) (r : erow) : list (string * erow) :=
    match d with
    | [] => [(lab, r)]
    | (l, x) :: t => if String.eqb l lab then (l, r) :: t else (l, x) :: put t lab r
    end.
  Record xrow := mkX { x_terms : list (option (R * string)); x_dQ : R; x_base : R; x_sol : R }.
  Definition max_terms (lab : list (list string * R)) : nat := fold_right Nat.max 0%nat (map (fun e => List.length (fst e)) lab).
  Definition xrow_of (w : nat) (dQ : R) (cs : list cell) : xrow :=
    mkX (map (fun c => Some (ce_coef c, ce_label c)) cs ++ repeat None (w - List.length cs)) dQ
        (rnd 4 (lsum (map (fun c => ce_base c * ce_coef c) cs))) (rnd 4 (lsum (map (fun c => ce_sol c * ce_coef c) cs))).
  Fixpoint expression_rows (s : cmodel) (mp : list entry) (w i : nat) (lab : list (list string * R)) (d : list (string * erow))
    : exn + (list (string * erow) * list xrow) :=
    match lab with
    | [] => inr (d, [])
    | (ls, dQ) :: t =>
        match collect (term_cell s mp i) ls with
        | inl e => inl e
        | inr cs =>
            match expression_rows s mp w (S i) t (fold_left (fun d p => put d (ce_label (fst p)) (snd p)) cs d) with
            | inl e => inl e
            | inr (d', rows) => inr (d', xrow_of w dQ (map fst cs) :: rows)
            end
        end
    end.
  (** the table of elements and the table of expressions *)
  Definition evaluate_expressions (s : cmodel) : exn + (list erow * list xrow) :=
    match m_labeled s with
    | None => inl TypeErr
    | Some [] => inl ValueErr
    | Some lab => match expression_rows s (match m_mapped s with Some mp => mp | None => [] end) (max_terms lab) 0 lab [] with
                  | inl e => inl e
                  | inr (d, rows) => inr (map snd d, rows)
                  end
    end.

  (** ** Plots.  [inr None]: a warning is logged and nothing drawn. *)
  Inductive colour := Green | Red | Purple.
  Fixpoint set_nth {A : Type} (i : nat) (x : A) (l : list A) : list A :=
    match l, i with [], _ => [] | _ :: t, O => x :: t | y :: t, S j => y :: set_nth j x t end.
  Definition mentions (w s : string) : bool := match index 0 w s with Some _ => true | None => false end.
  (** lines 932-942: computed, not used *)
  Fixpoint mark (fi : Z) (mp : list entry) (l : list colour) : exn + list colour :=
    match mp with
    | [] => inr l
    | e :: t => if mentions "feature" (e_label e) && (e_i e =? fi)%Z
                then match py_index n (e_j e) with None => inl IndexErr | Some j => mark fi t (set_nth j Red l) end
                else mark fi t l
    end.
  Record profile := mkP { p_label : Z; p_base_share : list fl; p_share : list fl; p_base_conc : list R; p_conc : list R; p_outline : list colour }.
  (** lines 899-959 *)
  Definition plot_profile (s : cmodel) (f : option Z) : exn + profile :=
    match f with
    | None => inl TypeErr
    | Some f =>
      match py_index k (f - 1) with
      | None => inl IndexErr
      | Some i =>
        match m_sol s with
        | None => inl AttrErr
        | Some o =>
          match m_mapped s with
          | None => inl AttrErr
          | Some mp => match mark (f - 1) mp (repeat Green n) with
            | inl e => inl e
            | inr _ => inr (mkP f (row n (fun j => frnd 2 (norm_profile k bH i j))) (row n (fun j => frnd 2 (norm_profile k (o_H o) i j)))
                             (row n (conc_sum m bW bH i)) (row n (conc_sum m (o_W o) (o_H o) i)) (repeat Green n))
            end
          end
        end
      end
    end.
  (** lines 961-1001: label, base series, constrained series *)
  Definition plot_contributions (s : cmodel) (f : option Z) : exn + (Z * list fl * list fl) :=
    match f with
    | None => inl TypeErr
    | Some f => match py_index k (f - 1) with
      | None => inl IndexErr
      | Some i => match m_sol s with
        | None => inl AttrErr
        | Some o => inr (f, row m (fun t => profile_contribution m bW t i), row m (fun t => profile_contribution m (o_W o) t i))
        end
      end
    end.
  (** lines 881-897 *)
  Definition plot_profile_contributions (s : cmodel) (f : option Z) : exn + option (profile * (Z * list fl * list fl)) :=
    let both := match plot_profile s f with
                | inl e => inl e
                | inr p => match plot_contributions s f with inl e => inl e | inr c => inr (Some (p, c)) end
                end in
    match f with
    | None => both
    | Some x => match m_sol s with
                | None => inl AttrErr
                | Some _ => if ((Z.of_nat k <? x) || (x <? 1))%Z then inr None else both
                end
    end.
  (** lines 1003-1027: for each bar of the stacks, the factor's label and its shares
      in base and constrained profile; Viridis_r has ten colours *)
  Definition plot_fingerprints (s : cmodel) : exn + list (Z * list fl * list fl) :=
    match m_sol s with
    | None => inl AttrErr
    | Some o => if (10 <? k)%nat then inl IndexErr
                else inr (map (fun i => ((Z.of_nat i + 1)%Z, row n (norm_profile k bH i), row n (norm_profile k (o_H o) i))) (rev (seq 0 k)))
    end.
  (** lines 1029-1087 *)
  Inductive trace_name := NDelta | NConstrained | NBase | NFpeak.
  Record gspace := mkG { g_points : list (trace_name * list (fl * fl)); g_arrows : list (fl * fl * (fl * fl)); g_xtitle : Z; g_ytitle : Z }.
  Definition plot_g_space (s : cmodel) (f1 f2 : option Z) (base delta : bool) : exn + option gspace :=
    let bad f := match f with Some x => ((Z.of_nat k <? x) || (x <? 1))%Z | None => false end in
    if bad f1 then inr None else if bad f2 then inr None
    else match f1, f2 with
         | Some x1, Some x2 =>
           match m_sol s with
           | None => inl AttrErr
           | Some o =>
             let i1 := Z.to_nat (x1 - 1) in let i2 := Z.to_nat (x2 - 1) in
             let pts W := row m (fun t => (gspace_contribution m W t i1, gspace_contribution m W t i2)) in
             let arrows := row m (fun t => ((gspace_contribution m bW t i1, gspace_contribution m bW t i2),
                                            (fsub (gspace_contribution m (o_W o) t i1) (gspace_contribution m bW t i1),
                                             fsub (gspace_contribution m (o_W o) t i2) (gspace_contribution m bW t i2)))) in
             inr (Some (if delta then mkG [(NConstrained, pts (o_W o)); (NBase, pts bW)] arrows x2 x1
                        else mkG ((NFpeak, pts (o_W o)) :: if base then [(NBase, pts bW)] else []) [] x2 x1))
           end
         | _, _ => inl TypeErr
         end.
  (** lines 1089-1144: column shown, pie, series of the factors *)
  Definition plot_factor_contributions (s : cmodel) (j : option Z) (threshold : R) : exn + option (nat * list (Z * fl) * list (Z * list fl)) :=
    let go j := match m_sol s with
                | None => inl AttrErr
                | Some o => inr (Some (j, map (fun p => ((Z.of_nat (fst p) + 1)%Z, snd p)) (pie k (o_H o) j threshold),
                                       map (fun i => ((Z.of_nat i + 1)%Z, row m (fun t => percent_contribution m (o_W o) t i))) (seq 0 k)))
                end in
    match j with
    | None => go 0%nat
    | Some x => if ((x <? 1) || (Z.of_nat n <? x))%Z then inr None else go (Z.to_nat (x - 1))
    end.
End Model.
