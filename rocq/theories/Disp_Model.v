(** Model of esat/error/displacement.py: the increase (249-332, 350-421) and
    decrease (423-487, 508-561) searches, the result dictionaries (334-348,
    489-506), the compiled table (563-606), the swap table (608-627), the labels
    of the summary (129-132, 680) and the engine's model number (352, 510).
    [dq m] is the displaced loss minus the base loss when the displaced profile
    value is [m] times its base value; it may be NaN.  The sequential and the
    parallel methods run the same search and are modelled once. *)
From Coq Require Import List Bool ZArith Lia Reals Lra.
From Verif Require Import Base Fl Metrics_Model.
Import ListNotations.
Local Open Scope R_scope.

(** line 53; esat/error/bs_disp.py:63 sets [4; 2; 1; 1/2] instead (lines 188, 209) *)
Definition dQmax : list R := [32; 16; 8; 4].
Definition bs_dQmax : list R := [4; 2; 1; 1 / 2].

(** A loop body either continues with a new state or stops with a result. *)
Fixpoint loop {S A : Type} (body : S -> S + A) (fuel : nat) (s : S) : option A :=
  match fuel with
  | O => None
  | Datatypes.S f => match body s with inl s' => loop body f s' | inr a => Some a end
  end.

Section Search.
  Context (dq : R -> fl).
  Context (targets : list R).               (** dQmax *)
  Context (thr : R).                        (** threshold_dQ *)

  (** lines 269-291 (355-378): doubling; state: high_modifier, high_search_i.
      Result: high_modifier and the number of evaluations. *)
  Definition high_body (s : R * nat) : (R * nat) + (R * nat) :=
    let (high, n) := s in
    let d := dq high in
    let below := flt d (Fin (hd 0 targets)) in
    let high' := if below then high * 2 else high in
    let n' := S n in
    if negb below then inr (high', n')
    else if (100 <=? n')%nat then inr (high', n')
    else inl (high', n').

  (** lines 293-317 (380-402): state of one bisection. *)
  Record bis := mkBis { b_low : R; b_high : R; b_mod : R; b_n : nat }.
  (** What is reported: dQ, modifier of the stored value, steps; and the upper
      modifier carried to the next target. *)
  Record found := mkFound { f_dq : fl; f_mod : R; f_n : nat; f_high : R }.

  Definition inc_body (target : R) (s : bis) : bis + found :=
    let d := dq (b_mod s) in
    let n' := S (b_n s) in
    if flt (Fin target) d then
      let s' := mkBis (b_low s) (b_mod s) ((b_mod s + b_low s) / 2) n' in
      if (100 <=? n')%nat then inr (mkFound d (b_mod s) n' (b_high s')) else inl s'
    else if flt d (Fin (target - thr)) then
      let s' := mkBis (b_mod s) (b_high s) ((b_high s + b_mod s) / 2) n' in
      if (100 <=? n')%nat then inr (mkFound d (b_mod s) n' (b_high s')) else inl s'
    else inr (mkFound d (b_mod s) n' (b_high s)).

  (** lines 292-331: all targets, the upper modifier being carried over. *)
  Fixpoint inc_targets (fuel : nat) (ts : list R) (high : R) : option (list found) :=
    match ts with
    | [] => Some []
    | t :: r =>
        match loop (inc_body t) fuel (mkBis 1 high ((high + 1) / 2) 0) with
        | None => None
        | Some f => match inc_targets fuel r (f_high f) with
                    | None => None
                    | Some l => Some (f :: l)
                    end
        end
    end.

  (** lines 249-332.  [fuel] bounds every while loop. *)
  Definition increase (fuel : nat) : option (nat * list found) :=
    match loop high_body fuel (2, 0%nat) with
    | None => None
    | Some (high, n) => match inc_targets fuel targets high with
                        | None => None
                        | Some l => Some (n, l)
                        end
    end.

  (** lines 437-466 (514-540).  Here the change is taken in absolute value. *)
  Definition fabs (x : fl) : fl :=
    match x with Fin a => Fin (Rabs a) | PInf | NInf => PInf | NaN => NaN end.
  Record dec := mkDec { d_low : R; d_high : R; d_mod : R; d_prev : R; d_n : nat }.
  Definition dec_body (target : R) (s : dec) : dec + found :=
    let d := fabs (dq (d_mod s)) in
    let up := flt (Fin target) d in
    let down := flt d (Fin (target - thr)) in
    let low' := if up then d_mod s else d_low s in
    let high' := if up then d_high s else if down then d_mod s else d_high s in
    let mod' := if up then (d_mod s + d_high s) / 2
                else if down then (d_low s + d_mod s) / 2 else d_mod s in
    let n' := S (d_n s) in
    let stop := (negb up && negb down) || Rleb (Rabs (d_prev s - mod')) (/ 100000000)
                || (50 <=? n')%nat in
    if stop then inr (mkFound d (d_mod s) n' high') else inl (mkDec low' high' mod' mod' n').

  Fixpoint dec_targets (fuel : nat) (ts : list R) : option (list found) :=
    match ts with
    | [] => Some []
    | t :: r =>
        match loop (dec_body t) fuel (mkDec 0 1 (1 / 2) 0 0) with
        | None => None
        | Some f => match dec_targets fuel r with None => None | Some l => Some (f :: l) end
        end
    end.
  (** lines 423-487 *)
  Definition decrease (fuel : nat) : option (list found) := dec_targets fuel targets.
End Search.

(** ** The displaced loss.  line 72: the profile is shifted by EPSILON. *)
Definition displaced (H : mat) (i j : nat) (m : R) : mat :=
  fun a b => if ((a =? i) && (b =? j))%nat then H i j * m else H a b.

(** lines 72-76, 275-278, 298-301: the loss change as a function of the modifier;
    [base] is the trained model's Q(true), of the unshifted profile. *)
Definition disp_change (m n k : nat) (V U W H : mat) (base : R) (i j : nat) (x : R) : R :=
  q_loss m n k true V U W (displaced H i j x) - base.

(** lines 319-320: percent of the displaced cell within its feature. *)
Definition percent (k : nat) (H : mat) (i j : nat) : R := H i j / rsum k (fun a => H a j).
(** lines 321-324: summed contribution of the displaced cell. *)
Definition conc (m : nat) (W H : mat) (i j : nat) : R := rsum m (fun t => W t i * H i j).
(** lines 599-600 *)
Definition clamp (c : R) : R := if Rltb (/ 10000) c then c else / 10000.
(** lines 595, 602 *)
Definition q_drop (inc dec : fl) : fl :=
  let d := if flt inc dec then inc else dec in if flt d (Fin 0) then d else Fin 0.

(** ** Result dictionaries and the swap table *)
Local Open Scope nat_scope.

(** Python dictionary assignment keeping insertion order. *)
Fixpoint dset {V} (d : list (nat * V)) (k : nat) (v : V) : list (nat * V) :=
  match d with
  | [] => [(k, v)]
  | (k', v') :: t => if k' =? k then (k, v) :: t else (k', v') :: dset t k v
  end.
Fixpoint dget {V} (d : list (nat * V)) (k : nat) : option V :=
  match d with [] => None | (k', v) :: t => if k' =? k then Some v else dget t k end.

(** swap flags of one searched cell, one per dQ target *)
Definition cell := list bool.
Definition results := list (nat * list (nat * cell)).

(** lines 257-332: one dictionary per factor, assigned when complete. *)
Definition seq_results (k : nat) (features : list nat) (swap : nat -> nat -> cell) (d : results) : results :=
  fold_left (fun d i => dset d i (fold_left (fun e j => dset e j (swap i j)) features [])) (seq 0 k) d.

(** lines 342-348: results arrive in the order [sched]. *)
Definition add_result (swap : nat -> nat -> cell) (d : results) (ij : nat * nat) : results :=
  let (i, j) := ij in
  let d := match dget d i with None => dset d i [] | Some _ => d end in
  match dget d i with
  | Some e => dset d i (dset e j (swap i j))
  | None => d
  end.
Definition par_results (sched : list (nat * nat)) (swap : nat -> nat -> cell) (d : results) : results :=
  fold_left (add_result swap) sched d.

(** lines 608-627: the tables are indexed by target row and by the position of
    the factor in the dictionary. *)
Definition tables := nat -> nat -> nat * nat.         (** count, swaps *)
Definition bump (t : tables) (r c : nat) (b : bool) : tables :=
  fun r' c' => if (r' =? r) && (c' =? c) then
                 let (n, s) := t r c in (n + 1, if b then s + 1 else s)
               else t r' c'.
Fixpoint count_cell (t : tables) (r c : nat) (l : cell) : tables :=
  match l with [] => t | b :: l' => count_cell (bump t r c b) (S r) c l' end.
Fixpoint count_factors (t : tables) (c : nat) (d : results) : tables :=
  match d with
  | [] => t
  | (_, e) :: d' => count_factors (fold_left (fun t p => count_cell t 0 c (snd p)) e t) (S c) d'
  end.
Definition compile (inc dec : results) (t : tables) : tables := count_factors (count_factors t 0 inc) 0 dec.

(** lines 128-132, 679-682: rows of the summary, each with its label. *)
Definition summary_rows (k : nat) (t : tables) : list (R * (nat -> R)) :=
  combine (rev dQmax)
    (map (fun r => fun c => (100 * (INR (snd (t r c)) / INR (fst (t r c))))%R) (seq 0 4)).

(** ** Model numbers.  lines 352, 510 and rust/lib.rs:206 (i8). *)
Definition par_model_i (nfeat i j : nat) : nat := i * nfeat + j + 1.
Definition engine_accepts (model_i : nat) : bool := model_i <=? 127.
(** Whether run (113-122 of this class) completes: every cell is trained. *)
Definition par_completes (k : nat) (features : list nat) : bool :=
  forallb (fun i => forallb (fun j => engine_accepts (par_model_i (length features) i j)) features) (seq 0 k).
Definition seq_completes (k : nat) (features : list nat) (batch : nat) : bool :=
  forallb (fun i => forallb (fun j => engine_accepts batch) features) (seq 0 k).
