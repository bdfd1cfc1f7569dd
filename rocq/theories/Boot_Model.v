(** Model of esat/error/bootstrap.py: block resampling (112-189), factor mapping
    (225-343), the runs (378-488), the mapping table (530-553) and the two
    in-place clean-ups (555-568, 610-631).  Single precision conversion of the
    resampled arrays (187-189) is not modelled. *)
From Coq Require Import List Bool ZArith Lia Reals Lra.
From Verif Require Import Base Fl.
Import ListNotations.
Local Open Scope nat_scope.

Inductive exn := TypeError | ValueError | IndexError | ZeroDivisionError | OverflowError.
Inductive res (A : Type) := Ok (a : A) | Raise (e : exn).
Arguments Ok {A}. Arguments Raise {A}.

(** The attribute block_size: the integer given by the caller, or the float
    N/2 written by line 152. *)
Inductive bsize := BInt (b : Z) | BHalf (n : nat).

(** line 150: [self.block_size > N/2]. *)
Definition too_big (bs : bsize) (N : nat) : bool :=
  match bs with
  | BInt b => (Z.of_nat N <? 2 * b)%Z
  | BHalf n => N <? n
  end.

(** line 155: [math.ceil(N / self.block_size)] for an integer size. *)
Definition ceil_div (N : nat) (b : Z) : Z := (- (- Z.of_nat N / b))%Z.

(** lines 158-163: the [i]-th block, starting at [i * b]. Popping an empty list
    raises IndexError. *)
Definition make_block (N b i : nat) : res (list nat) :=
  if N <? i * b then Raise IndexError else Ok (firstn (N - i * b) (seq (i * b) b)).
Fixpoint make_blocks (N b M i : nat) : res (list (list nat)) :=
  match M with
  | O => Ok []
  | S M' => match make_block N b i with
            | Raise e => Raise e
            | Ok l => match make_blocks N b M' (S i) with
                      | Raise e => Raise e
                      | Ok r => Ok (l :: r)
                      end
            end
  end.

(** numpy Generator.integers(low=0, high): one draw of the stream [r]; the
    [i]-th call on a bound that is not positive raises ValueError. *)
Definition rng_int (r : nat -> nat) (i : nat) (high : Z) : res nat :=
  if (high <=? 0)%Z then Raise ValueError else Ok (r i mod Z.to_nat high).

(** Writing a shortened list back through the alias [index_i] (line 169). *)
Definition set_block (bl : list (list nat)) (k : nat) (l : list nat) : list (list nat) :=
  firstn k bl ++ [l] ++ skipn (S k) bl.

(** lines 166-176.  [todo] iterations remain, [i] is the loop variable. *)
Fixpoint pick_blocks (overlapping : bool) (N b M : nat) (r : nat -> nat) (todo i : nat)
  (blocks : list (list nat)) (rows : nat) (acc : list nat) : res (list nat) :=
  match todo with
  | O => Ok acc
  | S todo' =>
      let pop l := if N <? rows then Raise IndexError else Ok (firstn (N - rows) l) in
      if overlapping then
        match rng_int r i (Z.of_nat N - Z.of_nat b - 1) with
        | Raise e => Raise e
        | Ok start =>
            match pop (seq start b) with
            | Raise e => Raise e
            | Ok l => pick_blocks overlapping N b M r todo' (S i) blocks (rows + length l) (acc ++ l)
            end
        end
      else
        match rng_int r i (Z.of_nat M - 1) with
        | Raise e => Raise e
        | Ok k =>
            match nth_error blocks k with
            | None => Raise IndexError
            | Some bl =>
                match pop bl with
                | Raise e => Raise e
                | Ok l => pick_blocks overlapping N b M r todo' (S i) (set_block blocks k l)
                            (rows + length l) (acc ++ l)
                end
            end
        end
  end.

(** lines 149-176: the new block_size attribute and the index list. *)
Definition block_index (overlapping : bool) (N : nat) (bs : bsize) (r : nat -> nat)
  : bsize * res (list nat) :=
  let bs' := if too_big bs N then BHalf N else bs in
  (bs',
   match bs' with
   | BHalf n =>
       if n =? 0 then Raise ZeroDivisionError                          (* line 155 *)
       else if overlapping then
         (* line 171: the bound N - N/2 - 1 is truncated by the generator *)
         match rng_int r 0 ((2 * Z.of_nat N - Z.of_nat n - 2) / 2) with
         | Raise e => Raise e
         | Ok _ => Raise TypeError                                       (* line 172 *)
         end
       else Raise TypeError                                              (* line 159 *)
   | BInt b =>
       if (b =? 0)%Z then Raise ZeroDivisionError
       else
         let M := Z.to_nat (ceil_div N b) in
         if overlapping then pick_blocks true N (Z.to_nat b) M r M 0 [] 0 []
         else match make_blocks N (Z.to_nat b) M 0 with
              | Raise e => Raise e
              | Ok bl => pick_blocks false N (Z.to_nat b) M r M 0 bl 0 []
              end
   end).

(** lines 177-186: rows of one array after the in-place loop. *)
Definition take_rows {X} (idx : list nat) (x : nat -> X) : nat -> X :=
  fun i => match nth_error idx i with Some k => x k | None => x i end.

(** lines 112-189. *)
Definition block_resample {X Y Z'} (overlapping : bool) (N : nat) (bs : bsize) (r : nat -> nat)
  (data : nat -> X) (unc : nat -> Y) (W : nat -> Z')
  : bsize * res ((nat -> X) * (nat -> Y) * (nat -> Z') * list nat) :=
  let (bs', o) := block_index overlapping N bs r in
  (bs', match o with
        | Raise e => Raise e
        | Ok idx => Ok (take_rows idx data, take_rows idx unc, take_rows idx W, idx)
        end).

(** lines 215-223: sampling single rows, with replacement. *)
Definition resample_index (N : nat) (r : nat -> nat) : list nat := map (fun i => r i mod N) (seq 0 N).

(** ** Factor mapping *)
Local Open Scope R_scope.

(** np.corrcoef squared (lines 245-250), in exact reals; a constant factor has
    no correlation (0/0). *)
Definition mean (n : nat) (x : nat -> R) : R := rsum n x / INR n.
Definition cov (n : nat) (x y : nat -> R) : R :=
  rsum n (fun i => (x i - mean n x) * (y i - mean n y)).
Definition r2 (n : nat) (x y : nat -> R) : fl :=
  if Reqb (cov n x x) 0 then NaN
  else if Reqb (cov n y y) 0 then NaN
  else Fin (cov n x y * cov n x y / (cov n x x * cov n y y)).

(** lines 274-286 and 331-342: the inner loop over [j], from [j0]. *)
Fixpoint best_match (corr : nat -> fl) (todo j bi : nat) (br : fl) : nat * fl :=
  match todo with
  | O => (bi, br)
  | S t => if flt br (corr j) then best_match corr t (S j) j (corr j) else best_match corr t (S j) bi br
  end.

(** One entry of the mapping dictionary. *)
Record mapped_to := mkMap { mp_match : nat; mp_r2 : fl; mp_mapped : bool }.

Definition map_one (corr : nat -> nat -> fl) (k2 : nat) (thr : fl) (i : nat) : mapped_to :=
  let (bi, br) := best_match (corr i) k2 0 i (corr i i) in
  mkMap bi br (fle thr br).

(** lines 252-287. [k1], [k2] rows of H1, H2 over [n] features. *)
Definition map_factors (n k1 k2 : nat) (H1 H2 : mat) (thr : fl) : list mapped_to :=
  map (map_one (fun i j => r2 n (H1 i) (H2 j)) k2 thr) (seq 0 k1).

(** lines 318-329: summed contribution of factor [i] to each feature. *)
Definition conc (m : nat) (W H : mat) (i : nat) : nat -> R :=
  fun j => rsum m (fun t => W t i * H i j).

(** lines 289-343, for equal numbers of factors (the caller's case). *)
Definition map_contributions (m1 m2 n k : nat) (W1 H1 W2 H2 : mat) (thr : fl) : list mapped_to :=
  map (map_one (fun i j => r2 n (conc m1 W1 H1 i) (conc m2 W2 H2 j)) k thr) (seq 0 k).

(** ** Runs and table *)
Local Open Scope nat_scope.
Section Runs.
  Context {M : Type}.
  Context (work : nat -> option M).       (** lines 457-488 for run [i]; [None] is an exception *)

  (** Python dictionary assignment keeping insertion order. *)
  Fixpoint dict_set {V} (d : list (nat * V)) (k : nat) (v : V) : list (nat * V) :=
    match d with
    | [] => [(k, v)]
    | (k', v') :: t => if k' =? k then (k, v) :: t else (k', v') :: dict_set t k v
    end.

  (** lines 401-417: results arrive in the order [sched]; the dictionary is
      written only when every run succeeded. *)
  Fixpoint all_runs (sched : list nat) : option (list (nat * M)) :=
    match sched with
    | [] => Some []
    | i :: t => match work i, all_runs t with
                | Some m, Some l => Some ((i, m) :: l)
                | _, _ => None
                end
    end.
  Definition par_runs (sched : list nat) (d : list (nat * M)) : bool * list (nat * M) :=
    match all_runs sched with
    | None => (false, d)
    | Some l => (true, fold_left (fun d p => dict_set d (fst p) (snd p)) l d)
    end.
  (** lines 418-455. *)
  Fixpoint seq_runs (todo i : nat) (d : list (nat * M)) : bool * list (nat * M) :=
    match todo with
    | O => (true, d)
    | S t => match work i with
             | None => (false, d)
             | Some m => seq_runs t (S i) (dict_set d i m)
             end
    end.
End Runs.

(** lines 530-553. The mapping of a run lists one entry per factor. *)
Definition count_entry (j c : nat) (mapping : list mapped_to) : nat :=
  match nth_error mapping j with
  | Some e => if mp_mapped e && (mp_match e =? c) then 1 else 0
  | None => 0
  end.
Definition count_unmapped (j : nat) (mapping : list mapped_to) : nat :=
  match nth_error mapping j with Some e => if mp_mapped e then 0 else 1 | None => 0 end.
Definition table (results : list (list mapped_to)) (j c : nat) : nat :=
  fold_left (fun a mp => a + count_entry j c mp) results 0.
Definition unmapped (results : list (list mapped_to)) (j : nat) : nat :=
  fold_left (fun a mp => a + count_unmapped j mp) results 0.

(** lines 561-566: [Hi[Hi < 1e-8] = 0.0] on a view of row [i] of the model. *)
Local Open Scope R_scope.
Definition zap_row (eps : R) (i : nat) (H : mat) : mat :=
  fun a b => if (a =? i)%nat then (if Rltb (H a b) eps then 0 else H a b) else H a b.
Definition EPS8 : R := / 100000000.
Definition EPS5 : R := / 100000.
(** lines 555-568, effect on one bootstrap model. *)
Definition factor_statistics (k : nat) (H : mat) : mat :=
  fold_left (fun h i => zap_row EPS8 i h) (seq 0 k) H.
(** lines 616-630: effect of show_factor_results(factor) on the base model. *)
Definition show_factor (k : nat) (factor : Z) (H : mat) : mat :=
  if ((Z.of_nat k <? factor) || (factor <? 1))%Z then H else zap_row EPS5 (Z.to_nat (factor - 1)) H.
(** lines 581-584 of summary: every factor is shown. *)
Definition summary (k : nat) (H : mat) : mat :=
  fold_left (fun h i => show_factor k (Z.of_nat i) h) (seq 1 k) H.

(** lines 443-446, 478-481: model_i is the run number; rust/lib.rs:206 takes an
    i8, so a larger number raises OverflowError. *)
Definition i8_run {M} (work : nat -> option M) (i : nat) : option M :=
  if (127 <? i)%nat then None else work i.
