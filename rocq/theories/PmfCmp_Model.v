(** Model of esat/data/test_tools.py: CompareAnalyzer, the numbers its plots show for a
    PMF5 solution and an LS-NMF and a WS-NMF solution of the same data.
    Every table has [F] factor columns, one row per feature (profiles) or sample
    (contributions), finite values.  A mapping lists column names "Factor c+1", written
    as the numbers [c]; a name outside the table is a number of [F] or more.  Feature
    names are distinct; the input has a column for every feature.  Not modelled: the
    drawing, the R2 in titles, parsing of dates (time stamps are numbers). *)
From Coq Require Import List Bool Arith ZArith Reals String.
From Verif Require Import Base Fl Constr_Model.
Import ListNotations.
Local Open Scope R_scope.

Inductive exn := KeyErr | IndexErr | PlotErr | ZeroDivErr.

(** profiles (feature, factor), contributions (sample, factor), names of the rows *)
Record solution := mkSolution { prof : mat; contr : mat; species : list string }.

Definition seq_all {A B : Type} (f : A -> exn + B) : list A -> exn + list B :=
  fix go l := match l with
              | [] => inr []
              | x :: t => match f x with
                          | inl e => inl e
                          | inr y => match go t with inl e => inl e | inr ys => inr (y :: ys) end
                          end
              end.
Fixpoint position (x : string) (l : list string) : option nat :=
  match l with
  | [] => None
  | y :: t => if String.eqb x y then Some 0%nat else match position x t with Some i => Some (S i) | None => None end
  end.

Section Analyzer.
  Context (F : nat).                                       (** self.factor_n, line 38 *)
  Context (pmf ls ws : solution) (ls_map ws_map : list nat).
  Context (features : list string).

  (** lines 42-46: a row divided by its total *)
  Definition share (P : mat) (i f : nat) : fl := fdiv (Fin (P i f)) (Fin (rsum F (P i))).
  Definition column (n : nat) (P : mat) (f : nat) : list fl := map (fun i => share P i f) (seq 0 n).
  Definition per_row (P : mat) (i : nat) : list fl := map (share P i) (seq 0 F).

  (** ls_norm[self.ls_mapping[f]] *)
  Definition mapped (mp : list nat) (f : nat) : exn + nat :=
    match nth_error mp f with
    | None => inl IndexErr
    | Some c => if (c <? F)%nat then inr c else inl KeyErr
    end.

  (** lines 55-79: the feature shown and the three pies, each sliced by its own factors
      in order.  [is_array]: whether [features] compares element by element, as numpy
      arrays do; a list compared with a name is False, which is no column. *)
  Definition pies (is_array : bool) (feature : option string) (feature_i : Z)
    : exn + (string * (list fl * list fl * list fl)) :=
    let chosen := match feature with
                  | Some x => match position x features with Some _ => Some x | None => None end
                  | None => None
                  end in
    match features with
    | [] => inl ZeroDivErr
    | _ =>
      let x := match chosen with
               | Some x => x
               | None => nth (Z.to_nat (feature_i mod Z.of_nat (List.length features))) features ""%string
               end in
      if is_array then
        match position x features with
        | Some i => inr (x, (per_row (prof pmf) i, per_row (prof ls) i, per_row (prof ws) i))
        | None => inl IndexErr
        end
      else inl KeyErr
    end.

  (** One bar: the factor number in its name, and heights by feature. *)
  Notation bar := (nat * list fl)%type.
  (** lines 90-100: bars are added from the last factor to the first *)
  Definition fingerprint (n f : nat) : exn + (bar * bar * bar) :=
    let b P c := (S c, map (fun x => fmul (Fin 100) x) (column n P c)) in
    match mapped ws_map f with
    | inl e => inl e
    | inr w => match mapped ls_map f with
               | inl e => inl e
               | inr l => inr (b (prof pmf) f, b (prof ls) l, b (prof ws) w)
               end
    end.
  Definition fingerprints (n : nat) : exn + list (bar * bar * bar) := seq_all (fingerprint n) (rev (seq 0 F)).

  (** lines 129-153: six rows of plots, one per factor *)
  Definition factor_row (n f : nat) : exn + (bar * bar * bar) :=
    match mapped ws_map f with
    | inl e => inl e
    | inr w => match mapped ls_map f with
               | inl e => inl e
               | inr l => if (6 <? S f)%nat then inl PlotErr
                          else inr ((S f, column n (prof pmf) f), (S l, column n (prof ls) l), (S w, column n (prof ws) w))
               end
    end.
  Definition plot_factors (n : nat) : exn + list (bar * bar * bar) := seq_all (factor_row n) (seq 0 F).

  (** lines 155-178: the part of a feature due to one factor *)
  Definition part (s : solution) (f i t : nat) : R := contr s t f * prof s i f.
  Definition py_mapped (mp : list nat) (f : Z) : exn + nat :=
    match py_index (List.length mp) f with
    | None => inl IndexErr
    | Some p => mapped mp p
    end.
  Inductive which := One (i : Z) | All | Some_of (l : list Z).
  (** lines 180-201: the columns are named after the species of the PMF profiles *)
  Definition feature_series (m : nat) (l w f : nat) (i : Z) : exn + (string * (list R * list R * list R)) :=
    match py_index (List.length features) i with
    | None => inl IndexErr
    | Some p =>
      let x := nth p features ""%string in
      match position x (species pmf) with
      | None => inl KeyErr
      | Some q => inr (x, (map (part pmf f q) (seq 0 m), map (part ls l q) (seq 0 m), map (part ws w q) (seq 0 m)))
      end
    end.
  Definition plot_feature_timeseries (m : nat) (f : Z) (which_features : which)
    : exn + list (string * (list R * list R * list R)) :=
    match py_index F f with
    | None => inl IndexErr
    | Some p =>
      match py_mapped ls_map f with
      | inl e => inl e
      | inr l =>
        match py_mapped ws_map f with
        | inl e => inl e
        | inr w =>
          seq_all (feature_series m l w p)
            (match which_features with
             | One i => [i]
             | All => map Z.of_nat (seq 0 (List.length (species pmf)))
             | Some_of l => l
             end)
        end
      end
    end.

  (** lines 48-53: the whole reconstruction of a feature *)
  Definition whole (s : solution) (i t : nat) : R := rsum F (fun f => contr s t f * prof s i f).

  (** lines 211-212, 240-241 *)
  Definition named (feature : option string) (feature_i : Z) : exn + nat :=
    let fallback := match py_index (List.length features) feature_i with Some p => inr p | None => inl IndexErr end in
    match feature with
    | Some x => match position x features with Some p => inr p | None => fallback end
    | None => fallback
    end.
  (** resample("1D").mean(): the mean of the samples of one day *)
  Definition daily (m : nat) (day : nat -> Z) (y : nat -> R) (d : Z) : fl :=
    fdiv (Fin (rsum m (fun t => if (day t =? d)%Z then y t else 0)))
         (Fin (rsum m (fun t => if (day t =? d)%Z then 1 else 0))).
  (** lines 203-222: the four curves as functions of the day; the input has its own index *)
  Definition timeseries (m : nat) (day day_in : nat -> Z) (input : nat -> nat -> R) (feature : option string) (feature_i : Z)
    : exn + ((Z -> fl) * (Z -> fl) * (Z -> fl) * (Z -> fl)) :=
    match named feature feature_i with
    | inl e => inl e
    | inr i => inr (daily m day (whole pmf i), daily m day (whole ls i), daily m day (whole ws i), daily m day_in (fun t => input t i))
    end.

  (** lines 236-238: differences of rows with equal time stamps; the others are NaN and
      are skipped by min, mean, max and count.  Time stamps are distinct. *)
  Definition residuals (m m_in : nat) (stamp stamp_in : nat -> Z) (input : nat -> nat -> R) (s : solution) (i : nat) : list R :=
    flat_map (fun t => match find (fun u => (stamp u =? stamp_in t)%Z) (seq 0 m) with
                       | Some u => [input t i - whole s i u]
                       | None => []
                       end) (seq 0 m_in).
  Record summary := mkSummary { s_min : option R; s_mean : fl; s_max : option R; s_count : nat }.
  Definition summarize (thr : R) (r : list R) : summary :=
    mkSummary (match r with [] => None | x :: t => Some (fold_left Rmin t x) end)
              (fdiv (Fin (lsum r)) (Fin (INR (List.length r))))
              (match r with [] => None | x :: t => Some (fold_left Rmax t x) end)
              (List.length (filter (fun x => Rleb thr (Rabs x)) r)).
  (** lines 228-258 *)
  Definition histogram (m m_in : nat) (stamp stamp_in : nat -> Z) (input : nat -> nat -> R) (feature : option string) (feature_i : Z) (thr : R)
    : exn + (summary * summary * summary) :=
    match named feature feature_i with
    | inl e => inl e
    | inr i => let go s := summarize thr (residuals m m_in stamp stamp_in input s i) in inr (go pmf, go ls, go ws)
    end.
End Analyzer.
