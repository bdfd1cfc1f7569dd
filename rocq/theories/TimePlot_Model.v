(** Model of the resampling in the plots over time: esat/data/analysis.py 375-378,
    450-454, 800-806; esat/rotational/constrained.py 976-989, 1131-1135 and
    esat/data/datahandler.py 653-669.  What the plots would show without resampling is
    in Show_Model, Report_Model and Align_Model; the step is Utils_Model.min_timestep.
    The labels of the samples are times (nanoseconds since 1970), all columns are
    numeric, and figures are shown.  pandas: resample(None) raises AttributeError,
    resample("D").mean() gives the mean of the values that are not NaN of every day
    from the first to the last. *)
From Coq Require Import List Bool Arith ZArith Reals.
From Verif Require Import Base Fl Utils_Model.
From Verif Require Analysis_Model Show_Model Report_Model Align_Model Expr_Model.
Import ListNotations.

(** sort_index *)
Fixpoint zinsert (x : Z) (l : list Z) : list Z :=
  match l with [] => [x] | y :: t => if (x <=? y)%Z then x :: l else y :: zinsert x t end.
Definition zsort (l : list Z) : list Z := fold_right zinsert [] l.
Definition index (times : nat -> Z) (rows : list nat) : list Z := zsort (map times rows).

(** resample("D") *)
Definition day (z : Z) : Z := (z / day_ns)%Z.
Definition days (times : nat -> Z) (rows : list nat) : list Z :=
  match index times rows with
  | [] => []
  | x :: t => map (fun i => (day x + Z.of_nat i)%Z) (seq 0 (Z.to_nat (day (last (x :: t) 0) - day x + 1)%Z))
  end.
Definition samples (times : nat -> Z) (rows : list nat) (d : Z) : list nat := filter (fun t => (day (times t) =? d)%Z) rows.
(** mean() *)
Definition skipmean (l : list fl) : fl :=
  match filter (fun x => negb (is_nan x)) l with
  | [] => NaN
  | ys => fdiv (fold_left fadd ys (Fin 0)) (Fin (INR (List.length ys)))
  end.
Definition series := list (Z * fl).
Definition daily (times : nat -> Z) (rows : list nat) (y : nat -> fl) : series :=
  map (fun d => (d, skipmean (map y (samples times rows d)))) (days times rows).

(** Nothing drawn; an exception, after the first figure or before any; two figures,
    the second with resampled series. *)
Inductive texn := TypeErr | AttrErr | Other (e : Expr_Model.exn).
Inductive drawn (A B : Type) := Nothing | Fails (before : option A) (e : texn) | Drawn (number : option Z) (a : A) (b : B).
Arguments Nothing {A B}. Arguments Fails {A B}. Arguments Drawn {A B}.

Section Times.
  Context (m : nat) (times : nat -> Z).
  Let rows := seq 0 m.
  Definition step : Utils_Model.step := min_timestep (index times rows).
  Definition resampled (v : list fl) : series := daily times rows (fun t => nth t v NaN).

  (** analysis.py 422-483: the step is looked for before the titles are made *)
  Definition factor_profile (sel : option Z) (s : Show_Model.solution) (f : Z) (oH oW : option mat)
    : drawn (Z * list fl * list R) series :=
    if Show_Model.bad_factor (Show_Model.s_k s) f then Nothing
    else match step with
         | NoStep => Fails None AttrErr
         | Daily => match Show_Model.plot_factor_profile sel s f oH oW with
                    | Show_Model.Nothing => Nothing
                    | Show_Model.Raises _ => Fails None TypeErr
                    | Show_Model.Shown nb (l, shares, bars, contr) => Drawn nb (l, shares, bars) (resampled contr)
                    end
         end.
  (** analysis.py 772-819: the pie is shown first *)
  Definition factor_contributions (sel : option Z) (s : Show_Model.solution) (j : Z) (c : R)
    : drawn (list (Z * fl)) (list (Z * series)) :=
    match Show_Model.plot_contributions sel s j c with
    | Show_Model.Nothing => Nothing
    | Show_Model.Raises _ => Fails None TypeErr
    | Show_Model.Shown nb (slices, l) =>
        match step with
        | NoStep => Fails (Some slices) AttrErr
        | Daily => Drawn nb slices (map (fun p => (fst p, resampled (snd p))) l)
        end
    end.
  (** analysis.py 352-401: the estimates are kept before the step is looked for; days
      and the three series *)
  Definition estimated {name : Type} (eqb : name -> name -> bool) (features : list name) (obs : mat) (a : Show_Model.analysis) (idx : option Z) (nm : option name)
    : Show_Model.analysis * drawn (list Z) (list fl * list fl * list fl) :=
    match Analysis_Model.choose_feature eqb features idx nm with
    | None => (a, Nothing)
    | Some _ =>
        match step with
        | NoStep => (Show_Model.fill a, Fails None AttrErr)
        | Daily => let (a', r) := Show_Model.estimated_timeseries eqb features obs (map (samples times rows) (days times rows)) a idx nm in
                   (a', match r with
                        | Show_Model.Nothing => Nothing
                        | Show_Model.Raises _ => Fails None TypeErr
                        | Show_Model.Shown nb x => Drawn nb (days times rows) x
                        end)
        end
    end.
  (** constrained.py 881-897, 976-1001: the profile is shown first *)
  Definition constrained_profile (n k : nat) (bW bH : mat) (s : Report_Model.cmodel) (f : option Z) : drawn Report_Model.profile (series * series) :=
    match Report_Model.plot_profile_contributions m n k bW bH s f with
    | inl e => Fails None (Other e)
    | inr None => Nothing
    | inr (Some (p, (_, base, new))) =>
        match step with
        | NoStep => Fails (Some p) AttrErr
        | Daily => Drawn None p (resampled base, resampled new)
        end
    end.
  (** constrained.py 1089-1144 *)
  Definition constrained_contributions (n k : nat) (s : Report_Model.cmodel) (j : option Z) (threshold : R)
    : drawn (nat * list (Z * fl)) (list (Z * series)) :=
    match Report_Model.plot_factor_contributions m n k s j threshold with
    | inl e => Fails None (Other e)
    | inr None => Nothing
    | inr (Some (c, slices, l)) =>
        match step with
        | NoStep => Fails (Some (c, slices)) AttrErr
        | Daily => Drawn None (c, slices) (map (fun p => (fst p, resampled (snd p))) l)
        end
    end.

  (** datahandler.py 644-677: rows with a missing value in any of the [n] features are
      left out; without a step, days are used *)
  Definition complete (n : nat) (data : nat -> nat -> fl) (t : nat) : bool := forallb (fun j => negb (is_nan (data t j))) (seq 0 n).
  Definition feature_timeseries (ready : bool) (n : nat) (data : nat -> nat -> fl) (sel : Align_Model.selection) : Align_Model.perr + list (nat * series) :=
    match Align_Model.plot_feature_timeseries ready m n sel with
    | Align_Model.Error e => inl e
    | Align_Model.Message => inr []
    | Align_Model.Features l =>
        let kept := filter (complete n data) rows in
        inr (map (fun j => (j, match min_timestep (index times kept) with
                               | NoStep => daily times kept (fun t => data t j)    (* 661-662: freq = "D" *)
                               | Daily => daily times kept (fun t => data t j)
                               end)) l)
    end.
End Times.
