(** Model of esat/utils.py and of the choice of the number of worker processes in
    BatchSA.__init__ (esat/model/batch_sa.py 122-127). *)
From Coq Require Import List Bool ZArith Reals.
From Verif Require Import Base Fl Boot_Model.
Import ListNotations.

(** ** min_timestep, lines 31-55 *)
(** The index is a list of times in nanoseconds; [Timedelta.days] and [.seconds]
    are the floored quotient and remainder. *)
Definition day_ns : Z := 86400000000000.
Definition td_days (d : Z) : Z := (d / day_ns)%Z.
Definition td_seconds (d : Z) : Z := ((d mod day_ns) / 1000000000)%Z.
(** Python slice l[1:-1] and l[0:-2] *)
Definition slice_1_m1 {A} (l : list A) : list A := firstn (List.length l - 1 - 1) (skipn 1 l).
Definition slice_0_m2 {A} (l : list A) : list A := firstn (List.length l - 2) l.
Fixpoint zip_sub (a b : list Z) : list Z := match a, b with x :: a', y :: b' => (x - y)%Z :: zip_sub a' b' | _, _ => [] end.
(** pandas' [min]; [None] is NaT, whose parts compare false with everything. *)
Definition td_min (l : list Z) : option Z := match l with [] => None | x :: t => Some (fold_left Z.min t x) end.
(** What the function returns: nothing, or the text D. *)
Inductive step := NoStep | Daily.
(** The branches that only assign [resample] fall through to the end. *)
Definition min_timestep (index : list Z) : step :=
  match td_min (zip_sub (slice_1_m1 index) (slice_0_m2 index)) with
  | None => Daily
  | Some d =>
      if (1 <=? td_days d)%Z then NoStep
      else if (td_seconds d <? 60)%Z then NoStep
      else if (td_seconds d <? 60 * 60)%Z then NoStep
      else if ((60 * 60 <? td_seconds d) && (td_days d <=? 0))%Z then NoStep
      else Daily
  end.

(** ** compare_all_factors, lines 57-79 *)
(** [calculate_factor_correlation] is [r2] of Boot_Model: the square of the
    correlation, NaN for a constant row. *)
Definition compare_row (n : nat) (M1 M2 : mat) (i : nat) (swap : bool) (rows : list nat) : bool :=
  fold_left (fun swap j => if flt (r2 n (M1 i) (M2 i)) (r2 n (M1 i) (M2 j)) then true else swap) rows swap.
Definition compare_all_factors (k1 k2 n : nat) (M1 M2 : mat) : bool :=
  fold_left (fun swap i => compare_row n M1 M2 i swap (seq 0 k2)) (seq 0 k1) false.

(** ** memory_estimate, lines 81-130: bytes per model and number of processes *)
Local Open Scope Z_scope.
Definition max_bytes (nf ns k : Z) : Z := 32 * ((nf * ns) * 3 + nf * k + ns * k) + 150 * 1024 ^ 2.
Definition max_cores (nf ns k avail cores : Z) : Z := Z.min (avail / max_bytes nf ns k) cores.
(** batch_sa.py 122-127; [int] truncates towards zero. *)
Definition batch_cores (nf ns k avail cpu : Z) (cores : option Z) : Z :=
  let mc := max_cores nf ns k avail (match cores with Some c => c | None => cpu end) in
  let c := match cores with Some c => c | None => -1 end in
  if 0 <? c then c else Z.max (Z.quot (mc * 3) 4) 1.
