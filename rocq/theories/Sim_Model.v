(** Model of eval/simulator.py: profiles, contribution curves, synthetic data and
    time steps.  Exact reals; cells that can become infinite or NaN are [fl].
    Random draws are arguments.  Not modelled: logging, plotting, NaN or infinite
    parameters and custom profiles. *)
From Coq Require Import List Bool ZArith Reals.
From Flocq Require Import Core.
From Verif Require Import Base Fl Boot_Model Constr_Model.
Import ListNotations.
Local Open Scope R_scope.

Definition tiny : R := / 1000000000000.

(** ** generate_profiles, lines 128-163 *)
(** Draws for the random profiles: per feature, how many factors contribute
    (line 150), which (152) and their values in order of selection (154). *)
Record profile_draws := mkPD { pd_count : nat -> nat; pd_chosen : nat -> list nat; pd_value : nat -> nat -> R }.
(** What numpy guarantees about them: integers(1, k) is in [1, k), choice without
    replacement gives that many different factors, random() is in [0, 1). *)
Definition pd_ok (k n : nat) (d : profile_draws) : Prop :=
  forall i, (i < n)%nat ->
    (1 <= pd_count d i < k)%nat /\ List.length (pd_chosen d i) = pd_count d i /\
    NoDup (pd_chosen d i) /\ (forall f, In f (pd_chosen d i) -> (f < k)%nat) /\
    forall q, 0 <= pd_value d i q < 1.
(** lines 146-155; [integers(1, k)] raises ValueError unless k > 1 *)
Fixpoint assign_from (chosen : list nat) (v : nat -> R) (q : nat) (f : nat) : R :=
  match chosen with [] => 0 | c :: t => if (c =? f)%nat then v q else assign_from t v (S q) f end.
Definition random_profiles (k n : nat) (d : profile_draws) : res mat :=
  if ((0 <? n) && (k <=? 1))%nat then Raise ValueError
  else Ok (fun f i => assign_from (pd_chosen d i) (pd_value d i) 0 f).
(** lines 158-160: rows of a custom matrix of another shape; numpy broadcasts a
    single column and refuses any other length. *)
Record custom := mkCustom { cu_rows : nat; cu_cols : nat; cu_val : mat }.
Definition overlay (k n : nat) (c : custom) (P : mat) : res mat :=
  if (cu_rows c =? 0)%nat then Ok P
  else if (k =? 0)%nat then Raise IndexError
  else if negb ((cu_cols c =? n) || (cu_cols c =? 1))%nat then Raise ValueError
  else if (k <? cu_rows c)%nat then Raise IndexError
  else Ok (fun f i => if (f <? cu_rows c)%nat then cu_val c f (if (cu_cols c =? n)%nat then i else 0%nat) else P f i).
(** line 161 *)
Definition clamp_tiny (P : mat) : mat := fun f i => if Rleb (P f i) 0 then tiny else P f i.
Definition generate_profiles (k n : nat) (d : profile_draws) (c : option custom) : res mat :=
  match c with
  | Some c' => if ((cu_rows c' =? k) && (cu_cols c' =? n))%nat then Ok (clamp_tiny (cu_val c'))
               else match random_profiles k n d with
                    | Raise e => Raise e
                    | Ok P => match overlay k n c' P with Raise e => Raise e | Ok P' => Ok (clamp_tiny P') end
                    end
  | None => match random_profiles k n d with Raise e => Raise e | Ok P => Ok (clamp_tiny P) end
  end.

(** ** Curves of update_contribution, lines 193-226 *)
Inductive curve := Increasing | Decreasing | Logistic | Periodic | Uniform.
(** lines 193-196: (minimum, maximum) *)
Definition curve_bounds (mn mx : R) : R * R :=
  if Rltb mx mn then (mx, mn) else if Reqb mn mx then (mn, mx * 2) else (mn, mx).
(** numpy.linspace; a negative number of points raises. *)
Definition linspace (a b : R) (num : Z) : res (list R) :=
  if (num <? 0)%Z then Raise ValueError
  else Ok (map (fun t => a + INR t * ((b - a) / IZR (Z.max 1 (num - 1)))) (seq 0 (Z.to_nat num))).
(** lines 204, 218: int(1.0/frequency) + 1; dividing by zero raises. *)
Definition n_periods (freq : R) : res Z := if Reqb freq 0 then Raise ZeroDivisionError else Ok (Ztrunc (1 / freq) + 1)%Z.
(** int(samples / periods) *)
Definition int_div (a b : Z) : res Z := if (b =? 0)%Z then Raise ZeroDivisionError else Ok (Z.quot a b).
Definition bind {A B} (r : res A) (f : A -> res B) : res B := match r with Ok a => f a | Raise e => Raise e end.
(** lines 205-215 *)
Definition logistic_segment (N np : Z) (i : nat) : res (list R) :=
  bind (int_div N np) (fun s =>
  let steps := if (Z.of_nat i =? np)%Z then (N - 2 * s)%Z else s in
  if Nat.even i then linspace (-100) 100 steps else linspace 100 (-100) steps).
Fixpoint concat_res (l : list (res (list R))) : res (list R) :=
  match l with
  | [] => Ok []
  | r :: t => bind r (fun a => bind (concat_res t) (fun b => Ok (a ++ b)))
  end.
(** np.concatenate of no arrays raises. *)
Definition logistic_x (N np : Z) : res (list R) :=
  if (np + 1 <=? 0)%Z then Raise ValueError
  else concat_res (map (logistic_segment N np) (seq 0 (Z.to_nat (np + 1)))).
(** line 216 *)
Definition logistic_y (mn mx x : R) : R := mn + (mx - mn) / (1 + exp (- x)).
(** lines 219-223: np.tile, slices, np.min of an empty array raises *)
Fixpoint tile {A} (l : list A) (q : nat) : list A := match q with O => [] | S q' => (l ++ tile l q')%list end.
Fixpoint lmin (x : R) (l : list R) : R := match l with [] => x | y :: t => lmin (Rmin x y) t end.
Definition periodic (N : nat) (np : Z) (mn mx : R) : res (list R) :=
  bind (int_div (Z.of_nat N) np) (fun s =>
  bind (linspace (- PI) PI s) (fun a =>
  let y := map (fun x => sin x * ((mx - mn) / 2)) (firstn N (tile (firstn (List.length a - 1) a) (Z.to_nat (np + 1)))) in
  match y with
  | [] => Raise ValueError
  | y0 :: t => Ok (map (fun v => v + Rabs (lmin y0 t) + mn) y)
  end)).
(** lines 198-226; [unif] are the draws of line 225. *)
Definition curve_values (N : nat) (c : curve) (freq mn mx : R) (unif : nat -> R) : res (list R) :=
  let '(mn, mx) := curve_bounds mn mx in
  let ys := match c with
    | Increasing => linspace mn mx (Z.of_nat N)
    | Decreasing => linspace mx mn (Z.of_nat N)
    | Logistic => bind (n_periods freq) (fun np => bind (logistic_x (Z.of_nat N) np) (fun xs => Ok (map (logistic_y mn mx) xs)))
    | Periodic => bind (n_periods freq) (fun np => periodic N np mn mx)
    | Uniform => Ok (map (fun t => unif t * mx) (seq 0 N))
    end in
  bind ys (fun l => Ok (firstn N l)).

(** ** The simulator's state and update_contribution, lines 165-233 *)
Record sim := mkSim { s_W : mat; s_H : mat; s_data : option (mat * mat) }.
(** lines 227-229: [z] are standard normal draws; normal() refuses a negative
    scale; assigning a list of another length to the column raises unless it has
    one element. *)
Definition noisy (scale : R) (z : nat -> R) (l : list R) (t : nat) : R :=
  let y := nth t l 0 + scale * z t in if Rleb y 0 then tiny else y.
Definition update_contribution (N k : nat) (s : sim) (factor_i : Z) (c : curve) (scale freq mx mn : R) (unif z : nat -> R) : res sim :=
  bind (curve_values N c freq mn mx unif) (fun l =>
  if Rltb scale 0 then Raise ValueError
  else match py_index k factor_i with
       | None => Raise IndexError
       | Some f =>
           if (List.length l =? N)%nat then Ok (mkSim (fun t g => if (g =? f)%nat then noisy scale z l t else s_W s t g) (s_H s) (s_data s))
           else if (List.length l =? 1)%nat then Ok (mkSim (fun t g => if (g =? f)%nat then noisy scale z l 0 else s_W s t g) (s_H s) (s_data s))
           else Raise ValueError
       end).

(** ** _generate_data, lines 235-264, one cell: [wh] the model value, then the
    draws for noise, its sign, the outlier and the relative uncertainty *)
Record params := mkParams { outliers : bool; outlier_p : R; outlier_mag : R }.
Definition with_noise (wh noise sgn : R) : R :=
  let nz := wh * noise in wh + (if Rltb sgn (1 / 2) then nz * -1 else nz).
Definition with_outliers (p : params) (d om : R) : fl :=
  if outliers p then
    let d1 := if Rleb om (1 - outlier_p p * (1 / 2)) then d * outlier_mag p else d in
    if Rleb (outlier_p p * (1 / 2)) om then fdiv (Fin d1) (Fin (outlier_mag p)) else Fin d1
  else Fin d.
Definition positive (x : fl) : fl := if fle x (Fin 0) then Fin tiny else x.
Definition data_cell (p : params) (wh noise sgn om : R) : fl := positive (with_outliers p (with_noise wh noise sgn) om).
Definition unc_cell (d : fl) (up : R) : fl := let u := fmul d (Fin up) in if fle u (Fin 0) then Fin (/ 10000) else u.
Record cell_draws := mkCD { cd_noise : mat; cd_sign : mat; cd_outlier : mat; cd_unc : mat }.
Definition gen_data (k : nat) (p : params) (W H : mat) (d : cell_draws) (t j : nat) : fl :=
  data_cell p (mmul k W H t j) (cd_noise d t j) (cd_sign d t j) (cd_outlier d t j).
Definition gen_unc (k : nat) (p : params) (W H : mat) (d : cell_draws) (t j : nat) : fl :=
  unc_cell (gen_data k p W H d t j) (cd_unc d t j).

(** ** time_steps, lines 110-112, in microseconds: [now1] and [now2] are the two
    readings of the clock, counted from some midnight. *)
Definition minute : Z := 60000000.
Definition day : Z := 86400000000.
Definition date_range (start stop : Z) : list Z :=
  if (stop <? start)%Z then [] else map (fun q => start + Z.of_nat q * minute)%Z (seq 0 (Z.to_nat ((stop - start) / minute + 1))).
(** Python's l[i:] *)
Definition slice_from {A} (l : list A) (i : Z) : list A :=
  skipn (if (i <? 0)%Z then Z.to_nat (Z.max 0 (Z.of_nat (List.length l) + i)) else Z.to_nat i) l.
Definition time_steps (now1 now2 : Z) (N : nat) : list Z :=
  let l := date_range (now1 - day - Z.of_nat N * minute) (now2 / day * day) in
  slice_from l (Z.of_nat (List.length l) - Z.of_nat N).

(** ** plot_comparison and plot_profile_comparison, lines 382-383, 460-461: the
    model shown *)
Definition shown_model (model_i : option Z) (best : Z) : Z :=
  match model_i with None => best | Some z => if (z =? 0)%Z then best else z end.
