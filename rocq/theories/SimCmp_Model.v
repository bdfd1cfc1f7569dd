(** Model of eval/simulator.py compare (311-352), plot_comparison (368-444) and
    plot_profile_comparison (446-515), on FactorCompare ([Compare_Model]), with
    FactorCompare.print_results (factor_comparison.py 385-412).

    What is drawn is a list of figures; colours, layout and log texts other than the
    mapping are left out.  Factor names are replaced by positions.  The shapes of the
    batch's matrices fit the simulator's data.  Raising calls keep the figures and log
    entries produced so far. *)
From Coq Require Import List Bool ZArith Reals String.
From Flocq Require Import Core.
From Verif Require Import Base Fl Boot_Model Compare_Model.
Import ListNotations.
Local Open Scope R_scope.

(** A trained batch: its factors, results and best_model. *)
Record batch := mkBatch { bt_k : nat; bt_results : list (option solution); bt_best : option nat }.
(** A FactorCompare object: the factors of both sides and what compare left in
    best_model, model_results and base_k (80: True before). *)
Record fcompare := mkFC { fc_kb : nat; fc_ks : nat; fc_best : option nat; fc_models : list (option combo); fc_base_k : bool }.
(** The simulator: number of factors, true solution, whether get_data was called,
    batch_sa and factor_compare. *)
Record simulator := mkSimu { si_k : nat; si_truth : solution; si_ready : bool; si_batch : option batch; si_fc : option fcompare }.

Inductive exn := KeyError | IndexErr | AttributeError | ValueErr | TypeError | ZeroDivision.

(** model_results[z] *)
Definition recorded (f : fcompare) (z : Z) : option combo :=
  if (z <? 0)%Z then None else nth (Z.to_nat z) (fc_models f) None.

(** print_results (385-412): the model and mapping printed. *)
Definition print_results (f : fcompare) (model : option Z) : list (Z * combo) * option exn :=
  let shown := match model with Some z => Some z | None => option_map Z.of_nat (fc_best f) end in
  match shown with
  | None => ([], Some TypeError)                                       (* None + 1 *)
  | Some z => match recorded f z with Some c => ([(z, c)], None) | None => ([], Some KeyError) end
  end.

(** FactorCompare(...) and its compare() (48-91, 250-383): the object, and the error if
    compare raised; the object is assigned before compare is called. *)
Definition run_compare (cpus m n kb : nat) (truth : solution) (b : batch) : fcompare * option exn :=
  match Compare_Model.compare cpus m n kb (bt_k b) (method_of "all") truth (bt_results b) with
  | Done r => (mkFC kb (bt_k b) (Some (cmp_model r)) (cmp_models r) (cmp_base_k r), None)
  | KeyErr => (mkFC kb (bt_k b) None [] true, Some KeyError)
  | ValErr => (mkFC kb (bt_k b) None [] true, Some ValueErr)
  | TypeErr => (mkFC kb (bt_k b) None (map (fun _ => None) (bt_results b)) (bt_k b <=? kb)%nat, Some TypeError)
  end.

(** Simulator.compare, 311-352 *)
Definition sim_compare (cpus m n : nat) (s : simulator) (b : batch) (selected : option Z) : simulator * list (Z * combo) * option exn :=
  let s1 := mkSimu (si_k s) (si_truth s) (si_ready s) (Some b) (si_fc s) in          (* 331 *)
  match selected with
  | None =>
    if negb (si_ready s) then (s1, [], Some AttributeError)                              (* None.columns *)
    else
      let '(f, e) := run_compare cpus m n (si_k s) (si_truth s) b in
      let s2 := mkSimu (si_k s) (si_truth s) (si_ready s) (Some b) (Some f) in
      match e with
      | Some e => (s2, [], Some e)
      | None =>
        let '(out, e1) := print_results f None in
        match e1 with
        | Some e => (s2, out, Some e)
        | None =>
          if (match fc_best f, bt_best b with Some x, Some y => (x =? y)%nat | None, None => true | _, _ => false end)
          then (s2, out, None)                                                         (* 342-344 *)
          else let '(out2, e2) := print_results f (option_map Z.of_nat (bt_best b)) in (s2, out ++ out2, e2)
        end
      end
  | Some z =>
    match si_fc s with
    | None => (s1, [], Some AttributeError)                                              (* 349-352 *)
    | Some f => let '(out, e) := print_results f (Some z) in (s1, out, e)
    end
  end.

(** 394-400, 464-467: percentage of a feature in a factor *)
Definition percent (k : nat) (H : mat) (f j : nat) : fl := fmul (Fin 100) (fdiv (Fin (H f j)) (Fin (rsum k (fun g => H g j)))).
(** 402-405: percentage of a factor's contributions in a sample *)
Definition percent_W (m : nat) (W : mat) (t f : nat) : fl := fmul (Fin 100) (fdiv (Fin (W t f)) (Fin (rsum m (fun u => W u f)))).

(** One figure: the synthetic and the modelled factor, the R2 values of the heading, and
    the two profile curves and contribution curves. *)
Record figure := mkFigure { fg_syn : nat; fg_mod : nat; fg_rH : fl; fg_rW : fl;
  fg_syn_H : nat -> fl; fg_mod_H : nat -> fl; fg_syn_W : nat -> fl; fg_mod_W : nat -> fl }.

Definition figure_of (m : nat) (f : fcompare) (truth o : solution) (ko : nat) (c : combo) (i : nat) : option figure :=
  let map_i := nth i (co_map c) 0%nat in
  let '(syn, md) := pair_at (fc_base_k f) i map_i in                                     (* 418-425 *)
  if (ko <=? md)%nat then None                                                           (* norm_H[mod_i] *)
  else Some (mkFigure syn md (nth i (co_H c) NaN) (nth i (co_W c) NaN)
    (percent (fc_kb f) (s_H truth) syn) (percent ko (s_H o) md) (fun t => percent_W m (s_W truth) t syn) (fun t => percent_W m (s_W o) t md)).

(** Drawing one figure after the other; [check] is what may raise for a figure. *)
Fixpoint draw (fig : nat -> option figure) (check : figure -> option exn) (todo i : nat) : list figure * option exn :=
  match todo with
  | O => ([], None)
  | S t =>
    match fig i with
    | None => ([], Some IndexErr)
    | Some g => match check g with
                | Some e => ([], Some e)
                | None => let '(r, e) := draw fig check t (S i) in (g :: r, e)
                end
    end
  end.

(** 380-389, 458-463: the model, its mapping and its matrices in the current batch *)
Definition chosen_model (f : fcompare) (model_i : option Z) : option Z :=
  match model_i with Some z => if (z =? 0)%Z then option_map Z.of_nat (fc_best f) else Some z | None => option_map Z.of_nat (fc_best f) end.
Definition plot_with (m : nat) (before : option exn) (check : figure -> option exn) (s : simulator) (model_i : option Z) : list figure * option exn :=
  match si_batch s with
  | None => ([], None)
  | Some b =>
    match si_fc s with
    | None => ([], Some AttributeError)
    | Some f =>
      match chosen_model f model_i with
      | None => ([], Some KeyError)                                                     (* model_results[None] *)
      | Some z =>
        match recorded f z with
        | None => ([], Some KeyError)
        | Some c =>
          match before with
          | Some e => ([], Some e)
          | None =>
            match nth_error (bt_results b) (Z.to_nat z) with
            | None => ([], Some IndexErr)
            | Some None => ([], Some AttributeError)
            | Some (Some o) => draw (figure_of m f (si_truth s) o (bt_k b) c) check (Nat.min (fc_ks f) (fc_kb f)) 0
            end
          end
        end
      end
    end
  end.

(** plot_comparison, 368-444 *)
Definition plot_comparison (m : nat) (s : simulator) (model_i : option Z) : list figure * option exn :=
  plot_with m None (fun _ => None) s model_i.

(** plot_profile_comparison, 446-515: the colour of the R2 bar is entry int(100 * R2) of
    a list of 100 (462, 496); 461 divides by the number of factors minus one. *)
Definition colour (g : figure) : option exn :=
  match fg_rH g with
  | Fin r => if (100 <=? Ztrunc (100 * r))%Z then Some IndexErr else None
  | NaN => Some ValueErr
  | _ => Some TypeError                                                                  (* int(inf): not reached *)
  end.
Definition plot_profile_comparison (m : nat) (s : simulator) (model_i : option Z) : list figure * option exn :=
  plot_with m (if (si_k s =? 1)%nat then Some ZeroDivision else None) colour s model_i.
