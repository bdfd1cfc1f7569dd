(** Model of the simulator's own source apportionment (eval/simulator.py 284-309: _create_sa,
    get_data), of the arrays it shares with the simulator and the caller, and of SA.summary
    (esat/model/sa.py 310-323).

    Arrays are kept in a store, an array variable is a location in it; [Sim_Model] gives
    the values.  Exact reals, so SA's float32 copies are the data themselves.  The data
    are finite whenever the outlier magnitude is not zero (C54).  Not modelled: the data
    frames (whether they are copies depends on pandas), a simulator whose call raised. *)
From Coq Require Import List Bool ZArith Reals.
From Verif Require Import Base Fl Metrics_Model Boot_Model Constr_Model Sim_Model.
Import ListNotations.
Local Open Scope R_scope.

(** SA.Qrobust: train stores a number (sa.py 469), _create_sa the pair of robust loss and
    updated uncertainties (simulator.py 293). *)
Inductive qrobust := QNumber (q : R) | QPair (q : R) (U : mat).
Record truth_sa := mkTSA { t_V : mat; t_U : mat; t_W : nat; t_H : nat; t_WH : mat; t_Qr : qrobust; t_Qt : R }.
(** The store, a location from which on nothing is in use, the locations of syn_contributions and
    syn_profiles, syn_sa. *)
Record world := mkWorld { w_store : nat -> mat; w_next : nat; w_W : nat; w_H : nat; w_sa : option truth_sa }.

Definition put (h : nat -> mat) (l : nat) (M : mat) : nat -> mat := fun q => if (q =? l)%nat then M else h q.
Definition num (x : fl) : R := match x with Fin r => r | _ => 0 end.

(** The constructor, 72-126: the contributions are drawn, then the profiles generated. *)
Definition start (k n : nat) (W : mat) (d : profile_draws) (h : nat -> mat) (next : nat) : res world :=
  match generate_profiles k n d None with
  | Raise e => Raise e
  | Ok P => Ok (mkWorld (put (put h next W) (S next) P) (S (S next)) next (S next) None)
  end.

(** _create_sa, 284-296, and SA.__init__ (sa.py 73-77) *)
Definition create_sa (m n k : nat) (V U : mat) (w : world) : world :=
  let W := w_store w (w_W w) in let H := w_store w (w_H w) in
  let U' := fun t j => if Rlt_dec (U t j) EPS then EPS else U t j in
  mkWorld (w_store w) (w_next w) (w_W w) (w_H w)
    (Some (mkTSA V U' (w_W w) (w_H w) (mmul k W H) (QPair (qr_loss m n k 4 V U' W H) (updated_unc k 4 V U' W H)) (q_loss m n k true V U' W H))).

(** What a program does with a simulator. *)
Inductive op :=
| NewProfiles (d : profile_draws)                                  (* generate_profiles() *)
| CustomProfiles (d : profile_draws) (rows cols l : nat)           (* generate_profiles(a), a the array at l *)
| Contribution (factor_i : Z) (c : curve) (scale freq mx mn : R) (unif z : nat -> R)
| GetData (d : cell_draws)                                         (* get_data() *)
| Edit (l : nat) (M : mat).                                        (* writing into the array at l *)

Definition step (m n k : nat) (p : params) (w : world) (o : op) : res world :=
  match o with
  | NewProfiles d =>
    match generate_profiles k n d None with
    | Raise e => Raise e
    | Ok P => Ok (mkWorld (put (w_store w) (w_next w) P) (S (w_next w)) (w_W w) (w_next w) (w_sa w))
    end
  | CustomProfiles d rows cols l =>
    match generate_profiles k n d (Some (mkCustom rows cols (w_store w l))) with
    | Raise e => Raise e
    | Ok P =>
      if ((rows =? k) && (cols =? n))%nat                                            (* 157, 161: in place *)
      then Ok (mkWorld (put (w_store w) l P) (Nat.max (w_next w) (S l)) (w_W w) l (w_sa w))
      else let a := Nat.max (w_next w) (S l) in Ok (mkWorld (put (w_store w) a P) (S a) (w_W w) a (w_sa w))
    end
  | Contribution f c scale freq mx mn unif z =>
    match update_contribution m k (mkSim (w_store w (w_W w)) (w_store w (w_H w)) None) f c scale freq mx mn unif z with
    | Raise e => Raise e
    | Ok s => Ok (mkWorld (put (w_store w) (w_W w) (s_W s)) (w_next w) (w_W w) (w_H w) (w_sa w))  (* 229: in place *)
    end
  | GetData d =>
    let W := w_store w (w_W w) in let H := w_store w (w_H w) in
    Ok (create_sa m n k (fun t j => num (gen_data k p W H d t j)) (fun t j => num (gen_unc k p W H d t j)) w)
  | Edit l M => Ok (mkWorld (put (w_store w) l M) (Nat.max (w_next w) (S l)) (w_W w) (w_H w) (w_sa w))
  end.
Fixpoint run (m n k : nat) (p : params) (w : world) (l : list op) : res world :=
  match l with
  | [] => Ok w
  | o :: t => match step m n k p w o with Ok w' => run m n k p w' t | Raise e => Raise e end
  end.

(** SA.summary, sa.py 318-320: float() of the pair raises before anything about the
    results is printed. *)
Inductive report := Printed (qt qr mse_t mse_r : R) | NoResults | TypeErr.
Definition summary (m n : nat) (results : option (R * qrobust)) : report :=
  match results with
  | None => NoResults
  | Some (qt, QNumber qr) => Printed qt qr (qt / INR (m * n)) (qr / INR (m * n))
  | Some (_, QPair _ _) => TypeErr
  end.
Definition summary_of (m n : nat) (t : truth_sa) : report := summary m n (Some (t_Qt t, t_Qr t)).
