(** Model of the simulator commands of the command line together with run and
    estimate on a project with a simulator configuration (esat/cli/esat_cli.py
    41-52, 213-287, 424-483), on Simulator.compare and plot_comparison of
    [SimCmp_Model].

    The random generator is a state [G] handed on by every draw; [gen] is
    Simulator._generate_data (eval/simulator.py 235-266): the data with their
    uncertainties, and the generator afterwards.  [build] is the constructor
    with the configured contributions (esat_cli.py 45-48): None when it raises.
    Training and estimation are arguments of the commands, so that settings may
    change between commands.  Directories exist and can be written.  What
    [Cli_Model] says about configuration texts is not repeated. *)
From Coq Require Import List Bool ZArith.
From Verif Require Import Base Compare_Model SimCmp_Model.
Import ListNotations.

Section SimCli.
Context {C G D : Type}.
Context (build : C -> option (nat * solution * G)).
Context (gen : solution -> G -> D * G).
Context (cpus m n : nat).

(** A simulator: [SimCmp_Model.simulator], its generator and the data of the last
    get_data. *)
Record csim := mkCS { cs_sim : simulator; cs_rng : G; cs_data : option D }.
(** simulator.py 297-309: the data are generated anew with every call. *)
Definition get_data (s : csim) : csim * D :=
  let '(d, g) := gen (si_truth (cs_sim s)) (cs_rng s) in
  (mkCS (mkSimu (si_k (cs_sim s)) (si_truth (cs_sim s)) true (si_batch (cs_sim s)) (si_fc (cs_sim s))) g (Some d), d).

(** A file holding a pickled simulator: absent, not a pickle (load reports and
    returns None), or a simulator. *)
Inductive pfile := Missing | Broken | Holds (s : csim).

(** A project: whether its directory is named by an absolute path, whether the
    directory in its configuration is, sim_config.toml, whether run_config.toml is
    there, esat_simulator.pkl, synthetic_data.csv with synthetic_uncertainty.csv,
    the data files of the run configuration, and the saved batch with the data it
    was trained on. *)
Record project := mkPr { pr_abs : bool; pr_out_abs : bool; pr_sim : option C; pr_run : bool;
                         pr_pickle : pfile; pr_csv : option D; pr_files : option D; pr_batch : option (batch * D) }.
Definition with_pickle (p : project) (f : pfile) (c : option D) : project :=
  mkPr (pr_abs p) (pr_out_abs p) (pr_sim p) (pr_run p) f c (pr_files p) (pr_batch p).

Inductive error := KeyE | AttrE | TypeE | BuildE | DataE | TrainE | CompareE (e : exn).
Inductive result := Done_ | Trained (d : D) | Estimated (d : D) | Printed (l : list (Z * combo))
                  | Drawn (l : list figure) (e : option exn) | Raised_ (e : error).

(** simulator.py 517-558: nothing is written for a relative directory. *)
Definition save (p : project) (s : csim) : project :=
  if pr_abs p then with_pickle p (Holds s) (cs_data s) else p.

(** esat_cli.py 41-52 *)
Definition get_sim (p : project) (c : C) : project * (error + option csim) :=
  match pr_pickle p with
  | Missing =>
      match build c with
      | None => (p, inl BuildE)
      | Some (k, t, g) =>
          let s := fst (get_data (mkCS (mkSimu k t false None None) g None)) in
          (save p s, inr (Some s))
      end
  | Broken => (p, inr None)
  | Holds s => (p, inr (if pr_abs p then Some s else None))
  end.

(** generate, 213-234 *)
Definition generate (p : project) : project * result :=
  match pr_sim p with
  | None => (p, Raised_ KeyE)
  | Some c => match get_sim p c with
              | (p1, inl e) => (p1, Raised_ e)
              | (p1, inr _) => (p1, Done_)
              end
  end.

(** Where run and estimate take their data from (437-445, 463-475). *)
Definition source (p : project) : project * (error + D) :=
  match pr_sim p with
  | Some c => match get_sim p c with
              | (p1, inl e) => (p1, inl e)
              | (p1, inr None) => (p1, inl AttrE)
              | (p1, inr (Some s)) => (p1, inr (snd (get_data s)))
              end
  | None => (p, if pr_run p then match pr_files p with Some d => inr d | None => inl DataE end else inl KeyE)
  end.
(** run, 452-483 *)
Definition run (p : project) (train : D -> option batch) : project * result :=
  match source p with
  | (p1, inl e) => (p1, Raised_ e)
  | (p1, inr d) =>
      if negb (pr_run p1) then (p1, Raised_ KeyE)
      else match train d with
           | None => (p1, Raised_ TrainE)
           | Some b => (if pr_out_abs p1
                        then mkPr (pr_abs p1) (pr_out_abs p1) (pr_sim p1) (pr_run p1) (pr_pickle p1) (pr_csv p1) (pr_files p1) (Some (b, d))
                        else p1, Trained d)
           end
  end.
(** estimate, 422-449 *)
Definition estimate (p : project) (works : D -> bool) : project * result :=
  match source p with
  | (p1, inl e) => (p1, Raised_ e)
  | (p1, inr d) => if negb (pr_run p1) then (p1, Raised_ KeyE) else (p1, if works d then Estimated d else Raised_ TrainE)
  end.

(** compare, 237-262.  A batch that cannot be loaded is None, on which
    FactorCompare raises TypeError (factor_comparison.py 219-220). *)
Definition compare (p : project) : project * result :=
  match pr_sim p with
  | None => (p, Raised_ KeyE)
  | Some c =>
    match get_sim p c with
    | (p1, inl e) => (p1, Raised_ e)
    | (p1, inr o) =>
      if negb (pr_run p1) then (p1, Raised_ KeyE)
      else match o with
           | None => (p1, Raised_ AttrE)
           | Some s =>
             match (if pr_out_abs p1 then pr_batch p1 else None) with
             | None => (p1, Raised_ TypeE)
             | Some (b, _) =>
               match sim_compare cpus m n (cs_sim s) b None with
               | (s', out, None) => (save p1 (mkCS s' (cs_rng s) (cs_data s)), Printed out)
               | (_, _, Some e) => (p1, Raised_ (CompareE e))
               end
             end
           end
    end
  end.
(** plot, 265-287 *)
Definition plot (p : project) : project * result :=
  match pr_sim p with
  | None => (p, Raised_ KeyE)
  | Some c =>
    match get_sim p c with
    | (p1, inl e) => (p1, Raised_ e)
    | (p1, inr None) => (p1, Raised_ AttrE)
    | (p1, inr (Some s)) => let '(l, e) := plot_comparison m (cs_sim s) None in (p1, Drawn l e)
    end
  end.

(** What can happen to a project: the commands, and the user changing
    configurations and data files. *)
Inductive command := KGenerate | KRun (train : D -> option batch) | KEstimate (works : D -> bool) | KCompare | KPlot
                   | KEdit (sim : option C) (runc : bool) (files : option D) (out_abs : bool).
Definition step (p : project) (k : command) : project * result :=
  match k with
  | KGenerate => generate p
  | KRun t => run p t
  | KEstimate w => estimate p w
  | KCompare => compare p
  | KPlot => plot p
  | KEdit s r f o => (mkPr (pr_abs p) o s r (pr_pickle p) (pr_csv p) f (pr_batch p), Done_)
  end.
Definition after (p : project) (l : list command) : project := fold_left (fun p k => fst (step p k)) l p.
End SimCli.
Arguments csim G D : clear implicits. Arguments project C G D : clear implicits. Arguments result D : clear implicits.
Arguments command C D : clear implicits. Arguments pfile G D : clear implicits.
