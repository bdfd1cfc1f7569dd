(** Model of the command line, esat/cli/esat_cli.py, and of the configuration
    files it reads (esat/configs.py; configparser hands out every value as text).

    The state is the file system of Persist_Model plus, per directory, the parsed
    configuration files and, per path, the columns of a data file.  Numbers in
    configuration files are given parsed (text that is no number raises and is
    left out), as are JSON values.  A value with a percent sign, which
    configparser interpolates, is left out.  Training and the error methods are
    arguments; a saved result stands for the object it was computed by, that is
    for its settings.  A relative path is not identified with the absolute path it
    stands for.  Displayed figures are the objects displayed.  Log output
    is left out except where a command ends with a message. *)
From Coq Require Import List Bool String Ascii ZArith Reals.
From Verif Require Import Persist_Model Constr_Model BSDisp_Model.
Import ListNotations.
Local Open Scope string_scope.

(** ** Text values *)
Definition lower_char (c : ascii) : ascii :=
  let n := nat_of_ascii c in if ((65 <=? n) && (n <=? 90))%nat then ascii_of_nat (n + 32) else c.
Fixpoint lower (s : string) : string :=
  match s with EmptyString => EmptyString | String c t => String (lower_char c) (lower t) end.
(** bool(text), or a text used as a condition *)
Definition truthy (s : string) : bool := negb (String.eqb s "").
(** batch_sa.py:124, 127; esat_cli.py:834 *)
Definition says_true (s : string) : bool := String.eqb (lower s) "true".
(** Python's [a in b] for texts *)
Fixpoint contains (a b : string) : bool :=
  String.prefix a b || match b with EmptyString => false | String _ t => contains a t end.

(** ** Configuration files *)
(** configs.py 41-71 (run_config.toml): project, data, parameters *)
Record rconfig := mkRC { r_dir : path; r_name : string;
                         r_input : path; r_unc : path; r_index : string;
                         r_init_norm : string; r_parallel : string; r_verbose : string;
                         r_max_iter : Z; r_delta : R; r_cn : Z }.
(** configs.py 73-100 (error_config.toml); [e_bd_output]: None is the empty text *)
Record econfig := mkEC { e_constrained : string; e_selected : Z;
                         e_disp_features : list Z;
                         e_bs_n : Z; e_bs_block : Z; e_bs_seed : Z;
                         e_bd_output : option path; e_bd_n : Z; e_bd_block : Z; e_bd_seed : Z;
                         e_bd_features : list Z }.
(** configs.py 102-125 (constrained_config.toml) *)
Record cconfig := mkCC { cc_selected : Z; cc_max_iter : Z; cc_delta : R; cc_cn : Z;
                         cc_constraints : list constr; cc_expressions : list string }.
(** configs.py 4-37 (sim_config.toml); only what the theorems speak about *)
Record sconfig := mkSC { sc_seed : Z; sc_outliers : string }.

(** ** Objects *)
Section Objects.
Context {M : Type}.

(** BatchSA: attributes set by the constructor (batch_sa.py 97-127) and train *)
Record bsa := mkBSA { ba_init_norm : bool; ba_parallel : bool; ba_verbose : bool;
                      ba_max_iter : Z; ba_delta : R; ba_cn : Z;
                      ba_results : list (option M); ba_best : option Z }.
Record disp := mkDisp { di_model : M; di_selected : Z; di_features : option (list Z) }.
Record boot := mkBoot { bo_model : M; bo_selected : Z; bo_n : Z; bo_block : Z; bo_seed : Z }.
Record bsd := mkBsd { bd_model : M; bd_selected : Z; bd_boot : boot; bd_features : option (list Z) }.
Record cmodel := mkCM { cm_base : M; cm_registry : registry; cm_expressions : list string;
                        cm_max_iter : Z; cm_delta : R; cm_cn : Z }.
Record simobj := mkSim { si_seed : Z; si_outliers : bool }.

Inductive obj := OBatch (b : bsa) | OModel (m : M) | ODisp (d : disp) | OBoot (b : boot)
               | OBsDisp (b : bsd) | OConstr (c : cmodel) | OSim (s : simobj).

Record world := mkW { w_files : fs obj; w_tables : path -> option (list string);
                      w_run : path -> option rconfig; w_error : path -> option econfig;
                      w_constr : path -> option cconfig; w_sim : path -> option sconfig }.

Inductive exn := KeyErr | ExitErr | AttrErr | ValErr | IndexErr | TypeErr | OSError | OtherError.
(** [Done]: ran to its end; [Notice]: ended early with a message; [Shows o]. *)
Inductive outcome := Done | Notice | Shows (o : obj) | Raises (e : exn).

(** Where the data of a run come from. *)
Inductive source := FromFiles (input unc : path) | FromSim (s : simobj).

(** Arguments: reading text as a pickle; whether the data handler accepts the
    content of the files; its optimal block; the features, samples and factors
    and the seed of a model; training; the methods. *)
Context (bad : what -> obj -> bool).
Context (content_ok : path -> path -> string -> bool).
Context (opt_block : path -> path -> Z).
Context (sizes : M -> Z * Z * Z) (seed_of : M -> Z).
Context (train : bsa -> source -> option (list (option M) * option Z)).
Context (disp_runs : disp -> bool) (boot_runs : boot -> bool) (bsd_runs : bsd -> bool).
Context (bsd_disps : bsd -> list (nat * obj)).
(** None: an exception; Some None: no constrained model came out. *)
Context (c_train : cmodel -> option (option M)).

(** ** Data handler (datahandler.py 108-112, 265-285, 343-387) *)
Fixpoint after_dot (s acc : string) : string :=
  match s with
  | EmptyString => acc
  | String c t => if Ascii.eqb c "." then after_dot t EmptyString else after_dot t (acc ++ String c EmptyString)
  end.
Definition ext (p : path) : string := after_dot (last (p_parts p) "") "".
Definition known_ext (p : path) : bool := existsb (String.eqb (ext p)) ["csv"; "txt"; "xls"; "xlsx"].
Definition index_found (index : string) (cols : list string) : bool :=
  negb (truthy index) || existsb (String.eqb index) cols.
(** esat_cli.py:370 and others: DataHandler of the data section: an index column
    is looked up by the text given. *)
Definition open_data (w : world) (c : rconfig) : option exn :=
  match w_tables w (r_input c), w_tables w (r_unc c) with
  | Some ci, Some cu =>
      if negb (known_ext (r_input c) && known_ext (r_unc c)) then Some AttrErr
      else if negb (index_found (r_index c) ci && index_found (r_index c) cu) then Some ValErr
      else if content_ok (r_input c) (r_unc c) (r_index c) then None else Some OtherError
  | _, _ => Some ExitErr
  end.

(** os.path.exists and os.mkdir of a directory inside [d] *)
Definition ensure (s : fs obj) (d : path) (name : string) : option (fs obj) :=
  if exists_at s (join d name) then Some s
  else match s d with Dir => Some (upd s (join d name) Dir) | _ => None end.

Definition sim_pkl := "esat_simulator.pkl".
(** esat_cli.py 41-52: the simulator saved in the project directory, if there is
    one, else a new one from the configuration. *)
Definition get_sim (s : fs obj) (d : path) (c : sconfig) : fs obj * (exn + simobj) :=
  if exists_at s (join d sim_pkl)
  then match load bad s (join d sim_pkl) with
       | Object (OSim o) => (s, inr o)
       | Object _ | NoObject => (s, inl AttrErr)
       | LoadRaised => (s, inl OtherError)
       end
  else let o := mkSim (sc_seed c) (truthy (sc_outliers c)) in
       match sim_save s "synthetic" d true (OSim o) with
       | (s', Raised _) => (s', inl OSError)
       | (s', _) => (s', inr o)
       end.

(** batch_sa.py 97-127 *)
Definition new_batch (c : rconfig) : bsa :=
  mkBSA (truthy (r_init_norm c)) (says_true (r_parallel c)) (says_true (r_verbose c))
        (r_max_iter c) (r_delta c) (r_cn c) [] None.
Definition trained (b : bsa) (r : list (option M) * option Z) : bsa :=
  mkBSA (ba_init_norm b) (ba_parallel b) (ba_verbose b) (ba_max_iter b) (ba_delta b) (ba_cn b) (fst r) (snd r).

(** esat_cli.py 444-481 (run), after the data are there *)
Definition run_on (s : fs obj) (c : rconfig) (src : source) : fs obj * outcome :=
  let b0 := new_batch c in
  match train b0 src with
  | None => (s, Raises OtherError)
  | Some r =>
      let b := trained b0 r in
      match ensure s (r_dir c) "output" with
      | None => (s, Raises OSError)
      | Some s1 =>
          let out := join (r_dir c) "output" in
          let models := map (option_map OModel) (ba_results b) in
          match batch_save s1 (r_name c) out false true false models (OBatch b) with
          | (s2, Raised _) => (s2, Raises OSError)
          | (s2, _) =>
              match batch_save s2 (r_name c) out false false true models (OBatch b) with
              | (s3, Raised _) => (s3, Raises OSError)
              | (s3, _) => (s3, Done)
              end
          end
      end
  end.
Definition run_cmd (w : world) (d : path) : fs obj * outcome :=
  match w_run w d with
  | None => (w_files w, Raises KeyErr)
  | Some c =>
      match w_sim w d with
      | Some sc => match get_sim (w_files w) d sc with
                   | (s, inl e) => (s, Raises e)
                   | (s, inr o) => run_on s c (FromSim o)
                   end
      | None => match open_data w c with
                | Some e => (w_files w, Raises e)
                | None => run_on (w_files w) c (FromFiles (r_input c) (r_unc c))
                end
      end
  end.

(** esat_cli.py 69-73: for the analysis commands, by the configured directory;
    745, 940-941: for run-error and run-constrained, by the directory given. *)
Definition batch_at (s : fs obj) (d : path) (name : string) : loaded obj :=
  load bad s (join (join d "output") (name ++ ".pkl")).
(** results[i] *)
Definition select (b : bsa) (i : Z) : exn + M :=
  let pick j := match py_index (List.length (ba_results b)) j with
                | None => inl IndexErr
                | Some n => match nth_error (ba_results b) n with
                            | Some (Some m) => inr m
                            | _ => inl AttrErr
                            end
                end in
  if (i =? -1)%Z then match ba_best b with None => inl TypeErr | Some j => pick j end else pick i.
(** The number shown for the model. *)
Definition selected (b : bsa) (i : Z) : Z :=
  if (i =? -1)%Z then match ba_best b with Some j => j | None => i end else i.

(** esat_cli.py 76-83 and the analysis-solution commands: [factor] is an option
    of the commands that show one factor (1-based, analysis.py:424, 730, 867). *)
Definition get_model (w : world) (d : path) (i : Z) : exn + M :=
  match w_run w d with
  | None => inl KeyErr
  | Some c =>
      match open_data w c with
      | Some e => inl e
      | None => match batch_at (w_files w) (r_dir c) (r_name c) with
                | Object (OBatch b) => select b i
                | LoadRaised => inl OtherError
                | _ => inl AttrErr
                end
      end
  end.
Definition plot_factor (w : world) (d : path) (i : Z) (factor : Z) : outcome :=
  match get_model w d i with
  | inl e => Raises e
  | inr m => let '(_, _, k) := sizes m in
             if ((k <? factor) || (factor <? 1))%Z then Notice else Shows (OModel m)
  end.
(** Default of the option: esat_cli.py 580, 612-615, 683 *)
Definition factor_default : Z := 0.

(** analysis-input plot-timeseries (408-425): list() of a number *)
Definition plot_input_timeseries (w : world) (d : path) (feature : Z) : outcome :=
  match w_run w d with
  | None => Raises KeyErr
  | Some c => match open_data w c with Some e => Raises e | None => Raises TypeErr end
  end.

(** ** run-error (esat_cli.py 723-841) *)
Definition features_of (l : list Z) : option (list Z) := match l with [] => None | _ => Some l end.
Definition block_or (w_opt block : Z) : Z := if (block =? -1)%Z then w_opt else block.
Definition seed_or (m : M) (seed : Z) : Z := if (seed =? -1)%Z then seed_of m else seed.

(** One step of the command: new files, or an exception. *)
Definition step_disp (s : fs obj) (dir : path) (name : string) (dd : disp) : fs obj * option exn :=
  if disp_runs dd then
    match disp_save s ("disp-" ++ name) dir true (ODisp dd) with
    | (s1, Raised _) => (s1, Some OSError)
    | (s1, _) => match disp_save s1 ("disp-" ++ name) dir false (ODisp dd) with
                 | (s2, Raised _) => (s2, Some OSError)
                 | (s2, _) => (s2, None)
                 end
    end
  else (s, Some OtherError).
Definition step_boot (s : fs obj) (dir : path) (name : string) (b : boot) : fs obj * option exn :=
  if boot_runs b then
    match bs_save s ("bs-" ++ name) dir true (OBoot b) with
    | (s1, Raised _) => (s1, Some OSError)
    | (s1, _) => match bs_save s1 ("bs-" ++ name) dir false (OBoot b) with
                 | (s2, Raised _) => (s2, Some OSError)
                 | (s2, _) => (s2, None)
                 end
    end
  else (s, Some OtherError).
(** bs_disp.py 154-201: parallel mode calls a function of eight arguments with one
    (see BSDisp_Model.bsdisp_completes) *)
Definition step_bsd (s : fs obj) (dir : path) (name : string) (parallel : bool) (b : bsd) : fs obj * option exn :=
  if parallel && negb (call_ok 8 1) then (s, Some TypeErr)
  else if bsd_runs b then
    match bsdisp_save s ("bsdisp-" ++ name) dir true (OBoot (bd_boot b)) (bsd_disps b) (OBsDisp b) with
    | (s1, Raised _) => (s1, Some OSError)
    | (s1, _) => match bsdisp_save s1 ("bsdisp-" ++ name) dir false (OBoot (bd_boot b)) (bsd_disps b) (OBsDisp b) with
                 | (s2, Raised _) => (s2, Some OSError)
                 | (s2, _) => (s2, None)
                 end
    end
  else (s, Some OtherError).

(** The variable bs of line 815: the flag, or the Bootstrap object of this run. *)
Inductive bsvar := BFlag (b : bool) | BObj (b : boot).
(** lines 807-817: what is handed to BSDISP; [inr (Some _)]: a Bootstrap or the
    flag itself, which is not None either; [inr None]: None. *)
Definition chosen_boot (s : fs obj) (out : option path) (v : bsvar) : exn + option bsvar :=
  match out with
  | Some p => if exists_at s p
              then match load bad s p with
                   | Object (OBoot b) => inr (Some (BObj b))
                   | NoObject => inr None
                   | Object _ => inl AttrErr
                   | LoadRaised => inl OtherError
                   end
              else inr None
  | None => inr (Some v)
  end.
(** bs_disp.py 85-93: attributes are read from whatever is not None *)
Definition boot_of (m : M) (i : Z) (n block seed : Z) (c : exn + option bsvar) : exn + boot :=
  match c with
  | inl e => inl e
  | inr None => inr (mkBoot m i n block seed)
  | inr (Some (BObj b)) => inr b
  | inr (Some (BFlag _)) => inl AttrErr
  end.

(** lines 750-764: the model to work on *)
Definition error_model (s : fs obj) (d : path) (c : rconfig) (e : econfig) : exn + (Z * M) :=
  if truthy (e_constrained e)
  then match load bad s (join (join d "constrained") ("constrained_" ++ r_name c ++ ".pkl")) with
       | Object (OConstr cm) => match c_train cm with Some (Some m) => inr (-1, m)%Z | _ => inl AttrErr end
       | LoadRaised => inl OtherError
       | _ => inl AttrErr
       end
  else match batch_at s d (r_name c) with
       | Object (OBatch b) => match select b (e_selected e) with
                              | inl x => inl x
                              | inr m => inr (selected b (e_selected e), m)
                              end
       | LoadRaised => inl OtherError
       | _ => inl AttrErr
       end.

(** lines 765-841 *)
Definition error_steps (s0 : fs obj) (d : path) (c : rconfig) (e : econfig) (i : Z) (m : M) (fd fb fbd : bool) : fs obj * outcome :=
  let dir := join d "error" in
  let '(s1, x1) := if fd then step_disp s0 dir (r_name c) (mkDisp m i (features_of (e_disp_features e)))
                   else (s0, None) in
  match x1 with
  | Some x => (s1, Raises x)
  | None =>
    let b := mkBoot m i (e_bs_n e) (block_or (opt_block (r_input c) (r_unc c)) (e_bs_block e))
               (seed_or m (e_bs_seed e)) in
    let '(s2, x2) := if fb then step_boot s1 dir (r_name c) b else (s1, None) in
    match x2 with
    | Some x => (s2, Raises x)
    | None =>
      if fbd then
        match boot_of m i (e_bd_n e) (block_or (opt_block (r_input c) (r_unc c)) (e_bd_block e))
                (seed_or m (e_bd_seed e))
                (chosen_boot s2 (e_bd_output e) (if fb then BObj b else BFlag false)) with
        | inl x => (s2, Raises x)
        | inr bo =>
          match step_bsd s2 dir (r_name c) (says_true (r_parallel c))
                  (mkBsd m i bo (features_of (e_disp_features e))) with
          | (s3, Some x) => (s3, Raises x)
          | (s3, None) => (s3, Done)
          end
        end
      else (s2, Done)
    end
  end.
(** lines 746-764 *)
Definition error_on (s : fs obj) (d : path) (c : rconfig) (e : econfig) (fd fb fbd : bool) : fs obj * outcome :=
  match ensure s d "error" with
  | None => (s, Raises OSError)
  | Some s0 => match error_model s0 d c e with
               | inl x => (s0, Raises x)
               | inr (i, m) => error_steps s0 d c e i m fd fb fbd
               end
  end.
Definition run_error (w : world) (d : path) (fd fb fbd : bool) : fs obj * outcome :=
  if negb (fd || fb || fbd) then (w_files w, Notice)
  else match w_run w d, w_error w d with
  | Some c, Some e =>
    match open_data w c with
    | Some x => (w_files w, Raises x)
    | None => match batch_at (w_files w) d (r_name c) with
              | LoadRaised => (w_files w, Raises OtherError)
              | _ => error_on (w_files w) d c e fd fb fbd
              end
    end
  | _, _ => (w_files w, Raises KeyErr)
  end.

(** esat_cli.py 85-101, 851-910: analysis-error summary and error-results *)
Definition get_error_model (w : world) (d : path) (fd fb fbd : bool) : exn + option (loaded obj) :=
  match w_run w d with
  | None => inl KeyErr
  | Some c =>
      let at_ n := load bad (w_files w) (join (join d "error") (n ++ r_name c ++ ".pkl")) in
      inr (if fd then Some (at_ "disp-") else if fb then Some (at_ "bs-")
           else if fbd then Some (at_ "bsdisp-") else None)
  end.
Definition is_result (o : obj) : bool :=
  match o with ODisp _ | OBoot _ | OBsDisp _ => true | _ => false end.
Definition show_error (w : world) (d : path) (fd fb fbd : bool) : outcome :=
  if negb (fd && fb && fbd) then Notice
  else match get_error_model w d fd fb fbd with
       | inl x => Raises x
       | inr (Some (Object o)) => if is_result o then Shows o else Raises AttrErr
       | inr (Some LoadRaised) => Raises OtherError
       | inr _ => Raises AttrErr
       end.

(** ** run-constrained (esat_cli.py 925-992) *)
(** lines 953-961; lines 964-970 *)
Definition wanted (c : constr) : bool := negb ((c_i c =? -1)%Z && (c_j c =? -1)%Z).
Definition add_all (m n k : Z) (l : list constr) : registry :=
  fold_left (fun r c => fst (add_constraint m n k r c)) (filter wanted l) [].
Definition wanted_expr (e : string) : bool :=
  negb (existsb (fun l => contains l e) ["factor:-1"; "feature:-1"; "sample:-1"]).
Definition c_settings (b : bsa) (cc : cconfig) : Z * R * Z :=
  ((if (cc_max_iter cc =? -1)%Z then ba_max_iter b else cc_max_iter cc)%Z,
   (if Rlt_dec 0 (cc_delta cc) then cc_delta cc else ba_delta b),
   (if (cc_cn cc =? -1)%Z then ba_cn b else cc_cn cc)%Z).
Definition run_constrained (w : world) (d : path) : fs obj * outcome :=
  match w_run w d, w_constr w d with
  | Some c, Some cc =>
    match open_data w c with
    | Some x => (w_files w, Raises x)
    | None =>
      match batch_at (w_files w) d (r_name c) with
      | Object (OBatch b) =>
        match select b (cc_selected cc) with
        | inl x => (w_files w, Raises x)
        | inr m =>
          let '(sm, sn, k) := sizes m in
          let '(mi, de, cn) := c_settings b cc in
          let cm := mkCM m (add_all sm sn k (cc_constraints cc)) (filter wanted_expr (cc_expressions cc)) mi de cn in
          match c_train cm with
          | None => (w_files w, Raises OtherError)
          | Some None => (w_files w, Notice)
          | Some (Some m') =>
            match ensure (w_files w) d "constrained" with
            | None => (w_files w, Raises OSError)
            | Some s0 =>
              let dir := join d "constrained" in
              match constrained_save s0 (r_name c) dir true (OModel m') (OConstr cm) with
              | (s1, Raised _) => (s1, Raises OSError)
              | (s1, _) =>
                match constrained_save s1 (r_name c) dir false (OModel m') (OConstr cm) with
                | (s2, Raised _) => (s2, Raises OSError)
                | (s2, _) => (s2, Done)
                end
              end
            end
          end
        end
      | LoadRaised => (w_files w, Raises OtherError)
      | _ => (w_files w, Raises AttrErr)
      end
    end
  | _, _ => (w_files w, Raises KeyErr)
  end.

(** esat_cli.py 104-109, 1004-1126: every analysis-constrained command loads this
    file and calls a method that only ConstrainedModel has. *)
Definition show_constrained (w : world) (d : path) : outcome :=
  match w_run w d with
  | None => Raises KeyErr
  | Some c =>
      match load bad (w_files w) (join (join d "constrained") ("constrained_model-" ++ r_name c ++ ".pkl")) with
      | Object (OConstr cm) => Shows (OConstr cm)
      | LoadRaised => Raises OtherError
      | _ => Raises AttrErr
      end
  end.

(** The state after a command. *)
Definition after (w : world) (s : fs obj) : world :=
  mkW s (w_tables w) (w_run w) (w_error w) (w_constr w) (w_sim w).

(** esat_cli.py 142-165 (setup) with the defaults of configs.py 38-69: the
    directory is recorded the way it was given. *)
Definition default_config (d : path) : rconfig :=
  mkRC d "" (mkPath false []) (mkPath false []) "0" "True" "True" "False" 20000 (1 / 10000) 50.
Definition set_at {A} (f : path -> option A) (d : path) (a : A) (q : path) : option A :=
  if path_eqb q d then Some a else f q.
Definition parent (d : path) : path := mkPath (p_abs d) (removelast (p_parts d)).
Definition setup_cmd (w : world) (d : path) : world * outcome :=
  let w1 := if exists_at (w_files w) d then Some (w_files w)
            else match w_files w (parent d) with Dir => Some (upd (w_files w) d Dir) | _ => None end in
  match w1 with
  | None => (w, Notice)
  | Some s => match s d with
              | Dir => (mkW s (w_tables w) (set_at (w_run w) d (default_config d)) (w_error w) (w_constr w) (w_sim w), Done)
              | _ => (w, Raises OSError)
              end
  end.
(** esat_cli.py 207-232 (simulator generate), for a directory that exists; what was
    loaded is not used, so that no simulator at all ([AttrErr] of the other commands)
    goes unnoticed. *)
Definition generate_cmd (w : world) (d : path) : fs obj * outcome :=
  match w_sim w d with
  | None => (w_files w, Raises KeyErr)
  | Some sc => match get_sim (w_files w) d sc with
               | (s, inl AttrErr) | (s, inr _) => (s, Done)
               | (s, inl e) => (s, Raises e)
               end
  end.

(** What can happen to a project: the commands that write, and the user changing
    data and configuration files. *)
Inductive cmd :=
| CSetup (d : path) | CGenerate (d : path) | CRun (d : path)
| CRunError (d : path) (fd fb fbd : bool) | CRunConstrained (d : path)
| CEdit (tables : path -> option (list string)) (run : path -> option rconfig) (error : path -> option econfig)
        (constr : path -> option cconfig) (sim : path -> option sconfig).
Definition exec1 (w : world) (c : cmd) : world :=
  match c with
  | CSetup d => fst (setup_cmd w d)
  | CGenerate d => after w (fst (generate_cmd w d))
  | CRun d => after w (fst (run_cmd w d))
  | CRunError d a b e => after w (fst (run_error w d a b e))
  | CRunConstrained d => after w (fst (run_constrained w d))
  | CEdit t r e c s => mkW (w_files w) t r e c s
  end.
Definition exec (w : world) (l : list cmd) : world := fold_left exec1 l w.
End Objects.
Arguments bsa M : clear implicits. Arguments obj M : clear implicits. Arguments world M : clear implicits.
Arguments outcome M : clear implicits.
