(** Saving and loading: esat/model/sa.py 478-586, esat/model/batch_sa.py 392-472,
    esat/error/bootstrap.py 734-829, esat/error/displacement.py 629-723,
    esat/error/bs_disp.py 403-480, esat/rotational/constrained.py 1146-1216,
    eval/simulator.py 517-591, esat/utils.py 14-28.

    The file system maps paths to nodes.  File names are joined to the directory as
    one component (a name containing a separator is not modelled).  Opening a file
    for writing fails when the directory is none or the target is a directory;
    other errors of the operating system are not modelled.  Pickling always
    succeeds; loading a pickled object gives that object back.  The content of a
    text file is described by what it holds and of which object; JSON is modelled
    separately below.  The objects are assumed to be complete (trained, run). *)
From Coq Require Import List Bool String ZArith Reals DecimalString.
Import ListNotations.
Local Open Scope string_scope.

Record path := mkPath { p_abs : bool; p_parts : list string }.
Definition join (d : path) (name : string) : path := mkPath (p_abs d) (p_parts d ++ [name])%list.
Definition path_eqb (p q : path) : bool := Bool.eqb (p_abs p) (p_abs q) && (if list_eq_dec string_dec (p_parts p) (p_parts q) then true else false).

(** [str(i)] for a natural number. *)
Definition show (n : nat) : string := NilEmpty.string_of_uint (Nat.to_uint n).

Section Objects.
Context {O : Type}.

Inductive what := Metadata | Profile | Contribution | VPrime | Residuals | Results | Mapping | QTable | FTables | Profiles | Contributions | Increase | Decrease | SwapTable | Compiled | Data | Uncertainty.
(** [Blank]: opened for writing and never written to. *)
Inductive content := Pickled (o : O) | Text (w : what) (o : O) | Blank.
Inductive node := Missing | Dir | File (c : content).
Definition fs := path -> node.
Definition upd (s : fs) (p : path) (n : node) : fs := fun q => if path_eqb q p then n else s q.

Inductive err := OSErr | TypeErr' | OtherErr.
Inductive answer := Nothing | Path (p : path) | Truth (b : bool) | Raised (e : err).

(** [open(os.path.join(d, name), "w")] and writing [c]. *)
Definition write (s : fs) (d : path) (name : string) (c : content) : option fs :=
  match s d, s (join d name) with
  | Dir, Dir => None
  | Dir, _ => Some (upd s (join d name) (File c))
  | _, _ => None
  end.
Fixpoint writes (s : fs) (d : path) (l : list (string * content)) : fs * bool :=
  match l with
  | [] => (s, true)
  | (name, c) :: t => match write s d name c with None => (s, false) | Some s' => writes s' d t end
  end.
Definition finish (r : fs * bool) (a : answer) : fs * answer := (fst r, if snd r then a else Raised OSErr).
(** The checks all functions start with (sa.py 516-519, 551-553). *)
Definition exists_at (s : fs) (p : path) : bool := match s p with Missing => false | _ => true end.
Definition guarded (s : fs) (d : path) (no : answer) (body : fs * answer) : fs * answer :=
  if negb (p_abs d) then (s, no) else if exists_at s d then body else (s, no).

(** sa.py 478-555.  [header]: feature names were given.  Without them the header of
    the contribution table is None (508-514, 540), which numpy's savetxt rejects after
    the file was opened. *)
Definition sa_text (name : string) (o : O) : list (string * content) :=
  [(name ++ "-metadata.json", Text Metadata o); (name ++ "-profile.csv", Text Profile o); (name ++ "-contribution.csv", Text Contribution o);
   (name ++ "-vprime.csv", Text VPrime o); (name ++ "-residuals.csv", Text Residuals o)].
Definition sa_text_broken (name : string) (o : O) : list (string * content) :=
  [(name ++ "-metadata.json", Text Metadata o); (name ++ "-profile.csv", Text Profile o); (name ++ "-contribution.csv", Blank)].
Definition sa_save (s : fs) (name : string) (d : path) (pickle header : bool) (o : O) : fs * answer :=
  guarded s d Nothing
    (if pickle then finish (writes s d [(name ++ ".pkl", Pickled o)]) (Path (join d (name ++ ".pkl")))
     else if header then finish (writes s d (sa_text name o)) (Path d)
     else finish (writes s d (sa_text_broken name o)) (Raised TypeErr')).

(** batch_sa.py 392-441. *)
Fixpoint batch_models (s : fs) (name : string) (d : path) (pickle header : bool) (results : list (option O)) (i : nat) : fs * option err :=
  match results with
  | [] => (s, None)
  | None :: t => batch_models s name d pickle header t (S i)
  | Some o :: t => match sa_save s (name ++ "-model-" ++ show i) d pickle header o with
                   | (s', Raised e) => (s', Some e)
                   | (s', _) => batch_models s' name d pickle header t (S i)
                   end
  end.
Definition batch_save (s : fs) (name : string) (d : path) (pickle_model pickle_batch header : bool) (results : list (option O)) (o : O) : fs * answer :=
  guarded s d Nothing
    (if pickle_batch then finish (writes s d [(name ++ ".pkl", Pickled o)]) (Path (join d (name ++ ".pkl")))
     else match batch_models s name d pickle_model header results 0 with
          | (s', Some e) => (s', Raised e)
          | (s', None) => (s', Path d)
          end).

(** bootstrap.py 734-798: the return statement belongs to the text branch. *)
Definition bs_text (name : string) (o : O) : list (string * content) :=
  [(name ++ "-metadata.json", Text Metadata o); (name ++ "-results.json", Text Results o); (name ++ "-mapping.csv", Text Mapping o); (name ++ "-qtable.csv", Text QTable o);
   (name ++ "-ftables.json", Text FTables o); (name ++ "-profiles.json", Text Profiles o); (name ++ "-contributions.json", Text Contributions o)].
Definition bs_save (s : fs) (name : string) (d : path) (pickle : bool) (o : O) : fs * answer :=
  guarded s d Nothing
    (if pickle then finish (writes s d [(name ++ ".pkl", Pickled o)]) Nothing else finish (writes s d (bs_text name o)) (Path d)).

(** displacement.py 629-692. *)
Definition disp_text (name : string) (o : O) : list (string * content) :=
  [(name ++ "-metadata.json", Text Metadata o); (name ++ "-increase-disp.json", Text Increase o); (name ++ "-decrease-disp.json", Text Decrease o);
   (name ++ "-swaptable.csv", Text SwapTable o); (name ++ "-results.csv", Text Compiled o)].
Definition disp_save (s : fs) (name : string) (d : path) (pickle : bool) (o : O) : fs * answer :=
  guarded s d Nothing
    (if pickle then finish (writes s d [(name ++ ".pkl", Pickled o)]) (Path (join d (name ++ ".pkl"))) else finish (writes s d (disp_text name o)) (Path d)).

(** bs_disp.py 403-449: own metadata, then the bootstrap under the same name, then
    the displacements, then the compiled table; the path returned is that of the
    pickle file in both cases. *)
Fixpoint disp_saves (s : fs) (name : string) (d : path) (disps : list (nat * O)) : fs * option err :=
  match disps with
  | [] => (s, None)
  | (k, o) :: t => match disp_save s (name ++ "-" ++ show k) d false o with
                   | (s', Raised e) => (s', Some e)
                   | (s', _) => disp_saves s' name d t
                   end
  end.
Definition bsdisp_save (s : fs) (name : string) (d : path) (pickle : bool) (bs : O) (disps : list (nat * O)) (o : O) : fs * answer :=
  guarded s d Nothing
    (if pickle then finish (writes s d [(name ++ ".pkl", Pickled o)]) (Path (join d (name ++ ".pkl")))
     else match writes s d [(name ++ "-metadata.json", Text Metadata o)] with
          | (s1, false) => (s1, Raised OSErr)
          | (s1, true) =>
            match bs_save s1 name d false bs with
            | (s2, Raised e) => (s2, Raised e)
            | (s2, _) =>
              match disp_saves s2 name d disps with
              | (s3, Some e) => (s3, Raised e)
              | (s3, None) => finish (writes s3 d [(name ++ "-results.csv", Text Compiled o)]) (Path (join d (name ++ ".pkl")))
              end
            end
          end).

(** constrained.py 1146-1185: the inner model is saved, then the metadata file is
    written over; nothing is returned. *)
Definition constrained_save (s : fs) (name : string) (d : path) (pickle : bool) (inner o : O) : fs * answer :=
  let name' := "constrained_model-" ++ name in
  guarded s d Nothing
    match sa_save s name' d pickle true inner with
    | (s1, Raised e) => (s1, Raised e)
    | (s1, _) => finish (writes s1 d [(name' ++ "-metadata.json", Text Metadata o)]) Nothing
    end.

(** simulator.py 517-561.  [generated]: synthetic data exist; otherwise the tables are
    None and the call fails after writing the pickle file. *)
Definition sim_save (s : fs) (name : string) (d : path) (generated : bool) (o : O) : fs * answer :=
  guarded s d (Truth false)
    (let pkl := ("esat_simulator.pkl", Pickled o) in
     if generated then finish (writes s d [pkl; (name ++ "_data.csv", Text Data o); (name ++ "_uncertainty.csv", Text Uncertainty o); (name ++ "_profiles.csv", Text Profile o); (name ++ "_contributions.csv", Text Contribution o)]) (Truth true)
     else finish (writes s d [pkl]) (Raised OtherErr)).

(** sa.py 557-586 and its copies.  [bad w o]: reading that text as a pickle is reported
    as PickleError (None) rather than as another exception.  An empty file raises
    EOFError, which is not a PickleError. *)
Inductive loaded := Object (o : O) | NoObject | LoadRaised.
Definition load (bad : what -> O -> bool) (s : fs) (p : path) : loaded :=
  if negb (p_abs p) then NoObject
  else match s p with
       | Missing => NoObject
       | Dir => LoadRaised
       | File (Pickled o) => Object o
       | File (Text w o) => if bad w o then NoObject else LoadRaised
       | File Blank => LoadRaised
       end.
End Objects.
Arguments content : clear implicits. Arguments node : clear implicits. Arguments fs : clear implicits. Arguments loaded : clear implicits.

(** ** JSON (utils.py 14-28 as the [default] of json.dump) *)
(** Python values as far as they matter here; [Opaque]: anything json cannot write
    itself and that is no numpy scalar (arrays, models). *)
Inductive pv := PNull | PBool (b : bool) | PInt (z : Z) | PReal (r : R) | PStr (s : string) | PList (l : list pv) | PDict (l : list (string * pv)) | NpInt (z : Z) | NpReal (r : R) | Opaque (id : nat).
Inductive jv := JNull | JBool (b : bool) | JInt (z : Z) | JReal (r : R) | JStr (s : string) | JList (l : list jv) | JDict (l : list (string * jv)).
Fixpoint encode (v : pv) : jv :=
  match v with
  | PNull => JNull | PBool b => JBool b | PInt z => JInt z | PReal r => JReal r | PStr s => JStr s
  | PList l => JList (map encode l)
  | PDict l => JDict (map (fun q => (fst q, encode (snd q))) l)
  | NpInt z => JInt z | NpReal r => JReal r
  | Opaque _ => JNull
  end.
(** bootstrap.py 450-454, 483-487: what is written for the runs.  A run is a model
    (which one matters not to json), the list of the rows drawn and the mapping.  The
    keys, which are numbers in Python, are given in the form json writes them. *)
Definition bs_results_value (runs : list (nat * (nat * list Z * pv))) : pv :=
  PDict (map (fun q => (show (fst q), PDict [("model", Opaque (fst (fst (snd q)))); ("index", PList (map NpInt (snd (fst (snd q))))); ("mapping", snd (snd q))])) runs).
