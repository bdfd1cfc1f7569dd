(** The command line (C91 to C96). *)
From Coq Require Import List Bool String Ascii ZArith Reals Lia Lra.
From Verif Require Import Persist_Model Persist_Props Constr_Model BSDisp_Model Cli_Model.
Import ListNotations.
Local Open Scope string_scope.

(** ** Texts *)
Lemma lower_char_cases : forall c x, In x ["t"; "r"; "u"; "e"]%char -> lower_char c = x ->
  c = x \/ c = ascii_of_nat (nat_of_ascii x - 32).
Proof.
  intros c x I E. revert E. destruct c as [[] [] [] [] [] [] [] []]; cbn in I;
    repeat (destruct I as [<- | I]; [vm_compute; intros E; first [discriminate E | auto] | ]); destruct I.
Qed.
Lemma lower_four : forall s a b c d, lower s = String a (String b (String c (String d ""))) ->
  exists a' b' c' d', s = String a' (String b' (String c' (String d' ""))) /\
    lower_char a' = a /\ lower_char b' = b /\ lower_char c' = c /\ lower_char d' = d.
Proof.
  intros s a b c d E; destruct s as [|a' [|b' [|c' [|d' [|]]]]]; cbn [lower] in E; try discriminate E.
  injection E as <- <- <- <-. exists a', b', c', d'; auto 6.
Qed.
Lemma prefix_app : forall a b, String.prefix a b = true <-> exists t, b = a ++ t.
Proof.
  induction a as [|x a IH]; intros b.
  - split; [intros _; exists b|]; auto. destruct b; auto.
  - destruct b as [|y b]; [split; [discriminate|intros (t & E); discriminate]|].
    cbn [String.prefix String.append]. destruct (ascii_dec x y) as [<-|N].
    + rewrite IH. split; intros (t & E); exists t; [rewrite E|injection E]; auto.
    + split; [discriminate|]. intros (t & E); injection E; intros; congruence.
Qed.
Lemma contains_iff : forall a b, contains a b = true <-> exists x y, b = x ++ a ++ y.
Proof.
  intros a b; revert a; induction b as [|z b IH]; intros a; cbn [contains]; rewrite orb_true_iff, prefix_app.
  - split.
    + intros [(t & E)|H]; [exists "", t; auto|discriminate].
    + intros ([|] & y & E); [left; exists y; auto|discriminate].
  - rewrite IH. split.
    + intros [(t & E)|(x & y & E)]; [exists "", t; auto|exists (String z x), y; cbn; rewrite E; auto].
    + intros ([|z' x] & y & E); [left; exists y; auto|right]. injection E; intros; eauto.
Qed.

(** Any capitalisation of the word true. *)
Definition is_true_word (s : string) : Prop :=
  exists a b c d, s = String a (String b (String c (String d ""))) /\
    In a ["t"; "T"]%char /\ In b ["r"; "R"]%char /\ In c ["u"; "U"]%char /\ In d ["e"; "E"]%char.
Lemma says_true_iff : forall s, says_true s = true <-> is_true_word s.
Proof.
  intros s; unfold says_true; rewrite String.eqb_eq. split.
  - intros E. apply lower_four in E. destruct E as (a & b & c & d & -> & Ea & Eb & Ec & Ed). exists a, b, c, d; split; auto.
    apply lower_char_cases in Ea, Eb, Ec, Ed; cbn; auto 6; cbn in *.
    repeat split; cbn; intuition.
  - intros (a & b & c & d & -> & Ha & Hb & Hc & Hd). cbn in Ha, Hb, Hc, Hd. unfold In in *.
    repeat match goal with H : _ \/ _ |- _ => destruct H as [<- | H] | H : False |- _ => destruct H end; reflexivity.
Qed.

(** ** C92: what a configuration text switches on *)
(** Normalisation of the starting matrices and the outliers of the simulator are
    on unless the text is empty; parallel execution and verbosity are on exactly
    for the word true in any capitalisation. *)
Theorem C92_text_switches : forall M (c : rconfig) (sc : sconfig),
  (ba_init_norm (@new_batch M c) = false <-> r_init_norm c = "") /\
  (truthy (sc_outliers sc) = false <-> sc_outliers sc = "") /\
  (ba_parallel (@new_batch M c) = true <-> is_true_word (r_parallel c)) /\
  (ba_verbose (@new_batch M c) = true <-> is_true_word (r_verbose c)) /\
  ba_max_iter (@new_batch M c) = r_max_iter c /\ ba_delta (@new_batch M c) = r_delta c /\ ba_cn (@new_batch M c) = r_cn c.
Proof.
  intros M c sc; cbn. assert (T : forall s, truthy s = false <-> s = "").
  { intros s; unfold truthy; destruct (String.eqb_spec s ""); cbn; split; congruence. }
  rewrite !T, !says_true_iff. tauto.
Qed.
Print Assumptions C92_text_switches.
(** The documentation: init_norm and outliers are booleans. *)
Theorem C92_false_switches_off_refuted :
  ~ (forall M c, In (r_init_norm c) ["False"; "false"; "0"; "no"] -> ba_init_norm (@new_batch M c) = false) /\
  ~ (forall s, In s ["False"; "false"; "0"; "no"] -> truthy s = false).
Proof.
  split; intros H.
  - specialize (H nat (mkRC (mkPath true []) "p" (mkPath true []) (mkPath true []) "" "False" "True" "False" 1 0 1) (or_introl eq_refl)). discriminate H.
  - specialize (H "False" (or_introl eq_refl)); discriminate H.
Qed.
Print Assumptions C92_false_switches_off_refuted.
(** Data files: a file that does not exist ends the program; the extension is
    what follows the last dot, and is matched exactly; an index column is looked
    up by its name, so that the default, 0, means a column called "0". *)
Theorem C92_data_section : forall M (content_ok : path -> path -> string -> bool) (w : world M) c,
  (open_data content_ok w c = Some ExitErr <-> w_tables w (r_input c) = None \/ w_tables w (r_unc c) = None) /\
  (open_data content_ok w c = None <-> exists ci cu, w_tables w (r_input c) = Some ci /\ w_tables w (r_unc c) = Some cu /\
     In (ext (r_input c)) ["csv"; "txt"; "xls"; "xlsx"] /\ In (ext (r_unc c)) ["csv"; "txt"; "xls"; "xlsx"] /\
     (r_index c = "" \/ In (r_index c) ci /\ In (r_index c) cu) /\ content_ok (r_input c) (r_unc c) (r_index c) = true) /\
  (forall ci cu, w_tables w (r_input c) = Some ci -> w_tables w (r_unc c) = Some cu ->
     In (ext (r_input c)) ["csv"; "txt"; "xls"; "xlsx"] -> In (ext (r_unc c)) ["csv"; "txt"; "xls"; "xlsx"] ->
     r_index c <> "" -> ~ (In (r_index c) ci /\ In (r_index c) cu) -> open_data content_ok w c = Some ValErr).
Proof.
  intros M ok w c.
  assert (E : forall s l, existsb (String.eqb s) l = true <-> In s l).
  { intros s l; rewrite existsb_exists. split; [intros (x & I & E); apply String.eqb_eq in E; subst; auto|]. intros I; exists s; split; auto; apply String.eqb_refl. }
  unfold open_data, known_ext, index_found, truthy. repeat split.
  - intros H. destruct (w_tables w (r_input c)) as [ci|]; auto. destruct (w_tables w (r_unc c)) as [cu|]; auto.
    repeat match type of H with (if ?b then _ else _) = _ => destruct b; try discriminate H end.
  - intros [-> | ->]; auto. destruct (w_tables w (r_input c)); auto.
  - intros H. destruct (w_tables w (r_input c)) as [ci|]; [|discriminate]. destruct (w_tables w (r_unc c)) as [cu|]; [|discriminate].
    exists ci, cu. destruct (existsb (String.eqb (ext (r_input c))) _) eqn:E1; [|discriminate]. destruct (existsb (String.eqb (ext (r_unc c))) _) eqn:E2; [|discriminate].
    apply E in E1, E2. cbn [negb andb] in H. destruct (ok (r_input c) (r_unc c) (r_index c)) eqn:Eo; [|repeat match type of H with (if ?b then _ else _) = _ => destruct b; try discriminate H end].
    destruct (String.eqb_spec (r_index c) ""); [tauto|]. cbn [negb orb] in H.
    destruct (existsb (String.eqb (r_index c)) ci) eqn:E3; [|discriminate]. destruct (existsb (String.eqb (r_index c)) cu) eqn:E4; [|discriminate].
    apply E in E3, E4. tauto.
  - intros (ci & cu & -> & -> & I1 & I2 & J & Eo). apply E in I1, I2. rewrite I1, I2, Eo. cbn [negb andb].
    destruct (String.eqb_spec (r_index c) ""); [reflexivity|]. destruct J as [J|[J1 J2]]; [contradiction|]. apply E in J1, J2. rewrite J1, J2. reflexivity.
  - intros ci cu -> -> I1 I2 N J. apply E in I1, I2. rewrite I1, I2. cbn [negb andb].
    destruct (String.eqb_spec (r_index c) ""); [congruence|]. cbn [negb orb].
    destruct (existsb (String.eqb (r_index c)) ci) eqn:E3; [|reflexivity]. destruct (existsb (String.eqb (r_index c)) cu) eqn:E4; [|reflexivity].
    apply E in E3, E4. tauto.
Qed.
Print Assumptions C92_data_section.
(** The index column "0" as the first column. *)
Theorem C92_default_index_is_a_position_refuted :
  ~ (forall M (w : world M) c ci cu, w_tables w (r_input c) = Some ci -> w_tables w (r_unc c) = Some cu -> ci <> [] -> cu <> [] ->
       In (ext (r_input c)) ["csv"] -> In (ext (r_unc c)) ["csv"] -> r_index c = "0" -> open_data (fun _ _ _ => true) w c = None).
Proof.
  intros H.
  pose (p := mkPath true ["a.csv"]).
  specialize (H nat (mkW (fun _ => Missing) (fun _ => Some ["Date"; "As"]) (fun _ => None) (fun _ => None) (fun _ => None) (fun _ => None))
               (mkRC p "p" p p "0" "True" "True" "False" 1 0 1) _ _ eq_refl eq_refl).
  cbn in H. discriminate H; auto; congruence.
Qed.
Print Assumptions C92_default_index_is_a_position_refuted.

(** ** Saving through the command line *)
Section Proofs.
Context {M : Type}.
Notation fs := (fs (obj M)).
Notation world := (world M).
Context (bad : what -> obj M -> bool) (content_ok : path -> path -> string -> bool) (opt_block : path -> path -> Z).
Context (sizes : M -> Z * Z * Z) (seed_of : M -> Z).
Context (train : bsa M -> source -> option (list (option M) * option Z)).
Context (disp_runs : @disp M -> bool) (boot_runs : @boot M -> bool) (bsd_runs : @bsd M -> bool).
Context (bsd_disps : @bsd M -> list (nat * obj M)) (c_train : @cmodel M -> option (option M)).
Notation run_cmd := (run_cmd bad content_ok train).
Notation run_error := (run_error bad content_ok opt_block seed_of disp_runs boot_runs bsd_runs bsd_disps c_train).
Notation run_constrained := (run_constrained bad content_ok sizes c_train).
Notation get_model := (get_model bad content_ok).
Notation exec := (exec bad content_ok opt_block sizes seed_of train disp_runs boot_runs bsd_runs bsd_disps c_train).

Definition out d := join d "output".
(** The directory [d] is there and absolute, and nothing in its sub-directory
    [name] stands in the way of a file. *)
Definition ready (s : fs) (d : path) (name : string) : Prop :=
  p_abs d = true /\ s d = Dir /\ (s (join d name) = Missing \/ s (join d name) = Dir) /\ forall nm, s (join (join d name) nm) <> Dir.
Lemma ensure_ready : forall s d name, ready s d name ->
  exists s1, ensure s d name = Some s1 /\ usable s1 (join d name) /\ (forall nm, s1 (join (join d name) nm) <> Dir) /\
    forall q, q <> join d name -> s1 q = s q.
Proof.
  intros s d name (A & B & C & D). unfold ensure, exists_at. destruct C as [C|C]; rewrite C.
  - rewrite B. exists (upd s (join d name) Dir). split; auto. split; [split; [exact A|apply upd_same]|]. split.
    + intros nm. rewrite upd_other; auto. apply join_not_dir.
    + intros; apply upd_other; auto.
  - exists s. split; auto. split; [split; auto|]. auto.
Qed.
Lemma pkl_not_model : forall (name : string) i m nm c, In (nm, c) (model_files (O := obj M) false (name ++ "-model-" ++ show i) m) -> nm <> name ++ ".pkl".
Proof.
  intros name i m nm c I E. cbn in I. rewrite !app_assoc_s in I. 
  repeat match goal with H : _ \/ _ |- _ => destruct H as [H|H] | H : False |- _ => destruct H end;
    injection I as I _; rewrite E in I; apply app_inv_l in I; discriminate I.
Qed.

Lemma run_on_saves : forall (s : fs) d c src r, r_dir c = d -> ready s d "output" -> train (new_batch c) src = Some r ->
  exists s', run_on train s c src = (s', Done) /\
    s' (join (out d) (r_name c ++ ".pkl")) = File (Pickled (OBatch (trained (new_batch c) r))) /\
    (forall i m, nth_error (fst r) i = Some (Some m) ->
       s' (join (out d) (r_name c ++ "-model-" ++ show i ++ "-profile.csv")) = File (Text Profile (OModel m)) /\
       s' (join (out d) (r_name c ++ "-model-" ++ show i ++ "-contribution.csv")) = File (Text Contribution (OModel m))) /\
    (forall q, q <> out d -> (forall nm, q <> join (out d) nm) -> s' q = s q).
Proof.
  intros s d c src r Hd Hr Ht. destruct (ensure_ready _ _ _ Hr) as (s1 & E1 & U1 & F1 & K1).
  fold (out d) in *.
  set (b := trained (new_batch c) r). set (ms := map (option_map OModel) (ba_results b)).
  destruct (C58_pickle bad s1 (out d) (r_name c) false false ms (OBatch b) [] (OBatch b) U1 (F1 _)) as (_ & (E2 & L2 & K2) & _).
  destruct (batch_save s1 (r_name c) (out d) false true false ms (OBatch b)) as [s2 a2] eqn:B2. cbn [fst snd] in *. subst a2.
  assert (U2 : usable s2 (out d)) by (destruct U1 as [A B]; split; auto; rewrite K2; auto; intro E; symmetry in E; apply join_not_dir in E; auto).
  assert (F2 : forall nm, s2 (join (out d) nm) <> Dir).
  { intros nm. destruct (string_dec nm (r_name c ++ ".pkl")) as [->|N].
    - unfold load in L2. destruct U1 as [A _]. cbn [p_abs join] in *. rewrite A in L2. cbn in L2. destruct (s2 _); discriminate || congruence.
    - rewrite K2; auto. intro E; apply join_inj in E; auto. }
  destruct (C58_batch_models s2 (out d) (r_name c) false true ms (OBatch b) U2 eq_refl (fun _ _ nm _ _ _ => F2 nm)) as (s3 & B3 & W3 & K3).
  assert (P3 : s3 (join (out d) (r_name c ++ ".pkl")) = File (Pickled (OBatch b))).
  { rewrite K3. 2:{ intros i m nm c0 _ I E. apply join_inj in E; symmetry in E; revert E; eapply pkl_not_model; eauto. }
    unfold load in L2. destruct U1 as [A _]. cbn [p_abs join] in *. rewrite A in L2. cbn in L2.
    destruct (s2 _) as [| |[]]; try discriminate; try congruence; match type of L2 with context [bad ?x ?y] => destruct (bad x y) end; discriminate. }
  exists s3. split; [|split; [|split]].
  - unfold run_on. rewrite Ht, Hd, E1. fold (out d). fold b. fold ms. rewrite B2, B3. reflexivity.
  - exact P3.
  - intros i m Em. assert (N : nth_error ms i = Some (Some (OModel m))).
    { unfold ms. apply (map_nth_error (option_map OModel)) in Em. exact Em. }
    split; apply (W3 i (OModel m)); auto; cbn; rewrite !app_assoc_s; auto.
  - intros q N1 N2. rewrite K3 by (intros; apply N2). rewrite K2 by (apply N2). apply K1; auto.
Qed.

(** ** C91 *)
(** A run in an absolute project directory: the batch is found again by the
    commands that follow, the model asked for is the one trained, the tables of
    each successful model are there, and nothing outside the output directory
    has changed. *)
Theorem C91_run_then_analyse : forall (w : world) d c r,
  w_run w d = Some c -> w_sim w d = None -> r_dir c = d -> open_data content_ok w c = None ->
  ready (w_files w) d "output" -> train (new_batch c) (FromFiles (r_input c) (r_unc c)) = Some r ->
  exists s', run_cmd w d = (s', Done) /\
    s' (join (out d) (r_name c ++ ".pkl")) = File (Pickled (OBatch (trained (new_batch c) r))) /\
    (forall i, get_model (after w s') d i = select (trained (new_batch c) r) i) /\
    (forall i m, nth_error (fst r) i = Some (Some m) ->
       s' (join (out d) (r_name c ++ "-model-" ++ show i ++ "-profile.csv")) = File (Text Profile (OModel m)) /\
       s' (join (out d) (r_name c ++ "-model-" ++ show i ++ "-contribution.csv")) = File (Text Contribution (OModel m))) /\
    (forall q, q <> out d -> (forall nm, q <> join (out d) nm) -> s' q = w_files w q).
Proof.
  intros w d c r Hc Hs Hd Ho Hr Ht. destruct (run_on_saves _ _ _ _ _ Hd Hr Ht) as (s' & E & P & T & K).
  exists s'. split; [unfold Cli_Model.run_cmd; rewrite Hc, Hs, Ho; exact E|]. split; [exact P|]. split; [|split; [exact T|exact K]].
  intros i. unfold Cli_Model.get_model, after; cbn [w_run w_files]. rewrite Hc.
  replace (open_data content_ok _ c) with (open_data content_ok w c) by reflexivity. rewrite Ho.
  unfold batch_at, load. rewrite Hd. fold (out d). rewrite P. destruct Hr as (A & _). cbn [p_abs join out]. rewrite A. reflexivity.
Qed.
Print Assumptions C91_run_then_analyse.

(** A relative directory in the configuration: the whole batch is trained, the
    command ends without complaint, and only an empty output directory remains;
    no later command finds a model. *)
Theorem C91_relative_saves_nothing : forall (w : world) d c r,
  w_run w d = Some c -> w_sim w d = None -> p_abs (r_dir c) = false -> open_data content_ok w c = None ->
  w_files w (r_dir c) = Dir -> train (new_batch c) (FromFiles (r_input c) (r_unc c)) = Some r ->
  exists s', run_cmd w d = (s', Done) /\
    (forall q, q <> out (r_dir c) -> s' q = w_files w q) /\
    (w_files w (out (r_dir c)) = Missing -> s' (out (r_dir c)) = Dir) /\
    forall i, get_model (after w s') d i = inl AttrErr.
Proof.
  intros w d c r Hc Hs Hd Ho Hr Ht.
  assert (E : exists s1, ensure (w_files w) (r_dir c) "output" = Some s1 /\ (forall q, q <> out (r_dir c) -> s1 q = w_files w q) /\ (w_files w (out (r_dir c)) = Missing -> s1 (out (r_dir c)) = Dir)).
  { unfold ensure, exists_at. fold (out (r_dir c)). rewrite Hr. destruct (w_files w (out (r_dir c))) eqn:E.
    - exists (upd (w_files w) (out (r_dir c)) Dir). split; auto. split; [intros; apply upd_other; auto|intros; apply upd_same].
    - exists (w_files w); repeat split; auto; congruence.
    - exists (w_files w); repeat split; auto; congruence. }
  destruct E as (s1 & E1 & K1 & D1). exists s1.
  assert (A : p_abs (out (r_dir c)) = false) by exact Hd.
  assert (R : forall pm pb hd res o, batch_save s1 (r_name c) (out (r_dir c)) pm pb hd res o = (s1, Nothing)) by (intros; unfold batch_save, guarded; rewrite A; reflexivity).
  split; [|split; [|split]]; auto.
  - unfold Cli_Model.run_cmd. rewrite Hc, Hs, Ho. unfold run_on. rewrite Ht, E1. fold (out (r_dir c)). rewrite !R. reflexivity.
  - intros i. unfold Cli_Model.get_model, after; cbn [w_run w_files]. rewrite Hc.
    replace (open_data content_ok _ c) with (open_data content_ok w c) by reflexivity. rewrite Ho.
    unfold batch_at, load. cbn [join p_abs]. rewrite Hd. reflexivity.
Qed.
Print Assumptions C91_relative_saves_nothing.

(** ** What a run starts from *)
(** Without a run configuration, or with data that cannot be opened, nothing is
    trained or written and the command fails with the reason. *)
Theorem C92_run_needs_data : forall (w : world) d,
  (w_run w d = None -> run_cmd w d = (w_files w, Raises KeyErr)) /\
  (forall c e, w_run w d = Some c -> w_sim w d = None -> open_data content_ok w c = Some e -> run_cmd w d = (w_files w, Raises e)).
Proof.
  intros w d. unfold Cli_Model.run_cmd. split; [intros ->; reflexivity|]. intros c e -> -> ->. reflexivity.
Qed.
Print Assumptions C92_run_needs_data.
(** With a simulator configured, the simulator saved in the project directory is
    what the batch is trained on, whatever the data section of the run
    configuration says (the files need not exist). *)
Theorem C96_run_uses_simulator : forall (w : world) d c sc o r,
  w_run w d = Some c -> w_sim w d = Some sc -> r_dir c = d -> ready (w_files w) d "output" ->
  w_files w (join d sim_pkl) = File (Pickled (OSim o)) ->
  (train (new_batch c) (FromSim o) = None -> run_cmd w d = (w_files w, Raises OtherError)) /\
  (train (new_batch c) (FromSim o) = Some r ->
   exists s', run_cmd w d = (s', Done) /\
     s' (join (out d) (r_name c ++ ".pkl")) = File (Pickled (OBatch (trained (new_batch c) r))) /\
     (forall q, q <> out d -> (forall nm, q <> join (out d) nm) -> s' q = w_files w q)).
Proof.
  intros w d c sc o r Hc Hs Hd Hr Hf.
  assert (G : get_sim bad (w_files w) d sc = (w_files w, inr o)).
  { unfold get_sim, exists_at, load. rewrite Hf. destruct Hr as (A & _). cbn [join p_abs]. rewrite A. reflexivity. }
  unfold Cli_Model.run_cmd. rewrite Hc, Hs, G. split.
  - intros Ht. unfold run_on. rewrite Ht. reflexivity.
  - intros Ht. destruct (run_on_saves _ _ _ _ _ Hd Hr Ht) as (s' & E & P & _ & K). exists s'. auto.
Qed.
Print Assumptions C96_run_uses_simulator.

(** [setup] writes the directory into the configuration the way it was typed. *)
Theorem C91_setup_keeps_directory : forall (w : world) d, w_files w d = Dir ->
  exists c, snd (setup_cmd w d) = Done /\ w_run (fst (setup_cmd w d)) d = Some c /\ r_dir c = d /\ r_index c = "0" /\
    (r_name c = "" /\ r_input c = mkPath false [] /\ r_unc c = mkPath false [] /\ r_init_norm c = "True" /\ r_parallel c = "True" /\ r_verbose c = "False") /\
    (r_max_iter c = 20000 /\ r_cn c = 50)%Z /\ r_delta c = (/ 10 ^ 4)%R /\
    (forall q, w_files (fst (setup_cmd w d)) q = w_files w q) /\ (forall q, q <> d -> w_run (fst (setup_cmd w d)) q = w_run w q).
Proof.
  intros w d H. unfold setup_cmd, exists_at. rewrite H. cbv beta iota. rewrite H. cbn [fst snd w_run w_files].
  exists (default_config d). repeat split; auto; try (cbn; field).
  - unfold set_at. replace (path_eqb d d) with true; auto. symmetry; apply path_eqb_iff; auto.
  - intros q N. unfold set_at. destruct (path_eqb q d) eqn:E; auto. apply path_eqb_iff in E; congruence.
Qed.
Print Assumptions C91_setup_keeps_directory.

(** When the configured directory is not the one given on the command line, the
    analysis commands find the solution and run-error and run-constrained do not. *)
Theorem C91_two_directories : forall (w : world) d c b i fd fb fbd e cc,
  w_run w d = Some c -> w_error w d = Some e -> e_constrained e = "" -> w_constr w d = Some cc ->
  open_data content_ok w c = None -> p_abs d = true -> p_abs (r_dir c) = true ->
  w_files w (join (out (r_dir c)) (r_name c ++ ".pkl")) = File (Pickled (OBatch b)) ->
  w_files w (join (out d) (r_name c ++ ".pkl")) = Missing ->
  fd || fb || fbd = true -> w_files w d = Dir ->
  get_model w d i = select b i /\ snd (run_error w d fd fb fbd) = Raises AttrErr /\ snd (run_constrained w d) = Raises AttrErr.
Proof.
  intros w d c b i fd fb fbd e cc Hc He Hk Hcc Ho A A' P Q F Hd. split; [|split].
  - unfold Cli_Model.get_model. rewrite Hc, Ho. unfold batch_at, load. fold (out (r_dir c)). rewrite P. cbn [join p_abs out]. rewrite A'. reflexivity.
  - unfold Cli_Model.run_error. rewrite F, Hc, He, Ho. cbn [negb].
    unfold batch_at at 1, load. fold (out d). rewrite Q. cbn [join p_abs out]. rewrite A. cbn [negb].
    unfold error_on, ensure. destruct (exists_at (w_files w) (join d "error")).
    + unfold error_model. rewrite Hk. cbn [truthy String.eqb negb]. unfold batch_at, load. fold (out d). rewrite Q. cbn [join p_abs out]. rewrite A. reflexivity.
    + rewrite Hd. unfold error_model. rewrite Hk. cbn [truthy String.eqb negb]. unfold batch_at, load. fold (out d).
      rewrite upd_other. 2:{ intro E. apply (f_equal p_parts) in E. cbn in E. apply (f_equal (@List.length string)) in E. rewrite !app_length in E. cbn in E. lia. }
      rewrite Q. cbn [join p_abs out]. rewrite A. reflexivity.
  - unfold Cli_Model.run_constrained. rewrite Hc, Hcc, Ho. unfold batch_at, load. fold (out d). rewrite Q. cbn [join p_abs out]. rewrite A. reflexivity.
Qed.
Print Assumptions C91_two_directories.

(** ** What the commands pickle *)
(** [gains s s' P]: whatever is pickled in [s'] was so in [s], or satisfies [P]. *)
Definition gains (s s' : fs) (P : path -> obj M -> Prop) : Prop :=
  forall q o, s' q = File (Pickled o) -> s q = File (Pickled o) \/ P q o.
Definition nothing : path -> obj M -> Prop := fun _ _ => False.
Lemma gains_refl : forall s P, gains s s P.
Proof. red; auto. Qed.
Lemma gains_trans : forall s1 s2 s3 P, gains s1 s2 P -> gains s2 s3 P -> gains s1 s3 P.
Proof. intros s1 s2 s3 P A B q o E. destruct (B q o E); auto. Qed.
Lemma gains_weak : forall s1 s2 (P Q : path -> obj M -> Prop), gains s1 s2 P -> (forall q o, P q o -> Q q o) -> gains s1 s2 Q.
Proof. intros s1 s2 P Q A B q o E. destruct (A q o E); auto. Qed.
Lemma gains_writes : forall l (s : fs) d (P : path -> obj M -> Prop), (forall nm o, In (nm, Pickled o) l -> P (join d nm) o) -> gains s (fst (writes s d l)) P.
Proof.
  induction l as [|[nm c] l IH]; intros s d P H; cbn [writes]; [apply gains_refl|].
  destruct (write s d nm c) as [s1|] eqn:E; [|apply gains_refl].
  apply gains_trans with s1; [|apply IH; intros; apply H; right; auto].
  unfold write in E. assert (X : s1 = upd s (join d nm) (File c)) by (destruct (s d); try discriminate; destruct (s (join d nm)); congruence).
  subst s1. intros q o. unfold upd. destruct (path_eqb q (join d nm)) eqn:Q; auto. apply path_eqb_iff in Q; subst q. intros F; injection F as ->. right; apply H; left; auto.
Qed.
Lemma gains_guarded : forall (s : fs) d no body P, gains s (fst body) P -> gains s (fst (guarded s d no body)) P.
Proof. intros; unfold guarded. destruct (negb (p_abs d)); [apply gains_refl|]. destruct (exists_at s d); auto. apply gains_refl. Qed.
Lemma gains_mkdir : forall (s s' : fs) d n P, ensure s d n = Some s' -> gains s s' P.
Proof.
  unfold ensure; intros s s' d n P. destruct (exists_at s (join d n)); [intros E; injection E as <-; apply gains_refl|].
  destruct (s d); try discriminate. intros E; injection E as <-. intros q o. unfold upd. destruct (path_eqb q (join d n)); [discriminate|auto].
Qed.
Ltac texts := let I := fresh "I" in intros ? ? I; cbn in I; repeat (destruct I as [I|I]; [try discriminate I|]); try destruct I.
Lemma gains_sa_text : forall (s : fs) nm d hd o, gains s (fst (sa_save s nm d false hd o)) nothing.
Proof. intros; apply gains_guarded. destruct hd; cbn [finish fst]; apply gains_writes; texts. Qed.
Lemma gains_batch_models : forall l (s : fs) nm d hd i, gains s (fst (batch_models s nm d false hd l i)) nothing.
Proof.
  induction l as [|[o|] l IH]; intros; cbn [batch_models]; [apply gains_refl| |apply IH].
  pose proof (gains_sa_text s (nm ++ "-model-" ++ show i) d hd o) as G. destruct (sa_save s _ d false hd o) as [s1 [| | |]]; cbn [fst] in *; auto; apply gains_trans with s1; auto.
Qed.
Lemma gains_batch_text : forall (s : fs) nm d hd l o, gains s (fst (batch_save s nm d false false hd l o)) nothing.
Proof.
  intros; apply gains_guarded. pose proof (gains_batch_models l s nm d hd 0) as G. destruct (batch_models s nm d false hd l 0) as [s1 [|]]; cbn [fst] in *; auto.
Qed.
Definition at_path (d : path) (nm : string) (x : obj M) : path -> obj M -> Prop := fun q o => q = join d nm /\ o = x.
Lemma gains_pickle : forall (s : fs) d nm o a, gains s (fst (finish (writes s d [(nm, Pickled o)]) a)) (at_path d nm o).
Proof. intros; cbn [finish fst]; apply gains_writes. intros nm' o' [E|[]]; injection E as <- <-; split; auto. Qed.
Lemma gains_batch_pickle : forall (s : fs) nm d pm hd l o, gains s (fst (batch_save s nm d pm true hd l o)) (at_path d (nm ++ ".pkl") o).
Proof. intros; apply gains_guarded, gains_pickle. Qed.
Lemma gains_disp : forall (s : fs) nm d pk o, gains s (fst (disp_save s nm d pk o)) (if pk then at_path d (nm ++ ".pkl") o else nothing).
Proof. intros s nm d [] o; apply gains_guarded; [apply gains_pickle|]. apply gains_writes; texts. Qed.
Lemma gains_bs : forall (s : fs) nm d pk o, gains s (fst (bs_save s nm d pk o)) (if pk then at_path d (nm ++ ".pkl") o else nothing).
Proof. intros s nm d [] o; apply gains_guarded; [apply gains_pickle|]. apply gains_writes; texts. Qed.
Lemma gains_disps : forall l (s : fs) nm d, gains s (fst (disp_saves s nm d l)) nothing.
Proof.
  induction l as [|[k o] l IH]; intros; cbn [disp_saves]; [apply gains_refl|].
  pose proof (gains_disp s (nm ++ "-" ++ show k) d false o) as G. destruct (disp_save s _ d false o) as [s1 [| | |]]; cbn [fst] in *; auto; apply gains_trans with s1; auto.
Qed.
Lemma gains_bsdisp : forall (s : fs) nm d pk bs l o, gains s (fst (bsdisp_save s nm d pk bs l o)) (if pk then at_path d (nm ++ ".pkl") o else nothing).
Proof.
  intros s nm d [] bs l o; apply gains_guarded; [apply gains_pickle|].
  assert (G1 : gains s (fst (writes s d [(nm ++ "-metadata.json", Text Metadata o)])) nothing) by (apply gains_writes; texts).
  destruct (writes s d [(nm ++ "-metadata.json", Text Metadata o)]) as [s1 []]; cbn [fst] in *; auto.
  pose proof (gains_bs s1 nm d false bs) as G2. destruct (bs_save s1 nm d false bs) as [s2 a]. cbn [fst] in *.
  assert (G : gains s s2 nothing) by (apply gains_trans with s1; auto).
  assert (K : gains s (fst (match disp_saves s2 nm d l with (s3, Some e) => (s3, Raised e) | (s3, None) => finish (writes s3 d [(nm ++ "-results.csv", Text Compiled o)]) (Path (join d (nm ++ ".pkl"))) end)) nothing).
  { pose proof (gains_disps l s2 nm d) as G3. destruct (disp_saves s2 nm d l) as [s3 [|]]; cbn [fst] in *.
    - apply gains_trans with s2; auto.
    - apply gains_trans with s2; auto. apply gains_trans with s3; auto. cbn [finish fst]. apply gains_writes; texts. }
  destruct a; auto.
Qed.
Lemma gains_constr : forall (s : fs) nm d pk inner o, gains s (fst (constrained_save s nm d pk inner o)) (fun q x => x = inner).
Proof.
  intros s nm d pk inner o; apply gains_guarded.
  assert (G1 : gains s (fst (sa_save s ("constrained_model-" ++ nm) d pk true inner)) (fun q x => x = inner)).
  { destruct pk; [apply gains_guarded|eapply gains_weak; [apply gains_sa_text|intros ? ? []]]. eapply gains_weak; [apply gains_pickle|]. intros q x []; auto. }
  destruct (sa_save s _ d pk true inner) as [s1 a]; cbn [fst] in *.
  assert (G2 : gains s (fst (finish (writes s1 d [(("constrained_model-" ++ nm) ++ "-metadata.json", Text Metadata o)]) Nothing)) (fun q x => x = inner)).
  { apply gains_trans with s1; auto. cbn [finish fst]. apply gains_writes; texts. }
  destruct a; auto.
Qed.
Lemma gains_sim : forall (s : fs) nm d o, gains s (fst (sim_save s nm d true o)) (fun q x => x = o).
Proof. intros; apply gains_guarded. cbn [finish fst]. apply gains_writes. intros n x I; cbn in I. destruct I as [I|I]; [injection I; auto|]. repeat (destruct I as [I|I]; [discriminate I|]); destruct I. Qed.
Lemma gains_get_sim : forall (s : fs) d sc, gains s (fst (get_sim bad s d sc)) (fun q x => exists y, x = OSim y).
Proof.
  intros; unfold get_sim. destruct (exists_at s (join d sim_pkl)).
  - destruct (load bad s (join d sim_pkl)) as [[]| |]; apply gains_refl.
  - pose proof (gains_sim s "synthetic" d (OSim (mkSim (sc_seed sc) (truthy (sc_outliers sc))))) as G.
    destruct (sim_save s "synthetic" d true _) as [s1 []]; cbn [fst] in *; (eapply gains_weak; [exact G|]); intros q x ->; eauto.
Qed.

(** What the commands are allowed to pickle where. *)
Definition fine (q : path) (o : obj M) : Prop :=
  match o with
  | OConstr _ => False
  | OBoot _ => exists d n, q = join d ("bs-" ++ n)
  | OBsDisp _ => exists d n, q = join d ("bsdisp-" ++ n)
  | OBatch _ => exists d n, q = join (out d) n
  | OModel _ => exists d n, q = join d ("constrained_model-" ++ n)
  | ODisp _ => exists d n, q = join d ("disp-" ++ n)
  | OSim _ => exists d, q = join d sim_pkl
  end.
Definition tidy (s : fs) : Prop := forall q o, s q = File (Pickled o) -> fine q o.
Lemma gains_constr_path : forall (s : fs) nm d pk inner o, gains s (fst (constrained_save s nm d pk inner o)) (fun q x => x = inner /\ exists n, q = join d ("constrained_model-" ++ n)).
Proof.
  intros s nm d pk inner o; apply gains_guarded.
  set (P := fun q x => x = inner /\ exists n, q = join d ("constrained_model-" ++ n)).
  assert (G1 : gains s (fst (sa_save s ("constrained_model-" ++ nm) d pk true inner)) P).
  { destruct pk; [apply gains_guarded|eapply gains_weak; [apply gains_sa_text|intros ? ? []]]. eapply gains_weak; [apply gains_pickle|]. intros q x [-> ->]; split; auto. exists (nm ++ ".pkl"). rewrite app_assoc_s; auto. }
  destruct (sa_save s _ d pk true inner) as [s1 a]; cbn [fst] in *.
  assert (G2 : gains s (fst (finish (writes s1 d [(("constrained_model-" ++ nm) ++ "-metadata.json", Text Metadata o)]) Nothing)) P).
  { apply gains_trans with s1; auto. cbn [finish fst]. apply gains_writes; texts. }
  destruct a; auto.
Qed.
Lemma gains_sim_path : forall (s : fs) d sc, gains s (fst (get_sim bad s d sc)) fine.
Proof.
  intros; unfold get_sim. destruct (exists_at s (join d sim_pkl)).
  - destruct (load bad s (join d sim_pkl)) as [[]| |]; apply gains_refl.
  - set (o := OSim _). assert (G : gains s (fst (sim_save s "synthetic" d true o)) fine).
    { apply gains_guarded. cbn [finish fst]. apply gains_writes. intros n x I; cbn in I. destruct I as [I|I]; [injection I; intros <- <-; exists d; auto|]. repeat (destruct I as [I|I]; [discriminate I|]); destruct I. }
    destruct (sim_save s "synthetic" d true _) as [s1 []]; cbn [fst] in *; auto.
Qed.
Lemma gains_nothing : forall s s' P, gains s s' nothing -> gains s s' P.
Proof. intros; eapply gains_weak; [eauto|intros ? ? []]. Qed.
Lemma gains_run_on : forall (s : fs) c src, gains s (fst (run_on train s c src)) fine.
Proof.
  intros; unfold run_on. destruct (train (new_batch c) src) as [r|]; [|apply gains_refl].
  destruct (ensure s (r_dir c) "output") as [s1|] eqn:E; [|apply gains_refl].
  apply (gains_mkdir _ _ _ _ fine) in E. fold (out (r_dir c)).
  set (ms := map _ _). set (o := OBatch _).
  assert (G2 : gains s1 (fst (batch_save s1 (r_name c) (out (r_dir c)) false true false ms o)) fine).
  { eapply gains_weak; [apply gains_batch_pickle|]. intros q x [-> ->]. exists (r_dir c); eauto. }
  destruct (batch_save s1 _ _ false true false ms o) as [s2 a2]. cbn [fst] in G2.
  assert (G3 : gains s2 (fst (batch_save s2 (r_name c) (out (r_dir c)) false false true ms o)) fine) by (apply gains_nothing, gains_batch_text).
  assert (G12 : gains s s2 fine) by (apply gains_trans with s1; auto).
  assert (K : gains s (fst (match batch_save s2 (r_name c) (out (r_dir c)) false false true ms o with (s3, Raised _) => (s3, Raises OSError) | (s3, _) => (s3, @Done M) end)) fine).
  { destruct (batch_save s2 _ _ false false true ms o) as [s3 a3]; cbn [fst] in G3. assert (gains s s3 fine) by (apply gains_trans with s2; auto). destruct a3; auto. }
  destruct a2; auto.
Qed.
Lemma gains_run : forall w d, gains (w_files w) (fst (run_cmd w d)) fine.
Proof.
  intros; unfold Cli_Model.run_cmd. destruct (w_run w d) as [c|]; [|apply gains_refl]. destruct (w_sim w d) as [sc|].
  - pose proof (gains_sim_path (w_files w) d sc) as G. destruct (get_sim bad (w_files w) d sc) as [s1 [e|o]]; cbn [fst] in *; auto.
    apply gains_trans with s1; auto. apply gains_run_on.
  - destruct (open_data content_ok w c); [apply gains_refl|]. apply gains_run_on.
Qed.
Lemma gains_step_disp : forall s d nm dd, gains s (fst (step_disp disp_runs s d nm dd)) fine.
Proof.
  intros; unfold step_disp. destruct (disp_runs dd); [|apply gains_refl].
  assert (G1 : gains s (fst (disp_save s ("disp-" ++ nm) d true (ODisp dd))) fine).
  { eapply gains_weak; [apply (gains_disp s ("disp-" ++ nm) d true)|]. intros q x [-> ->]. exists d, (nm ++ ".pkl"). rewrite app_assoc_s; auto. }
  destruct (disp_save s _ d true _) as [s1 a1]; cbn [fst] in G1.
  assert (G2 : gains s1 (fst (disp_save s1 ("disp-" ++ nm) d false (ODisp dd))) fine) by (apply gains_nothing, (gains_disp s1 _ d false)).
  assert (K : gains s (fst (match disp_save s1 ("disp-" ++ nm) d false (ODisp dd) with (s2, Raised _) => (s2, Some OSError) | (s2, _) => (s2, None) end)) fine).
  { destruct (disp_save s1 _ d false _) as [s2 a2]; cbn [fst] in G2. assert (gains s s2 fine) by (apply gains_trans with s1; auto). destruct a2; auto. }
  destruct a1; auto.
Qed.
Lemma gains_step_boot : forall s d nm dd, gains s (fst (step_boot boot_runs s d nm dd)) fine.
Proof.
  intros; unfold step_boot. destruct (boot_runs dd); [|apply gains_refl].
  assert (G1 : gains s (fst (bs_save s ("bs-" ++ nm) d true (OBoot dd))) fine).
  { eapply gains_weak; [apply (gains_bs s ("bs-" ++ nm) d true)|]. intros q x [-> ->]. exists d, (nm ++ ".pkl"). rewrite app_assoc_s; auto. }
  destruct (bs_save s _ d true _) as [s1 a1]; cbn [fst] in G1.
  assert (G2 : gains s1 (fst (bs_save s1 ("bs-" ++ nm) d false (OBoot dd))) fine) by (apply gains_nothing, (gains_bs s1 _ d false)).
  assert (K : gains s (fst (match bs_save s1 ("bs-" ++ nm) d false (OBoot dd) with (s2, Raised _) => (s2, Some OSError) | (s2, _) => (s2, None) end)) fine).
  { destruct (bs_save s1 _ d false _) as [s2 a2]; cbn [fst] in G2. assert (gains s s2 fine) by (apply gains_trans with s1; auto). destruct a2; auto. }
  destruct a1; auto.
Qed.
Lemma gains_step_bsd : forall s d nm par dd, gains s (fst (step_bsd bsd_runs bsd_disps s d nm par dd)) fine.
Proof.
  intros; unfold step_bsd. destruct (par && negb (call_ok 8 1)); [apply gains_refl|]. destruct (bsd_runs dd); [|apply gains_refl].
  set (bo := OBoot (bd_boot dd)). set (l := bsd_disps dd).
  assert (G1 : gains s (fst (bsdisp_save s ("bsdisp-" ++ nm) d true bo l (OBsDisp dd))) fine).
  { eapply gains_weak; [apply (gains_bsdisp s ("bsdisp-" ++ nm) d true)|]. intros q x [-> ->]. exists d, (nm ++ ".pkl"). rewrite app_assoc_s; auto. }
  destruct (bsdisp_save s _ d true bo l _) as [s1 a1]; cbn [fst] in G1.
  assert (G2 : gains s1 (fst (bsdisp_save s1 ("bsdisp-" ++ nm) d false bo l (OBsDisp dd))) fine) by (apply gains_nothing, (gains_bsdisp s1 _ d false)).
  assert (K : gains s (fst (match bsdisp_save s1 ("bsdisp-" ++ nm) d false bo l (OBsDisp dd) with (s2, Raised _) => (s2, Some OSError) | (s2, _) => (s2, None) end)) fine).
  { destruct (bsdisp_save s1 _ d false bo l _) as [s2 a2]; cbn [fst] in G2. assert (gains s s2 fine) by (apply gains_trans with s1; auto). destruct a2; auto. }
  destruct a1; auto.
Qed.
Notation error_steps := (error_steps bad opt_block seed_of disp_runs boot_runs bsd_runs bsd_disps).
Lemma gains_steps : forall s0 d c e i m fd fb fbd, gains s0 (fst (error_steps s0 d c e i m fd fb fbd)) fine.
Proof.
  intros. unfold Cli_Model.error_steps. set (dd := mkDisp m i (features_of (e_disp_features e))). cbv zeta.
  assert (G1 : gains s0 (fst (if fd then step_disp disp_runs s0 (join d "error") (r_name c) dd else (s0, None))) fine) by (destruct fd; [apply gains_step_disp|apply gains_refl]).
  destruct (if fd then _ else _) as [s1 [x|]]; cbn [fst] in G1; [exact G1|].
  set (b := mkBoot m i (e_bs_n e) _ _).
  assert (G2 : gains s1 (fst (if fb then step_boot boot_runs s1 (join d "error") (r_name c) b else (s1, None))) fine) by (destruct fb; [apply gains_step_boot|apply gains_refl]).
  destruct (if fb then step_boot _ _ _ _ _ else _) as [s2 [x|]]; cbn [fst] in G2; [eapply gains_trans; eauto|]. assert (H2 : gains s0 s2 fine) by (eapply gains_trans; eauto).
  destruct fbd; [|exact H2].
  destruct (boot_of _ _ _ _ _ _) as [x|bo]; [exact H2|].
  pose proof (gains_step_bsd s2 (join d "error") (r_name c) (says_true (r_parallel c)) (mkBsd m i bo (features_of (e_disp_features e)))) as G3.
  destruct (step_bsd _ _ s2 _ _ _ _) as [s3 [x|]]; cbn [fst] in *; eapply gains_trans; eauto.
Qed.
Lemma gains_run_error : forall w d a b e, gains (w_files w) (fst (run_error w d a b e)) fine.
Proof.
  intros w d fd fb fbd; unfold Cli_Model.run_error. destruct (negb _); [apply gains_refl|].
  destruct (w_run w d) as [c|]; [|apply gains_refl]. destruct (w_error w d) as [e|]; [|apply gains_refl].
  destruct (open_data content_ok w c); [apply gains_refl|].
  assert (K : gains (w_files w) (fst (error_on bad opt_block seed_of disp_runs boot_runs bsd_runs bsd_disps c_train (w_files w) d c e fd fb fbd)) fine).
  { unfold error_on. destruct (ensure (w_files w) d "error") as [s0|] eqn:E0; [|apply gains_refl]. apply (gains_mkdir _ _ _ _ fine) in E0.
    destruct (error_model bad c_train s0 d c e) as [x|[i m]]; [exact E0|]. eapply gains_trans; [exact E0|apply gains_steps]. }
  destruct (batch_at bad (w_files w) d (r_name c)); [exact K|exact K|apply gains_refl].
Qed.
Lemma gains_run_constrained : forall w d, gains (w_files w) (fst (run_constrained w d)) fine.
Proof.
  intros w d; unfold Cli_Model.run_constrained. destruct (w_run w d) as [c|]; [|apply gains_refl]. destruct (w_constr w d) as [cc|]; [|apply gains_refl].
  destruct (open_data content_ok w c); [apply gains_refl|].
  destruct (batch_at bad (w_files w) d (r_name c)) as [[]| |]; try apply gains_refl.
  destruct (select b (cc_selected cc)) as [x|m]; [apply gains_refl|]. destruct (sizes m) as [[sm sn] k].
  destruct (c_settings b cc) as [[mi de] cn]. set (cm := mkCM _ _ _ _ _ _).
  destruct (c_train cm) as [[m'|]|]; try apply gains_refl.
  destruct (ensure (w_files w) d "constrained") as [s0|] eqn:E0; [|apply gains_refl]. apply (gains_mkdir _ _ _ _ fine) in E0.
  set (dir := join d "constrained"). cbv zeta.
  assert (G : forall s pk, gains s (fst (constrained_save s (r_name c) dir pk (OModel m') (OConstr cm))) fine).
  { intros; eapply gains_weak; [apply gains_constr_path|]. intros q x (-> & n & ->). exists dir, n; auto. }
  pose proof (G s0 true) as G1. destruct (constrained_save s0 (r_name c) dir true (OModel m') (OConstr cm)) as [s1 a1]; cbn [fst] in G1.
  assert (H1 : gains (w_files w) s1 fine) by (eapply gains_trans; eauto).
  pose proof (G s1 false) as G2.
  assert (K : gains (w_files w) (fst (match constrained_save s1 (r_name c) dir false (OModel m') (OConstr cm) with (s2, Raised _) => (s2, Raises OSError) | (s2, _) => (s2, @Done M) end)) fine).
  { destruct (constrained_save s1 (r_name c) dir false (OModel m') (OConstr cm)) as [s2 a2]; cbn [fst] in G2. assert (gains (w_files w) s2 fine) by (eapply gains_trans; eauto). destruct a2; auto. }
  destruct a1; auto.
Qed.
Lemma tidy_gains : forall s s', tidy s -> gains s s' fine -> tidy s'.
Proof. intros s s' T G q o E. destruct (G q o E); auto. Qed.
(** Whatever is done with the commands, in whatever order and with whatever
    configurations, keeps the files tidy. *)
Lemma tidy_exec : forall l w, tidy (w_files w) -> tidy (w_files (exec w l)).
Proof.
  induction l as [|x l IH]; intros w T; [exact T|]. cbn [Cli_Model.exec fold_left]. apply IH.
  destruct x; cbn [exec1].
  - unfold setup_cmd. destruct (exists_at (w_files w) d); [destruct (w_files w d) eqn:E; auto|].
    destruct (w_files w (parent d)); auto. rewrite upd_same. cbn [fst w_files]. apply tidy_gains with (w_files w); auto.
    intros q o. unfold upd. destruct (path_eqb q d); [discriminate|auto].
  - unfold generate_cmd, after; cbn [w_files]. destruct (w_sim w d) as [sc|]; [|exact T].
    apply tidy_gains with (w_files w); auto. pose proof (gains_sim_path (w_files w) d sc) as G. destruct (get_sim bad (w_files w) d sc) as [s1 [[]|]]; exact G.
  - eapply tidy_gains; [exact T|apply gains_run].
  - eapply tidy_gains; [exact T|apply gains_run_error].
  - eapply tidy_gains; [exact T|apply gains_run_constrained].
  - exact T.
Qed.

(** ** C93 *)
Lemma join_last : forall d d' a b, join d a = join d' b -> d = d' /\ a = b.
Proof. intros [x l] [y m] a b E. injection E as E1 E2. apply app_inj_tail in E2. destruct E2; subst; auto. Qed.
Definition error_file (w : world) (d : path) (prefix : string) (x : node (obj M)) : Prop :=
  exists c, w_run w d = Some c /\ w_files w (join (join d "error") (prefix ++ r_name c ++ ".pkl")) = x.
Lemma show_inv : forall w d fd fb fbd o, show_error bad w d fd fb fbd = Shows o ->
  (fd = true /\ fb = true /\ fbd = true) /\ p_abs d = true /\ error_file w d "disp-" (File (Pickled o)) /\ is_result o = true.
Proof.
  intros w d fd fb fbd o. unfold show_error. destruct fd, fb, fbd; cbn [negb andb]; try discriminate.
  unfold get_error_model. destruct (w_run w d) as [c|] eqn:Hc; [|discriminate]. unfold load. cbn [join p_abs].
  destruct (p_abs d) eqn:A; cbn [negb]; [|discriminate].
  destruct (w_files w _) as [| |[x|t x|]] eqn:E; try discriminate.
  - destruct (is_result x) eqn:R; [|discriminate]. intros H; injection H as ->. repeat split; auto. exists c; auto.
  - destruct (bad t x); discriminate.
Qed.
(** The error analysis shows something only with all three methods selected at
    once, and then it is the saved displacement, whatever else was saved. *)
Theorem C93_needs_all_three : forall w d fd fb fbd,
  (~ (fd = true /\ fb = true /\ fbd = true) -> show_error bad w d fd fb fbd = Notice) /\
  (forall x, p_abs d = true -> error_file w d "disp-" (File (Pickled (ODisp x))) -> show_error bad w d true true true = Shows (ODisp x)) /\
  (forall o, show_error bad w d fd fb fbd = Shows o ->
     (fd = true /\ fb = true /\ fbd = true) /\ p_abs d = true /\ error_file w d "disp-" (File (Pickled o))).
Proof.
  intros w d fd fb fbd. split; [|split].
  - intros N. unfold show_error. destruct fd, fb, fbd; auto. destruct N; auto.
  - intros x A (c & Hc & E). unfold show_error, get_error_model. rewrite Hc. unfold load. rewrite E. cbn [join p_abs]. rewrite A. reflexivity.
  - intros o H. apply show_inv in H. tauto.
Qed.
Print Assumptions C93_needs_all_three.
(** No sequence of commands and edits leads to a bootstrap or a
    bootstrap-displacement being shown. *)
Theorem C93_bootstrap_never_shown : forall w l d fd fb fbd o, tidy (w_files w) ->
  show_error bad (exec w l) d fd fb fbd = Shows o -> exists x, o = ODisp x.
Proof.
  intros w l d fd fb fbd o T H. apply show_inv in H. destruct H as (_ & _ & (c & Hc & E) & R).
  apply (tidy_exec l w T) in E. destruct o; try discriminate R; [eauto| |]; destruct E as (d' & n & E); apply join_last in E; destruct E as [_ E]; discriminate E.
Qed.
Print Assumptions C93_bootstrap_never_shown.

(** ** C94 *)
(** run-error on a base model: what it needs, and the model it is about. *)
Definition project (w : world) (d : path) (c : rconfig) (e : econfig) (i : Z) (m : M) : Prop :=
  w_run w d = Some c /\ w_error w d = Some e /\ open_data content_ok w c = None /\ e_constrained e = "" /\ ready (w_files w) d "error" /\
  exists b, w_files w (join (out d) (r_name c ++ ".pkl")) = File (Pickled (OBatch b)) /\ select b (e_selected e) = inr m /\
    (e_selected e <> (-1)%Z -> i = e_selected e) /\ (e_selected e = (-1)%Z -> ba_best b = Some i).
Lemma project_steps : forall w d c e i m fd fb fbd, project w d c e i m -> fd || fb || fbd = true ->
  exists s0, run_error w d fd fb fbd = error_steps s0 d c e i m fd fb fbd /\ usable s0 (join d "error") /\
    (forall nm, s0 (join (join d "error") nm) <> Dir) /\ forall q, q <> join d "error" -> s0 q = w_files w q.
Proof.
  intros w d c e i m fd fb fbd (Hc & He & Ho & Hk & Hr & b & Hb & Hs & Hi1 & Hi2) F.
  assert (Hi : i = selected b (e_selected e)).
  { unfold selected. destruct (Z.eqb_spec (e_selected e) (-1)) as [E|E]; [rewrite (Hi2 E); reflexivity|exact (Hi1 E)]. }
  destruct (ensure_ready _ _ _ Hr) as (s0 & E0 & U0 & F0 & K0). exists s0. split; auto.
  unfold Cli_Model.run_error. rewrite F, Hc, He, Ho. cbn [negb].
  destruct Hr as (A & _).
  assert (B : forall s : fs, s (join (out d) (r_name c ++ ".pkl")) = File (Pickled (OBatch b)) -> batch_at bad s d (r_name c) = Object (OBatch b)).
  { intros s E. unfold batch_at, load. fold (out d). rewrite E. cbn [join p_abs out]. rewrite A. reflexivity. }
  rewrite (B _ Hb). unfold error_on. rewrite E0. unfold error_model. rewrite Hk. cbn [truthy String.eqb negb].
  rewrite (B s0). { rewrite Hs, <- Hi. reflexivity. }
  rewrite K0; auto. intro E. apply (f_equal p_parts) in E. cbn in E. apply (f_equal (@List.length string)) in E. rewrite !app_length in E. cbn in E. lia.
Qed.
Definition want (l : list Z) (f : option (list Z)) : Prop := (l = [] -> f = None) /\ (l <> [] -> f = Some l).
Lemma features_want : forall l f, want l f -> features_of l = f.
Proof. intros [|z l] f [A B]; cbn; [symmetry; auto|]. symmetry; apply B; congruence. Qed.
Lemma saved_step : forall (s : fs) d nm o (save : fs -> bool -> fs * answer) texts',
  usable s d -> (forall n, s (join d n) <> Dir) -> 
  (forall s, usable s d -> (forall n, s (join d n) <> Dir) -> exists a s1, save s true = (s1, a) /\ (forall x, a <> Raised x) /\ wrote s s1 d [(nm ++ ".pkl", Pickled o)]) ->
  (forall s, usable s d -> (forall n, s (join d n) <> Dir) -> exists a s1, save s false = (s1, a) /\ (forall x, a <> Raised x) /\ wrote s s1 d texts') ->
  ~ In (nm ++ ".pkl") (map fst texts') ->
  exists s2, (match save s true with
    | (s1, Raised _) => (s1, Some OSError)
    | (s1, _) => match save s1 false with (s2, Raised _) => (s2, Some OSError) | (s2, _) => (s2, None) end
    end) = (s2, None) /\ wrote s s2 d ((nm ++ ".pkl", Pickled o) :: texts').
Proof.
  intros s d nm o save tx U F P Q N. destruct (P s U F) as (a & s1 & -> & Na & W1).
  assert (U1 : usable s1 d) by (destruct U as [A B]; split; auto; rewrite (wrote_dir _ _ _ _ W1); auto).
  assert (F1 : forall n, s1 (join d n) <> Dir).
  { intros n. destruct (string_dec n (nm ++ ".pkl")) as [->|D]. destruct W1 as [W _]; rewrite (W _ (Pickled o)); [discriminate|left; auto].
    destruct W1 as [_ W]; rewrite W; auto. cbn. intros [E|[]]; apply join_inj in E; auto. }
  destruct (Q s1 U1 F1) as (a2 & s2 & -> & Na2 & W2). exists s2. split.
  - destruct a; [| | |destruct (Na e); auto]; (destruct a2; [| | |destruct (Na2 e); auto]; reflexivity).
  - destruct W1 as [A1 B1], W2 as [A2 B2]. split.
    + intros n c [E|I]; [|auto]. injection E as <- <-. rewrite B2; [apply A1; left; auto|]. rewrite in_join; auto.
    + intros q Hq. cbn in Hq. rewrite B2 by tauto. apply B1. cbn. tauto.
Qed.
Definition disp_tables (nm : string) (o : obj M) : list (string * content (obj M)) :=
  [(nm ++ "-metadata.json", Text Metadata o); (nm ++ "-increase-disp.json", Text Increase o); (nm ++ "-decrease-disp.json", Text Decrease o);
   (nm ++ "-swaptable.csv", Text SwapTable o); (nm ++ "-results.csv", Text Compiled o)].
Definition boot_tables (nm : string) (o : obj M) : list (string * content (obj M)) :=
  [(nm ++ "-metadata.json", Text Metadata o); (nm ++ "-results.json", Text Results o); (nm ++ "-mapping.csv", Text Mapping o); (nm ++ "-qtable.csv", Text QTable o);
   (nm ++ "-ftables.json", Text FTables o); (nm ++ "-profiles.json", Text Profiles o); (nm ++ "-contributions.json", Text Contributions o)].
Ltac notin := cbn [map fst In disp_tables boot_tables]; intros I; repeat (destruct I as [I|I]; [apply app_inv_l in I; discriminate I|]); destruct I.
Lemma step_disp_ok : forall (s : fs) dir name dd, usable s dir -> (forall n, s (join dir n) <> Dir) -> disp_runs dd = true ->
  exists s2, step_disp disp_runs s dir name dd = (s2, None) /\ wrote s s2 dir ((("disp-" ++ name) ++ ".pkl", Pickled (ODisp dd)) :: disp_tables ("disp-" ++ name) (ODisp dd)).
Proof.
  intros s dir name dd U F R. unfold step_disp. rewrite R.
  apply (saved_step s dir ("disp-" ++ name) (ODisp dd) (fun s pk => disp_save s ("disp-" ++ name) dir pk (ODisp dd)) (disp_tables ("disp-" ++ name) (ODisp dd))); auto.
  - intros s0 U0 F0. unfold disp_save; rewrite usable_guard by auto. destruct U0 as [A B].
    destruct (finish_ok s0 dir [(("disp-" ++ name) ++ ".pkl", Pickled (ODisp dd))] (Path (join dir (("disp-" ++ name) ++ ".pkl"))) B) as (s' & E & W); [apply Forall_forall; auto|repeat constructor; intros []|].
    eexists _, s'. split; [exact E|split; [congruence|exact W]].
  - intros s0 U0 F0. unfold disp_save; rewrite usable_guard by auto. destruct U0 as [A B].
    destruct (finish_ok s0 dir (disp_text ("disp-" ++ name) (ODisp dd)) (Path dir) B) as (s' & E & W); [apply Forall_forall; auto|apply disp_nodup|].
    eexists _, s'. split; [exact E|split; [congruence|exact W]].
  - notin.
Qed.
Lemma step_boot_ok : forall (s : fs) dir name dd, usable s dir -> (forall n, s (join dir n) <> Dir) -> boot_runs dd = true ->
  exists s2, step_boot boot_runs s dir name dd = (s2, None) /\ wrote s s2 dir ((("bs-" ++ name) ++ ".pkl", Pickled (OBoot dd)) :: boot_tables ("bs-" ++ name) (OBoot dd)).
Proof.
  intros s dir name dd U F R. unfold step_boot. rewrite R.
  apply (saved_step s dir ("bs-" ++ name) (OBoot dd) (fun s pk => bs_save s ("bs-" ++ name) dir pk (OBoot dd)) (boot_tables ("bs-" ++ name) (OBoot dd))); auto.
  - intros s0 U0 F0. unfold bs_save; rewrite usable_guard by auto. destruct U0 as [A B].
    destruct (finish_ok s0 dir [(("bs-" ++ name) ++ ".pkl", Pickled (OBoot dd))] Nothing B) as (s' & E & W); [apply Forall_forall; auto|repeat constructor; intros []|].
    eexists _, s'. split; [exact E|split; [congruence|exact W]].
  - intros s0 U0 F0. unfold bs_save; rewrite usable_guard by auto. destruct U0 as [A B].
    destruct (finish_ok s0 dir (bs_text ("bs-" ++ name) (OBoot dd)) (Path dir) B) as (s' & E & W); [apply Forall_forall; auto|apply bs_nodup|].
    eexists _, s'. split; [exact E|split; [congruence|exact W]].
  - notin.
Qed.
(** With no method selected nothing happens. *)
Theorem C94_no_method : forall w d, run_error w d false false false = (w_files w, Notice).
Proof. reflexivity. Qed.
Print Assumptions C94_no_method.
(** Displacement alone: the selected model (-1: the best one) with the configured
    features (none: all); the result can be loaded again, its tables are there,
    nothing outside the error directory changes. *)
Theorem C94_disp : forall w d c e i m f, project w d c e i m -> want (e_disp_features e) f -> disp_runs (mkDisp m i f) = true ->
  exists s', run_error w d true false false = (s', Done) /\
    (forall nm x, In (nm, x) (("disp-" ++ r_name c ++ ".pkl", Pickled (ODisp (mkDisp m i f))) :: disp_tables ("disp-" ++ r_name c) (ODisp (mkDisp m i f))) ->
       s' (join (join d "error") nm) = File x) /\
    (forall q, q <> join d "error" -> (forall nm, q <> join (join d "error") nm) -> s' q = w_files w q).
Proof.
  intros w d c e i m f P Wf R. destruct (project_steps w d c e i m true false false P eq_refl) as (s0 & -> & U0 & F0 & K0).
  unfold Cli_Model.error_steps. rewrite (features_want _ _ Wf). cbv zeta.
  destruct (step_disp_ok s0 (join d "error") (r_name c) (mkDisp m i f) U0 F0 R) as (s2 & -> & W & X). exists s2. split; auto. split.
  - intros nm x I. apply W. rewrite app_assoc_s. exact I.
  - intros q N1 N2. rewrite X. apply K0; auto. intro I. apply in_map_iff in I. destruct I as (y & E & _). apply (N2 (fst y)); auto.
Qed.
Print Assumptions C94_disp.
(** Bootstrap alone: a block size of -1 stands for the optimal block of the data,
    a seed of -1 for the seed of the model. *)
Definition configured (n block seed : Z) (c : rconfig) (i : Z) (m : M) (b : boot) : Prop :=
  bo_model b = m /\ bo_selected b = i /\ bo_n b = n /\
  (block = (-1)%Z -> bo_block b = opt_block (r_input c) (r_unc c)) /\ (block <> (-1)%Z -> bo_block b = block) /\
  (seed = (-1)%Z -> bo_seed b = seed_of m) /\ (seed <> (-1)%Z -> bo_seed b = seed).
Lemma configured_eq : forall n block seed c i m b, configured n block seed c i m b ->
  mkBoot m i n (block_or (opt_block (r_input c) (r_unc c)) block) (seed_or seed_of m seed) = b.
Proof.
  intros n block seed c i m [bm bi bn bb bs'] (H1 & H2 & H3 & H4 & H5 & H6 & H7). cbn in *. subst.
  unfold block_or, seed_or. destruct (Z.eqb_spec block (-1)), (Z.eqb_spec seed (-1)); rewrite ?H4, ?H5, ?H6, ?H7 by auto; reflexivity.
Qed.
Theorem C94_boot : forall w d c e i m b, project w d c e i m -> configured (e_bs_n e) (e_bs_block e) (e_bs_seed e) c i m b -> boot_runs b = true ->
  exists s', run_error w d false true false = (s', Done) /\
    (forall nm x, In (nm, x) (("bs-" ++ r_name c ++ ".pkl", Pickled (OBoot b)) :: boot_tables ("bs-" ++ r_name c) (OBoot b)) ->
       s' (join (join d "error") nm) = File x) /\
    (forall q, q <> join d "error" -> (forall nm, q <> join (join d "error") nm) -> s' q = w_files w q).
Proof.
  intros w d c e i m b P Wf R. destruct (project_steps w d c e i m false true false P eq_refl) as (s0 & -> & U0 & F0 & K0).
  unfold Cli_Model.error_steps. rewrite (configured_eq _ _ _ _ _ _ _ Wf). cbv zeta.
  destruct (step_boot_ok s0 (join d "error") (r_name c) b U0 F0 R) as (s2 & -> & W & X). exists s2. split; auto. split.
  - intros nm x I. apply W. rewrite app_assoc_s. exact I.
  - intros q N1 N2. rewrite X. apply K0; auto. intro I. apply in_map_iff in I. destruct I as (y & E & _). apply (N2 (fst y)); auto.
Qed.
Print Assumptions C94_boot.
(** The same typed as commands: the displacement that was run is then shown, and
    the bootstrap that was run is in its file. *)
Theorem C94_typed_commands : forall w d c e i m f b, project w d c e i m ->
  want (e_disp_features e) f -> disp_runs (mkDisp m i f) = true ->
  configured (e_bs_n e) (e_bs_block e) (e_bs_seed e) c i m b -> boot_runs b = true ->
  show_error bad (exec w [CRunError d true false false]) d true true true = Shows (ODisp (mkDisp m i f)) /\
  error_file (exec w [CRunError d false true false]) d "bs-" (File (Pickled (OBoot b))).
Proof.
  intros w d c e i m f b P Wf R Wb Rb. pose proof P as (Hc & _ & _ & _ & (A & _) & _).
  destruct (C94_disp w d c e i m f P Wf R) as (s1 & E1 & F1 & _). destruct (C94_boot w d c e i m b P Wb Rb) as (s2 & E2 & F2 & _).
  unfold Cli_Model.exec. cbn [fold_left exec1]. rewrite E1, E2. split.
  - apply (proj1 (proj2 (C93_needs_all_three _ d true true true))); [exact A|]. exists c. split; [exact Hc|]. apply F1. left. reflexivity.
  - exists c. split; [exact Hc|]. apply F2. left. reflexivity.
Qed.
Print Assumptions C94_typed_commands.
(** Bootstrap-displacement: fails without --bs unless the configuration names a
    bootstrap file; fails in parallel mode; and takes the features of the
    displacement section, not its own. *)
Theorem C94_bsdisp_without_bs_fails : forall w d c e i m fd, project w d c e i m -> e_bd_output e = None ->
  (snd (run_error w d fd false true) <> Done) /\ (fd = false -> snd (run_error w d fd false true) = Raises AttrErr).
Proof.
  intros w d c e i m fd P Hb. destruct (project_steps w d c e i m fd false true P) as (s0 & -> & _); [destruct fd; auto|].
  unfold Cli_Model.error_steps. cbv zeta. rewrite Hb. cbn [chosen_boot boot_of]. split.
  - destruct (if fd then _ else _) as [s1 [x|]]; cbn; discriminate.
  - intros ->. reflexivity.
Qed.
Print Assumptions C94_bsdisp_without_bs_fails.
Theorem C94_bsdisp_parallel_fails : forall w d c fd fb, w_run w d = Some c -> is_true_word (r_parallel c) -> snd (run_error w d fd fb true) <> Done.
Proof.
  intros w d c fd fb Hc Hp. apply says_true_iff in Hp. unfold Cli_Model.run_error. destruct (negb _); [discriminate|]. rewrite Hc.
  destruct (w_error w d) as [e|]; [|discriminate]. destruct (open_data content_ok w c); [discriminate|].
  assert (K : snd (error_on bad opt_block seed_of disp_runs boot_runs bsd_runs bsd_disps c_train (w_files w) d c e fd fb true) <> Done).
  { unfold error_on. destruct (ensure (w_files w) d "error") as [s0|]; [|discriminate]. destruct (error_model bad c_train s0 d c e) as [x|[i m]]; [discriminate|].
    unfold Cli_Model.error_steps. cbv zeta. destruct (if fd then _ else _) as [s1 [x|]]; [discriminate|]. destruct (if fb then step_boot _ _ _ _ _ else _) as [s2 [x|]]; [discriminate|].
    destruct (boot_of _ _ _ _ _ _) as [x|bo]; [discriminate|]. unfold step_bsd. rewrite Hp. cbn. discriminate. }
  destruct (batch_at bad (w_files w) d (r_name c)); [exact K|exact K|discriminate].
Qed.
Print Assumptions C94_bsdisp_parallel_fails.
(** With --bs the bootstrap is the one of this run. *)
Lemma wrote_nosub : forall (s s' : fs) d l, wrote s s' d l -> no_sub s d -> no_sub s' d.
Proof.
  intros s s' d l [W X] N n. destruct (in_dec string_dec n (map fst l)) as [I|I].
  - apply in_map_iff in I. destruct I as ((a & x) & E & I). cbn in E; subst a. rewrite (W n x I). discriminate.
  - rewrite X by (rewrite in_join; auto). apply N.
Qed.
Lemma names_prefixed : forall nm (bs o : obj M) disps a, In a (map fst (List.app (bs_text nm bs) (List.app (Persist_Props.disp_files nm disps) [(nm ++ "-results.csv", Text Compiled o)]))) -> exists t, a = nm ++ t.
Proof.
  intros nm bs o disps a I. rewrite !map_app, !in_app_iff in I. destruct I as [I|[I|[I|[]]]].
  - cbn [bs_text map fst In] in I. repeat (destruct I as [I|I]; [subst a; eauto|]). destruct I.
  - apply disp_files_name in I. destruct I as (k & e & _ & ->). eauto.
  - cbn [fst] in I; subst a; eauto.
Qed.
Theorem C94_bsdisp_with_bs : forall w d c e i m f b, project w d c e i m -> want (e_disp_features e) f ->
  configured (e_bs_n e) (e_bs_block e) (e_bs_seed e) c i m b -> e_bd_output e = None -> ~ is_true_word (r_parallel c) ->
  boot_runs b = true -> bsd_runs (mkBsd m i b f) = true -> NoDup (map fst (bsd_disps (mkBsd m i b f))) ->
  exists s', run_error w d false true true = (s', Done) /\
    s' (join (join d "error") ("bs-" ++ r_name c ++ ".pkl")) = File (Pickled (OBoot b)) /\
    s' (join (join d "error") ("bsdisp-" ++ r_name c ++ ".pkl")) = File (Pickled (OBsDisp (mkBsd m i b f))) /\
    (forall q, q <> join d "error" -> (forall nm, q <> join (join d "error") nm) -> s' q = w_files w q).
Proof.
  intros w d c e i m f b P Wf Wb Ho Hp R1 R2 Dn. destruct (project_steps w d c e i m false true true P eq_refl) as (s0 & -> & U0 & F0 & K0).
  unfold Cli_Model.error_steps. rewrite (configured_eq _ _ _ _ _ _ _ Wb), (features_want _ _ Wf), Ho. cbv zeta.
  set (dir := join d "error") in *.
  destruct (step_boot_ok s0 dir (r_name c) b U0 F0 R1) as (s1 & -> & W1). cbn [chosen_boot boot_of].
  assert (Hf : says_true (r_parallel c) = false) by (destruct (says_true (r_parallel c)) eqn:E; auto; apply says_true_iff in E; tauto).
  unfold step_bsd. rewrite Hf, R2. cbn [andb bd_boot]. set (nm := "bsdisp-" ++ r_name c). set (o := OBsDisp _). set (l := bsd_disps _) in *.
  assert (U1 : usable s1 dir) by (destruct U0 as [A B]; split; auto; rewrite (wrote_dir _ _ _ _ W1); auto).
  assert (N1 : no_sub s1 dir) by (eapply wrote_nosub; eauto).
  unfold bsdisp_save at 1. rewrite usable_guard by auto.
  destruct (finish_ok s1 dir [(nm ++ ".pkl", Pickled o)] (Path (join dir (nm ++ ".pkl"))) (proj2 U1)) as (s2 & -> & W2); [apply Forall_forall; auto|repeat constructor; intros []|].
  assert (U2 : usable s2 dir) by (destruct U1 as [A B]; split; auto; rewrite (wrote_dir _ _ _ _ W2); auto).
  assert (N2 : no_sub s2 dir) by (eapply wrote_nosub; eauto).
  destruct (C58_bsdisp_text s2 dir nm (OBoot b) l o U2 N2 Dn) as (s3 & -> & W3 & K3). exists s3. split; auto.
  assert (X3 : forall q, (forall t, q <> join dir (nm ++ t)) -> s3 q = s2 q).
  { intros q Hq. destruct W3 as [_ X]. apply X. intro I. apply in_map_iff in I. destruct I as (y & E & I). apply (in_map fst) in I. apply names_prefixed in I. destruct I as (t & Et). apply (Hq t). rewrite <- Et; auto. }
  split; [|split].
  - rewrite X3 by (intros t E; apply join_inj in E; discriminate E).
    destruct W2 as [_ X2]. rewrite X2 by (cbn; intros [E|[]]; apply join_inj in E; discriminate E).
    destruct W1 as [W1 _]. apply W1. left. rewrite app_assoc_s; auto.
  - unfold nm in K3. rewrite app_assoc_s in K3. rewrite K3. destruct W2 as [Y2 _]. apply Y2. left. unfold nm. rewrite app_assoc_s. auto.
  - intros q Q1 Q2. rewrite X3 by (intros; apply Q2). destruct W2 as [_ X2]. rewrite X2 by (cbn; intros [E|[]]; revert E; apply not_eq_sym, Q2).
    destruct W1 as [_ X1]. rewrite X1. apply K0; auto. intro I. apply in_map_iff in I. destruct I as (y & E & _). apply (Q2 (fst y)); auto.
Qed.
Print Assumptions C94_bsdisp_with_bs.
(** The number of runs, the block size and the seed of the bsdisp section have no
    effect with --bs (no bootstrap file configured); its features never have. *)
Theorem C94_bsdisp_section_ignored : forall w w' d e e' fd,
  w_files w' = w_files w -> w_tables w' = w_tables w -> w_run w' = w_run w ->
  w_error w d = Some e -> w_error w' d = Some e' ->
  e_constrained e' = e_constrained e -> e_selected e' = e_selected e -> e_disp_features e' = e_disp_features e ->
  e_bs_n e' = e_bs_n e -> e_bs_block e' = e_bs_block e -> e_bs_seed e' = e_bs_seed e -> e_bd_output e' = e_bd_output e ->
  (e_bd_output e = None -> run_error w' d fd true true = run_error w d fd true true) /\
  (e_bd_n e' = e_bd_n e -> e_bd_block e' = e_bd_block e -> e_bd_seed e' = e_bd_seed e -> forall fb, run_error w' d fd fb true = run_error w d fd fb true).
Proof.
  intros w w' d e e' fd H1 H2 H3 He He' H4 H5 H6 H7 H8 H9 H10. unfold Cli_Model.run_error. rewrite H1, H3, He, He'.
  assert (O : forall c, open_data content_ok w' c = open_data content_ok w c) by (intros; unfold open_data; rewrite H2; auto).
  split.
  - intros Hn. destruct (negb _); auto. destruct (w_run w d) as [c|]; auto. rewrite O. destruct (open_data content_ok w c); auto.
    assert (E : error_on bad opt_block seed_of disp_runs boot_runs bsd_runs bsd_disps c_train (w_files w) d c e' fd true true = error_on bad opt_block seed_of disp_runs boot_runs bsd_runs bsd_disps c_train (w_files w) d c e fd true true).
    { unfold error_on, error_model, Cli_Model.error_steps. rewrite H4, H5, H6, H7, H8, H9, H10, Hn. cbn [chosen_boot boot_of]. reflexivity. }
    rewrite E; auto.
  - intros A B C fb. destruct (negb _); auto. destruct (w_run w d) as [c|]; auto. rewrite O. destruct (open_data content_ok w c); auto.
    assert (E : error_on bad opt_block seed_of disp_runs boot_runs bsd_runs bsd_disps c_train (w_files w) d c e' fd fb true = error_on bad opt_block seed_of disp_runs boot_runs bsd_runs bsd_disps c_train (w_files w) d c e fd fb true).
    { unfold error_on, error_model, Cli_Model.error_steps. rewrite H4, H5, H6, H7, H8, H9, H10, A, B, C. reflexivity. }
    rewrite E; auto.
Qed.
Print Assumptions C94_bsdisp_section_ignored.
(** With a constrained configuration named in the error configuration no command
    sequence makes run-error succeed. *)
Theorem C94_constrained_never_runs : forall w l d e fd fb fbd, tidy (w_files w) -> w_error (exec w l) d = Some e -> e_constrained e <> "" ->
  snd (run_error (exec w l) d fd fb fbd) <> Done.
Proof.
  intros w l d e fd fb fbd T He Hk. apply (tidy_exec l) in T. set (w' := exec w l) in *. unfold Cli_Model.run_error.
  destruct (negb _); [discriminate|]. destruct (w_run w' d) as [c|]; [|discriminate]. rewrite He. destruct (open_data content_ok w' c); [discriminate|].
  assert (K : snd (error_on bad opt_block seed_of disp_runs boot_runs bsd_runs bsd_disps c_train (w_files w') d c e fd fb fbd) <> Done).
  { unfold error_on. destruct (ensure (w_files w') d "error") as [s0|] eqn:E0; [|discriminate].
    apply (gains_mkdir _ _ _ _ nothing) in E0. unfold error_model.
    assert (Tk : truthy (e_constrained e) = true) by (unfold truthy; destruct (String.eqb_spec (e_constrained e) ""); [tauto|reflexivity]).
    rewrite Tk.
    unfold load. destruct (negb (p_abs _)); [discriminate|]. destruct (s0 _) as [| |[x|t x|]] eqn:E; try discriminate.
    - destruct x; try discriminate. destruct (E0 _ _ E) as [F|[]]. destruct (T _ _ F).
    - destruct (bad t x); discriminate. }
  destruct (batch_at bad (w_files w') d (r_name c)); [exact K|exact K|discriminate].
Qed.
Print Assumptions C94_constrained_never_runs.

(** A bootstrap file that is configured but not there (or named by a relative
    path) is replaced silently by a new bootstrap with the bsdisp settings. *)
Theorem C94_missing_bootstrap_file : forall s p v m i n block seed c b,
  s p = Missing \/ p_abs p = false -> configured n block seed c i m b ->
  boot_of m i n (block_or (opt_block (r_input c) (r_unc c)) block) (seed_or seed_of m seed) (chosen_boot bad s (Some p) v) = inr b.
Proof.
  intros s p v m i n block seed c b H Hb. pose proof (configured_eq _ _ _ _ _ _ _ Hb) as E. unfold chosen_boot, exists_at, load.
  destruct H as [H|H]; rewrite H; cbn [boot_of negb]; [rewrite E; auto|]. destruct (s p); cbn [boot_of]; rewrite E; auto.
Qed.
Print Assumptions C94_missing_bootstrap_file.

(** ** C95 *)
(** The constraints of the configuration that are applied: those whose index is
    not [-1, -1] and within range, the first of each cell; in that order. *)
Definition in_range (m n k : Z) (c : constr) : Prop :=
  match c_tgt c with
  | Feature => (0 <= c_i c < k)%Z /\ (0 <= c_j c < n)%Z
  | Sample => (0 <= c_i c < m)%Z /\ (0 <= c_j c < m)%Z
  | Other => True
  end.
Definition admissible (m n k : Z) (c : constr) : Prop := ~ (c_i c = (-1)%Z /\ c_j c = (-1)%Z) /\ in_range m n k c.
Lemma in_range_iff : forall m n k c, Constr_Model.index_ok m n k c = true <-> in_range m n k c.
Proof.
  intros m n k c; unfold Constr_Model.index_ok, in_range. destruct (c_tgt c); [| |tauto];
    rewrite andb_true_iff, !negb_true_iff, !orb_false_iff, !Z.leb_gt, !Z.ltb_ge; lia.
Qed.
Lemma wanted_iff : forall c, wanted c = true <-> ~ (c_i c = (-1)%Z /\ c_j c = (-1)%Z).
Proof. intros c; unfold wanted. rewrite negb_true_iff, andb_false_iff, !Z.eqb_neq. lia. Qed.
Lemma clabel_eqb_iff : forall a b, clabel_eqb a b = true <-> a = b.
Proof.
  intros [i j|i j|] [i' j'|i' j'|]; cbn; try (split; congruence); rewrite andb_true_iff, !Z.eqb_eq; split; [intros [-> ->]|intros E; injection E|intros [-> ->]|intros E; injection E]; auto.
Qed.
Lemma add_all_snoc : forall m n k l c, add_all m n k (l ++ [c])%list =
  if wanted c then fst (add_constraint m n k (add_all m n k l) c) else add_all m n k l.
Proof. intros; unfold add_all. rewrite filter_app. cbn [filter]. rewrite fold_left_app. destruct (wanted c); reflexivity. Qed.
Theorem C95_constraints_applied : forall m n k l lab c, In (lab, c) (add_all m n k l) <->
  exists l1 l2, l = (l1 ++ c :: l2)%list /\ lab = label_of c /\ admissible m n k c /\
    forall c', In c' l1 -> admissible m n k c' -> label_of c' <> label_of c.
Proof.
  intros m n k l lab c. revert lab c. induction l as [|x l IH] using rev_ind; intros lab c.
  - split; [intros []|]. intros ([|] & l2 & E & _); discriminate.
  - rewrite add_all_snoc.
    assert (K : In (lab, c) (add_all m n k l) -> exists l1 l2, (l ++ [x])%list = (l1 ++ c :: l2)%list /\ lab = label_of c /\ admissible m n k c /\ (forall c', In c' l1 -> admissible m n k c' -> label_of c' <> label_of c)).
    { intros I. apply IH in I. destruct I as (l1 & l2 & -> & A & B & C). exists l1, (l2 ++ [x])%list. rewrite <- app_assoc. auto. }
    assert (S : forall l1 l2, (l ++ [x])%list = (l1 ++ c :: l2)%list -> (l2 = [] /\ l = l1 /\ x = c) \/ exists l3, l2 = (l3 ++ [x])%list /\ l = (l1 ++ c :: l3)%list).
    { intros l1 l2 E. destruct l2 as [|y l2 _] using rev_ind.
      - apply app_inj_tail in E. destruct E; auto.
      - right. exists l2. replace (l1 ++ c :: l2 ++ [y])%list with ((l1 ++ c :: l2) ++ [y])%list in E by (rewrite <- app_assoc; auto). apply app_inj_tail in E. destruct E as [-> ->]; auto. }
    assert (L : forall l0, (exists l1 l2, l0 = (l1 ++ c :: l2)%list /\ lab = label_of c /\ admissible m n k c /\ (forall c', In c' l1 -> admissible m n k c' -> label_of c' <> label_of c)) -> l0 = (l ++ [x])%list ->
        In (lab, c) (add_all m n k l) \/ (x = c /\ lab = label_of c /\ admissible m n k c /\ (forall c', In c' l -> admissible m n k c' -> label_of c' <> label_of c))).
    { intros l0 (l1 & l2 & -> & A & B & C) E. symmetry in E. destruct (S l1 l2 E) as [(-> & -> & ->)|(l3 & -> & ->)]; [right; auto|]. left. apply IH. exists l1, l3; auto. }
    destruct (wanted x) eqn:Wx.
    + unfold add_constraint. destruct (Constr_Model.index_ok m n k x) eqn:Ix; cbn [negb].
      * destruct (existsb (fun p => clabel_eqb (fst p) (label_of x)) (add_all m n k l)) eqn:Ex; cbn [fst].
        -- split; auto. intros H. destruct (L _ H eq_refl) as [I|(-> & A & B & C)]; auto. exfalso.
           apply existsb_exists in Ex. destruct Ex as ((lb & c') & I & E). apply clabel_eqb_iff in E. cbn in E. apply IH in I. destruct I as (l1 & l2 & -> & -> & A' & _).
           apply (C c'); auto. apply in_or_app; right; left; auto.
        -- rewrite in_app_iff. split.
           ++ intros [I|[I|[]]]; auto. injection I as <- <-. exists l, []. split; auto. split; auto. apply wanted_iff in Wx. apply in_range_iff in Ix. split; [split; auto|].
              intros c' I A E. apply in_split in I. destruct I as (l1 & l2 & ->).
              assert (N : exists c'', In (label_of c', c'') (add_all m n k (l1 ++ c' :: l2))).
              { assert (Dn : forall l1 l2 c', admissible m n k c' -> exists c'', In (label_of c', c'') (add_all m n k (l1 ++ c' :: l2))).
                { clear - sizes. intros l1 l2 c' [A1 A2]. revert l1. induction l2 as [|y l2 IH2] using rev_ind; intros l1.
                  - rewrite add_all_snoc. apply wanted_iff in A1. rewrite A1. unfold add_constraint. apply in_range_iff in A2. rewrite A2. cbn [negb].
                    destruct (existsb _ _) eqn:Ex; cbn [fst].
                    + apply existsb_exists in Ex. destruct Ex as ((lb & c'') & I & E). apply clabel_eqb_iff in E. cbn in E; subst lb. eauto.
                    + exists c'. apply in_or_app; right; left; auto.
                  - replace (l1 ++ c' :: l2 ++ [y])%list with ((l1 ++ c' :: l2) ++ [y])%list by (rewrite <- app_assoc; auto). rewrite add_all_snoc.
                    destruct (IH2 l1) as (c'' & I). exists c''. destruct (wanted y); auto. unfold add_constraint. destruct (negb _); auto. destruct (existsb _ _); auto. cbn [fst]. apply in_or_app; auto. }
                apply Dn; auto. }
              destruct N as (c'' & N). assert (X : existsb (fun p => clabel_eqb (fst p) (label_of x)) (add_all m n k (l1 ++ c' :: l2)) = true).
              { apply existsb_exists. exists (label_of c', c''). split; auto. apply clabel_eqb_iff. cbn. auto. }
              congruence.
           ++ intros H. destruct (L _ H eq_refl) as [I|(-> & -> & _)]; auto. right; left; auto.
      * split; auto. intros H. destruct (L _ H eq_refl) as [I|(-> & _ & (_ & B) & _)]; auto. apply in_range_iff in B. congruence.
    + split; auto. intros H. destruct (L _ H eq_refl) as [I|(-> & _ & (B & _) & _)]; auto. apply wanted_iff in B. congruence.
Qed.
Print Assumptions C95_constraints_applied.
(** Expressions are left out exactly when they contain one of three texts; so
    one with factor:-10 is, too. *)
Theorem C95_expressions_left_out : forall e, wanted_expr e = false <->
  exists l x y, In l ["factor:-1"; "feature:-1"; "sample:-1"] /\ e = x ++ l ++ y.
Proof.
  intros e; unfold wanted_expr. rewrite negb_false_iff, existsb_exists. split.
  - intros (l & I & E). apply contains_iff in E. destruct E as (x & y & E). exists l, x, y; auto.
  - intros (l & x & y & I & E). exists l; split; auto. apply contains_iff. eauto.
Qed.
Print Assumptions C95_expressions_left_out.
(** Training settings that are not given (-1, a tolerance that is not positive)
    are those of the batch. *)
Theorem C95_settings : forall (b : bsa M) cc, let '(mi, de, cn) := c_settings b cc in
  (cc_max_iter cc = (-1)%Z -> mi = ba_max_iter b) /\ (cc_max_iter cc <> (-1)%Z -> mi = cc_max_iter cc) /\
  ((cc_delta cc <= 0)%R -> de = ba_delta b) /\ ((0 < cc_delta cc)%R -> de = cc_delta cc) /\
  (cc_cn cc = (-1)%Z -> cn = ba_cn b) /\ (cc_cn cc <> (-1)%Z -> cn = cc_cn cc).
Proof.
  intros b cc. unfold c_settings. destruct (Z.eqb_spec (cc_max_iter cc) (-1)), (Z.eqb_spec (cc_cn cc) (-1)), (Rlt_dec 0 (cc_delta cc)); repeat split; intros; auto; try congruence; lra.
Qed.
Print Assumptions C95_settings.
(** A completed run leaves the pickled solution and the five tables, the
    constrained model itself only in the metadata; the analysis commands, which
    load the pickle file, then fail. *)
Theorem C95_run_then_analyse : forall w d c cc b m m' sm sn k mi de cn,
  w_run w d = Some c -> w_constr w d = Some cc -> open_data content_ok w c = None -> ready (w_files w) d "constrained" ->
  w_files w (join (out d) (r_name c ++ ".pkl")) = File (Pickled (OBatch b)) -> select b (cc_selected cc) = inr m ->
  sizes m = (sm, sn, k) -> c_settings b cc = (mi, de, cn) ->
  c_train (mkCM m (add_all sm sn k (cc_constraints cc)) (filter wanted_expr (cc_expressions cc)) mi de cn) = Some (Some m') ->
  exists s', run_constrained w d = (s', Done) /\
    s' (join (join d "constrained") ("constrained_model-" ++ r_name c ++ ".pkl")) = File (Pickled (OModel m')) /\
    s' (join (join d "constrained") ("constrained_model-" ++ r_name c ++ "-profile.csv")) = File (Text Profile (OModel m')) /\
    show_constrained bad (after w s') d = Raises AttrErr.
Proof.
  intros w d c cc b m m' sm sn k mi de cn Hc Hcc Ho Hr Hb Hs Hz Hp Ht.
  destruct (ensure_ready _ _ _ Hr) as (s0 & E0 & U0 & F0 & K0). destruct Hr as (A & _).
  set (cm := mkCM _ _ _ _ _ _) in Ht. set (dir := join d "constrained") in *.
  destruct (C58_constrained bad s0 dir (r_name c) (OModel m') (OConstr cm) U0 F0) as ((s1 & E1 & W1 & _) & _).
  assert (U1 : usable s1 dir) by (destruct U0 as [A' B]; split; auto; rewrite (wrote_dir _ _ _ _ W1); auto).
  assert (N1 : no_sub s1 dir) by (eapply wrote_nosub; eauto).
  destruct (C58_constrained bad s1 dir (r_name c) (OModel m') (OConstr cm) U1 N1) as (_ & (s2 & E2 & W2)).
  assert (P2 : s2 (join dir ("constrained_model-" ++ r_name c ++ ".pkl")) = File (Pickled (OModel m'))).
  { destruct W2 as [_ X2]. rewrite X2. destruct W1 as [Y1 _]. apply Y1. left; auto. cbn [map fst In]. intros I.
    repeat (destruct I as [I|I]; [apply join_inj, app_inv_l, app_inv_l in I; discriminate I|]). destruct I. }
  exists s2. split; [|split; [exact P2|split]].
  - unfold Cli_Model.run_constrained. rewrite Hc, Hcc, Ho. unfold batch_at, load. fold (out d). rewrite Hb. cbn [join p_abs out]. rewrite A. cbn [negb].
    rewrite Hs, Hz, Hp. fold cm. rewrite Ht, E0. fold dir. rewrite E1, E2. reflexivity.
  - destruct W2 as [Y2 _]. apply Y2. cbn; auto.
  - unfold show_constrained, after; cbn [w_run w_files]. rewrite Hc. fold dir. unfold load. rewrite P2. cbn [dir join p_abs]. rewrite A. reflexivity.
Qed.
Print Assumptions C95_run_then_analyse.
(** No sequence of commands and edits makes an analysis-constrained command show
    a constrained model. *)
Theorem C95_never_shown : forall w l d o, tidy (w_files w) -> show_constrained bad (exec w l) d <> Shows o.
Proof.
  intros w l d o T. apply (tidy_exec l) in T. unfold show_constrained. destruct (w_run (exec w l) d) as [c|]; [|discriminate].
  unfold load. destruct (negb _); [discriminate|]. destruct (w_files (exec w l) _) as [| |[x|t x|]] eqn:E; try discriminate.
  - destruct x; try discriminate. destruct (T _ _ E).
  - destruct (bad t x); discriminate.
Qed.
Print Assumptions C95_never_shown.

(** ** C96 *)
(** The simulator configuration counts once: after the first use in an absolute
    directory the saved simulator is used whatever the configuration says. *)
Theorem C96_simulator_configured_once : forall (s : fs) d sc, usable s d -> no_sub s d -> s (join d sim_pkl) = Missing ->
  exists s' o, get_sim bad s d sc = (s', inr o) /\ si_seed o = sc_seed sc /\ (si_outliers o = false <-> sc_outliers sc = "") /\
    forall sc', get_sim bad s' d sc' = (s', inr o).
Proof.
  intros s d sc U N Hm. set (o := mkSim (sc_seed sc) (truthy (sc_outliers sc))).
  unfold get_sim at 1. unfold exists_at. rewrite Hm. fold o. unfold sim_save. rewrite usable_guard by auto.
  match goal with |- context [finish (writes s d ?l) ?a] => destruct (finish_ok s d l a (proj2 U)) as (s' & -> & W) end.
  - apply Forall_forall; auto.
  - repeat constructor; cbn; intros I; repeat (destruct I as [I|I]; [discriminate I|]); destruct I.
  - exists s', o. split; auto. split; [reflexivity|]. split; [cbn; unfold truthy; destruct (String.eqb_spec (sc_outliers sc) ""); cbn; split; congruence|].
    intros sc'. destruct W as [W _]. unfold get_sim, exists_at, load. assert (E : s' (join d sim_pkl) = File (Pickled (OSim o))) by (apply W; left; auto).
    rewrite E. cbn [join p_abs]. rewrite (proj1 U). reflexivity.
Qed.
Print Assumptions C96_simulator_configured_once.
(** The model: -1 is the best one; other numbers count from 0, negative ones from
    the end; the rest is an IndexError, a failed model an AttributeError. *)
Theorem C96_model_selection : forall (b : bsa M) i m,
  select b i = inr m <->
    exists j n, (i = (-1)%Z -> ba_best b = Some j) /\ (i <> (-1)%Z -> j = i) /\
      (j = Z.of_nat n \/ (j < 0)%Z /\ (j + Z.of_nat (List.length (ba_results b)))%Z = Z.of_nat n) /\ nth_error (ba_results b) n = Some (Some m).
Proof.
  intros b i m. set (r := ba_results b).
  assert (K : forall j, match py_index (List.length r) j with None => inl IndexErr | Some n => match nth_error r n with Some (Some m) => inr m | _ => inl AttrErr end end = inr m <->
    exists n, (j = Z.of_nat n \/ (j < 0)%Z /\ (j + Z.of_nat (List.length r))%Z = Z.of_nat n) /\ nth_error r n = Some (Some m)).
  { intros j. unfold py_index. destruct (((0 <=? j) && (j <? Z.of_nat (List.length r)))%Z) eqn:E1.
    - apply andb_true_iff in E1. rewrite Z.leb_le, Z.ltb_lt in E1. split.
      + destruct (nth_error r (Z.to_nat j)) as [[m0|]|] eqn:E; try discriminate. intros H; injection H as ->. exists (Z.to_nat j). split; auto. left; lia.
      + intros (n & [-> | H] & E); [|lia]. rewrite Nat2Z.id, E. auto.
    - destruct (((- Z.of_nat (List.length r) <=? j) && (j <? 0))%Z) eqn:E2.
      + apply andb_true_iff in E2. rewrite Z.leb_le, Z.ltb_lt in E2. split.
        * destruct (nth_error r (Z.to_nat (Z.of_nat (List.length r) + j))) as [[m0|]|] eqn:E; try discriminate. intros H; injection H as ->. eexists. split; [right; split; [lia|]|exact E]. lia.
        * intros (n & [-> | [_ H]] & E); [lia|]. replace (Z.to_nat (Z.of_nat (List.length r) + j)) with n by lia. rewrite E. auto.
      + split; [discriminate|]. intros (n & H & E). exfalso. assert (n < List.length r)%nat by (apply nth_error_Some; congruence).
        apply andb_false_iff in E1, E2. rewrite Z.leb_gt, Z.ltb_ge in E1, E2. lia. }
  unfold select. fold r. destruct (Z.eqb_spec i (-1)) as [->|N].
  - destruct (ba_best b) as [j|].
    + rewrite K. split.
      * intros (n & A & B). exists j, n. repeat split; auto. lia.
      * intros (j' & n & A & _ & B & C). specialize (A eq_refl). injection A as <-. eauto.
    + split; [discriminate|]. intros (j & n & A & _). specialize (A eq_refl). discriminate.
  - rewrite K. split.
    + intros (n & A & B). exists i, n. repeat split; auto. lia.
    + intros (j & n & _ & A & B & C). rewrite (A N) in *. eauto.
Qed.
Print Assumptions C96_model_selection.
(** The commands that show one factor number them from 1, so that their default,
    0, shows nothing. *)
Theorem C96_factor_numbers : forall w d i f m,
  (plot_factor bad content_ok sizes w d i f = Shows (OModel m) <-> get_model w d i = inr m /\ (1 <= f <= snd (sizes m))%Z) /\
  (forall o, plot_factor bad content_ok sizes w d i factor_default <> Shows o).
Proof.
  intros w d i f m. unfold plot_factor. split.
  - destruct (get_model w d i) as [e|m0]; [split; [discriminate|intros [H _]; discriminate]|].
    destruct (sizes m0) as [[a b] k] eqn:E. destruct ((k <? f)%Z || (f <? 1)%Z) eqn:O.
    + split; [discriminate|]. intros [H L]. injection H as ->. rewrite E in L. cbn in L. apply orb_true_iff in O. rewrite !Z.ltb_lt in O. lia.
    + apply orb_false_iff in O. rewrite !Z.ltb_ge in O. split.
      * intros H; injection H as ->. rewrite E; cbn. split; auto; lia.
      * intros [H _]. injection H as ->. auto.
  - intros o. destruct (get_model w d i) as [e|m0]; [discriminate|]. destruct (sizes m0) as [[a b] k]. unfold factor_default. cbn. rewrite orb_true_r. discriminate.
Qed.
Print Assumptions C96_factor_numbers.
(** analysis-input plot-timeseries cannot show anything. *)
Theorem C96_input_timeseries_fails : forall (w : world) d f c, w_run w d = Some c -> open_data content_ok w c = None ->
  plot_input_timeseries content_ok w d f = Raises TypeErr.
Proof. intros w d f c Hc Ho. unfold plot_input_timeseries. rewrite Hc, Ho. reflexivity. Qed.
Print Assumptions C96_input_timeseries_fails.
End Proofs.

(** ** Instances and refutations *)
(** A project with two models, one of them failed; the models are numbers. *)
Definition ex_dir := mkPath true ["home"; "p"].
Definition ex_in := mkPath true ["home"; "data.csv"].
Definition ex_un := mkPath true ["home"; "unc.csv"].
Definition ex_cfg (d : path) (par : string) := mkRC d "x" ex_in ex_un "Date" "False" par "false" 20000 (1 / 10) 10.
Definition ex_err := mkEC "" (-1) [] 20 (-1) (-1) None 5 3 9 [4%Z].
Definition ex_cc := mkCC (-1) (-1) 0 20 [mkC SetZero (-1) (-1) Feature; mkC SetZero 0 1 Feature; mkC SetBase 0 1 Feature; mkC SetZero 9 1 Feature]
                      ["[factor:-1|feature:0]=0,1"; "[factor:1|feature:0]=0,1"].
Definition ex_files : fs (obj nat) := fun q => if path_eqb q ex_dir then Dir else Missing.
Definition ex_world (s : fs (obj nat)) (d : path) (par : string) : world nat :=
  mkW s (fun q => if path_eqb q ex_in || path_eqb q ex_un then Some ["Date"; "As"; "Pb"] else None)
    (fun q => if path_eqb q ex_dir then Some (ex_cfg d par) else None) (fun _ => Some ex_err) (fun _ => Some ex_cc) (fun _ => None).
Definition ex_train (b : bsa nat) (src : source) : option (list (option nat) * option Z) := Some ([Some 7; None], Some 0%Z).
Definition ex_ok (_ _ : path) (_ : string) := true.
Definition ex_bad (_ : what) (_ : obj nat) := true.
Definition ex_sizes (_ : nat) : Z * Z * Z := (10, 2, 3)%Z.
Definition ex_run := run_cmd ex_bad ex_ok ex_train.
Definition ex_opt (_ _ : path) : Z := 6.
Definition ex_rune := run_error ex_bad ex_ok ex_opt (fun m => Z.of_nat m) (fun _ => true) (fun _ => true) (fun _ => true) (fun _ => []) (fun _ : @cmodel nat => Some None).
Definition ex_w1 := after (ex_world ex_files ex_dir "no") (fst (ex_run (ex_world ex_files ex_dir "no") ex_dir)).

Example C91_instance :
  ready ex_files ex_dir "output" /\ open_data ex_ok (ex_world ex_files ex_dir "no") (ex_cfg ex_dir "no") = None /\
  snd (ex_run (ex_world ex_files ex_dir "no") ex_dir) = Done /\
  get_model ex_bad ex_ok ex_w1 ex_dir (-1) = inr 7 /\ get_model ex_bad ex_ok ex_w1 ex_dir 1 = inl AttrErr /\ get_model ex_bad ex_ok ex_w1 ex_dir 2 = inl IndexErr.
Proof.
  split; [|repeat split; vm_compute; reflexivity]. split; [reflexivity|]. split; [reflexivity|]. split; [left; reflexivity|].
  intros nm. unfold ex_files. destruct (path_eqb _ _) eqn:E; [|discriminate]. apply path_eqb_iff in E. injection E; discriminate.
Qed.
(** After a run that ended without an error the solution can be analysed. *)
Theorem C91_solution_saved_refuted :
  ~ (forall (w : world nat) d s', ex_run w d = (s', Done) -> exists m, get_model ex_bad ex_ok (after w s') d (-1) = inr m).
Proof.
  intros H. pose (w := ex_world (fun q => if path_eqb q (mkPath false ["p"]) then Dir else ex_files q) (mkPath false ["p"]) "no").
  destruct (H w ex_dir (fst (ex_run w ex_dir)) eq_refl) as (m & E). discriminate E.
Qed.
Print Assumptions C91_solution_saved_refuted.

Example C92_instance :
  ba_init_norm (@new_batch nat (ex_cfg ex_dir "tRuE")) = true /\ ba_parallel (@new_batch nat (ex_cfg ex_dir "tRuE")) = true /\
  ba_parallel (@new_batch nat (ex_cfg ex_dir "1")) = false /\ is_true_word "tRuE" /\
  open_data ex_ok (ex_world ex_files ex_dir "no") (default_config ex_dir) = Some ExitErr /\
  ext (mkPath true ["a.b"; "x.y.CSV"]) = "CSV".
Proof.
  repeat split; try reflexivity. exists "t"%char, "R"%char, "u"%char, "E"%char. cbn. tauto.
Qed.

Definition ex_w2 := after ex_w1 (fst (ex_rune ex_w1 ex_dir true true false)).
Lemma ex_tidy : tidy ex_files.
Proof. intros q o. unfold ex_files. destruct (path_eqb q ex_dir); discriminate. Qed.
Example C93_instance :
  tidy ex_files /\ show_error ex_bad ex_w2 ex_dir true true true = Shows (ODisp (mkDisp 7 0 None)) /\
  show_error ex_bad ex_w2 ex_dir true false false = Notice.
Proof. split; [apply ex_tidy|split; vm_compute; reflexivity]. Qed.
(** "One error estimation method must be selected": with one selected, and saved
    before, its results are shown. *)
Theorem C93_one_method_refuted :
  ~ (forall (w : world nat) d b, error_file w d "bs-" (File (Pickled (OBoot b))) -> p_abs d = true -> show_error ex_bad w d false true false = Shows (OBoot b)) /\
  ~ (forall (w : world nat) d b, error_file w d "bs-" (File (Pickled (OBoot b))) -> p_abs d = true ->
       exists fd fb fbd, show_error ex_bad w d fd fb fbd = Shows (OBoot b)).
Proof.
  assert (E : error_file ex_w2 ex_dir "bs-" (File (Pickled (OBoot (mkBoot 7 0 20 6 7))))) by (exists (ex_cfg ex_dir "no"); split; vm_compute; reflexivity).
  split; intros H; specialize (H ex_w2 ex_dir _ E eq_refl).
  - discriminate H.
  - destruct H as (fd & fb & fbd & H). destruct fd, fb, fbd; vm_compute in H; discriminate H.
Qed.
Print Assumptions C93_one_method_refuted.

Example C94_instance :
  project ex_ok ex_w1 ex_dir (ex_cfg ex_dir "no") ex_err 0 7 /\
  configured ex_opt (fun m => Z.of_nat m) 20 (-1) (-1) (ex_cfg ex_dir "no") 0 7 (mkBoot 7 0 20 6 7) /\
  snd (ex_rune ex_w1 ex_dir false false true) = Raises AttrErr /\
  snd (ex_rune ex_w1 ex_dir true true true) = Done.
Proof.
  split; [|repeat split; intros; first [congruence | vm_compute; reflexivity]].
  split; [reflexivity|]. split; [reflexivity|]. split; [reflexivity|]. split; [reflexivity|]. split.
  - split; [reflexivity|]. split; [reflexivity|]. split; [left; reflexivity|]. intros nm E.
    change (w_files ex_w1) with (fst (ex_run (ex_world ex_files ex_dir "no") ex_dir)) in E.
    destruct (C91_run_then_analyse ex_bad ex_ok ex_train (ex_world ex_files ex_dir "no") ex_dir (ex_cfg ex_dir "no") ([Some 7; None], Some 0%Z)) as (s' & Es & _ & _ & _ & K); try reflexivity.
    { apply C91_instance. }
    unfold ex_run in E. rewrite Es in E. cbn [fst] in E. rewrite K in E.
    + cbn [ex_world w_files] in E. unfold ex_files in E. destruct (path_eqb _ _) eqn:Q; [|discriminate]. apply path_eqb_iff in Q. injection Q; discriminate.
    + intro Q. apply (f_equal (fun p => List.length (p_parts p))) in Q. cbn in Q. discriminate.
    + intros n Q. apply join_last in Q. destruct Q as [Q _]. discriminate Q.
  - eexists. split; [reflexivity|]. split; [vm_compute; reflexivity|]. split; [intros C; exfalso; apply C; reflexivity|intros _; vm_compute; reflexivity].
Qed.
(** The documentation of run-error: each method can be run by its flag. *)
Theorem C94_bsdisp_alone_refuted :
  ~ (forall (w : world nat) d c e i m, project ex_ok w d c e i m -> snd (ex_rune w d false false true) = Done).
Proof. intros H. destruct C94_instance as (P & _). specialize (H _ _ _ _ _ _ P). vm_compute in H. discriminate H. Qed.
Print Assumptions C94_bsdisp_alone_refuted.
(** The bootstrap-displacement uses the bootstrap settings of its own section. *)
Theorem C94_own_settings_refuted :
  ~ (forall w d c e i m o, project ex_ok w d c e i m -> fst (ex_rune w d false true true) (join (join d "error") ("bsdisp-" ++ r_name c ++ ".pkl")) = File (Pickled (OBsDisp o)) ->
       bo_n (bd_boot o) = e_bd_n e /\ bd_features o = features_of (e_bd_features e)).
Proof.
  intros H. destruct C94_instance as (P & _). specialize (H _ _ _ _ _ _ (mkBsd 7 0%Z (mkBoot 7 0 20 6 7) None) P ltac:(vm_compute; reflexivity)). destruct H as [H _]. discriminate H.
Qed.
Print Assumptions C94_own_settings_refuted.

Definition ex_runc := run_constrained ex_bad ex_ok ex_sizes (fun _ : @cmodel nat => Some (Some 8)).
Example C95_instance :
  snd (ex_runc ex_w1 ex_dir) = Done /\ add_all 10 2 3 (cc_constraints ex_cc) = [(LFeature 0 1, mkC SetZero 0 1 Feature)] /\
  filter wanted_expr (cc_expressions ex_cc) = ["[factor:1|feature:0]=0,1"] /\
  wanted_expr "[factor:-12|feature:0]=0,1" = false /\
  show_constrained ex_bad (after ex_w1 (fst (ex_runc ex_w1 ex_dir))) ex_dir = Raises AttrErr.
Proof.
  assert (E : snd (ex_runc ex_w1 ex_dir) = Done /\ show_constrained ex_bad (after ex_w1 (fst (ex_runc ex_w1 ex_dir))) ex_dir = Raises AttrErr).
  { unfold ex_runc, run_constrained. change (w_run ex_w1 ex_dir) with (Some (ex_cfg ex_dir "no")). change (w_constr ex_w1 ex_dir) with (Some ex_cc). cbv iota beta.
    change (open_data ex_ok ex_w1 (ex_cfg ex_dir "no")) with (@None exn). cbv iota.
    change (batch_at ex_bad (w_files ex_w1) ex_dir (r_name (ex_cfg ex_dir "no"))) with (Object (OBatch (trained (new_batch (ex_cfg ex_dir "no")) ([Some 7; None], Some 0%Z)))). cbv iota.
    match goal with |- context [select ?b ?i] => change (select b i) with (@inr exn nat 7) end. cbv iota. unfold ex_sizes.
    destruct (c_settings _ _) as [[mi de] cn]. split; vm_compute; reflexivity. }
  destruct E as [E1 E2]. repeat split; auto.
Qed.
(** After a completed run the constrained model can be analysed. *)
Theorem C95_analysis_works_refuted :
  ~ (forall (w : world nat) d s', ex_runc w d = (s', Done) -> exists o, show_constrained ex_bad (after w s') d = Shows o).
Proof.
  intros H. destruct C95_instance as (E & _ & _ & _ & F).
  destruct (H ex_w1 ex_dir (fst (ex_runc ex_w1 ex_dir))) as (o & G); [|congruence]. rewrite <- E. apply surjective_pairing.
Qed.
Print Assumptions C95_analysis_works_refuted.

Example C96_instance :
  snd (get_sim ex_bad (fst (get_sim ex_bad ex_files ex_dir (mkSC 1 "False"))) ex_dir (mkSC 2 "")) = inr (mkSim 1 true) /\
  select (mkBSA true true true 1 0 1 [Some 5; None; Some 6] (Some 0%Z)) (-3) = inr 5 /\ select (mkBSA true true true 1 0 1 [Some 5; None; Some 6] (Some 0%Z)) (-1) = inr 5 /\
  plot_factor ex_bad ex_ok ex_sizes ex_w1 ex_dir (-1) 3 = Shows (OModel 7) /\ plot_factor ex_bad ex_ok ex_sizes ex_w1 ex_dir (-1) 0 = Notice.
Proof. repeat split; vm_compute; reflexivity. Qed.
(** A changed simulator configuration takes effect. *)
Theorem C96_simulator_reconfigured_refuted :
  ~ (forall (s : fs (obj nat)) d sc o, snd (get_sim ex_bad s d sc) = inr o -> si_seed o = sc_seed sc).
Proof. intros H. specialize (H (fst (get_sim ex_bad ex_files ex_dir (mkSC 1 ""))) ex_dir (mkSC 2 "") (mkSim 1 false) eq_refl). discriminate H. Qed.
Print Assumptions C96_simulator_reconfigured_refuted.
(** The factor shown by default is the first one. *)
Theorem C96_default_factor_refuted :
  ~ (forall (w : world nat) d m, get_model ex_bad ex_ok w d (-1) = inr m -> plot_factor ex_bad ex_ok ex_sizes w d (-1) factor_default = Shows (OModel m)).
Proof. intros H. specialize (H ex_w1 ex_dir 7 ltac:(vm_compute; reflexivity)). vm_compute in H. discriminate H. Qed.
Print Assumptions C96_default_factor_refuted.
(* the project of the directory /home/p, before and after the run command *)
Definition xcl_w0 := ex_world ex_files ex_dir "no".
Definition xcl_c := ex_cfg ex_dir "no".
Definition xcl_seed (m : nat) : Z := Z.of_nat m.
Definition xcl_boot := mkBoot 7 0 20 6 7%Z.
Definition xcl_yes {A} (_ : A) := true.
Definition xcl_nil {A} (_ : @bsd nat) : list (nat * A) := [].
Definition xcl_ct (_ : @cmodel nat) : option (option nat) := Some (Some 8).
Lemma xcl_project : project ex_ok ex_w1 ex_dir xcl_c ex_err 0 7.
Proof. exact (proj1 C94_instance). Qed.
Lemma xcl_configured : configured ex_opt xcl_seed 20 (-1) (-1) xcl_c 0 7 xcl_boot.
Proof. exact (proj1 (proj2 C94_instance)). Qed.
Lemma xcl_want : want [] None.
Proof. split; [reflexivity | congruence]. Qed.
Lemma xcl_tidy : tidy (M := nat) (w_files xcl_w0).
Proof. exact (proj1 C93_instance). Qed.
Example C92_text_switches_example := C92_text_switches nat (ex_cfg ex_dir "tRuE") (mkSC 1 "False").
Example C92_data_section_example := C92_data_section nat ex_ok xcl_w0 xcl_c.
Example C91_run_then_analyse_example :=
  C91_run_then_analyse ex_bad ex_ok ex_train xcl_w0 ex_dir xcl_c ([Some 7; None], Some 0%Z)
    eq_refl eq_refl eq_refl (proj1 (proj2 C91_instance)) (proj1 C91_instance) eq_refl.
(* the directory of the configuration written as a relative path *)
Definition xcl_rel := mkPath false ["p"].
Definition xcl_wrel := ex_world (fun q => if path_eqb q xcl_rel then Dir else ex_files q) xcl_rel "no".
Example C91_relative_saves_nothing_example :=
  C91_relative_saves_nothing ex_bad ex_ok ex_train xcl_wrel ex_dir (ex_cfg xcl_rel "no") ([Some 7; None], Some 0%Z)
    eq_refl eq_refl eq_refl eq_refl eq_refl eq_refl.
Example C92_run_needs_data_example :
  run_cmd ex_bad ex_ok ex_train (ex_world ex_files ex_dir "no") (mkPath true ["home"]) = (ex_files, Raises KeyErr) :=
  proj1 (C92_run_needs_data ex_bad ex_ok ex_train (ex_world ex_files ex_dir "no") (mkPath true ["home"])) eq_refl.
Definition xcl_sim : fs (obj nat) := fun q => if path_eqb q (join ex_dir sim_pkl) then File (Pickled (OSim (mkSim 4 true))) else ex_files q.
Lemma xcl_sim_ready : ready xcl_sim ex_dir "output".
Proof.
  split; [reflexivity|]. split; [reflexivity|]. split; [left; reflexivity|].
  intros nm. unfold xcl_sim. destruct (path_eqb _ (join ex_dir sim_pkl)) eqn:E0; [discriminate|].
  unfold ex_files. destruct (path_eqb _ _) eqn:E; [|discriminate]. apply path_eqb_iff in E. injection E; discriminate.
Qed.
Example C96_run_uses_simulator_example :=
  C96_run_uses_simulator ex_bad ex_ok ex_train
    (mkW xcl_sim (fun _ => None) (w_run xcl_w0) (fun _ => None) (fun _ => None) (fun _ => Some (mkSC 1 ""))) ex_dir xcl_c
    (mkSC 1 "") (mkSim 4 true) ([Some 7; None], Some 0%Z) eq_refl eq_refl eq_refl xcl_sim_ready eq_refl.
Example C91_setup_keeps_directory_example := C91_setup_keeps_directory xcl_w0 ex_dir eq_refl.
(* results saved under the directory of the configuration, commands given for another one *)
Definition xcl_other := mkPath true ["home"; "q"].
Definition xcl_w2dir : world nat :=
  mkW (fun q => if path_eqb q xcl_other then Dir
                else if path_eqb q (join (out ex_dir) "x.pkl") then File (Pickled (OBatch (trained (new_batch xcl_c) ([Some 7; None], Some 0%Z))))
                else Missing)
      (w_tables xcl_w0) (fun _ => Some xcl_c) (fun _ => Some ex_err) (fun _ => Some ex_cc) (fun _ => None).
Example C91_two_directories_example :=
  C91_two_directories ex_bad ex_ok ex_opt ex_sizes xcl_seed xcl_yes xcl_yes xcl_yes xcl_nil xcl_ct xcl_w2dir xcl_other xcl_c
    (trained (new_batch xcl_c) ([Some 7; None], Some 0%Z)) (-1) true false false ex_err ex_cc
    eq_refl eq_refl eq_refl eq_refl eq_refl eq_refl eq_refl eq_refl eq_refl eq_refl eq_refl.
Example C93_needs_all_three_example := C93_needs_all_three ex_bad ex_ok ex_opt ex_w2 ex_dir true true true.
Example C93_bootstrap_never_shown_example :=
  fun o => C93_bootstrap_never_shown ex_bad ex_ok ex_opt ex_sizes xcl_seed ex_train xcl_yes xcl_yes xcl_yes xcl_nil xcl_ct xcl_w0
    [CRun ex_dir; CRunError ex_dir true true false] ex_dir true true true o xcl_tidy.
Example C94_no_method_example := C94_no_method ex_bad ex_ok ex_opt xcl_seed xcl_yes xcl_yes xcl_yes xcl_nil xcl_ct ex_w1 ex_dir.
Example C94_disp_example :=
  C94_disp ex_bad ex_ok ex_opt xcl_seed xcl_yes xcl_yes xcl_yes xcl_nil xcl_ct ex_w1 ex_dir xcl_c ex_err 0 7 None
    xcl_project xcl_want eq_refl.
Example C94_boot_example :=
  C94_boot ex_bad ex_ok ex_opt xcl_seed xcl_yes xcl_yes xcl_yes xcl_nil xcl_ct ex_w1 ex_dir xcl_c ex_err 0 7 xcl_boot
    xcl_project xcl_configured eq_refl.
Example C94_typed_commands_example :=
  C94_typed_commands ex_bad ex_ok ex_opt ex_sizes xcl_seed ex_train xcl_yes xcl_yes xcl_yes xcl_nil xcl_ct ex_w1 ex_dir xcl_c ex_err
    0 7 None xcl_boot xcl_project xcl_want eq_refl xcl_configured eq_refl.
Example C94_bsdisp_without_bs_fails_example :=
  C94_bsdisp_without_bs_fails ex_bad ex_ok ex_opt xcl_seed xcl_yes xcl_yes xcl_yes xcl_nil xcl_ct ex_w1 ex_dir xcl_c ex_err 0 7 true
    xcl_project eq_refl.
Lemma xcl_true : is_true_word "tRuE".
Proof. apply C92_instance. Qed.
Example C94_bsdisp_parallel_fails_example :=
  C94_bsdisp_parallel_fails ex_bad ex_ok ex_opt xcl_seed xcl_yes xcl_yes xcl_yes xcl_nil xcl_ct (ex_world ex_files ex_dir "tRuE")
    ex_dir (ex_cfg ex_dir "tRuE") true true eq_refl xcl_true.
Lemma xcl_no : ~ is_true_word "no".
Proof. intros (a & b & c & d & H & _). discriminate H. Qed.
Example C94_bsdisp_with_bs_example :=
  C94_bsdisp_with_bs ex_bad ex_ok ex_opt ex_sizes xcl_seed xcl_yes xcl_yes xcl_yes xcl_nil xcl_ct ex_w1 ex_dir xcl_c ex_err 0 7 None
    xcl_boot xcl_project xcl_want xcl_configured eq_refl xcl_no eq_refl eq_refl ltac:(constructor).
(* the section of the bootstrap-displacement edited: 50 bootstrap runs in place of 5 *)
Definition xcl_err' := mkEC "" (-1) [] 20 (-1) (-1) None 50 3 9 [4%Z; 5%Z].
Definition xcl_w1' := mkW (w_files ex_w1) (w_tables ex_w1) (w_run ex_w1) (fun _ => Some xcl_err') (w_constr ex_w1) (w_sim ex_w1).
Example C94_bsdisp_section_ignored_example :
  run_error ex_bad ex_ok ex_opt xcl_seed xcl_yes xcl_yes xcl_yes xcl_nil xcl_ct xcl_w1' ex_dir true true true
  = run_error ex_bad ex_ok ex_opt xcl_seed xcl_yes xcl_yes xcl_yes xcl_nil xcl_ct ex_w1 ex_dir true true true :=
  proj1 (C94_bsdisp_section_ignored ex_bad ex_ok ex_opt xcl_seed xcl_yes xcl_yes xcl_yes xcl_nil xcl_ct ex_w1 xcl_w1' ex_dir
    ex_err xcl_err' true eq_refl eq_refl eq_refl eq_refl eq_refl eq_refl eq_refl eq_refl eq_refl eq_refl eq_refl eq_refl) eq_refl.
Definition xcl_wc : world nat :=
  mkW ex_files (w_tables xcl_w0) (w_run xcl_w0) (fun _ => Some (mkEC "constrained_model" (-1) [] 20 (-1) (-1) None 5 3 9 [4%Z]))
    (fun _ => Some ex_cc) (fun _ => None).
Example C94_constrained_never_runs_example :=
  C94_constrained_never_runs ex_bad ex_ok ex_opt ex_sizes xcl_seed ex_train xcl_yes xcl_yes xcl_yes xcl_nil xcl_ct xcl_wc
    [] ex_dir _ true true false xcl_tidy eq_refl ltac:(discriminate).
Example C94_missing_bootstrap_file_example :=
  C94_missing_bootstrap_file ex_bad ex_opt xcl_seed ex_files (mkPath true ["home"; "bs.pkl"]) (BFlag true) 7 0 20 (-1) (-1) xcl_c xcl_boot
    (or_introl eq_refl) xcl_configured.
Example C95_constraints_applied_example :=
  C95_constraints_applied 10 2 3 (cc_constraints ex_cc) (LFeature 0 1) (mkC SetZero 0 1 Feature).
Example C95_expressions_left_out_example := C95_expressions_left_out "[factor:-12|feature:0]=0,1".
Example C95_settings_example := C95_settings (trained (new_batch xcl_c) ([Some 7; None], Some 0%Z)) ex_cc.
Lemma xcl_ready_c : ready (w_files ex_w1) ex_dir "constrained".
Proof.
  split; [reflexivity|]. split; [reflexivity|]. split; [left; reflexivity|]. intros nm E.
  change (w_files ex_w1) with (fst (ex_run xcl_w0 ex_dir)) in E.
  destruct C91_run_then_analyse_example as (s' & Es & _ & _ & _ & K).
  unfold ex_run in E. rewrite Es in E. cbn [fst] in E. rewrite K in E.
  - cbn [ex_world w_files] in E. unfold xcl_w0, ex_world, ex_files in E. cbn [w_files] in E.
    destruct (path_eqb _ _) eqn:Q; [|discriminate]. apply path_eqb_iff in Q. injection Q; discriminate.
  - intro Q. apply (f_equal (fun p => List.length (p_parts p))) in Q. cbn in Q. discriminate.
  - intros n Q. apply join_last in Q. destruct Q as [Q _]. discriminate Q.
Qed.
Example C95_run_then_analyse_example :
  exists s', run_constrained ex_bad ex_ok ex_sizes xcl_ct ex_w1 ex_dir = (s', Done) /\
    show_constrained ex_bad (after ex_w1 s') ex_dir = Raises AttrErr.
Proof.
  destruct (c_settings (trained (new_batch xcl_c) ([Some 7; None], Some 0%Z)) ex_cc) as [[mi de] cn] eqn:E.
  destruct (C95_run_then_analyse ex_bad ex_ok ex_sizes xcl_ct ex_w1 ex_dir xcl_c ex_cc
    (trained (new_batch xcl_c) ([Some 7; None], Some 0%Z)) 7 8 10 2 3 mi de cn
    eq_refl eq_refl eq_refl xcl_ready_c eq_refl eq_refl eq_refl E eq_refl) as (s' & H1 & _ & _ & H2).
  exists s'. split; assumption.
Qed.
Example C95_never_shown_example := fun o =>
  C95_never_shown ex_bad ex_ok ex_opt ex_sizes xcl_seed ex_train xcl_yes xcl_yes xcl_yes xcl_nil xcl_ct xcl_w0
    [CRun ex_dir; CRunError ex_dir true true false] ex_dir o xcl_tidy.
Lemma xcl_usable : usable ex_files ex_dir.
Proof. split; reflexivity. Qed.
Lemma xcl_no_sub : no_sub ex_files ex_dir.
Proof.
  intros nm. unfold ex_files. destruct (path_eqb _ _) eqn:E; [|discriminate]. apply path_eqb_iff in E. injection E; discriminate.
Qed.
Example C96_simulator_configured_once_example :=
  C96_simulator_configured_once ex_bad ex_files ex_dir (mkSC 1 "False") xcl_usable xcl_no_sub eq_refl.
Example C96_model_selection_example :=
  C96_model_selection (mkBSA true true true 1 0 1 [Some 5; None; Some 6] (Some 0%Z)) (-3) 5.
Example C96_factor_numbers_example := C96_factor_numbers ex_bad ex_ok ex_sizes ex_w1 ex_dir (-1) 3 7.
Example C96_input_timeseries_fails_example : plot_input_timeseries ex_ok xcl_w0 ex_dir 0 = Raises TypeErr :=
  C96_input_timeseries_fails ex_ok xcl_w0 ex_dir 0 xcl_c eq_refl eq_refl.
(** A project whose data files do not exist but which has a saved simulator. *)
Example C96_run_uses_simulator_instance :
  let o := @OSim nat (mkSim 4 true) in
  let f := fun q => if path_eqb q (join ex_dir sim_pkl) then File (Pickled o) else ex_files q in
  let w := mkW f (fun _ => None) (fun q => if path_eqb q ex_dir then Some (ex_cfg ex_dir "no") else None) (fun _ => None) (fun _ => None) (fun _ => Some (mkSC 1 "")) in
  ready f ex_dir "output" /\ snd (ex_run w ex_dir) = Done /\
  snd (ex_run (mkW f (fun _ => None) (w_run w) (fun _ => None) (fun _ => None) (fun _ => None)) ex_dir) = Raises ExitErr.
Proof.
  cbv zeta. split; [|split; vm_compute; reflexivity]. split; [reflexivity|]. split; [reflexivity|]. split; [left; reflexivity|].
  intros nm. destruct (path_eqb _ (join ex_dir sim_pkl)) eqn:E0; [discriminate|]. unfold ex_files. destruct (path_eqb _ _) eqn:E; [|discriminate]. apply path_eqb_iff in E. injection E; discriminate.
Qed.
