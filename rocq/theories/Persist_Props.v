(** Saving and loading (C58) and what the JSON files keep (C83). *)
From Coq Require Import List Bool String Ascii ZArith Reals Lia DecimalString DecimalNat Decimal.
From Verif Require Import Persist_Model.
Import ListNotations.
Local Open Scope string_scope.

(** ** Strings *)
Lemma app_inv_l : forall a b c : string, a ++ b = a ++ c -> b = c.
Proof. induction a; simpl; intros; [assumption|]. injection H; auto. Qed.
Lemma str_length_app : forall a b : string, String.length (a ++ b) = String.length a + String.length b.
Proof. induction a; simpl; intros; [reflexivity|]. rewrite IHa; reflexivity. Qed.
Lemma app_assoc_s : forall a b c : string, (a ++ b) ++ c = a ++ b ++ c.
Proof. induction a; simpl; intros; [reflexivity|]. rewrite IHa; reflexivity. Qed.
Definition digit (c : ascii) : Prop := (48 <= nat_of_ascii c <= 57)%nat.
Fixpoint digits (s : string) : Prop := match s with EmptyString => True | String c t => digit c /\ digits t end.
Lemma show_digits : forall n, digits (show n).
Proof.
  intros; unfold show; generalize (Nat.to_uint n); induction u; simpl; auto; split; auto; unfold digit; cbn; lia.
Qed.
Lemma show_inj : forall m n, show m = show n -> m = n.
Proof.
  unfold show; intros m n H.
  assert (E : forall n, NilEmpty.uint_of_string (NilEmpty.string_of_uint (Nat.to_uint n)) = Some (Nat.to_uint n)) by (intros; apply NilEmpty.usu).
  pose proof (E m) as Em; rewrite H, E in Em; injection Em as Em.
  apply (f_equal Nat.of_uint) in Em; rewrite !Unsigned.of_to in Em; congruence.
Qed.
(** Digits followed by a non-digit determine both parts. *)
Lemma digits_split : forall a b x y cx cy, digits a -> digits b -> ~ digit cx -> ~ digit cy -> a ++ String cx x = b ++ String cy y -> a = b /\ String cx x = String cy y.
Proof.
  induction a; destruct b; simpl; intros x y cx cy Ha Hb Hx Hy E.
  - auto.
  - injection E as E1 E2; subst; tauto.
  - injection E as E1 E2; subst; tauto.
  - injection E as E1 E2; subst. destruct (IHa b x y cx cy) as [-> E]; tauto.
Qed.

Lemma nd_dash : ~ digit "-".
Proof. unfold digit; cbn; lia. Qed.
Lemma nd_dot : ~ digit ".".
Proof. unfold digit; cbn; lia. Qed.

(** ** Paths *)
Lemma path_eqb_iff : forall p q, path_eqb p q = true <-> p = q.
Proof.
  intros [a l] [b m]; unfold path_eqb; cbn [p_abs p_parts]. rewrite andb_true_iff, eqb_true_iff.
  destruct (list_eq_dec string_dec l m); split; intros H; try (destruct H; congruence); injection H as -> ->; auto; congruence.
Qed.
Lemma join_inj : forall d a b, join d a = join d b -> a = b.
Proof. unfold join; intros d a b H; injection H as H; apply app_inj_tail in H; tauto. Qed.
Lemma join_not_dir : forall d a, join d a <> d.
Proof. intros [x l] a H; injection H as H. apply (f_equal (@List.length string)) in H; rewrite app_length in H; cbn in H; lia. Qed.

Section Objects.
Context {O : Type}.
Notation fs := (fs O). Notation content := (content O).
Lemma upd_same : forall (s : fs) p n, upd s p n p = n.
Proof. intros; unfold upd. replace (path_eqb p p) with true; auto. symmetry; apply path_eqb_iff; auto. Qed.
Lemma upd_other : forall (s : fs) p q n, q <> p -> upd s p n q = s q.
Proof. intros; unfold upd. destruct (path_eqb q p) eqn:E; auto. apply path_eqb_iff in E; congruence. Qed.

(** [s'] is [s] after writing, in the directory [d], exactly the files of [l]. *)
Definition wrote (s s' : fs) (d : path) (l : list (string * content)) : Prop :=
  (forall nm c, In (nm, c) l -> s' (join d nm) = File c) /\ (forall q, ~ In q (map (fun e => join d (fst e)) l) -> s' q = s q).
(** No sub-directory has one of the names. *)
Definition free (s : fs) (d : path) (names : list string) : Prop := Forall (fun nm => s (join d nm) <> Dir) names.
Definition usable (s : fs) (d : path) : Prop := p_abs d = true /\ s d = Dir.

Lemma in_join : forall d (l : list (string * content)) nm, In (join d nm) (map (fun e => join d (fst e)) l) <-> In nm (map fst l).
Proof.
  intros; rewrite !in_map_iff; split; intros (x & E & I); exists x; split; auto.
  - apply join_inj in E; auto.
  - rewrite E; auto.
Qed.
Lemma d_notin : forall d (l : list (string * content)), ~ In d (map (fun e => join d (fst e)) l).
Proof. intros d l I; apply in_map_iff in I; destruct I as (x & E & _); apply (join_not_dir d (fst x)); auto. Qed.
Lemma writes_snd : forall l (s : fs) d, s d = Dir -> free s d (map fst l) -> snd (writes s d l) = true.
Proof.
  induction l as [|[nm c] l IH]; cbn; intros s d Hd F; auto. unfold write; rewrite Hd. inversion F; subst.
  assert (G : snd (writes (upd s (join d nm) (File c)) d l) = true).
  { apply IH. rewrite upd_other; auto. intro E; apply (join_not_dir d nm); auto.
    eapply Forall_impl; [|exact H2]. intros a Ha. destruct (string_dec a nm) as [->|N]. rewrite upd_same; congruence.
    rewrite upd_other; auto. intro E; apply join_inj in E; auto. }
  destruct (s (join d nm)) eqn:E; auto; cbn in H1; congruence.
Qed.
Lemma writes_fst : forall l (s : fs) d, s d = Dir -> free s d (map fst l) -> NoDup (map fst l) -> wrote s (fst (writes s d l)) d l.
Proof.
  induction l as [|[nm c] l IH]; cbn; intros s d Hd F N.
  - split; [intros ? ? []|auto].
  - inversion F; subst. inversion N; subst.
    assert (W : write s d nm c = Some (upd s (join d nm) (File c))) by (unfold write; rewrite Hd; cbn in H1; destruct (s (join d nm)); congruence).
    rewrite W.
    assert (Hd' : upd s (join d nm) (File c) d = Dir) by (rewrite upd_other; auto; intro E; apply (join_not_dir d nm); auto).
    assert (F' : free (upd s (join d nm) (File c)) d (map fst l)).
    { eapply Forall_impl; [|exact H2]. intros a Ha. destruct (string_dec a nm) as [->|Ne]. rewrite upd_same; congruence.
      rewrite upd_other; auto. intro E; apply join_inj in E; auto. }
    destruct (IH _ d Hd' F' H4) as [A B]. split.
    + intros nm' c' [E|I]; [|auto]. injection E as -> ->. rewrite B. apply upd_same. intro I. apply in_join in I; auto.
    + cbn; intros q Hq. rewrite B by tauto. apply upd_other; intuition.
Qed.
Lemma writes_app : forall l1 l2 (s : fs) d, snd (writes s d l1) = true -> writes s d (l1 ++ l2)%list = writes (fst (writes s d l1)) d l2.
Proof.
  induction l1 as [|[nm c] l IH]; cbn; intros l2 s d H; auto. destruct (write s d nm c); [apply IH; auto|discriminate].
Qed.
Lemma wrote_dir : forall (s s' : fs) d l, wrote s s' d l -> s' d = s d.
Proof. intros s s' d l [_ B]; apply B, d_notin. Qed.
Lemma usable_guard : forall (s : fs) d no body, usable s d -> guarded s d no body = body.
Proof. intros s d no body [A B]; unfold guarded, exists_at; rewrite A, B; reflexivity. Qed.
Lemma finish_ok : forall (s : fs) d l a, s d = Dir -> free s d (map fst l) -> NoDup (map fst l) -> exists s', finish (writes s d l) a = (s', a) /\ wrote s s' d l.
Proof.
  intros s d l a H F N. exists (fst (writes s d l)); split; [|apply writes_fst; auto]. unfold finish; rewrite writes_snd; auto.
Qed.

(** ** C58: refusals *)
(** A relative directory, or one that does not exist: nothing is written and nothing
    (the simulator: False) is returned, whatever is to be saved. *)
Theorem C58_refused : forall (s : fs) d name pk hd results bs disps inner gen o pb, p_abs d = false \/ s d = Missing ->
  sa_save s name d pk hd o = (s, Nothing) /\ batch_save s name d pk pb hd results o = (s, Nothing) /\
  bs_save s name d pk o = (s, Nothing) /\ disp_save s name d pk o = (s, Nothing) /\ bsdisp_save s name d pk bs disps o = (s, Nothing) /\
  constrained_save s name d pk inner o = (s, Nothing) /\ sim_save s name d gen o = (s, Truth false).
Proof.
  intros s d name pk hd results bs disps inner gen o pb H.
  assert (G : forall no body, guarded s d no body = (s, no)) by (intros; unfold guarded, exists_at; destruct H as [-> | ->]; cbn; destruct (p_abs d); reflexivity).
  unfold sa_save, batch_save, bs_save, disp_save, bsdisp_save, constrained_save, sim_save. rewrite !G. repeat split.
Qed.

(** ** C58: pickle files *)
Definition round_trip (bad : what -> O -> bool) (s : fs) (r : fs * answer) (p : path) (o : O) : Prop :=
  load bad (fst r) p = Object o /\ forall q, q <> p -> fst r q = s q.
Lemma pickle_ok : forall (bad : what -> O -> bool) (s : fs) d nm o a, usable s d -> s (join d nm) <> Dir ->
  snd (finish (writes s d [(nm, Pickled o)]) a) = a /\ round_trip bad s (finish (writes s d [(nm, Pickled o)]) a) (join d nm) o.
Proof.
  intros bad s d nm o a [A B] F. destruct (finish_ok s d [(nm, Pickled o)] a B) as (s' & -> & W & X).
  - repeat constructor; auto.
  - repeat constructor; auto.
  - split; [reflexivity|split].
    + unfold load; cbn. rewrite A, (W nm (Pickled o)) by (left; auto). reflexivity.
    + cbn; intros; apply X; cbn; intuition.
Qed.
Theorem C58_pickle : forall (bad : what -> O -> bool) (s : fs) d name hd pm results bs disps o, usable s d -> s (join d (name ++ ".pkl")) <> Dir ->
  let p := join d (name ++ ".pkl") in
  (snd (sa_save s name d true hd o) = Path p /\ round_trip bad s (sa_save s name d true hd o) p o) /\
  (snd (batch_save s name d pm true hd results o) = Path p /\ round_trip bad s (batch_save s name d pm true hd results o) p o) /\
  (snd (disp_save s name d true o) = Path p /\ round_trip bad s (disp_save s name d true o) p o) /\
  (snd (bsdisp_save s name d true bs disps o) = Path p /\ round_trip bad s (bsdisp_save s name d true bs disps o) p o) /\
  (snd (bs_save s name d true o) = Nothing /\ round_trip bad s (bs_save s name d true o) p o).
Proof.
  intros bad s d name hd pm results bs disps o U F p. unfold sa_save, batch_save, disp_save, bsdisp_save, bs_save. rewrite !usable_guard by auto.
  repeat match goal with |- (_ /\ round_trip _ _ _ _ _) /\ _ => split end; apply pickle_ok; auto.
Qed.
(** The documentation of the bootstrap's save: returns the path of the saved file. *)
Theorem C58_bootstrap_returns_path_refuted : forall (s : fs) d name (o : O), usable s d -> s (join d (name ++ ".pkl")) <> Dir ->
  ~ exists p, snd (bs_save s name d true o) = Path p.
Proof.
  intros s d name o U F (p & E). destruct (C58_pickle (fun _ _ => false) s d name true true [] o [] o U F) as (_ & _ & _ & _ & B & _). rewrite B in E; discriminate.
Qed.

(** ** C58: text files *)
Ltac distinct := repeat constructor; cbn; intros I; repeat match goal with H : _ \/ _ |- _ => destruct H as [H|H] | H : False |- _ => destruct H end; try (apply app_inv_l in I; discriminate I).
Lemma sa_text_nodup : forall name (o : O), NoDup (map fst (sa_text name o)).
Proof. intros; distinct. Qed.
Lemma sa_broken_nodup : forall name (o : O), NoDup (map fst (sa_text_broken name o)).
Proof. intros; distinct. Qed.
Lemma bs_nodup : forall name (o : O), NoDup (map fst (bs_text name o)).
Proof. intros; distinct. Qed.
Lemma disp_nodup : forall name (o : O), NoDup (map fst (disp_text name o)).
Proof. intros; distinct. Qed.
Definition names5 name exts := map (fun e => name ++ e) exts.
Definition sa_exts := ["-metadata.json"; "-profile.csv"; "-contribution.csv"; "-vprime.csv"; "-residuals.csv"].
Definition bs_exts := ["-metadata.json"; "-results.json"; "-mapping.csv"; "-qtable.csv"; "-ftables.json"; "-profiles.json"; "-contributions.json"].
Definition disp_exts := ["-metadata.json"; "-increase-disp.json"; "-decrease-disp.json"; "-swaptable.csv"; "-results.csv"].

(** With feature names the five files of a solution are written, and no other; so for
    the bootstrap (seven files) and the displacement (five files). *)
Theorem C58_text : forall (s : fs) d name o, usable s d -> free s d (names5 name (sa_exts ++ bs_exts ++ disp_exts)%list) ->
  (exists s', sa_save s name d false true o = (s', Path d) /\
    wrote s s' d [(name ++ "-metadata.json", Text Metadata o); (name ++ "-profile.csv", Text Profile o); (name ++ "-contribution.csv", Text Contribution o); (name ++ "-vprime.csv", Text VPrime o); (name ++ "-residuals.csv", Text Residuals o)]) /\
  (exists s', bs_save s name d false o = (s', Path d) /\
    wrote s s' d [(name ++ "-metadata.json", Text Metadata o); (name ++ "-results.json", Text Results o); (name ++ "-mapping.csv", Text Mapping o); (name ++ "-qtable.csv", Text QTable o); (name ++ "-ftables.json", Text FTables o); (name ++ "-profiles.json", Text Profiles o); (name ++ "-contributions.json", Text Contributions o)]) /\
  (exists s', disp_save s name d false o = (s', Path d) /\
    wrote s s' d [(name ++ "-metadata.json", Text Metadata o); (name ++ "-increase-disp.json", Text Increase o); (name ++ "-decrease-disp.json", Text Decrease o); (name ++ "-swaptable.csv", Text SwapTable o); (name ++ "-results.csv", Text Compiled o)]).
Proof.
  intros s d name o U F. unfold sa_save, bs_save, disp_save; rewrite !usable_guard by auto. destruct U as [A B].
  unfold free, names5 in F; rewrite !map_app in F; apply Forall_app in F; destruct F as [F1 F]; apply Forall_app in F; destruct F as [F2 F3].
  split; [|split].
  - apply (finish_ok s d (sa_text name o) (Path d)); auto using sa_text_nodup.
  - apply (finish_ok s d (bs_text name o) (Path d)); auto using bs_nodup.
  - apply (finish_ok s d (disp_text name o) (Path d)); auto using disp_nodup.
Qed.
(** Without feature names - the default - saving as text fails with a TypeError after
    two of the five files; the third is left empty. *)
Theorem C58_text_default_fails : forall (s : fs) d name o, usable s d -> free s d (names5 name sa_exts) ->
  exists s', sa_save s name d false false o = (s', Raised TypeErr') /\
    wrote s s' d [(name ++ "-metadata.json", Text Metadata o); (name ++ "-profile.csv", Text Profile o); (name ++ "-contribution.csv", Blank)].
Proof.
  intros s d name o U F. unfold sa_save; rewrite !usable_guard by auto. destruct U as [A B].
  apply (finish_ok s d (sa_text_broken name o)); auto using sa_broken_nodup.
  unfold free in *; cbn in *. inversion F; subst. inversion H2; subst. inversion H4; subst. repeat constructor; auto.
Qed.
Theorem C58_text_default_works_refuted : forall (s : fs) d name (o : O), usable s d -> free s d (names5 name sa_exts) ->
  ~ exists s' p, sa_save s name d false false o = (s', Path p).
Proof. intros s d name o U F (s' & p & E). destruct (C58_text_default_fails s d name o U F) as (s2 & E2 & _). rewrite E in E2; discriminate. Qed.

(** *** Batches *)
Definition model_files (pickle : bool) (nm : string) (o : O) : list (string * content) :=
  if pickle then [(nm ++ ".pkl", Pickled o)] else
  [(nm ++ "-metadata.json", Text Metadata o); (nm ++ "-profile.csv", Text Profile o); (nm ++ "-contribution.csv", Text Contribution o); (nm ++ "-vprime.csv", Text VPrime o); (nm ++ "-residuals.csv", Text Residuals o)].
(** The files of the batch: those of each successful model, under its position. *)
Fixpoint batch_files (pickle : bool) (name : string) (results : list (option O)) (i : nat) : list (string * content) :=
  match results with
  | [] => []
  | None :: t => batch_files pickle name t (S i)
  | Some o :: t => (model_files pickle (name ++ "-model-" ++ show i) o ++ batch_files pickle name t (S i))%list
  end.
Lemma batch_files_in : forall pickle name results i nm c, In (nm, c) (batch_files pickle name results i) <->
  exists j o, nth_error results j = Some (Some o) /\ In (nm, c) (model_files pickle (name ++ "-model-" ++ show (i + j)) o).
Proof.
  induction results as [|r t IH]; intros i nm c; cbn [batch_files].
  - split; [intros []|intros ([|j] & o & E & _); discriminate].
  - split.
    + intros H. assert (K : (exists o, r = Some o /\ In (nm, c) (model_files pickle (name ++ "-model-" ++ show i) o)) \/ In (nm, c) (batch_files pickle name t (S i))).
      { destruct r as [o|]; [apply in_app_or in H; destruct H; [left; eauto|auto]|auto]. }
      destruct K as [(o & -> & I)|I].
      * exists 0, o; rewrite Nat.add_0_r; auto.
      * apply IH in I; destruct I as (j & o & E & I). exists (S j), o; split; auto. replace (i + S j) with (S i + j) by lia; auto.
    + intros ([|j] & o & E & I); cbn in E.
      * injection E as ->. rewrite Nat.add_0_r in I. apply in_or_app; auto.
      * assert (In (nm, c) (batch_files pickle name t (S i))) by (apply IH; exists j, o; split; auto; replace (S i + j) with (i + S j) by lia; auto).
        destruct r; auto. apply in_or_app; auto.
Qed.
Lemma model_files_nodup : forall pickle nm (o : O), NoDup (map fst (model_files pickle nm o)).
Proof. intros [] nm o; [repeat constructor; intros []|apply sa_text_nodup]. Qed.
Lemma model_files_ext : forall pickle nm (o : O) a, In a (map fst (model_files pickle nm o)) -> exists c t, ~ digit c /\ a = nm ++ String c t.
Proof.
  intros [] nm o a; cbn; intros; repeat match goal with H : _ \/ _ |- _ => destruct H as [H|H] | H : False |- _ => destruct H end; subst; eexists _, _; (split; [|reflexivity]); auto using nd_dash, nd_dot.
Qed.
Lemma batch_files_nodup : forall pickle name (results : list (option O)) i, NoDup (map fst (batch_files pickle name results i)).
Proof.
  induction results as [|[o|] t IH]; intros i; cbn [batch_files]; [constructor| |auto].
  rewrite map_app.
  assert (D : forall a, In a (map fst (model_files pickle (name ++ "-model-" ++ show i) o)) -> ~ In a (map fst (batch_files pickle name t (S i)))).
  { intros a I J. apply model_files_ext in I; destruct I as (c & x & Nc & ->).
    apply in_map_iff in J; destruct J as ((b & co) & Eb & J); cbn in Eb. subst b. apply batch_files_in in J; destruct J as (j & o' & _ & J).
    apply (in_map fst) in J; cbn [fst] in J. apply model_files_ext in J; destruct J as (c' & x' & Nc' & E).
    rewrite !app_assoc_s in E. apply app_inv_l in E. apply (app_inv_l "-model-") in E.
    destruct (digits_split _ _ _ _ _ _ (show_digits i) (show_digits (S i + j)) Nc Nc' E) as [E1 _]. apply show_inj in E1; lia. }
  generalize (model_files_nodup pickle (name ++ "-model-" ++ show i) o) (IH (S i)) D. clear.
  generalize (map fst (model_files pickle (name ++ "-model-" ++ show i) o)) (map fst (batch_files pickle name t (S i))). clear.
  induction l; cbn; intros l0 N1 N2 D; auto. inversion N1; subst. constructor.
  - rewrite in_app_iff; intros [I|I]; [auto|]. apply (D a); auto.
  - apply IHl; auto.
Qed.
Lemma sa_save_files : forall (s : fs) nm d pk hd (o : O), p_abs d = true -> s d = Dir -> pk || hd = true ->
  exists p, sa_save s nm d pk hd o = finish (writes s d (model_files pk nm o)) (Path p).
Proof.
  intros s nm d pk hd o A B H. unfold sa_save. rewrite usable_guard by (split; auto). destruct pk; [eexists; reflexivity|]. cbn in H; subst hd. exists d; reflexivity.
Qed.
Lemma free_app : forall (s : fs) d a b, free s d (a ++ b)%list <-> free s d a /\ free s d b.
Proof. intros; apply Forall_app. Qed.
Lemma writes_keep : forall (l : list (string * content)) (s : fs) d, s d = Dir -> free s d (map fst l) -> NoDup (map fst l) -> forall names, free s d names -> free (fst (writes s d l)) d names.
Proof.
  intros l s d B F N names G. destruct (writes_fst l s d B F N) as [W X]. unfold free in *. rewrite Forall_forall in *. intros nm I.
  destruct (in_dec string_dec nm (map fst l)) as [J|J].
  - apply in_map_iff in J; destruct J as ((a & c) & E & J); cbn in E; subst a. rewrite (W nm c J). congruence.
  - rewrite X; auto. rewrite in_join; auto.
Qed.
Lemma nodup_app : forall {A} (a b : list A), NoDup (a ++ b) -> NoDup a /\ NoDup b.
Proof.
  induction a; cbn; intros; [split; auto; constructor|]. inversion H; subst. destruct (IHa b H3). split; auto. constructor; auto. intro I; apply H2, in_or_app; auto.
Qed.
Lemma batch_models_writes : forall pk hd name d results i (s : fs), p_abs d = true -> s d = Dir -> pk || hd = true ->
  free s d (map fst (batch_files pk name results i)) -> 
  batch_models s name d pk hd results i = (fst (writes s d (batch_files pk name results i)), None).
Proof.
  induction results as [|[o|] t IH]; intros i s A B H F; cbn [batch_models batch_files] in *; auto.
  destruct (sa_save_files s (name ++ "-model-" ++ show i) d pk hd o A B H) as (p & ->).
  rewrite map_app in F; apply free_app in F; destruct F as [F1 F2].
  pose proof (model_files_nodup pk (name ++ "-model-" ++ show i) o) as N1.
  unfold finish. rewrite writes_app by (apply writes_snd; auto). rewrite writes_snd by auto.
  apply IH; auto.
  - pose proof (writes_fst _ s d B F1 N1) as W. apply wrote_dir in W. congruence.
  - apply writes_keep; auto.
Qed.
(** Saving the models of a batch one by one (pickled, or as text with feature names):
    the model at position i gives the files named "-model-i", failed models give none,
    nothing else changes, and the directory is returned. *)
Theorem C58_batch_models : forall (s : fs) d name pk hd results o, usable s d -> pk || hd = true ->
  (forall i m nm c, nth_error results i = Some (Some m) -> In (nm, c) (model_files pk (name ++ "-model-" ++ show i) m) -> s (join d nm) <> Dir) ->
  exists s', batch_save s name d pk false hd results o = (s', Path d) /\
    (forall i m nm c, nth_error results i = Some (Some m) -> In (nm, c) (model_files pk (name ++ "-model-" ++ show i) m) -> s' (join d nm) = File c) /\
    (forall q, (forall i m nm c, nth_error results i = Some (Some m) -> In (nm, c) (model_files pk (name ++ "-model-" ++ show i) m) -> q <> join d nm) -> s' q = s q).
Proof.
  intros s d name pk hd results o U H Fr. destruct U as [A B].
  assert (F : free s d (map fst (batch_files pk name results 0))).
  { apply Forall_forall; intros nm I. apply in_map_iff in I; destruct I as ((a & c) & E & I); cbn in E; subst a. apply batch_files_in in I; destruct I as (j & m & E & I). apply (Fr j m nm c); auto. }
  exists (fst (writes s d (batch_files pk name results 0))).
  destruct (writes_fst _ s d B F (batch_files_nodup pk name results 0)) as [W X].
  split; [|split].
  - unfold batch_save. rewrite usable_guard by (split; auto). rewrite batch_models_writes; auto.
  - intros i m nm c E I. apply W. apply batch_files_in. exists i, m; auto.
  - intros q Hq. apply X. intro I. apply in_map_iff in I; destruct I as ((a & c) & E & I). apply batch_files_in in I; destruct I as (j & m & E' & I). apply (Hq j m a c); auto.
Qed.
(** Without feature names saving the models as text fails at the first successful one;
    the later ones are not saved. *)
Theorem C58_batch_text_default_fails : forall (s : fs) d name (results : list (option O)) o, usable s d -> (forall nm, s (join d nm) <> Dir) ->
  ((forall i m, nth_error results i <> Some (Some m)) -> batch_save s name d false false false results o = (s, Path d)) /\
  (forall i m, nth_error results i = Some (Some m) -> (forall j m', j < i -> nth_error results j <> Some (Some m')) ->
    exists s', batch_save s name d false false false results o = (s', Raised TypeErr') /\
      wrote s s' d [(name ++ "-model-" ++ show i ++ "-metadata.json", Text Metadata m); (name ++ "-model-" ++ show i ++ "-profile.csv", Text Profile m); (name ++ "-model-" ++ show i ++ "-contribution.csv", Blank)]).
Proof.
  intros s d name results o U Fr. unfold batch_save; rewrite !usable_guard by auto. split.
  - intros N. assert (K : forall i, batch_models s name d false false results i = (s, None)).
    { revert N; induction results as [|[m|] t IH]; intros N i; cbn; auto. destruct (N 0 m); auto. apply IH. intros j; apply (N (S j)). }
    rewrite K; auto.
  - assert (K : forall i k m, nth_error results i = Some (Some m) -> (forall j m', j < i -> nth_error results j <> Some (Some m')) ->
      exists s', batch_models s name d false false results k = (s', Some TypeErr') /\ sa_save s (name ++ "-model-" ++ show (k + i)) d false false m = (s', Raised TypeErr')).
    { induction results as [|[m|] t IH]; intros i k m' E L.
      - destruct i; discriminate.
      - destruct i; [|exfalso; apply (L 0 m); [lia|auto]]. injection E as ->. rewrite Nat.add_0_r. cbn [batch_models].
        destruct (C58_text_default_fails s d (name ++ "-model-" ++ show k) m' U) as (s' & -> & _); [apply Forall_forall; auto|]. exists s'; auto.
      - destruct i; [discriminate|]. cbn [batch_models]. replace (k + S i) with (S k + i) by lia. apply IH; auto. intros j m'' Hj. apply (L (S j)); lia. }
    intros i m E L. destruct (K i 0 m E L) as (s' & -> & E2). exists s'; split; auto. cbn [plus] in E2.
    destruct (C58_text_default_fails s d (name ++ "-model-" ++ show i) m U) as (s2 & E3 & W); [apply Forall_forall; auto|].
    rewrite E2 in E3; injection E3 as <-. rewrite !app_assoc_s in W. exact W.
Qed.

(** *** Bootstrap-displacement *)
Lemma wrote_over : forall (s s1 s2 : fs) d l1 l2, wrote s s1 d l1 -> wrote s1 s2 d l2 -> incl (map fst l1) (map fst l2) -> wrote s s2 d l2.
Proof.
  intros s s1 s2 d l1 l2 [A1 B1] [A2 B2] I. split; auto. intros q Hq. rewrite B2 by auto. apply B1. intro J; apply Hq.
  apply in_map_iff in J; destruct J as ((a & c) & <- & J); cbn [fst]. apply in_join, I. apply (in_map fst) in J; auto.
Qed.
Lemma wrote_app : forall (s s1 s2 : fs) d l1 l2, wrote s s1 d l1 -> wrote s1 s2 d l2 -> (forall a, In a (map fst l1) -> ~ In a (map fst l2)) -> wrote s s2 d (l1 ++ l2)%list.
Proof.
  intros s s1 s2 d l1 l2 [A1 B1] [A2 B2] D. split.
  - intros nm c I; apply in_app_or in I; destruct I as [I|I]; auto. rewrite B2; auto. rewrite in_join. apply D. apply (in_map fst) in I; auto.
  - intros q Hq. rewrite map_app, in_app_iff in Hq. rewrite B2, B1; tauto.
Qed.
Definition disp_files (name : string) (disps : list (nat * O)) : list (string * content) :=
  flat_map (fun ko => [(name ++ "-" ++ show (fst ko) ++ "-metadata.json", Text Metadata (snd ko)); (name ++ "-" ++ show (fst ko) ++ "-increase-disp.json", Text Increase (snd ko));
    (name ++ "-" ++ show (fst ko) ++ "-decrease-disp.json", Text Decrease (snd ko)); (name ++ "-" ++ show (fst ko) ++ "-swaptable.csv", Text SwapTable (snd ko)); (name ++ "-" ++ show (fst ko) ++ "-results.csv", Text Compiled (snd ko))]) disps.
Definition no_sub (s : fs) (d : path) : Prop := forall nm, s (join d nm) <> Dir.
Lemma free_no_sub : forall (s : fs) d l, no_sub s d -> free s d l.
Proof. intros; apply Forall_forall; auto. Qed.
Lemma wrote_no_sub : forall (s s' : fs) d l, wrote s s' d l -> no_sub s d -> no_sub s' d.
Proof.
  intros s s' d l [A B] H nm. destruct (in_dec string_dec nm (map fst l)) as [J|J].
  - apply in_map_iff in J; destruct J as ((a & c) & E & J); cbn in E; subst a. rewrite (A nm c J). congruence.
  - rewrite B; auto. rewrite in_join; auto.
Qed.
Lemma disp_files_name : forall name disps a, In a (map fst (disp_files name disps)) -> exists k e, In k (map fst disps) /\ a = name ++ "-" ++ show k ++ String "-" e.
Proof.
  intros name disps a I. apply in_map_iff in I; destruct I as ((b & c) & E & I); cbn in E; subst b.
  apply in_flat_map in I; destruct I as ((k & o) & I & J); cbn [fst snd] in J. exists k.
  cbn [In] in J; repeat match goal with H : _ \/ _ |- _ => destruct H as [H|H] | H : False |- _ => destruct H end; injection J as <- _; eexists; (split; [apply (in_map fst) in I; exact I|reflexivity]).
Qed.
Lemma disp_saves_wrote : forall disps name d (s : fs), usable s d -> no_sub s d -> NoDup (map fst disps) ->
  exists s', disp_saves s name d disps = (s', None) /\ wrote s s' d (disp_files name disps).
Proof.
  induction disps as [|[k o] t IH]; intros name d s U NS N; cbn [disp_saves].
  - exists s; split; auto. split; [intros ? ? []|auto].
  - inversion N; subst. unfold disp_save. rewrite usable_guard by auto.
    destruct (finish_ok s d (disp_text (name ++ "-" ++ show k) o) (Path d)) as (s1 & -> & W); [apply U|apply free_no_sub; auto|apply disp_nodup|].
    assert (U1 : usable s1 d) by (destruct U; split; auto; rewrite (wrote_dir _ _ _ _ W); auto).
    destruct (IH name d s1 U1 (wrote_no_sub _ _ _ _ W NS) H2) as (s2 & E & W2). exists s2; split; auto.
    assert (Q : forall e, (name ++ "-" ++ show k) ++ e = name ++ "-" ++ show k ++ e) by (intros; rewrite !app_assoc_s; reflexivity).
    unfold disp_text in W. rewrite !Q in W.
    change (disp_files name ((k, o) :: t)) with (List.app [(name ++ "-" ++ show k ++ "-metadata.json", Text Metadata o); (name ++ "-" ++ show k ++ "-increase-disp.json", Text Increase o);
    (name ++ "-" ++ show k ++ "-decrease-disp.json", Text Decrease o); (name ++ "-" ++ show k ++ "-swaptable.csv", Text SwapTable o); (name ++ "-" ++ show k ++ "-results.csv", Text Compiled o)] (disp_files name t)).
    eapply wrote_app; [exact W|exact W2|].
    intros a I J. apply disp_files_name in J; destruct J as (k' & e & K' & ->).
    assert (exists e', name ++ "-" ++ show k' ++ String "-" e = name ++ "-" ++ show k ++ String "-" e') as (e' & E').
    { cbn [map fst In] in I; repeat match goal with H : _ \/ _ |- _ => destruct H as [H|H] | H : False |- _ => destruct H end; rewrite <- I; eexists; reflexivity. }
    apply app_inv_l, (app_inv_l "-") in E'. destruct (digits_split _ _ _ _ _ _ (show_digits k') (show_digits k) nd_dash nd_dash E') as [E1 _]. apply show_inj in E1; subst; auto.
Qed.
Lemma disp_vs_plain : forall name disps c e, ~ digit c -> c <> "-"%char -> ~ In (name ++ String "-" (String c e)) (map fst (disp_files name disps)).
Proof.
  intros name disps c e N M I. apply disp_files_name in I; destruct I as (k & e' & _ & E). apply app_inv_l in E. injection E as E.
  destruct (digits_split "" (show k) e e' c "-" I (show_digits k) N nd_dash E) as [_ E2]. congruence.
Qed.
(** Saving as text: the bootstrap's files, those of every displacement under its key,
    and the compiled table.  The metadata file is the bootstrap's: the own metadata,
    written first, are lost.  The path returned is that of a pickle file that this
    call does not write. *)
Theorem C58_bsdisp_text : forall (s : fs) d name bs disps o, usable s d -> no_sub s d -> NoDup (map fst disps) ->
  exists s', bsdisp_save s name d false bs disps o = (s', Path (join d (name ++ ".pkl"))) /\
    wrote s s' d (List.app [(name ++ "-metadata.json", Text Metadata bs); (name ++ "-results.json", Text Results bs); (name ++ "-mapping.csv", Text Mapping bs); (name ++ "-qtable.csv", Text QTable bs); (name ++ "-ftables.json", Text FTables bs); (name ++ "-profiles.json", Text Profiles bs); (name ++ "-contributions.json", Text Contributions bs)]
      (List.app (disp_files name disps) [(name ++ "-results.csv", Text Compiled o)])) /\
    s' (join d (name ++ ".pkl")) = s (join d (name ++ ".pkl")).
Proof.
  intros s d name bs disps o U NS N. unfold bsdisp_save. rewrite usable_guard by auto.
  destruct (finish_ok s d [(name ++ "-metadata.json", Text Metadata o)] (Path d)) as (s1 & E1 & W1); [apply U|apply free_no_sub; auto|repeat constructor; auto|].
  unfold finish in E1. destruct (writes s d [(name ++ "-metadata.json", Text Metadata o)]) as [s1' b]; cbn in E1. destruct b; [|discriminate]. injection E1 as ->.
  assert (U1 : usable s1 d) by (destruct U; split; auto; rewrite (wrote_dir _ _ _ _ W1); auto).
  pose proof (wrote_no_sub _ _ _ _ W1 NS) as NS1.
  unfold bs_save. rewrite usable_guard by auto.
  destruct (finish_ok s1 d (bs_text name bs) (Path d)) as (s2 & -> & W2); [apply U1|apply free_no_sub; auto|apply bs_nodup|].
  assert (U2 : usable s2 d) by (destruct U1; split; auto; rewrite (wrote_dir _ _ _ _ W2); auto).
  pose proof (wrote_no_sub _ _ _ _ W2 NS1) as NS2.
  destruct (disp_saves_wrote disps name d s2 U2 NS2 N) as (s3 & -> & W3).
  assert (U3 : usable s3 d) by (destruct U2; split; auto; rewrite (wrote_dir _ _ _ _ W3); auto).
  pose proof (wrote_no_sub _ _ _ _ W3 NS2) as NS3.
  destruct (finish_ok s3 d [(name ++ "-results.csv", Text Compiled o)] (Path (join d (name ++ ".pkl")))) as (s4 & -> & W4); [apply U3|apply free_no_sub; auto|repeat constructor; auto|].
  exists s4; split; auto.
  assert (W12 : wrote s s2 d (bs_text name bs)) by (eapply wrote_over; [exact W1|exact W2|]; intros a [<-|[]]; left; reflexivity).
  assert (W34 : wrote s2 s4 d (List.app (disp_files name disps) [(name ++ "-results.csv", Text Compiled o)])).
  { eapply wrote_app; [exact W3|exact W4|]. intros a I [J|[]]. cbn [fst] in J; subst a. revert I; apply disp_vs_plain; [unfold digit; cbn; lia|discriminate]. }
  assert (W : wrote s s4 d (List.app (bs_text name bs) (List.app (disp_files name disps) [(name ++ "-results.csv", Text Compiled o)]))).
  { eapply wrote_app; [exact W12|exact W34|]. intros a I J. rewrite map_app in J; apply in_app_or in J; destruct J as [J|[J|[]]].
    - cbn [bs_text map fst In] in I; repeat match goal with H : _ \/ _ |- _ => destruct H as [H|H] | H : False |- _ => destruct H end; subst a; revert J; apply disp_vs_plain; try discriminate; unfold digit; cbn; lia.
    - cbn [fst] in J; subst a. cbn [bs_text map fst In] in I; repeat match goal with H : _ \/ _ |- _ => destruct H as [H|H] | H : False |- _ => destruct H end; apply app_inv_l in I; discriminate. }
  split; [exact W|]. destruct W as [_ X]. apply X. intro I.
  apply in_join in I. rewrite !map_app, !in_app_iff in I. destruct I as [I|[I|[I|[]]]].
  - cbn [bs_text map fst In] in I; repeat match goal with H : _ \/ _ |- _ => destruct H as [H|H] | H : False |- _ => destruct H end; apply app_inv_l in I; discriminate.
  - apply disp_files_name in I; destruct I as (k & e & _ & E). apply app_inv_l in E; discriminate.
  - cbn [fst] in I; apply app_inv_l in I; discriminate.
Qed.
Theorem C58_bsdisp_returned_path_loads_refuted : forall (bad : what -> O -> bool) (s : fs) d name bs disps o, usable s d -> no_sub s d -> NoDup (map fst disps) -> s (join d (name ++ ".pkl")) = Missing ->
  exists s' p, bsdisp_save s name d false bs disps o = (s', Path p) /\ load bad s' p = NoObject.
Proof.
  intros bad s d name bs disps o U NS N M. destruct (C58_bsdisp_text s d name bs disps o U NS N) as (s' & E & _ & K). exists s', (join d (name ++ ".pkl")); split; auto.
  unfold load; rewrite K, M. destruct (negb _); reflexivity.
Qed.
Theorem C58_bsdisp_metadata_kept_refuted : forall (s : fs) d name bs disps o, usable s d -> no_sub s d -> NoDup (map fst disps) -> bs <> o ->
  forall q, fst (bsdisp_save s name d false bs disps o) q = File (Text Metadata o) -> s q = File (Text Metadata o) \/ exists k, In (k, o) disps.
Proof.
  intros s d name bs disps o U NS N D q H. destruct (C58_bsdisp_text s d name bs disps o U NS N) as (s' & E & [W X] & _). rewrite E in H; cbn [fst] in H.
  match type of X with forall q, ~ In q (map ?f ?l) -> _ => destruct (in_dec (fun a b => match bool_dec (path_eqb a b) true with left e => left (proj1 (path_eqb_iff a b) e) | right n => right (fun e => n (proj2 (path_eqb_iff a b) e)) end) q (map f l)) as [I|I] end.
  2: rewrite X in H by exact I; auto. right.
  apply in_map_iff in I; destruct I as ((nm & c) & <- & I). cbn [fst] in H. rewrite (W nm c I) in H. injection H as ->.
  rewrite !in_app_iff in I; destruct I as [I|[I|[I|[]]]].
  - cbn [In] in I; repeat match goal with H : _ \/ _ |- _ => destruct H as [H|H] | H : False |- _ => destruct H end; injection I; congruence.
  - apply in_flat_map in I; destruct I as ((k & o') & I & J). exists k. cbn [In fst snd] in J; repeat match goal with H : _ \/ _ |- _ => destruct H as [H|H] | H : False |- _ => destruct H end; try discriminate J. injection J as _ ->. auto.
  - discriminate I.
Qed.

(** *** Constrained models *)
(** Nothing is returned; the pickle file holds the solution inside, not the
    constrained model; the metadata file holds the constrained model's. *)
Theorem C58_constrained : forall (bad : what -> O -> bool) (s : fs) d name inner o, usable s d -> no_sub s d ->
  (exists s', constrained_save s name d true inner o = (s', Nothing) /\
    wrote s s' d [("constrained_model-" ++ name ++ ".pkl", Pickled inner); ("constrained_model-" ++ name ++ "-metadata.json", Text Metadata o)] /\
    load bad s' (join d ("constrained_model-" ++ name ++ ".pkl")) = Object inner) /\
  (exists s', constrained_save s name d false inner o = (s', Nothing) /\
    wrote s s' d [("constrained_model-" ++ name ++ "-profile.csv", Text Profile inner); ("constrained_model-" ++ name ++ "-contribution.csv", Text Contribution inner);
      ("constrained_model-" ++ name ++ "-vprime.csv", Text VPrime inner); ("constrained_model-" ++ name ++ "-residuals.csv", Text Residuals inner); ("constrained_model-" ++ name ++ "-metadata.json", Text Metadata o)]).
Proof.
  intros bad s d name inner o U NS. unfold constrained_save; rewrite !usable_guard by auto. unfold sa_save; rewrite !usable_guard by auto.
  assert (Q : forall e, "constrained_model-" ++ name ++ e = ("constrained_model-" ++ name) ++ e) by (intros; rewrite app_assoc_s; reflexivity).
  rewrite !Q. clear Q. generalize ("constrained_model-" ++ name) as nm. intro nm. split.
  - destruct (finish_ok s d [(nm ++ ".pkl", Pickled inner)] (Path (join d (nm ++ ".pkl")))) as (s1 & -> & W1); [apply U|apply free_no_sub; auto|repeat constructor; auto|].
    assert (U1 : usable s1 d) by (destruct U; split; auto; rewrite (wrote_dir _ _ _ _ W1); auto).
    destruct (finish_ok s1 d [(nm ++ "-metadata.json", Text Metadata o)] Nothing) as (s2 & -> & W2); [apply U1|apply free_no_sub; eapply wrote_no_sub; eauto|repeat constructor; auto|].
    assert (W : wrote s s2 d (List.app [(nm ++ ".pkl", Pickled inner)] [(nm ++ "-metadata.json", Text Metadata o)])).
    { eapply wrote_app; eauto. intros a [<-|[]] [J|[]]. cbn [fst] in J. apply app_inv_l in J; discriminate. }
    exists s2; split; [reflexivity|split; [exact W|]]. unfold load. destruct W as [A _]. rewrite (A (nm ++ ".pkl") (Pickled inner)) by (left; auto). cbn [join p_abs]. rewrite (proj1 U); reflexivity.
  - destruct (finish_ok s d (sa_text nm inner) (Path d)) as (s1 & -> & W1); [apply U|apply free_no_sub; auto|apply sa_text_nodup|].
    assert (U1 : usable s1 d) by (destruct U; split; auto; rewrite (wrote_dir _ _ _ _ W1); auto).
    destruct (finish_ok s1 d [(nm ++ "-metadata.json", Text Metadata o)] Nothing) as (s2 & -> & W2); [apply U1|apply free_no_sub; eapply wrote_no_sub; eauto|repeat constructor; auto|].
    exists s2; split; [reflexivity|]. destruct W1 as [A1 B1], W2 as [A2 B2]. split.
    + intros a c I. cbn [In] in I. destruct I as [I|[I|[I|[I|[I|[]]]]]]; injection I as <- <-; try (apply A2; left; reflexivity);
        rewrite B2; try (apply A1; cbn; tauto); intros [J|[]]; apply join_inj in J; cbn [fst] in J; apply app_inv_l in J; discriminate.
    + cbn [map fst In]; intros q Hq. rewrite B2, B1; cbn [map fst In sa_text]; tauto.
Qed.
Theorem C58_constrained_loads_itself_refuted : forall (bad : what -> O -> bool) (s : fs) d name inner o, usable s d -> no_sub s d -> inner <> o ->
  load bad (fst (constrained_save s name d true inner o)) (join d ("constrained_model-" ++ name ++ ".pkl")) <> Object o.
Proof.
  intros bad s d name inner o U NS D. destruct (C58_constrained bad s d name inner o U NS) as [(s' & -> & _ & L) _]. cbn [fst]. rewrite L. congruence.
Qed.

(** *** The simulator *)
Theorem C58_simulator : forall (bad : what -> O -> bool) (s : fs) d name o, usable s d -> no_sub s d ->
  (exists s', sim_save s name d true o = (s', Truth true) /\ load bad s' (join d "esat_simulator.pkl") = Object o /\
     wrote s s' d [("esat_simulator.pkl", Pickled o); (name ++ "_data.csv", Text Data o); (name ++ "_uncertainty.csv", Text Uncertainty o); (name ++ "_profiles.csv", Text Profile o); (name ++ "_contributions.csv", Text Contribution o)]) /\
  (exists s', sim_save s name d false o = (s', Raised OtherErr) /\ wrote s s' d [("esat_simulator.pkl", Pickled o)]).
Proof.
  intros bad s d name o U NS. unfold sim_save; rewrite !usable_guard by auto. split.
  - match goal with |- context [writes s d ?l] => destruct (finish_ok s d l (Truth true)) as (s1 & E & [A B]); [apply U|apply free_no_sub; auto| |rewrite E] end.
    { assert (L : forall e, name ++ "_" ++ e ++ ".csv" <> "esat_simulator.pkl").
      { intros e E.
        assert (G : forall a b : string, a ++ b ++ ".csv" <> "esat_simulator.pkl").
        { intros a b; rewrite <- app_assoc_s; generalize (a ++ b); clear. intros z.
          do 18 (destruct z as [|? z]; [discriminate|]; intro E; cbn in E; injection E as _ E; revert E). destruct z; discriminate. }
        rewrite <- app_assoc_s in E. revert E. rewrite <- app_assoc_s. intro E.
        apply (G ((name ++ "_") ++ e) ""). cbn. rewrite E; reflexivity. }
      repeat constructor; cbn; intros I; repeat match goal with H : _ \/ _ |- _ => destruct H as [H|H] | H : False |- _ => destruct H end; try (apply app_inv_l in I; discriminate I).
      - apply (L "data"); auto.
      - apply (L "uncertainty"); auto.
      - apply (L "profiles"); auto.
      - apply (L "contributions"); auto. }
    exists s1; split; [reflexivity|split].
    + unfold load. cbn [join p_abs]. rewrite (proj1 U). cbn [negb]. fold (join d "esat_simulator.pkl"). rewrite (A "esat_simulator.pkl" (Pickled o)) by (left; auto). reflexivity.
    + split; auto.
  - apply finish_ok; [apply U|apply free_no_sub; auto|repeat constructor; auto].
Qed.

(** ** C58: loading *)
Theorem C58_load : forall (bad : what -> O -> bool) (s : fs) p,
  (p_abs p = false -> load bad s p = NoObject) /\
  (s p = Missing -> load bad s p = NoObject) /\
  (forall o, load bad s p = Object o <-> p_abs p = true /\ s p = File (Pickled o)) /\
  (p_abs p = true -> s p = Dir \/ s p = File Blank -> load bad s p = LoadRaised).
Proof.
  intros bad s p; unfold load; destruct (p_abs p); cbn; (repeat split); intros; try congruence; repeat match goal with H : s p = _ |- _ => rewrite H | H : _ \/ _ |- _ => destruct H | H : _ /\ _ |- _ => destruct H end; auto; try discriminate.
  destruct (s p) as [| |[o'|w o'|]]; try discriminate; [congruence|destruct (bad w o'); discriminate].
Qed.
(** What was not a directory is never written to. *)
Theorem C58_not_a_directory : forall (s : fs) d c name pk hd bs disps inner gen o, p_abs d = true -> s d = File c ->
  sa_save s name d pk hd o = (s, Raised OSErr) /\ bs_save s name d pk o = (s, Raised OSErr) /\ disp_save s name d pk o = (s, Raised OSErr) /\
  bsdisp_save s name d pk bs disps o = (s, Raised OSErr) /\ constrained_save s name d pk inner o = (s, Raised OSErr) /\ sim_save s name d gen o = (s, Raised OSErr).
Proof.
  intros s d c name pk hd bs disps inner gen o A E.
  assert (G : forall no body, guarded s d no body = body) by (intros; unfold guarded, exists_at; rewrite A, E; reflexivity).
  assert (W : forall nm co l, writes s d ((nm, co) :: l) = (s, false)) by (intros; cbn; unfold write; rewrite E; reflexivity).
  unfold constrained_save, bsdisp_save, bs_save, disp_save, sim_save, sa_save, sa_text, sa_text_broken, bs_text, disp_text. rewrite !G. rewrite !W. unfold finish; cbn [fst snd].
  repeat split; repeat match goal with |- context [if ?b then _ else _] => destruct b end; reflexivity.
Qed.
(** A name that is taken by a directory: the save raises.  The pickle saves leave
    everything as it was; the text saves keep what the files before it hold. *)
Lemma writes_taken : forall l (s : fs) d nm, s d = Dir -> In nm (map fst l) -> s (join d nm) = Dir -> snd (writes s d l) = false.
Proof.
  induction l as [|[nm' c] l IH]; intros s d nm Hd I E; [destruct I|]. cbn [writes]. unfold write. rewrite Hd. destruct (string_dec nm' nm) as [->|N]; [rewrite E; reflexivity|].
  destruct I as [I|I]; [contradiction|]. assert (G : forall c', snd (writes (upd s (join d nm') (File c')) d l) = false).
  { intros c'. apply (IH _ d nm); [|exact I|].
    - rewrite upd_other; auto. intro X; apply (join_not_dir d nm'); auto.
    - rewrite upd_other; auto. intro X; apply join_inj in X; auto. }
  destruct (s (join d nm')); auto.
Qed.
Theorem C58_name_taken : forall (s : fs) d name hd pm results bs disps inner o, usable s d ->
  (s (join d (name ++ ".pkl")) = Dir ->
    sa_save s name d true hd o = (s, Raised OSErr) /\ batch_save s name d pm true hd results o = (s, Raised OSErr) /\ bs_save s name d true o = (s, Raised OSErr) /\
    disp_save s name d true o = (s, Raised OSErr) /\ bsdisp_save s name d true bs disps o = (s, Raised OSErr)) /\
  (forall e, s (join d (name ++ e)) = Dir ->
    (In e sa_exts -> snd (sa_save s name d false true o) = Raised OSErr) /\ (In e bs_exts -> snd (bs_save s name d false o) = Raised OSErr) /\
    (In e disp_exts -> snd (disp_save s name d false o) = Raised OSErr)) /\
  (s (join d ("constrained_model-" ++ name ++ ".pkl")) = Dir -> constrained_save s name d true inner o = (s, Raised OSErr)).
Proof.
  intros s d name hd pm results bs disps inner o U. unfold sa_save, batch_save, bs_save, disp_save, bsdisp_save, constrained_save; rewrite !usable_guard by auto. destruct U as [A B]. split; [|split].
  - intros E. assert (W : writes s d [(name ++ ".pkl", Pickled o)] = (s, false)) by (cbn [writes]; unfold write; rewrite B, E; reflexivity). rewrite W. repeat split.
  - intros e E.
    assert (G : forall l exts, map fst l = map (fun x => name ++ x) exts -> In e exts -> snd (writes s d l) = false).
    { intros l exts El I. apply (writes_taken l s d (name ++ e) B); [rewrite El; apply (in_map (fun x => name ++ x)), I|exact E]. }
    unfold finish; cbn [snd]. split; [|split]; intros I; [rewrite (G (sa_text name o) sa_exts eq_refl I)|rewrite (G (bs_text name o) bs_exts eq_refl I)|rewrite (G (disp_text name o) disp_exts eq_refl I)]; reflexivity.
  - intros E. unfold sa_save. rewrite usable_guard by (split; auto). assert (Q : "constrained_model-" ++ name ++ ".pkl" = ("constrained_model-" ++ name) ++ ".pkl") by (rewrite app_assoc_s; reflexivity).
    rewrite Q in E. assert (W : writes s d [(("constrained_model-" ++ name) ++ ".pkl", Pickled inner)] = (s, false)) by (cbn [writes]; unfold write; rewrite B, E; reflexivity). rewrite W. reflexivity.
Qed.
End Objects.

Print Assumptions C58_name_taken.
Print Assumptions C58_refused.
Print Assumptions C58_pickle.
Print Assumptions C58_bootstrap_returns_path_refuted.
Print Assumptions C58_text.
Print Assumptions C58_text_default_fails.
Print Assumptions C58_text_default_works_refuted.
Print Assumptions C58_batch_models.
Print Assumptions C58_batch_text_default_fails.
Print Assumptions C58_bsdisp_text.
Print Assumptions C58_bsdisp_returned_path_loads_refuted.
Print Assumptions C58_bsdisp_metadata_kept_refuted.
Print Assumptions C58_constrained.
Print Assumptions C58_constrained_loads_itself_refuted.
Print Assumptions C58_simulator.
Print Assumptions C58_load.
Print Assumptions C58_not_a_directory.

(** *** Instances: a directory "/out" holding one file. *)
Definition ex_dir : path := mkPath true ["out"].
Definition ex_fs : fs nat := fun p => if path_eqb p (mkPath true []) then Dir else if path_eqb p ex_dir then Dir else if path_eqb p (join ex_dir "old.txt") then File Blank else Missing.
Lemma ex_usable : usable ex_fs ex_dir.
Proof. split; reflexivity. Qed.
Lemma ex_no_sub : no_sub ex_fs ex_dir.
Proof.
  intros nm. unfold ex_fs.
  destruct (path_eqb _ (mkPath true [])) eqn:E1; [apply path_eqb_iff in E1; discriminate E1|].
  destruct (path_eqb _ ex_dir) eqn:E2; [apply path_eqb_iff in E2; destruct (join_not_dir _ _ E2)|].
  destruct (path_eqb (join ex_dir nm) (join ex_dir "old.txt")); intro H; discriminate H.
Qed.
Example C58_instance :
  usable ex_fs ex_dir /\ no_sub ex_fs ex_dir /\ NoDup (map fst [(0%nat, 5%nat); (1%nat, 6%nat)]) /\ ex_fs (join ex_dir ("m" ++ ".pkl")) = Missing /\
  sa_save ex_fs "m" (mkPath false ["out"]) true true 7 = (ex_fs, Nothing) /\
  snd (sa_save ex_fs "m" ex_dir true false 7) = Path (join ex_dir "m.pkl") /\
  load (fun _ _ => false) (fst (sa_save ex_fs "m" ex_dir true false 7)) (join ex_dir "m.pkl") = Object 7 /\
  snd (bs_save ex_fs "m" ex_dir true 7) = Nothing /\
  snd (sa_save ex_fs "m" ex_dir false false 7) = Raised TypeErr' /\
  fst (batch_save ex_fs "m" ex_dir false false true [None; Some 7] 9) (join ex_dir "m-model-1-vprime.csv") = File (Text VPrime 7) /\
  fst (bsdisp_save ex_fs "m" ex_dir false 8 [(0, 5); (1, 6)] 9) (join ex_dir "m-metadata.json") = File (Text Metadata 8).
Proof. repeat split; try reflexivity; try apply ex_no_sub. repeat constructor; cbn; intuition congruence. Qed.

(** ** C83: JSON *)
(** Reading the file back with json.load. *)
Fixpoint decode (j : jv) : pv :=
  match j with
  | JNull => PNull | JBool b => PBool b | JInt z => PInt z | JReal r => PReal r | JStr s => PStr s
  | JList l => PList (map decode l)
  | JDict l => PDict (map (fun q => (fst q, decode (snd q))) l)
  end.
(** The same data up to numpy's scalar types. *)
Inductive same_data : pv -> pv -> Prop :=
| sd_null : same_data PNull PNull
| sd_bool : forall b, same_data (PBool b) (PBool b)
| sd_int : forall z, same_data (PInt z) (PInt z)
| sd_real : forall r, same_data (PReal r) (PReal r)
| sd_str : forall s, same_data (PStr s) (PStr s)
| sd_npint : forall z, same_data (NpInt z) (PInt z)
| sd_npreal : forall r, same_data (NpReal r) (PReal r)
| sd_opaque : forall i, same_data (Opaque i) (Opaque i)
| sd_list : forall l m, Forall2 same_data l m -> same_data (PList l) (PList m)
| sd_dict : forall l m, Forall2 (fun a b => fst a = fst b /\ same_data (snd a) (snd b)) l m -> same_data (PDict l) (PDict m).
(** [part w v]: [w] occurs in [v]. *)
Inductive part : pv -> pv -> Prop :=
| pt_here : forall v, part v v
| pt_list : forall w v l, In v l -> part w v -> part w (PList l)
| pt_dict : forall w k v l, In (k, v) l -> part w v -> part w (PDict l).

Lemma pv_rect' : forall P : pv -> Prop, P PNull -> (forall b, P (PBool b)) -> (forall z, P (PInt z)) -> (forall r, P (PReal r)) -> (forall s, P (PStr s)) -> (forall z, P (NpInt z)) -> (forall r, P (NpReal r)) -> (forall i, P (Opaque i)) ->
  (forall l, Forall P l -> P (PList l)) -> (forall l, Forall (fun q => P (snd q)) l -> P (PDict l)) -> forall v, P v.
Proof.
  intros P H0 H1 H2 H3 H4 H5 H6 H7 HL HD. fix IH 1. intros v; destruct v.
  - exact H0.
  - apply H1.
  - apply H2.
  - apply H3.
  - apply H4.
  - apply HL. induction l as [|v l IHl]; constructor; [apply IH|exact IHl].
  - apply HD. induction l as [|[k v] l IHl]; constructor; [apply IH|exact IHl].
  - apply H5.
  - apply H6.
  - apply H7.
Qed.
(** What was written comes back as the same data exactly when nothing in it is an
    array or another object json does not know. *)
Theorem C83_kept_iff_plain : forall v, same_data v (decode (encode v)) <-> (forall i, ~ part (Opaque i) v).
Proof.
  induction v using pv_rect'; cbn [encode decode]; try solve [split; [intros _ i H; inversion H|intros _; constructor]].
  - split; [intro H; inversion H|]. intro H; destruct (H i); constructor.
  - rewrite Forall_forall in H. split.
    + intros S i I. inversion S as [| | | | | | | |l1 m F E1 E2|]; subst. inversion I as [|w v l1 Iv Pv|]; subst.
      apply (proj1 (H v Iv)) with i; auto. clear - F Iv. revert F; induction l; cbn; intros F; [destruct Iv|]. inversion F; subst. destruct Iv as [->|Iv]; auto.
    + intros N. constructor. rewrite map_map. assert (K : forall v, In v l -> same_data v (decode (encode v))).
      { intros v Iv. apply H; auto. intros i Pv. apply (N i). eapply pt_list; eauto. }
      clear - K. induction l; cbn; constructor; [apply K; left; auto|apply IHl; intros; apply K; right; auto].
  - rewrite Forall_forall in H. split.
    + intros S i I. inversion S as [| | | | | | | | |l1 m F E1 E2]; subst. inversion I as [| |w k v l1 Iv Pv]; subst.
      apply (proj1 (H (k, v) Iv)) with i; auto. clear - F Iv. revert F; induction l; cbn; intros F; [destruct Iv|]. inversion F; subst. destruct Iv as [->|Iv]; auto. apply H2.
    + intros N. constructor. rewrite map_map. assert (K : forall q, In q l -> same_data (snd q) (decode (encode (snd q)))).
      { intros [k v] Iv. apply (H (k, v)); auto. intros i Pv. apply (N i). eapply pt_dict; eauto. }
      clear - K. induction l; cbn; constructor; [split; [reflexivity|apply K; left; auto]|apply IHl; intros; apply K; right; auto].
Qed.
(** The documentation of the encoder: an object that is no numpy type is unchanged. *)
Theorem C83_other_objects_unchanged_refuted : exists v, encode v = JNull /\ v <> PNull /\ ~ same_data v (decode (encode v)).
Proof. exists (Opaque 0); repeat split; try discriminate. intro H; inversion H. Qed.
(** The results file of a bootstrap: row numbers and mappings come back, the models
    do not: files written for other models are the same. *)
Theorem C83_bootstrap_results : forall runs, (forall q, In q runs -> forall i, ~ part (Opaque i) (snd (snd q))) ->
  (exists l, decode (encode (bs_results_value runs)) = PDict l /\ map fst l = map (fun q => show (fst q)) runs /\
    forall k i idx mp, In (k, (i, idx, mp)) runs -> exists mp', In (show k, PDict [("model", PNull); ("index", PList (map PInt idx)); ("mapping", mp')]) l /\ same_data mp mp').
Proof.
  intros runs H. eexists; split; [reflexivity|]. rewrite !map_map; cbn [fst snd]. split; auto.
  intros k i idx mp I. exists (decode (encode mp)); split.
  - apply in_map_iff. exists (k, (i, idx, mp)); split; auto. cbn. rewrite !map_map; cbn. reflexivity.
  - apply C83_kept_iff_plain. apply (H _ I).
Qed.
Theorem C83_models_lost : forall runs runs', map (fun q => (fst q, (snd (fst (snd q)), snd (snd q)))) runs = map (fun q => (fst q, (snd (fst (snd q)), snd (snd q)))) runs' ->
  encode (bs_results_value runs) = encode (bs_results_value runs').
Proof.
  induction runs as [|[k [[i idx] mp]] t IH]; intros [|[k' [[i' idx'] mp']] t'] E; try discriminate; auto. cbn in E. injection E as -> -> -> E.
  cbn. f_equal. f_equal. specialize (IH t' E). cbn in IH. injection IH; auto.
Qed.
Theorem C83_results_hold_models_refuted : exists runs runs', runs <> runs' /\ encode (bs_results_value runs) = encode (bs_results_value runs').
Proof. exists [(0, (1, [2%Z], PNull))], [(0, (2, [2%Z], PNull))]; split; [discriminate|reflexivity]. Qed.
Print Assumptions C83_kept_iff_plain.
Print Assumptions C83_other_objects_unchanged_refuted.
Print Assumptions C83_bootstrap_results.
(* the directory /out, holding the file old.txt *)
Lemma xp_usable : usable ex_fs ex_dir.
Proof. split; reflexivity. Qed.
Lemma xp_no_sub : no_sub ex_fs ex_dir.
Proof. exact (proj1 (proj2 C58_instance)). Qed.
Lemma xp_free : forall l, free ex_fs ex_dir l.
Proof. intros l. apply Forall_forall. intros nm _. apply xp_no_sub. Qed.
Example C58_refused_example :=
  C58_refused ex_fs (mkPath false ["out"]) "m" true true [Some 7; None] 8 [(0, 5); (1, 6)] 9 true 7 false (or_introl eq_refl).
Example C58_pickle_example :=
  C58_pickle (fun _ _ => false) ex_fs ex_dir "m" true false [Some 7; None] 8 [(0, 5); (1, 6)] 7 xp_usable (xp_no_sub "m.pkl").
Example C58_text_example := C58_text ex_fs ex_dir "m" 7 xp_usable (xp_free _).
Example C58_text_default_fails_example := C58_text_default_fails ex_fs ex_dir "m" 7 xp_usable (xp_free _).
Example C58_batch_models_example :=
  C58_batch_models ex_fs ex_dir "m" false true [None; Some 7] 9 xp_usable eq_refl (fun _ _ nm _ _ _ => xp_no_sub nm).
Example C58_batch_text_default_fails_example :
  exists s', batch_save ex_fs "m" ex_dir false false false [None; Some 7] 9 = (s', Raised TypeErr') /\
    wrote ex_fs s' ex_dir [("m-model-1-metadata.json", Text Metadata 7); ("m-model-1-profile.csv", Text Profile 7); ("m-model-1-contribution.csv", Blank)].
Proof.
  apply (proj2 (C58_batch_text_default_fails ex_fs ex_dir "m" [None; Some 7] 9 xp_usable xp_no_sub) 1%nat 7 eq_refl).
  intros j m' Hj. destruct j as [|j]; [discriminate | lia].
Qed.
Lemma xp_nodup : NoDup (map fst [(0, 5); (1, 6)]).
Proof. repeat constructor; cbn; lia. Qed.
Example C58_bsdisp_text_example := C58_bsdisp_text ex_fs ex_dir "m" 8 [(0, 5); (1, 6)] 9 xp_usable xp_no_sub xp_nodup.
Example C58_constrained_example := C58_constrained (fun _ _ => false) ex_fs ex_dir "m" 8 9 xp_usable xp_no_sub.
Example C58_simulator_example := C58_simulator (fun _ _ => false) ex_fs ex_dir "m" 9 xp_usable xp_no_sub.
Example C58_load_example : load (fun _ _ => false) ex_fs (join ex_dir "old.txt") = LoadRaised :=
  proj2 (proj2 (proj2 (C58_load (fun _ _ => false) ex_fs (join ex_dir "old.txt")))) eq_refl (or_intror eq_refl).
Example C58_not_a_directory_example :=
  C58_not_a_directory ex_fs (join ex_dir "old.txt") Blank "m" true true 8 [(0, 5); (1, 6)] 9 true 7 eq_refl eq_refl.
Example C58_name_taken_example :
  let s := fun q => if path_eqb q (join ex_dir "m.pkl") then Dir else ex_fs q in
  sa_save s "m" ex_dir true true 7 = (s, Raised OSErr) :=
  proj1 (proj1 (C58_name_taken (fun q => if path_eqb q (join ex_dir "m.pkl") then Dir else ex_fs q) ex_dir "m" true false
    [Some 7; None] 8 [(0, 5); (1, 6)] 9 7 (conj eq_refl eq_refl)) eq_refl).
Lemma xp_plain : forall i, ~ part (Opaque i) (PDict [("a", NpInt 3); ("b", PList [PStr "x"; PNull])]).
Proof.
  intros i H. inversion H as [| | w k v l Hin Hp]; subst. destruct Hin as [E | [E | []]]; inversion E; subst.
  - inversion Hp.
  - inversion Hp as [| w v l Hin' Hp' |]; subst. destruct Hin' as [<- | [<- | []]]; inversion Hp'.
Qed.
Example C83_kept_iff_plain_example := proj2 (C83_kept_iff_plain _) xp_plain.
Print Assumptions C83_models_lost.
Definition xp_runs (model : nat) := [(0, (model, [2%Z; 2%Z], PDict [("a", NpInt 3); ("b", PList [PStr "x"; PNull])]))].
Example C83_bootstrap_results_example :=
  C83_bootstrap_results (xp_runs 1) ltac:(intros q [<- | []]; exact xp_plain).
Example C83_models_lost_example : encode (bs_results_value (xp_runs 1)) = encode (bs_results_value (xp_runs 2)) :=
  C83_models_lost (xp_runs 1) (xp_runs 2) eq_refl.
Print Assumptions C83_results_hold_models_refuted.
Example C83_instance :
  encode (PDict [("a", NpInt 3); ("b", PList [PStr "x"; Opaque 4])]) = JDict [("a", JInt 3); ("b", JList [JStr "x"; JNull])] /\
  (forall q, In q [(0, (1, [2%Z; 2%Z], PDict [("0", NpInt 1)]))] -> forall i, ~ part (Opaque i) (snd (snd q))).
Proof. split; [reflexivity|]. intros q [<-|[]] i H. cbn in H. inversion H as [| |? ? ? ? J K]; subst. destruct J as [J|[]]. injection J as <- <-. inversion K. Qed.
