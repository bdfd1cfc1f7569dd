(** C133: the simulator commands, run and estimate on one project. *)
From Coq Require Import List Bool ZArith Reals String Arith Lra Lia.
From Verif Require Import Base Fl Boot_Model Compare_Model Compare_Props SimCmp_Model SimCmp_Props SimCli_Model.
Import ListNotations.
Local Open Scope nat_scope.

Section SimCliProps.
Context {C G D : Type}.
Context (build : C -> option (nat * solution * G)).
Context (gen : solution -> G -> D * G).
Context (cpus m n : nat).
Notation project := (project C G D). Notation result := (result D). Notation command := (command C D).
Notation step := (step build gen cpus m n). Notation after := (after build gen cpus m n).
Notation compare := (SimCli_Model.compare build gen cpus m n). Notation plot := (plot build gen m).
Notation run := (run build gen). Notation estimate := (estimate build gen). Notation generate := (generate build gen).

(** ** Specification *)
(** The data a generator yields first and second. *)
Definition first_draw (t : solution) (g : G) : D := fst (gen t g).
Definition second_draw (t : solution) (g : G) : D := fst (gen t (snd (gen t g))).
(** A command of the program, not an edit by the user. *)
Definition is_command (k : command) : Prop := match k with KEdit _ _ _ _ => False | _ => True end.
(** The result of a run: [d] was used. *)
Definition trains_on (p : project) (d : D) : Prop :=
  forall train, match snd (run p train) with
                | Trained d' => d' = d /\ exists b, train d = Some b /\ (pr_out_abs p = true -> pr_batch (fst (run p train)) = Some (b, d))
                | Raised_ TrainE => train d = None
                | Raised_ KeyE => pr_run p = false
                | _ => False
                end.
Definition estimates_on (p : project) (d : D) : Prop :=
  forall works, match snd (estimate p works) with
                | Estimated d' => d' = d /\ works d = true
                | Raised_ TrainE => works d = false
                | Raised_ KeyE => pr_run p = false
                | _ => False
                end.

(** ** The saved simulator *)
Definition kept (k : nat) (t : solution) (g1 : G) (d1 : D) (p : project) : Prop :=
  pr_abs p = true /\ pr_csv p = Some d1 /\
  exists s, pr_pickle p = Holds s /\ si_k (cs_sim s) = k /\ si_truth (cs_sim s) = t /\ si_ready (cs_sim s) = true /\ cs_rng s = g1 /\ cs_data s = Some d1.

Lemma kept_get_sim k t g1 d1 p c : kept k t g1 d1 p -> exists s, get_sim build gen p c = (p, inr (Some s)) /\ pr_pickle p = Holds s /\
  si_k (cs_sim s) = k /\ si_truth (cs_sim s) = t /\ si_ready (cs_sim s) = true /\ cs_rng s = g1 /\ cs_data s = Some d1.
Proof. intros (A & _ & s & P & K). exists s. unfold get_sim. rewrite P, A. auto. Qed.
Lemma compare_fields s b s' out e : sim_compare cpus m n s b None = (s', out, e) -> si_k s' = si_k s /\ si_truth s' = si_truth s /\ si_ready s' = si_ready s.
Proof.
  unfold sim_compare. destruct (negb (si_ready s)); [intros H; injection H as <- _ _; auto|]. destruct (run_compare cpus m n (si_k s) (si_truth s) b) as [f [e0|]]; [intros H; injection H as <- _ _; auto|].
  destruct (print_results f None) as [o1 [e1|]]; [intros H; injection H as <- _ _; auto|].
  match goal with |- context [if ?x then _ else _] => destruct x end; [intros H; injection H as <- _ _; auto|]. destruct (print_results f _) as [o2 e2]. intros H; injection H as <- _ _; auto.
Qed.
Lemma source_kept k t g1 d1 p : kept k t g1 d1 p -> fst (source build gen p) = p /\ (pr_sim p <> None -> snd (source build gen p) = inr (fst (gen t g1))).
Proof.
  intros K. unfold source. destruct (pr_sim p) as [c|] eqn:E; [|split; [reflexivity|congruence]]. destruct (kept_get_sim _ _ _ _ _ c K) as (s & -> & _ & _ & T & _ & R' & _).
  split; [reflexivity|]. intros _. cbn [snd fst]. unfold get_data. rewrite T, R'. destruct (gen t g1). reflexivity.
Qed.
Lemma step_kept k t g1 d1 p x : kept k t g1 d1 p -> kept k t g1 d1 (fst (step p x)).
Proof.
  intros K. pose proof (source_kept _ _ _ _ _ K) as [S1 _]. destruct x; cbn [SimCli_Model.step].
  - unfold SimCli_Model.generate. destruct (pr_sim p) as [c|]; [|exact K]. destruct (kept_get_sim _ _ _ _ _ c K) as (s & -> & _). exact K.
  - unfold SimCli_Model.run. destruct (source build gen p) as [p1 [e|d]]; cbn [fst] in S1; subst p1; [exact K|]. destruct (negb (pr_run p)); [exact K|]. destruct (train d); [|exact K]. cbn [fst]. destruct (pr_out_abs p); exact K.
  - unfold SimCli_Model.estimate. destruct (source build gen p) as [p1 [e|d]]; cbn [fst] in S1; subst p1; [exact K|]. destruct (negb (pr_run p)); exact K.
  - unfold SimCli_Model.compare. destruct (pr_sim p) as [c|]; [|exact K]. destruct (kept_get_sim _ _ _ _ _ c K) as (s & -> & _ & Ks & T & Rd & Rg & Dt). destruct (negb (pr_run p)); [exact K|].
    destruct (if pr_out_abs p then pr_batch p else None) as [[b d]|]; [|exact K]. destruct (sim_compare cpus m n (cs_sim s) b None) as [[s' out] [e|]] eqn:E; [exact K|].
    apply compare_fields in E. destruct E as (E1 & E2 & E3). destruct K as (A & B & _). unfold save. cbn [fst]. rewrite A. cbn [pr_abs with_pickle]. split; [exact A|]. split; [exact Dt|].
    eexists. split; [reflexivity|]. cbn [cs_sim cs_rng cs_data]. rewrite E1, E2, E3. auto.
  - unfold SimCli_Model.plot. destruct (pr_sim p) as [c|]; [|exact K]. destruct (kept_get_sim _ _ _ _ _ c K) as (s & -> & _). destruct (plot_comparison m (cs_sim s) None). exact K.
  - exact K.
Qed.
Lemma after_kept k t g1 d1 l : forall p, kept k t g1 d1 p -> kept k t g1 d1 (after p l).
Proof. induction l as [|x l IH]; intros p K; [exact K|]. cbn [SimCli_Model.after fold_left]. apply IH, step_kept, K. Qed.

(** The state after the first command that needs the simulator. *)
Lemma first_get_sim p c k t g : pr_abs p = true -> pr_pickle p = Missing -> build c = Some (k, t, g) ->
  exists p1 s, get_sim build gen p c = (p1, inr (Some s)) /\ kept k t (snd (gen t g)) (first_draw t g) p1 /\ pr_sim p1 = pr_sim p /\ pr_run p1 = pr_run p /\ pr_out_abs p1 = pr_out_abs p /\ pr_batch p1 = pr_batch p /\
    cs_sim s = mkSimu k t true None None /\ pr_pickle p1 = Holds s.
Proof.
  intros A P B. unfold get_sim. rewrite P, B. unfold get_data, first_draw. cbn [cs_sim cs_rng si_truth si_k si_batch si_fc]. destruct (gen t g) as [d g1]. cbn [fst snd].
  unfold save. rewrite A. cbn [cs_data]. eexists _, _. split; [reflexivity|]. split; [|repeat split]. split; [exact A|]. split; [reflexivity|]. eexists. split; [reflexivity|]. repeat split.
Qed.
Lemma get_sim_again k t g1 d1 p p1 c c' s : get_sim build gen p c = (p1, inr (Some s)) -> kept k t g1 d1 p1 -> pr_pickle p1 = Holds s -> get_sim build gen p1 c' = (p1, inr (Some s)).
Proof. intros _ (A & _) H. unfold get_sim. rewrite H, A. reflexivity. Qed.
(** A command on a project that has not been used yet goes on from there. *)
Lemma step_first p c k t g x : pr_abs p = true -> pr_pickle p = Missing -> pr_sim p = Some c -> build c = Some (k, t, g) -> is_command x ->
  exists p1, kept k t (snd (gen t g)) (first_draw t g) p1 /\ step p x = step p1 x.
Proof.
  intros A P Sm B Hx. destruct (first_get_sim p c k t g A P B) as (p1 & s & E & K & F1 & F2 & F3 & F4 & F5 & F6). exists p1. split; [exact K|].
  assert (E1 : get_sim build gen p1 c = (p1, inr (Some s))) by (apply (get_sim_again _ _ _ _ _ _ c c s E K F6)).
  destruct x; cbn [SimCli_Model.step]; try contradiction; unfold SimCli_Model.generate, SimCli_Model.run, SimCli_Model.estimate, SimCli_Model.compare, SimCli_Model.plot, source; rewrite F1, Sm, E, E1; reflexivity.
Qed.

(** ** C133 *)
(** In an absolute directory: whatever the commands and edits after the first command,
    the saved data files hold the first draw, and run and estimate use the second. *)
Theorem C133_data : forall (p : project) c k t g x l, pr_abs p = true -> pr_pickle p = Missing -> pr_sim p = Some c -> build c = Some (k, t, g) -> is_command x ->
  let q := after p (x :: l) in
  pr_csv q = Some (first_draw t g) /\ (pr_sim q <> None -> trains_on q (second_draw t g) /\ estimates_on q (second_draw t g)).
Proof.
  intros p c k t g x l A P Sm B Hx. cbv zeta. cbn [SimCli_Model.after fold_left]. destruct (step_first p c k t g x A P Sm B Hx) as (p1 & K & ->).
  assert (Kq : kept k t (snd (gen t g)) (first_draw t g) (after (fst (step p1 x)) l)) by (apply after_kept, step_kept, K). unfold SimCli_Model.after in Kq. set (q := fold_left _ l _) in *.
  split; [apply Kq|]. intros Hs. destruct (source_kept _ _ _ _ _ Kq) as [S1 S2]. specialize (S2 Hs). fold (second_draw t g) in S2. destruct (source build gen q) as [q1 r] eqn:E. cbn [fst snd] in S1, S2. subst q1 r.
  split; [intros train; unfold SimCli_Model.run|intros works; unfold SimCli_Model.estimate]; rewrite E; destruct (pr_run q) eqn:Er; cbn [negb fst snd]; try reflexivity.
  - destruct (train (second_draw t g)) as [b|]; [|reflexivity]. cbn [fst snd]. split; [reflexivity|]. exists b. split; [reflexivity|]. intros ->. reflexivity.
  - destruct (works (second_draw t g)); [split; reflexivity|reflexivity].
Qed.
Print Assumptions C133_data.

(** The first run or estimate of a project uses the second draw as well. *)
Theorem C133_first_use : forall (p : project) c k t g, pr_abs p = true -> pr_pickle p = Missing -> pr_sim p = Some c -> build c = Some (k, t, g) ->
  trains_on p (second_draw t g) /\ estimates_on p (second_draw t g).
Proof.
  intros p c k t g A P Sm B. destruct (first_get_sim p c k t g A P B) as (p1 & s & E & K & F1 & F2 & F3 & F4 & F5 & F6).
  assert (Es : source build gen p = (p1, inr (second_draw t g))).
  { unfold source. rewrite Sm, E. f_equal. f_equal. destruct K as (_ & _ & s' & P' & _ & T & _ & R' & _). assert (s' = s) by congruence. subst s'. unfold get_data. rewrite T, R'. unfold second_draw. destruct (gen t (snd (gen t g))); reflexivity. }
  split; [intros train; unfold SimCli_Model.run|intros works; unfold SimCli_Model.estimate]; rewrite Es, F2; destruct (pr_run p) eqn:Er; cbn [negb fst snd]; try reflexivity.
  - destruct (train (second_draw t g)) as [b|]; [|reflexivity]. cbn [fst snd]. split; [reflexivity|]. exists b. split; [reflexivity|]. rewrite F3. intros ->. reflexivity.
  - destruct (works (second_draw t g)); [split; reflexivity|reflexivity].
Qed.
Print Assumptions C133_first_use.

(** Under a relative path nothing is ever written next to the configuration; every
    command builds the simulator again, so that run still uses the second draw, and
    no comparison survives to be plotted. *)
Theorem C133_relative : forall (p : project) l, pr_abs p = false -> pr_pickle p = Missing ->
  let q := after p l in pr_pickle q = Missing /\ pr_csv q = pr_csv p /\
  forall c k t g, pr_sim q = Some c -> build c = Some (k, t, g) ->
    trains_on q (second_draw t g) /\ estimates_on q (second_draw t g) /\ plot q = (q, Drawn [] None) /\ generate q = (q, Done_).
Proof.
  intros p l A P. cbv zeta.
  assert (GS : forall (p : project) c, pr_abs p = false -> pr_pickle p = Missing -> fst (get_sim build gen p c) = p).
  { clear. intros p c A P. unfold get_sim. rewrite P. destruct (build c) as [[[k t] g]|]; [|reflexivity]. cbn [fst]. unfold save. rewrite A. reflexivity. }
  assert (SS : forall (p : project), pr_abs p = false -> pr_pickle p = Missing -> fst (source build gen p) = p).
  { intros p0 A0 P0. unfold source. destruct (pr_sim p0) as [c|]; [|reflexivity]. pose proof (GS p0 c A0 P0) as E. destruct (get_sim build gen p0 c) as [p1 [e|[s|]]]; exact E. }
  assert (ST : forall (p0 : project) x, pr_abs p0 = false -> pr_pickle p0 = Missing -> pr_abs (fst (step p0 x)) = false /\ pr_pickle (fst (step p0 x)) = Missing /\ pr_csv (fst (step p0 x)) = pr_csv p0).
  { intros p0 x A0 P0. pose proof (SS p0 A0 P0) as S0. destruct x; cbn [SimCli_Model.step].
    - unfold SimCli_Model.generate. destruct (pr_sim p0) as [c|]; [|auto]. pose proof (GS p0 c A0 P0) as E. destruct (get_sim build gen p0 c) as [p1 [e|o]]; cbn [fst] in *; subst p1; auto.
    - unfold SimCli_Model.run. destruct (source build gen p0) as [p1 [e|d]]; cbn [fst] in *; subst p1; auto. destruct (negb (pr_run p0)); auto. destruct (train d); auto. cbn [fst]. destruct (pr_out_abs p0); auto.
    - unfold SimCli_Model.estimate. destruct (source build gen p0) as [p1 [e|d]]; cbn [fst] in *; subst p1; auto. destruct (negb (pr_run p0)); auto.
    - unfold SimCli_Model.compare. destruct (pr_sim p0) as [c|]; [|auto]. pose proof (GS p0 c A0 P0) as E. destruct (get_sim build gen p0 c) as [p1 [e|o]]; cbn [fst] in *; subst p1; auto. destruct (negb (pr_run p0)); auto.
      destruct o as [s|]; auto. destruct (if pr_out_abs p0 then pr_batch p0 else None) as [[b d]|]; auto. destruct (sim_compare cpus m n (cs_sim s) b None) as [[s' out] [e|]]; auto. cbn [fst]. unfold save. rewrite A0. auto.
    - unfold SimCli_Model.plot. destruct (pr_sim p0) as [c|]; [|auto]. pose proof (GS p0 c A0 P0) as E. destruct (get_sim build gen p0 c) as [p1 [e|[s|]]]; cbn [fst] in *; subst p1; auto. destruct (plot_comparison m (cs_sim s) None); auto.
    - auto. }
  assert (Q : pr_abs (after p l) = false /\ pr_pickle (after p l) = Missing /\ pr_csv (after p l) = pr_csv p).
  { revert p A P. induction l as [|x l IH]; intros p A P; [auto|]. cbn [SimCli_Model.after fold_left]. destruct (ST p x A P) as (A1 & P1 & C1). destruct (IH _ A1 P1) as (A2 & P2 & C2). unfold SimCli_Model.after in *. rewrite C2. auto. }
  destruct Q as (Aq & Pq & Cq). split; [exact Pq|]. split; [exact Cq|]. intros c k t g Sm B. set (q := after p l) in *. clearbody q.
  assert (E : exists s, get_sim build gen q c = (q, inr (Some s)) /\ cs_sim s = mkSimu k t true None None /\ cs_rng s = snd (gen t g)).
  { unfold get_sim. rewrite Pq, B. unfold get_data. cbn [cs_sim cs_rng si_truth si_k si_batch si_fc]. destruct (gen t g) as [d1 g1]. cbn [fst snd]. unfold save. rewrite Aq. eexists. split; [reflexivity|]. split; reflexivity. }
  destruct E as (s & E & Es & Er). assert (Eso : source build gen q = (q, inr (second_draw t g))).
  { unfold source. rewrite Sm, E. f_equal. f_equal. unfold get_data. rewrite Es, Er. cbn [si_truth]. unfold second_draw. destruct (gen t (snd (gen t g))); reflexivity. }
  split; [|split; [|split]].
  - intros train; unfold SimCli_Model.run. rewrite Eso. destruct (pr_run q) eqn:Eq; cbn [negb fst snd]; [|reflexivity]. destruct (train (second_draw t g)) as [b|]; [|reflexivity]. cbn [fst snd]. split; [reflexivity|]. exists b. split; [reflexivity|]. intros ->. reflexivity.
  - intros works; unfold SimCli_Model.estimate. rewrite Eso. destruct (pr_run q) eqn:Eq; cbn [negb fst snd]; [|reflexivity]. destruct (works (second_draw t g)); [split; reflexivity|reflexivity].
  - unfold SimCli_Model.plot. rewrite Sm, E, Es. reflexivity.
  - unfold SimCli_Model.generate. rewrite Sm, E. reflexivity.
Qed.
Print Assumptions C133_relative.

(** A pickle that is no simulator, or any pickle under a relative path: generate ends
    normally, every other command raises AttributeError, nothing changes. *)
Theorem C133_unreadable : forall (p : project) c, pr_sim p = Some c -> pr_run p = true ->
  pr_pickle p = Broken \/ (pr_abs p = false /\ exists s, pr_pickle p = Holds s) ->
  generate p = (p, Done_) /\ (forall t, run p t = (p, Raised_ AttrE)) /\ (forall w, estimate p w = (p, Raised_ AttrE)) /\ compare p = (p, Raised_ AttrE) /\ plot p = (p, Raised_ AttrE).
Proof.
  intros p c Sm Rn H. assert (E : get_sim build gen p c = (p, inr None)) by (unfold get_sim; destruct H as [->|(-> & s & ->)]; reflexivity).
  unfold SimCli_Model.generate, SimCli_Model.run, SimCli_Model.estimate, SimCli_Model.compare, SimCli_Model.plot, source. rewrite Sm, E, Rn. repeat split.
Qed.
Print Assumptions C133_unreadable.

(** Comparing needs a saved batch that can be loaded. *)
Theorem C133_compare_without_batch : forall (p : project) c k t g, pr_abs p = true -> pr_pickle p = Missing -> pr_sim p = Some c -> build c = Some (k, t, g) -> pr_run p = true ->
  pr_batch p = None \/ pr_out_abs p = false -> snd (compare p) = Raised_ TypeE /\ snd (plot (fst (compare p))) = Drawn [] None.
Proof.
  intros p c k t g A P Sm B Rn Nb. destruct (first_get_sim p c k t g A P B) as (p1 & s & E & K & F1 & F2 & F3 & F4 & F5 & F6).
  assert (Ec : compare p = (p1, Raised_ TypeE)).
  { unfold SimCli_Model.compare. rewrite Sm, E, F2, Rn. cbn [negb]. rewrite F3, F4. destruct Nb as [-> | ->]; [destruct (pr_out_abs p)|]; reflexivity. }
  rewrite Ec. split; [reflexivity|]. cbn [fst]. unfold SimCli_Model.plot. rewrite F1, Sm, (get_sim_again _ _ _ _ _ _ c c s E K F6), F5. reflexivity.
Qed.
Print Assumptions C133_compare_without_batch.

(** No command of the list, in its turn, compares successfully. *)
Fixpoint quiet (p : project) (l : list command) : Prop :=
  match l with [] => True | x :: t => (forall out, snd (step p x) <> Printed out) /\ quiet (fst (step p x)) t end.
Lemma step_quiet k t g1 d1 p x s : kept k t g1 d1 p -> pr_pickle p = Holds s -> (forall out, snd (step p x) <> Printed out) -> pr_pickle (fst (step p x)) = Holds s.
Proof.
  intros K P Q. pose proof (source_kept _ _ _ _ _ K) as [S1 _]. destruct x; cbn [SimCli_Model.step] in *.
  - unfold SimCli_Model.generate. destruct (pr_sim p) as [c|]; [|exact P]. destruct (kept_get_sim _ _ _ _ _ c K) as (s0 & -> & _). exact P.
  - unfold SimCli_Model.run. destruct (source build gen p) as [p1 [e|d]]; cbn [fst] in S1; subst p1; [exact P|]. destruct (negb (pr_run p)); [exact P|]. destruct (train d); [|exact P]. cbn [fst]. destruct (pr_out_abs p); exact P.
  - unfold SimCli_Model.estimate. destruct (source build gen p) as [p1 [e|d]]; cbn [fst] in S1; subst p1; [exact P|]. destruct (negb (pr_run p)); exact P.
  - unfold SimCli_Model.compare in *. destruct (pr_sim p) as [c|]; [|exact P]. destruct (kept_get_sim _ _ _ _ _ c K) as (s0 & Eg & _). rewrite Eg in *. destruct (negb (pr_run p)); [exact P|].
    destruct (if pr_out_abs p then pr_batch p else None) as [[b d]|]; [|exact P]. destruct (sim_compare cpus m n (cs_sim s0) b None) as [[s' out] [e|]]; [exact P|]. exfalso. apply (Q out). reflexivity.
  - unfold SimCli_Model.plot. destruct (pr_sim p) as [c|]; [|exact P]. destruct (kept_get_sim _ _ _ _ _ c K) as (s0 & -> & _). destruct (plot_comparison m (cs_sim s0) None). exact P.
  - exact P.
Qed.
Lemma quiet_kept k t g1 d1 s l : forall p, kept k t g1 d1 p -> pr_pickle p = Holds s -> quiet p l -> pr_pickle (after p l) = Holds s /\ kept k t g1 d1 (after p l).
Proof.
  induction l as [|x l IH]; intros p K P Q; [auto|]. destruct Q as [Q1 Q2]. cbn [SimCli_Model.after fold_left]. apply IH; [apply step_kept, K|apply (step_quiet _ _ _ _ _ _ _ K P Q1)|exact Q2].
Qed.

(** Before the first successful comparison plot shows nothing. *)
Theorem C133_plot_before_compare : forall (p : project) c k t g x l, pr_abs p = true -> pr_pickle p = Missing -> pr_sim p = Some c -> build c = Some (k, t, g) -> is_command x ->
  quiet p (x :: l) -> pr_sim (after p (x :: l)) <> None -> snd (plot (after p (x :: l))) = Drawn [] None.
Proof.
  intros p c k t g x l A P Sm B Hx [Q1 Q2] Hs. destruct (first_get_sim p c k t g A P B) as (p1 & s & E & K & F1 & F2 & F3 & F4 & F5 & F6).
  assert (E1 : get_sim build gen p1 c = (p1, inr (Some s))) by (apply (get_sim_again _ _ _ _ _ _ c c s E K F6)).
  assert (Ex : step p x = step p1 x) by (destruct x; cbn [SimCli_Model.step]; try contradiction; unfold SimCli_Model.generate, SimCli_Model.run, SimCli_Model.estimate, SimCli_Model.compare, SimCli_Model.plot, source; rewrite F1, Sm, E, E1; reflexivity).
  rewrite Ex in Q1, Q2. cbn [SimCli_Model.after fold_left] in *. rewrite Ex in *.
  destruct (quiet_kept _ _ _ _ s l (fst (step p1 x)) (step_kept _ _ _ _ _ x K) (step_quiet _ _ _ _ _ _ _ K F6 Q1) Q2) as [Pq Kq]. unfold SimCli_Model.after in *. set (q := fold_left _ l _) in *.
  unfold SimCli_Model.plot. destruct (pr_sim q) as [c'|]; [|congruence]. unfold get_sim. rewrite Pq. destruct Kq as (-> & _). rewrite F5. reflexivity.
Qed.
Print Assumptions C133_plot_before_compare.

(** After a successful comparison with a batch, plot shows the simulated truth beside
    that batch's best-correlated model, whatever is run or edited afterwards short of
    another successful comparison. *)
Theorem C133_plot_after_compare : forall (p : project) c k t g x l0 ks sols best d out l, 1 < cpus ->
  pr_abs p = true -> pr_pickle p = Missing -> pr_sim p = Some c -> build c = Some (k, t, g) -> is_command x ->
  let q := after p (x :: l0) in
  pr_batch q = Some (mkBatch ks (map Some sols) best, d) -> snd (compare q) = Printed out ->
  let q' := after (fst (compare q)) l in quiet (fst (compare q)) l -> pr_sim q' <> None ->
  exists top o figs, best_of_all (score_of "all" m n k ks t sols) k ks (List.length sols) top /\ nth_error sols top = Some o /\
    plot q' = (q', Drawn figs None) /\ one_to_one k ks figs /\ forall f, In f figs -> shows m n k ks t o f.
Proof.
  intros p c k t g x l0 ks sols best d out l Hc A P Sm B Hx q Hb Hp q' Hq Hs.
  assert (K : kept k t (snd (gen t g)) (first_draw t g) q) by (destruct (step_first p c k t g x A P Sm B Hx) as (p1 & K & E); unfold q; cbn [SimCli_Model.after fold_left]; rewrite E; apply after_kept, step_kept, K).
  clearbody q. pose proof (step_kept _ _ _ _ _ KCompare K) as K1. cbn [SimCli_Model.step] in K1. unfold q' in *. clear q'.
  assert (E : exists s, si_k s = k /\ si_truth s = t /\ si_ready s = true /\ snd (sim_compare cpus m n s (mkBatch ks (map Some sols) best) None) = None /\
     exists s1, pr_pickle (fst (compare q)) = Holds s1 /\ cs_sim s1 = fst (fst (sim_compare cpus m n s (mkBatch ks (map Some sols) best) None))).
  { unfold SimCli_Model.compare in *. destruct (pr_sim q) as [c'|]; [|discriminate]. destruct (kept_get_sim _ _ _ _ _ c' K) as (s & Eg & _ & S1 & S2 & S3 & _). rewrite Eg in *. destruct (negb (pr_run q)); [discriminate|].
    destruct (pr_out_abs q); [|discriminate]. rewrite Hb in *. exists (cs_sim s). repeat (split; [assumption|]). destruct (sim_compare cpus m n (cs_sim s) (mkBatch ks (map Some sols) best) None) as [[s' o'] [e|]]; [discriminate|].
    split; [reflexivity|]. cbn [fst snd]. unfold save. rewrite (proj1 K). eexists. split; [reflexivity|]. reflexivity. }
  destruct E as (s & S1 & S2 & S3 & S4 & s1 & P1 & C1).
  destruct (quiet_kept _ _ _ _ s1 l _ K1 P1 Hq) as [Pq Kq]. set (q' := after (fst (compare q)) l) in *.
  assert (Ep : plot q' = (q', Drawn (fst (plot_comparison m (cs_sim s1) None)) (snd (plot_comparison m (cs_sim s1) None)))).
  { unfold SimCli_Model.plot. destruct (pr_sim q') as [c'|]; [|congruence]. unfold get_sim. rewrite Pq, (proj1 Kq). destruct (plot_comparison m (cs_sim s1) None); reflexivity. }
  pose proof (C126_compare cpus m n s ks sols best Hc S3) as Cm. cbv zeta in Cm. rewrite S1, S2 in Cm. pose proof (C126_plot cpus m n s ks sols best Hc S3) as Pl. cbv zeta in Pl. rewrite S1, S2 in Pl. rewrite <- C1 in Pl.
  destruct (sim_compare cpus m n s (mkBatch ks (map Some sols) best) None) as [[s' o'] e]. cbn [snd] in S4. subst e.
  destruct Cm as (_ & _ & _ & _ & _ & [(_ & _ & F)|(top & _ & _ & Bt & _)]); [discriminate|].
  destruct Pl as (top' & Bt' & Pl).
  { destruct Bt as (Hi & pp & (Ht & Hf & _) & _). exists top, pp. auto. }
  specialize (Pl None). cbn [shown_model] in Pl. destruct (plot_comparison m (cs_sim s1) None) as [figs [e|]]; cbn [fst snd] in Ep.
  - exfalso. destruct Pl as (_ & _ & [Z|Nm]); [lia|]. rewrite Nat2Z.id in Nm. destruct Bt' as (_ & pp & (Ht & Hf & _) & _). rewrite (Nm pp Ht) in Hf. discriminate.
  - destruct Pl as (_ & o & pp & O1 & _ & _ & One & Sh). rewrite Nat2Z.id in O1. exists top', o, figs. auto.
Qed.
Print Assumptions C133_plot_after_compare.
End SimCliProps.

(** ** A generator that counts: the draws are 5, 6, ... *)
Definition ex_gen (_ : solution) (g : nat) : nat * nat := (g, S g).
Definition ex_build (c : nat) : option (nat * solution * nat) := Some (2, ex_truth, c).
Definition ex_p : project nat nat nat := mkPr true true (Some 5) true Missing None None None.
Definition ex_train (d : nat) : option batch := Some ex_batch.
Definition ex_worse (d : nat) : option batch := Some (mkBatch 2 (map Some [ex_nothing]) (Some 0)).
Notation ex_after := (after ex_build ex_gen 2 2 2).
Definition ex_ran := ex_after ex_p [KRun ex_train].

Lemma ex_compare : compare ex_build ex_gen 2 2 2 ex_ran =
  match sim_compare 2 2 2 ex_sim ex_batch None with
  | (s', out, None) => (save ex_ran (mkCS s' 6 (Some 5)), Printed out)
  | (_, _, Some e) => (ex_ran, Raised_ (CompareE e))
  end.
Proof. reflexivity. Qed.
Lemma ex_printed : exists c, snd (compare ex_build ex_gen 2 2 2 ex_ran) = Printed [(1%Z, c)].
Proof.
  destruct C126_instance as (_ & _ & _ & _ & c & I1 & I2). exists c. rewrite ex_compare. destruct (sim_compare 2 2 2 ex_sim ex_batch None) as [[s' out] e]. cbn [fst snd] in I1, I2. subst. reflexivity.
Qed.
(** The hypotheses of the theorems are met: the files hold 5, both runs and the estimate
    use 6, also after the configuration was changed; compare prints one mapping. *)
Example C133_instance :
  (1 < 2) /\ pr_abs ex_p = true /\ pr_pickle ex_p = Missing /\ pr_sim ex_p = Some 5 /\ ex_build 5 = Some (2, ex_truth, 5) /\ is_command (C:=nat) (KRun ex_train) /\
  snd (step ex_build ex_gen 2 2 2 ex_p (KRun ex_train)) = Trained 6 /\ pr_csv ex_ran = Some 5 /\ pr_batch ex_ran = Some (ex_batch, 6) /\
  snd (estimate ex_build ex_gen (ex_after ex_ran [KEdit (Some 9) true None true; KGenerate]) (fun _ => true)) = Estimated 6 /\
  (exists c, snd (compare ex_build ex_gen 2 2 2 ex_ran) = Printed [(1%Z, c)]) /\
  snd (compare ex_build ex_gen 2 2 2 ex_p) = Raised_ TypeE /\ quiet ex_build ex_gen 2 2 2 ex_p [KRun ex_train; KPlot] /\ snd (plot ex_build ex_gen 2 ex_ran) = Drawn [] None /\
  snd (run ex_build ex_gen (mkPr false true (Some 5) true Missing None None None) ex_train) = Trained 6 /\
  snd (generate ex_build ex_gen (mkPr true true (Some 5) true Broken None None None : project nat nat nat)) = Done_.
Proof. split; [lia|]. repeat (split; [first [reflexivity|exact I|exact ex_printed|repeat split; discriminate]|]). reflexivity. Qed.

(** Not so: models are trained on the data the simulator saved in the project. *)
Theorem C133_trained_on_saved_data_refuted : exists (gen : solution -> nat -> nat * nat) (p : project nat nat nat) (train : nat -> option batch) d d',
  let p1 := fst (generate ex_build gen p) in snd (generate ex_build gen p) = Done_ /\ pr_csv p1 = Some d /\ snd (run ex_build gen p1 train) = Trained d' /\ d <> d'.
Proof. exists ex_gen, ex_p, ex_train, 5, 6. cbv zeta. repeat (split; [reflexivity|]). lia. Qed.
Print Assumptions C133_trained_on_saved_data_refuted.

(** Not so: plot shows the batch of the last run.  Here the last run found nothing and
    the figures are those of the run before. *)
Theorem C133_plot_shows_last_run_refuted : exists figs, let q := ex_after ex_p [KRun ex_train; KCompare; KRun ex_worse] in
  pr_batch q = Some (mkBatch 2 (map Some [ex_nothing]) (Some 0), 6) /\ snd (plot ex_build ex_gen 2 q) = Drawn figs None /\ List.length figs = 2 /\
  forall f, In f figs -> shows 2 2 2 2 ex_truth ex_found f.
Proof.
  destruct ex_printed as [c Hc].
  destruct (C133_plot_after_compare ex_build ex_gen 2 2 2 ex_p 5 2 ex_truth 5 (KRun ex_train) [] 2 [ex_nothing; ex_found] (Some 1) 6 [(1%Z, c)] [KRun ex_worse]) as (top & o & figs & T & O & P & (L & _) & Sh); try (reflexivity || exact I || lia).
  - exact Hc.
  - change (ex_after ex_p [KRun ex_train]) with ex_ran. rewrite ex_compare.
    destruct (sim_compare 2 2 2 ex_sim ex_batch None) as [[s' out] [e|]]; cbn; split; try exact I; discriminate.
  - change (ex_after ex_p [KRun ex_train]) with ex_ran. rewrite ex_compare.
    destruct (sim_compare 2 2 2 ex_sim ex_batch None) as [[s' out] [e|]]; cbn; discriminate.
  - apply ex_top in T. subst top. injection O as <-. exists figs. cbv zeta. split; [|split; [|split; [exact L|exact Sh]]].
    + change (ex_after ex_p [KRun ex_train; KCompare; KRun ex_worse]) with (ex_after (fst (compare ex_build ex_gen 2 2 2 ex_ran)) [KRun ex_worse]). rewrite ex_compare.
      destruct (sim_compare 2 2 2 ex_sim ex_batch None) as [[s' out] [e|]]; reflexivity.
    + cbn [after fold_left] in P. cbn [after fold_left step] in *. rewrite P. reflexivity.
Qed.
Print Assumptions C133_plot_shows_last_run_refuted.

Example C133_data_example :=
  C133_data ex_build ex_gen 2 2 2 ex_p 5 2 ex_truth 5 (KRun ex_train) [KGenerate; KPlot] eq_refl eq_refl eq_refl eq_refl I.
Example C133_first_use_example := C133_first_use ex_build ex_gen ex_p 5 2 ex_truth 5 eq_refl eq_refl eq_refl eq_refl.
Example C133_relative_example :=
  C133_relative ex_build ex_gen 2 2 2 (mkPr false true (Some 5) true Missing None None None) [KGenerate; KRun ex_train] eq_refl eq_refl.
Example C133_unreadable_example :=
  C133_unreadable ex_build ex_gen 2 2 2 (mkPr true true (Some 5) true Broken None None None : project nat nat nat) 5 eq_refl eq_refl (or_introl eq_refl).
Example C133_compare_without_batch_example :=
  C133_compare_without_batch ex_build ex_gen 2 2 2 ex_p 5 2 ex_truth 5 eq_refl eq_refl eq_refl eq_refl eq_refl (or_introl eq_refl).
Example C133_plot_before_compare_example : snd (plot ex_build ex_gen 2 (ex_after ex_p [KRun ex_train; KPlot])) = Drawn [] None.
Proof.
  refine (C133_plot_before_compare ex_build ex_gen 2 2 2 ex_p 5 2 ex_truth 5 (KRun ex_train) [KPlot] eq_refl eq_refl eq_refl eq_refl I _ _); [|discriminate].
  apply C133_instance.
Qed.
Example C133_plot_after_compare_example : exists figs, snd (plot ex_build ex_gen 2 (fst (compare ex_build ex_gen 2 2 2 ex_ran))) = Drawn figs None.
Proof.
  destruct C133_instance as (_ & _ & _ & _ & _ & _ & _ & _ & _ & _ & (c & E) & _).
  assert (Ns : pr_sim (fst (compare ex_build ex_gen 2 2 2 ex_ran)) <> None)
    by (rewrite ex_compare; destruct (sim_compare 2 2 2 ex_sim ex_batch None) as [[s' out] [e|]]; discriminate).
  destruct (C133_plot_after_compare ex_build ex_gen 2 2 2 ex_p 5 2 ex_truth 5 (KRun ex_train) [] 2 [ex_nothing; ex_found] (Some 1) 6 [(1%Z, c)] [] ltac:(lia) eq_refl eq_refl eq_refl eq_refl I eq_refl E I Ns) as (_ & _ & figs & _ & _ & P & _).
  exists figs. exact (f_equal snd P).
Qed.
