(** C46-C48 and C72-C74: the data handler. *)
From Coq Require Import List Bool ZArith String Reals Lra Lia FunctionalExtensionality Permutation.
From Flocq Require Import Core.
From Verif Require Import Base Fl Data_Model Data_Proofs.
Import ListNotations.
Local Open Scope string_scope.
Local Open Scope R_scope.

(** ** C46: categories and the processed data *)
Definition selectable (h : handler) (c : string) : Prop :=
  In c (cols (h_in h)) /\ hides (h_drop h) c = false /\ hides (h_loc h) c = false.

(** A loaded numeric data set whose category table says [cat]. *)
Record well_formed (h : handler) (cat : string -> category) : Prop := {
  wf_cols : cols (h_un h) = cols (h_in h);
  wf_in : numeric (h_in h); wf_un : numeric (h_un h);
  wf_drop : forall c, hides (h_drop h) c = true -> In c (cols (h_in h));
  wf_loc : forall c, hides (h_loc h) c = true -> In c (cols (h_in h)) /\ hides (h_drop h) c = false;
  wf_nodup : NoDup (map fst (h_cat h));
  wf_cat : forall f k, In (f, k) (h_cat h) -> k = cat f;
  wf_all : forall f, cat f <> Strong -> In (f, cat f) (h_cat h);
  wf_sel : forall f, cat f <> Strong -> selectable h f }.

Definition features_of (h : handler) (cat : string -> category) : list string :=
  filter (fun c => negb (hides (h_drop h) c) && negb (hides (h_loc h) c) && match cat c with Bad => false | _ => true end) (cols (h_in h)).
Definition missing (cs : list string) (r : row) : bool := existsb (fun c => is_nan (num (r c))) cs.
Definition kept_rows (h : handler) (cat : string -> category) : list (row * row) :=
  filter (fun q => negb (missing (features_of h cat) (fst q) && missing (features_of h cat) (snd q))) (combine (rows (h_in h)) (rows (h_un h))).
Definition shown (h : handler) (cat : string -> category) : processed :=
  let fs := features_of h cat in
  mkP fs (map (fun q => map (fun c => cast32 (num (fst q c))) fs) (kept_rows h cat))
         (map (fun q => map (fun c => let u := cast32 (num (snd q c)) in
                                      match cat c with Weak => cast32 (fmul u (Fin 3)) | _ => u end) fs) (kept_rows h cat)).

Lemma cats_nodup h cat k : well_formed h cat -> NoDup (map fst (filter (is_cat k) (h_cat h))).
Proof.
  intros W. pose proof (wf_nodup _ _ W) as H. induction (h_cat h) as [|[f c] d IH]; cbn; [constructor|].
  cbn in H. inversion H as [|? ? Hn Hd]; subst. destruct (is_cat k (f, c)); [|apply IH, Hd]. cbn. constructor; [|apply IH, Hd].
  intros Hi. apply Hn. apply in_map_iff in Hi. destruct Hi as (q & <- & Hq). apply filter_In in Hq. apply in_map. tauto.
Qed.
Lemma cats_In h cat k f : well_formed h cat -> k <> Strong -> (In f (map fst (filter (is_cat k) (h_cat h))) <-> cat f = k).
Proof.
  intros W Hk. rewrite in_map_iff. split.
  - intros ([g c] & <- & Hq). apply filter_In in Hq. destruct Hq as [Hi E]. apply (wf_cat _ _ W) in Hi. subst c. cbn in *.
    destruct (cat g), k; try discriminate; reflexivity.
  - intros E. exists (f, cat f). split; [reflexivity|]. apply filter_In. split; [apply (wf_all _ _ W); congruence|].
    subst k. cbn. destruct (cat f); reflexivity.
Qed.
Lemma cats_mem h cat k f : well_formed h cat -> k <> Strong ->
  mem f (map fst (filter (is_cat k) (h_cat h))) = match cat f, k with Weak, Weak | Bad, Bad => true | _, _ => false end.
Proof.
  intros W Hk. destruct (mem f _) eqn:E.
  - apply mem_In in E. apply (cats_In _ _ _ _ W Hk) in E. destruct (cat f), k; try congruence; reflexivity.
  - apply mem_false in E. rewrite (cats_In _ _ _ _ W Hk) in E. destruct (cat f), k; try reflexivity; exfalso; apply E; reflexivity.
Qed.

Lemma tri_nan x : is_nan (tri x) = is_nan x.
Proof. unfold tri. rewrite cast32_nan. destruct x as [a| | |]; try reflexivity; cbn; unfold inf_of_sign, fsign;
  repeat (destruct (Rlt_dec _ _); try lra); try reflexivity; destruct (Req_EM_T _ _); try lra; reflexivity. Qed.

Lemma combine_F2 {A B} (R1 : A -> A -> Prop) (R2 : B -> B -> Prop) l1 l1' : Forall2 R1 l1 l1' ->
  forall l2 l2', Forall2 R2 l2 l2' -> Forall2 (fun q q' => R1 (fst q) (fst q') /\ R2 (snd q) (snd q')) (combine l1 l2) (combine l1' l2').
Proof. induction 1; intros m m' Hm; [constructor|]. destruct Hm; cbn; [constructor|]. constructor; [cbn; auto|apply IHForall2, Hm]. Qed.
Lemma filter_F2 {A} (R : A -> A -> Prop) (p p' : A -> bool) l l' : Forall2 R l l' ->
  (forall x y, R x y -> p x = p' y) -> Forall2 R (filter p l) (filter p' l').
Proof. induction 1 as [|x y l l' Hxy _ IH]; intros Hp; cbn; [constructor|]. rewrite (Hp _ _ Hxy). destruct (p' y); auto. Qed.
Lemma map_F2 {A B} (R : A -> A -> Prop) (f g : A -> B) l l' : Forall2 R l l' -> (forall x y, R x y -> f x = g y) -> map f l = map g l'.
Proof. induction 1 as [|x y l l' Hxy _ IH]; intros Hp; cbn; [reflexivity|]. rewrite (Hp _ _ Hxy), IH by exact Hp. reflexivity. Qed.

(** The processed data depend only on the stored frames and the categories. *)
Theorem C46_processed_data :
  forall parse (h : handler) (cat : string -> category), well_formed h cat ->
    get_data parse h = (Ok (shown h cat), h).
Proof.
  intros parse h cat W. unfold get_data. f_equal. unfold set_dataset.
  set (di := mkF (filter (fun c => negb (hides (h_drop h) c)) (cols (h_in h))) (rows (h_in h))).
  set (du := mkF (filter (fun c => negb (hides (h_drop h) c)) (cols (h_in h))) (rows (h_un h))).
  rewrite (drop_opt_ok (h_drop h) (h_in h)) by apply (wf_drop _ _ W). fold di.
  rewrite (drop_opt_ok (h_drop h) (h_un h)) by (rewrite (wf_cols _ _ W); apply (wf_drop _ _ W)). rewrite (wf_cols _ _ W). fold du.
  cbn [bind].
  assert (Ni : numeric di). { intros r c Hr Hc. cbn in Hc. apply filter_In in Hc. apply (wf_in _ _ W); tauto. }
  assert (Nu : numeric du). { intros r c Hr Hc. cbn in Hc. apply filter_In in Hc. apply (wf_un _ _ W); [exact Hr|]. rewrite (wf_cols _ _ W). tauto. }
  destruct (as_float32_ok parse di Ni) as (ri & -> & Fi). destruct (as_float32_ok parse du Nu) as (ru & -> & Fu). cbn [bind].
  set (c1 := filter (fun c => negb (hides (h_drop h) c)) (cols (h_in h))) in *. change (cols di) with c1 in *. change (cols du) with c1 in *.
  assert (Hl : forall c, hides (h_loc h) c = true -> In c c1).
  { intros c Hc. destruct (wf_loc _ _ W c Hc) as [H1 H2]. apply filter_In. split; [exact H1|]. rewrite H2. reflexivity. }
  rewrite !drop_opt_ok by (cbn [cols]; exact Hl). cbn [bind cols rows].
  set (c2 := filter (fun c => negb (hides (h_loc h) c)) c1).
  assert (Hsel : forall f, cat f <> Strong -> In f c2).
  { intros f Hf. destruct (wf_sel _ _ W f Hf) as (H1 & H2 & H3). apply filter_In. split; [apply filter_In; split; [exact H1|]|].
    - rewrite H2. reflexivity.
    - rewrite H3. reflexivity. }
  rewrite drop_each_ok; cbn [cols rows]; [|apply (cats_nodup _ _ _ W)|reflexivity|].
  2:{ intros c Hc. apply (cats_In _ _ _ _ W) in Hc; [|discriminate]. apply Hsel. congruence. }
  cbn [bind].
  set (c3 := filter (fun c => negb (mem c (map fst (filter (is_cat Bad) (h_cat h))))) c2).
  rewrite triple_each_ok; cbn [cols rows]; [|apply (cats_nodup _ _ _ W)|].
  2:{ intros c Hc. apply (cats_In _ _ _ _ W) in Hc; [|discriminate]. apply filter_In. split; [apply Hsel; congruence|].
      rewrite (cats_mem _ _ _ _ W) by discriminate. rewrite Hc. reflexivity. }
  cbn [bind].
  assert (E3 : c3 = features_of h cat).
  { unfold c3, c2, c1, features_of. rewrite !filter_filter. apply filter_ext_in'. intros c _.
    rewrite (cats_mem _ _ _ _ W) by discriminate. rewrite <- andb_assoc. destruct (cat c); reflexivity. }
  assert (Hc31 : forall c, In c c3 -> In c c1). { intros c Hc. apply filter_In in Hc. destruct Hc as [Hc _]. apply filter_In in Hc. tauto. }
  unfold filter_rows. cbn [cols rows]. rewrite E3 in *.
  set (fs := features_of h cat) in *.
  set (tw := fun (c : string) (u : fl) => match cat c with Weak => cast32 (fmul u (Fin 3)) | _ => u end).
  set (Ri := fun r r' : row => forall c, In c fs -> exists x, r c = Num x /\ r' c = Num (cast32 x)).
  set (Ru := fun r r' : row => forall c, In c fs -> exists x, r c = Num x /\ r' c = Num (tw c (cast32 x))).
  assert (FRi : Forall2 Ri (rows (h_in h)) ri).
  { assert (Hn : forall r, In r (rows (h_in h)) -> forall c, In c c1 -> exists x, r c = Num x) by (intros r Hr c Hc; apply Ni; assumption).
    clear -Fi Hc31 Hn. change (rows di) with (rows (h_in h)) in Fi. induction Fi as [|r r' l l' Hr _ IH]; constructor; [|apply IH; intros; apply Hn; [right|]; assumption].
    intros c Hc. rewrite (Hr c (Hc31 c Hc)). destruct (Hn r (or_introl eq_refl) c (Hc31 c Hc)) as (x & ->). exists x. split; reflexivity. }
  set (wl := map fst (filter (is_cat Weak) (h_cat h))).
  assert (FRu : Forall2 Ru (rows (h_un h)) (map (fun (r : row) c => if mem c wl then on_num tri (r c) else r c) ru)).
  { assert (Hn : forall r, In r (rows (h_un h)) -> forall c, In c c1 -> exists x, r c = Num x) by (intros r Hr c Hc; apply Nu; assumption).
    assert (Hm : forall c, mem c wl = match cat c with Weak => true | _ => false end).
    { intros c. unfold wl. rewrite (cats_mem _ _ _ _ W) by discriminate. destruct (cat c); reflexivity. }
    clear -Fu Hc31 Hn Hm. change (rows du) with (rows (h_un h)) in Fu.
    induction Fu as [|r r' l l' Hr _ IH]; cbn [map]; constructor; [|apply IH; intros; apply Hn; [right|]; assumption].
    intros c Hc. rewrite Hm. unfold tw. rewrite (Hr c (Hc31 c Hc)). destruct (Hn r (or_introl eq_refl) c (Hc31 c Hc)) as (x & ->). exists x.
    split; [reflexivity|]. destruct (cat c); reflexivity. }
  assert (Htw : forall c u, is_nan (tw c u) = is_nan u) by (intros c u; unfold tw; destruct (cat c); try reflexivity; apply tri_nan).
  assert (HRi : forall r r' : row, Ri r r' -> any_nan fs r' = missing fs r).
  { intros r r' Hr. unfold any_nan, missing. clear -Hr. unfold Ri in Hr. induction fs as [|c l IH]; [reflexivity|]. cbn [existsb].
    rewrite IH by (intros; apply Hr; right; assumption). f_equal. destruct (Hr c (or_introl eq_refl)) as (x & -> & ->). apply cast32_nan. }
  assert (HRu : forall r r' : row, Ru r r' -> any_nan fs r' = missing fs r).
  { intros r r' Hr. unfold any_nan, missing. clear -Hr Htw. unfold Ru in Hr. induction fs as [|c l IH]; [reflexivity|]. cbn [existsb].
    rewrite IH by (intros; apply Hr; right; assumption). f_equal. destruct (Hr c (or_introl eq_refl)) as (x & -> & ->). cbn. rewrite Htw. apply cast32_nan. }
  pose proof (filter_F2 _ (fun q => negb (missing fs (fst q) && missing fs (snd q)))
                (fun q => negb (any_nan fs (fst q)) || negb (any_nan fs (snd q))) _ _ (combine_F2 _ _ _ _ FRi _ _ FRu)) as FC.
  specialize (FC ltac:(intros [a b] [a' b'] [H1 H2]; cbn [fst snd] in *; rewrite (HRi _ _ H1), (HRu _ _ H2); apply negb_andb)).
  unfold shown, values. fold fs. unfold kept_rows. fold fs. cbn [cols rows]. f_equal. f_equal.
  - rewrite map_map. symmetry. apply (map_F2 _ _ _ _ _ FC). intros [a b] [a' b'] [H1 _]. cbn [fst snd] in *.
    apply map_ext_in. intros c Hc. destruct (H1 c Hc) as (x & -> & ->). cbn [num]. rewrite fix_zero_id, cast32_idem. reflexivity.
  - rewrite map_map. symmetry. apply (map_F2 _ _ _ _ _ FC). intros [a b] [a' b'] [_ H2]. cbn [fst snd] in *.
    apply map_ext_in. intros c Hc. destruct (H2 c Hc) as (x & -> & ->). cbn [num]. rewrite fix_zero_id. fold (tw c (cast32 x)).
    unfold tw. destruct (cat c); rewrite cast32_idem; reflexivity.
Qed.
Print Assumptions C46_processed_data.

(** The answer of set_category. *)
Definition category_named (s : string) : option category :=
  if string_dec s "strong" then Some Strong else if string_dec s "weak" then Some Weak else if string_dec s "bad" then Some Bad else None.
Lemma parse_named s : parse_category s = category_named s.
Proof. unfold parse_category, category_named. 
  destruct (String.eqb_spec s "strong"), (string_dec s "strong"); try congruence.
  destruct (String.eqb_spec s "weak"), (string_dec s "weak"); try congruence.
  destruct (String.eqb_spec s "bad"), (string_dec s "bad"); congruence.
Qed.

Inductive operation := SetCategory (f : option string) (s : string) | GetData.
Fixpoint perform (parse : string -> option fl) (ops : list operation) (h : handler) : handler :=
  match ops with
  | [] => h
  | SetCategory f s :: t => perform parse t (snd (set_category h f s))
  | GetData :: t => perform parse t (snd (get_data parse h))
  end.
(** last accepted category of [f] *)
Fixpoint last_category (ops : list operation) (f : string) (c : category) : category :=
  match ops with
  | [] => c
  | SetCategory (Some g) s :: t =>
      last_category t f (match category_named s with Some k => if string_dec g f then k else c | None => c end)
  | _ :: t => last_category t f c
  end.
Definition assigns_only (P : string -> Prop) (ops : list operation) : Prop :=
  forall f s, In (SetCategory (Some f) s) ops -> P f.

Theorem C46_set_category_answer :
  forall (h : handler) (f : option string) (s : string),
    (fst (set_category h f s) = true <-> f <> None /\ (s = "strong" \/ s = "weak" \/ s = "bad")) /\
    (fst (set_category h f s) = false -> snd (set_category h f s) = h).
Proof.
  intros h f s. unfold set_category. rewrite parse_named. unfold category_named.
  destruct f as [f|]; cbn; [|split; [split; [discriminate|intros [H _]; congruence]|reflexivity]].
  destruct (string_dec s "strong"), (string_dec s "weak"), (string_dec s "bad"); cbn; (split; [split; intros; (discriminate || (split; [discriminate|auto]) || tauto || reflexivity)|intros; (discriminate || reflexivity)]).
Qed.
Print Assumptions C46_set_category_answer.

Lemma assign_wf h cat f k : well_formed h cat -> selectable h f ->
  well_formed (mkH (h_in h) (h_un h) (h_drop h) (h_loc h) (cat_set (h_cat h) f k)) (fun g => if string_dec f g then k else cat g).
Proof.
  intros W Hs. destruct W as [W1 W2 W3 W4 W5 W6 W7 W8 W9]. split; cbn [h_in h_un h_drop h_loc h_cat]; try assumption.
  - apply cat_set_nodup, W6.
  - intros g c H. apply cat_set_In in H; [|exact W6]. destruct (String.eqb_spec g f) as [->|Hne].
    + destruct (string_dec f f); [exact H|congruence].
    + destruct (string_dec f g); [congruence|apply W7, H].
  - intros g H. apply cat_set_In; [exact W6|]. destruct (String.eqb_spec g f) as [->|Hne].
    + destruct (string_dec f f); [reflexivity|congruence].
    + destruct (string_dec f g); [congruence|apply W8, H].
  - intros g H. destruct (string_dec f g) as [<-|]; [exact Hs|apply W9, H].
Qed.

(** Any history of category changes and requests: only the last accepted category
    of each feature matters. *)
Theorem C46_history :
  forall parse (h : handler) (cat : string -> category) (ops : list operation),
    well_formed h cat -> assigns_only (selectable h) ops ->
    fst (get_data parse (perform parse ops h)) = Ok (shown h (fun f => last_category ops f (cat f))).
Proof.
  intros parse h cat ops. revert h cat. induction ops as [|o ops IH]; intros h cat W Ha.
  - cbn [perform last_category]. rewrite (C46_processed_data parse h cat W). reflexivity.
  - assert (Ha' : assigns_only (selectable h) ops) by (intros f s H; apply (Ha f s); right; exact H).
    destruct o as [[f|] s|]; cbn [perform last_category]; [|apply IH; assumption..].
    unfold set_category. rewrite parse_named. destruct (category_named s) as [k|]; cbn [snd]; [|apply IH; assumption].
    assert (Hs : selectable h f) by (apply (Ha f s); left; reflexivity).
    rewrite (IH _ _ (assign_wf h cat f k W Hs) Ha'). reflexivity.
Qed.
Print Assumptions C46_history.

(** A feature that is not (or no longer) a column is accepted, and the next
    request for the data raises. *)
Theorem C46_unknown_feature_accepted_then_raises :
  forall parse (h : handler) (cat : string -> category) (f s : string),
    well_formed h cat -> ~ selectable h f -> s = "weak" \/ s = "bad" ->
    fst (set_category h (Some f) s) = true /\
    fst (get_data parse (snd (set_category h (Some f) s))) = Raise KeyError.
Proof.
  intros parse h cat f s W Hf Hs.
  assert (Hk : exists k, parse_category s = Some k /\ k <> Strong).
  { destruct Hs as [-> | ->]; [exists Weak|exists Bad]; split; try reflexivity; discriminate. }
  destruct Hk as (k & E & Hk). unfold set_category. rewrite E. cbn [fst snd]. split; [reflexivity|].
  unfold get_data, set_dataset. cbn [fst h_in h_un h_drop h_loc h_cat].
  rewrite (drop_opt_ok (h_drop h) (h_in h)) by apply (wf_drop _ _ W).
  rewrite (drop_opt_ok (h_drop h) (h_un h)) by (rewrite (wf_cols _ _ W); apply (wf_drop _ _ W)). rewrite (wf_cols _ _ W).
  set (c1 := filter (fun c => negb (hides (h_drop h) c)) (cols (h_in h))). cbn [bind].
  assert (Ni : numeric (mkF c1 (rows (h_in h)))). { intros r c Hr Hc. cbn in Hc. apply filter_In in Hc. apply (wf_in _ _ W); tauto. }
  assert (Nu : numeric (mkF c1 (rows (h_un h)))). { intros r c Hr Hc. cbn in Hc. apply filter_In in Hc. apply (wf_un _ _ W); [exact Hr|]. rewrite (wf_cols _ _ W). tauto. }
  destruct (as_float32_ok parse _ Ni) as (ri & -> & _). destruct (as_float32_ok parse _ Nu) as (ru & -> & _). cbn [bind cols].
  assert (Hl : forall c, hides (h_loc h) c = true -> In c c1).
  { intros c Hc. destruct (wf_loc _ _ W c Hc) as [H1 H2]. apply filter_In. split; [exact H1|]. rewrite H2. reflexivity. }
  rewrite !drop_opt_ok by (cbn [cols]; exact Hl). cbn [bind cols rows].
  set (c2 := filter (fun c => negb (hides (h_loc h) c)) c1).
  assert (Hn : ~ In f c2).
  { intros H. apply Hf. apply filter_In in H. destruct H as [H H2]. apply filter_In in H. destruct H as [H H1].
    split; [exact H|]. split; apply negb_true_iff; assumption. }
  set (d := cat_set (h_cat h) f k).
  assert (Hnd : NoDup (map fst d)) by (apply cat_set_nodup, (wf_nodup _ _ W)).
  assert (Hin : In f (map fst (filter (is_cat k) d))).
  { apply in_map_iff. exists (f, k). split; [reflexivity|]. apply filter_In. split.
    - apply cat_set_In; [apply (wf_nodup _ _ W)|]. rewrite String.eqb_refl. reflexivity.
    - destruct k; reflexivity. }
  assert (Hnb : forall c, NoDup (map fst (filter (is_cat c) d))).
  { intros c. clear -Hnd. induction d as [|q d IH]; cbn in *; [constructor|]. inversion Hnd as [|? ? Hn Hd]; subst.
    destruct (is_cat c q); [|apply IH, Hd]. cbn. constructor; [|apply IH, Hd].
    intros Hi. apply Hn. apply in_map_iff in Hi. destruct Hi as (x & <- & Hx). apply filter_In in Hx. apply in_map. tauto. }
  destruct k; [congruence| |].
  - destruct (drop_each _ _ _) as [[fi fu]|e] eqn:Ed; cbn [bind].
    + destruct (triple_each _ fu) as [fu'|e'] eqn:Et; cbn [bind]; [exfalso|].
      * assert (Hfu : ~ In f (cols fu)).
        { assert (G : forall l a b a' b', drop_each l a b = Ok (a', b') -> incl (cols b') (cols b)).
          { clear. induction l as [|x l IH]; intros a b a' b'; cbn [drop_each]; [intros [= <- <-]; apply incl_refl|].
            unfold drop at 1. destruct (forallb _ _); [|discriminate]. cbn [bind]. unfold drop at 1. destruct (forallb _ _); [|discriminate].
            cbn [bind]. intros H. apply IH in H. intros y Hy. apply H in Hy. cbn [cols] in Hy. apply filter_In in Hy. tauto. }
          apply G in Ed. intros H. apply Hn, (Ed f H). }
        rewrite (triple_each_missing _ f) in Et by assumption. discriminate.
      * assert (G : forall l a e, triple_each l a = Raise e -> e = KeyError).
        { clear. induction l as [|x l IH]; intros a e; cbn [triple_each]; [discriminate|]. unfold triple.
          destruct (mem x (cols a)); cbn [bind]; [apply IH|congruence]. }
        rewrite (G _ _ _ Et). reflexivity.
    + assert (G : forall l a b e, drop_each l a b = Raise e -> e = KeyError).
      { clear. induction l as [|x l IH]; intros a b e; cbn [drop_each]; [discriminate|].
        unfold drop at 1. destruct (forallb _ _); cbn [bind]; [|congruence]. unfold drop at 1. destruct (forallb _ _); cbn [bind]; [|congruence]. apply IH. }
      rewrite (G _ _ _ _ Ed). reflexivity.
  - rewrite (drop_each_missing _ f) by (apply Hnb || assumption). reflexivity.
Qed.
Print Assumptions C46_unknown_feature_accepted_then_raises.

(** Loading: every feature is strong, whatever its signal to noise. *)
Lemma load_ok fi fu dr lc h sn : load fi fu dr lc = Ok (h, sn) ->
  exists kept, kept = filter (fun q => negb (all_nan (cols fi) (fst q) || all_nan (cols fu) (snd q))) (combine (rows fi) (rows fu)) /\
    kept <> [] /\ h = mkH (mkF (cols fi) (map fst kept)) (mkF (cols fu) (map snd kept)) dr lc (map (fun c => (c, Strong)) (cols fi)) /\
    numeric (h_in h) /\ numeric (h_un h) /\ sn = signal_noise (h_in h) (h_un h).
Proof.
  unfold load, filter_rows. set (kept := filter _ _).
  destruct (has_text _ || has_text _) eqn:Et; [discriminate|]. apply orb_false_iff in Et. destruct Et as [E1 E2].
  cbn [rows]. rewrite map_length. destruct (Nat.eqb_spec (List.length kept) 0) as [|Hne]; [discriminate|]. intros [= <- <-].
  exists kept. split; [reflexivity|]. split; [intros E; rewrite E in Hne; apply Hne; reflexivity|]. split; [reflexivity|].
  assert (G : forall f, has_text f = false -> numeric f).
  { intros f H r c Hr Hc. destruct (r c) as [x|s] eqn:E; [exists x; reflexivity|]. exfalso.
    assert (has_text f = true); [|congruence]. unfold has_text. apply existsb_exists. exists r. split; [exact Hr|].
    apply existsb_exists. exists c. split; [exact Hc|]. rewrite E. reflexivity. }
  cbn [h_in h_un]. split; [apply G, E1|]. split; [apply G, E2|reflexivity].
Qed.

Theorem C46_loading_marks_everything_strong :
  forall (fi fu : frame) dr lc h sn, cols fu = cols fi -> NoDup (cols fi) ->
    (forall c, hides dr c = true -> In c (cols fi)) ->
    (forall c, hides lc c = true -> In c (cols fi) /\ hides dr c = false) ->
    load fi fu dr lc = Ok (h, sn) -> well_formed h (fun _ => Strong).
Proof.
  intros fi fu dr lc h sn Hc Hnd Hd Hl H. apply load_ok in H. destruct H as (kept & _ & _ & -> & Ni & Nu & _).
  split; cbn [h_in h_un h_drop h_loc h_cat cols]; try assumption.
  - rewrite map_map. cbn [fst]. rewrite map_id. exact Hnd.
  - intros f k H. apply in_map_iff in H. destruct H as (c & [= <- <-] & _). reflexivity.
  - intros f H. congruence.
  - intros f H. congruence.
Qed.
Print Assumptions C46_loading_marks_everything_strong.

(** A loaded handler of one sample and two features. *)
Definition ex_row (a b : fl) : row := fun c => if String.eqb c "A" then Num a else Num b.
Definition ex_h : handler := mkH (mkF ["A"; "B"] [ex_row (Fin 2) (Fin 0)]) (mkF ["A"; "B"] [ex_row (Fin 1) (Fin 1)]) None None [("A", Strong); ("B", Strong)].
Lemma ex_wf : well_formed ex_h (fun _ => Strong).
Proof.
  split; cbn; try reflexivity; try discriminate; try congruence.
  - intros r c [<-|[]] _. unfold ex_row. destruct (String.eqb c "A"); eexists; reflexivity.
  - intros r c [<-|[]] _. unfold ex_row. destruct (String.eqb c "A"); eexists; reflexivity.
  - repeat constructor; cbn; [intros [H|[]]; discriminate|tauto].
  - intros f k [[= <- <-]|[[= <- <-]|[]]]; reflexivity.
Qed.
Example C46_instance :
  assigns_only (selectable ex_h) [SetCategory (Some "A") "weak"; GetData; SetCategory (Some "B") "bad"; SetCategory (Some "A") "Strong"] /\
  p_features (shown ex_h (fun f => last_category [SetCategory (Some "A") "weak"; GetData; SetCategory (Some "B") "bad"; SetCategory (Some "A") "Strong"] f Strong)) = ["A"].
Proof.
  split; [|reflexivity]. intros f s [[= <- <-]|[H|[[= <- <-]|[[= <- <-]|[]]]]]; [| discriminate| |]; repeat split; cbn; auto.
Qed.
Example C46_unknown_instance : ~ selectable ex_h "C".
Proof. intros ([H|[H|[]]] & _); discriminate. Qed.

(** ** C47 *)
Theorem C47_row_filter :
  forall parse (h : handler) (cat : string -> category), well_formed h cat ->
    exists p (keep : row * row -> bool), fst (get_data parse h) = Ok p /\
      (forall x, num (Num x) = x) /\ (forall t, num (Txt t) = NaN) /\
      (forall q, keep q = false <-> (exists c, In c (p_features p) /\ num (fst q c) = NaN) /\ (exists c, In c (p_features p) /\ num (snd q c) = NaN)) /\
      let kept := filter keep (combine (rows (h_in h)) (rows (h_un h))) in
      p_in p = map (fun q => map (fun c => cast32 (num (fst q c))) (p_features p)) kept /\
      p_un p = map (fun q => map (fun c => let u := cast32 (num (snd q c)) in
                                           match cat c with Weak => cast32 (fmul u (Fin 3)) | _ => u end)
                                 (p_features p)) kept.
Proof.
  intros parse h cat W. exists (shown h cat), (fun q => negb (missing (features_of h cat) (fst q) && missing (features_of h cat) (snd q))).
  rewrite (C46_processed_data parse h cat W). split; [reflexivity|].
  assert (Hm : forall fs r, missing fs r = true <-> exists c, In c fs /\ num (r c) = NaN).
  { intros fs r. unfold missing. rewrite existsb_exists. split; intros (c & Hc & E); exists c; (split; [exact Hc|]); [destruct (num (r c)); try discriminate; reflexivity|rewrite E; reflexivity]. }
  split; [reflexivity|]. split; [reflexivity|]. split; [|split; reflexivity].
  intros q. rewrite negb_false_iff, andb_true_iff, !Hm. reflexivity.
Qed.
Print Assumptions C47_row_filter.

Theorem C47_no_missing_values_refuted :
  exists h cat, well_formed h cat /\ forall parse, exists p, fst (get_data parse h) = Ok p /\ p_in p = [[NaN]].
Proof.
  exists (mkH (mkF ["A"] [fun _ => Num NaN]) (mkF ["A"] [fun _ => Num (Fin 1)]) None None [("A", Strong)]), (fun _ => Strong).
  assert (W : well_formed (mkH (mkF ["A"] [fun _ => Num NaN]) (mkF ["A"] [fun _ => Num (Fin 1)]) None None [("A", Strong)]) (fun _ => Strong)).
  { split; cbn; try reflexivity; try discriminate; try congruence.
    - intros r c [<-|[]] _. eexists. reflexivity.
    - intros r c [<-|[]] _. eexists. reflexivity.
    - repeat constructor. cbn. tauto.
    - intros f k [[= <- <-]|[]]. reflexivity. }
  split; [exact W|]. intros parse. eexists. rewrite (C46_processed_data _ _ _ W). split; reflexivity.
Qed.
Print Assumptions C47_no_missing_values_refuted.

(** ** C73: zeros are not replaced *)
Definition cell_at (m : list (list fl)) (t j : nat) : option fl := match nth_error m t with Some r => nth_error r j | None => None end.

Lemma cell_at_map {A} (f : A -> string -> fl) l fs t j a c : nth_error l t = Some a -> nth_error fs j = Some c ->
  cell_at (map (fun a => map (f a) fs) l) t j = Some (f a c).
Proof.
  intros Ha Hc. unfold cell_at. rewrite (map_nth_error (fun a => map (f a) fs) t _ Ha). apply map_nth_error, Hc.
Qed.

Theorem C73_zeros_stay_zero :
  forall parse (h : handler) (cat : string -> category), well_formed h cat ->
    exists p, fst (get_data parse h) = Ok p /\
      forall t j q c, nth_error (kept_rows h cat) t = Some q -> nth_error (p_features p) j = Some c ->
        (num (fst q c) = Fin 0 -> cell_at (p_in p) t j = Some (Fin 0)) /\
        (num (snd q c) = Fin 0 -> cell_at (p_un p) t j = Some (Fin 0)) /\
        (forall x, num (fst q c) = Fin x -> Rabs x < bpow radix2 (-150) -> cell_at (p_in p) t j = Some (Fin 0)).
Proof.
  intros parse h cat W. exists (shown h cat). rewrite (C46_processed_data parse h cat W). split; [reflexivity|].
  intros t j q c Hq Hc. unfold shown in *. cbn [p_features p_in p_un] in *.
  assert (Hsmall : forall x, Rabs x < bpow radix2 (-150) -> cast32 (Fin x) = Fin 0).
  { intros x Hx. cbn [cast32]. assert (E : r32 x = 0).
    { unfold r32. destruct (Req_dec x 0) as [->|Hne]; [apply round_0, valid_rnd_N|].
      apply (round_N_small radix2 (FLT_exp (-149) 24) (fun z => negb (Z.even z)) x (mag radix2 x)).
      - destruct (mag radix2 x) as [e He]. exact (He Hne).
      - pose proof (mag_le_bpow radix2 x (-150) Hne Hx) as Hm. unfold FLT_exp. lia. }
    rewrite E, Rabs_R0. destruct (Rle_dec _ _) as [Hle|]; [|reflexivity]. pose proof (bpow_gt_0 radix2 128). lra. }
  assert (H0 : cast32 (Fin 0) = Fin 0) by (apply Hsmall; rewrite Rabs_R0; apply bpow_gt_0).
  split; [|split].
  - intros E. rewrite <- H0, <- E. exact (cell_at_map (fun (q : row * row) c => cast32 (num (fst q c))) _ _ _ _ _ _ Hq Hc).
  - intros E. etransitivity; [exact (cell_at_map (fun (q : row * row) c => let u := cast32 (num (snd q c)) in match cat c with Weak => cast32 (fmul u (Fin 3)) | _ => u end) _ _ _ _ _ _ Hq Hc)|].
    cbv beta zeta. rewrite E, H0. cbn [fmul]. rewrite Rmult_0_l, H0. destruct (cat c); reflexivity.
  - intros x E Hx. rewrite <- (Hsmall x Hx), <- E. exact (cell_at_map (fun (q : row * row) c => cast32 (num (fst q c))) _ _ _ _ _ _ Hq Hc).
Qed.
Print Assumptions C73_zeros_stay_zero.

Theorem C73_processed_data_positive_refuted :
  exists h cat, well_formed h cat /\ forall parse, exists p, fst (get_data parse h) = Ok p /\ cell_at (p_in p) 0 1 = Some (Fin 0).
Proof.
  exists ex_h, (fun _ => Strong). split; [exact ex_wf|]. intros parse.
  destruct (C73_zeros_stay_zero parse ex_h _ ex_wf) as (p & Hp & H). exists p. split; [exact Hp|].
  rewrite (C46_processed_data _ _ _ ex_wf) in Hp. injection Hp as <-.
  apply (H 0%nat 1%nat (ex_row (Fin 2) (Fin 0), ex_row (Fin 1) (Fin 1)) "B"); reflexivity.
Qed.
Print Assumptions C73_processed_data_positive_refuted.
(* two features and one sample whose second concentration is zero *)
Definition xdt_ops : list operation :=
  [SetCategory (Some "A") "weak"; GetData; SetCategory (Some "B") "bad"; SetCategory (Some "A") "Strong"].
Lemma xdt_wf : well_formed ex_h (fun _ => Strong).
Proof.
  constructor; try reflexivity; cbn; try discriminate; try congruence.
  - intros r c [<- | []] _. unfold ex_row. destruct (String.eqb c "A"); eexists; reflexivity.
  - intros r c [<- | []] _. unfold ex_row. destruct (String.eqb c "A"); eexists; reflexivity.
  - repeat constructor; cbn; intuition congruence.
  - intros f k [H | [H | []]]; congruence.
Qed.
Example C46_processed_data_example := fun parse => C46_processed_data parse ex_h _ xdt_wf.
Example C46_set_category_answer_example : fst (set_category ex_h (Some "A") "weak") = true /\ fst (set_category ex_h None "weak") = false.
Proof.
  split.
  - apply (proj1 (C46_set_category_answer ex_h (Some "A") "weak")). split; [discriminate | auto].
  - destruct (fst (set_category ex_h None "weak")) eqn:E; [| reflexivity].
    destruct (proj1 (proj1 (C46_set_category_answer ex_h None "weak")) E) as [H _]. congruence.
Qed.
Example C46_history_example := fun parse =>
  C46_history parse ex_h _ xdt_ops xdt_wf (proj1 C46_instance).
Example C46_unknown_feature_accepted_then_raises_example := fun parse =>
  C46_unknown_feature_accepted_then_raises parse ex_h _ "C" "weak" xdt_wf C46_unknown_instance (or_introl eq_refl).
Example C46_loading_marks_everything_strong_example : forall sn h,
  load (h_in ex_h) (h_un ex_h) None None = Ok (h, sn) -> well_formed h (fun _ => Strong).
Proof.
  intros sn h. apply C46_loading_marks_everything_strong; try reflexivity; cbn; try discriminate.
  repeat constructor; cbn; intuition congruence.
Qed.
Example C47_row_filter_example := fun parse => C47_row_filter parse ex_h _ xdt_wf.
Example C73_zeros_stay_zero_example := fun parse => C73_zeros_stay_zero parse ex_h _ xdt_wf.
Example C47_C73_instance : well_formed ex_h (fun _ => Strong) /\ nth_error (kept_rows ex_h (fun _ => Strong)) 0 = Some (ex_row (Fin 2) (Fin 0), ex_row (Fin 1) (Fin 1)) /\ num (ex_row (Fin 2) (Fin 0) "B") = Fin 0.
Proof. split; [exact ex_wf|]. split; reflexivity. Qed.


(** ** C48: splitting by location *)
Definition by_coordinates (lc : list string) : Prop :=
  (forall c, In c lc -> c = "latitude" \/ c = "longitude") /\ In "latitude" lc /\ In "longitude" lc.
Lemma same_set_iff lc : same_set lc ["latitude"; "longitude"] = true <-> by_coordinates lc.
Proof.
  unfold same_set, by_coordinates. rewrite andb_true_iff, !forallb_forall. split.
  - intros [H1 H2]. split; [|split; apply mem_In, H2; cbn; auto].
    intros c Hc. specialize (H1 c Hc). apply mem_In in H1. destruct H1 as [<-|[<-|[]]]; auto.
  - intros (H1 & H2 & H3). split.
    + intros c Hc. apply mem_In. destruct (H1 c Hc) as [-> | ->]; cbn; auto.
    + intros c [<-|[<-|[]]]; apply mem_In; assumption.
Qed.

(** [loc] is the location a sample belongs to: its location columns, rounded to
    five decimals when they are latitude and longitude. *)
Definition is_location (round5 : R -> R) (lc : list string) (loc : row -> list cell) : Prop :=
  (by_coordinates lc -> forall r, loc r = map (fun c => round_cell round5 (r c)) lc) /\
  (~ by_coordinates lc -> forall r, loc r = map r lc).
Definition loc_dec := list_eq_dec cell_eq_dec.

Record splittable (round5 : R -> R) (h : handler) (lc : list string) : Prop := {
  sp_loc : h_loc h = Some lc; sp_cols : forall c, In c lc -> In c (cols (h_in h));
  sp_in : numeric (h_in h); sp_un : numeric (h_un h);
  sp_len : List.length (rows (h_in h)) = List.length (rows (h_un h));
  sp_rows : forall q, In q (combine (rows (h_in h)) (rows (h_un h))) ->
              all_nan (cols (h_in h)) (fst q) = false /\ all_nan (cols (h_un h)) (snd q) = false;
  sp_round : forall x, round5 (round5 x) = round5 x }.

Lemma fst_combine {A B} (a : list A) : forall b : list B, List.length a = List.length b -> map fst (combine a b) = a.
Proof. induction a as [|x a IH]; intros [|y b] H; cbn in *; try lia; [reflexivity|]. rewrite IH by lia. reflexivity. Qed.

Lemma split_unfold round5 h lc loc : splittable round5 h lc -> is_location round5 lc loc ->
  split_locations round5 h =
  mapM (fun k => bind (let '(fi, fu) := filter_rows (fun ri _ => cells_eqb (loc ri) k) (h_in h) (h_un h) in load fi fu None None) (fun q => Ok (k, fst q)))
       (dedup [] (map loc (rows (h_in h)))).
Proof.
  intros S [L1 L2]. unfold split_locations. rewrite (sp_loc _ _ _ S).
  assert (Hf : forallb (fun c => mem c (cols (h_in h))) lc = true).
  { apply forallb_forall. intros c Hc. apply mem_In, (sp_cols _ _ _ S), Hc. }
  rewrite Hf. cbn [negb]. cbv zeta. destruct (same_set lc _) eqn:E.
  - apply same_set_iff in E. specialize (L1 E).
    assert (Ek : (fun r : row => map (fun c => round_cell round5 (r c)) lc) = loc) by (apply functional_extensionality; intros r; symmetry; apply L1).
    assert (Ek' : (fun r : row => map (fun c => round_cell round5 (round_cell round5 (r c))) lc) = loc).
    { apply functional_extensionality. intros r. rewrite L1. apply map_ext. intros c. destruct (r c) as [[x| | |]|s]; cbn; try reflexivity.
      rewrite (sp_round _ _ _ S). reflexivity. }
    rewrite Ek.
    assert (Ef : forall k, (fun ri _ : row => cells_eqb (map (fun c => round_cell round5 (round_cell round5 (ri c))) lc) k) = (fun ri _ => cells_eqb (loc ri) k)).
    { intros k. apply functional_extensionality. intros r. rewrite <- Ek'. reflexivity. }
    f_equal. apply functional_extensionality. intros k. rewrite Ef. reflexivity.
  - assert (Hn : ~ by_coordinates lc) by (intros H; apply same_set_iff in H; congruence). specialize (L2 Hn).
    assert (Ek : (fun r : row => map (fun c => r c) lc) = loc) by (apply functional_extensionality; intros r; rewrite L2; apply map_ext; reflexivity).
    rewrite Ek.
    assert (Ef : forall k, (fun ri _ : row => cells_eqb (map (fun c => ri c) lc) k) = (fun ri _ => cells_eqb (loc ri) k)).
    { intros k. apply functional_extensionality. intros r. rewrite <- Ek. reflexivity. }
    f_equal. apply functional_extensionality. intros k. rewrite Ef. reflexivity.
Qed.

Lemma load_part round5 h lc loc k : splittable round5 h lc -> is_location round5 lc loc ->
  let part := filter (fun q => cells_eqb (loc (fst q)) k) (combine (rows (h_in h)) (rows (h_un h))) in
  (let '(fi, fu) := filter_rows (fun ri _ => cells_eqb (loc ri) k) (h_in h) (h_un h) in load fi fu None None) =
  match part with
  | [] => Raise ZeroDivisionError
  | _ => let fi := mkF (cols (h_in h)) (map fst part) in let fu := mkF (cols (h_un h)) (map snd part) in
         Ok (mkH fi fu None None (map (fun c => (c, Strong)) (cols (h_in h))), signal_noise fi fu)
  end.
Proof.
  intros S L part. unfold filter_rows at 1. fold part. cbn [fst snd]. unfold load, filter_rows. cbn [cols rows].
  rewrite combine_split_map.
  assert (Hsub : forall q, In q part -> In q (combine (rows (h_in h)) (rows (h_un h)))) by (intros q Hq; apply filter_In in Hq; tauto).
  assert (Ef : filter (fun q => negb (all_nan (cols (h_in h)) (fst q) || all_nan (cols (h_un h)) (snd q))) part = part).
  { etransitivity; [|apply (filter_true part)]. apply filter_ext_in'. intros q Hq. destruct (sp_rows _ _ _ S q (Hsub q Hq)) as [-> ->]. reflexivity. }
  rewrite Ef.
  assert (Ht : forall f, numeric f -> has_text f = false).
  { intros f H. destruct (has_text f) eqn:E; [exfalso|reflexivity]. unfold has_text in E. apply existsb_exists in E. destruct E as (r & Hr & E).
    apply existsb_exists in E. destruct E as (c & Hc & E). destruct (H r c Hr Hc) as (x & Ex). rewrite Ex in E. discriminate. }
  rewrite !Ht.
  - cbn [orb]. rewrite map_length. destruct part; reflexivity.
  - intros r c Hr Hc. cbn in Hr. apply in_map_iff in Hr. destruct Hr as ([a b] & <- & Hq). apply (sp_un _ _ _ S); [|exact Hc].
    apply Hsub in Hq. apply in_combine_r in Hq. exact Hq.
  - intros r c Hr Hc. cbn in Hr. apply in_map_iff in Hr. destruct Hr as ([a b] & <- & Hq). apply (sp_in _ _ _ S); [|exact Hc].
    apply Hsub in Hq. apply in_combine_l in Hq. exact Hq.
Qed.

Theorem C48_split_is_a_partition :
  forall round5 (h : handler) (lc : list string) (loc : row -> list cell),
    splittable round5 h lc -> is_location round5 lc loc ->
    (forall r c, In r (rows (h_in h)) -> In c lc -> num (r c) <> NaN) ->
    let samples := combine (rows (h_in h)) (rows (h_un h)) in
    let of (d : handler) := combine (rows (h_in d)) (rows (h_un d)) in
    exists groups, split_locations round5 h = Ok groups /\ NoDup (map fst groups) /\
      Permutation (flat_map (fun g => of (snd g)) groups) samples /\
      (forall k d, In (k, d) groups ->
         of d = filter (fun q => if loc_dec (loc (fst q)) k then true else false) samples /\ of d <> [] /\
         cols (h_in d) = cols (h_in h) /\ h_loc d = None).
Proof.
  intros round5 h lc loc S L Hnn samples of.
  rewrite (split_unfold _ _ _ _ S L). set (ks := dedup [] (map loc (rows (h_in h)))).
  destruct (dedup_spec (map loc (rows (h_in h))) []) as [Hnd Hin]. fold ks in Hnd, Hin.
  assert (Hloc : forall r c, In r (rows (h_in h)) -> In c (loc r) -> cell_nan c = false).
  { intros r c Hr Hc. destruct L as [L1 L2]. destruct (same_set lc ["latitude"; "longitude"]) eqn:E.
    - apply same_set_iff in E. rewrite (L1 E) in Hc. apply in_map_iff in Hc. destruct Hc as (n & <- & Hn).
      specialize (Hnn r n Hr Hn). destruct (r n) as [[x| | |]|s]; cbn in *; congruence.
    - rewrite L2 in Hc by (intros H; apply same_set_iff in H; congruence). apply in_map_iff in Hc. destruct Hc as (n & <- & Hn).
      specialize (Hnn r n Hr Hn). destruct (r n) as [[x| | |]|s]; cbn in *; congruence. }
  assert (Hpart : forall k, filter (fun q => cells_eqb (loc (fst q)) k) samples = filter (fun q => if loc_dec (loc (fst q)) k then true else false) samples).
  { intros k. apply filter_ext_in'. intros [a b] Hq. cbn [fst]. apply in_combine_l in Hq. destruct (loc_dec (loc a) k) as [E|E].
    - apply cells_eqb_iff. split; [exact E|]. intros c Hc. apply (Hloc a c Hq Hc).
    - destruct (cells_eqb (loc a) k) eqn:Ec; [|reflexivity]. apply cells_eqb_iff in Ec. tauto. }
  set (part := fun k => filter (fun q => if loc_dec (loc (fst q)) k then true else false) samples).
  assert (Hne : forall k, In k ks -> part k <> []).
  { intros k Hk. apply Hin in Hk. destruct Hk as [Hk _]. apply in_map_iff in Hk. destruct Hk as (r & <- & Hr).
    rewrite <- (fst_combine (rows (h_in h)) (rows (h_un h)) (sp_len _ _ _ S)) in Hr. apply in_map_iff in Hr. destruct Hr as (q & <- & Hq).
    intros E. assert (Hi : In q (part (loc (fst q)))); [|rewrite E in Hi; destruct Hi].
    apply filter_In. split; [exact Hq|]. destruct (loc_dec _ _); congruence. }
  set (g := fun k => (k, mkH (mkF (cols (h_in h)) (map fst (part k))) (mkF (cols (h_un h)) (map snd (part k))) None None (map (fun c => (c, Strong)) (cols (h_in h))))).
  exists (map g ks). split; [|split; [|split]].
  - apply mapM_ok. intros k Hk. rewrite (load_part _ _ _ _ k S L). fold samples. rewrite Hpart. fold (part k).
    specialize (Hne k Hk). unfold g. destruct (part k); [congruence|reflexivity].
  - rewrite map_map. cbn [g fst]. rewrite map_id. exact Hnd.
  - assert (E : flat_map (fun gr => of (snd gr)) (map g ks) = flat_map part ks).
    { clear. induction ks as [|k ks IH]; cbn; [reflexivity|]. rewrite IH. f_equal. unfold of. cbn. apply combine_split_map. }
    rewrite E. apply (partition_by loc_dec (fun q : row * row => loc (fst q))); [exact Hnd|].
    intros [a b] Hq. apply in_combine_l in Hq. apply Hin. split; [|intros []]. apply in_map. exact Hq.
  - intros k d Hg. apply in_map_iff in Hg. destruct Hg as (k' & [= -> <-] & Hk). unfold of. cbn [h_in h_un rows cols h_loc].
    rewrite combine_split_map. repeat split; apply Hne, Hk.
Qed.
Print Assumptions C48_split_is_a_partition.

Theorem C48_missing_location_raises :
  forall round5 (h : handler) (lc : list string) (loc : row -> list cell),
    splittable round5 h lc -> is_location round5 lc loc ->
    (exists r c, In r (rows (h_in h)) /\ In c lc /\ num (r c) = NaN) ->
    split_locations round5 h = Raise ZeroDivisionError.
Proof.
  intros round5 h lc loc S L (r & c & Hr & Hc & En). rewrite (split_unfold _ _ _ _ S L).
  destruct (dedup_spec (map loc (rows (h_in h))) []) as [_ Hin].
  apply mapM_raise.
  - intros k _. rewrite (load_part _ _ _ _ k S L). destruct (filter _ _); [right; reflexivity|left; eexists; reflexivity].
  - exists (loc r). split; [apply Hin; split; [apply in_map, Hr|intros []]|]. rewrite (load_part _ _ _ _ _ S L).
    assert (Hnc : exists x, In x (loc r) /\ cell_nan x = true).
    { destruct (sp_in _ _ _ S r c Hr (sp_cols _ _ _ S c Hc)) as (x & Ex). rewrite Ex in En. cbn in En. subst x.
      exists (Num NaN). split; [|reflexivity]. destruct L as [L1 L2]. destruct (same_set lc ["latitude"; "longitude"]) eqn:E.
      - apply same_set_iff in E. rewrite (L1 E). apply in_map_iff. exists c. rewrite Ex. auto.
      - rewrite L2 by (intros H; apply same_set_iff in H; congruence). apply in_map_iff. exists c. auto. }
    assert (E : filter (fun q => cells_eqb (loc (fst q)) (loc r)) (combine (rows (h_in h)) (rows (h_un h))) = []).
    { destruct Hnc as (x & Hx & Ex). clear -Hx Ex. induction (combine _ _) as [|q l IH]; [reflexivity|]. cbn.
      destruct (cells_eqb (loc (fst q)) (loc r)) eqn:E; [|exact IH]. exfalso. apply cells_eqb_iff in E. destruct E as [E H].
      rewrite <- E in Hx. rewrite (H x Hx) in Ex. discriminate. }
    rewrite E. reflexivity.
Qed.
Print Assumptions C48_missing_location_raises.
Definition xdt_site (x : fl) (y : R) : row := fun c => if String.eqb c "A" then Num (Fin y) else Num x.
Definition xdt_sites (x : fl) : handler :=
  mkH (mkF ["A"; "site"] [xdt_site x 5; xdt_site (Fin 2) 6]) (mkF ["A"; "site"] [fun _ => Num (Fin 1); fun _ => Num (Fin 1)])
      None (Some ["site"]) [].
Lemma xdt_splittable : forall x, splittable (fun x => x) (xdt_sites x) ["site"].
Proof.
  intros x. constructor; try reflexivity.
  - intros c [<- | []]. cbn. tauto.
  - intros r c [<- | [<- | []]] _; unfold xdt_site; destruct (String.eqb c "A"); eexists; reflexivity.
  - intros r c [<- | [<- | []]] _; eexists; reflexivity.
  - intros q [<- | [<- | []]]; split; reflexivity.
Qed.
Lemma xdt_location : is_location (fun x => x) ["site"] (fun r => map r ["site"]).
Proof.
  split; [| reflexivity]. intros [H _]. destruct (H "site" (or_introl eq_refl)); discriminate.
Qed.
Example C48_split_is_a_partition_example :=
  C48_split_is_a_partition (fun x => x) (xdt_sites (Fin 1)) ["site"] _ (xdt_splittable (Fin 1)) xdt_location
    ltac:(intros r c [<- | [<- | []]] [<- | []]; discriminate).
Example C48_missing_location_raises_example : split_locations (fun x => x) (xdt_sites NaN) = Raise ZeroDivisionError :=
  C48_missing_location_raises (fun x => x) (xdt_sites NaN) ["site"] _ (xdt_splittable NaN) xdt_location
    (ex_intro _ (xdt_site NaN 5) (ex_intro _ "site" (conj (or_introl eq_refl) (conj (or_introl eq_refl) eq_refl)))).

Definition two_sites : handler :=
  mkH (mkF ["A"; "site"] [fun c => if String.eqb c "A" then Num (Fin 5) else Num (Fin 1); fun c => if String.eqb c "A" then Num (Fin 6) else Num (Fin 2)])
      (mkF ["A"; "site"] [fun _ => Num (Fin 1); fun _ => Num (Fin 1)]) None (Some ["site"]) [].
Example C48_instance : splittable (fun x => x) two_sites ["site"] /\ is_location (fun x => x) ["site"] (fun r => map r ["site"]) /\
  (forall r c, In r (rows (h_in two_sites)) -> In c ["site"] -> num (r c) <> NaN).
Proof.
  split; [|split].
  - split; cbn; auto.
    + intros r c [<-|[<-|[]]] _; destruct (String.eqb c "A"); eexists; reflexivity.
    + intros r c [<-|[<-|[]]] _; eexists; reflexivity.
    + intros q [<-|[<-|[]]]; split; reflexivity.
  - split; intros H; [|intros r; reflexivity]. destruct H as [H _]. destruct (H "site") as [E|E]; cbn; auto; discriminate.
  - intros r c [<-|[<-|[]]] [<-|[]]; cbn; discriminate.
Qed.

(** ** C72: merging handlers *)
Definition labelled (label : string) (r : row) : row := fun c => if string_dec c "source_label" then Txt label else r c.

Theorem C72_merge_result :
  forall (h : handler) (hs : list handler) (labels : list string),
    (fst (merge h hs labels) = true <->
       hs <> [] /\ List.length hs = List.length labels /\ (forall d, In d hs -> cols (h_in d) = cols (h_in h))) /\
    (fst (merge h hs labels) = false -> snd (merge h hs labels) = h) /\
    (fst (merge h hs labels) = true ->
       let h' := snd (merge h hs labels) in
       let stack (f : handler -> frame) := (flat_map (fun q => map (labelled (snd q)) (rows (f (fst q)))) (combine hs labels)
                                           ++ map (labelled "self") (rows (f h)))%list in
       rows (h_in h') = stack h_in /\ rows (h_un h') = stack h_un /\ h_cat h' = h_cat h /\
       (forall c, In c (cols (h_in h')) <-> In c (cols (h_in h)) \/ c = "source_label")).
Proof.
  intros h hs labels. unfold merge.
  assert (Hrow : forall s f, rows (label_frame s f) = map (labelled s) (rows f)).
  { intros s f. unfold label_frame, labelled. cbn [rows]. apply map_ext. intros r. apply functional_extensionality. intros c.
    destruct (String.eqb_spec c "source_label"), (string_dec c "source_label"); congruence. }
  destruct ((List.length hs =? 0) || negb (List.length hs =? List.length labels))%nat eqn:E1.
  - cbn [fst snd]. split; [|split; [reflexivity|discriminate]]. split; [discriminate|]. intros (H1 & H2 & _). exfalso.
    apply orb_true_iff in E1. destruct E1 as [E|E].
    + apply Nat.eqb_eq in E. destruct hs; [congruence|discriminate].
    + apply negb_true_iff, Nat.eqb_neq in E. congruence.
  - apply orb_false_iff in E1. destruct E1 as [E1 E2]. apply Nat.eqb_neq in E1. apply negb_false_iff, Nat.eqb_eq in E2.
    destruct (forallb _ hs) eqn:E3; cbn [negb].
    + cbn [fst snd]. rewrite forallb_forall in E3. split; [|split; [discriminate|]].
      * split; [intros _|reflexivity]. split; [intros ->; apply E1; reflexivity|]. split; [exact E2|]. intros d Hd. specialize (E3 d Hd).
        destruct (list_eq_dec string_dec _ _) as [E|]; [exact E|discriminate].
      * intros _. cbn [h_in h_un h_cat rows cols].
        assert (Hs : forall f : handler -> frame, flat_map (fun q => rows (label_frame (snd q) (f (fst q)))) (combine hs labels ++ [(h, "self")])%list =
           (flat_map (fun q => map (labelled (snd q)) (rows (f (fst q)))) (combine hs labels) ++ map (labelled "self") (rows (f h)))%list).
        { intros f. rewrite flat_map_app. f_equal; [apply flat_map_ext; intros q; apply Hrow|]. cbn [flat_map fst snd]. rewrite app_nil_r. apply Hrow. }
        rewrite !Hs. repeat split.
        -- intros H. cbn in H. destruct (mem "source_label" (cols (h_in h))); [auto|]. apply in_app_iff in H. destruct H as [H|[H|[]]]; auto.
        -- intros H. cbn. destruct (mem "source_label" (cols (h_in h))) eqn:Em.
           ++ apply mem_In in Em. destruct H as [H| ->]; assumption.
           ++ apply in_app_iff. destruct H as [H| ->]; cbn; auto.
    + cbn [fst snd]. split; [|split; [reflexivity|discriminate]]. split; [discriminate|]. intros (_ & _ & H). exfalso.
      assert (forallb (fun d => if list_eq_dec string_dec (cols (h_in d)) (cols (h_in h)) then true else false) hs = true); [|congruence].
      apply forallb_forall. intros d Hd. destruct (list_eq_dec string_dec _ _) as [|Hn]; [reflexivity|]. exfalso. apply Hn, H, Hd.
Qed.
Print Assumptions C72_merge_result.

(** After a successful merge of a handler holding data, the processed data cannot
    be obtained any more: the added column is text. *)
Theorem C72_merged_data_cannot_be_processed :
  forall parse (h : handler) (hs : list handler) (labels : list string),
    parse "self" = None -> rows (h_in h) <> [] -> hides (h_drop h) "source_label" = false ->
    (forall c, hides (h_drop h) c = true -> In c (cols (h_in h))) ->
    fst (merge h hs labels) = true ->
    fst (get_data parse (snd (merge h hs labels))) = Raise ValueError.
Proof.
  intros parse h hs labels Hp Hr Hd Hdr Hm.
  destruct (C72_merge_result h hs labels) as (_ & _ & H3). specialize (H3 Hm). cbv zeta in H3. destruct H3 as (Hin & _ & _ & Hc).
  assert (Hdr' : h_drop (snd (merge h hs labels)) = h_drop h).
  { revert Hm. unfold merge. destruct (_ || _)%bool; [discriminate|]. destruct (negb _); [discriminate|]. reflexivity. }
  unfold get_data, set_dataset. cbn [fst]. rewrite Hdr'.
  rewrite drop_opt_ok by (intros c H; apply Hc; left; apply Hdr, H). cbn [bind].
  destruct (rows (h_in h)) as [|r rs] eqn:Er; [congruence|].
  rewrite (as_float32_text parse _ (labelled "self" r) "source_label" "self"); [reflexivity| | |reflexivity|exact Hp].
  - cbn [rows]. rewrite Hin. apply in_app_iff. right. left. reflexivity.
  - cbn [cols]. apply filter_In. split; [apply Hc; right; reflexivity|]. rewrite Hd. reflexivity.
Qed.
Print Assumptions C72_merged_data_cannot_be_processed.

(** A second merge of handlers like the first ones is refused. *)
Theorem C72_second_merge_refused :
  forall (h : handler) (hs hs' : list handler) (labels labels' : list string),
    fst (merge h hs labels) = true -> ~ In "source_label" (cols (h_in h)) ->
    (exists d, In d hs' /\ cols (h_in d) = cols (h_in h)) ->
    merge (snd (merge h hs labels)) hs' labels' = (false, snd (merge h hs labels)).
Proof.
  intros h hs hs' labels labels' Hm Hn (d & Hd & Ed).
  destruct (C72_merge_result h hs labels) as (_ & _ & H3). specialize (H3 Hm). cbv zeta in H3. destruct H3 as (_ & _ & _ & Hc).
  set (h1 := snd (merge h hs labels)) in *. destruct (C72_merge_result h1 hs' labels') as (H1 & H2 & _).
  destruct (merge h1 hs' labels') as [b h2]. cbn [fst snd] in *. destruct b; [exfalso|rewrite H2; reflexivity].
  destruct (proj1 H1 eq_refl) as (_ & _ & H). specialize (H d Hd). apply Hn. rewrite <- Ed, H. apply Hc. right. reflexivity.
Qed.
Print Assumptions C72_second_merge_refused.
Lemma xdt_merge : fst (merge ex_h [ex_h; ex_h] ["x"; "y"]) = true.
Proof.
  apply (proj1 (C72_merge_result ex_h [ex_h; ex_h] ["x"; "y"])).
  split; [discriminate |]. split; [reflexivity |]. intros d [<- | [<- | []]]; reflexivity.
Qed.
Example C72_merge_result_example := proj2 (proj2 (C72_merge_result ex_h [ex_h; ex_h] ["x"; "y"])) xdt_merge.
Example C72_merged_data_cannot_be_processed_example :
  fst (get_data (fun _ => None) (snd (merge ex_h [ex_h; ex_h] ["x"; "y"]))) = Raise ValueError :=
  C72_merged_data_cannot_be_processed (fun _ => None) ex_h [ex_h; ex_h] ["x"; "y"] eq_refl
    ltac:(discriminate) eq_refl ltac:(discriminate) xdt_merge.
Example C72_second_merge_refused_example :=
  C72_second_merge_refused ex_h [ex_h; ex_h] [ex_h] ["x"; "y"] ["z"] xdt_merge
    ltac:(cbn; intuition discriminate) (ex_intro _ ex_h (conj (or_introl eq_refl) eq_refl)).

Example C72_instance : fst (merge ex_h [ex_h; ex_h] ["x"; "y"]) = true /\ rows (h_in ex_h) <> [] /\
  hides (h_drop ex_h) "source_label" = false /\ ~ In "source_label" (cols (h_in ex_h)).
Proof. split; [reflexivity|]. split; [discriminate|]. split; [reflexivity|]. intros [H|[H|[]]]; discriminate. Qed.

(** ** C74: signal to noise *)
Theorem C74_signal_to_noise :
  forall (fi fu : frame) (c : string) (x u : list R) (n : nat),
    let cells := combine (rows fi) (rows fu) in
    n = List.length (rows fi) ->
    (* the complete cells of the feature, with positive uncertainty *)
    map (fun q => (num (fst q c), num (snd q c))) (filter (fun q => negb (is_nan (num (fst q c)) || is_nan (num (snd q c)))) cells)
      = combine (map Fin x) (map Fin u) -> List.length x = List.length u -> (forall v, In v u -> 0 < v) ->
    signal_noise fi fu c = Fin (1 / INR n * lsum (map (fun q => Rmax 0 ((fst q - snd q) / snd q)) (combine x u))).
Proof.
  intros fi fu c x u n cells Hn. subst n. unfold signal_noise. fold cells. generalize (1 / INR (List.length (rows fi))). intros w.
  clearbody cells. intros E Hl Hu.
  enough (G : nansum (map (fun q => sn_cell (num (fst q c)) (num (snd q c))) cells) = Fin (lsum (map (fun q => Rmax 0 ((fst q - snd q) / snd q)) (combine x u)))).
  { rewrite G. reflexivity. }
  unfold nansum.
  assert (G : forall cells x u a, map (fun q : row * row => (num (fst q c), num (snd q c))) (filter (fun q => negb (is_nan (num (fst q c)) || is_nan (num (snd q c)))) cells)
      = combine (map Fin x) (map Fin u) -> List.length x = List.length u -> (forall v, In v u -> 0 < v) ->
     fold_left fadd (filter (fun y => negb (is_nan y)) (map (fun q => sn_cell (num (fst q c)) (num (snd q c))) cells)) (Fin a)
     = Fin (a + lsum (map (fun q => Rmax 0 ((fst q - snd q) / snd q)) (combine x u)))).
  { clear. induction cells as [|q cells IH]; intros x u a E Hl Hu; cbn [map filter] in *.
    - destruct x as [|x0 x], u as [|u0 u]; try discriminate. cbn. f_equal. ring.
    - destruct (is_nan (num (fst q c)) || is_nan (num (snd q c))) eqn:Enan; cbn [negb] in E.
      + assert (Es : sn_cell (num (fst q c)) (num (snd q c)) = NaN).
        { destruct (num (fst q c)), (num (snd q c)); try discriminate; reflexivity. }
        rewrite Es. cbn [is_nan negb]. apply IH; assumption.
      + cbn [map] in E. destruct x as [|x0 x], u as [|u0 u]; cbn [map combine] in E; try discriminate.
        injection E as E1 E2 E.
        assert (Hu0 : 0 < u0) by (apply Hu; left; reflexivity).
        assert (Es : sn_cell (num (fst q c)) (num (snd q c)) = Fin (Rmax 0 ((x0 - u0) / u0))).
        { transitivity (sn_cell (Fin x0) (Fin u0)); [f_equal; assumption|]. unfold sn_cell. cbn [fle]. destruct (Rleb x0 u0) eqn:El.
          - apply Rleb_iff in El. rewrite Rmax_left; [reflexivity|]. unfold Rdiv. apply Rle_trans with (0 * / u0); [|lra].
            apply Rmult_le_compat_r; [left; apply Rinv_0_lt_compat, Hu0|lra].
          - apply Rleb_false in El. cbn [fsub fadd fopp fdiv]. destruct (Req_EM_T u0 0) as [|_]; [lra|].
            rewrite Rmax_right; [reflexivity|]. unfold Rdiv. apply Rle_trans with (0 * / u0); [lra|].
            apply Rmult_le_compat_r; [left; apply Rinv_0_lt_compat, Hu0|lra]. }
        rewrite Es. cbn [is_nan negb fold_left fadd]. rewrite (IH x u _ E).
        * cbn [combine map lsum fst snd]. f_equal. ring.
        * cbn in Hl. lia.
        * intros v Hv. apply Hu. right. exact Hv. }
  rewrite (G cells x u 0 E Hl Hu). f_equal. ring.
Qed.
Print Assumptions C74_signal_to_noise.
Definition xdt_const (x : fl) : row := fun _ => Num x.
Example C74_signal_to_noise_example :
  signal_noise (mkF ["A"] [xdt_const (Fin 3); xdt_const NaN; xdt_const (Fin 5)])
               (mkF ["A"] [xdt_const (Fin 1); xdt_const (Fin 1); xdt_const (Fin 9)]) "A"
  = Fin (1 / INR 3 * lsum (map (fun q => Rmax 0 ((fst q - snd q) / snd q)) (combine [3; 5] [1; 9]))) :=
  C74_signal_to_noise (mkF ["A"] [xdt_const (Fin 3); xdt_const NaN; xdt_const (Fin 5)])
    (mkF ["A"] [xdt_const (Fin 1); xdt_const (Fin 1); xdt_const (Fin 9)]) "A" [3; 5] [1; 9] 3 eq_refl eq_refl eq_refl
    ltac:(intros v [<- | [<- | []]]; lra).

(** Missing cells count in the denominator: removing them changes the value. *)
Theorem C74_mean_over_observed_refuted :
  exists (fi fu : frame), numeric fi /\
    signal_noise fi fu "A" = Fin 1 /\
    signal_noise (mkF (cols fi) (firstn 1 (rows fi))) (mkF (cols fu) (firstn 1 (rows fu))) "A" = Fin 2.
Proof.
  exists (mkF ["A"] [(fun _ => Num (Fin 3)) : row; (fun _ => Num NaN) : row]), (mkF ["A"] [(fun _ => Num (Fin 1)) : row; (fun _ => Num (Fin 1)) : row]).
  split; [intros r c [<-|[<-|[]]] _; eexists; reflexivity|]. split.
  - rewrite (C74_signal_to_noise _ _ "A" [3] [1] 2); try reflexivity; [|intros v [<-|[]]; lra].
    cbn. f_equal. rewrite Rmax_right by lra. lra.
  - rewrite (C74_signal_to_noise _ _ "A" [3] [1] 1); try reflexivity; [|intros v [<-|[]]; lra].
    cbn. f_equal. rewrite Rmax_right by lra. lra.
Qed.
Print Assumptions C74_mean_over_observed_refuted.
Example C74_instance :
  let fi := [(fun _ => Num (Fin 3)) : row; (fun _ => Num NaN) : row; (fun _ => Num (Fin 5)) : row] in let fu := [(fun _ => Num (Fin 1)) : row; (fun _ => Num (Fin 1)) : row; (fun _ => Num (Fin 9)) : row] in
  map (fun q => (num (fst q "A"), num (snd q "A"))) (filter (fun q => negb (is_nan (num (fst q "A")) || is_nan (num (snd q "A")))) (combine fi fu)) = combine (map Fin [3; 5]) (map Fin [1; 9]).
Proof. reflexivity. Qed.

