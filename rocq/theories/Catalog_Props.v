(** C56, C82: the factor catalog. *)
From Coq Require Import List Bool Reals Arith Lra Lia Permutation.
From Verif Require Import Base Fl Boot_Model Boot_Proofs Est_Model Catalog_Model.
Import ListNotations.
Local Open Scope R_scope.

(** ** Best entry *)
Lemma better_irrefl me x : better me x x = false.
Proof. unfold better. destruct (is_raae me); apply flt_irrefl. Qed.
Lemma better_trans me x y z : better me x y = true -> better me y z = true -> better me x z = true.
Proof. unfold better. destruct (is_raae me); intros H G; [exact (flt_trans _ _ _ H G)|exact (flt_trans _ _ _ G H)]. Qed.
(** Not better than a worse one: strictly worse or not a number. *)
Lemma better_rank me x y z : better me x y = true -> better me z y = false -> better me x z = true \/ z = NaN.
Proof.
  unfold better. destruct (is_raae me); destruct x as [a| | |], y as [b| | |], z as [c| | |]; cbn; intros H G; try discriminate; try (left; reflexivity); try (right; reflexivity); left; apply Rltb_iff in H; apply Rltb_false in G; apply Rltb_iff; lra.
Qed.

(** First among the best of the values that beat the start value. *)
Definition picks_best (me : kmethod) (vals : list fl) (start : fl) (r : option nat * fl) : Prop :=
  match fst r with
  | None => snd r = start /\ forall v, In v vals -> better me v start = false
  | Some i => nth_error vals i = Some (snd r) /\ better me (snd r) start = true /\
              (forall v, In v vals -> better me v (snd r) = false) /\
              (forall j v, (j < i)%nat -> nth_error vals j = Some v -> better me (snd r) v = true \/ v = NaN)
  end.
Lemma search_app me l1 l2 : forall i b, search me (l1 ++ l2) i b = search me l2 (i + List.length l1) (search me l1 i b).
Proof. induction l1 as [|v l IH]; intros i b; cbn [app search List.length]; [rewrite Nat.add_0_r; reflexivity|]. rewrite IH. f_equal. lia. Qed.
Lemma search_spec me vals start : picks_best me vals start (search me vals 0 (None, start)).
Proof.
  induction vals as [|v l IH] using rev_ind; [split; [reflexivity|intros v []]|]. rewrite search_app. cbn [search]. destruct (search me l 0 (None, start)) as [[i|] b]; unfold picks_best in *; cbn [fst snd] in *.
  - destruct IH as (H1 & H2 & H3 & H4). assert (Li : (i < List.length l)%nat) by (apply nth_error_Some; congruence). destruct (better me v b) eqn:E; cbn [fst snd Nat.add].
    + split; [rewrite nth_error_app2, Nat.sub_diag by lia; reflexivity|]. split; [exact (better_trans _ _ _ _ E H2)|]. split.
      * intros u Hu. apply in_app_or in Hu. destruct Hu as [Hu|[<-|[]]]; [|apply better_irrefl]. destruct (better me u v) eqn:Eu; [|reflexivity]. pose proof (better_trans _ _ _ _ Eu E) as T. rewrite (H3 u Hu) in T. discriminate.
      * intros j u Hj Hu. rewrite nth_error_app1 in Hu by exact Hj. apply (better_rank me v b u E). apply H3. exact (nth_error_In _ _ Hu).
    + split; [rewrite nth_error_app1 by exact Li; exact H1|]. split; [exact H2|]. split; [intros u Hu; apply in_app_or in Hu; destruct Hu as [Hu|[<-|[]]]; [apply H3, Hu|exact E]|].
      intros j u Hj Hu. rewrite nth_error_app1 in Hu by lia. exact (H4 j u Hj Hu).
  - destruct IH as [-> H]. destruct (better me v start) eqn:E; cbn [fst snd Nat.add].
    + split; [rewrite nth_error_app2, Nat.sub_diag by lia; reflexivity|]. split; [exact E|]. split.
      * intros u Hu. apply in_app_or in Hu. destruct Hu as [Hu|[<-|[]]]; [|apply better_irrefl]. destruct (better me u v) eqn:Eu; [|reflexivity]. pose proof (better_trans _ _ _ _ Eu E) as T. rewrite (H u Hu) in T. discriminate.
      * intros j u Hj Hu. rewrite nth_error_app1 in Hu by exact Hj. apply (better_rank me v start u E). apply H. exact (nth_error_In _ _ Hu).
    + split; [reflexivity|]. intros u Hu. apply in_app_or in Hu. destruct Hu as [Hu|[<-|[]]]; [apply H, Hu|exact E].
Qed.

Lemma append_to_spec es : forall i f e, nth_error es i = Some e -> List.length (append_to es i f) = List.length es /\ forall j, nth_error (append_to es i f) j = if (j =? i)%nat then Some (e ++ [f]) else nth_error es j.
Proof.
  induction es as [|x t IH]; intros i f e H; [destruct i; discriminate|]. destruct i as [|i]; cbn [append_to List.length] in *.
  - injection H as ->. split; [reflexivity|]. intros [|j]; reflexivity.
  - destruct (IH i f e H) as [L N]. split; [rewrite L; reflexivity|]. intros [|j]; [reflexivity|]. cbn. apply N.
Qed.

(** ** C56 *)
(** The value of the candidate for an entry meets the threshold. *)
Definition within (me : kmethod) (thr : R) (v : fl) : bool := match me with KRAAE => fle v (Fin thr) | _ => fle (Fin thr) v end.
(** Thresholds for which the decision is always possible. *)
Definition sensible (me : kmethod) (thr : R) : Prop := match me with KRAAE => thr < 1 | _ => 0 < thr end.
(** Strictly preferable value: smaller error or larger correlation. *)
Definition prefers (me : kmethod) (x y : fl) : bool := match me with KRAAE => flt x y | _ => flt y x end.
Lemma prefers_better me x y : prefers me x y = better me x y.
Proof. destruct me; reflexivity. Qed.

Theorem C56_add : forall (m n : nat) (me : kmethod) (thr : R) (po : bool) (c : catalog) (H W : nat -> R) (model : nat),
  sensible me thr -> ct_entries c <> [] ->
  let val e := check m n me po e H W in
  match add_factor m n me thr po c H W model with
  | Some (true, c') => (forall e, In e (ct_entries c) -> within me thr (val e) = false) /\
      ct_entries c' = (ct_entries c ++ [[mkMember H W model (Fin (match me with KRAAE => 0 | _ => 1 end))]])%list
  | Some (false, c') => exists i e, nth_error (ct_entries c) i = Some e /\ within me thr (val e) = true /\
      (forall e', In e' (ct_entries c) -> prefers me (val e') (val e) = false) /\
      (forall j e', (j < i)%nat -> nth_error (ct_entries c) j = Some e' -> prefers me (val e) (val e') = true \/ val e' = NaN) /\
      List.length (ct_entries c') = List.length (ct_entries c) /\
      (forall j, nth_error (ct_entries c') j = if (j =? i)%nat then Some (e ++ [mkMember H W model (val e)])%list else nth_error (ct_entries c) j)
  | None => False
  end.
Proof.
  intros m n me thr po c H W model Hs Hne val. unfold add_factor, check_factor. set (vals := map (fun e => check m n me po e H W) (ct_entries c)).
  set (start := Fin (if is_raae me then 1 else 0)). pose proof (search_spec me vals start) as S. destruct (search me vals 0 (None, start)) as [best corr]. unfold picks_best in S. cbn [fst snd] in S.
  assert (NE : (List.length (ct_entries c) =? 0)%nat = false) by (apply Nat.eqb_neq; destruct (ct_entries c); [congruence|discriminate]). rewrite NE. cbn [orb].
  assert (InV : forall e, In e (ct_entries c) -> In (val e) vals) by (intros e He; unfold vals, val; apply in_map_iff; exists e; auto).
  destruct best as [i|].
  - destruct S as (S1 & S2 & S3 & S4). unfold vals in S1. rewrite nth_error_map in S1. destruct (nth_error (ct_entries c) i) as [e|] eqn:Ee; [|discriminate]. injection S1 as S1. fold (val e) in S1.
    destruct (if is_raae me then flt (Fin thr) corr else flt corr (Fin thr)) eqn:B.
    + split; [|destruct me; reflexivity]. intros e' He'. pose proof (S3 _ (InV e' He')) as G. unfold better in G. destruct me; cbn [is_raae within] in *; destruct (val e') as [a| | |]; destruct corr as [d| | |]; cbn in *; try discriminate; try reflexivity;
        apply Rltb_iff in B; apply Rltb_false in G; apply Rleb_false; lra.
    + exists i, e. split; [exact Ee|]. rewrite S1. split.
      { unfold better in S2. destruct me; cbn [is_raae within start] in *; destruct corr as [d| | |]; cbn in *; try discriminate; try reflexivity; apply Rltb_false in B; apply Rleb_iff; lra. }
      split; [intros e' He'; rewrite prefers_better; apply S3, InV, He'|]. split.
      { intros j e' Hj He'. rewrite prefers_better. apply (S4 j); [exact Hj|]. unfold vals. rewrite nth_error_map, He'. reflexivity. }
      cbn [ct_entries]. apply (append_to_spec (ct_entries c) i _ e Ee).
  - destruct S as [-> S]. assert (B : (if is_raae me then flt (Fin thr) start else flt start (Fin thr)) = true). { unfold start. destruct me; cbn [is_raae sensible] in *; cbn; apply Rltb_iff; exact Hs. }
    rewrite B. split; [|destruct me; reflexivity]. intros e' He'. pose proof (S _ (InV e' He')) as G. unfold better, start in G. destruct me; cbn [is_raae within sensible] in *; destruct (val e') as [a| | |]; cbn in *; try discriminate; try reflexivity; apply Rltb_false in G; apply Rleb_false; lra.
Qed.
Print Assumptions C56_add.
Example C56_add_example :=
  C56_add 1 1 KRAAE (9 / 10) false (mkCat [[mkMember (fun _ => 1) (fun _ => 1) 0 (Fin 0)]] 1) (fun _ => 1) (fun _ => 1) 1 ltac:(cbn; lra) ltac:(discriminate).
Example C56_add_instance : sensible KRAAE (9 / 10) /\ sensible KCORR (9 / 10) /\ ct_entries (mkCat [[mkMember (fun _ => 1) (fun _ => 1) 0 (Fin 0)]] 1) <> [].
Proof. cbn. repeat split; try lra. discriminate. Qed.

(** The first factor always starts an entry. *)
Theorem C56_first : forall (m n : nat) (me : kmethod) (thr : R) (po : bool) (count : nat) (H W : nat -> R) (model : nat),
  exists c', add_factor m n me thr po (mkCat [] count) H W model = Some (true, c') /\ ct_entries c' = [[mkMember H W model (Fin (match me with KRAAE => 0 | _ => 1 end))]].
Proof. intros. eexists. split; [reflexivity|]. destruct me; reflexivity. Qed.
Print Assumptions C56_first.
Example C56_first_example := C56_first 2 3 KCORR (9 / 10) false 0 (fun j => INR j) (fun t => INR t) 4.

(** With other thresholds adding to a catalog can fail: exactly when no entry is
    better than the start value (error below 1, correlation above 0). *)
Theorem C56_add_fails : forall (m n : nat) (me : kmethod) (thr : R) (po : bool) (c : catalog) (H W : nat -> R) (model : nat),
  ~ sensible me thr ->
  (add_factor m n me thr po c H W model = None <-> ct_entries c <> [] /\
     forall e, In e (ct_entries c) -> match me with KRAAE => flt (check m n me po e H W) (Fin 1) | _ => flt (Fin 0) (check m n me po e H W) end = false).
Proof.
  intros m n me thr po c H W model Hs. unfold add_factor, check_factor. set (vals := map (fun e => check m n me po e H W) (ct_entries c)).
  set (start := Fin (if is_raae me then 1 else 0)). pose proof (search_spec me vals start) as S. destruct (search me vals 0 (None, start)) as [best corr]. unfold picks_best in S. cbn [fst snd] in S.
  assert (Sp : forall v, better me v start = match me with KRAAE => flt v (Fin 1) | _ => flt (Fin 0) v end) by (intros v; unfold better, start; destruct me; reflexivity).
  destruct (Nat.eqb_spec (List.length (ct_entries c)) 0) as [L|L]; cbn [orb].
  - split; [intros D; discriminate|]. intros [D _]. destruct (ct_entries c); [congruence|discriminate].
  - assert (Hne : ct_entries c <> []) by (destruct (ct_entries c); [cbn in L; lia|discriminate]).
    destruct best as [i|].
    + split; [intros D; destruct (if is_raae me then flt (Fin thr) corr else flt corr (Fin thr)); discriminate|]. intros [_ G]. exfalso. destruct S as (S1 & S2 & _). apply nth_error_In in S1. apply in_map_iff in S1. destruct S1 as (e & E & He). specialize (G e He). rewrite <- Sp in G. congruence.
    + destruct S as [-> S]. assert (B : (if is_raae me then flt (Fin thr) start else flt start (Fin thr)) = false).
      { unfold start. destruct me; cbn [is_raae sensible] in *; cbn; apply Rltb_false; lra. }
      rewrite B. split; [|reflexivity]. intros _. split; [exact Hne|]. intros e He. rewrite <- Sp. apply S. unfold vals. apply in_map_iff. exists e. auto.
Qed.
Print Assumptions C56_add_fails.
(** A threshold of 1 and two factors with relative error 2. *)
Example C56_add_fails_instance : ~ sensible KRAAE 1 /\ check 1 1 KRAAE false [mkMember (fun _ => 1) (fun _ => 1) 0 (Fin 0)] (fun _ => 1) (fun _ => 3) = Fin 2.
Proof.
  split; [cbn; lra|]. unfold check. cbn [map]. unfold compare_member. cbn [rsum mb_W]. unfold lmean, lfsum. cbn [fold_left List.length INR]. replace (Rabs (1 - 3)) with 2 by (rewrite Rabs_left; lra). rewrite !Rplus_0_l.
  unfold fdiv at 2. destruct (Req_EM_T (1 * (1 / 1)) 0); [lra|]. cbn [fadd]. unfold fdiv. destruct (Req_EM_T 1 0); [lra|]. f_equal. field.
Qed.

(** Nothing is lost: the members of the entries are the factors added, each once;
    the number of entries grows by the number returned. *)
Definition added (f : member) : item := (mb_H f, mb_W f, mb_model f).
Definition contents (c : catalog) : list item := flat_map (map added) (ct_entries c).
Lemma append_to_perm es : forall i f e, nth_error es i = Some e -> Permutation (flat_map (map added) (append_to es i f)) (flat_map (map added) es ++ [added f]).
Proof.
  induction es as [|x t IH]; intros i f e H; [destruct i; discriminate|]. destruct i as [|i]; cbn [append_to flat_map] in *.
  - rewrite map_app. cbn [map]. rewrite <- !app_assoc. apply Permutation_app_head. apply Permutation_app_comm.
  - rewrite <- app_assoc. apply Permutation_app_head. apply (IH i f e H).
Qed.
Lemma append_to_nonempty es : forall i f, Forall (fun e => e <> []) es -> Forall (fun e : entry => e <> []) (append_to es i f).
Proof. induction es as [|x t IH]; intros i f H; [constructor|]. inversion H; subst. destruct i; cbn; constructor; auto. destruct x; discriminate. Qed.

Lemma add_factor_contents m n me thr po c H W model b c' : add_factor m n me thr po c H W model = Some (b, c') ->
  Permutation (contents c') (contents c ++ [(H, W, model)]) /\ List.length (ct_entries c') = ((if b then 1 else 0) + List.length (ct_entries c))%nat /\
  (Forall (fun e => e <> []) (ct_entries c) -> Forall (fun e => e <> []) (ct_entries c')) /\ ct_count c' = new_count (ct_count c) model.
Proof.
  unfold add_factor, check_factor. set (vals := map _ _). set (start := Fin _). pose proof (search_spec me vals start) as S. destruct (search me vals 0 (None, start)) as [best corr]. unfold picks_best in S. cbn [fst snd] in S.
  destruct (_ || _).
  - intros [= <- <-]. unfold contents. cbn [ct_entries ct_count]. rewrite flat_map_app, app_length. cbn. split; [reflexivity|]. split; [lia|]. split; [|reflexivity]. intros F. apply Forall_app. split; [exact F|]. constructor; [discriminate|constructor].
  - destruct best as [i|]; [|intros D; discriminate]. destruct S as (S1 & _). unfold vals in S1. rewrite nth_error_map in S1. destruct (nth_error (ct_entries c) i) as [e|] eqn:Ee; [|discriminate].
    intros [= <- <-]. unfold contents. cbn [ct_entries ct_count]. split; [exact (append_to_perm _ i (mkMember H W model corr) e Ee)|]. split; [apply (append_to_spec _ i _ e Ee)|]. split; [apply append_to_nonempty|reflexivity].
Qed.

Theorem C56_partition : forall (m n : nat) (me : kmethod) (thr : R) (po : bool) (items : list item) (c c' : catalog) (k : nat),
  add_all m n me thr po c items = Some (k, c') ->
  Permutation (contents c') (contents c ++ items) /\ List.length (ct_entries c') = (k + List.length (ct_entries c))%nat /\
  (Forall (fun e => e <> []) (ct_entries c) -> Forall (fun e => e <> []) (ct_entries c')).
Proof.
  intros m n me thr po items. induction items as [|[[H W] i] t IH]; intros c c' k E; cbn [add_all] in E.
  - injection E as <- <-. rewrite app_nil_r. repeat split; auto.
  - destruct (add_factor m n me thr po c H W i) as [[b c1]|] eqn:E1; [|discriminate]. destruct (add_all m n me thr po c1 t) as [[k1 c2]|] eqn:E2; [|discriminate]. injection E as <- <-.
    destruct (add_factor_contents _ _ _ _ _ _ _ _ _ _ _ E1) as (P1 & L1 & F1 & _). destruct (IH _ _ _ E2) as (P2 & L2 & F2). split; [|split].
    + rewrite P2, P1, <- app_assoc. reflexivity.
    + rewrite L2, L1. lia.
    + auto.
Qed.
Print Assumptions C56_partition.
Example C56_partition_example : exists k c', add_all 1 1 KRAAE (9 / 10) false (mkCat [] 0) [((fun _ => 1), (fun _ => 1), 0%nat)] = Some (k, c') /\
  Permutation (contents c') [((fun _ => 1), (fun _ => 1), 0%nat)].
Proof.
  eexists _, _. split; [reflexivity |].
  match goal with |- Permutation (contents ?c) ?l => exact (proj1 (C56_partition 1 1 KRAAE (9 / 10) false l (mkCat [] 0) c 1 eq_refl)) end.
Qed.

Theorem C56_never_fails : forall (m n : nat) (me : kmethod) (thr : R) (po : bool) (items : list item) (c : catalog),
  sensible me thr -> exists k c', add_all m n me thr po c items = Some (k, c').
Proof.
  intros m n me thr po items. induction items as [|[[H W] i] t IH]; intros c Hs; cbn [add_all]; [exists 0%nat, c; reflexivity|].
  destruct (ct_entries c) as [|e es] eqn:Ec.
  - assert (A : exists c1, add_factor m n me thr po c H W i = Some (true, c1)).
    { unfold add_factor, check_factor. rewrite Ec. cbn [map search List.length Nat.eqb orb]. eexists. reflexivity. }
    destruct A as [c1 ->]. destruct (IH c1 Hs) as (k & c' & ->). eexists _, _. reflexivity.
  - assert (Hne : ct_entries c <> []) by (rewrite Ec; discriminate). pose proof (C56_add m n me thr po c H W i Hs Hne) as A. cbv zeta in A. destruct (add_factor m n me thr po c H W i) as [[b c1]|]; [|contradiction].
    destruct (IH c1 Hs) as (k & c' & E). rewrite E. eexists _, _. reflexivity.
Qed.
Print Assumptions C56_never_fails.
Example C56_never_fails_example :=
  C56_never_fails 1 1 KRAAE (9 / 10) false [((fun _ => 1), (fun _ => 1), 0%nat); ((fun _ => 2), (fun _ => 5), 1%nat)] (mkCat [] 0) ltac:(cbn; lra).

(** ** Batches *)
(** Which models of a batch are looked at: all, or those whose Q does not exceed
    the given multiple of the smallest Q. *)
Definition fins (l : list cmodel) (q : nat -> R) : Prop := forall i x, nth_error l i = Some x -> cm_Q x = Fin (q i).
Definition smallest (k : nat) (q : nat -> R) (v : R) : Prop := (exists i, (i < k)%nat /\ q i = v) /\ forall i, (i < k)%nat -> v <= q i.
Lemma fmin_fold l : forall (a : R), (forall x, In x l -> exists v, x = Fin v) -> exists v, fold_left Constr_Model.fminn l (Fin a) = Fin v /\ (Fin v = Fin a \/ In (Fin v) l) /\ v <= a /\ forall u, In (Fin u) l -> v <= u.
Proof.
  induction l as [|x l IH]; intros a Hl; cbn [fold_left].
  - exists a. repeat split; [left; reflexivity|lra|intros u []].
  - destruct (Hl x (or_introl eq_refl)) as [w ->]. unfold Constr_Model.fminn at 2. destruct (flt (Fin w) (Fin a)) eqn:E.
    + destruct (IH w (fun x Hx => Hl x (or_intror Hx))) as (v & E2 & H1 & H2 & H3). rewrite E2. cbn in E. apply Rltb_iff in E. exists v. split; [reflexivity|]. split; [destruct H1 as [H1|H1]; [right; left; congruence|right; right; exact H1]|]. split; [lra|].
      intros u [Hu|Hu]; [injection Hu as <-; exact H2|apply H3, Hu].
    + destruct (IH a (fun x Hx => Hl x (or_intror Hx))) as (v & E2 & H1 & H2 & H3). rewrite E2. cbn in E. apply Rltb_false in E. exists v. split; [reflexivity|]. split; [destruct H1 as [H1|H1]; [left; exact H1|right; right; exact H1]|]. split; [exact H2|].
      intros u [Hu|Hu]; [injection Hu as <-; lra|apply H3, Hu].
Qed.
Lemma fmin_all_spec l q : l <> [] -> fins l q -> exists v, fmin_all (map cm_Q l) = Fin v /\ smallest (List.length l) q v.
Proof.
  intros Hl Hf. destruct l as [|x l]; [congruence|]. pose proof (Hf 0%nat x eq_refl) as H0. cbn [map]. unfold fmin_all, fmin_list. rewrite H0.
  assert (Hx : forall y, In y (map cm_Q l) -> exists i, (S i < List.length (x :: l))%nat /\ y = Fin (q (S i))).
  { intros y Hy. apply in_map_iff in Hy. destruct Hy as (z & <- & Hz). apply In_nth_error in Hz. destruct Hz as [i Hi]. exists i. split; [cbn; apply -> Nat.succ_lt_mono; apply nth_error_Some; congruence|]. apply (Hf (S i)). exact Hi. }
  destruct (fmin_fold (map cm_Q l) (q 0%nat)) as (v & E & H1 & H2 & H3). { intros y Hy. destruct (Hx y Hy) as (i & _ & ->). eexists; reflexivity. }
  exists v. split; [exact E|]. split.
  - destruct H1 as [H1|H1]; [exists 0%nat; split; [cbn; lia|congruence]|]. destruct (Hx _ H1) as (i & Li & Ei). exists (S i). split; [exact Li|congruence].
  - intros [|i] Hi; [exact H2|]. apply H3. cbn in Hi. destruct (nth_error l i) as [z|] eqn:Ez; [|apply nth_error_None in Ez; lia]. rewrite <- (Hf (S i) z Ez). apply in_map. exact (nth_error_In _ _ Ez).
Qed.

Theorem C56_batch : forall (exclude : bool) (othr : R) (l : list cmodel) (q : nat -> R) (qmin : R), fins l q -> smallest (List.length l) q qmin ->
  forall it, In it (batch_items exclude othr l) <->
    exists i x f, nth_error l i = Some x /\ (f < cm_k x)%nat /\ it = ((fun j => cm_H x f j), (fun t => cm_W x t f), i) /\ (exclude = true -> q i <= qmin * othr).
Proof.
  intros ex othr l q qmin Hf Hm it. assert (Hl : l <> []) by (destruct Hm as [(i & Hi & _) _]; destruct l; [cbn in Hi; lia|discriminate]).
  destruct (fmin_all_spec l q Hl Hf) as (v & Ev & Hv). assert (v = qmin).
  { destruct Hv as [(i & Hi & Ei) Hv2]. destruct Hm as [(j & Hj & Ej) Hm2]. pose proof (Hv2 j Hj). pose proof (Hm2 i Hi). lra. }
  subst v. assert (Kp : forall i x, nth_error l i = Some x -> (kept ex othr l x = true <-> (ex = true -> q i <= qmin * othr))).
  { intros i x Hx. unfold kept. rewrite Ev, (Hf i x Hx). cbn [fmul flt]. destruct ex; cbn [negb orb].
    - rewrite negb_true_iff, Rltb_false. split; [intros H _; exact H|intros H; apply H; reflexivity].
    - split; [intros _ D; discriminate|reflexivity]. }
  assert (NC : forall i x, In (i, x) (combine (seq 0 (List.length l)) l) <-> nth_error l i = Some x).
  { intros i x. assert (G : forall (l : list cmodel) s, In (i, x) (combine (seq s (List.length l)) l) <-> (s <= i)%nat /\ nth_error l (i - s) = Some x).
    { clear. induction l as [|y l IH]; intros s; cbn [List.length seq combine]; [split; [intros []|intros [_ H]; destruct (i - s)%nat; discriminate]|]. cbn [In]. rewrite IH. split.
      - intros [E|[H1 H2]]; [injection E as -> ->; rewrite Nat.sub_diag; split; [lia|reflexivity]|]. split; [lia|]. replace (i - s)%nat with (S (i - S s)) by lia. exact H2.
      - intros [H1 H2]. destruct (Nat.eq_dec i s) as [->|Hne]; [rewrite Nat.sub_diag in H2; left; injection H2 as ->; reflexivity|]. right. split; [lia|]. replace (i - s)%nat with (S (i - S s)) in H2 by lia. exact H2. }
    rewrite G, Nat.sub_0_r. split; [intros [_ H]; exact H|intros H; split; [lia|exact H]]. }
  unfold batch_items. rewrite in_flat_map. split.
  - intros ([i x] & Hin & Hi). apply NC in Hin. cbn [fst snd] in Hi. destruct (kept ex othr l x) eqn:Ek; [|destruct Hi]. unfold model_items in Hi. apply in_map_iff in Hi. destruct Hi as (f & <- & Hf'). apply in_seq in Hf'.
    exists i, x, f. split; [exact Hin|]. split; [lia|]. split; [reflexivity|]. apply (Kp i x Hin), Ek.
  - intros (i & x & f & Hx & Hk & -> & Hq). exists (i, x). split; [apply NC, Hx|]. cbn [fst snd]. rewrite (proj2 (Kp i x Hx) Hq). unfold model_items. apply in_map_iff. exists f. split; [reflexivity|]. apply in_seq. lia.
Qed.
Print Assumptions C56_batch.
Example C56_batch_instance : let l := [mkCM (Fin 5) 1 (fun _ _ => 1) (fun _ _ => 1); mkCM (Fin 9) 1 (fun _ _ => 1) (fun _ _ => 1)] in
  let q i := match i with 0%nat => 5 | _ => 9 end in fins l q /\ smallest 2 q 5.
Proof.
  cbn. split; [intros [|[|[|i]]] x H; cbn in H; try discriminate; injection H as <-; reflexivity|]. split; [exists 0%nat; split; [lia|reflexivity]|]. intros [|i] _; lra.
Qed.

(** ** The number of models the percentages are based on *)
Definition models_in (l : list item) : list nat := map snd l.
Lemma add_all_count m n me thr po items : forall c c' k, add_all m n me thr po c items = Some (k, c') -> ct_count c' = fold_left new_count (models_in items) (ct_count c).
Proof.
  induction items as [|[[H W] i] t IH]; intros c c' k E; cbn [add_all] in E; [injection E as <- <-; reflexivity|].
  destruct (add_factor m n me thr po c H W i) as [[b c1]|] eqn:E1; [|discriminate]. destruct (add_all m n me thr po c1 t) as [[k1 c2]|] eqn:E2; [|discriminate]. injection E as <- <-.
  rewrite (IH _ _ _ E2). destruct (add_factor_contents _ _ _ _ _ _ _ _ _ _ _ E1) as (_ & _ & _ & ->). reflexivity.
Qed.
Lemma count_repeat i k c : (0 < k)%nat -> fold_left new_count (repeat i k) c = new_count c i.
Proof.
  intros Hk. destruct k as [|k]; [lia|]. cbn [repeat fold_left]. assert (G : forall k c, (i <= c)%nat -> fold_left new_count (repeat i k) c = c).
  { clear. induction k as [|k IH]; intros c Hc; [reflexivity|]. cbn. unfold new_count at 2. rewrite (proj2 (Nat.ltb_ge c i)) by exact Hc. apply IH, Hc. }
  apply G. unfold new_count. destruct (Nat.ltb_spec c i); lia.
Qed.
Lemma batch_models l : models_in (batch_items false 1 l) = flat_map (fun q => repeat (fst q) (cm_k (snd q))) (combine (seq 0 (List.length l)) l).
Proof.
  unfold models_in, batch_items. generalize (combine (seq 0 (List.length l)) l). intros qs. assert (G : forall qs, map snd (flat_map (fun q : nat * cmodel => if kept false 1 l (snd q) then model_items (fst q) (snd q) else []) qs) = flat_map (fun q => repeat (fst q) (cm_k (snd q))) qs).
  { clear. induction qs as [|[i x] t IH]; [reflexivity|]. cbn [flat_map fst snd]. rewrite map_app. apply f_equal2; [|exact IH]. unfold kept. cbn [negb orb]. unfold model_items. rewrite map_map. cbn [snd]. generalize (cm_k x) at 1 2. intros k. rewrite <- (seq_length k 0) at 2. generalize (seq 0 k). induction l0 as [|y l0 IH0]; [reflexivity|]. cbn. f_equal. exact IH0. }
  apply G.
Qed.
(** Without exclusion of outliers and with at least one factor per model, the
    count after a batch of [n] models is [n] rounded down to an even number, also
    after adding further batches of that size. *)
Theorem C56_model_count : forall (m n : nat) (me : kmethod) (thr : R) (po : bool) (l : list cmodel) (c c' : catalog) (k : nat),
  Forall (fun x => (0 < cm_k x)%nat) l -> (ct_count c = 0 \/ ct_count c = 2 * (List.length l / 2))%nat ->
  add_batch m n me thr po false 1 c l = Some (k, c') -> ct_count c' = (2 * (List.length l / 2))%nat.
Proof.
  intros m n me thr po l c c' k Hk Hc E. unfold add_batch in E. rewrite (add_all_count _ _ _ _ _ _ _ _ _ E), batch_models. clear E.
  assert (G : forall (l : list cmodel) s c, Forall (fun x => (0 < cm_k x)%nat) l -> fold_left new_count (flat_map (fun q : nat * cmodel => repeat (fst q) (cm_k (snd q))) (combine (seq s (List.length l)) l)) c = fold_left new_count (seq s (List.length l)) c).
  { clear. induction l as [|x l IH]; intros s c H; [reflexivity|]. inversion H; subst. cbn [List.length seq combine flat_map fst snd fold_left]. rewrite fold_left_app, count_repeat by assumption. apply IH. assumption. }
  rewrite G by exact Hk. generalize (List.length l) Hc. clear. intros N Hc. pose proof (Nat.div_mod N 2 ltac:(lia)) as D. pose proof (Nat.mod_upper_bound N 2 ltac:(lia)) as B.
  destruct Hc as [-> | ->].
  - assert (Q : forall N, fold_left new_count (seq 0 N) 0%nat = (2 * (N / 2))%nat).
    { clear. induction N as [|N IH]; [reflexivity|]. rewrite seq_S, fold_left_app, IH. cbn [fold_left Nat.add]. unfold new_count. pose proof (Nat.div_mod N 2 ltac:(lia)) as D. pose proof (Nat.mod_upper_bound N 2 ltac:(lia)) as B.
      pose proof (Nat.div_mod (S N) 2 ltac:(lia)) as D2. pose proof (Nat.mod_upper_bound (S N) 2 ltac:(lia)) as B2. destruct (Nat.ltb_spec (2 * (N / 2)) N); lia. }
    apply Q.
  - assert (Q : forall l c, (forall i, In i l -> (i <= c)%nat) -> fold_left new_count l c = c).
    { clear. induction l as [|i l IH]; intros c H; [reflexivity|]. cbn. unfold new_count at 2. rewrite (proj2 (Nat.ltb_ge c i)) by (apply H; left; reflexivity). apply IH. intros j Hj. apply H. right. exact Hj. }
    apply Q. intros i Hi. apply in_seq in Hi. lia.
Qed.
Print Assumptions C56_model_count.
(** With one model the percentages cannot be computed; with three models an entry
    found in all of them is reported with 150 %. *)
Theorem C56_percentages_refuted :
  (forall m n me thr po x k c', (0 < cm_k x)%nat -> add_batch m n me thr po false 1 empty_catalog [x] = Some (k, c') -> forall e, occurrence c' e = None) /\
  (forall m n me thr po x y z k c', (0 < cm_k x)%nat -> (0 < cm_k y)%nat -> (0 < cm_k z)%nat -> add_batch m n me thr po false 1 empty_catalog [x; y; z] = Some (k, c') ->
     forall e, List.length e = 3%nat -> exists p, occurrence c' e = Some p /\ p = 150).
Proof.
  split.
  - intros m n me thr po x k c' Hx E e. pose proof (C56_model_count m n me thr po [x] empty_catalog c' k ltac:(repeat constructor; assumption) (or_introl eq_refl) E) as G. cbn in G. unfold occurrence. rewrite G. reflexivity.
  - intros m n me thr po x y z k c' Hx Hy Hz E e He. pose proof (C56_model_count m n me thr po [x; y; z] empty_catalog c' k ltac:(repeat constructor; assumption) (or_introl eq_refl) E) as G. cbn in G. unfold occurrence. rewrite G, He. cbn [Nat.eqb]. eexists. split; [reflexivity|]. cbn [INR]. lra.
Qed.
Print Assumptions C56_percentages_refuted.

(** ** Threshold with every member? *)
Lemma fdiv_fin a b : b <> 0 -> fdiv (Fin a) (Fin b) = Fin (a / b).
Proof. intros H. unfold fdiv. destruct (Req_EM_T b 0); [contradiction|reflexivity]. Qed.
Lemma raae1 f H (w : R) po : po = false -> mb_W f 0%nat <> 0 -> compare_member 1 1 KRAAE po f H (fun _ => w) = Fin (Rabs (mb_W f 0%nat - w) / mb_W f 0%nat).
Proof. intros -> Hf. unfold compare_member. cbn [rsum INR]. rewrite !Rplus_0_l. replace (1 / 1) with 1 by field. rewrite !Rmult_1_r. apply fdiv_fin, Hf. Qed.
Ltac nz := first [reflexivity | repeat match goal with v := _ |- _ => subst v end; cbn; lra].
(** One sample, default threshold 0.9: 10, 18 and 24 end up in one entry although
    the error of 24 with respect to 10 is 1.4. *)
Theorem C56_threshold_with_all_members_refuted : exists (items : list item) (c : catalog), add_all 1 1 KRAAE (9 / 10) false empty_catalog items = Some (1%nat, c) /\
  exists e f g, In e (ct_entries c) /\ In f e /\ In g e /\ compare_member 1 1 KRAAE false f (mb_H g) (mb_W g) = Fin (14 / 10).
Proof.
  set (H := fun _ : nat => 1). set (w := fun (x : R) (_ : nat) => x).
  exists [(H, w 10, 0%nat); (H, w 18, 1%nat); (H, w 24, 2%nat)].
  set (f0 := mkMember H (w 10) 0 (Fin 0)).
  assert (A1 : add_factor 1 1 KRAAE (9 / 10) false empty_catalog H (w 10) 0 = Some (true, mkCat [[f0]] 0)) by reflexivity.
  assert (C1 : check 1 1 KRAAE false [f0] H (w 18) = Fin (8 / 10)).
  { unfold check. cbn [map]. unfold w at 1. rewrite raae1 by nz. cbn [mb_W f0]. unfold w. replace (Rabs (10 - 18)) with 8 by (rewrite Rabs_left; lra). unfold lmean, lfsum. cbn [fold_left fadd List.length INR]. rewrite fdiv_fin by lra. f_equal. field. }
  set (f1 := mkMember H (w 18) 1 (Fin (8 / 10))).
  assert (A2 : add_factor 1 1 KRAAE (9 / 10) false (mkCat [[f0]] 0) H (w 18) 1 = Some (false, mkCat [[f0; f1]] 2)).
  { unfold add_factor, check_factor. cbn [ct_entries map List.length Nat.eqb orb is_raae search snd]. rewrite C1. unfold better. cbn [is_raae]. rewrite (proj2 (flt_fin (8 / 10) 1)) by lra. cbn [flt]. rewrite (proj2 (Rltb_false (9 / 10) (8 / 10))) by lra. reflexivity. }
  assert (C2 : check 1 1 KRAAE false [f0; f1] H (w 24) = Fin (13 / 15)).
  { unfold check. cbn [map]. unfold w at 1 2. rewrite !raae1 by nz. cbn [mb_W f0 f1]. unfold w. replace (Rabs (10 - 24)) with 14 by (rewrite Rabs_left; lra). replace (Rabs (18 - 24)) with 6 by (rewrite Rabs_left; lra).
    unfold lmean, lfsum. cbn [fold_left fadd List.length INR]. rewrite fdiv_fin by lra. f_equal. field. }
  set (f2 := mkMember H (w 24) 2 (Fin (13 / 15))).
  assert (A3 : add_factor 1 1 KRAAE (9 / 10) false (mkCat [[f0; f1]] 2) H (w 24) 2 = Some (false, mkCat [[f0; f1; f2]] 2)).
  { unfold add_factor, check_factor. cbn [ct_entries map List.length Nat.eqb orb is_raae search snd]. rewrite C2. unfold better. cbn [is_raae]. rewrite (proj2 (flt_fin (13 / 15) 1)) by lra. cbn [flt]. rewrite (proj2 (Rltb_false (9 / 10) (13 / 15))) by lra. reflexivity. }
  exists (mkCat [[f0; f1; f2]] 2). split.
  - cbn [add_all]. rewrite A1. rewrite A2. rewrite A3. reflexivity.
  - exists [f0; f1; f2], f0, f2. split; [left; reflexivity|]. split; [left; reflexivity|]. split; [right; right; left; reflexivity|]. cbn [mb_H mb_W f2]. unfold w. rewrite raae1 by nz. cbn [mb_W f0]. unfold w. f_equal. rewrite Rabs_left; lra.
Qed.
Print Assumptions C56_threshold_with_all_members_refuted.

(** ** C82 *)
(** With the default method, comparing profiles only treats their correlation as an
    error: a factor with the same (non-constant) profile as the only entry starts a
    new entry, an uncorrelated one joins it. *)
Theorem C82_profile_only_reversed : forall (m n : nat) (thr : R) (f : member) (count : nat) (H W : nat -> R) (model : nat), 0 <= thr < 1 ->
  (cov n (mb_H f) (mb_H f) <> 0 -> (forall j, (j < n)%nat -> H j = mb_H f j) -> exists c', add_factor m n KRAAE thr true (mkCat [[f]] count) H W model = Some (true, c')) /\
  (r2 n H (mb_H f) = Fin 0 -> exists c', add_factor m n KRAAE thr true (mkCat [[f]] count) H W model = Some (false, c')).
Proof.
  intros m n thr f count H W model Ht.
  assert (Ck : forall v, r2 n H (mb_H f) = Fin v -> check m n KRAAE true [f] H W = Fin v).
  { intros v E. unfold check. cbn [map]. unfold compare_member. rewrite E. unfold lmean, lfsum. cbn [fold_left fadd List.length INR]. rewrite fdiv_fin by lra. f_equal. field. }
  split.
  - intros Hc He. assert (E : r2 n H (mb_H f) = Fin 1). { rewrite (r2_ext n H (mb_H f) (mb_H f) (mb_H f)); [apply r2_self, Hc|exact He|reflexivity]. }
    unfold add_factor, check_factor. cbn [ct_entries map List.length Nat.eqb orb is_raae search snd]. rewrite (Ck 1 E). unfold better. cbn [is_raae]. rewrite flt_irrefl. cbn [flt]. rewrite (proj2 (Rltb_iff thr 1)) by lra. eexists. reflexivity.
  - intros E. unfold add_factor, check_factor. cbn [ct_entries map List.length Nat.eqb orb is_raae search snd]. rewrite (Ck 0 E). unfold better. cbn [is_raae]. rewrite (proj2 (flt_fin 0 1)) by lra. cbn [flt]. rewrite (proj2 (Rltb_false thr 0)) by lra. eexists. reflexivity.
Qed.
Print Assumptions C82_profile_only_reversed.
Example C82_profile_only_reversed_example :=
  C82_profile_only_reversed 1 2 (9 / 10) (mkMember (fun j => INR j) (fun _ => 1) 0 (Fin 0)) 1 (fun j => INR j) (fun _ => 1) 1 ltac:(lra).
Example C82_instance : let h := fun j : nat => match j with 0%nat => 1 | _ => 0 end in cov 2 h h <> 0.
Proof. cbn. unfold cov, mean. cbn. lra. Qed.

(** Comparing an entry with a catalog always looks for the largest value, also when
    values are errors: the entry reported is the one with the largest mean error. *)
Theorem C82_compare_entry : forall (m n : nat) (me : kmethod) (po : bool) (c : catalog) (other : entry),
  let val e := lmean (map (fun f => check m n me po e (mb_H f) (mb_W f)) other) in
  let '(best, v) := compare_entry m n me po c other in
  match best with
  | None => v = Fin 0 /\ forall e, In e (ct_entries c) -> flt (Fin 0) (val e) = false
  | Some i => exists e, nth_error (ct_entries c) i = Some e /\ v = val e /\ flt (Fin 0) v = true /\ forall e', In e' (ct_entries c) -> flt v (val e') = false
  end.
Proof.
  intros m n me po c other val. unfold compare_entry. pose proof (search_spec KCORR (map val (ct_entries c)) (Fin 0)) as S.
  change (map (fun e => lmean (map (fun f => check m n me po e (mb_H f) (mb_W f)) other)) (ct_entries c)) with (map val (ct_entries c)).
  destruct (search KCORR (map val (ct_entries c)) 0 (None, Fin 0)) as [[i|] v]; unfold picks_best in S; cbn [fst snd] in S.
  - destruct S as (S1 & S2 & S3 & _). rewrite nth_error_map in S1. destruct (nth_error (ct_entries c) i) as [e|]; [|discriminate]. injection S1 as <-. exists e. split; [reflexivity|]. split; [reflexivity|]. split; [exact S2|]. intros e' He'. apply (S3 (val e')). apply in_map, He'.
  - destruct S as [-> S]. split; [reflexivity|]. intros e He. apply (S (val e)). apply in_map, He.
Qed.
Print Assumptions C82_compare_entry.
Example C82_compare_entry_example :=
  C82_compare_entry 1 1 KRAAE false (mkCat [[mkMember (fun _ => 1) (fun _ => 1) 0 (Fin 0)]; [mkMember (fun _ => 2) (fun _ => 5) 1 (Fin 0)]] 1) [mkMember (fun _ => 1) (fun _ => 3) 2 (Fin 0)].
(** A catalog compared with its own only entry finds nothing. *)
Theorem C82_finds_itself_refuted : exists (f : member), compare_entry 1 1 KRAAE false (mkCat [[f]] 1) [f] = (None, Fin 0).
Proof.
  exists (mkMember (fun _ => 1) (fun _ => 1) 0 (Fin 0)). unfold compare_entry. cbn [ct_entries map]. set (f := mkMember _ _ _ _).
  assert (C : check 1 1 KRAAE false [f] (mb_H f) (mb_W f) = Fin 0).
  { unfold check. cbn [map mb_W f]. rewrite raae1 by nz. cbn [mb_W f]. rewrite Rminus_diag_eq, Rabs_R0 by reflexivity. unfold lmean, lfsum. cbn [fold_left fadd List.length INR]. rewrite fdiv_fin by lra. f_equal. field. }
  rewrite C. unfold lmean, lfsum. cbn [fold_left fadd List.length INR]. rewrite fdiv_fin by lra. cbn [search snd]. unfold better. cbn [is_raae]. cbn [flt]. rewrite (proj2 (Rltb_false _ _)); [reflexivity|]. lra.
Qed.
Print Assumptions C82_finds_itself_refuted.
(** The matrix search reports the first entry with the largest positive mean
    squared correlation. *)
Theorem C82_check_matrix : forall (m n : nat) (c : catalog) (wh : nat -> R),
  let val (e : entry) := lmean (map (fun f => r2 (m * n) wh (fun t => mb_W f (t / n)%nat * mb_H f (t mod n)%nat)) e) in
  let '(best, v) := check_matrix m n c wh in
  match best with
  | None => v = Fin 0 /\ forall e, In e (ct_entries c) -> flt (Fin 0) (val e) = false
  | Some i => exists e, nth_error (ct_entries c) i = Some e /\ v = val e /\ flt (Fin 0) v = true /\ (forall e', In e' (ct_entries c) -> flt v (val e') = false) /\
                forall j e', (j < i)%nat -> nth_error (ct_entries c) j = Some e' -> flt (val e') v = true \/ val e' = NaN
  end.
Proof.
  intros m n c wh val. unfold check_matrix.
  change (map (fun e => lmean (map (fun f => r2 (m * n) wh (fun t => mb_W f (t / n)%nat * mb_H f (t mod n)%nat)) e)) (ct_entries c)) with (map val (ct_entries c)). pose proof (search_spec KCORR (map val (ct_entries c)) (Fin 0)) as S.
  destruct (search KCORR (map val (ct_entries c)) 0 (None, Fin 0)) as [[i|] v]; unfold picks_best in S; cbn [fst snd] in S.
  - destruct S as (S1 & S2 & S3 & S4). rewrite nth_error_map in S1. destruct (nth_error (ct_entries c) i) as [e|]; [|discriminate S1]. injection S1 as <-. exists e. split; [reflexivity|]. split; [reflexivity|]. split; [exact S2|]. split; [intros e' He'; apply (S3 (val e')); apply in_map, He'|].
    intros j e' Hj He'. apply (S4 j (val e') Hj). rewrite nth_error_map, He'. reflexivity.
  - destruct S as [-> S]. split; [reflexivity|]. intros e He. apply (S (val e)). apply in_map, He.
Qed.
Print Assumptions C82_check_matrix.
Example C82_check_matrix_example :=
  C82_check_matrix 1 2 (mkCat [[mkMember (fun j => INR j) (fun _ => 1) 0 (Fin 0)]; [mkMember (fun _ => 2) (fun _ => 5) 1 (Fin 0)]] 1) (fun t => INR t + 1).

(** ** What the values mean *)
(** A candidate whose contributions are [a] times and whose profile is [b] times
    those of every member of an entry: the error is |1 - a|, the correlations are
    1 - provided the quantities compared vary at all. *)
Lemma lmean_same l (v : R) : l <> [] -> Forall (fun x => x = Fin v) l -> lmean l = Fin v.
Proof.
  intros Hl H. assert (S : forall l a, Forall (fun x => x = Fin v) l -> fold_left fadd l (Fin a) = Fin (a + INR (List.length l) * v)).
  { clear. induction l as [|x l IH]; intros a H; [cbn; f_equal; ring|]. inversion H; subst. cbn [fold_left fadd]. rewrite IH by assumption. f_equal. cbn [List.length]. rewrite S_INR. ring. }
  unfold lmean, lfsum. rewrite S by exact H. assert (INR (List.length l) <> 0) by (apply not_0_INR; destruct l; [contradiction|discriminate]).
  rewrite fdiv_fin by assumption. f_equal. field. assumption.
Qed.
Definition scaled_copy (m n : nat) (a b : R) (f : member) (H W : nat -> R) : Prop :=
  (forall t, (t < m)%nat -> W t = a * mb_W f t) /\ (forall j, (j < n)%nat -> H j = b * mb_H f j).
Theorem C56_scaled_copy : forall (m n : nat) (e : entry) (a b : R) (H W : nat -> R), (0 < m)%nat -> e <> [] -> a <> 0 -> b <> 0 ->
  (forall f, In f e -> scaled_copy m n a b f H W) ->
  ((forall f, In f e -> (forall t, (t < m)%nat -> 0 <= mb_W f t) /\ rsum m (mb_W f) <> 0) -> check m n KRAAE false e H W = Fin (Rabs (1 - a))) /\
  ((forall f, In f e -> cov m (mb_W f) (mb_W f) <> 0) -> check m n KCORR false e H W = Fin 1) /\
  ((forall f, In f e -> rsum m (mb_W f) <> 0 /\ rsum n (mb_H f) <> 0 /\ cov n (mb_H f) (mb_H f) <> 0) -> check m n KEMC false e H W = Fin 1) /\
  ((forall f, In f e -> cov n (mb_H f) (mb_H f) <> 0) -> forall me, check m n me true e H W = Fin 1).
Proof.
  intros m n e a b H W Hm He Ha Hb Hs. assert (Hi : INR m <> 0) by (apply not_0_INR; lia).
  assert (L : forall me po v, (forall f, In f e -> compare_member m n me po f H W = Fin v) -> check m n me po e H W = Fin v).
  { intros me po v G. unfold check. apply lmean_same; [destruct e; [contradiction|discriminate]|]. apply Forall_forall. intros x Hx. apply in_map_iff in Hx. destruct Hx as (f & <- & Hf). apply G, Hf. }
  assert (One : forall N x y c, c <> 0 -> cov N x x <> 0 -> (forall i, (i < N)%nat -> y i = c * x i) -> r2 N y x = Fin 1).
  { intros N x y c Hc Hx Hy. rewrite (r2_ext N y x (fun i => c * x i) (fun i => 1 * x i)) by (auto; intros; ring). rewrite r2_scal by lra. apply r2_self, Hx. }
  split; [|split; [|split]].
  - intros Hw. apply L. intros f Hf. destruct (Hs f Hf) as [SW _]. destruct (Hw f Hf) as [Hp Hn]. unfold compare_member.
    rewrite (rsum_ext m (fun t => Rabs (mb_W f t - W t)) (fun t => Rabs (1 - a) * mb_W f t)).
    2:{ intros t Ht. rewrite SW by exact Ht. replace (mb_W f t - a * mb_W f t) with ((1 - a) * mb_W f t) by ring. rewrite Rabs_mult, (Rabs_right (mb_W f t)); [reflexivity|]. apply Rle_ge, Hp, Ht. }
    rewrite rsum_scal_l. rewrite fdiv_fin by (apply Rmult_integral_contrapositive_currified; [exact Hn|unfold Rdiv; rewrite Rmult_1_l; apply Rinv_neq_0_compat, Hi]). f_equal. field. split; assumption.
  - intros Hv. apply L. intros f Hf. destruct (Hs f Hf) as [SW _]. unfold compare_member. apply (One m _ _ a Ha (Hv f Hf) SW).
  - intros Hv. apply L. intros f Hf. destruct (Hs f Hf) as [SW SH]. destruct (Hv f Hf) as (V1 & V2 & V3). unfold compare_member.
    assert (Mm : mean m (mb_W f) <> 0) by (unfold mean, Rdiv; apply Rmult_integral_contrapositive_currified; [exact V1|apply Rinv_neq_0_compat, Hi]).
    assert (Mw : mean m W = a * mean m (mb_W f)). { unfold mean. rewrite (rsum_ext m W (fun t => a * mb_W f t)) by exact SW. rewrite rsum_scal_l. field. exact Hi. }
    assert (S1 : mass_sum m n (mb_H f) (mb_W f) <> 0) by (unfold mass_sum; rewrite rsum_scal_l; apply Rmult_integral_contrapositive_currified; assumption).
    assert (S2 : mass_sum m n H W = a * b * mass_sum m n (mb_H f) (mb_W f)).
    { unfold mass_sum. rewrite <- rsum_scal_l. apply rsum_ext. intros j Hj. rewrite Mw, SH by exact Hj. ring. }
    assert (S3 : mass_sum m n H W <> 0) by (rewrite S2; repeat apply Rmult_integral_contrapositive_currified; assumption).
    unfold Reqb. destruct (Req_EM_T _ 0); [contradiction|]. destruct (Req_EM_T _ 0); [contradiction|]. cbn [orb].
    apply (One n _ _ 1); [lra| |].
    + assert (E : cov n (mass_of m n (mb_H f) (mb_W f)) (mass_of m n (mb_H f) (mb_W f)) = (mean m (mb_W f) / mass_sum m n (mb_H f) (mb_W f)) * (mean m (mb_W f) / mass_sum m n (mb_H f) (mb_W f)) * cov n (mb_H f) (mb_H f)).
      { rewrite <- cov_scal. apply cov_ext; intros i _; unfold mass_of; field; exact S1. }
      rewrite E. assert (D : mean m (mb_W f) / mass_sum m n (mb_H f) (mb_W f) <> 0) by (unfold Rdiv; apply Rmult_integral_contrapositive_currified; [exact Mm|apply Rinv_neq_0_compat, S1]).
      apply Rmult_integral_contrapositive_currified; [apply Rmult_integral_contrapositive_currified; exact D|exact V3].
    + intros j Hj. unfold mass_of. rewrite S2, Mw, SH by exact Hj. field. repeat split; assumption.
  - intros Hv me. apply L. intros f Hf. destruct (Hs f Hf) as [_ SH]. unfold compare_member. apply (One n _ _ b Hb (Hv f Hf) SH).
Qed.
Print Assumptions C56_scaled_copy.
(** A factor doubled in contribution and halved in profile: error 1, correlations 1. *)
Example C56_scaled_instance : let f := mkMember (fun j => INR (S j)) (fun t => INR t) 0 (Fin 0) in
  scaled_copy 2 2 2 (/ 2) f (fun j => / 2 * INR (S j)) (fun t => 2 * INR t) /\ rsum 2 (mb_W f) <> 0 /\ rsum 2 (mb_H f) <> 0 /\ cov 2 (mb_H f) (mb_H f) <> 0 /\ cov 2 (mb_W f) (mb_W f) <> 0.
Proof.
  intros f. split; [split; intros; reflexivity|]. unfold cov, mean, f. cbn [mb_W mb_H rsum INR]. repeat split; lra.
Qed.

(** A batch of three one-factor models counts as two. *)
Example C56_model_count_example : let x q := mkCM (Fin q) 1 (fun _ _ => 1) (fun _ _ => 1) in
  exists k c', add_batch 1 1 KRAAE (9 / 10) false false 1 empty_catalog [x 5; x 9; x 7] = Some (k, c') /\ ct_count c' = 2%nat.
Proof.
  intros x. destruct (C56_never_fails 1 1 KRAAE (9 / 10) false (batch_items false 1 [x 5; x 9; x 7]) empty_catalog ltac:(cbn; lra)) as (k & c' & E).
  exists k, c'. split; [exact E|].
  exact (C56_model_count 1 1 KRAAE (9 / 10) false [x 5; x 9; x 7] empty_catalog c' k ltac:(repeat constructor) (or_introl eq_refl) E).
Qed.
