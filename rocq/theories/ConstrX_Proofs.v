From Coq Require Import List Bool ZArith Lia Reals Lra Permutation.
From Verif Require Import Base Fl Metrics_Model LSNMF_Model LSNMF_Proofs Disp_Model Disp_Proofs Constr_Model Constr_Proofs.
Import ListNotations.
Local Open Scope R_scope.

(** ** Expression mapping *)
Lemma elem_eqb_iff a b : elem_eqb a b = true <-> a = b.
Proof.
  destruct a as [[ka ia] ja], b as [[kb ib] jb]. unfold elem_eqb.
  rewrite !andb_true_iff, Bool.eqb_true_iff, !Nat.eqb_eq. split; [intros [[-> ->] ->]; reflexivity|intros [= -> -> ->]; auto].
Qed.
Lemma elem_eqb_refl a : elem_eqb a a = true.
Proof. apply elem_eqb_iff. reflexivity. Qed.
Lemma elem_eqb_neq a b : a <> b -> elem_eqb a b = false.
Proof. intros H. destruct (elem_eqb a b) eqn:E; [|reflexivity]. apply elem_eqb_iff in E. contradiction. Qed.
Lemma elem_dec (a b : elem) : {a = b} + {a <> b}.
Proof. destruct (elem_eqb a b) eqn:E; [left; apply elem_eqb_iff; exact E|right; intros ->; rewrite elem_eqb_refl in E; discriminate]. Qed.

Lemma find_app {A} (f : A -> bool) l1 l2 :
  find f (l1 ++ l2) = match find f l1 with Some x => Some x | None => find f l2 end.
Proof. induction l1 as [|a l IH]; cbn; [reflexivity|]. destruct (f a); [reflexivity|exact IH]. Qed.

Lemma occ_add mp e c i e' :
  occ_of (map_add mp e c i) e' = if elem_eqb e e' then occ_of mp e' ++ [(c, i)] else occ_of mp e'.
Proof.
  unfold occ_of. induction mp as [|[e0 l] mp IH]; cbn [map_add find fst].
  - destruct (elem_eqb e e'); reflexivity.
  - destruct (elem_eqb e0 e) eqn:E0.
    + apply elem_eqb_iff in E0. subst e0. cbn [find fst]. destruct (elem_eqb e e'); reflexivity.
    + cbn [find fst]. destruct (elem_eqb e0 e') eqn:E1; [|exact IH].
      apply elem_eqb_iff in E1. subst e0. rewrite elem_eqb_neq; [reflexivity|].
      intros ->. rewrite elem_eqb_refl in E0. discriminate.
Qed.

Lemma keys_add mp e c i e' : In e' (map fst (map_add mp e c i)) <-> In e' (map fst mp) \/ e' = e.
Proof.
  induction mp as [|[e0 l] mp IH]; cbn [map_add map fst].
  - cbn. split; [intros [<-|[]]; auto|intros [[]| ->]; auto].
  - destruct (elem_eqb e0 e) eqn:E0; cbn [map fst In].
    + apply elem_eqb_iff in E0. subst e0. split; [tauto|]. intros [H| ->]; auto.
    + rewrite IH. tauto.
Qed.

Lemma keys_nodup mp e c i : NoDup (map fst mp) -> NoDup (map fst (map_add mp e c i)).
Proof.
  induction mp as [|[e0 l] mp IH]; cbn [map_add map fst].
  - intros _. constructor; [intros []|constructor].
  - intros H. inversion H as [|? ? Hn Hd]; subst. destruct (elem_eqb e0 e) eqn:E0; cbn [map fst]; [exact H|].
    constructor; [|apply IH, Hd]. rewrite keys_add. intros [Hi| ->]; [contradiction|].
    rewrite elem_eqb_refl in E0. discriminate.
Qed.

Definition add_terms (i : nat) (terms : list (elem * R)) (mp : emap) : emap :=
  fold_left (fun mp ec => map_add mp (fst ec) (snd ec) i) terms mp.

Lemma occ_terms i terms : forall mp e,
  occ_of (add_terms i terms mp) e = occ_of mp e ++ map (fun p => (snd p, i)) (filter (fun p => elem_eqb (fst p) e) terms).
Proof.
  induction terms as [|[e0 c] t IH]; intros mp e; cbn [add_terms fold_left filter map fst snd].
  - rewrite app_nil_r. reflexivity.
  - change (occ_of (add_terms i t (map_add mp e0 c i)) e = occ_of mp e ++
      map (fun p => (snd p, i)) (if elem_eqb e0 e then (e0, c) :: filter (fun p => elem_eqb (fst p) e) t else filter (fun p => elem_eqb (fst p) e) t)).
    rewrite IH, occ_add. destruct (elem_eqb e0 e); [|reflexivity]. rewrite <- app_assoc. reflexivity.
Qed.
Lemma keys_terms i terms : forall mp e,
  In e (map fst (add_terms i terms mp)) <-> In e (map fst mp) \/ In e (map fst terms).
Proof.
  induction terms as [|[e0 c] t IH]; intros mp e; cbn [add_terms fold_left map fst snd In]; [tauto|].
  change (In e (map fst (add_terms i t (map_add mp e0 c i))) <-> In e (map fst mp) \/ e0 = e \/ In e (map fst t)).
  rewrite IH, keys_add. split.
  - intros [[H|H]|H]; auto.
  - intros [H|[H|H]]; auto.
Qed.
Lemma nodup_terms i terms : forall mp, NoDup (map fst mp) -> NoDup (map fst (add_terms i terms mp)).
Proof.
  induction terms as [|[e0 c] t IH]; intros mp H; [exact H|]. apply IH. apply keys_nodup, H.
Qed.

(** First coefficient of an element among signed terms. *)
Definition term_coef (terms : list (elem * R)) (e : elem) : R :=
  match find (fun p => elem_eqb (fst p) e) terms with Some (_, c) => c | None => 0 end.

Lemma find_same i (l : list (elem * R)) e :
  find (fun p : R * nat => (snd p =? i)%nat) (map (fun p => (snd p, i)) (filter (fun p => elem_eqb (fst p) e) l)) =
  match find (fun p => elem_eqb (fst p) e) l with Some (_, c) => Some (c, i) | None => None end.
Proof.
  induction l as [|[e0 c] l IH]; cbn [filter find fst]; [reflexivity|].
  destruct (elem_eqb e0 e); [|exact IH]. cbn. rewrite Nat.eqb_refl. reflexivity.
Qed.
Lemma find_differ i j (l : list (elem * R)) : i <> j ->
  find (fun p : R * nat => (snd p =? i)%nat) (map (fun p => (snd p, j)) l) = None.
Proof.
  intros H. induction l as [|[e0 c] l IH]; cbn; [reflexivity|].
  destruct (Nat.eqb_spec j i); [congruence|exact IH].
Qed.

Definition terms_of (exprs : list (list token * R)) (i : nat) : list (elem * R) :=
  match nth_error exprs i with Some (toks, _) => signed_terms false toks | None => [] end.

Lemma map_expr_coef exprs : forall i0 mp e i,
  (forall p, In p (occ_of mp e) -> (snd p < i0)%nat) ->
  first_coef (occ_of (map_expressions exprs i0 mp) e) i =
    if (i <? i0)%nat then first_coef (occ_of mp e) i else term_coef (terms_of exprs (i - i0)) e.
Proof.
  induction exprs as [|[toks d] t IH]; intros i0 mp e i Hb; cbn [map_expressions].
  - destruct (Nat.ltb_spec i i0); [reflexivity|]. unfold terms_of. destruct (i - i0)%nat; cbn;
      unfold first_coef; (destruct (find _ (occ_of mp e)) as [[c j]|] eqn:E; [|reflexivity]);
      apply find_some in E; destruct E as [Hi He]; apply Nat.eqb_eq in He; specialize (Hb _ Hi); cbn in *; lia.
  - fold (add_terms i0 (signed_terms false toks) mp). rewrite IH.
    + destruct (Nat.ltb_spec i (S i0)) as [H|H].
      * unfold first_coef. rewrite occ_terms, find_app. destruct (Nat.ltb_spec i i0) as [H1|H1].
        { destruct (find _ (occ_of mp e)) as [[c j]|] eqn:E; [reflexivity|].
          rewrite find_differ by lia. reflexivity. }
        { assert (i = i0) by lia. subst i. rewrite Nat.sub_diag. unfold terms_of. cbn [nth_error].
          destruct (find _ (occ_of mp e)) as [[c j]|] eqn:E.
          - apply find_some in E; destruct E as [Hi He]; apply Nat.eqb_eq in He; specialize (Hb _ Hi); cbn in *; lia.
          - rewrite find_same. unfold term_coef. destruct (find _ (signed_terms false toks)) as [[? ?]|]; reflexivity. }
      * destruct (Nat.ltb_spec i i0); [lia|]. unfold terms_of.
        replace (i - i0)%nat with (S (i - S i0)) by lia. reflexivity.
    + intros p. rewrite occ_terms, in_app_iff, in_map_iff. intros [Hp|(q & <- & _)]; [specialize (Hb p Hp); lia|cbn; lia].
Qed.

Lemma map_expr_nodup exprs : forall i0 mp, NoDup (map fst mp) -> NoDup (map fst (map_expressions exprs i0 mp)).
Proof.
  induction exprs as [|[toks d] t IH]; intros i0 mp H; cbn [map_expressions]; [exact H|].
  apply IH. apply nodup_terms, H.
Qed.
Lemma map_expr_keys exprs : forall i0 mp e,
  In e (map fst mp) \/ (exists i, In e (map fst (terms_of exprs i))) -> In e (map fst (map_expressions exprs i0 mp)).
Proof.
  induction exprs as [|[toks d] t IH]; intros i0 mp e H; cbn [map_expressions].
  - destruct H as [H|[i H]]; [exact H|]. unfold terms_of in H. destruct i; destruct H.
  - apply IH. fold (add_terms i0 (signed_terms false toks) mp). rewrite keys_terms.
    destruct H as [H|[[|i] H]]; [auto|left; right; exact H|right; exists i; exact H].
Qed.

(** Positions. *)
Lemma elem_index_from mp e : elem_index mp e = index_from mp e 0.
Proof. reflexivity. Qed.
Lemma index_from_nth mp : forall c0 c e occ, NoDup (map fst mp) -> nth_error mp c = Some (e, occ) ->
  index_from mp e c0 = Some (c0 + c)%nat.
Proof.
  induction mp as [|[e0 l] mp IH]; intros c0 [|c] e occ Hd; cbn; try discriminate.
  - intros [= -> ->]. rewrite elem_eqb_refl, Nat.add_0_r. reflexivity.
  - intros H. inversion Hd as [|? ? Hn Hd']; subst. cbn in *.
    rewrite elem_eqb_neq.
    + rewrite (IH (S c0) c e occ Hd' H). f_equal. lia.
    + intros ->. apply Hn. apply nth_error_In in H. apply (in_map fst) in H. exact H.
Qed.
Lemma occ_nth mp : forall c e occ, NoDup (map fst mp) -> nth_error mp c = Some (e, occ) -> occ_of mp e = occ.
Proof.
  unfold occ_of. induction mp as [|[e0 l] mp IH]; intros [|c] e occ Hd; cbn; try discriminate.
  - intros [= -> ->]. rewrite elem_eqb_refl. reflexivity.
  - intros H. inversion Hd as [|? ? Hn Hd']; subst. cbn in *. rewrite elem_eqb_neq.
    + apply (IH c e occ Hd' H).
    + intros ->. apply Hn. apply nth_error_In in H. apply (in_map fst) in H. exact H.
Qed.

Lemma rsum_nth {A} (F : A -> R) (l : list A) :
  rsum (length l) (fun c => match nth_error l c with Some p => F p | None => 0 end) = lsum (map F l).
Proof.
  induction l as [|a l IH] using rev_ind; [reflexivity|].
  rewrite app_length, Nat.add_1_r. cbn [rsum]. rewrite map_app, lsum_app, <- IH. cbn [map lsum].
  rewrite nth_error_app2, Nat.sub_diag by lia. cbn [nth_error]. f_equal.
  - apply rsum_ext. intros c Hc. rewrite nth_error_app1 by exact Hc. reflexivity.
  - cbn. ring.
Qed.

Lemma lsum_subset {A} (eqd : forall a b : A, {a = b} + {a <> b}) (G : A -> R) (l : list A) :
  forall l', NoDup l -> NoDup l' -> incl l' l -> (forall e, In e l -> ~ In e l' -> G e = 0) -> lsum (map G l) = lsum (map G l').
Proof.
  induction l as [|a l IH]; intros l' Hd Hd' Hi HG.
  - destruct l' as [|b l']; [reflexivity|]. destruct (Hi b (or_introl eq_refl)).
  - inversion Hd as [|? ? Hn Hd1]; subst. cbn [map lsum]. destruct (in_dec eqd a l') as [H|H].
    + destruct (in_split _ _ H) as (l1 & l2 & ->).
      assert (P : Permutation (l1 ++ a :: l2) (a :: l1 ++ l2)) by (symmetry; apply Permutation_middle).
      rewrite (lsum_perm _ _ (Permutation_map G P)). cbn [map lsum].
      pose proof (Permutation_NoDup P Hd') as Hd2. inversion Hd2 as [|? ? Hn2 Hd3]; subst.
      f_equal. apply IH; [exact Hd1|exact Hd3| |].
      * intros x Hx. assert (In x (a :: l)) as [<-|]; [|contradiction|assumption].
        apply Hi. apply (Permutation_in _ (Permutation_sym P)). right. exact Hx.
      * intros e He Hne. apply HG; [right; exact He|]. intros Hin. apply (Permutation_in _ P) in Hin.
        destruct Hin as [<-|Hin]; contradiction.
    + rewrite (HG a (or_introl eq_refl) H), (IH l'); [ring|exact Hd1|exact Hd'| |].
      * intros x Hx. destruct (Hi x Hx) as [<-|]; [contradiction|assumption].
      * intros e He. apply HG. right. exact He.
Qed.

Lemma term_coef_in terms e c : NoDup (map fst terms) -> In (e, c) terms -> term_coef terms e = c.
Proof.
  unfold term_coef. induction terms as [|[e0 c0] t IH]; cbn; [intros _ []|].
  intros Hd [[= -> ->]|H]; [rewrite elem_eqb_refl; reflexivity|].
  inversion Hd as [|? ? Hn Hd']; subst. rewrite elem_eqb_neq; [apply IH; assumption|].
  intros ->. apply Hn. apply (in_map fst) in H. exact H.
Qed.
Lemma term_coef_out terms e : ~ In e (map fst terms) -> term_coef terms e = 0.
Proof.
  unfold term_coef. induction terms as [|[e0 c0] t IH]; cbn; [reflexivity|]. intros H.
  rewrite elem_eqb_neq by (intros ->; apply H; auto). apply IH. intros Hi. apply H. auto.
Qed.

(** Target value of an element: the component of the solver's solution. *)
Definition target (mp : emap) (x : nat -> R) (e : elem) : R :=
  match elem_index mp e with Some c => x c | None => 0 end.

Lemma row_sum exprs i (x : nat -> R) :
  NoDup (map fst (terms_of exprs i)) ->
  let mp := map_expressions exprs 0 [] in
  rsum (length mp) (fun c => exp_A mp i c * x c) = lsum (map (fun ec => snd ec * target mp x (fst ec)) (terms_of exprs i)).
Proof.
  intros Hnd mp.
  assert (Hd : NoDup (map fst mp)) by (apply map_expr_nodup; constructor).
  assert (Hc : forall e, first_coef (occ_of mp e) i = term_coef (terms_of exprs i) e).
  { intros e. unfold mp. rewrite map_expr_coef by (intros p []). cbn [Nat.ltb Nat.leb]. rewrite Nat.sub_0_r. reflexivity. }
  set (G := fun e => term_coef (terms_of exprs i) e * target mp x e).
  transitivity (lsum (map G (map fst mp))).
  - rewrite map_map, <- (rsum_nth (fun p => G (fst p)) mp). apply rsum_ext. intros c _. unfold exp_A.
    destruct (nth_error mp c) as [[e occ]|] eqn:E; [|ring]. cbn [fst]. unfold G, target.
    rewrite elem_index_from, (index_from_nth mp 0 c e occ Hd E), <- Hc, (occ_nth mp c e occ Hd E). reflexivity.
  - rewrite (lsum_subset elem_dec G (map fst mp) (map fst (terms_of exprs i)) Hd Hnd).
    + rewrite map_map. f_equal. apply map_ext_in. intros [e c] Hi. unfold G. cbn [fst snd].
      rewrite (term_coef_in _ e c Hnd Hi). reflexivity.
    + intros e He. apply map_expr_keys. right. exists i. exact He.
    + intros e _ He. unfold G. rewrite (term_coef_out _ e He). ring.
Qed.

(** ** Spread of a window *)
Lemma fmax_nan l x : In NaN (x :: l) -> fold_left fmaxn l x = NaN.
Proof.
  revert x. induction l as [|a l IH]; intros x; cbn [fold_left In].
  - intros [->|[]]. reflexivity.
  - intros [->|[->|H]]; apply IH; cbn; auto. left. destruct x; reflexivity.
Qed.
Lemma fmin_nan l x : In NaN (x :: l) -> fold_left fminn l x = NaN.
Proof.
  revert x. induction l as [|a l IH]; intros x; cbn [fold_left In].
  - intros [->|[]]. reflexivity.
  - intros [->|[->|H]]; apply IH; cbn; auto. left. destruct x; reflexivity.
Qed.

Lemma nflt_trans x y z : y <> NaN -> flt x y = false -> flt y z = false -> flt x z = false.
Proof.
  intros Hy. destruct x as [x| | |], y as [y| | |], z as [z| | |]; cbn; try discriminate; try reflexivity; try contradiction.
  rewrite !Rltb_false. lra.
Qed.

Lemma fmax_spec l : forall x, ~ In NaN (x :: l) ->
  let r := fold_left fmaxn l x in In r (x :: l) /\ forall y, In y (x :: l) -> flt r y = false.
Proof.
  induction l as [|a l IH]; intros x Hn; cbn [fold_left].
  - split; [left; reflexivity|]. intros y [<-|[]]. apply flt_irrefl.
  - assert (Hx : x <> NaN) by (intros ->; apply Hn; left; reflexivity).
    assert (Ha : a <> NaN) by (intros ->; apply Hn; right; left; reflexivity).
    assert (Hm : fmaxn x a = x \/ fmaxn x a = a).
    { unfold fmaxn. destruct x, a; auto; destruct (flt _ _); auto. }
    assert (H1 : flt (fmaxn x a) x = false /\ flt (fmaxn x a) a = false).
    { destruct x as [x| | |], a as [a| | |]; try contradiction; cbn; auto;
        try (destruct (Rltb x a) eqn:E; [apply Rltb_iff in E|apply Rltb_false in E]; cbn);
        split; try reflexivity; apply Rltb_false; lra. }
    assert (Hmn : fmaxn x a <> NaN) by (destruct Hm as [->| ->]; assumption).
    destruct (IH (fmaxn x a)) as [H2 H3].
    { intros [H|H]; [congruence|]. apply Hn. right. right. exact H. }
    split.
    + destruct H2 as [H2|H2]; [|right; right; exact H2]. destruct Hm as [Hm|Hm]; rewrite Hm in H2 at 1; [left; exact H2|right; left; exact H2].
    + intros y [<-|[<-|Hy]]; [| |apply H3; right; exact Hy];
        (eapply nflt_trans; [exact Hmn|apply H3; left; reflexivity|apply H1]).
Qed.
Lemma fmin_spec l : forall x, ~ In NaN (x :: l) ->
  let r := fold_left fminn l x in In r (x :: l) /\ forall y, In y (x :: l) -> flt y r = false.
Proof.
  induction l as [|a l IH]; intros x Hn; cbn [fold_left].
  - split; [left; reflexivity|]. intros y [<-|[]]. apply flt_irrefl.
  - assert (Hx : x <> NaN) by (intros ->; apply Hn; left; reflexivity).
    assert (Ha : a <> NaN) by (intros ->; apply Hn; right; left; reflexivity).
    assert (Hm : fminn x a = x \/ fminn x a = a).
    { unfold fminn. destruct x, a; auto; destruct (flt _ _); auto. }
    assert (H1 : flt x (fminn x a) = false /\ flt a (fminn x a) = false).
    { destruct x as [x| | |], a as [a| | |]; try contradiction; cbn; auto;
        try (destruct (Rltb a x) eqn:E; [apply Rltb_iff in E|apply Rltb_false in E]; cbn);
        split; try reflexivity; apply Rltb_false; lra. }
    assert (Hmn : fminn x a <> NaN) by (destruct Hm as [->| ->]; assumption).
    destruct (IH (fminn x a)) as [H2 H3].
    { intros [H|H]; [congruence|]. apply Hn. right. right. exact H. }
    split.
    + destruct H2 as [H2|H2]; [|right; right; exact H2]. destruct Hm as [Hm|Hm]; rewrite Hm in H2 at 1; [left; exact H2|right; left; exact H2].
    + intros y [<-|[<-|Hy]]; [| |apply H3; right; exact Hy];
        (eapply nflt_trans; [exact Hmn|apply H1|apply H3; left; reflexivity]).
Qed.

(** All values finite and pairwise within [delta]. *)
Definition settled (delta : R) (l : list fl) : Prop :=
  exists xs, l = map Fin xs /\ forall x y, In x xs -> In y xs -> x - y <= delta.

Lemma spread_settled delta l d : spread l = Some d ->
  (flt (Fin delta) d || is_nan d = false <-> settled delta l).
Proof.
  destruct l as [|x t]; cbn [spread]; [discriminate|]. intros [= <-].
  assert (Hdec : In NaN (x :: t) \/ ~ In NaN (x :: t)).
  { clear. generalize (x :: t). induction l as [|a l [H|H]]; [right; intros []|left; right; exact H|].
    destruct a; try (right; intros [E|E]; [discriminate|contradiction]). left. left. reflexivity. }
  destruct Hdec as [Hn|Hn].
  { rewrite (fmax_nan _ _ Hn). cbn. split; [discriminate|]. intros (xs & E & _). rewrite E in Hn.
    apply in_map_iff in Hn. destruct Hn as (y & [=] & _). }
  destruct (fmax_spec t x Hn) as [Hx1 Hx2]. destruct (fmin_spec t x Hn) as [Hm1 Hm2].
  set (mx := fold_left fmaxn t x) in *. set (mn := fold_left fminn t x) in *. split.
  - destruct mx as [a| | |] eqn:Ea, mn as [b| | |] eqn:Eb; cbn; try discriminate; rewrite ?orb_false_r; intros H;
      try (specialize (Hx2 _ Hm1); discriminate Hx2).
    apply Rltb_false in H.
    assert (Hall : forall y, In y (x :: t) -> exists z, y = Fin z /\ b <= z <= a).
    { intros y Hy. specialize (Hx2 y Hy). specialize (Hm2 y Hy). destruct y as [z| | |]; cbn in *; try discriminate.
      - apply Rltb_false in Hx2, Hm2. eauto.
      - contradiction. }
    exists (map (fun v => match v with Fin z => z | _ => 0 end) (x :: t)). split.
    + rewrite map_map. rewrite <- (map_id (x :: t)) at 1. apply map_ext_in. intros y Hy.
      destruct (Hall y Hy) as (z & -> & _). reflexivity.
    + intros u v Hu Hv. apply in_map_iff in Hu, Hv. destruct Hu as (y & <- & Hy), Hv as (y' & <- & Hy').
      destruct (Hall y Hy) as (z & -> & Hz), (Hall y' Hy') as (z' & -> & Hz'). lra.
  - intros (xs & E & Hp). rewrite E in Hx1, Hm1. apply in_map_iff in Hx1, Hm1.
    destruct Hx1 as (a & Ha & Hia), Hm1 as (b & Hb & Hib). rewrite <- Ha, <- Hb. cbn. rewrite orb_false_r.
    apply Rltb_false. specialize (Hp a b Hia Hib). lra.
Qed.

(** ** Training loop *)
Section Loop.
  Context {St : Type} (step : St -> St) (losses : St -> fl * fl * fl).
  Definition nth_state (st0 : St) (i : nat) : St := Nat.iter i step st0.
  Definition qm_at (st0 : St) (i : nat) : fl := q_main losses (nth_state st0 (S i)).
  (** window of the last [cn] values at iteration [i] *)
  Definition window (st0 : St) (cn i : nat) : list fl := map (qm_at st0) (seq (S i - cn) cn).

  Lemma tl_seq a k : tl (seq a (S k)) = seq (S a) k.
  Proof. reflexivity. Qed.

  Lemma c_loop_spec st0 cn delta : (0 < cn)%nat -> forall rem i qm hist,
    qm = map (qm_at st0) (seq (i - cn) (i - (i - cn))) ->
    hist = map (fun j => losses (nth_state st0 (S j))) (seq 0 i) ->
    (forall j, (j < i)%nat -> ~ ((cn <= j)%nat /\ settled delta (window st0 cn j))) ->
    exists r, c_loop step losses cn delta rem i (nth_state st0 i) qm hist = Some r /\
      ((exists j, (i <= j < i + rem)%nat /\ (cn <= j)%nat /\ settled delta (window st0 cn j) /\
          (forall j', (j' < j)%nat -> ~ ((cn <= j')%nat /\ settled delta (window st0 cn j'))) /\
          cr_state r = nth_state st0 (S j) /\ cr_hist r = map (fun j => losses (nth_state st0 (S j))) (seq 0 (S j)) /\
          cr_conv r = true /\ cr_steps r = j) \/
       ((forall j, (j < i + rem)%nat -> ~ ((cn <= j)%nat /\ settled delta (window st0 cn j))) /\
          cr_state r = nth_state st0 (i + rem) /\ cr_hist r = map (fun j => losses (nth_state st0 (S j))) (seq 0 (i + rem)) /\
          cr_conv r = false /\ cr_steps r = (i + rem - 1)%nat)).
  Proof.
    intros Hcn. induction rem as [|rem IH]; intros i qm hist Hq Hh Hno; cbn [c_loop].
    - eexists. split; [reflexivity|]. right. rewrite !Nat.add_0_r. cbn [cr_state cr_hist cr_conv cr_steps]. auto.
    - change (step (nth_state st0 i)) with (nth_state st0 (S i)).
      change (q_main losses (nth_state st0 (S i))) with (qm_at st0 i).
      assert (Hh' : hist ++ [losses (nth_state st0 (S i))] = map (fun j => losses (nth_state st0 (S j))) (seq 0 (S i))).
      { rewrite seq_S, map_app, Hh. reflexivity. }
      set (a := (i - cn)%nat) in *. 
      assert (Hq' : qm ++ [qm_at st0 i] = map (qm_at st0) (seq a (S i - a))).
      { replace (S i - a)%nat with (S (i - a)) by lia. rewrite seq_S, map_app, Hq. cbn [map].
        replace (a + (i - a))%nat with i by lia. reflexivity. }
      rewrite Hh', Hq'. rewrite map_length, seq_length.
      destruct (Nat.ltb_spec cn (S i - a)) as [Hl|Hl].
      + assert (Hi : (cn <= i)%nat) by lia. assert (a + cn = i)%nat by lia.
        replace (tl (map (qm_at st0) (seq a (S i - a)))) with (window st0 cn i).
        2:{ unfold window. replace (S i - a)%nat with (S cn) by lia. cbn [seq map tl].
            replace (S i - cn)%nat with (S a) by lia. reflexivity. }
        assert (Hs : exists d, spread (window st0 cn i) = Some d).
        { unfold window. destruct cn; [lia|]. cbn [seq map spread]. eauto. }
        destruct Hs as [d Hs]. rewrite Hs. pose proof (spread_settled delta _ d Hs) as Hiff.
        destruct (flt (Fin delta) d || is_nan d).
        * assert (Hns : ~ settled delta (window st0 cn i)) by (intros Hx; apply Hiff in Hx; discriminate).
          destruct (IH (S i) (window st0 cn i) (map (fun j => losses (nth_state st0 (S j))) (seq 0 (S i)))) as (r & Hr & Hc).
          { unfold window. f_equal. f_equal. lia. }
          { reflexivity. }
          { intros j Hj [H1 H2]. destruct (Nat.eq_dec j i) as [->|]; [contradiction|]. apply (Hno j ltac:(lia)). auto. }
          exists r. split; [exact Hr|]. replace (i + S rem)%nat with (S i + rem)%nat by lia.
          destruct Hc as [(j & H1 & H2)|Hc]; [left; exists j; split; [lia|exact H2]|right; exact Hc].
        * eexists. split; [reflexivity|]. left. exists i. cbn [cr_state cr_hist cr_conv cr_steps].
          repeat split; try lia; auto. apply Hiff. reflexivity.
      + destruct (IH (S i) (map (qm_at st0) (seq a (S i - a))) (map (fun j => losses (nth_state st0 (S j))) (seq 0 (S i)))) as (r & Hr & Hc).
        { f_equal. assert (a = 0)%nat by lia. replace (S i - cn)%nat with 0%nat by lia. f_equal; lia. }
        { reflexivity. }
        { intros j Hj [H1 H2]. lia. }
        exists r. split; [exact Hr|]. replace (i + S rem)%nat with (S i + rem)%nat by lia.
        destruct Hc as [(j & H1 & H2)|Hc]; [left; exists j; split; [lia|exact H2]|right; exact Hc].
  Qed.
End Loop.

(** ** Budget of the expressions *)
Lemma budget_spec dq total f : (102 <= f)%nat -> exists o, budget dq total f = Some o /\
  match o with
  | Some j => (j <= 100)%nat /\ flt (dq j) (Fin total) = true /\ forall i, (i < j)%nat -> flt (dq i) (Fin total) = false
  | None => forall i, (i <= 100)%nat -> flt (dq i) (Fin total) = false
  end.
Proof.
  intros Hf. set (P := fun s : nat * Z => snd s = (100 - Z.of_nat (fst s))%Z /\ (fst s <= 101)%nat /\ forall i, (i < fst s)%nat -> flt (dq i) (Fin total) = false).
  destruct (loop_terminates (budget_body dq total) fst 102 P) with (f := f) (s := (0%nat, 100%Z)) as [o Ho]; cbn [fst snd]; try lia.
  - intros [j ms] (H1 & H2 & H3). cbn [fst snd] in *. unfold budget_body.
    destruct (Z.ltb_spec ms 0); [exact I|]. destruct (flt (dq j) (Fin total)) eqn:E; [exact I|].
    unfold P. cbn [fst snd]. repeat split; try lia. intros i Hi. destruct (Nat.eq_dec i j) as [->|]; [exact E|apply H3; lia].
  - unfold P. cbn. repeat split; try lia.
  - exists o. split; [exact Ho|]. unfold budget in Ho.
    apply (loop_inv (budget_body dq total) P (fun o => match o with
      | Some j => (j <= 100)%nat /\ flt (dq j) (Fin total) = true /\ forall i, (i < j)%nat -> flt (dq i) (Fin total) = false
      | None => forall i, (i <= 100)%nat -> flt (dq i) (Fin total) = false end)) in Ho; [exact Ho| |].
    + intros [j ms] (H1 & H2 & H3). cbn [fst snd] in *. unfold budget_body.
      destruct (Z.ltb_spec ms 0); [intros i Hi; apply H3; lia|]. destruct (flt (dq j) (Fin total)) eqn:E.
      * repeat split; auto. lia.
      * unfold P. cbn [fst snd]. repeat split; try lia. intros i Hi. destruct (Nat.eq_dec i j) as [->|]; [exact E|apply H3; lia].
    + unfold P. cbn. repeat split; try lia.
Qed.
