(** C97, C98: rows and columns of the two files must match; data for plotting. *)
From Coq Require Import List Bool String Reals Arith ZArith Lra Lia Permutation Sorted.
From Verif Require Import Base Fl Data_Model Align_Model.
Import ListNotations.
Local Open Scope R_scope.

Section Rows.
Context {L : Type} (ldec : forall a b : L, {a = b} + {a <> b}) (fill : bool).
Notation load_l := (load_labelled ldec fill).

(** ** Specification *)
Definition nan_row (f : lframe L) (r : row) : Prop := forall c, In c (lf_cols f) -> r c = Num NaN.
(** A label with a row in both files, neither of them empty. *)
Definition complete (fi fu : lframe L) (l : L) : Prop :=
  exists r r', In (l, r) (lf_rows fi) /\ In (l, r') (lf_rows fu) /\ ~ nan_row fi r /\ ~ nan_row fu r'.
Definition no_text (f : lframe L) : Prop := forall l r c s, In (l, r) (lf_rows f) -> In c (lf_cols f) -> r c <> Txt s.

Lemma all_nan_iff f r : all_nan (lf_cols f) r = true <-> nan_row f r.
Proof.
  unfold all_nan, nan_row. rewrite forallb_forall. split; intros H c Hc; specialize (H c Hc).
  - unfold cell_nan in H. destruct (r c) as [[| | |]|]; try discriminate. reflexivity.
  - rewrite H. reflexivity.
Qed.
Lemma all_nan_false f r : all_nan (lf_cols f) r = false <-> ~ nan_row f r.
Proof. rewrite <- all_nan_iff. destruct (all_nan (lf_cols f) r); split; congruence. Qed.

Lemma has_text_false (f : lframe L) : has_text (plain f) = false <-> no_text f.
Proof.
  unfold has_text, plain, no_text. cbn [rows cols]. split.
  - intros H l r c s Hr Hc E. assert (X : existsb (fun r : row => existsb (fun c => match r c with Txt _ => true | Num _ => false end) (lf_cols f)) (map snd (lf_rows f)) = true).
    { apply existsb_exists. exists r. split; [apply (in_map snd) in Hr; exact Hr|]. apply existsb_exists. exists c. split; [exact Hc|]. rewrite E. reflexivity. }
    congruence.
  - intros H. destruct (existsb _ _) eqn:E; [|reflexivity]. exfalso. apply existsb_exists in E. destruct E as (r & Hr & E). apply existsb_exists in E. destruct E as (c & Hc & E).
    apply in_map_iff in Hr. destruct Hr as ([l r'] & <- & Hr). cbn in E. destruct (r' c) as [|s] eqn:Ec; [discriminate|]. exact (H l r' c s Hr Hc Ec).
Qed.

(** ** Looking up a label *)
Lemma row_at_in (f : lframe L) l r : row_at ldec f l = Some r -> In (l, r) (lf_rows f).
Proof.
  unfold row_at. destruct (find _ _) as [[l' r']|] eqn:E; [|discriminate]. intros [= <-]. apply find_some in E. destruct E as [E1 E2]. cbn in E2. destruct (ldec l' l) as [<-|]; [exact E1|discriminate].
Qed.
Lemma row_at_none (f : lframe L) l : row_at ldec f l = None <-> ~ In l (labels f).
Proof.
  unfold row_at, labels. split.
  - intros H Hin. apply in_map_iff in Hin. destruct Hin as ([l' r] & <- & Hin). destruct (find _ _) eqn:E; [discriminate|]. apply (find_none _ _ E) in Hin. cbn in Hin. destruct (ldec l' l'); [discriminate|contradiction].
  - intros H. destruct (find _ _) as [[l' r]|] eqn:E; [|reflexivity]. exfalso. apply find_some in E. destruct E as [E1 E2]. cbn in E2. destruct (ldec l' l) as [<-|]; [|discriminate]. apply H. apply (in_map fst) in E1. exact E1.
Qed.
Lemma nodup_fun (f : lframe L) l r r' : NoDup (labels f) -> In (l, r) (lf_rows f) -> In (l, r') (lf_rows f) -> r = r'.
Proof.
  unfold labels. induction (lf_rows f) as [|[a b] t IH]; intros N H H'; [destruct H|]. cbn in N. inversion N as [|? ? N1 N2]; subst.
  destruct H as [H|H], H' as [H'|H']; [congruence| | |apply IH; assumption].
  - injection H as -> ->. exfalso. apply N1. apply (in_map fst) in H'. exact H'.
  - injection H' as -> ->. exfalso. apply N1. apply (in_map fst) in H. exact H.
Qed.
Lemma row_at_some (f : lframe L) l r : NoDup (labels f) -> (row_at ldec f l = Some r <-> In (l, r) (lf_rows f)).
Proof.
  intros N. split; [apply row_at_in|]. intros H. destruct (row_at ldec f l) as [r'|] eqn:E.
  - apply row_at_in in E. f_equal. apply (nodup_fun f l); assumption.
  - exfalso. apply row_at_none in E. apply E. apply (in_map fst) in H. exact H.
Qed.

(** ** The filter, label by label *)
Definition keep_i (fi fu : lframe L) (l : L) : bool :=
  match row_at ldec fi l, row_at ldec fu l with
  | Some r, Some r' => negb (all_nan (lf_cols fi) r || all_nan (lf_cols fu) r')
  | Some r, None => negb (all_nan (lf_cols fi) r)
  | _, _ => false
  end.
Definition keep_u (fi fu : lframe L) (l : L) : bool :=
  match row_at ldec fi l, row_at ldec fu l with
  | Some r, Some r' => negb (all_nan (lf_cols fi) r || all_nan (lf_cols fu) r')
  | None, Some r' => negb (fill && all_nan (lf_cols fu) r')
  | _, _ => false
  end.
Lemma filter_combine {A B} (g : A * B -> bool) (p : A -> bool) (p' : B -> bool) : forall (a : list A) (b : list B), List.length a = List.length b ->
  (forall q, In q (combine a b) -> g q = p (fst q)) -> (forall q, In q (combine a b) -> g q = p' (snd q)) ->
  map fst (filter g (combine a b)) = filter p a /\ map snd (filter g (combine a b)) = filter p' b.
Proof.
  induction a as [|x a IH]; intros [|y b] Hl H H'; try discriminate; [split; reflexivity|]. cbn [combine filter map]. injection Hl as Hl.
  destruct (IH b Hl (fun q Hq => H q (or_intror Hq)) (fun q Hq => H' q (or_intror Hq))) as [I1 I2]. pose proof (H (x, y) (or_introl eq_refl)) as G. pose proof (H' (x, y) (or_introl eq_refl)) as G'. cbn in G, G'.
  rewrite <- G, <- G'. destruct (g (x, y)); cbn; rewrite I1, I2; split; reflexivity.
Qed.
Lemma combine_labels : forall (a b : list (L * row)), map fst a = map fst b -> forall q, In q (combine a b) -> fst (fst q) = fst (snd q) /\ In (fst q) a /\ In (snd q) b.
Proof.
  induction a as [|x a IH]; intros [|y b] E q H; try discriminate; [destruct H|]. cbn in E. injection E as E1 E2. destruct H as [<-|H]; [split; [exact E1|split; left; reflexivity]|].
  destruct (IH b E2 q H) as (A & B & C). split; [exact A|split; right; assumption].
Qed.
Lemma nan_filter_rows (fi fu : lframe L) : NoDup (labels fi) -> NoDup (labels fu) ->
  nan_filter ldec fill fi fu = (mkLF (lf_cols fi) (filter (fun q => keep_i fi fu (fst q)) (lf_rows fi)), mkLF (lf_cols fu) (filter (fun q => keep_u fi fu (fst q)) (lf_rows fu))).
Proof.
  intros Ni Nu. unfold nan_filter, same. destruct (list_eq_dec ldec (labels fi) (labels fu)) as [E|E].
  - assert (Hl : List.length (lf_rows fi) = List.length (lf_rows fu)) by (unfold labels in E; rewrite <- (map_length fst (lf_rows fi)), E, map_length; reflexivity).
    destruct (filter_combine (fun q => negb (all_nan (lf_cols fi) (snd (fst q)) || all_nan (lf_cols fu) (snd (snd q)))) (fun q => keep_i fi fu (fst q)) (fun q => keep_u fi fu (fst q)) (lf_rows fi) (lf_rows fu) Hl) as [F1 F2].
    + intros [[l r] [l' r']] Hq. destruct (combine_labels _ _ E _ Hq) as (A & B & C). cbn in A, B, C |- *. subst l'. unfold keep_i. rewrite (proj2 (row_at_some fi l r Ni) B), (proj2 (row_at_some fu l r' Nu) C). reflexivity.
    + intros [[l r] [l' r']] Hq. destruct (combine_labels _ _ E _ Hq) as (A & B & C). cbn in A, B, C |- *. subst l'. unfold keep_u. rewrite (proj2 (row_at_some fi l r Ni) B), (proj2 (row_at_some fu l r' Nu) C). reflexivity.
    + cbv zeta. rewrite F1, F2. reflexivity.
  - f_equal; f_equal; apply filter_ext_in; intros [l r] Hq; cbn [fst snd].
    + unfold keep_i. rewrite (proj2 (row_at_some fi l r Ni) Hq). destruct (row_at ldec fu l); [reflexivity|rewrite orb_false_r; reflexivity].
    + unfold keep_u. rewrite (proj2 (row_at_some fu l r Nu) Hq). destruct (row_at ldec fi l); reflexivity.
Qed.
Lemma labels_filter (f : lframe L) cs p : labels (mkLF cs (filter (fun q => p (fst q)) (lf_rows f))) = filter p (labels f).
Proof. unfold labels. cbn [lf_rows]. induction (lf_rows f) as [|[a b] t IH]; [reflexivity|]. cbn. destruct (p a); cbn; rewrite IH; reflexivity. Qed.
Lemma complete_keeps (fi fu : lframe L) l : NoDup (labels fi) -> NoDup (labels fu) -> In l (labels fi) -> In l (labels fu) -> (keep_i fi fu l = true <-> complete fi fu l) /\ keep_i fi fu l = keep_u fi fu l.
Proof.
  intros Ni Nu Hi Hu. unfold keep_i, keep_u, complete. destruct (row_at ldec fi l) as [r|] eqn:Ei; [|apply row_at_none in Ei; contradiction]. destruct (row_at ldec fu l) as [r'|] eqn:Eu; [|apply row_at_none in Eu; contradiction].
  split; [|reflexivity]. rewrite negb_true_iff, orb_false_iff. rewrite !all_nan_false. apply (row_at_some fi l r Ni) in Ei. apply (row_at_some fu l r' Nu) in Eu. split.
  - intros [A B]. exists r, r'. auto.
  - intros (s & s' & A & B & C & D). rewrite (nodup_fun fi l r s Ni Ei A), (nodup_fun fu l r' s' Nu Eu B). auto.
Qed.

(** ** C97 *)
(** What was loaded: the labels that have a non-empty row in both files, in the
    order of the files, with the two rows that carry that label. *)
Theorem C97_loaded_rows : forall (fi fu : lframe L) dr lc ls h sn, NoDup (labels fi) -> NoDup (labels fu) -> load_l fi fu dr lc = Ok (ls, h, sn) ->
  ls <> [] /\ NoDup ls /\ (forall l, In l ls <-> complete fi fu l) /\
  (exists p, ls = filter p (labels fi)) /\ (exists p, ls = filter p (labels fu)) /\
  List.length (rows (h_in h)) = List.length ls /\ List.length (rows (h_un h)) = List.length ls /\
  (forall t l, nth_error ls t = Some l -> exists r r', nth_error (rows (h_in h)) t = Some r /\ nth_error (rows (h_un h)) t = Some r' /\ In (l, r) (lf_rows fi) /\ In (l, r') (lf_rows fu)) /\
  lf_cols fu = lf_cols fi /\ cols (h_in h) = lf_cols fi /\ cols (h_un h) = lf_cols fi /\ h_drop h = dr /\ h_loc h = lc.
Proof.
  intros fi fu dr lc ls h sn Ni Nu H. unfold load_labelled in H. rewrite (nan_filter_rows fi fu Ni Nu) in H. destruct (_ || _); [discriminate|]. unfold same in H.
  rewrite !labels_filter in H. destruct (list_eq_dec ldec _ _) as [E|]; [|discriminate]. cbn [lf_cols] in H. destruct (list_eq_dec string_dec _ _) as [Ec|]; [|discriminate]. cbn [andb negb] in H.
  destruct (List.length _ =? 0)%nat eqn:E0; [discriminate|]. injection H as <- <- <-. apply Nat.eqb_neq in E0. cbn [lf_rows] in E0.
  set (fi' := filter (fun q => keep_i fi fu (fst q)) (lf_rows fi)) in *. set (fu' := filter (fun q => keep_u fi fu (fst q)) (lf_rows fu)) in *.
  assert (Li : map fst fi' = filter (keep_i fi fu) (labels fi)) by (exact (labels_filter fi [] (keep_i fi fu))).
  assert (Lu : map fst fu' = filter (keep_u fi fu) (labels fu)) by (exact (labels_filter fu [] (keep_u fi fu))).
  cbn [h_in h_un h_drop h_loc plain rows cols lf_rows lf_cols]. rewrite !map_length.
  split. { rewrite <- Li. destruct fi'; [contradiction|discriminate]. }
  split. { apply NoDup_filter, Ni. }
  split.
  { intros l. rewrite filter_In. split.
    - intros [A B]. assert (C : In l (labels fu)). { assert (X : In l (filter (keep_u fi fu) (labels fu))) by (rewrite <- E; apply filter_In; split; assumption). apply filter_In in X. apply X. }
      apply (complete_keeps fi fu l Ni Nu A C), B.
    - intros C. pose proof C as (r & r' & A & B & _). apply (in_map fst) in A. apply (in_map fst) in B. cbn in A, B. split; [exact A|]. apply (complete_keeps fi fu l Ni Nu A B), C. }
  split; [exists (keep_i fi fu); reflexivity|]. split; [exists (keep_u fi fu); exact E|].
  split; [rewrite <- Li, map_length; reflexivity|]. split; [rewrite E, <- Lu, map_length; reflexivity|]. split.
  { intros t l Hl. pose proof Hl as Hl'. rewrite <- Li in Hl. rewrite E, <- Lu in Hl'. rewrite nth_error_map in Hl, Hl'.
    destruct (nth_error fi' t) as [[a r]|] eqn:A; [|discriminate]. destruct (nth_error fu' t) as [[b r']|] eqn:B; [|discriminate]. cbn in Hl, Hl'. injection Hl as ->. injection Hl' as ->.
    exists r, r'. rewrite !nth_error_map, A, B. split; [reflexivity|]. split; [reflexivity|]. apply nth_error_In in A, B. apply filter_In in A. apply filter_In in B. split; [apply A|apply B]. }
  split; [symmetry; exact Ec|]. repeat split; symmetry; exact Ec.
Qed.

(** When loading accepts: same columns in the same order, rows without a partner
    empty, and the complete rows in the same order. *)
Theorem C97_accepted_iff : forall (fi fu : lframe L) dr lc, NoDup (labels fi) -> NoDup (labels fu) -> no_text fi -> no_text fu ->
  (exists x, load_l fi fu dr lc = Ok x) <->
  lf_cols fi = lf_cols fu /\
  (forall l r, In (l, r) (lf_rows fi) -> ~ In l (labels fu) -> nan_row fi r) /\
  (forall l r, In (l, r) (lf_rows fu) -> ~ In l (labels fi) -> nan_row fu r /\ fill = true) /\
  (forall p : L -> bool, (forall l, p l = true <-> complete fi fu l) -> filter p (labels fi) = filter p (labels fu)) /\
  (exists l, complete fi fu l).
Proof.
  intros fi fu dr lc Ni Nu Ti Tu. unfold load_labelled. rewrite (nan_filter_rows fi fu Ni Nu).
  assert (T1 : has_text (plain (mkLF (lf_cols fi) (filter (fun q => keep_i fi fu (fst q)) (lf_rows fi)))) = false).
  { apply has_text_false. intros l r c s Hr Hc. cbn in Hr, Hc. apply filter_In in Hr. apply (Ti l r c s (proj1 Hr) Hc). }
  assert (T2 : has_text (plain (mkLF (lf_cols fu) (filter (fun q => keep_u fi fu (fst q)) (lf_rows fu)))) = false).
  { apply has_text_false. intros l r c s Hr Hc. cbn in Hr, Hc. apply filter_In in Hr. apply (Tu l r c s (proj1 Hr) Hc). }
  rewrite T1, T2. cbn [orb]. unfold same. rewrite !labels_filter. cbn [lf_cols lf_rows].
  assert (Len : List.length (filter (fun q => keep_i fi fu (fst q)) (lf_rows fi)) = List.length (filter (keep_i fi fu) (labels fi))).
  { rewrite <- (labels_filter fi [] (keep_i fi fu)). unfold labels at 1. rewrite map_length. reflexivity. }
  assert (Ci : forall l, In l (filter (keep_i fi fu) (labels fi)) -> In l (labels fu) -> complete fi fu l).
  { intros l Hl Hu. apply filter_In in Hl. apply (complete_keeps fi fu l Ni Nu (proj1 Hl) Hu), Hl. }
  assert (Cc : forall l, complete fi fu l -> In l (filter (keep_i fi fu) (labels fi)) /\ In l (filter (keep_u fi fu) (labels fu))).
  { intros l C. pose proof C as (r & r' & A & B & _). apply (in_map fst) in A. apply (in_map fst) in B. cbn in A, B. destruct (complete_keeps fi fu l Ni Nu A B) as [K1 K2]. rewrite !filter_In. rewrite <- K2. repeat split; try assumption; apply K1, C. }
  split.
  - intros (x & H). destruct (list_eq_dec ldec _ _) as [E|]; [|discriminate]. destruct (list_eq_dec string_dec _ _) as [Ec|]; [|discriminate]. cbn [andb negb] in H.
    destruct (List.length _ =? 0)%nat eqn:E0; [discriminate|]. clear H. apply Nat.eqb_neq in E0. split; [exact Ec|]. split; [|split; [|split]].
    + intros l r Hr Hn. apply all_nan_iff. destruct (all_nan (lf_cols fi) r) eqn:A; [reflexivity|]. exfalso. apply Hn.
      assert (X : In l (filter (keep_i fi fu) (labels fi))). { apply filter_In. split; [apply (in_map fst) in Hr; exact Hr|]. unfold keep_i. rewrite (proj2 (row_at_some fi l r Ni) Hr), (proj2 (row_at_none fu l) Hn), A. reflexivity. }
      rewrite E in X. apply filter_In in X. apply X.
    + intros l r Hr Hn. destruct (fill && all_nan (lf_cols fu) r) eqn:A; [apply andb_prop in A; split; [apply all_nan_iff; apply A|apply A]|]. exfalso. apply Hn.
      assert (X : In l (filter (keep_u fi fu) (labels fu))). { apply filter_In. split; [apply (in_map fst) in Hr; exact Hr|]. unfold keep_u. rewrite (proj2 (row_at_some fu l r Nu) Hr), (proj2 (row_at_none fi l) Hn), A. reflexivity. }
      rewrite <- E in X. apply filter_In in X. apply X.
    + intros p Hp. rewrite (filter_ext_in p (keep_i fi fu)), (filter_ext_in p (keep_u fi fu)); [exact E| |].
      * intros l Hl. destruct (p l) eqn:Ep; [apply Hp, Cc in Ep; destruct Ep as [_ X]; apply filter_In in X; symmetry; apply X|]. destruct (keep_u fi fu l) eqn:K; [|reflexivity]. exfalso.
        assert (X : In l (filter (keep_u fi fu) (labels fu))) by (apply filter_In; split; assumption). rewrite <- E in X. apply (Ci l X) in Hl. apply Hp in Hl. congruence.
      * intros l Hl. destruct (p l) eqn:Ep; [apply Hp, Cc in Ep; destruct Ep as [X _]; apply filter_In in X; symmetry; apply X|]. destruct (keep_i fi fu l) eqn:K; [|reflexivity]. exfalso.
        assert (X : In l (filter (keep_i fi fu) (labels fi))) by (apply filter_In; split; assumption). pose proof X as Y. rewrite E in Y. apply filter_In in Y. destruct Y as [Y _]. apply (Ci l X) in Y. apply Hp in Y. congruence.
    + rewrite Len in E0. destruct (filter (keep_i fi fu) (labels fi)) as [|l t] eqn:F; [contradiction|]. exists l. apply Ci; [left; reflexivity|].
      assert (X : In l (filter (keep_u fi fu) (labels fu))) by (rewrite <- E; left; reflexivity). apply filter_In in X. apply X.
  - intros (Hc & H1 & H2 & H3 & l0 & H4). set (p := fun l => keep_i fi fu l && match row_at ldec fu l with Some _ => true | None => false end).
    assert (Hp : forall l, p l = true <-> complete fi fu l).
    { intros l. unfold p. rewrite andb_true_iff. split.
      - intros [A B]. destruct (row_at ldec fu l) eqn:E; [|discriminate]. apply row_at_in, (in_map fst) in E. cbn in E. apply Ci; [|exact E]. apply filter_In. split; [|exact A].
        unfold keep_i in A. destruct (row_at ldec fi l) eqn:E'; [|discriminate]. apply row_at_in, (in_map fst) in E'. exact E'.
      - intros C. pose proof C as (r & r' & _ & B & _). apply (row_at_some fu l r' Nu) in B. rewrite B. split; [|reflexivity]. apply Cc in C. destruct C as [C _]. apply filter_In in C. apply C. }
    specialize (H3 p Hp). assert (E : filter (keep_i fi fu) (labels fi) = filter (keep_u fi fu) (labels fu)).
    { rewrite (filter_ext_in (keep_i fi fu) p (labels fi)), (filter_ext_in (keep_u fi fu) p (labels fu)); [exact H3| |].
      - intros l Hl. unfold p. destruct (row_at ldec fu l) as [r'|] eqn:Eu; [|apply row_at_none in Eu; contradiction]. rewrite andb_true_r. unfold keep_u, keep_i. rewrite Eu. destruct (row_at ldec fi l) as [r|] eqn:Ei; [reflexivity|].
        apply row_at_none in Ei. apply (row_at_some fu l r' Nu) in Eu. destruct (H2 l r' Eu Ei) as [A ->]. apply all_nan_iff in A. rewrite A. reflexivity.
      - intros l Hl. unfold p. destruct (row_at ldec fu l) as [r'|] eqn:Eu; [rewrite andb_true_r; reflexivity|]. rewrite andb_false_r. unfold keep_i. rewrite Eu. destruct (row_at ldec fi l) as [r|] eqn:Ei; [|reflexivity].
        apply row_at_none in Eu. apply (row_at_some fi l r Ni) in Ei. specialize (H1 l r Ei Eu). apply all_nan_iff in H1. rewrite H1. reflexivity. }
    destruct (list_eq_dec ldec _ _) as [_|N]; [|contradiction]. destruct (list_eq_dec string_dec _ _) as [_|N]; [|contradiction]. cbn [andb negb]. rewrite Len.
    destruct (List.length _ =? 0)%nat eqn:E0; [|eexists; reflexivity]. exfalso. apply Nat.eqb_eq in E0. apply Cc in H4. destruct H4 as [H4 _]. destruct (filter (keep_i fi fu) (labels fi)); [destruct H4|discriminate].
Qed.

(** Otherwise, without text, the error is a ValueError, or a ZeroDivisionError when
    nothing is left. *)
Theorem C97_rejected_how : forall (fi fu : lframe L) dr lc e, NoDup (labels fi) -> NoDup (labels fu) -> no_text fi -> no_text fu ->
  load_l fi fu dr lc = Raise e -> e = ValueError \/ e = ZeroDivisionError /\ forall l, ~ complete fi fu l.
Proof.
  intros fi fu dr lc e Ni Nu Ti Tu H. unfold load_labelled in H. rewrite (nan_filter_rows fi fu Ni Nu) in H.
  assert (T1 : has_text (plain (mkLF (lf_cols fi) (filter (fun q => keep_i fi fu (fst q)) (lf_rows fi)))) = false).
  { apply has_text_false. intros l r c s Hr Hc. cbn in Hr, Hc. apply filter_In in Hr. apply (Ti l r c s (proj1 Hr) Hc). }
  assert (T2 : has_text (plain (mkLF (lf_cols fu) (filter (fun q => keep_u fi fu (fst q)) (lf_rows fu)))) = false).
  { apply has_text_false. intros l r c s Hr Hc. cbn in Hr, Hc. apply filter_In in Hr. apply (Tu l r c s (proj1 Hr) Hc). }
  rewrite T1, T2 in H. cbn [orb] in H. destruct (negb _); [injection H as <-; left; reflexivity|]. cbn [lf_rows] in H. destruct (List.length _ =? 0)%nat eqn:E0; [|discriminate]. injection H as <-. right. split; [reflexivity|].
  intros l C. apply Nat.eqb_eq in E0. pose proof C as (r & r' & A & B & _). assert (X : In (l, r) (filter (fun q => keep_i fi fu (fst q)) (lf_rows fi))).
  { apply filter_In. split; [exact A|]. apply (complete_keeps fi fu l Ni Nu); [apply (in_map fst) in A; exact A|apply (in_map fst) in B; exact B|exact C]. }
  destruct (filter _ (lf_rows fi)); [destruct X|discriminate].
Qed.

(** Files that list the same labels (repeated ones included) and columns are loaded
    position by position. *)
Theorem C97_same_labels : forall (fi fu : lframe L) dr lc, labels fi = labels fu -> lf_cols fi = lf_cols fu ->
  match load_l fi fu dr lc with
  | Ok (ls, h, sn) => load (plain fi) (plain fu) dr lc = Ok (h, sn)
  | Raise e => load (plain fi) (plain fu) dr lc = Raise e
  end.
Proof.
  intros fi fu dr lc El Ec. unfold load_labelled, nan_filter, same. destruct (list_eq_dec ldec (labels fi) (labels fu)) as [_|]; [|contradiction].
  set (g := fun q : (L * row) * (L * row) => negb (all_nan (lf_cols fi) (snd (fst q)) || all_nan (lf_cols fu) (snd (snd q)))). set (kept := filter g (combine (lf_rows fi) (lf_rows fu))).
  assert (Fr : filter_rows (fun ri ru => negb (all_nan (cols (plain fi)) ri || all_nan (cols (plain fu)) ru)) (plain fi) (plain fu) = (plain (mkLF (lf_cols fi) (map fst kept)), plain (mkLF (lf_cols fu) (map snd kept)))).
  { unfold filter_rows, plain. cbn [cols rows lf_cols lf_rows].
    assert (G : forall (a b : list (L * row)), filter (fun q : row * row => negb (all_nan (lf_cols fi) (fst q) || all_nan (lf_cols fu) (snd q))) (combine (map snd a) (map snd b)) = map (fun q : (L * row) * (L * row) => (snd (fst q), snd (snd q))) (filter g (combine a b))).
    { induction a as [|x a IH]; intros [|y b]; try reflexivity. cbn [map combine filter fst snd]. unfold g at 1. cbn [fst snd]. destruct (negb _); cbn [map]; rewrite IH; reflexivity. }
    rewrite G. fold kept. rewrite !map_map. reflexivity. }
  unfold load. rewrite Fr. destruct (_ || _) eqn:T; [reflexivity|].
  assert (E : labels (mkLF (lf_cols fi) (map fst kept)) = labels (mkLF (lf_cols fu) (map snd kept))).
  { unfold labels. cbn [lf_rows]. rewrite !map_map. apply map_ext_in. intros q Hq. apply filter_In in Hq. destruct Hq as [Hq _]. apply (combine_labels _ _ El q Hq). }
  destruct (list_eq_dec ldec _ _) as [_|N]; [|contradiction]. cbn [lf_cols]. destruct (list_eq_dec string_dec _ _) as [_|N]; [|contradiction]. cbn [andb negb]. cbn [plain rows lf_rows cols lf_cols]. rewrite !map_length.
  destruct (List.length kept =? 0)%nat; reflexivity.
Qed.
End Rows.
Print Assumptions C97_loaded_rows.
Print Assumptions C97_accepted_iff.
Print Assumptions C97_rejected_how.
Print Assumptions C97_same_labels.

(** Example: label 2 has no uncertainties, label 9 no values at all and stands in
    one file only. *)
Definition cell1 (x : fl) : row := fun c => if string_dec c "a" then Num x else Num NaN.
Definition ex_i : lframe nat := mkLF ["a"%string] [(1%nat, cell1 (Fin 5)); (9%nat, cell1 NaN); (2%nat, cell1 (Fin 6)); (3%nat, cell1 (Fin 7))].
Definition ex_u : lframe nat := mkLF ["a"%string] [(1%nat, cell1 (Fin 1)); (2%nat, cell1 NaN); (3%nat, cell1 (Fin 2))].
Lemma not_nan_row : forall (f : lframe nat) x, lf_cols f = ["a"%string] -> ~ nan_row f (cell1 (Fin x)).
Proof. intros f x E H. specialize (H "a"%string). rewrite E in H. specialize (H (or_introl eq_refl)). discriminate H. Qed.
Lemma cell1_no_text : forall (f : lframe nat), (forall l r, In (l, r) (lf_rows f) -> exists x, r = cell1 x) -> no_text f.
Proof. intros f H l r c s Hr _. destruct (H l r Hr) as [x ->]. unfold cell1. destruct (string_dec c "a"); discriminate. Qed.
Example C97_instance : exists h sn, load_labelled Nat.eq_dec true ex_i ex_u None None = Ok ([1%nat; 3%nat], h, sn) /\
  NoDup (labels ex_i) /\ NoDup (labels ex_u) /\ no_text ex_i /\ no_text ex_u /\ complete ex_i ex_u 3%nat /\ ~ complete ex_i ex_u 2%nat.
Proof.
  eexists. eexists. split; [reflexivity|]. split; [repeat constructor; cbn; intuition discriminate|]. split; [repeat constructor; cbn; intuition discriminate|].
  split; [apply cell1_no_text; cbn; intros l r H; intuition (try congruence); match goal with E : (_, _) = (_, _) |- _ => injection E as <- <-; eexists; reflexivity end|].
  split; [apply cell1_no_text; cbn; intros l r H; intuition (try congruence); match goal with E : (_, _) = (_, _) |- _ => injection E as <- <-; eexists; reflexivity end|]. split.
  - exists (cell1 (Fin 7)), (cell1 (Fin 2)). cbn. split; [tauto|]. split; [tauto|]. split; apply not_nan_row; reflexivity.
  - intros (r & r' & _ & H & _ & N). cbn in H. destruct H as [H|[H|[H|[]]]]; try discriminate H. injection H as <-. apply N. intros c Hc. cbn in Hc. destruct Hc as [<-|[]]. reflexivity.
Qed.

(** Rows are not matched by label: the same complete rows in another order, or the
    same columns in another order, are refused. *)
Theorem C97_matched_by_label_refuted : ~ (forall fill (fi fu : lframe nat) dr lc, NoDup (labels fi) -> NoDup (labels fu) -> no_text fi -> no_text fu ->
  Permutation (lf_cols fi) (lf_cols fu) -> Permutation (labels fi) (labels fu) -> (forall l, In l (labels fi) -> complete fi fu l) -> labels fi <> [] ->
  exists x, load_labelled Nat.eq_dec fill fi fu dr lc = Ok x).
Proof.
  intros H. specialize (H true (mkLF ["a"%string] [(1%nat, cell1 (Fin 5)); (2%nat, cell1 (Fin 6))]) (mkLF ["a"%string] [(2%nat, cell1 (Fin 1)); (1%nat, cell1 (Fin 1))]) None None).
  destruct H as [x H]; try (apply cell1_no_text; cbn; intros l r H; intuition (try congruence); match goal with E : (_, _) = (_, _) |- _ => injection E as <- <-; eexists; reflexivity end).
  - repeat constructor; cbn; intuition discriminate.
  - repeat constructor; cbn; intuition discriminate.
  - apply Permutation_refl.
  - apply perm_swap.
  - cbn. intros l [<-|[<-|[]]]; [exists (cell1 (Fin 5)), (cell1 (Fin 1))|exists (cell1 (Fin 6)), (cell1 (Fin 1))]; cbn; (split; [tauto|]); (split; [tauto|]); split; apply not_nan_row; reflexivity.
  - discriminate.
  - discriminate H.
Qed.
Print Assumptions C97_matched_by_label_refuted.
Lemma xal_i : NoDup (labels ex_i).
Proof. destruct C97_instance as (h & sn & _ & A & _). exact A. Qed.
Lemma xal_u : NoDup (labels ex_u).
Proof. destruct C97_instance as (h & sn & _ & _ & A & _). exact A. Qed.
Lemma xal_ti : no_text ex_i.
Proof. destruct C97_instance as (h & sn & _ & _ & _ & A & _). exact A. Qed.
Lemma xal_tu : no_text ex_u.
Proof. destruct C97_instance as (h & sn & _ & _ & _ & _ & A & _). exact A. Qed.
Example C97_loaded_rows_example : exists ls h sn, load_labelled Nat.eq_dec true ex_i ex_u None None = Ok (ls, h, sn) /\ forall l, In l ls <-> complete ex_i ex_u l.
Proof.
  destruct C97_instance as (h & sn & E & _). exists [1%nat; 3%nat], h, sn. split; [exact E |].
  exact (proj1 (proj2 (proj2 (C97_loaded_rows Nat.eq_dec true ex_i ex_u None None _ _ _ xal_i xal_u E)))).
Qed.
Example C97_accepted_iff_example := C97_accepted_iff Nat.eq_dec true ex_i ex_u None None xal_i xal_u xal_ti xal_tu.
(* the uncertainty of sample 3 is missing *)
Definition xal_short : lframe nat := mkLF ["a"%string] [(1%nat, cell1 (Fin 1)); (2%nat, cell1 (Fin 1))].
Example C97_rejected_how_example : forall e, load_labelled Nat.eq_dec true ex_i xal_short None None = Raise e ->
  e = ValueError \/ e = ZeroDivisionError /\ forall l, ~ complete ex_i xal_short l.
Proof.
  intros e E. refine (C97_rejected_how Nat.eq_dec true ex_i xal_short None None e xal_i _ xal_ti _ E).
  - repeat constructor; cbn; intuition discriminate.
  - intros l r c s [A | [A | []]] [<- | []]; injection A as _ <-; discriminate.
Qed.
Example C97_same_labels_example := C97_same_labels Nat.eq_dec true ex_u (mkLF ["a"%string] [(1%nat, cell1 (Fin 3)); (2%nat, cell1 (Fin 2)); (3%nat, cell1 (Fin 1))]) None None eq_refl eq_refl.

(** ** C98 *)
Lemma insert_perm x l : Permutation (x :: l) (insert x l).
Proof. induction l as [|y t IH]; [apply Permutation_refl|]. cbn. destruct (Rle_dec x y); [apply Permutation_refl|]. eapply perm_trans; [apply perm_swap|]. apply perm_skip, IH. Qed.
Lemma sorted_copy_perm l : Permutation l (sorted_copy l).
Proof. induction l as [|x t IH]; [apply Permutation_refl|]. cbn. eapply perm_trans; [apply perm_skip, IH|apply insert_perm]. Qed.
Lemma insert_sorted x l : StronglySorted Rle l -> StronglySorted Rle (insert x l).
Proof.
  induction l as [|y t IH]; intros S; cbn; [repeat constructor|]. inversion S as [|? ? S1 S2]; subst. destruct (Rle_dec x y) as [E|E].
  - constructor; [exact S|]. constructor; [exact E|]. eapply Forall_impl; [|exact S2]. cbn. intros z Hz. lra.
  - constructor; [apply IH, S1|]. apply (Permutation_Forall (insert_perm x t)). constructor; [lra|exact S2].
Qed.
Lemma sorted_copy_sorted l : StronglySorted Rle (sorted_copy l).
Proof. induction l as [|x t IH]; cbn; [constructor|apply insert_sorted, IH]. Qed.
Lemma sorted_unique : forall a b, StronglySorted Rle a -> StronglySorted Rle b -> Permutation a b -> a = b.
Proof.
  induction a as [|x a IH]; intros b Sa Sb P; [apply Permutation_nil in P; congruence|]. destruct b as [|y b]; [apply Permutation_sym, Permutation_nil in P; discriminate|].
  inversion Sa as [|? ? Sa1 Sa2]; subst. inversion Sb as [|? ? Sb1 Sb2]; subst. rewrite Forall_forall in Sa2, Sb2.
  assert (x = y). { assert (X : In x (y :: b)) by (apply (Permutation_in _ P); left; reflexivity). assert (Y : In y (x :: a)) by (apply (Permutation_in _ (Permutation_sym P)); left; reflexivity).
    destruct X as [X|X]; [congruence|]. destruct Y as [Y|Y]; [congruence|]. apply Sb2 in X. apply Sa2 in Y. lra. }
  subst y. f_equal. apply IH; try assumption. apply Permutation_cons_inv in P. exact P.
Qed.
Lemma sorted_nth : forall s, StronglySorted Rle s -> forall i j, (i <= j)%nat -> (j < List.length s)%nat -> nth i s 0 <= nth j s 0.
Proof.
  induction s as [|x s IH]; intros S i j Hij Hj; [cbn in Hj; lia|]. inversion S as [|? ? S1 S2]; subst. destruct j as [|j]; [assert (i = 0)%nat by lia; subst; lra|]. cbn in Hj. destruct i as [|i]; cbn [nth].
  - rewrite Forall_forall in S2. apply S2, nth_In. lia.
  - apply IH; [exact S1|lia|lia].
Qed.

(** The position of the lower and upper neighbour of an edge. *)
Definition below (c N k : nat) : nat := (k * (c - 1) / N)%nat.
Definition above (c N k : nat) : nat := ((k * (c - 1) + (N - 1)) / N)%nat.

Lemma above_cases c N k : (0 < N)%nat -> above c N k = (if ((k * (c - 1)) mod N =? 0)%nat then below c N k else S (below c N k)).
Proof.
  intros HN. unfold above, below. set (a := (k * (c - 1))%nat). pose proof (Nat.div_mod a N ltac:(lia)) as D. pose proof (Nat.mod_upper_bound a N ltac:(lia)) as U.
  destruct (Nat.eqb_spec (a mod N) 0) as [E|E].
  - symmetry. apply (Nat.div_unique _ _ _ (N - 1)%nat); lia.
  - symmetry. apply (Nat.div_unique _ _ _ (a mod N - 1)%nat); lia.
Qed.
Lemma above_top c N k : (0 < N)%nat -> (k <= N)%nat -> (above c N k <= c - 1)%nat.
Proof.
  intros HN Hk. unfold above. assert (k * (c - 1) + (N - 1) < N * S (c - 1))%nat by nia. apply Nat.div_lt_upper_bound in H; lia.
Qed.
Lemma below_above c N k : (0 < N)%nat -> (below c N k <= above c N k)%nat.
Proof. intros HN. rewrite above_cases by exact HN. destruct (_ =? _)%nat; lia. Qed.

Lemma quantile_between xs s N k : Permutation xs s -> StronglySorted Rle s -> (0 < N)%nat -> (k <= N)%nat -> xs <> [] ->
  quantile xs N k = nth (below (List.length s) N k) s 0 + (nth (above (List.length s) N k) s 0 - nth (below (List.length s) N k) s 0) * (INR ((k * (List.length s - 1)) mod N) / INR N).
Proof.
  intros P S HN Hk Hx. unfold quantile. assert (E : sorted_copy xs = s). { apply sorted_unique; [apply sorted_copy_sorted|exact S|]. eapply perm_trans; [apply Permutation_sym, sorted_copy_perm|exact P]. }
  cbv zeta. rewrite E, (Permutation_length P). set (c := List.length s). assert (Hc : (0 < c)%nat). { unfold c. rewrite <- (Permutation_length P). destruct xs; [contradiction|cbn; lia]. }
  pose proof (above_top c N k HN Hk) as T. rewrite above_cases in T by exact HN. rewrite above_cases by exact HN. unfold below in *. destruct (Nat.eqb_spec ((k * (c - 1)) mod N) 0) as [Z|Z].
  - rewrite Z. cbn [INR]. unfold Rdiv. rewrite !Rmult_0_l, !Rmult_0_r. reflexivity.
  - f_equal. f_equal. f_equal. apply nth_indep. fold c. lia.
Qed.
Lemma ratio_bounds a N : (0 < N)%nat -> 0 <= INR (a mod N) / INR N < 1.
Proof.
  intros HN. pose proof (lt_0_INR N HN). pose proof (pos_INR (a mod N)). pose proof (Nat.mod_upper_bound a N ltac:(lia)) as U. apply lt_INR in U. split.
  - apply Rmult_le_pos; [assumption|left; apply Rinv_0_lt_compat; assumption].
  - apply (Rmult_lt_reg_r (INR N)); [assumption|]. unfold Rdiv. rewrite Rmult_assoc, Rinv_l by lra. lra.
Qed.

Lemma edge_repeats xs s N k : Permutation xs s -> StronglySorted Rle s -> (0 < N)%nat -> (k < N)%nat -> xs <> [] ->
  (quantile xs N k = quantile xs N (S k) <-> nth (below (List.length s) N k) s 0 = nth (above (List.length s) N (S k)) s 0).
Proof.
  intros P S0 HN Hk Hx. rewrite (quantile_between xs s N k P S0 HN ltac:(lia) Hx), (quantile_between xs s N (S k) P S0 HN ltac:(lia) Hx).
  set (c := List.length s) in *. assert (Hc : (0 < c)%nat). { unfold c. rewrite <- (Permutation_length P). destruct xs; [contradiction|cbn; lia]. }
  pose proof (above_top c N k HN ltac:(lia)) as T1. pose proof (above_top c N (S k) HN ltac:(lia)) as T2. pose proof (below_above c N k HN) as O1. pose proof (below_above c N (S k) HN) as O2.
  pose proof (ratio_bounds (k * (c - 1)) N HN) as R1. pose proof (ratio_bounds (S k * (c - 1)) N HN) as R2.
  assert (O3 : (below c N k <= below c N (S k))%nat) by (unfold below; apply Nat.div_le_mono; lia).
  assert (O4 : (above c N k <= above c N (S k))%nat) by (unfold above; apply Nat.div_le_mono; lia).
  assert (M : forall i j, (i <= j)%nat -> (j <= c - 1)%nat -> nth i s 0 <= nth j s 0) by (intros i j ? ?; apply (sorted_nth s S0); fold c; lia).
  pose proof (M _ _ O1 ltac:(lia)) as M1. pose proof (M _ _ O2 ltac:(lia)) as M2. pose proof (M _ _ O3 ltac:(lia)) as M3. pose proof (M _ _ O4 ltac:(lia)) as M4.
  set (r := INR ((k * (c - 1)) mod N) / INR N) in *. set (t := INR ((S k * (c - 1)) mod N) / INR N) in *. split.
  - intros E. destruct (Nat.eq_dec c 1) as [C1|C1].
    { assert (X : above c N (S k) = below c N k) by (unfold below in *; rewrite C1 in *; cbn in *; lia). rewrite X. reflexivity. }
    destruct (Nat.eq_dec (below c N k) (below c N (S k))) as [Eb|Eb].
    + assert (Et : t - r = INR (c - 1) / INR N).
      { unfold t, r. unfold Rdiv. rewrite <- Rmult_minus_distr_r. f_equal. rewrite <- minus_INR.
        - f_equal. unfold below in Eb. pose proof (Nat.div_mod (k * (c - 1)) N ltac:(lia)) as D1. pose proof (Nat.div_mod (S k * (c - 1)) N ltac:(lia)) as D2. rewrite <- Eb in D2. nia.
        - unfold below in Eb. pose proof (Nat.div_mod (k * (c - 1)) N ltac:(lia)) as D1. pose proof (Nat.div_mod (S k * (c - 1)) N ltac:(lia)) as D2. rewrite <- Eb in D2. nia. }
      assert (Tp : 0 < INR (c - 1) / INR N) by (apply Rdiv_lt_0_compat; apply lt_0_INR; lia).
      assert (Ea : above c N (S k) = S (below c N k)).
      { rewrite above_cases by exact HN. rewrite <- Eb. destruct (Nat.eqb_spec ((S k * (c - 1)) mod N) 0) as [Z|Z]; [|reflexivity]. exfalso. assert (t = 0) by (unfold t; rewrite Z; cbn; unfold Rdiv; apply Rmult_0_l). lra. }
      rewrite Ea in *. rewrite <- Eb in *.
      assert (Ek : nth (above c N k) s 0 * r = nth (S (below c N k)) s 0 * r).
      { rewrite above_cases by exact HN. destruct (Nat.eqb_spec ((k * (c - 1)) mod N) 0) as [Z|Z]; [|reflexivity]. assert (r = 0) as -> by (unfold r; rewrite Z; cbn; unfold Rdiv; apply Rmult_0_l). lra. }
      assert (Q : (nth (S (below c N k)) s 0 - nth (below c N k) s 0) * (t - r) = 0) by nra. apply Rmult_integral in Q. destruct Q as [Q|Q]; lra.
    + assert (O5 : (S (below c N k) <= below c N (S k))%nat) by lia. pose proof (M _ _ O5 ltac:(lia)) as M5. pose proof (M (below c N k) (S (below c N k)) ltac:(lia) ltac:(lia)) as M6.
      assert (A : nth (below c N k) s 0 = nth (S (below c N k)) s 0).
      { destruct (Nat.eqb_spec ((k * (c - 1)) mod N) 0) as [Z|Z].
        - assert (r = 0) as Er by (unfold r; rewrite Z; cbn; unfold Rdiv; apply Rmult_0_l). rewrite Er in E. nra.
        - assert (Ea : above c N k = S (below c N k)) by (rewrite above_cases by exact HN; destruct (Nat.eqb_spec ((k * (c - 1)) mod N) 0); [contradiction|reflexivity]). rewrite Ea in *. nra. }
      rewrite (above_cases c N (S k)) in * by exact HN. destruct (Nat.eqb_spec ((S k * (c - 1)) mod N) 0) as [Z|Z].
      * assert (t = 0) as Er by (unfold t; rewrite Z; cbn; unfold Rdiv; apply Rmult_0_l). rewrite Er in E.
        assert (nth (above c N k) s 0 <= nth (S (below c N k)) s 0). { apply M; [|lia]. rewrite above_cases by exact HN. destruct (_ =? _)%nat; lia. } nra.
      * assert (nth (above c N k) s 0 <= nth (S (below c N k)) s 0). { apply M; [|lia]. rewrite above_cases by exact HN. destruct (_ =? _)%nat; lia. }
        assert (t <> 0). { unfold t. intros X. unfold Rdiv in X. apply Rmult_integral in X. destruct X as [X|X]; [apply (INR_eq _ 0) in X; contradiction|]. pose proof (Rinv_0_lt_compat _ (lt_0_INR N HN)). lra. } nra.
  - intros E. assert (nth (above c N k) s 0 = nth (below c N k) s 0) as -> by lra. assert (nth (above c N (S k)) s 0 = nth (below c N (S k)) s 0) as -> by lra. lra.
Qed.
Lemma no_repeat_false : forall e, no_repeat e = false <-> exists k, (S k < List.length e)%nat /\ nth k e 0 = nth (S k) e 0.
Proof.
  induction e as [|a [|b t] IH].
  - split; [discriminate|]. intros (k & H & _). cbn in H. lia.
  - split; [discriminate|]. intros (k & H & _). cbn in H. lia.
  - change (no_repeat (a :: b :: t)) with ((if Req_EM_T a b then false else true) && no_repeat (b :: t)). rewrite andb_false_iff, IH. split.
    + intros [H|(k & H1 & H2)]; [exists 0%nat; split; [cbn; lia|]; destruct (Req_EM_T a b) as [<-|]; [reflexivity|discriminate]|]. exists (S k). split; [cbn in *; lia|exact H2].
    + intros (k & H1 & H2). destruct k as [|k]; [left; cbn in H2; destruct (Req_EM_T a b); [reflexivity|contradiction]|]. right. exists k. split; [cbn in *; lia|exact H2].
Qed.
Lemma edges_nth xs N k : (k <= N)%nat -> nth k (edges xs N) 0 = quantile xs N k.
Proof. intros H. unfold edges. rewrite (nth_indep _ 0 (quantile xs N 0)) by (rewrite map_length, seq_length; lia). rewrite map_nth, seq_nth by lia. reflexivity. Qed.

(** Aggregating [max_n] = N >= 2 bins fails for a column exactly when it has no known
    value, or, with the c known values in ascending order, the value just below
    position k(c-1)/N and the one just above (k+1)(c-1)/N are the same for some k. *)
Theorem C98_column_iff : forall col s N, (2 <= N)%nat -> Permutation (known col) s -> StronglySorted Rle s ->
  (column_ok N col = false <-> s = [] \/ exists k, (k < N)%nat /\ nth (k * (List.length s - 1) / N) s 0 = nth ((S k * (List.length s - 1) + (N - 1)) / N) s 0).
Proof.
  intros col s N HN P S0. unfold column_ok. assert ((N <=? 1)%nat = false) as -> by (apply Nat.leb_gt; lia). cbn [orb]. rewrite (Permutation_length P). destruct s as [|x s'] eqn:Es.
  - cbn. split; [left; reflexivity|reflexivity].
  - rewrite <- Es in *. assert (Hx : known col <> []) by (intros X; rewrite X, Es in P; apply Permutation_nil in P; discriminate). assert (List.length s =? 0 = false)%nat as -> by (rewrite Es; reflexivity). cbn [negb andb].
    rewrite no_repeat_false. split.
    + intros (k & H1 & H2). right. exists k. unfold edges in H1. rewrite map_length, seq_length in H1. split; [lia|]. rewrite !edges_nth in H2 by lia. apply (edge_repeats (known col) s N k P S0 ltac:(lia) ltac:(lia) Hx) in H2. exact H2.
    + intros [H|(k & H1 & H2)]; [congruence|]. exists k. split; [unfold edges; rewrite map_length, seq_length; lia|]. rewrite !edges_nth by lia. apply (edge_repeats (known col) s N k P S0 ltac:(lia) ltac:(lia) Hx). exact H2.
Qed.
Print Assumptions C98_column_iff.

(** Columns whose known values are all different never fail. *)
Theorem C98_distinct : forall col N, (2 <= N)%nat -> NoDup (known col) -> (2 <= List.length (known col))%nat -> column_ok N col = true.
Proof.
  intros col N HN D Hc. destruct (column_ok N col) eqn:E; [reflexivity|]. exfalso. apply (C98_column_iff col (sorted_copy (known col)) N HN (sorted_copy_perm _) (sorted_copy_sorted _)) in E.
  pose proof (Permutation_length (sorted_copy_perm (known col))) as Hl. set (s := sorted_copy (known col)) in *. destruct E as [E|(k & H1 & H2)]; [rewrite E in Hl; cbn in Hl; lia|].
  assert (Ds : NoDup s) by (apply (Permutation_NoDup (sorted_copy_perm (known col)) D)). set (c := List.length s) in *.
  pose proof (above_top c N (S k) ltac:(lia) ltac:(lia)) as T. unfold above in T. assert (B : (k * (c - 1) / N < (S k * (c - 1) + (N - 1)) / N)%nat).
  { pose proof (Nat.div_mod (k * (c - 1)) N ltac:(lia)) as D1. pose proof (Nat.mod_upper_bound (k * (c - 1)) N ltac:(lia)). enough (S (k * (c - 1) / N) <= (S k * (c - 1) + (N - 1)) / N)%nat by lia.
    apply Nat.div_le_lower_bound; [lia|]. nia. }
  rewrite (NoDup_nth s 0) in Ds. apply Ds in H2; fold c; lia.
Qed.
Lemma run : forall s x, StronglySorted Rle s -> exists b, (b + count_occ Req_EM_T s x <= List.length s)%nat /\ (forall i, (i < b)%nat -> nth i s 0 < x) /\ (forall i, (b <= i < b + count_occ Req_EM_T s x)%nat -> nth i s 0 = x).
Proof.
  induction s as [|a s IH]; intros x S0; [exists 0%nat; cbn; repeat split; intros; lia|]. inversion S0 as [|? ? S1 S2]; subst. destruct (IH x S1) as (b & B1 & B2 & B3). rewrite Forall_forall in S2. cbn [count_occ List.length]. destruct (Req_EM_T a x) as [->|N].
  - assert (b = 0 \/ count_occ Req_EM_T s x = 0)%nat as [E|E].
    { destruct b as [|b]; [left; reflexivity|]. right. exfalso. specialize (B2 0%nat ltac:(lia)). assert (Hs : (0 < List.length s)%nat) by lia. specialize (S2 _ (nth_In s 0 Hs)). lra. }
    + subst b. exists 0%nat. split; [lia|]. split; [intros; lia|]. intros [|i] Hi; [reflexivity|]. cbn [nth]. apply B3. lia.
    + exists 0%nat. rewrite E in *. split; [lia|]. split; [intros; lia|]. intros i Hi. assert (i = 0)%nat as -> by lia. reflexivity.
  - destruct (Rlt_dec a x) as [Hlt|Hge].
    + exists (S b). split; [lia|]. split; [intros [|i] Hi; [exact Hlt|cbn [nth]; apply B2; lia]|]. intros [|i] Hi; [lia|]. cbn [nth]. apply B3. lia.
    + exists 0%nat. assert (E : count_occ Req_EM_T s x = 0%nat). { apply count_occ_not_In. intros Hin. apply S2 in Hin. lra. } rewrite E. split; [lia|]. split; intros; lia.
Qed.
Lemma count_perm : forall (a b : list R) x, Permutation a b -> count_occ Req_EM_T a x = count_occ Req_EM_T b x.
Proof. intros a b x P. apply (Permutation_count_occ Req_EM_T); exact P. Qed.

(** A value that occurs v >= 1 times among c known ones with 2 (c - 1) <= (v - 1) N makes the
    aggregation, and with it the constructor, fail. *)
Theorem C98_repeated_value : forall col N x, (2 <= N)%nat -> In x (known col) ->
  (2 * (List.length (known col) - 1) <= (count_occ Req_EM_T (known col) x - 1) * N)%nat -> column_ok N col = false.
Proof.
  intros col N x HN Hx Hv. apply (C98_column_iff col (sorted_copy (known col)) N HN (sorted_copy_perm _) (sorted_copy_sorted _)).
  pose proof (sorted_copy_perm (known col)) as P. rewrite (count_perm _ _ x P), (Permutation_length P) in Hv. assert (Hin : In x (sorted_copy (known col))) by (apply (Permutation_in _ P Hx)). apply (count_occ_In Req_EM_T) in Hin.
  pose proof (sorted_copy_sorted (known col)) as S0. set (s := sorted_copy (known col)) in *. set (c := List.length s) in *. set (v := count_occ Req_EM_T s x) in *. destruct (run s x S0) as (b & B1 & _ & B3). fold v in B1, B3. fold c in B1.
  right. destruct (Nat.eq_dec c 1) as [C1|C1].
  - exists 0%nat. split; [lia|]. assert (b = 0 /\ v = 1)%nat as [-> Ev] by lia. rewrite C1. cbn [Nat.sub]. rewrite !Nat.mul_0_r. rewrite Nat.div_small, Nat.div_small by lia. reflexivity.
  - assert (Hc : (2 <= c)%nat) by (destruct c as [|[|]]; lia). set (k := ((b * N + (c - 2)) / (c - 1))%nat).
    assert (K1 : (b * N <= k * (c - 1))%nat). { pose proof (Nat.div_mod (b * N + (c - 2)) (c - 1) ltac:(lia)) as D. pose proof (Nat.mod_upper_bound (b * N + (c - 2)) (c - 1) ltac:(lia)). fold k in D. nia. }
    assert (K2 : (k * (c - 1) <= b * N + (c - 2))%nat). { pose proof (Nat.div_mod (b * N + (c - 2)) (c - 1) ltac:(lia)) as D. fold k in D. nia. }
    assert (K3 : (S k * (c - 1) < (b + v - 1) * N)%nat) by nia.
    assert (K4 : (k < N)%nat) by nia.
    exists k. split; [exact K4|]. assert (L1 : (b <= k * (c - 1) / N)%nat) by (apply Nat.div_le_lower_bound; lia). assert (L2 : ((S k * (c - 1) + (N - 1)) / N < b + v)%nat) by (apply Nat.div_lt_upper_bound; nia).
    assert (L3 : (k * (c - 1) / N <= (S k * (c - 1) + (N - 1)) / N)%nat) by (apply Nat.div_le_mono; lia).
    rewrite !B3 by lia. reflexivity.
Qed.
(** What the constructor does, and when there is data to plot. *)
Theorem C98_constructor : forall o rows columns,
  (construct o rows columns = Some true <-> exists N, o = FromFiles N /\ (rows <= N)%nat) /\
  (construct o rows columns = None <-> exists N, o = FromFiles N /\ (N < rows)%nat /\ exists col, In col columns /\ column_ok N col = false).
Proof.
  intros [N|] rows columns; cbn [construct]; [|split; split; [discriminate|intros (N & H & _); discriminate H|discriminate|intros (N & H & _); discriminate H]].
  unfold aggregate. destruct (Nat.leb_spec rows N) as [Hr|Hr].
  - split; split; [intros _; exists N; auto|reflexivity|discriminate|intros (M & [= <-] & H & _); lia].
  - split.
    + split; [destruct (forallb _ _); discriminate|]. intros (M & [= <-] & H). lia.
    + destruct (forallb (column_ok N) columns) eqn:F.
      * split; [discriminate|]. intros (M & [= <-] & _ & col & H1 & H2). rewrite forallb_forall in F. rewrite (F col H1) in H2. discriminate.
      * split; [|reflexivity]. intros _. exists N. split; [reflexivity|]. split; [exact Hr|]. clear Hr. induction columns as [|col t IH]; [discriminate|]. cbn in F. apply andb_false_iff in F. destruct F as [F|F]; [exists col; split; [left; reflexivity|exact F]|]. destruct (IH F) as (col' & H1 & H2). exists col'. split; [right; exact H1|exact H2].
Qed.
Print Assumptions C98_distinct.
Print Assumptions C98_repeated_value.
Print Assumptions C98_constructor.

(** A handler with more rows than max_plotting_n, or made from frames, shows nothing
    in any data plot. *)
Theorem C98_no_plot_data : forall o rows columns ready, construct o rows columns = Some ready ->
  (forall N, o = FromFiles N -> (N < rows)%nat) ->
  forall n m x y i menu fe sel l,
    plot_data_uncertainty ready n menu fe <> Features l /\ plot_feature_data ready n x y <> Features l /\ plot_feature_timeseries ready m n sel <> Features l /\
    plot_heatmap ready n <> Features l /\ plot_histograms ready n <> Features l /\ (forall x y, plot_2d ready n x y <> Features l) /\ (forall m', plot_estimated_observed ready m m' n i <> Features l).
Proof.
  intros o rows columns ready H Ho n m x y i menu fe sel l. assert (ready = false) as ->. { destruct ready; [|reflexivity]. apply C98_constructor in H. destruct H as (N & E & H). specialize (Ho N E). lia. }
  repeat split; try discriminate. intros m'. unfold plot_estimated_observed. cbn [negb]. destruct (_ || _); discriminate.
Qed.
(** With plot data: what each choice of feature shows. *)
Theorem C98_feature_choice : forall n m,
  (forall i, (0 <= i < Z.of_nat n)%Z -> plot_data_uncertainty true n false (Some i) = Features [Z.to_nat i]) /\
  (forall i, (- Z.of_nat n <= i < 0)%Z -> plot_data_uncertainty true n false (Some i) = Features [Z.to_nat (Z.of_nat n + i)]) /\
  (forall x y, plot_feature_data true n x y = Features [Z.to_nat x; Z.to_nat y] <-> (0 <= x < Z.of_nat n)%Z /\ (0 <= y < Z.of_nat n)%Z) /\
  (forall i, (0 < m)%nat -> (0 <= i < Z.of_nat m)%Z -> (i < Z.of_nat n)%Z -> plot_feature_timeseries true m n (ByIndex i) = Features [Z.to_nat i]) /\
  (forall i j, (0 < m)%nat -> (0 <= j < Z.of_nat m)%Z -> (j < Z.of_nat n)%Z -> (Z.of_nat m | i - j)%Z -> plot_feature_timeseries true m n (ByIndex i) = Features [Z.to_nat j]) /\
  (forall i, (0 < m)%nat -> (- (Z.of_nat m - Z.of_nat n) <= i < 0)%Z -> plot_feature_timeseries true m n (ByIndex i) = Error IndexErr) /\
  (forall k i, (0 <= i < Z.of_nat n)%Z -> plot_estimated_observed true m k n i = Features [Z.to_nat i] <-> k = m) /\
  (forall l, (forall i, In i l -> (- Z.of_nat n <= i < Z.of_nat n)%Z) -> plot_feature_timeseries true m n (ByList l) = Features (map (fun i => Z.to_nat (i mod Z.of_nat n)) l)) /\
  (forall l, (exists i, In i l /\ ~ (- Z.of_nat n <= i < Z.of_nat n)%Z) -> plot_feature_timeseries true m n (ByList l) = Error IndexErr) /\
  (forall s fe, In s [plot_heatmap true n; plot_histograms true n; plot_data_uncertainty true n true fe; plot_data_uncertainty true n false None] ->
     exists l, s = Features l /\ List.length l = n /\ forall f, (f < n)%nat -> nth_error l f = Some f) /\
  (forall x y, plot_2d true n x y = Features [x; y] <-> (x < n)%nat /\ (y < n)%nat).
Proof.
  intros n m. split; [|split; [|split; [|split; [|split; [|split; [|split; [|split; [|split; [|split]]]]]]]]].
  - intros i Hi. unfold plot_data_uncertainty, one, py_at. cbn [negb]. rewrite (proj2 (Z.leb_le 0 i)), (proj2 (Z.ltb_lt i _)) by lia. reflexivity.
  - intros i Hi. unfold plot_data_uncertainty, one, py_at. cbn [negb]. rewrite (proj2 (Z.leb_gt 0 i)), (proj2 (Z.leb_le _ i)) by lia. reflexivity.
  - intros x y. unfold plot_feature_data. cbn [negb]. split.
    + destruct (_ || _) eqn:E1; [discriminate|]. destruct (_ || _) eqn:E2 in |- *; [discriminate|]. intros _. apply orb_false_iff in E1, E2. rewrite !Z.ltb_ge in *. lia.
    + intros [Hx Hy]. assert (((Z.of_nat n - 1 <? x) || (x <? 0))%Z = false) as -> by (apply orb_false_iff; rewrite !Z.ltb_ge; lia). assert (((Z.of_nat n - 1 <? y) || (y <? 0))%Z = false) as -> by (apply orb_false_iff; rewrite !Z.ltb_ge; lia). reflexivity.
  - intros i Hm Hi Hn. unfold plot_feature_timeseries, one, py_at. cbn [negb]. rewrite Z.mod_small by lia. rewrite (proj2 (Z.leb_le 0 i)), (proj2 (Z.ltb_lt i _)) by lia. reflexivity.
  - intros i j Hm Hj Hn [q Hq]. unfold plot_feature_timeseries, one, py_at. cbn [negb]. assert (i mod Z.of_nat m = j)%Z as -> by (symmetry; apply (Z.mod_unique_pos _ _ q); lia). rewrite (proj2 (Z.leb_le 0 j)), (proj2 (Z.ltb_lt j _)) by lia. reflexivity.
  - intros i Hm Hi. unfold plot_feature_timeseries, one, py_at. cbn [negb]. assert (i mod Z.of_nat m = Z.of_nat m + i)%Z as -> by (symmetry; apply (Z.mod_unique_pos _ _ (-1)); lia). rewrite (proj2 (Z.leb_le 0 _)), (proj2 (Z.ltb_ge _ _)) by lia. reflexivity.
  - intros k i Hi. unfold plot_estimated_observed. cbn [negb]. assert (((i <? 0) || (Z.of_nat n <=? i))%Z = false) as -> by (apply orb_false_iff; rewrite Z.ltb_ge, Z.leb_gt; lia). destruct (Nat.eqb_spec m k); split; intros; congruence.
  - intros l Hl. unfold plot_feature_timeseries. cbn [negb]. enough (all_at n l = Some (map (fun i => Z.to_nat (i mod Z.of_nat n)) l)) as -> by reflexivity.
    induction l as [|i l IH]; [reflexivity|]. cbn [all_at map]. rewrite IH by (intros j Hj; apply Hl; right; exact Hj). specialize (Hl i (or_introl eq_refl)). unfold py_at. destruct (Z.leb_spec 0 i).
    + rewrite (proj2 (Z.ltb_lt i _)) by lia. rewrite Z.mod_small by lia. reflexivity.
    + rewrite (proj2 (Z.leb_le _ i)) by lia. assert (i mod Z.of_nat n = Z.of_nat n + i)%Z as -> by (symmetry; apply (Z.mod_unique_pos _ _ (-1)); lia). reflexivity.
  - intros l Hl. unfold plot_feature_timeseries. cbn [negb]. enough (all_at n l = None) as -> by reflexivity. induction l as [|i l IH]; [destruct Hl as (i & [] & _)|]. cbn [all_at]. destruct Hl as (j & [<-|Hj] & N).
    + assert (py_at n i = None) as ->; [|reflexivity]. unfold py_at. destruct (Z.leb_spec 0 i); [rewrite (proj2 (Z.ltb_ge i _)) by lia|rewrite (proj2 (Z.leb_gt _ i)) by lia]; reflexivity.
    + rewrite IH by (exists j; split; assumption). destruct (py_at n i); reflexivity.
  - intros s fe Hs. exists (seq 0 n). split; [cbn in Hs; intuition congruence|]. split; [apply seq_length|]. intros f Hf. rewrite (nth_error_nth' _ 0%nat) by (rewrite seq_length; lia). rewrite seq_nth by lia. reflexivity.
  - intros x y. unfold plot_2d. destruct (Nat.ltb_spec x n), (Nat.ltb_spec y n); cbn [andb]; split; intros; try discriminate; try lia; try reflexivity; auto.
Qed.
Print Assumptions C98_no_plot_data.
Print Assumptions C98_feature_choice.

(** 4 equal values among 15000 and the default of 10000 points. *)
Definition mostly (n v : nat) : list fl := map (fun i => Fin (INR (i - v))) (seq 1 n).
Lemma nodup_map_in {A B} (f : A -> B) : forall l, NoDup l -> (forall x y, In x l -> In y l -> f x = f y -> x = y) -> NoDup (map f l).
Proof.
  induction l as [|a l IH]; intros N H; [constructor|]. inversion N as [|? ? N1 N2]; subst. cbn. constructor.
  - intros X. apply in_map_iff in X. destruct X as (b & E & X). apply N1. rewrite (H a b (or_introl eq_refl) (or_intror X) (eq_sym E)). exact X.
  - apply IH; [exact N2|]. intros x y Hx Hy. apply H; right; assumption.
Qed.
Lemma known_mostly n v : known (mostly n v) = map (fun i => INR (i - v)) (seq 1 n).
Proof. unfold mostly. induction (seq 1 n) as [|i t IH]; [reflexivity|]. cbn [map known flat_map] in *. cbn. f_equal. exact IH. Qed.
Example C98_instance : column_ok 10000 (mostly 15000 4) = false /\ construct (FromFiles 10000) 15000 [mostly 15000 4] = None /\
  column_ok 3 (mostly 7 1) = true /\ construct (FromFiles 3) 7 [mostly 7 1] = Some false /\ construct (FromFiles 7) 7 [mostly 7 3] = Some true.
Proof.
  assert (Hn : forall n v, known (mostly n v) = map (fun i => INR (i - v)) (seq 1 n)) by apply known_mostly.
  assert (A : column_ok 10000 (mostly 15000 4) = false).
  { apply (C98_repeated_value _ _ 0); rewrite ?Hn.
    - apply Nat.leb_le. vm_compute. reflexivity.
    - apply in_map_iff. exists 1%nat. split; [reflexivity|]. apply in_seq. split; [lia|]. apply Nat.ltb_lt. vm_compute. reflexivity.
    - rewrite map_length, seq_length. assert (E : forall m, (4 <= m)%nat -> (4 <= count_occ Req_EM_T (map (fun i => INR (i - 4)) (seq 1 m)) 0%R)%nat).
      { intros m Hm. replace m with (4 + (m - 4))%nat by lia. rewrite seq_app, map_app, count_occ_app. cbn [seq map Nat.sub INR count_occ]. destruct (Req_EM_T 0 0) as [_|N]; [|exfalso; apply N; reflexivity]. lia. }
      specialize (E 15000%nat ltac:(apply Nat.leb_le; vm_compute; reflexivity)). apply Nat.le_trans with (3 * 10000)%nat; [apply Nat.leb_le; vm_compute; reflexivity|]. apply Nat.mul_le_mono_r. lia. }
  split; [exact A|]. split.
  { apply C98_constructor. exists 10000%nat. split; [reflexivity|]. split; [apply Nat.ltb_lt; vm_compute; reflexivity|]. eexists. split; [left; reflexivity|exact A]. }
  assert (B : column_ok 3 (mostly 7 1) = true).
  { apply C98_distinct; [lia| |rewrite Hn, map_length, seq_length; lia]. rewrite Hn. apply nodup_map_in; [apply seq_NoDup|]. intros x y Hx Hy E. apply INR_eq in E. apply in_seq in Hx. apply in_seq in Hy. lia. }
  split; [exact B|]. split; [cbn [construct]; unfold aggregate; cbn [Nat.leb forallb]; rewrite B; reflexivity|reflexivity].
Qed.
Theorem C98_last_feature_refuted : ~ (forall m n, (0 < m)%nat -> (0 < n)%nat -> plot_feature_timeseries true m n (ByIndex (-1)) = Features [(n - 1)%nat]).
Proof. intros H. specialize (H 3%nat 2%nat ltac:(lia) ltac:(lia)). vm_compute in H. discriminate H. Qed.
Theorem C98_large_data_refuted : ~ (forall o rows columns, (exists ready, construct o rows columns = Some ready /\ exists l, plot_heatmap ready 1 = Features l)).
Proof. intros H. destruct (H (FromFiles 3%nat) 7%nat [mostly 7 1]) as (ready & A & l & B). destruct C98_instance as (_ & _ & _ & C & _). rewrite C in A. injection A as <-. discriminate B. Qed.
Theorem C98_other_feature_refuted : ~ (forall m n i, (0 < m)%nat -> (0 <= i < Z.of_nat n)%Z -> plot_feature_timeseries true m n (ByIndex i) = Features [Z.to_nat i]).
Proof. intros H. specialize (H 3%nat 5%nat 4%Z ltac:(lia) ltac:(lia)). vm_compute in H. discriminate H. Qed.
Print Assumptions C98_last_feature_refuted.
(* a column with a value that is missing *)
Definition xal_col : list fl := [Fin 3; NaN; Fin 1; Fin 2].
Example C98_column_iff_example : column_ok 2 xal_col = false <-> [1; 2; 3] = [] \/ exists k, (k < 2)%nat /\ nth (k * 2 / 2) [1; 2; 3] 0 = nth ((S k * 2 + 1) / 2) [1; 2; 3] 0.
Proof.
  refine (C98_column_iff xal_col [1; 2; 3] 2 _ _ _); [lia | | repeat constructor; lra].
  cbn. apply (Permutation_trans (l' := [1; 3; 2])); [apply perm_swap | apply perm_skip, perm_swap].
Qed.
Example C98_distinct_example : column_ok 5 xal_col = true.
Proof. apply C98_distinct; [lia | cbn; repeat constructor; cbn; intuition lra | cbn; lia]. Qed.
Example C98_repeated_value_example : column_ok 4 [Fin 2; Fin 2; NaN; Fin 2] = false.
Proof.
  apply (C98_repeated_value _ 4 2); [lia | cbn; tauto |]. cbn [known]. cbn. destruct (Req_EM_T 2 2); [cbn; lia | congruence].
Qed.
Example C98_constructor_example := C98_constructor (FromFiles 3) 4 [xal_col].
Example C98_no_plot_data_example := C98_no_plot_data (FromFiles 3) 7 [mostly 7 1] false (proj1 (proj2 (proj2 (proj2 C98_instance))))
  ltac:(intros N E; injection E as <-; lia).
Example C98_feature_choice_example : plot_feature_timeseries true 4 3 (ByIndex 6) = Features [2%nat].
Proof. refine (proj1 (proj2 (proj2 (proj2 (proj2 (C98_feature_choice 3 4))))) 6%Z 2%Z _ _ _ _); try lia. exists 1%Z. reflexivity. Qed.
Print Assumptions C98_large_data_refuted.
Print Assumptions C98_other_feature_refuted.
