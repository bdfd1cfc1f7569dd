(** C120: comparison of a PMF5 solution with LS-NMF and WS-NMF solutions. *)
From Coq Require Import List Bool Arith ZArith Lia Reals Lra String Permutation.
From Verif Require Import Base Fl Constr_Model PmfCmp_Model.
Import ListNotations.
Local Open Scope R_scope.

(** A mapping names a column of the table for every factor. *)
Definition names_columns (F : nat) (mp : list nat) : Prop :=
  (F <= List.length mp)%nat /\ forall f c, (f < F)%nat -> nth_error mp f = Some c -> (c < F)%nat.

Lemma mapped_ok F mp f : names_columns F mp -> (f < F)%nat -> mapped F mp f = inr (nth f mp 0%nat) /\ (nth f mp 0 < F)%nat.
Proof.
  intros [L H] Hf. unfold mapped. destruct (nth_error mp f) as [c|] eqn:E; [|apply nth_error_None in E; lia].
  pose proof (H f c Hf E) as Hc. rewrite (nth_error_nth _ _ _ E). split; [|exact Hc].
  destruct (Nat.ltb_spec c F); [reflexivity|lia].
Qed.
Lemma seq_all_ok {A B} (f : A -> exn + B) (g : A -> B) l : (forall x, In x l -> f x = inr (g x)) -> seq_all f l = inr (map g l).
Proof.
  induction l as [|x l IH]; intros H; [reflexivity|]. cbn [map]. change (seq_all f (x :: l)) with
    (match f x with inl e => inl e | inr y => match seq_all f l with inl e => inl e | inr ys => inr (y :: ys) end end).
  rewrite (H x) by (left; reflexivity). rewrite IH by (intros y Hy; apply H; right; exact Hy). reflexivity.
Qed.
Lemma share_fin F P i f : rsum F (P i) <> 0 -> share F P i f = Fin (P i f / rsum F (P i)).
Proof. intros H. unfold share, fdiv. destruct (Req_EM_T _ 0); [contradiction|reflexivity]. Qed.
Lemma share_zero F P i f x : rsum F (P i) = 0 -> share F P i f <> Fin x.
Proof.
  intros H. unfold share, fdiv. destruct (Req_EM_T _ 0) as [_|C]; [|contradiction]. unfold inf_of_sign.
  repeat (destruct (_ : {_} + {_}); try discriminate); destruct (Rlt_dec _ _); try discriminate; destruct (Rlt_dec _ _); discriminate.
Qed.
Lemma nth_error_map_seq {A} (f : nat -> A) n i : (i < n)%nat -> nth_error (map f (seq 0 n)) i = Some (f i).
Proof.
  intros Hi. rewrite nth_error_map. rewrite (nth_error_nth' _ 0%nat) by (rewrite seq_length; exact Hi). rewrite seq_nth by exact Hi. reflexivity.
Qed.

Lemma map_nth_seq (l : list nat) : map (fun f => nth f l 0%nat) (seq 0 (List.length l)) = l.
Proof. induction l as [|a l IH]; [reflexivity|]. cbn. f_equal. rewrite <- seq_shift, map_map. exact IH. Qed.
Lemma lsum_count c l : lsum (map (fun x => if (x =? c)%nat then 1 else 0) l) = INR (count_occ Nat.eq_dec l c).
Proof.
  induction l as [|a l IH]; [reflexivity|]. cbn [map lsum count_occ]. rewrite IH. destruct (Nat.eq_dec a c) as [->|N].
  - rewrite Nat.eqb_refl, S_INR. lra.
  - apply Nat.eqb_neq in N. rewrite N. lra.
Qed.

(** What a bar of a fingerprint shows of a table. *)
Definition shows_percent (F n : nat) (P : mat) (c : nat) (b : nat * list fl) : Prop :=
  fst b = S c /\ List.length (snd b) = n /\
  forall i, (i < n)%nat -> rsum F (P i) <> 0 -> nth_error (snd b) i = Some (Fin (100 * (P i c / rsum F (P i)))).

Lemma fingerprint_bars F pmf ls ws lm wm n : names_columns F lm -> names_columns F wm ->
  fingerprints F pmf ls ws lm wm n = inr (map (fun f =>
    let b P c := (S c, map (fun x => fmul (Fin 100) x) (column F n P c)) in
    (b (prof pmf) f, b (prof ls) (nth f lm 0%nat), b (prof ws) (nth f wm 0%nat))) (rev (seq 0 F))).
Proof.
  intros Hl Hw. unfold fingerprints. apply seq_all_ok. intros f Hf. apply in_rev, in_seq in Hf. unfold fingerprint.
  rewrite (proj1 (mapped_ok F wm f Hw ltac:(lia))), (proj1 (mapped_ok F lm f Hl ltac:(lia))). reflexivity.
Qed.
Lemma nth_error_rev_seq F f : (f < F)%nat -> nth_error (rev (seq 0 F)) (F - 1 - f) = Some f.
Proof.
  intros Hf. rewrite (nth_error_nth' _ 0%nat) by (rewrite rev_length, seq_length; lia). f_equal.
  rewrite rev_nth by (rewrite seq_length; lia). rewrite seq_length, seq_nth by lia. lia.
Qed.
Lemma shows_bar F n P c : shows_percent F n P c (S c, map (fun x => fmul (Fin 100) x) (column F n P c)).
Proof.
  split; [reflexivity|]. split; [cbn [snd]; unfold column; rewrite !map_length, seq_length; reflexivity|].
  intros i Hi Ht. cbn [snd]. unfold column. rewrite map_map. rewrite nth_error_map_seq by exact Hi. rewrite share_fin by exact Ht. reflexivity.
Qed.

(** Each stack has a bar per factor, last factor first, that shows the share of the
    factor in the total of every feature; LS-NMF and WS-NMF bars by the mapping. *)
Theorem C120_fingerprints : forall F pmf ls ws lm wm n,
  names_columns F lm -> names_columns F wm ->
  exists bars, fingerprints F pmf ls ws lm wm n = inr bars /\ List.length bars = F /\
    forall f, (f < F)%nat -> exists a b c, nth_error bars (F - 1 - f) = Some (a, b, c) /\
      shows_percent F n (prof pmf) f a /\ shows_percent F n (prof ls) (nth f lm 0%nat) b /\ shows_percent F n (prof ws) (nth f wm 0%nat) c.
Proof.
  intros F pmf ls ws lm wm n Hl Hw. eexists. split; [apply fingerprint_bars; assumption|]. split; [rewrite map_length, rev_length, seq_length; reflexivity|].
  intros f Hf. do 3 eexists. split; [rewrite nth_error_map, nth_error_rev_seq by exact Hf; reflexivity|].
  split; [apply shows_bar|split; apply shows_bar].
Qed.
Print Assumptions C120_fingerprints.

(** Height of the whole stack above a feature. *)
Definition stacked (bars : list (nat * list fl)) (i : nat) : fl := fold_right (fun b s => fadd (nth i (snd b) NaN) s) (Fin 0) bars.

Lemma stacked_ls F pmf ls ws lm wm n bars i : names_columns F lm -> names_columns F wm -> (i < n)%nat -> rsum F (prof ls i) <> 0 ->
  fingerprints F pmf ls ws lm wm n = inr bars ->
  stacked (map (fun t => snd (fst t)) bars) i = Fin (100 * (rsum F (fun f => prof ls i (nth f lm 0%nat)) / rsum F (prof ls i))).
Proof.
  intros Hl Hw Hi Ht E. rewrite fingerprint_bars in E by assumption. injection E as <-. rewrite map_map. cbn [fst snd].
  assert (G : forall l, stacked (map (fun f => (S (nth f lm 0%nat), map (fun x => fmul (Fin 100) x) (column F n (prof ls) (nth f lm 0%nat)))) l) i
     = Fin (100 * (lsum (map (fun f => prof ls i (nth f lm 0%nat)) l) / rsum F (prof ls i)))).
  { induction l as [|f l IH]; cbn [map stacked fold_right snd lsum].
    - f_equal. field. exact Ht.
    - unfold stacked in IH. rewrite IH. destruct (shows_bar F n (prof ls) (nth f lm 0%nat)) as (_ & _ & S). specialize (S i Hi Ht).
      cbn [snd] in S. rewrite (nth_error_nth _ _ _ S). cbn [fadd]. f_equal. field. exact Ht. }
  rewrite G. f_equal. f_equal. f_equal. rewrite rsum_lsum. apply lsum_perm. apply Permutation_map. apply Permutation_sym, Permutation_rev.
Qed.

(** The stacks of LS-NMF reach 100 % for every solution exactly when the mapping lists
    every factor once (and likewise those of WS-NMF). *)
Theorem C120_stacks_reach_100 : forall F lm wm n,
  (0 < n)%nat -> List.length lm = F -> names_columns F lm -> names_columns F wm ->
  ((forall pmf ls ws bars i, (i < n)%nat -> rsum F (prof ls i) <> 0 -> fingerprints F pmf ls ws lm wm n = inr bars ->
      stacked (map (fun t => snd (fst t)) bars) i = Fin 100) <-> Permutation lm (seq 0 F)).
Proof.
  intros F lm wm n Hn Ll Hl Hw. split.
  - intros H. apply (Permutation_count_occ Nat.eq_dec). intros c. destruct (lt_dec c F) as [Hc|Hc].
    + set (P := (fun _ f => if (f =? c)%nat then 1 else 0) : mat). set (s := mkSolution P P []).
      assert (T : rsum F (P 0%nat) = 1).
      { rewrite (rsum_single F _ c); [unfold P; rewrite Nat.eqb_refl; reflexivity|exact Hc|]. intros i _ Hi. unfold P. apply Nat.eqb_neq in Hi. rewrite Hi. reflexivity. }
      destruct (C120_fingerprints F s s s lm wm n Hl Hw) as (bars & E & _).
      pose proof (H s s s bars 0%nat Hn) as S. cbn [prof s] in S. rewrite T in S. specialize (S R1_neq_R0 E).
      rewrite (stacked_ls F s s s lm wm n bars 0 Hl Hw Hn) in S by (try exact E; cbn [prof s]; rewrite T; exact R1_neq_R0).
      cbn [prof s] in S. rewrite T in S. injection S as S.
      assert (C : rsum F (fun f => P 0%nat (nth f lm 0%nat)) = INR (count_occ Nat.eq_dec lm c)).
      { rewrite rsum_lsum, <- Ll. unfold P. rewrite <- (map_map (fun f => nth f lm 0%nat) (fun x => if (x =? c)%nat then 1 else 0)), map_nth_seq. apply lsum_count. }
      rewrite C in S. assert (X : INR (count_occ Nat.eq_dec lm c) = INR 1) by (cbn; lra). apply INR_eq in X. rewrite X. symmetry.
      apply NoDup_count_occ'; [apply seq_NoDup|]. apply in_seq. lia.
    + transitivity 0%nat; [|symmetry]; apply count_occ_not_In; intros I.
      * apply In_nth_error in I as (f & E). assert (f < List.length lm)%nat by (apply nth_error_Some; congruence). apply Hc. eapply Hl; [|exact E]. lia.
      * apply in_seq in I. lia.
  - intros Pm pmf ls ws bars i Hi Ht E. rewrite (stacked_ls F pmf ls ws lm wm n bars i Hl Hw Hi Ht E). f_equal.
    assert (S : rsum F (fun f => prof ls i (nth f lm 0%nat)) = rsum F (prof ls i)).
    { rewrite !rsum_lsum. apply lsum_perm. transitivity (map (prof ls i) lm); [|apply Permutation_map; exact Pm].
      rewrite <- (map_map (fun f => nth f lm 0%nat) (prof ls i)), <- Ll, map_nth_seq. reflexivity. }
    rewrite S. field. exact Ht.
Qed.
Print Assumptions C120_stacks_reach_100.

(** ** Pies *)
Lemma position_nth x l i : position x l = Some i -> nth_error l i = Some x /\ forall j, (j < i)%nat -> nth_error l j <> Some x.
Proof.
  revert i. induction l as [|y l IH]; intros i H; [discriminate|]. cbn [position] in H. destruct (String.eqb_spec x y) as [->|N].
  - injection H as <-. split; [reflexivity|lia].
  - destruct (position x l) as [k|]; [|discriminate]. injection H as <-. destruct (IH k eq_refl) as [A B]. split; [exact A|].
    intros [|j] Hj; cbn [nth_error]; [congruence|]. apply B. lia.
Qed.
Lemma position_in x l : In x l -> exists i, position x l = Some i.
Proof.
  induction l as [|y l IH]; intros H; [destruct H|]. cbn [position]. destruct (String.eqb_spec x y) as [->|N]; [eauto|].
  destruct H as [->|H]; [contradiction|]. destruct (IH H) as [i ->]. eauto.
Qed.
Lemma position_none x l : ~ In x l -> position x l = None.
Proof. intros H. destruct (position x l) as [i|] eqn:E; [|reflexivity]. apply position_nth in E as [E _]. apply nth_error_In in E. contradiction. Qed.
Lemma position_NoDup l i x : NoDup l -> nth_error l i = Some x -> position x l = Some i.
Proof.
  intros N E. destruct (position_in x l (nth_error_In _ _ E)) as [j Hj]. rewrite Hj. f_equal. apply position_nth in Hj as [Ej _].
  assert (i < List.length l)%nat by (apply nth_error_Some; congruence). symmetry. eapply (proj1 (NoDup_nth_error l) N); congruence.
Qed.

(** A slice: the share of the factor in the feature, no number if the total is zero. *)
Definition shows_share (F : nat) (P : mat) (i : nat) (l : list fl) : Prop :=
  List.length l = F /\ forall f, (f < F)%nat -> exists x, nth_error l f = Some x /\
    (rsum F (P i) <> 0 -> x = Fin (P i f / rsum F (P i))) /\ (rsum F (P i) = 0 -> forall r, x <> Fin r).
Lemma per_row_shows F P i : shows_share F P i (per_row F P i).
Proof.
  split; [unfold per_row; rewrite map_length, seq_length; reflexivity|]. intros f Hf. exists (share F P i f). unfold per_row.
  split; [apply nth_error_map_seq; exact Hf|]. split; [apply share_fin|intros H r; apply share_zero; exact H].
Qed.

(** With an array of features the pies show the named feature, or if there is none of
    that name the one at [feature_i] counted round and round; each pie by its own
    factor numbers, whatever the mappings. *)
Theorem C120_pies : forall F pmf ls ws features feature feature_i, features <> [] ->
  exists x i a b c, pies F pmf ls ws features true feature feature_i = inr (x, (a, b, c)) /\ nth_error features i = Some x /\
    (forall y, feature = Some y -> In y features -> x = y) /\
    ((forall y, feature = Some y -> ~ In y features) ->
       exists p, (0 <= p < Z.of_nat (List.length features))%Z /\ (exists q, feature_i = p + q * Z.of_nat (List.length features))%Z /\
                 nth_error features (Z.to_nat p) = Some x) /\
    shows_share F (prof pmf) i a /\ shows_share F (prof ls) i b /\ shows_share F (prof ws) i c.
Proof.
  intros F pmf ls ws features feature feature_i Hf.
  set (fb := nth (Z.to_nat (feature_i mod Z.of_nat (List.length features))) features ""%string).
  assert (L : (0 < List.length features)%nat) by (destruct features; [contradiction|cbn; lia]).
  assert (M : (0 <= feature_i mod Z.of_nat (List.length features) < Z.of_nat (List.length features))%Z) by (apply Z.mod_pos_bound; lia).
  assert (Efb : nth_error features (Z.to_nat (feature_i mod Z.of_nat (List.length features))) = Some fb) by (apply nth_error_nth'; lia).
  set (x := match feature with Some x => match position x features with Some _ => x | None => fb end | None => fb end).
  assert (Ix : In x features).
  { unfold x. destruct feature as [y|]; [destruct (position y features) as [j|] eqn:E|]; try (eapply nth_error_In; exact Efb).
    apply position_nth in E as [E _]. eapply nth_error_In; exact E. }
  destruct (position_in x features Ix) as [i Hi]. exists x, i, (per_row F (prof pmf) i), (per_row F (prof ls) i), (per_row F (prof ws) i).
  split; [|split; [apply position_nth in Hi; apply Hi|split; [|split; [|split; [|split]; apply per_row_shows]]]].
  - unfold pies. destruct features as [|z zs]; [contradiction|].
    assert (Ex : match match feature with Some x0 => match position x0 (z :: zs) with Some _ => Some x0 | None => None end | None => None end with Some x0 => x0 | None => fb end = x).
    { unfold x. destruct feature as [y|]; [destruct (position y (z :: zs))|]; reflexivity. }
    fold fb. rewrite Ex, Hi. reflexivity.
  - intros y -> Iy. unfold x. destruct (position_in y features Iy) as [j ->]. reflexivity.
  - intros N. exists (feature_i mod Z.of_nat (List.length features))%Z. split; [exact M|]. split.
    + exists (feature_i / Z.of_nat (List.length features))%Z. rewrite (Z.div_mod feature_i (Z.of_nat (List.length features))) at 1 by lia. lia.
    + rewrite Efb. f_equal. unfold x. destruct feature as [y|]; [|reflexivity]. rewrite (position_none y features); [reflexivity|]. apply (N y eq_refl).
Qed.
Print Assumptions C120_pies.

(** A plain list of names does not work, whichever feature is asked for. *)
Theorem C120_list_of_features_refuted : forall F pmf ls ws features feature feature_i, features <> [] ->
  pies F pmf ls ws features false feature feature_i = inl KeyErr.
Proof. intros F pmf ls ws features feature feature_i Hf. unfold pies. destruct features; [contradiction|reflexivity]. Qed.
Print Assumptions C120_list_of_features_refuted.

(** The same solution with its factors numbered the other way round, and the mapping
    that says so: the fingerprints agree, the pies show different shares under the same
    label. *)
Definition swap2 (P : mat) : mat := fun i f => P i (1 - f)%nat.
Definition shares13 : mat := fun _ f => if (f =? 0)%nat then 1 else 3.
Theorem C120_pies_matched_refuted :
  let s := mkSolution shares13 shares13 ["a"%string] in let l := mkSolution (swap2 shares13) (swap2 shares13) ["a"%string] in
  (exists bars, fingerprints 2 s l l [1%nat; 0%nat] [1%nat; 0%nat] 1 = inr bars /\ forall b, In b bars -> snd (fst (fst b)) = snd (snd (fst b))) /\
  exists a b c, pies 2 s l l ["a"%string] true None 0 = inr ("a"%string, (a, b, c)) /\
    nth_error a 0 = Some (Fin (1 / 4)) /\ nth_error b 0 = Some (Fin (3 / 4)).
Proof.
  cbv zeta. split.
  - eexists. split; [reflexivity|].
    assert (S : forall i f, (f < 2)%nat -> share 2 shares13 i f = share 2 (swap2 shares13) i (1 - f)).
    { intros i f Hf. rewrite !share_fin by (cbn; unfold swap2, shares13; cbn; lra). f_equal. unfold swap2. replace (1 - (1 - f))%nat with f by lia.
      f_equal. cbn. lra. }
    cbn [In]. intros b [<-|[<-|[]]]; cbn [fst snd]; unfold column; cbn [map seq prof]; rewrite S by lia; reflexivity.
  - do 3 eexists. split; [reflexivity|]. cbn [per_row map seq nth_error prof].
    rewrite !share_fin by (cbn; unfold swap2, shares13; cbn; lra). split; f_equal; f_equal; cbn; unfold swap2, shares13; cbn; lra.
Qed.
Print Assumptions C120_pies_matched_refuted.

(** ** Factor profiles side by side *)
Lemma seq_all_fail {A B} (f : A -> exn + B) e l1 x l2 : (forall y, In y l1 -> exists z, f y = inr z) -> f x = inl e -> seq_all f (l1 ++ x :: l2) = inl e.
Proof.
  intros H E. induction l1 as [|a l IH]; cbn [app].
  - change (match f x with inl e => inl e | inr y => match seq_all f l2 with inl e => inl e | inr ys => inr (y :: ys) end end = inl e). rewrite E. reflexivity.
  - change (match f a with inl e => inl e | inr y => match seq_all f (l ++ x :: l2) with inl e => inl e | inr ys => inr (y :: ys) end end = inl e).
    destruct (H a (or_introl eq_refl)) as [z ->]. rewrite IH; [reflexivity|]. intros y Hy. apply H. right. exact Hy.
Qed.
Theorem C120_factor_profiles : forall F pmf ls ws lm wm n, names_columns F lm -> names_columns F wm ->
  ((F <= 6)%nat -> exists rows, plot_factors F pmf ls ws lm wm n = inr rows /\ List.length rows = F /\
     forall f, (f < F)%nat -> exists a b c, nth_error rows f = Some ((S f, a), (S (nth f lm 0%nat), b), (S (nth f wm 0%nat), c)) /\
       forall i, (i < n)%nat ->
         (rsum F (prof pmf i) <> 0 -> nth_error a i = Some (Fin (prof pmf i f / rsum F (prof pmf i)))) /\
         (rsum F (prof ls i) <> 0 -> nth_error b i = Some (Fin (prof ls i (nth f lm 0%nat) / rsum F (prof ls i)))) /\
         (rsum F (prof ws i) <> 0 -> nth_error c i = Some (Fin (prof ws i (nth f wm 0%nat) / rsum F (prof ws i))))) /\
  ((6 < F)%nat -> plot_factors F pmf ls ws lm wm n = inl PlotErr).
Proof.
  intros F pmf ls ws lm wm n Hl Hw. split.
  - intros H6. exists (map (fun f => ((S f, column F n (prof pmf) f), (S (nth f lm 0%nat), column F n (prof ls) (nth f lm 0%nat)), (S (nth f wm 0%nat), column F n (prof ws) (nth f wm 0%nat)))) (seq 0 F)).
    split.
    + unfold plot_factors. apply (seq_all_ok (factor_row F pmf ls ws lm wm n)). intros f Hf. apply in_seq in Hf. unfold factor_row.
      rewrite (proj1 (mapped_ok F wm f Hw ltac:(lia))), (proj1 (mapped_ok F lm f Hl ltac:(lia))). destruct (Nat.ltb_spec 6 (S f)); [lia|reflexivity].
    + split; [rewrite map_length, seq_length; reflexivity|]. intros f Hf. do 3 eexists. split; [rewrite nth_error_map_seq by exact Hf; reflexivity|].
      intros i Hi. unfold column. rewrite !nth_error_map_seq by exact Hi. repeat split; intros Ht; rewrite share_fin by exact Ht; reflexivity.
  - intros H6. unfold plot_factors. assert (E : seq 0 F = (seq 0 6 ++ 6 :: seq 7 (F - 7))%nat%list).
    { replace F with (6 + S (F - 7))%nat at 1 by lia. rewrite seq_app. reflexivity. }
    rewrite E. apply seq_all_fail.
    + intros f Hf. apply in_seq in Hf. unfold factor_row. rewrite (proj1 (mapped_ok F wm f Hw ltac:(lia))), (proj1 (mapped_ok F lm f Hl ltac:(lia))).
      destruct (Nat.ltb_spec 6 (S f)); [lia|eauto].
    + unfold factor_row. rewrite (proj1 (mapped_ok F wm 6 Hw ltac:(lia))), (proj1 (mapped_ok F lm 6 Hl ltac:(lia))). reflexivity.
Qed.
Print Assumptions C120_factor_profiles.
Theorem C120_any_number_of_factors_refuted :
  exists lm s, Permutation lm (seq 0 7) /\ names_columns 7 lm /\ plot_factors 7 s s s lm lm 1 = inl PlotErr.
Proof.
  exists (seq 0 7), (mkSolution shares13 shares13 []). split; [reflexivity|].
  assert (N : names_columns 7 (seq 0 7)).
  { split; [rewrite seq_length; lia|]. intros f c Hf E. apply nth_error_In in E. apply in_seq in E. lia. }
  split; [exact N|]. apply (C120_factor_profiles 7); [exact N|exact N|lia].
Qed.
Print Assumptions C120_any_number_of_factors_refuted.

(** ** Series *)
Lemma py_index_nat len i : (i < len)%nat -> py_index len (Z.of_nat i) = Some i.
Proof. intros H. unfold py_index. destruct (Z.leb_spec 0 (Z.of_nat i)); [|lia]. destruct (Z.ltb_spec (Z.of_nat i) (Z.of_nat len)); [|lia]. cbn [andb]. rewrite Nat2Z.id. reflexivity. Qed.
Lemma py_index_spec len i p : py_index len i = Some p <->
  (p < len)%nat /\ (i = Z.of_nat p \/ i = Z.of_nat p - Z.of_nat len)%Z.
Proof.
  unfold py_index. destruct (Z.leb_spec 0 i), (Z.ltb_spec i (Z.of_nat len)), (Z.leb_spec (- Z.of_nat len) i), (Z.ltb_spec i 0); cbn [andb]; split;
    try discriminate; try lia; intros [= <-] || intros [A [B|B]]; try lia; try (f_equal; lia); split; try lia.
Qed.
Lemma py_index_none len i : py_index len i = None <-> ~ (- Z.of_nat len <= i < Z.of_nat len)%Z.
Proof.
  unfold py_index. destruct (Z.leb_spec 0 i), (Z.ltb_spec i (Z.of_nat len)), (Z.leb_spec (- Z.of_nat len) i), (Z.ltb_spec i 0); cbn [andb]; split; try discriminate; try reflexivity; try lia; intros; lia.
Qed.

(** When the PMF profiles list the features in the same order, the curves of a factor
    are its parts of the feature, the mapped factor's for LS-NMF and WS-NMF; over all
    factors they add up to the whole reconstruction if the mapping lists every factor
    once. *)
Theorem C120_parts : forall F pmf ls ws lm wm features m f i x,
  NoDup features -> species pmf = features -> List.length lm = F -> List.length wm = F -> names_columns F lm -> names_columns F wm ->
  (f < F)%nat -> nth_error features i = Some x ->
  plot_feature_timeseries F pmf ls ws lm wm features m (Z.of_nat f) (One (Z.of_nat i)) =
    inr [(x, (map (fun t => contr pmf t f * prof pmf i f) (seq 0 m),
              map (fun t => contr ls t (nth f lm 0%nat) * prof ls i (nth f lm 0%nat)) (seq 0 m),
              map (fun t => contr ws t (nth f wm 0%nat) * prof ws i (nth f wm 0%nat)) (seq 0 m)))].
Proof.
  intros F pmf ls ws lm wm features m f i x ND Sp Ll Lw Hl Hw Hf Ex.
  assert (Hi : (i < List.length features)%nat) by (apply nth_error_Some; congruence).
  unfold plot_feature_timeseries, py_mapped. rewrite Ll, Lw, !(py_index_nat F f Hf).
  rewrite (proj1 (mapped_ok F wm f Hw Hf)), (proj1 (mapped_ok F lm f Hl Hf)). cbn [seq_all]. unfold feature_series.
  rewrite (py_index_nat _ i Hi). rewrite (nth_error_nth _ _ _ Ex). rewrite Sp, (position_NoDup _ i x ND Ex). reflexivity.
Qed.
Print Assumptions C120_parts.
(** Asked for all features, or a list of them, there is one panel for each, in order. *)
Theorem C120_all_features : forall F pmf ls ws lm wm features m f,
  NoDup features -> species pmf = features -> List.length lm = F -> List.length wm = F -> names_columns F lm -> names_columns F wm -> (f < F)%nat ->
  let panel i := (nth i features ""%string,
                  (map (fun t => contr pmf t f * prof pmf i f) (seq 0 m),
                   map (fun t => contr ls t (nth f lm 0%nat) * prof ls i (nth f lm 0%nat)) (seq 0 m),
                   map (fun t => contr ws t (nth f wm 0%nat) * prof ws i (nth f wm 0%nat)) (seq 0 m))) in
  plot_feature_timeseries F pmf ls ws lm wm features m (Z.of_nat f) All = inr (map panel (seq 0 (List.length features))) /\
  (forall l, Forall (fun i => (i < List.length features)%nat) l ->
     plot_feature_timeseries F pmf ls ws lm wm features m (Z.of_nat f) (Some_of (map Z.of_nat l)) = inr (map panel l)).
Proof.
  intros F pmf ls ws lm wm features m f ND Sp Ll Lw Hl Hw Hf panel.
  assert (G : forall l, Forall (fun i => (i < List.length features)%nat) l ->
    seq_all (feature_series pmf ls ws features m (nth f lm 0%nat) (nth f wm 0%nat) f) (map Z.of_nat l) = inr (map panel l)).
  { intros l. induction 1 as [|i l Hi _ IH]; [reflexivity|]. cbn [map seq_all].
    destruct (nth_error features i) as [x|] eqn:Ex; [|apply nth_error_None in Ex; lia].
    unfold feature_series at 1. rewrite (py_index_nat _ i Hi). rewrite (nth_error_nth _ _ _ Ex). rewrite Sp, (position_NoDup _ i x ND Ex).
    rewrite IH. unfold panel at 2. rewrite (nth_error_nth _ _ _ Ex). reflexivity. }
  assert (U : forall q, plot_feature_timeseries F pmf ls ws lm wm features m (Z.of_nat f) q =
    seq_all (feature_series pmf ls ws features m (nth f lm 0%nat) (nth f wm 0%nat) f)
      (match q with One i => [i] | All => map Z.of_nat (seq 0 (List.length (species pmf))) | Some_of l => l end)).
  { intros q. unfold plot_feature_timeseries, py_mapped. rewrite Ll, Lw, !(py_index_nat F f Hf).
    rewrite (proj1 (mapped_ok F wm f Hw Hf)), (proj1 (mapped_ok F lm f Hl Hf)). reflexivity. }
  split; [|intros l Hin]; rewrite U; [|apply G, Hin]. rewrite Sp. apply G. apply Forall_forall. intros i Hi. apply in_seq in Hi. lia.
Qed.
Print Assumptions C120_all_features.
Example C120_all_instance :
  let s := mkSolution (fun i f => INR (i + f)) (fun t f => INR (t + 1)) ["a"; "b"]%string in
  (NoDup ["a"; "b"]%string /\ names_columns 2 [1%nat; 0%nat] /\ (0 < 2)%nat) /\
  exists p q, plot_feature_timeseries 2 s s s [1%nat; 0%nat] [1%nat; 0%nat] ["a"; "b"]%string 1 0 All = inr [("a"%string, p); ("b"%string, q)].
Proof.
  cbv zeta. split; [|do 2 eexists; reflexivity]. split; [|split; [|lia]].
  - constructor; [intros [E|[]]; discriminate E|]. constructor; [intros []|constructor].
  - split; [cbn; lia|]. intros f c Hf E. destruct f as [|[|f]]; cbn in E; injection E as <- || idtac; lia.
Qed.

Theorem C120_parts_add_up : forall F (s : solution) mp i t, List.length mp = F -> Permutation mp (seq 0 F) ->
  rsum F (fun f => contr s t (nth f mp 0%nat) * prof s i (nth f mp 0%nat)) = whole F s i t.
Proof.
  intros F s mp i t Ll Pm. unfold whole. rewrite !rsum_lsum. rewrite <- (map_map (fun f => nth f mp 0%nat) (fun f => contr s t f * prof s i f)).
  rewrite <- Ll at 1. rewrite map_nth_seq. apply lsum_perm, Permutation_map. exact Pm.
Qed.
Print Assumptions C120_parts_add_up.

(** The columns are named after the PMF rows for all three solutions: if the LS-NMF
    profiles list their features in another order, its curve is another feature's. *)
Theorem C120_curves_by_name_refuted :
  let P := (fun i _ => INR (S i)) : mat in let s := mkSolution P (fun _ _ => 1) ["a"; "b"]%string in
  let l := mkSolution (fun i f => P (1 - i)%nat f) (fun _ _ => 1) ["b"; "a"]%string in
  exists a b c, plot_feature_timeseries 1 s l s [0%nat] [0%nat] ["a"; "b"]%string 1 0 (One 0) = inr [("a"%string, (a, b, c))] /\
    a = [1] /\ b = [2] /\ position "a"%string (species l) = Some 1%nat /\ prof l 1%nat 0%nat = 1.
Proof.
  cbv zeta. do 3 eexists. split; [reflexivity|]. cbn [map seq part contr prof]. unfold part. cbn [contr prof]. repeat split; try (f_equal); cbn; try lra.
Qed.
Print Assumptions C120_curves_by_name_refuted.

(** The feature of the reconstruction and residual plots: by name, or else by Python
    index, which fails outside the list. *)
Theorem C120_named_feature : forall features feature i,
  (forall x p, feature = Some x -> nth_error features p = Some x -> NoDup features -> named features feature i = inr p) /\
  ((forall x, feature = Some x -> ~ In x features) ->
     (forall p, (p < List.length features)%nat -> (i = Z.of_nat p \/ i = Z.of_nat p - Z.of_nat (List.length features))%Z -> named features feature i = inr p) /\
     (~ (- Z.of_nat (List.length features) <= i < Z.of_nat (List.length features))%Z -> named features feature i = inl IndexErr)).
Proof.
  intros features feature i. split.
  - intros x p -> E ND. unfold named. rewrite (position_NoDup _ p x ND E). reflexivity.
  - intros N. assert (G : named features feature i = match py_index (List.length features) i with Some p => inr p | None => inl IndexErr end).
    { unfold named. destruct feature as [x|]; [|reflexivity]. rewrite (position_none x features (N x eq_refl)). reflexivity. }
    rewrite G. split.
    + intros p Hp Q. rewrite (proj2 (py_index_spec _ i p) (conj Hp Q)). reflexivity.
    + intros Q. rewrite (proj2 (py_index_none _ i) Q). reflexivity.
Qed.
Print Assumptions C120_named_feature.
(** The pies accept numbers the other plots refuse. *)
Theorem C120_same_fallback_refuted :
  let s := mkSolution shares13 shares13 ["a"%string] in
  (exists r, pies 2 s s s ["a"%string] true None 1 = inr r) /\
  forall m d1 d2 inp, timeseries 2 s s s ["a"%string] m d1 d2 inp None 1 = inl IndexErr.
Proof. cbv zeta. split; [eexists; reflexivity|]. intros. reflexivity. Qed.
Print Assumptions C120_same_fallback_refuted.

(** Days: the mean over the samples of the day, no number for a day without any. *)
Theorem C120_daily_means : forall m day y d,
  let picked := filter (fun t => (day t =? d)%Z) (seq 0 m) in
  (picked = [] -> daily m day y d = NaN) /\
  (picked <> [] -> exists q, daily m day y d = Fin q /\ q * INR (List.length picked) = lsum (map y picked) /\
     forall lo hi, (forall t, In t picked -> lo <= y t <= hi) -> lo <= q <= hi).
Proof.
  intros m day y d picked. unfold daily. rewrite !rsum_lsum.
  assert (G : forall (z : nat -> R) l, lsum (map (fun t => if (day t =? d)%Z then z t else 0) l) = lsum (map z (filter (fun t => (day t =? d)%Z) l))).
  { intros z l. induction l as [|a l IH]; [reflexivity|]. cbn [map lsum filter]. destruct (day a =? d)%Z; cbn [map lsum]; rewrite IH; lra. }
  rewrite (G y), (G (fun _ => 1)). fold picked.
  assert (C : lsum (map (fun _ => 1) picked) = INR (List.length picked)).
  { clear. induction picked as [|a l IH]; [reflexivity|]. cbn [map lsum]. change (List.length (a :: l)) with (S (List.length l)). rewrite S_INR, IH. lra. }
  rewrite C. split.
  - intros ->. cbn [map lsum List.length INR]. unfold fdiv. destruct (Req_EM_T 0 0) as [_|N]; [|destruct (N eq_refl)].
    unfold inf_of_sign, fsign. repeat (destruct (Rlt_dec _ _); try lra; try reflexivity); try (exfalso; lra).
  - intros Ne. assert (P : 0 < INR (List.length picked)) by (apply lt_0_INR; destruct picked; [contradiction|cbn; lia]).
    exists (lsum (map y picked) / INR (List.length picked)). unfold fdiv. destruct (Req_EM_T _ 0) as [E|_]; [lra|]. split; [reflexivity|].
    split; [field; lra|]. intros lo hi B.
    assert (S : lo * INR (List.length picked) <= lsum (map y picked) <= hi * INR (List.length picked)).
    { clear -B. induction picked as [|a l IH]; [cbn; lra|]. cbn [map lsum]. change (List.length (a :: l)) with (S (List.length l)). rewrite S_INR.
      pose proof (B a (or_introl eq_refl)). specialize (IH (fun t Ht => B t (or_intror Ht))). lra. }
    split; apply Rmult_le_reg_r with (INR (List.length picked)); try exact P; unfold Rdiv; rewrite Rmult_assoc, Rinv_l by lra; lra.
Qed.
Print Assumptions C120_daily_means.
(** The reconstruction plot: daily means of each whole reconstruction, by the time
    stamps of the analyzer, and of the input by its own. *)
Theorem C120_reconstructions : forall F pmf ls ws features m day day_in input feature i p,
  named features feature i = inr p ->
  exists a b c d, timeseries F pmf ls ws features m day day_in input feature i = inr (a, b, c, d) /\
    forall x, a x = daily m day (fun t => rsum F (fun f => contr pmf t f * prof pmf p f)) x /\
              b x = daily m day (fun t => rsum F (fun f => contr ls t f * prof ls p f)) x /\
              c x = daily m day (fun t => rsum F (fun f => contr ws t f * prof ws p f)) x /\
              d x = daily m day_in (fun t => input t p) x.
Proof. intros. unfold timeseries. rewrite H. do 4 eexists. split; [reflexivity|]. intros x. repeat split. Qed.
Print Assumptions C120_reconstructions.

(** ** Residuals *)
Lemma find_unique m stamp t u : (u < m)%nat -> (forall a b, (a < m)%nat -> (b < m)%nat -> stamp a = stamp b -> a = b) ->
  stamp u = t -> find (fun a => (stamp a =? t)%Z) (seq 0 m) = Some u.
Proof.
  intros Hu Inj <-. destruct (find _ _) as [v|] eqn:E.
  - apply find_some in E as [Iv Ev]. apply in_seq in Iv. apply Z.eqb_eq in Ev. f_equal. apply Inj; lia.
  - exfalso. pose proof (find_none _ _ E u) as C. cbn in C. rewrite Z.eqb_refl in C. discriminate C. apply in_seq. lia.
Qed.
Definition table_of (r : list R) (thr : R) (s : summary) : Prop :=
  (s_count s = List.length (filter (fun x => Rleb thr (Rabs x)) r)) /\
  (r <> [] -> exists lo hi q, s_min s = Some lo /\ s_max s = Some hi /\ s_mean s = Fin q /\ In lo r /\ In hi r /\
     (forall x, In x r -> lo <= x <= hi) /\ q * INR (List.length r) = lsum r).
Lemma fold_min t : forall x, In (fold_left Rmin t x) (x :: t) /\ forall y, In y (x :: t) -> fold_left Rmin t x <= y.
Proof.
  induction t as [|a t IH]; intros x; cbn [fold_left].
  - split; [left; reflexivity|]. intros y [->|[]]. lra.
  - destruct (IH (Rmin x a)) as [A B]. pose proof (Rmin_l x a). pose proof (Rmin_r x a). split.
    + destruct A as [A|A]; [|right; right; exact A]. rewrite <- A. unfold Rmin. destruct (Rle_dec x a); [left|right; left]; reflexivity.
    + pose proof (B _ (or_introl eq_refl)). intros y [<-|[<-|Hy]]; [lra|lra|apply B; right; exact Hy].
Qed.
Lemma fold_max t : forall x, In (fold_left Rmax t x) (x :: t) /\ forall y, In y (x :: t) -> y <= fold_left Rmax t x.
Proof.
  induction t as [|a t IH]; intros x; cbn [fold_left].
  - split; [left; reflexivity|]. intros y [->|[]]. lra.
  - destruct (IH (Rmax x a)) as [A B]. pose proof (Rmax_l x a). pose proof (Rmax_r x a). split.
    + destruct A as [A|A]; [|right; right; exact A]. rewrite <- A. unfold Rmax. destruct (Rle_dec x a); [right; left|left]; reflexivity.
    + pose proof (B _ (or_introl eq_refl)). intros y [<-|[<-|Hy]]; [lra|lra|apply B; right; exact Hy].
Qed.
Lemma summarize_table thr r : table_of r thr (summarize thr r).
Proof.
  split; [reflexivity|]. intros Ne. destruct r as [|x t]; [contradiction|]. unfold summarize. cbn [s_min s_max s_mean].
  assert (P : 0 < INR (List.length (x :: t))) by (apply lt_0_INR; cbn; lia).
  exists (fold_left Rmin t x), (fold_left Rmax t x), (lsum (x :: t) / INR (List.length (x :: t))).
  split; [reflexivity|]. split; [reflexivity|]. split; [unfold fdiv; destruct (Req_EM_T _ 0); [lra|reflexivity]|].
  split; [apply fold_min|]. split; [apply fold_max|]. split; [|field; lra].
  intros y Hy. split; [apply fold_min; exact Hy|apply fold_max; exact Hy].
Qed.

(** If the time stamps are those of the input, each solution's table is the smallest,
    mean and largest difference between input and reconstruction over all samples, and
    how many are at least the threshold in absolute value; if not, samples are compared
    by time stamp and those of only one table are left out. *)
Theorem C120_residual_table : forall F pmf ls ws features m m_in stamp stamp_in input feature i p thr,
  (forall a b, (a < m)%nat -> (b < m)%nat -> stamp a = stamp b -> a = b) -> named features feature i = inr p ->
  exists a b c, histogram F pmf ls ws features m m_in stamp stamp_in input feature i thr = inr (a, b, c) /\
  forall s w, In (s, w) [(pmf, a); (ls, b); (ws, c)] ->
    let diff t u := input t p - rsum F (fun f => contr s u f * prof s p f) in
    (m_in = m -> (forall t, (t < m)%nat -> stamp_in t = stamp t) -> table_of (map (fun t => diff t t) (seq 0 m)) thr w) /\
    exists r, table_of r thr w /\ forall x, In x r <-> exists t u, (t < m_in)%nat /\ (u < m)%nat /\ stamp_in t = stamp u /\ x = diff t u.
Proof.
  intros F pmf ls ws features m m_in stamp stamp_in input feature i p thr Inj Hp. unfold histogram. rewrite Hp. do 3 eexists. split; [reflexivity|].
  intros s w I. set (diff := fun t u : nat => input t p - rsum F (fun f => contr s u f * prof s p f)). assert (E : w = summarize thr (residuals F m m_in stamp stamp_in input s p)).
  { destruct I as [E|[E|[E|[]]]]; injection E as <- <-; reflexivity. }
  rewrite E. split.
  - intros -> Same. replace (residuals F m m stamp stamp_in input s p) with (map (fun t => diff t t) (seq 0 m)); [apply (summarize_table thr (map (fun t => diff t t) (seq 0 m)))|].
    unfold residuals. assert (G : forall l, (forall t, In t l -> (t < m)%nat) -> map (fun t => diff t t) l =
       flat_map (fun t => match find (fun u => (stamp u =? stamp_in t)%Z) (seq 0 m) with Some u => [input t p - whole F s p u] | None => [] end) l).
    { intros l. induction l as [|t l IH]; intros H; [reflexivity|]. cbn [map flat_map]. rewrite (find_unique m stamp (stamp_in t) t); [|apply H; left; reflexivity|exact Inj|symmetry; apply Same, H; left; reflexivity].
      cbn [app]. f_equal. apply IH. intros u Hu. apply H. right. exact Hu. }
    apply G. intros t Ht. apply in_seq in Ht. lia.
  - exists (residuals F m m_in stamp stamp_in input s p). split; [apply summarize_table|]. intros x. unfold residuals. rewrite in_flat_map. split.
    + intros (t & Ht & Hx). apply in_seq in Ht. destruct (find _ _) as [u|] eqn:Ef; [|destruct Hx]. destruct Hx as [<-|[]].
      apply find_some in Ef as [Iu Eu]. apply in_seq in Iu. apply Z.eqb_eq in Eu. exists t, u. repeat split; try lia. 
    + intros (t & u & Ht & Hu & Es & ->). exists t. split; [apply in_seq; lia|]. rewrite (find_unique m stamp (stamp_in t) u Hu Inj (eq_sym Es)). left. reflexivity.
Qed.
Print Assumptions C120_residual_table.

(** The column is headed ">|threshold|" but counts residuals equal to it. *)
Theorem C120_strictly_above_refuted :
  let z := mkSolution (fun _ _ => 0) (fun _ _ => 0) ["a"%string] in
  exists a b c, histogram 1 z z z ["a"%string] 1 1 (fun t => Z.of_nat t) (fun t => Z.of_nat t) (fun _ _ => 3) None 0 3 = inr (a, b, c) /\
    s_count a = 1%nat /\ s_max a = Some 3.
Proof.
  cbv zeta. set (z := mkSolution (fun _ _ => 0) (fun _ _ => 0) ["a"%string]).
  assert (E : residuals 1 1 1 (fun t => Z.of_nat t) (fun t => Z.of_nat t) (fun _ _ => 3) z 0 = [3]) by (cbn; f_equal; lra).
  exists (summarize 3 [3]), (summarize 3 [3]), (summarize 3 [3]). split; [rewrite <- E; reflexivity|]. cbn. split; [|reflexivity].
  unfold Rleb. rewrite Rabs_right by lra. destruct (Rle_dec 3 3); [reflexivity|lra].
Qed.
Print Assumptions C120_strictly_above_refuted.
(* two factors, matched in the other order *)
Definition xpm_s : solution := mkSolution shares13 shares13 ["a"; "b"]%string.
Lemma xpm_names : names_columns 2 [1%nat; 0%nat].
Proof. split; [cbn; lia |]. intros [|[|f]] c Hf E; cbn in E; try lia; injection E as <-; lia. Qed.
Lemma xpm_nodup : NoDup ["a"; "b"]%string.
Proof. repeat constructor; cbn; intuition discriminate. Qed.
Lemma xpm_perm : Permutation [1%nat; 0%nat] (seq 0 2).
Proof. apply perm_swap. Qed.
Example C120_fingerprints_example := C120_fingerprints 2 xpm_s xpm_s xpm_s [1%nat; 0%nat] [1%nat; 0%nat] 2 xpm_names xpm_names.
Example C120_stacks_reach_100_example := proj2 (C120_stacks_reach_100 2 [1%nat; 0%nat] [1%nat; 0%nat] 2 ltac:(lia) eq_refl xpm_names xpm_names) xpm_perm.
Example C120_pies_example := C120_pies 2 xpm_s xpm_s xpm_s ["a"; "b"]%string (Some "c"%string) 5 ltac:(discriminate).
Example C120_list_of_features_refuted_example := C120_list_of_features_refuted 2 xpm_s xpm_s xpm_s ["a"; "b"]%string None 1 ltac:(discriminate).
Example C120_factor_profiles_example := proj1 (C120_factor_profiles 2 xpm_s xpm_s xpm_s [1%nat; 0%nat] [1%nat; 0%nat] 2 xpm_names xpm_names) ltac:(lia).
Example C120_parts_example :=
  C120_parts 2 xpm_s xpm_s xpm_s [1%nat; 0%nat] [1%nat; 0%nat] ["a"; "b"]%string 3 1 1 "b"%string xpm_nodup eq_refl eq_refl eq_refl xpm_names xpm_names ltac:(lia) eq_refl.
Example C120_all_features_example :=
  C120_all_features 2 xpm_s xpm_s xpm_s [1%nat; 0%nat] [1%nat; 0%nat] ["a"; "b"]%string 3 1 xpm_nodup eq_refl eq_refl eq_refl xpm_names xpm_names ltac:(lia).
Example C120_parts_add_up_example := C120_parts_add_up 2 xpm_s [1%nat; 0%nat] 0 0 eq_refl xpm_perm.
Example C120_named_feature_example : named ["a"; "b"]%string None (-1) = inr 1%nat.
Proof. apply (C120_named_feature ["a"; "b"]%string None (-1)); [discriminate | cbn; lia | right; reflexivity]. Qed.
Example C120_daily_means_example : exists q, daily 3 (fun t => Z.of_nat (t / 2)) (fun t => INR t) 0 = Fin q /\ 0 <= q <= 1.
Proof.
  destruct (proj2 (C120_daily_means 3 (fun t => Z.of_nat (t / 2)) (fun t => INR t) 0) ltac:(discriminate)) as (q & E & _ & B).
  exists q. split; [exact E |]. apply B. intros t [<- | [<- | []]]; cbn; lra.
Qed.
Example C120_reconstructions_example :=
  C120_reconstructions 2 xpm_s xpm_s xpm_s ["a"; "b"]%string 3 (fun t => Z.of_nat (t / 2)) (fun t => Z.of_nat (t / 2)) (fun t j => INR (t + j)) (Some "b"%string) 0 1 eq_refl.
Example C120_residual_table_example :=
  C120_residual_table 2 xpm_s xpm_s xpm_s ["a"; "b"]%string 3 2 (fun t => Z.of_nat t) (fun t => Z.of_nat (t + 1)) (fun t j => INR (t + j)) (Some "b"%string) 0 1 3
    ltac:(cbv beta; intros; lia) eq_refl.

(** The hypotheses are met by a mapping that exchanges two factors. *)
Example C120_instance : names_columns 2 [1%nat; 0%nat] /\ Permutation [1%nat; 0%nat] (seq 0 2) /\ rsum 2 (shares13 0%nat) = 4 /\
  NoDup ["a"; "b"]%string /\ named ["a"; "b"]%string (Some "b"%string) 0 = inr 1%nat /\ named ["a"; "b"]%string None (-1) = inr 1%nat.
Proof.
  split. { split; [cbn; lia|]. intros [|[|f]] c Hf E; cbn in E; try lia; injection E as <-; lia. }
  split; [cbn; constructor|]. split; [cbn; unfold shares13; cbn; lra|]. split; [repeat constructor; cbn; intuition discriminate|]. split; reflexivity.
Qed.
