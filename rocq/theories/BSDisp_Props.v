(** C40 and C65: BS-DISP (esat/error/bs_disp.py). *)
From Coq Require Import List Bool Arith Lia Reals Lra Permutation.
From Verif Require Import Base Fl Disp_Model Disp_Proofs Disp_Props BSDisp_Model.
Import ListNotations.
Local Open Scope R_scope.

Definition is_max (x : R) (l : list R) : Prop := In x l /\ forall y, In y l -> y <= x.
Definition is_min (x : R) (l : list R) : Prop := In x l /\ forall y, In y l -> x <= y.

Lemma fold_max (g : nat -> R) ks : forall a, is_max (fold_left (fun a i => npmax a (g i)) ks a) (a :: map g ks).
Proof.
  induction ks as [|i ks IH]; intros a; cbn [fold_left map].
  - split; [left; reflexivity|]. intros y [<-|[]]. lra.
  - destruct (IH (npmax a (g i))) as [Hin Hle].
    assert (Hm : npmax a (g i) = a \/ npmax a (g i) = g i) by (unfold npmax; destruct (Rltb a (g i)); auto).
    assert (Hge : a <= npmax a (g i) /\ g i <= npmax a (g i)).
    { unfold npmax. destruct (Rltb a (g i)) eqn:E; [apply Rltb_iff in E|apply Rltb_false in E]; lra. }
    split.
    + destruct Hin as [E|Hin]; [|right; right; exact Hin]. rewrite <- E. destruct Hm as [->| ->]; [left|right; left]; reflexivity.
    + specialize (Hle (npmax a (g i)) (or_introl eq_refl)) as H0. intros y [<-|[<-|Hy]]; [lra|lra|].
      apply Hle. right. exact Hy.
Qed.
Lemma fold_min (g : nat -> R) ks : forall a, is_min (fold_left (fun a i => npmin a (g i)) ks a) (a :: map g ks).
Proof.
  induction ks as [|i ks IH]; intros a; cbn [fold_left map].
  - split; [left; reflexivity|]. intros y [<-|[]]. lra.
  - destruct (IH (npmin a (g i))) as [Hin Hle].
    assert (Hm : npmin a (g i) = a \/ npmin a (g i) = g i) by (unfold npmin; destruct (Rltb (g i) a); auto).
    assert (Hge : npmin a (g i) <= a /\ npmin a (g i) <= g i).
    { unfold npmin. destruct (Rltb (g i) a) eqn:E; [apply Rltb_iff in E|apply Rltb_false in E]; lra. }
    split.
    + destruct Hin as [E|Hin]; [|right; right; exact Hin]. rewrite <- E. destruct Hm as [->| ->]; [left|right; left]; reflexivity.
    + specialize (Hle (npmin a (g i)) (or_introl eq_refl)) as H0. intros y [<-|[<-|Hy]]; [lra|lra|].
      apply Hle. right. exact Hy.
Qed.

(** ** C40 *)
(** The ranges of a row: the first stored run [f] together with runs 1..n-1. *)
Theorem C40_compiled_ranges : forall (comp : nat -> nat -> crow) n f rest x,
  Permutation (f :: rest) (seq 1 n) ->
  let b := compile_row comp (f :: rest) x in
  let vals := fun g : crow -> R => g (comp f x) :: map (fun i => g (comp i x)) (seq 1 (n - 1)) in
  is_max (b_pmax b) (vals profile_max) /\
  is_min (b_pmin b) (profile_min (comp f x) :: map (fun i => profile (comp i x)) (seq 1 (n - 1))) /\
  is_max (b_cmax b) (vals conc_max) /\ is_min (b_cmin b) (vals conc_min) /\ is_min (b_drop b) (vals dQ_drop) /\
  b_profiles b * INR n = lsum (vals profile) /\ b_conc b * INR n = lsum (vals cconc).
Proof.
  intros comp n f rest x Hp b vals.
  assert (Hlen : length (f :: rest) = n) by (rewrite (Permutation_length Hp); apply seq_length).
  assert (Hn : (0 < n)%nat) by (cbn in Hlen; lia).
  assert (HnR : INR n <> 0) by (apply not_0_INR; lia).
  unfold b, compile_row, vals, loop_keys, keys0, hd. rewrite Hlen. cbn [b_pmax b_pmin b_cmax b_cmin b_drop b_profiles b_conc].
  split; [exact (fold_max (fun i => profile_max (comp i x)) _ _)|].
  split; [exact (fold_min (fun i => profile (comp i x)) _ _)|].
  split; [exact (fold_max (fun i => conc_max (comp i x)) _ _)|].
  split; [exact (fold_min (fun i => conc_min (comp i x)) _ _)|].
  split; [exact (fold_min (fun i => dQ_drop (comp i x)) _ _)|].
  assert (Hl : forall g : nat -> R, forall a, length (a :: map g (seq 1 (n - 1))) = n)
    by (intros; cbn; rewrite map_length, seq_length; lia).
  unfold lmean. rewrite !Hl. split; field; exact HnR.
Qed.
Print Assumptions C40_compiled_ranges.

(** Runs stored in order (the sequential bootstrap): the last run has no effect
    on any range, average or count of drops. *)
Theorem C40_last_run_ignored : forall (c1 c2 : nat -> nat -> crow) n nrows x, (2 <= n)%nat ->
  (forall i y, (1 <= i < n)%nat -> c1 i y = c2 i y) ->
  compile_row c1 (seq 1 n) x = compile_row c2 (seq 1 n) x /\
  n_drops c1 nrows (seq 1 n) = n_drops c2 nrows (seq 1 n).
Proof.
  intros c1 c2 n nrows x Hn Heq.
  assert (Hks : forall i, In i (loop_keys (seq 1 n)) -> (1 <= i < n)%nat).
  { unfold loop_keys. rewrite seq_length. intros i Hi. apply in_seq in Hi. lia. }
  assert (Hk0 : keys0 (seq 1 n) = 1%nat) by (destruct n; [lia|reflexivity]).
  split.
  - unfold compile_row. rewrite Hk0. rewrite (Heq 1%nat x) by lia.
    assert (Hm : forall g : crow -> R, map (fun i => g (c1 i x)) (loop_keys (seq 1 n)) = map (fun i => g (c2 i x)) (loop_keys (seq 1 n)))
      by (intros g; apply map_ext_in; intros i Hi; rewrite (Heq i x (Hks i Hi)); reflexivity).
    assert (Hf : forall (op : R -> R -> R) (g : crow -> R) a, fold_left (fun a i => op a (g (c1 i x))) (loop_keys (seq 1 n)) a
                                             = fold_left (fun a i => op a (g (c2 i x))) (loop_keys (seq 1 n)) a).
    { intros op g. clear Hm. induction (loop_keys (seq 1 n)) as [|i l IH]; intros a; cbn [fold_left]; [reflexivity|].
      rewrite (Heq i x (Hks i (or_introl eq_refl))). apply IH. intros j Hj. apply Hks. right. exact Hj. }
    rewrite (Hm profile), (Hm cconc), (Hf npmax profile_max), (Hf npmin profile), (Hf npmax conc_max), (Hf npmin conc_min), (Hf npmin dQ_drop).
    reflexivity.
  - unfold n_drops. f_equal. apply filter_ext_in. intros i Hi.
    assert (He : forall l, existsb (fun y => Rltb (dQ_drop (c1 i y)) 0) l = existsb (fun y => Rltb (dQ_drop (c2 i y)) 0) l).
    { induction l as [|y l IH]; cbn; [reflexivity|]. rewrite (Heq i y (Hks i Hi)), IH. reflexivity. }
    apply He.
Qed.
Print Assumptions C40_last_run_ignored.

(** The lower profile bounds found by the runs other than the first are never
    used. *)
Theorem C40_lower_bounds_ignored : forall (c1 c2 : nat -> nat -> crow) f rest x,
  (forall i, profile (c1 i x) = profile (c2 i x)) -> profile_min (c1 f x) = profile_min (c2 f x) ->
  b_pmin (compile_row c1 (f :: rest) x) = b_pmin (compile_row c2 (f :: rest) x).
Proof.
  intros c1 c2 f rest x Hp Hm. unfold compile_row, keys0, hd. cbn [b_pmin]. rewrite Hm.
  generalize (profile_min (c2 f x)). induction (loop_keys (f :: rest)) as [|i l IH]; intros a; cbn [fold_left]; [reflexivity|].
  rewrite Hp. apply IH.
Qed.
Print Assumptions C40_lower_bounds_ignored.

(** Averages lie inside the ranges whenever each run's own values do. *)
Lemma mean_bounds l lo hi : l <> [] -> (forall y, In y l -> lo <= y <= hi) -> lo <= lmean l <= hi.
Proof.
  intros Hne Hl. unfold lmean.
  assert (HnR : 0 < INR (length l)) by (apply lt_0_INR; destruct l; [congruence|cbn; lia]).
  assert (Hs : INR (length l) * lo <= lsum l <= INR (length l) * hi).
  { clear Hne HnR. induction l as [|a l IH]; [cbn; lra|]. cbn [length lsum]. rewrite S_INR.
    destruct (Hl a (or_introl eq_refl)). assert (INR (length l) * lo <= lsum l <= INR (length l) * hi)
      by (apply IH; intros y Hy; apply Hl; right; exact Hy). lra. }
  split; apply Rmult_le_reg_r with (INR (length l)); try assumption;
    unfold Rdiv; rewrite Rmult_assoc, Rinv_l by lra; lra.
Qed.

Theorem C40_min_mean_max : forall (comp : nat -> nat -> crow) n f rest x,
  Permutation (f :: rest) (seq 1 n) ->
  (forall i, (1 <= i <= n)%nat -> profile_min (comp i x) <= profile (comp i x) <= profile_max (comp i x) /\
                                  conc_min (comp i x) <= cconc (comp i x) <= conc_max (comp i x)) ->
  let b := compile_row comp (f :: rest) x in
  b_pmin b <= b_profiles b <= b_pmax b /\ b_cmin b <= b_conc b <= b_cmax b.
Proof.
  intros comp n f rest x Hp Hb b.
  pose proof (C40_compiled_ranges comp n f rest x Hp) as (H1 & H2 & H3 & H4 & _).
  fold b in H1, H2, H3, H4.
  assert (Hlen : length (f :: rest) = n) by (rewrite (Permutation_length Hp); apply seq_length).
  assert (Hf : (1 <= f <= n)%nat).
  { assert (In f (seq 1 n)) by (apply (Permutation_in _ Hp); left; reflexivity). apply in_seq in H. lia. }
  assert (Hk : forall i, In i (seq 1 (n - 1)) -> (1 <= i <= n)%nat) by (intros i Hi; apply in_seq in Hi; lia).
  assert (Eb : b_profiles b = lmean (profile (comp f x) :: map (fun i => profile (comp i x)) (seq 1 (n - 1)))).
  { unfold b, compile_row, loop_keys, keys0, hd. rewrite Hlen. reflexivity. }
  assert (Ec : b_conc b = lmean (cconc (comp f x) :: map (fun i => cconc (comp i x)) (seq 1 (n - 1)))).
  { unfold b, compile_row, loop_keys, keys0, hd. rewrite Hlen. reflexivity. }
  destruct H1 as [_ H1], H2 as [_ H2], H3 as [_ H3], H4 as [_ H4].
  rewrite Eb, Ec. split; apply mean_bounds; try discriminate; intros y [<-|Hy].
  - destruct (Hb f Hf) as [Hx _]. specialize (H1 _ (or_introl eq_refl)). specialize (H2 _ (or_introl eq_refl)). lra.
  - apply in_map_iff in Hy. destruct Hy as (i & <- & Hi). destruct (Hb i (Hk i Hi)) as [Hx _].
    specialize (H1 (profile_max (comp i x))). specialize (H2 (profile (comp i x))). split.
    + apply H2. right. apply in_map_iff. eauto.
    + eapply Rle_trans; [apply Hx|]. apply H1. right. apply in_map_iff. exists i. auto.
  - destruct (Hb f Hf) as [_ Hx]. specialize (H3 _ (or_introl eq_refl)). specialize (H4 _ (or_introl eq_refl)). lra.
  - apply in_map_iff in Hy. destruct Hy as (i & <- & Hi). destruct (Hb i (Hk i Hi)) as [_ Hx].
    specialize (H3 (conc_max (comp i x))). specialize (H4 (conc_min (comp i x))). split.
    + eapply Rle_trans; [|apply Hx]. apply H4. right. apply in_map_iff. exists i. auto.
    + eapply Rle_trans; [apply Hx|]. apply H3. right. apply in_map_iff. exists i. auto.
Qed.
Print Assumptions C40_min_mean_max.

(** What the documentation promises — the ranges over all runs — fails with two
    runs already, for the maximum and for the minimum. *)
Theorem C40_ranges_cover_all_runs_refuted :
  exists (comp : nat -> nat -> crow),
    (forall i x, profile_min (comp i x) <= profile (comp i x) <= profile_max (comp i x) /\
                 conc_min (comp i x) <= cconc (comp i x) <= conc_max (comp i x)) /\
    ~ is_max (b_pmax (compile_row comp [1; 2]%nat 0)) (map (fun i => profile_max (comp i 0%nat)) [1; 2]%nat) /\
    ~ is_min (b_pmin (compile_row comp [1; 2; 3]%nat 0)) (map (fun i => profile_min (comp i 0%nat)) [1; 2]%nat).
Proof.
  exists (fun i _ => if (i =? 1)%nat then mkCrow 2 2 2 2 2 2 0 else mkCrow 2 3 1 2 3 1 0).
  split; [|split].
  - intros i x. destruct (i =? 1)%nat; cbn; lra.
  - unfold compile_row, npmax, npmin. cbn. intros [_ H]. specialize (H 3 (or_intror (or_introl eq_refl))).
    rewrite ?(proj2 (Rltb_false 2 2)) in H by lra. lra.
  - unfold compile_row, npmax, npmin. cbn. intros [_ H]. specialize (H 1 (or_intror (or_introl eq_refl))).
    rewrite ?(proj2 (Rltb_false 2 2)) in H by lra. lra.
Qed.
Print Assumptions C40_ranges_cover_all_runs_refuted.

(** Runs are stored as they finish, so the order may differ between two calls with
    the same seed.  Only which run finished first matters ... *)
Theorem C40_only_the_first_finished_matters : forall (comp : nat -> nat -> crow) n f r1 r2 x nrows,
  Permutation (f :: r1) (seq 1 n) -> Permutation (f :: r2) (seq 1 n) ->
  compile_row comp (f :: r1) x = compile_row comp (f :: r2) x /\
  n_drops comp nrows (f :: r1) = n_drops comp nrows (f :: r2).
Proof.
  intros comp n f r1 r2 x nrows H1 H2.
  assert (E : loop_keys (f :: r1) = loop_keys (f :: r2)).
  { unfold loop_keys. rewrite (Permutation_length H1), (Permutation_length H2). reflexivity. }
  split.
  - unfold compile_row. rewrite E. reflexivity.
  - unfold n_drops. rewrite E. reflexivity.
Qed.
Print Assumptions C40_only_the_first_finished_matters.

(** ... and it does: the same results of the same runs, finishing in another
    order, give other ranges and averages. *)
Theorem C40_order_independent_refuted :
  exists (comp : nat -> nat -> crow) (o1 o2 : list nat),
    Permutation o1 (seq 1 3) /\ Permutation o2 (seq 1 3) /\
    (forall i x, profile_min (comp i x) <= profile (comp i x) <= profile_max (comp i x) /\
                 conc_min (comp i x) <= cconc (comp i x) <= conc_max (comp i x)) /\
    b_pmax (compile_row comp o1 0) <> b_pmax (compile_row comp o2 0) /\
    b_pmin (compile_row comp o1 0) <> b_pmin (compile_row comp o2 0) /\
    b_conc (compile_row comp o1 0) <> b_conc (compile_row comp o2 0).
Proof.
  exists (fun i _ => if (i =? 3)%nat then mkCrow 2 3 1 5 6 4 0 else mkCrow 2 2 2 2 2 2 0), [1; 2; 3]%nat, [3; 1; 2]%nat.
  split; [apply Permutation_refl|]. split.
  { apply (Permutation_cons_append [1; 2]%nat 3%nat). }
  split; [intros i x; destruct (i =? 3)%nat; cbn; lra|].
  unfold compile_row, npmax, npmin, lmean. cbn.
  rewrite ?(proj2 (Rltb_false 2 2)) by lra.
  rewrite ?(proj2 (Rltb_false 3 2)) by lra. rewrite ?(proj2 (Rltb_false 2 1)) by lra.
  split; [lra|]. split; [lra|]. lra.
Qed.
Print Assumptions C40_order_independent_refuted.

(** The swap tables, unlike the ranges, cover every run once in any order. *)
Theorem C40_swap_totals : forall (tabs : nat -> tables) n order r c,
  Permutation order (seq 1 n) ->
  sum_tables tabs order r c = (list_sum (map (fun i => fst (tabs i r c)) (seq 1 n)), list_sum (map (fun i => snd (tabs i r c)) (seq 1 n))).
Proof.
  intros tabs n order r c Hp. unfold sum_tables.
  assert (G : forall l a, fold_left (fun a i => (fst a + fst (tabs i r c), snd a + snd (tabs i r c))%nat) l a =
     (fst a + list_sum (map (fun i => fst (tabs i r c)) l), snd a + list_sum (map (fun i => snd (tabs i r c)) l))%nat).
  { unfold list_sum. induction l as [|i l IH]; intros a; cbn [fold_left map fold_right]; [destruct a; cbn [fst snd]; f_equal; lia|].
    rewrite IH. cbn [fst snd]. f_equal; lia. }
  assert (P : forall (g : nat -> nat) l l', Permutation l l' -> list_sum (map g l) = list_sum (map g l')).
  { intros g l l' H. unfold list_sum. induction H; cbn [map fold_right]; lia. }
  rewrite G. cbn [fst snd Nat.add]. rewrite (P _ _ _ Hp), (P (fun i => snd (tabs i r c)) _ _ Hp). reflexivity.
Qed.
Print Assumptions C40_swap_totals.

Theorem C40_runs_with_swaps : forall (tabs : nat -> tables) n order rows k,
  Permutation order (seq 1 n) ->
  disp_swap tabs rows k order = disp_swap tabs rows k (seq 1 n) /\ (disp_swap tabs rows k order <= n)%nat /\
  ((forall i, In i order -> exists r c, (r < rows)%nat /\ (c < k)%nat /\ snd (tabs i r c) <> 0%nat) <-> disp_swap tabs rows k order = n).
Proof.
  intros tabs n order rows k Hp.
  assert (Hlen : length order = n) by (rewrite (Permutation_length Hp); apply seq_length).
  unfold disp_swap. set (P := fun i => existsb _ _).
  assert (HP : forall i, P i = true <-> exists r c, (r < rows)%nat /\ (c < k)%nat /\ snd (tabs i r c) <> 0%nat).
  { intros i. unfold P. rewrite existsb_exists. split.
    - intros (r & Hr & H). apply existsb_exists in H. destruct H as (c & Hc & H). apply in_seq in Hr, Hc.
      apply negb_true_iff, Nat.eqb_neq in H. exists r, c. repeat split; lia.
    - intros (r & c & Hr & Hc & H). exists r. split; [apply in_seq; lia|]. apply existsb_exists. exists c.
      split; [apply in_seq; lia|]. apply negb_true_iff, Nat.eqb_neq, H. }
  split; [apply filter_perm_length, Hp|].
  split; [rewrite <- Hlen; apply filter_le|]. rewrite <- Hlen. clear Hp Hlen. split.
  - intros H. assert (E : filter P order = order); [|rewrite E; reflexivity].
    induction order as [|a l IH]; cbn; [reflexivity|]. rewrite (proj2 (HP a) (H a (or_introl eq_refl))). f_equal.
    apply IH. intros i Hi. apply H. right. exact Hi.
  - intros H i Hi. apply HP. induction order as [|a l IH]; [destruct Hi|]. cbn in H.
    pose proof (filter_le P l) as Hle. destruct (P a) eqn:E; cbn in H; [|lia]. destruct Hi as [<-|Hi]; [exact E|].
    apply IH; [lia|exact Hi].
Qed.
Print Assumptions C40_runs_with_swaps.

(** A factor counts as a best-fit swap unless all bootstrap runs mapped it to
    itself. *)
Theorem C40_fit_swaps : forall (maps : nat -> nat -> nat) n k,
  (forall i, (i < k)%nat -> (maps i i <= n)%nat) ->
  (fit_swaps maps n k <= k)%nat /\ (fit_swaps maps n k = 0%nat <-> forall i, (i < k)%nat -> maps i i = n).
Proof.
  intros maps n k Hle. unfold fit_swaps. split; [rewrite <- (seq_length k 0) at 2; apply filter_le|]. split.
  - intros H i Hi. specialize (Hle i Hi). destruct (Nat.eq_dec (maps i i) n) as [|Hne]; [assumption|exfalso].
    apply length_zero_iff_nil in H.
    assert (Hin : In i (filter (fun i => (maps i i <? n)%nat) (seq 0 k))).
    { apply filter_In. split; [apply in_seq; lia|apply Nat.ltb_lt; lia]. }
    rewrite H in Hin. destruct Hin.
  - intros H. apply length_zero_iff_nil. destruct (filter _ (seq 0 k)) as [|i l] eqn:E; [reflexivity|exfalso].
    assert (Hin : In i (i :: l)) by (left; reflexivity). rewrite <- E in Hin. apply filter_In in Hin.
    destruct Hin as [Hin Hlt]. apply in_seq in Hin. apply Nat.ltb_lt in Hlt. specialize (H i ltac:(lia)). lia.
Qed.
Print Assumptions C40_fit_swaps.
(* three runs, finished in the order 3, 1, 2 *)
Definition xbd_comp (i x : nat) : crow := mkCrow (INR i) (INR i + 1) (INR i - 1) 1 2 0 0.
Lemma xbd_perm : Permutation [3; 1; 2]%nat (seq 1 3).
Proof. cbn. transitivity [1; 3; 2]%nat; [constructor | constructor; constructor]. Qed.
Lemma xbd_perm' : Permutation [3; 2; 1]%nat (seq 1 3).
Proof. transitivity [3; 1; 2]%nat; [constructor; constructor | exact xbd_perm]. Qed.
Example C40_compiled_ranges_example := C40_compiled_ranges xbd_comp 3 3 [1; 2]%nat 0 xbd_perm.
Example C40_last_run_ignored_example :
  compile_row xbd_comp (seq 1 3) 0
  = compile_row (fun i x => if (i =? 3)%nat then mkCrow 100 200 50 1 2 0 0 else xbd_comp i x) (seq 1 3) 0.
Proof.
  apply (C40_last_run_ignored xbd_comp
    (fun i x => if (i =? 3)%nat then mkCrow 100 200 50 1 2 0 0 else xbd_comp i x) 3 5 0); [lia |].
  intros i y Hi. replace (i =? 3)%nat with false; [reflexivity |]. symmetry. apply Nat.eqb_neq. lia.
Qed.
Example C40_lower_bounds_ignored_example :
  b_pmin (compile_row xbd_comp [3; 1; 2]%nat 0)
  = b_pmin (compile_row (fun i x => if (i =? 3)%nat then xbd_comp i x else mkCrow (INR i) (INR i + 1) (-50) 1 2 0 0)
      [3; 1; 2]%nat 0).
Proof.
  apply C40_lower_bounds_ignored; [| reflexivity].
  intros i. destruct (i =? 3)%nat; reflexivity.
Qed.
Lemma xbd_bounds : forall i, (1 <= i <= 3)%nat ->
  profile_min (xbd_comp i 0) <= profile (xbd_comp i 0) <= profile_max (xbd_comp i 0) /\
  conc_min (xbd_comp i 0) <= cconc (xbd_comp i 0) <= conc_max (xbd_comp i 0).
Proof. intros i _. unfold xbd_comp. cbn. lra. Qed.
Example C40_min_mean_max_example := C40_min_mean_max xbd_comp 3 3 [1; 2]%nat 0 xbd_perm xbd_bounds.
Example C40_only_the_first_finished_matters_example :=
  C40_only_the_first_finished_matters xbd_comp 3 3 [1; 2]%nat [2; 1]%nat 0 5 xbd_perm xbd_perm'.
Definition xbd_tabs (i r c : nat) : nat * nat := (10, if (i =? 2)%nat then 0 else r)%nat.
Example C40_swap_totals_example := C40_swap_totals xbd_tabs 3 [3; 1; 2]%nat 1 0 xbd_perm.
Example C40_runs_with_swaps_example := C40_runs_with_swaps xbd_tabs 3 [3; 1; 2]%nat 4 2 xbd_perm.
Example C40_fit_swaps_example :=
  C40_fit_swaps (fun i j => if (i =? j)%nat then 3 - i else i)%nat 3 3
    ltac:(intros i Hi; cbv beta; rewrite Nat.eqb_refl; lia).

Example C40_instance :
  let comp := fun i (_ : nat) => mkCrow (INR i) (INR i + 1) (INR i - 1) 1 2 0 0 in
  Permutation [3; 1; 2]%nat (seq 1 3) /\ b_pmax (compile_row comp [3; 1; 2]%nat 0) = 4 /\
  b_pmax (compile_row comp [1; 2; 3]%nat 0) = 3 /\ b_pmin (compile_row comp [3; 1; 2]%nat 0) = 1.
Proof.
  cbv zeta. split.
  - cbn. apply perm_trans with [1; 3; 2]%nat; [apply perm_swap|]. apply perm_skip, perm_swap.
  - pose proof (C40_compiled_ranges (fun i (_ : nat) => mkCrow (INR i) (INR i + 1) (INR i - 1) 1 2 0 0) 3) as H.
    assert (P1 : Permutation [3; 1; 2]%nat (seq 1 3)).
    { cbn. apply perm_trans with [1; 3; 2]%nat; [apply perm_swap|]. apply perm_skip, perm_swap. }
    destruct (H 3%nat [1; 2]%nat 0%nat P1) as ([A1 A2] & [B1 B2] & _).
    destruct (H 1%nat [2; 3]%nat 0%nat ltac:(apply Permutation_refl)) as ([C1 C2] & _).
    set (u := b_pmax (compile_row _ [3; 1; 2]%nat 0)) in *. set (v := b_pmax (compile_row _ [1; 2; 3]%nat 0)) in *.
    set (w := b_pmin (compile_row _ [3; 1; 2]%nat 0)) in *. clearbody u v w. cbn in A1, A2, B1, B2, C1, C2.
    repeat split.
    + assert (Hx := A2 _ (or_introl eq_refl)). destruct A1 as [A1|[A1|[A1|[]]]]; lra.
    + assert (Hx := C2 _ (or_intror (or_intror (or_introl eq_refl)))). destruct C1 as [C1|[C1|[C1|[]]]]; lra.
    + assert (Hx := B2 _ (or_intror (or_introl eq_refl))). destruct B1 as [B1|[B1|[B1|[]]]]; lra.
Qed.

(** ** C65: when a run completes *)
Local Open Scope nat_scope.
Theorem C65_bsdisp_completes : forall parallel n k features,
  bsdisp_completes parallel n k features = true <->
  parallel = false /\ 1 <= n <= 127 /\ (forall i j, i < k -> In j features -> i * length features + j + 1 <= 127).
Proof.
  intros parallel n k features. unfold bsdisp_completes. rewrite !andb_true_iff, forallb_forall, negb_true_iff, Nat.eqb_neq.
  assert (Hn : (forall x, In x (seq 1 n) -> engine_accepts x = true) <-> n <= 127).
  { split.
    - intros H. destruct n as [|n]; [lia|]. specialize (H (S n)). rewrite in_seq in H. specialize (H ltac:(lia)). apply Nat.leb_le in H. exact H.
    - intros H x Hx. apply in_seq in Hx. apply Nat.leb_le. lia. }
  rewrite Hn. destruct parallel; cbn.
  - split; [intros [_ C]; discriminate|intros [C _]; discriminate].
  - rewrite C64_parallel_model_number. intuition lia.
Qed.
Print Assumptions C65_bsdisp_completes.
Example C65_bsdisp_completes_example := C65_bsdisp_completes false 20 6 [0; 3; 130]%nat.

Theorem C65_parallel_mode_works_refuted : forall n k features, bsdisp_completes true n k features = false.
Proof. intros. unfold bsdisp_completes. cbn. apply andb_false_r. Qed.
Print Assumptions C65_parallel_mode_works_refuted.

Example C65_instance : bsdisp_completes false 20 6 (seq 0 20) = true /\ bsdisp_completes false 20 6 (seq 0 26) = false.
Proof. split; reflexivity. Qed.
