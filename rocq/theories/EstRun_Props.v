(** Properties of EstRun_Model. *)
From Coq Require Import List Bool Arith ZArith Lia Reals Lra String Permutation.
From Verif Require Import Base Fl Est_Model Est_Props Workers_Model Workers_Props EstRun_Model.
Import ListNotations.
Local Open Scope nat_scope.

(** The mean of the values of the samples with [k] factors. *)
Definition mean_of (f : sample -> fl) (l : list sample) (k : nat) : fl := lmean (map f (filter (fun s => s_k s =? k) l)).

Lemma all_some_total {A B} (g : A -> option B) (h : A -> B) l : (forall a, In a l -> g a = Some (h a)) -> all_some (map g l) = Some (map h l).
Proof. induction l as [|a l IH]; intros H; cbn; [reflexivity|]. rewrite H by (now left). rewrite IH by (intros; apply H; now right). reflexivity. Qed.
Lemma column_eq f l lo hi : column f l lo hi = map (mean_of f l) (seq lo (S hi - lo)).
Proof. reflexivity. Qed.
Lemma deltas_length l : List.length (deltas l) = List.length l - 1.
Proof. induction l as [|a [|b t] IH]; cbn in *; try reflexivity. rewrite IH. lia. Qed.
Lemma deltas_nth l : forall i a b, nth_error l i = Some a -> nth_error l (S i) = Some b -> nth_error (deltas l) i = Some (fsub a b).
Proof.
  induction l as [|x [|y t] IH]; intros i a b Ha Hb.
  - destruct i; discriminate.
  - destruct i as [|[|i]]; discriminate.
  - destruct i as [|i]; cbn in Ha, Hb; [injection Ha as <-; injection Hb as <-; reflexivity|]. cbn [deltas nth_error]. apply IH; assumption.
Qed.
Lemma combine_nth {A B} (l : list A) (r : list B) : forall i a b, nth_error l i = Some a -> nth_error r i = Some b -> nth_error (combine l r) i = Some (a, b).
Proof. revert r. induction l as [|x l IH]; intros [|y r] [|i] a b Ha Hb; cbn in *; try discriminate; [congruence|]. apply IH; assumption. Qed.
Lemma seq_nth_error lo n i : i < n -> nth_error (seq lo n) i = Some (lo + i).
Proof. revert lo i. induction n as [|n IH]; intros lo [|i] H; cbn; try lia; [f_equal; lia|]. rewrite IH by lia. f_equal. lia. Qed.

Lemma scores_nth kc mn l : forall lo i x, nth_error l i = Some x ->
  nth_error (scores kc lo mn l) i = Some (fdiv mn (fmul x (Fin (Rpower (INR (lo + i)) kc)))).
Proof.
  induction l as [|a l IH]; intros lo [|i] x H; cbn in *; try discriminate.
  - injection H as ->. rewrite Nat.add_0_r. reflexivity.
  - rewrite (IH (S lo) i x H). replace (S lo + i) with (lo + S i) by lia. reflexivity.
Qed.
Lemma ratios_nth c l : forall i a b, nth_error l i = Some a -> nth_error l (S i) = Some b -> nth_error (ratios c l) i = Some (fmul c (fdiv a b)).
Proof.
  induction l as [|x [|y t] IH]; intros i a b Ha Hb.
  - destruct i; discriminate.
  - destruct i as [|[|i]]; discriminate.
  - destruct i as [|i]; cbn in Ha, Hb; [injection Ha as <-; injection Hb as <-; reflexivity|]. cbn [ratios nth_error]. apply IH; assumption.
Qed.

Lemma nth_error_ext {A} (l : list A) : forall l', (forall q, nth_error l q = nth_error l' q) -> l = l'.
Proof.
  induction l as [|a l IH]; intros [|b l'] H; [reflexivity|specialize (H 0); discriminate|specialize (H 0); discriminate|].
  pose proof (H 0) as H0. cbn in H0. injection H0 as ->. f_equal. apply IH. intros q. exact (H (S q)).
Qed.

(** A trace of a figure, by name. *)
Definition trace (fg : figure) (name : string) : list (nat * fl) :=
  match find (fun t => String.eqb (fst t) name) (f_traces fg) with Some t => snd t | None => [] end.
(** Reading a trace at a factor count. *)
Definition shows (fg : figure) (name : string) (k : nat) (y : fl) : Prop := In (k, y) (trace fg name).

(** A call with at least two factor counts completes, and the plot shows for every count
    the means over the samples of this call with that count, at that count, whatever the
    order of arrival; the red line stands at the estimate of these errors, the black one
    at the actual count if that is given and not 0.  A later call takes later numbers. *)
Theorem C138_completed_call : forall cpu draw (h : nat -> sample) arrive samples lo hi (e : est) actual,
  (2 <= cpu)%Z -> lo < hi -> (forall l, Permutation (arrive l) l) ->
  (forall p, draw p lo (S hi) = Some (h p)) ->
  let l := map (fun i => h (e_pos e + i * (2 + e_rows e))) (seq 0 samples) in
  let drop k := fsub (mean_of s_test l (k - 1)) (mean_of s_test l k) in
  let '(e', x) := est_run cpu draw arrive samples lo hi e in
  x = None /\ e_pos e' = e_pos e + samples * (2 + e_rows e) /\
  exists z fg, estimate (e_kc e) lo hi (map (mean_of s_test l) (seq lo (S hi - lo))) = Some z /\
    e_est e' = Some z /\ est_plot actual e' = Some fg /\
    (forall k, lo <= k <= hi ->
       shows fg "Test MSE" k (mean_of s_test l k) /\ shows fg "Train MSE" k (mean_of s_train l k) /\ shows fg "Q(True)" k (mean_of s_qt l k) /\
       shows fg "K Estimate" k (fdiv (fmin_list (map (mean_of s_test l) (seq lo (S hi - lo)))) (fmul (mean_of s_test l k) (Fin (Rpower (INR k) (e_kc e))))) /\
       (lo < k -> shows fg "Delta MSE" k (drop k)) /\
       (lo < k < hi -> shows fg "Ratio Delta" k
          (fmul (fmul (Fin (101 / 100)) (fmax_list (map drop (seq (S lo) (hi - lo))))) (fdiv (drop k) (drop (S k)))))) /\
    shows fg "Delta MSE" lo NaN /\
    (forall name k y, shows fg name k y -> lo <= k <= hi) /\
    f_lines fg = match actual with Some a => if (a =? 0)%Z then [] else [("black", a)]%string | None => [] end ++ [("red"%string, z)].
Proof.
  intros cpu draw h arrive samples lo hi e actual Hc Hlt Ha Hd l drop. unfold est_run.
  assert (Eg : ((0 <? samples) && (S hi <=? lo) = false)). { destruct (Nat.leb_spec (S hi) lo); [lia|]. apply andb_false_r. }
  rewrite Eg.
  assert (Ep : pool (estimator_processes cpu) = None). { destruct (C137_processes cpu ltac:(lia)) as (_ & _ & _ & _ & P & _). apply P, Hc. }
  rewrite Ep.
  rewrite (all_some_total _ (fun i => h (e_pos e + i * (2 + e_rows e)))) by (intros; apply Hd). fold l.
  assert (Pl : Permutation (arrive l) l) by apply Ha.
  assert (Ecol : forall f, column f (arrive l) lo hi = map (mean_of f l) (seq lo (S hi - lo))).
  { intros f. destruct (C45_completion_order_irrelevant f (e_kc e) lo hi _ _ Pl) as [-> _]. apply column_eq. }
  unfold results. replace (S hi - 1) with hi by lia. rewrite (Ecol s_test), (Ecol s_train), (Ecol s_qt), (Ecol s_qr).
  set (ms := map (mean_of s_test l) (seq lo (S hi - lo))).
  assert (Lm : List.length ms = S hi - lo). { unfold ms. rewrite map_length, seq_length. reflexivity. }
  destruct (estimate (e_kc e) lo hi ms) as [z|] eqn:Ez.
  2:{ exfalso. unfold estimate in Ez. destruct (Nat.leb_spec (List.length ms) 1); [lia|discriminate]. }
  split; [reflexivity|]. split; [reflexivity|]. exists z. eexists. split; [reflexivity|]. split; [reflexivity|]. split; [reflexivity|].
  cbn [e_lo e_hi set_range t_test t_train t_delta t_ratio t_k t_qt].
  assert (Sq : forall i, i < S hi - lo -> nth_error (seq lo (S hi - lo)) i = Some (lo + i)) by (intros; apply seq_nth_error; assumption).
  assert (Cm : forall (g : nat -> fl) k, lo <= k <= hi -> In (k, g k) (combine (seq lo (S hi - lo)) (map g (seq lo (S hi - lo))))).
  { intros g k Hk. apply (nth_error_In _ (k - lo)). apply combine_nth.
    - rewrite Sq by lia. f_equal. lia.
    - erewrite map_nth_error; [reflexivity|]. rewrite Sq by lia. f_equal. lia. }
  assert (Ms : forall k, lo <= k <= hi -> nth_error ms (k - lo) = Some (mean_of s_test l k)).
  { intros k Hk. unfold ms. erewrite map_nth_error; [reflexivity|]. rewrite Sq by lia. f_equal. lia. }
  assert (Dl : deltas ms = map drop (seq (S lo) (hi - lo))).
  { apply nth_error_ext. intros i. destruct (lt_dec i (hi - lo)) as [Hi|Hi].
    - erewrite map_nth_error by (apply seq_nth_error; exact Hi). unfold drop.
      apply deltas_nth; [rewrite <- (Ms (S lo + i - 1)) by lia|rewrite <- (Ms (S lo + i)) by lia]; f_equal; lia.
    - rewrite (proj2 (nth_error_None (deltas ms) i)) by (rewrite deltas_length; lia).
      symmetry. apply nth_error_None. rewrite map_length, seq_length. lia. }
  assert (Dn : forall k, lo < k <= hi -> nth_error (map drop (seq (S lo) (hi - lo))) (k - lo - 1) = Some (drop k)).
  { intros k Hk. erewrite map_nth_error; [reflexivity|]. rewrite seq_nth_error by lia. f_equal. lia. }
  split; [|split; [|split]].
  - intros k Hk. unfold shows, trace. cbn [f_traces find fst snd String.eqb Ascii.eqb Bool.eqb].
    assert (At : forall (r : list fl) y, nth_error r (k - lo) = Some y -> In (k, y) (combine (seq lo (S hi - lo)) r)).
    { intros r y Hr. apply (nth_error_In _ (k - lo)). apply combine_nth; [rewrite Sq by lia; f_equal; lia|exact Hr]. }
    split; [apply Cm; exact Hk|]. split; [apply Cm; exact Hk|]. split; [apply Cm; exact Hk|]. split; [|split].
    + apply At. rewrite (scores_nth _ _ _ _ _ _ (Ms k Hk)). replace (lo + (k - lo)) with k by lia. reflexivity.
    + intros Hk'. apply At. unfold delta_column. replace (k - lo) with (S (k - lo - 1)) by lia. cbn [nth_error].
      rewrite Dl. apply Dn. lia.
    + intros Hk'. apply At. unfold ratio_column. replace (k - lo) with (S (k - lo - 1)) by lia. cbn [nth_error]. rewrite Dl.
      assert (Er : nth_error (ratios (fmul (Fin (101 / 100)) (fmax_list (map drop (seq (S lo) (hi - lo))))) (map drop (seq (S lo) (hi - lo)))) (k - lo - 1) =
                   Some (fmul (fmul (Fin (101 / 100)) (fmax_list (map drop (seq (S lo) (hi - lo))))) (fdiv (drop k) (drop (S k))))).
      { apply ratios_nth; [apply Dn; lia|]. replace (S (k - lo - 1)) with (S k - lo - 1) by lia. apply Dn. lia. }
      rewrite nth_error_app1; [exact Er|]. apply nth_error_Some. rewrite Er. discriminate.
  - unfold shows, trace. cbn. apply (nth_error_In _ 0). apply combine_nth; [rewrite Sq by lia; f_equal; lia|reflexivity].
  - intros name k y H. unfold shows, trace in H.
    assert (In k (seq lo (S hi - lo))) as Hin; [|apply in_seq in Hin; lia].
    cbn [f_traces find fst snd] in H.
    repeat match type of H with context [String.eqb ?a ?b] => destruct (String.eqb a b) end; cbn [snd] in H;
      try (apply in_combine_l in H; exact H). destruct H.
  - cbn. destruct actual as [a|]; [destruct (a =? 0)%Z|]; reflexivity.
Qed.
Print Assumptions C138_completed_call.

(** A call that raises leaves the table and the estimate of the call before, under the
    range of the new call. *)
Theorem C138_raising_call : forall cpu draw arrive samples lo hi (e : est),
  (1 <= cpu)%Z ->
  let '(e', x) := est_run cpu draw arrive samples lo hi e in
  (x = None <-> cpu <> 1%Z /\ lo < hi /\ forall i, i < samples -> draw (e_pos e + i * (2 + e_rows e)) lo (S hi) <> None) /\
  (x <> None -> e_table e' = e_table e /\ e_est e' = e_est e /\ e_lo e' = lo /\ e_hi e' = S hi).
Proof.
  intros cpu draw arrive samples lo hi e Hc. unfold est_run.
  assert (As : forall l : list nat, (exists r, all_some (map (fun i => draw (e_pos e + i * (2 + e_rows e)) lo (S hi)) l) = Some r) <->
                (forall i, In i l -> draw (e_pos e + i * (2 + e_rows e)) lo (S hi) <> None)).
  { induction l as [|i l IH]; cbn [map all_some]; [split; [intros _ i []|eauto]|]. destruct (draw (e_pos e + i * (2 + e_rows e)) lo (S hi)) as [a|] eqn:E.
    - split.
      + intros (r & Hr). destruct (all_some _) as [r'|] eqn:Er; [|discriminate]. intros j [<- | Hj]; [congruence|]. apply IH; eauto.
      + intros H. destruct (proj2 IH) as (r & ->); [intros j Hj; apply H; now right|]. eauto.
    - split; [intros (r & Hr); discriminate|]. intros H. exfalso. exact (H i (or_introl eq_refl) E). }
  specialize (As (seq 0 samples)).
  assert (As' : (forall i, In i (seq 0 samples) -> draw (e_pos e + i * (2 + e_rows e)) lo (S hi) <> None) <->
                (forall i, i < samples -> draw (e_pos e + i * (2 + e_rows e)) lo (S hi) <> None)).
  { split; intros H i Hi; apply H; [apply in_seq; lia|apply in_seq in Hi; lia]. }
  destruct ((0 <? samples) && (S hi <=? lo)) eqn:Eg.
  - apply andb_prop in Eg. destruct Eg as [E1 E2]. apply Nat.leb_le in E2. cbn. split; [split; [discriminate|lia]|auto].
  - destruct (pool (estimator_processes cpu)) as [x|] eqn:Ep.
    + cbn. split; [|auto]. split; [discriminate|]. intros (N & _). exfalso.
      destruct (C137_processes cpu Hc) as (_ & _ & _ & _ & P & _). rewrite (proj2 P) in Ep; [discriminate|lia].
    + assert (Hc2 : (2 <= cpu)%Z). { destruct (C137_processes cpu Hc) as (_ & _ & _ & _ & P & _). apply P, Ep. }
      destruct (all_some _) as [l|] eqn:El.
      2:{ split; [|cbn; auto]. split; [discriminate|]. intros (_ & _ & H). destruct (proj2 As (proj2 As' H)) as (r & Hr). congruence. }
      assert (Hd : forall i, i < samples -> draw (e_pos e + i * (2 + e_rows e)) lo (S hi) <> None) by exact (proj1 As' (proj1 As (ex_intro _ l eq_refl))).
      unfold results, estimate. replace (S hi - 1) with hi by lia. rewrite column_eq, map_length, seq_length.
      destruct (Nat.leb_spec (S hi - lo) 1) as [H1|H1].
      * cbn. split; [|auto]. split; [discriminate|lia].
      * split; [|intros C; exfalso; apply C; reflexivity]. split; [|reflexivity]. intros _. repeat split; auto; lia.
Qed.
Print Assumptions C138_raising_call.

(** Without samples a call with two or more counts still completes: no error is known
    and the estimate is -1. *)
Theorem C138_no_samples : forall cpu draw arrive lo hi (e : est), (2 <= cpu)%Z -> lo < hi -> (forall l, Permutation (arrive l) l) ->
  let '(e', x) := est_run cpu draw arrive 0 lo hi e in
  x = None /\ e_est e' = Some (-1)%Z /\ exists t, e_table e' = Some t /\ t_test t = repeat NaN (S hi - lo).
Proof.
  intros cpu draw arrive lo hi e Hc Hlt Ha. unfold est_run. cbn [Nat.ltb Nat.leb andb seq map all_some].
  assert (Ep : pool (estimator_processes cpu) = None). { destruct (C137_processes cpu ltac:(lia)) as (_ & _ & _ & _ & P & _). apply P, Hc. }
  rewrite Ep. assert (arrive [] = []) as ->. { apply Permutation_nil, Permutation_sym, Ha. }
  unfold results. replace (S hi - 1) with hi by lia.
  assert (En : forall f, column f [] lo hi = repeat NaN (S hi - lo)).
  { intros f. rewrite column_eq. generalize (S hi - lo). intros n. revert lo Hlt. intros lo _. revert lo.
    induction n as [|n IH]; intros lo; cbn [seq map repeat]; [reflexivity|]. rewrite IH. f_equal.
    unfold mean_of. exact (proj1 (proj2 (C45_column_entries (fun _ => NaN) [] 0 0 0 (le_n 0) (le_n 0))) eq_refl). }
  rewrite !En. rewrite C45_missing_factor_count.
  - split; [reflexivity|]. split; [reflexivity|]. eexists. split; reflexivity.
  - rewrite repeat_length. lia.
  - destruct (S hi - lo) eqn:E; [lia|]. now left.
Qed.
Print Assumptions C138_no_samples.

(** Two counts are sampled, then a call for one count only raises: the plot now shows
    the errors of count 2 at count 3. *)
Definition demo_draw (p lo hi : nat) : option sample :=
  Some (mkS (Fin 1) (if p =? 0 then Fin 7 else Fin 5) (if p =? 0 then 2 else 3) (Fin 1) (Fin 1)).
Theorem C138_plot_matches_range_refuted :
  let '(e1, x1) := est_run 4 demo_draw (fun l => l) 2 2 3 (new_est 1 1) in
  let '(e2, x2) := est_run 4 demo_draw (fun l => l) 2 3 3 e1 in
  x1 = None /\ x2 = Some ValueError /\
  exists fg y, est_plot None e1 <> None /\ est_plot None e2 = Some fg /\ mean_of s_test [mkS (Fin 1) (Fin 7) 2 (Fin 1) (Fin 1)] 2 = y /\ shows fg "Test MSE" 3 y.
Proof.
  set (e1 := fst (est_run 4 demo_draw (fun l => l) 2 2 3 (new_est 1 1))).
  pose proof (C138_completed_call 4 demo_draw (fun p => mkS (Fin 1) (if p =? 0 then Fin 7 else Fin 5) (if p =? 0 then 2 else 3) (Fin 1) (Fin 1)) (fun l => l) 2 2 3 (new_est 1 1) None
    ltac:(lia) ltac:(lia) (fun l => Permutation_refl l) (fun p => eq_refl)) as H.
  destruct (est_run 4 demo_draw (fun l => l) 2 2 3 (new_est 1 1)) as [e1' x1] eqn:E1.
  destruct H as (-> & _ & z & fg & _ & Ez & Ef & _).
  cbn in E1. unfold results, estimate in E1. cbn [column map seq List.length Nat.leb Nat.sub Nat.add Nat.mul] in E1. injection E1 as <-.
  cbn. split; [reflexivity|]. split; [reflexivity|]. eexists. eexists. split; [discriminate|]. split; [reflexivity|]. split; [reflexivity|].
  unfold shows, trace. cbn. left. reflexivity.
Qed.
Print Assumptions C138_plot_matches_range_refuted.

Example C138_instance :
  (2 <= 4)%Z /\ 2 < 3 /\ (forall l : list sample, Permutation (rev l) l) /\ (forall p, demo_draw p 2 4 <> None).
Proof. repeat split; try lia; [intros; apply Permutation_sym, Permutation_rev|discriminate]. Qed.

(** Two samples, of models with two and with three factors, taken by four processes and
    collected in the opposite order. *)
Example C138_completed_call_example :=
  C138_completed_call 4 demo_draw (fun p => mkS (Fin 1) (if p =? 0 then Fin 7 else Fin 5) (if p =? 0 then 2 else 3) (Fin 1) (Fin 1))
    (fun l => rev l) 2 2 3 (new_est 1 1) (Some 2%Z) ltac:(lia) ltac:(lia) (proj1 (proj2 (proj2 C138_instance))) (fun _ => eq_refl).
Example C138_raising_call_example :=
  C138_raising_call 4 demo_draw (fun l => rev l) 2 3 3 (new_est 1 1) ltac:(lia).
Example C138_no_samples_example :=
  C138_no_samples 4 demo_draw (fun l => rev l) 2 3 (new_est 1 1) ltac:(lia) ltac:(lia) (proj1 (proj2 (proj2 C138_instance))).
