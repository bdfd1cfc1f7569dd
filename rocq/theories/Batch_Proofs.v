From Coq Require Import List Bool ZArith Lia Permutation.
From Verif Require Import Fl Batch_Model.
Import ListNotations.
Open Scope Z_scope.

(** ** Specification: the index (from 0) of the best loss in a list. *)
Definition unusable (q : fl) : Prop := q = NaN \/ q = PInf.

Definition best_index (qs : list fl) (b : Z) : Prop :=
  (exists (k : nat) (q : fl),
      b = Z.of_nat k /\ nth_error qs k = Some q /\ ~ unusable q /\
      (forall j q', nth_error qs j = Some q' -> flt q' q = false) /\
      (forall j q', (j < k)%nat -> nth_error qs j = Some q' -> q' = NaN \/ flt q q' = true))
  \/ (b = -2 /\ forall j q', nth_error qs j = Some q' -> unusable q').

Section P.
  Context {M X : Type}.
  Context (qrobust qtrue : M -> option fl).
  Context (fit : Z -> mats X -> mats X -> Z -> nat -> option M).

  Notation selq := (sel_q qrobust qtrue).

  Fixpoint scan (qs : list fl) (i : nat) (bq : fl) (bm : Z) : Z :=
    match qs with
    | [] => bm
    | q :: r => if flt q bq then scan r (S i) q (Z.of_nat i) else scan r (S i) bq bm
    end.

  Definition inv (P : list fl) (bq : fl) (bm : Z) : Prop :=
    (bm = -1 /\ bq = PInf /\ forall j q', nth_error P j = Some q' -> unusable q') \/
    (exists k, bm = Z.of_nat k + 1 /\ nth_error P k = Some bq /\ ~ unusable bq /\
      (forall j q', nth_error P j = Some q' -> flt q' bq = false) /\
      (forall j q', (j < k)%nat -> nth_error P j = Some q' -> q' = NaN \/ flt bq q' = true)).

  Lemma nth_snoc (P : list fl) q j q' : nth_error (P ++ [q]) j = Some q' ->
    nth_error P j = Some q' \/ (j = length P /\ q' = q).
  Proof.
    destruct (Nat.lt_ge_cases j (length P)) as [Hj|Hj].
    - rewrite nth_error_app1 by assumption. auto.
    - rewrite nth_error_app2 by assumption. destruct (j - length P)%nat as [|d] eqn:E.
      + cbn. intros [= <-]. right. split; [lia|reflexivity].
      + cbn. destruct d; discriminate.
  Qed.

  Lemma flt_asym_false x y : flt x y = true -> flt y x = false.
  Proof.
    intros H. destruct (flt y x) eqn:E; [|reflexivity].
    pose proof (flt_trans _ _ _ H E) as C. rewrite flt_irrefl in C. discriminate.
  Qed.

  Lemma inv_step P bq bm q : inv P bq bm ->
    inv (P ++ [q]) (if flt q bq then q else bq) (if flt q bq then Z.of_nat (length P) + 1 else bm).
  Proof.
    intros [(-> & -> & HP)|(k & -> & Hk & Hu & Hmin & Hfst)].
    - destruct (flt q PInf) eqn:E.
      + right. exists (length P). split; [reflexivity|].
        split; [rewrite nth_error_app2, Nat.sub_diag by lia; reflexivity|].
        assert (Hq : ~ unusable q) by (intros [->| ->]; discriminate).
        split; [exact Hq|]. split.
        * intros j q' Hj. apply nth_snoc in Hj. destruct Hj as [Hj|[_ ->]]; [|apply flt_irrefl].
          destruct (HP _ _ Hj) as [-> | ->]; [reflexivity|]. destruct q; cbn in E |- *; try reflexivity; discriminate.
        * intros j q' Hjl Hj. apply nth_snoc in Hj. destruct Hj as [Hj|[-> _]]; [|lia].
          destruct (HP _ _ Hj) as [-> | ->]; [left; reflexivity|right; exact E].
      + left. split; [reflexivity|]. split; [reflexivity|].
        intros j q' Hj. apply nth_snoc in Hj. destruct Hj as [Hj|[_ ->]]; [eauto|].
        unfold unusable. destruct q; cbn in E; try discriminate; auto.
    - destruct (flt q bq) eqn:E.
      + right. exists (length P). split; [reflexivity|].
        split; [rewrite nth_error_app2, Nat.sub_diag by lia; reflexivity|].
        split. { intros [->| ->]; [discriminate|]. destruct bq; cbn in E; discriminate. }
        assert (Hall : forall j q', nth_error P j = Some q' -> q' = NaN \/ flt q q' = true).
        { intros j q' Hj. pose proof (Hmin _ _ Hj) as Hm.
          destruct (is_nan q') eqn:En; [left; destruct q'; try discriminate; reflexivity|].
          right. assert (Hq' : q' <> NaN) by (intros ->; discriminate).
          assert (Hb : bq <> NaN) by (intros ->; apply Hu; left; reflexivity).
          destruct (flt_total bq q' Hb Hq') as [H|[H|H]].
          - exact (flt_trans _ _ _ E H).
          - subst q'. exact E.
          - congruence. }
        split.
        * intros j q' Hj. apply nth_snoc in Hj. destruct Hj as [Hj|[_ ->]]; [|apply flt_irrefl].
          destruct (Hall _ _ Hj) as [-> | H]; [reflexivity|apply flt_asym_false; exact H].
        * intros j q' Hjl Hj. apply nth_snoc in Hj. destruct Hj as [Hj|[-> _]]; [|lia].
          exact (Hall _ _ Hj).
      + right. exists k. split; [reflexivity|].
        assert (Hkl : (k < length P)%nat) by (apply nth_error_Some; congruence).
        split; [rewrite nth_error_app1 by assumption; exact Hk|]. split; [exact Hu|]. split.
        * intros j q' Hj. apply nth_snoc in Hj. destruct Hj as [Hj|[_ ->]]; [eauto|exact E].
        * intros j q' Hjk Hj. apply nth_snoc in Hj. destruct Hj as [Hj|[-> _]]; [eauto|lia].
  Qed.

  Lemma scan_inv qs : forall P bq bm, inv P bq bm ->
    exists bq', inv (P ++ qs) bq' (scan qs (S (length P)) bq bm).
  Proof.
    induction qs as [|q r IH]; intros P bq bm H.
    - exists bq. rewrite app_nil_r. exact H.
    - cbn [scan]. pose proof (inv_step P bq bm q H) as Hs.
      replace (P ++ q :: r) with ((P ++ [q]) ++ r) by (rewrite <- app_assoc; reflexivity).
      replace (S (S (length P))) with (S (length (P ++ [q]))) by (rewrite app_length; cbn; lia).
      replace (Z.of_nat (S (length P))) with (Z.of_nat (length P) + 1) by lia.
      destruct (flt q bq); apply IH; exact Hs.
  Qed.

  Lemma scan_best qs : best_index qs (scan qs 1 PInf (-1) - 1).
  Proof.
    assert (H0 : inv [] PInf (-1)).
    { left. split; [reflexivity|]. split; [reflexivity|]. intros [|j]; discriminate. }
    destruct (scan_inv qs [] PInf (-1) H0) as [bq H]. cbn [app length] in H.
    destruct H as [(-> & _ & HP)|(k & -> & H1 & H2 & H3 & H4)].
    - right. split; [lia|exact HP].
    - left. exists k, bq. split; [lia|]. auto.
  Qed.

  (** ** all_some *)
  Lemma all_some_map {A B} (f : A -> option B) l r :
    all_some (map f l) = Some r <-> Forall2 (fun a b => f a = Some b) l r.
  Proof.
    revert r. induction l as [|a l IH]; intros r; cbn.
    - split; [intros [= <-]; constructor|]. inversion 1. reflexivity.
    - destruct (f a) as [b|] eqn:E.
      + destruct (all_some (map f l)) as [r'|] eqn:E'.
        * split.
          { intros [= <-]. constructor; [exact E|]. apply IH. reflexivity. }
          inversion 1 as [|? b' ? r'' Hb Hr]. subst. f_equal. apply IH in Hr. congruence.
        * split; [discriminate|]. inversion 1 as [|? b' ? r'' Hb Hr]. subst. apply IH in Hr. discriminate.
      + split; [discriminate|]. inversion 1. congruence.
  Qed.

  Lemma all_some_none {A B} (f : A -> option B) l :
    all_some (map f l) = None <-> exists a, In a l /\ f a = None.
  Proof.
    induction l as [|a l IH]; cbn.
    - split; [discriminate|]. intros (a & [] & _).
    - destruct (f a) as [b|] eqn:E.
      + destruct (all_some (map f l)) as [r'|] eqn:E'.
        * split; [discriminate|]. intros (x & [<-|Hx] & Hf); [congruence|].
          enough (Some r' = None) by discriminate. apply IH. eauto.
        * split; [|reflexivity]. intros _. destruct IH as [IH _]. destruct (IH eq_refl) as (x & Hx & Hf). eauto.
      + split; [|reflexivity]. intros _. eauto.
  Qed.

  (** ** Workers *)
  Lemma run_workers_slot (work : nat -> option M) sched : forall slots i,
    (In i sched -> fold_left (fun s j => store s j (work j)) sched slots i = Some (work i)) /\
    (~ In i sched -> fold_left (fun s j => store s j (work j)) sched slots i = slots i).
  Proof.
    induction sched as [|a l IH]; intros slots i; cbn [fold_left].
    - split; [intros []|reflexivity].
    - destruct (IH (store slots a (work a)) i) as [H1 H2]. split.
      + intros [->|Hi]; [|auto]. destruct (in_dec Nat.eq_dec i l) as [Hl|Hl]; [auto|].
        rewrite H2 by assumption. unfold store. rewrite Nat.eqb_refl. reflexivity.
      + intros Hn. cbn in Hn. rewrite H2 by tauto. unfold store.
        destruct (Nat.eqb_spec i a); [subst; tauto|reflexivity].
  Qed.

  Lemma collect_spec (work : nat -> option M) sched ids :
    (forall i, In i ids -> In i sched) ->
    collect (run_workers work sched) ids
    = all_some (map (fun i => option_map (pair i) (work i)) ids).
  Proof.
    intros Hin. induction ids as [|i ids IH]; cbn; [reflexivity|].
    assert (Hi : run_workers work sched i = Some (work i)).
    { unfold run_workers. apply run_workers_slot. apply Hin. left. reflexivity. }
    rewrite Hi. rewrite IH by (intros; apply Hin; right; assumption).
    destruct (work i); reflexivity.
  Qed.

  (** ** Ordered results *)
  Lemma place_middle (ms : list M) (k : nat) (m : M) :
    place (map Some ms ++ repeat None (S k)) (S (length ms)) m
    = map Some (ms ++ [m]) ++ repeat None k.
  Proof.
    unfold place. cbn [Nat.sub]. rewrite Nat.sub_0_r.
    rewrite firstn_app, map_length, Nat.sub_diag, firstn_all2 by (rewrite map_length; lia).
    cbn [firstn]. rewrite app_nil_r.
    rewrite skipn_app, map_length.
    rewrite skipn_all2 by (rewrite map_length; lia).
    replace (S (length ms) - length ms)%nat with 1%nat by lia. cbn [repeat skipn app].
    rewrite map_app, <- app_assoc. reflexivity.
  Qed.

  Lemma ordered_aux (ms : list M) : forall (done : list M) k,
    (length ms <= k)%nat ->
    fold_left (fun acc p => place acc (fst p) (snd p)) (combine (seq (S (length done)) (length ms)) ms)
      (map Some done ++ repeat None k)
    = map Some (done ++ ms) ++ repeat None (k - length ms).
  Proof.
    induction ms as [|m ms IH]; intros done k Hk; cbn [length seq combine fold_left].
    - rewrite app_nil_r, Nat.sub_0_r. reflexivity.
    - cbn in Hk. destruct k as [|k]; [lia|]. cbn [fst snd]. rewrite place_middle.
      replace (S (S (length done))) with (S (length (done ++ [m]))) by (rewrite app_length; cbn; lia).
      rewrite IH by lia. rewrite <- app_assoc. reflexivity.
  Qed.

  Lemma ordered_spec (ms : list M) :
    ordered (combine (seq 1 (length ms)) ms) = map Some ms ++ [None].
  Proof.
    unfold ordered. rewrite combine_length, seq_length, Nat.min_id.
    pose proof (ordered_aux ms [] (length ms + 1) ltac:(lia)) as H. cbn [length map app] in H.
    rewrite H. replace (length ms + 1 - length ms)%nat with 1%nat by lia. reflexivity.
  Qed.

  (** ** pick *)
  Lemma pick_spec robust (ms : list M) : forall i bq bm,
    pick qrobust qtrue robust (combine (seq i (length ms)) ms) bq bm
    = option_map (fun qs => scan qs i bq bm) (all_some (map (selq robust) ms)).
  Proof.
    induction ms as [|m ms IH]; intros i bq bm; cbn; [reflexivity|].
    destruct (selq robust m) as [q|]; [|reflexivity].
    destruct (flt q bq) eqn:E; rewrite IH; destruct (all_some (map (selq robust) ms)); cbn; rewrite ?E; reflexivity.
  Qed.

  Lemma combine_all_some (work : nat -> option M) n : forall i,
    all_some (map (fun i => option_map (pair i) (work i)) (seq i n))
    = option_map (combine (seq i n)) (all_some (map work (seq i n))).
  Proof.
    induction n as [|n IH]; intros i; cbn; [reflexivity|].
    destruct (work i); cbn; [|reflexivity]. rewrite IH.
    destruct (all_some (map work (seq (S i) n))); reflexivity.
  Qed.

  (** the matrix given to model [i] *)
  Definition trained (draw : nat -> Z) (Hm Wm : mats X) (delay : Z) (i : nat) : option M :=
    match par_sel Hm i, par_sel Wm i with
    | Some h, Some w => fit (draw (i - 1)%nat) h w delay i
    | _, _ => None
    end.

  Lemma all_some_length {A} (l : list (option A)) r : all_some l = Some r -> length r = length l.
  Proof.
    revert r. induction l as [|[a|] l IH]; intros r; cbn; try discriminate.
    - intros [= <-]. reflexivity.
    - destruct (all_some l); [|discriminate]. intros [= <-]. cbn. f_equal. apply IH. reflexivity.
  Qed.

  Lemma all_some_nth {A} (l : list (option A)) r j : all_some l = Some r ->
    nth_error l j = match nth_error r j with Some x => Some (Some x) | None => None end.
  Proof.
    revert r j. induction l as [|[a|] l IH]; intros r j; cbn; try discriminate.
    - intros [= <-]. destruct j; reflexivity.
    - destruct (all_some l) as [r'|]; [|discriminate]. intros [= <-].
      destruct j; cbn; [reflexivity|]. apply IH. reflexivity.
  Qed.

  Lemma nth_seq i n j : (j < n)%nat -> nth_error (seq i n) j = Some (i + j)%nat.
  Proof.
    revert i j. induction n as [|n IH]; intros i j Hj; [lia|]. destruct j; cbn; [f_equal; lia|].
    rewrite IH by lia. f_equal. lia.
  Qed.

  (** The parallel branch without the machinery. *)
  Lemma par_train_spec robust verbose n draw Hm Wm delay sched s :
    (forall i, (1 <= i <= n)%nat -> In i sched) ->
    par_train qrobust qtrue fit robust verbose n draw Hm Wm delay sched s
    = match all_some (map (trained draw Hm Wm delay) (seq 1 n)) with
      | None => (false, s)
      | Some ms =>
          match all_some (map (selq robust) ms) with
          | None => (false, s)
          | Some qs => finish verbose (map Some ms ++ [None]) (scan qs 1 PInf (-1)) s
          end
      end.
  Proof.
    intros Hs. unfold par_train.
    set (selI := fun i => match par_sel Hm i, par_sel Wm i with
                                  | Some h, Some w => Some (h, w) | _, _ => None end).
    destruct (all_some (map selI (seq 1 n))) as [sels|] eqn:Es.
    - rewrite collect_spec by (intros i Hi; apply in_seq in Hi; apply Hs; lia).
      rewrite combine_all_some.
      replace (map (fun i => match nth_error sels (i - 1) with
                      | Some (h, w) => fit (draw (i - 1)%nat) h w delay i
                      | None => None
                      end) (seq 1 n)) with (map (trained draw Hm Wm delay) (seq 1 n)).
      + destruct (all_some (map (trained draw Hm Wm delay) (seq 1 n))) as [ms|] eqn:Em; cbn; [|reflexivity].
        assert (Hl : length ms = n) by (apply all_some_length in Em; rewrite map_length, seq_length in Em; exact Em).
        rewrite <- Hl at 1. rewrite pick_spec.
        destruct (all_some (map (selq robust) ms)) as [qs|]; cbn; [|reflexivity].
        rewrite <- Hl at 1. rewrite ordered_spec. reflexivity.
      + apply map_ext_in. intros i Hi. apply in_seq in Hi.
        pose proof (all_some_nth _ _ (i - 1)%nat Es) as Hn.
        rewrite (map_nth_error selI (i - 1) (seq 1 n) (d := i)) in Hn
          by (rewrite nth_seq by lia; f_equal; lia).
        unfold trained. unfold selI in Hn.
        destruct (nth_error sels (i - 1)) as [[h w]|] eqn:En; [|discriminate].
        destruct (par_sel Hm i); [|discriminate]. destruct (par_sel Wm i); [|discriminate]. congruence.
    - apply all_some_none in Es. destruct Es as (i & Hi & Hn).
      replace (all_some (map (trained draw Hm Wm delay) (seq 1 n))) with (@None (list M)); [reflexivity|].
      symmetry. apply all_some_none. exists i. split; [exact Hi|].
      unfold trained. unfold selI in Hn. destruct (par_sel Hm i); [|reflexivity].
      destruct (par_sel Wm i); [discriminate|reflexivity].
  Qed.

  (** ** Sequential branch *)
  Notation sfit draw Hm Wm := (fun i => fit (draw (i - 1)%nat) Hm Wm (-1) i).

  Lemma seq_loop_ok robust draw Hm Wm limit dur n : forall i results bq bm ms qs,
    all_some (map (sfit draw Hm Wm) (seq i n)) = Some ms ->
    all_some (map (selq robust) ms) = Some qs ->
    (forall j, (i <= j < i + n)%nat -> over_limit limit (dur j) = false) ->
    seq_loop qrobust qtrue fit robust draw Hm Wm limit dur n i results bq bm
    = (results ++ map Some ms, SeqDone (scan qs i bq bm)).
  Proof.
    induction n as [|n IH]; intros i results bq bm ms qs Hms Hqs Hlim; cbn [seq map all_some seq_loop] in *.
    - injection Hms as <-. cbn in Hqs. injection Hqs as <-. rewrite app_nil_r. reflexivity.
    - destruct (fit (draw (i - 1)%nat) Hm Wm (-1) i) as [m|]; [|discriminate].
      destruct (all_some (map (sfit draw Hm Wm) (seq (S i) n))) as [ms'|] eqn:E; [|discriminate].
      injection Hms as <-. rewrite Hlim by lia. cbn in Hqs.
      destruct (selq robust m) as [q|]; [|discriminate].
      destruct (all_some (map (selq robust) ms')) as [qs'|] eqn:Eq; [|discriminate].
      injection Hqs as <-. cbn [scan].
      destruct (flt q bq); rewrite (IH _ _ _ _ ms' qs') by (auto; intros; apply Hlim; lia);
        cbn [map]; rewrite <- app_assoc; reflexivity.
  Qed.

  (** the first failing model stops the loop *)
  Lemma seq_loop_stop robust draw Hm Wm limit dur n ms : forall i results bq bm qs,
    all_some (map (sfit draw Hm Wm) (seq i (length ms))) = Some ms ->
    all_some (map (selq robust) ms) = Some qs ->
    (forall j, (i <= j < i + length ms)%nat -> over_limit limit (dur j) = false) ->
    (length ms < n)%nat ->
    (let f := (i + length ms)%nat in
     match fit (draw (f - 1)%nat) Hm Wm (-1) f with
     | None => True
     | Some m => over_limit limit (dur f) = true \/ selq robust m = None
     end) ->
    seq_loop qrobust qtrue fit robust draw Hm Wm limit dur n i results bq bm
    = (results ++ map Some ms, SeqFail).
  Proof.
    revert n. induction ms as [|m ms IH]; intros n i results bq bm qs Hms Hqs Hlim Hn Hf; destruct n as [|n];
      cbn [length] in *; try lia.
    - cbn [map seq_loop]. rewrite app_nil_r. cbv zeta in Hf. rewrite Nat.add_0_r in Hf.
      destruct (fit (draw (i - 1)%nat) Hm Wm (-1) i) as [m|]; [|reflexivity].
      destruct (over_limit limit (dur i)); [reflexivity|]. destruct Hf as [Hf|Hf]; [discriminate|].
      rewrite Hf. reflexivity.
    - cbn [seq map all_some seq_loop] in *.
      destruct (fit (draw (i - 1)%nat) Hm Wm (-1) i) as [m0|]; [|discriminate].
      destruct (all_some (map (sfit draw Hm Wm) (seq (S i) (length ms)))) as [ms'|] eqn:E; [|discriminate].
      injection Hms as -> ->. rewrite Hlim by lia. 
      destruct (selq robust m) as [q|]; [|discriminate].
      destruct (all_some (map (selq robust) ms)) as [qs'|] eqn:Eq; [|discriminate].
      assert (Hf' : let f := (S i + length ms)%nat in
        match fit (draw (f - 1)%nat) Hm Wm (-1) f with
        | None => True
        | Some m => over_limit limit (dur f) = true \/ selq robust m = None
        end).
      { cbv zeta in *. replace (i + S (length ms))%nat with (S i + length ms)%nat in Hf by lia. exact Hf. }
      destruct (flt q bq); rewrite (IH n (S i) _ _ _ qs') by (auto; try lia; intros; apply Hlim; lia);
        rewrite <- app_assoc; reflexivity.
  Qed.

  (** any failure at all makes the loop fail *)
  Lemma seq_loop_fail robust draw Hm Wm limit dur n : forall i results bq bm,
    (exists f, (i <= f < i + n)%nat /\
       match fit (draw (f - 1)%nat) Hm Wm (-1) f with
       | None => True
       | Some m => over_limit limit (dur f) = true \/ selq robust m = None
       end) ->
    exists r, seq_loop qrobust qtrue fit robust draw Hm Wm limit dur n i results bq bm = (r, SeqFail).
  Proof.
    induction n as [|n IH]; intros i results bq bm (f & Hf & Hbad); [lia|]. cbn [seq_loop].
    destruct (Nat.eq_dec f i) as [->|Hne].
    - destruct (fit (draw (i - 1)%nat) Hm Wm (-1) i) as [m|]; [|eauto].
      destruct (over_limit limit (dur i)); [eauto|]. destruct Hbad as [Hbad|Hbad]; [discriminate|].
      rewrite Hbad. eauto.
    - assert (Hex : exists f, (S i <= f < S i + n)%nat /\
       match fit (draw (f - 1)%nat) Hm Wm (-1) f with
       | None => True
       | Some m => over_limit limit (dur f) = true \/ selq robust m = None
       end) by (exists f; split; [lia|exact Hbad]).
      destruct (fit (draw (i - 1)%nat) Hm Wm (-1) i) as [m|]; [|eauto].
      destruct (over_limit limit (dur i)); [eauto|].
      destruct (selq robust m) as [q|]; [|eauto].
      destruct (flt q bq); apply IH; exact Hex.
  Qed.

  Lemma last_snoc {A} (l : list A) x d : last (l ++ [x]) d = x.
  Proof. induction l as [|a l IH]; [reflexivity|]. cbn. destruct (l ++ [x]) eqn:E; [|exact IH]. destruct l; discriminate. Qed.

  Lemma finish_par verbose (ms : list M) best s :
    ms <> [] ->
    finish verbose (map Some ms ++ [None]) best s
    = if verbose && negb (py_index_ok (map Some ms ++ [None]) (best - 1))
      then (false, mkB (map Some ms ++ [None]) (b_best s))
      else (true, mkB (map Some ms) (Some (best - 1))).
  Proof.
    intros Hms. unfold finish. destruct (verbose && _); [reflexivity|].
    rewrite last_snoc, removelast_last. destruct ms; [contradiction|]. reflexivity.
  Qed.

  Lemma finish_seq verbose (ms : list M) best s :
    ms <> [] ->
    finish verbose (map Some ms) best s
    = if verbose && negb (py_index_ok (map Some ms) (best - 1))
      then (false, mkB (map Some ms) (b_best s))
      else (true, mkB (map Some ms) (Some (best - 1))).
  Proof.
    intros Hms. unfold finish. destruct (verbose && _); [reflexivity|].
    destruct (exists_last Hms) as (ms' & m & ->). rewrite map_app. cbn [map].
    rewrite last_snoc. destruct (map Some ms' ++ [Some m]) eqn:E; [|reflexivity].
    destruct (map Some ms'); discriminate.
  Qed.

  Lemma finish_nil_par verbose best s :
    finish verbose ([None] : list (option M)) best s
    = if verbose && negb (py_index_ok ([None] : list (option M)) (best - 1))
      then (false, mkB [None] (b_best s)) else (true, mkB [] (Some (best - 1))).
  Proof. reflexivity. Qed.
End P.
