(** Property C124: a whole batch. *)
From Coq Require Import Reals Lra Lia List Bool ZArith Arith FunctionalExtensionality Permutation.
From Verif Require Import Base Fl Metrics_Model Metrics_Spec Metrics_Proofs LSNMF_Model LSNMF_Proofs
  Train_Model Train_Spec Train_Proofs Train_LS Layout_Model Layout_Proofs SA_Model SA_Proofs SA_Props
  Pipeline_Model Pipeline_Spec Pipeline_Proofs Pipeline_Props Refit_Model Refit_Spec Refit_Proofs Refit_Props
  Batch_Model Batch_Proofs Batch_Props BatchRun_Model.
Import ListNotations.
Open Scope R_scope.

(** Profiles a member starts from: drawn, or the given ones as the engine reads them. *)
Definition first_H (m n k : nat) (v : mat) (H : option (arr R)) (g : mat) : mat :=
  match H with
  | None => drawn_H m k v g
  | Some h => reread_rows (a_order h) k n (fun a j => lifted (aget h a j))
  end.
Definition of_arg (H : option (arr R)) : mats (arr R) := match H with None => MNone | Some h => M2 h end.

Lemma member_spec J m n k v u (H : option (arr R)) g c wsW tick seed delay i :
  (0 < m)%nat -> (0 < n)%nat -> (0 < k)%nat -> mall m n (fun x => 0 <= x) v ->
  j_V J = data m n v -> j_U J = data m n u -> j_k J = k ->
  (forall h, H = Some h -> a_rows h = k /\ a_cols h = n) ->
  exists f, member J (fun s => draws (g s) (c s) wsW) tick seed (of_arg H) MNone delay i = Some (Some f) /\
    (forall b, (forall t, b t = true <-> held (j_hold J) delay t) ->
      reports m n k v (used_unc u) (reread (j_oV J) m n v) (reread (j_oU J) m n (used_unc u))
        (drawn_W n k v (c seed)) (first_H m n k v H (g seed)) 4 b (j_max_iter J) (j_cn J) (j_delta J) f) /\
    ((1 <= Z.to_nat (j_max_iter J))%nat -> (1 <= length (f_hist f))%nat).
Proof.
  intros Hm Hn Hk Hv EV EU Ek Hsh. unfold member. rewrite EV, EU, Ek.
  set (p := mkSet (j_max_iter J) (j_delta J) (j_cn J) 4 (j_hold J) delay).
  destruct H as [h|]; cbn [of_arg one_of option_map order_of].
  - destruct (Hsh h eq_refl) as (S1 & S2).
    destruct (fit_kept (mkOrd (j_oV J) (j_oU J) COrder (a_order h)) m n k v u (as_nd h) (aget h) (fun a j => Fin (g seed a j)) (c seed) wsW
                (draws (g seed) (c seed) wsW) (tick i) p Hm Hn Hk Hv)
      as (Wn & Hx & R1 & R2 & HW & R3 & R4 & HH & Ef); [exact S1|exact S2|intros a j _ _; reflexivity|].
    rewrite Ef. eexists. split; [reflexivity|]. split.
    + intros b Hb. exact (run_engine_spec (mkOrd (j_oV J) (j_oU J) COrder (a_order h)) m n k v (used_unc u) Wn Hx _ _ (tick i) p b
             (used_unc_nz u) R1 R2 HW R3 R4 HH Hb).
    + intros Hit. eapply (engine_length _ m n); try reflexivity; assumption.
  - destruct (construct_data m n k v u Hm Hn Hv) as (s & Ec & _).
    rewrite (fit_init_drawn _ _ _ _ _ _ _ s Ec).
    destruct (fit_drawn (mkOrd (j_oV J) (j_oU J) COrder COrder) m n k v u (g seed) (c seed) wsW (tick i) p Hm Hn Hk Hv)
      as (Wn & Hx & R1 & R2 & HW & R3 & R4 & HH & Ef).
    rewrite Ef. eexists. split; [reflexivity|]. split.
    + intros b Hb. exact (run_engine_spec (mkOrd (j_oV J) (j_oU J) COrder COrder) m n k v (used_unc u) Wn Hx _ _ (tick i) p b
             (used_unc_nz u) R1 R2 HW R3 R4 HH Hb).
    + intros Hit. eapply (engine_length _ m n); try reflexivity; assumption.
Qed.

Lemma first_H_pos m n k v H g : mall k n (fun x => 0 < x) (first_H m n k v H g).
Proof.
  intros a j _ _. unfold first_H. destruct H as [h|]; [|apply made_positive_pos].
  unfold reread_rows. destruct (a_order h); apply made_positive_pos.
Qed.

Lemma member_improves J m n k v u (H : option (arr R)) g c delay f :
  (0 < m)%nat -> (0 < n)%nat -> (0 < k)%nat -> mall m n (fun x => 0 <= x) v -> no_empty m n v ->
  (forall b, (forall t, b t = true <-> held (j_hold J) delay t) ->
    reports m n k v (used_unc u) v (used_unc u) (drawn_W n k v c) (first_H m n k v H g) 4 b (j_max_iter J) (j_cn J) (j_delta J) f) ->
  ((1 <= Z.to_nat (j_max_iter J))%nat -> (1 <= length (f_hist f))%nat) ->
  improves m n k v (used_unc u) (drawn_W n k v c) (first_H m n k v H g) 4 (j_max_iter J) (j_cn J) (j_delta J) f.
Proof.
  intros Hm Hn Hk Hv Hne Hr H1.
  apply (positive_run m n k v (used_unc u) _ _ (mkSet (j_max_iter J) (j_delta J) (j_cn J) 4 (j_hold J) delay)); try assumption.
  - apply used_unc_pos.
  - cbn [p_alpha]. lra.
  - intros i a _ _. apply made_positive_pos.
  - apply first_H_pos.
  - apply Hr. intros t. cbn [p_hold p_delay]. apply hold_at_held_iff.
Qed.

(** The loss a batch selects by. *)
Definition chosen (robust : bool) (f : fitted) : fl := if robust then f_Qrobust f else f_Qtrue f.

Lemma all_some_map_some {A} (l : list A) : all_some (map Some l) = Some l.
Proof. induction l; cbn; [reflexivity|rewrite IHl; reflexivity]. Qed.

(** A function with values on 1..nb gives a list. *)
Lemma tabulate {A} (P : nat -> A -> Prop) nb : (forall i, (i < nb)%nat -> exists a, P i a) ->
  exists l, length l = nb /\ forall i a, nth_error l i = Some a -> P i a.
Proof.
  induction nb as [|nb IH]; intros HP.
  - exists []. split; [reflexivity|]. intros [|i] a E; discriminate.
  - destruct IH as (l & L & Hl); [intros i Hi; apply HP; lia|]. destruct (HP nb ltac:(lia)) as [a Ha].
    exists (l ++ [a]). split; [rewrite app_length; cbn; lia|]. intros i b E.
    destruct (Nat.lt_ge_cases i nb) as [Hi|Hi].
    + rewrite nth_error_app1 in E by lia. apply Hl, E.
    + rewrite nth_error_app2 in E by lia. destruct (i - length l)%nat as [|z] eqn:Ez; [|destruct z; discriminate].
      injection E as <-. replace i with nb by lia. exact Ha.
Qed.

Lemma map_seq_list {A} (F : nat -> A) (l : list A) nb : length l = nb ->
  (forall i a, nth_error l i = Some a -> F (S i) = a) -> map F (seq 1 nb) = l.
Proof.
  intros L HF. apply nth_ext with (d := F 0%nat) (d' := F 0%nat); [rewrite map_length, seq_length; auto|].
  intros i Hi. rewrite map_length, seq_length in Hi. rewrite map_nth, seq_nth by lia.
  destruct (nth_error l i) as [a|] eqn:E; [|apply nth_error_None in E; lia].
  rewrite (nth_error_nth _ _ _ E). cbn. apply HF, E.
Qed.

Lemma parallel_ok J draw tick robust verbose nb seeds H delay sched s fs :
  (1 <= nb <= 127)%nat -> Permutation sched (seq 1 nb) -> length fs = nb ->
  (forall i f, nth_error fs i = Some f -> member J draw tick (seeds i) (of_arg H) MNone delay (S i) = Some (Some f)) ->
  exists bi, batch_parallel J draw tick robust verbose nb seeds (of_arg H) MNone delay sched s =
      (true, mkB (map (fun f => Some (Some f)) fs) (Some bi)) /\ best_index (map (chosen robust) fs) bi.
Proof.
  intros Hnb Hp L Hf. unfold batch_parallel.
  rewrite par_train_spec by (intros i Hi; eapply Permutation_in; [symmetry; exact Hp|apply in_seq; lia]).
  assert (Et : map (trained (i8_engine (member J draw tick)) seeds (of_arg H) MNone delay) (seq 1 nb) = map Some (map Some fs)).
  { apply map_seq_list; [rewrite !map_length; exact L|]. intros i a E. rewrite map_map, nth_error_map in E.
    destruct (nth_error fs i) as [f|] eqn:Ei; [|discriminate]. cbn in E. injection E as <-.
    assert (Hi : (i < nb)%nat) by (rewrite <- L; apply nth_error_Some; congruence).
    unfold trained. replace (par_sel (of_arg H) (S i)) with (Some (of_arg H)) by (destruct H; reflexivity). cbn [par_sel].
    unfold i8_engine. replace (127 <? Z.of_nat (S i))%Z with false by (symmetry; apply Z.ltb_ge; lia).
    replace (S i - 1)%nat with i by lia. apply Hf, Ei. }
  rewrite Et, all_some_map_some.
  assert (Eq : map (sel_q rob_of true_of robust) (map Some fs) = map Some (map (chosen robust) fs)).
  { rewrite !map_map. apply map_ext. intros f. unfold sel_q, chosen. destruct robust; reflexivity. }
  rewrite Eq, all_some_map_some. exists (scan (map (chosen robust) fs) 1 PInf (-1) - 1)%Z. split; [|apply scan_best].
  rewrite finish_par by (destruct fs; [cbn in L; lia|discriminate]).
  replace (py_index_ok _ _) with true; [rewrite andb_false_r; rewrite map_map; reflexivity|].
  symmetry. unfold py_index_ok. rewrite app_length, !map_length, L. cbn [length].
  destruct (scan_best (map (chosen robust) fs)) as [(b & q & -> & E & _)|[-> _]].
  - assert (Hb : (b < length (map (chosen robust) fs))%nat) by (apply nth_error_Some; congruence). rewrite map_length, L in Hb.
    apply andb_true_iff; split; [apply Z.leb_le|apply Z.ltb_lt]; lia.
  - apply andb_true_iff; split; [apply Z.leb_le|apply Z.ltb_lt]; lia.
Qed.

Lemma sequential_same J draw tick robust verbose nb seeds H sched dur s :
  (1 <= nb)%nat -> Permutation sched (seq 1 nb) -> (verbose = true -> (2 <= nb)%nat) -> forall s',
  batch_parallel J draw tick robust verbose nb seeds (of_arg H) MNone (-1) sched s = (true, s') ->
  batch_sequential J draw tick robust verbose nb seeds (of_arg H) MNone (-1) None dur s = (true, s').
Proof.
  intros Hnb Hp Hv s' E. unfold batch_parallel, batch_sequential in *.
  pose proof (C25_modes_agree rob_of true_of (i8_engine (member J draw tick)) robust verbose nb seeds (of_arg H) MNone sched dur s Hp) as A.
  destruct A as [A1 A2]; [destruct H; exact I|exact I|exact Hnb|exact Hv|].
  rewrite E in A1, A2. cbn [fst snd] in A1, A2. specialize (A2 eq_refl).
  destruct (seq_train _ _ _ _ _ _ _ _ _ _ _ _ _) as [ok s2]. cbn [fst snd] in A1, A2. subst. reflexivity.
Qed.

(** C124: a batch of up to 127 models, whatever the order in which workers finish.  Every
    member trains and reports as a single run does, from its own seed's draws; the best
    model is the first with the smallest selected loss. *)
Theorem C124_batch_members :
  forall J m n k v u (H : option (arr R)) g c wsW tick delay robust verbose nb seeds sched s,
    (0 < m)%nat -> (0 < n)%nat -> (0 < k)%nat -> mall m n (fun x => 0 <= x) v ->
    j_V J = data m n v -> j_U J = data m n u -> j_k J = k ->
    (forall h, H = Some h -> a_rows h = k /\ a_cols h = n) ->
    (1 <= nb <= 127)%nat -> Permutation sched (seq 1 nb) ->
    exists fs bi,
      let result := (true, mkB (map (fun f => Some (Some f)) fs) (Some bi)) in
      let draw := fun z => draws (g z) (c z) wsW in
      batch_parallel J draw tick robust verbose nb seeds (of_arg H) MNone delay sched s = result /\
      (delay = (-1)%Z -> (verbose = true -> (2 <= nb)%nat) -> forall dur,
         batch_sequential J draw tick robust verbose nb seeds (of_arg H) MNone delay None dur s = result) /\
      length fs = nb /\ best_index (map (chosen robust) fs) bi /\
      (forall i f b, nth_error fs i = Some f -> (forall t, b t = true <-> held (j_hold J) delay t) ->
        reports m n k v (used_unc u) (reread (j_oV J) m n v) (reread (j_oU J) m n (used_unc u))
          (drawn_W n k v (c (seeds i))) (first_H m n k v H (g (seeds i))) 4 b (j_max_iter J) (j_cn J) (j_delta J) f).
Proof.
  intros J m n k v u H g c wsW tick delay robust verbose nb seeds sched s Hm Hn Hk Hv EV EU Ek Hsh Hnb Hp.
  set (draw := fun z => draws (g z) (c z) wsW).
  destruct (tabulate (fun i f => member J draw tick (seeds i) (of_arg H) MNone delay (S i) = Some (Some f) /\
     forall b, (forall t, b t = true <-> held (j_hold J) delay t) ->
        reports m n k v (used_unc u) (reread (j_oV J) m n v) (reread (j_oU J) m n (used_unc u))
          (drawn_W n k v (c (seeds i))) (first_H m n k v H (g (seeds i))) 4 b (j_max_iter J) (j_cn J) (j_delta J) f) nb) as (fs & L & Hfs).
  { intros i _. destruct (member_spec J m n k v u H g c wsW tick (seeds i) delay (S i) Hm Hn Hk Hv EV EU Ek Hsh) as (f & E & Hr & _).
    exists f. split; assumption. }
  destruct (parallel_ok J draw tick robust verbose nb seeds H delay sched s fs Hnb Hp L) as (bi & Eb & Hb).
  { intros i f E. apply (Hfs i f E). }
  exists fs, bi. cbv zeta. split; [exact Eb|]. split.
  - intros -> Hv2 dur. apply (sequential_same J draw tick robust verbose nb seeds H sched dur s); [lia|assumption|assumption|exact Eb].
  - split; [exact L|]. split; [exact Hb|]. intros i f b E. apply (Hfs i f E).
Qed.
Print Assumptions C124_batch_members.

(** C124: with data stored by columns and no empty sample or feature, a batch of up to 127
    models always succeeds; every member has positive matrices and fits at least as well as
    its start; the model named best has the smallest selected loss, the first one when tied,
    and that loss is at most the misfit of every starting point of the batch. *)
Theorem C124_best_of_batch :
  forall J m n k v u (H : option (arr R)) g c wsW tick delay robust verbose nb seeds sched s,
    (0 < m)%nat -> (0 < n)%nat -> (0 < k)%nat -> mall m n (fun x => 0 <= x) v -> no_empty m n v ->
    j_V J = data m n v -> j_U J = data m n u -> j_oV J = FOrder -> j_oU J = FOrder -> j_k J = k ->
    (forall h, H = Some h -> a_rows h = k /\ a_cols h = n) ->
    (1 <= nb <= 127)%nat -> Permutation sched (seq 1 nb) ->
    exists fs b fb qb,
      batch_parallel J (fun z => draws (g z) (c z) wsW) tick robust verbose nb seeds (of_arg H) MNone delay sched s =
        (true, mkB (map (fun f => Some (Some f)) fs) (Some (Z.of_nat b))) /\
      length fs = nb /\ nth_error fs b = Some fb /\ (if robust then f_Qrobust fb else f_Qtrue fb) = Fin qb /\
      forall i, (i < nb)%nat -> exists f q, nth_error fs i = Some f /\ (if robust then f_Qrobust f else f_Qtrue f) = Fin q /\
        let w0 := drawn_W n k v (c (seeds i)) in let h0 := first_H m n k v H (g (seeds i)) in
        improves m n k v (used_unc u) w0 h0 4 (j_max_iter J) (j_cn J) (j_delta J) f /\
        qb <= q /\ ((i < b)%nat -> qb < q) /\ qb <= misfit m n k v (used_unc u) w0 h0.
Proof.
  intros J m n k v u H g c wsW tick delay robust verbose nb seeds sched s Hm Hn Hk Hv Hne EV EU OV OU Ek Hsh Hnb Hp.
  set (draw := fun z => draws (g z) (c z) wsW).
  destruct (tabulate (fun i f => member J draw tick (seeds i) (of_arg H) MNone delay (S i) = Some (Some f) /\
     improves m n k v (used_unc u) (drawn_W n k v (c (seeds i))) (first_H m n k v H (g (seeds i))) 4 (j_max_iter J) (j_cn J) (j_delta J) f) nb)
    as (fs & L & Hfs).
  { intros i _. destruct (member_spec J m n k v u H g c wsW tick (seeds i) delay (S i) Hm Hn Hk Hv EV EU Ek Hsh) as (f & E & Hr & H1).
    exists f. split; [exact E|]. rewrite OV, OU in Hr. apply (member_improves J m n k v u H (g (seeds i)) (c (seeds i)) delay); assumption. }
  destruct (parallel_ok J draw tick robust verbose nb seeds H delay sched s fs Hnb Hp L) as (bi & Eb & Hb).
  { intros i f E. apply (Hfs i f E). }
  assert (Fin_q : forall i f, nth_error fs i = Some f -> exists q, chosen robust f = Fin q /\
            q <= misfit m n k v (used_unc u) (drawn_W n k v (c (seeds i))) (first_H m n k v H (g (seeds i)))).
  { intros i f E. destruct (Hfs i f E) as [_ (w1 & h1 & P & q & r & _ & _ & _ & _ & _ & _ & _ & Eq & _ & Er & Hr & Hq & _)].
    unfold chosen. destruct robust; [exists r|exists q]; split; try assumption; lra. }
  destruct Hb as [(b & x & -> & Ex & Hu & Hmin & Hfirst)|[_ Hbad]].
  2:{ exfalso. destruct fs as [|f0 fs']; [cbn in L; lia|]. destruct (Fin_q 0%nat f0 eq_refl) as (q & Eq & _).
      pose proof (Hbad 0%nat (chosen robust f0) eq_refl) as B. rewrite Eq in B. unfold unusable in B. cbn in B. intuition discriminate. }
  rewrite nth_error_map in Ex. destruct (nth_error fs b) as [fb|] eqn:Efb; [|discriminate]. injection Ex as <-.
  destruct (Fin_q b fb Efb) as (qb & Eqb & _).
  exists fs, b, fb, qb. split; [exact Eb|]. split; [exact L|]. split; [exact Efb|]. split; [exact Eqb|].
  intros i Hi. destruct (nth_error fs i) as [f|] eqn:Ef; [|apply nth_error_None in Ef; lia].
  destruct (Fin_q i f Ef) as (q & Eq & Hq). exists f, q. split; [reflexivity|]. split; [exact Eq|]. cbv zeta.
  assert (Le : qb <= q).
  { pose proof (Hmin i (chosen robust f)) as A. rewrite nth_error_map, Ef in A. specialize (A eq_refl). rewrite Eq, Eqb in A.
    apply Rnot_lt_le. intros Hlt. cbn in A. unfold Rltb in A. destruct (Rlt_dec q qb); [discriminate|lra]. }
  split; [apply (Hfs i f Ef)|]. split; [exact Le|]. split; [|lra].
  intros Hib. pose proof (Hfirst i (chosen robust f) Hib) as A. rewrite nth_error_map, Ef in A. specialize (A eq_refl). rewrite Eq, Eqb in A.
  destruct A as [A|A]; [discriminate|]. cbn in A. unfold Rltb in A. destruct (Rlt_dec qb q); [assumption|discriminate].
Qed.
Print Assumptions C124_best_of_batch.

(** C124: the 128th model is the end of a batch: nothing is kept in parallel mode, the
    first 127 models but no new best one in sequential mode. *)
Theorem C124_larger_batches_fail :
  forall J m n k v u (H : option (arr R)) g c wsW tick delay robust verbose nb seeds sched dur s,
    (0 < m)%nat -> (0 < n)%nat -> (0 < k)%nat -> mall m n (fun x => 0 <= x) v ->
    j_V J = data m n v -> j_U J = data m n u -> j_k J = k ->
    (forall h, H = Some h -> a_rows h = k /\ a_cols h = n) ->
    (127 < nb)%nat -> Permutation sched (seq 1 nb) ->
    let draw := fun z => draws (g z) (c z) wsW in
    batch_parallel J draw tick robust verbose nb seeds (of_arg H) MNone delay sched s = (false, s) /\
    exists fs, batch_sequential J draw tick robust verbose nb seeds (of_arg H) MNone delay None dur s =
        (false, mkB (map (fun f => Some (Some f)) fs) (b_best s)) /\ length fs = 127%nat /\
      (forall i f b, nth_error fs i = Some f -> (forall t, b t = true <-> held (j_hold J) (-1) t) ->
        reports m n k v (used_unc u) (reread (j_oV J) m n v) (reread (j_oU J) m n (used_unc u))
          (drawn_W n k v (c (seeds i))) (first_H m n k v H (g (seeds i))) 4 b (j_max_iter J) (j_cn J) (j_delta J) f).
Proof.
  intros J m n k v u H g c wsW tick delay robust verbose nb seeds sched dur s Hm Hn Hk Hv EV EU Ek Hsh Hnb Hp draw. split.
  - unfold batch_parallel. rewrite par_train_spec by (intros i Hi; eapply Permutation_in; [symmetry; exact Hp|apply in_seq; lia]).
    replace (all_some (map (trained _ _ _ _ _) _)) with (@None (list (option fitted))); [reflexivity|].
    symmetry. apply all_some_none. exists 128%nat. split; [apply in_seq; lia|].
    unfold trained. destruct H; reflexivity.
  - destruct (tabulate (fun i f => member J draw tick (seeds i) (of_arg H) MNone (-1) (S i) = Some (Some f) /\
     forall b, (forall t, b t = true <-> held (j_hold J) (-1) t) ->
        reports m n k v (used_unc u) (reread (j_oV J) m n v) (reread (j_oU J) m n (used_unc u))
          (drawn_W n k v (c (seeds i))) (first_H m n k v H (g (seeds i))) 4 b (j_max_iter J) (j_cn J) (j_delta J) f) 127) as (fs & L & Hfs).
    { intros i _. destruct (member_spec J m n k v u H g c wsW tick (seeds i) (-1) (S i) Hm Hn Hk Hv EV EU Ek Hsh) as (f & E & Hr & _).
      exists f. split; assumption. }
    exists fs. split; [|split; [exact L|intros i f b E; apply (Hfs i f E)]].
    unfold batch_sequential, seq_train.
    rewrite (seq_loop_stop rob_of true_of (i8_engine (member J draw tick)) robust seeds (of_arg H) MNone None dur nb (map Some fs) 1 [] PInf (-1)
               (map (chosen robust) fs)).
    + cbn [app]. rewrite map_map. reflexivity.
    + rewrite map_length, L.
      replace (map _ (seq 1 127)) with (map Some (map Some fs)); [apply all_some_map_some|].
      symmetry. apply map_seq_list; [rewrite !map_length; exact L|]. intros i a E. rewrite map_map, nth_error_map in E.
      destruct (nth_error fs i) as [f|] eqn:Ei; [|discriminate]. cbn in E. injection E as <-.
      assert (Hi : (i < 127)%nat) by (rewrite <- L; apply nth_error_Some; congruence).
      unfold i8_engine. replace (127 <? Z.of_nat (S i))%Z with false by (symmetry; apply Z.ltb_ge; lia).
      replace (S i - 1)%nat with i by lia. apply Hfs, Ei.
    + replace (map (sel_q _ _ _) _) with (map Some (map (chosen robust) fs)); [apply all_some_map_some|].
      rewrite !map_map. apply map_ext. intros f. unfold sel_q, chosen. destruct robust; reflexivity.
    + reflexivity.
    + rewrite map_length; lia.
    + rewrite map_length, L. exact I.
Qed.
Print Assumptions C124_larger_batches_fail.

(** The claim about starting points is false of data stored by rows: a batch of one model
    that starts from an exact solution with its profiles held. *)
Definition rows_job : job :=
  mkJob (data 2 2 (cells [[1; 2]; [1; 2]])) (data 2 2 (fun _ _ => 1)) COrder COrder 1 1 1 10 true.
Definition rows_H : arr R := mkArr 1 2 COrder (fun q => nth q [1; 2] 0).

Theorem C124_best_at_most_every_start_refuted :
  let v := cells [[1; 2]; [1; 2]] in
  let c := (fun _ _ => / sqrt (3 / 2)) : mat in
  misfit 2 2 1 v (fun _ _ => 1) (drawn_W 2 1 v c) (first_H 2 2 1 v (Some rows_H) (fun _ _ => 1)) = 0 /\
  exists f, batch_parallel rows_job (fun _ => draws (fun _ _ : nat => 1) c (fun x => x)) (fun _ _ => false) false true 1 (fun _ => 7%Z)
      (M2 rows_H) MNone (-1) [1%nat] (mkB [] None) = (true, mkB [Some (Some f)] (Some 0%Z)) /\ f_Qtrue f = Fin 1.
Proof.
  intros v c.
  assert (S0 : 0 < sqrt (3 / 2)) by (apply sqrt_lt_R0; lra).
  assert (E1 : made_positive 1 = 1) by (apply lifted_pos; lra). assert (E2 : made_positive 2 = 2) by (apply lifted_pos; lra).
  assert (Wx : forall i a, (i < 2)%nat -> (a < 1)%nat -> drawn_W 2 1 v c i a = 1).
  { intros i a Hi Ha. unfold drawn_W, c. replace (rsum 2 (v i) / INR 2 / INR 1) with (3 / 2).
    - rewrite Rinv_r by lra. apply lifted_pos. lra.
    - unfold v, cells. destruct i as [|[|i]]; [| |lia]; cbn; lra. }
  assert (Hx : forall a j, (a < 1)%nat -> (j < 2)%nat -> first_H 2 2 1 v (Some rows_H) (fun _ _ => 1) a j = cells [[1; 2]] a j).
  { intros a j Ha Hj. destruct a; [|lia]. destruct j as [|[|j]]; [| |lia]; cbn; unfold lifted; [exact E1|exact E2]. }
  split.
  - unfold misfit, msum, Rsqr. cbn [rsum]. rewrite !Wx, !Hx by lia. unfold v, cells. cbn. lra.
  - destruct (C124_batch_members rows_job 2 2 1 v (fun _ _ => 1) (Some rows_H) (fun _ _ _ => 1) (fun _ => c) (fun x => x) (fun _ _ => false) (-1) false true 1
                (fun _ => 7%Z) [1%nat] (mkB [] None)) as (fs & bi & Eb & _ & L & Hb & Hr); try reflexivity; try lia.
    { intros i j Hi Hj. unfold v. small i j Hi Hj; cbn; lra. }
    { intros h E. injection E as <-. split; reflexivity. }
    destruct fs as [|f [|? ?]]; cbn in L; try lia. cbv zeta in Eb. cbn [map of_arg] in Eb.
    specialize (Hr 0%nat f (hold_at true (-1)) eq_refl (fun t => hold_at_held_iff true (-1) t)).
    rewrite unit_unc in Hr. cbn [rows_job j_oV j_oU j_max_iter j_cn j_delta] in Hr. unfold reports in Hr. cbv zeta in Hr.
    destruct Hr as (A & B & C & D & E & F).
    pose proof (one_iteration f _ D B) as N1. rewrite N1 in F.
    rewrite one_held in F.
    2:{ reflexivity. }
    2:{ intros i a Hi Ha. unfold w_den, wev, mmul, weights. cbn [rsum]. rewrite Wx, !Hx by lia. small i a Hi Ha; calc. }
    destruct F as (w1 & h1 & P & F1 & _ & F3 & F4 & F5 & F6 & _ & F8 & _).
    assert (Q : f_Qtrue f = Fin 1).
    { rewrite F8. f_equal. unfold misfit, msum, Rsqr. cbn [rsum]. unfold w_den, w_num, wev, mmul, weights. cbn [rsum].
      rewrite !Wx, !Hx by lia. unfold reread, v, cells. cbn. field. }
    exists f. split; [|exact Q]. rewrite Eb. do 3 f_equal.
    destruct Hb as [(b & q & -> & Ebq & _)|[_ Hbad]].
    + destruct b as [|[|b]]; [reflexivity|discriminate|discriminate].
    + specialize (Hbad 0%nat (Fin 1)). cbn in Hbad. rewrite Q in Hbad. specialize (Hbad eq_refl). unfold unusable in Hbad. cbn in Hbad. intuition discriminate.
Qed.
Print Assumptions C124_best_at_most_every_start_refuted.

(** Two models, one worker finishing before the other. *)
Example C124_instance :
  let v := cells [[1; 2]; [3; 4]] in
  let J := mkJob (data 2 2 v) (data 2 2 (fun _ _ => 1)) FOrder FOrder 1 100 1 10 false in
  mall 2 2 (fun x => 0 <= x) v /\ no_empty 2 2 v /\ j_V J = data 2 2 v /\ j_oV J = FOrder /\
  (1 <= 2 <= 127)%nat /\ Permutation [2%nat; 1%nat] (seq 1 2) /\
  a_rows (mkArr 1 2 COrder (fun _ => 1)) = 1%nat /\ a_cols (mkArr 1 2 COrder (fun _ : nat => 1)) = 2%nat.
Proof.
  cbv zeta. split; [intros i j Hi Hj; small i j Hi Hj; cbn; lra|]. split.
  { split; [intros i Hi|intros j Hj]; exists 0%nat; (split; [lia|]); [destruct i as [|[|i]]|destruct j as [|[|j]]]; try lia; cbn; lra. }
  split; [reflexivity|]. split; [reflexivity|]. split; [lia|]. split; [apply perm_swap|]. split; reflexivity.
Qed.

(** Two models of four cells, one factor, finishing in the opposite order; the profiles
    are given. *)
Definition xb_v := cells [[1; 2]; [3; 4]].
Definition xb_J := mkJob (data 2 2 xb_v) (data 2 2 (fun _ _ => 1)) FOrder FOrder 1 100 1 10 false.
Definition xb_H := Some (mkArr 1 2 COrder (fun _ : nat => 1)).
Lemma xb_shape : forall h, xb_H = Some h -> a_rows h = 1%nat /\ a_cols h = 2%nat.
Proof. intros h [= <-]. split; reflexivity. Qed.
Example C124_batch_members_example :=
  C124_batch_members xb_J 2 2 1 xb_v (fun _ _ => 1) xb_H (fun _ _ _ => 1) (fun z _ _ => IZR z) (fun x => x) (fun _ _ => false) (-1)
    false true 2 (fun i => Z.of_nat (5 + i)) [2%nat; 1%nat] (mkB [] None)
    ltac:(lia) ltac:(lia) ltac:(lia) (proj1 C124_instance) eq_refl eq_refl eq_refl xb_shape ltac:(lia) (perm_swap _ _ _).
Example C124_best_of_batch_example :=
  C124_best_of_batch xb_J 2 2 1 xb_v (fun _ _ => 1) xb_H (fun _ _ _ => 1) (fun z _ _ => IZR z) (fun x => x) (fun _ _ => false) (-1)
    false true 2 (fun i => Z.of_nat (5 + i)) [2%nat; 1%nat] (mkB [] None)
    ltac:(lia) ltac:(lia) ltac:(lia) (proj1 C124_instance) (proj1 (proj2 C124_instance)) eq_refl eq_refl eq_refl eq_refl eq_refl
    xb_shape ltac:(lia) (perm_swap _ _ _).
Example C124_larger_batches_fail_example :=
  C124_larger_batches_fail xb_J 2 2 1 xb_v (fun _ _ => 1) xb_H (fun _ _ _ => 1) (fun z _ _ => IZR z) (fun x => x) (fun _ _ => false) (-1)
    false true 128 (fun i => Z.of_nat (5 + i)) (seq 1 128) (fun i => Z.of_nat i) (mkB [] None)
    ltac:(lia) ltac:(lia) ltac:(lia) (proj1 C124_instance) eq_refl eq_refl eq_refl xb_shape (le_n 128) (Permutation_refl _).
