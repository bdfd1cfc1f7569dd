(** Properties C121-C123: trainings that start from another model's profiles. *)
From Coq Require Import Reals Lra Lia List Bool ZArith Arith FunctionalExtensionality Permutation.
From Verif Require Import Base Fl Metrics_Model Metrics_Spec Metrics_Proofs LSNMF_Model LSNMF_Proofs LSNMF_Props
  Train_Model Train_Spec Train_Proofs Train_LS Layout_Model Layout_Proofs SA_Model SA_Proofs SA_Props
  Boot_Model Boot_Proofs Boot_Props Utils_Model Utils_Props
  Pipeline_Model Pipeline_Spec Pipeline_Proofs Pipeline_Props Refit_Model Refit_Spec Refit_Proofs.
Import ListNotations.
Open Scope R_scope.

(** Finite draws. *)
Notation draws g c wsW := (ColumnMean false (fun a j => Fin (g a j)) (fun i a => Fin (c i a)) wsW).

(** ** Refits in general *)
Lemma fit_init_drawn o V U k kd tick p s : construct V U k LSNMF = Some s ->
  fit o V U k (Some (None, None, kd)) kd tick p = fit o V U k None kd tick p.
Proof.
  intros Ec. unfold fit. rewrite Ec. pose proof (construct_inv _ _ _ _ _ Ec) as (_ & _ & _ & _ & _ & _ & _ & _ & _ & _ & Einit & _).
  destruct (initialize s None None kd) as [|s1 cc] eqn:Ei.
  - unfold train, train_guard. rewrite Einit, Ei. reflexivity.
  - unfold train, train_guard. rewrite Einit, Ei.
    pose proof (initialize_inv _ _ _ _ _ _ Ei) as (hi & h2 & W & _ & _ & _ & _ & _ & _ & _ & _ & _ & _ & _ & I1 & _). rewrite I1. reflexivity.
Qed.

Lemma never_held i : false = true <-> held false (-1) i.
Proof. split; [discriminate|intros [E _]; exact E]. Qed.

(** Numbers the compiled function accepts as model number. *)
Definition i8 (i : Z) : Prop := (-128 <= i <= 127)%Z.
Lemma i8_test i : (127 <? i)%Z || (i <? -128)%Z = false <-> i8 i.
Proof. unfold i8. rewrite orb_false_iff, !Z.ltb_ge. lia. Qed.

Lemma refit_spec B (oV oU : order) m n k v u (H : option (arr R)) g c wsW tick i :
  (0 < m)%nat -> (0 < n)%nat -> (0 < k)%nat -> mall m n (fun x => 0 <= x) v -> a_rows (b_H B) = k ->
  (forall h, H = Some h -> shaped k n FOrder h) ->
  let x := match H with Some h => fun a j => lifted (rearranged k n (aget h) a j) | None => drawn_H m k v g end in
  let y := drawn_W n k v c in
  exists f, refit B oV oU (data m n v) (data m n u) H (draws g c wsW) tick i = (if (127 <? i)%Z || (i <? -128)%Z then Raised else Trained f) /\
    reports m n k v (used_unc u) (reread oV m n v) (reread oU m n (used_unc u)) y x 4 (fun _ => false) (b_max_iter B) (b_cn B) (b_delta B) f /\
    ((1 <= Z.to_nat (b_max_iter B))%nat -> (1 <= length (f_hist f))%nat) /\
    ((2 <= b_cn B)%Z -> (2 <= Z.to_nat (b_max_iter B))%nat -> (2 <= length (f_hist f))%nat).
Proof.
  intros Hm Hn Hk Hv Ek Hsh x y. unfold refit. rewrite Ek.
  destruct H as [h|].
  - destruct (Hsh h eq_refl) as (S1 & S2 & S3). cbn [option_map]. rewrite S3.
    destruct (fit_kept (mkOrd oV oU COrder FOrder) m n k v u (as_nd h) (aget h) (fun a j => Fin (g a j)) c wsW (draws g c wsW) tick (settings_of B) Hm Hn Hk Hv)
      as (Wn & Hx & R1 & R2 & HW & R3 & R4 & HH & Ef); [exact S1|exact S2|intros a j _ _; reflexivity|].
    rewrite Ef. eexists. split; [reflexivity|].
    split; [exact (run_engine_spec (mkOrd oV oU COrder FOrder) m n k v (used_unc u) Wn Hx _ _ tick (settings_of B) (fun _ => false)
             (used_unc_nz u) R1 R2 HW R3 R4 HH never_held)|].
    split; [intros Hit|intros Hcn Hit]; eapply (engine_length _ m n); try reflexivity; try assumption; cbn [settings_of p_max_iter]; lia.
  - cbn [option_map]. destruct (construct_data m n k v u Hm Hn Hv) as (s & Ec & _).
    rewrite (fit_init_drawn _ _ _ _ _ _ _ s Ec).
    destruct (fit_drawn (mkOrd oV oU COrder COrder) m n k v u g c wsW tick (settings_of B) Hm Hn Hk Hv)
      as (Wn & Hx & R1 & R2 & HW & R3 & R4 & HH & Ef).
    rewrite Ef. eexists. split; [reflexivity|].
    split; [exact (run_engine_spec (mkOrd oV oU COrder COrder) m n k v (used_unc u) Wn Hx _ _ tick (settings_of B) (fun _ => false)
             (used_unc_nz u) R1 R2 HW R3 R4 HH never_held)|].
    split; [intros Hit|intros Hcn Hit]; eapply (engine_length _ m n); try reflexivity; try assumption; cbn [settings_of p_max_iter]; lia.
Qed.

Lemma lifted_gt x : 0 < lifted x.
Proof. apply made_positive_pos. Qed.

Lemma refit_improves B m n k v u (H : option (arr R)) g c f :
  (0 < m)%nat -> (0 < n)%nat -> (0 < k)%nat -> mall m n (fun x => 0 <= x) v -> no_empty m n v ->
  let x := match H with Some h => fun a j => lifted (rearranged k n (aget h) a j) | None => drawn_H m k v g end in
  let y := drawn_W n k v c in
  reports m n k v (used_unc u) v (used_unc u) y x 4 (fun _ => false) (b_max_iter B) (b_cn B) (b_delta B) f ->
  ((1 <= Z.to_nat (b_max_iter B))%nat -> (1 <= length (f_hist f))%nat) ->
  improves m n k v (used_unc u) y x 4 (b_max_iter B) (b_cn B) (b_delta B) f.
Proof.
  intros Hm Hn Hk Hv Hne x y Hr H1.
  apply (positive_run m n k v (used_unc u) y x (settings_of B)); try assumption.
  - apply used_unc_pos.
  - cbn [p_alpha settings_of]. lra.
  - intros i a _ _. apply lifted_gt.
  - intros a j _ _. unfold x. destruct H; apply lifted_gt.
Qed.

(** ** Bootstrap *)
Lemma rows_at_data idx m n v : rows_at idx (data m n v) = data m n (drawn idx v).
Proof.
  unfold rows_at, data. cbn [rows cols cell]. f_equal. extensionality i. unfold take_rows, drawn.
  extensionality j. destruct (nth_error idx i) as [q|] eqn:E.
  - rewrite (nth_error_nth _ _ i E). reflexivity.
  - apply nth_error_None in E. rewrite nth_overflow by exact E. reflexivity.
Qed.

(** Block sizes that work. *)
Definition good_block (overlapping : bool) (m : nat) (bs : bsize) : Prop :=
  exists b, bs = BInt b /\ (0 < b)%Z /\ (2 * b <= Z.of_nat m)%Z /\ (overlapping = true -> (2 < m)%nat).

Lemma resampled_spec block overlapping bs r B m n v u :
  (0 < m)%nat -> b_V B = data m n v -> b_U B = data m n u -> (block = true -> good_block overlapping m bs) ->
  exists idx, resampled block overlapping bs r B = Ok (data m n (drawn idx v), data m n (drawn idx u), idx) /\
    length idx = m /\ (forall q, In q idx -> (q < m)%nat) /\
    (block = true -> snd (block_index overlapping m bs r) = Ok idx) /\ (block = false -> idx = map (fun i => r i mod m)%nat (seq 0 m)).
Proof.
  intros Hm EV EU Hg. unfold resampled. rewrite EV, EU. cbn [data rows].
  change (ND m n (fun i j => Fin (v i j))) with (data m n v). change (ND m n (fun i j => Fin (u i j))) with (data m n u).
  destruct block.
  - destruct (Hg eq_refl) as (b & -> & Hb & H2 & Ho).
    destruct (C29_block_resample overlapping m b r (fun i => i) (fun i => i) (fun i => i) Hb H2 Ho)
      as (d & uu & w & idx & st & E & El & _ & _ & _ & _ & Hin).
    unfold block_resample in E. destruct (block_index overlapping m (BInt b) r) as [bs' o] eqn:Eb. injection E as -> E.
    destruct o as [idx'|]; [|discriminate]. injection E as _ _ _ ->. cbn [snd].
    exists idx. rewrite !rows_at_data. split; [reflexivity|]. split; [exact El|]. split.
    + intros q Hq. apply In_nth_error in Hq. destruct Hq as [i Ei].
      assert (Hi : (i < m)%nat) by (rewrite <- El; apply nth_error_Some; congruence).
      destruct (Hin i Hi) as (q' & Eq & Hlt & _). rewrite Ei in Eq. injection Eq as ->. exact Hlt.
    + split; [reflexivity|discriminate].
  - exists (resample_index m r). rewrite !rows_at_data. destruct (C29_single_resample m r Hm) as (L & I & _).
    split; [reflexivity|]. split; [exact L|]. split; [exact I|]. split; [discriminate|reflexivity].
Qed.

Lemma drawn_nonneg idx m n v : length idx = m -> (forall q, In q idx -> (q < m)%nat) -> mall m n (fun x => 0 <= x) v ->
  mall m n (fun x => 0 <= x) (drawn idx v).
Proof. intros L I Hv i j Hi Hj. apply Hv; [|exact Hj]. apply I, nth_In. lia. Qed.

(** C121: one bootstrap run.  Runs 1 to 127 always complete, later ones raise.  A completed
    run trains on the drawn samples (data and uncertainties together), with the settings of
    the base model and nothing held.  Contributions start from fresh draws.  With [keep]
    the profiles start from the base profiles re-read row by row; without it, from draws.
    The mapping compares the results with the unscrambled base model. *)
Theorem C121_bootstrap_run :
  forall B m n k v u keep block overlapping bs thr single r g c wsW tick i,
    (0 < m)%nat -> (0 < n)%nat -> (0 < k)%nat -> mall m n (fun x => 0 <= x) v ->
    b_V B = data m n v -> b_U B = data m n u -> shaped k n FOrder (b_H B) ->
    (block = true -> good_block overlapping m bs) ->
    let run := bs_run B keep block overlapping bs thr single r (draws g c wsW) tick i in
    ((127 < i)%nat -> run = BsRaises) /\
    ((i <= 127)%nat -> exists idx f mp, run = BsDone (mkEntry idx f mp) /\
       length idx = m /\ (forall q, In q idx -> (q < m)%nat) /\
       (block = true -> snd (block_index overlapping m bs r) = Ok idx) /\ (block = false -> idx = map (fun i => r i mod m)%nat (seq 0 m)) /\
       let vb := drawn idx v in let ub := used_unc (drawn idx u) in
       let x := if keep then fun a j => lifted (rearranged k n (aget (b_H B)) a j) else drawn_H m k vb g in
       reports m n k vb ub (reread (if block then b_oV B else fst single) m n vb) (reread (if block then b_oU B else snd single) m n ub)
         (drawn_W n k vb c) x 4 (fun _ => false) (b_max_iter B) (b_cn B) (b_delta B) f /\
       (f_WH f = None -> mp = None) /\
       (forall w1 h1, f_WH f = Some (w1, h1) -> exists l, mp = Some l /\ length l = k /\
          forall a, (a < k)%nat -> exists e, nth_error l a = Some e /\
            mapping_ok (fun a b => r2 n (fun j => rsum m (fun t => aget w1 t a * aget h1 a j))
                                        (fun j => rsum m (fun t => aget (b_W B) t b * aget (b_H B) b j))) k thr a e)).
Proof.
  intros B m n k v u keep block overlapping bs thr single r g c wsW tick i Hm Hn Hk Hv EV EU HS Hg run.
  destruct (resampled_spec block overlapping bs r B m n v u Hm EV EU Hg) as (idx & Er & L & I & Ib & Is).
  destruct HS as (S1 & S2 & S3).
  destruct (refit_spec B (if block then b_oV B else fst single) (if block then b_oU B else snd single) m n k (drawn idx v) (drawn idx u)
              (if keep then Some (b_H B) else None) g c wsW tick (Z.of_nat i) Hm Hn Hk) as (f & Ef & Hr & _).
  { apply drawn_nonneg; assumption. }
  { exact S1. }
  { intros h. destruct keep; [intros E; injection E as <-; split; [|split]; assumption|discriminate]. }
  unfold run, bs_run. rewrite Er, Ef. split.
  - intros Hi. replace (127 <? Z.of_nat i)%Z with true by (symmetry; apply Z.ltb_lt; lia). reflexivity.
  - intros Hi. replace (127 <? Z.of_nat i)%Z with false by (symmetry; apply Z.ltb_ge; lia).
    replace (Z.of_nat i <? -128)%Z with false by (symmetry; apply Z.ltb_ge; lia). cbn [orb].
    do 3 eexists. split; [reflexivity|]. split; [exact L|]. split; [exact I|]. split; [exact Ib|]. split; [exact Is|]. cbv zeta.
    split; [destruct keep; exact Hr|]. split; [intros ->; reflexivity|]. intros w1 h1 ->. rewrite EV, S1. cbn [data rows cols].
    eexists. split; [reflexivity|]. split; [unfold map_contributions; rewrite map_length, seq_length; reflexivity|].
    intros a Ha. exact (C32_mapping_is_best m m n k (aget w1) (aget h1) (aget (b_W B)) (aget (b_H B)) thr a Ha).
Qed.
Print Assumptions C121_bootstrap_run.

(** C121: with data stored by columns and no sample or feature of the drawn data empty,
    the run gives positive matrices that fit the drawn data at least as well as its start. *)
Theorem C121_run_improves :
  forall B m n k v u keep block overlapping bs thr single r g c wsW tick i e,
    (0 < m)%nat -> (0 < n)%nat -> (0 < k)%nat -> mall m n (fun x => 0 <= x) v ->
    b_V B = data m n v -> b_U B = data m n u -> shaped k n FOrder (b_H B) ->
    (block = true -> good_block overlapping m bs) ->
    b_oV B = FOrder -> b_oU B = FOrder -> single = (FOrder, FOrder) ->
    bs_run B keep block overlapping bs thr single r (draws g c wsW) tick i = BsDone e ->
    let vb := drawn (be_index e) v in
    no_empty m n vb ->
    improves m n k vb (used_unc (drawn (be_index e) u)) (drawn_W n k vb c)
      (if keep then fun a j => lifted (rearranged k n (aget (b_H B)) a j) else drawn_H m k vb g)
      4 (b_max_iter B) (b_cn B) (b_delta B) (be_model e).
Proof.
  intros B m n k v u keep block overlapping bs thr single r g c wsW tick i e Hm Hn Hk Hv EV EU HS Hg OV OU -> Erun vb Hne.
  destruct (resampled_spec block overlapping bs r B m n v u Hm EV EU Hg) as (idx & Er & L & I & Ib & Is).
  destruct HS as (S1 & S2 & S3).
  destruct (refit_spec B (if block then b_oV B else FOrder) (if block then b_oU B else FOrder) m n k (drawn idx v) (drawn idx u)
              (if keep then Some (b_H B) else None) g c wsW tick (Z.of_nat i) Hm Hn Hk) as (f & Ef & Hr & HN & _).
  { apply drawn_nonneg; assumption. }
  { exact S1. }
  { intros h. destruct keep; [intros E; injection E as <-; split; [|split]; assumption|discriminate]. }
  unfold bs_run in Erun. cbn [fst snd] in Erun. rewrite Er, Ef in Erun.
  destruct ((127 <? Z.of_nat i)%Z || (Z.of_nat i <? -128)%Z); [discriminate|]. injection Erun as <-.
  cbn [be_index be_model] in *. unfold vb in *.
  replace (if keep then _ else _) with (match (if keep then Some (b_H B) else None) with
     Some h => fun a j => lifted (rearranged k n (aget h) a j) | None => drawn_H m k (drawn idx v) g end) by (destruct keep; reflexivity).
  apply refit_improves; try assumption.
  - apply drawn_nonneg; assumption.
  - rewrite OV, OU in Hr. replace (if block then FOrder else FOrder) with FOrder in Hr by (destruct block; reflexivity). exact Hr.
Qed.
Print Assumptions C121_run_improves.

Lemma none_from_zero_feature m n k v u b w h N j :
  (0 < k)%nat -> (2 <= N)%nat -> (j < n)%nat -> (forall i, (i < m)%nat -> v i j = 0) -> (forall i, b i = false) ->
  ls_iter m n k v (weights u) b 0 N (w, h) = None.
Proof.
  intros Hk HN Hj Hz Hb. apply C59_zero_feature_breaks; try assumption; try apply Hb. exists j. split; assumption.
Qed.

(** C121: block resampling never draws the last block (the last two samples with
    overlapping blocks, C30).  A feature measured only there makes every run of at
    least two iterations a failure: NaN matrices, NaN losses, nothing mapped. *)
Theorem C121_unseen_feature_breaks_every_run :
  forall B m n k v u keep overlapping b thr single r g c wsW tick i q j,
    (0 < n)%nat -> (0 < k)%nat -> mall m n (fun x => 0 <= x) v ->
    b_V B = data m n v -> b_U B = data m n u -> shaped k n FOrder (b_H B) -> b_oV B = FOrder ->
    (0 < b)%nat -> (2 * b <= m)%nat -> (overlapping = true -> (2 < m)%nat) ->
    (2 <= b_max_iter B)%Z -> (2 <= b_cn B)%Z -> (i <= 127)%nat ->
    (q * b < m <= q * b + b)%nat -> (j < n)%nat ->
    (forall t, (t < m)%nat -> (if overlapping then (t + 2 < m)%nat else (t < q * b)%nat) -> v t j = 0) ->
    exists e, bs_run B keep true overlapping (BInt (Z.of_nat b)) thr single r (draws g c wsW) tick i = BsDone e /\
      f_WH (be_model e) = None /\ f_prod (be_model e) = None /\ f_Qtrue (be_model e) = NaN /\ f_Qrobust (be_model e) = NaN /\
      be_mapping e = None /\ last (f_hist (be_model e)) (Fin 0) = NaN.
Proof.
  intros B m n k v u keep overlapping b thr single r g c wsW tick i q j Hn Hk Hv EV EU HS OV Hb H2 Ho Hit Hcn Hi Hq Hj Hz.
  assert (Hm : (0 < m)%nat) by lia.
  assert (Hg : good_block overlapping m (BInt (Z.of_nat b))) by (exists (Z.of_nat b); repeat split; auto; lia).
  destruct (resampled_spec true overlapping (BInt (Z.of_nat b)) r B m n v u Hm EV EU (fun _ => Hg)) as (idx & Er & L & I & Ib & _).
  specialize (Ib eq_refl). destruct HS as (S1 & S2 & S3).
  destruct (refit_spec B (b_oV B) (b_oU B) m n k (drawn idx v) (drawn idx u)
              (if keep then Some (b_H B) else None) g c wsW tick (Z.of_nat i) Hm Hn Hk) as (f & Ef & Hr & HN1 & HN).
  { apply drawn_nonneg; assumption. }
  { exact S1. }
  { intros h. destruct keep; [intros E; injection E as <-; split; [|split]; assumption|discriminate]. }
  specialize (HN Hcn ltac:(lia)).
  replace ((127 <? Z.of_nat i)%Z || (Z.of_nat i <? -128)%Z) with false in Ef by (symmetry; apply i8_test; unfold i8; lia).
  eexists. split; [unfold bs_run; rewrite Er, Ef; reflexivity|]. cbn [be_model be_mapping].
  assert (Z0 : forall t, (t < m)%nat -> drawn idx v t j = 0).
  { intros t Ht. unfold drawn. assert (Hin : In (nth t idx t) idx) by (apply nth_In; lia). apply Hz; [apply I, Hin|].
    destruct overlapping.
    - apply (proj1 (C30_overlapping_last_two_never_drawn m (Z.of_nat b) ltac:(lia) ltac:(lia) (Ho eq_refl)) r idx _ Ib Hin).
    - destruct (C30_last_block_never_drawn m (Z.of_nat b) ltac:(lia) ltac:(lia)) as (lst & (q' & Eq) & Hl & Hno & _).
      rewrite Nat2Z.id in Eq, Hl. specialize (Hno r idx _ Ib Hin). assert (q' = q) by nia. subst. exact Hno. }
  unfold reports in Hr. cbv zeta in Hr. destruct Hr as (_ & _ & _ & _ & R5 & R6).
  rewrite OV in R5, R6. cbn [reread] in R5, R6.
  specialize (R5 (length (f_hist f) - 1)%nat ltac:(lia)). replace (S (length (f_hist f) - 1)) with (length (f_hist f)) in R5 by lia.
  unfold reread in R5, R6.
  erewrite none_from_zero_feature in R5, R6; try eassumption; try reflexivity; try (intros; apply Z0; assumption).
  destruct R6 as (F1 & F2 & F3 & F4). rewrite F1. repeat split; try assumption. apply last_nth. exact R5.
Qed.
Print Assumptions C121_unseen_feature_breaks_every_run.

(** C121: a whole bootstrap of [nb] runs, in whatever order they finish. *)
Lemma all_runs_some {M} (work : nat -> option M) l : (forall i, In i l -> work i <> None) -> exists r, all_runs work l = Some r.
Proof.
  induction l as [|i l IH]; intros H; [exists []; reflexivity|]. cbn [all_runs].
  destruct (work i) eqn:E; [|exfalso; apply (H i); [left; reflexivity|exact E]].
  destruct IH as [r ->]; [intros; apply H; right; assumption|]. eexists. reflexivity.
Qed.
Lemma all_runs_none {M} (work : nat -> option M) l i : In i l -> work i = None -> all_runs work l = None.
Proof.
  induction l as [|a l IH]; intros H E; [destruct H|]. cbn [all_runs]. destruct H as [->|H]; [rewrite E; reflexivity|].
  rewrite IH by assumption. destruct (work a); reflexivity.
Qed.

Theorem C121_whole_bootstrap :
  forall B m n k v u keep block overlapping bs thr single (r : nat -> nat -> nat) (g c : nat -> mat) wsW tick nb sched,
    (0 < m)%nat -> (0 < n)%nat -> (0 < k)%nat -> mall m n (fun x => 0 <= x) v ->
    b_V B = data m n v -> b_U B = data m n u -> shaped k n FOrder (b_H B) ->
    (block = true -> good_block overlapping m bs) -> Permutation sched (seq 1 nb) ->
    let run i := bs_run B keep block overlapping bs thr single (r i) (draws (g i) (c i) wsW) (tick i) i in
    let work := bs_work B keep block overlapping bs thr single r (fun i => draws (g i) (c i) wsW) tick in
    ((127 < nb)%nat -> par_runs work sched [] = (false, [])) /\
    ((nb <= 127)%nat -> exists d, par_runs work sched [] = (true, d) /\ length d = nb /\
       (forall i, (1 <= i <= nb)%nat -> exists e, In (i, e) d /\ run i = BsDone e) /\
       (forall i e, In (i, e) d -> (1 <= i <= nb)%nat /\ run i = BsDone e)).
Proof.
  intros B m n k v u keep block overlapping bs thr single r g c wsW tick nb sched Hm Hn Hk Hv EV EU HS Hg Hp run work.
  assert (Run : forall i, ((127 < i)%nat -> run i = BsRaises) /\ ((i <= 127)%nat -> exists e, run i = BsDone e)).
  { intros i. destruct (C121_bootstrap_run B m n k v u keep block overlapping bs thr single (r i) (g i) (c i) wsW (tick i) i Hm Hn Hk Hv EV EU HS Hg) as [A D].
    split; [exact A|]. intros Hi. destruct (D Hi) as (idx & f & mp & E & _). eexists. exact E. }
  split.
  - intros Hnb. unfold par_runs. rewrite (all_runs_none work sched 128); [reflexivity| |].
    + apply (Permutation_in _ (Permutation_sym Hp)). apply in_seq. lia.
    + unfold work, bs_work. fold (run 128%nat). rewrite (proj1 (Run 128%nat) ltac:(lia)). reflexivity.
  - intros Hnb. destruct (all_runs_some work sched) as [l El].
    { intros i Hi. apply (Permutation_in _ Hp), in_seq in Hi. destruct (proj2 (Run i) ltac:(lia)) as [e Ee].
      unfold work, bs_work. fold (run i). rewrite Ee. discriminate. }
    pose proof (C33_order_of_completion_irrelevant work (fun _ => []) nb sched Hp) as C.
    unfold par_runs in C |- *. rewrite El in C |- *. destruct (seq_runs work nb 1 []) as [ok' d'].
    destruct C as [_ C]. destruct (C eq_refl) as (Len & _ & Back & _). clear C.
    eexists. split; [reflexivity|]. split; [exact Len|].
    assert (Dn : forall i e, work i = Some e -> run i = BsDone e).
    { intros i e. unfold work, bs_work. fold (run i). destruct (run i); try discriminate. intros E. injection E as ->. reflexivity. }
    assert (Keys : map fst l = sched).
    { clear -El. revert l El. induction sched as [|i s IH]; intros l El; cbn [all_runs] in El; [injection El as <-; reflexivity|].
      destruct (work i); [|discriminate]. destruct (all_runs work s) as [l'|]; [|discriminate]. injection El as <-. cbn. f_equal. apply IH. reflexivity. }
    assert (Nd : NoDup (map fst ([] ++ l))).
    { cbn [app]. rewrite Keys. apply (Permutation_NoDup (Permutation_sym Hp)), seq_NoDup. }
    rewrite (fold_dict_fresh l [] Nd) in *. cbn [app] in *. split.
    + intros i Hi. assert (Hin : In i (map fst l)) by (rewrite Keys; apply (Permutation_in _ (Permutation_sym Hp)), in_seq; lia).
      apply in_map_iff in Hin. destruct Hin as ([i' e] & Ei & Hin). cbn in Ei. subst i'. exists e. split; [exact Hin|]. apply Dn, Back, Hin.
    + intros i e Hin. split; [|apply Dn, Back, Hin].
      assert (Hin' : In i (map fst l)) by (apply in_map_iff; exists (i, e); split; [reflexivity|exact Hin]).
      rewrite Keys in Hin'. apply (Permutation_in _ Hp), in_seq in Hin'. lia.
Qed.
Print Assumptions C121_whole_bootstrap.

(** A base model with profiles (1,2) and (3,4) as the engine returns them. *)
Definition square_base (v : mat) (maxit : Z) : base :=
  mkBase (data 2 2 v) (data 2 2 (fun _ _ => 1)) FOrder FOrder
    (mkArr 2 2 FOrder (fun q => nth q [1; 1; 1; 1] 0)) (mkArr 2 2 FOrder (fun q => nth q [1; 3; 2; 4] 0)) maxit 1 10.

Lemma no_iterations m n k v u v' u' w h al b cn delta f : reports m n k v u v' u' w h al b 0 cn delta f ->
  exists w1 h1, f_WH f = Some (w1, h1) /\ meq k n (aget h1) h /\ meq m k (aget w1) w /\ f_Qtrue f = Fin (misfit m n k v u w h).
Proof.
  intros (A & _ & _ & _ & _ & F). cbn in A. assert (length (f_hist f) = 0)%nat as E by lia. rewrite E in F. cbn [ls_iter] in F.
  destruct F as (w1 & h1 & P & F1 & _ & _ & _ & F5 & F6 & _ & F8 & _). exists w1, h1. repeat split; assumption.
Qed.

(** "keep the base model H matrix instead of reinitializing": with no iterations the run
    returns its starting profiles, and they are not the base profiles. *)
Theorem C121_base_profiles_kept_refuted :
  exists B e w1 h1, (forall a j, (a < 2)%nat -> (j < 2)%nat -> aget (b_H B) a j = cells [[1; 2]; [3; 4]] a j) /\
    bs_run B true true false (BInt 1) (Fin 0) (FOrder, FOrder) (fun _ => 0%nat) (draws (fun _ _ : nat => 1) (fun _ _ : nat => 1) (fun x => x)) (fun _ => false) 1 = BsDone e /\
    f_WH (be_model e) = Some (w1, h1) /\ aget h1 0%nat 1%nat = 3 /\ aget h1 1%nat 0%nat = 2.
Proof.
  set (B := square_base (fun _ _ => 1) 0).
  assert (EB : forall a j, (a < 2)%nat -> (j < 2)%nat -> aget (b_H B) a j = cells [[1; 2]; [3; 4]] a j).
  { intros a j Ha Hj. small a j Ha Hj; reflexivity. }
  destruct (C121_bootstrap_run B 2 2 2 (fun _ _ => 1) (fun _ _ => 1) true true false (BInt 1) (Fin 0) (FOrder, FOrder) (fun _ => 0%nat)
     (fun _ _ => 1) (fun _ _ => 1) (fun x => x) (fun _ => false) 1) as [_ D]; try lia; try reflexivity.
  { intros i j _ _. lra. }
  { repeat split. }
  { intros _. exists 1%Z. repeat split; try lia; discriminate. }
  destruct (D ltac:(lia)) as (idx & f & mp & E & _ & _ & _ & _ & Hr & _).
  apply no_iterations in Hr. destruct Hr as (w1 & h1 & F1 & Fh & _ & _).
  exists B, (mkEntry idx f mp), w1, h1. split; [exact EB|]. split; [exact E|]. split; [exact F1|].
  split; rewrite Fh by lia; unfold rearranged; cbn; rewrite lifted_pos; lra.
Qed.
Print Assumptions C121_base_profiles_kept_refuted.

Example C121_instance :
  let B := square_base (fun i j => INR (i + j)) 5 in
  mall 2 2 (fun x => 0 <= x) (fun i j => INR (i + j)) /\ b_V B = data 2 2 (fun i j => INR (i + j)) /\
  shaped 2 2 FOrder (b_H B) /\ good_block false 2 (BInt 1) /\ good_block true 3 (BInt 1) /\
  Permutation [2; 1]%nat (seq 1 2) /\
  (* feature 1 seen in the last block of one sample only *)
  (1 * 1 < 2 <= 1 * 1 + 1)%nat /\
  no_empty 2 2 (drawn [1; 1]%nat (fun i j => INR (i + j))).
Proof.
  cbv zeta. split; [intros i j _ _; apply pos_INR|]. split; [reflexivity|]. split; [repeat split|].
  split; [exists 1%Z; repeat split; try lia; discriminate|]. split; [exists 1%Z; repeat split; lia|].
  split; [apply perm_swap|]. split; [lia|]. split; [intros i Hi|intros j Hj].
  - exists 0%nat. split; [lia|]. unfold drawn. destruct i as [|[|i]]; try lia; cbn; lra.
  - exists 0%nat. split; [lia|]. unfold drawn. cbn [nth]. apply lt_0_INR. lia.
Qed.

Definition xre_v : mat := fun i j => INR (i + j).
Definition xre_B : base := square_base xre_v 5.
Lemma xre_pos : mall 2 2 (fun x => 0 <= x) xre_v. Proof. intros i j _ _. apply pos_INR. Qed.
Lemma xre_sh : shaped 2 2 FOrder (b_H xre_B). Proof. apply C121_instance. Qed.
Lemma xre_blk : true = true -> good_block false 2 (BInt 1). Proof. intros _. apply C121_instance. Qed.
Example C121_bootstrap_run_example wsW tick :=
  C121_bootstrap_run xre_B 2 2 2 xre_v (fun _ _ => 1) true true false (BInt 1) (Fin 0) (FOrder, FOrder) (fun _ => 0%nat) (fun _ _ => 1) (fun _ _ => 1) wsW tick 3
    ltac:(lia) ltac:(lia) ltac:(lia) xre_pos eq_refl eq_refl xre_sh xre_blk.
Example C121_run_improves_example wsW tick e :=
  C121_run_improves xre_B 2 2 2 xre_v (fun _ _ => 1) true true false (BInt 1) (Fin 0) (FOrder, FOrder) (fun _ => 0%nat) (fun _ _ => 1) (fun _ _ => 1) wsW tick 3 e
    ltac:(lia) ltac:(lia) ltac:(lia) xre_pos eq_refl eq_refl xre_sh xre_blk eq_refl eq_refl eq_refl.
Example C121_whole_bootstrap_example wsW tick :=
  C121_whole_bootstrap xre_B 2 2 2 xre_v (fun _ _ => 1) true true false (BInt 1) (Fin 0) (FOrder, FOrder) (fun i _ => i) (fun _ _ _ => 1) (fun _ _ _ => 1) wsW tick 2 [2; 1]%nat
    ltac:(lia) ltac:(lia) ltac:(lia) xre_pos eq_refl eq_refl xre_sh xre_blk (perm_swap 1%nat 2%nat []).

(** Blocks of one sample: feature 0 is zero in the first sample. *)
Example C121_unseen_feature_breaks_every_run_example wsW tick :=
  C121_unseen_feature_breaks_every_run xre_B 2 2 2 xre_v (fun _ _ => 1) true false 1 (Fin 0) (FOrder, FOrder) (fun _ => 0%nat) (fun _ _ => 1) (fun _ _ => 1) wsW tick 3 1 0
    ltac:(lia) ltac:(lia) xre_pos eq_refl eq_refl xre_sh eq_refl ltac:(lia) ltac:(lia) ltac:(discriminate) ltac:(cbn; lia) ltac:(cbn; lia) ltac:(lia) ltac:(lia) ltac:(lia)
    ltac:(intros [|[|t]] _ Ht; [reflexivity|lia|lia]).
