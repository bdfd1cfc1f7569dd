(** C130: plots over time. *)
From Coq Require Import List Bool Arith ZArith Lia Reals Lra Permutation Sorting.Sorted.
From Verif Require Import Base Fl Utils_Model Utils_Props TimePlot_Model.
From Verif Require Constr_Model Expr_Model Analysis_Model Show_Model Show_Props Report_Model ConPlot_Props Align_Model.
Import ListNotations.
Local Open Scope R_scope.

(** ** Sorting *)
Lemma zinsert_perm x l : Permutation (x :: l) (zinsert x l).
Proof.
  induction l as [|y t IH]; cbn; [apply Permutation_refl|]. destruct (x <=? y)%Z; [apply Permutation_refl|]. eapply perm_trans; [apply perm_swap|]. apply perm_skip, IH.
Qed.
Lemma zsort_perm l : Permutation l (zsort l).
Proof. induction l as [|x t IH]; cbn; [apply Permutation_refl|]. eapply perm_trans; [apply perm_skip, IH|apply zinsert_perm]. Qed.
Lemma zinsert_sorted x l : StronglySorted Z.le l -> StronglySorted Z.le (zinsert x l).
Proof.
  induction l as [|y t IH]; intros H; cbn; [repeat constructor|]. inversion H as [|? ? H1 H2]; subst. destruct (Z.leb_spec x y) as [L|L].
  - constructor; [exact H|]. constructor; [exact L|]. rewrite Forall_forall in *. intros z Hz. specialize (H2 z Hz). lia.
  - constructor; [apply IH, H1|]. rewrite Forall_forall in *. intros z Hz. apply (Permutation_in _ (Permutation_sym (zinsert_perm x t))) in Hz. destruct Hz as [<-|Hz]; [lia|apply H2, Hz].
Qed.
Lemma zsort_sorted l : StronglySorted Z.le (zsort l).
Proof. induction l as [|x t IH]; cbn; [constructor|]. apply zinsert_sorted, IH. Qed.
Lemma zsorted_unique : forall l l', StronglySorted Z.le l -> StronglySorted Z.le l' -> Permutation l l' -> l = l'.
Proof.
  induction l as [|x t IH]; intros l' A B P; [apply Permutation_nil in P; subst; reflexivity|].
  destruct l' as [|y t']; [apply Permutation_sym, Permutation_nil in P; discriminate|]. inversion A as [|? ? A1 A2]; subst. inversion B as [|? ? B1 B2]; subst. rewrite Forall_forall in A2, B2.
  assert (E : x = y). { assert (I1 : In y (x :: t)) by (apply (Permutation_in _ (Permutation_sym P)); left; reflexivity). assert (I2 : In x (y :: t')) by (apply (Permutation_in _ P); left; reflexivity).
    destruct I1 as [->|I1]; [reflexivity|]. destruct I2 as [->|I2]; [reflexivity|]. specialize (A2 y I1). specialize (B2 x I2). lia. }
  subst y. f_equal. apply IH; [exact A1|exact B1|]. apply (Permutation_cons_inv P).
Qed.
Lemma sorted_steps l : StronglySorted Z.le l -> forall i a b, nth_error l i = Some a -> nth_error l (S i) = Some b -> (a <= b)%Z.
Proof.
  induction 1 as [|x t H IH F]; intros i a b Ha Hb; [destruct i; discriminate|]. destruct i as [|i]; [|apply (IH i); assumption]. cbn in Ha. injection Ha as <-. rewrite Forall_forall in F. apply F. destruct t as [|z t]; [discriminate|]. cbn in Hb. injection Hb as <-. left. reflexivity.
Qed.

(** ** Days and means *)
Lemma last_max : forall l x, StronglySorted Z.le (x :: l) -> In (last (x :: l) 0%Z) (x :: l) /\ forall z, In z (x :: l) -> (x <= z <= last (x :: l) 0)%Z.
Proof.
  induction l as [|y t IH]; intros x H; [cbn; split; [left; reflexivity|intros z [<-|[]]; lia]|]. inversion H as [|? ? H1 H2]; subst. destruct (IH y H1) as [A B]. rewrite Forall_forall in H2.
  change (last (x :: y :: t) 0%Z) with (last (y :: t) 0%Z). split; [right; exact A|]. intros z [<-|Hz]; [|split; [apply H2, Hz|apply B, Hz]]. split; [lia|]. apply H2, A.
Qed.
Lemma days_spec times rows : StronglySorted Z.lt (days times rows) /\
  forall d, In d (days times rows) <-> exists t t', In t rows /\ In t' rows /\ (day (times t) <= d <= day (times t'))%Z.
Proof.
  unfold days. pose proof (zsort_perm (map times rows)) as P. pose proof (zsort_sorted (map times rows)) as S0. unfold index. destruct (zsort (map times rows)) as [|x l] eqn:E.
  - split; [constructor|]. intros d. split; [intros []|]. intros (t & _ & Ht & _). apply Permutation_sym, Permutation_nil in P. destruct rows; [destruct Ht|discriminate].
  - destruct (last_max l x S0) as [A B]. set (y := last (x :: l) 0%Z) in *. split.
    + generalize (Z.to_nat (day y - day x + 1)). intros N. assert (G : forall N s, StronglySorted Z.lt (map (fun i => (day x + Z.of_nat i)%Z) (seq s N))).
      { clear. induction N as [|N IH]; intros s; cbn; constructor; [apply IH|]. rewrite Forall_forall. intros z Hz. apply in_map_iff in Hz. destruct Hz as (i & <- & Hi). apply in_seq in Hi. lia. }
      apply G.
    + assert (D : (day x <= day y)%Z) by (apply Z.div_le_mono; [reflexivity|exact (proj1 (B y A))]). intros d. rewrite in_map_iff. split.
      * intros (i & <- & Hi). apply in_seq in Hi. assert (Ix : In x (map times rows)) by (apply (Permutation_in _ (Permutation_sym P)); left; reflexivity). assert (Iy : In y (map times rows)) by (apply (Permutation_in _ (Permutation_sym P)); exact A).
        apply in_map_iff in Ix, Iy. destruct Ix as (t & Et & Ht). destruct Iy as (t' & Et' & Ht'). exists t, t'. rewrite Et, Et'. repeat split; try assumption; lia.
      * intros (t & t' & Ht & Ht' & Hd). apply (in_map times) in Ht, Ht'. apply (Permutation_in _ P) in Ht, Ht'. apply B in Ht, Ht'.
        assert (day x <= day (times t))%Z by (apply Z.div_le_mono; [reflexivity|apply Ht]). assert (day (times t') <= day y)%Z by (apply Z.div_le_mono; [reflexivity|apply Ht']).
        exists (Z.to_nat (d - day x)). split; [lia|]. apply in_seq. lia.
Qed.
Lemma fold_fadd_fin : forall xs a, fold_left fadd (map Fin xs) (Fin a) = Fin (a + lsum xs).
Proof. induction xs as [|x t IH]; intros a; cbn [map fold_left lsum]; [f_equal; lra|]. cbn [fadd]. rewrite IH. f_equal. lra. Qed.
Lemma skipmean_fin xs : xs <> [] -> skipmean (map Fin xs) = Fin (lsum xs / INR (List.length xs)).
Proof.
  intros Hx. unfold skipmean. assert (E : filter (fun x => negb (is_nan x)) (map Fin xs) = map Fin xs) by (clear; induction xs as [|x t IH]; cbn; [reflexivity|f_equal; exact IH]). rewrite E.
  destruct xs as [|x t]; [contradiction|]. cbn [map]. change (Fin x :: map Fin t) with (map Fin (x :: t)). rewrite fold_fadd_fin, map_length, Rplus_0_l. unfold fdiv.
  assert (N : INR (List.length (x :: t)) <> 0) by (apply not_0_INR; discriminate). destruct (Req_EM_T _ 0); [contradiction|]. reflexivity.
Qed.
Lemma skipmean_nan l : (forall x, In x l -> x = NaN) -> skipmean l = NaN.
Proof.
  intros H. unfold skipmean. assert (E : filter (fun x => negb (is_nan x)) l = []). { induction l as [|x t IH]; [reflexivity|]. cbn. rewrite (H x (or_introl eq_refl)). cbn. apply IH. intros z Hz. apply H. right. exact Hz. }
  rewrite E. reflexivity.
Qed.

(** ** What is said about a series *)
Definition ns_per_day : Z := 86400000000000.
(** A value for every day from the first to the last, the mean over the samples of
    the day. *)
Definition daily_means (P : nat -> Prop) (times : nat -> Z) (y : nat -> fl) (s : series) : Prop :=
  StronglySorted Z.lt (map fst s) /\
  (forall d, In d (map fst s) <-> exists t t', P t /\ P t' /\ (times t / ns_per_day <= d <= times t' / ns_per_day)%Z) /\
  forall d v picked, In (d, v) s -> NoDup picked -> (forall t, In t picked <-> P t /\ (times t / ns_per_day)%Z = d) ->
    (forall x, picked <> [] -> (forall t, In t picked -> y t = Fin (x t)) -> v = Fin (lsum (map x picked) / INR (List.length picked))) /\
    ((forall t, In t picked -> y t = NaN) -> v = NaN).
Lemma daily_spec times rows y : NoDup rows -> daily_means (fun t => In t rows) times y (daily times rows y).
Proof.
  intros ND. destruct (days_spec times rows) as [A B]. assert (E : map fst (daily times rows y) = days times rows) by (unfold daily; rewrite map_map; cbn [fst]; apply map_id).
  split; [rewrite E; exact A|]. split; [intros d; rewrite E; apply B|]. intros d v picked Hin NP Hp. unfold daily in Hin. apply in_map_iff in Hin. destruct Hin as (d' & Q & _). injection Q as -> <-.
  assert (P : Permutation (samples times rows d) picked). { apply NoDup_Permutation; [apply NoDup_filter, ND|exact NP|]. intros t. unfold samples. rewrite filter_In, Z.eqb_eq, Hp. reflexivity. }
  split.
  - intros x Hne Hx. rewrite (map_ext_in y (fun t => Fin (x t))). { rewrite <- (map_map x Fin). rewrite skipmean_fin. { rewrite map_length, (Permutation_length P). do 2 f_equal. apply lsum_perm, Permutation_map, P. }
      intros N. apply map_eq_nil in N. rewrite N in P. apply Permutation_nil in P. contradiction. }
    intros t Ht. apply Hx. apply (Permutation_in _ P), Ht.
  - intros Hn. apply skipmean_nan. intros z Hz. apply in_map_iff in Hz. destruct Hz as (t & <- & Ht). apply Hn, (Permutation_in _ P), Ht.
Qed.
Lemma daily_means_ext P Q times y z s : (forall t, P t <-> Q t) -> (forall t, P t -> y t = z t) -> daily_means P times y s -> daily_means Q times z s.
Proof.
  intros PQ Ey (A & B & C). split; [exact A|]. split; [intros d; rewrite B; split; intros (t & t' & H1 & H2 & H3); exists t, t'; rewrite PQ in *; auto; rewrite <- PQ in *; auto; repeat split; try apply PQ; auto; apply H3|].
  intros d v picked Hin ND Hp. assert (Hp' : forall t, In t picked <-> P t /\ (times t / ns_per_day)%Z = d) by (intros t; rewrite Hp, PQ; reflexivity).
  destruct (C d v picked Hin ND Hp') as [C1 C2]. split; [intros x Hne Hx; apply C1; [exact Hne|]|intros Hn; apply C2]; intros t Ht; rewrite Ey by (apply Hp', Ht); auto.
Qed.
Lemma resampled_spec m times v y : List.length v = m -> (forall t, (t < m)%nat -> nth_error v t = Some (y t)) -> daily_means (fun t => (t < m)%nat) times y (resampled m times v).
Proof.
  intros L H. unfold resampled. eapply daily_means_ext; [| |apply daily_spec, seq_NoDup]; cbv beta.
  - intros t. rewrite in_seq. lia.
  - intros t Ht. apply in_seq in Ht. apply nth_error_nth. apply H. lia.
Qed.

(** The smallest difference between consecutive times, the last one not counted, is
    an hour (to the second), or there are at most two samples. *)
Definition hourly (m : nat) (times : nat -> Z) : Prop :=
  (m <= 2)%nat \/
  forall idx, Permutation (map times (seq 0 m)) idx -> StronglySorted Z.le idx ->
    exists d, (3600000000000 <= d < 3601000000000)%Z /\
      (exists i a b, (i + 2 < m)%nat /\ nth_error idx i = Some a /\ nth_error idx (S i) = Some b /\ (b - a = d)%Z) /\
      (forall i a b, (i + 2 < m)%nat -> nth_error idx i = Some a -> nth_error idx (S i) = Some b -> (d <= b - a)%Z).
Lemma step_hourly m times : step m times = Daily <-> hourly m times.
Proof.
  unfold step, hourly, index. set (l := zsort (map times (seq 0 m))). assert (P : Permutation (map times (seq 0 m)) l) by apply zsort_perm. assert (S0 : StronglySorted Z.le l) by apply zsort_sorted.
  assert (L : List.length l = m) by (rewrite <- (Permutation_length P), map_length, seq_length; reflexivity).
  rewrite (C75_time_step l (sorted_steps l S0)). rewrite L. split; (intros [H|H]; [left; exact H|right]).
  - intros idx Pi Si. assert (E : idx = l) by (apply zsorted_unique; [exact Si|exact S0|]; eapply perm_trans; [apply Permutation_sym, Pi|exact P]). rewrite E. exact H.
  - apply H; [exact P|exact S0].
Qed.
Lemma step_not m times : ~ hourly m times -> step m times = NoStep.
Proof. intros H. destruct (step m times) eqn:E; [reflexivity|]. exfalso. apply H, step_hourly, E. Qed.

(** ** C130 *)
(** Samples at equal intervals: three or more are hourly exactly when the interval is
    an hour, to the second. *)
Theorem C130_regular : forall (m : nat) (t0 interval : Z), (3 <= m)%nat -> (0 <= interval)%Z ->
  (hourly m (fun t => (t0 + interval * Z.of_nat t)%Z) <-> (3600000000000 <= interval < 3601000000000)%Z).
Proof.
  intros m t0 iv Hm Hi. set (times := fun t => (t0 + iv * Z.of_nat t)%Z). assert (S0 : StronglySorted Z.le (map times (seq 0 m))).
  { generalize 0%nat. clear Hm. induction m as [|m IH]; intros s; cbn; constructor; [apply IH|]. rewrite Forall_forall. intros z Hz. apply in_map_iff in Hz. destruct Hz as (i & <- & Hs). apply in_seq in Hs. unfold times. nia. }
  assert (N : forall i, (i < m)%nat -> nth_error (map times (seq 0 m)) i = Some (times i)).
  { intros i Hl. rewrite nth_error_map, (nth_error_nth' _ 0%nat) by (rewrite seq_length; exact Hl). rewrite seq_nth by exact Hl. reflexivity. }
  assert (D : forall i a b, (i + 2 < m)%nat -> nth_error (map times (seq 0 m)) i = Some a -> nth_error (map times (seq 0 m)) (S i) = Some b -> (b - a = iv)%Z).
  { intros i a b Hl Ha Hb. rewrite N in Ha, Hb by lia. injection Ha as <-. injection Hb as <-. unfold times. nia. }
  split.
  - intros [H|H]; [lia|]. destruct (H _ (Permutation_refl _) S0) as (d & Hd & (i & a & b & Hl & Ha & Hb & E) & _). rewrite (D i a b Hl Ha Hb) in E. lia.
  - intros H. right. intros idx P S1. assert (E : idx = map times (seq 0 m)) by (apply zsorted_unique; [exact S1|exact S0|apply Permutation_sym, P]). rewrite E. exists iv. split; [exact H|]. split.
    + exists 0%nat, (times 0%nat), (times 1%nat). rewrite !N by lia. repeat split; try lia. unfold times. lia.
    + intros i a b Hl Ha Hb. rewrite (D i a b Hl Ha Hb). lia.
Qed.
Print Assumptions C130_regular.

(** A factor's profile: drawn with the daily means of its contributions for hourly
    data; AttributeError and no figure otherwise. *)
Theorem C130_profile : forall (m : nat) (times : nat -> Z) (i f : Z) (s : Show_Model.solution) (oH oW : option mat) (W : mat),
  Show_Model.s_m s = m -> W = match oW with Some x => x | None => Show_Model.s_W s end ->
  let p := Z.to_nat (f - 1) in
  (factor_profile m times (Some i) s f oH oW = Nothing <-> ~ (1 <= f <= Z.of_nat (Show_Model.s_k s))%Z) /\
  ((1 <= f <= Z.of_nat (Show_Model.s_k s))%Z -> ~ hourly m times -> forall sel, factor_profile m times sel s f oH oW = Fails None AttrErr) /\
  ((1 <= f <= Z.of_nat (Show_Model.s_k s))%Z -> hourly m times ->
   exists shares bars contr ser, factor_profile m times (Some i) s f oH oW = Drawn (Some (i + 1)%Z) (f, shares, bars) ser /\
     Show_Model.plot_factor_profile (Some i) s f oH oW = Show_Model.Shown (Some (i + 1)%Z) (f, shares, bars, contr) /\
     (rsum m (fun u => W u p) <> 0 -> daily_means (fun t => (t < m)%nat) times (fun t => Fin (W t p / (rsum m (fun u => W u p) / INR m))) ser)).
Proof.
  intros m times i f s oH oW W Em EW p. destruct (Show_Props.C105_profile i f s oH oW _ W eq_refl EW) as [N G].
  assert (Hb : Show_Model.bad_factor (Show_Model.s_k s) f = true <-> ~ (1 <= f <= Z.of_nat (Show_Model.s_k s))%Z) by (unfold Show_Model.bad_factor; rewrite orb_true_iff, !Z.ltb_lt; lia).
  unfold factor_profile. split; [|split].
  - destruct (Show_Model.bad_factor (Show_Model.s_k s) f) eqn:B; [split; [intros _; apply Hb; reflexivity|reflexivity]|]. split; [|intros X; apply Hb in X; discriminate].
    destruct (step m times); [discriminate|]. destruct (Show_Model.plot_factor_profile (Some i) s f oH oW) as [| |nb [[[? ?] ?] ?]] eqn:E; try discriminate. intros _. apply N. reflexivity.
  - intros Hf Hh sel. destruct (Show_Model.bad_factor (Show_Model.s_k s) f) eqn:B; [destruct (proj1 Hb eq_refl Hf)|]. rewrite step_not by exact Hh. reflexivity.
  - intros Hf Hh. destruct (Show_Model.bad_factor (Show_Model.s_k s) f) eqn:B; [destruct (proj1 Hb eq_refl Hf)|]. rewrite (proj2 (step_hourly m times) Hh).
    destruct (G p) as (shares & bars & contr & E & _ & _ & L & _ & _ & C); [unfold p; lia|unfold p; lia|]. rewrite E. exists shares, bars, contr, (resampled m times contr). split; [reflexivity|]. split; [reflexivity|].
    intros Hs. apply resampled_spec; [congruence|]. intros t Ht. rewrite Em in C. apply C; assumption.
Qed.
Print Assumptions C130_profile.

(** The contributions to a feature: the pie is shown; the series only for hourly data. *)
Theorem C130_contributions : forall (m : nat) (times : nat -> Z) (i : Z) (s : Show_Model.solution) (j : nat) (c : R),
  Show_Model.s_m s = m -> (0 < Show_Model.s_k s)%nat -> (j < Show_Model.s_n s)%nat -> 0 <= c ->
  exists slices l, Show_Model.plot_contributions (Some i) s (Z.of_nat j) c = Show_Model.Shown (Some (i + 1)%Z) (slices, l) /\
    (~ hourly m times -> factor_contributions m times (Some i) s (Z.of_nat j) c = Fails (Some slices) AttrErr) /\
    (hourly m times -> exists sers, factor_contributions m times (Some i) s (Z.of_nat j) c = Drawn (Some (i + 1)%Z) slices sers /\ List.length sers = Show_Model.s_k s /\
       forall p, (p < Show_Model.s_k s)%nat -> rsum m (fun u => Show_Model.s_W s u p) <> 0 ->
         exists ser, nth_error sers p = Some ((Z.of_nat p + 1)%Z, ser) /\
           daily_means (fun t => (t < m)%nat) times (fun t => Fin (100 * (Show_Model.s_W s t p / rsum m (fun u => Show_Model.s_W s u p)))) ser).
Proof.
  intros m times i s j c Em Hk Hj Hc. destruct (Show_Props.C105_other_factor_plots i s Hk) as (_ & _ & G). destruct (G j c Hj Hc) as (slices & l & E & _ & L & C). exists slices, l. split; [exact E|]. unfold factor_contributions. rewrite E. split.
  - intros Hh. rewrite step_not by exact Hh. reflexivity.
  - intros Hh. rewrite (proj2 (step_hourly m times) Hh). eexists. split; [reflexivity|]. split; [rewrite map_length; exact L|]. intros p Hp Hs. destruct (C p Hp) as (v & Ev & Cv).
    exists (resampled m times v). split; [rewrite nth_error_map, Ev; reflexivity|].
    assert (Lv : List.length v = m). { unfold Show_Model.plot_contributions in E. destruct (_ || _)%bool in E; [discriminate|]. destruct (Analysis_Model.threshold_rejected c) in E; [discriminate|]. injection E as _ <-.
      rewrite nth_error_map in Ev. destruct (nth_error (seq 0 (Show_Model.s_k s)) p); [|discriminate]. injection Ev as _ <-. unfold Show_Model.row. rewrite map_length, seq_length. exact Em. }
    apply resampled_spec; [exact Lv|]. intros t Ht. rewrite Cv by lia. f_equal. rewrite Em. unfold Analysis_Model.percent_contribution, fdiv. destruct (Req_EM_T _ 0); [contradiction|]. cbn [fmul]. reflexivity.
Qed.
Print Assumptions C130_contributions.

(** Observed and estimated values of a feature.  The estimates are kept in the
    analysis object even when the plot fails. *)
Theorem C130_estimated : forall (name : Type) (eqb : name -> name -> bool) (features : list name) (obs : mat) (m : nat) (times : nat -> Z) (a : Show_Model.analysis) (i : Z) idx nm j x,
  Show_Model.a_sel a = Some i -> Analysis_Model.choose_feature eqb features idx nm = Some (j, x) ->
  (~ hourly m times -> exists a', estimated m times eqb features obs a idx nm = (a', Fails None AttrErr) /\
     Show_Model.a_sol a' = Show_Model.a_sol a /\ exists c, Show_Model.a_cache a' = Some c /\ forall t j, c t j = Show_Model.shown_estimate a t j) /\
  (hourly m times -> exists a' ds o p r, estimated m times eqb features obs a idx nm = (a', Drawn (Some (i + 1)%Z) ds (o, p, r)) /\
     List.length o = List.length ds /\ List.length p = List.length ds /\ List.length r = List.length ds /\
     daily_means (fun t => (t < m)%nat) times (fun t => Fin (obs t j)) (combine ds o) /\
     daily_means (fun t => (t < m)%nat) times (fun t => Fin (Show_Model.shown_estimate a t j)) (combine ds p) /\
     forall q u v, nth_error o q = Some (Fin u) -> nth_error p q = Some (Fin v) -> nth_error r q = Some (Fin (u - v))).
Proof.
  intros name eqb features obs m times a i idx nm j x Hs Hc. unfold estimated. rewrite Hc. split.
  - intros Hh. rewrite step_not by exact Hh. exists (Show_Model.fill a). split; [reflexivity|]. split; [reflexivity|]. eexists. split; [reflexivity|]. intros t c. reflexivity.
  - intros Hh. rewrite (proj2 (step_hourly m times) Hh). unfold Show_Model.estimated_timeseries. rewrite Hc, Hs. cbn [Show_Model.titled]. set (bins := map (samples times (seq 0 m)) (days times (seq 0 m))).
    do 5 eexists. split; [reflexivity|].
    assert (Lb : List.length bins = List.length (days times (seq 0 m))) by apply map_length.
    split; [rewrite map_length; exact Lb|]. split; [rewrite map_length; exact Lb|]. split; [rewrite map_length, combine_length, !map_length, Nat.min_id; exact Lb|].
    assert (D : forall f, daily_means (fun t => (t < m)%nat) times (fun t => Fin (f t)) (combine (days times (seq 0 m)) (map (Show_Model.bin_mean f) bins))).
    { intros f. assert (E : combine (days times (seq 0 m)) (map (Show_Model.bin_mean f) bins) = daily times (seq 0 m) (fun t => Fin (f t))).
      { clear Lb. unfold bins, daily. rewrite map_map. clear bins. induction (days times (seq 0 m)) as [|d l IH]; [reflexivity|]. cbn [map combine]. assert (X : Show_Model.bin_mean f (samples times (seq 0 m) d) = skipmean (map (fun t => Fin (f t)) (samples times (seq 0 m) d))); [|rewrite X; f_equal; apply IH].
        clear. unfold Show_Model.bin_mean. destruct (samples times (seq 0 m) d) as [|t0 r0]; [reflexivity|]. rewrite <- (map_map f Fin). rewrite skipmean_fin by discriminate. rewrite map_length. reflexivity. }
      rewrite E. eapply daily_means_ext; [| |apply daily_spec, seq_NoDup]; cbv beta; [intros t; rewrite in_seq; lia|reflexivity]. }
    split; [apply D|]. split; [apply D|].
    intros q u v Hu Hv. assert (G : forall (l1 l2 : list fl) q, nth_error l1 q = Some (Fin u) -> nth_error l2 q = Some (Fin v) -> nth_error (map (fun z => fsub (fst z) (snd z)) (combine l1 l2)) q = Some (Fin (u - v))).
    { clear. induction l1 as [|y1 l1 IH]; intros [|y2 l2] [|q] A B; try discriminate; cbn in A, B |- *; [injection A as ->; injection B as ->; reflexivity|apply IH; assumption]. }
    apply G; assumption.
Qed.
Print Assumptions C130_estimated.

(** A constrained model: the profile is shown, base and constrained contributions
    only for hourly data. *)
Theorem C130_constrained_profile : forall (m n k : nat) (times : nat -> Z) (bW bH : mat) (s : Report_Model.cmodel) (o : Report_Model.sol) (mp : list Expr_Model.entry) (f : Z),
  Report_Model.m_sol s = Some o -> Report_Model.m_mapped s = Some mp -> (1 <= f <= Z.of_nat k)%Z ->
  (forall e, In e mp -> Expr_Model.e_i e = (f - 1)%Z -> (- Z.of_nat n <= Expr_Model.e_j e < Z.of_nat n)%Z) ->
  let p := Z.to_nat (f - 1) in
  exists fig, Report_Model.plot_profile m n k bW bH s (Some f) = inr fig /\
    (~ hourly m times -> constrained_profile m times n k bW bH s (Some f) = Fails (Some fig) AttrErr) /\
    (hourly m times -> exists base new, constrained_profile m times n k bW bH s (Some f) = Drawn None fig (base, new) /\
       forall W ser, (W, ser) = (bW, base) \/ (W, ser) = (Report_Model.o_W o, new) -> rsum m (fun u => W u p) <> 0 -> (0 < m)%nat ->
         daily_means (fun t => (t < m)%nat) times (fun t => Fin (W t p / (rsum m (fun u => W u p) / INR m))) ser).
Proof.
  intros m n k times bW bH s o mp f So Mp Hf He p. destruct (ConPlot_Props.C114_profile_contributions m n k bW bH s o mp f So Mp He) as [_ G]. destruct (G Hf) as (fig & base & new & E & _ & _ & _ & _ & C).
  exists fig. assert (E1 : Report_Model.plot_profile m n k bW bH s (Some f) = inr fig).
  { unfold Report_Model.plot_profile_contributions in E. rewrite So in E. destruct (_ || _)%bool in E; [discriminate|]. destruct (Report_Model.plot_profile m n k bW bH s (Some f)) as [e|q]; [discriminate|].
    destruct (Report_Model.plot_contributions m k bW s (Some f)) as [e|c]; [discriminate|]. injection E as -> _. reflexivity. }
  split; [exact E1|]. unfold constrained_profile. rewrite E. split; [intros Hh; rewrite step_not by exact Hh; reflexivity|]. intros Hh. rewrite (proj2 (step_hourly m times) Hh). do 2 eexists. split; [reflexivity|].
  assert (L : List.length base = m /\ List.length new = m).
  { unfold Report_Model.plot_profile_contributions in E. rewrite So, E1 in E. destruct (_ || _)%bool in E; [discriminate|]. unfold Report_Model.plot_contributions in E. rewrite So in E. destruct (Constr_Model.py_index k (f - 1)); [|discriminate].
    injection E as <- <-. unfold Report_Model.row. rewrite !map_length, seq_length. split; reflexivity. }
  intros W ser Q Hs Hm. assert (Im : 0 < INR m) by (apply lt_0_INR; exact Hm).
  destruct Q as [Q|Q]; injection Q as -> ->.
  - destruct (C bW base (or_introl eq_refl) Hs Hm) as (x & Cx & _). apply resampled_spec; [apply L|]. intros t Ht. destruct (Cx t Ht) as [-> Ex]. do 2 f_equal. fold p in Ex. rewrite <- Ex. field. split; [lra|exact Hs].
  - destruct (C (Report_Model.o_W o) new (or_intror eq_refl) Hs Hm) as (x & Cx & _). apply resampled_spec; [apply L|]. intros t Ht. destruct (Cx t Ht) as [-> Ex]. do 2 f_equal. fold p in Ex. rewrite <- Ex. field. split; [lra|exact Hs].
Qed.
Print Assumptions C130_constrained_profile.
Theorem C130_constrained_contributions : forall (m n k : nat) (times : nat -> Z) (s : Report_Model.cmodel) (o : Report_Model.sol) (x : Z) (c : R),
  Report_Model.m_sol s = Some o -> (1 <= x <= Z.of_nat n)%Z -> let j := Z.to_nat (x - 1) in rsum k (fun a => Report_Model.o_H o a j) <> 0 ->
  exists pie l, Report_Model.plot_factor_contributions m n k s (Some x) c = inr (Some (j, pie, l)) /\
    (~ hourly m times -> constrained_contributions m times n k s (Some x) c = Fails (Some (j, pie)) AttrErr) /\
    (hourly m times -> exists sers, constrained_contributions m times n k s (Some x) c = Drawn None (j, pie) sers /\ List.length sers = k /\
       forall a, (a < k)%nat -> rsum m (fun t => Report_Model.o_W o t a) <> 0 ->
         exists ser, nth_error sers a = Some ((Z.of_nat a + 1)%Z, ser) /\
           daily_means (fun t => (t < m)%nat) times (fun t => Fin (100 * (Report_Model.o_W o t a / rsum m (fun t => Report_Model.o_W o t a)))) ser).
Proof.
  intros m n k times s o x c So Hx j Hj. destruct (ConPlot_Props.C114_factor_contributions m n k s o c So) as (_ & _ & G). destruct (G x Hx Hj) as (pie & l & E & _ & C & L). fold j in E. exists pie, l. split; [exact E|].
  unfold constrained_contributions. rewrite E. split; [intros Hh; rewrite step_not by exact Hh; reflexivity|]. intros Hh. rewrite (proj2 (step_hourly m times) Hh). eexists. split; [reflexivity|]. split; [rewrite map_length; exact L|].
  intros a Ha Hs. destruct (C a Ha Hs) as (v & Ev & Cv). exists (resampled m times v). split; [rewrite nth_error_map, Ev; reflexivity|].
  assert (Lv : List.length v = m). { unfold Report_Model.plot_factor_contributions in E. destruct (_ || _)%bool in E; [discriminate|]. rewrite So in E. injection E as _ <-.
    rewrite nth_error_map in Ev. destruct (nth_error (seq 0 k) a); [|discriminate]. injection Ev as _ <-. unfold Report_Model.row. rewrite map_length, seq_length. reflexivity. }
  apply resampled_spec; [exact Lv|exact Cv].
Qed.
Print Assumptions C130_constrained_contributions.

(** The handler's time series of its features: daily means whatever the interval,
    over the samples without a missing value in any feature, shown or not. *)
Theorem C130_feature_timeseries : forall (m n : nat) (times : nat -> Z) (data : nat -> nat -> fl) (sel : Align_Model.selection) (l : list nat),
  Align_Model.plot_feature_timeseries true m n sel = Align_Model.Features l ->
  exists sers, feature_timeseries m times true n data sel = inr sers /\ map fst sers = l /\
    forall j ser, In (j, ser) sers -> daily_means (fun t => (t < m)%nat /\ forall c, (c < n)%nat -> data t c <> NaN) times (fun t => data t j) ser.
Proof.
  intros m n times data sel l E. unfold feature_timeseries. rewrite E. eexists. split; [reflexivity|]. split; [rewrite map_map; cbn [fst]; apply map_id|].
  intros j ser Hin. apply in_map_iff in Hin. destruct Hin as (j' & Q & _). injection Q as -> Q.
  assert (Es : ser = daily times (filter (complete n data) (seq 0 m)) (fun t => data t j)) by (destruct (min_timestep _) in Q; symmetry; exact Q). rewrite Es.
  eapply daily_means_ext; [| |apply daily_spec, NoDup_filter, seq_NoDup]; cbv beta; [|reflexivity].
  intros t. rewrite filter_In, in_seq. unfold complete. rewrite forallb_forall. split.
  - intros [H1 H2]. split; [lia|]. intros c Hc N. specialize (H2 c). rewrite in_seq, N in H2. cbn in H2. assert (X : false = true) by (apply H2; lia). discriminate.
  - intros [H1 H2]. split; [lia|]. intros c Hc. apply in_seq in Hc. specialize (H2 c). destruct (data t c); try reflexivity. exfalso. apply H2; [lia|reflexivity].
Qed.
Print Assumptions C130_feature_timeseries.

(** Daily data: no profile is drawn for any factor of any model. *)
Theorem C130_daily_data_refuted : exists (m : nat) (times : nat -> Z),
  (forall t, times (S t) = (times t + ns_per_day)%Z) /\
  forall sel s f oH oW, (1 <= f <= Z.of_nat (Show_Model.s_k s))%Z -> Show_Model.s_m s = m -> factor_profile m times sel s f oH oW = Fails None AttrErr.
Proof.
  exists 365%nat, (fun t => (0 + ns_per_day * Z.of_nat t)%Z). split; [intros t; lia|]. intros sel s f oH oW Hf Em.
  destruct (C130_profile 365 (fun t => (0 + ns_per_day * Z.of_nat t)%Z) 0%Z f s oH oW _ Em eq_refl) as (_ & G & _). apply G; [exact Hf|]. rewrite C130_regular by (try lia; unfold ns_per_day; lia). unfold ns_per_day. lia.
Qed.
Print Assumptions C130_daily_data_refuted.
(** Hourly data: a day of 24 samples becomes one point. *)
Theorem C130_hourly_samples_shown_refuted : exists (times : nat -> Z),
  (forall t, times (S t) = (times t + 3600000000000)%Z) /\
  forall s f i oH oW a ser, Show_Model.s_m s = 24%nat -> factor_profile 24 times (Some i) s f oH oW = Drawn (Some (i + 1)%Z) a ser -> List.length ser = 1%nat.
Proof.
  exists (fun t => (0 + 3600000000000 * Z.of_nat t)%Z). split; [intros t; lia|]. intros s f i oH oW a ser Em E. unfold factor_profile in E. destruct (Show_Model.bad_factor _ _); [discriminate|].
  destruct (step _ _); [discriminate|]. destruct (Show_Model.plot_factor_profile _ _ _ _ _) as [| |nb [[[? ?] ?] ?]]; try discriminate. injection E as _ _ <-. unfold resampled, daily. rewrite map_length. vm_compute. reflexivity.
Qed.
Print Assumptions C130_hourly_samples_shown_refuted.
(* a week of hours, one factor with one feature *)
Definition xtp_s := Show_Model.mkSol 168 1 1 (fun _ _ => 1) (fun _ _ => 1) (fun _ _ => 1).
Definition xtp_hours (t : nat) : Z := (0 + 3600000000000 * Z.of_nat t)%Z.
Lemma xtp_hourly : hourly 168 xtp_hours.
Proof. unfold xtp_hours. apply C130_regular; lia. Qed.
Example C130_regular_example : ~ hourly 30 (fun t => (5 + 86400000000000 * Z.of_nat t)%Z).
Proof. rewrite C130_regular by lia. lia. Qed.
Example C130_profile_example := proj2 (proj2 (C130_profile 168 xtp_hours 0 1 xtp_s None None _ eq_refl eq_refl)) ltac:(cbn; lia) xtp_hourly.
Example C130_contributions_example := C130_contributions 168 xtp_hours 0 xtp_s 0 (1 / 10) eq_refl ltac:(cbn; lia) ltac:(cbn; lia) ltac:(lra).
Example C130_feature_timeseries_example :=
  C130_feature_timeseries 168 2 xtp_hours (fun t j => if (t =? j)%nat then NaN else Fin (INR t)) (Align_Model.ByIndex 1) [1%nat] eq_refl.
Example C130_estimated_example :=
  proj2 (C130_estimated nat Nat.eqb [7%nat; 8%nat] (fun t j => INR (t + j)) 168 xtp_hours (Show_Model.mkAna xtp_s (Some 2%Z) None) 2 None (Some 8%nat) 1 8%nat eq_refl eq_refl) xtp_hourly.
Definition xtp_c := Report_Model.mkCM [] [] None (Some []) (Some (Report_Model.mkSol (fun _ _ => 1) (fun _ _ => 2))).
Example C130_constrained_profile_example :=
  C130_constrained_profile 168 1 1 xtp_hours (fun _ _ => 1) (fun _ _ => 1) xtp_c _ [] 1 eq_refl eq_refl ltac:(lia) ltac:(intros e []).
Example C130_constrained_contributions_example :=
  C130_constrained_contributions 168 1 1 xtp_hours xtp_c _ 1 (1 / 10) eq_refl ltac:(lia) ltac:(cbn; lra).

(** Both kinds of data, and a week of hourly samples, for a model of one factor. *)
Example C130_instance : let s := Show_Model.mkSol 168 1 1 (fun _ _ => 1) (fun _ _ => 1) (fun _ _ => 1) in
  let hours := (fun t => (3600000000000 * Z.of_nat t)%Z) in
  hourly 168 (fun t => (0 + 3600000000000 * Z.of_nat t)%Z) /\ ~ hourly 168 (fun t => (0 + 86400000000000 * Z.of_nat t)%Z) /\
  exists a ser, factor_profile 168 hours (Some 0%Z) s 1 None None = Drawn (Some 1%Z) a ser /\ map fst ser = [0; 1; 2; 3; 4; 5; 6]%Z.
Proof.
  intros s hours. split; [apply C130_regular; lia|]. split; [rewrite C130_regular by lia; lia|].
  destruct (C130_profile 168 hours 0%Z 1%Z s None None _ eq_refl eq_refl) as (_ & _ & G). destruct G as (sh & ba & co & ser & E & F & _); [cbn; lia| |].
  { apply step_hourly. vm_compute. reflexivity. }
  exists (1%Z, sh, ba), ser. split; [exact E|]. assert (X : ser = daily hours (seq 0 168) (fun t => nth t co NaN)).
  { unfold factor_profile in E. rewrite F in E. destruct (Show_Model.bad_factor _ _) in E; [discriminate|]. destruct (step _ _) in E; [discriminate|]. injection E as E. symmetry. exact E. }
  rewrite X. unfold daily. rewrite map_map. cbn [fst]. rewrite map_id. vm_compute. reflexivity.
Qed.
