(** Properties C105, C106: what the plots of a solution show. *)
From Coq Require Import List Bool ZArith Reals Lra Lia Sorted.
From Verif Require Import Base Fl Boot_Model Analysis_Model Analysis_Props Show_Model.
Import ListNotations.
Local Open Scope R_scope.

Lemma row_nth {A} n (f : nat -> A) j : nth_error (row n f) j = if (j <? n)%nat then Some (f j) else None.
Proof.
  unfold row. destruct (Nat.ltb_spec j n) as [L|L].
  - erewrite map_nth_error; [reflexivity|]. rewrite (nth_error_nth' _ 0%nat) by (rewrite seq_length; exact L). rewrite seq_nth by exact L. reflexivity.
  - apply nth_error_None. rewrite map_length, seq_length. exact L.
Qed.
Lemma row_at {A} n (f : nat -> A) j : (j < n)%nat -> nth_error (row n f) j = Some (f j).
Proof. intros L. rewrite row_nth. apply Nat.ltb_lt in L. rewrite L. reflexivity. Qed.
Lemma row_length {A} n (f : nat -> A) : length (row n f) = n.
Proof. unfold row. rewrite map_length. apply seq_length. Qed.
Lemma bad_factor_spec k f : bad_factor k f = true <-> ~ (1 <= f <= Z.of_nat k)%Z.
Proof. unfold bad_factor. rewrite orb_true_iff, !Z.ltb_lt. lia. Qed.
Lemma bad_factor_ok k f : (1 <= f <= Z.of_nat k)%Z -> bad_factor k f = false.
Proof. intros. destruct (bad_factor k f) eqn:E; [|reflexivity]. apply bad_factor_spec in E. tauto. Qed.

(** ** C105 *)
(** A factor profile (factors count from 1, the title counts models from 1): the
    shares of the features, the mass of the features, the contributions divided by
    their mean; matrices given by the caller replace the model's. *)
Definition mass (m : nat) (W H : mat) (i j : nat) : R := rsum m (fun t => W t i * H i j).
Theorem C105_profile : forall (i f : Z) (s : solution) (oH oW : option mat) (H W : mat),
  H = match oH with Some x => x | None => s_H s end -> W = match oW with Some x => x | None => s_W s end ->
  ((plot_factor_profile (Some i) s f oH oW = Nothing <-> ~ (1 <= f <= Z.of_nat (s_k s))%Z) /\
   forall p, (p < s_k s)%nat -> f = (Z.of_nat p + 1)%Z ->
   exists shares bars contr,
     plot_factor_profile (Some i) s f oH oW = Shown (Some (i + 1)%Z) (f, shares, bars, contr) /\
     length shares = s_n s /\ length bars = s_n s /\ length contr = s_m s /\
     (forall j, (j < s_n s)%nat -> rsum (s_k s) (fun l => H l j) <> 0 -> nth_error shares j = Some (Fin (100 * (H p j / rsum (s_k s) (fun l => H l j))))) /\
     (forall j, (j < s_n s)%nat -> mass (s_m s) W H p j <> 0 -> nth_error bars j = Some (mass (s_m s) W H p j)) /\
     (forall t, (t < s_m s)%nat -> rsum (s_m s) (fun u => W u p) <> 0 -> nth_error contr t = Some (Fin (W t p / (rsum (s_m s) (fun u => W u p) / INR (s_m s)))))).
Proof.
  intros i f s oH oW H W -> ->. split.
  - unfold plot_factor_profile. destruct (bad_factor (s_k s) f) eqn:E.
    + apply bad_factor_spec in E. tauto.
    + split; [discriminate|]. intros N. apply bad_factor_spec in N. congruence.
  - intros p Hp ->. unfold plot_factor_profile. rewrite bad_factor_ok by lia. cbn [titled].
    replace (Z.to_nat (Z.of_nat p + 1 - 1)) with p by lia.
    eexists _, _, _. split; [reflexivity|]. rewrite !row_length. repeat split.
    + intros j Hj Ht. rewrite row_at by exact Hj. f_equal. apply norm_fin. exact Ht.
    + intros j Hj Ht. rewrite row_at by exact Hj. f_equal. unfold conc_sum. destruct (Reqb _ 0) eqn:E; [|reflexivity].
      apply Reqb_iff in E. contradiction.
    + intros t Ht0 Ht. rewrite row_at by exact Ht0. f_equal. unfold profile_contribution, mean, or_else. cbn [fdiv].
      destruct (Req_EM_T _ 0) as [E|]; [|reflexivity]. exfalso. apply Ht.
      assert (INR (s_m s) <> 0) by (apply not_0_INR; lia). apply Rmult_integral in E. destruct E as [E|E]; [exact E|].
      exfalso. revert E. apply Rinv_neq_0_compat. assumption.
Qed.
Print Assumptions C105_profile.

(** All factors: the panels in increasing order; each holds what the plot of that
    factor holds; a list of factors is read as counting from 0. *)
Theorem C105_all_factors : forall (i : Z) (s : solution) (chosen : option (list Z)) (oH oW : option mat),
  exists panels, plot_all_factors (Some i) s chosen oH oW = Shown (Some (i + 1)%Z) panels /\
    StronglySorted Z.lt (map (fun p => fst (fst p)) panels) /\
    (forall f, In f (map (fun p => fst (fst p)) panels) <->
       (1 <= f <= Z.of_nat (s_k s))%Z /\ forall l, chosen = Some l -> In (f - 1)%Z l) /\
    (forall f bars shares, In (f, bars, shares) panels ->
       exists contr, plot_factor_profile (Some i) s f oH oW = Shown (Some (i + 1)%Z) (f, shares, bars, contr)).
Proof.
  intros i s chosen oH oW. unfold plot_all_factors. cbn [titled]. eexists. split; [reflexivity|].
  set (kept := fun i => match chosen with None => true | Some l => existsb (Z.eqb (Z.of_nat i)) l end).
  rewrite map_map. cbn [fst]. split; [|split].
  - assert (G : forall a b, StronglySorted Z.lt (map (fun x => (Z.of_nat x + 1)%Z) (filter kept (seq a b)))).
    { intros a b. revert a. induction b as [|b IH]; intros a; cbn [seq filter]; [constructor|].
      destruct (kept a); [|apply IH]. cbn [map]. constructor; [apply IH|]. apply Forall_forall. intros x Hx.
      apply in_map_iff in Hx. destruct Hx as (y & <- & Hy). apply filter_In in Hy. destruct Hy as [Hy _]. apply in_seq in Hy. lia. }
    apply G.
  - intros f. rewrite in_map_iff. split.
    + intros (p & <- & Hp). apply filter_In in Hp. destruct Hp as [Hp Hk]. apply in_seq in Hp. split; [lia|].
      intros l ->. unfold kept in Hk. apply existsb_exists in Hk. destruct Hk as (x & Hx & E). apply Z.eqb_eq in E. subst x.
      replace (Z.of_nat p + 1 - 1)%Z with (Z.of_nat p) by lia. exact Hx.
    + intros [Hf Hl]. exists (Z.to_nat (f - 1)). split; [lia|]. apply filter_In. split; [apply in_seq; lia|].
      unfold kept. destruct chosen as [l|]; [|reflexivity]. apply existsb_exists. exists (f - 1)%Z. split; [apply Hl; reflexivity|]. apply Z.eqb_eq. lia.
  - intros f bars shares Hin. apply in_map_iff in Hin. destruct Hin as (p & E & Hp). injection E as <- <- <-.
    apply filter_In in Hp. destruct Hp as [Hp _]. apply in_seq in Hp. unfold plot_factor_profile. rewrite bad_factor_ok by lia.
    cbn [titled]. replace (Z.to_nat (Z.of_nat p + 1 - 1)) with p by lia. eexists. reflexivity.
Qed.
Print Assumptions C105_all_factors.

(** Without a model number (the default of the constructor) every plot with a model
    number in its title raises, whatever is asked for, unless the request is refused. *)
Theorem C105_needs_model_number : forall {name : Type} (eqb : name -> name -> bool) (features : list name) (obs : mat) (s : solution),
  (forall f oH oW, plot_factor_profile None s f oH oW = Raises TypeErr <-> (1 <= f <= Z.of_nat (s_k s))%Z) /\
  (forall l oH oW, plot_all_factors None s l oH oW = Raises TypeErr) /\
  (plot_fingerprints None s = Raises TypeErr <-> s_k s <> 0%nat) /\
  (forall f1 f2, plot_g_space None s f1 f2 = Raises TypeErr <-> (1 <= f1 <= Z.of_nat (s_k s))%Z /\ (1 <= f2 <= Z.of_nat (s_k s))%Z) /\
  (forall j c, plot_contributions None s j c = Raises TypeErr <-> (0 <= j < Z.of_nat (s_n s))%Z /\ 0 <= c) /\
  (forall bins cache idx nm, snd (estimated_timeseries eqb features obs bins (mkAna s None cache) idx nm) = Raises TypeErr <-> choose_feature eqb features idx nm <> None).
Proof.
  intros name eqb features obs s. repeat split.
  - unfold plot_factor_profile in *. destruct (bad_factor (s_k s) f) eqn:E; [discriminate|]. destruct (Z_le_dec 1 f); [lia|]. exfalso.
    assert (bad_factor (s_k s) f = true) by (apply bad_factor_spec; lia). congruence.
  - unfold plot_factor_profile in *. destruct (bad_factor (s_k s) f) eqn:E; [discriminate|].
    destruct (Z_le_dec f (Z.of_nat (s_k s))); [assumption|]. exfalso. assert (bad_factor (s_k s) f = true) by (apply bad_factor_spec; lia). congruence.
  - intros Hf. unfold plot_factor_profile. rewrite bad_factor_ok by exact Hf. reflexivity.
  - intros E E0. unfold plot_fingerprints in E. rewrite E0 in E. discriminate.
  - intros Hk. unfold plot_fingerprints. destruct (s_k s) as [|k]; [contradiction|].
    destruct (map _ (rev (seq 0 (S k)))) eqn:E; [|reflexivity]. apply map_eq_nil in E. apply (f_equal (@length nat)) in E. rewrite rev_length, seq_length in E. discriminate.
  - unfold plot_g_space in *. destruct (bad_factor (s_k s) f1) eqn:E; [discriminate|]. destruct (Z_le_dec 1 f1); [assumption|]. exfalso.
    assert (bad_factor (s_k s) f1 = true) by (apply bad_factor_spec; lia). congruence.
  - unfold plot_g_space in *. destruct (bad_factor (s_k s) f1) eqn:E; [discriminate|]. destruct (Z_le_dec f1 (Z.of_nat (s_k s))); [assumption|]. exfalso.
    assert (bad_factor (s_k s) f1 = true) by (apply bad_factor_spec; lia). congruence.
  - unfold plot_g_space in *. destruct (bad_factor (s_k s) f1) eqn:E0; [discriminate|]. destruct (bad_factor (s_k s) f2) eqn:E; [discriminate|]. destruct (Z_le_dec 1 f2); [assumption|]. exfalso.
    assert (bad_factor (s_k s) f2 = true) by (apply bad_factor_spec; lia). congruence.
  - unfold plot_g_space in *. destruct (bad_factor (s_k s) f1) eqn:E0; [discriminate|]. destruct (bad_factor (s_k s) f2) eqn:E; [discriminate|]. destruct (Z_le_dec f2 (Z.of_nat (s_k s))); [assumption|]. exfalso.
    assert (bad_factor (s_k s) f2 = true) by (apply bad_factor_spec; lia). congruence.
  - intros [Hf1 Hf2]. unfold plot_g_space. rewrite !bad_factor_ok by assumption. reflexivity.
  - unfold plot_contributions in *. destruct ((_ <? _) || (_ <? _))%Z eqn:E; [discriminate|]. apply orb_false_elim in E. destruct E as [E1 E2]. apply Z.ltb_ge in E1, E2. assumption.
  - unfold plot_contributions in *. destruct ((_ <? _) || (_ <? _))%Z eqn:E; [discriminate|]. apply orb_false_elim in E. destruct E as [E1 E2]. apply Z.ltb_ge in E1, E2. lia.
  - unfold plot_contributions in *. destruct ((_ <? _) || (_ <? _))%Z eqn:E; [discriminate|]. unfold threshold_rejected in *.
    destruct (Rltb c 50) eqn:E1; destruct (Rltb c 0) eqn:E2; cbn [andb] in *; try discriminate; try (apply Rltb_false in E2; lra).
    apply Rltb_false in E1. lra.
  - intros [Hj Hc]. unfold plot_contributions. replace (((Z.of_nat (s_n s) - 1 <? j) || (j <? 0))%Z) with false by (symmetry; apply orb_false_intro; apply Z.ltb_ge; lia).
    unfold threshold_rejected. rewrite (proj2 (Rltb_false c 0)) by lra. rewrite andb_false_r. reflexivity.
  - intros D E. unfold estimated_timeseries in D. rewrite E in D. discriminate.
  - intros E. unfold estimated_timeseries. destruct (choose_feature eqb features idx nm) as [[j x]|]; [reflexivity|contradiction].
Qed.
Print Assumptions C105_needs_model_number.

(** With a model number: fingerprints stack the shares from the last factor to the
    first, the G-space plot pairs the two contributions of each sample, the pie has
    the factors above the threshold and the series of all factors follow. *)
Theorem C105_other_factor_plots : forall (i : Z) (s : solution), (0 < s_k s)%nat ->
  (exists bars, plot_fingerprints (Some i) s = Shown (Some (i + 1)%Z) bars /\ length bars = s_k s /\
     forall p, (p < s_k s)%nat -> exists v, nth_error bars (s_k s - 1 - p) = Some ((Z.of_nat p + 1)%Z, v) /\ length v = s_n s /\
       forall j, (j < s_n s)%nat -> nth_error v j = Some (norm_profile (s_k s) (s_H s) p j)) /\
  (forall p q, (p < s_k s)%nat -> (q < s_k s)%nat ->
     exists pts, plot_g_space (Some i) s (Z.of_nat p + 1) (Z.of_nat q + 1) = Shown (Some (i + 1)%Z) pts /\ length pts = s_m s /\
       forall t, (t < s_m s)%nat -> rsum (s_m s) (fun u => s_W s u p) <> 0 -> rsum (s_m s) (fun u => s_W s u q) <> 0 ->
         nth_error pts t = Some (Fin (s_W s t p / rsum (s_m s) (fun u => s_W s u p)), Fin (s_W s t q / rsum (s_m s) (fun u => s_W s u q)))) /\
  (forall j c, (j < s_n s)%nat -> 0 <= c ->
     exists slices series, plot_contributions (Some i) s (Z.of_nat j) c = Shown (Some (i + 1)%Z) (slices, series) /\
       (forall f v, In (f, v) slices <-> (1 <= f <= Z.of_nat (s_k s))%Z /\ v = norm_profile (s_k s) (s_H s) (Z.to_nat (f - 1)) j /\ flt (Fin c) v = true) /\
       length series = s_k s /\
       forall p, (p < s_k s)%nat -> exists v, nth_error series p = Some ((Z.of_nat p + 1)%Z, v) /\
         forall t, (t < s_m s)%nat -> nth_error v t = Some (percent_contribution (s_m s) (s_W s) t p)).
Proof.
  intros i s Hk. split; [|split].
  - unfold plot_fingerprints. set (bars := map _ (rev (seq 0 (s_k s)))).
    assert (L : length bars = s_k s) by (unfold bars; rewrite map_length, rev_length, seq_length; reflexivity).
    exists bars. split; [destruct bars; [cbn in L; lia|reflexivity]|]. split; [exact L|].
    intros p Hp. exists (row (s_n s) (norm_profile (s_k s) (s_H s) p)). split; [|split; [apply row_length|intros j Hj; apply row_at; exact Hj]].
    unfold bars. erewrite map_nth_error; [reflexivity|]. rewrite (nth_error_nth' _ 0%nat) by (rewrite rev_length, seq_length; lia).
    f_equal. rewrite rev_nth by (rewrite seq_length; lia). rewrite seq_length, seq_nth by lia. lia.
  - intros p q Hp Hq. unfold plot_g_space. rewrite !bad_factor_ok by lia. cbn [titled]. eexists. split; [reflexivity|]. split; [apply row_length|].
    intros t Ht H1 H2. rewrite row_at by exact Ht. replace (Z.to_nat (Z.of_nat p + 1 - 1)) with p by lia. replace (Z.to_nat (Z.of_nat q + 1 - 1)) with q by lia.
    unfold gspace_contribution. cbn [fdiv]. destruct (Req_EM_T _ 0); [contradiction|]. destruct (Req_EM_T _ 0); [contradiction|]. reflexivity.
  - intros j c Hj Hc. unfold plot_contributions.
    replace (((Z.of_nat (s_n s) - 1 <? Z.of_nat j) || (Z.of_nat j <? 0))%Z) with false by (symmetry; apply orb_false_intro; apply Z.ltb_ge; lia).
    unfold threshold_rejected. rewrite (proj2 (Rltb_false c 0)) by lra. rewrite andb_false_r. cbn [titled]. rewrite Nat2Z.id.
    eexists _, _. split; [reflexivity|]. split; [|split].
    + intros f v. rewrite in_map_iff. unfold pie. split.
      * intros ((p & w) & E & Hin). cbn [fst snd] in E. injection E as <- <-. apply filter_In in Hin. destruct Hin as [Hin Hc']. cbn [snd] in Hc'.
        apply in_map_iff in Hin. destruct Hin as (x & E & Hx). injection E as <- <-. apply in_rev in Hx. apply in_seq in Hx.
        split; [lia|]. replace (Z.to_nat (Z.of_nat x + 1 - 1)) with x by lia. auto.
      * intros (Hf & -> & Hlt). exists (Z.to_nat (f - 1), norm_profile (s_k s) (s_H s) (Z.to_nat (f - 1)) j). cbn [fst snd]. split; [f_equal; lia|].
        apply filter_In. split; [|exact Hlt]. apply in_map_iff. exists (Z.to_nat (f - 1)). split; [reflexivity|]. apply -> in_rev. apply in_seq. lia.
    + rewrite map_length. apply seq_length.
    + intros p Hp. exists (row (s_m s) (fun t => percent_contribution (s_m s) (s_W s) t p)). split.
      * erewrite map_nth_error; [reflexivity|]. rewrite (nth_error_nth' _ 0%nat) by (rewrite seq_length; exact Hp). rewrite seq_nth by exact Hp. reflexivity.
      * intros t Ht. rewrite row_at by exact Ht. reflexivity.
Qed.
Print Assumptions C105_other_factor_plots.

(** Numbers out of range: nothing is drawn, whether or not the analysis has a model
    number. *)
Theorem C105_out_of_range : forall (sel : option Z) (s : solution),
  (forall f1 f2, plot_g_space sel s f1 f2 = Nothing <-> ~ ((1 <= f1 <= Z.of_nat (s_k s))%Z /\ (1 <= f2 <= Z.of_nat (s_k s))%Z)) /\
  (forall j c, plot_contributions sel s j c = Nothing <-> ~ ((0 <= j < Z.of_nat (s_n s))%Z /\ 0 <= c)).
Proof.
  intros sel s. split.
  - intros f1 f2. unfold plot_g_space, bad_factor, titled.
    destruct (Z.ltb_spec f1 1), (Z.ltb_spec (Z.of_nat (s_k s)) f1), (Z.ltb_spec f2 1), (Z.ltb_spec (Z.of_nat (s_k s)) f2); cbn [orb];
      destruct sel; split; try (intros; lia); try discriminate; intros N; try reflexivity; exfalso; apply N; lia.
  - intros j c. unfold plot_contributions, titled.
    destruct (Z.ltb_spec (Z.of_nat (s_n s) - 1) j), (Z.ltb_spec j 0); cbn [orb]; try (split; [intros _; lia|reflexivity]).
    unfold threshold_rejected. destruct (Rltb c 0) eqn:E.
    + apply Rltb_iff in E. rewrite (proj2 (Rltb_iff c 50)) by lra. cbn [andb]. split; [intros _; lra|reflexivity].
    + apply Rltb_false in E. rewrite andb_false_r. destruct sel; split; try discriminate; intros N; exfalso; apply N; split; [lia|lra|lia|lra].
Qed.
Print Assumptions C105_out_of_range.

(** The 3d plot: masses on a logarithmic scale (of mass + 1) for "conc", an exception
    for "both", shares for anything else. *)
Theorem C105_three_d : forall (s : solution) (oH oW : option mat),
  let H := match oH with Some x => x | None => s_H s end in let W := match oW with Some x => x | None => s_W s end in
  plot_3d s Both oH oW = Raises IndexErr /\
  (exists bars, plot_3d s Conc oH oW = Shown None bars /\ length bars = s_k s /\
     forall p, (p < s_k s)%nat -> exists v, nth_error bars p = Some ((Z.of_nat p + 1)%Z, v) /\ length v = s_n s /\
       forall j, (j < s_n s)%nat -> 0 < mass (s_m s) W H p j ->
         exists h, nth_error v j = Some (Fin h) /\ 0 < h /\ Rpower 10 h = mass (s_m s) W H p j + 1) /\
  (exists bars, plot_3d s Other oH oW = Shown None bars /\ length bars = s_k s /\
     forall p, (p < s_k s)%nat -> exists v, nth_error bars p = Some ((Z.of_nat p + 1)%Z, v) /\
       forall j, (j < s_n s)%nat -> nth_error v j = Some (norm_profile (s_k s) H p j)).
Proof.
  intros s oH oW H W.
  assert (Hn : forall {A} (g : nat -> A) p, (p < s_k s)%nat -> nth_error (map g (seq 0 (s_k s))) p = Some (g p)).
  { intros A g p Hp. apply (row_at (s_k s) g p Hp). }
  assert (L10 : 0 < ln 10) by (rewrite <- ln_1; apply ln_increasing; lra).
  split; [reflexivity|]. split.
  - eexists. split; [reflexivity|]. cbn [hd]. split; [rewrite map_length; apply seq_length|]. intros p Hp. eexists. split; [rewrite Hn by exact Hp; reflexivity|].
    split; [apply row_length|]. intros j Hj Hm. exists (log10 (mass (s_m s) W H p j + 1)). split; [|split].
    + rewrite row_at by exact Hj. do 3 f_equal. unfold conc_sum. fold (mass (s_m s) (or_else oW (s_W s)) (or_else oH (s_H s)) p j).
      change (or_else oW (s_W s)) with W. change (or_else oH (s_H s)) with H. destruct (Reqb _ 0) eqn:E; [|reflexivity]. apply Reqb_iff in E. lra.
    + unfold log10. apply Rdiv_lt_0_compat; [|exact L10]. rewrite <- ln_1. apply ln_increasing; lra.
    + unfold Rpower, log10. replace (ln (mass (s_m s) W H p j + 1) / ln 10 * ln 10) with (ln (mass (s_m s) W H p j + 1)) by (field; lra). apply exp_ln. lra.
  - eexists. split; [reflexivity|]. cbn [hd]. split; [rewrite map_length; apply seq_length|]. intros p Hp. eexists. split; [rewrite Hn by exact Hp; reflexivity|].
    intros j Hj. apply row_at. exact Hj.
Qed.
Print Assumptions C105_three_d.

(** The surface: with a factor, the feature is not looked at (beyond its range); low
    values are blanked and the ticks are the features with a value left; with a feature
    alone nothing is blanked. *)
Theorem C105_surface : forall (s : solution) (percentage : bool) (zero : R) (h : nat -> nat -> nat -> fl),
  (forall i t j, h i t j = if percentage then fdiv (Fin (s_W s t i * s_H s i j)) (Fin (s_V s t j)) else Fin (s_W s t i * s_H s i j)) ->
  (forall factor feature, plot_surface s factor feature percentage zero = Nothing <->
     (factor = None /\ feature = None) \/ (exists f, factor = Some f /\ ~ (1 <= f <= Z.of_nat (s_k s))%Z) \/
     (exists j, feature = Some j /\ ~ (1 <= j <= Z.of_nat (s_n s))%Z)) /\
  (forall p feature, (p < s_k s)%nat -> (forall j, feature = Some j -> (1 <= j <= Z.of_nat (s_n s))%Z) ->
     exists z ticks, plot_surface s (Some (Z.of_nat p + 1)%Z) feature percentage zero = Shown None (OfFactor (Z.of_nat p + 1) z ticks) /\
       length z = s_m s /\
       (forall t j, (t < s_m s)%nat -> (j < s_n s)%nat -> exists r, nth_error z t = Some r /\
          nth_error r j = Some (if flt (h p t j) (Fin zero) then NaN else h p t j)) /\
       StronglySorted lt ticks /\
       forall j, In j ticks <-> (j < s_n s)%nat /\ exists t, (t < s_m s)%nat /\ h p t j <> NaN /\ flt (h p t j) (Fin zero) = false) /\
  (forall j, (j < s_n s)%nat -> exists z, plot_surface s None (Some (Z.of_nat j + 1)%Z) percentage zero = Shown None (OfFeature j z) /\
     length z = s_m s /\
     forall t p, (t < s_m s)%nat -> (p < s_k s)%nat -> exists r, nth_error z t = Some r /\ nth_error r p = Some (h p t j)).
Proof.
  intros s percentage zero h Hh.
  assert (EH : forall i t j, height s percentage i t j = h i t j) by (intros; rewrite Hh; reflexivity).
  assert (FB : forall j, ((j <? 1) || (Z.of_nat (s_n s) <? j))%Z = true <-> ~ (1 <= j <= Z.of_nat (s_n s))%Z).
  { intros j. rewrite orb_true_iff, !Z.ltb_lt. lia. }
  assert (FG : forall j, (1 <= j <= Z.of_nat (s_n s))%Z -> ((j <? 1) || (Z.of_nat (s_n s) <? j))%Z = false).
  { intros j Hj. apply orb_false_intro; apply Z.ltb_ge; lia. }
  split; [|split].
  - intros factor feature. split.
    + intros E. destruct factor as [f|]; [|destruct feature as [j|]; [|left; auto]].
      * unfold plot_surface in E. destruct (bad_factor (s_k s) f) eqn:B; [right; left; exists f; split; [reflexivity|apply bad_factor_spec; exact B]|].
        destruct feature as [j|]; [|discriminate]. destruct (_ || _) eqn:C in E; [|discriminate]. right. right. exists j. split; [reflexivity|]. apply FB. exact C.
      * unfold plot_surface in E. destruct (_ || _) eqn:C in E; [|discriminate]. right. right. exists j. split; [reflexivity|]. apply FB. exact C.
    + intros [[-> ->]|[(f & -> & N)|(j & -> & N)]]; [reflexivity| |].
      * unfold plot_surface. rewrite (proj2 (bad_factor_spec (s_k s) f) N). reflexivity.
      * unfold plot_surface. rewrite (proj2 (FB j) N). destruct factor as [f|]; [destruct (bad_factor (s_k s) f)|]; reflexivity.
  - intros p feature Hp Hf. unfold plot_surface. rewrite bad_factor_ok by lia.
    replace (match feature with Some j => ((j <? 1) || (Z.of_nat (s_n s) <? j))%Z | None => false end) with false by (destruct feature as [j|]; [symmetry; apply FG; apply Hf; reflexivity|reflexivity]).
    replace (Z.to_nat (Z.of_nat p + 1 - 1)) with p by lia. cbv zeta. eexists _, _. split; [reflexivity|]. split; [apply row_length|]. split; [|split].
    + intros t j Ht Hj. eexists. split; [apply row_at; exact Ht|]. rewrite row_at by exact Hj. rewrite EH. reflexivity.
    + assert (G : forall g a b, StronglySorted lt (filter g (seq a b))).
      { intros g a b. revert a. induction b as [|b IH]; intros a; cbn [seq filter]; [constructor|].
        destruct (g a); [|apply IH]. constructor; [apply IH|]. apply Forall_forall. intros x Hx. apply filter_In in Hx. destruct Hx as [Hx _]. apply in_seq in Hx. lia. }
      apply G.
    + intros j. rewrite filter_In, in_seq, negb_true_iff.
      assert (E : forall l, forallb (fun t => is_nan (if flt (height s percentage p t j) (Fin zero) then NaN else height s percentage p t j)) l = false <->
                  exists t, In t l /\ h p t j <> NaN /\ flt (h p t j) (Fin zero) = false).
      { induction l as [|t l IH]; cbn [forallb].
        - split; [discriminate|]. intros (t & [] & _).
        - rewrite EH. destruct (flt (h p t j) (Fin zero)) eqn:B; [|destruct (h p t j) eqn:C]; cbn [is_nan andb].
          + rewrite IH. split; [intros (u & Hu & R); exists u; split; [right; exact Hu|exact R]|intros (u & [<-|Hu] & N & R); [congruence|exists u; auto]].
          + split; [intros _; exists t; rewrite C; split; [left; reflexivity|split; [discriminate|exact B]]|reflexivity].
          + split; [intros _; exists t; rewrite C; split; [left; reflexivity|split; [discriminate|exact B]]|reflexivity].
          + split; [intros _; exists t; rewrite C; split; [left; reflexivity|split; [discriminate|exact B]]|reflexivity].
          + rewrite IH. split; [intros (u & Hu & R); exists u; split; [right; exact Hu|exact R]|intros (u & [<-|Hu] & N & R); [congruence|exists u; auto]]. }
      rewrite E. split; [intros [Hj (t & Ht & R)]; split; [lia|exists t; apply in_seq in Ht; split; [lia|exact R]]|intros [Hj (t & Ht & R)]; split; [lia|exists t; split; [apply in_seq; lia|exact R]]].
  - intros j Hj. unfold plot_surface. rewrite FG by lia. cbn [or_else]. replace (Z.to_nat (Z.of_nat j + 1 - 1)) with j by lia.
    eexists. split; [reflexivity|]. split; [apply row_length|]. intros t p Ht Hp. eexists. split; [apply row_at; exact Ht|]. rewrite row_at by exact Hp. rewrite EH. reflexivity.
Qed.
Print Assumptions C105_surface.

(** The composition plot: the fraction of each feature's total in each factor. *)
Theorem C105_composition : forall (s : solution),
  exists bars, plot_composition s = Shown None bars /\ length bars = s_k s /\
    forall p, (p < s_k s)%nat -> exists v, nth_error bars p = Some ((Z.of_nat p + 1)%Z, v) /\ length v = s_n s /\
      forall j, (j < s_n s)%nat -> rsum (s_k s) (fun l => s_H s l j) <> 0 ->
        nth_error v j = Some (Fin (s_H s p j / rsum (s_k s) (fun l => s_H s l j))).
Proof.
  intros s. eexists. split; [reflexivity|]. rewrite map_length, seq_length. split; [reflexivity|]. intros p Hp.
  exists (row (s_n s) (composition (s_k s) (s_H s) p)). split; [|split; [apply row_length|]].
  - exact (row_at (s_k s) (fun i => ((Z.of_nat i + 1)%Z, row (s_n s) (composition (s_k s) (s_H s) i))) p Hp).
  - intros j Hj Ht. rewrite row_at by exact Hj. unfold composition, fdiv. destruct (Req_EM_T _ 0); [contradiction|reflexivity].
Qed.
Print Assumptions C105_composition.

Definition ex_sol : solution := mkSol 2 2 2 (fun t i => INR (t + i + 1)) (fun i j => INR (i + 2 * j + 1)) (fun _ _ => 10).
(** plot_all_factors with a list of factors shows the factors of those numbers. *)
Theorem C105_factor_list_refuted :
  ~ (forall (i f : Z) (s : solution), (1 <= f <= Z.of_nat (s_k s))%Z ->
       exists bars shares, plot_all_factors (Some i) s (Some [f]) None None = Shown (Some (i + 1)%Z) [(f, bars, shares)]).
Proof. intros A. destruct (A 0%Z 2%Z ex_sol ltac:(cbn; lia)) as (b & sh & E). vm_compute in E. discriminate E. Qed.
Print Assumptions C105_factor_list_refuted.
(** plot_type may be "profile", "conc" or "both". *)
Theorem C105_both_refuted : ~ (exists (s : solution) (oH oW : option mat) number bars, plot_3d s Both oH oW = Shown number bars).
Proof. intros (s & oH & oW & number & bars & E). discriminate E. Qed.
Print Assumptions C105_both_refuted.
Example C105_profile_example := C105_profile 3 2 ex_sol None None _ _ eq_refl eq_refl.
Example C105_all_factors_example := C105_all_factors 3 ex_sol (Some [1%Z; 7%Z]) None None.
Example C105_needs_model_number_example := C105_needs_model_number Nat.eqb [7; 8]%nat (fun _ _ => 10) ex_sol.
Example C105_other_factor_plots_example := C105_other_factor_plots 3 ex_sol ltac:(cbn; lia).
Example C105_out_of_range_example : plot_g_space (Some 3%Z) ex_sol 1 3 = Nothing.
Proof. apply (C105_out_of_range (Some 3%Z) ex_sol). cbn. lia. Qed.
Example C105_three_d_example := C105_three_d ex_sol None None.
Example C105_surface_example := C105_surface ex_sol false (1 / 10) _ (fun _ _ _ => eq_refl).
Example C105_composition_example := C105_composition ex_sol.
(** "the feature to include in the plot": a feature given with the default factor *)
Theorem C105_feature_surface_refuted :
  ~ (forall (s : solution) (j : Z), (0 < s_k s)%nat -> (1 <= j <= Z.of_nat (s_n s))%Z ->
       exists z, plot_surface s (Some 1%Z) (Some j) true (/ 10000) = Shown None (OfFeature (Z.to_nat (j - 1)) z)).
Proof.
  intros A. destruct (A ex_sol 2%Z ltac:(cbn; lia) ltac:(cbn; lia)) as (z & E). unfold plot_surface in E. cbn [s_k s_n ex_sol bad_factor orb Z.ltb Z.of_nat] in E. discriminate E.
Qed.
Print Assumptions C105_feature_surface_refuted.
Example C105_instance :
  (2 < 3 /\ s_k ex_sol = 2 /\ s_n ex_sol = 2)%nat /\ (1 <= 2 <= Z.of_nat (s_k ex_sol))%Z /\
  rsum (s_k ex_sol) (fun l => s_H ex_sol l 1%nat) = 7 /\ mass (s_m ex_sol) (s_W ex_sol) (s_H ex_sol) 1 1 = 20.
Proof. split; [cbn; lia|]. split; [cbn; lia|]. unfold mass. cbn. split; lra. Qed.

(** ** C106 *)
Lemma mean_sum n x : (0 < n)%nat -> rsum n x = INR n * mean n x.
Proof. intros Hn. unfold mean. field. apply not_0_INR. lia. Qed.
Lemma cov_zero_const n x : cov n x x = 0 -> forall t, (t < n)%nat -> x t = mean n x.
Proof.
  intros E t Ht. unfold cov in E. assert (Z : (x t - mean n x) * (x t - mean n x) = 0).
  { apply Rle_antisym; [|apply Rle_0_sqr]. rewrite <- E. apply (rsum_ge_term n (fun i => (x i - mean n x) * (x i - mean n x)) t); [intros; apply Rle_0_sqr|exact Ht]. }
  apply Rmult_integral in Z. lra.
Qed.
Lemma sum_dev n x : (0 < n)%nat -> rsum n (fun t => x t - mean n x) = 0.
Proof. intros Hn. rewrite rsum_minus. rewrite mean_sum by exact Hn. rewrite rsum_const. ring. Qed.
(** Least-squares residuals add to zero, plain and weighted by x. *)
Lemma lstsq_normal n x y : (0 < n)%nat -> let (b, c) := lstsq n x y in
  rsum n (fun t => y t - (b * x t + c)) = 0 /\ rsum n (fun t => (y t - (b * x t + c)) * x t) = 0.
Proof.
  intros Hn. unfold lstsq. destruct (Reqb (cov n x x) 0) eqn:E.
  - apply Reqb_iff in E. pose proof (cov_zero_const n x E) as K. set (c := mean n x) in *.
    assert (S0 : rsum n (fun t => y t - (c * mean n y / (c * c + 1) * x t + mean n y / (c * c + 1))) = 0).
    { rewrite (rsum_ext n _ (fun t => y t - mean n y)); [apply sum_dev; exact Hn|]. intros t Ht. rewrite (K t Ht). field. nra. }
    split; [exact S0|]. rewrite (rsum_ext n _ (fun t => c * (y t - (c * mean n y / (c * c + 1) * x t + mean n y / (c * c + 1))))).
    + rewrite rsum_scal_l, S0. ring.
    + intros t Ht. rewrite (K t Ht). ring.
  - assert (N : cov n x x <> 0) by (intros Z; apply Reqb_iff in Z; congruence). set (b := cov n x y / cov n x x).
    assert (S0 : rsum n (fun t => y t - (b * x t + (mean n y - b * mean n x))) = 0).
    { rewrite (rsum_ext n _ (fun t => (y t - mean n y) - b * (x t - mean n x))) by (intros; ring).
      rewrite rsum_minus, rsum_scal_l, !sum_dev by exact Hn. ring. }
    split; [exact S0|].
    rewrite (rsum_ext n _ (fun t => ((x t - mean n x) * (y t - mean n y) - b * ((x t - mean n x) * (x t - mean n x))) + mean n x * (y t - (b * x t + (mean n y - b * mean n x))))) by (intros; ring).
    rewrite rsum_plus, rsum_minus, !rsum_scal_l, S0. change (cov n x y - b * cov n x x + mean n x * 0 = 0). unfold b. field. exact N.
Qed.
Lemma lstsq_best n x y b c : (0 < n)%nat ->
  let (b0, c0) := lstsq n x y in
  rsum n (fun t => (y t - (b0 * x t + c0)) * (y t - (b0 * x t + c0))) <= rsum n (fun t => (y t - (b * x t + c)) * (y t - (b * x t + c))).
Proof.
  intros Hn. pose proof (lstsq_normal n x y Hn) as L. destruct (lstsq n x y) as [b0 c0]. destruct L as [L1 L2].
  set (r := fun t => y t - (b0 * x t + c0)) in *. set (d := fun t => (b0 - b) * x t + (c0 - c)).
  rewrite (rsum_ext n (fun t => (y t - (b * x t + c)) * (y t - (b * x t + c))) (fun t => r t * r t + (2 * (b0 - b) * (r t * x t) + 2 * (c0 - c) * r t + d t * d t))).
  - rewrite !rsum_plus, !rsum_scal_l.
    assert (0 <= rsum n (fun t => d t * d t)) by (apply rsum_nonneg; intros; apply Rle_0_sqr).
    assert (rsum n (fun t => r t * x t) = 0) by exact L2. assert (rsum n (fun t => r t) = 0) by exact L1.
    change (rsum n (fun t => r t * r t) <= rsum n (fun t => r t * r t) + (2 * (b0 - b) * rsum n (fun t => r t * x t) + 2 * (c0 - c) * rsum n (fun t => r t) + rsum n (fun t => d t * d t))). nra.
  - intros t Ht. unfold r, d. ring.
Qed.

Section C106.
  Context {name : Type} (eqb : name -> name -> bool) (features : list name) (obs : mat).
  Notation estimated_observed := (estimated_observed eqb features obs).
  Notation estimated_timeseries := (estimated_timeseries eqb features obs).
  Notation run := (run eqb features obs).
  (** The scatter plot: the regression line is the best line for the points shown,
      and the "one-to-one" line meets every observation at itself. *)
  Theorem C106_lines : forall (a : analysis) idx nm j x, (0 < s_m (a_sol a))%nat ->
    choose_feature eqb features idx nm = Some (j, x) ->
    exists o p line one b c, snd (estimated_observed a idx nm) = Shown None (o, p, line, one) /\
      let m := s_m (a_sol a) in
      length o = m /\ length p = m /\ length line = m /\ length one = m /\
      (forall t, (t < m)%nat -> nth_error o t = Some (obs t j) /\ nth_error one t = Some (obs t j) /\ nth_error p t = Some (shown_estimate a t j)) /\
      (forall t, (t < m)%nat -> nth_error line t = Some (b * obs t j + c)) /\
      forall b' c', rsum m (fun t => (nth t p 0 - (b * obs t j + c)) * (nth t p 0 - (b * obs t j + c)))
                    <= rsum m (fun t => (nth t p 0 - (b' * obs t j + c')) * (nth t p 0 - (b' * obs t j + c'))).
  Proof.
    intros a idx nm j x Hm Hc. unfold Show_Model.estimated_observed. rewrite Hc. set (m := s_m (a_sol a)) in *.
    destruct (lstsq m (fun t => obs t j) (fun t => shown_estimate a t j)) as [b c] eqn:E.
    destruct (lstsq m (fun t => obs t j) (fun t => obs t j)) as [b1 c1] eqn:E1.
    eexists _, _, _, _, b, c. split; [reflexivity|]. cbv zeta. rewrite !row_length. repeat split.
    - rewrite row_at by assumption. reflexivity.
    - rewrite row_at by assumption. f_equal.
      assert (Z : (obs t j - (b1 * obs t j + c1)) * (obs t j - (b1 * obs t j + c1)) = 0).
      { pose proof (lstsq_best m (fun t => obs t j) (fun t => obs t j) 1 0 Hm) as B. rewrite E1 in B.
        rewrite (rsum_ext m (fun t => (obs t j - (1 * obs t j + 0)) * (obs t j - (1 * obs t j + 0))) (fun _ => 0)) in B by (intros; ring). rewrite rsum_0 in B.
        apply Rle_antisym; [|apply Rle_0_sqr]. eapply Rle_trans; [|exact B].
        apply (rsum_ge_term m (fun t => (obs t j - (b1 * obs t j + c1)) * (obs t j - (b1 * obs t j + c1))) t); [intros; apply Rle_0_sqr|assumption]. }
      apply Rmult_integral in Z. lra.
    - rewrite row_at by assumption. reflexivity.
    - intros t Ht. rewrite row_at by exact Ht. reflexivity.
    - intros b' c'. pose proof (lstsq_best m (fun t => obs t j) (fun t => shown_estimate a t j) b' c' Hm) as B. rewrite E in B.
      assert (EN : forall t, (t < m)%nat -> nth t (row m (fun t => shown_estimate a t j)) 0 = shown_estimate a t j).
      { intros t Ht. apply nth_error_nth. rewrite row_at by exact Ht. reflexivity. }
      rewrite (rsum_ext m _ (fun t => (shown_estimate a t j - (b * obs t j + c)) * (shown_estimate a t j - (b * obs t j + c)))) by (intros t Ht; rewrite EN by exact Ht; reflexivity).
      rewrite (rsum_ext m (fun t => (nth t _ 0 - (b' * obs t j + c')) * _) (fun t => (shown_estimate a t j - (b' * obs t j + c')) * (shown_estimate a t j - (b' * obs t j + c')))) by (intros t Ht; rewrite EN by exact Ht; reflexivity).
      exact B.
  Qed.

  (** The time series: each time step with samples shows the means of the observed
      and of the estimated values, and the panel below the mean residual. *)
  Theorem C106_series : forall (a : analysis) (i : Z) bins idx nm j x, a_sel a = Some i ->
    choose_feature eqb features idx nm = Some (j, x) ->
    exists o p r, snd (estimated_timeseries bins a idx nm) = Shown (Some (i + 1)%Z) (o, p, r) /\
      length o = length bins /\ length p = length bins /\ length r = length bins /\
      forall q b, nth_error bins q = Some b ->
        (b = [] -> nth_error r q = Some NaN) /\
        (b <> [] -> exists u v, nth_error o q = Some (Fin u) /\ nth_error p q = Some (Fin v) /\
           INR (length b) * u = lsum (map (fun t => obs t j) b) /\ INR (length b) * v = lsum (map (fun t => shown_estimate a t j) b) /\
           nth_error r q = Some (Fin (u - v))).
  Proof.
    intros a i bins idx nm j x Hs Hc. unfold Show_Model.estimated_timeseries. rewrite Hc, Hs. cbn [titled snd].
    eexists _, _, _. split; [reflexivity|]. rewrite !map_length, combine_length, !map_length, Nat.min_id. repeat split.
    - intros ->. rewrite (map_nth_error _ q _ (d := (NaN, NaN))); [reflexivity|].
      clear -H. revert bins H. induction q as [|q IH]; intros [|b bins] H; try discriminate; cbn in H |- *; [injection H as ->; reflexivity|apply IH; exact H].
    - intros Hb. exists (lsum (map (fun t => obs t j) b) / INR (length b)), (lsum (map (fun t => shown_estimate a t j) b) / INR (length b)).
      assert (N : INR (length b) <> 0) by (apply not_0_INR; destruct b; [contradiction|cbn; lia]).
      assert (E : forall f, bin_mean f b = Fin (lsum (map f b) / INR (length b))) by (intros f; destruct b; [contradiction|reflexivity]).
      repeat split.
      + erewrite map_nth_error; [|exact H]. rewrite E. reflexivity.
      + erewrite map_nth_error; [|exact H]. rewrite E. reflexivity.
      + field. exact N.
      + field. exact N.
      + rewrite (map_nth_error _ q _ (d := (bin_mean (fun t => obs t j) b, bin_mean (fun t => shown_estimate a t j) b))).
        2:{ clear -H. revert bins H. induction q as [|q IH]; intros [|b' bins] H; try discriminate; cbn in H |- *; [injection H as ->; reflexivity|apply IH; exact H]. }
        cbn [fst snd]. rewrite !E. unfold fsub. cbn [fopp fadd]. unfold Rminus. reflexivity.
  Qed.

  (** The estimates shown are those of the model at the first of these plots: before
      it the current model counts, after it no change of the model does. *)
  Definition draws (o : op) : Prop :=
    match o with Replace _ => False | Observed idx nm | Series _ idx nm => choose_feature eqb features idx nm <> None end.
  Lemma run_cached : forall l a c, a_cache a = Some c -> a_cache (run a l) = Some c.
  Proof.
    induction l as [|o l IH]; intros a c E; [exact E|]. cbn [Show_Model.run fold_left]. apply IH.
    destruct o; cbn [Show_Model.step a_cache]; [exact E| |]; unfold Show_Model.estimated_observed, Show_Model.estimated_timeseries;
      destruct (choose_feature eqb features idx nm) as [[j x]|]; try exact E.
    - destruct (lstsq _ _ _), (lstsq _ _ _). cbn [fst fill a_cache]. unfold shown_estimate. rewrite E. reflexivity.
    - cbn [fst fill a_cache]. unfold shown_estimate. rewrite E. reflexivity.
  Qed.
  Lemma run_uncached : forall l a, (forall o, In o l -> ~ draws o) -> a_cache a = None -> a_cache (run a l) = None.
  Proof.
    induction l as [|o l IH]; intros a N E; [exact E|]. cbn [Show_Model.run fold_left]. apply IH; [intros; apply N; right; assumption|].
    specialize (N o (or_introl eq_refl)). destruct o; cbn [Show_Model.step a_cache draws] in *; [exact E| |]; unfold Show_Model.estimated_observed, Show_Model.estimated_timeseries;
      destruct (choose_feature eqb features idx nm) as [[j x]|]; try exact E; exfalso; apply N; discriminate.
  Qed.
  Theorem C106_estimates_of_first_plot : forall (a : analysis) (before after : list op) (first : op), a_cache a = None ->
    (forall o, In o before -> ~ draws o) ->
    let s := a_sol (run a before) in
    (forall t j, shown_estimate (run a before) t j = rsum (s_k s) (fun i => s_W s t i * s_H s i j)) /\
    (draws first -> forall t j, shown_estimate (run a (before ++ first :: after)) t j = rsum (s_k s) (fun i => s_W s t i * s_H s i j)).
  Proof.
    intros a before after first E N s.
    assert (P : forall t j, vprime s t j = rsum (s_k s) (fun i => s_W s t i * s_H s i j)).
    { intros t j. exact (proj1 (C53_factors_add_up (s_k s) (s_W s) (s_H s) (s_V s) t j)). }
    pose proof (run_uncached before a N E) as U. split.
    - intros t j. unfold shown_estimate. rewrite U. apply P.
    - intros D t j. unfold Show_Model.run. rewrite fold_left_app. cbn [fold_left]. fold (run a before). fold (run (step eqb features obs (run a before) first) after).
      assert (C : a_cache (step eqb features obs (run a before) first) = Some (vprime s)).
      { destruct first as [s'|idx nm|bins idx nm]; cbn [draws Show_Model.step] in *; [contradiction| |]; unfold Show_Model.estimated_observed, Show_Model.estimated_timeseries;
          destruct (choose_feature eqb features idx nm) as [[j' x]|]; try contradiction.
        - destruct (lstsq _ _ _), (lstsq _ _ _). cbn [fst fill a_cache]. unfold shown_estimate. rewrite U. reflexivity.
        - cbn [fst fill a_cache]. unfold shown_estimate. rewrite U. reflexivity. }
      unfold shown_estimate. rewrite (run_cached after _ _ C). apply P.
  Qed.
End C106.
Print Assumptions C106_lines.
Print Assumptions C106_series.
Print Assumptions C106_estimates_of_first_plot.
(** "the estimated values": of the model being analysed *)
Definition zero_sol : solution := mkSol 2 2 2 (fun _ _ => 0) (fun _ _ => 0) (fun _ _ => 10).
Theorem C106_current_estimate_refuted :
  ~ (forall (obs : mat) (a : analysis) (l : list (op (name := nat))) (t j : nat), a_cache a = None ->
       let b := run Nat.eqb [0; 1]%nat obs a l in
       shown_estimate b t j = rsum (s_k (a_sol b)) (fun i => s_W (a_sol b) t i * s_H (a_sol b) i j)).
Proof.
  intros A. specialize (A (fun _ _ => 1) (mkAna ex_sol (Some 0%Z) None) [Observed (Some 0%Z) None; Replace zero_sol] 0%nat 0%nat eq_refl).
  cbv zeta in A. unfold run in A. cbn [fold_left step] in A.
  unfold estimated_observed in A. cbn [choose_feature length Z.of_nat Z.ltb Z.leb orb Z.compare Pos.of_succ_nat Pos.succ Z.to_nat nth_error option_map] in A.
  destruct (lstsq _ _ _), (lstsq _ _ _). cbn [fst fill a_sol a_cache a_sel shown_estimate] in A.
  unfold vprime, factor_vprime, factor_matrix in A. cbn in A. lra.
Qed.
Print Assumptions C106_current_estimate_refuted.
(* the second of two features, plotted before and after a replacement of the solution *)
Definition xsh_a : analysis := mkAna ex_sol (Some 3%Z) None.
Lemma xsh_choose : choose_feature Nat.eqb [7; 8]%nat (Some 1%Z) None = Some (1, 8)%nat.
Proof. reflexivity. Qed.
Example C106_lines_example :=
  C106_lines Nat.eqb [7; 8]%nat (fun _ _ => 10) xsh_a (Some 1%Z) None 1 8%nat ltac:(cbn; lia) xsh_choose.
Example C106_series_example :=
  C106_series Nat.eqb [7; 8]%nat (fun _ _ => 10) xsh_a 3 [[0; 1]; []]%nat (Some 1%Z) None 1 8%nat eq_refl xsh_choose.
Example C106_estimates_of_first_plot_example :=
  proj2 (C106_estimates_of_first_plot Nat.eqb [7; 8]%nat (fun _ _ => 10) xsh_a
    [Observed (Some 2%Z) None] [Replace zero_sol; Observed (Some 1%Z) None] (Observed (Some 1%Z) None) eq_refl
    ltac:(intros o [<- | []] H; apply H; reflexivity)) ltac:(cbn; discriminate).
Example C106_instance :
  choose_feature Nat.eqb [7; 8]%nat (Some 1%Z) None = Some (1, 8)%nat /\ draws Nat.eqb [7; 8]%nat (Observed (Some 1%Z) None) /\
  ~ draws Nat.eqb [7; 8]%nat (Observed (Some 2%Z) None) /\ lstsq 2 (fun t => INR t) (fun t => 3 * INR t + 1) = (3, 1).
Proof.
  split; [reflexivity|]. split; [discriminate|]. split; [intros H; apply H; reflexivity|].
  unfold lstsq, cov, mean. cbn. destruct (Reqb _ 0) eqn:E; [apply Reqb_iff in E; lra|]. f_equal; field; lra.
Qed.
