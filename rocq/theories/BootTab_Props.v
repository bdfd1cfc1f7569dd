(** C129: the bootstrap tables (esat/error/bootstrap.py). *)
From Coq Require Import List Bool Arith ZArith Lia Reals Lra Permutation Sorting.Sorted.
From Flocq Require Import Core.
From Verif Require Import Base Fl Boot_Model Boot_Proofs ErrPlot_Model ErrPlot_Props PerturbCmp_Props BootTab_Model.
From Verif Require Align_Model Align_Props.
Import ListNotations.
Local Open Scope R_scope.

(** ** Quantiles *)
Lemma percentile_unique xs q y y' : xs <> [] -> (q <= 100)%nat -> percentile_of xs q y -> percentile_of xs q y' -> y = y'.
Proof. intros Hx Hq A B. apply Rle_antisym; [apply (percentile_mono xs q q)|apply (percentile_mono xs q q)]; assumption || lia. Qed.

(** The median is the 50 percent value. *)
Lemma median_percentile xs : xs <> [] -> percentile_of xs 50 (pmedian xs).
Proof.
  intros Hx s P S0. assert (Es : Align_Model.sorted_copy xs = s).
  { apply Align_Props.sorted_unique; [apply Align_Props.sorted_copy_sorted|exact S0|]. eapply perm_trans; [apply Permutation_sym, Align_Props.sorted_copy_perm|exact P]. }
  unfold pmedian. rewrite Es. assert (Hc : (0 < List.length s)%nat). { rewrite <- (Permutation_length P). destruct xs; [contradiction|cbn; lia]. }
  set (N := List.length s) in *. pose proof (Nat.div_mod N 2 ltac:(lia)) as D. pose proof (Nat.mod_upper_bound N 2 ltac:(lia)) as U.
  assert (H50 : INR 50 = 50) by (rewrite INR_IZR_INZ; reflexivity).
  destruct (Nat.eqb_spec (N mod 2) 1) as [E|E].
  - exists (N / 2)%nat, 0. split; [lia|]. split; [lra|]. split; [|ring]. rewrite H50. replace (N - 1)%nat with (2 * (N / 2))%nat by lia. rewrite mult_INR. replace (INR 2) with 2 by reflexivity. field.
  - assert (Z0 : (N mod 2 = 0)%nat) by lia. exists (N / 2 - 1)%nat, (/ 2). split; [lia|]. split; [lra|]. split.
    + rewrite H50. replace (N - 1)%nat with (2 * (N / 2 - 1) + 1)%nat by lia. rewrite plus_INR, mult_INR. replace (INR 2) with 2 by reflexivity. replace (INR 1) with 1 by reflexivity. field.
    + replace (S (N / 2 - 1)) with (N / 2)%nat by lia. field.
Qed.
Lemma quant_percentile xs q : xs <> [] -> (q <= 100)%nat -> percentile_of xs q (pquant xs q).
Proof. apply quantile_percentile. Qed.
Lemma lowest_min xs : xs <> [] -> In (lowest xs) xs /\ forall x, In x xs -> lowest xs <= x.
Proof.
  intros Hx. unfold lowest. pose proof (Align_Props.sorted_copy_perm xs) as P. pose proof (Align_Props.sorted_copy_sorted xs) as S0.
  assert (Hc : (0 < List.length (Align_Model.sorted_copy xs))%nat). { rewrite <- (Permutation_length P). destruct xs; [contradiction|cbn; lia]. }
  split; [apply (Permutation_in _ (Permutation_sym P)), nth_In, Hc|]. intros x Hi. apply (Permutation_in _ P), (In_nth _ _ 0) in Hi. destruct Hi as (j & Hj & <-). apply Align_Props.sorted_nth; [exact S0|lia|exact Hj].
Qed.
Lemma highest_max xs : xs <> [] -> In (highest xs) xs /\ forall x, In x xs -> x <= highest xs.
Proof.
  intros Hx. unfold highest. pose proof (Align_Props.sorted_copy_perm xs) as P. pose proof (Align_Props.sorted_copy_sorted xs) as S0. rewrite (Permutation_length P).
  assert (Hc : (0 < List.length (Align_Model.sorted_copy xs))%nat). { rewrite <- (Permutation_length P). destruct xs; [contradiction|cbn; lia]. }
  split; [apply (Permutation_in _ (Permutation_sym P)), nth_In; lia|]. intros x Hi. apply (Permutation_in _ P), (In_nth _ _ 0) in Hi. destruct Hi as (j & Hj & <-). apply Align_Props.sorted_nth; [exact S0|lia|lia].
Qed.

(** ** Rounding *)
Lemma Znear_le x y : x <= y -> (ZnearestE x <= ZnearestE y)%Z.
Proof. intros H. assert (G : Valid_rnd ZnearestE) by apply valid_rnd_N. apply G. exact H. Qed.
Lemma round6_le x y : x <= y -> round6 x <= round6 y.
Proof. intros H. unfold round6. apply Rmult_le_compat_r; [lra|]. apply IZR_le, Znear_le. lra. Qed.
Lemma round6_round4 x : round6 (round4 x) = round4 x.
Proof.
  unfold round4, round6. set (z := ZnearestE (x * 10000)). replace (IZR z / 10000 * 1000000) with (IZR (z * 100)) by (rewrite mult_IZR; field).
  assert (G : Valid_rnd ZnearestE) by apply valid_rnd_N. rewrite (@Zrnd_IZR ZnearestE G), mult_IZR. field.
Qed.
Lemma round6_0 : round6 0 = 0.
Proof. rewrite <- round4_0 at 1. rewrite round6_round4. apply round4_0. Qed.

(** The runs' values are rounded to 4 decimals and nothing below 1e-5 is left after
    that, so that the second clean-up changes nothing for profiles. *)
Lemma factor_statistics_at k H i j : (i < k)%nat -> factor_statistics k H i j = zap EPS8 (H i j).
Proof.
  intros Hi. unfold factor_statistics. assert (G : forall l h, NoDup l -> (forall a, fold_left (fun h i => zap_row EPS8 i h) l h a j = if in_dec Nat.eq_dec a l then zap EPS8 (h a j) else h a j)).
  { clear. induction l as [|x l IH]; intros h ND a; [reflexivity|]. inversion ND as [|? ? N1 N2]; subst. cbn [fold_left]. rewrite (IH _ N2). unfold zap_row.
    destruct (in_dec Nat.eq_dec a l) as [I|I], (in_dec Nat.eq_dec a (x :: l)) as [I'|I']; try (exfalso; apply I'; right; exact I).
    - destruct (Nat.eqb_spec a x) as [->|Hne]; [contradiction|reflexivity].
    - destruct I' as [->|I']; [|contradiction]. rewrite Nat.eqb_refl. reflexivity.
    - destruct (Nat.eqb_spec a x) as [->|Hne]; [exfalso; apply I'; left; reflexivity|reflexivity]. }
  rewrite (G (seq 0 k) H (seq_NoDup k 0)). destruct (in_dec Nat.eq_dec i (seq 0 k)) as [I|I]; [reflexivity|]. exfalso. apply I, in_seq. lia.
Qed.
Lemma zap_round4 x : 0 <= x -> zap EPS5 (round4 (zap EPS8 x)) = round4 x.
Proof.
  intros Hx. unfold zap at 2. rewrite round4_zap by exact Hx. unfold zap. destruct (Rltb (round4 x) EPS5) eqn:E; [|reflexivity]. apply Rltb_iff in E. unfold EPS5 in E.
  pose proof (round4_le 0 x Hx) as G. rewrite round4_0 in G. unfold round4 in *. set (z := ZnearestE (x * 10000)) in *.
  assert (A : IZR z < 1) by lra. apply lt_IZR in A. assert (B : 0 <= IZR z) by lra. apply le_IZR in B. assert (z = 0%Z) by lia. rewrite H. lra.
Qed.
Lemma table_values k rs i j : (i < k)%nat -> (forall r, In r rs -> 0 <= r_H r i j) ->
  map (zap EPS5) (factor_table k rs i j) = map (fun r => round4 (r_H r i j)) rs.
Proof.
  intros Hi Hr. unfold factor_table. rewrite map_map. apply map_ext_in. intros r Hin. unfold run_H. rewrite factor_statistics_at by exact Hi. apply zap_round4, Hr, Hin.
Qed.

(** ** C129 *)
(** What one line says about the base value [x] and the values [vs] of the runs. *)
Definition says (x : R) (vs : list R) (b : brow) : Prop :=
  let N := List.length vs in
  let mu := lsum vs / INR N in
  let shown := if Rlt_dec x (/ 100000) then 0 else x in
  b_base b = round6 shown /\ b_mean b = round6 mu /\
  (N = 1%nat -> b_std b = NaN) /\
  ((2 <= N)%nat -> b_std b = Fin (round6 (sqrt (lsum (map (fun v => (v - mu) ^ 2) vs) / INR (N - 1))))) /\
  exists p5 p25 p50 p75 p95,
    percentile_of vs 5 p5 /\ percentile_of vs 25 p25 /\ percentile_of vs 50 p50 /\ percentile_of vs 75 p75 /\ percentile_of vs 95 p95 /\
    b_p5 b = round6 p5 /\ b_p25 b = round6 p25 /\ b_med b = round6 p50 /\ b_p75 b = round6 p75 /\ b_p95 b = round6 p95 /\
    (b_within b = true <-> p25 <= shown <= p75).

Lemma row_says x table vs : vs <> [] -> map (zap EPS5) table = vs -> says x vs (feature_row x table).
Proof.
  intros Hv E. unfold says, feature_row. rewrite E. cbn [b_base b_mean b_std b_p5 b_p25 b_med b_p75 b_p95 b_within]. unfold zap.
  assert (Hz : (if Rltb x EPS5 then 0 else x) = (if Rlt_dec x (/ 100000) then 0 else x)) by (unfold Rltb, EPS5; destruct (Rlt_dec x (/ 100000)); reflexivity).
  rewrite Hz. split; [reflexivity|]. split; [reflexivity|]. split; [intros H1; unfold pstd; rewrite H1; reflexivity|]. split.
  - intros H2. unfold pstd. rewrite (proj2 (Nat.leb_gt _ _)) by lia. cbn [fround6]. do 4 f_equal. f_equal. apply map_ext. intros v. unfold pmean. ring.
  - exists (pquant vs 5), (pquant vs 25), (pmedian vs), (pquant vs 75), (pquant vs 95). repeat (split; [first [apply quant_percentile; [exact Hv|lia]|apply median_percentile; exact Hv|reflexivity]|]).
    rewrite andb_true_iff, !Rleb_iff. reflexivity.
Qed.

(** The table of a factor has a line per feature; the values summarised are the
    runs' values for the factor of the same number, to 4 decimals. *)
Theorem C129_factor_table : forall (k n : nat) (rs : list run) (base_H : mat) (i : nat),
  (i < k)%nat -> rs <> [] -> (forall r j, In r rs -> (j < n)%nat -> 0 <= r_H r i j) ->
  exists rows, show_results k n n (Some rs) base_H (Z.of_nat i + 1) = Table rows /\ List.length rows = n /\
    forall j b, nth_error rows j = Some b -> says (base_H i j) (map (fun r => round4 (r_H r i j)) rs) b.
Proof.
  intros k n rs base_H i Hi Hne Hp. unfold show_results, bad_factor. rewrite (proj2 (Z.ltb_ge _ _)) by lia. rewrite (proj2 (Z.ltb_ge _ _)) by lia. cbn [orb]. rewrite Nat.eqb_refl. cbn [negb].
  unfold pos_of. replace (Z.to_nat (Z.of_nat i + 1 - 1)) with i by lia. eexists. split; [reflexivity|]. split; [rewrite map_length, seq_length; reflexivity|].
  intros j b Hb. assert (Hj : (j < n)%nat). { assert (A : nth_error (map (fun j => feature_row (base_H i j) (factor_table k rs i j)) (seq 0 n)) j <> None) by congruence. apply nth_error_Some in A. rewrite map_length, seq_length in A. exact A. }
  rewrite nth_error_map_seq in Hb by exact Hj. injection Hb as <-. apply row_says; [destruct rs; [contradiction|discriminate]|]. apply table_values; [exact Hi|]. intros r Hr. apply Hp; assumption.
Qed.
Print Assumptions C129_factor_table.

(** The percentiles ascend and lie, like the mean, between the smallest and the
    largest value. *)
Theorem C129_table_order : forall (x : R) (vs : list R) (b : brow) (lo hi : R), vs <> [] -> (forall v, In v vs -> lo <= v <= hi) -> says x vs b ->
  round6 lo <= b_p5 b <= b_p25 b /\ b_p25 b <= b_med b <= b_p75 b /\ b_p75 b <= b_p95 b <= round6 hi /\ round6 lo <= b_mean b <= round6 hi.
Proof.
  intros x vs b lo hi Hv Hr (_ & Em & _ & _ & p5 & p25 & p50 & p75 & p95 & A1 & A2 & A3 & A4 & A5 & -> & -> & -> & -> & -> & _). rewrite Em.
  pose proof (percentile_range vs 5 p5 lo hi Hv ltac:(lia) A1 Hr) as B1. pose proof (percentile_range vs 95 p95 lo hi Hv ltac:(lia) A5 Hr) as B2.
  pose proof (percentile_mono vs 5 25 p5 p25 Hv ltac:(lia) A1 A2). pose proof (percentile_mono vs 25 50 p25 p50 Hv ltac:(lia) A2 A3).
  pose proof (percentile_mono vs 50 75 p50 p75 Hv ltac:(lia) A3 A4). pose proof (percentile_mono vs 75 95 p75 p95 Hv ltac:(lia) A4 A5).
  assert (HN : 0 < INR (List.length vs)) by (apply lt_0_INR; destruct vs; [contradiction|cbn; lia]).
  pose proof (lsum_le_map (fun _ => lo) (fun v => v) vs (fun v H => proj1 (Hr v H))) as C1. pose proof (lsum_le_map (fun v => v) (fun _ => hi) vs (fun v H => proj2 (Hr v H))) as C2. rewrite lsum_const_map, map_id in C1, C2.
  assert (M : lo <= lsum vs / INR (List.length vs) <= hi) by (split; apply (Rmult_le_reg_r (INR (List.length vs))); try exact HN; unfold Rdiv; rewrite Rmult_assoc, Rinv_l by lra; lra).
  repeat split; apply round6_le; lra.
Qed.
Print Assumptions C129_table_order.

(** If every run has the base model's value [x], the whole line shows [x] to 4
    decimals, and the base value counts as inside the interquartile range exactly
    when [x] is below 1e-5 or has no more than 4 decimals. *)
Theorem C129_identical_runs : forall (k n : nat) (rs : list run) (base_H : mat) (i : nat),
  (i < k)%nat -> rs <> [] -> (forall j, (j < n)%nat -> 0 <= base_H i j) -> (forall r j, In r rs -> (j < n)%nat -> r_H r i j = base_H i j) ->
  exists rows, show_results k n n (Some rs) base_H (Z.of_nat i + 1) = Table rows /\ List.length rows = n /\
    forall j b, nth_error rows j = Some b -> let x := base_H i j in
      b_mean b = round4 x /\ b_p5 b = round4 x /\ b_p25 b = round4 x /\ b_med b = round4 x /\ b_p75 b = round4 x /\ b_p95 b = round4 x /\
      ((2 <= List.length rs)%nat -> b_std b = Fin 0) /\
      (b_within b = true <-> x < / 100000 \/ exists z, x = IZR z / 10000).
Proof.
  intros k n rs base_H i Hi Hne Hp Hr. destruct (C129_factor_table k n rs base_H i Hi Hne) as (rows & E & L & S).
  { intros r j Hin Hj. rewrite Hr by assumption. apply Hp, Hj. }
  exists rows. split; [exact E|]. split; [exact L|]. intros j b Hb x. assert (Hj : (j < n)%nat) by (rewrite <- L; apply nth_error_Some; congruence).
  pose proof (S j b Hb) as Sb. set (vs := map (fun r => round4 (r_H r i j)) rs) in *. assert (Hv : vs <> []) by (unfold vs; destruct rs; [contradiction|discriminate]).
  assert (Hc : forall v, In v vs -> v = round4 x). { intros v Hin. unfold vs in Hin. apply in_map_iff in Hin. destruct Hin as (r & <- & Hin). rewrite Hr by assumption. reflexivity. }
  assert (Hl : List.length vs = List.length rs) by apply map_length.
  assert (HN : 0 < INR (List.length vs)) by (apply lt_0_INR; destruct vs; [contradiction|cbn; lia]).
  assert (Mu : lsum vs / INR (List.length vs) = round4 x).
  { assert (A : lsum vs = INR (List.length vs) * round4 x). { rewrite <- (map_id vs) at 1. rewrite (map_ext_in (fun v => v) (fun _ => round4 x) vs Hc). apply lsum_const_map. } rewrite A. field. lra. }
  destruct Sb as (_ & Em & _ & Esd & p5 & p25 & p50 & p75 & p95 & A1 & A2 & A3 & A4 & A5 & E5 & E25 & E50 & E75 & E95 & W).
  assert (Pc : forall q p, (q <= 100)%nat -> percentile_of vs q p -> p = round4 x).
  { intros q p Hq A. apply Rle_antisym; apply (percentile_range vs q p (round4 x) (round4 x) Hv Hq A); intros v Hin; rewrite (Hc v Hin); lra. }
  apply Pc in A1, A2, A3, A4, A5; try lia. subst p5 p25 p50 p75 p95.
  rewrite round6_round4 in E5, E25, E50, E75, E95. rewrite Mu, round6_round4 in Em.
  split; [exact Em|]. split; [exact E5|]. split; [exact E25|]. split; [exact E50|]. split; [exact E75|]. split; [exact E95|]. split.
  - intros H2. rewrite Esd by lia. f_equal. rewrite Mu. rewrite (map_ext_in (fun v => (v - round4 x) ^ 2) (fun _ => 0) vs) by (intros v Hin; rewrite (Hc v Hin); ring). rewrite lsum_const_map, Rmult_0_r. unfold Rdiv. rewrite Rmult_0_l, sqrt_0. apply round6_0.
  - rewrite W. fold x. destruct (Rlt_dec x (/ 100000)) as [Lx|Lx].
    + assert (Z0 : round4 x = 0). { rewrite <- (zap_round4 x) by apply Hp, Hj. unfold zap at 2. rewrite round4_zap by apply Hp, Hj. unfold zap. destruct (Rltb (round4 x) EPS5) eqn:F; [reflexivity|]. apply Rltb_false in F. unfold EPS5 in F.
        pose proof (round4_err x) as G. pose proof (Hp j Hj). fold x in H. unfold Rabs in G. exfalso. unfold round4 in F, G. set (z := ZnearestE (x * 10000)) in *.
        assert (A : IZR z <= 0 \/ 1 <= IZR z) by (destruct (Z.le_gt_cases z 0); [left; apply IZR_le; assumption|right; apply IZR_le; lia]). destruct (Rcase_abs _) in G; lra. }
      rewrite Z0. split; [left; exact Lx|intros _; lra].
    + split; [intros [B1 B2]; right; exists (ZnearestE (x * 10000)); apply Rle_antisym; assumption|]. intros [C|[z C]]; [contradiction|]. rewrite C. rewrite round4_grid. lra.
Qed.
Print Assumptions C129_identical_runs.

(** A base value between 1e-5 and 5e-5, with all runs below 5e-5: the line shows zeros
    for the runs and the base value is outside. *)
Theorem C129_small_values : forall (k n : nat) (rs : list run) (base_H : mat) (i j : nat) (rows : list brow) (b : brow),
  (i < k)%nat -> rs <> [] -> (forall r j, In r rs -> (j < n)%nat -> 0 <= r_H r i j) ->
  show_results k n n (Some rs) base_H (Z.of_nat i + 1) = Table rows -> nth_error rows j = Some b ->
  (forall r, In r rs -> r_H r i j < / 20000) ->
  b_mean b = 0 /\ b_p5 b = 0 /\ b_p25 b = 0 /\ b_med b = 0 /\ b_p75 b = 0 /\ b_p95 b = 0 /\ (b_within b = true <-> base_H i j < / 100000).
Proof.
  intros k n rs base_H i j rows b Hi Hne Hp E Hb Hs. destruct (C129_factor_table k n rs base_H i Hi Hne Hp) as (rows' & E' & L & S). rewrite E in E'. injection E' as <-.
  assert (Hj : (j < n)%nat) by (rewrite <- L; apply nth_error_Some; congruence).
  destruct (S j b Hb) as (_ & Em & _ & _ & p5 & p25 & p50 & p75 & p95 & A1 & A2 & A3 & A4 & A5 & E5 & E25 & E50 & E75 & E95 & W). set (vs := map (fun r => round4 (r_H r i j)) rs) in *.
  assert (Hv : vs <> []) by (unfold vs; destruct rs; [contradiction|discriminate]).
  assert (Hc : forall v, In v vs -> v = 0).
  { intros v Hin. unfold vs in Hin. apply in_map_iff in Hin. destruct Hin as (r & <- & Hin). pose proof (Hs r Hin). pose proof (Hp r j Hin Hj). unfold round4. rewrite (Znearest_imp (fun z => negb (Z.even z)) _ 0); [cbn; lra|]. rewrite Rabs_pos_eq; lra. }
  assert (HN : 0 < INR (List.length vs)) by (apply lt_0_INR; destruct vs; [contradiction|cbn; lia]).
  assert (Mu : lsum vs / INR (List.length vs) = 0). { assert (A : lsum vs = INR (List.length vs) * 0). { rewrite <- (map_id vs) at 1. rewrite (map_ext_in (fun v => v) (fun _ => 0) vs Hc). apply lsum_const_map. } rewrite A. field. lra. }
  assert (Pc : forall q p, (q <= 100)%nat -> percentile_of vs q p -> p = 0).
  { intros q p Hq A. apply Rle_antisym; apply (percentile_range vs q p 0 0 Hv Hq A); intros v Hin; rewrite (Hc v Hin); lra. }
  apply Pc in A1, A2, A3, A4, A5; try lia. subst p5 p25 p50 p75 p95.
  rewrite Mu in Em. rewrite round6_0 in Em, E5, E25, E50, E75, E95. split; [exact Em|]. split; [exact E5|]. split; [exact E25|]. split; [exact E50|]. split; [exact E75|]. split; [exact E95|].
  rewrite W. destruct (Rlt_dec (base_H i j) (/ 100000)); lra.
Qed.
Print Assumptions C129_small_values.

(** When nothing is shown. *)
Theorem C129_when_shown : forall (k n labels : nat) (runs : option (list run)) (base_H : mat) (f : Z),
  (show_results k n labels runs base_H f = Info <-> (f < 1 \/ Z.of_nat k < f)%Z) /\
  ((1 <= f <= Z.of_nat k)%Z -> (show_results k n labels runs base_H f = Failed NoRuns <-> runs = None)) /\
  ((1 <= f <= Z.of_nat k)%Z -> forall rs, runs = Some rs -> (show_results k n labels runs base_H f = Failed BadLabels <-> labels <> n)).
Proof.
  intros k n labels runs base_H f. assert (B : bad_factor k f = true <-> (f < 1 \/ Z.of_nat k < f)%Z) by (unfold bad_factor; rewrite orb_true_iff, !Z.ltb_lt; tauto).
  unfold show_results. split; [|split].
  - destruct (bad_factor k f) eqn:E; [split; [intros _; apply B; reflexivity|reflexivity]|]. split; [|intros H; apply B in H; discriminate]. destruct runs; [destruct (negb _)|]; discriminate.
  - intros Hf. destruct (bad_factor k f) eqn:E; [destruct (proj1 B eq_refl); lia|]. destruct runs as [rs|]; [destruct (negb _)|]; split; congruence.
  - intros Hf rs ->. destruct (bad_factor k f) eqn:E; [destruct (proj1 B eq_refl); lia|]. destruct (Nat.eqb_spec labels n); cbn [negb]; split; congruence.
Qed.
Print Assumptions C129_when_shown.

(** The loss table: percentiles of the runs' losses rounded to integers, ascending,
    the first and the last those of actual runs. *)
Theorem C129_q_table : forall (b : R) (qs : list R), qs <> [] ->
  exists lo p25 p50 p75 hi, show_q (Some (Fin b)) qs = Table [ZnearestE b; ZnearestE lo; ZnearestE p25; ZnearestE p50; ZnearestE p75; ZnearestE hi] /\
    In lo qs /\ In hi qs /\ (forall q, In q qs -> lo <= q <= hi) /\ percentile_of qs 25 p25 /\ percentile_of qs 50 p50 /\ percentile_of qs 75 p75 /\
    (ZnearestE lo <= ZnearestE p25 <= ZnearestE p50)%Z /\ (ZnearestE p50 <= ZnearestE p75 <= ZnearestE hi)%Z.
Proof.
  intros b qs Hq. destruct (lowest_min qs Hq) as [L1 L2]. destruct (highest_max qs Hq) as [H1 H2].
  pose proof (quant_percentile qs 25 Hq ltac:(lia)) as A1. pose proof (median_percentile qs Hq) as A2. pose proof (quant_percentile qs 75 Hq ltac:(lia)) as A3.
  assert (Hr : forall q, In q qs -> lowest qs <= q <= highest qs) by (intros q Hin; split; [apply L2|apply H2]; exact Hin).
  exists (lowest qs), (pquant qs 25), (pmedian qs), (pquant qs 75), (highest qs). split; [reflexivity|]. split; [exact L1|]. split; [exact H1|]. split; [exact Hr|]. split; [exact A1|]. split; [exact A2|]. split; [exact A3|].
  split; split; apply Znear_le; [apply (percentile_range qs 25 _ _ (highest qs) Hq ltac:(lia) A1 Hr)|apply (percentile_mono qs 25 50 _ _ Hq ltac:(lia) A1 A2)|apply (percentile_mono qs 50 75 _ _ Hq ltac:(lia) A2 A3)|apply (percentile_range qs 75 _ (lowest qs) _ Hq ltac:(lia) A3 Hr)].
Qed.
Print Assumptions C129_q_table.
(** It needs a finite loss of the base model. *)
Theorem C129_q_table_needs_loss : forall (q : option fl) (qs : list R), (exists t, show_q q qs = Table t) <-> exists b, q = Some (Fin b).
Proof.
  intros q qs. split.
  - intros [t E]. destruct q as [[b| | |]|]; try discriminate. exists b. reflexivity.
  - intros [b ->]. eexists. reflexivity.
Qed.
Print Assumptions C129_q_table_needs_loss.

(** Runs that reproduce the base model exactly are reported as differing from it. *)
Theorem C129_identical_runs_within_refuted : exists (k n : nat) (rs : list run) (base_H : mat) (row : brow),
  (forall r, In r rs -> r_H r = base_H) /\ (2 <= List.length rs)%nat /\ show_results k n n (Some rs) base_H 1 = Table [row] /\
  b_within row = false /\ b_mean row <> b_base row.
Proof.
  set (base := (fun _ _ => / 4 + / 20000) : mat). set (r := mkRun 1 (fun _ _ => 1) base).
  destruct (C129_identical_runs 1 1 [r; r] base 0 ltac:(lia) ltac:(discriminate)) as (rows & E & L & A).
  { intros j _. unfold base. lra. } { intros r' j [<-|[<-|[]]] _; reflexivity. }
  destruct rows as [|row [|? ?]]; try discriminate. destruct (A 0%nat row eq_refl) as (Em & _ & _ & _ & _ & _ & _ & W). unfold base in Em, W at 1.
  exists 1%nat, 1%nat, [r; r], base, row. split; [intros r' [<-|[<-|[]]]; reflexivity|]. split; [cbn; lia|]. split; [exact E|]. split.
  - destruct (b_within row); [|reflexivity]. exfalso. destruct (proj1 W eq_refl) as [X|[z X]]; unfold base in X; [lra|]. assert (Y : IZR (2 * z) = IZR 5001) by (rewrite mult_IZR; lra). apply eq_IZR in Y. lia.
  - destruct (C129_factor_table 1 1 [r; r] base 0 ltac:(lia) ltac:(discriminate)) as (rows' & E' & _ & S). { intros r' j [<-|[<-|[]]] _; cbn; unfold base; lra. }
    rewrite E in E'. injection E' as <-. destruct (S 0%nat row eq_refl) as (Eb & _). unfold base in Eb. destruct (Rlt_dec _ _) in Eb; [lra|]. rewrite Em, Eb.
    unfold round6. replace ((/ 4 + / 20000) * 1000000) with (IZR 250050) by lra. assert (G : Valid_rnd ZnearestE) by apply valid_rnd_N. rewrite (@Zrnd_IZR ZnearestE G).
    intros X. unfold round4 in X. set (z := ZnearestE _) in X. assert (Y : IZR (2 * z) = IZR 5001) by (rewrite mult_IZR; lra). apply eq_IZR in Y. lia.
Qed.
Print Assumptions C129_identical_runs_within_refuted.
(* one factor with three features, three runs with other profiles *)
Definition xbt_base : mat := fun _ j => INR j / 10.
Definition xbt_rs : list run := [mkRun 1 (fun _ _ => 1) (fun _ j => INR j); mkRun 2 (fun _ _ => 1) (fun _ _ => 0); mkRun 3 (fun _ _ => 1) (fun _ _ => 1)].
Lemma xbt_nonneg r j : In r xbt_rs -> (j < 3)%nat -> 0 <= r_H r 0%nat j.
Proof. intros [<- | [<- | [<- | []]]] _; cbn; try lra. apply pos_INR. Qed.
Example C129_factor_table_example := C129_factor_table 1 3 xbt_rs xbt_base 0 ltac:(lia) ltac:(discriminate) xbt_nonneg.
Example C129_table_order_example : exists b, says (xbt_base 0%nat 2%nat) (map (fun r => round4 (r_H r 0%nat 2%nat)) xbt_rs) b /\ b_p25 b <= b_med b.
Proof.
  destruct C129_factor_table_example as (rows & _ & L & Hr). destruct (nth_error rows 2) as [b|] eqn:E; [| apply nth_error_None in E; lia].
  exists b. pose proof (Hr 2%nat b E) as A. split; [exact A |].
  refine (proj1 (proj1 (proj2 (C129_table_order _ _ b (Rmin (round4 2) (Rmin (round4 0) (round4 1))) (Rmax (round4 2) (Rmax (round4 0) (round4 1))) _ _ A)))); [discriminate |].
  intros v [<- | [<- | [<- | []]]]; cbn [r_H]; change (INR 2) with 2%R.
  - split; [apply Rmin_l | apply Rmax_l].
  - split; [eapply Rle_trans; [apply Rmin_r | apply Rmin_l] | eapply Rle_trans; [| apply Rmax_r]; apply Rmax_l].
  - split; [eapply Rle_trans; [apply Rmin_r | apply Rmin_r] | eapply Rle_trans; [| apply Rmax_r]; apply Rmax_r].
Qed.
Example C129_identical_runs_example :=
  C129_identical_runs 1 3 [mkRun 1 (fun _ _ => 1) xbt_base; mkRun 2 (fun _ _ => 2) xbt_base] xbt_base 0 ltac:(lia) ltac:(discriminate)
    ltac:(intros j _; unfold xbt_base, Rdiv; apply Rmult_le_pos; [apply pos_INR | lra]) ltac:(intros r j [<- | [<- | []]] _; reflexivity).
Example C129_small_values_example : exists rows b, show_results 1 3 3 (Some [mkRun 1 (fun _ _ => 1) (fun _ _ => / 30000)]) xbt_base 1 = Table rows /\
  nth_error rows 0 = Some b /\ b_med b = 0.
Proof.
  assert (N : forall r j, In r [mkRun 1 (fun _ _ => 1) (fun _ _ => / 30000)] -> (j < 3)%nat -> 0 <= r_H r 0%nat j) by (intros r j [<- | []] _; cbn; lra).
  destruct (C129_factor_table 1 3 [mkRun 1 (fun _ _ => 1) (fun _ _ => / 30000)] xbt_base 0 ltac:(lia) ltac:(discriminate) N) as (rows & E & L & _).
  destruct (nth_error rows 0) as [b|] eqn:Eb; [| apply nth_error_None in Eb; lia]. exists rows, b. split; [exact E |]. split; [exact Eb |].
  destruct (C129_small_values 1 3 [mkRun 1 (fun _ _ => 1) (fun _ _ => / 30000)] xbt_base 0 0 rows b ltac:(lia) ltac:(discriminate) N E Eb) as (_ & _ & _ & M & _); [| exact M].
  intros r [<- | []]. cbn. lra.
Qed.
Example C129_when_shown_example : show_results 1 3 3 (Some xbt_rs) xbt_base 2 = Info.
Proof. apply (proj2 (proj1 (C129_when_shown 1 3 3 (Some xbt_rs) xbt_base 2))). right. reflexivity. Qed.
Example C129_q_table_example := C129_q_table 7 [9; 4; 6] ltac:(discriminate).
Example C129_q_table_needs_loss_example := proj2 (C129_q_table_needs_loss (Some (Fin 7)) [9; 4; 6]) (ex_intro _ 7 eq_refl).

(** Two runs equal to a base model with values 0, 0.1 and 0.2. *)
Example C129_instance : let base := (fun _ j => INR j / 10) : mat in let r := mkRun 1 (fun _ _ => 1) base in
  exists rows, show_results 1 3 3 (Some [r; r]) base 1 = Table rows /\ List.length rows = 3%nat /\
    forall j b, nth_error rows j = Some b -> b_med b = INR j / 10 /\ b_mean b = INR j / 10 /\ b_std b = Fin 0 /\ b_within b = true.
Proof.
  intros base r. destruct (C129_identical_runs 1 3 [r; r] base 0%nat ltac:(lia) ltac:(discriminate)) as (rows & E & L & A).
  { intros j _. unfold base. pose proof (pos_INR j). lra. } { intros r' j [<-|[<-|[]]] _; reflexivity. }
  exists rows. split; [exact E|]. split; [exact L|]. intros j b Hb. destruct (A j b Hb) as (Em & _ & _ & Ed & _ & _ & Es & W).
  assert (G : base 0%nat j = IZR (Z.of_nat j * 1000) / 10000) by (unfold base; rewrite mult_IZR, <- INR_IZR_INZ; lra).
  assert (F : round4 (base 0%nat j) = INR j / 10) by (rewrite G, round4_grid, <- G; reflexivity). rewrite F in Em, Ed.
  split; [exact Ed|]. split; [exact Em|]. split; [apply Es; cbn; lia|]. apply W. right. eexists. exact G.
Qed.
(** Three different runs, 2, 0 and 1, around a base value of 1. *)
Example C129_spread_instance : let b := feature_row 1 [2; 0; 1] in
  says 1 [2; 0; 1] b /\ b_med b = 1 /\ b_p25 b = / 2 /\ b_p75 b = 3 / 2 /\ b_within b = true.
Proof.
  intros b. assert (S : says 1 [2; 0; 1] b).
  { apply row_says; [discriminate|]. cbn [map]. unfold zap, EPS5, Rltb. repeat (destruct (Rlt_dec _ _); try lra); reflexivity. }
  split; [exact S|]. destruct S as (_ & _ & _ & _ & p5 & p25 & p50 & p75 & p95 & _ & A2 & A3 & A4 & _ & _ & E25 & E50 & E75 & _ & W).
  assert (Ps : Permutation [2; 0; 1] [0; 1; 2]) by (apply (Permutation_cons_app [0; 1] []), Permutation_refl).
  assert (Hne : [2; 0; 1] <> []) by discriminate.
  assert (Q : forall s, Permutation [2; 0; 1] s -> StronglySorted Rle s -> s = [0; 1; 2]).
  { intros s P SS. apply Align_Props.sorted_unique; [exact SS|repeat constructor; lra|]. eapply perm_trans; [apply Permutation_sym, P|exact Ps]. }
  assert (I2 : INR 2 = 2) by reflexivity. assert (I25 : INR 25 = 25) by (rewrite INR_IZR_INZ; reflexivity). assert (I50 : INR 50 = 50) by (rewrite INR_IZR_INZ; reflexivity). assert (I75 : INR 75 = 75) by (rewrite INR_IZR_INZ; reflexivity).
  assert (V2 : p25 = / 2). { apply (percentile_unique [2; 0; 1] 25); [exact Hne|lia|exact A2|]. intros s P SS. rewrite (Q s P SS). exists 0%nat, (/ 2). cbn [List.length nth]. replace (3 - 1)%nat with 2%nat by lia. rewrite I2, I25. cbn [INR]. repeat split; try lia; lra. }
  assert (V3 : p50 = 1). { apply (percentile_unique [2; 0; 1] 50); [exact Hne|lia|exact A3|]. intros s P SS. rewrite (Q s P SS). exists 1%nat, 0. cbn [List.length nth]. replace (3 - 1)%nat with 2%nat by lia. rewrite I2, I50. cbn [INR]. repeat split; try lia; lra. }
  assert (V4 : p75 = 3 / 2). { apply (percentile_unique [2; 0; 1] 75); [exact Hne|lia|exact A4|]. intros s P SS. rewrite (Q s P SS). exists 1%nat, (/ 2). cbn [List.length nth]. replace (3 - 1)%nat with 2%nat by lia. rewrite I2, I75. cbn [INR]. repeat split; try lia; lra. }
  subst p25 p50 p75. rewrite E25, E50, E75. assert (G : Valid_rnd ZnearestE) by apply valid_rnd_N. unfold round6.
  replace (1 * 1000000) with (IZR 1000000) by lra. replace (/ 2 * 1000000) with (IZR 500000) by lra. replace (3 / 2 * 1000000) with (IZR 1500000) by lra. rewrite !(@Zrnd_IZR ZnearestE G).
  repeat split; try lra. apply W. destruct (Rlt_dec 1 (/ 100000)); lra.
Qed.
