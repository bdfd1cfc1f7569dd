(** C52, C53, C76, C77: the numbers shown by the analysis classes. *)
From Coq Require Import List Bool ZArith Reals Lra Lia.
From Flocq Require Import Core.
From Verif Require Import Base Fl Boot_Model Boot_Proofs Recomb_Proofs Analysis_Model.
Import ListNotations.
Local Open Scope R_scope.

(** ** C52 *)
Lemma round4_err x : Rabs (round4 x - x) <= / 20000.
Proof.
  unfold round4. pose proof (Znearest_half (fun z => negb (Z.even z)) (x * 10000)) as H.
  replace (IZR (ZnearestE (x * 10000)) / 10000 - x) with (- (x * 10000 - IZR (ZnearestE (x * 10000))) / 10000) by field.
  unfold Rdiv. rewrite Rabs_mult, Rabs_Ropp, (Rabs_right (/ 10000)) by lra. lra.
Qed.

Definition sse (m : nat) (v e : nat -> R) : R := rsum m (fun t => (v t - e t) ^ 2).
Definition true_rmse (m : nat) (v e : nat -> R) : R := sqrt (sse m v e / INR m).

Lemma rmse_scaled m v e : (0 < m)%nat -> sqrt (sse m v e) = true_rmse m v e * sqrt (INR m).
Proof.
  intros Hm. assert (0 < INR m) by (apply lt_0_INR; exact Hm). unfold true_rmse.
  rewrite <- sqrt_mult.
  - f_equal. field. lra.
  - apply Rmult_le_pos; [|left; apply Rinv_0_lt_compat; assumption]. apply rsum_nonneg. intros. apply pow2_ge_0.
  - lra.
Qed.

(** The reported RMSE is, to four digits, the true one times sqrt(m)/14. *)
Theorem C52_reported_rmse : forall (m : nat) (v e : nat -> R), (0 < m)%nat ->
  Rabs (fm_rmse (feature_metrics m v e) - true_rmse m v e * (sqrt (INR m) / 14)) <= / 20000 /\
  exists z, fm_rmse (feature_metrics m v e) = IZR z / 10000.
Proof.
  intros m v e Hm. cbn [fm_rmse feature_metrics].
  assert (E : rsum m (fun t => (v t - e t) * (v t - e t)) = sse m v e) by (unfold sse; apply rsum_ext; intros; ring).
  rewrite E, rmse_scaled by exact Hm.
  replace (true_rmse m v e * (sqrt (INR m) / 14)) with (true_rmse m v e * sqrt (INR m) / 14) by (unfold Rdiv; ring).
  split; [apply round4_err|]. unfold round4. eexists. reflexivity.
Qed.
Print Assumptions C52_reported_rmse.

Theorem C52_correct_for_196_samples : forall v e : nat -> R,
  Rabs (fm_rmse (feature_metrics 196 v e) - true_rmse 196 v e) <= / 20000.
Proof.
  intros v e. destruct (C52_reported_rmse 196 v e ltac:(lia)) as [H _].
  replace (sqrt (INR 196)) with 14 in H; [replace (14 / 14) with 1 in H by field; rewrite Rmult_1_r in H; exact H|].
  replace (INR 196) with (14 * 14) by (rewrite INR_IZR_INZ; cbn; ring). rewrite sqrt_square by lra. reflexivity.
Qed.
Print Assumptions C52_correct_for_196_samples.

(** For every other number of samples it is wrong as soon as the true value is
    not tiny: too large above 196 samples, too small below. *)
Theorem C52_wrong_otherwise : forall (m : nat) (v e : nat -> R), (0 < m)%nat ->
  (true_rmse m v e * (sqrt (INR m) - 14) > 14 / 10000 -> fm_rmse (feature_metrics m v e) > true_rmse m v e + / 20000) /\
  (true_rmse m v e * (14 - sqrt (INR m)) > 14 / 10000 -> fm_rmse (feature_metrics m v e) < true_rmse m v e - / 20000).
Proof.
  intros m v e Hm. destruct (C52_reported_rmse m v e Hm) as [H _]. apply Rabs_le_inv in H.
  replace (true_rmse m v e * (sqrt (INR m) / 14)) with (true_rmse m v e * sqrt (INR m) / 14) in H by (unfold Rdiv; ring).
  split; intros H2; rewrite Rmult_minus_distr_l in H2; lra.
Qed.
Print Assumptions C52_wrong_otherwise.
Example C52_wrong_instance : true_rmse 400 (fun _ => 1) (fun _ => 0) * (sqrt (INR 400) - 14) > 14 / 10000.
Proof.
  unfold true_rmse, sse. rewrite rsum_const. replace (INR 400) with 400 by (rewrite INR_IZR_INZ; reflexivity).
  replace (400 * (1 - 0) ^ 2 / 400) with 1 by field. rewrite sqrt_1. replace 400 with (20 * 20) by ring. rewrite sqrt_square by lra. lra.
Qed.
Theorem C52_rmse_correct_refuted : exists (m : nat) (v e : nat -> R), (0 < m)%nat /\ Rabs (fm_rmse (feature_metrics m v e) - true_rmse m v e) > / 20000.
Proof.
  exists 400%nat, (fun _ => 1), (fun _ => 0). split; [lia|].
  destruct (C52_wrong_otherwise 400 (fun _ => 1) (fun _ => 0) ltac:(lia)) as [H _]. specialize (H C52_wrong_instance).
  rewrite Rabs_right; lra.
Qed.
Print Assumptions C52_rmse_correct_refuted.

(** The other columns: mean and population variance of data and estimate. *)
Theorem C52_moments : forall (m : nat) (V E : mat) (j : nat), (0 < m)%nat ->
  let r := features_metrics m V E j in
  let avg (A : mat) := rsum m (fun t => A t j) / INR m in
  let var (A : mat) := rsum m (fun t => (A t j - avg A) ^ 2) / INR m in
  Rabs (fm_mean r - avg V) <= / 20000 /\ Rabs (fm_var r - var V) <= / 20000 /\
  Rabs (fm_est_mean r - avg E) <= / 20000 /\ Rabs (fm_est_var r - var E) <= / 20000.
Proof.
  intros m V E j Hm. cbv zeta. unfold features_metrics. cbn [fm_mean fm_var fm_est_mean fm_est_var feature_metrics].
  assert (P : forall A : mat, pvar m (fun t => A t j) = rsum m (fun t => (A t j - rsum m (fun s => A s j) / INR m) ^ 2) / INR m).
  { intros A. unfold pvar, cov, mean. f_equal. apply rsum_ext. intros. ring. }
  rewrite <- !P. repeat split; apply round4_err.
Qed.
Print Assumptions C52_moments.
(* a feature of three observed values and its constant estimate *)
Definition xa_v (t : nat) : R := INR t + 1.
Definition xa_e (t : nat) : R := 2.
Example C52_reported_rmse_example := C52_reported_rmse 3 xa_v xa_e ltac:(lia).
Example C52_correct_for_196_samples_example := C52_correct_for_196_samples xa_v xa_e.
Example C52_wrong_otherwise_example :
  fm_rmse (feature_metrics 400 (fun _ => 1) (fun _ => 0)) > true_rmse 400 (fun _ => 1) (fun _ => 0) + / 20000 :=
  proj1 (C52_wrong_otherwise 400 (fun _ => 1) (fun _ => 0) ltac:(lia)) C52_wrong_instance.
Example C52_moments_example := C52_moments 3 (fun t _ => xa_v t) (fun t _ => xa_e t) 0 ltac:(lia).

(** ** C53 *)
Definition total (k : nat) (H : mat) (j : nat) : R := rsum k (fun i => H i j).
Lemma norm_fin k H i j : total k H j <> 0 -> norm_profile k H i j = Fin (100 * (H i j / total k H j)).
Proof. intros Ht. unfold norm_profile, fdiv. fold (total k H j). destruct (Req_EM_T (total k H j) 0); [contradiction|]. reflexivity. Qed.

(** Shares of a feature: they add to 100, lie between 0 and 100 and are in the
    proportions of the profile values; a feature without any profile value gives
    NaN for every factor. *)
Theorem C53_shares : forall (k : nat) (H : mat) (j : nat),
  (total k H j <> 0 ->
     (exists s, (forall i, norm_profile k H i j = Fin (s i)) /\ rsum k s = 100 /\
        (forall i l, s i * H l j = s l * H i j) /\
        ((forall i, (i < k)%nat -> 0 <= H i j) -> forall i, (i < k)%nat -> 0 <= s i <= 100) /\
        (0 < total k H j -> forall i l, s i <= s l <-> H i j <= H l j))) /\
  ((forall i, (i < k)%nat -> H i j = 0) -> forall i, (i < k)%nat -> norm_profile k H i j = NaN).
Proof.
  intros k H j. split.
  - intros Ht. exists (fun i => 100 * (H i j / total k H j)). split; [intros i; apply norm_fin, Ht|]. split; [|split; [|split]].
    + rewrite rsum_scal_l. unfold Rdiv. rewrite rsum_scal_r. fold (total k H j). field. exact Ht.
    + intros i l. field. exact Ht.
    + intros Hn i Hi. assert (Hle : H i j <= total k H j).
      { unfold total. rewrite (rsum_split k _ i Hi). pose proof (rsum_nonneg k (fun i0 => if Nat.eqb i0 i then 0 else H i0 j)) as G. cbv beta in G.
        assert (0 <= rsum k (fun i0 => if Nat.eqb i0 i then 0 else H i0 j)); [|lra]. apply G. intros l Hl. destruct (Nat.eqb l i); [lra|apply Hn, Hl]. }
      assert (0 <= H i j) by (apply Hn, Hi). assert (0 < total k H j) by lra. split.
      * apply Rmult_le_pos; [lra|]. apply Rmult_le_pos; [lra|]. left. apply Rinv_0_lt_compat. lra.
      * apply (Rmult_le_reg_r (total k H j)); [lra|]. replace (100 * (H i j / total k H j) * total k H j) with (100 * H i j) by (field; lra). lra.
    + intros Hp i l. split; intros Hle.
      * apply (Rmult_le_reg_l (100 / total k H j)); [apply Rmult_lt_0_compat; [lra|apply Rinv_0_lt_compat; lra]|].
        replace (100 / total k H j * H i j) with (100 * (H i j / total k H j)) by (field; lra).
        replace (100 / total k H j * H l j) with (100 * (H l j / total k H j)) by (field; lra). exact Hle.
      * apply Rmult_le_compat_l; [lra|]. apply Rmult_le_compat_r; [left; apply Rinv_0_lt_compat; lra|exact Hle].
  - intros Hz i Hi. unfold norm_profile. rewrite Hz by exact Hi. rewrite (rsum_ext k _ (fun _ => 0)) by (intros; apply Hz; assumption).
    rewrite rsum_0. cbn [fdiv]. destruct (Req_EM_T 0 0); [|contradiction]. unfold fsign. destruct (Rlt_dec 0 0); [lra|].
    unfold inf_of_sign. destruct (Rlt_dec 0 0); [lra|]. reflexivity.
Qed.
Print Assumptions C53_shares.
Example C53_instance : total 2 (fun i _ => INR (S i)) 0 <> 0 /\ norm_profile 2 (fun i _ => INR (S i)) 0 0 = Fin (100 * (1 / 3)).
Proof.
  assert (E : total 2 (fun i _ => INR (S i)) 0 = 3) by (unfold total; cbn; lra). split; [rewrite E; lra|].
  rewrite norm_fin by (rewrite E; lra). rewrite E. reflexivity.
Qed.

(** The composition plot shows the same shares as fractions of one. *)
Theorem C53_composition : forall (k : nat) (H : mat) (j : nat), total k H j <> 0 ->
  exists c, (forall i, composition k H i j = Fin (c i) /\ norm_profile k H i j = Fin (100 * c i)) /\ rsum k c = 1.
Proof.
  intros k H j Ht. exists (fun i => H i j / total k H j). split.
  - intros i. split; [|apply norm_fin, Ht]. unfold composition, fdiv. fold (total k H j). destruct (Req_EM_T (total k H j) 0); [contradiction|reflexivity].
  - unfold Rdiv. rewrite rsum_scal_r. fold (total k H j). field. exact Ht.
Qed.
Print Assumptions C53_composition.

(** Normalised contributions: relative to the mean in the profile plot; the
    G-space plot divides by the sum and the contribution plot gives percent of
    the sum, although both say "avg=1". *)
Theorem C53_contributions : forall (m : nat) (W : mat) (i : nat), rsum m (fun t => W t i) <> 0 ->
  let S := rsum m (fun t => W t i) in
  (exists p, (forall t, profile_contribution m W t i = Fin (p t) /\ p t * S = INR m * W t i) /\ rsum m p / INR m = 1) /\
  (exists g, (forall t, gspace_contribution m W t i = Fin (g t) /\ g t * S = W t i) /\
     rsum m g = 1 /\ rsum m g / INR m = 1 / INR m) /\
  (exists c, (forall t, percent_contribution m W t i = Fin (c t) /\ c t * S = 100 * W t i) /\
     rsum m c = 100 /\ rsum m c / INR m = 100 / INR m).
Proof.
  intros m W i Hs S. assert (Hm : INR m <> 0). { intros H. apply (INR_eq m 0) in H. subst. apply Hs. reflexivity. }
  assert (Hmean : mean m (fun s => W s i) <> 0). { unfold mean. intros H. apply Hs. apply (Rmult_eq_reg_r (/ INR m)); [|apply Rinv_neq_0_compat, Hm]. rewrite Rmult_0_l. exact H. }
  split; [|split].
  - exists (fun t => W t i / mean m (fun s => W s i)). split.
    + intros t. split.
      * unfold profile_contribution, fdiv. destruct (Req_EM_T (mean m (fun s => W s i)) 0); [contradiction|reflexivity].
      * unfold mean, S. field. split; assumption.
    + unfold Rdiv at 2. rewrite rsum_scal_r. unfold mean. field. split; assumption.
  - exists (fun t => W t i / rsum m (fun s => W s i)).
    assert (E : rsum m (fun t => W t i / rsum m (fun s => W s i)) = 1)
      by (unfold Rdiv; rewrite rsum_scal_r; field; exact Hs).
    split; [|rewrite E; auto]. intros t. split.
    + unfold gspace_contribution, fdiv. destruct (Req_EM_T (rsum m (fun s => W s i)) 0); [contradiction|reflexivity].
    + unfold S. field. exact Hs.
  - exists (fun t => 100 * (W t i / rsum m (fun s => W s i))).
    assert (E : rsum m (fun t => 100 * (W t i / rsum m (fun s => W s i))) = 100)
      by (rewrite rsum_scal_l; unfold Rdiv; rewrite rsum_scal_r; field; exact Hs).
    split; [|rewrite E; auto]. intros t. split.
    + unfold percent_contribution, fdiv. destruct (Req_EM_T (rsum m (fun s => W s i)) 0); [contradiction|reflexivity].
    + unfold S. field. exact Hs.
Qed.
Print Assumptions C53_contributions.
Theorem C53_gspace_average_one_refuted : exists (m : nat) (W : mat) (g : nat -> R),
  (forall t, gspace_contribution m W t 0 = Fin (g t)) /\ (0 < m)%nat /\ rsum m g / INR m <> 1.
Proof.
  destruct (C53_contributions 2 (fun _ _ => 1) 0) as (_ & (g & Hg & _ & Hs) & _); [cbn; lra|].
  exists 2%nat, (fun _ _ => 1), g. split; [intros t; apply Hg|]. split; [lia|]. rewrite Hs. cbn. lra.
Qed.
Print Assumptions C53_gspace_average_one_refuted.

(** Bars: the mass of the feature in the factor, and over the factors the mass in
    the model; a factor without mass is drawn with 1e-12. *)
Theorem C53_bars : forall (m k : nat) (W H : mat) (j : nat),
  (forall i, rsum m (fun t => W t i) * H i j <> 0 -> conc_sum m W H i j = rsum m (fun t => W t i) * H i j) /\
  (forall i, rsum m (fun t => W t i) * H i j = 0 -> conc_sum m W H i j = / 1000000000000) /\
  ((forall i, (i < k)%nat -> rsum m (fun t => W t i) * H i j <> 0) -> rsum k (fun i => conc_sum m W H i j) = rsum m (fun t => mmul k W H t j)).
Proof.
  intros m k W H j.
  assert (S : forall i, rsum m (fun t => W t i * H i j) = rsum m (fun t => W t i) * H i j) by (intros; apply rsum_scal_r).
  assert (A : forall i, rsum m (fun t => W t i) * H i j <> 0 -> conc_sum m W H i j = rsum m (fun t => W t i) * H i j).
  { intros i Hi. unfold conc_sum. rewrite S. destruct (Reqb _ 0) eqn:E; [apply Reqb_iff in E; contradiction|reflexivity]. }
  split; [exact A|]. split.
  - intros i Hi. unfold conc_sum. rewrite S, Hi, (proj2 (Reqb_iff 0 0)) by reflexivity. reflexivity.
  - intros Hn. unfold mmul. rewrite rsum_swap. apply rsum_ext. intros i Hi. rewrite A by (apply Hn, Hi). symmetry. apply S.
Qed.
Print Assumptions C53_bars.
(* two factors with the profiles 1 and 2, and three samples *)
Definition xa_H : mat := fun i _ => INR i + 1.
Definition xa_W : mat := fun t i => INR t + 1.
Lemma xa_total : total 2 xa_H 0 <> 0.
Proof. unfold total, xa_H. cbn [rsum INR]. lra. Qed.
Lemma xa_W_total : forall i, rsum 3 (fun t => xa_W t i) = 6.
Proof. intros i. unfold xa_W. cbn [rsum INR]. lra. Qed.
Example C53_shares_example := proj1 (C53_shares 2 xa_H 0) xa_total.
Example C53_composition_example := C53_composition 2 xa_H 0 xa_total.
Example C53_contributions_example :=
  C53_contributions 3 xa_W 1 ltac:(rewrite xa_W_total; lra).
Example C53_bars_example : rsum 2 (fun i => conc_sum 3 xa_W xa_H i 0%nat) = rsum 3 (fun t => mmul 2 xa_W xa_H t 0%nat).
Proof.
  apply (C53_bars 3 2 xa_W xa_H 0). intros i _. rewrite xa_W_total. unfold xa_H. pose proof (pos_INR i). lra.
Qed.

(** The per-factor matrices add up to the model. *)
Theorem C53_factors_add_up : forall (k : nat) (W H V : mat) (t j : nat),
  factor_vprime k W H t j = mmul k W H t j /\
  (V t j <> 0 -> exists p, (forall i, percent_matrix W H V i t j = Fin (p i)) /\ rsum k p = mmul k W H t j / V t j).
Proof.
  intros k W H V t j. split.
  - unfold factor_vprime, mmul. assert (G : forall l a, fold_left (fun acc i => acc + factor_matrix W H i t j) l a = a + lsum (map (fun i => W t i * H i j) l)).
    { induction l as [|i l IH]; intros a; cbn; [ring|]. rewrite IH. unfold factor_matrix. ring. }
    rewrite G, lsum_seq. cbn [Nat.add]. ring.
  - intros Hv. exists (fun i => W t i * H i j / V t j). split.
    + intros i. unfold percent_matrix, fdiv. destruct (Req_EM_T (V t j) 0); [contradiction|reflexivity].
    + unfold Rdiv. rewrite rsum_scal_r. reflexivity.
Qed.
Print Assumptions C53_factors_add_up.
Example C53_factors_add_up_example := proj2 (C53_factors_add_up 2 xa_W xa_H (fun _ _ => 5) 1 0) ltac:(lra).
(** The surface plot's "percentage of the sum of all factors" is a fraction of the
    observed value, so the factors do not add to the whole. *)
Theorem C53_surface_adds_to_whole_refuted : exists (k : nat) (W H V : mat) (p : nat -> R),
  (forall i, percent_matrix W H V i 0 0 = Fin (p i)) /\ mmul k W H 0%nat 0%nat <> 0 /\ rsum k p <> 1 /\ rsum k p <> 100.
Proof.
  destruct (C53_factors_add_up 1 (fun _ _ => 1) (fun _ _ => 1) (fun _ _ => 2) 0 0) as [_ H].
  destruct H as (p & Hp & Hs); [lra|]. exists 1%nat, (fun _ _ => 1), (fun _ _ => 1), (fun _ _ => 2), p.
  split; [exact Hp|]. rewrite Hs. unfold mmul. cbn. repeat split; lra.
Qed.
Print Assumptions C53_surface_adds_to_whole_refuted.

(** The pie chart lists exactly the factors with a share above the threshold, in
    decreasing order; only negative thresholds are refused. *)
Theorem C53_pie : forall (k : nat) (H : mat) (j : nat) (c : R),
  (forall i v, In (i, v) (pie k H j c) <-> (i < k)%nat /\ v = norm_profile k H i j /\ flt (Fin c) v = true) /\
  (forall a b l1 l2 l3, pie k H j c = (l1 ++ a :: l2 ++ b :: l3)%list -> (fst b < fst a)%nat) /\
  (threshold_rejected c = true <-> c < 0).
Proof.
  intros k H j c. split; [|split].
  - intros i v. unfold pie. rewrite filter_In, in_map_iff. cbn [snd]. split.
    + intros [(i' & [= <- <-] & Hi) Hf]. apply in_rev, in_seq in Hi. repeat split; [lia|exact Hf].
    + intros (Hi & -> & Hf). split; [|exact Hf]. exists i. split; [reflexivity|]. rewrite <- in_rev. apply in_seq. lia.
  - assert (G : forall l, (forall a b l1 l2 l3, l = (l1 ++ a :: l2 ++ b :: l3)%list -> (fst b < fst a)%nat) ->
       forall (p : nat * fl -> bool) a b l1 l2 l3, filter p l = (l1 ++ a :: l2 ++ b :: l3)%list -> (fst b < fst a)%nat).
    { intros l Hl p.
      assert (S : forall l x r t, filter p l = (t ++ x :: r)%list -> exists u w, l = (u ++ x :: w)%list /\ filter p w = r).
      { clear. induction l as [|y l IH]; intros x r t E; [destruct t; discriminate|]. cbn in E. destruct (p y) eqn:Ey.
        - destruct t as [|y' t]; cbn in E; injection E as <- E.
          + exists [], l. split; [reflexivity|exact E].
          + destruct (IH _ _ _ E) as (u & w & -> & Hw). exists (y :: u), w. auto.
        - destruct (IH _ _ _ E) as (u & w & -> & Hw). exists (y :: u), w. auto. }
      intros a b l1 l2 l3 E. destruct (S _ _ _ _ E) as (u & w & -> & Hw). destruct (S _ _ _ _ Hw) as (u' & w' & -> & _).
      apply (Hl a b u u' w'). reflexivity. }
    unfold pie. apply G. clear G c.
    assert (N : forall n l1 l2 l3 a b, map (fun i => (i, norm_profile k H i j)) (rev (seq 0 n)) = (l1 ++ a :: l2 ++ b :: l3)%list -> (fst b < fst a)%nat).
    { induction n as [|n IH]; intros l1 l2 l3 a b E; [destruct l1; discriminate|].
      rewrite seq_S, rev_app_distr in E. cbn [rev app map Nat.add] in E. destruct l1 as [|x l1]; cbn [app] in E.
      - injection E as <- E. assert (Hb : In b (map (fun i => (i, norm_profile k H i j)) (rev (seq 0 n)))) by (rewrite E; apply in_or_app; right; left; reflexivity).
        apply in_map_iff in Hb. destruct Hb as (i & <- & Hi). apply in_rev, in_seq in Hi. cbn. lia.
      - injection E as _ E. exact (IH _ _ _ _ _ E). }
    intros a b l1 l2 l3. apply N.
  - unfold threshold_rejected. rewrite andb_true_iff, !Rltb_iff. lra.
Qed.
Print Assumptions C53_pie.
Example C53_pie_example := C53_pie 2 xa_H 0 5.
Theorem C53_threshold_above_50_rejected_refuted : exists c, 50 < c /\ threshold_rejected c = false.
Proof.
  exists 60. split; [lra|]. destruct (threshold_rejected 60) eqn:E; [|reflexivity].
  apply (proj2 (proj2 (C53_pie 0 (fun _ _ => 0) 0 60))) in E. lra.
Qed.
Print Assumptions C53_threshold_above_50_rejected_refuted.

(** ** C76: batch plots *)
Section BatchPlots.
  Context {model : Type}.
  Lemma keep_in (l : list (option model)) : forall i p a, In (p, a) (keep (enumerate i l)) <-> exists q, p = (i + q)%nat /\ nth_error l q = Some (Some a).
  Proof.
    induction l as [|x l IH]; intros i p a; cbn [enumerate keep flat_map].
    - split; [intros []|]. intros (q & _ & E). destruct q; discriminate.
    - rewrite in_app_iff. unfold keep in IH. rewrite IH. split.
      + intros [H|(q & -> & E)].
        * destruct x as [b|]; cbn in H; [|tauto]. destruct H as [[= <- <-]|[]]. exists 0%nat. split; [lia|reflexivity].
        * exists (S q). split; [lia|exact E].
      + intros (q & -> & E). destruct q as [|q]; cbn in E.
        * injection E as ->. left. cbn. left. f_equal. lia.
        * right. exists q. split; [lia|exact E].
  Qed.
  Lemma nth_filter_some (l : list (option model)) q a : nth_error (filter (fun r => match r with Some _ => true | None => false end) l) q = Some (Some a) <->
    exists p, nth_error l p = Some (Some a) /\ q = List.length (filter (fun r => match r with Some _ => true | None => false end) (firstn p l)).
  Proof.
    revert q. induction l as [|x l IH]; intros q; cbn [filter].
    - split; [destruct q; discriminate|]. intros (p & E & _). destruct p; discriminate.
    - split.
      + intros E. destruct x as [b|].
        * destruct q as [|q]; cbn in E; [exists 0%nat; split; [exact E|reflexivity]|]. apply IH in E. destruct E as (p & E & ->). exists (S p). split; [exact E|reflexivity].
        * apply IH in E. destruct E as (p & E & ->). exists (S p). split; [exact E|reflexivity].
      + intros (p & E & ->). destruct p as [|p]; cbn [nth_error firstn filter List.length] in *.
        * injection E as ->. reflexivity.
        * destruct x as [b|]; cbn [List.length nth_error]; apply IH; exists p; auto.
  Qed.
End BatchPlots.

(** With a data handler, and in the loss plot, the trace of the model at position
    [p] carries number p + 1; the loss distribution numbers it p. *)
Theorem C76_labels : forall (model : Type) (results : list (option model)) (best : nat) (m : model),
  (forall l, In (l, m) (loss_traces results) <-> exists p, l = (p + 1)%nat /\ nth_error results p = Some (Some m)) /\
  (forall l, In (l, m) (loss_points results) <-> nth_error results l = Some (Some m)) /\
  (forall l vis, In (mkTrace l m vis) (temporal_traces true best results) <-> exists p, l = (p + 1)%nat /\ nth_error results p = Some (Some m) /\ vis = (p =? best)%nat).
Proof.
  intros model results best m. split; [|split].
  - intros l. unfold loss_traces. rewrite in_map_iff. split.
    + intros ([p a] & [= <- <-] & H). apply keep_in in H. destruct H as (q & -> & E). exists q. split; [reflexivity|exact E].
    + intros (p & -> & E). exists (p, m). split; [reflexivity|]. apply keep_in. exists p. auto.
  - intros l. unfold loss_points. rewrite keep_in. cbn [Nat.add]. split; [intros (q & -> & E); exact E|intros E; exists l; auto].
  - intros l vis. unfold temporal_traces. rewrite in_map_iff. split.
    + intros ([p a] & [= <- <- <-] & H). apply keep_in in H. destruct H as (q & -> & E). exists q. auto.
    + intros (p & -> & E & ->). exists (p, m). split; [reflexivity|]. apply keep_in. exists p. auto.
Qed.
Print Assumptions C76_labels.

Definition finished_before {model} (results : list (option model)) (p : nat) : nat :=
  List.length (filter (fun r => match r with Some _ => true | None => false end) (firstn p results)).
(** Without a data handler the models are renumbered after dropping the failed
    ones, so number and visibility are right exactly when none before it failed. *)
Theorem C76_residuals_without_handler : forall (model : Type) (results : list (option model)) (best : nat) (m : model) (l : nat) (vis : bool),
  In (mkTrace l m vis) (temporal_traces false best results) <->
  exists p, nth_error results p = Some (Some m) /\ l = (finished_before results p + 1)%nat /\ vis = (finished_before results p =? best)%nat.
Proof.
  intros model results best m l vis. unfold temporal_traces. rewrite in_map_iff. split.
  - intros ([p a] & [= <- <- <-] & H). apply keep_in in H. destruct H as (q & -> & E). apply nth_filter_some in E.
    destruct E as (p & E & ->). exists p. auto.
  - intros (p & E & -> & ->). exists (finished_before results p, m). split; [reflexivity|]. apply keep_in.
    exists (finished_before results p). split; [reflexivity|]. apply nth_filter_some. exists p. auto.
Qed.
Print Assumptions C76_residuals_without_handler.
Example C76_labels_example := C76_labels nat [None; Some 10; Some 20]%nat 1 20%nat.
Example C76_residuals_without_handler_example : In (mkTrace 2 20%nat true) (temporal_traces false 1 [None; Some 10; Some 20]%nat).
Proof.
  apply (C76_residuals_without_handler nat [None; Some 10; Some 20]%nat 1 20%nat 2 true).
  exists 2%nat. repeat split.
Qed.
Theorem C76_best_model_shown_refuted : exists (results : list (option nat)) (best m : nat),
  nth_error results best = Some (Some m) /\ ~ In (mkTrace (best + 1) m true) (temporal_traces false best results) /\
  exists m', m' <> m /\ In (mkTrace (best + 1) m' true) (temporal_traces false best results).
Proof.
  exists [None; Some 10%nat; Some 20%nat], 1%nat, 10%nat. split; [reflexivity|]. split.
  - cbn. intros [[=]|[[=]|[]]].
  - exists 20%nat. split; [discriminate|]. cbn. right. left. reflexivity.
Qed.
Print Assumptions C76_best_model_shown_refuted.
Example C76_instance : loss_traces [None; Some 10%nat; Some 20%nat] = [(2, 10); (3, 20)]%nat /\ finished_before [None; Some 10%nat; Some 20%nat] 2 = 1%nat.
Proof. split; reflexivity. Qed.


(** ** C77: the statistics table *)
Definition line_error (n : nat) (x y : nat -> R) (a b : R) : R := rsum n (fun t => (y t - (a * x t + b)) ^ 2).

Lemma line_error_eq n x y a b : (0 < n)%nat ->
  line_error n x y a b = cov n y y - 2 * a * cov n x y + a * a * cov n x x + INR n * (mean n y - a * mean n x - b) ^ 2.
Proof.
  intros Hn. assert (HN : INR n <> 0) by (apply not_0_INR; lia).
  assert (Hx : rsum n (fun t => x t - mean n x) = 0). { rewrite rsum_minus, rsum_const. unfold mean. field. exact HN. }
  assert (Hy : rsum n (fun t => y t - mean n y) = 0). { rewrite rsum_minus, rsum_const. unfold mean. field. exact HN. }
  set (d := mean n y - a * mean n x - b).
  unfold line_error.
  rewrite (rsum_ext n _ (fun t => (y t - mean n y) * (y t - mean n y) - 2 * a * ((x t - mean n x) * (y t - mean n y)) + a * a * ((x t - mean n x) * (x t - mean n x))
     + (2 * d * (y t - mean n y) - 2 * d * a * (x t - mean n x) + d ^ 2))).
  2:{ intros t _. unfold d. ring. }
  rewrite rsum_plus. rewrite (rsum_plus n (fun t => (y t - mean n y) * (y t - mean n y) - 2 * a * ((x t - mean n x) * (y t - mean n y)))).
  rewrite rsum_minus, !rsum_scal_l. rewrite rsum_plus, rsum_minus, !rsum_scal_l, Hx, Hy, rsum_const. unfold cov. ring.
Qed.
Lemma cov_sq_le n x y : cov n x y * cov n x y <= cov n x x * cov n y y.
Proof. apply (cauchy n (fun t => x t - mean n x) (fun t => y t - mean n y)). Qed.

Lemma r_sq n x y r : linregress n x y = Some r -> rg_r r * rg_r r * (cov n x x * cov n y y) = cov n x y * cov n x y /\ 0 <= rg_r r * rg_r r <= 1 /\ 0 < cov n x x.
Proof.
  unfold linregress. destruct (Reqb (cov n x x) 0) eqn:E; [discriminate|]. intros [= <-]. cbn [rg_r].
  assert (Hx : 0 < cov n x x). { destruct (cov_self_nonneg n x) as [H|H]; [exact H|]. symmetry in H. apply Reqb_iff in H. congruence. }
  pose proof (cov_sq_le n x y) as HC.
  destruct (Reqb (cov n y y) 0) eqn:E2.
  - apply Reqb_iff in E2. rewrite E2 in *. assert (cov n x y * cov n x y = 0). { pose proof (Rle_0_sqr (cov n x y)). unfold Rsqr in *. lra. } lra.
  - assert (Hy : 0 < cov n y y). { destruct (cov_self_nonneg n y) as [H|H]; [exact H|]. symmetry in H. apply Reqb_iff in H. congruence. }
    assert (HP : 0 < cov n x x * cov n y y) by (apply Rmult_lt_0_compat; assumption).
    assert (HS : cov n x y / sqrt (cov n x x * cov n y y) * (cov n x y / sqrt (cov n x x * cov n y y)) = cov n x y * cov n x y / (cov n x x * cov n y y)).
    { rewrite <- (sqrt_sqrt (cov n x x * cov n y y)) at 3 by lra. field. apply Rgt_not_eq, sqrt_lt_R0, HP. }
    rewrite HS. split; [field; split; lra|]. split; [|exact Hx]. split.
    + apply Rmult_le_pos; [apply Rle_0_sqr|]. left. apply Rinv_0_lt_compat, HP.
    + apply (Rmult_le_reg_r (cov n x x * cov n y y)); [exact HP|]. unfold Rdiv. rewrite Rmult_assoc, Rinv_l by lra. lra.
Qed.

(** The reported line is the least-squares line, "SE Regression" its root mean
    square distance to the predictions, r2 the share of variance it explains. *)
Theorem C77_regression : forall (n : nat) (x y : nat -> R) (r : regression), (0 < n)%nat -> linregress n x y = Some r ->
  (forall a b, line_error n x y (rg_slope r) (rg_intercept r) <= line_error n x y a b) /\
  (forall a b, line_error n x y a b = line_error n x y (rg_slope r) (rg_intercept r) -> a = rg_slope r /\ b = rg_intercept r) /\
  se_regression n y r = sqrt (line_error n x y (rg_slope r) (rg_intercept r) / INR n) /\
  0 <= rg_r r * rg_r r <= 1 /\
  (cov n y y <> 0 -> rg_r r * rg_r r = 1 - line_error n x y (rg_slope r) (rg_intercept r) / cov n y y) /\
  (cov n y y <> 0 -> (rg_r r * rg_r r = 1 <-> exists a b, forall t, (t < n)%nat -> y t = a * x t + b)).
Proof.
  intros n x y r Hn E. destruct (r_sq n x y r E) as (R1 & R2 & Hx). assert (HN : 0 < INR n) by (apply lt_0_INR; exact Hn).
  assert (ES : rg_slope r = cov n x y / cov n x x /\ rg_intercept r = mean n y - rg_slope r * mean n x).
  { unfold linregress in E. destruct (Reqb (cov n x x) 0); [discriminate|]. injection E as <-. split; reflexivity. }
  destruct ES as [Es Ei].
  assert (EM : line_error n x y (rg_slope r) (rg_intercept r) = cov n y y - cov n x y * cov n x y / cov n x x).
  { rewrite line_error_eq by exact Hn. rewrite Ei, Es. field. lra. }
  assert (ED : forall a b, line_error n x y a b = line_error n x y (rg_slope r) (rg_intercept r) + cov n x x * (a - rg_slope r) ^ 2 + INR n * (mean n y - a * mean n x - b) ^ 2).
  { intros a b. rewrite EM, line_error_eq by exact Hn. rewrite Es. field. lra. }
  assert (P1 : forall a, 0 <= cov n x x * (a - rg_slope r) ^ 2) by (intros; apply Rmult_le_pos; [lra|apply pow2_ge_0]).
  assert (P2 : forall a b, 0 <= INR n * (mean n y - a * mean n x - b) ^ 2) by (intros; apply Rmult_le_pos; [lra|apply pow2_ge_0]).
  assert (U : forall a b, line_error n x y a b = line_error n x y (rg_slope r) (rg_intercept r) -> a = rg_slope r /\ b = rg_intercept r).
  { intros a b H. rewrite ED in H. specialize (P1 a). specialize (P2 a b).
    assert (Z1 : cov n x x * (a - rg_slope r) ^ 2 = 0) by lra. assert (Z2 : INR n * (mean n y - a * mean n x - b) ^ 2 = 0) by lra.
    apply Rmult_integral in Z1. destruct Z1 as [Z1|Z1]; [lra|]. apply Rmult_integral in Z2. destruct Z2 as [Z2|Z2]; [lra|].
    assert (a - rg_slope r = 0) by (destruct (Req_dec (a - rg_slope r) 0) as [|Hne]; [assumption|apply (pow_nonzero _ 2) in Hne; contradiction]).
    assert (mean n y - a * mean n x - b = 0) by (destruct (Req_dec (mean n y - a * mean n x - b) 0) as [|Hne]; [assumption|apply (pow_nonzero _ 2) in Hne; contradiction]).
    assert (a = rg_slope r) by lra. subst a. split; [reflexivity|]. rewrite Ei. lra. }
  assert (EV : cov n y y <> 0 -> rg_r r * rg_r r = 1 - line_error n x y (rg_slope r) (rg_intercept r) / cov n y y).
  { intros Hy. rewrite EM. assert (rg_r r * rg_r r = cov n x y * cov n x y / (cov n x x * cov n y y)).
    { rewrite <- R1. field. split; lra. } rewrite H. field. split; lra. }
  split; [intros a b; rewrite (ED a b); specialize (P1 a); specialize (P2 a b); lra|]. split; [exact U|]. split; [|split; [exact R2|split; [exact EV|]]].
  - unfold se_regression, pstd, pvar. rewrite <- sqrt_mult.
    + f_equal. rewrite EM. rewrite <- R1. field. split; lra.
    + lra.
    + apply Rmult_le_pos; [apply cov_self_nonneg|]. left. apply Rinv_0_lt_compat. exact HN.
  - intros Hy. rewrite EV by exact Hy. split.
    + intros H. exists (rg_slope r), (rg_intercept r).
      assert (Z : line_error n x y (rg_slope r) (rg_intercept r) = 0).
      { apply (Rmult_eq_reg_r (/ cov n y y)); [|apply Rinv_neq_0_compat, Hy]. unfold Rdiv in H. lra. }
      intros t Ht. unfold line_error in Z.
      pose proof (rsum_nonneg_zero n (fun t => (y t - (rg_slope r * x t + rg_intercept r)) ^ 2)) as G. cbv beta in G.
      specialize (G ltac:(intros; apply pow2_ge_0) Z t Ht).
      destruct (Req_dec (y t - (rg_slope r * x t + rg_intercept r)) 0) as [|Hne]; [lra|]. apply (pow_nonzero _ 2) in Hne. contradiction.
    + intros (a & b & H). assert (Z : line_error n x y a b = 0). { unfold line_error. rewrite <- (rsum_0 n). apply rsum_ext. intros t Ht. rewrite (H t Ht). ring. }
      assert (Z2 : line_error n x y (rg_slope r) (rg_intercept r) = 0).
      { assert (0 <= line_error n x y (rg_slope r) (rg_intercept r)) by (apply rsum_nonneg; intros; apply pow2_ge_0).
        specialize (ED a b). specialize (P1 a). specialize (P2 a b). lra. }
      rewrite Z2. unfold Rdiv. ring.
Qed.
Print Assumptions C77_regression.

(** A model that reproduces the data has slope 1, intercept 0, r2 1, no error. *)
Theorem C77_perfect_model : forall (n : nat) (x : nat -> R), (0 < n)%nat -> cov n x x <> 0 ->
  exists r, linregress n x x = Some r /\ rg_slope r = 1 /\ rg_intercept r = 0 /\ rg_r r * rg_r r = 1 /\ se_regression n x r = 0 /\ stat_se n x x = 0.
Proof.
  intros n x Hn Hx. unfold linregress. destruct (Reqb (cov n x x) 0) eqn:E; [apply Reqb_iff in E; contradiction|].
  eexists. split; [reflexivity|]. cbn [rg_slope rg_intercept rg_r].
  assert (HS : cov n x x / cov n x x = 1) by (field; exact Hx). rewrite HS.
  assert (HR : cov n x x / sqrt (cov n x x * cov n x x) = 1) by (rewrite sqrt_square by apply cov_self_nonneg; exact HS).
  unfold se_regression. cbn [rg_r]. rewrite HR. replace (1 - 1 * 1) with 0 by ring. rewrite sqrt_0.
  repeat split; try ring. unfold stat_se, pstd, pvar.
  rewrite (cov_ext n _ _ (fun _ => 0) (fun _ => 0)) by (intros; ring). rewrite cov_const. unfold Rdiv. rewrite Rmult_0_l, sqrt_0. ring.
Qed.
Print Assumptions C77_perfect_model.
Lemma xa_cov : cov 3 xa_v xa_v <> 0.
Proof. unfold cov, mean, xa_v. cbn [rsum INR]. lra. Qed.
Example C77_perfect_model_example := C77_perfect_model 3 xa_v ltac:(lia) xa_cov.
Example C77_regression_example : exists r, linregress 3 xa_v xa_v = Some r /\
  forall a b, line_error 3 xa_v xa_v (rg_slope r) (rg_intercept r) <= line_error 3 xa_v xa_v a b.
Proof.
  destruct C77_perfect_model_example as (r & H & _). exists r. split; [exact H |].
  exact (proj1 (C77_regression 3 xa_v xa_v r ltac:(lia) H)).
Qed.
Example C77_instance : cov 2 INR INR <> 0.
Proof. unfold cov, mean. cbn. lra. Qed.

(** "SE" only sees the spread of the residuals: any constant bias goes unnoticed,
    and the r2 of predictions that are all equal is 0. *)
Theorem C77_se_zero_iff : forall (n : nat) (x y : nat -> R), (0 < n)%nat ->
  (stat_se n x y = 0 <-> exists c, forall t, (t < n)%nat -> x t - y t = c).
Proof.
  intros n x y Hn. assert (HN : 0 < INR n) by (apply lt_0_INR; exact Hn). assert (0 < sqrt (INR n)) by (apply sqrt_lt_R0; exact HN).
  unfold stat_se, pstd, pvar. set (d := fun t => x t - y t). split.
  - intros H0. assert (Hs : sqrt (cov n d d / INR n) = 0).
    { apply (Rmult_eq_reg_r (/ sqrt (INR n))); [rewrite Rmult_0_l; exact H0|apply Rinv_neq_0_compat; lra]. }
    apply sqrt_eq_0 in Hs; [|apply Rmult_le_pos; [apply cov_self_nonneg|left; apply Rinv_0_lt_compat; exact HN]].
    assert (Hc : cov n d d = 0). { apply (Rmult_eq_reg_r (/ INR n)); [rewrite Rmult_0_l; exact Hs|apply Rinv_neq_0_compat; lra]. }
    exists (mean n d). intros t Ht. unfold cov in Hc.
    pose proof (rsum_nonneg_zero n (fun i => (d i - mean n d) * (d i - mean n d)) ltac:(intros; apply Rle_0_sqr) Hc t Ht) as G. cbv beta in G.
    apply Rmult_integral in G. fold (d t). lra.
  - intros [c Hc]. rewrite (cov_ext n d d (fun _ => c) (fun _ => c)) by (intros; apply Hc; assumption). rewrite cov_const.
    unfold Rdiv. rewrite Rmult_0_l, sqrt_0. ring.
Qed.
Print Assumptions C77_se_zero_iff.
Example C77_se_zero_iff_example : stat_se 3 xa_v (fun t => xa_v t - 1000) = 0.
Proof. apply (C77_se_zero_iff 3 xa_v (fun t => xa_v t - 1000) ltac:(lia)). exists 1000. intros t _. lra. Qed.
Theorem C77_se_measures_fit_refuted : exists (n : nat) (x y : nat -> R), (0 < n)%nat /\ stat_se n x y = 0 /\ forall t, (t < n)%nat -> Rabs (x t - y t) = 1000.
Proof.
  exists 5%nat, (fun t => INR t + 1000), INR. split; [lia|]. split.
  - apply C77_se_zero_iff; [lia|]. exists 1000. intros. ring.
  - intros t _. replace (INR t + 1000 - INR t) with 1000 by ring. apply Rabs_right. lra.
Qed.
Print Assumptions C77_se_measures_fit_refuted.
Theorem C77_equal_predictions : forall (n : nat) (x : nat -> R) (c : R) (r : regression), linregress n x (fun _ => c) = Some r -> rg_r r = 0.
Proof.
  intros n x c r. unfold linregress. destruct (Reqb (cov n x x) 0); [discriminate|]. intros [= <-]. cbn [rg_r].
  rewrite cov_const, (proj2 (Reqb_iff 0 0)) by reflexivity. reflexivity.
Qed.
Print Assumptions C77_equal_predictions.
Example C77_equal_predictions_example : exists r, linregress 3 xa_v (fun _ => 7) = Some r /\ rg_r r = 0.
Proof.
  destruct (linregress 3 xa_v (fun _ => 7)) as [r|] eqn:E.
  - exists r. split; [reflexivity | exact (C77_equal_predictions 3 xa_v 7 r E)].
  - exfalso. revert E. unfold linregress. destruct (Reqb _ _) eqn:E; [apply Reqb_iff in E; contradiction (xa_cov E) | discriminate].
Qed.

(** The Anderson-Darling entry: the level of the first critical value above the
    statistic, which for ascending critical values with descending levels is the
    largest level at which normality is not rejected; "No" when there is none. *)
Theorem C77_anderson : forall (stat : R) (cvs : list (R * R)),
  (forall i j a b, (i < j)%nat -> nth_error cvs i = Some a -> nth_error cvs j = Some b -> fst a <= fst b /\ snd b <= snd a) ->
  match anderson_label stat cvs with
  | Some level => (exists cv, In (cv, level) cvs /\ stat < cv) /\ forall cv l, In (cv, l) cvs -> stat < cv -> l <= level
  | None => forall cv l, In (cv, l) cvs -> cv <= stat
  end.
Proof.
  intros stat cvs. induction cvs as [|[cv level] cvs IH]; intros Hs; cbn [anderson_label]; [intros ? ? []|].
  destruct (Rltb stat cv) eqn:E.
  - apply Rltb_iff in E. split; [exists cv; split; [left; reflexivity|exact E]|]. intros cv' l [[= <- <-]|H] _; [lra|].
    apply In_nth_error in H. destruct H as [j H]. destruct (Hs 0%nat (S j) (cv, level) (cv', l) ltac:(lia) eq_refl H) as [_ H2]. exact H2.
  - apply Rltb_false in E. assert (Hs' : forall i j a b, (i < j)%nat -> nth_error cvs i = Some a -> nth_error cvs j = Some b -> fst a <= fst b /\ snd b <= snd a).
    { intros i j a b Hij Ha Hb. apply (Hs (S i) (S j)); [lia|exact Ha|exact Hb]. }
    specialize (IH Hs'). destruct (anderson_label stat cvs) as [lv|].
    + destruct IH as [(c & Hc & Hlt) H]. split; [exists c; split; [right; exact Hc|exact Hlt]|]. intros cv' l [[= <- <-]|Hin] Hl; [lra|]. exact (H _ _ Hin Hl).
    + intros cv' l [[= <- <-]|Hin]; [exact E|]. exact (IH _ _ Hin).
Qed.
Print Assumptions C77_anderson.
(** The Shapiro-Wilk and Kolmogorov-Smirnov entries: Yes exactly when normality is not
    rejected at the five per cent level; a p-value that is not a number gives No. *)
Theorem C77_yes_no : forall p : fl, normal_yes p = true <-> p = PInf \/ exists x, p = Fin x /\ 1 / 20 <= x.
Proof.
  intros p. unfold normal_yes. destruct p as [x| | |]; cbn [fle].
  - rewrite Rleb_iff. split; [intros Hx; right; exists x; split; [reflexivity|lra]|intros [H|(y & [= <-] & Hy)]; [discriminate|lra]].
  - split; [left; reflexivity|reflexivity].
  - split; [discriminate|intros [H|(y & H & _)]; discriminate].
  - split; [discriminate|intros [H|(y & H & _)]; discriminate].
Qed.
Print Assumptions C77_yes_no.
Example C77_yes_no_example : normal_yes (Fin (1 / 20)) = true.
Proof. apply C77_yes_no. right. exists (1 / 20). split; [reflexivity | lra]. Qed.
Example C77_anderson_instance : anderson_label (6 / 10) [(5 / 10, 15); (7 / 10, 10); (9 / 10, 5)] = Some 10.
Proof.
  cbn [anderson_label]. rewrite (proj2 (Rltb_false _ _)) by lra. rewrite (proj2 (Rltb_iff _ _)) by lra. reflexivity.
Qed.

(** The feature analysed: an index wins over a name, an index outside the list
    and an unknown name give nothing, and a name means its first position. *)
Theorem C77_feature_choice : forall (name : Type) (eqb : name -> name -> bool), (forall a b, eqb a b = true <-> a = b) ->
  forall (features : list name) (idx : option Z) (nm : option name) (i : nat) (x : name),
  choose_feature eqb features idx nm = Some (i, x) <->
  nth_error features i = Some x /\
  match idx with
  | Some z => z = Z.of_nat i
  | None => nm = Some x /\ forall j y, (j < i)%nat -> nth_error features j = Some y -> y <> x
  end.
Proof.
  intros name eqb Heq features idx nm i x.
  assert (IO : forall l i, index_of eqb x l = Some i <-> nth_error l i = Some x /\ forall j y, (j < i)%nat -> nth_error l j = Some y -> y <> x).
  { induction l as [|a l IH]; intros q; cbn [index_of].
    - split; [discriminate|]. intros [E _]. destruct q; discriminate.
    - destruct (eqb x a) eqn:E.
      + apply Heq in E. subst a. split.
        * intros [= <-]. split; [reflexivity|]. intros j y Hj. lia.
        * intros [_ H]. destruct q as [|q]; [reflexivity|]. exfalso. apply (H 0%nat x); [lia|reflexivity|reflexivity].
      + assert (Hne : a <> x). { intros ->. assert (eqb x x = true) by (apply Heq; reflexivity). congruence. }
        split.
        * intros H. destruct (index_of eqb x l) as [p|] eqn:Ep; [|discriminate]. cbn in H. injection H as <-.
          destruct (proj1 (IH p) eq_refl) as [H1 H2]. split; [exact H1|]. intros [|j] y Hj Hy; cbn in Hy; [congruence|]. apply (H2 j); [lia|exact Hy].
        * intros [H1 H2]. destruct q as [|q]; cbn in H1; [congruence|].
          assert (Hq : index_of eqb x l = Some q). { apply IH. split; [exact H1|]. intros j y Hj Hy. apply (H2 (S j)); [lia|exact Hy]. }
          rewrite Hq. reflexivity. }
  unfold choose_feature. destruct idx as [z|].
  - destruct ((z <? 0) || (Z.of_nat (List.length features) <=? z))%Z eqn:E.
    + split; [discriminate|]. intros [H ->]. exfalso. apply orb_true_iff in E. destruct E as [E|E].
      * apply Z.ltb_lt in E. lia.
      * apply Z.leb_le in E. assert (i < List.length features)%nat by (apply nth_error_Some; congruence). lia.
    + apply orb_false_iff in E. destruct E as [E1 E2]. apply Z.ltb_ge in E1. apply Z.leb_gt in E2. split.
      * destruct (nth_error features (Z.to_nat z)) eqn:En; [|discriminate]. cbn. intros [= <- <-]. split; [exact En|lia].
      * intros [H ->]. rewrite Nat2Z.id, H. reflexivity.
  - destruct nm as [y|].
    + split.
      * intros H. destruct (index_of eqb y features) as [p|] eqn:Ep; [|discriminate]. cbn in H. injection H as <- ->.
        apply IO in Ep. destruct Ep as [H1 H2]. auto.
      * intros (H1 & [= ->] & H2). rewrite (proj2 (IO features i) (conj H1 H2)). reflexivity.
    + split; [discriminate|]. intros (_ & [=] & _).
Qed.
Print Assumptions C77_feature_choice.
Lemma xa_levels : forall i j (a b : R * R), (i < j)%nat ->
  nth_error [(5 / 10, 15); (7 / 10, 10); (9 / 10, 5)] i = Some a ->
  nth_error [(5 / 10, 15); (7 / 10, 10); (9 / 10, 5)] j = Some b -> fst a <= fst b /\ snd b <= snd a.
Proof.
  intros i j a b Hij Ha Hb.
  destruct i as [|[|[|[|i]]]]; cbn in Ha; try discriminate; destruct j as [|[|[|[|j]]]]; cbn in Hb; try discriminate;
    try lia; inversion Ha; inversion Hb; subst; cbn; lra.
Qed.
Example C77_anderson_example :
  (exists cv, In (cv, 10) [(5 / 10, 15); (7 / 10, 10); (9 / 10, 5)] /\ 6 / 10 < cv) /\
  forall cv l, In (cv, l) [(5 / 10, 15); (7 / 10, 10); (9 / 10, 5)] -> 6 / 10 < cv -> l <= 10.
Proof.
  pose proof (C77_anderson (6 / 10) [(5 / 10, 15); (7 / 10, 10); (9 / 10, 5)] xa_levels) as H.
  rewrite C77_anderson_instance in H. exact H.
Qed.
Example C77_feature_choice_example :=
  C77_feature_choice nat Nat.eqb PeanoNat.Nat.eqb_eq [7; 8; 7]%nat None (Some 7%nat) 0 7%nat.
Example C77_feature_choice_instance : choose_feature Nat.eqb [7; 8; 7]%nat None (Some 7%nat) = Some (0, 7)%nat.
Proof. reflexivity. Qed.

(** The rows of the returned residuals: with the default threshold -1 all, otherwise the
    samples whose residual exceeds the threshold many uncertainties. *)
Theorem C77_residual_rows : forall (m : nat) (v e u : nat -> R) (thr : R) (t : nat), (forall s, (s < m)%nat -> 0 < u s) ->
  In t (residual_rows m v e u thr) <-> (t < m)%nat /\ (thr = -1 \/ Rabs (v t - e t) > thr * u t).
Proof.
  intros m v e u thr t Hu. unfold residual_rows. cbv zeta. destruct (Reqb thr (-1)) eqn:E.
  - apply Reqb_iff in E. rewrite in_seq. split; [intros; split; [lia|left; exact E]|intros; lia].
  - assert (thr <> -1) by (intros H; apply Reqb_iff in H; congruence). rewrite filter_In, in_seq. split.
    + intros [Ht Hf]. assert (Hm : (t < m)%nat) by lia. split; [exact Hm|]. right. specialize (Hu t Hm). unfold fdiv in Hf. destruct (Req_EM_T (u t) 0); [lra|].
      apply flt_fin in Hf. unfold Rdiv in Hf. rewrite Rabs_mult, (Rabs_right (/ u t)) in Hf by (left; apply Rinv_0_lt_compat; exact Hu).
      apply (Rmult_lt_compat_r (u t)) in Hf; [|exact Hu]. rewrite Rmult_assoc, Rinv_l in Hf by lra. lra.
    + intros [Ht [H1|H1]]; [contradiction|]. split; [lia|]. specialize (Hu t Ht). unfold fdiv. destruct (Req_EM_T (u t) 0); [lra|].
      apply flt_fin. unfold Rdiv. rewrite Rabs_mult, (Rabs_right (/ u t)) by (left; apply Rinv_0_lt_compat; exact Hu).
      apply (Rmult_lt_reg_r (u t)); [exact Hu|]. rewrite Rmult_assoc, Rinv_l by lra. lra.
Qed.
Print Assumptions C77_residual_rows.
Example C77_residual_rows_example := C77_residual_rows 3 xa_v xa_e (fun _ => 1) (1 / 2) 2 ltac:(intros; lra).
