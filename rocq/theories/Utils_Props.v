(** C50, C51, C75: factor comparison, number of processes, time step. *)
From Coq Require Import List Bool ZArith Reals Lra Lia.
From Verif Require Import Base Fl Boot_Model Boot_Proofs Utils_Model.
Import ListNotations.
Local Open Scope nat_scope.

(** ** C50 *)
Lemma compare_row_spec n M1 M2 i rows : forall s,
  compare_row n M1 M2 i s rows = true <-> s = true \/ exists j, In j rows /\ flt (r2 n (M1 i) (M2 i)) (r2 n (M1 i) (M2 j)) = true.
Proof.
  unfold compare_row. induction rows as [|j rows IH]; intros s; cbn [fold_left].
  - split; [auto|]. intros [H|(j & [] & _)]. exact H.
  - rewrite IH. destruct (flt (r2 n (M1 i) (M2 i)) (r2 n (M1 i) (M2 j))) eqn:E.
    + split; intros _; [right; exists j; split; [left; reflexivity|exact E]|left; reflexivity].
    + split; (intros [H|(j' & Hj & H)]; [left; exact H|]).
      * right. exists j'. split; [right; exact Hj|exact H].
      * destruct Hj as [->|Hj]; [congruence|]. right. exists j'. auto.
Qed.

(** Two profile matrices are reported as swapped exactly when some row of the
    first correlates better with another row of the second than with its own. *)
Theorem C50_swap_reported : forall (k1 k2 n : nat) (M1 M2 : mat),
  compare_all_factors k1 k2 n M1 M2 = true <->
  exists i j, i < k1 /\ j < k2 /\ flt (r2 n (M1 i) (M2 i)) (r2 n (M1 i) (M2 j)) = true.
Proof.
  intros k1 k2 n M1 M2. unfold compare_all_factors.
  assert (G : forall rows s, fold_left (fun swap i => compare_row n M1 M2 i swap (seq 0 k2)) rows s = true <->
     s = true \/ exists i j, In i rows /\ j < k2 /\ flt (r2 n (M1 i) (M2 i)) (r2 n (M1 i) (M2 j)) = true).
  { induction rows as [|i rows IH]; intros s; cbn [fold_left].
    - split; [auto|]. intros [H|(i & j & [] & _)]. exact H.
    - rewrite IH, compare_row_spec. split.
      + intros [[H|(j & Hj & H)]|(i' & j & Hi & Hj & H)]; [auto| |].
        * right. exists i, j. apply in_seq in Hj. split; [left; reflexivity|]. split; [lia|exact H].
        * right. exists i', j. split; [right; exact Hi|auto].
      + intros [H|(i' & j & [->|Hi] & Hj & H)]; [auto| |].
        * left. right. exists j. split; [apply in_seq; lia|exact H].
        * right. exists i', j. auto. }
  rewrite G. split.
  - intros [H|(i & j & Hi & Hj & H)]; [discriminate|]. apply in_seq in Hi. exists i, j. split; [lia|auto].
  - intros (i & j & Hi & Hj & H). right. exists i, j. split; [apply in_seq; lia|auto].
Qed.
Print Assumptions C50_swap_reported.
Example C50_swap_reported_example :=
  C50_swap_reported 2 2 3 (fun i t => if Nat.eqb i t then 1%R else 0%R) (fun i t => if Nat.eqb (1 - i) t then 1%R else 0%R).

Lemma r2_not_above_self n x y : flt (r2 n x x) (r2 n x y) = false.
Proof.
  destruct (Reqb (cov n x x) 0) eqn:E.
  - unfold r2 at 1. rewrite E. reflexivity.
  - rewrite r2_self by (intros H; apply Reqb_iff in H; congruence).
    destruct (r2 n x y) as [v| | |] eqn:Ev; try reflexivity.
    + apply r2_range in Ev. cbn. apply Rltb_false. lra.
    + unfold r2 in Ev. rewrite E in Ev. destruct (Reqb (cov n y y) 0); discriminate.
Qed.

(** A matrix whose rows were rescaled and shifted (with non-zero factors, also
    negative ones) is never reported as swapped; in particular not the matrix
    itself. *)
Theorem C50_rescaled_not_swapped : forall (k n : nat) (M : mat) (a b : nat -> R), (forall i, i < k -> a i <> 0%R) ->
  compare_all_factors k k n M (fun i t => a i * M i t + b i)%R = false.
Proof.
  intros k n M a b Ha. destruct (compare_all_factors _ _ _ _ _) eqn:E; [exfalso|reflexivity].
  apply C50_swap_reported in E. destruct E as (i & j & Hi & Hj & H).
  assert (R : forall i j, j < k -> r2 n (M i) (fun t => a j * M j t + b j)%R = r2 n (M i) (M j)).
  { intros i' j' Hj'. destruct (Nat.eq_dec n 0) as [->|Hn]; [reflexivity|].
    assert (Hm : forall z c, mean n (fun t => c * z t + b j')%R = (c * mean n z + b j')%R).
    { intros z c. unfold mean. rewrite rsum_plus, rsum_scal_l, rsum_const. field. apply not_0_INR, Hn. }
    rewrite <- (r2_scal n 1 (a j') (M i') (M j')) by (try apply Ha; try exact Hj'; lra).
    assert (Hm0 : forall z c, mean n (fun t => c * z t)%R = (c * mean n z)%R).
    { intros z c. unfold mean. rewrite rsum_scal_l. field. apply not_0_INR, Hn. }
    assert (C1 : forall x, cov n x (fun t => a j' * M j' t + b j')%R = cov n x (fun t => a j' * M j' t)%R).
    { intros x. unfold cov. apply rsum_ext. intros t _. rewrite Hm, Hm0. ring. }
    assert (C2 : cov n (fun t => a j' * M j' t + b j')%R (fun t => a j' * M j' t + b j')%R = cov n (fun t => a j' * M j' t)%R (fun t => a j' * M j' t)%R).
    { unfold cov. apply rsum_ext. intros t _. rewrite Hm, Hm0. ring. }
    assert (E1 : forall y, r2 n (fun i => 1 * M i' i)%R y = r2 n (M i') y) by (intros y; apply r2_ext; intros; [ring|reflexivity]).
    rewrite E1. unfold r2. rewrite C2, C1. reflexivity. }
  rewrite !R, r2_not_above_self in H by assumption. discriminate.
Qed.
Print Assumptions C50_rescaled_not_swapped.
Example C50_rescaled_not_swapped_example :=
  C50_rescaled_not_swapped 2 3 (fun i t => if Nat.eqb i t then 1%R else 0%R) (fun i => INR (i + 2)) (fun _ => 5%R)
    (fun i _ => not_0_INR (i + 2) ltac:(lia)).

(** Exchanging rows that are not perfectly correlated is always reported. *)
Theorem C50_permutation_reported : forall (k n : nat) (M : mat) (s : nat -> nat),
  (forall i, i < k -> cov n (M i) (M i) <> 0%R) ->
  (forall i j, i < k -> j < k -> i <> j -> exists v, r2 n (M i) (M j) = Fin v /\ (v < 1)%R) ->
  bij k s -> (exists i, i < k /\ s i <> i) ->
  compare_all_factors k k n M (fun i => M (s i)) = true.
Proof.
  intros k n M s Hc Hr [Hs Hi] (i & Hk & Hne). apply C50_swap_reported.
  assert (Hsur : exists j, j < k /\ s j = i).
  { assert (P : Permutation.Permutation (map s (seq 0 k)) (seq 0 k)) by (apply bij_perm; split; assumption).
    assert (HI : In i (map s (seq 0 k))) by (apply (Permutation.Permutation_in _ (Permutation.Permutation_sym P)), in_seq; lia).
    apply in_map_iff in HI. destruct HI as (j & E & Hj). apply in_seq in Hj. exists j. split; [lia|exact E]. }
  destruct Hsur as (j & Hj & Ej). exists i, j. split; [exact Hk|]. split; [exact Hj|]. rewrite Ej.
  rewrite r2_self by (apply Hc, Hk). destruct (Hr i (s i) Hk (Hs i Hk) ltac:(auto)) as (v & -> & Hv). apply flt_fin, Hv.
Qed.
Print Assumptions C50_permutation_reported.

Example C50_permutation_instance : let M := fun i t => if Nat.eqb i t then 1%R else 0%R in
  compare_all_factors 3 3 3 M (fun i => M (match i with 0 => 1 | 1 => 0 | _ => i end)) = true.
Proof.
  cbv zeta. assert (C : forall i, i < 3 -> cov 3 (fun t => if Nat.eqb i t then 1%R else 0%R) (fun t => if Nat.eqb i t then 1%R else 0%R) = (2 / 3)%R).
  { intros i Hi. destruct i as [|[|[|]]]; [..|lia]; unfold cov, mean; cbn; field. }
  apply (C50_permutation_reported 3 3 (fun i t => if Nat.eqb i t then 1%R else 0%R) (fun i => match i with 0 => 1 | 1 => 0 | _ => i end)).
  - intros i Hi. rewrite C by exact Hi. lra.
  - intros i j Hi Hj Hne. exists (1 / 4)%R. split; [|lra]. unfold r2. rewrite !C by assumption.
    destruct (Reqb (2 / 3) 0) eqn:E; [apply Reqb_iff in E; lra|]. f_equal.
    assert (D : cov 3 (fun t => if Nat.eqb i t then 1%R else 0%R) (fun t => if Nat.eqb j t then 1%R else 0%R) = (- (1 / 3))%R).
    { destruct i as [|[|[|]]], j as [|[|[|]]]; try lia; unfold cov, mean; cbn; field. }
    rewrite D. field.
  - split; intros; destruct i as [|[|[|]]]; try (destruct j as [|[|[|]]]); cbn in *; lia.
  - exists 0. split; [lia|discriminate].
Qed.

(** A row replaced by its mirror image counts as the same factor, and a constant
    row is never reported whatever it is compared with. *)
Theorem C50_mirror_is_swap_refuted : exists (k n : nat) (M1 M2 : mat),
  (forall i, i < k -> cov n (M1 i) (M1 i) <> 0%R /\ forall t, t < n -> (M1 i t >= 0 /\ M2 i t >= 0)%R) /\
  (exists i, i < k /\ (cov n (M1 i) (M2 i) < 0)%R) /\ compare_all_factors k k n M1 M2 = false.
Proof.
  exists 1, 2, (fun _ t => INR t), (fun _ t => (-1) * INR t + 1)%R. split; [|split].
  - intros i _. split; [unfold cov, mean; cbn; lra|]. intros t Ht. destruct t as [|[|]]; [..|lia]; cbn; lra.
  - exists 0. split; [lia|]. unfold cov, mean. cbn. lra.
  - exact (C50_rescaled_not_swapped 1 2 (fun _ t => INR t) (fun _ => -1)%R (fun _ => 1)%R ltac:(intros; lra)).
Qed.
Print Assumptions C50_mirror_is_swap_refuted.
Theorem C50_constant_row_never_reported : forall (k1 k2 n : nat) (M1 M2 : mat),
  (forall i, i < k1 -> cov n (M1 i) (M1 i) = 0%R \/ cov n (M2 i) (M2 i) = 0%R) -> compare_all_factors k1 k2 n M1 M2 = false.
Proof.
  intros k1 k2 n M1 M2 H. destruct (compare_all_factors _ _ _ _ _) eqn:E; [exfalso|reflexivity].
  apply C50_swap_reported in E. destruct E as (i & j & Hi & Hj & F).
  assert (N : r2 n (M1 i) (M2 i) = NaN).
  { unfold r2. destruct (H i Hi) as [E|E]; apply Reqb_iff in E; rewrite E; [reflexivity|]. destruct (Reqb (cov n (M1 i) (M1 i)) 0); reflexivity. }
  rewrite N, flt_nan_l in F. discriminate.
Qed.
Print Assumptions C50_constant_row_never_reported.
Example C50_constant_row_never_reported_example : compare_all_factors 2 2 3 (fun i _ => INR i) (fun i t => if Nat.eqb i t then 1%R else 0%R) = false.
Proof. apply C50_constant_row_never_reported. intros i _. left. unfold cov, mean. cbn. field. Qed.

(** ** C51 *)
Local Open Scope Z_scope.
Lemma max_bytes_pos nf ns k : 0 <= nf -> 0 <= ns -> 0 <= k -> 157286400 <= max_bytes nf ns k.
Proof. intros. unfold max_bytes. assert (0 <= nf * ns /\ 0 <= nf * k /\ 0 <= ns * k) by (repeat split; nia). lia. Qed.

(** At least one process; as many as asked for; otherwise at most three quarters
    of the processors and, unless it is a single one, few enough for the models
    (96 bytes per cell, 32 per factor and row or column, 150 MiB) to fit. *)
Theorem C51_number_of_processes : forall nf ns k avail cpu (cores : option Z), 0 <= nf -> 0 <= ns -> 0 <= k -> 0 <= avail -> 1 <= cpu ->
  let c := batch_cores nf ns k avail cpu cores in
  1 <= c /\
  (forall n, cores = Some n -> 0 < n -> c = n) /\
  (forall n, cores = Some n -> n <= 0 -> c = 1) /\
  (cores = None -> (c = 1 \/ 4 * c <= 3 * cpu) /\
     (c = 1 \/ c * (96 * (nf * ns) + 32 * k * (nf + ns) + 150 * 1048576) <= avail) /\
     (2 <= c -> 3 * cpu < 4 * (c + 1) \/ 3 * avail < (4 * c + 6) * (96 * (nf * ns) + 32 * k * (nf + ns) + 150 * 1048576))).
Proof.
  intros nf ns k avail cpu cores Hf Hs Hk Ha Hc. pose proof (max_bytes_pos nf ns k Hf Hs Hk) as Hb.
  assert (HB : max_bytes nf ns k = 96 * (nf * ns) + 32 * k * (nf + ns) + 150 * 1048576) by (unfold max_bytes; lia).
  rewrite <- HB. cbv zeta. unfold batch_cores, max_cores. set (B := max_bytes nf ns k) in *.
  assert (Hq : 0 <= avail / B) by (apply Z.div_pos; lia).
  assert (Hq2 : B * (avail / B) <= avail) by (apply Z.mul_div_le; lia).
  assert (Hq3 : avail < B * Z.succ (avail / B)) by (apply Z.mul_succ_div_gt; lia).
  destruct cores as [n|].
  - repeat split; try discriminate.
    + destruct (Z.ltb_spec 0 n); lia.
    + intros n' [= <-] Hn. destruct (Z.ltb_spec 0 n); lia.
    + intros n' [= <-] Hn. destruct (Z.ltb_spec 0 n); [lia|].
      assert (Z.quot (Z.min (avail / B) n * 3) 4 <= 0); [|lia]. apply Z.quot_le_upper_bound; lia.
  - cbn [Z.ltb Z.compare]. set (p := avail / B) in *. set (mc := Z.min p cpu). set (q := Z.quot (mc * 3) 4).
    assert (Hm : 0 <= mc) by lia. assert (Hq' : q = mc * 3 / 4) by (apply Z.quot_div_nonneg; lia).
    assert (Hqa : 4 * q <= mc * 3) by (rewrite Hq'; apply Z.mul_div_le; lia).
    assert (Hqb : mc * 3 < 4 * Z.succ q) by (rewrite Hq'; apply Z.mul_succ_div_gt; lia).
    repeat split; try discriminate.
    + lia.
    + destruct (Z.le_gt_cases q 1); [left; lia|right]. lia.
    + destruct (Z.le_gt_cases q 1); [left; lia|right]. rewrite Z.max_l by lia. assert (q <= p) by lia. nia.
    + intros H2. assert (E : Z.max q 1 = q) by lia. rewrite E. clear E H2. destruct (Z.min_spec p cpu) as [[_ Hmm]|[_ Hmm]]; fold mc in Hmm.
      * right. assert (p * 3 + 3 <= 4 * q + 6) by lia. nia.
      * left. lia.
Qed.
Print Assumptions C51_number_of_processes.
Example C51_number_of_processes_example :=
  C51_number_of_processes 50 10000 8 (16 * 1024 ^ 3) 16 None ltac:(lia) ltac:(lia) ltac:(lia) ltac:(lia) ltac:(lia).
Example C51_instance : batch_cores 50 10000 8 (16 * 1024 ^ 3) 16 None = 12 /\ batch_cores 500 1000000 8 (16 * 1024 ^ 3) 16 None = 1.
Proof. split; reflexivity. Qed.

(** A non-positive number of cores is not "all cores": it gives one process. The
    documented default (all but one) is not what is used either. *)
Theorem C51_default_is_all_but_one_refuted : exists nf ns k avail cpu, 1 <= cpu /\ 0 <= avail /\
  cpu * max_bytes nf ns k <= avail /\ batch_cores nf ns k avail cpu None <> cpu - 1.
Proof. exists 10, 100, 3, (64 * 1024 ^ 3), 16. split; [lia|]. split; [lia|]. split; [vm_compute; discriminate|]. vm_compute. discriminate. Qed.
Print Assumptions C51_default_is_all_but_one_refuted.

(** ** C75 *)
Lemma fold_min_spec t : forall x, let m := fold_left Z.min t x in (m = x \/ In m t) /\ m <= x /\ Forall (fun y => m <= y) t.
Proof.
  induction t as [|y t IH]; intros x; cbn [fold_left]; [cbn; repeat split; auto; lia|].
  destruct (IH (Z.min x y)) as (H1 & H2 & H3). cbv zeta. split; [|split; [lia|constructor; [lia|exact H3]]].
  destruct H1 as [H1|H1]; [|right; right; exact H1]. destruct (Z.min_spec x y) as [[_ E]|[_ E]]; rewrite E in H1 at 2; [left; exact H1|right; left; symmetry; exact H1].
Qed.
Lemma deltas_nth l : forall i, nth_error (zip_sub (slice_1_m1 l) (slice_0_m2 l)) i =
  if (i + 2 <? List.length l)%nat then match nth_error l (S i), nth_error l i with Some a, Some b => Some (a - b) | _, _ => None end else None.
Proof.
  assert (ZS : forall a b i, nth_error (zip_sub a b) i = match nth_error a i, nth_error b i with Some x, Some y => Some (x - y) | _, _ => None end).
  { induction a as [|x a IH]; intros [|y b] [|i]; cbn; try reflexivity; [destruct (nth_error a i); reflexivity|apply IH]. }
  assert (F : forall (l : list Z) k i, nth_error (firstn k l) i = if (i <? k)%nat then nth_error l i else None).
  { induction l0 as [|x l0 IH]; intros [|k] [|i]; cbn [firstn nth_error]; try reflexivity.
    - destruct (S i <? S k)%nat; reflexivity.
    - rewrite IH. change (S i <? S k)%nat with (i <? k)%nat. reflexivity. }
  intros i. rewrite ZS. unfold slice_1_m1, slice_0_m2. rewrite !F.
  replace (nth_error (skipn 1 l) i) with (nth_error l (S i)) by (destruct l; [destruct i; reflexivity|reflexivity]).
  destruct (Nat.ltb_spec (i + 2) (List.length l)), (Nat.ltb_spec i (List.length l - 1 - 1)), (Nat.ltb_spec i (List.length l - 2)); try lia; try reflexivity.
Qed.

(** No time step is ever returned, except that D (daily) is returned when the
    smallest step is one hour and for fewer than three samples. *)
Theorem C75_time_step : forall index : list Z, (forall i a b, nth_error index i = Some a -> nth_error index (S i) = Some b -> a <= b) ->
  (min_timestep index = Daily <->
   (List.length index <= 2)%nat \/
   exists d, 3600000000000 <= d < 3601000000000 /\
     (exists i a b, (i + 2 < List.length index)%nat /\ nth_error index i = Some a /\ nth_error index (S i) = Some b /\ b - a = d) /\
     (forall i a b, (i + 2 < List.length index)%nat -> nth_error index i = Some a -> nth_error index (S i) = Some b -> d <= b - a)).
Proof.
  intros l Hs. unfold min_timestep. set (ds := zip_sub (slice_1_m1 l) (slice_0_m2 l)).
  assert (HI : forall d, In d ds <-> exists i a b, (i + 2 < List.length l)%nat /\ nth_error l i = Some a /\ nth_error l (S i) = Some b /\ b - a = d).
  { intros d. split.
    - intros H. apply In_nth_error in H. destruct H as [i H]. unfold ds in H. rewrite deltas_nth in H.
      destruct (Nat.ltb_spec (i + 2) (List.length l)); [|discriminate]. destruct (nth_error l (S i)) eqn:E1; [|discriminate].
      destruct (nth_error l i) eqn:E2; [|discriminate]. injection H as H. exists i, z0, z. auto.
    - intros (i & a & b & H & Ha & Hb & E). apply (nth_error_In _ i). unfold ds. rewrite deltas_nth.
      destruct (Nat.ltb_spec (i + 2) (List.length l)); [|lia]. rewrite Ha, Hb, E. reflexivity. }
  destruct ds as [|x t] eqn:Eds; cbn [td_min].
  - split; [intros _; left|reflexivity]. destruct (le_lt_dec (List.length l) 2) as [|H]; [assumption|exfalso].
    destruct l as [|a [|b [|c l']]]; cbn in H; try lia. apply (proj2 (HI (b - a))). exists 0%nat, a, b. cbn. repeat split. lia.
  - destruct (fold_min_spec t x) as (H1 & H2 & H3). set (m := fold_left Z.min t x) in *.
    assert (Hm : In m (x :: t)) by (destruct H1 as [->|H1]; [left; reflexivity|right; exact H1]).
    assert (Hmin : forall d, In d (x :: t) -> m <= d) by (intros d [<-|Hd]; [exact H2|rewrite Forall_forall in H3; apply H3, Hd]).
    assert (Hpos : 0 <= m). { apply HI in Hm. destruct Hm as (i & a & b & _ & Ha & Hb & <-). specialize (Hs i a b Ha Hb). lia. }
    assert (Hlen : (2 < List.length l)%nat). { apply HI in Hm. destruct Hm as (i & a & b & H & _). lia. }
    assert (Hchar : (if 1 <=? td_days m then NoStep else if td_seconds m <? 60 then NoStep else if td_seconds m <? 60 * 60 then NoStep
       else if (60 * 60 <? td_seconds m) && (td_days m <=? 0) then NoStep else Daily) = Daily <-> 3600000000000 <= m < 3601000000000).
    { unfold td_days, td_seconds, day_ns. destruct (Z.leb_spec 1 (m / 86400000000000)) as [Hd|Hd].
      - split; [discriminate|]. intros H. assert (m / 86400000000000 = 0) by (apply Z.div_small; lia). lia.
      - assert (m / 86400000000000 = 0) by (assert (0 <= m / 86400000000000) by (apply Z.div_pos; lia); lia).
        assert (m < 86400000000000) by (apply Z.div_small_iff in H; lia).
        rewrite (Z.mod_small m) by lia. rewrite H. cbn [Z.leb Z.compare]. rewrite andb_true_r.
        assert (Hq1 : 1000000000 * (m / 1000000000) <= m) by (apply Z.mul_div_le; lia).
        assert (Hq2 : m < 1000000000 * Z.succ (m / 1000000000)) by (apply Z.mul_succ_div_gt; lia).
        destruct (Z.ltb_spec (m / 1000000000) 60); [split; [discriminate|lia]|].
        destruct (Z.ltb_spec (m / 1000000000) (60 * 60)); [split; [discriminate|lia]|].
        destruct (Z.ltb_spec (60 * 60) (m / 1000000000)); [split; [discriminate|lia]|]. split; [intros _; lia|reflexivity]. }
    rewrite Hchar. split.
    + intros H. right. exists m. split; [exact H|]. split; [apply HI, Hm|].
      intros i a b Hi Ha Hb. apply Hmin, HI. exists i, a, b. auto.
    + intros [H|(d & Hd & Hex & Hall)]; [lia|]. assert (m = d); [|subst; exact Hd].
      apply HI in Hex. pose proof (Hmin d Hex). apply HI in Hm. destruct Hm as (i & a & b & Hi & Ha & Hb & <-).
      specialize (Hall i a b Hi Ha Hb). lia.
Qed.
Print Assumptions C75_time_step.

(** Daily, weekly, minute or ten-hour data have no time step; hourly data are
    resampled to days; a last, smaller step is not looked at. *)
Example C75_instances : let h := 3600000000000 in
  min_timestep [0; 24 * h; 48 * h; 72 * h] = NoStep /\ min_timestep [0; 10 * h; 20 * h; 30 * h] = NoStep /\
  min_timestep [0; h; 2 * h; 3 * h] = Daily /\ min_timestep [0; h; 2 * h; 2 * h + 1000000000] = Daily.
Proof. repeat split; reflexivity. Qed.
Theorem C75_step_is_smallest_difference_refuted : exists index : list Z,
  min_timestep index = Daily /\ (forall i a b, nth_error index i = Some a -> nth_error index (S i) = Some b -> b - a = 3600000000000).
Proof.
  exists [0; 3600000000000; 7200000000000; 10800000000000]. split; [reflexivity|].
  intros i a b. destruct i as [|[|[|[|i]]]]; cbn; intros Ha Hb; try (injection Ha as <-; injection Hb as <-; reflexivity); try discriminate.
Qed.
Print Assumptions C75_step_is_smallest_difference_refuted.
