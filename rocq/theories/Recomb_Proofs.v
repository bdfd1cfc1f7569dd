(** Lemmas for C49 and C75. *)
From Coq Require Import List Bool ZArith Reals Lra Lia.
From Flocq Require Import Core.
From Verif Require Import Base Fl Boot_Model Recomb_Model.
Import ListNotations.
Local Open Scope R_scope.

(** ** Lagged matrices *)
Lemma inner_lag {X} (x : nat -> nat -> X) base i n : forall acc r c,
  fold_left (fun xlag j => assign_lag x base i j xlag) (seq 0 n) acc r c =
  if ((base <=? c) && (c <? base + n) && (c - base <? r))%nat then x (r - (c - base + 1))%nat i else acc r c.
Proof.
  induction n as [|n IH]; intros acc r c.
  - cbn [seq fold_left]. destruct (Nat.leb_spec base c), (Nat.ltb_spec c (base + 0)); cbn; try reflexivity; lia.
  - rewrite seq_S, fold_left_app. cbn [fold_left Nat.add]. unfold assign_lag at 1. rewrite IH.
    destruct (Nat.eqb_spec c (base + n)) as [->|Hne]; cbn [andb].
    + replace (base + n - base)%nat with n by lia.
      destruct (Nat.leb_spec (n + 1) r), (Nat.leb_spec base (base + n)), (Nat.ltb_spec (base + n) (base + n)), (Nat.ltb_spec (base + n) (base + S n)), (Nat.ltb_spec n r); cbn; try reflexivity; lia.
    + destruct (Nat.leb_spec base c), (Nat.ltb_spec c (base + n)), (Nat.ltb_spec c (base + S n)), (Nat.ltb_spec (c - base) r); cbn; try reflexivity; lia.
Qed.

Lemma mlag_entry {X} nvar n (init : X) x r i j : (i < nvar)%nat -> (j < n)%nat ->
  mlag nvar n init x r (i * n + j) = if (j <? r)%nat then x (r - (j + 1))%nat i else init.
Proof.
  intros Hi Hj. unfold mlag.
  assert (G : forall v acc, fold_left (fun xlag i0 => fold_left (fun xlag j0 => assign_lag x (i0 * n) i0 j0 xlag) (seq 0 n) xlag) (seq 0 v) acc r (i * n + j)%nat
     = if ((i <? v) && (j <? r))%nat then x (r - (j + 1))%nat i else acc r (i * n + j)%nat).
  { induction v as [|v IH]; intros acc; [reflexivity|]. rewrite seq_S, fold_left_app. cbn [fold_left Nat.add].
    rewrite inner_lag, IH.
    destruct (Nat.lt_trichotomy i v) as [H|[->|H]].
    - assert (i * n + n <= v * n)%nat by nia.
      destruct (Nat.leb_spec (v * n) (i * n + j)); [lia|]. cbn [andb].
      destruct (Nat.ltb_spec i v), (Nat.ltb_spec i (S v)); try lia. reflexivity.
    - destruct (Nat.leb_spec (v * n) (v * n + j)), (Nat.ltb_spec (v * n + j) (v * n + n)); try lia. cbn [andb].
      replace (v * n + j - v * n)%nat with j by lia.
      destruct (Nat.ltb_spec v v), (Nat.ltb_spec v (S v)); try lia. cbn. reflexivity.
    - assert (v * n + n <= i * n)%nat by nia.
      destruct (Nat.ltb_spec (i * n + j) (v * n + n)); [lia|]. rewrite andb_false_r. cbn [andb].
      destruct (Nat.ltb_spec i v), (Nat.ltb_spec i (S v)); try lia. reflexivity. }
  rewrite G. destruct (Nat.ltb_spec i nvar); [reflexivity|lia].
Qed.
Lemma mlag1 {X} n (init : X) (x : nat -> X) r j : (j < n)%nat -> (j < r)%nat -> mlag 1 n init (fun r _ => x r) r j = x (r - (j + 1))%nat.
Proof.
  intros Hj Hr. pose proof (mlag_entry 1 n init (fun r _ => x r) r 0 j ltac:(lia) Hj) as H. cbn [Nat.mul Nat.add] in H. rewrite H.
  destruct (Nat.ltb_spec j r); [reflexivity|lia].
Qed.

(** ** Covariances *)
Lemma cov_ext n x y x' y' : (forall t, (t < n)%nat -> x t = x' t) -> (forall t, (t < n)%nat -> y t = y' t) -> cov n x y = cov n x' y'.
Proof.
  intros Hx Hy. unfold cov, mean. rewrite (rsum_ext n x x' Hx), (rsum_ext n y y' Hy). apply rsum_ext. intros t Ht.
  rewrite (Hx t Ht), (Hy t Ht). reflexivity.
Qed.
Lemma corr_ext n x y x' y' : (forall t, (t < n)%nat -> x t = x' t) -> (forall t, (t < n)%nat -> y t = y' t) -> corr n x y = corr n x' y'.
Proof. intros Hx Hy. unfold corr. rewrite (cov_ext n x x x' x'), (cov_ext n y y y' y'), (cov_ext n x y x' y') by assumption. reflexivity. Qed.
Lemma cov_affine n a b x y : cov n (fun t => a * x t + b) (fun t => a * y t + b) = a * a * cov n x y.
Proof.
  unfold cov. destruct (Nat.eq_dec n 0) as [->|Hn]; [cbn; ring|].
  assert (Hm : forall z, mean n (fun t => a * z t + b) = a * mean n z + b).
  { intros z. unfold mean. rewrite rsum_plus, rsum_scal_l, rsum_const. field. apply not_0_INR, Hn. }
  rewrite !Hm, <- rsum_scal_l. apply rsum_ext. intros t _. ring.
Qed.
Lemma cov_const n c : cov n (fun _ => c) (fun _ => c) = 0.
Proof.
  unfold cov. destruct (Nat.eq_dec n 0) as [->|Hn]; [reflexivity|].
  assert (mean n (fun _ => c) = c). { unfold mean. rewrite rsum_const. field. apply not_0_INR, Hn. }
  rewrite H. rewrite <- (rsum_0 n). apply rsum_ext. intros. ring.
Qed.
Lemma cov_self_nonneg n x : 0 <= cov n x x.
Proof. unfold cov. apply rsum_nonneg. intros t _. apply Rle_0_sqr. Qed.
Lemma corr_affine n a b x y : a <> 0 -> corr n (fun t => a * x t + b) (fun t => a * y t + b) = corr n x y.
Proof.
  intros Ha. unfold corr. rewrite !cov_affine.
  assert (Haa : 0 < a * a) by (apply Rsqr_pos_lt in Ha; exact Ha).
  assert (E : forall c, Reqb (a * a * c) 0 = Reqb c 0).
  { intros c. destruct (Reqb c 0) eqn:E.
    - apply Reqb_iff in E. apply Reqb_iff. rewrite E. ring.
    - destruct (Reqb (a * a * c) 0) eqn:E2; [|reflexivity]. apply Reqb_iff in E2. apply Rmult_integral in E2. destruct E2 as [E2|E2]; [lra|].
      apply Reqb_iff in E2. congruence. }
  rewrite !E. destruct (Reqb (cov n x x) 0) eqn:E1; [reflexivity|]. destruct (Reqb (cov n y y) 0) eqn:E2; [reflexivity|].
  f_equal.
  assert (Hx : 0 < cov n x x). { destruct (cov_self_nonneg n x) as [H|H]; [exact H|]. symmetry in H. apply Reqb_iff in H. congruence. }
  assert (Hy : 0 < cov n y y). { destruct (cov_self_nonneg n y) as [H|H]; [exact H|]. symmetry in H. apply Reqb_iff in H. congruence. }
  replace (a * a * cov n x x * (a * a * cov n y y)) with ((a * a) * (a * a) * (cov n x x * cov n y y)) by ring.
  rewrite sqrt_mult by (apply Rmult_le_pos; lra). rewrite sqrt_square by lra.
  field. split; [|exact Ha]. apply Rgt_not_eq. apply sqrt_lt_R0. apply Rmult_lt_0_compat; assumption.
Qed.

Lemma autocorr_spec n x j : (j < m_max n)%nat ->
  autocorr n x j = corr (n - m_max n) (fun t => x (m_max n + t)%nat) (fun t => x (m_max n + t - (j + 1))%nat).
Proof. intros Hj. unfold autocorr. apply corr_ext; intros t Ht; [reflexivity|]. apply (mlag1 (m_max n)); lia. Qed.

Lemma windows_spec M temp j c : (kn <= M)%nat -> (j < kn)%nat -> (c <= M - kn)%nat ->
  windows M temp j c = if (c + kn <? M)%nat then temp (c + kn - (j + 1))%nat else temp (c + j)%nat.
Proof.
  intros HM Hj Hc. unfold windows. destruct (Nat.ltb_spec (c + kn) M).
  - apply mlag1; lia.
  - f_equal. lia.
Qed.

Lemma filter_len_all {A} (p : A -> bool) l : (List.length (filter p l) =? List.length l)%nat = forallb p l.
Proof.
  induction l as [|a l IH]; [reflexivity|]. cbn. destruct (p a); cbn; [exact IH|].
  destruct (Nat.eqb_spec (List.length (filter p l)) (S (List.length l))) as [E|]; [|reflexivity].
  exfalso. clear IH. assert (List.length (filter p l) <= List.length l)%nat; [|lia].
  clear. induction l as [|a l IH]; cbn; [lia|]. destruct (p a); cbn; lia.
Qed.

(** Column [c] is insignificant when the lags c+1 .. c+kn all are. *)
Lemma insignificant_spec n temp c : (c <= m_max n - kn)%nat ->
  (insignificant n (windows (m_max n) temp) c = true <->
   forall l, (c <= l < c + kn)%nat -> flt (fabs (temp l)) (Fin (critical n)) = true).
Proof.
  intros Hc. assert (HM : (kn <= m_max n)%nat) by (unfold m_max; lia).
  unfold insignificant. rewrite <- (seq_length kn 0) at 2. rewrite filter_len_all, forallb_forall. split.
  - intros H l Hl. destruct (Nat.ltb_spec (c + kn) (m_max n)) as [Hlt|Hge].
    + specialize (H (kn - 1 - (l - c))%nat ltac:(apply in_seq; lia)). rewrite windows_spec in H by lia.
      destruct (Nat.ltb_spec (c + kn) (m_max n)); [|lia].
      replace (c + kn - (kn - 1 - (l - c) + 1))%nat with l in H by lia. exact H.
    + specialize (H (l - c)%nat ltac:(apply in_seq; lia)). rewrite windows_spec in H by lia.
      destruct (Nat.ltb_spec (c + kn) (m_max n)); [lia|]. replace (c + (l - c))%nat with l in H by lia. exact H.
  - intros H j Hj. apply in_seq in Hj. rewrite windows_spec by lia.
    destruct (Nat.ltb_spec (c + kn) (m_max n)); apply H; lia.
Qed.

(** First element of a filtered [seq]. *)
Lemma filter_seq_first p a k : match filter p (seq a k) with
  | c :: _ => (a <= c < a + k)%nat /\ p c = true /\ forall c', (a <= c' < c)%nat -> p c' = false
  | [] => forall c', (a <= c' < a + k)%nat -> p c' = false end.
Proof.
  revert a. induction k as [|k IH]; intros a; cbn [seq filter]; [intros; lia|].
  destruct (p a) eqn:E.
  - split; [lia|]. split; [exact E|intros; lia].
  - specialize (IH (S a)). destruct (filter p (seq (S a) k)) as [|c l].
    + intros c' Hc'. destruct (Nat.eq_dec c' a) as [->|]; [exact E|apply IH; lia].
    + destruct IH as (H1 & H2 & H3). split; [lia|]. split; [exact H2|]. intros c' Hc'. destruct (Nat.eq_dec c' a) as [->|]; [exact E|apply H3; lia].
Qed.
Lemma filter_seq_last p k : match rev (filter p (seq 0 k)) with
  | c :: _ => (c < k)%nat /\ p c = true /\ forall c', (c < c' < k)%nat -> p c' = false
  | [] => forall c', (c' < k)%nat -> p c' = false end.
Proof.
  induction k as [|k IH]; [cbn; intros; lia|]. rewrite seq_S, filter_app, rev_app_distr. cbn [filter Nat.add].
  destruct (p k) eqn:E; cbn [rev app].
  - split; [lia|]. split; [exact E|intros; lia].
  - destruct (rev (filter p (seq 0 k))) as [|c l].
    + intros c' Hc'. destruct (Nat.eq_dec c' k) as [->|]; [exact E|apply IH; lia].
    + destruct IH as (H1 & H2 & H3). split; [lia|]. split; [exact H2|]. intros c' Hc'. destruct (Nat.eq_dec c' k) as [->|]; [exact E|apply H3; lia].
Qed.

(** ** Sums *)
Lemma sum_kk_fin m f : sum_kk m (fun k => Fin (f k)) = Fin (lsum (map f (zlist m))).
Proof.
  unfold sum_kk. assert (G : forall l a, fold_left fadd (map (fun k => Fin (f k)) l) (Fin a) = Fin (a + lsum (map f l))).
  { induction l as [|k l IH]; intros a; cbn; [f_equal; ring|]. rewrite IH. f_equal. ring. }
  rewrite G. f_equal. ring.
Qed.
Lemma sum_kk_ext m f g : (forall k, (- Z.of_nat m <= k <= Z.of_nat m)%Z -> f k = g k) -> sum_kk m f = sum_kk m g.
Proof.
  intros H. unfold sum_kk. f_equal. apply map_ext_in. intros k Hk. apply H. unfold zlist in Hk. apply in_map_iff in Hk.
  destruct Hk as (i & <- & Hi). apply in_seq in Hi. lia.
Qed.
Lemma sum_kk_nan m f : (forall k, f k = NaN) -> sum_kk m f = NaN.
Proof.
  intros H. unfold sum_kk, zlist. replace (2 * m + 1)%nat with (S (2 * m)) by lia. cbn [seq map fold_left]. rewrite H. cbn [fadd].
  generalize (map f (map (fun i => (Z.of_nat i - Z.of_nat m)%Z) (seq 1 (2 * m)))). intros l. induction l as [|a l IH]; cbn; [reflexivity|exact IH].
Qed.
Lemma lsum_seq (f : nat -> R) k : forall a, lsum (map f (seq a k)) = rsum k (fun i => f (a + i)%nat).
Proof.
  induction k as [|k IH]; intros a; [reflexivity|]. rewrite seq_S, map_app, lsum_app. cbn [map lsum]. rewrite IH. cbn [rsum]. ring.
Qed.
Lemma rsum_add_split (f : nat -> R) a b : rsum (a + b) f = rsum a f + rsum b (fun i => f (a + i)%nat).
Proof.
  induction b as [|b IH]; [rewrite Nat.add_0_r; cbn [rsum]; ring|].
  replace (a + S b)%nat with (S (a + b)) by lia. cbn [rsum]. rewrite IH. ring.
Qed.
(** Symmetric sum around zero. *)
Lemma lsum_zlist m (f : Z -> R) : (forall k, f (- k)%Z = f k) ->
  lsum (map f (zlist m)) = f 0%Z + 2 * rsum m (fun i => f (Z.of_nat (S i))).
Proof.
  intros Hs. unfold zlist. rewrite map_map, lsum_seq. cbn [Nat.add].
  replace (2 * m + 1)%nat with (m + S m)%nat by lia. rewrite rsum_add_split.
  assert (E1 : rsum m (fun i => f (Z.of_nat i - Z.of_nat m)%Z) = rsum m (fun i => f (Z.of_nat (S i)))).
  { rewrite <- (rsum_reindex m (fun i => (m - 1 - i)%nat) (fun i => f (Z.of_nat i - Z.of_nat m)%Z)).
    - apply rsum_ext. intros i Hi. rewrite <- Hs. f_equal. lia.
    - split; intros; lia. }
  assert (E2 : forall k, rsum (S k) (fun i => f (Z.of_nat (m + i) - Z.of_nat m)%Z) = f 0%Z + rsum k (fun i => f (Z.of_nat (S i)))).
  { induction k as [|k IH].
    - cbn [rsum]. replace (Z.of_nat (m + 0) - Z.of_nat m)%Z with 0%Z by lia. ring.
    - cbn [rsum] in *. rewrite IH. replace (Z.of_nat (m + S k) - Z.of_nat m)%Z with (Z.of_nat (S k)) by lia. ring. }
  rewrite E1, E2. ring.
Qed.
