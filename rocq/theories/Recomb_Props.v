(** C49: the block-length estimator and the block size the data handler derives
    from it. *)
From Coq Require Import List Bool ZArith Reals Lra Lia.
From Flocq Require Import Core.
From Verif Require Import Base Fl Boot_Model Recomb_Model Recomb_Proofs.
Import ListNotations.
Local Open Scope R_scope.

Lemma b2r_true (b : bool) : b = true -> b2r b = 1.
Proof. intros ->. reflexivity. Qed.
Lemma b2r_false (b : bool) : b = false -> b2r b = 0.
Proof. intros ->. reflexivity. Qed.

Lemma lam_flat k : Rabs k <= 1 / 2 -> lam k = 1.
Proof.
  intros H. unfold lam. rewrite (b2r_true (Rleb 0 (Rabs k))) by (apply Rleb_iff, Rabs_pos).
  destruct (Rle_lt_or_eq_dec _ _ H) as [Hl|He].
  - rewrite (b2r_true (Rltb _ _)) by (apply Rltb_iff; exact Hl). rewrite (b2r_false (Rleb (1 / 2) _)) by (apply Rleb_false; exact Hl). ring.
  - rewrite (b2r_false (Rltb _ _)) by (apply Rltb_false; lra). rewrite (b2r_true (Rleb (1 / 2) _)) by (apply Rleb_iff; lra).
    rewrite (b2r_true (Rleb _ 1)) by (apply Rleb_iff; lra). lra.
Qed.
Lemma lam_slope k : 1 / 2 <= Rabs k <= 1 -> lam k = 2 * (1 - Rabs k).
Proof.
  intros [H1 H2]. unfold lam. rewrite (b2r_false (Rltb _ _)) by (apply Rltb_false; lra).
  rewrite (b2r_true (Rleb (1 / 2) _)) by (apply Rleb_iff; lra). rewrite (b2r_true (Rleb _ 1)) by (apply Rleb_iff; lra). ring.
Qed.
Lemma lam_zero k : 1 <= Rabs k -> lam k = 0.
Proof.
  intros H. destruct (Rle_lt_or_eq_dec _ _ H) as [Hl|He]; [|rewrite lam_slope by lra; lra].
  unfold lam. rewrite (b2r_false (Rltb _ _)) by (apply Rltb_false; lra). rewrite (b2r_false (Rleb _ 1)) by (apply Rleb_false; lra). ring.
Qed.

(** The kernel is 1 up to one half, falls linearly to 0 at one, and stays 0. *)
Theorem C49_kernel : forall k : R,
  lam k = (if Rle_dec (Rabs k) (1 / 2) then 1 else if Rle_dec (Rabs k) 1 then 2 * (1 - Rabs k) else 0) /\
  0 <= lam k <= 1 /\ (forall k', Rabs k <= Rabs k' -> lam k' <= lam k).
Proof.
  assert (F : forall k, lam k = (if Rle_dec (Rabs k) (1 / 2) then 1 else if Rle_dec (Rabs k) 1 then 2 * (1 - Rabs k) else 0)).
  { intros k. destruct (Rle_dec (Rabs k) (1 / 2)); [apply lam_flat; assumption|].
    destruct (Rle_dec (Rabs k) 1); [apply lam_slope; lra|apply lam_zero; lra]. }
  intros k. split; [apply F|]. split.
  - rewrite F. destruct (Rle_dec (Rabs k) (1 / 2)), (Rle_dec (Rabs k) 1); lra.
  - intros k' H. rewrite !F. destruct (Rle_dec (Rabs k) (1 / 2)), (Rle_dec (Rabs k) 1), (Rle_dec (Rabs k') (1 / 2)), (Rle_dec (Rabs k') 1); lra.
Qed.
Print Assumptions C49_kernel.

(** Column [j] of the block of variable [i] is that variable delayed by [j + 1]. *)
Theorem C49_lagged_matrix : forall (X : Type) (nvar n : nat) (init : X) (x : nat -> nat -> X) (i j : nat), (i < nvar)%nat -> (j < n)%nat ->
  (forall r, mlag nvar n init x (r + j + 1) (i * n + j) = x r i) /\
  (forall r, (r <= j)%nat -> mlag nvar n init x r (i * n + j) = init).
Proof.
  intros X nvar n init x i j Hi Hj. split; intros r; [|intros Hr]; rewrite mlag_entry by assumption.
  - destruct (Nat.ltb_spec j (r + j + 1)); [|lia]. f_equal. lia.
  - destruct (Nat.ltb_spec j r); [lia|reflexivity].
Qed.
Print Assumptions C49_lagged_matrix.
Example C49_lagged_matrix_instance : mlag 2 3 0 (fun r i => INR (10 * r + i)) 4 (1 * 3 + 1) = INR 21.
Proof. destruct (C49_lagged_matrix R 2 3 0 (fun r i => INR (10 * r + i)) 1 1) as [H _]; [lia..|]. exact (H 2%nat). Qed.

(** ** The selected lag *)
Section Lag.
  (** Sample correlation between the series from sample [L] on and the series
      [lag] samples earlier, where [L] is the largest lag considered. *)
  Definition lag_corr (n : nat) (x : nat -> R) (lag : nat) : fl :=
    let L := m_max n in corr (n - L) (fun t => x (L + t)%nat) (fun t => x (L + t - lag)%nat).
  Definition small (n : nat) (x : nat -> R) (lag : nat) : Prop :=
    exists c, lag_corr n x lag = Fin c /\ Rabs c < 2 * sqrt (ln (INR n) / ln 10 / INR n).
  Definition large (n : nat) (x : nat -> R) (lag : nat) : Prop :=
    exists c, lag_corr n x lag = Fin c /\ 2 * sqrt (ln (INR n) / ln 10 / INR n) < Rabs c.
  (** the five lags after [lag] are all small *)
  Definition quiet (n : nat) (x : nat -> R) (lag : nat) : Prop := forall i, (i < 5)%nat -> small n x (lag + i).

  Lemma small_iff n x l : (l < m_max n)%nat -> (flt (fabs (autocorr n x l)) (Fin (critical n)) = true <-> small n x (l + 1)).
  Proof.
    intros Hl. rewrite autocorr_spec by exact Hl. unfold small, lag_corr. cbv zeta.
    destruct (corr (n - m_max n) _ _) as [c| | |] eqn:E; cbn [fabs].
    2: unfold corr in E; destruct (Reqb _ _); [discriminate|]; destruct (Reqb _ _); discriminate.
    2: unfold corr in E; destruct (Reqb _ _); [discriminate|]; destruct (Reqb _ _); discriminate.
    - rewrite flt_fin. unfold critical, log10. split; [intros H; exists c; auto|intros (c' & [= <-] & H); exact H].
    - split; [rewrite flt_nan_l; discriminate|intros (c & H & _); discriminate].
  Qed.
  Lemma large_iff n x l : (l < m_max n)%nat -> (flt (Fin (critical n)) (fabs (autocorr n x l)) = true <-> large n x (l + 1)).
  Proof.
    intros Hl. rewrite autocorr_spec by exact Hl. unfold large, lag_corr. cbv zeta.
    destruct (corr (n - m_max n) _ _) as [c| | |] eqn:E; cbn [fabs].
    2: unfold corr in E; destruct (Reqb _ _); [discriminate|]; destruct (Reqb _ _); discriminate.
    2: unfold corr in E; destruct (Reqb _ _); [discriminate|]; destruct (Reqb _ _); discriminate.
    - rewrite flt_fin. unfold critical, log10. split; [intros H; exists c; auto|intros (c' & [= <-] & H); exact H].
    - split; [rewrite flt_nan_r; discriminate|intros (c & H & _); discriminate].
  Qed.
  Lemma quiet_iff n x c : (c <= m_max n - kn)%nat -> (insignificant n (windows (m_max n) (autocorr n x)) c = true <-> quiet n x (c + 1)).
  Proof.
    intros Hc. assert (kn <= m_max n)%nat by (unfold m_max; lia). assert (kn = 5%nat) by reflexivity.
    rewrite insignificant_spec by exact Hc. unfold quiet. split.
    - intros Hs i Hi. replace (c + 1 + i)%nat with (c + i + 1)%nat by lia. apply small_iff; [lia|]. apply Hs. lia.
    - intros Hs l Hl. apply small_iff; [lia|]. replace (l + 1)%nat with (c + 1 + (l - c))%nat by lia. apply Hs. lia.
  Qed.
End Lag.

(** The lag is the start of the first run of five small correlations; failing
    that, one less than the last large one; failing that, ValueError. *)
Theorem C49_selected_lag : forall (n : nat) (x : nat -> R),
  match m_hat n x with
  | Some m =>
      ((1 <= m <= m_max n - 4)%nat /\ quiet n x m /\ forall m', (1 <= m' < m)%nat -> ~ quiet n x m') \/
      ((forall m', (1 <= m' <= m_max n - 4)%nat -> ~ quiet n x m') /\
       (m < m_max n)%nat /\ large n x (m + 1) /\ forall l, (m + 1 < l <= m_max n)%nat -> ~ large n x l)
  | None => forall l, (1 <= l <= m_max n)%nat -> ~ large n x l
  end.
Proof.
  intros n x. assert (HM : (kn <= m_max n)%nat) by (unfold m_max; lia). assert (Hk : kn = 5%nat) by reflexivity.
  unfold m_hat. cbv zeta.
  pose proof (filter_seq_first (insignificant n (windows (m_max n) (autocorr n x))) 0 (m_max n - kn + 1)) as F.
  destruct (filter (insignificant n (windows (m_max n) (autocorr n x))) (seq 0 (m_max n - kn + 1))) as [|c l].
  - assert (Q : forall m', (1 <= m' <= m_max n - 4)%nat -> ~ quiet n x m').
    { intros m' Hm Hq. specialize (F (m' - 1)%nat ltac:(lia)). replace m' with (m' - 1 + 1)%nat in Hq by lia.
      apply quiet_iff in Hq; [congruence|lia]. }
    pose proof (filter_seq_last (fun j => flt (Fin (critical n)) (fabs (autocorr n x j))) (m_max n)) as G.
    destruct (rev (filter (fun j => flt (Fin (critical n)) (fabs (autocorr n x j))) (seq 0 (m_max n)))) as [|j t].
    + intros l Hl Hla. specialize (G (l - 1)%nat ltac:(lia)). replace l with (l - 1 + 1)%nat in Hla by lia.
      apply large_iff in Hla; [congruence|lia].
    + right. destruct G as (G1 & G2 & G3). split; [exact Q|]. split; [exact G1|]. split; [apply large_iff; assumption|].
      intros l Hl Hla. specialize (G3 (l - 1)%nat ltac:(lia)). replace l with (l - 1 + 1)%nat in Hla by lia.
      apply large_iff in Hla; [congruence|lia].
  - destruct F as (F1 & F2 & F3). left. split; [lia|]. split; [apply quiet_iff; [lia|exact F2]|].
    intros m' Hm Hq. specialize (F3 (m' - 1)%nat ltac:(lia)). replace m' with (m' - 1 + 1)%nat in Hq by lia.
    apply quiet_iff in Hq; [congruence|lia].
Qed.
Print Assumptions C49_selected_lag.

(** ** The block lengths *)
(** Sample autocovariance at [lag] over the samples from [m] on. *)
Definition acov (n m : nat) (x : nat -> R) (lag : nat) : R :=
  cov (n - m) (fun t => x (m + t)%nat) (fun t => x (m + t - lag)%nat) / (INR (n - m) - 1).
Definition G_sum (n m : nat) (x : nat -> R) : R :=
  2 * rsum m (fun i => lam (INR (S i) / INR m) * INR (S i) * acov n m x (S i)).
Definition S_sum (n m : nat) (x : nat -> R) : R :=
  acov n m x 0 + 2 * rsum m (fun i => lam (INR (S i) / INR m) * acov n m x (S i)).
Definition cube_root (a : R) : R := if Req_EM_T a 0 then 0 else Rpower a (1 / 3).

Lemma autocov_fin n m x j : (2 <= n - m)%nat -> (j <= m)%nat -> autocov n m x j = Fin (acov n m x j).
Proof.
  intros Hn Hj. unfold autocov, acov. cbv zeta. destruct (Nat.leb_spec (n - m) 1); [lia|]. f_equal. f_equal.
  apply cov_ext; [reflexivity|]. intros t Ht. destruct j as [|j]; [f_equal; lia|]. rewrite mlag1 by lia. f_equal. lia.
Qed.
Lemma autocov_nan n m x j : (n - m <= 1)%nat -> autocov n m x j = NaN.
Proof. intros Hn. unfold autocov. destruct (Nat.leb_spec (n - m) 1); [reflexivity|lia]. Qed.
Lemma lam_even k : lam (- k) = lam k.
Proof. unfold lam. rewrite Rabs_Ropp. reflexivity. Qed.
Lemma g_fin n m x : (2 <= n - m)%nat -> g_hat n m x = Fin (G_sum n m x).
Proof.
  intros Hn. unfold g_hat.
  rewrite (sum_kk_ext m _ (fun k => Fin (lam (IZR k / INR m) * Rabs (IZR k) * acov n m x (Z.to_nat (Z.abs k))))).
  2:{ intros k Hk. rewrite autocov_fin by lia. reflexivity. }
  rewrite sum_kk_fin. f_equal. rewrite lsum_zlist.
  - rewrite Rabs_R0. unfold G_sum. rewrite Rmult_0_r, Rmult_0_l, Rplus_0_l. f_equal. apply rsum_ext. intros i _.
    rewrite <- INR_IZR_INZ, (Rabs_right (INR (S i))) by (apply Rle_ge, pos_INR). do 2 f_equal. lia.
  - intros k. rewrite opp_IZR, Rabs_Ropp, Z.abs_opp. f_equal. f_equal. rewrite <- lam_even. f_equal. unfold Rdiv. ring.
Qed.
Lemma s_fin n m x : (2 <= n - m)%nat -> s_hat n m x = Fin (S_sum n m x).
Proof.
  intros Hn. unfold s_hat.
  rewrite (sum_kk_ext m _ (fun k => Fin (lam (IZR k / INR m) * acov n m x (Z.to_nat (Z.abs k))))).
  2:{ intros k Hk. rewrite autocov_fin by lia. reflexivity. }
  rewrite sum_kk_fin. f_equal. rewrite lsum_zlist.
  - unfold S_sum. f_equal.
    + unfold Rdiv. rewrite Rmult_0_l, lam_flat by (rewrite Rabs_R0; lra). cbn [Z.abs Z.to_nat]. ring.
    + f_equal. apply rsum_ext. intros i _. rewrite <- INR_IZR_INZ. do 2 f_equal. lia.
  - intros k. rewrite opp_IZR, Z.abs_opp. f_equal. rewrite <- lam_even. f_equal. unfold Rdiv. ring.
Qed.
Lemma gs_nan n m x : (n - m <= 1)%nat -> g_hat n m x = NaN /\ s_hat n m x = NaN.
Proof. intros Hn. split; unfold g_hat, s_hat; apply sum_kk_nan; intros k; rewrite autocov_nan by exact Hn; reflexivity. Qed.

Lemma cube_root_pos a : 0 < a -> 0 < cube_root a.
Proof. intros H. unfold cube_root. destruct (Req_EM_T a 0); [lra|]. apply exp_pos. Qed.
Lemma cube_root_nonneg a : 0 <= cube_root a.
Proof. unfold cube_root. destruct (Req_EM_T a 0); [lra|]. left. apply exp_pos. Qed.
Lemma cube_root_le a b : 0 <= a <= b -> cube_root a <= cube_root b.
Proof.
  intros [H1 H2]. unfold cube_root. destruct (Req_EM_T a 0), (Req_EM_T b 0); try lra.
  - left. apply exp_pos.
  - apply Rle_Rpower_l; lra.
Qed.
Lemma b_max_pos n : (1 <= n)%nat -> 1 <= b_max n.
Proof.
  intros Hn. unfold b_max. apply (IZR_le 1). assert (H : (0 < Zceil (Rmin (3 * sqrt (INR n)) (INR n / 3)))%Z); [|lia].
  apply lt_IZR. eapply Rlt_le_trans; [|apply Zceil_ub]. assert (0 < INR n) by (apply lt_0_INR; lia).
  apply Rmin_glb_lt; [apply Rmult_lt_0_compat; [lra|apply sqrt_lt_R0; assumption]|lra].
Qed.

(** One estimated length: [q] times the squared ratio, cube root, scaled with the
    cube root of the number of samples, capped. *)
Definition length_of (n : nat) (q G S : R) : fl :=
  if Req_EM_T S 0 then (if Req_EM_T G 0 then NaN else Fin (b_max n))
  else Fin (Rmin (b_max n) (cube_root (q * (G / S) ^ 2) * cube_root (INR n))).

Lemma cap_fin n b : (if flt (Fin (b_max n)) (Fin b) then Fin (b_max n) else Fin b) = Fin (Rmin (b_max n) b).
Proof.
  cbn [flt]. destruct (Rltb (b_max n) b) eqn:E.
  - apply Rltb_iff in E. rewrite Rmin_left by lra. reflexivity.
  - apply Rltb_false in E. rewrite Rmin_right by lra. reflexivity.
Qed.
Lemma inf_pos a : 0 < a -> inf_of_sign a = PInf.
Proof. intros H. unfold inf_of_sign. destruct (Rlt_dec 0 a); [reflexivity|lra]. Qed.
Lemma fsign_pos a : 0 < a -> fsign (Fin a) = 1.
Proof. intros H. unfold fsign. destruct (Rlt_dec 0 a); [reflexivity|lra]. Qed.
Lemma b_star_eval n g s q : (1 <= n)%nat -> 0 < q ->
  b_star n (Fin g) (fmul (Fin q) (fsq (Fin s))) = length_of n (2 / q) g s.
Proof.
  intros Hn Hq. assert (HN : 0 < INR n) by (apply lt_0_INR; lia). unfold length_of.
  unfold b_star, fsq. cbn [fmul]. cbv zeta.
  replace (cbrt (Fin (INR n))) with (Fin (cube_root (INR n))) by reflexivity.
  pose proof (cube_root_pos _ HN) as HC.
  destruct (Req_EM_T s 0) as [->|Hs].
  - replace (q * (0 * 0)) with 0 by ring. unfold fdiv. destruct (Req_EM_T 0 0) as [_|H]; [|exfalso; apply H; reflexivity].
    destruct (Req_EM_T g 0) as [->|Hg].
    + replace (2 * (0 * 0)) with 0 by ring. unfold fsign. destruct (Rlt_dec 0 0); [lra|]. unfold inf_of_sign.
      destruct (Rlt_dec 0 0); [lra|]. reflexivity.
    + assert (Hgg : 0 < g * g) by (apply Rsqr_pos_lt in Hg; exact Hg).
      rewrite fsign_pos, inf_pos by lra. cbn [cbrt fmul]. rewrite (fsign_pos _ HC). cbn [fsign]. rewrite inf_pos by lra. reflexivity.
  - assert (Hss : 0 < s * s) by (apply Rsqr_pos_lt in Hs; exact Hs).
    assert (0 < q * (s * s)) by (apply Rmult_lt_0_compat; lra).
    unfold fdiv. destruct (Req_EM_T (q * (s * s)) 0); [lra|].
    replace (cbrt (Fin (2 * (g * g) / (q * (s * s))))) with (Fin (cube_root (2 / q * (g / s) ^ 2))).
    2:{ unfold cbrt, cube_root. replace (2 / q * (g / s) ^ 2) with (2 * (g * g) / (q * (s * s))) by (field; lra). reflexivity. }
    cbn [fmul]. apply cap_fin.
Qed.

(** [b_max] is the ceiling of min(3 sqrt n, n / 3). *)
Theorem C49_cap : forall n, (exists z, b_max n = IZR z) /\ Rmin (3 * sqrt (INR n)) (INR n / 3) <= b_max n < Rmin (3 * sqrt (INR n)) (INR n / 3) + 1.
Proof.
  intros n. split; [eexists; reflexivity|]. unfold b_max. split; [apply Zceil_ub|].
  pose proof (Zceil_lb (Rmin (3 * sqrt (INR n)) (INR n / 3))). lra.
Qed.
Print Assumptions C49_cap.

(** Both estimated lengths, from the kernel-weighted autocovariances. *)
Theorem C49_block_lengths : forall (n : nat) (x : nat -> R), (1 <= n)%nat ->
  match m_hat n x with
  | None => block_length n x = None
  | Some mh => let m := Nat.min (2 * mh) (m_max n) in
      (m = 0%nat -> block_length n x = Some (Fin 1, Fin 1)) /\
      ((0 < m)%nat -> (n < m + 2)%nat -> block_length n x = Some (NaN, NaN)) /\
      ((0 < m)%nat -> (m + 2 <= n)%nat ->
        block_length n x = Some (length_of n 1 (G_sum n m x) (S_sum n m x), length_of n (3 / 2) (G_sum n m x) (S_sum n m x)))
  end.
Proof.
  intros n x Hn. unfold block_length. destruct (m_hat n x) as [mh|]; [|reflexivity].
  assert (Hb : bandwidth n mh = Nat.min (2 * mh) (m_max n)).
  { unfold bandwidth. destruct (Nat.ltb_spec (m_max n) (2 * mh)); lia. }
  rewrite Hb. set (m := Nat.min (2 * mh) (m_max n)). cbv zeta. repeat split.
  - intros ->. reflexivity.
  - intros H0 H1. destruct (Nat.eqb_spec m 0); [lia|]. destruct (gs_nan n m x) as [-> ->]; [lia|]. reflexivity.
  - intros H0 H1. destruct (Nat.eqb_spec m 0); [lia|]. rewrite g_fin, s_fin by lia.
    rewrite !b_star_eval by (assumption || lra). do 3 f_equal; lra.
Qed.
Print Assumptions C49_block_lengths.

Definition in_range (n : nat) (b : fl) : Prop := b = NaN \/ exists v, b = Fin v /\ 0 <= v <= b_max n.

Lemma length_range n q G S : (1 <= n)%nat -> 0 < q -> in_range n (length_of n q G S).
Proof.
  intros Hn Hq. pose proof (b_max_pos n Hn) as Hb. unfold length_of. destruct (Req_EM_T S 0); [destruct (Req_EM_T G 0)|].
  - left. reflexivity.
  - right. eexists. split; [reflexivity|]. lra.
  - right. eexists. split; [reflexivity|]. split; [|apply Rmin_l]. apply Rmin_glb; [lra|]. apply Rmult_le_pos; apply cube_root_nonneg.
Qed.

(** Every reported length is missing or between zero and the cap, and the
    stationary one is never longer than the circular one. *)
Theorem C49_range : forall (n : nat) (x : nat -> R) (sb cb : fl), (1 <= n)%nat -> block_length n x = Some (sb, cb) ->
  in_range n sb /\ in_range n cb /\ (sb = NaN <-> cb = NaN) /\ (forall a b, sb = Fin a -> cb = Fin b -> a <= b).
Proof.
  intros n x sb cb Hn E. pose proof (C49_block_lengths n x Hn) as F. rewrite E in F. pose proof (b_max_pos n Hn) as Hb.
  destruct (m_hat n x) as [mh|]; [|discriminate]. cbv zeta in F. destruct F as (F0 & F1 & F2).
  set (m := Nat.min (2 * mh) (m_max n)) in *.
  destruct (Nat.eq_dec m 0) as [H0|H0]; [|destruct (le_lt_dec (m + 2) n) as [H1|H1]].
  - injection (F0 H0) as -> ->. unfold in_range. repeat split; try (right; eexists; split; [reflexivity|lra]); try discriminate.
    intros a b [= <-] [= <-]. lra.
  - injection (F2 ltac:(lia) H1) as -> ->. split; [apply length_range; [exact Hn|lra]|]. split; [apply length_range; [exact Hn|lra]|].
    unfold length_of. destruct (Req_EM_T (S_sum n m x) 0); [destruct (Req_EM_T (G_sum n m x) 0)|].
    + split; [tauto|discriminate].
    + split; [split; discriminate|]. intros a b [= <-] [= <-]. lra.
    + split; [split; discriminate|]. intros a b [= <-] [= <-]. apply Rle_min_compat_l. apply Rmult_le_compat_r; [apply cube_root_nonneg|].
      assert (0 <= (G_sum n m x / S_sum n m x) ^ 2) by apply pow2_ge_0. apply cube_root_le. lra.
  - injection (F1 ltac:(lia) ltac:(lia)) as -> ->. unfold in_range. repeat split; auto; discriminate.
Qed.
Print Assumptions C49_range.

(** A case with finite estimates: eleven samples of a ramp. *)
Lemma ramp_cov l : (l <= 9)%nat -> cov 2 (fun t => INR (9 + t)) (fun t => INR (9 + t - l)) = 1 / 2.
Proof.
  intros Hl. unfold cov, mean. cbn [rsum]. replace (9 + 1 - l)%nat with (S (9 + 0 - l)) by lia. rewrite !S_INR, !plus_INR.
  replace (INR 2) with 2 by (cbn; ring). generalize (INR (9 + 0 - l)), (INR 9). intros a b. cbn [INR]. field.
Qed.
Example C49_ramp_instance : exists sb cb, block_length 11 INR = Some (Fin sb, Fin cb).
Proof.
  assert (HM : m_max 11 = 9%nat) by reflexivity.
  assert (HC : 2 * sqrt (ln (INR 11) / ln 10 / INR 11) < 1).
  { assert (0 < ln 10) by (rewrite <- ln_1; apply ln_increasing; lra).
    assert (H11 : ln (INR 11) <= 2 * ln 10).
    { replace (2 * ln 10) with (ln 10 + ln 10) by ring. rewrite <- ln_mult by lra. left. apply ln_increasing; cbn; lra. }
    assert (Hs : ln (INR 11) / ln 10 / INR 11 < 1 / 4).
    { replace (INR 11) with 11 at 2 by (cbn; ring). apply (Rmult_lt_reg_r (ln 10 * 11)); [lra|]. field_simplify; [lra|lra]. }
    apply (Rlt_le_trans _ (2 * sqrt (1 / 4))).
    - apply Rmult_lt_compat_l; [lra|]. apply sqrt_lt_1; try lra. apply Rmult_le_pos; [apply Rmult_le_pos|].
      + rewrite <- ln_1. left. apply ln_increasing; cbn; lra.
      + left. apply Rinv_0_lt_compat. lra.
      + left. apply Rinv_0_lt_compat. cbn. lra.
    - replace (1 / 4) with ((1 / 2) * (1 / 2)) by field. rewrite sqrt_square by lra. lra. }
  assert (T : forall l, (1 <= l <= 9)%nat -> lag_corr 11 INR l = Fin 1).
  { intros l Hl. unfold lag_corr. rewrite HM. change (11 - 9)%nat with 2%nat. unfold corr. cbv zeta. rewrite ramp_cov by lia.
    rewrite (cov_ext 2 _ _ (fun t => INR (9 + t)) (fun t => INR (9 + t - 0))) by (intros; f_equal; lia). rewrite ramp_cov by lia.
    assert (HY : cov 2 (fun t => INR (9 + t - l)) (fun t => INR (9 + t - l)) = 1 / 2).
    { unfold cov, mean. cbn [rsum]. replace (9 + 1 - l)%nat with (S (9 + 0 - l)) by lia. rewrite !S_INR.
      replace (INR 2) with 2 by (cbn; ring). generalize (INR (9 + 0 - l)). intros a. cbn [INR]. field. }
    rewrite HY. destruct (Reqb (1 / 2) 0) eqn:E; [apply Reqb_iff in E; lra|]. f_equal. rewrite sqrt_square by lra. field. }
  assert (L : forall l, (1 <= l <= 9)%nat -> large 11 INR l).
  { intros l Hl. exists 1. split; [apply T, Hl|]. rewrite Rabs_R1. exact HC. }
  assert (H : m_hat 11 INR = Some 8%nat).
  { pose proof (C49_selected_lag 11 INR) as F. rewrite HM in F. destruct (m_hat 11 INR) as [m|].
    - destruct F as [(F1 & F2 & _)|(_ & F1 & _ & F2)].
      + destruct (F2 0%nat ltac:(lia)) as (v & Hv & Hv2). rewrite T in Hv by lia. injection Hv as <-. rewrite Rabs_R1 in Hv2. lra.
      + destruct (Nat.eq_dec m 8) as [->|]; [reflexivity|]. exfalso. apply (F2 9%nat ltac:(lia)). apply L. lia.
    - exfalso. apply (F 1%nat ltac:(lia)). apply L. lia. }
  pose proof (C49_block_lengths 11 INR ltac:(lia)) as F. rewrite H, HM in F. destruct F as (_ & _ & F). rewrite F by (cbn; lia).
  change (Nat.min (2 * 8) 9) with 9%nat.
  assert (A : forall l, (l <= 9)%nat -> acov 11 9 INR l = 1 / 2).
  { intros l Hl. unfold acov. change (11 - 9)%nat with 2%nat. rewrite ramp_cov by exact Hl. cbn. field. }
  assert (HS : S_sum 11 9 INR <> 0).
  { unfold S_sum. rewrite A by lia. assert (0 <= rsum 9 (fun i => lam (INR (S i) / INR 9) * acov 11 9 INR (S i))); [|lra].
    apply rsum_nonneg. intros i Hi. rewrite A by lia. destruct (C49_kernel (INR (S i) / INR 9)) as (_ & Hk & _). lra. }
  unfold length_of. destruct (Req_EM_T (S_sum 11 9 INR) 0); [contradiction|]. eauto.
Qed.

(** ** Change of units *)
Lemma autocorr_affine n a b x j : a <> 0 -> (j < m_max n)%nat -> autocorr n (fun t => a * x t + b) j = autocorr n x j.
Proof. intros Ha Hj. rewrite !autocorr_spec by exact Hj. apply (corr_affine _ a b (fun t => x (m_max n + t)%nat) (fun t => x (m_max n + t - (j + 1))%nat)). exact Ha. Qed.
Lemma windows_ext M t t' j c : (kn <= M)%nat -> (j < kn)%nat -> (c <= M - kn)%nat -> (forall i, (i < M)%nat -> t i = t' i) -> windows M t j c = windows M t' j c.
Proof. intros HM Hj Hc H. rewrite !windows_spec by assumption. destruct (Nat.ltb_spec (c + kn) M); apply H; lia. Qed.
Lemma m_hat_affine n a b x : a <> 0 -> m_hat n (fun t => a * x t + b) = m_hat n x.
Proof.
  intros Ha. assert (HM : (kn <= m_max n)%nat) by (unfold m_max; lia).
  assert (T : forall i, (i < m_max n)%nat -> autocorr n (fun t => a * x t + b) i = autocorr n x i) by (intros; apply autocorr_affine; assumption).
  unfold m_hat. cbv zeta.
  rewrite (filter_ext_in (insignificant n (windows (m_max n) (autocorr n (fun t => a * x t + b)))) (insignificant n (windows (m_max n) (autocorr n x)))).
  2:{ intros c Hc. apply in_seq in Hc. unfold insignificant. do 2 f_equal. apply filter_ext_in. intros j Hj. apply in_seq in Hj.
      do 2 f_equal. apply windows_ext; try assumption; lia. }
  destruct (filter _ _); [|reflexivity].
  rewrite (filter_ext_in (fun j => flt (Fin (critical n)) (fabs (autocorr n (fun t => a * x t + b) j))) (fun j => flt (Fin (critical n)) (fabs (autocorr n x j)))); [reflexivity|].
  intros j Hj. apply in_seq in Hj. rewrite T by lia. reflexivity.
Qed.
Lemma acov_affine n m a b x l : acov n m (fun t => a * x t + b) l = a * a * acov n m x l.
Proof. unfold acov. rewrite (cov_affine (n - m) a b (fun t => x (m + t)%nat) (fun t => x (m + t - l)%nat)). unfold Rdiv. ring. Qed.

(** Rescaling and shifting a series leaves its block lengths unchanged. *)
Theorem C49_unit_free : forall (n : nat) (a b : R) (x : nat -> R), (1 <= n)%nat -> a <> 0 ->
  block_length n (fun t => a * x t + b) = block_length n x.
Proof.
  intros n a b x Hn Ha. pose proof (C49_block_lengths n x Hn) as F. pose proof (C49_block_lengths n (fun t => a * x t + b) Hn) as F'.
  rewrite m_hat_affine in F' by exact Ha. destruct (m_hat n x) as [mh|]; [|congruence].
  cbv zeta in F, F'. set (m := Nat.min (2 * mh) (m_max n)) in *. destruct F as (F0 & F1 & F2). destruct F' as (F0' & F1' & F2').
  destruct (Nat.eq_dec m 0) as [H0|H0]; [rewrite F0, F0' by exact H0; reflexivity|].
  destruct (le_lt_dec (m + 2) n) as [H1|H1]; [|rewrite F1, F1' by lia; reflexivity].
  rewrite F2, F2' by lia.
  assert (HG : G_sum n m (fun t => a * x t + b) = a * a * G_sum n m x).
  { unfold G_sum. rewrite <- Rmult_assoc, (Rmult_comm (a * a) 2), Rmult_assoc. f_equal. rewrite <- rsum_scal_l. apply rsum_ext. intros i _. rewrite acov_affine. ring. }
  assert (HS : S_sum n m (fun t => a * x t + b) = a * a * S_sum n m x).
  { unfold S_sum. rewrite acov_affine, Rmult_plus_distr_l. f_equal. rewrite <- Rmult_assoc, (Rmult_comm (a * a) 2), Rmult_assoc. f_equal. rewrite <- rsum_scal_l. apply rsum_ext. intros i _. rewrite acov_affine. ring. }
  rewrite HG, HS. set (G := G_sum n m x). set (S := S_sum n m x).
  assert (Haa : a * a <> 0) by (apply Rmult_integral_contrapositive; auto).
  assert (E : forall q, length_of n q (a * a * G) (a * a * S) = length_of n q G S).
  { intros q. unfold length_of. destruct (Req_EM_T (a * a * S) 0) as [E1|E1], (Req_EM_T S 0) as [E2|E2].
    - destruct (Req_EM_T (a * a * G) 0) as [E3|E3], (Req_EM_T G 0) as [E4|E4]; try reflexivity.
      + apply Rmult_integral in E3. tauto.
      + exfalso. apply E3. rewrite E4. ring.
    - apply Rmult_integral in E1. tauto.
    - exfalso. apply E1. rewrite E2. ring.
    - do 5 f_equal. field. split; [exact E2|exact Ha]. }
  rewrite !E. reflexivity.
Qed.
Print Assumptions C49_unit_free.

(** A series that is constant from the largest lag on has no estimate. *)
Theorem C49_constant_series_raises : forall (n : nat) (x : nat -> R) (c : R), (forall t, (m_max n <= t < n)%nat -> x t = c) -> block_length n x = None.
Proof.
  intros n x c H.
  assert (T : forall l, lag_corr n x l = NaN).
  { intros l. unfold lag_corr, corr. cbv zeta. rewrite (cov_ext _ _ _ (fun _ => c) (fun _ => c)) by (intros t Ht; apply H; lia).
    rewrite cov_const, (proj2 (Reqb_iff 0 0)) by reflexivity. reflexivity. }
  pose proof (C49_selected_lag n x) as F. unfold block_length. destruct (m_hat n x) as [m|]; [exfalso|reflexivity].
  destruct F as [(_ & F & _)|(_ & _ & (v & F & _) & _)].
  - destruct (F 0%nat ltac:(lia)) as (v & F' & _). rewrite T in F'. discriminate.
  - rewrite T in F. discriminate.
Qed.
Print Assumptions C49_constant_series_raises.
(** In particular every series with too few samples. *)
Corollary C49_short_series_raises : forall (n : nat) (x : nat -> R), (n <= m_max n + 1)%nat -> block_length n x = None.
Proof.
  intros n x H. apply (C49_constant_series_raises n x (x (m_max n))). intros t Ht. replace t with (m_max n) by lia. reflexivity.
Qed.
Print Assumptions C49_short_series_raises.
Example C49_short_instance : forall x, block_length 9 x = None.
Proof. intros x. apply C49_short_series_raises. vm_compute. lia. Qed.

(** ** The block size of a data handler *)
Lemma fold_fadd_nan l : fold_left fadd l NaN = NaN.
Proof. induction l; [reflexivity|assumption]. Qed.
Lemma fsum_bound n l : Forall (in_range n) l -> forall a k, 0 <= a <= INR k * b_max n ->
  fold_left fadd l (Fin a) = NaN \/ exists v, fold_left fadd l (Fin a) = Fin v /\ 0 <= v <= INR (k + List.length l) * b_max n.
Proof.
  intros F. induction F as [|b l Hb F IH]; intros a k Ha; cbn [fold_left List.length].
  - right. exists a. rewrite Nat.add_0_r. auto.
  - destruct Hb as [->|(v & -> & Hv)]; cbn [fadd].
    + left. apply fold_fadd_nan.
    + specialize (IH (a + v) (S k)). replace (k + S (List.length l))%nat with (S k + List.length l)%nat by lia. apply IH.
      rewrite S_INR. lra.
Qed.
Lemma optimal_Some n xs bs : optimal_block_length n xs = Some bs <-> Forall2 (fun x b => block_length n x = Some b) xs bs.
Proof.
  split.
  - revert bs. induction xs as [|x xs IH]; intros bs; cbn.
    + intros [= <-]. constructor.
    + destruct (block_length n x) eqn:E; [|discriminate]. destruct (optimal_block_length n xs); [|discriminate]. intros [= <-]. constructor; auto.
  - induction 1 as [|x b xs bs Hb _ IH]; [reflexivity|]. cbn. rewrite Hb, IH. reflexivity.
Qed.
Lemma optimal_None n xs : optimal_block_length n xs = None <-> Exists (fun x => block_length n x = None) xs.
Proof.
  induction xs as [|x xs IH]; cbn; [split; [discriminate|intros H; inversion H]|]. rewrite Exists_cons.
  destruct (block_length n x) eqn:E.
  - destruct (optimal_block_length n xs) eqn:E2; [|tauto]. split; [discriminate|]. intros [H|H]; [discriminate|]. apply IH in H. discriminate.
  - split; auto.
Qed.

(** The block size is the floor of the mean circular length when every feature
    has one; otherwise a fifth of the number of features. *)
Theorem C49_block_size : forall (n : nat) (xs : list (nat -> R)), (1 <= n)%nat -> xs <> [] ->
  (forall ls sbs, Forall2 (fun x p => block_length n x = Some (fst p, Fin (snd p))) xs (combine sbs ls) -> List.length sbs = List.length ls ->
     let avg := lsum ls / INR (List.length xs) in
     IZR (determine_optimal_block n xs) <= avg < IZR (determine_optimal_block n xs) + 1 /\
     (0 <= determine_optimal_block n xs)%Z /\ IZR (determine_optimal_block n xs) <= b_max n) /\
  (Exists (fun x => block_length n x = None \/ exists sb, block_length n x = Some (sb, NaN)) xs ->
     determine_optimal_block n xs = Z.of_nat (List.length xs / 5)).
Proof.
  intros n xs Hn Hne. assert (HL : 0 < INR (List.length xs)) by (apply lt_0_INR; destruct xs; [congruence|cbn; lia]). split.
  - intros ls sbs F Hlen. cbv zeta.
    assert (HO : optimal_block_length n xs = Some (map (fun p => (fst p, Fin (snd p))) (combine sbs ls))).
    { apply optimal_Some. clear -F. induction F; constructor; auto. }
    assert (Hr : Forall (in_range n) (map (fun a => Fin a) ls)).
    { assert (Hls : ls = map snd (combine sbs ls)) by (clear -Hlen; revert ls Hlen; induction sbs as [|a sbs IH]; intros [|b ls] H; try discriminate; cbn; [reflexivity|f_equal; apply IH; injection H; auto]).
      rewrite Hls. clear -F Hn. rewrite map_map. induction F as [|x p xs ps Hp F IH]; constructor; [|exact IH].
      destruct (C49_range n x _ _ Hn Hp) as (_ & H & _). exact H. }
    assert (Hls : map snd (map (fun p : fl * R => (fst p, Fin (snd p))) (combine sbs ls)) = map (fun a => Fin a) ls).
    { clear -Hlen. revert ls Hlen. induction sbs as [|a sbs IH]; intros [|b ls] H; try discriminate; cbn; [reflexivity|f_equal; apply IH; injection H; auto]. }
    assert (Hlx : List.length xs = List.length ls).
    { transitivity (List.length (combine sbs ls)); [clear -F; induction F; cbn; congruence|rewrite combine_length; lia]. }
    assert (Hsum : forall l a, fold_left fadd (map (fun a => Fin a) l) (Fin a) = Fin (a + lsum l)).
    { induction l as [|b l IH]; intros a; cbn; [f_equal; ring|]. rewrite IH. f_equal. ring. }
    assert (HD : determine_optimal_block n xs = Zfloor (lsum ls / INR (List.length xs))).
    { unfold determine_optimal_block. cbv zeta. rewrite HO, Hls. unfold lmean. rewrite Hsum, map_length, <- Hlx. cbn [fdiv].
      destruct (Req_EM_T (INR (List.length xs)) 0); [lra|]. rewrite Rplus_0_l. reflexivity. }
    rewrite HD. split; [split; [apply Zfloor_lb|apply Zfloor_ub]|].
    destruct (fsum_bound n _ Hr 0 0 ltac:(cbn; lra)) as [H|(v & H & Hv)]; rewrite Hsum in H; [discriminate|]. injection H as H. rewrite Rplus_0_l in H. subst v.
    rewrite map_length in Hv. cbn [Nat.add] in Hv. rewrite <- Hlx in Hv.
    split.
    + apply Zfloor_lub. apply Rmult_le_pos; [lra|]. left. apply Rinv_0_lt_compat. exact HL.
    + eapply Rle_trans; [apply Zfloor_lb|]. apply (Rmult_le_reg_r (INR (List.length xs))); [exact HL|].
      unfold Rdiv. rewrite Rmult_assoc, Rinv_l by lra. lra.
  - intros HE.
    assert (HZ : (Z.of_nat (List.length xs) / 5)%Z = Z.of_nat (List.length xs / 5)) by (rewrite Nat2Z.inj_div; reflexivity).
    unfold determine_optimal_block. cbv zeta. rewrite HZ. destruct (optimal_block_length n xs) as [bs|] eqn:E; [|reflexivity].
    apply optimal_Some in E.
    assert (HN : forall a, fold_left fadd (map snd bs) (Fin a) = NaN).
    { assert (Hin : Forall (in_range n) (map snd bs)).
      { clear -E Hn. induction E as [|x [sb cb] xs bs Hb E IH]; constructor; [|exact IH]. cbn. destruct (C49_range n x _ _ Hn Hb) as (_ & H & _). exact H. }
      revert HE Hin. clear -E. induction E as [|x [sb cb] xs bs Hb E IH]; intros HE Hin a; [inversion HE|]. cbn [map fold_left snd] in *.
      inversion Hin as [|? ? H1 H2 E1]. subst. apply Exists_cons in HE. destruct HE as [[HE|[sb' HE]]|HE].
      - congruence.
      - rewrite HE in Hb. injection Hb as <- <-. cbn. apply fold_fadd_nan.
      - destruct H1 as [->|(v & -> & _)]; [cbn; apply fold_fadd_nan|]. cbn [fadd]. apply IH; assumption. }
    unfold lmean. rewrite HN. reflexivity.
Qed.
Print Assumptions C49_block_size.

(** So a usable block size is not guaranteed: with a constant feature among
    fewer than five, the block size is zero. *)
Theorem C49_block_size_positive_refuted : exists (n : nat) (xs : list (nat -> R)), (1 <= n)%nat /\ xs <> [] /\ determine_optimal_block n xs = 0%Z.
Proof.
  exists 100%nat, [(fun _ => 1); (fun t => INR t)]. split; [lia|]. split; [discriminate|].
  destruct (C49_block_size 100 [(fun _ => 1); (fun t => INR t)]) as [_ H]; [lia|discriminate|]. rewrite H; [reflexivity|].
  apply Exists_cons_hd. left. apply (C49_constant_series_raises 100 (fun _ => 1) 1). reflexivity.
Qed.
Print Assumptions C49_block_size_positive_refuted.

Example C49_kernel_example := C49_kernel (3 / 4).
Example C49_lagged_matrix_example := C49_lagged_matrix R 2 3 0 (fun r i => INR (10 * r + i)) 1 1 ltac:(lia) ltac:(lia).
Example C49_selected_lag_example := C49_selected_lag 11 INR.
Example C49_cap_example := C49_cap 40.
Example C49_block_lengths_example := C49_block_lengths 11 INR ltac:(lia).
Example C49_range_example : exists sb cb, block_length 11 INR = Some (Fin sb, Fin cb) /\ sb <= cb.
Proof.
  destruct C49_ramp_instance as (sb & cb & E). exists sb, cb. split; [exact E |].
  exact (proj2 (proj2 (proj2 (C49_range 11 INR (Fin sb) (Fin cb) ltac:(lia) E))) sb cb eq_refl eq_refl).
Qed.
Example C49_unit_free_example := C49_unit_free 11 1000 (-5) INR ltac:(lia) ltac:(lra).
Example C49_constant_series_raises_example := C49_constant_series_raises 30 (fun _ => 7) 7 ltac:(reflexivity).
Example C49_block_size_example : determine_optimal_block 30 [INR; fun _ => 7; INR; INR; INR] = 1%Z.
Proof.
  apply (proj2 (C49_block_size 30 [INR; fun _ => 7; INR; INR; INR] ltac:(lia) ltac:(discriminate))).
  right. left. left. exact C49_constant_series_raises_example.
Qed.
