(** C134: how near to optimal a converged LS-NMF run is. *)
From Coq Require Import Reals Lra Lia List Bool ZArith Arith Psatz.
From Verif Require Import Base Fl Metrics_Model Metrics_Spec Metrics_Proofs LSNMF_Model LSNMF_Proofs
  Train_Model Train_Spec Train_Proofs Train_LS LSLimit_Props.
From Verif Require Acc_Spec Acc_Proofs Train_Props.
Import ListNotations.
Open Scope R_scope.

(** ** Specification *)
(** Root of the sum of squares of a matrix in units of the uncertainties. *)
Definition in_units (m n : nat) (U A : mat) : R := sqrt (msum m n (fun i j => Rsqr (A i j / U i j))).
(** The fitted values. *)
Definition fitted (k : nat) (W H : mat) : mat := fun i j => rsum k (fun a => W i a * H a j).
(** Every entry of [B] differs from that of [A] by at most [c] times the latter:
    with c = 1 any entry may be set to zero or be doubled. *)
Definition within (m n : nat) (c : R) (A B : mat) : Prop := forall i j, (i < m)%nat -> (j < n)%nat -> Rabs (B i j - A i j) <= c * A i j.
(** One entry replaced. *)
Definition put (A : mat) (i j : nat) (x : R) : mat := fun i' j' => if ((i' =? i) && (j' =? j))%nat then x else A i' j'.
(** The partial derivatives of a function of a matrix. *)
Definition gradient (m n : nat) (f : mat -> R) (A g : mat) : Prop :=
  forall i j, (i < m)%nat -> (j < n)%nat -> derivable_pt_lim (fun x => f (put A i j x)) (A i j) (g i j).

(** ** Cauchy-Schwarz for weighted double sums *)
Lemma amgm_sqrt A P T : 0 <= P -> 0 <= T -> (forall x, 0 < x -> 2 * A <= x * P + / x * T) -> A <= sqrt P * sqrt T.
Proof.
  intros HP HT Hx. destruct (Rle_lt_dec A 0) as [HA|HA]; [pose proof (Rmult_le_pos _ _ (sqrt_pos P) (sqrt_pos T)); lra|].
  destruct HP as [HP|<-].
  - destruct HT as [HT|<-].
    + pose proof (sqrt_lt_R0 _ HP) as SP. pose proof (sqrt_lt_R0 _ HT) as ST. specialize (Hx (sqrt T / sqrt P) ltac:(apply Rdiv_lt_0_compat; assumption)).
      assert (E1 : sqrt T / sqrt P * P = sqrt P * sqrt T) by (rewrite <- (sqrt_sqrt P) at 2 by lra; field; lra).
      assert (E2 : / (sqrt T / sqrt P) * T = sqrt P * sqrt T) by (rewrite <- (sqrt_sqrt T) at 2 by lra; field; lra). lra.
    + exfalso. specialize (Hx (A / P) ltac:(apply Rdiv_lt_0_compat; assumption)). replace (A / P * P) with A in Hx by (field; lra). lra.
  - exfalso. assert (PT : 0 < (T + 1) / A) by (apply Rdiv_lt_0_compat; lra). specialize (Hx _ PT).
    assert (/ ((T + 1) / A) * T <= A). { replace (/ ((T + 1) / A) * T) with (A * (T / (T + 1))) by (field; lra). rewrite <- (Rmult_1_r A) at 2. apply Rmult_le_compat_l; [lra|]. apply (Rmult_le_reg_r (T + 1)); [lra|]. replace (T / (T + 1) * (T + 1)) with T by (field; lra). lra. }
    lra.
Qed.
Lemma double_cauchy m n (p t : mat) : mall m n (fun x => 0 <= x) p ->
  msum m n (fun i j => p i j * Rabs (t i j)) <= sqrt (msum m n p) * sqrt (msum m n (fun i j => t i j * t i j * p i j)).
Proof.
  intros Hp. apply amgm_sqrt.
  - apply msum_nonneg. exact Hp.
  - apply msum_nonneg. intros i j Hi Hj. apply Rmult_le_pos; [apply Rle_0_sqr|apply Hp; assumption].
  - intros x Hx. unfold msum. rewrite <- !rsum_scal_l, <- rsum_plus. apply rsum_le. intros i Hi. rewrite <- !rsum_scal_l, <- rsum_plus. apply rsum_le. intros j Hj.
    specialize (Hp i j Hi Hj). cbv beta in Hp. replace (2 * (p i j * Rabs (t i j))) with (p i j * (2 * Rabs (t i j))) by ring.
    replace (x * p i j + / x * (t i j * t i j * p i j)) with (p i j * (x + / x * (t i j * t i j))) by ring. apply Rmult_le_compat_l; [exact Hp|].
    assert (E : x + / x * (t i j * t i j) - 2 * Rabs (t i j) = / x * Rsqr (x - Rabs (t i j))).
    { replace (t i j * t i j) with (Rabs (t i j) * Rabs (t i j)) by (change (Rsqr (Rabs (t i j)) = Rsqr (t i j)); symmetry; apply Rsqr_abs). unfold Rsqr. field. lra. }
    assert (0 <= / x * Rsqr (x - Rabs (t i j))) by (apply Rmult_le_pos; [left; apply Rinv_0_lt_compat, Hx|apply Rle_0_sqr]). lra.
Qed.

(** ** The loss as a function of one of the blocks *)
Lemma W_expand m n k V We W H W2 :
  wloss m n k V We W2 H = wloss m n k V We W H - 2 * msum m k (fun i a => (W2 i a - W i a) * (w_num n V We H i a - w_den n k We W H i a)) + wdist m n k We W H W2 H.
Proof.
  unfold wloss, wdist, msum. rewrite <- rsum_scal_l, <- rsum_minus, <- rsum_plus. apply rsum_ext. intros i Hi.
  set (d := fun j => mmul k W2 H i j - mmul k W H i j).
  assert (Z : rsum n (fun j => We i j * (V i j - mmul k W H i j) * d j) = rsum k (fun a => (W2 i a - W i a) * (w_num n V We H i a - w_den n k We W H i a))).
  { transitivity (rsum n (fun j => rsum k (fun a => (W2 i a - W i a) * (We i j * V i j * H a j - We i j * mmul k W H i j * H a j)))).
    - apply rsum_ext. intros j Hj. unfold d, mmul at 2 3. rewrite <- rsum_minus, <- rsum_scal_l. apply rsum_ext. intros a Ha. ring.
    - rewrite rsum_swap. apply rsum_ext. intros a Ha. rewrite rsum_scal_l, rsum_minus. reflexivity. }
  rewrite <- Z, <- rsum_scal_l, <- rsum_minus, <- rsum_plus. apply rsum_ext. intros j Hj. unfold d, Rsqr. ring.
Qed.
Lemma H_expand m n k V We W H H2 :
  wloss m n k V We W H2 = wloss m n k V We W H - 2 * msum k n (fun a j => (H2 a j - H a j) * (h_num m V We W a j - h_den m k We W H a j)) + wdist m n k We W H W H2.
Proof.
  unfold wloss, wdist, msum. rewrite (rsum_swap m n), (rsum_swap m n), (rsum_swap m n), (rsum_swap k n). rewrite <- rsum_scal_l, <- rsum_minus, <- rsum_plus. apply rsum_ext. intros j Hj.
  set (d := fun i => mmul k W H2 i j - mmul k W H i j).
  assert (Z : rsum m (fun i => We i j * (V i j - mmul k W H i j) * d i) = rsum k (fun a => (H2 a j - H a j) * (h_num m V We W a j - h_den m k We W H a j))).
  { transitivity (rsum m (fun i => rsum k (fun a => (H2 a j - H a j) * (W i a * (We i j * V i j) - W i a * (We i j * mmul k W H i j))))).
    - apply rsum_ext. intros i Hi. unfold d, mmul at 2 3. rewrite <- rsum_minus, <- rsum_scal_l. apply rsum_ext. intros a Ha. ring.
    - rewrite rsum_swap. apply rsum_ext. intros a Ha. rewrite rsum_scal_l, rsum_minus. reflexivity. }
  rewrite <- Z, <- rsum_scal_l, <- rsum_minus, <- rsum_plus. apply rsum_ext. intros i Hi. unfold d, Rsqr. ring.
Qed.
Lemma wdist_nonneg m n k We W H W2 H2 : mall m n (fun x => 0 <= x) We -> 0 <= wdist m n k We W H W2 H2.
Proof. intros He. apply msum_nonneg. intros i j Hi Hj. apply Rmult_le_pos; [apply He; assumption|apply Rle_0_sqr]. Qed.

Definition fit2 (m n k : nat) (We W H : mat) : R := msum m n (fun i j => We i j * (mmul k W H i j * mmul k W H i j)).
Lemma fit2_W m n k We W H : msum m k (fun i a => W i a * w_den n k We W H i a) = fit2 m n k We W H.
Proof.
  unfold fit2, msum. apply rsum_ext. intros i Hi. transitivity (rsum k (fun a => rsum n (fun j => We i j * mmul k W H i j * (W i a * H a j)))).
  - apply rsum_ext. intros a Ha. unfold w_den. rewrite <- rsum_scal_l. apply rsum_ext. intros j Hj. ring.
  - rewrite rsum_swap. apply rsum_ext. intros j Hj. rewrite rsum_scal_l. change (rsum k (fun a => W i a * H a j)) with (mmul k W H i j). ring.
Qed.
Lemma fit2_H m n k We W H : msum k n (fun a j => H a j * h_den m k We W H a j) = fit2 m n k We W H.
Proof.
  unfold fit2, msum. rewrite (rsum_swap k n), (rsum_swap m n). apply rsum_ext. intros j Hj. transitivity (rsum k (fun a => rsum m (fun i => We i j * mmul k W H i j * (W i a * H a j)))).
  - apply rsum_ext. intros a Ha. unfold h_den. rewrite <- rsum_scal_l. apply rsum_ext. intros i Hi. ring.
  - rewrite rsum_swap. apply rsum_ext. intros i Hi. rewrite rsum_scal_l. change (rsum k (fun a => W i a * H a j)) with (mmul k W H i j). ring.
Qed.

(** The weighted sum of the slopes is small if the step gained little. *)
Lemma w_slopes m n k V We W H W' : mall m n nonneg We -> mall m k nonneg W -> mall k n nonneg H -> w_step m n k V We W H = Some W' ->
  msum m k (fun i a => W i a * Rabs (w_num n V We H i a - w_den n k We W H i a)) <= sqrt (fit2 m n k We W H) * sqrt (wloss m n k V We W H - wloss m n k V We W' H).
Proof.
  intros He HW HH Hs. pose proof (w_step_loss m n k V We W H W' He HW HH Hs) as L. destruct (w_step_inv _ _ _ _ _ _ _ _ Hs) as [Hd _].
  set (t := fun i a => w_num n V We H i a / w_den n k We W H i a - 1). set (p := fun i a => W i a * w_den n k We W H i a).
  assert (Hdn : forall i a, (i < m)%nat -> (a < k)%nat -> 0 <= w_den n k We W H i a) by (intros i a Hi Ha; eapply w_den_nonneg; eassumption).
  assert (Hp : mall m k (fun x => 0 <= x) p) by (intros i a Hi Ha; apply Rmult_le_pos; [apply HW; assumption|apply Hdn; assumption]).
  pose proof (double_cauchy m k p t Hp) as D. change (msum m k p) with (msum m k (fun i a => W i a * w_den n k We W H i a)) in D. rewrite (fit2_W m n k We W H) in D.
  apply Rle_trans with (msum m k (fun i a => p i a * Rabs (t i a))).
  - apply Req_le. apply msum_ext. intros i a Hi Ha. unfold p, t. specialize (Hd i a Hi Ha). specialize (Hdn i a Hi Ha). rewrite Rmult_assoc. f_equal.
    rewrite <- (Rabs_right (w_den n k We W H i a)) at 2 by lra. rewrite <- Rabs_mult. f_equal. field. exact Hd.
  - eapply Rle_trans; [exact D|]. apply Rmult_le_compat_l; [apply sqrt_pos|]. apply sqrt_le_1_alt. change (msum m k (fun i a => t i a * t i a * p i a)) with (rsum m (fun i => rsum k (fun a => let t := w_num n V We H i a / w_den n k We W H i a - 1 in t * t * (W i a * w_den n k We W H i a)))). lra.
Qed.
Lemma h_slopes m n k V We W H H' : mall m n nonneg We -> mall m k nonneg W -> mall k n nonneg H -> h_step m n k V We W H = Some H' ->
  msum k n (fun a j => H a j * Rabs (h_num m V We W a j - h_den m k We W H a j)) <= sqrt (fit2 m n k We W H) * sqrt (wloss m n k V We W H - wloss m n k V We W H').
Proof.
  intros He HW HH Hs. pose proof (h_step_loss m n k V We W H H' He HW HH Hs) as L. destruct (h_step_inv _ _ _ _ _ _ _ _ Hs) as [Hd _].
  set (t := fun a j => h_num m V We W a j / h_den m k We W H a j - 1). set (p := fun a j => H a j * h_den m k We W H a j).
  assert (Hdn : forall a j, (a < k)%nat -> (j < n)%nat -> 0 <= h_den m k We W H a j) by (intros a j Ha Hj; eapply h_den_nonneg; eassumption).
  assert (Hp : mall k n (fun x => 0 <= x) p) by (intros a j Ha Hj; apply Rmult_le_pos; [apply HH; assumption|apply Hdn; assumption]).
  pose proof (double_cauchy k n p t Hp) as D. change (msum k n p) with (msum k n (fun a j => H a j * h_den m k We W H a j)) in D. rewrite (fit2_H m n k We W H) in D.
  apply Rle_trans with (msum k n (fun a j => p a j * Rabs (t a j))).
  - apply Req_le. apply msum_ext. intros a j Ha Hj. unfold p, t. specialize (Hd a j Ha Hj). specialize (Hdn a j Ha Hj). rewrite Rmult_assoc. f_equal.
    rewrite <- (Rabs_right (h_den m k We W H a j)) at 2 by lra. rewrite <- Rabs_mult. f_equal. field. exact Hd.
  - eapply Rle_trans; [exact D|]. apply Rmult_le_compat_l; [apply sqrt_pos|]. apply sqrt_le_1_alt. unfold msum. rewrite rsum_swap.
    change (rsum n (fun j => rsum k (fun a => t a j * t a j * p a j))) with (rsum n (fun j => rsum k (fun a => let t := h_num m V We W a j / h_den m k We W H a j - 1 in t * t * (H a j * h_den m k We W H a j)))). lra.
Qed.
Lemma slope_change m k c (A B g : mat) : within m k c A B -> msum m k (fun i a => (B i a - A i a) * g i a) <= c * msum m k (fun i a => A i a * Rabs (g i a)).
Proof.
  intros Hc. unfold msum. rewrite <- rsum_scal_l. apply rsum_le. intros i Hi. rewrite <- rsum_scal_l. apply rsum_le. intros a Ha. specialize (Hc i a Hi Ha).
  eapply Rle_trans; [apply Rle_abs|]. rewrite Rabs_mult, <- Rmult_assoc. apply Rmult_le_compat_r; [apply Rabs_pos|exact Hc].
Qed.

Lemma in_units_fit m n k U W H : mall m n (fun u => u <> 0) U -> in_units m n U (fitted k W H) = sqrt (fit2 m n k (weights U) W H).
Proof.
  intros HU. unfold in_units, fit2. f_equal. apply msum_ext. intros i j Hi Hj. specialize (HU i j Hi Hj). cbv beta in HU. unfold fitted, mmul, weights, Rsqr. field. exact HU.
Qed.

(** ** C134 *)
(** After an iteration that lowered Q(true) by [d], no contributions within [c] times the
    previous ones fit the new profiles better by more than 2 c sqrt(d) times the size of
    the fit in uncertainties, and likewise for profiles. *)
Theorem C134_one_iteration : forall (m n k : nat) (V U : mat) (hold : bool) (W H W' H' : mat) (c : R),
  mall m n (fun x => 0 <= x) V -> mall m n (fun u => u <> 0) U -> mall m k (fun x => 0 <= x) W -> mall k n (fun x => 0 <= x) H ->
  ls_update m n k V (weights U) hold (W, H) = Some (W', H') -> 0 <= c ->
  let d := q_loss m n k true V U W H - q_loss m n k true V U W' H' in
  (forall W2, within m k c W W2 -> q_loss m n k true V U W' H' <= q_loss m n k true V U W2 H' + 2 * c * in_units m n U (fitted k W H') * sqrt d) /\
  (hold = false -> forall H2, within k n c H H2 -> q_loss m n k true V U W' H' <= q_loss m n k true V U W H2 + 2 * c * in_units m n U (fitted k W H) * sqrt d).
Proof.
  intros m n k V U hold W H W' H' c HV HU HW HH Hs Hc. cbv zeta. rewrite !in_units_fit, !q_loss_wloss by exact HU. set (We := weights U).
  assert (He : mall m n nonneg We) by (apply pos_nonneg, weights_pos, HU).
  apply ls_update_inv in Hs. destruct Hs as (H1 & W1 & [= -> ->] & Hh & Hw). fold We in Hh, Hw.
  assert (HH1 : mall k n nonneg H1) by (destruct hold; [subst; assumption|]; exact (h_step_nonneg m n k V We W H H1 HV He HW HH Hh)).
  assert (L1 : wloss m n k V We W H1 <= wloss m n k V We W H).
  { destruct hold; [subst; lra|]. pose proof (h_step_move m n k V We W H H1 He HW HH Hh). pose proof (wdist_nonneg m n k We W H W H1 He). lra. }
  assert (L2 : wloss m n k V We W1 H1 <= wloss m n k V We W H1) by (pose proof (w_step_move m n k V We W H1 W1 He HW HH1 Hw); pose proof (wdist_nonneg m n k We W H1 W1 H1 He); lra).
  split.
  - intros W2 B. rewrite q_loss_wloss by exact HU. fold We. pose proof (w_slopes m n k V We W H1 W1 He HW HH1 Hw) as S1. pose proof (slope_change m k c W W2 _ B : msum m k (fun i a => (W2 i a - W i a) * (w_num n V We H1 i a - w_den n k We W H1 i a)) <= _) as S2. cbv beta in S2.
    pose proof (W_expand m n k V We W H1 W2) as E. pose proof (wdist_nonneg m n k We W H1 W2 H1 He).
    assert (S3 : sqrt (wloss m n k V We W H1 - wloss m n k V We W1 H1) <= sqrt (wloss m n k V We W H - wloss m n k V We W1 H1)) by (apply sqrt_le_1_alt; lra).
    assert (S4 : c * msum m k (fun i a => W i a * Rabs (w_num n V We H1 i a - w_den n k We W H1 i a)) <= c * (sqrt (fit2 m n k We W H1) * sqrt (wloss m n k V We W H - wloss m n k V We W1 H1))).
    { apply Rmult_le_compat_l; [exact Hc|]. eapply Rle_trans; [exact S1|]. apply Rmult_le_compat_l; [apply sqrt_pos|exact S3]. }
    lra.
  - intros -> H2 B. rewrite q_loss_wloss by exact HU. fold We. pose proof (h_slopes m n k V We W H H1 He HW HH Hh) as S1. pose proof (slope_change k n c H H2 _ B : msum k n (fun a j => (H2 a j - H a j) * (h_num m V We W a j - h_den m k We W H a j)) <= _) as S2. cbv beta in S2.
    pose proof (H_expand m n k V We W H H2) as E. pose proof (wdist_nonneg m n k We W H W H2 He).
    assert (S3 : sqrt (wloss m n k V We W H - wloss m n k V We W H1) <= sqrt (wloss m n k V We W H - wloss m n k V We W1 H1)) by (apply sqrt_le_1_alt; lra).
    assert (S4 : c * msum k n (fun a j => H a j * Rabs (h_num m V We W a j - h_den m k We W H a j)) <= c * (sqrt (fit2 m n k We W H) * sqrt (wloss m n k V We W H - wloss m n k V We W1 H1))).
    { apply Rmult_le_compat_l; [exact Hc|]. eapply Rle_trans; [exact S1|]. apply Rmult_le_compat_l; [apply sqrt_pos|exact S3]. }
    lra.
Qed.
Print Assumptions C134_one_iteration.

(** The partial derivatives of Q(true), each times its entry, add up to little. *)
Lemma put_other A i j x i' j' : (i', j') <> (i, j) -> put A i j x i' j' = A i' j'.
Proof. intros N. unfold put. destruct (Nat.eqb_spec i' i) as [->|]; [|reflexivity]. destruct (Nat.eqb_spec j' j) as [->|]; [congruence|reflexivity]. Qed.
Lemma put_same A i j x : put A i j x i j = x.
Proof. unfold put. rewrite !Nat.eqb_refl. reflexivity. Qed.
Lemma msum_single m n (f : mat) i j : (i < m)%nat -> (j < n)%nat -> (forall i' j', (i', j') <> (i, j) -> f i' j' = 0) -> msum m n f = f i j.
Proof.
  intros Hi Hj Z. assert (One : forall q (g : nat -> R) p, (p < q)%nat -> (forall p', p' <> p -> g p' = 0) -> rsum q g = g p).
  { clear. intros q g p Hp Z. induction q as [|q IH]; [lia|]. cbn [rsum]. destruct (Nat.eq_dec p q) as [->|N].
    - rewrite (rsum_zero q g) by (intros; apply Z; lia). ring.
    - rewrite IH by lia. rewrite (Z q) by lia. ring. }
  unfold msum. rewrite (One m _ i Hi); [apply One; [exact Hj|]; intros p' N; apply Z; congruence|]. intros p' N. apply rsum_zero. intros q _. apply Z. congruence.
Qed.
Lemma slope_of (f : R -> R) x0 g A : (forall x, f x = f x0 + g * (x - x0) + A * Rsqr (x - x0)) -> derivable_pt_lim f x0 g.
Proof.
  intros E eps He. destruct (Req_dec A 0) as [->|NA].
  - exists (mkposreal 1 Rlt_0_1). intros h Hh _. rewrite (E (x0 + h)). unfold Rsqr. replace ((f x0 + g * (x0 + h - x0) + 0 * ((x0 + h - x0) * (x0 + h - x0)) - f x0) / h - g) with 0 by (field; exact Hh). rewrite Rabs_R0. exact He.
  - assert (PA : 0 < Rabs A) by (apply Rabs_pos_lt, NA). assert (PD : 0 < eps / Rabs A) by (apply Rdiv_lt_0_compat; assumption). exists (mkposreal _ PD). intros h Hh Hd. cbn in Hd.
    rewrite (E (x0 + h)). unfold Rsqr. replace ((f x0 + g * (x0 + h - x0) + A * ((x0 + h - x0) * (x0 + h - x0)) - f x0) / h - g) with (A * h) by (field; exact Hh).
    rewrite Rabs_mult. apply (Rmult_lt_compat_l (Rabs A)) in Hd; [|exact PA]. replace (Rabs A * (eps / Rabs A)) with eps in Hd by (field; lra). exact Hd.
Qed.
Lemma rsum_if q a x : (a < q)%nat -> rsum q (fun p => if (p =? a)%nat then x else 0) = x.
Proof.
  intros Ha. induction q as [|q IH]; [lia|]. cbn [rsum]. destruct (Nat.eqb_spec q a) as [->|N].
  - rewrite rsum_zero; [ring|]. intros b Hb. destruct (Nat.eqb_spec b a); [lia|reflexivity].
  - rewrite IH by lia. ring.
Qed.
Lemma put_fit_W m n k We W H i a x : (i < m)%nat -> (a < k)%nat -> wdist m n k We W H (put W i a x) H = rsum n (fun j => We i j * Rsqr (H a j)) * Rsqr (x - W i a).
Proof.
  intros Hi Ha. unfold wdist. assert (F : forall i' j, mmul k (put W i a x) H i' j - mmul k W H i' j = if (i' =? i)%nat then (x - W i a) * H a j else 0).
  { intros i' j. unfold mmul. rewrite <- rsum_minus. destruct (Nat.eqb_spec i' i) as [->|N].
    - rewrite <- (rsum_if k a ((x - W i a) * H a j) Ha). apply rsum_ext. intros b Hb. unfold put. rewrite Nat.eqb_refl. destruct (Nat.eqb_spec b a) as [->|]; cbn [andb]; ring.
    - apply rsum_zero. intros b Hb. unfold put. destruct (Nat.eqb_spec i' i); [contradiction|]. cbn [andb]. ring. }
  unfold msum. rewrite <- rsum_scal_r. rewrite <- (rsum_if m i (rsum n (fun j => We i j * Rsqr (H a j) * Rsqr (x - W i a))) Hi). apply rsum_ext. intros i' Hi'. destruct (Nat.eqb_spec i' i) as [->|N].
  - apply rsum_ext. intros j Hj. rewrite F, Nat.eqb_refl. unfold Rsqr. ring.
  - apply rsum_zero. intros j Hj. rewrite F. destruct (Nat.eqb_spec i' i); [contradiction|]. unfold Rsqr. ring.
Qed.
Lemma put_fit_H m n k We W H a j x : (a < k)%nat -> (j < n)%nat -> wdist m n k We W H W (put H a j x) = rsum m (fun i => We i j * Rsqr (W i a)) * Rsqr (x - H a j).
Proof.
  intros Ha Hj. unfold wdist. assert (F : forall i j', mmul k W (put H a j x) i j' - mmul k W H i j' = if (j' =? j)%nat then (x - H a j) * W i a else 0).
  { intros i j'. unfold mmul. rewrite <- rsum_minus. destruct (Nat.eqb_spec j' j) as [->|N].
    - rewrite <- (rsum_if k a ((x - H a j) * W i a) Ha). apply rsum_ext. intros b Hb. unfold put. rewrite Nat.eqb_refl. destruct (Nat.eqb_spec b a) as [->|]; cbn [andb]; ring.
    - apply rsum_zero. intros b Hb. unfold put. destruct (Nat.eqb_spec j' j); [contradiction|]. rewrite andb_false_r. ring. }
  unfold msum. rewrite <- rsum_scal_r. apply rsum_ext. intros i Hi. rewrite <- (rsum_if n j (We i j * Rsqr (W i a) * Rsqr (x - H a j)) Hj). apply rsum_ext. intros j' Hj'. rewrite F. destruct (Nat.eqb_spec j' j) as [->|N]; unfold Rsqr; ring.
Qed.
Lemma gradient_W m n k V We W H : gradient m k (fun A => wloss m n k V We A H) W (fun i a => - 2 * (w_num n V We H i a - w_den n k We W H i a)).
Proof.
  intros i a Hi Ha. apply slope_of with (rsum n (fun j => We i j * Rsqr (H a j))). intros x. rewrite (W_expand m n k V We W H (put W i a x)), (W_expand m n k V We W H (put W i a (W i a))), !put_fit_W by assumption.
  assert (E : forall y, msum m k (fun i' a' => (put W i a y i' a' - W i' a') * (w_num n V We H i' a' - w_den n k We W H i' a')) = (y - W i a) * (w_num n V We H i a - w_den n k We W H i a)).
  { intros y. rewrite (msum_single m k _ i a Hi Ha); [rewrite put_same; reflexivity|]. intros i' a' N. rewrite put_other by exact N. ring. }
  rewrite !E. unfold Rsqr. ring.
Qed.
Lemma gradient_H m n k V We W H : gradient k n (fun A => wloss m n k V We W A) H (fun a j => - 2 * (h_num m V We W a j - h_den m k We W H a j)).
Proof.
  intros a j Ha Hj. apply slope_of with (rsum m (fun i => We i j * Rsqr (W i a))). intros x. rewrite (H_expand m n k V We W H (put H a j x)), (H_expand m n k V We W H (put H a j (H a j))), !put_fit_H by assumption.
  assert (E : forall y, msum k n (fun a' j' => (put H a j y a' j' - H a' j') * (h_num m V We W a' j' - h_den m k We W H a' j')) = (y - H a j) * (h_num m V We W a j - h_den m k We W H a j)).
  { intros y. rewrite (msum_single k n _ a j Ha Hj); [rewrite put_same; reflexivity|]. intros i' a' N. rewrite put_other by exact N. ring. }
  rewrite !E. unfold Rsqr. ring.
Qed.
Lemma slopes_sum m k (f f' : mat -> R) (A g s : mat) : (forall B, f B = f' B) -> gradient m k f A g -> gradient m k f' A (fun i a => - 2 * s i a) ->
  msum m k (fun i a => A i a * Rabs (g i a)) = 2 * msum m k (fun i a => A i a * Rabs (s i a)).
Proof.
  intros E G1 G2. unfold msum. rewrite <- rsum_scal_l. apply rsum_ext. intros i Hi. rewrite <- rsum_scal_l. apply rsum_ext. intros a Ha.
  assert (Eg : g i a = - 2 * s i a).
  { specialize (G1 i a Hi Ha). specialize (G2 i a Hi Ha). eapply uniqueness_limite; [exact G1|]. intros eps He. destruct (G2 eps He) as [dl Hd]. exists dl. intros h Hh Hl. rewrite !E. apply Hd; assumption. }
  rewrite Eg, Rabs_mult, Rabs_left by lra. ring.
Qed.

Theorem C134_gradient : forall (m n k : nat) (V U : mat) (hold : bool) (W H W' H' gW gH : mat),
  mall m n (fun x => 0 <= x) V -> mall m n (fun u => u <> 0) U -> mall m k (fun x => 0 <= x) W -> mall k n (fun x => 0 <= x) H ->
  ls_update m n k V (weights U) hold (W, H) = Some (W', H') ->
  gradient m k (fun A => q_loss m n k true V U A H') W gW -> gradient k n (fun A => q_loss m n k true V U W A) H gH ->
  let d := q_loss m n k true V U W H - q_loss m n k true V U W' H' in
  msum m k (fun i a => W i a * Rabs (gW i a)) <= 2 * in_units m n U (fitted k W H') * sqrt d /\
  (hold = false -> msum k n (fun a j => H a j * Rabs (gH a j)) <= 2 * in_units m n U (fitted k W H) * sqrt d).
Proof.
  intros m n k V U hold W H W' H' gW gH HV HU HW HH Hs GW GH. cbv zeta. rewrite !in_units_fit, !q_loss_wloss by exact HU. set (We := weights U) in *.
  assert (He : mall m n nonneg We) by (apply pos_nonneg, weights_pos, HU).
  apply ls_update_inv in Hs. destruct Hs as (H1 & W1 & [= -> ->] & Hh & Hw). fold We in Hh, Hw.
  assert (HH1 : mall k n nonneg H1) by (destruct hold; [subst; assumption|]; exact (h_step_nonneg m n k V We W H H1 HV He HW HH Hh)).
  assert (L1 : wloss m n k V We W H1 <= wloss m n k V We W H).
  { destruct hold; [subst; lra|]. pose proof (h_step_move m n k V We W H H1 He HW HH Hh). pose proof (wdist_nonneg m n k We W H W H1 He). lra. }
  assert (L2 : wloss m n k V We W1 H1 <= wloss m n k V We W H1) by (pose proof (w_step_move m n k V We W H1 W1 He HW HH1 Hw); pose proof (wdist_nonneg m n k We W H1 W1 H1 He); lra).
  split.
  - rewrite (slopes_sum m k (fun A => q_loss m n k true V U A H1) (fun A => wloss m n k V We A H1) W gW (fun i a => w_num n V We H1 i a - w_den n k We W H1 i a)); [|intros B; apply q_loss_wloss, HU|exact GW|apply gradient_W].
    pose proof (w_slopes m n k V We W H1 W1 He HW HH1 Hw) as S1. rewrite Rmult_assoc. apply Rmult_le_compat_l; [lra|]. eapply Rle_trans; [exact S1|]. apply Rmult_le_compat_l; [apply sqrt_pos|]. apply sqrt_le_1_alt. lra.
  - intros ->. rewrite (slopes_sum k n (fun A => q_loss m n k true V U W A) (fun A => wloss m n k V We W A) H gH (fun a j => h_num m V We W a j - h_den m k We W H a j)); [|intros B; apply q_loss_wloss, HU|exact GH|apply gradient_H].
    pose proof (h_slopes m n k V We W H H1 He HW HH Hh) as S1. rewrite Rmult_assoc. apply Rmult_le_compat_l; [lra|]. eapply Rle_trans; [exact S1|]. apply Rmult_le_compat_l; [apply sqrt_pos|]. apply sqrt_le_1_alt. lra.
Qed.
Print Assumptions C134_gradient.

(** The size of a fit, by the data and the loss. *)
Theorem C134_size : forall (m n k : nat) (V U W H : mat), mall m n (fun u => u <> 0) U ->
  in_units m n U (fitted k W H) <= in_units m n U V + sqrt (q_loss m n k true V U W H).
Proof.
  intros m n k V U W H HU. pose proof (Acc_Proofs.norm_triangle m n (weights U) V (fun i j => - (V i j - mmul k W H i j)) (pos_nonneg _ _ _ (weights_pos m n U HU))) as T.
  unfold Acc_Spec.norm in T. rewrite in_units_fit by exact HU. rewrite q_loss_wloss by exact HU. unfold fit2, wloss, in_units.
  replace (msum m n (fun i j => Rsqr (V i j / U i j))) with (msum m n (fun i j => weights U i j * (V i j * V i j))) by (apply msum_ext; intros i j Hi Hj; specialize (HU i j Hi Hj); cbv beta in HU; unfold weights, Rsqr; field; exact HU).
  eapply Rle_trans; [|eapply Rle_trans; [exact T|]].
  - apply Req_le. f_equal. apply msum_ext. intros i j Hi Hj. ring.
  - apply Rplus_le_compat_l. apply Req_le. f_equal. apply msum_ext. intros i j Hi Hj. ring.
Qed.
Print Assumptions C134_size.

Lemma small_drop T (q : nat -> R) c : (exists t, (t < T)%nat /\ q t - q (S t) <= c) \/ (forall t, (t < T)%nat -> q t - q (S t) > c).
Proof.
  induction T as [|T [(t & Ht & L)|N]]; [right; intros; lia|left; exists t; split; [lia|exact L]|].
  destruct (Rle_lt_dec (q T - q (S T)) c) as [L|L]; [left; exists T; split; [lia|exact L]|right].
  intros t Ht. destruct (Nat.eq_dec t T) as [->|]; [exact L|apply N; lia].
Qed.
Lemma converged_core m n k V U delta cn W H (b : nat -> bool) (t : nat) :
  (0 < m)%nat -> (0 < n)%nat -> (0 < k)%nat ->
  mall m n (fun x => 0 <= x) V -> no_empty m n V -> mall m n (fun u => u <> 0) U ->
  mall m k (fun x => 0 < x) W -> mall k n (fun x => 0 < x) H -> (2 <= cn)%Z ->
  criterion (fbelow delta) cn (loss_at (ls_step m n k V U) (ls_loss m n k V U) b (Some (W, H))) t ->
  let B := in_units m n U V + sqrt (q_loss m n k true V U W H) in
  exists W0 H0 W' H',
    ls_iter m n k V (weights U) b 0 t (W, H) = Some (W0, H0) /\
    ls_update m n k V (weights U) (b t) (W0, H0) = Some (W', H') /\
    state_at (ls_step m n k V U) b (Some (W, H)) (S t) = Some (W', H') /\
    mall m k (fun x => 0 < x) W0 /\ mall k n (fun x => 0 < x) H0 /\
    forall c, 0 <= c ->
      (forall W2, within m k c W0 W2 -> q_loss m n k true V U W' H' <= q_loss m n k true V U W2 H' + 2 * c * B * sqrt delta) /\
      (b t = false -> forall H2, within k n c H0 H2 -> q_loss m n k true V U W' H' <= q_loss m n k true V U W0 H2 + 2 * c * B * sqrt delta).
Proof.
  intros Hm Hn Hk HV Hne HU HW HH Hcn [I1 I2] B.
  set (s := span cn) in *. assert (Hs1 : (1 <= s)%nat) by (unfold s, span; lia).
  assert (SI : forall i, state_at (ls_step m n k V U) b (Some (W, H)) i = ls_iter m n k V (weights U) b 0 i (W, H)).
  { intros i. induction i as [|i IH]; [reflexivity|]. cbn [state_at]. rewrite IH.
    replace (S i) with (i + 1)%nat by lia. rewrite ls_iter_add. unfold ls_step at 1.
    destruct (ls_iter m n k V (weights U) b 0 i (W, H)) as [st|]; [|reflexivity].
    cbn [ls_iter Nat.add]. destruct (ls_update m n k V (weights U) (b i) st); reflexivity. }
  assert (IP : forall i, exists W' H', ls_iter m n k V (weights U) b 0 i (W, H) = Some (W', H') /\
              mall m k (fun x => 0 < x) W' /\ mall k n (fun x => 0 < x) H').
  { intros i. exact (ls_iter_pos m n k V (weights U) b i 0%nat W H Hm Hn Hk HV Hne (weights_pos m n U HU) HW HH). }
  set (L := S t). assert (HL : (L = t + 1)%nat) by (unfold L; lia).
  destruct (IP (t + 1 - s)%nat) as (Ws & Hs & Es & Ps & Qs). destruct (IP (t)) as (W0 & H0 & E0 & P0 & Q0). destruct (IP L) as (W' & H' & E' & P' & Q').
  assert (Eu : ls_update m n k V (weights U) (b (t)) (W0, H0) = Some (W', H')).
  { rewrite HL, ls_iter_add, E0 in E'. cbn [ls_iter Nat.add] in E'. destruct (ls_update m n k V (weights U) (b (t)) (W0, H0)); [|discriminate]. exact E'. }
  exists W0, H0, W', H'. split; [exact E0|]. split; [exact Eu|]. split; [fold L; rewrite SI; exact E'|]. split; [exact P0|]. split; [exact Q0|].
  unfold loss_at in I2. replace (S (t - s)) with (t + 1 - s)%nat in I2 by lia. fold L in I2.
  rewrite !SI, Es, E' in I2. cbn [ls_loss] in I2. apply fbelow_fin in I2.
  assert (D1 : q_loss m n k true V U W0 H0 <= q_loss m n k true V U Ws Hs).
  { assert (ES : ls_iter m n k V (weights U) b (0 + (t + 1 - s)) (s - 1) (Ws, Hs) = Some (W0, H0)).
    { pose proof (ls_iter_add m n k V (weights U) b (t + 1 - s) (s - 1) 0 (W, H)) as A. rewrite Es in A. rewrite <- A. replace (t + 1 - s + (s - 1))%nat with (t) by lia. exact E0. }
    exact (ls_iter_q m n k V U b (s - 1) _ Ws Hs W0 H0 HV HU (pos_nonneg _ _ _ Ps) (pos_nonneg _ _ _ Qs) ES). }
  assert (D2 : q_loss m n k true V U W0 H0 <= q_loss m n k true V U W H) by exact (ls_iter_q m n k V U b (t) 0 W H W0 H0 HV HU (pos_nonneg _ _ _ HW) (pos_nonneg _ _ _ HH) E0).
  assert (D3 : q_loss m n k true V U W0 H' <= q_loss m n k true V U W0 H0).
  { rewrite !q_loss_wloss by exact HU. pose proof Eu as Eu2. apply ls_update_inv in Eu2. destruct Eu2 as (H1 & W1 & [= -> ->] & Hh & Hw). destruct (b (t)); [subst; lra|].
    pose proof (pos_nonneg _ _ _ (weights_pos m n U HU)) as He. pose proof (h_step_move m n k V (weights U) W0 H0 H1 He (pos_nonneg _ _ _ P0) (pos_nonneg _ _ _ Q0) Hh). pose proof (wdist_nonneg m n k (weights U) W0 H0 W0 H1 He). lra. }
  assert (Z1 : in_units m n U (fitted k W0 H') <= B) by (unfold B; eapply Rle_trans; [apply C134_size, HU|]; apply Rplus_le_compat_l, sqrt_le_1_alt; lra).
  assert (Z2 : in_units m n U (fitted k W0 H0) <= B) by (unfold B; eapply Rle_trans; [apply C134_size, HU|]; apply Rplus_le_compat_l, sqrt_le_1_alt; lra).
  intros c Hc0. destruct (C134_one_iteration m n k V U (b (t)) W0 H0 W' H' c HV HU (pos_nonneg _ _ _ P0) (pos_nonneg _ _ _ Q0) Eu Hc0) as [T1 T2]. cbv zeta in T1, T2.
  assert (SD : sqrt (q_loss m n k true V U W0 H0 - q_loss m n k true V U W' H') <= sqrt delta) by (apply sqrt_le_1_alt; lra).
  assert (G : forall z, 0 <= z <= B -> 2 * c * z * sqrt (q_loss m n k true V U W0 H0 - q_loss m n k true V U W' H') <= 2 * c * B * sqrt delta).
  { intros z [Hz0 Hz]. apply Rmult_le_compat; [apply Rmult_le_pos; [lra|exact Hz0]|apply sqrt_pos|apply Rmult_le_compat_l; lra|exact SD]. }
  split.
  - intros W2 Hw2. eapply Rle_trans; [apply T1, Hw2|]. apply Rplus_le_compat_l, G. split; [apply sqrt_pos|exact Z1].
  - intros Hf H2 Hh2. eapply Rle_trans; [apply (T2 Hf H2 Hh2)|]. apply Rplus_le_compat_l, G. split; [apply sqrt_pos|exact Z2].
Qed.

(** A run of the compiled engine that reports convergence: the returned Q(true) cannot be
    beaten by more than 2 c B sqrt(converge_delta) with the returned profiles and other
    contributions, nor with other profiles, within [c] of those of the last iteration
    but one; B is the size of the data in uncertainties plus the root of the starting
    Q(true). *)
Theorem C134_converged_run :
  forall (m n k : nat) (V U : mat) (delta : R) (cn : Z) (hold_h : bool) (delay_h : Z) (W H : mat)
    (tick : nat -> bool) (max_iter : Z) (b : nat -> bool),
    (0 < m)%nat -> (0 < n)%nat -> (0 < k)%nat ->
    mall m n (fun x => 0 <= x) V -> no_empty m n V -> mall m n (fun u => u <> 0) U ->
    mall m k (fun x => 0 < x) W -> mall k n (fun x => 0 < x) H ->
    (forall i, b i = true <-> held hold_h delay_h i) -> (2 <= cn)%Z ->
    let r := ls_rust_train m n k V U delta cn hold_h delay_h tick max_iter W H in
    rr_conv r = true ->
    let B := in_units m n U V + sqrt (q_loss m n k true V U W H) in
    exists W0 H0 W' H',
      ls_iter m n k V (weights U) b 0 (rr_ci r) (W, H) = Some (W0, H0) /\
      ls_update m n k V (weights U) (b (rr_ci r)) (W0, H0) = Some (W', H') /\ rr_state r = Some (W', H') /\
      mall m k (fun x => 0 < x) W0 /\ mall k n (fun x => 0 < x) H0 /\
      forall c, 0 <= c ->
        (forall W2, within m k c W0 W2 -> q_loss m n k true V U W' H' <= q_loss m n k true V U W2 H' + 2 * c * B * sqrt delta) /\
        (b (rr_ci r) = false -> forall H2, within k n c H0 H2 -> q_loss m n k true V U W' H' <= q_loss m n k true V U W0 H2 + 2 * c * B * sqrt delta).
Proof.
  intros m n k V U delta cn hold_h delay_h W H tick max_iter b Hm Hn Hk HV Hne HU HW HH Hb Hcn r Hc B.
  destruct (rust_summary (ls_step m n k V U) (ls_loss m n k V U) (fbelow delta) cn hold_h delay_h tick (Some (W, H)) max_iter b Hb)
    as (_ & _ & C & _ & E & _ & _ & I).
  fold (ls_rust_train m n k V U delta cn hold_h delay_h tick max_iter W H) in C, E, I. fold r in C, E, I.
  specialize (I Hc). destruct I as [[I1 _] I3]. rewrite <- E in I1.
  destruct (converged_core m n k V U delta cn W H b (rr_ci r) Hm Hn Hk HV Hne HU HW HH Hcn I1) as (W0 & H0 & W' & H' & X1 & X2 & X3 & X4).
  exists W0, H0, W', H'. split; [exact X1|]. split; [exact X2|]. split; [|exact X4].
  rewrite C, <- X3. f_equal. lia.
Qed.
Print Assumptions C134_converged_run.
(** The same of the Python engine; the iteration that converged is the last one it recorded. *)
Theorem C134_converged_run_py :
  forall (m n k : nat) (V U : mat) (delta : R) (cn : Z) (hold_h : bool) (delay_h : Z) (W H : mat) (max_iter : Z) (b : nat -> bool),
    (0 < m)%nat -> (0 < n)%nat -> (0 < k)%nat ->
    mall m n (fun x => 0 <= x) V -> no_empty m n V -> mall m n (fun u => u <> 0) U ->
    mall m k (fun x => 0 < x) W -> mall k n (fun x => 0 < x) H ->
    (forall i, b i = true <-> held hold_h delay_h i) -> (2 <= cn)%Z ->
    let r := ls_py_train m n k V U delta cn delay_h hold_h max_iter W H in
    pr_stop r = PConverged ->
    let B := in_units m n U V + sqrt (q_loss m n k true V U W H) in
    let t := (length (pr_hist r) - 1)%nat in
    exists W0 H0 W' H',
      ls_iter m n k V (weights U) b 0 t (W, H) = Some (W0, H0) /\
      ls_update m n k V (weights U) (b t) (W0, H0) = Some (W', H') /\ pr_state r = Some (W', H') /\
      mall m k (fun x => 0 < x) W0 /\ mall k n (fun x => 0 < x) H0 /\
      forall c, 0 <= c ->
        (forall W2, within m k c W0 W2 -> q_loss m n k true V U W' H' <= q_loss m n k true V U W2 H' + 2 * c * B * sqrt delta) /\
        (b t = false -> forall H2, within k n c H0 H2 -> q_loss m n k true V U W' H' <= q_loss m n k true V U W0 H2 + 2 * c * B * sqrt delta).
Proof.
  intros m n k V U delta cn hold_h delay_h W H max_iter b Hm Hn Hk HV Hne HU HW HH Hb Hcn r Hc B t.
  destruct (py_summary (ls_step m n k V U) (ls_loss m n k V U) (fbelow delta) (fun o => is_nan (ls_loss m n k V U o)) cn hold_h delay_h (Some (W, H)) max_iter b ltac:(lia) Hb)
    as (_ & _ & C & _ & E & _ & I).
  fold (ls_py_train m n k V U delta cn delay_h hold_h max_iter W H) in C, E, I. fold r in C, E, I.
  specialize (I Hc). fold t in I. destruct E as [E _]; [rewrite Hc; discriminate|].
  destruct (converged_core m n k V U delta cn W H b t Hm Hn Hk HV Hne HU HW HH Hcn I) as (W0 & H0 & W' & H' & X1 & X2 & X3 & X4).
  exists W0, H0, W', H'. split; [exact X1|]. split; [exact X2|]. split; [|exact X4].
  rewrite C, <- X3. f_equal. unfold t. lia.
Qed.
Print Assumptions C134_converged_run_py.


(** Among any T iterations there is one whose slopes are small: the weighted sum of the
    derivatives is at most 2 B sqrt(Q_start / T). *)
Theorem C134_slopes_within : forall (m n k : nat) (V U W H : mat) (hold : nat -> bool) (T : nat),
  (0 < m)%nat -> (0 < n)%nat -> (0 < k)%nat ->
  mall m n (fun x => 0 <= x) V -> no_empty m n V -> mall m n (fun u => u <> 0) U ->
  mall m k (fun x => 0 < x) W -> mall k n (fun x => 0 < x) H -> (0 < T)%nat ->
  let Q0 := q_loss m n k true V U W H in
  let B := in_units m n U V + sqrt Q0 in
  exists t W0 H0 W' H', (t < T)%nat /\
    ls_iter m n k V (weights U) hold 0 t (W, H) = Some (W0, H0) /\ ls_update m n k V (weights U) (hold t) (W0, H0) = Some (W', H') /\
    forall gW gH, gradient m k (fun A => q_loss m n k true V U A H') W0 gW -> gradient k n (fun A => q_loss m n k true V U W0 A) H0 gH ->
      msum m k (fun i a => W0 i a * Rabs (gW i a)) <= 2 * B * sqrt (Q0 / INR T) /\
      (hold t = false -> msum k n (fun a j => H0 a j * Rabs (gH a j)) <= 2 * B * sqrt (Q0 / INR T)).
Proof.
  intros m n k V U W H hold T Hm Hn Hk HV Hne HU HW HH HT Q0 B.
  assert (IP : forall t, exists W' H', ls_iter m n k V (weights U) hold 0 t (W, H) = Some (W', H') /\ mall m k (fun x => 0 < x) W' /\ mall k n (fun x => 0 < x) H').
  { intros t. exact (ls_iter_pos m n k V (weights U) hold t 0%nat W H Hm Hn Hk HV Hne (weights_pos m n U HU) HW HH). }
  set (q := fun t => match ls_iter m n k V (weights U) hold 0 t (W, H) with Some s => q_loss m n k true V U (fst s) (snd s) | None => 0 end).
  assert (Pos : forall A C, 0 <= q_loss m n k true V U A C).
  { intros A C. rewrite q_loss_wloss by exact HU. apply msum_nonneg. intros i j Hi Hj. apply Rmult_le_pos; [apply Rlt_le, (weights_pos m n U HU); assumption|apply (Rle_0_sqr (V i j - mmul k A C i j))]. }
  assert (Small : exists t, (t < T)%nat /\ q t - q (S t) <= Q0 / INR T).
  { destruct (small_drop T q (Q0 / INR T)) as [X|X]; [exact X|exfalso].
    assert (S1 : forall s, (s <= T)%nat -> q 0%nat - q s >= INR s * (Q0 / INR T) /\ ((0 < s)%nat -> q 0%nat - q s > INR s * (Q0 / INR T))).
    { induction s as [|s IH]; intros Hs; [cbn [INR]; split; [lra|lia]|]. specialize (X s ltac:(lia)). destruct (IH ltac:(lia)) as [I _]. rewrite S_INR. split; [|intros _]; lra. }
    destruct (S1 T (le_n T)) as [_ S2]. specialize (S2 HT). assert (IT : 0 < INR T) by (apply lt_0_INR, HT). replace (INR T * (Q0 / INR T)) with Q0 in S2 by (field; lra).
    assert (q 0%nat = Q0) by reflexivity. assert (0 <= q T) by (unfold q; destruct (ls_iter m n k V (weights U) hold 0 T (W, H)); [apply Pos|lra]). lra. }
  destruct Small as (t & Ht & Sm). destruct (IP t) as (W0 & H0 & E0 & P0 & R0). destruct (IP (S t)) as (W' & H' & E' & P' & R').
  assert (Eu : ls_update m n k V (weights U) (hold t) (W0, H0) = Some (W', H')).
  { pose proof E' as E2. replace (S t) with (t + 1)%nat in E2 by lia. rewrite ls_iter_add, E0 in E2. cbn [ls_iter Nat.add] in E2. destruct (ls_update m n k V (weights U) (hold t) (W0, H0)); [exact E2|discriminate]. }
  exists t, W0, H0, W', H'. split; [exact Ht|]. split; [exact E0|]. split; [exact Eu|]. intros gW gH GW GH.
  unfold q in Sm. rewrite E0, E' in Sm. cbn [fst snd] in Sm.
  destruct (C134_gradient m n k V U (hold t) W0 H0 W' H' gW gH HV HU (pos_nonneg _ _ _ P0) (pos_nonneg _ _ _ R0) Eu GW GH) as [T1 T2]. cbv zeta in T1, T2.
  assert (D2 : q_loss m n k true V U W0 H0 <= Q0) by exact (ls_iter_q m n k V U hold t 0 W H W0 H0 HV HU (pos_nonneg _ _ _ HW) (pos_nonneg _ _ _ HH) E0).
  assert (D3 : q_loss m n k true V U W0 H' <= q_loss m n k true V U W0 H0).
  { rewrite !q_loss_wloss by exact HU. pose proof Eu as Eu2. apply ls_update_inv in Eu2. destruct Eu2 as (H1 & W1 & [= -> ->] & Hh & Hw). destruct (hold t); [subst; lra|].
    pose proof (pos_nonneg _ _ _ (weights_pos m n U HU)) as He. pose proof (h_step_move m n k V (weights U) W0 H0 H1 He (pos_nonneg _ _ _ P0) (pos_nonneg _ _ _ R0) Hh). pose proof (wdist_nonneg m n k (weights U) W0 H0 W0 H1 He). lra. }
  assert (Z1 : in_units m n U (fitted k W0 H') <= B) by (unfold B; eapply Rle_trans; [apply C134_size, HU|]; apply Rplus_le_compat_l, sqrt_le_1_alt; lra).
  assert (Z2 : in_units m n U (fitted k W0 H0) <= B) by (unfold B; eapply Rle_trans; [apply C134_size, HU|]; apply Rplus_le_compat_l, sqrt_le_1_alt; lra).
  assert (SD : sqrt (q_loss m n k true V U W0 H0 - q_loss m n k true V U W' H') <= sqrt (Q0 / INR T)) by (apply sqrt_le_1_alt; lra).
  assert (G : forall z, 0 <= z <= B -> 2 * z * sqrt (q_loss m n k true V U W0 H0 - q_loss m n k true V U W' H') <= 2 * B * sqrt (Q0 / INR T)).
  { intros z [Hz0 Hz]. apply Rmult_le_compat; [lra|apply sqrt_pos|lra|exact SD]. }
  split; [eapply Rle_trans; [exact T1|]; apply G; split; [apply sqrt_pos|exact Z1]|].
  intros Hf. eapply Rle_trans; [apply (T2 Hf)|]. apply G. split; [apply sqrt_pos|exact Z2].
Qed.
Print Assumptions C134_slopes_within.

(** Not so: an iteration that gains little has little left to gain.  Here it gains less
    than 1/400 of what other contributions would gain, all entries being positive. *)
Definition sl_W : mat := fun _ a => if (a =? 0)%nat then 1 else 1 / 100.
Lemma sl_step : exists W', ls_update 1 2 2 zr_V (weights ones) true (sl_W, zr_H) = Some (W', zr_H) /\ W' 0%nat 0%nat = 200 / 203 /\ W' 0%nat 1%nat = 7 / 610.
Proof.
  assert (N : all_nz 1 2 (w_den 2 2 (weights ones) sl_W zr_H) = true).
  { apply all_nz_true. intros [|i] [|[|a]] Hi Ha; try lia; unfold w_den, weights, mmul, ones, sl_W, zr_H; cbn; lra. }
  exists (fun i a => sl_W i a * (w_num 2 zr_V (weights ones) zr_H i a / w_den 2 2 (weights ones) sl_W zr_H i a)).
  split; [|split].
  - cbn [ls_update]. unfold w_step. rewrite N. reflexivity.
  - unfold w_num, w_den, wev, weights, mmul, ones, sl_W, zr_H, zr_V; cbn; field.
  - unfold w_num, w_den, wev, weights, mmul, ones, sl_W, zr_H, zr_V; cbn; field.
Qed.
Theorem C134_small_gain_refuted : exists (m n k : nat) (V U W H W' H' W2 : mat),
  mall m n (fun x => 0 < x) V /\ mall m n (fun u => u <> 0) U /\ mall m k (fun x => 0 < x) W /\ mall k n (fun x => 0 < x) H /\ mall m k (fun x => 0 <= x) W2 /\
  ls_update m n k V (weights U) true (W, H) = Some (W', H') /\
  let d := q_loss m n k true V U W H - q_loss m n k true V U W' H' in
  0 < d < 1 / 400 /\ q_loss m n k true V U W2 H' + 2 / 5 < q_loss m n k true V U W' H'.
Proof.
  destruct sl_step as (W' & E & E0 & E1). exists 1%nat, 2%nat, 2%nat, zr_V, ones, sl_W, zr_H, W', zr_H, (fun _ a => if (a =? 0)%nat then 0 else 7 / 10).
  split; [intros i j _ _; unfold zr_V; destruct (j =? 0)%nat; lra|]. split; [intros i j _ _; unfold ones; lra|]. split; [intros i j _ _; unfold sl_W; destruct (j =? 0)%nat; lra|].
  split; [intros i j _ _; unfold zr_H; destruct (_ && _); lra|]. split; [intros i j _ _; cbv beta; destruct (j =? 0)%nat; lra|]. split; [exact E|].
  cbv zeta. unfold q_loss, msum, resid, mmul. cbn [rsum]. rewrite E0, E1. unfold ones, zr_V, zr_H, sl_W. cbn. split; lra.
Qed.
Print Assumptions C134_small_gain_refuted.

(** The hypotheses are met: an iteration that moves both blocks. *)
Example C134_instance : exists W' H', ls_update 2 2 2 eye (weights ones) false (ones, quarter) = Some (W', H') /\
  mall 2 2 (fun x => 0 <= x) eye /\ mall 2 2 (fun u => u <> 0) ones /\ mall 2 2 (fun x => 0 <= x) quarter /\
  within 2 2 1 ones (fun i a => if (a =? 0)%nat then 2 else 0) /\ in_units 2 2 ones (fitted 2 ones quarter) = 1 /\
  (exists W1, ls_update 1 2 2 zr_V (weights ones) true (sl_W, zr_H) = Some (W1, zr_H)) /\
  gradient 1 2 (fun A => q_loss 1 2 2 true zr_V ones A zr_H) sl_W (fun i a => - 2 * (w_num 2 zr_V (weights ones) zr_H i a - w_den 2 2 (weights ones) sl_W zr_H i a)) /\
  - 2 * (w_num 2 zr_V (weights ones) zr_H 0%nat 1%nat - w_den 2 2 (weights ones) sl_W zr_H 0%nat 1%nat) = - (9 / 10).
Proof.
  destruct saddle as (W' & H' & E & _). exists W', H'. split; [exact E|]. split; [intros i j _ _; unfold eye; destruct (i =? j)%nat; lra|]. split; [intros i j _ _; unfold ones; lra|]. split; [intros i j _ _; unfold quarter; lra|].
  split; [intros i j _ _; unfold ones; destruct (j =? 0)%nat; [rewrite Rabs_right by lra; lra|rewrite Rabs_left by lra; lra]|].
  split; [transitivity (sqrt 1); [unfold in_units; f_equal; unfold fitted, msum, mmul, ones, quarter, Rsqr; cbn; field|apply sqrt_1]|].
  split; [destruct sl_step as (W1 & E1 & _); exists W1; exact E1|]. split.
  - intros i a Hi Ha. pose proof (gradient_W 1 2 2 zr_V (weights ones) sl_W zr_H i a Hi Ha) as G. cbv beta in G |- *.
    intros eps He. destruct (G eps He) as [dl Hd]. exists dl. intros h Hh Hl. rewrite !q_loss_wloss by (intros ? ? _ _; unfold ones; lra). apply Hd; assumption.
  - unfold w_num, w_den, wev, weights, mmul, ones, sl_W, zr_H, zr_V; cbn. lra.
Qed.

(** ... and a run that converges (delta = 1/100, windows of four iterations). *)
Example C134_run_instance :
  let V := (fun i j => INR (i + j)) : mat in
  let r := ls_rust_train 2 2 1 V ones (1 / 100) 5 false (-1) (fun _ => false) 900 ones ones in
  rr_conv r = true /\ no_empty 2 2 V /\ q_loss 2 2 1 true V ones ones ones = 2 /\ in_units 2 2 ones V = sqrt 6.
Proof.
  intros V r.
  assert (HV : mall 2 2 (fun x => 0 <= x) V) by (intros i j _ _; apply pos_INR).
  assert (Hne : no_empty 2 2 V).
  { split; [intros i Hi|intros j Hj]; exists 1%nat; (split; [lia|]); unfold V; apply lt_0_INR; lia. }
  assert (Q : q_loss 2 2 1 true V ones ones ones = 2) by (unfold q_loss, msum, resid, mmul, ones, V; cbn; field).
  split; [|split; [exact Hne|split; [exact Q|unfold in_units; f_equal; unfold msum, ones, V, Rsqr; cbn; field]]].
  unfold r. eapply (fun a b c d e f g h i j k => proj1 (Train_Props.C60_ls_nmf_always_converges 2 2 1 V ones (1 / 100) 5 false (-1) ones ones (fun _ => false) 900 201 a b c d e f g h i j k));
    try exact HV; try exact Hne; try lia; try lra; try (intros i j _ _; unfold ones; lra).
  - rewrite Q, INR_IZR_INZ. cbn. lra.
  - vm_compute. reflexivity.
Qed.

Lemma xno_one i j : 0 < ones i j.
Proof. unfold ones. lra. Qed.
Definition xno_V : mat := fun i j => INR (i + j).
Lemma xno_Vpos : mall 2 2 (fun x => 0 <= x) xno_V.
Proof. intros i j _ _. apply pos_INR. Qed.
Lemma xno_u : mall 2 2 (fun u => u <> 0) ones.
Proof. intros i j _ _. apply Rgt_not_eq, xno_one. Qed.
Example C134_one_iteration_example : exists W' H', ls_update 2 2 2 eye (weights ones) false (ones, quarter) = Some (W', H') /\
  forall W2, within 2 2 1 ones W2 -> q_loss 2 2 2 true eye ones W' H' <= q_loss 2 2 2 true eye ones W2 H' +
    2 * 1 * in_units 2 2 ones (fitted 2 ones H') * sqrt (q_loss 2 2 2 true eye ones ones quarter - q_loss 2 2 2 true eye ones W' H').
Proof.
  destruct C134_instance as (W' & H' & E & A & B & Q & _). exists W', H'. split; [exact E |].
  exact (proj1 (C134_one_iteration 2 2 2 eye ones false ones quarter W' H' 1 A B ltac:(intros i j _ _; apply Rlt_le, xno_one) Q E ltac:(lra))).
Qed.
Example C134_size_example := C134_size 2 2 2 eye ones ones quarter xno_u.
Example C134_converged_run_example :=
  C134_converged_run 2 2 1 xno_V ones (1 / 100) 5 false (-1) ones ones (fun _ => false) 900 (fun _ => false) ltac:(lia) ltac:(lia) ltac:(lia)
    xno_Vpos (proj1 (proj2 C134_run_instance)) xno_u ltac:(intros i j _ _; apply xno_one) ltac:(intros i j _ _; apply xno_one)
    ltac:(intros i; unfold held; split; [discriminate | intros [Hc _]; discriminate]) ltac:(lia) (proj1 C134_run_instance).
Example C134_slopes_within_example :=
  C134_slopes_within 2 2 1 xno_V ones ones ones (fun _ => false) 200 ltac:(lia) ltac:(lia) ltac:(lia)
    xno_Vpos (proj1 (proj2 C134_run_instance)) xno_u ltac:(intros i j _ _; apply xno_one) ltac:(intros i j _ _; apply xno_one) ltac:(lia).
