(** Properties C102-C104: the robust loss during LS-NMF training, what a stalled
    run has reached, and how far the fit still moves. *)
From Coq Require Import Reals Lra Lia List Bool ZArith Arith Psatz.
From Verif Require Import Base Fl Metrics_Model Metrics_Spec Metrics_Proofs LSNMF_Model LSNMF_Proofs
  Train_Model Train_Spec Train_Proofs Train_LS.
Import ListNotations.
Open Scope R_scope.

Lemma rsum_zero n f : (forall i, (i < n)%nat -> f i = 0) -> rsum n f = 0.
Proof.
  intros Hf. induction n as [|n IH]; [reflexivity|]. cbn [rsum]. rewrite IH, Hf by (auto; lia). ring.
Qed.
Lemma le_one_term m n f i j : (forall a b, (a < m)%nat -> (b < n)%nat -> 0 <= f a b) -> (i < m)%nat -> (j < n)%nat -> f i j <= msum m n f.
Proof.
  intros Hf Hi Hj. unfold msum. apply Rle_trans with (rsum n (f i)).
  - apply (rsum_ge_term n (f i) j); auto.
  - apply (rsum_ge_term m (fun a => rsum n (f a)) i); auto. intros a Ha. apply rsum_nonneg. auto.
Qed.

(** ** C102 *)
(** The compiled loop minimises Q(true); models are compared by Q(robust).  What
    can be said of Q(robust) after any number of iterations: it is at most the
    Q(true) of the start, so it has not grown if the start had no residual
    beyond the cut-off. *)
Theorem C102_robust_loss_bounded :
  forall (m n k : nat) (V U : mat) (alpha : R) (hold : nat -> bool) (N i0 : nat) (W H W' H' : mat),
    mall m n (fun x => 0 <= x) V -> mall m n (fun u => 0 < u) U -> 0 < alpha ->
    mall m k (fun x => 0 <= x) W -> mall k n (fun x => 0 <= x) H ->
    ls_iter m n k V (weights U) hold i0 N (W, H) = Some (W', H') ->
    qr_loss m n k alpha V U W' H' <= q_loss m n k true V U W H /\
    ((forall i j, (i < m)%nat -> (j < n)%nat -> Rabs (V i j - rsum k (fun p => W i p * H p j)) / U i j <= alpha) ->
     qr_loss m n k alpha V U W' H' <= qr_loss m n k alpha V U W H).
Proof.
  intros m n k V U alpha hold N i0 W H W' H' HV HU Ha HW HH Hs.
  assert (HU' : mall m n (fun u => u <> 0) U) by (intros i j Hi Hj; pose proof (HU i j Hi Hj); lra).
  pose proof (ls_iter_q m n k V U hold N i0 W H W' H' HV HU' HW HH Hs).
  pose proof (qr_le_q m n k alpha V U W' H' HU Ha). split; [lra|].
  intros Hc. apply (proj2 (qr_eq_q_iff m n k alpha V U W H HU Ha)) in Hc. lra.
Qed.
Print Assumptions C102_robust_loss_bounded.

(** "Training never makes the loss the models are compared by worse." *)
Definition outlier_V : mat := fun _ j => if (j =? 2)%nat then 101 else 1.
Definition ones : mat := fun _ _ => 1.
Lemma outlier_step : exists W', ls_iter 1 3 1 outlier_V (weights ones) (fun _ => true) 0 1 (ones, ones) = Some (W', ones) /\ W' 0%nat 0%nat = 103 / 3.
Proof.
  eexists. cbn [ls_iter ls_update]. unfold w_step.
  replace (all_nz 1 1 (w_den 3 1 (weights ones) ones ones)) with true.
  - split; [reflexivity|]. unfold w_num, w_den, wev, weights, mmul, ones, outlier_V. cbn. field.
  - symmetry. apply all_nz_true. intros [|i] [|a] Hi Hj; try lia. unfold w_den, weights, mmul, ones. cbn. lra.
Qed.
Theorem C102_training_lowers_robust_refuted :
  ~ (forall (m n k : nat) (V U : mat) (alpha : R) (hold : nat -> bool) (N i0 : nat) (W H W' H' : mat),
       mall m n (fun x => 0 < x) V -> mall m n (fun u => 0 < u) U -> 0 < alpha ->
       mall m k (fun x => 0 < x) W -> mall k n (fun x => 0 < x) H ->
       ls_iter m n k V (weights U) hold i0 N (W, H) = Some (W', H') ->
       qr_loss m n k alpha V U W' H' <= qr_loss m n k alpha V U W H).
Proof.
  intros A. destruct outlier_step as (W' & E & EW).
  assert (P : mall 1 3 (fun u => 0 < u) ones) by (intros ? ? _ _; unfold ones; lra).
  specialize (A 1%nat 3%nat 1%nat outlier_V ones 4 (fun _ => true) 1%nat 0%nat ones ones W' ones).
  assert (L : qr_loss 1 3 1 4 outlier_V ones W' ones <= qr_loss 1 3 1 4 outlier_V ones ones ones).
  { apply A; auto; try (intros ? ? _ _; unfold ones; lra); try lra.
    intros i j _ _. unfold outlier_V. destruct (j =? 2)%nat; lra. }
  rewrite !qr_loss_spec in L by (auto; lra). unfold msum, cell_resid, robust_cell in L. cbn in L. rewrite EW in L.
  unfold ones, outlier_V in L. cbn in L.
  replace (0 + 103 / 3 * 1) with (103 / 3) in L by ring.
  replace (Rabs (1 - 103 / 3) / 1) with (100 / 3) in L by (rewrite Rabs_left by lra; field).
  replace (Rabs (101 - 103 / 3) / 1) with (200 / 3) in L by (rewrite Rabs_right by lra; field).
  replace (Rabs (1 - (0 + 1 * 1)) / 1) with 0 in L by (replace (1 - (0 + 1 * 1)) with 0 by ring; rewrite Rabs_R0; field).
  replace (Rabs (101 - (0 + 1 * 1)) / 1) with 100 in L by (rewrite Rabs_right by lra; field).
  repeat match type of L with context [Rle_dec ?a ?b] => destruct (Rle_dec a b); try lra end.
Qed.
Print Assumptions C102_training_lowers_robust_refuted.
Example C102_instance :
  mall 1 3 (fun x => 0 <= x) outlier_V /\ mall 1 3 (fun u => 0 < u) ones /\
  (exists W', ls_iter 1 3 1 outlier_V (weights ones) (fun _ => true) 0 1 (ones, ones) = Some (W', ones)) /\
  Rabs (outlier_V 0%nat 2%nat - rsum 1 (fun p => ones 0%nat p * ones p 2%nat)) / ones 0%nat 2%nat = 100.
Proof.
  split; [|split; [|split]].
  - intros i j _ _. unfold outlier_V. destruct (j =? 2)%nat; lra.
  - intros ? ? _ _. unfold ones. lra.
  - destruct outlier_step as (W' & E & _). eauto.
  - unfold outlier_V, ones. cbn. rewrite Rabs_right by lra. field.
Qed.

(** ** C103 *)
(** A stationary block is the block's optimum. *)
Lemma block_H_optimal m n k V We W H :
  mall m n (fun x => 0 <= x) We ->
  (forall a j, (a < k)%nat -> (j < n)%nat -> h_num m V We W a j = h_den m k We W H a j) ->
  forall H2, wloss m n k V We W H <= wloss m n k V We W H2.
Proof.
  intros He E H2. unfold wloss, msum. rewrite (rsum_swap m n), (rsum_swap m n). apply rsum_le. intros j Hj.
  set (d := fun i => mmul k W H2 i j - mmul k W H i j).
  assert (Z : rsum m (fun i => We i j * (V i j - mmul k W H i j) * d i) = 0).
  { transitivity (rsum m (fun i => rsum k (fun a => (H2 a j - H a j) * (W i a * (We i j * V i j) - W i a * (We i j * mmul k W H i j))))).
    - apply rsum_ext. intros i Hi. unfold d, mmul at 2 3. rewrite <- rsum_minus, <- rsum_scal_l. apply rsum_ext. intros a Ha. ring.
    - rewrite rsum_swap. apply rsum_zero. intros a Ha. rewrite rsum_scal_l, rsum_minus.
      specialize (E a j Ha Hj). unfold h_num, h_den, wev in E. rewrite E. ring. }
  apply Rle_trans with (rsum m (fun i => We i j * ((V i j - mmul k W H i j) * (V i j - mmul k W H i j))) + rsum m (fun i => We i j * (d i * d i))).
  - rewrite <- (Rplus_0_r (rsum m _)) at 1. apply Rplus_le_compat_l. apply rsum_nonneg. intros i Hi. apply Rmult_le_pos; [apply He; auto|apply Rle_0_sqr].
  - apply Req_le. transitivity (rsum m (fun i => We i j * ((V i j - mmul k W H i j) * (V i j - mmul k W H i j))) + rsum m (fun i => We i j * (d i * d i)) - 2 * rsum m (fun i => We i j * (V i j - mmul k W H i j) * d i)); [rewrite Z; ring|].
    rewrite <- rsum_scal_l, <- rsum_plus, <- rsum_minus. apply rsum_ext. intros i Hi. unfold d. ring.
Qed.
Lemma block_W_optimal m n k V We W H :
  mall m n (fun x => 0 <= x) We ->
  (forall i a, (i < m)%nat -> (a < k)%nat -> w_num n V We H i a = w_den n k We W H i a) ->
  forall W2, wloss m n k V We W H <= wloss m n k V We W2 H.
Proof.
  intros He E W2. unfold wloss, msum. apply rsum_le. intros i Hi.
  set (d := fun j => mmul k W2 H i j - mmul k W H i j).
  assert (Z : rsum n (fun j => We i j * (V i j - mmul k W H i j) * d j) = 0).
  { transitivity (rsum n (fun j => rsum k (fun a => (W2 i a - W i a) * (We i j * V i j * H a j - We i j * mmul k W H i j * H a j)))).
    - apply rsum_ext. intros j Hj. unfold d, mmul at 2 3. rewrite <- rsum_minus, <- rsum_scal_l. apply rsum_ext. intros a Ha. ring.
    - rewrite rsum_swap. apply rsum_zero. intros a Ha. rewrite rsum_scal_l, rsum_minus.
      specialize (E i a Hi Ha). unfold w_num, w_den, wev in E. rewrite E. ring. }
  apply Rle_trans with (rsum n (fun j => We i j * ((V i j - mmul k W H i j) * (V i j - mmul k W H i j))) + rsum n (fun j => We i j * (d j * d j))).
  - rewrite <- (Rplus_0_r (rsum n _)) at 1. apply Rplus_le_compat_l. apply rsum_nonneg. intros j Hj. apply Rmult_le_pos; [apply He; auto|apply Rle_0_sqr].
  - apply Req_le. transitivity (rsum n (fun j => We i j * ((V i j - mmul k W H i j) * (V i j - mmul k W H i j))) + rsum n (fun j => We i j * (d j * d j)) - 2 * rsum n (fun j => We i j * (V i j - mmul k W H i j) * d j)); [rewrite Z; ring|].
    rewrite <- rsum_scal_l, <- rsum_plus, <- rsum_minus. apply rsum_ext. intros j Hj. unfold d. ring.
Qed.

(** An iteration that leaves Q(true) as it was has, if all entries are positive,
    reached a point where neither the contributions nor (unless held) the profiles
    can be improved on their own, by any real matrix whatever. *)
Theorem C103_stalled_run_is_blockwise_optimal :
  forall (m n k : nat) (V U : mat) (hold : bool) (W H W' H' : mat),
    mall m n (fun x => 0 <= x) V -> mall m n (fun u => u <> 0) U ->
    mall m k (fun x => 0 < x) W -> mall k n (fun x => 0 < x) H ->
    ls_update m n k V (weights U) hold (W, H) = Some (W', H') ->
    q_loss m n k true V U W' H' = q_loss m n k true V U W H ->
    (forall W2, q_loss m n k true V U W H <= q_loss m n k true V U W2 H) /\
    (hold = false -> forall H2, q_loss m n k true V U W H <= q_loss m n k true V U W H2).
Proof.
  intros m n k V U hold W H W' H' HV HU HW HH Hs Hq.
  destruct (ls_update_q_stationary m n k V U hold W H W' H' HV HU (pos_nonneg _ _ _ HW) (pos_nonneg _ _ _ HH) Hs Hq) as [EW EH].
  pose proof (pos_nonneg _ _ _ (weights_pos m n U HU)) as He.
  apply ls_update_inv in Hs. destruct Hs as (H1 & W1 & [= -> ->] & Hh & Hw).
  destruct (w_step_inv _ _ _ _ _ _ _ _ Hw) as [Hdw HW1].
  split.
  - intros W2. rewrite !q_loss_wloss by assumption. apply block_W_optimal; [exact He|].
    intros i a Hi Ha. specialize (EW i a Hi Ha). rewrite HW1 in EW. specialize (HW i a Hi Ha). specialize (Hdw i a Hi Ha). cbv beta in HW.
    assert (E1 : w_num n V (weights U) H1 i a = w_den n k (weights U) W H1 i a).
    { set (x := w_num n V (weights U) H1 i a) in *. set (y := w_den n k (weights U) W H1 i a) in *.
      assert (x / y = 1) by (apply (Rmult_eq_reg_l (W i a)); lra). replace x with (x / y * y) by (field; exact Hdw). rewrite H0. ring. }
    assert (E2 : w_num n V (weights U) H i a = w_num n V (weights U) H1 i a).
    { unfold w_num. apply rsum_ext. intros j Hj. rewrite EH by auto. reflexivity. }
    assert (E3 : w_den n k (weights U) W H i a = w_den n k (weights U) W H1 i a).
    { unfold w_den, mmul. apply rsum_ext. intros j Hj. rewrite EH by auto. f_equal. f_equal. apply rsum_ext. intros b Hb. rewrite EH by auto. reflexivity. }
    rewrite E2, E3. exact E1.
  - intros -> H2. rewrite !q_loss_wloss by assumption. apply block_H_optimal; [exact He|].
    destruct (h_step_inv _ _ _ _ _ _ _ _ Hh) as [Hdh HH1].
    intros a j Ha Hj. specialize (EH a j Ha Hj). rewrite HH1 in EH. specialize (HH a j Ha Hj). specialize (Hdh a j Ha Hj). cbv beta in HH.
    set (x := h_num m V (weights U) W a j) in *. set (y := h_den m k (weights U) W H a j) in *.
    assert (E : x / y = 1) by (apply (Rmult_eq_reg_l (H a j)); lra). replace x with (x / y * y) by (field; exact Hdh). rewrite E. ring.
Qed.
Print Assumptions C103_stalled_run_is_blockwise_optimal.

(** Factors that start out alike stay alike: such a run has fewer factors than it
    was asked for. *)
Theorem C103_twin_factors_stay_twins :
  forall (m n k : nat) (V We : mat) (hold : nat -> bool) (N i0 : nat) (W H W' H' : mat) (a b : nat),
    (forall i, (i < m)%nat -> W i a = W i b) -> (forall j, (j < n)%nat -> H a j = H b j) ->
    ls_iter m n k V We hold i0 N (W, H) = Some (W', H') ->
    (forall i, (i < m)%nat -> W' i a = W' i b) /\ (forall j, (j < n)%nat -> H' a j = H' b j).
Proof.
  intros m n k V We hold N. induction N as [|N IH]; intros i0 W H W' H' a b HW HH Hs; cbn [ls_iter] in Hs.
  - injection Hs as <- <-. auto.
  - destruct (ls_update m n k V We (hold i0) (W, H)) as [[W1 H1]|] eqn:E; [|discriminate].
    apply ls_update_inv in E. destruct E as (H2 & W2 & [= -> ->] & Hh & Hw).
    assert (HH1 : forall j, (j < n)%nat -> H2 a j = H2 b j).
    { destruct (hold i0); [subst; exact HH|]. apply h_step_inv in Hh. destruct Hh as [_ ->]. intros j Hj. cbv beta. rewrite HH by auto.
      assert (E1 : h_num m V We W a j = h_num m V We W b j) by (apply rsum_ext; intros i Hi; rewrite HW by auto; reflexivity).
      assert (E2 : h_den m k We W H a j = h_den m k We W H b j) by (apply rsum_ext; intros i Hi; rewrite HW by auto; reflexivity).
      rewrite E1, E2. reflexivity. }
    refine (IH _ _ _ _ _ _ _ _ HH1 Hs). apply w_step_inv in Hw. destruct Hw as [_ ->]. intros i Hi. cbv beta. rewrite HW by auto.
    assert (E1 : w_num n V We H2 i a = w_num n V We H2 i b) by (apply rsum_ext; intros j Hj; rewrite HH1 by auto; reflexivity).
    assert (E2 : w_den n k We W H2 i a = w_den n k We W H2 i b) by (apply rsum_ext; intros j Hj; rewrite HH1 by auto; reflexivity).
    rewrite E1, E2. reflexivity.
Qed.
Print Assumptions C103_twin_factors_stay_twins.

(** "A stalled run has found the best fit": not even with all entries positive,
    and with a zero entry not even block by block. *)
Definition eye : mat := fun i j => if (i =? j)%nat then 1 else 0.
Definition quarter : mat := fun _ _ => 1 / 4.
Lemma saddle : exists W' H', ls_update 2 2 2 eye (weights ones) false (ones, quarter) = Some (W', H') /\ meq 2 2 W' ones /\ meq 2 2 H' quarter.
Proof.
  assert (N : all_nz 2 2 (h_den 2 2 (weights ones) ones quarter) = true).
  { apply all_nz_true. intros i j _ _. unfold h_den, weights, mmul, ones, quarter. cbn. lra. }
  set (H1 := fun a j => quarter a j * (h_num 2 eye (weights ones) ones a j / h_den 2 2 (weights ones) ones quarter a j)).
  assert (E1 : forall a j, (a < 2)%nat -> (j < 2)%nat -> H1 a j = 1 / 4).
  { intros [|[|a]] [|[|j]] Ha Hj; try lia; unfold H1, h_num, h_den, wev, weights, mmul, ones, quarter, eye; cbn; field. }
  assert (N2 : all_nz 2 2 (w_den 2 2 (weights ones) ones H1) = true).
  { apply all_nz_true. intros i j Hi Hj. unfold w_den, mmul. cbn [rsum]. rewrite !E1 by lia. unfold weights, ones. lra. }
  exists (fun i a => ones i a * (w_num 2 eye (weights ones) H1 i a / w_den 2 2 (weights ones) ones H1 i a)), H1.
  split; [|split].
  - cbn [ls_update]. unfold h_step. rewrite N. fold H1. unfold w_step. rewrite N2. reflexivity.
  - intros i a Hi Ha. unfold w_num, w_den, mmul. cbn [rsum]. rewrite !E1 by lia. unfold wev, weights, ones, eye.
    destruct i as [|[|i]]; destruct a as [|[|a]]; try lia; cbn; field.
  - intros a j Ha Hj. rewrite E1 by auto. reflexivity.
Qed.
Theorem C103_stalled_run_is_best_refuted :
  ~ (forall (m n k : nat) (V U : mat) (W H W' H' : mat),
       mall m n (fun x => 0 <= x) V -> mall m n (fun u => u <> 0) U ->
       mall m k (fun x => 0 < x) W -> mall k n (fun x => 0 < x) H ->
       ls_update m n k V (weights U) false (W, H) = Some (W', H') -> meq m k W' W -> meq k n H' H ->
       forall W2 H2, mall m k (fun x => 0 <= x) W2 -> mall k n (fun x => 0 <= x) H2 ->
       q_loss m n k true V U W H <= q_loss m n k true V U W2 H2).
Proof.
  intros A. destruct saddle as (W' & H' & E & EW & EH).
  assert (L : q_loss 2 2 2 true eye ones ones quarter <= q_loss 2 2 2 true eye ones eye eye).
  { apply (A 2%nat 2%nat 2%nat eye ones ones quarter W' H'); auto; intros i j _ _; unfold ones, quarter, eye; try destruct (i =? j)%nat; lra. }
  unfold q_loss, msum, resid, mmul, ones, quarter, eye in L. cbn in L. lra.
Qed.
Print Assumptions C103_stalled_run_is_best_refuted.

Definition zr_V : mat := fun _ j => if (j =? 0)%nat then 1 / 2 else 3 / 2.
Definition zr_H : mat := fun a j => if ((a =? 1) && (j =? 1))%nat then 2 else 1.
Definition zr_W : mat := fun _ a => if (a =? 0)%nat then 1 else 0.
Lemma zero_stuck : exists W' H', ls_update 1 2 2 zr_V (weights ones) true (zr_W, zr_H) = Some (W', H') /\ meq 1 2 W' zr_W /\ H' = zr_H.
Proof.
  assert (N : all_nz 1 2 (w_den 2 2 (weights ones) zr_W zr_H) = true).
  { apply all_nz_true. intros [|i] [|[|a]] Hi Ha; try lia; unfold w_den, weights, mmul, ones, zr_W, zr_H; cbn; lra. }
  exists (fun i a => zr_W i a * (w_num 2 zr_V (weights ones) zr_H i a / w_den 2 2 (weights ones) zr_W zr_H i a)), zr_H.
  split; [|split; [|reflexivity]].
  - cbn [ls_update]. unfold w_step. rewrite N. reflexivity.
  - intros [|i] [|[|a]] Hi Ha; try lia; unfold w_num, w_den, wev, weights, mmul, ones, zr_W, zr_H, zr_V; cbn; field.
Qed.
Theorem C103_zero_entries_refuted :
  ~ (forall (m n k : nat) (V U : mat) (W H W' H' : mat),
       mall m n (fun x => 0 <= x) V -> mall m n (fun u => u <> 0) U ->
       mall m k (fun x => 0 <= x) W -> mall k n (fun x => 0 < x) H ->
       ls_update m n k V (weights U) true (W, H) = Some (W', H') -> meq m k W' W ->
       forall W2, mall m k (fun x => 0 <= x) W2 -> q_loss m n k true V U W H <= q_loss m n k true V U W2 H).
Proof.
  intros A. destruct zero_stuck as (W' & H' & E & EW & _).
  assert (L : q_loss 1 2 2 true zr_V ones zr_W zr_H <= q_loss 1 2 2 true zr_V ones (fun _ a => if (a =? 0)%nat then 0 else 7 / 10) zr_H).
  { apply (A 1%nat 2%nat 2%nat zr_V ones zr_W zr_H W' H'); auto; intros i j _ _; unfold ones, zr_V, zr_W, zr_H; try destruct (_ =? 0)%nat; try destruct (_ && _); try lra. }
  unfold q_loss, msum, resid, mmul, ones, zr_V, zr_W, zr_H in L. cbn in L. lra.
Qed.
Print Assumptions C103_zero_entries_refuted.
Example C103_instance :
  mall 2 2 (fun x => 0 <= x) eye /\ mall 2 2 (fun x => 0 < x) quarter /\ q_loss 2 2 2 true eye ones ones quarter = 1 /\
  (exists W' H', ls_update 2 2 2 eye (weights ones) false (ones, quarter) = Some (W', H') /\ meq 2 2 W' ones /\ meq 2 2 H' quarter) /\
  (forall i, (i < 2)%nat -> ones i 0%nat = ones i 1%nat).
Proof.
  split; [intros i j _ _; unfold eye; destruct (i =? j)%nat; lra|]. split; [intros ? ? _ _; unfold quarter; lra|].
  split; [unfold q_loss, msum, resid, mmul, ones, quarter, eye; cbn; field|]. split; [apply saddle|]. reflexivity.
Qed.

(** ** C104 *)
(** Squared distance of two fits, in units of the uncertainties. *)
Definition fit_distance (m n k : nat) (U W H W' H' : mat) : R :=
  msum m n (fun i j => Rsqr ((rsum k (fun a => W' i a * H' a j) - rsum k (fun a => W i a * H a j)) / U i j)).
Definition wdist (m n k : nat) (We W H W' H' : mat) : R :=
  msum m n (fun i j => We i j * Rsqr (mmul k W' H' i j - mmul k W H i j)).
Lemma fit_wdist m n k U W H W' H' : mall m n (fun u => u <> 0) U ->
  fit_distance m n k U W H W' H' = wdist m n k (weights U) W H W' H'.
Proof.
  intros HU. unfold fit_distance, wdist. apply msum_ext. intros i j Hi Hj. unfold weights, mmul, Rsqr.
  specialize (HU i j Hi Hj). cbv beta in HU. field. exact HU.
Qed.
Lemma mult_move m k (w : nat -> R) (P : nat -> nat -> R) (t : nat -> R) :
  (forall i, (i < m)%nat -> 0 <= w i) ->
  (forall i a, (i < m)%nat -> (a < k)%nat -> 0 <= P i a) ->
  rsum m (fun i => w i * Rsqr (rsum k (fun a => P i a * (1 + t a)) - rsum k (P i)))
  <= rsum k (fun a => t a * t a * rsum m (fun i => w i * P i a * rsum k (P i))).
Proof.
  intros Hw HP. set (s := fun i => rsum k (fun a => P i a * t a)).
  apply Rle_trans with (rsum m (fun i => w i * (rsum k (P i) * rsum k (fun a => P i a * (t a * t a))))).
  - apply rsum_le. intros i Hi. apply Rmult_le_compat_l; [apply Hw; assumption|].
    replace (rsum k (fun a => P i a * (1 + t a)) - rsum k (P i)) with (rsum k (fun a => P i a * t a)).
    + unfold Rsqr. apply jensen. intros a Ha. apply HP; assumption.
    + rewrite <- rsum_minus. apply rsum_ext. intros; ring.
  - apply Req_le. transitivity (rsum m (fun i => rsum k (fun a => t a * t a * (w i * P i a * rsum k (P i))))).
    + apply rsum_ext. intros i Hi. rewrite <- !rsum_scal_l. apply rsum_ext. intros a Ha. ring.
    + rewrite rsum_swap. apply rsum_ext. intros a Ha. rewrite rsum_scal_l. reflexivity.
Qed.
Lemma h_step_move m n k V We W H H' :
  mall m n nonneg We -> mall m k nonneg W -> mall k n nonneg H ->
  h_step m n k V We W H = Some H' ->
  wloss m n k V We W H' + wdist m n k We W H W H' <= wloss m n k V We W H.
Proof.
  intros He HW HH Hs. pose proof (h_step_loss m n k V We W H H' He HW HH Hs) as L.
  eapply Rle_trans; [apply Rplus_le_compat_l|exact L].
  apply h_step_inv in Hs. destruct Hs as [Hd ->].
  unfold wdist, msum. rewrite rsum_swap. apply rsum_le. intros j Hj.
  set (t := fun a => h_num m V We W a j / h_den m k We W H a j - 1).
  set (P := fun i a => W i a * H a j).
  assert (A1 : forall i, (i < m)%nat -> 0 <= We i j) by (intros; apply He; assumption).
  assert (A2 : forall i a, (i < m)%nat -> (a < k)%nat -> 0 <= P i a).
  { intros i a Hi Ha. unfold P. apply Rmult_le_pos; [apply HW|apply HH]; assumption. }
  pose proof (mult_move m k (fun i => We i j) P t A1 A2) as Hm. cbv beta in Hm.
  eapply Rle_trans; [|eapply Rle_trans; [exact Hm|]]; apply Req_le.
  - apply rsum_ext. intros i Hi. f_equal. f_equal. f_equal. unfold mmul. apply rsum_ext. intros a Ha. unfold P, t. ring.
  - apply rsum_ext. intros a Ha. cbv zeta. fold (t a). f_equal. unfold h_den. rewrite <- rsum_scal_l. apply rsum_ext. intros i Hi. unfold mmul, P. ring.
Qed.
Lemma w_step_move m n k V We W H W' :
  mall m n nonneg We -> mall m k nonneg W -> mall k n nonneg H ->
  w_step m n k V We W H = Some W' ->
  wloss m n k V We W' H + wdist m n k We W H W' H <= wloss m n k V We W H.
Proof.
  intros He HW HH Hs. pose proof (w_step_loss m n k V We W H W' He HW HH Hs) as L.
  eapply Rle_trans; [apply Rplus_le_compat_l|exact L].
  apply w_step_inv in Hs. destruct Hs as [Hd ->].
  unfold wdist, msum. apply rsum_le. intros i Hi.
  set (t := fun a => w_num n V We H i a / w_den n k We W H i a - 1).
  set (P := fun j a => W i a * H a j).
  assert (A1 : forall j, (j < n)%nat -> 0 <= We i j) by (intros; apply He; assumption).
  assert (A2 : forall j a, (j < n)%nat -> (a < k)%nat -> 0 <= P j a).
  { intros j a Hj Ha. unfold P. apply Rmult_le_pos; [apply HW|apply HH]; assumption. }
  pose proof (mult_move n k (fun j => We i j) P t A1 A2) as Hm. cbv beta in Hm.
  eapply Rle_trans; [|eapply Rle_trans; [exact Hm|]]; apply Req_le.
  - apply rsum_ext. intros j Hj. f_equal. f_equal. f_equal. unfold mmul. apply rsum_ext. intros a Ha. unfold P, t. ring.
  - apply rsum_ext. intros a Ha. cbv zeta. fold (t a). f_equal. unfold w_den. rewrite <- rsum_scal_l. apply rsum_ext. intros j Hj. unfold mmul, P. ring.
Qed.
(** [(x + y)^2 <= (c + d)/c x^2 + (c + d)/d y^2]. *)
Lemma wdist_triangle m n k We c d W H W1 H1 W2 H2 : 0 < c -> 0 < d -> mall m n nonneg We ->
  wdist m n k We W H W2 H2 <= (c + d) / c * wdist m n k We W H W1 H1 + (c + d) / d * wdist m n k We W1 H1 W2 H2.
Proof.
  intros Hc Hd He. unfold wdist, msum. rewrite <- !rsum_scal_l, <- rsum_plus. apply rsum_le. intros i Hi.
  rewrite <- !rsum_scal_l, <- rsum_plus. apply rsum_le. intros j Hj. specialize (He i j Hi Hj). cbv beta in He.
  set (x := mmul k W1 H1 i j - mmul k W H i j). set (y := mmul k W2 H2 i j - mmul k W1 H1 i j).
  replace (mmul k W2 H2 i j - mmul k W H i j) with (x + y) by (unfold x, y; ring).
  replace ((c + d) / c * (We i j * Rsqr x) + (c + d) / d * (We i j * Rsqr y)) with (We i j * ((c + d) / c * Rsqr x + (c + d) / d * Rsqr y)) by ring.
  apply Rmult_le_compat_l; [exact He|].
  assert (E : (c + d) / c * Rsqr x + (c + d) / d * Rsqr y - Rsqr (x + y) = Rsqr (d * x - c * y) * (/ c * / d)) by (unfold Rsqr; field; lra).
  assert (0 <= Rsqr (d * x - c * y) * (/ c * / d)).
  { apply Rmult_le_pos; [apply Rle_0_sqr|]. apply Rmult_le_pos; left; apply Rinv_0_lt_compat; assumption. }
  lra.
Qed.
Lemma wdist_self m n k We W H : wdist m n k We W H W H = 0.
Proof. unfold wdist, msum. apply rsum_zero. intros i _. apply rsum_zero. intros j _. rewrite Rminus_diag_eq by reflexivity. unfold Rsqr. ring. Qed.
Lemma ls_update_move m n k V We hold W H W' H' :
  mall m n nonneg V -> mall m n nonneg We -> mall m k nonneg W -> mall k n nonneg H ->
  ls_update m n k V We hold (W, H) = Some (W', H') ->
  wdist m n k We W H W' H' <= 2 * (wloss m n k V We W H - wloss m n k V We W' H').
Proof.
  intros HV He HW HH Hs. apply ls_update_inv in Hs. destruct Hs as (H1 & W1 & [= -> ->] & Hh & Hw).
  assert (HH1 : mall k n nonneg H1).
  { destruct hold; [subst; assumption|]. exact (h_step_nonneg m n k V We W H H1 HV He HW HH Hh). }
  pose proof (w_step_move m n k V We W H1 W1 He HW HH1 Hw).
  pose proof (wdist_triangle m n k We 1 1 W H W H1 W1 H1 ltac:(lra) ltac:(lra) He) as T.
  replace ((1 + 1) / 1) with 2 in T by field.
  assert (wloss m n k V We W H1 + wdist m n k We W H W H1 <= wloss m n k V We W H).
  { destruct hold; [subst; rewrite wdist_self; lra|]. exact (h_step_move m n k V We W H H1 He HW HH Hh). }
  lra.
Qed.
Lemma ls_iter_move m n k V We hold N : forall i0 W H W' H',
  mall m n nonneg V -> mall m n nonneg We -> mall m k nonneg W -> mall k n nonneg H ->
  ls_iter m n k V We hold i0 N (W, H) = Some (W', H') ->
  wdist m n k We W H W' H' <= 2 * INR N * (wloss m n k V We W H - wloss m n k V We W' H').
Proof.
  induction N as [|N IH]; intros i0 W H W' H' HV He HW HH Hs; cbn [ls_iter] in Hs.
  - injection Hs as <- <-. rewrite wdist_self. cbn. lra.
  - destruct (ls_update m n k V We (hold i0) (W, H)) as [[W1 H1]|] eqn:E; [|discriminate].
    destruct (ls_update_nonneg _ _ _ _ _ _ _ _ _ _ HV He HW HH E) as [A B].
    pose proof (ls_update_move _ _ _ _ _ _ _ _ _ _ HV He HW HH E) as M1.
    pose proof (IH (S i0) W1 H1 W' H' HV He A B Hs) as M2.
    destruct (Nat.eq_dec N 0) as [->|HN].
    + cbn [ls_iter] in Hs. injection Hs as <- <-. cbn [INR]. lra.
    + assert (PN : 0 < INR N) by (apply lt_0_INR; lia).
      pose proof (wdist_triangle m n k We 1 (INR N) W H W1 H1 W' H' ltac:(lra) PN He) as T.
      rewrite S_INR.
      assert (C1 : (1 + INR N) / 1 * wdist m n k We W H W1 H1 <= (1 + INR N) * (2 * (wloss m n k V We W H - wloss m n k V We W1 H1))).
      { replace ((1 + INR N) / 1) with (1 + INR N) by field. apply Rmult_le_compat_l; lra. }
      assert (C2 : (1 + INR N) / INR N * wdist m n k We W1 H1 W' H' <= (1 + INR N) * (2 * (wloss m n k V We W1 H1 - wloss m n k V We W' H'))).
      { apply Rle_trans with ((1 + INR N) / INR N * (2 * INR N * (wloss m n k V We W1 H1 - wloss m n k V We W' H'))).
        - apply Rmult_le_compat_l; [|exact M2]. left. apply Rdiv_lt_0_compat; lra.
        - apply Req_le. field. lra. }
      lra.
Qed.

(** Over any N iterations the fit moves, in units of the uncertainties, by at most
    twice N times the loss of Q(true); and no fitted value is ever further from the
    data than the square root of the starting Q(true), in units of its
    uncertainty. *)
Theorem C104_fit_moves_with_the_loss :
  forall (m n k : nat) (V U : mat) (hold : nat -> bool) (N i0 : nat) (W H W' H' : mat),
    mall m n (fun x => 0 <= x) V -> mall m n (fun u => 0 < u) U ->
    mall m k (fun x => 0 <= x) W -> mall k n (fun x => 0 <= x) H ->
    ls_iter m n k V (weights U) hold i0 N (W, H) = Some (W', H') ->
    fit_distance m n k U W H W' H' <= 2 * INR N * (q_loss m n k true V U W H - q_loss m n k true V U W' H') /\
    forall i j, (i < m)%nat -> (j < n)%nat ->
      Rabs (V i j - rsum k (fun a => W' i a * H' a j)) / U i j <= sqrt (q_loss m n k true V U W H).
Proof.
  intros m n k V U hold N i0 W H W' H' HV HU HW HH Hs.
  assert (HU' : mall m n (fun u => u <> 0) U) by (intros i j Hi Hj; pose proof (HU i j Hi Hj); lra).
  pose proof (pos_nonneg _ _ _ (weights_pos m n U HU')) as He. split.
  - rewrite fit_wdist, !q_loss_wloss by assumption. exact (ls_iter_move m n k V (weights U) hold N i0 W H W' H' HV He HW HH Hs).
  - intros i j Hi Hj. pose proof (ls_iter_q m n k V U hold N i0 W H W' H' HV HU' HW HH Hs) as L.
    pose proof (HU i j Hi Hj) as Hu. cbv beta in Hu.
    assert (C : Rsqr (Rabs (V i j - rsum k (fun a => W' i a * H' a j)) / U i j) <= q_loss m n k true V U W' H').
    { unfold q_loss. pose proof (le_one_term m n (fun i j => let ru := resid k V W' H' i j / U i j in ru * ru) i j) as T. cbv beta zeta in T.
      eapply Rle_trans; [|apply T; auto; intros; apply Rle_0_sqr]. apply Req_le. unfold resid, mmul, Rsqr.
      set (x := V i j - rsum k (fun a => W' i a * H' a j)).
      replace (Rabs x / U i j * (Rabs x / U i j)) with (Rsqr (Rabs x) / (U i j * U i j)) by (unfold Rsqr; field; lra).
      rewrite <- Rsqr_abs. unfold Rsqr. field. lra. }
    rewrite <- (sqrt_Rsqr (Rabs _ / _)).
    + apply sqrt_le_1_alt. lra.
    + apply Rmult_le_pos; [apply Rabs_pos|left; apply Rinv_0_lt_compat; exact Hu].
Qed.
Print Assumptions C104_fit_moves_with_the_loss.

(** So "converged" means that over the last converge_n - 1 iterations the fit has
    moved by less than twice (converge_n - 1) times converge_delta. *)
Theorem C104_converged_means_settled :
  forall (m n k : nat) (V U : mat) (delta : R) (cn : Z) (hold_h : bool) (delay_h : Z) (W H : mat)
    (tick : nat -> bool) (max_iter : Z) (b : nat -> bool),
    (0 < m)%nat -> (0 < n)%nat -> (0 < k)%nat ->
    mall m n (fun x => 0 <= x) V -> no_empty m n V -> mall m n (fun u => 0 < u) U ->
    mall m k (fun x => 0 < x) W -> mall k n (fun x => 0 < x) H ->
    (forall i, b i = true <-> held hold_h delay_h i) ->
    let r := ls_rust_train m n k V U delta cn hold_h delay_h tick max_iter W H in
    rr_conv r = true ->
    let s := Z.to_nat (cn - 1) in
    exists W0 H0 W' H',
      (s <= rr_ci r)%nat /\
      ls_iter m n k V (weights U) b 0 (rr_ci r + 1 - s) (W, H) = Some (W0, H0) /\
      rr_state r = Some (W', H') /\
      q_loss m n k true V U W0 H0 - q_loss m n k true V U W' H' < delta /\
      fit_distance m n k U W0 H0 W' H' <= 2 * INR s * delta.
Proof.
  intros m n k V U delta cn hold_h delay_h W H tick max_iter b Hm Hn Hk HV Hne HU HW HH Hb r Hc s.
  assert (HU' : mall m n (fun u => u <> 0) U) by (intros i j Hi Hj; pose proof (HU i j Hi Hj); lra).
  destruct (rust_summary (ls_step m n k V U) (ls_loss m n k V U) (fbelow delta) cn hold_h delay_h tick (Some (W, H)) max_iter b Hb)
    as (_ & _ & C & _ & E & _ & _ & I).
  fold (ls_rust_train m n k V U delta cn hold_h delay_h tick max_iter W H) in C, E, I. fold r in C, E, I.
  specialize (I Hc). destruct I as [[[I1 I2] _] I3].
  change (span cn) with s in I1, I2.
  assert (SI : forall i, state_at (ls_step m n k V U) b (Some (W, H)) i = ls_iter m n k V (weights U) b 0 i (W, H)).
  { intros i. induction i as [|i IH]; [reflexivity|]. cbn [state_at]. rewrite IH.
    replace (S i) with (i + 1)%nat by lia. rewrite ls_iter_add. unfold ls_step at 1.
    destruct (ls_iter m n k V (weights U) b 0 i (W, H)) as [st|]; [|reflexivity].
    cbn [ls_iter Nat.add]. destruct (ls_update m n k V (weights U) (b i) st); reflexivity. }
  assert (IP : forall i, exists W' H', ls_iter m n k V (weights U) b 0 i (W, H) = Some (W', H') /\
              mall m k (fun x => 0 < x) W' /\ mall k n (fun x => 0 < x) H').
  { intros i. exact (ls_iter_pos m n k V (weights U) b i 0%nat W H Hm Hn Hk HV Hne (weights_pos m n U HU') HW HH). }
  set (L := length (rr_hist r)) in *.
  assert (HL : (L = rr_ci r + 1)%nat) by lia.
  destruct (IP (rr_ci r + 1 - s)%nat) as (W0 & H0 & E0 & P0 & Q0). destruct (IP L) as (W' & H' & E' & P' & Q').
  exists W0, H0, W', H'. split; [lia|]. split; [exact E0|]. split; [rewrite C, SI; exact E'|].
  replace (L - 1)%nat with (rr_ci r) in * by lia.
  unfold loss_at in I2. replace (S (rr_ci r - s)) with (rr_ci r + 1 - s)%nat in I2 by lia. replace (S (rr_ci r)) with L in I2 by lia.
  rewrite !SI, E0, E' in I2. cbn [ls_loss] in I2. apply fbelow_fin in I2. split; [exact I2|].
  assert (ES : ls_iter m n k V (weights U) b (0 + (rr_ci r + 1 - s)) s (W0, H0) = Some (W', H')).
  { pose proof (ls_iter_add m n k V (weights U) b (rr_ci r + 1 - s) s 0 (W, H)) as A. rewrite E0 in A. rewrite <- A.
    replace (rr_ci r + 1 - s + s)%nat with L by lia. exact E'. }
  destruct (C104_fit_moves_with_the_loss m n k V U b s _ W0 H0 W' H' HV HU (pos_nonneg _ _ _ P0) (pos_nonneg _ _ _ Q0) ES) as [M _].
  eapply Rle_trans; [exact M|]. apply Rmult_le_compat_l; [|lra]. pose proof (pos_INR s). lra.
Qed.
Print Assumptions C104_converged_means_settled.

(** The same for the Python engine, whose history has its last iteration at the end. *)
Theorem C104_python_converged_means_settled :
  forall (m n k : nat) (V U : mat) (delta : R) (cn : Z) (hold_h : bool) (delay_h : Z) (W H : mat)
    (max_iter : Z) (b : nat -> bool),
    (0 < m)%nat -> (0 < n)%nat -> (0 < k)%nat ->
    mall m n (fun x => 0 <= x) V -> no_empty m n V -> mall m n (fun u => 0 < u) U ->
    mall m k (fun x => 0 < x) W -> mall k n (fun x => 0 < x) H -> (1 <= cn)%Z ->
    (forall i, b i = true <-> held hold_h delay_h i) ->
    let r := ls_py_train m n k V U delta cn delay_h hold_h max_iter W H in
    pr_stop r = PConverged ->
    let s := Z.to_nat (cn - 1) in let L := length (pr_hist r) in
    exists W0 H0 W' H',
      (s < L)%nat /\
      ls_iter m n k V (weights U) b 0 (L - s) (W, H) = Some (W0, H0) /\
      pr_state r = Some (W', H') /\
      q_loss m n k true V U W0 H0 - q_loss m n k true V U W' H' < delta /\
      fit_distance m n k U W0 H0 W' H' <= 2 * INR s * delta.
Proof.
  intros m n k V U delta cn hold_h delay_h W H max_iter b Hm Hn Hk HV Hne HU HW HH Hcn Hb r Hc s L.
  assert (HU' : mall m n (fun u => u <> 0) U) by (intros i j Hi Hj; pose proof (HU i j Hi Hj); lra).
  destruct (py_summary (ls_step m n k V U) (ls_loss m n k V U) (fbelow delta) (fun o => is_nan (ls_loss m n k V U o))
    cn hold_h delay_h (Some (W, H)) max_iter b Hcn Hb) as (_ & _ & C & _ & E & _ & I).
  fold (ls_py_train m n k V U delta cn delay_h hold_h max_iter W H) in C, E, I. fold r in C, E, I. fold L in C, E, I.
  specialize (I Hc). destruct I as [I1 I2]. destruct E as [E1 _]; [rewrite Hc; discriminate|].
  change (span cn) with s in I1, I2.
  assert (SI : forall i, state_at (ls_step m n k V U) b (Some (W, H)) i = ls_iter m n k V (weights U) b 0 i (W, H)).
  { intros i. induction i as [|i IH]; [reflexivity|]. cbn [state_at]. rewrite IH.
    replace (S i) with (i + 1)%nat by lia. rewrite ls_iter_add. unfold ls_step at 1.
    destruct (ls_iter m n k V (weights U) b 0 i (W, H)) as [st|]; [|reflexivity].
    cbn [ls_iter Nat.add]. destruct (ls_update m n k V (weights U) (b i) st); reflexivity. }
  assert (IP : forall i, exists W' H', ls_iter m n k V (weights U) b 0 i (W, H) = Some (W', H') /\
              mall m k (fun x => 0 < x) W' /\ mall k n (fun x => 0 < x) H').
  { intros i. exact (ls_iter_pos m n k V (weights U) b i 0%nat W H Hm Hn Hk HV Hne (weights_pos m n U HU') HW HH). }
  destruct (IP (L - s)%nat) as (W0 & H0 & E0 & P0 & Q0). destruct (IP L) as (W' & H' & E' & P' & Q').
  exists W0, H0, W', H'. split; [lia|]. split; [exact E0|]. split; [rewrite C, SI; exact E'|].
  unfold loss_at in I2. replace (S (L - 1 - s)) with (L - s)%nat in I2 by lia. replace (S (L - 1)) with L in I2 by lia.
  rewrite !SI, E0, E' in I2. cbn [ls_loss] in I2. apply fbelow_fin in I2. split; [exact I2|].
  assert (ES : ls_iter m n k V (weights U) b (0 + (L - s)) s (W0, H0) = Some (W', H')).
  { pose proof (ls_iter_add m n k V (weights U) b (L - s) s 0 (W, H)) as A. rewrite E0 in A. rewrite <- A.
    replace (L - s + s)%nat with L by lia. exact E'. }
  destruct (C104_fit_moves_with_the_loss m n k V U b s _ W0 H0 W' H' HV HU (pos_nonneg _ _ _ P0) (pos_nonneg _ _ _ Q0) ES) as [M _].
  eapply Rle_trans; [exact M|]. apply Rmult_le_compat_l; [|lra]. pose proof (pos_INR s). lra.
Qed.
Print Assumptions C104_python_converged_means_settled.

Example C104_instance :
  let V := (fun i j => INR (i + j)) : mat in
  exists W' H', ls_iter 2 2 1 V (weights ones) (fun _ => false) 0 7 (ones, ones) = Some (W', H') /\
    mall 2 2 (fun x => 0 <= x) V /\ no_empty 2 2 V /\ q_loss 2 2 1 true V ones ones ones = 2.
Proof.
  intros V.
  assert (HV : mall 2 2 (fun x => 0 <= x) V) by (intros i j _ _; apply pos_INR).
  assert (Hne : no_empty 2 2 V).
  { split; [intros i Hi|intros j Hj]; exists 1%nat; (split; [lia|]); unfold V; apply lt_0_INR; lia. }
  assert (HU : mall 2 2 (fun u => u <> 0) ones) by (intros ? ? _ _; unfold ones; lra).
  destruct (ls_iter_pos 2 2 1 V (weights ones) (fun _ => false) 7 0 ones ones) as (W' & H' & E & _); try lia; auto;
    try (intros i j _ _; unfold ones; lra); [apply (weights_pos 2 2 ones HU)|].
  exists W', H'. split; [exact E|]. split; [exact HV|]. split; [exact Hne|].
  unfold q_loss, msum, resid, mmul, ones, V. cbn. field.
Qed.
Example C104_python_instance :
  let V := (fun i j => INR (i + j)) : mat in
  pr_stop (ls_py_train 2 2 1 V ones (1 / 100) 5 (-1) false 900 ones ones) = PConverged.
Proof.
  intros V.
  assert (HV : mall 2 2 (fun x => 0 <= x) V) by (intros i j _ _; apply pos_INR).
  assert (Hne : no_empty 2 2 V).
  { split; [intros i Hi|intros j Hj]; exists 1%nat; (split; [lia|]); unfold V; apply lt_0_INR; lia. }
  assert (Q : q_loss 2 2 1 true V ones ones ones = 2) by (unfold q_loss, msum, resid, mmul, ones, V; cbn; field).
  refine (proj1 (ls_py_converges 2 2 1 V ones (1 / 100) 5 false (-1) ones ones _ _ _ HV Hne _ _ _ 900%Z 201%nat _ _ _));
    try lia; try lra; try (intros i j _ _; unfold ones; lra).
  - rewrite Q, INR_IZR_INZ. cbn. lra.
  - vm_compute. reflexivity.
Qed.

Lemma xll_one i j : 0 < ones i j.
Proof. unfold ones. lra. Qed.
Definition xll_V : mat := fun i j => INR (i + j).
Example C102_robust_loss_bounded_example : exists W', ls_iter 1 3 1 outlier_V (weights ones) (fun _ => true) 0 1 (ones, ones) = Some (W', ones) /\
  qr_loss 1 3 1 4 outlier_V ones W' ones <= q_loss 1 3 1 true outlier_V ones ones ones.
Proof.
  destruct C102_instance as (A & B & (W' & E) & _). exists W'. split; [exact E |].
  refine (proj1 (C102_robust_loss_bounded 1 3 1 outlier_V ones 4 (fun _ => true) 1 0 ones ones W' ones A B ltac:(lra) _ _ E)); intros i j _ _; apply Rlt_le, xll_one.
Qed.
Example C103_stalled_run_is_blockwise_optimal_example : forall W2, q_loss 2 2 2 true eye ones ones quarter <= q_loss 2 2 2 true eye ones W2 quarter.
Proof.
  destruct C103_instance as (A & B & _ & (W' & H' & E & MW & MH) & _).
  refine (proj1 (C103_stalled_run_is_blockwise_optimal 2 2 2 eye ones false ones quarter W' H' A _ _ B E _)); try (intros i j _ _; pose proof (xll_one i j); lra).
  unfold q_loss, msum. apply rsum_ext. intros i Hi. apply rsum_ext. intros j Hj. unfold resid, mmul.
  rewrite (rsum_ext 2 (fun p => W' i p * H' p j) (fun p => ones i p * quarter p j)) by (intros p Hp; rewrite MW, MH by lia; reflexivity). reflexivity.
Qed.
Example C103_twin_factors_stay_twins_example : exists W' H', ls_iter 2 2 2 eye (weights ones) (fun _ => false) 0 1 (ones, quarter) = Some (W', H') /\
  forall i, (i < 2)%nat -> W' i 0%nat = W' i 1%nat.
Proof.
  destruct C103_instance as (_ & _ & _ & (W' & H' & E & _) & T).
  assert (E1 : ls_iter 2 2 2 eye (weights ones) (fun _ => false) 0 1 (ones, quarter) = Some (W', H')) by (unfold ls_iter; cbn; cbn in E; rewrite E; reflexivity).
  exists W', H'. split; [exact E1 |].
  exact (proj1 (C103_twin_factors_stay_twins 2 2 2 eye (weights ones) (fun _ => false) 1 0 ones quarter W' H' 0 1 T ltac:(reflexivity) E1)).
Qed.
Example C104_fit_moves_with_the_loss_example : exists W' H', ls_iter 2 2 1 xll_V (weights ones) (fun _ => false) 0 7 (ones, ones) = Some (W', H') /\
  fit_distance 2 2 1 ones ones ones W' H' <= 2 * INR 7 * (2 - q_loss 2 2 1 true xll_V ones W' H').
Proof.
  destruct C104_instance as (W' & H' & E & A & _ & Q). exists W', H'. split; [exact E |]. fold xll_V in E, A, Q. 
  replace (2 - q_loss 2 2 1 true xll_V ones W' H') with (q_loss 2 2 1 true xll_V ones ones ones - q_loss 2 2 1 true xll_V ones W' H') by (rewrite Q; reflexivity).
  refine (proj1 (C104_fit_moves_with_the_loss 2 2 1 xll_V ones (fun _ => false) 7 0 ones ones W' H' A _ _ _ E)); intros i j _ _; pose proof (xll_one i j); lra.
Qed.
Lemma xll_Vpos : mall 2 2 (fun x => 0 <= x) xll_V.
Proof. intros i j _ _. apply pos_INR. Qed.
Lemma xll_ne : no_empty 2 2 xll_V.
Proof. destruct C104_instance as (_ & _ & _ & _ & N & _). exact N. Qed.
Example C104_python_converged_means_settled_example :=
  C104_python_converged_means_settled 2 2 1 xll_V ones (1 / 100) 5 false (-1) ones ones 900 (fun _ => false) ltac:(lia) ltac:(lia) ltac:(lia)
    xll_Vpos xll_ne ltac:(intros i j _ _; apply xll_one) ltac:(intros i j _ _; apply xll_one) ltac:(intros i j _ _; apply xll_one) ltac:(lia)
    ltac:(intros i; unfold held; split; [discriminate | intros [Hc _]; discriminate]) C104_python_instance.
