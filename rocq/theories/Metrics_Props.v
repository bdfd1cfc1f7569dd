(** Properties C01-C04: the loss functions. *)
From Coq Require Import Reals Lra Lia List.
From Verif Require Import Base Metrics_Model Metrics_Spec Metrics_Proofs.
Open Scope R_scope.

(** C01: Q(true) >= 0 and (non-zero uncertainties) = 0 iff the data is
    reproduced; the un-weighted variant likewise. *)
Theorem C01_q_true_faithful :
  forall (m n k : nat) (V U W H : mat),
    0 <= q_loss m n k true V U W H /\
    0 <= q_loss m n k false V U W H /\
    (q_loss m n k false V U W H = 0 <-> reproduces m n k V W H) /\
    (mall m n (fun u => u <> 0) U ->
       (q_loss m n k true V U W H = 0 <-> reproduces m n k V W H)).
Proof.
  exact (fun m n k V U W H =>
    conj (q_loss_nonneg m n k true V U W H)
      (conj (q_loss_nonneg m n k false V U W H)
        (conj (q_loss_unweighted_zero m n k V U W H)
              (q_loss_zero m n k V U W H)))).
Qed.
Print Assumptions C01_q_true_faithful.
(** Two samples, one factor; the second sample is not reproduced. *)
Definition xm_one : mat := fun _ _ => 1.
Definition xm_V : mat := fun i j => INR (i + 1) * INR (j + 1).
Definition xm_U : mat := fun i j => INR (i + j + 1).
Lemma xm_U_pos m n : mall m n (fun u => 0 < u) xm_U.
Proof. intros i j _ _. apply lt_0_INR. lia. Qed.
Lemma xm_U_nz m n : mall m n (fun u => u <> 0) xm_U.
Proof. intros i j _ _. apply not_0_INR. lia. Qed.
Example C01_q_true_faithful_example : 0 < q_loss 2 2 1 true xm_V xm_U xm_one xm_one /\ ~ reproduces 2 2 1 xm_V xm_one xm_one.
Proof.
  assert (N : ~ reproduces 2 2 1 xm_V xm_one xm_one).
  { intros E. specialize (E 1%nat 1%nat ltac:(lia) ltac:(lia)). unfold xm_V, xm_one in E. cbn in E. lra. }
  split; [|exact N]. destruct (C01_q_true_faithful 2 2 1 xm_V xm_U xm_one xm_one) as (A & _ & _ & B). specialize (B (xm_U_nz 2 2)).
  destruct (Rle_lt_or_eq_dec _ _ A) as [L|E]; [exact L|]. exfalso. apply N, B. symmetry. exact E.
Qed.

(** C01, value: with positive uncertainties Q(true) is the sum of squared
    scaled residuals. *)
Theorem C01_q_true_value :
  forall (m n k : nat) (V U W H : mat),
    mall m n (fun u => 0 < u) U ->
    q_loss m n k true V U W H = q_spec m n k V U W H.
Proof. exact q_loss_spec. Qed.
Print Assumptions C01_q_true_value.
Example C01_q_true_value_example := C01_q_true_value 2 3 1 xm_V xm_U xm_one xm_one (xm_U_pos 2 3).

Example C01_instance :
  let W := (fun i _ => INR (i + 1)) : mat in
  let H := (fun _ j => INR (j + 1)) : mat in
  let V := (fun i j => INR (i + 1) * INR (j + 1)) : mat in
  let U := (fun i j => INR (i + j + 1)) : mat in
  mall 2 3 (fun u => 0 < u) U /\ mall 2 3 (fun u => u <> 0) U /\ reproduces 2 3 1 V W H /\ q_loss 2 3 1 true V U W H = 0.
Proof.
  intros W H V U.
  assert (HU : mall 2 3 (fun u => 0 < u) U) by (intros i j _ _; apply lt_0_INR; lia).
  assert (HN : mall 2 3 (fun u => u <> 0) U) by (intros i j Hi Hj; pose proof (HU i j Hi Hj); lra).
  assert (HR : reproduces 2 3 1 V W H) by (intros i j _ _; unfold V, W, H; cbn [rsum]; ring).
  split; [|split; [|split]]; auto. apply (C01_q_true_faithful 2 3 1 V U W H); auto.
Qed.


(** C02: 0 <= Q(robust) <= Q(true), equality iff no outlier. *)
Theorem C02_q_robust_bracket :
  forall (m n k : nat) (alpha : R) (V U W H : mat),
    mall m n (fun u => 0 < u) U -> 0 < alpha ->
    0 <= qr_loss m n k alpha V U W H <= q_loss m n k true V U W H.
Proof. exact qr_le_q. Qed.
Print Assumptions C02_q_robust_bracket.
Definition xm_6 : mat := fun _ _ => 6.
Definition xm_0 : mat := fun _ _ => 0.
Lemma xm_one_pos m n : mall m n (fun u => 0 < u) xm_one.
Proof. intros i j _ _. unfold xm_one. lra. Qed.
Example C02_q_robust_bracket_example := C02_q_robust_bracket 2 3 1 4 xm_6 xm_U xm_one xm_one (xm_U_pos 2 3) ltac:(lra).

Theorem C02_q_robust_equal_iff :
  forall (m n k : nat) (alpha : R) (V U W H : mat),
    mall m n (fun u => 0 < u) U -> 0 < alpha ->
    (qr_loss m n k alpha V U W H = q_loss m n k true V U W H <->
     (forall i j, (i < m)%nat -> (j < n)%nat -> cell_resid k V U W H i j <= alpha)).
Proof. exact qr_eq_q_iff. Qed.
Print Assumptions C02_q_robust_equal_iff.
(** One outlier (residual 6 with parameter 4): the losses differ. *)
Example C02_q_robust_equal_iff_example : qr_loss 2 2 1 4 xm_6 xm_one xm_0 xm_0 <> q_loss 2 2 1 true xm_6 xm_one xm_0 xm_0.
Proof.
  intros E. apply (C02_q_robust_equal_iff 2 2 1 4 xm_6 xm_one xm_0 xm_0 (xm_one_pos 2 2) ltac:(lra)) with (i := 0%nat) (j := 0%nat) in E; [|lia|lia].
  revert E. unfold cell_resid, xm_6, xm_one, xm_0. cbn. rewrite Rabs_right; lra.
Qed.

(** C02: value per cell: s^2 below the cut-off, alpha*s above. *)
Theorem C02_q_robust_value :
  forall (m n k : nat) (alpha : R) (V U W H : mat),
    mall m n (fun u => 0 < u) U -> 0 < alpha ->
    qr_loss m n k alpha V U W H
    = msum m n (fun i j => robust_cell alpha (cell_resid k V U W H i j)).
Proof. exact qr_loss_spec. Qed.
Print Assumptions C02_q_robust_value.
Example C02_q_robust_value_example := C02_q_robust_value 2 3 1 4 xm_6 xm_U xm_one xm_one (xm_U_pos 2 3) ltac:(lra).

(** C02: the compiled engine computes the same robust loss. *)
Theorem C02_q_robust_engines_agree :
  forall (m n k : nat) (alpha : R) (V U W H : mat),
    mall m n (fun u => 0 < u) U -> 0 < alpha ->
    q_robust_cpu m n k alpha V U W H = qr_loss m n k alpha V U W H.
Proof. exact q_robust_cpu_eq. Qed.
Print Assumptions C02_q_robust_engines_agree.
Example C02_q_robust_engines_agree_example := C02_q_robust_engines_agree 2 3 1 4 xm_6 xm_U xm_one xm_one (xm_U_pos 2 3) ltac:(lra).

(** Instance: a 1x1 model with residual 6 and alpha 4 gives 24 < 36. *)
Example C02_instance :
  let V := (fun _ _ => 6) : mat in
  let U := (fun _ _ => 1) : mat in
  let Z := (fun _ _ => 0) : mat in
  mall 1 1 (fun u => 0 < u) U /\ 0 < 4 /\
  qr_loss 1 1 1 4 V U Z Z = 24 /\ q_loss 1 1 1 true V U Z Z = 36.
Proof.
  intros V U Z.
  assert (HU : mall 1 1 (fun u => 0 < u) U) by (intros i j _ _; unfold U; lra).
  split; [assumption|]. split; [lra|]. split.
  - rewrite (C02_q_robust_value 1 1 1 4 V U Z Z HU) by lra.
    unfold msum, cell_resid, robust_cell. cbn. unfold V, U, Z.
    replace (6 - (0 + 0 * 0)) with 6 by ring. rewrite Rabs_right by lra.
    destruct (Rle_dec _ _); lra.
  - unfold q_loss, msum, resid, mmul. cbn. unfold V, U, Z. lra.
Qed.

(** C03: the adjusted uncertainty only grows, exactly at the outliers, and
    reproduces Q(robust). *)
Theorem C03_updated_uncertainty :
  forall (m n k : nat) (alpha : R) (V U W H : mat),
    mall m n (fun u => 0 < u) U -> 0 < alpha ->
    (forall i j, (i < m)%nat -> (j < n)%nat ->
       U i j <= updated_unc k alpha V U W H i j /\
       (updated_unc k alpha V U W H i j = U i j <-> cell_resid k V U W H i j <= alpha)) /\
    q_loss m n k true V (updated_unc k alpha V U W H) W H = qr_loss m n k alpha V U W H.
Proof. exact updated_unc_spec. Qed.
Print Assumptions C03_updated_uncertainty.
Example C03_updated_uncertainty_example := C03_updated_uncertainty 2 3 1 4 xm_6 xm_U xm_one xm_one (xm_U_pos 2 3) ltac:(lra).

(** One cell with scaled residual 9, cut-off 4: its uncertainty is raised. *)
Example C03_instance :
  let V := (fun _ _ => 10) : mat in let One := (fun _ _ => 1) : mat in
  mall 1 1 (fun u => 0 < u) One /\ 0 < 4 /\ 4 < cell_resid 1 V One One One 0 0 /\ 1 < updated_unc 1 4 V One One One 0%nat 0%nat.
Proof.
  intros V One.
  assert (HU : mall 1 1 (fun u => 0 < u) One) by (intros i j _ _; unfold One; lra).
  assert (HC : 4 < cell_resid 1 V One One One 0 0).
  { unfold cell_resid, V, One. cbn [rsum]. rewrite Rabs_right; lra. }
  destruct (C03_updated_uncertainty 1 1 1 4 V One One One HU) as [A _]; [lra|].
  destruct (A 0%nat 0%nat) as [B C]; try lia. repeat split; auto; try lra.
  destruct (Req_dec (updated_unc 1 4 V One One One 0%nat 0%nat) 1) as [E|E]; [apply C in E; lra|].
  change (1 <= updated_unc 1 4 V One One One 0%nat 0%nat) in B. lra.
Qed.


(** C04: per-factor values add up. *)
Theorem C04_factor_q_sum :
  forall (m n k : nat) (V U W H : mat),
    (forall i j, (i < m)%nat -> (j < n)%nat -> 0 < rsum k (fun p => W i p * H p j)) ->
    rsum k (q_factor_raw m n k V U W H) = q_loss m n k true V U W H.
Proof. exact q_factor_sum. Qed.
Print Assumptions C04_factor_q_sum.
Lemma xm_recon_pos i j : 0 < rsum 2 (fun p => xm_one i p * xm_6 p j).
Proof. unfold xm_one, xm_6. cbn. lra. Qed.
Example C04_factor_q_sum_example := C04_factor_q_sum 2 2 2 xm_V xm_U xm_one xm_6 (fun i j _ _ => xm_recon_pos i j).

Theorem C04_factor_q_rounded :
  forall (m n k : nat) (V U W H : mat) (rnd : R -> R),
    (forall x, Rabs (rnd x - x) <= 5 / 10 ^ 5) ->
    (forall i j, (i < m)%nat -> (j < n)%nat -> 0 < rsum k (fun p => W i p * H p j)) ->
    length (q_factor rnd m n k V U W H) = k /\
    Rabs (lsum (q_factor rnd m n k V U W H) - q_loss m n k true V U W H) <= INR k * (5 / 10 ^ 5).
Proof. exact q_factor_rounded. Qed.
Print Assumptions C04_factor_q_rounded.
Example C04_factor_q_rounded_example := C04_factor_q_rounded 2 2 2 xm_V xm_U xm_one xm_6 (fun x => x + 1 / 10 ^ 5)
  ltac:(intros x; replace (x + 1 / 10 ^ 5 - x) with (1 / 10 ^ 5) by ring; rewrite Rabs_right; lra) (fun i j _ _ => xm_recon_pos i j).

(** C04, general formula without positivity: a non-positive reconstruction is
    replaced by 1e-12 in the residual and in the share. *)
Theorem C04_factor_q_general :
  forall (m n k : nat) (V U W H : mat),
    rsum k (q_factor_raw m n k V U W H)
    = msum m n (fun i j =>
        let wh := rsum k (fun p => W i p * H p j) in
        let c := if Rle_dec wh 0 then / 10 ^ 12 else wh in
        Rsqr ((V i j - c) / U i j) * (wh / c)).
Proof. exact q_factor_general. Qed.
Print Assumptions C04_factor_q_general.

(** C04: the decomposition really needs positive reconstructions: with a zero
    reconstruction the factor values miss the whole loss. *)
Theorem C04_factor_q_sum_zero_recon_refuted :
  exists (V U W H : mat),
    mall 1 1 (fun u => 0 < u) U /\ mall 1 1 (fun w => 0 <= w) W /\
    mall 1 1 (fun h => 0 <= h) H /\
    rsum 1 (q_factor_raw 1 1 1 V U W H) <> q_loss 1 1 1 true V U W H.
Proof. exact q_factor_zero_refuted. Qed.
Print Assumptions C04_factor_q_sum_zero_recon_refuted.

Example C04_instance :
  let W := (fun _ _ => 2) : mat in
  let H := (fun _ _ => 3) : mat in
  forall i j, (i < 2)%nat -> (j < 2)%nat -> 0 < rsum 2 (fun p => W i p * H p j).
Proof. intros W H i j _ _. cbn. unfold W, H. lra. Qed.

(** Two factors that cancel: the reconstruction is 0, replaced by 1e-12, and the parts
    cancel too, although the data are not reproduced. *)
Example C04_factor_q_general_example : rsum 2 (q_factor_raw 1 1 2 (fun _ _ => 5) (fun _ _ => 1) (fun _ p => if (p =? 0)%nat then 1 else -1) (fun _ _ => 1)) = 0.
Proof.
  rewrite C04_factor_q_general. unfold msum. cbn [rsum Nat.eqb]. cbv zeta. replace (0 + 1 * 1 + -1 * 1) with 0 by ring. unfold Rdiv. rewrite !Rmult_0_l. ring.
Qed.
