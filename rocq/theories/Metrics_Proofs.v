From Coq Require Import Reals Lra Lia List.
From Verif Require Import Base Metrics_Model Metrics_Spec.
Import ListNotations.
Open Scope R_scope.

Lemma EPS_pos : 0 < EPS.
Proof. unfold EPS. apply Rinv_0_lt_compat. lra. Qed.

Definition posU (m n : nat) (U : mat) : Prop := mall m n (fun u => 0 < u) U.

Lemma resid_mmul k V W H i j : resid k V W H i j = V i j - rsum k (fun p => W i p * H p j).
Proof. reflexivity. Qed.

Lemma sq_div_abs r u : u <> 0 -> (r / u) * (r / u) = (Rabs r / u) * (Rabs r / u).
Proof.
  intros Hu. unfold Rdiv.
  replace (Rabs r * / u * (Rabs r * / u)) with ((Rabs r * Rabs r) * (/ u * / u)) by ring.
  replace (Rabs r * Rabs r) with (r * r).
  - ring.
  - pose proof (Rsqr_abs r) as E. unfold Rsqr in E. exact E.
Qed.

Lemma q_loss_spec m n k V U W H :
  posU m n U -> q_loss m n k true V U W H = q_spec m n k V U W H.
Proof.
  intros HU. unfold q_loss, q_spec. apply msum_ext. intros i j Hi Hj. cbv zeta.
  unfold cell_resid. rewrite resid_mmul. apply sq_div_abs.
  specialize (HU i j Hi Hj). lra.
Qed.

Lemma q_loss_nonneg m n k unc V U W H : 0 <= q_loss m n k unc V U W H.
Proof.
  unfold q_loss. destruct unc; apply msum_nonneg; intros i j Hi Hj; cbv zeta;
    apply Rle_0_sqr.
Qed.

Lemma q_loss_zero m n k V U W H :
  mall m n (fun u => u <> 0) U ->
  q_loss m n k true V U W H = 0 <-> reproduces m n k V W H.
Proof.
  intros HU. unfold q_loss. split; intros Hq.
  - intros i j Hi Hj.
    assert (Hz := msum_zero m n _ (fun i j _ _ => Rle_0_sqr (resid k V W H i j / U i j)) Hq i j Hi Hj).
    cbv beta in Hz. apply Rsqr_0_uniq in Hz. specialize (HU i j Hi Hj). cbv beta in HU.
    unfold Rdiv in Hz. apply Rmult_integral in Hz. destruct Hz as [Hz|Hz].
    + rewrite resid_mmul in Hz. lra.
    + exfalso. apply (Rinv_neq_0_compat _ HU). exact Hz.
  - rewrite (msum_ext m n _ (fun _ _ => 0)).
    + unfold msum. rewrite (rsum_ext m _ (fun _ => 0)) by (intros; apply rsum_0). apply rsum_0.
    + intros i j Hi Hj. cbv zeta. rewrite resid_mmul, <- (Hq i j Hi Hj).
      unfold Rdiv. rewrite Rminus_diag_eq by reflexivity. ring.
Qed.

Lemma q_loss_unweighted_zero m n k V U W H :
  q_loss m n k false V U W H = 0 <-> reproduces m n k V W H.
Proof.
  unfold q_loss. split; intros Hq.
  - intros i j Hi Hj.
    assert (Hz := msum_zero m n _ (fun i j _ _ => Rle_0_sqr (resid k V W H i j)) Hq i j Hi Hj).
    cbv beta in Hz. apply Rsqr_0_uniq in Hz. rewrite resid_mmul in Hz. lra.
  - rewrite (msum_ext m n _ (fun _ _ => 0)).
    + unfold msum. rewrite (rsum_ext m _ (fun _ => 0)) by (intros; apply rsum_0). apply rsum_0.
    + intros i j Hi Hj. rewrite resid_mmul, <- (Hq i j Hi Hj). ring.
Qed.

Lemma calculate_Q_loss m n k V U W H :
  calculate_Q m n (resid k V W H) U = q_loss m n k true V U W H.
Proof. reflexivity. Qed.

(** ** Robust loss, one cell at a time *)

Lemma abs_div_pos r u : 0 < u -> Rabs (r / u) = Rabs r / u.
Proof.
  intros Hu. unfold Rdiv. rewrite Rabs_mult. rewrite (Rabs_right (/ u)); [reflexivity|].
  apply Rle_ge. left. apply Rinv_0_lt_compat, Hu.
Qed.

Lemma sqrt_ratio_gt1 alpha s : 0 < alpha -> alpha < s -> 1 < sqrt (s / alpha).
Proof.
  intros Ha Hs. rewrite <- sqrt_1. apply sqrt_lt_1; try lra.
  - apply Rlt_le, Rdiv_lt_0_compat; lra.
  - apply (Rmult_lt_reg_r alpha); [lra|]. unfold Rdiv. rewrite Rmult_assoc, Rinv_l by lra. lra.
Qed.

(** Facts about one cell with residual [r], uncertainty [u], cut-off [alpha]. *)
Lemma cell_robust r u alpha :
  0 < u -> 0 < alpha ->
  let s := Rabs r / u in
  alpha < s ->
  let ru := sqrt (s / alpha) * u in
  u < ru /\ 0 < ru /\ (Rabs (r / ru)) * (Rabs (r / ru)) = alpha * s /\ alpha < Rabs (r / ru).
Proof.
  intros Hu Ha s Hs ru.
  assert (Hq : 1 < sqrt (s / alpha)) by (apply sqrt_ratio_gt1; assumption).
  assert (Hru : u < ru) by (unfold ru; nra).
  assert (Hs0 : 0 < s) by lra.
  assert (Hsq : sqrt (s / alpha) * sqrt (s / alpha) = s / alpha).
  { apply sqrt_sqrt. apply Rlt_le, Rdiv_lt_0_compat; lra. }
  assert (Hrr : Rabs (r / ru) * Rabs (r / ru) = alpha * s).
  { rewrite abs_div_pos by lra.
    assert (Hr : Rabs r = s * u) by (unfold s; field; lra).
    rewrite Hr. unfold ru.
    replace (s * u / (sqrt (s / alpha) * u) * (s * u / (sqrt (s / alpha) * u)))
      with (s * s / (sqrt (s / alpha) * sqrt (s / alpha))) by (field; split; lra).
    rewrite Hsq. field. split; lra. }
  repeat split; try lra.
  pose proof (Rabs_pos (r / ru)) as Hp.
  destruct (Rlt_le_dec alpha (Rabs (r / ru))) as [|Hle]; [assumption|exfalso].
  assert (Rabs (r / ru) * Rabs (r / ru) <= alpha * alpha) by (apply Rmult_le_compat; lra).
  nra.
Qed.

Lemma robust_scaled_cases m n k alpha V U W H i j :
  posU m n U -> 0 < alpha -> (i < m)%nat -> (j < n)%nat ->
  let s := cell_resid k V U W H i j in
  Rsqr (robust_scaled k alpha V U W H i j) = robust_cell alpha s /\
  (s <= alpha -> updated_unc k alpha V U W H i j = U i j) /\
  (alpha < s -> U i j < updated_unc k alpha V U W H i j /\
     Rsqr (resid k V W H i j / updated_unc k alpha V U W H i j) = alpha * s).
Proof.
  intros HU Ha Hi Hj s. specialize (HU i j Hi Hj). cbv beta in HU.
  assert (Hs : scaled_resid k V U W H i j = s).
  { unfold scaled_resid, s, cell_resid. rewrite abs_div_pos by assumption. reflexivity. }
  destruct (Rlt_le_dec alpha s) as [Hlt|Hle].
  - destruct (cell_robust (resid k V W H i j) (U i j) alpha HU Ha Hlt) as (A & B & C & D).
    fold (cell_resid k V U W H i j) in A, B, C, D.
    change (Rabs (resid k V W H i j) / U i j) with s in A, B, C, D.
    assert (Hru : robust_unc k alpha V U W H i j = sqrt (s / alpha) * U i j).
    { unfold robust_unc. rewrite Hs. cbv zeta. destruct (Rle_dec _ 0) as [Hn|]; [lra|reflexivity]. }
    assert (Hrs : robust_scaled k alpha V U W H i j
                  = Rabs (resid k V W H i j / (sqrt (s / alpha) * U i j))).
    { unfold robust_scaled. rewrite Hs, Hru. cbv zeta.
      destruct (Rlt_dec alpha s); [reflexivity|lra]. }
    assert (Hup : updated_unc k alpha V U W H i j = sqrt (s / alpha) * U i j).
    { unfold updated_unc. rewrite Hrs, Hru. destruct (Rlt_dec alpha _); [reflexivity|lra]. }
    split; [|split].
    + rewrite Hrs. unfold Rsqr. rewrite C. unfold robust_cell. destruct (Rle_dec s alpha); lra.
    + intros; lra.
    + intros _. rewrite Hup. split; [assumption|]. rewrite Rsqr_abs. unfold Rsqr. exact C.
  - assert (Hrs : robust_scaled k alpha V U W H i j = s).
    { unfold robust_scaled. rewrite Hs. cbv zeta. destruct (Rlt_dec alpha s); [lra|reflexivity]. }
    split; [|split].
    + rewrite Hrs. unfold Rsqr, robust_cell. destruct (Rle_dec s alpha); lra.
    + intros _. unfold updated_unc. rewrite Hrs. destruct (Rlt_dec alpha s); [lra|reflexivity].
    + intros; lra.
Qed.

Lemma qr_loss_spec m n k alpha V U W H :
  posU m n U -> 0 < alpha ->
  qr_loss m n k alpha V U W H
  = msum m n (fun i j => robust_cell alpha (cell_resid k V U W H i j)).
Proof.
  intros HU Ha. unfold qr_loss. apply msum_ext. intros i j Hi Hj.
  apply (robust_scaled_cases m n k alpha V U W H i j HU Ha Hi Hj).
Qed.

Lemma cell_resid_nonneg m n k V U W H i j :
  posU m n U -> (i < m)%nat -> (j < n)%nat -> 0 <= cell_resid k V U W H i j.
Proof.
  intros HU Hi Hj. unfold cell_resid, Rdiv. apply Rmult_le_pos; [apply Rabs_pos|].
  left. apply Rinv_0_lt_compat. apply HU; assumption.
Qed.

Lemma robust_cell_bounds alpha s :
  0 < alpha -> 0 <= s -> 0 <= robust_cell alpha s <= s * s.
Proof.
  intros Ha Hs. unfold robust_cell. destruct (Rle_dec s alpha); nra.
Qed.

Lemma robust_cell_eq alpha s :
  0 < alpha -> 0 <= s -> robust_cell alpha s = s * s -> s <= alpha.
Proof.
  intros Ha Hs. unfold robust_cell. destruct (Rle_dec s alpha) as [|Hn]; [auto|].
  intros He. assert (alpha < s) by lra. nra.
Qed.

Lemma qr_le_q m n k alpha V U W H :
  posU m n U -> 0 < alpha ->
  0 <= qr_loss m n k alpha V U W H <= q_loss m n k true V U W H.
Proof.
  intros HU Ha. rewrite qr_loss_spec, q_loss_spec by assumption. split.
  - apply msum_nonneg. intros i j Hi Hj. apply robust_cell_bounds; [assumption|].
    eapply cell_resid_nonneg; eassumption.
  - apply msum_le. intros i j Hi Hj. apply robust_cell_bounds; [assumption|].
    eapply cell_resid_nonneg; eassumption.
Qed.

Lemma qr_eq_q_iff m n k alpha V U W H :
  posU m n U -> 0 < alpha ->
  qr_loss m n k alpha V U W H = q_loss m n k true V U W H <->
  (forall i j, (i < m)%nat -> (j < n)%nat -> cell_resid k V U W H i j <= alpha).
Proof.
  intros HU Ha. rewrite qr_loss_spec, q_loss_spec by assumption. split.
  - intros He i j Hi Hj.
    assert (Hc := msum_le_eq m n (fun i j => robust_cell alpha (cell_resid k V U W H i j))
      (fun i j => cell_resid k V U W H i j * cell_resid k V U W H i j)).
    cbv beta in Hc. apply robust_cell_eq; [assumption|eapply cell_resid_nonneg; eassumption|].
    apply Hc; try assumption.
    intros a b Hai Hbj. apply robust_cell_bounds; [assumption|eapply cell_resid_nonneg; eassumption].
  - intros Hs. apply msum_ext. intros i j Hi Hj. unfold robust_cell.
    destruct (Rle_dec _ alpha) as [|Hn]; [reflexivity|]. exfalso. apply Hn, Hs; assumption.
Qed.

Lemma updated_unc_spec m n k alpha V U W H :
  posU m n U -> 0 < alpha ->
  (forall i j, (i < m)%nat -> (j < n)%nat ->
     U i j <= updated_unc k alpha V U W H i j /\
     (updated_unc k alpha V U W H i j = U i j <-> cell_resid k V U W H i j <= alpha)) /\
  q_loss m n k true V (updated_unc k alpha V U W H) W H = qr_loss m n k alpha V U W H.
Proof.
  intros HU Ha. split.
  - intros i j Hi Hj.
    destruct (robust_scaled_cases m n k alpha V U W H i j HU Ha Hi Hj) as (_ & B & C).
    cbv zeta in B, C. destruct (Rlt_le_dec alpha (cell_resid k V U W H i j)) as [Hl|Hl].
    + destruct (C Hl) as [C1 _]. split; [lra|]. split; intros; lra.
    + rewrite (B Hl). split; [lra|]. split; auto.
  - rewrite qr_loss_spec by assumption. unfold q_loss. apply msum_ext. intros i j Hi Hj. cbv zeta.
    destruct (robust_scaled_cases m n k alpha V U W H i j HU Ha Hi Hj) as (_ & B & C).
    cbv zeta in B, C. unfold robust_cell.
    destruct (Rle_dec (cell_resid k V U W H i j) alpha) as [Hl|Hl].
    + rewrite (B Hl). unfold cell_resid. rewrite resid_mmul. apply sq_div_abs.
      specialize (HU i j Hi Hj). cbv beta in HU. lra.
    + apply (C ltac:(lra)).
Qed.

(** The compiled engine's robust loss is the Python one. *)
Lemma q_robust_cpu_eq m n k alpha V U W H :
  posU m n U -> 0 < alpha ->
  q_robust_cpu m n k alpha V U W H = qr_loss m n k alpha V U W H.
Proof.
  intros HU Ha. rewrite qr_loss_spec by assumption. unfold q_robust_cpu.
  apply msum_ext. intros i j Hi Hj. cbv zeta.
  specialize (HU i j Hi Hj). cbv beta in HU.
  rewrite (abs_div_pos _ (U i j)) by assumption.
  change (Rabs (resid k V W H i j) / U i j) with (cell_resid k V U W H i j).
  unfold robust_cell. destruct (Rlt_dec alpha _) as [Hl|Hl].
  - destruct (cell_robust (resid k V W H i j) (U i j) alpha HU Ha Hl) as (A & B & C & D).
    change (Rabs (resid k V W H i j) / U i j) with (cell_resid k V U W H i j) in *.
    destruct (Rle_dec _ alpha); [lra|]. exact C.
  - destruct (Rle_dec _ alpha); lra.
Qed.

(** ** Per-factor loss *)

Lemma msum_rsum_swap m n k (F : nat -> mat) :
  rsum k (fun f => msum m n (F f)) = msum m n (fun i j => rsum k (fun f => F f i j)).
Proof.
  unfold msum. rewrite rsum_swap. apply rsum_ext. intros i Hi. rewrite rsum_swap. reflexivity.
Qed.

Lemma q_factor_general m n k V U W H :
  rsum k (q_factor_raw m n k V U W H)
  = msum m n (fun i j =>
      Rsqr ((V i j - wh_floor k W H i j) / U i j) * (mmul k W H i j / wh_floor k W H i j)).
Proof.
  unfold q_factor_raw. rewrite msum_rsum_swap. apply msum_ext. intros i j Hi Hj.
  rewrite rsum_scal_l. f_equal. unfold Rdiv. rewrite rsum_scal_r. reflexivity.
Qed.

Lemma q_factor_sum m n k V U W H :
  (forall i j, (i < m)%nat -> (j < n)%nat -> 0 < rsum k (fun p => W i p * H p j)) ->
  rsum k (q_factor_raw m n k V U W H) = q_loss m n k true V U W H.
Proof.
  intros Hp. rewrite q_factor_general. unfold q_loss. apply msum_ext. intros i j Hi Hj.
  specialize (Hp i j Hi Hj). change (rsum k (fun p => W i p * H p j)) with (mmul k W H i j) in Hp.
  unfold wh_floor. destruct (Rle_dec (mmul k W H i j) 0); [lra|].
  replace (mmul k W H i j / mmul k W H i j) with 1 by (field; lra).
  rewrite Rmult_1_r. reflexivity.
Qed.

Lemma map_seq_sum k f (rnd : R -> R) e :
  (forall x, Rabs (rnd x - x) <= e) ->
  Rabs (lsum (map (fun i => rnd (f i)) (seq 0 k)) - rsum k f) <= INR k * e.
Proof.
  intros Hr. rewrite <- rsum_lsum. induction k as [|k IH].
  - cbn. rewrite Rminus_0_r, Rabs_R0. lra.
  - cbn [rsum]. rewrite S_INR.
    replace (rsum k (fun i => rnd (f i)) + rnd (f k) - (rsum k f + f k))
      with ((rsum k (fun i => rnd (f i)) - rsum k f) + (rnd (f k) - f k)) by ring.
    eapply Rle_trans; [apply Rabs_triang|]. specialize (Hr (f k)). lra.
Qed.

Lemma q_factor_rounded m n k V U W H rnd :
  (forall x, Rabs (rnd x - x) <= 5 / 10 ^ 5) ->
  (forall i j, (i < m)%nat -> (j < n)%nat -> 0 < rsum k (fun p => W i p * H p j)) ->
  length (q_factor rnd m n k V U W H) = k /\
  Rabs (lsum (q_factor rnd m n k V U W H) - q_loss m n k true V U W H) <= INR k * (5 / 10 ^ 5).
Proof.
  intros Hr Hp. split.
  - unfold q_factor. rewrite map_length, seq_length. reflexivity.
  - rewrite <- q_factor_sum by assumption. unfold q_factor. apply map_seq_sum. assumption.
Qed.

(** With a zero reconstruction the cell's loss is lost from the factor split. *)
Lemma q_factor_zero_cell V U :
  let W := (fun _ _ => 1) : mat in
  let H := (fun _ _ => 0) : mat in
  rsum 1 (q_factor_raw 1 1 1 V U W H) = 0 /\
  q_loss 1 1 1 true V U W H = Rsqr (V 0%nat 0%nat / U 0%nat 0%nat).
Proof.
  intros W H. rewrite q_factor_general. unfold q_loss, msum, resid, mmul, W, H, Rsqr. cbn.
  split; unfold Rdiv; ring_simplify; [ring|].
  replace (V 0%nat 0%nat - (0 + 1 * 0)) with (V 0%nat 0%nat) by ring. ring.
Qed.

Lemma q_factor_zero_refuted :
  exists (V U W H : mat),
    mall 1 1 (fun u => 0 < u) U /\ mall 1 1 (fun w => 0 <= w) W /\
    mall 1 1 (fun h => 0 <= h) H /\
    rsum 1 (q_factor_raw 1 1 1 V U W H) <> q_loss 1 1 1 true V U W H.
Proof.
  exists (fun _ _ => 5), (fun _ _ => 1), (fun _ _ => 1), (fun _ _ => 0).
  repeat split; try (intros i j _ _; lra).
  destruct (q_factor_zero_cell (fun _ _ => 5) (fun _ _ => 1)) as [Z1 Z2].
  rewrite Z1, Z2. unfold Rsqr. lra.
Qed.
