From Coq Require Import Reals Lra Lia List Bool ZArith Psatz.
From Verif Require Import Base Metrics_Model Metrics_Spec Metrics_Proofs LSNMF_Model.
Import ListNotations.
Open Scope R_scope.

Notation nonneg := (fun x : R => 0 <= x).
Notation pos := (fun x : R => 0 < x).

Lemma nzb_true x : nzb x = true <-> x <> 0.
Proof. unfold nzb. destruct (Req_EM_T x 0); split; intros; congruence. Qed.

Lemma all_nz_true m n D :
  all_nz m n D = true <-> (forall i j, (i < m)%nat -> (j < n)%nat -> D i j <> 0).
Proof.
  unfold all_nz. rewrite forallb_forall. split.
  - intros Hd i j Hi Hj. specialize (Hd i). rewrite in_seq in Hd. specialize (Hd ltac:(lia)).
    rewrite forallb_forall in Hd. apply nzb_true. apply Hd. apply in_seq. lia.
  - intros Hd i Hi. apply in_seq in Hi. apply forallb_forall. intros j Hj. apply in_seq in Hj.
    apply nzb_true. apply Hd; lia.
Qed.

Lemma all_nz_ext m n D D' : meq m n D D' -> all_nz m n D = all_nz m n D'.
Proof.
  intros He. apply eq_true_iff_eq. rewrite !all_nz_true. split; intros Hz i j Hi Hj.
  - rewrite <- He by assumption. auto.
  - rewrite He by assumption. auto.
Qed.

(** ** The scalar inequality behind the multiplicative update *)

(** Weighted Cauchy-Schwarz. *)
Lemma jensen k (p t : nat -> R) :
  (forall a, (a < k)%nat -> 0 <= p a) ->
  rsum k (fun a => p a * t a) * rsum k (fun a => p a * t a)
  <= rsum k p * rsum k (fun a => p a * (t a * t a)).
Proof.
  induction k as [|k IH]; intros Hp; cbn [rsum]; [lra|].
  specialize (IH ltac:(intros; apply Hp; lia)).
  assert (Hk : 0 <= p k) by (apply Hp; lia).
  assert (HP : 0 <= rsum k p) by (apply rsum_nonneg; intros; apply Hp; lia).
  assert (HT : 0 <= rsum k (fun a => p a * (t a * t a))).
  { apply rsum_nonneg. intros a Ha. apply Rmult_le_pos; [apply Hp; lia|nra]. }
  set (P := rsum k p) in *. set (S1 := rsum k (fun a => p a * t a)) in *.
  set (S2 := rsum k (fun a => p a * (t a * t a))) in *.
  destruct HP as [HP|HP].
  - assert (Hc : 0 <= P * (P * (t k * t k) - 2 * S1 * t k + S2)).
    { pose proof (Rle_0_sqr (P * t k - S1)) as Hs. unfold Rsqr in Hs.
      replace (P * (P * (t k * t k) - 2 * S1 * t k + S2))
        with ((P * t k - S1) * (P * t k - S1) + (P * S2 - S1 * S1)) by ring. lra. }
    assert (Hx : 0 <= P * (t k * t k) - 2 * S1 * t k + S2).
    { apply (Rmult_le_reg_l P); [assumption|]. rewrite Rmult_0_r. exact Hc. }
    assert (Hy : 0 <= p k * (P * (t k * t k) - 2 * S1 * t k + S2)) by (apply Rmult_le_pos; assumption).
    replace ((P + p k) * (S2 + p k * (t k * t k)))
      with ((S1 + p k * t k) * (S1 + p k * t k) + (P * S2 - S1 * S1)
            + p k * (P * (t k * t k) - 2 * S1 * t k + S2)) by ring. lra.
  - assert (Hz : S1 * S1 <= 0) by (rewrite <- HP in IH; lra).
    assert (Hs : S1 = 0) by (apply Rsqr_0_uniq; apply Rle_antisym; [exact Hz|apply Rle_0_sqr]).
    rewrite Hs, <- HP.
    assert (0 <= p k * S2) by (apply Rmult_le_pos; assumption).
    replace ((0 + p k) * (S2 + p k * (t k * t k))) with (p k * S2 + (0 + p k * t k) * (0 + p k * t k)) by ring.
    lra.
Qed.

(** One multiplicative step on one column (or row): [P i a = W_ia h_a],
    [t a] the relative change of [h_a]. *)
Lemma mult_step m k (w v : nat -> R) (P : nat -> nat -> R) (t : nat -> R) :
  (forall i, (i < m)%nat -> 0 <= w i) ->
  (forall i a, (i < m)%nat -> (a < k)%nat -> 0 <= P i a) ->
  (forall a, (a < k)%nat ->
     rsum m (fun i => w i * P i a * v i)
     = (1 + t a) * rsum m (fun i => w i * P i a * rsum k (P i))) ->
  rsum m (fun i => w i * ((v i - rsum k (fun a => P i a * (1 + t a)))
                          * (v i - rsum k (fun a => P i a * (1 + t a)))))
  + rsum k (fun a => t a * t a * rsum m (fun i => w i * P i a * rsum k (P i)))
  <= rsum m (fun i => w i * ((v i - rsum k (P i)) * (v i - rsum k (P i)))).
Proof.
  intros Hw HP Ht.
  set (wh := fun i => rsum k (P i)). set (s := fun i => rsum k (fun a => P i a * t a)).
  assert (Enew : forall i, rsum k (fun a => P i a * (1 + t a)) = wh i + s i).
  { intros i. unfold wh, s. rewrite <- rsum_plus. apply rsum_ext. intros; ring. }
  assert (E1 : rsum m (fun i => w i * ((v i - rsum k (fun a => P i a * (1 + t a)))
                          * (v i - rsum k (fun a => P i a * (1 + t a)))))
     = rsum m (fun i => w i * ((v i - wh i) * (v i - wh i)))
       - 2 * rsum m (fun i => w i * (v i - wh i) * s i)
       + rsum m (fun i => w i * (s i * s i))).
  { rewrite <- rsum_scal_l, <- rsum_minus, <- rsum_plus. apply rsum_ext. intros i Hi.
    rewrite Enew. ring. }
  assert (E2 : rsum m (fun i => w i * (v i - wh i) * s i)
     = rsum k (fun a => t a * t a * rsum m (fun i => w i * P i a * wh i))).
  { transitivity (rsum m (fun i => rsum k (fun a => t a * (w i * P i a * v i - w i * P i a * wh i)))).
    - apply rsum_ext. intros i Hi. unfold s. rewrite <- rsum_scal_l. apply rsum_ext. intros a Ha. ring.
    - rewrite rsum_swap. apply rsum_ext. intros a Ha. rewrite rsum_scal_l, rsum_minus.
      rewrite Ht by assumption. unfold wh. ring. }
  assert (E3 : rsum m (fun i => w i * (s i * s i))
     <= rsum k (fun a => t a * t a * rsum m (fun i => w i * P i a * wh i))).
  { apply Rle_trans with (rsum m (fun i => w i * (wh i * rsum k (fun a => P i a * (t a * t a))))).
    - apply rsum_le. intros i Hi. apply Rmult_le_compat_l; [apply Hw; assumption|].
      apply jensen. intros a Ha. apply HP; assumption.
    - apply Req_le. transitivity (rsum m (fun i => rsum k (fun a => t a * t a * (w i * P i a * wh i)))).
      + apply rsum_ext. intros i Hi. rewrite <- !rsum_scal_l. apply rsum_ext. intros a Ha. ring.
      + rewrite rsum_swap. apply rsum_ext. intros a Ha. rewrite rsum_scal_l. reflexivity. }
  unfold wh in E1, E2, E3. cbv beta in E1, E2, E3. rewrite E1, E2. lra.
Qed.

(** ** The weighted loss *)

Definition wloss (m n k : nat) (V We W H : mat) : R :=
  msum m n (fun i j => We i j * ((V i j - mmul k W H i j) * (V i j - mmul k W H i j))).

Lemma q_loss_wloss m n k V U W H :
  mall m n (fun u => u <> 0) U ->
  q_loss m n k true V U W H = wloss m n k V (weights U) W H.
Proof.
  intros HU. unfold q_loss, wloss. apply msum_ext. intros i j Hi Hj. cbv zeta.
  unfold resid, weights. specialize (HU i j Hi Hj). cbv beta in HU. field. assumption.
Qed.

Lemma weights_pos m n U : mall m n (fun u => u <> 0) U -> mall m n pos (weights U).
Proof.
  intros HU i j Hi Hj. unfold weights. specialize (HU i j Hi Hj). cbv beta in *.
  apply Rdiv_lt_0_compat; [lra|]. assert (0 < Rsqr (U i j)) by (apply Rsqr_pos_lt; assumption).
  unfold Rsqr in *. nra.
Qed.

(** Result of the profile step. *)
Lemma h_step_inv m n k V We W H H' :
  h_step m n k V We W H = Some H' ->
  (forall a j, (a < k)%nat -> (j < n)%nat -> h_den m k We W H a j <> 0) /\
  H' = fun a j => H a j * (h_num m V We W a j / h_den m k We W H a j).
Proof.
  unfold h_step. destruct (all_nz k n _) eqn:E; [|discriminate]. intros [= <-].
  split; [|reflexivity]. intros a j Ha Hj. exact (proj1 (all_nz_true _ _ _) E a j Ha Hj).
Qed.

Lemma w_step_inv m n k V We W H W' :
  w_step m n k V We W H = Some W' ->
  (forall i a, (i < m)%nat -> (a < k)%nat -> w_den n k We W H i a <> 0) /\
  W' = fun i a => W i a * (w_num n V We H i a / w_den n k We W H i a).
Proof.
  unfold w_step. destruct (all_nz m k _) eqn:E; [|discriminate]. intros [= <-].
  split; [|reflexivity]. intros i a Hi Ha. exact (proj1 (all_nz_true _ _ _) E i a Hi Ha).
Qed.

Lemma h_den_nonneg m n k We W H a j :
  mall m n nonneg We -> mall m k nonneg W -> mall k n nonneg H ->
  (a < k)%nat -> (j < n)%nat -> 0 <= h_den m k We W H a j.
Proof.
  intros He HW HH Ha Hj. unfold h_den. apply rsum_nonneg. intros i Hi.
  apply Rmult_le_pos; [apply HW; assumption|]. apply Rmult_le_pos; [apply He; assumption|].
  apply mmul_nonneg; intros p Hp; [apply HW|apply HH]; assumption.
Qed.

Lemma w_den_nonneg m n k We W H i a :
  mall m n nonneg We -> mall m k nonneg W -> mall k n nonneg H ->
  (i < m)%nat -> (a < k)%nat -> 0 <= w_den n k We W H i a.
Proof.
  intros He HW HH Hi Ha. unfold w_den. apply rsum_nonneg. intros j Hj.
  apply Rmult_le_pos; [|apply HH; assumption]. apply Rmult_le_pos; [apply He; assumption|].
  apply mmul_nonneg; intros p Hp; [apply HW|apply HH]; assumption.
Qed.

Lemma h_num_nonneg m n k V We W a j :
  mall m n nonneg V -> mall m n nonneg We -> mall m k nonneg W ->
  (a < k)%nat -> (j < n)%nat -> 0 <= h_num m V We W a j.
Proof.
  intros HV He HW Ha Hj. unfold h_num, wev. apply rsum_nonneg. intros i Hi.
  apply Rmult_le_pos; [apply HW; assumption|]. apply Rmult_le_pos; [apply He|apply HV]; assumption.
Qed.

Lemma w_num_nonneg m n k V We H i a :
  mall m n nonneg V -> mall m n nonneg We -> mall k n nonneg H ->
  (i < m)%nat -> (a < k)%nat -> 0 <= w_num n V We H i a.
Proof.
  intros HV He HH Hi Ha. unfold w_num, wev. apply rsum_nonneg. intros j Hj.
  apply Rmult_le_pos; [|apply HH; assumption]. apply Rmult_le_pos; [apply He|apply HV]; assumption.
Qed.

Lemma ratio_nonneg x y : 0 <= x -> 0 <= y -> y <> 0 -> 0 <= x / y.
Proof.
  intros Hx Hy Hn. unfold Rdiv. apply Rmult_le_pos; [assumption|]. left. apply Rinv_0_lt_compat. lra.
Qed.

Lemma h_step_nonneg m n k V We W H H' :
  mall m n nonneg V -> mall m n nonneg We -> mall m k nonneg W -> mall k n nonneg H ->
  h_step m n k V We W H = Some H' -> mall k n nonneg H'.
Proof.
  intros HV He HW HH Hs. apply h_step_inv in Hs. destruct Hs as [Hd ->].
  intros a j Ha Hj. apply Rmult_le_pos; [apply HH; assumption|]. apply ratio_nonneg.
  - eapply h_num_nonneg; eassumption.
  - eapply h_den_nonneg; eassumption.
  - apply Hd; assumption.
Qed.

Lemma w_step_nonneg m n k V We W H W' :
  mall m n nonneg V -> mall m n nonneg We -> mall m k nonneg W -> mall k n nonneg H ->
  w_step m n k V We W H = Some W' -> mall m k nonneg W'.
Proof.
  intros HV He HW HH Hs. apply w_step_inv in Hs. destruct Hs as [Hd ->].
  intros i a Hi Ha. apply Rmult_le_pos; [apply HW; assumption|]. apply ratio_nonneg.
  - eapply w_num_nonneg; eassumption.
  - eapply w_den_nonneg; eassumption.
  - apply Hd; assumption.
Qed.

Lemma ls_update_inv m n k V We hold W H st' :
  ls_update m n k V We hold (W, H) = Some st' ->
  exists H1 W1, st' = (W1, H1) /\
    (if hold then H1 = H else h_step m n k V We W H = Some H1) /\
    w_step m n k V We W H1 = Some W1.
Proof.
  unfold ls_update. destruct hold.
  - destruct (w_step m n k V We W H) as [W1|] eqn:E; [|discriminate].
    intros [= <-]. exists H, W1. auto.
  - destruct (h_step m n k V We W H) as [H1|] eqn:E; [|discriminate].
    destruct (w_step m n k V We W H1) as [W1|] eqn:E2; [|discriminate].
    intros [= <-]. exists H1, W1. auto.
Qed.

Lemma ls_update_nonneg m n k V We hold W H W' H' :
  mall m n nonneg V -> mall m n nonneg We -> mall m k nonneg W -> mall k n nonneg H ->
  ls_update m n k V We hold (W, H) = Some (W', H') ->
  mall m k nonneg W' /\ mall k n nonneg H'.
Proof.
  intros HV He HW HH Hs. apply ls_update_inv in Hs. destruct Hs as (H1 & W1 & [= -> ->] & Hh & Hw).
  assert (HH1 : mall k n nonneg H1).
  { destruct hold; [subst; assumption|]. exact (h_step_nonneg m n k V We W H H1 HV He HW HH Hh). }
  split; [|assumption]. exact (w_step_nonneg m n k V We W H1 W1 HV He HW HH1 Hw).
Qed.

Lemma ls_iter_nonneg m n k V We hold N : forall i0 W H W' H',
  mall m n nonneg V -> mall m n nonneg We -> mall m k nonneg W -> mall k n nonneg H ->
  ls_iter m n k V We hold i0 N (W, H) = Some (W', H') ->
  mall m k nonneg W' /\ mall k n nonneg H'.
Proof.
  induction N as [|N IH]; intros i0 W H W' H' HV He HW HH Hs; cbn [ls_iter] in Hs.
  - injection Hs as <- <-. auto.
  - destruct (ls_update m n k V We (hold i0) (W, H)) as [[W1 H1]|] eqn:E; [|discriminate].
    destruct (ls_update_nonneg _ _ _ _ _ _ _ _ _ _ HV He HW HH E) as [A B].
    exact (IH (S i0) W1 H1 W' H' HV He A B Hs).
Qed.

(** ** Strict positivity: nothing ever divides by zero *)

(** Every sample and every feature has at least one positive value. *)
Definition no_empty (m n : nat) (V : mat) : Prop :=
  (forall i, (i < m)%nat -> exists j, (j < n)%nat /\ 0 < V i j) /\
  (forall j, (j < n)%nat -> exists i, (i < m)%nat /\ 0 < V i j).

Lemma pos_nonneg m n A : mall m n pos A -> mall m n nonneg A.
Proof. intros Hp i j Hi Hj. left. apply Hp; assumption. Qed.

Lemma h_step_pos m n k V We W H :
  (0 < m)%nat -> (0 < k)%nat ->
  mall m n nonneg V -> no_empty m n V -> mall m n pos We -> mall m k pos W -> mall k n pos H ->
  exists H', h_step m n k V We W H = Some H' /\ mall k n pos H'.
Proof.
  intros Hm Hk HV [_ Hne] He HW HH.
  assert (Hd : forall a j, (a < k)%nat -> (j < n)%nat -> 0 < h_den m k We W H a j).
  { intros a j Ha Hj. unfold h_den. apply rsum_pos; [assumption|]. intros i Hi.
    apply Rmult_lt_0_compat; [apply HW; assumption|].
    apply Rmult_lt_0_compat; [apply He; assumption|].
    apply mmul_pos; [assumption| |]; intros p Hp; [apply HW|apply HH]; assumption. }
  unfold h_step. destruct (all_nz k n (h_den m k We W H)) eqn:E.
  - eexists. split; [reflexivity|]. intros a j Ha Hj.
    apply Rmult_lt_0_compat; [apply HH; assumption|].
    apply Rdiv_lt_0_compat; [|apply Hd; assumption].
    destruct (Hne j Hj) as (i & Hi & Hv). unfold h_num, wev.
    apply rsum_pos_strict with (i0 := i); [|assumption|].
    + intros i' Hi'. apply Rmult_le_pos; [left; apply HW; assumption|].
      apply Rmult_le_pos; [left; apply He|apply HV]; assumption.
    + apply Rmult_lt_0_compat; [apply HW; assumption|].
      apply Rmult_lt_0_compat; [apply He; assumption|assumption].
  - exfalso. assert (all_nz k n (h_den m k We W H) = true); [|congruence].
    apply all_nz_true. intros a j Ha Hj. specialize (Hd a j Ha Hj). lra.
Qed.

Lemma w_step_pos m n k V We W H :
  (0 < n)%nat -> (0 < k)%nat ->
  mall m n nonneg V -> no_empty m n V -> mall m n pos We -> mall m k pos W -> mall k n pos H ->
  exists W', w_step m n k V We W H = Some W' /\ mall m k pos W'.
Proof.
  intros Hn Hk HV [Hne _] He HW HH.
  assert (Hd : forall i a, (i < m)%nat -> (a < k)%nat -> 0 < w_den n k We W H i a).
  { intros i a Hi Ha. unfold w_den. apply rsum_pos; [assumption|]. intros j Hj.
    apply Rmult_lt_0_compat; [|apply HH; assumption].
    apply Rmult_lt_0_compat; [apply He; assumption|].
    apply mmul_pos; [assumption| |]; intros p Hp; [apply HW|apply HH]; assumption. }
  unfold w_step. destruct (all_nz m k (w_den n k We W H)) eqn:E.
  - eexists. split; [reflexivity|]. intros i a Hi Ha.
    apply Rmult_lt_0_compat; [apply HW; assumption|].
    apply Rdiv_lt_0_compat; [|apply Hd; assumption].
    destruct (Hne i Hi) as (j & Hj & Hv). unfold w_num, wev.
    apply rsum_pos_strict with (i0 := j); [|assumption|].
    + intros j' Hj'. apply Rmult_le_pos; [|left; apply HH; assumption].
      apply Rmult_le_pos; [left; apply He|apply HV]; assumption.
    + apply Rmult_lt_0_compat; [|apply HH; assumption].
      apply Rmult_lt_0_compat; [apply He; assumption|assumption].
  - exfalso. assert (all_nz m k (w_den n k We W H) = true); [|congruence].
    apply all_nz_true. intros i a Hi Ha. specialize (Hd i a Hi Ha). lra.
Qed.

Lemma ls_update_pos m n k V We hold W H :
  (0 < m)%nat -> (0 < n)%nat -> (0 < k)%nat ->
  mall m n nonneg V -> no_empty m n V -> mall m n pos We -> mall m k pos W -> mall k n pos H ->
  exists W' H', ls_update m n k V We hold (W, H) = Some (W', H') /\
    mall m k pos W' /\ mall k n pos H'.
Proof.
  intros Hm Hn Hk HV Hne He HW HH. unfold ls_update. destruct hold.
  - destruct (w_step_pos m n k V We W H) as (W' & E & Hp); try assumption.
    rewrite E. exists W', H. auto.
  - destruct (h_step_pos m n k V We W H) as (H' & E & Hp); try assumption. rewrite E.
    destruct (w_step_pos m n k V We W H') as (W' & E' & Hp'); try assumption.
    rewrite E'. exists W', H'. auto.
Qed.

Lemma ls_iter_pos m n k V We hold N : forall i0 W H,
  (0 < m)%nat -> (0 < n)%nat -> (0 < k)%nat ->
  mall m n nonneg V -> no_empty m n V -> mall m n pos We -> mall m k pos W -> mall k n pos H ->
  exists W' H', ls_iter m n k V We hold i0 N (W, H) = Some (W', H') /\
    mall m k pos W' /\ mall k n pos H'.
Proof.
  induction N as [|N IH]; intros i0 W H Hm Hn Hk HV Hne He HW HH; cbn [ls_iter].
  - exists W, H. auto.
  - destruct (ls_update_pos m n k V We (hold i0) W H) as (W1 & H1 & E & A & B); try assumption.
    rewrite E. apply IH; assumption.
Qed.

(** ** Zero locking *)

Lemma ls_update_zero m n k V We hold W H W' H' :
  ls_update m n k V We hold (W, H) = Some (W', H') ->
  (forall i a, W i a = 0 -> W' i a = 0) /\ (forall a j, H a j = 0 -> H' a j = 0).
Proof.
  intros Hs. apply ls_update_inv in Hs. destruct Hs as (H1 & W1 & [= -> ->] & Hh & Hw).
  apply w_step_inv in Hw. destruct Hw as [_ ->]. split.
  - intros i a Hz. rewrite Hz. ring.
  - intros a j Hz. destruct hold; [subst; assumption|].
    apply h_step_inv in Hh. destruct Hh as [_ ->]. rewrite Hz. ring.
Qed.

Lemma ls_iter_zero m n k V We hold N : forall i0 W H W' H',
  ls_iter m n k V We hold i0 N (W, H) = Some (W', H') ->
  (forall i a, W i a = 0 -> W' i a = 0) /\ (forall a j, H a j = 0 -> H' a j = 0).
Proof.
  induction N as [|N IH]; intros i0 W H W' H' Hs; cbn [ls_iter] in Hs.
  - injection Hs as <- <-. auto.
  - destruct (ls_update m n k V We (hold i0) (W, H)) as [[W1 H1]|] eqn:E; [|discriminate].
    apply ls_update_zero in E. destruct E as [A B]. apply IH in Hs. destruct Hs as [C D].
    split; intros; auto.
Qed.

(** ** Held profile *)

Lemma ls_iter_hold m n k V We hold N : forall i0 W H W' H',
  (forall i, (i0 <= i < i0 + N)%nat -> hold i = true) ->
  ls_iter m n k V We hold i0 N (W, H) = Some (W', H') -> H' = H.
Proof.
  induction N as [|N IH]; intros i0 W H W' H' Hh Hs; cbn [ls_iter] in Hs.
  - injection Hs as <- <-. reflexivity.
  - destruct (ls_update m n k V We (hold i0) (W, H)) as [[W1 H1]|] eqn:E; [|discriminate].
    apply ls_update_inv in E. destruct E as (H2 & W2 & [= <- <-] & A & _).
    rewrite (Hh i0) in A by lia. subst H1. eapply IH; [|exact Hs]. intros i Hi. apply Hh. lia.
Qed.

(** ** Monotone loss *)

Lemma h_step_loss m n k V We W H H' :
  mall m n nonneg We -> mall m k nonneg W -> mall k n nonneg H ->
  h_step m n k V We W H = Some H' ->
  wloss m n k V We W H'
  + rsum n (fun j => rsum k (fun a =>
      let t := h_num m V We W a j / h_den m k We W H a j - 1 in
      t * t * (H a j * h_den m k We W H a j)))
  <= wloss m n k V We W H.
Proof.
  intros He HW HH Hs. apply h_step_inv in Hs. destruct Hs as [Hd ->].
  unfold wloss, msum.
  rewrite (rsum_swap m n (fun i j => We i j * ((V i j - mmul k W H i j) * (V i j - mmul k W H i j)))).
  rewrite rsum_swap. rewrite <- rsum_plus. apply rsum_le. intros j Hj.
  set (t := fun a => h_num m V We W a j / h_den m k We W H a j - 1).
  set (P := fun i a => W i a * H a j).
  assert (HD : forall a, (a < k)%nat ->
     rsum m (fun i => We i j * P i a * rsum k (P i)) = H a j * h_den m k We W H a j).
  { intros a Ha. unfold h_den. rewrite <- rsum_scal_l. apply rsum_ext. intros i Hi.
    unfold mmul, P. ring. }
  pose proof (mult_step m k (fun i => We i j) (fun i => V i j) P t) as Hm. cbv beta in Hm.
  assert (A1 : forall i, (i < m)%nat -> 0 <= We i j) by (intros; apply He; assumption).
  assert (A2 : forall i a, (i < m)%nat -> (a < k)%nat -> 0 <= P i a).
  { intros i a Hi Ha. unfold P. apply Rmult_le_pos; [apply HW|apply HH]; assumption. }
  assert (A3 : forall a, (a < k)%nat ->
     rsum m (fun i => We i j * P i a * V i j)
     = (1 + t a) * rsum m (fun i => We i j * P i a * rsum k (P i))).
  { intros a Ha. rewrite HD by assumption.
    transitivity (H a j * h_num m V We W a j).
    - unfold h_num. rewrite <- rsum_scal_l. apply rsum_ext. intros i Hi. unfold P, wev. ring.
    - unfold t. specialize (Hd a j Ha Hj). field. assumption. }
  specialize (Hm A1 A2 A3).
  eapply Rle_trans; [|eapply Rle_trans; [exact Hm|]].
  - apply Rplus_le_compat.
    + apply Req_le. apply rsum_ext. intros i Hi.
      replace (mmul k W (fun a j0 => H a j0 * (h_num m V We W a j0 / h_den m k We W H a j0)) i j)
        with (rsum k (fun a => P i a * (1 + t a))); [reflexivity|].
      unfold mmul. apply rsum_ext. intros a Ha. unfold P, t. ring.
    + apply Req_le. apply rsum_ext. intros a Ha. cbv zeta. rewrite HD by assumption. reflexivity.
  - apply Req_le. apply rsum_ext. intros i Hi. reflexivity.
Qed.

Lemma w_step_loss m n k V We W H W' :
  mall m n nonneg We -> mall m k nonneg W -> mall k n nonneg H ->
  w_step m n k V We W H = Some W' ->
  wloss m n k V We W' H
  + rsum m (fun i => rsum k (fun a =>
      let t := w_num n V We H i a / w_den n k We W H i a - 1 in
      t * t * (W i a * w_den n k We W H i a)))
  <= wloss m n k V We W H.
Proof.
  intros He HW HH Hs. apply w_step_inv in Hs. destruct Hs as [Hd ->].
  unfold wloss, msum. rewrite <- rsum_plus. apply rsum_le. intros i Hi.
  set (t := fun a => w_num n V We H i a / w_den n k We W H i a - 1).
  set (P := fun j a => W i a * H a j).
  assert (HD : forall a, (a < k)%nat ->
     rsum n (fun j => We i j * P j a * rsum k (P j)) = W i a * w_den n k We W H i a).
  { intros a Ha. unfold w_den. rewrite <- rsum_scal_l. apply rsum_ext. intros j Hj.
    unfold mmul, P. ring. }
  pose proof (mult_step n k (fun j => We i j) (fun j => V i j) P t) as Hm. cbv beta in Hm.
  assert (A1 : forall j, (j < n)%nat -> 0 <= We i j) by (intros; apply He; assumption).
  assert (A2 : forall j a, (j < n)%nat -> (a < k)%nat -> 0 <= P j a).
  { intros j a Hj Ha. unfold P. apply Rmult_le_pos; [apply HW|apply HH]; assumption. }
  assert (A3 : forall a, (a < k)%nat ->
     rsum n (fun j => We i j * P j a * V i j)
     = (1 + t a) * rsum n (fun j => We i j * P j a * rsum k (P j))).
  { intros a Ha. rewrite HD by assumption.
    transitivity (W i a * w_num n V We H i a).
    - unfold w_num. rewrite <- rsum_scal_l. apply rsum_ext. intros j Hj. unfold P, wev. ring.
    - unfold t. specialize (Hd i a Hi Ha). field. assumption. }
  specialize (Hm A1 A2 A3).
  eapply Rle_trans; [|eapply Rle_trans; [exact Hm|]].
  - apply Rplus_le_compat.
    + apply Req_le. apply rsum_ext. intros j Hj.
      replace (mmul k (fun i0 a => W i0 a * (w_num n V We H i0 a / w_den n k We W H i0 a)) H i j)
        with (rsum k (fun a => P j a * (1 + t a))); [reflexivity|].
      unfold mmul. apply rsum_ext. intros a Ha. unfold P, t. ring.
    + apply Req_le. apply rsum_ext. intros a Ha. cbv zeta. rewrite HD by assumption. reflexivity.
  - apply Req_le. apply rsum_ext. intros j Hj. reflexivity.
Qed.

Lemma slack_nonneg m k (D X : mat) (t : mat) :
  mall m k nonneg X -> mall m k nonneg D ->
  0 <= rsum m (fun i => rsum k (fun a => t i a * t i a * (X i a * D i a))).
Proof.
  intros HX HD. apply rsum_nonneg. intros i Hi. apply rsum_nonneg. intros a Ha.
  apply Rmult_le_pos; [apply Rle_0_sqr|]. apply Rmult_le_pos; [apply HX|apply HD]; assumption.
Qed.

Lemma ls_update_loss m n k V We hold W H W' H' :
  mall m n nonneg V -> mall m n nonneg We -> mall m k nonneg W -> mall k n nonneg H ->
  ls_update m n k V We hold (W, H) = Some (W', H') ->
  wloss m n k V We W' H' <= wloss m n k V We W H.
Proof.
  intros HV He HW HH Hs. apply ls_update_inv in Hs. destruct Hs as (H1 & W1 & [= -> ->] & Hh & Hw).
  assert (HH1 : mall k n nonneg H1).
  { destruct hold; [subst; assumption|]. exact (h_step_nonneg m n k V We W H H1 HV He HW HH Hh). }
  assert (L1 : wloss m n k V We W H1 <= wloss m n k V We W H).
  { destruct hold; [subst; lra|].
    pose proof (h_step_loss m n k V We W H H1 He HW HH Hh) as L.
    assert (0 <= rsum n (fun j => rsum k (fun a =>
      let t := h_num m V We W a j / h_den m k We W H a j - 1 in
      t * t * (H a j * h_den m k We W H a j)))); [|lra].
    apply rsum_nonneg. intros j Hj. apply rsum_nonneg. intros a Ha. cbv zeta.
    apply Rmult_le_pos; [apply Rle_0_sqr|]. apply Rmult_le_pos; [apply HH; assumption|].
    eapply h_den_nonneg; eassumption. }
  pose proof (w_step_loss m n k V We W H1 W1 He HW HH1 Hw) as L.
  assert (0 <= rsum m (fun i => rsum k (fun a =>
      let t := w_num n V We H1 i a / w_den n k We W H1 i a - 1 in
      t * t * (W i a * w_den n k We W H1 i a)))); [|lra].
  apply rsum_nonneg. intros i Hi. apply rsum_nonneg. intros a Ha. cbv zeta.
  apply Rmult_le_pos; [apply Rle_0_sqr|]. apply Rmult_le_pos; [apply HW; assumption|].
  eapply w_den_nonneg; eassumption.
Qed.

(** If the loss does not change, nothing changes. *)
Lemma slack_zero m k (D X t : mat) :
  mall m k nonneg X -> mall m k pos D ->
  rsum m (fun i => rsum k (fun a => t i a * t i a * (X i a * D i a))) = 0 ->
  forall i a, (i < m)%nat -> (a < k)%nat -> X i a * (1 + t i a) = X i a.
Proof.
  intros HX HD Hz i a Hi Ha.
  assert (Hall : forall i a, (i < m)%nat -> (a < k)%nat -> 0 <= t i a * t i a * (X i a * D i a)).
  { intros i' a' Hi' Ha'. apply Rmult_le_pos; [apply Rle_0_sqr|].
    apply Rmult_le_pos; [apply HX|left; apply HD]; assumption. }
  assert (Hrow := rsum_nonneg_zero m _ (fun i Hi => rsum_nonneg k _ (fun a Ha => Hall i a Hi Ha)) Hz i Hi).
  assert (Hc := rsum_nonneg_zero k _ (fun a Ha => Hall i a Hi Ha) Hrow a Ha). cbv beta in Hc.
  specialize (HD i a Hi Ha). cbv beta in HD.
  apply Rmult_integral in Hc. destruct Hc as [Hc|Hc].
  - assert (t i a = 0) by nra. rewrite H. ring.
  - apply Rmult_integral in Hc. destruct Hc as [Hc|Hc]; [rewrite Hc; ring|lra].
Qed.

Lemma ls_update_stationary m n k V We hold W H W' H' :
  mall m n nonneg V -> mall m n nonneg We -> mall m k nonneg W -> mall k n nonneg H ->
  ls_update m n k V We hold (W, H) = Some (W', H') ->
  wloss m n k V We W' H' = wloss m n k V We W H ->
  meq m k W' W /\ meq k n H' H.
Proof.
  intros HV He HW HH Hs Heq. pose proof Hs as Hs0.
  apply ls_update_inv in Hs. destruct Hs as (H1 & W1 & [= -> ->] & Hh & Hw).
  assert (HH1 : mall k n nonneg H1).
  { destruct hold; [subst; assumption|]. exact (h_step_nonneg m n k V We W H H1 HV He HW HH Hh). }
  pose proof (w_step_loss m n k V We W H1 W1 He HW HH1 Hw) as Lw.
  destruct (w_step_inv _ _ _ _ _ _ _ _ Hw) as [Hdw HW1].
  set (tw := fun i a => w_num n V We H1 i a / w_den n k We W H1 i a - 1).
  assert (Sw : 0 <= rsum m (fun i => rsum k (fun a => tw i a * tw i a * (W i a * w_den n k We W H1 i a)))).
  { apply slack_nonneg; [assumption|]. intros i a Hi Ha. eapply w_den_nonneg; eassumption. }
  change (rsum m (fun i => rsum k (fun a => let t := w_num n V We H1 i a / w_den n k We W H1 i a - 1 in
      t * t * (W i a * w_den n k We W H1 i a)))) with
    (rsum m (fun i => rsum k (fun a => tw i a * tw i a * (W i a * w_den n k We W H1 i a)))) in Lw.
  assert (Hpw : mall m k pos (w_den n k We W H1)).
  { intros i a Hi Ha. pose proof (w_den_nonneg m n k We W H1 i a He HW HH1 Hi Ha).
    specialize (Hdw i a Hi Ha). lra. }
  destruct hold.
  - subst H1. split; [|intros ? ? _ _; reflexivity].
    assert (Z : rsum m (fun i => rsum k (fun a => tw i a * tw i a * (W i a * w_den n k We W H i a))) = 0) by lra.
    intros i a Hi Ha. rewrite HW1. rewrite <- (slack_zero m k _ W tw HW Hpw Z i a Hi Ha) at 2.
    unfold tw. ring.
  - pose proof (h_step_loss m n k V We W H H1 He HW HH Hh) as Lh.
    destruct (h_step_inv _ _ _ _ _ _ _ _ Hh) as [Hdh HH1e].
    set (th := fun j a => h_num m V We W a j / h_den m k We W H a j - 1).
    set (X := fun j a => H a j). set (D := fun j a => h_den m k We W H a j).
    change (rsum n (fun j => rsum k (fun a => let t := h_num m V We W a j / h_den m k We W H a j - 1 in
      t * t * (H a j * h_den m k We W H a j)))) with
      (rsum n (fun j => rsum k (fun a => th j a * th j a * (X j a * D j a)))) in Lh.
    assert (HX : mall n k nonneg X) by (intros j a Hj Ha; apply HH; assumption).
    assert (HD : mall n k pos D).
    { intros j a Hj Ha. unfold D. pose proof (h_den_nonneg m n k We W H a j He HW HH Ha Hj).
      specialize (Hdh a j Ha Hj). lra. }
    assert (Sh : 0 <= rsum n (fun j => rsum k (fun a => th j a * th j a * (X j a * D j a)))).
    { apply slack_nonneg; [assumption|]. apply pos_nonneg. assumption. }
    assert (Zw : rsum m (fun i => rsum k (fun a => tw i a * tw i a * (W i a * w_den n k We W H1 i a))) = 0) by lra.
    assert (Zh : rsum n (fun j => rsum k (fun a => th j a * th j a * (X j a * D j a))) = 0) by lra.
    split.
    + intros i a Hi Ha. rewrite HW1. rewrite <- (slack_zero m k _ W tw HW Hpw Zw i a Hi Ha) at 2.
      unfold tw. ring.
    + intros a j Ha Hj. rewrite HH1e. pose proof (slack_zero n k D X th HX HD Zh j a Hj Ha) as E.
      unfold X, th in E. rewrite <- E at 2. ring.
Qed.

Lemma ls_iter_loss m n k V We hold N : forall i0 W H W' H',
  mall m n nonneg V -> mall m n nonneg We -> mall m k nonneg W -> mall k n nonneg H ->
  ls_iter m n k V We hold i0 N (W, H) = Some (W', H') ->
  wloss m n k V We W' H' <= wloss m n k V We W H.
Proof.
  induction N as [|N IH]; intros i0 W H W' H' HV He HW HH Hs; cbn [ls_iter] in Hs.
  - injection Hs as <- <-. lra.
  - destruct (ls_update m n k V We (hold i0) (W, H)) as [[W1 H1]|] eqn:E; [|discriminate].
    destruct (ls_update_nonneg _ _ _ _ _ _ _ _ _ _ HV He HW HH E) as [A B].
    pose proof (ls_update_loss _ _ _ _ _ _ _ _ _ _ HV He HW HH E).
    pose proof (IH (S i0) W1 H1 W' H' HV He A B Hs). lra.
Qed.

(** In terms of the reported Q. *)
Lemma ls_iter_q m n k V U hold N i0 W H W' H' :
  mall m n nonneg V -> mall m n (fun u => u <> 0) U -> mall m k nonneg W -> mall k n nonneg H ->
  ls_iter m n k V (weights U) hold i0 N (W, H) = Some (W', H') ->
  q_loss m n k true V U W' H' <= q_loss m n k true V U W H.
Proof.
  intros HV HU HW HH Hs. rewrite !q_loss_wloss by assumption.
  exact (ls_iter_loss m n k V (weights U) hold N i0 W H W' H' HV
           (pos_nonneg _ _ _ (weights_pos m n U HU)) HW HH Hs).
Qed.

Lemma ls_update_q_stationary m n k V U hold W H W' H' :
  mall m n nonneg V -> mall m n (fun u => u <> 0) U -> mall m k nonneg W -> mall k n nonneg H ->
  ls_update m n k V (weights U) hold (W, H) = Some (W', H') ->
  q_loss m n k true V U W' H' = q_loss m n k true V U W H ->
  meq m k W' W /\ meq k n H' H.
Proof.
  intros HV HU HW HH Hs Hq. rewrite !q_loss_wloss in Hq by assumption.
  exact (ls_update_stationary m n k V (weights U) hold W H W' H' HV
           (pos_nonneg _ _ _ (weights_pos m n U HU)) HW HH Hs Hq).
Qed.

(** ** Extensionality of the update in the entries inside the size *)

Lemma h_num_ext m n k V We W V' We' W' :
  meq m n V V' -> meq m n We We' -> meq m k W W' ->
  meq k n (h_num m V We W) (h_num m V' We' W').
Proof.
  intros A B C a j Ha Hj. unfold h_num, wev. apply rsum_ext. intros i Hi.
  rewrite A, B, C by assumption. reflexivity.
Qed.

Lemma h_den_ext m n k We W H We' W' H' :
  meq m n We We' -> meq m k W W' -> meq k n H H' ->
  meq k n (h_den m k We W H) (h_den m k We' W' H').
Proof.
  intros A B C a j Ha Hj. unfold h_den. apply rsum_ext. intros i Hi.
  rewrite A, B by assumption.
  rewrite (mmul_ext k W W' H H' i j); [reflexivity| |]; intros p Hp; [apply B|apply C]; assumption.
Qed.

Lemma w_num_ext m n k V We H V' We' H' :
  meq m n V V' -> meq m n We We' -> meq k n H H' ->
  meq m k (w_num n V We H) (w_num n V' We' H').
Proof.
  intros A B C i a Hi Ha. unfold w_num, wev. apply rsum_ext. intros j Hj.
  rewrite A, B, C by assumption. reflexivity.
Qed.

Lemma w_den_ext m n k We W H We' W' H' :
  meq m n We We' -> meq m k W W' -> meq k n H H' ->
  meq m k (w_den n k We W H) (w_den n k We' W' H').
Proof.
  intros A B C i a Hi Ha. unfold w_den. apply rsum_ext. intros j Hj.
  rewrite A, C by assumption.
  rewrite (mmul_ext k W W' H H' i j); [reflexivity| |]; intros p Hp; [apply B|apply C]; assumption.
Qed.

(** Two optional states related entrywise. *)
Definition orel (R : mat * mat -> mat * mat -> Prop) (x y : option (mat * mat)) : Prop :=
  match x, y with
  | None, None => True
  | Some a, Some b => R a b
  | _, _ => False
  end.

Lemma ls_iter_rel m n k V We V' We' hold (R : mat * mat -> mat * mat -> Prop) :
  (forall h st st', R st st' ->
     orel R (ls_update m n k V We h st) (ls_update m n k V' We' h st')) ->
  forall N i0 st st', R st st' ->
    orel R (ls_iter m n k V We hold i0 N st) (ls_iter m n k V' We' hold i0 N st').
Proof.
  intros Hst. induction N as [|N IH]; intros i0 st st' Hr; cbn [ls_iter]; [exact Hr|].
  specialize (Hst (hold i0) st st' Hr).
  destruct (ls_update m n k V We (hold i0) st), (ls_update m n k V' We' (hold i0) st');
    cbn in Hst; try contradiction; [|exact I].
  apply IH. exact Hst.
Qed.

(** ** Symmetries: permutations and units *)

(** [V'] is [V] with samples permuted by [sr], features by [sf], factors by
    [sk], and units changed by [d] (per sample) and [c] (per feature). *)
Section Symmetry.
  Context (m n k : nat) (sr sf sk : nat -> nat) (d c : nat -> R).
  Context (Hsr : bij m sr) (Hsf : bij n sf) (Hsk : bij k sk).
  Context (Hd : forall i, (i < m)%nat -> 0 < d i) (Hc : forall j, (j < n)%nat -> 0 < c j).
  Context (V We V' We' : mat).
  Context (HV : forall i j, (i < m)%nat -> (j < n)%nat -> V' i j = d i * c j * V (sr i) (sf j)).
  Context (HWe : forall i j, (i < m)%nat -> (j < n)%nat ->
             We' i j = We (sr i) (sf j) / (d i * c j * (d i * c j))).

  Definition sym (st st' : mat * mat) : Prop :=
    (forall i a, (i < m)%nat -> (a < k)%nat -> fst st' i a = d i * fst st (sr i) (sk a)) /\
    (forall a j, (a < k)%nat -> (j < n)%nat -> snd st' a j = c j * snd st (sk a) (sf j)).

  Lemma sym_mmul W H W' H' i j :
    sym (W, H) (W', H') -> (i < m)%nat -> (j < n)%nat ->
    mmul k W' H' i j = d i * c j * mmul k W H (sr i) (sf j).
  Proof.
    intros [HW HH] Hi Hj. cbn in HW, HH. unfold mmul.
    rewrite <- (rsum_reindex k sk (fun p => W (sr i) p * H p (sf j)) Hsk).
    rewrite <- rsum_scal_l. apply rsum_ext. intros p Hp. rewrite HW, HH by assumption. ring.
  Qed.

  Lemma sym_h_den W H W' H' a j :
    sym (W, H) (W', H') -> (a < k)%nat -> (j < n)%nat ->
    h_den m k We' W' H' a j = h_den m k We W H (sk a) (sf j) / c j.
  Proof.
    intros Hs Ha Hj. unfold h_den.
    rewrite <- (rsum_reindex m sr (fun i => W i (sk a) * (We i (sf j) * mmul k W H i (sf j))) Hsr).
    unfold Rdiv. rewrite <- rsum_scal_r. apply rsum_ext. intros i Hi.
    rewrite (sym_mmul W H W' H' i j Hs Hi Hj), HWe by assumption.
    destruct Hs as [HW _]. cbn in HW. rewrite HW by assumption.
    specialize (Hd i Hi). specialize (Hc j Hj). field. split; lra.
  Qed.

  Lemma sym_h_num W W' H H' a j :
    sym (W, H) (W', H') -> (a < k)%nat -> (j < n)%nat ->
    h_num m V' We' W' a j = h_num m V We W (sk a) (sf j) / c j.
  Proof.
    intros Hs Ha Hj. unfold h_num, wev.
    rewrite <- (rsum_reindex m sr (fun i => W i (sk a) * (We i (sf j) * V i (sf j))) Hsr).
    unfold Rdiv. rewrite <- rsum_scal_r. apply rsum_ext. intros i Hi.
    destruct Hs as [HW _]. cbn in HW. rewrite HW, HWe, HV by assumption.
    specialize (Hd i Hi). specialize (Hc j Hj). field. split; lra.
  Qed.

  Lemma sym_w_den W H W' H' i a :
    sym (W, H) (W', H') -> (i < m)%nat -> (a < k)%nat ->
    w_den n k We' W' H' i a = w_den n k We W H (sr i) (sk a) / d i.
  Proof.
    intros Hs Hi Ha. unfold w_den.
    rewrite <- (rsum_reindex n sf (fun j => We (sr i) j * mmul k W H (sr i) j * H (sk a) j) Hsf).
    unfold Rdiv. rewrite <- rsum_scal_r. apply rsum_ext. intros j Hj.
    rewrite (sym_mmul W H W' H' i j Hs Hi Hj), HWe by assumption.
    destruct Hs as [_ HH]. cbn in HH. rewrite HH by assumption.
    specialize (Hd i Hi). specialize (Hc j Hj). field. split; lra.
  Qed.

  Lemma sym_w_num W H W' H' i a :
    sym (W, H) (W', H') -> (i < m)%nat -> (a < k)%nat ->
    w_num n V' We' H' i a = w_num n V We H (sr i) (sk a) / d i.
  Proof.
    intros Hs Hi Ha. unfold w_num, wev.
    rewrite <- (rsum_reindex n sf (fun j => We (sr i) j * V (sr i) j * H (sk a) j) Hsf).
    unfold Rdiv. rewrite <- rsum_scal_r. apply rsum_ext. intros j Hj.
    destruct Hs as [_ HH]. cbn in HH. rewrite HH, HWe, HV by assumption.
    specialize (Hd i Hi). specialize (Hc j Hj). field. split; lra.
  Qed.

  Lemma bij_surj q s : bij q s -> forall y, (y < q)%nat -> exists x, (x < q)%nat /\ s x = y.
  Proof.
    intros Hb y Hy. pose proof (bij_perm q s Hb) as Hp.
    assert (Hin : In y (map s (seq 0 q))).
    { apply (Permutation.Permutation_in y (Permutation.Permutation_sym Hp)). apply in_seq. lia. }
    apply in_map_iff in Hin. destruct Hin as (x & Hx & Hin). apply in_seq in Hin.
    exists x. split; [lia|assumption].
  Qed.

  Lemma all_nz_sym p q (s1 s2 : nat -> nat) (D D' : mat) (e : nat -> nat -> R) :
    bij p s1 -> bij q s2 ->
    (forall i j, (i < p)%nat -> (j < q)%nat -> 0 < e i j) ->
    (forall i j, (i < p)%nat -> (j < q)%nat -> D' i j = D (s1 i) (s2 j) / e i j) ->
    all_nz p q D = all_nz p q D'.
  Proof.
    intros B1 B2 He HD. apply eq_true_iff_eq. rewrite !all_nz_true. split; intros Hz i j Hi Hj.
    - rewrite HD by assumption. unfold Rdiv. apply Rmult_integral_contrapositive. split.
      + apply Hz; [apply B1|apply B2]; assumption.
      + apply Rinv_neq_0_compat. specialize (He i j Hi Hj). lra.
    - destruct (bij_surj p s1 B1 i Hi) as (x & Hx & <-).
      destruct (bij_surj q s2 B2 j Hj) as (y & Hy & <-).
      specialize (Hz x y Hx Hy). rewrite HD in Hz by assumption. intros E. apply Hz. rewrite E.
      unfold Rdiv. ring.
  Qed.

  Lemma sym_step h st st' :
    sym st st' -> orel sym (ls_update m n k V We h st) (ls_update m n k V' We' h st').
  Proof.
    destruct st as [W H], st' as [W' H']. intros Hs. unfold ls_update.
    assert (Hh : match (if h then Some H else h_step m n k V We W H),
                       (if h then Some H' else h_step m n k V' We' W' H') with
                 | Some H1, Some H1' => sym (W, H1) (W', H1')
                 | None, None => True
                 | _, _ => False
                 end).
    { destruct h; [exact Hs|]. unfold h_step.
      rewrite <- (all_nz_sym k n sk sf (h_den m k We W H) (h_den m k We' W' H') (fun _ j => c j) Hsk Hsf);
        [|intros; apply Hc; assumption|intros; apply sym_h_den; assumption].
      destruct (all_nz k n (h_den m k We W H)) eqn:E; [|exact I].
      rewrite all_nz_true in E.
      split; cbn; [apply Hs|]. intros a j Ha Hj.
      rewrite (sym_h_den W H W' H' a j Hs Ha Hj), (sym_h_num W W' H H' a j Hs Ha Hj).
      destruct Hs as [_ HH]. cbn in HH. rewrite HH by assumption.
      assert (h_den m k We W H (sk a) (sf j) <> 0)
        by (apply E; [apply Hsk|apply Hsf]; assumption).
      specialize (Hc j Hj). field. split; [assumption|lra]. }
    destruct (if h then Some H else h_step m n k V We W H) as [H1|],
             (if h then Some H' else h_step m n k V' We' W' H') as [H1'|];
      try contradiction; [|exact I].
    unfold w_step.
    rewrite <- (all_nz_sym m k sr sk (w_den n k We W H1) (w_den n k We' W' H1') (fun i _ => d i) Hsr Hsk);
        [|intros; apply Hd; assumption|intros; apply sym_w_den; assumption].
    destruct (all_nz m k (w_den n k We W H1)) eqn:E; [|exact I]. rewrite all_nz_true in E.
    split; cbn; [|apply Hh]. intros i a Hi Ha.
    rewrite (sym_w_den W H1 W' H1' i a Hh Hi Ha), (sym_w_num W H1 W' H1' i a Hh Hi Ha).
    destruct Hh as [HW _]. cbn in HW. rewrite HW by assumption.
    assert (w_den n k We W H1 (sr i) (sk a) <> 0)
      by (apply E; [apply Hsr|apply Hsk]; assumption).
    specialize (Hd i Hi). field. split; [assumption|lra].
  Qed.

  Lemma sym_iter hold N i0 st st' :
    sym st st' ->
    orel sym (ls_iter m n k V We hold i0 N st) (ls_iter m n k V' We' hold i0 N st').
  Proof. apply ls_iter_rel. intros. apply sym_step. assumption. Qed.

  Lemma sym_wloss W H W' H' :
    sym (W, H) (W', H') -> wloss m n k V' We' W' H' = wloss m n k V We W H.
  Proof.
    intros Hs. unfold wloss, msum.
    rewrite <- (rsum_reindex m sr (fun i => rsum n (fun j =>
       We i j * ((V i j - mmul k W H i j) * (V i j - mmul k W H i j)))) Hsr).
    apply rsum_ext. intros i Hi.
    rewrite <- (rsum_reindex n sf (fun j => We (sr i) j * ((V (sr i) j - mmul k W H (sr i) j)
       * (V (sr i) j - mmul k W H (sr i) j))) Hsf).
    apply rsum_ext. intros j Hj.
    rewrite (sym_mmul W H W' H' i j Hs Hi Hj), HWe, HV by assumption.
    specialize (Hd i Hi). specialize (Hc j Hj). field. split; lra.
  Qed.
End Symmetry.

Lemma q_loss_sym m n k sr sf sk d c V U V' U' W H W' H' :
  bij m sr -> bij n sf -> bij k sk ->
  (forall i, (i < m)%nat -> 0 < d i) -> (forall j, (j < n)%nat -> 0 < c j) ->
  mall m n (fun u => u <> 0) U ->
  (forall i j, (i < m)%nat -> (j < n)%nat -> V' i j = d i * c j * V (sr i) (sf j)) ->
  (forall i j, (i < m)%nat -> (j < n)%nat -> U' i j = d i * c j * U (sr i) (sf j)) ->
  sym m n k sr sf sk d c (W, H) (W', H') ->
  q_loss m n k true V' U' W' H' = q_loss m n k true V U W H.
Proof.
  intros B1 B2 B3 Hd Hc HU HV HU' Hs.
  assert (HUn : mall m n (fun u => u <> 0) U').
  { intros i j Hi Hj. rewrite HU' by assumption. specialize (Hd i Hi). specialize (Hc j Hj).
    assert (U (sr i) (sf j) <> 0) by (apply HU; [apply B1|apply B2]; assumption).
    apply Rmult_integral_contrapositive. split; [nra|assumption]. }
  rewrite !q_loss_wloss by assumption.
  apply (sym_wloss m n k sr sf sk d c B1 B2 B3 Hd Hc V (weights U) V' (weights U') HV); [|assumption].
  intros i j Hi Hj. unfold weights. rewrite HU' by assumption.
  assert (U (sr i) (sf j) <> 0) by (apply HU; [apply B1|apply B2]; assumption).
  specialize (Hd i Hi). specialize (Hc j Hj). field. repeat split; lra.
Qed.

(** ** Fixed point *)

Lemma ls_update_fixpoint m n k V We hold W H :
  (0 < m)%nat -> (0 < n)%nat -> (0 < k)%nat ->
  mall m n pos We -> mall m k pos W -> mall k n pos H ->
  reproduces m n k V W H ->
  exists W' H', ls_update m n k V We hold (W, H) = Some (W', H') /\
    meq m k W' W /\ meq k n H' H.
Proof.
  intros Hm Hn Hk He HW HH Hr.
  assert (HVp : forall i j, (i < m)%nat -> (j < n)%nat -> 0 < V i j).
  { intros i j Hi Hj. rewrite Hr by assumption. apply (mmul_pos k W H i j Hk);
      intros p Hp; [apply HW|apply HH]; assumption. }
  assert (Hnn : mall m n nonneg V) by (intros i j Hi Hj; left; auto).
  assert (Hne : no_empty m n V).
  { split; [intros i Hi; exists 0%nat|intros j Hj; exists 0%nat]; auto. }
  destruct (ls_update_pos m n k V We hold W H Hm Hn Hk Hnn Hne He HW HH) as (W' & H' & E & _).
  exists W', H'. split; [assumption|].
  apply (ls_update_stationary m n k V We hold W H W' H' Hnn (pos_nonneg _ _ _ He)
           (pos_nonneg _ _ _ HW) (pos_nonneg _ _ _ HH) E).
  pose proof (ls_update_loss m n k V We hold W H W' H' Hnn (pos_nonneg _ _ _ He)
           (pos_nonneg _ _ _ HW) (pos_nonneg _ _ _ HH) E) as L.
  assert (Z : wloss m n k V We W H = 0).
  { unfold wloss. rewrite (msum_ext m n _ (fun _ _ => 0)).
    - unfold msum. rewrite (rsum_ext m _ (fun _ => 0)) by (intros; apply rsum_0). apply rsum_0.
    - intros i j Hi Hj. rewrite (Hr i j Hi Hj). unfold mmul. ring. }
  assert (0 <= wloss m n k V We W' H').
  { apply msum_nonneg. intros i j Hi Hj. apply Rmult_le_pos; [left; apply He; assumption|apply Rle_0_sqr]. }
  lra.
Qed.

(** ** An all-zero feature (or sample) breaks the update at the second iteration *)

Lemma h_zero_col m n k V We W H H' j :
  (j < n)%nat -> (forall i, (i < m)%nat -> V i j = 0) ->
  h_step m n k V We W H = Some H' -> forall a, H' a j = 0.
Proof.
  intros Hj Hz Hs a. apply h_step_inv in Hs. destruct Hs as [_ ->].
  assert (E : h_num m V We W a j = 0).
  { unfold h_num, wev. rewrite (rsum_ext m _ (fun _ => 0)); [apply rsum_0|].
    intros i Hi. rewrite Hz by assumption. ring. }
  rewrite E. unfold Rdiv. ring.
Qed.

Lemma zero_feature_breaks m n k V We W H i0 hold :
  (0 < k)%nat ->
  (exists j, (j < n)%nat /\ forall i, (i < m)%nat -> V i j = 0) ->
  hold i0 = false -> hold (S i0) = false ->
  ls_iter m n k V We hold i0 2 (W, H) = None.
Proof.
  intros Hk (j & Hj & Hz) E0 E1. cbn [ls_iter]. rewrite E0, E1.
  destruct (ls_update m n k V We false (W, H)) as [[W1 H1]|] eqn:E; [|reflexivity].
  apply ls_update_inv in E. destruct E as (H2 & W2 & [= <- <-] & A & _).
  pose proof (h_zero_col m n k V We W H H1 j Hj Hz A) as Hc.
  unfold ls_update. assert (Hn : h_step m n k V We W1 H1 = None); [|rewrite Hn; reflexivity].
  unfold h_step. destruct (all_nz k n (h_den m k We W1 H1)) eqn:En; [|reflexivity].
  exfalso. rewrite all_nz_true in En. apply (En 0%nat j Hk Hj). unfold h_den.
  rewrite (rsum_ext m _ (fun _ => 0)); [apply rsum_0|]. intros i Hi.
  assert (Ez : mmul k W1 H1 i j = 0).
  { unfold mmul. rewrite (rsum_ext k _ (fun _ => 0)); [apply rsum_0|]. intros p Hp. rewrite Hc. ring. }
  rewrite Ez. ring.
Qed.

Lemma w_zero_row m n k V We W H W' i :
  (i < m)%nat -> (forall j, (j < n)%nat -> V i j = 0) ->
  w_step m n k V We W H = Some W' -> forall a, W' i a = 0.
Proof.
  intros Hi Hz Hs a. apply w_step_inv in Hs. destruct Hs as [_ ->].
  assert (E : w_num n V We H i a = 0).
  { unfold w_num, wev. rewrite (rsum_ext n _ (fun _ => 0)); [apply rsum_0|].
    intros j Hj. rewrite Hz by assumption. ring. }
  rewrite E. unfold Rdiv. ring.
Qed.

Lemma zero_sample_breaks m n k V We W H i0 hold :
  (0 < k)%nat ->
  (exists i, (i < m)%nat /\ forall j, (j < n)%nat -> V i j = 0) ->
  ls_iter m n k V We hold i0 2 (W, H) = None.
Proof.
  intros Hk (i & Hi & Hz). cbn [ls_iter].
  destruct (ls_update m n k V We (hold i0) (W, H)) as [[W1 H1]|] eqn:E; [|reflexivity].
  apply ls_update_inv in E. destruct E as (H2 & W2 & [= <- <-] & _ & B).
  pose proof (w_zero_row m n k V We W H1 W1 i Hi Hz B) as Hc.
  destruct (ls_update m n k V We (hold (S i0)) (W1, H1)) as [[W3 H3]|] eqn:E; [|reflexivity].
  exfalso. apply ls_update_inv in E. destruct E as (H4 & W4 & [= <- <-] & _ & B').
  apply w_step_inv in B'. destruct B' as [Hd _]. apply (Hd i 0%nat Hi Hk). unfold w_den.
  rewrite (rsum_ext n _ (fun _ => 0)); [apply rsum_0|]. intros j Hj.
  assert (Ez : mmul k W1 H3 i j = 0).
  { unfold mmul. rewrite (rsum_ext k _ (fun _ => 0)); [apply rsum_0|]. intros p Hp. rewrite Hc. ring. }
  rewrite Ez. ring.
Qed.

(** [None] is absorbing: once the update broke, longer runs are broken too. *)
Lemma ls_iter_add m n k V We hold N1 : forall N2 i0 st,
  ls_iter m n k V We hold i0 (N1 + N2) st =
  match ls_iter m n k V We hold i0 N1 st with
  | None => None
  | Some st' => ls_iter m n k V We hold (i0 + N1) N2 st'
  end.
Proof.
  induction N1 as [|N1 IH]; intros N2 i0 st; cbn [ls_iter Nat.add].
  - rewrite Nat.add_0_r. reflexivity.
  - destruct (ls_update m n k V We (hold i0) st) as [st'|]; [|reflexivity].
    rewrite IH. replace (S i0 + N1)%nat with (i0 + S N1)%nat by lia. reflexivity.
Qed.

Lemma zero_sample_breaks_all m n k V We W H i0 hold N :
  (0 < k)%nat -> (2 <= N)%nat ->
  (exists i, (i < m)%nat /\ forall j, (j < n)%nat -> V i j = 0) ->
  ls_iter m n k V We hold i0 N (W, H) = None.
Proof.
  intros Hk HN Hz. replace N with (2 + (N - 2))%nat by lia.
  rewrite ls_iter_add, zero_sample_breaks by assumption. reflexivity.
Qed.

Lemma zero_feature_breaks_all m n k V We W H i0 hold N :
  (0 < k)%nat -> (2 <= N)%nat ->
  (exists j, (j < n)%nat /\ forall i, (i < m)%nat -> V i j = 0) ->
  hold i0 = false -> hold (S i0) = false ->
  ls_iter m n k V We hold i0 N (W, H) = None.
Proof.
  intros Hk HN Hz E0 E1. replace N with (2 + (N - 2))%nat by lia.
  rewrite ls_iter_add, zero_feature_breaks by assumption. reflexivity.
Qed.

(** ** hold_at *)

Lemma hold_at_held delay i :
  (delay <= 0)%Z \/ (Z.of_nat i <= delay)%Z -> hold_at true delay i = true.
Proof.
  intros Hd. unfold hold_at. cbn [negb orb].
  destruct (Z.ltb_spec 0 delay), (Z.ltb_spec delay (Z.of_nat i)); cbn; try reflexivity. lia.
Qed.

Lemma ls_iter_hold_at m n k V We delay N W H W' H' :
  ((delay <= 0)%Z \/ (Z.of_nat N <= delay + 1)%Z) ->
  ls_iter m n k V We (hold_at true delay) 0 N (W, H) = Some (W', H') -> H' = H.
Proof.
  intros Hd. apply ls_iter_hold. intros i Hi. apply hold_at_held. lia.
Qed.
