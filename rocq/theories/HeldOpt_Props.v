(** C136: with held profiles LS-NMF training tends to the best contributions. *)
From Coq Require Import Reals Lra Lia List Bool ZArith Arith Psatz.
From Verif Require Import Base Fl Metrics_Model Metrics_Spec Metrics_Proofs LSNMF_Model LSNMF_Proofs
  Train_Model Train_Spec Train_Proofs Train_LS LSLimit_Props NearOpt_Props.
Import ListNotations.
Open Scope R_scope.

(** ** Specification *)
(** How much of sample [i] the profile of factor [a] could explain. *)
Definition overlap (n : nat) (V U H : mat) (i a : nat) : R := rsum n (fun j => V i j * H a j / (U i j * U i j)).
(** Sum of the squared data in uncertainties. *)
Definition size2 (m n : nat) (V U : mat) : R := msum m n (fun i j => Rsqr (V i j / U i j)).
(** Every factor has some measured feature in every sample. *)
Definition overlaps (m n k : nat) (V H : mat) : Prop :=
  forall i a, (i < m)%nat -> (a < k)%nat -> exists j, (j < n)%nat /\ 0 < V i j /\ 0 < H a j.
(** What bounds the excess: [W2] the contributions compared with, [W1] those after the
    first iteration. *)
Definition price (m n k : nat) (V U H W1 W2 : mat) : R :=
  2 * msum m k (fun i a => W2 i a * overlap n V U H i a * ln (size2 m n V U / (overlap n V U H i a * W1 i a))).

(** ** Held updates *)
Lemma overlap_num m n k V U H : mall m n (fun u => u <> 0) U -> forall i a, (i < m)%nat -> (a < k)%nat -> overlap n V U H i a = w_num n V (weights U) H i a.
Proof. intros HU i a Hi Ha. unfold overlap, w_num. apply rsum_ext. intros j Hj. specialize (HU i j Hi Hj). cbv beta in HU. unfold wev, weights. field. exact HU. Qed.

Lemma num_pos m n k V We H : mall m n (fun x => 0 <= x) V -> mall m n (fun x => 0 < x) We -> mall k n (fun x => 0 <= x) H -> overlaps m n k V H ->
  forall i a, (i < m)%nat -> (a < k)%nat -> 0 < w_num n V We H i a.
Proof.
  intros HV He HH Ho i a Hi Ha. destruct (Ho i a Hi Ha) as (j & Hj & Pv & Ph). unfold w_num.
  apply Rlt_le_trans with (wev V We i j * H a j).
  - unfold wev. specialize (He i j Hi Hj). cbv beta in He. repeat apply Rmult_lt_0_compat; assumption.
  - apply (rsum_ge_term n (fun j => wev V We i j * H a j) j); [|exact Hj]. intros j' Hj'. unfold wev. specialize (He i j' Hi Hj'). specialize (HV i j' Hi Hj'). specialize (HH a j' Ha Hj'). cbv beta in *.
    repeat apply Rmult_le_pos; lra.
Qed.
Lemma den_pos m n k V We W H : mall m n (fun x => 0 < x) We -> mall m k (fun x => 0 < x) W -> mall k n (fun x => 0 <= x) H -> overlaps m n k V H ->
  forall i a, (i < m)%nat -> (a < k)%nat -> 0 < w_den n k We W H i a.
Proof.
  intros He HW HH Ho i a Hi Ha. destruct (Ho i a Hi Ha) as (j & Hj & Pv & Ph). unfold w_den.
  assert (F : forall j', (j' < n)%nat -> 0 <= mmul k W H i j').
  { intros j' Hj'. apply rsum_nonneg. intros b Hb. apply Rmult_le_pos; [apply Rlt_le, HW; assumption|apply HH; assumption]. }
  apply Rlt_le_trans with (We i j * mmul k W H i j * H a j).
  - assert (0 < mmul k W H i j).
    { apply Rlt_le_trans with (W i a * H a j); [apply Rmult_lt_0_compat; [apply HW; assumption|exact Ph]|]. apply (rsum_ge_term k (fun b => W i b * H b j) a); [|exact Ha]. intros b Hb. apply Rmult_le_pos; [apply Rlt_le, HW; assumption|apply HH; assumption]. }
    specialize (He i j Hi Hj). cbv beta in He. repeat apply Rmult_lt_0_compat; assumption.
  - apply (rsum_ge_term n (fun j => We i j * mmul k W H i j * H a j) j); [|exact Hj]. intros j' Hj'. specialize (He i j' Hi Hj'). cbv beta in He. apply Rmult_le_pos; [apply Rmult_le_pos; [lra|apply F, Hj']|apply HH; assumption].
Qed.

(** After a step the fit is not too large. *)
Lemma step_scale m n k V We W H W' : mall m n nonneg We -> mall m k nonneg W -> mall k n nonneg H -> w_step m n k V We W H = Some W' ->
  fit2 m n k We W' H <= msum m k (fun i a => W' i a * w_num n V We H i a).
Proof.
  intros He HW HH Hs. pose proof (w_step_loss m n k V We W H W' He HW HH Hs) as L. destruct (w_step_inv _ _ _ _ _ _ _ _ Hs) as [Hd EW].
  pose proof (W_expand m n k V We W H W') as X.
  pose proof (W_expand m n k (fun _ _ => 0) We W H W') as Y.
  set (den := w_den n k We W H) in *. set (num := w_num n V We H) in *.
  assert (Y1 : fit2 m n k We W' H = fit2 m n k We W H + 2 * msum m k (fun i a => (W' i a - W i a) * den i a) + wdist m n k We W H W' H).
  { assert (Z : forall A, wloss m n k (fun _ _ => 0) We A H = fit2 m n k We A H) by (intros A; unfold wloss, fit2; apply msum_ext; intros i j Hi Hj; ring).
    rewrite !Z in Y. rewrite Y. replace (msum m k (fun i a => (W' i a - W i a) * (w_num n (fun _ _ => 0) We H i a - den i a))) with (- msum m k (fun i a => (W' i a - W i a) * den i a)); [ring|].
    replace (- msum m k (fun i a => (W' i a - W i a) * den i a)) with (-1 * msum m k (fun i a => (W' i a - W i a) * den i a)) by ring.
    unfold msum. rewrite <- rsum_scal_l. apply rsum_ext. intros i Hi. rewrite <- rsum_scal_l. apply rsum_ext. intros a Ha.
    replace (w_num n (fun _ _ => 0) We H i a) with 0; [ring|]. unfold w_num. symmetry. apply rsum_zero. intros j Hj. unfold wev. ring. }
  assert (T : rsum m (fun i => rsum k (fun a => let t := num i a / den i a - 1 in t * t * (W i a * den i a))) = msum m k (fun i a => (W' i a - W i a) * (num i a - den i a))).
  { unfold msum. apply rsum_ext. intros i Hi. apply rsum_ext. intros a Ha. rewrite EW. specialize (Hd i a Hi Ha). fold den in Hd. cbv zeta. field. exact Hd. }
  rewrite T in L. rewrite Y1.
  assert (F : fit2 m n k We W H = msum m k (fun i a => W i a * den i a)) by (symmetry; apply fit2_W).
  assert (Z : msum m k (fun i a => W i a * den i a) + 2 * msum m k (fun i a => (W' i a - W i a) * den i a) + msum m k (fun i a => (W' i a - W i a) * (num i a - den i a)) = msum m k (fun i a => W' i a * num i a)).
  { unfold msum. rewrite <- rsum_scal_l, <- !rsum_plus. apply rsum_ext. intros i Hi. rewrite <- rsum_scal_l, <- !rsum_plus. apply rsum_ext. intros a Ha. rewrite EW. specialize (Hd i a Hi Ha). fold den in Hd. field. exact Hd. }
  rewrite F. lra.
Qed.

(** The excess over any other contributions is paid for by the logarithms. *)
Lemma ln_ge y : 0 < y -> 1 - / y <= ln y.
Proof.
  intros Hy. assert (Hi : 0 < / y) by (apply Rinv_0_lt_compat, Hy). pose proof (exp_ineq1_le (ln (/ y))) as E. rewrite exp_ln in E by exact Hi. rewrite ln_Rinv in E by exact Hy. lra.
Qed.
Lemma step_pays m n k V We W H W' W2 : mall m n (fun x => 0 <= x) V -> mall m n (fun x => 0 < x) We -> mall k n (fun x => 0 <= x) H -> overlaps m n k V H ->
  mall m k (fun x => 0 < x) W -> mall m k (fun x => 0 <= x) W2 -> w_step m n k V We W H = Some W' ->
  fit2 m n k We W H <= msum m k (fun i a => W i a * w_num n V We H i a) ->
  wloss m n k V We W H - wloss m n k V We W2 H <= 2 * msum m k (fun i a => W2 i a * w_num n V We H i a * (ln (W' i a) - ln (W i a))).
Proof.
  intros HV He HH Ho HW HW2 Hs Sc. pose proof (W_expand m n k V We W H W2) as X. pose proof (wdist_nonneg m n k We W H W2 H (pos_nonneg _ _ _ He)) as D.
  destruct (w_step_inv _ _ _ _ _ _ _ _ Hs) as [_ EW].
  rewrite <- (fit2_W m n k We W H) in Sc.
  assert (S2 : msum m k (fun i a => (W2 i a - W i a) * (w_num n V We H i a - w_den n k We W H i a)) =
              msum m k (fun i a => W2 i a * (w_num n V We H i a - w_den n k We W H i a)) - (msum m k (fun i a => W i a * w_num n V We H i a) - msum m k (fun i a => W i a * w_den n k We W H i a))).
  { unfold msum. rewrite <- !rsum_minus. apply rsum_ext. intros i Hi. rewrite <- !rsum_minus. apply rsum_ext. intros a Ha. ring. }
  assert (LN : msum m k (fun i a => W2 i a * (w_num n V We H i a - w_den n k We W H i a)) <= msum m k (fun i a => W2 i a * w_num n V We H i a * (ln (W' i a) - ln (W i a)))).
  { unfold msum. apply rsum_le. intros i Hi. apply rsum_le. intros a Ha. pose proof (num_pos m n k V We H HV He HH Ho i a Hi Ha) as Np. pose proof (den_pos m n k V We W H He HW HH Ho i a Hi Ha) as Dp.
    specialize (HW i a Hi Ha). specialize (HW2 i a Hi Ha). cbv beta in HW, HW2. rewrite EW.
    set (x := w_num n V We H i a) in *. set (y := w_den n k We W H i a) in *.
    assert (Q : 0 < x / y) by (apply Rdiv_lt_0_compat; assumption). rewrite ln_mult by assumption.
    replace (ln (W i a) + ln (x / y) - ln (W i a)) with (ln (x / y)) by ring. pose proof (ln_ge (x / y) Q) as L.
    rewrite Rmult_assoc. apply Rmult_le_compat_l; [exact HW2|]. replace (x - y) with (x * (1 - / (x / y))) by (field; lra). apply Rmult_le_compat_l; lra. }
  lra.
Qed.
Lemma entry_bound m n k V We W H : mall m n (fun x => 0 <= x) V -> mall m n (fun x => 0 < x) We -> mall k n (fun x => 0 <= x) H -> overlaps m n k V H -> mall m k (fun x => 0 < x) W ->
  fit2 m n k We W H <= msum m k (fun i a => W i a * w_num n V We H i a) ->
  msum m k (fun i a => W i a * w_num n V We H i a) <= msum m n (fun i j => We i j * (V i j * V i j)).
Proof.
  intros HV He HH Ho HW Sc.
  assert (L0 : 0 <= wloss m n k V We W H) by (apply msum_nonneg; intros i j Hi Hj; apply Rmult_le_pos; [apply Rlt_le, He; assumption|apply (Rle_0_sqr (V i j - mmul k W H i j))]).
  assert (N : msum m k (fun i a => W i a * w_num n V We H i a) = msum m n (fun i j => We i j * (V i j * mmul k W H i j))).
  { unfold msum. apply rsum_ext. intros i Hi. transitivity (rsum k (fun a => rsum n (fun j => We i j * V i j * (W i a * H a j)))).
    - apply rsum_ext. intros a Ha. unfold w_num. rewrite <- rsum_scal_l. apply rsum_ext. intros j Hj. unfold wev. ring.
    - rewrite rsum_swap. apply rsum_ext. intros j Hj. rewrite rsum_scal_l. change (rsum k (fun a => W i a * H a j)) with (mmul k W H i j). ring. }
  assert (E : wloss m n k V We W H = msum m n (fun i j => We i j * (V i j * V i j)) - 2 * msum m n (fun i j => We i j * (V i j * mmul k W H i j)) + fit2 m n k We W H).
  { unfold wloss, fit2, msum. rewrite <- rsum_scal_l, <- rsum_minus, <- rsum_plus. apply rsum_ext. intros i Hi. rewrite <- rsum_scal_l, <- rsum_minus, <- rsum_plus. apply rsum_ext. intros j Hj. ring. }
  rewrite N in Sc |- *. lra.
Qed.

Lemma held_iterates m n k V U H W : mall m n (fun x => 0 <= x) V -> mall m n (fun u => u <> 0) U -> mall k n (fun x => 0 <= x) H -> overlaps m n k V H -> mall m k (fun x => 0 < x) W ->
  forall i0 t, exists W', ls_iter m n k V (weights U) (fun _ => true) i0 t (W, H) = Some (W', H) /\ mall m k (fun x => 0 < x) W' /\
    exists W1, w_step m n k V (weights U) W' H = Some W1 /\ mall m k (fun x => 0 < x) W1.
Proof.
  intros HV HU HH Ho. pose proof (weights_pos m n U HU) as He. set (We := weights U) in *.
  assert (One : forall A, mall m k (fun x => 0 < x) A -> exists W1, w_step m n k V We A H = Some W1 /\ mall m k (fun x => 0 < x) W1).
  { intros A HA. pose proof (den_pos m n k V We A H He HA HH Ho) as Dp. assert (N : all_nz m k (w_den n k We A H) = true) by (apply all_nz_true; intros i a Hi Ha; specialize (Dp i a Hi Ha); lra).
    exists (fun i a => A i a * (w_num n V We H i a / w_den n k We A H i a)). split; [unfold w_step; rewrite N; reflexivity|].
    intros i a Hi Ha. apply Rmult_lt_0_compat; [apply HA; assumption|]. apply Rdiv_lt_0_compat; [apply (num_pos m n k V We H HV He HH Ho i a Hi Ha)|apply Dp; assumption]. }
  intros HW i0 t. revert i0. induction t as [|t IH]; intros i0.
  - exists W. split; [reflexivity|]. split; [exact HW|]. apply One, HW.
  - destruct (IH i0) as (W' & E & P & W1 & S1 & P1). exists W1. split; [|split; [exact P1|apply One, P1]].
    replace (S t) with (t + 1)%nat by lia. rewrite ls_iter_add, E. cbn [ls_iter ls_update]. rewrite S1. reflexivity.
Qed.

(** ** C136 *)
(** With held profiles no iteration fails, and after T + 1 iterations Q(true) exceeds
    that of any non-negative contributions by at most price / T. *)
Theorem C136_rate : forall (m n k : nat) (V U H W : mat),
  mall m n (fun x => 0 <= x) V -> mall m n (fun u => u <> 0) U -> mall k n (fun x => 0 <= x) H -> overlaps m n k V H -> mall m k (fun x => 0 < x) W ->
  exists Wt : nat -> mat,
    (forall t, ls_iter m n k V (weights U) (fun _ => true) 0 t (W, H) = Some (Wt t, H) /\ mall m k (fun x => 0 < x) (Wt t)) /\
    forall W2, mall m k (fun x => 0 <= x) W2 -> forall T,
      INR T * (q_loss m n k true V U (Wt (S T)) H - q_loss m n k true V U W2 H) <= price m n k V U H (Wt 1%nat) W2.
Proof.
  intros m n k V U H W HV HU HH Ho HW. pose proof (weights_pos m n U HU) as He. pose proof (pos_nonneg _ _ _ He) as He0.
  set (Wt := fun t => match ls_iter m n k V (weights U) (fun _ => true) 0 t (W, H) with Some s => fst s | None => W end).
  assert (It : forall t, ls_iter m n k V (weights U) (fun _ => true) 0 t (W, H) = Some (Wt t, H) /\ mall m k (fun x => 0 < x) (Wt t)).
  { intros t. destruct (held_iterates m n k V U H W HV HU HH Ho HW 0 t) as (W' & E & P & _). unfold Wt. rewrite E. split; [reflexivity|exact P]. }
  exists Wt. split; [exact It|].
  assert (Stp : forall t, w_step m n k V (weights U) (Wt t) H = Some (Wt (S t))).
  { intros t. destruct (held_iterates m n k V U H W HV HU HH Ho HW 0 t) as (W' & E & _ & W1 & S1 & _). pose proof (proj1 (It t)) as E1. rewrite E in E1. injection E1 as ->. rewrite S1. f_equal.
    pose proof (proj1 (It (S t))) as E2. replace (S t) with (t + 1)%nat in E2 at 1 by lia. rewrite ls_iter_add, E in E2. cbn [ls_iter ls_update Nat.add] in E2. rewrite S1 in E2. injection E2 as E2. exact E2. }
  set (We := weights U) in *.
  assert (Sc : forall t, fit2 m n k We (Wt (S t)) H <= msum m k (fun i a => Wt (S t) i a * w_num n V We H i a)).
  { intros t. exact (step_scale m n k V We (Wt t) H (Wt (S t)) He0 (pos_nonneg _ _ _ (proj2 (It t))) HH (Stp t)). }
  intros W2 HW2.
  assert (Tel : forall T, rsum T (fun t => wloss m n k V We (Wt (S t)) H - wloss m n k V We W2 H) <= 2 * msum m k (fun i a => W2 i a * w_num n V We H i a * (ln (Wt (S T) i a) - ln (Wt 1%nat i a)))).
  { induction T as [|T IH].
    - cbn [rsum]. apply Req_le. replace (msum m k (fun i a => W2 i a * w_num n V We H i a * (ln (Wt 1%nat i a) - ln (Wt 1%nat i a)))) with 0; [ring|]. symmetry. unfold msum. apply rsum_zero. intros i Hi. apply rsum_zero. intros a Ha. ring.
    - cbn [rsum]. pose proof (step_pays m n k V We (Wt (S T)) H (Wt (S (S T))) W2 HV He HH Ho (proj2 (It (S T))) HW2 (Stp (S T)) (Sc T)) as P.
      assert (E : msum m k (fun i a => W2 i a * w_num n V We H i a * (ln (Wt (S (S T)) i a) - ln (Wt 1%nat i a))) =
                  msum m k (fun i a => W2 i a * w_num n V We H i a * (ln (Wt (S T) i a) - ln (Wt 1%nat i a))) + msum m k (fun i a => W2 i a * w_num n V We H i a * (ln (Wt (S (S T)) i a) - ln (Wt (S T) i a)))).
      { unfold msum. rewrite <- rsum_plus. apply rsum_ext. intros i Hi. rewrite <- rsum_plus. apply rsum_ext. intros a Ha. ring. }
      rewrite E. lra. }
  assert (Dec : forall t s, wloss m n k V We (Wt (s + t)%nat) H <= wloss m n k V We (Wt t) H).
  { intros t s. induction s as [|s IH]; [cbn; lra|]. eapply Rle_trans; [|exact IH]. cbn [Nat.add].
    pose proof (w_step_move m n k V We _ _ _ He0 (pos_nonneg _ _ _ (proj2 (It (s + t)%nat))) HH (Stp (s + t)%nat)). pose proof (wdist_nonneg m n k We (Wt (s + t)%nat) H (Wt (S (s + t))) H He0). lra. }
  intros T. rewrite !q_loss_wloss by exact HU. fold We.
  apply Rle_trans with (rsum T (fun t => wloss m n k V We (Wt (S t)) H - wloss m n k V We W2 H)).
  { rewrite <- (rsum_const T). apply rsum_le. intros t Ht. pose proof (Dec (S t) (T - t)%nat) as D. replace (T - t + S t)%nat with (S T) in D by lia. lra. }
  eapply Rle_trans; [apply Tel|]. unfold price. apply Rmult_le_compat_l; [lra|]. unfold msum. apply rsum_le. intros i Hi. apply rsum_le. intros a Ha.
  rewrite (overlap_num m n k V U H HU i a Hi Ha). fold We. pose proof (num_pos m n k V We H HV He HH Ho i a Hi Ha) as Np. set (x := w_num n V We H i a) in *.
  apply Rmult_le_compat_l; [apply Rmult_le_pos; [apply HW2; assumption|lra]|].
  pose proof (proj2 (It (S T)) i a Hi Ha) as PT. pose proof (proj2 (It 1%nat) i a Hi Ha) as P1. cbv beta in PT, P1.
  assert (B : Wt (S T) i a * x <= size2 m n V U).
  { replace (size2 m n V U) with (msum m n (fun i j => We i j * (V i j * V i j))) by (unfold size2; apply msum_ext; intros i' j' Hi' Hj'; specialize (HU i' j' Hi' Hj'); cbv beta in HU; unfold We, weights, Rsqr; field; exact HU).
    eapply Rle_trans; [|apply (entry_bound m n k V We (Wt (S T)) H HV He HH Ho (proj2 (It (S T))) (Sc T))].
    unfold msum. apply Rle_trans with (rsum k (fun a => Wt (S T) i a * w_num n V We H i a)).
    - apply (rsum_ge_term k (fun a => Wt (S T) i a * w_num n V We H i a) a); [|exact Ha]. intros a' Ha'. apply Rmult_le_pos; [apply Rlt_le, (proj2 (It (S T))); assumption|apply Rlt_le, (num_pos m n k V We H HV He HH Ho); assumption].
    - apply (rsum_ge_term m (fun i => rsum k (fun a => Wt (S T) i a * w_num n V We H i a)) i); [|exact Hi]. intros i' Hi'. apply rsum_nonneg. intros a' Ha'. apply Rmult_le_pos; [apply Rlt_le, (proj2 (It (S T))); assumption|apply Rlt_le, (num_pos m n k V We H HV He HH Ho); assumption]. }
  assert (SP : 0 < size2 m n V U) by (assert (0 < Wt (S T) i a * x) by (apply Rmult_lt_0_compat; assumption); lra).
  unfold Rdiv. rewrite ln_mult, ln_Rinv, ln_mult; try assumption; [|apply Rmult_lt_0_compat; assumption|apply Rinv_0_lt_compat, Rmult_lt_0_compat; assumption].
  assert (ln (Wt (S T) i a * x) <= ln (size2 m n V U)).
  { destruct B as [B|B]; [left; apply ln_increasing; [apply Rmult_lt_0_compat; assumption|exact B]|right; rewrite B; reflexivity]. }
  rewrite ln_mult in H0 by assumption. lra.
Qed.
Print Assumptions C136_rate.

(** So Q(true) comes arbitrarily close to that of the best contributions. *)
Theorem C136_tends_to_the_best : forall (m n k : nat) (V U H W W2 : mat) (eps : R),
  mall m n (fun x => 0 <= x) V -> mall m n (fun u => u <> 0) U -> mall k n (fun x => 0 <= x) H -> overlaps m n k V H -> mall m k (fun x => 0 < x) W ->
  mall m k (fun x => 0 <= x) W2 -> 0 < eps ->
  exists N, forall t, (N <= t)%nat -> exists W', ls_iter m n k V (weights U) (fun _ => true) 0 t (W, H) = Some (W', H) /\
    q_loss m n k true V U W' H <= q_loss m n k true V U W2 H + eps.
Proof.
  intros m n k V U H W W2 eps HV HU HH Ho HW HW2 Heps. destruct (C136_rate m n k V U H W HV HU HH Ho HW) as (Wt & It & Rt).
  destruct (archimed_cor1 (eps / (1 + Rabs (price m n k V U H (Wt 1%nat) W2)))) as (N & HN & Np).
  { apply Rdiv_lt_0_compat; [exact Heps|]. pose proof (Rabs_pos (price m n k V U H (Wt 1%nat) W2)). lra. }
  exists (S N). intros [|t] Ht; [lia|]. exists (Wt (S t)). split; [apply It|]. specialize (Rt W2 HW2 t).
  set (P := price m n k V U H (Wt 1%nat) W2) in *. pose proof (Rabs_pos P) as AP. pose proof (Rle_abs P) as LP.
  assert (IN : 0 < INR N) by (apply lt_0_INR; lia). assert (It2 : INR N <= INR t) by (apply le_INR; lia).
  assert (B : P <= eps * INR N).
  { assert (C : 1 + Rabs P <= eps * INR N); [|lra].
    apply (Rmult_lt_compat_l (INR N * (1 + Rabs P))) in HN; [|apply Rmult_lt_0_compat; lra].
    replace (INR N * (1 + Rabs P) * / INR N) with (1 + Rabs P) in HN by (field; lra). replace (INR N * (1 + Rabs P) * (eps / (1 + Rabs P))) with (eps * INR N) in HN by (field; lra). lra. }
  apply (Rmult_le_reg_l (INR t)); [lra|]. assert (eps * INR N <= eps * INR t) by (apply Rmult_le_compat_l; lra). lra.
Qed.
Print Assumptions C136_tends_to_the_best.

(** The compiled engine with profiles held throughout: the reported loss. *)
Theorem C136_run : forall (m n k : nat) (V U : mat) (delta : R) (cn : Z) (hold_h : bool) (delay_h : Z) (W H : mat) (tick : nat -> bool) (max_iter : Z),
  mall m n (fun x => 0 <= x) V -> mall m n (fun u => u <> 0) U -> mall k n (fun x => 0 <= x) H -> overlaps m n k V H -> mall m k (fun x => 0 < x) W ->
  (forall i, held hold_h delay_h i) -> (0 < max_iter)%Z ->
  let r := ls_rust_train m n k V U delta cn hold_h delay_h tick max_iter W H in
  exists W1 W',
    ls_update m n k V (weights U) true (W, H) = Some (W1, H) /\
    rr_state r = Some (W', H) /\ rr_q r = Some (Fin (q_loss m n k true V U W' H)) /\
    forall W2, mall m k (fun x => 0 <= x) W2 -> INR (rr_ci r) * (q_loss m n k true V U W' H - q_loss m n k true V U W2 H) <= price m n k V U H W1 W2.
Proof.
  intros m n k V U delta cn hold_h delay_h W H tick max_iter HV HU HH Ho HW Hh Hmax r.
  destruct (C136_rate m n k V U H W HV HU HH Ho HW) as (Wt & It & Rt).
  destruct (rust_summary (ls_step m n k V U) (ls_loss m n k V U) (fbelow delta) cn hold_h delay_h tick (Some (W, H)) max_iter (fun _ => true)) as (A & _ & C & D & E & F & _ & I).
  { intros i. split; [intros _; apply Hh|reflexivity]. }
  fold (ls_rust_train m n k V U delta cn hold_h delay_h tick max_iter W H) in A, C, D, E, F, I. fold r in A, C, D, E, F, I.
  assert (SI : forall i, state_at (ls_step m n k V U) (fun _ => true) (Some (W, H)) i = Some (Wt i, H)).
  { intros i. induction i as [|i IH]; [cbn [state_at]; exact (proj1 (It 0%nat))|]. cbn [state_at]. rewrite IH. unfold ls_step.
    pose proof (proj1 (It (S i))) as E2. replace (S i) with (i + 1)%nat in E2 at 1 by lia. rewrite ls_iter_add, (proj1 (It i)) in E2. cbn [ls_iter] in E2.
    destruct (ls_update m n k V (weights U) true (Wt i, H)); [exact E2|discriminate]. }
  set (L := length (rr_hist r)) in *.
  assert (LP : (0 < L)%nat) by (destruct (rr_conv r) eqn:Ec; [apply I; reflexivity|rewrite (F eq_refl); lia]).
  exists (Wt 1%nat), (Wt L). split; [|split; [rewrite C; apply SI|split]].
  - pose proof (proj1 (It 1%nat)) as E1. cbn [ls_iter] in E1. destruct (ls_update m n k V (weights U) true (W, H)); [exact E1|discriminate].
  - rewrite D. destruct (Nat.eqb_spec L 0); [lia|]. f_equal. unfold loss_at. replace (S (L - 1)) with L by lia. rewrite SI. reflexivity.
  - intros W2 HW2. specialize (Rt W2 HW2 (rr_ci r)). replace (S (rr_ci r)) with L in Rt by lia. exact Rt.
Qed.
Print Assumptions C136_run.

(** The Python engine with profiles held throughout. *)
Theorem C136_run_py : forall (m n k : nat) (V U : mat) (delta : R) (cn : Z) (hold_h : bool) (delay_h : Z) (W H : mat) (max_iter : Z),
  mall m n (fun x => 0 <= x) V -> mall m n (fun u => u <> 0) U -> mall k n (fun x => 0 <= x) H -> overlaps m n k V H -> mall m k (fun x => 0 < x) W ->
  (forall i, held hold_h delay_h i) -> (0 < max_iter)%Z -> (1 <= cn)%Z ->
  let r := ls_py_train m n k V U delta cn delay_h hold_h max_iter W H in
  let T := (length (pr_hist r) - 1)%nat in
  exists W1 W',
    ls_update m n k V (weights U) true (W, H) = Some (W1, H) /\
    pr_state r = Some (W', H) /\ last (pr_hist r) NaN = Fin (q_loss m n k true V U W' H) /\
    forall W2, mall m k (fun x => 0 <= x) W2 -> INR T * (q_loss m n k true V U W' H - q_loss m n k true V U W2 H) <= price m n k V U H W1 W2.
Proof.
  intros m n k V U delta cn hold_h delay_h W H max_iter HV HU HH Ho HW Hh Hmax Hcn r T.
  destruct (C136_rate m n k V U H W HV HU HH Ho HW) as (Wt & It & Rt).
  destruct (py_summary (ls_step m n k V U) (ls_loss m n k V U) (fbelow delta) (fun o => is_nan (ls_loss m n k V U o)) cn hold_h delay_h (Some (W, H)) max_iter (fun _ => true) Hcn) as (A & Hi & C & D & E & _ & _).
  { intros i. split; [intros _; apply Hh|reflexivity]. }
  fold (ls_py_train m n k V U delta cn delay_h hold_h max_iter W H) in A, Hi, C, D, E. fold r in A, Hi, C, D, E.
  assert (SI : forall i, state_at (ls_step m n k V U) (fun _ => true) (Some (W, H)) i = Some (Wt i, H)).
  { intros i. induction i as [|i IH]; [cbn [state_at]; exact (proj1 (It 0%nat))|]. cbn [state_at]. rewrite IH. unfold ls_step.
    pose proof (proj1 (It (S i))) as E2. replace (S i) with (i + 1)%nat in E2 at 1 by lia. rewrite ls_iter_add, (proj1 (It i)) in E2. cbn [ls_iter] in E2.
    destruct (ls_update m n k V (weights U) true (Wt i, H)); [exact E2|discriminate]. }
  set (L := length (pr_hist r)) in *.
  assert (LP : L = S T).
  { assert (0 < L)%nat; [|unfold T; lia]. destruct (pr_stop r) eqn:Es; try (apply E; discriminate). destruct (D eq_refl) as [-> _]. lia. }
  exists (Wt 1%nat), (Wt L). split; [|split; [rewrite C; apply SI|split]].
  - pose proof (proj1 (It 1%nat)) as E1. cbn [ls_iter] in E1. destruct (ls_update m n k V (weights U) true (W, H)); [exact E1|discriminate].
  - rewrite Hi, LP, seq_S, map_app. cbn [map Nat.add]. rewrite last_last. unfold loss_at. rewrite SI. reflexivity.
  - intros W2 HW2. specialize (Rt W2 HW2 T). rewrite <- LP in Rt. exact Rt.
Qed.
Print Assumptions C136_run_py.

(** The hypotheses are met: the run of [C134_small_gain_refuted], whose first iteration
    gains next to nothing, gets near the best contributions all the same. *)
Example C136_instance :
  mall 1 2 (fun x => 0 <= x) zr_V /\ mall 1 2 (fun u => u <> 0) ones /\ mall 2 2 (fun x => 0 <= x) zr_H /\ overlaps 1 2 2 zr_V zr_H /\ mall 1 2 (fun x => 0 < x) sl_W /\
  (forall i, held true (-1) i) /\ 49 / 100 < q_loss 1 2 2 true zr_V ones sl_W zr_H /\
  exists N, forall t, (N <= t)%nat -> exists W', ls_iter 1 2 2 zr_V (weights ones) (fun _ => true) 0 t (sl_W, zr_H) = Some (W', zr_H) /\ q_loss 1 2 2 true zr_V ones W' zr_H <= 6 / 100.
Proof.
  assert (A : mall 1 2 (fun x => 0 <= x) zr_V) by (intros i j _ _; unfold zr_V; destruct (j =? 0)%nat; lra).
  assert (B : mall 1 2 (fun u => u <> 0) ones) by (intros i j _ _; unfold ones; lra).
  assert (C : mall 2 2 (fun x => 0 <= x) zr_H) by (intros i j _ _; unfold zr_H; destruct (_ && _); lra).
  assert (D : overlaps 1 2 2 zr_V zr_H) by (intros i a Hi Ha; exists 0%nat; split; [lia|]; unfold zr_V, zr_H; rewrite andb_false_r; cbn; lra).
  assert (E : mall 1 2 (fun x => 0 < x) sl_W) by (intros i j _ _; unfold sl_W; destruct (j =? 0)%nat; lra).
  repeat (split; [assumption|]). split; [intros i; split; [reflexivity|left; lia]|]. split; [unfold q_loss, msum, resid, mmul, zr_V, zr_H, sl_W, ones; cbn; lra|].
  destruct (C136_tends_to_the_best 1 2 2 zr_V ones zr_H sl_W (fun _ a => if (a =? 0)%nat then 0 else 7 / 10) (1 / 100) A B C D E) as [N HN]; [intros i a _ _; cbv beta; destruct (a =? 0)%nat; lra|lra|].
  exists N. intros t Ht. destruct (HN t Ht) as (W' & I & L). exists W'. split; [exact I|]. eapply Rle_trans; [exact L|].
  unfold q_loss, msum, resid, mmul, zr_V, zr_H, ones; cbn; lra.
Qed.

Example C136_rate_example :=
  match C136_instance with conj a (conj b (conj c (conj d (conj e _)))) =>
    C136_rate 1 2 2 zr_V ones zr_H sl_W a b c d e end.
Example C136_run_example :=
  match C136_instance with conj a (conj b (conj c (conj d (conj e (conj f _))))) =>
    C136_run 1 2 2 zr_V ones (1 / 1000) 10 true (-1) sl_W zr_H (fun _ => false) 1000 a b c d e f eq_refl end.
Example C136_run_py_example :=
  match C136_instance with conj a (conj b (conj c (conj d (conj e (conj f _))))) =>
    C136_run_py 1 2 2 zr_V ones (1 / 1000) 10 true (-1) sl_W zr_H 1000 a b c d e f eq_refl ltac:(lia) end.
