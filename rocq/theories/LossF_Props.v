(** Property C132: how far the reported Q(true) is from the exact Q(true) of the
    returned factors. *)
From Coq Require Import ZArith Reals Lra Lia List Bool Permutation Arith.
From Flocq Require Import Core BinarySingleNaN.
From Verif Require Import Base Float_Model Float_Spec Float_Proofs Acc_Spec Acc_Proofs RobF_Model RobF_Spec RobF_Proofs RobF_Acc Train_Model Train_Spec Train_Proofs LossF_Proofs.
From Verif Require Import LSNMF_Model.
From Verif Require Acc_Props.
Import ListNotations.
Local Open Scope R_scope.

(** Root of the sum of squared residuals over uncertainties, in exact arithmetic. *)
Definition exact_root (m n k : nat) (V U W H : mat) : R :=
  sqrt (msum m n (fun i j => Rsqr ((V i j - rsum k (fun a => W i a * H a j)) / U i j))).
(** The same of the data themselves. *)
Definition data_root (m n : nat) (V U : mat) : R := sqrt (msum m n (fun i j => Rsqr (V i j / U i j))).

(** What the product of the factors must satisfy: no overflow, nothing subnormal. *)
Definition product_range (emax : Z) (m n k : nat) (W H : mat) : Prop := forall i j, (i < m)%nat -> (j < n)%nat ->
  in_range (emax := emax) (rsum k (fun a => W i a * H a j)) /\ forall a, (a < k)%nat -> in_range (emax := emax) (W i a * H a j).

(** The error allowed to the root of the reported loss. *)
Definition allowance (prec emax : Z) (m n k : nat) (X N : R) : R :=
  2 * INR (m * n + k + 3) * bpow radix2 (- prec) * (X + N) + 4 * sqrt (INR (m * n) * bpow radix2 (2 - emax - prec)).

Section C132.
  Context (prec emax : Z) (Hp : Prec_gt_0 prec) (He : Prec_lt_emax prec emax) (m n k : nat) (V U W H : fmat prec emax).
  Notation F := (binary_float prec emax).
  Notation fexp := (SpecFloat.fexp prec emax).
  Notation rnd := (round radix2 fexp (round_mode mode_NE)).
  Notation x := (exact_root m n k (value V) (value U) (value W) (value H)).
  Notation nv := (data_root m n (value V) (value U)).
  Context (HU : every m n positive U) (HW : every m k proper W) (HH : every k n proper H).
  Context (HR : product_range emax m n k (value W) (value H)) (HB : (2 * Z.of_nat (m * n + k + 3) <= 2 ^ prec)%Z).

  Lemma x_eq : X m n k V U W H = x.
  Proof.
    unfold X, exact_root, norm. f_equal. apply msum_ext. intros i j Hi Hj. pose proof (proj2 (HU i j Hi Hj)) as P. unfold vs, ms, one, model, Rsqr, value in *. field. lra.
  Qed.
  Lemma n_eq : N m n V U = nv.
  Proof. unfold N, data_root, norm. f_equal. apply msum_ext. intros i j Hi Hj. unfold vs, one, Rsqr. ring. Qed.

  Lemma cells_in WH l : l = map (fun p => let r := scaled V U WH (fst p) (snd p) in fmul r r) (list_prod (seq 0 m) (seq 0 n)) ->
    (forall i j, (i < m)%nat -> (j < n)%nat -> In (fmul (scaled V U WH i j) (scaled V U WH i j)) l) /\ List.length l = (m * n)%nat /\
    exact_sum l = msum m n (fun i j => B2R (fmul (scaled V U WH i j) (scaled V U WH i j))) /\ (forall y, In y l -> nonneg y).
  Proof.
    intros ->. split; [|split; [|split]].
    - intros i j Hi Hj. apply in_map_iff. exists (i, j). split; [reflexivity|]. apply in_prod; apply in_seq; lia.
    - rewrite map_length, prod_length, !seq_length. reflexivity.
    - exact (exact_sum_cells m n (fun i j => fmul (scaled V U WH i j) (scaled V U WH i j))).
    - intros y Hy. apply in_map_iff in Hy. destruct Hy as (p & <- & _). cbv zeta. apply nn_sqr.
  Qed.

  Lemma reported_near q : every m n (fun y => is_finite y = true) V -> fq m n k V U (W, H) q -> is_finite q = true ->
    Rabs (sqrt (B2R q) - x) <= allowance prec emax m n k x nv.
  Proof.
    intros HV (WH & HP & HT) Fq. cbn [fst snd] in HP. remember (map _ _) as l eqn:El in HT.
    destruct (cells_in WH l El) as (C1 & C2 & C3 & C4). pose proof (total_finite_inv l q HT C4 Fq) as Gd.
    assert (Gs : forall i j, (i < m)%nat -> (j < n)%nat -> good (fmul (scaled V U WH i j) (scaled V U WH i j))) by (intros i j Hi Hj; rewrite Forall_forall in Gd; apply Gd, C1; assumption).
    assert (Fw : forall i j, (i < m)%nat -> (j < n)%nat -> is_finite (WH i j) = true).
    { intros i j Hi Hj. refine (proj2 (proj1 (wh_near m n k W H WH HW HH HP HR _ i j Hi Hj))). apply (HBp m n k HB). lia. }
    rewrite <- x_eq, <- n_eq. unfold allowance.
    apply (reported m n k V U W H WH HU HW HH HP HR HB (fun i j => B2R (fsub (V i j) (WH i j))) (fun i j => B2R (scaled V U WH i j)) (fun i j => B2R (fmul (scaled V U WH i j) (scaled V U WH i j)))).
    - intros i j Hi Hj. destruct (Gs i j Hi Hj) as [_ Fs]. apply sqr_finite_inv in Fs. unfold scaled in Fs. apply div_finite_inv in Fs; [|apply HU; assumption].
      apply sub_error; [apply HV; assumption|apply Fw; assumption|exact Fs].
    - intros i j Hi Hj. destruct (Gs i j Hi Hj) as [_ Fs]. apply sqr_finite_inv in Fs. apply div_error; [apply HU; assumption|exact Fs].
    - intros i j Hi Hj. destruct (Gs i j Hi Hj) as [Ss Fs]. split; [apply B2R_nonneg, Ss|apply sqr_error, Fs].
    - apply B2R_nonneg. exact (total_good l q HT Gd).
    - rewrite <- C3, <- C2. apply total_near_all; assumption.
  Qed.

  Lemma reported_finite q : every m n proper V -> (x + nv) * (x + nv) <= bpow radix2 (emax - 6) -> fq m n k V U (W, H) q -> is_finite q = true.
  Proof.
    intros HV Hbig (WH & HP & HT). cbn [fst snd] in HP. remember (map _ _) as l eqn:El in HT.
    destruct (cells_in WH l El) as (C1 & C2 & C3 & C4).
    assert (Pw : forall i j, (i < m)%nat -> (j < n)%nat -> proper (WH i j)).
    { intros i j Hi Hj. refine (proj1 (wh_near m n k W H WH HW HH HP HR _ i j Hi Hj)). apply (HBp m n k HB). lia. }
    assert (Fd : forall i j, (i < m)%nat -> (j < n)%nat -> is_finite (fsub (V i j) (WH i j)) = true).
    { intros i j Hi Hj. destruct (HV i j Hi Hj) as [A B]. destruct (Pw i j Hi Hj) as [C D]. apply sub_finite; assumption. }
    set (d := fun i j => B2R (fsub (V i j) (WH i j))). set (e := fun i j => rnd (d i j / value U i j)). set (s := fun i j => rnd (e i j * e i j)).
    assert (Hd : forall i j, (i < m)%nat -> (j < n)%nat -> Rabs (d i j - (value V i j - value WH i j)) <= bpow radix2 (- prec) * Rabs (value V i j - value WH i j)).
    { intros i j Hi Hj. apply sub_error; [apply HV; assumption|apply Pw; assumption|apply Fd; assumption]. }
    assert (Hee : forall i j, (i < m)%nat -> (j < n)%nat -> Rabs (e i j - d i j / value U i j) <= bpow radix2 (- prec) * Rabs (d i j / value U i j) + bpow radix2 (2 - emax - prec)) by (intros; apply rnd_error).
    assert (Hs : forall i j, (i < m)%nat -> (j < n)%nat -> 0 <= s i j /\ Rabs (s i j - e i j * e i j) <= bpow radix2 (- prec) * (e i j * e i j) + bpow radix2 (2 - emax - prec)).
    { intros i j _ _. split; [apply rnd_nonneg; nra|]. pose proof (rnd_error (prec := prec) (emax := emax) (e i j * e i j)) as E. rewrite (Rabs_pos_eq (e i j * e i j)) in E by nra. exact E. }
    pose proof (A_near m n k V U W H WH HU HW HH HP HR HB d e Hd Hee) as [A1 _]. rewrite x_eq, n_eq in A1.
    pose proof (squares_sum m n e s Hs) as [S1 _].
    destruct (eta_small (prec := prec) (emax := emax) m n k HB) as [Et Em].
    set (A := msum m n (fun i j => e i j * e i j)) in *. set (eta := bpow radix2 (2 - emax - prec)) in *.
    assert (X0 : 0 <= x) by apply sqrt_pos. assert (N0 : 0 <= nv) by apply sqrt_pos.
    assert (A0 : 0 <= A) by (unfold A; apply msum_nonneg; intros i j _ _; nra).
    pose proof (HBp m n k HB 1 ltac:(lia)) as G1. rewrite pow_1 in G1. pose proof (HBp m n k HB (k + 2) ltac:(lia)) as G2. pose proof (HBp m n k HB (m * n) ltac:(lia)) as G3.
    assert (P3 : (3 <= prec)%Z).
    { destruct (Z_lt_le_dec prec 3) as [L|L]; [|exact L]. exfalso. assert (prec = 1 \/ prec = 2)%Z as [E|E] by (unfold Prec_gt_0 in Hp; lia); rewrite E in HB; change (2 ^ 1)%Z with 2%Z in HB; change (2 ^ 2)%Z with 4%Z in HB; lia. }
    assert (E4 : bpow radix2 (1 - emax) <= / 8).
    { change (/ 8) with (bpow radix2 (-3)). apply bpow_le. unfold Prec_lt_emax in He. lia. }
    assert (Sm : sqrt (INR (m * n)) * eta <= / 2).
    { eapply Rle_trans; [apply (sqrt_eta (prec := prec) (emax := emax) m n k HB)|]. replace (/ 2) with (sqrt (/ 2 * / 2)) by (apply sqrt_square; lra). apply sqrt_le_1_alt. fold eta. lra. }
    set (z := x + nv) in *. assert (Z0 : 0 <= z) by (unfold z; lra).
    assert (RA : sqrt A <= 2 * z + / 2).
    { eapply Rle_trans; [exact A1|]. assert ((growth prec ^ (k + 2) - 1) * z <= 1 * z) by (apply Rmult_le_compat_r; lra). unfold z in *. lra. }
    assert (LA : A <= 8 * (z * z) + / 2).
    { rewrite <- (sqrt_sqrt A A0). pose proof (sqrt_pos A). apply Rle_trans with ((2 * z + / 2) * (2 * z + / 2)); [apply Rmult_le_compat; assumption|]. pose proof (Rle_0_sqr (2 * z - / 2)) as Q. unfold Rsqr in Q. nra. }
    assert (LS : msum m n s <= 16 * (z * z) + 2) by nra.
    assert (T5 : bpow radix2 emax = 64 * bpow radix2 (emax - 6)).
    { replace emax with (6 + (emax - 6))%Z at 1 by lia. rewrite bpow_plus. reflexivity. }
    assert (T4 : 16 <= bpow radix2 emax) by (change 16 with (bpow radix2 4); apply bpow_le; unfold Prec_lt_emax in He; lia).
    assert (Bs : 2 * msum m n s < bpow radix2 emax) by lra.
    assert (Ls : forall i j, (i < m)%nat -> (j < n)%nat -> s i j < bpow radix2 emax).
    { intros i j Hi Hj. apply Rle_lt_trans with (msum m n s); [|assert (0 <= msum m n s) by (apply msum_nonneg; intros a b Ha Hb; apply Hs; assumption); lra].
      unfold msum. eapply Rle_trans; [|apply (rsum_ge_term m (fun i => rsum n (fun j => s i j)) i); [intros; apply rsum_nonneg; intros; apply Hs; assumption|exact Hi]].
      apply (rsum_ge_term n (fun j => s i j) j); [intros; apply Hs; assumption|exact Hj]. }
    assert (Le : forall i j, (i < m)%nat -> (j < n)%nat -> Rabs (e i j) < bpow radix2 emax).
    { intros i j Hi Hj. destruct (Rlt_le_dec (Rabs (e i j)) (bpow radix2 emax)) as [L|L]; [exact L|exfalso].
      pose proof (top_ge1 (prec := prec) (emax := emax)) as T1.
      assert (bpow radix2 emax <= e i j * e i j) by (replace (e i j * e i j) with (Rabs (e i j) * Rabs (e i j)) by (rewrite <- Rabs_mult; apply Rabs_pos_eq; nra); nra).
      pose proof (rnd_top (prec := prec) (emax := emax) _ H0). pose proof (Ls i j Hi Hj). unfold s in *. lra. }
    assert (Ve : forall i j, (i < m)%nat -> (j < n)%nat -> is_finite (scaled V U WH i j) = true /\ B2R (scaled V U WH i j) = e i j).
    { intros i j Hi Hj. destruct (HU i j Hi Hj) as [Fu Pu]. unfold scaled.
      pose proof (Bdiv_correct prec emax _ _ mode_NE (fsub (V i j) (WH i j)) (U i j) ltac:(lra)) as C. fold (fdiv (fsub (V i j) (WH i j)) (U i j)) in C.
      rewrite Rlt_bool_true in C by (apply (Le i j Hi Hj)). destruct C as (D1 & D2 & _). rewrite D2. split; [apply Fd; assumption|exact D1]. }
    assert (Vs : forall i j, (i < m)%nat -> (j < n)%nat -> good (fmul (scaled V U WH i j) (scaled V U WH i j)) /\ B2R (fmul (scaled V U WH i j) (scaled V U WH i j)) = s i j).
    { intros i j Hi Hj. destruct (Ve i j Hi Hj) as [Fe Ee]. pose proof (Bmult_correct prec emax _ _ mode_NE (scaled V U WH i j) (scaled V U WH i j)) as C.
      fold (fmul (scaled V U WH i j) (scaled V U WH i j)) in C. rewrite Ee in C. change (rnd (e i j * e i j)) with (s i j) in C.
      rewrite Rlt_bool_true in C by (rewrite Rabs_pos_eq by (apply Hs; assumption); apply Ls; assumption). destruct C as (D1 & D2 & _). rewrite Fe in D2. cbn in D2.
      split; [apply finite_nn; [exact D2|apply nn_sqr]|exact D1]. }
    assert (Gd : Forall good l).
    { rewrite Forall_forall. intros y Hy. rewrite El in Hy. apply in_map_iff in Hy. destruct Hy as ([i j] & <- & Hij). apply in_prod_iff in Hij. destruct Hij as [Hi Hj]. apply in_seq in Hi. apply in_seq in Hj. cbn [fst snd]. cbv zeta. apply Vs; lia. }
    apply (total_no_overflow l q HT Gd). rewrite C3, C2.
    rewrite (msum_ext m n _ s) by (intros i j Hi Hj; apply Vs; assumption).
    assert (S0 : 0 <= msum m n s) by (apply msum_nonneg; intros i j Hi Hj; apply Hs; assumption).
    apply Rle_lt_trans with (msum m n s * 2); [|lra]. apply Rmult_le_compat_l; [exact S0|]. eapply Rle_trans; [|exact G3].
    destruct (u_g (prec := prec)) as [U1 _]. pose proof (u_half (prec := prec)) as U2. eapply Rle_trans; [apply pow_incr; split; [|exact U1]; lra|]. apply g_mono. lia.
  Qed.
End C132.

Theorem C132_reported_loss :
  forall (prec emax : Z) (Hp : Prec_gt_0 prec) (He : Prec_lt_emax prec emax) (m n k : nat) (V U W H : fmat prec emax) (q : binary_float prec emax),
  every m n (fun x => is_finite x = true) V -> every m n (fun x => is_finite x = true /\ 0 < B2R x) U ->
  every m k proper W -> every k n proper H -> product_range emax m n k (value W) (value H) ->
  (2 * Z.of_nat (m * n + k + 3) <= 2 ^ prec)%Z ->
  fq m n k V U (W, H) q -> is_finite q = true ->
  let exact := sqrt (msum m n (fun i j => Rsqr ((value V i j - rsum k (fun a => value W i a * value H a j)) / value U i j))) in
  let data := sqrt (msum m n (fun i j => Rsqr (value V i j / value U i j))) in
  Rabs (sqrt (B2R q) - exact) <=
    2 * INR (m * n + k + 3) * bpow radix2 (- prec) * (exact + data) + 4 * sqrt (INR (m * n) * bpow radix2 (2 - emax - prec)).
Proof. intros prec emax Hp He m n k V U W H q HV HU HW HH HR HB HQ Fq. exact (reported_near prec emax Hp He m n k V U W H HU HW HH HR HB q HV HQ Fq). Qed.
Print Assumptions C132_reported_loss.

Theorem C132_no_overflow :
  forall (prec emax : Z) (Hp : Prec_gt_0 prec) (He : Prec_lt_emax prec emax) (m n k : nat) (V U W H : fmat prec emax) (q : binary_float prec emax),
  every m n proper V -> every m n (fun x => is_finite x = true /\ 0 < B2R x) U ->
  every m k proper W -> every k n proper H -> product_range emax m n k (value W) (value H) ->
  (2 * Z.of_nat (m * n + k + 3) <= 2 ^ prec)%Z ->
  Rsqr (sqrt (msum m n (fun i j => Rsqr ((value V i j - rsum k (fun a => value W i a * value H a j)) / value U i j))) +
        sqrt (msum m n (fun i j => Rsqr (value V i j / value U i j)))) <= bpow radix2 (emax - 6) ->
  fq m n k V U (W, H) q -> is_finite q = true.
Proof. intros prec emax Hp He m n k V U W H q HV HU HW HH HR HB HS HQ. exact (reported_finite prec emax Hp He m n k V U W H HU HW HH HR HB q HV HS HQ). Qed.
Print Assumptions C132_no_overflow.

(** Choosing between two models by the reported loss. *)
Theorem C132_choice :
  forall (prec emax : Z) (Hp : Prec_gt_0 prec) (He : Prec_lt_emax prec emax) (m n k : nat) (V U W1 H1 W2 H2 : fmat prec emax) (q1 q2 : binary_float prec emax),
  every m n (fun x => is_finite x = true) V -> every m n (fun x => is_finite x = true /\ 0 < B2R x) U ->
  every m k proper W1 -> every k n proper H1 -> product_range emax m n k (value W1) (value H1) ->
  every m k proper W2 -> every k n proper H2 -> product_range emax m n k (value W2) (value H2) ->
  (2 * Z.of_nat (m * n + k + 3) <= 2 ^ prec)%Z ->
  fq m n k V U (W1, H1) q1 -> fq m n k V U (W2, H2) q2 -> is_finite q2 = true -> Bleb q1 q2 = true ->
  let exact W H := sqrt (msum m n (fun i j => Rsqr ((value V i j - rsum k (fun a => value W i a * value H a j)) / value U i j))) in
  let data := sqrt (msum m n (fun i j => Rsqr (value V i j / value U i j))) in
  exact W1 H1 <= exact W2 H2 + 2 * INR (m * n + k + 3) * bpow radix2 (- prec) * (exact W1 H1 + exact W2 H2 + 2 * data) + 8 * sqrt (INR (m * n) * bpow radix2 (2 - emax - prec)).
Proof.
  intros prec emax Hp He m n k V U W1 H1 W2 H2 q1 q2 HV HU HW1 HH1 HR1 HW2 HH2 HR2 HB Q1 Q2 F2 L exact data.
  assert (F1 : is_finite q1 = true /\ B2R q1 <= B2R q2).
  { assert (N1 : nonneg q1) by (eapply fq_nn; exact Q1).
    assert (F1 : is_finite q1 = true).
    { destruct N1 as [N1|N1]; [rewrite (nan_eq q1 N1) in L; discriminate|]. destruct q1 as [|s1| |]; try reflexivity; try discriminate. cbn in N1. subst s1. destruct q2; discriminate. }
    split; [exact F1|]. rewrite (Bleb_correct _ _ q1 q2 F1 F2) in L. destruct (Rle_bool_spec (B2R q1) (B2R q2)); [assumption|discriminate]. }
  destruct F1 as [F1 Lq].
  pose proof (reported_near prec emax Hp He m n k V U W1 H1 HU HW1 HH1 HR1 HB q1 HV Q1 F1) as E1.
  pose proof (reported_near prec emax Hp He m n k V U W2 H2 HU HW2 HH2 HR2 HB q2 HV Q2 F2) as E2.
  unfold allowance in E1, E2. change (exact_root m n k (value V) (value U) (value W1) (value H1)) with (exact W1 H1) in E1. change (exact_root m n k (value V) (value U) (value W2) (value H2)) with (exact W2 H2) in E2.
  change (data_root m n (value V) (value U)) with data in E1, E2. apply Rabs_le_inv in E1. apply Rabs_le_inv in E2. pose proof (sqrt_le_1_alt _ _ Lq). lra.
Qed.
Print Assumptions C132_choice.

(** The loss a fit reports with its factors. *)
Theorem C132_rust_fit :
  forall (prec emax : Z) (Hp : Prec_gt_0 prec) (He : Prec_lt_emax prec emax) (m n k : nat) (V U We W0 H0 : fmat prec emax) upd
    (loss : fmat prec emax * fmat prec emax -> binary_float prec emax) (delta : binary_float prec emax)
    (cn : Z) (hold_h : bool) (delay_h : Z) (tick : nat -> bool) (max_iter : Z) (q : binary_float prec emax),
  implements m n k V We upd -> measures m n k V U loss ->
  every m n proper V -> every m n proper We -> every m n (fun x => is_finite x = true /\ 0 < B2R x) U -> every m k proper W0 -> every k n proper H0 ->
  (2 * Z.of_nat (2 * m + 2 * n + 2 * k + 8) <= 2 ^ prec)%Z -> (2 * Z.of_nat (m * n + k + 3) <= 2 ^ prec)%Z ->
  let r := rust_train upd loss (ieee_below delta) cn hold_h delay_h tick max_iter (W0, H0) in
  let W := fst (rr_state r) in let H := snd (rr_state r) in
  (forall i, (i < List.length (rr_hist r))%nat -> Acc_Props.step_range prec emax m n k V We upd (hold_at hold_h delay_h i) (state_at upd (hold_at hold_h delay_h) (W0, H0) i)) ->
  product_range emax m n k (value W) (value H) ->
  rr_q r = Some q -> is_finite q = true ->
  let exact := sqrt (msum m n (fun i j => Rsqr ((value V i j - rsum k (fun a => value W i a * value H a j)) / value U i j))) in
  let data := sqrt (msum m n (fun i j => Rsqr (value V i j / value U i j))) in
  Rabs (sqrt (B2R q) - exact) <=
    2 * INR (m * n + k + 3) * bpow radix2 (- prec) * (exact + data) + 4 * sqrt (INR (m * n) * bpow radix2 (2 - emax - prec)).
Proof.
  intros prec emax Hp He m n k V U We W0 H0 upd loss delta cn hold_h delay_h tick max_iter q Hi Hm HV HWe HU HW HH B1 B2 r W H Hr HR Eq Fq.
  destruct (Acc_Props.C115_rust_fit_growth prec emax Hp He m n k V We W0 H0 upd loss delta cn hold_h delay_h tick max_iter Hi HV HWe HW HH B1 Hr) as (PW & PH & _).
  fold r in PW, PH. fold W in PW. fold H in PH.
  destruct (rust_summary upd loss (ieee_below delta) cn hold_h delay_h tick (W0, H0) max_iter _
              (hold_at_held_iff hold_h delay_h)) as (_ & _ & Es & E & _). fold r in Es, E. rewrite Eq in E.
  destruct (Nat.eqb_spec (List.length (rr_hist r)) 0) as [Z|Z]; [discriminate|]. injection E as ->.
  apply (reported_near prec emax Hp He); try assumption; [intros i j Hi' Hj'; apply HV; assumption|].
  unfold loss_at. replace (Datatypes.S (List.length (rr_hist r) - 1)) with (List.length (rr_hist r)) by lia. rewrite <- Es.
  replace (W, H) with (rr_state r) by (unfold W, H; destruct (rr_state r); reflexivity). apply Hm.
Qed.
Print Assumptions C132_rust_fit.

Theorem C132_python_fit :
  forall (prec emax : Z) (Hp : Prec_gt_0 prec) (He : Prec_lt_emax prec emax) (m n k : nat) (V U We W0 H0 : fmat prec emax) upd
    (loss : fmat prec emax * fmat prec emax -> binary_float prec emax) (delta : binary_float prec emax)
    (nan_stop : fmat prec emax * fmat prec emax -> bool) (cn : Z) (hold_h : bool) (delay_h : Z) (max_iter : Z) (hist : list (binary_float prec emax)) (q : binary_float prec emax),
  (1 <= cn)%Z -> implements m n k V We upd -> measures m n k V U loss ->
  every m n proper V -> every m n proper We -> every m n (fun x => is_finite x = true /\ 0 < B2R x) U -> every m k proper W0 -> every k n proper H0 ->
  (2 * Z.of_nat (2 * m + 2 * n + 2 * k + 8) <= 2 ^ prec)%Z -> (2 * Z.of_nat (m * n + k + 3) <= 2 ^ prec)%Z ->
  let r := py_train upd loss (ieee_below delta) nan_stop cn delay_h hold_h max_iter (W0, H0) in
  let W := fst (pr_state r) in let H := snd (pr_state r) in
  (forall i, (i < List.length (pr_hist r))%nat -> Acc_Props.step_range prec emax m n k V We upd (hold_at hold_h delay_h i) (state_at upd (hold_at hold_h delay_h) (W0, H0) i)) ->
  product_range emax m n k (value W) (value H) ->
  pr_hist r = hist ++ [q] -> is_finite q = true ->
  let exact := sqrt (msum m n (fun i j => Rsqr ((value V i j - rsum k (fun a => value W i a * value H a j)) / value U i j))) in
  let data := sqrt (msum m n (fun i j => Rsqr (value V i j / value U i j))) in
  Rabs (sqrt (B2R q) - exact) <=
    2 * INR (m * n + k + 3) * bpow radix2 (- prec) * (exact + data) + 4 * sqrt (INR (m * n) * bpow radix2 (2 - emax - prec)).
Proof.
  intros prec emax Hp He m n k V U We W0 H0 upd loss delta nan_stop cn hold_h delay_h max_iter hist q Hc Hi Hm HV HWe HU HW HH B1 B2 r W H Hr HR Eq Fq.
  destruct (Acc_Props.C115_python_fit_growth prec emax Hp He m n k V We W0 H0 upd loss delta nan_stop cn hold_h delay_h max_iter Hc Hi HV HWe HW HH B1 Hr) as (PW & PH & _).
  fold r in PW, PH. fold W in PW. fold H in PH.
  destruct (py_summary upd loss (ieee_below delta) nan_stop cn hold_h delay_h (W0, H0) max_iter _ Hc
              (hold_at_held_iff hold_h delay_h)) as (_ & Eh & Es & _). fold r in Es, Eh.
  assert (L : List.length (pr_hist r) = Datatypes.S (List.length hist)) by (rewrite Eq, app_length; cbn; lia).
  rewrite L in Es, Eh. rewrite seq_S, map_app, Eq in Eh. apply app_inj_tail in Eh. destruct Eh as [_ ->].
  apply (reported_near prec emax Hp He); try assumption; [intros i j Hi' Hj'; apply HV; assumption|].
  unfold loss_at. cbn [plus]. rewrite <- Es.
  replace (W, H) with (pr_state r) by (unfold W, H; destruct (pr_state r); reflexivity). apply Hm.
Qed.
Print Assumptions C132_python_fit.

(** A reported loss of zero does not mean an exact fit: one cell, data 1, factors
    1 + 2^-23 and 1 - 2^-23. *)
Definition one32 : fmat 24 128 := fun _ _ => lit32 1 0.
Definition up32 : fmat 24 128 := fun _ _ => lit32 8388609 (-23).
Definition down32 : fmat 24 128 := fun _ _ => lit32 8388607 (-23).
Lemma up_value i j : B2R (up32 i j) = 8388609 / 8388608 /\ proper (up32 i j).
Proof.
  split; [|split; vm_compute; reflexivity]. assert (E : B2R (lit32 8388609 (-23)) = F2R (Float radix2 8388609 (-23))) by (vm_compute; reflexivity).
  unfold up32. rewrite E. unfold F2R. cbn. lra.
Qed.
Lemma down_value i j : B2R (down32 i j) = 8388607 / 8388608 /\ proper (down32 i j).
Proof.
  split; [|split; vm_compute; reflexivity]. assert (E : B2R (lit32 8388607 (-23)) = F2R (Float radix2 16777214 (-24))) by (vm_compute; reflexivity).
  unfold down32. rewrite E. unfold F2R. cbn. lra.
Qed.

Theorem C132_zero_means_exact_refuted :
  ~ (forall (V U W H : fmat 24 128) (loss : fmat 24 128 * fmat 24 128 -> b32),
       measures 1 1 1 V U loss -> every 1 1 proper V -> every 1 1 (fun x => is_finite x = true /\ 0 < B2R x) U ->
       every 1 1 proper W -> every 1 1 proper H -> product_range 128 1 1 1 (value W) (value H) ->
       B2R (loss (W, H)) = 0 -> is_finite (loss (W, H)) = true ->
       value V 0%nat 0%nat = value W 0%nat 0%nat * value H 0%nat 0%nat).
Proof.
  intros C. destruct (Acc_Props.lit_value 1 ltac:(auto)) as [L1 P1]. destruct (up_value 0%nat 0%nat) as [Lu Pu]. destruct (down_value 0%nat 0%nat) as [Ld Pd].
  assert (E : value one32 0%nat 0%nat = value up32 0%nat 0%nat * value down32 0%nat 0%nat).
  { apply (C one32 one32 up32 down32 (q_ltr 1 1 1 one32 one32)).
    - apply q_ltr_ok.
    - intros i j _ _. exact P1.
    - intros i j _ _. split; [exact (proj2 P1)|]. unfold one32. rewrite L1. lra.
    - intros i j _ _. exact Pu.
    - intros i j _ _. exact Pd.
    - intros i j _ _. cbn [rsum]. unfold value. rewrite (proj1 (up_value i 0%nat)), (proj1 (down_value 0%nat j)). split; [apply Acc_Props.range32; lra|].
      intros a _. rewrite (proj1 (up_value i a)), (proj1 (down_value a j)). apply Acc_Props.range32; lra.
    - vm_compute. reflexivity.
    - vm_compute. reflexivity. }
  unfold value in E. rewrite Lu, Ld in E. unfold one32 in E. rewrite L1 in E. lra.
Qed.
Print Assumptions C132_zero_means_exact_refuted.

(** Two samples, one feature, one factor, uncertainties 3: the exact loss is 5/9,
    which is no number of the format. *)
Definition u3 : fmat 24 128 := fun _ _ => lit32 3 0.
Example C132_instance :
  every 2 1 proper Acc_Props.v1 /\ every 2 1 (fun x => is_finite x = true /\ 0 < B2R x) u3 /\ every 2 1 proper Acc_Props.w1 /\ every 1 1 proper Acc_Props.h1 /\
  product_range 128 2 1 1 (value Acc_Props.w1) (value Acc_Props.h1) /\
  (exists q, fq 2 1 1 Acc_Props.v1 u3 (Acc_Props.w1, Acc_Props.h1) q /\ is_finite q = true /\ B2R q = 9320676 / 16777216) /\
  msum 2 1 (fun i j => Rsqr ((value Acc_Props.v1 i j - rsum 1 (fun a => value Acc_Props.w1 i a * value Acc_Props.h1 a j)) / value u3 i j)) = 5 / 9 /\
  msum 2 1 (fun i j => Rsqr (value Acc_Props.v1 i j / value u3 i j)) = 26 / 9.
Proof.
  pose proof (Acc_Props.lit_value 1 ltac:(auto)) as [L1 P1]. pose proof (Acc_Props.lit_value 2 ltac:(auto)) as [L2 P2].
  pose proof (Acc_Props.lit_value 3 ltac:(auto)) as [L3 P3]. pose proof (Acc_Props.lit_value 5 ltac:(auto)) as [L5 P5].
  assert (V0 : forall j, value Acc_Props.v1 0%nat j = 1) by (intros; exact L1). assert (V1 : forall j, value Acc_Props.v1 1%nat j = 5) by (intros; exact L5).
  assert (E0 : forall i j, value u3 i j = 3) by (intros; exact L3).
  assert (W0 : forall j, value Acc_Props.w1 0%nat j = 1) by (intros; exact L1). assert (W1 : forall j, value Acc_Props.w1 1%nat j = 2) by (intros; exact L2).
  assert (H0 : forall i j, value Acc_Props.h1 i j = 3) by (intros; exact L3).
  split; [intros [|[|i]] j Hi _; [exact P1|exact P5|lia]|]. split; [intros i j _ _; split; [exact (proj2 P3)|unfold u3; rewrite L3; lra]|].
  split; [intros [|[|i]] j Hi _; [exact P1|exact P2|lia]|]. split; [intros i j _ _; exact P3|]. split; [|split; [|split]].
  - intros [|[|i]] [|j] Hi Hj; try lia; cbn [rsum]; rewrite ?W0, ?W1, ?H0; (split; [apply Acc_Props.range32; lra|]); intros [|a] Ha; try lia; rewrite ?W0, ?W1, ?H0; apply Acc_Props.range32; lra.
  - exists (q_ltr 2 1 1 Acc_Props.v1 u3 (Acc_Props.w1, Acc_Props.h1)). split; [apply q_ltr_ok|]. split; [vm_compute; reflexivity|].
    assert (E : B2R (q_ltr 2 1 1 Acc_Props.v1 u3 (Acc_Props.w1, Acc_Props.h1)) = F2R (Float radix2 9320676 (-24))) by (vm_compute; reflexivity).
    rewrite E. unfold F2R. cbn. lra.
  - unfold msum. cbn [rsum]. rewrite ?V0, ?V1, ?E0, ?W0, ?W1, ?H0. unfold Rsqr. lra.
  - unfold msum. cbn [rsum]. rewrite ?V0, ?V1, ?E0. unfold Rsqr. lra.
Qed.

Lemma xlf_v : every 2 1 (fun x => is_finite x = true) Acc_Props.v1.
Proof. intros i j Hi Hj. destruct (proj1 C132_instance i j Hi Hj); assumption. Qed.
Example C132_reported_loss_example : exists q, fq 2 1 1 Acc_Props.v1 u3 (Acc_Props.w1, Acc_Props.h1) q /\
  Rabs (sqrt (B2R q) - sqrt (5 / 9)) <= 2 * INR 6 * bpow radix2 (- 24) * (sqrt (5 / 9) + sqrt (26 / 9)) + 4 * sqrt (INR 2 * bpow radix2 (2 - 128 - 24)).
Proof.
  destruct C132_instance as (_ & Hu & Hw & Hh & Hr & (q & Q & F & _) & E & D). exists q. split; [exact Q |].
  rewrite <- E, <- D. exact (C132_reported_loss 24 128 _ _ 2 1 1 Acc_Props.v1 u3 Acc_Props.w1 Acc_Props.h1 q xlf_v Hu Hw Hh Hr ltac:(cbn; lia) Q F).
Qed.
Example C132_no_overflow_example : forall q, fq 2 1 1 Acc_Props.v1 u3 (Acc_Props.w1, Acc_Props.h1) q -> is_finite q = true.
Proof.
  intros q Q. destruct C132_instance as (Hv & Hu & Hw & Hh & Hr & _ & E & D).
  refine (C132_no_overflow 24 128 _ _ 2 1 1 Acc_Props.v1 u3 Acc_Props.w1 Acc_Props.h1 q Hv Hu Hw Hh Hr ltac:(cbn; lia) _ Q).
  rewrite E, D. apply Rle_trans with 16.
  - pose proof (sqrt_pos (5 / 9)). pose proof (sqrt_pos (26 / 9)).
    assert (sqrt (5 / 9) <= 2) by (rewrite <- (sqrt_square 2) by lra; apply sqrt_le_1_alt; lra).
    assert (sqrt (26 / 9) <= 2) by (rewrite <- (sqrt_square 2) by lra; apply sqrt_le_1_alt; lra). unfold Rsqr. nra.
  - change 16 with (bpow radix2 4). apply bpow_le. lia.
Qed.
Example C132_choice_example q1 q2 :=
  C132_choice 24 128 _ _ 2 1 1 Acc_Props.v1 u3 Acc_Props.w1 Acc_Props.h1 Acc_Props.w1 Acc_Props.h1 q1 q2 xlf_v (proj1 (proj2 C132_instance))
    (proj1 (proj2 (proj2 C132_instance))) (proj1 (proj2 (proj2 (proj2 C132_instance)))) (proj1 (proj2 (proj2 (proj2 (proj2 C132_instance)))))
    (proj1 (proj2 (proj2 C132_instance))) (proj1 (proj2 (proj2 (proj2 C132_instance)))) (proj1 (proj2 (proj2 (proj2 (proj2 C132_instance))))) ltac:(cbn; lia).
