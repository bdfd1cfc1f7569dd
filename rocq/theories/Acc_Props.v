(** Property C115: how far LS-NMF in IEEE arithmetic is from exact LS-NMF. *)
From Coq Require Import ZArith Reals Lra Lia List Bool Permutation Arith.
From Flocq Require Import Core BinarySingleNaN.
From Verif Require Import Base LSNMF_Model Float_Model Float_Spec Float_Proofs Train_Model Train_Spec Train_Proofs Acc_Spec Acc_Proofs.
Import ListNotations.
Local Open Scope R_scope.

Section C115.
  Context (prec emax : Z) (Hp : Prec_gt_0 prec) (He : Prec_lt_emax prec emax) (m n k : nat) (V We : fmat prec emax).
  Context (HV : every m n proper V) (HWe : every m n proper We).
  Notation v := (value V). Notation we := (value We).

  Lemma h_close W H H' : every m k proper W -> every k n proper H -> profile_range emax m n k v we (value W) (value H) ->
    (2 * Z.of_nat (2 * m + k + 4) <= 2 ^ prec)%Z -> h_update m n k V We W H H' ->
    forall a j, (a < k)%nat -> (j < n)%nat -> proper (H' a j) /\
      close prec (2 * m + k + 4) (B2R (H' a j)) (value H a j * (rsum m (fun i => value W i a * (we i j * v i j)) /
        rsum m (fun i => value W i a * (we i j * rsum k (fun b => value W i b * value H b j))))).
  Proof.
    intros HW HH R0 B U0 a j Ha Hj. destruct (h_update_near m n k V We W H H' HV HWe HW HH R0 (proj2 (g_bound _ B)) U0 a j Ha Hj) as [P N].
    split; [exact P|]. apply near_close; [exact B| |exact N].
    destruct R0 as [_ R0]. destruct (R0 a j Ha Hj) as (_ & _ & _ & _ & T & _). apply ok_nonneg in T. exact T.
  Qed.
  Lemma w_close W H W' : every m k proper W -> every k n proper H -> contribution_range emax m n k v we (value W) (value H) ->
    (2 * Z.of_nat (2 * n + k + 4) <= 2 ^ prec)%Z -> w_update m n k V We W H W' ->
    forall i a, (i < m)%nat -> (a < k)%nat -> proper (W' i a) /\
      close prec (2 * n + k + 4) (B2R (W' i a)) (value W i a * (rsum n (fun j => we i j * v i j * value H a j) /
        rsum n (fun j => we i j * rsum k (fun b => value W i b * value H b j) * value H a j))).
  Proof.
    intros HW HH R0 B U0 i a Hi Ha. destruct (w_update_near m n k V We W H W' HV HWe HW HH R0 (proj2 (g_bound _ B)) U0 i a Hi Ha) as [P N].
    split; [exact P|]. apply near_close; [exact B| |exact N].
    destruct R0 as [_ R0]. destruct (R0 i a Hi Ha) as (_ & _ & _ & _ & T & _). apply ok_nonneg in T. exact T.
  Qed.

  (** Both halves of an iteration stay in range. *)
  Definition step_range (upd : bool -> fmat prec emax * fmat prec emax -> fmat prec emax * fmat prec emax) (hold : bool) (st : fmat prec emax * fmat prec emax) : Prop :=
    (hold = false -> profile_range emax m n k v we (value (fst st)) (value (snd st))) /\
    contribution_range emax m n k v we (value (fst st)) (value (snd (upd hold st))).

  Notation size st := (root_q m n k v we (value (fst st)) (value (snd st)) + norm m n we v).
  Notation gain := (1 + 2 * INR (2 * m + 2 * n + 2 * k + 8) * bpow radix2 (- prec)).

  Lemma step_size upd hold st : implements m n k V We upd -> every m k proper (fst st) -> every k n proper (snd st) -> step_range upd hold st ->
    (2 * Z.of_nat (2 * m + 2 * n + 2 * k + 8) <= 2 ^ prec)%Z ->
    every m k proper (fst (upd hold st)) /\ every k n proper (snd (upd hold st)) /\ size (upd hold st) <= gain * size st.
  Proof.
    intros Hi HW HH [RH RW] B. destruct (Hi hold st) as [SH SW].
    assert (Z0 : forall s : fmat prec emax * fmat prec emax, 0 <= size s) by (intros s; pose proof (norm_nonneg m n we v); unfold root_q; pose proof (norm_nonneg m n we (fun i j => v i j - rsum k (fun a => value (fst s) i a * value (snd s) a j))); lra).
    pose proof (fun p => g_pow (prec := prec) p) as G.
    assert (AH : every k n proper (snd (upd hold st)) /\ size (fst st, snd (upd hold st)) <= growth prec ^ (2 * m + k + 4) * size st).
    { destruct hold.
      - split; [intros a j Ha Hj; rewrite SH by assumption; apply HH; assumption|].
        assert (E : size (fst st, snd (upd true st)) = size st).
        { f_equal. unfold root_q. apply norm_ext. intros i j Hi' Hj. f_equal. apply rsum_ext. intros a Ha. unfold value. cbn [fst snd]. rewrite SH by assumption. reflexivity. }
        rewrite E. rewrite <- (Rmult_1_l (size st)) at 1. apply Rmult_le_compat_r; [apply Z0|apply G].
      - apply (h_update_size m n k V We HV HWe (fst st) (snd st) (snd (upd false st)) HW HH (RH eq_refl) ltac:(lia) SH). }
    destruct AH as [A L].
    destruct (w_update_size m n k V We HV HWe (fst st) (snd (upd hold st)) (fst (upd hold st)) HW A RW ltac:(lia) SW) as [A' L'].
    split; [exact A'|]. split; [exact A|]. eapply Rle_trans; [exact L'|]. cbn [fst snd] in L.
    apply Rle_trans with (growth prec ^ (2 * n + k + 4) * (growth prec ^ (2 * m + k + 4) * size st)).
    - apply Rmult_le_compat_l; [pose proof (G (2 * n + k + 4)%nat); lra|exact L].
    - rewrite <- Rmult_assoc, <- pow_add. apply Rmult_le_compat_r; [apply Z0|].
      replace (2 * n + k + 4 + (2 * m + k + 4))%nat with (2 * m + 2 * n + 2 * k + 8)%nat by lia. exact (proj1 (g_bound _ B)).
  Qed.
  Lemma run_size upd b W0 H0 N : implements m n k V We upd -> every m k proper W0 -> every k n proper H0 ->
    (forall i, (i < N)%nat -> step_range upd (b i) (state_at upd b (W0, H0) i)) ->
    (2 * Z.of_nat (2 * m + 2 * n + 2 * k + 8) <= 2 ^ prec)%Z ->
    every m k proper (fst (state_at upd b (W0, H0) N)) /\ every k n proper (snd (state_at upd b (W0, H0) N)) /\
    size (state_at upd b (W0, H0) N) <= gain ^ N * size (W0, H0).
  Proof.
    intros Hi HW HH Hr B. induction N as [|N IH].
    - cbn [state_at fst snd pow]. split; [exact HW|]. split; [exact HH|]. lra.
    - destruct IH as (A & A' & L); [intros i Hi'; apply Hr; lia|]. cbn [state_at].
      destruct (step_size upd (b N) _ Hi A A' (Hr N ltac:(lia)) B) as (D & D' & L2). split; [exact D|]. split; [exact D'|].
      eapply Rle_trans; [exact L2|]. cbn [pow]. eapply Rle_trans; [apply Rmult_le_compat_l; [|exact L]|right; ring].
      pose proof (pos_INR (2 * m + 2 * n + 2 * k + 8)). pose proof (bpow_gt_0 radix2 (- prec)). nra.
  Qed.
End C115.

Theorem C115_profile_step :
  forall (prec emax : Z) (Hp : Prec_gt_0 prec) (He : Prec_lt_emax prec emax) (m n k : nat) (V We W H H' : fmat prec emax),
  every m n proper V -> every m n proper We -> every m k proper W -> every k n proper H ->
  profile_range emax m n k (value V) (value We) (value W) (value H) ->
  (2 * Z.of_nat (2 * m + k + 4) <= 2 ^ prec)%Z ->
  h_update m n k V We W H H' ->
  forall a j, (a < k)%nat -> (j < n)%nat -> proper (H' a j) /\
    close prec (2 * m + k + 4) (B2R (H' a j))
      (value H a j * (rsum m (fun i => value W i a * (value We i j * value V i j)) /
        rsum m (fun i => value W i a * (value We i j * rsum k (fun b => value W i b * value H b j))))).
Proof. intros prec emax Hp He m n k V We W H H' HV HWe. apply h_close; assumption. Qed.
Print Assumptions C115_profile_step.

Theorem C115_contribution_step :
  forall (prec emax : Z) (Hp : Prec_gt_0 prec) (He : Prec_lt_emax prec emax) (m n k : nat) (V We W H W' : fmat prec emax),
  every m n proper V -> every m n proper We -> every m k proper W -> every k n proper H ->
  contribution_range emax m n k (value V) (value We) (value W) (value H) ->
  (2 * Z.of_nat (2 * n + k + 4) <= 2 ^ prec)%Z ->
  w_update m n k V We W H W' ->
  forall i a, (i < m)%nat -> (a < k)%nat -> proper (W' i a) /\
    close prec (2 * n + k + 4) (B2R (W' i a))
      (value W i a * (rsum n (fun j => value We i j * value V i j * value H a j) /
        rsum n (fun j => value We i j * rsum k (fun b => value W i b * value H b j) * value H a j))).
Proof. intros prec emax Hp He m n k V We W H W' HV HWe. apply w_close; assumption. Qed.
Print Assumptions C115_contribution_step.

Theorem C115_rust_fit_growth :
  forall (prec emax : Z) (Hp : Prec_gt_0 prec) (He : Prec_lt_emax prec emax) (m n k : nat) (V We W0 H0 : fmat prec emax) upd
    (loss : fmat prec emax * fmat prec emax -> binary_float prec emax) (delta : binary_float prec emax)
    (cn : Z) (hold_h : bool) (delay_h : Z) (tick : nat -> bool) (max_iter : Z),
  implements m n k V We upd ->
  every m n proper V -> every m n proper We -> every m k proper W0 -> every k n proper H0 ->
  (2 * Z.of_nat (2 * m + 2 * n + 2 * k + 8) <= 2 ^ prec)%Z ->
  let r := rust_train upd loss (ieee_below delta) cn hold_h delay_h tick max_iter (W0, H0) in
  let N := List.length (rr_hist r) in
  (forall i, (i < N)%nat -> step_range prec emax m n k V We upd (hold_at hold_h delay_h i) (state_at upd (hold_at hold_h delay_h) (W0, H0) i)) ->
  every m k proper (fst (rr_state r)) /\ every k n proper (snd (rr_state r)) /\
  root_q m n k (value V) (value We) (value (fst (rr_state r))) (value (snd (rr_state r))) + norm m n (value We) (value V) <=
  (1 + 2 * INR (2 * m + 2 * n + 2 * k + 8) * bpow radix2 (- prec)) ^ N *
  (root_q m n k (value V) (value We) (value W0) (value H0) + norm m n (value We) (value V)).
Proof.
  intros prec emax Hp He m n k V We W0 H0 upd loss delta cn hold_h delay_h tick max_iter Hi HV HWe HW HH B r N Hr.
  destruct (rust_summary upd loss (ieee_below delta) cn hold_h delay_h tick (W0, H0) max_iter _
              (hold_at_held_iff hold_h delay_h)) as (_ & _ & Es & _).
  fold r in Es. fold N in Es. rewrite Es. apply (run_size prec emax Hp He m n k V We HV HWe upd); assumption.
Qed.
Print Assumptions C115_rust_fit_growth.

Theorem C115_python_fit_growth :
  forall (prec emax : Z) (Hp : Prec_gt_0 prec) (He : Prec_lt_emax prec emax) (m n k : nat) (V We W0 H0 : fmat prec emax) upd
    (loss : fmat prec emax * fmat prec emax -> binary_float prec emax) (delta : binary_float prec emax)
    (nan_stop : fmat prec emax * fmat prec emax -> bool) (cn : Z) (hold_h : bool) (delay_h : Z) (max_iter : Z),
  (1 <= cn)%Z -> implements m n k V We upd ->
  every m n proper V -> every m n proper We -> every m k proper W0 -> every k n proper H0 ->
  (2 * Z.of_nat (2 * m + 2 * n + 2 * k + 8) <= 2 ^ prec)%Z ->
  let r := py_train upd loss (ieee_below delta) nan_stop cn delay_h hold_h max_iter (W0, H0) in
  let N := List.length (pr_hist r) in
  (forall i, (i < N)%nat -> step_range prec emax m n k V We upd (hold_at hold_h delay_h i) (state_at upd (hold_at hold_h delay_h) (W0, H0) i)) ->
  every m k proper (fst (pr_state r)) /\ every k n proper (snd (pr_state r)) /\
  root_q m n k (value V) (value We) (value (fst (pr_state r))) (value (snd (pr_state r))) + norm m n (value We) (value V) <=
  (1 + 2 * INR (2 * m + 2 * n + 2 * k + 8) * bpow radix2 (- prec)) ^ N *
  (root_q m n k (value V) (value We) (value W0) (value H0) + norm m n (value We) (value V)).
Proof.
  intros prec emax Hp He m n k V We W0 H0 upd loss delta nan_stop cn hold_h delay_h max_iter Hc Hi HV HWe HW HH B r N Hr.
  destruct (py_summary upd loss (ieee_below delta) nan_stop cn hold_h delay_h (W0, H0) max_iter _ Hc
              (hold_at_held_iff hold_h delay_h)) as (_ & _ & Es & _).
  fold r in Es. fold N in Es. rewrite Es. apply (run_size prec emax Hp He m n k V We HV HWe upd); assumption.
Qed.
Print Assumptions C115_python_fit_growth.

(** ** An instance: two samples, one feature, one factor, binary32 *)
Lemma range32 x : / 1000 <= x <= 1000 -> in_range (emax := 128) x.
Proof.
  intros [A B]. right. split.
  - apply Rle_trans with (/ 1000); [|exact A]. apply Rle_trans with (bpow radix2 (-10)); [apply bpow_le; lia|]. change (bpow radix2 (-10)) with (/ 1024). lra.
  - apply Rle_trans with 1000; [exact B|]. apply Rle_trans with (bpow radix2 10); [change (bpow radix2 10) with 1024; lra|apply bpow_le; lia].
Qed.
Definition v1 : fmat 24 128 := fun i _ => if (i =? 0)%nat then lit32 1 0 else lit32 5 0.
Definition we1 : fmat 24 128 := fun _ _ => lit32 1 0.
Definition w1 : fmat 24 128 := fun i _ => if (i =? 0)%nat then lit32 1 0 else lit32 2 0.
Definition h1 : fmat 24 128 := fun _ _ => lit32 3 0.
Lemma lit_value z : (z = 1 \/ z = 2 \/ z = 3 \/ z = 5)%Z -> B2R (lit32 z 0) = IZR z /\ proper (lit32 z 0).
Proof.
  intros [-> |[-> |[-> | ->]]]; (split; [|split; vm_compute; reflexivity]).
  - assert (E : B2R (lit32 1 0) = F2R (Float radix2 8388608 (-23))) by (vm_compute; reflexivity). rewrite E. unfold F2R. cbn. lra.
  - assert (E : B2R (lit32 2 0) = F2R (Float radix2 8388608 (-22))) by (vm_compute; reflexivity). rewrite E. unfold F2R. cbn. lra.
  - assert (E : B2R (lit32 3 0) = F2R (Float radix2 12582912 (-22))) by (vm_compute; reflexivity). rewrite E. unfold F2R. cbn. lra.
  - assert (E : B2R (lit32 5 0) = F2R (Float radix2 10485760 (-21))) by (vm_compute; reflexivity). rewrite E. unfold F2R. cbn. lra.
Qed.

Example C115_instance :
  every 2 1 proper v1 /\ every 2 1 proper we1 /\ every 2 1 proper w1 /\ every 1 1 proper h1 /\
  profile_range 128 2 1 1 (value v1) (value we1) (value w1) (value h1) /\
  contribution_range 128 2 1 1 (value v1) (value we1) (value w1) (value h1) /\
  (exists upd, implements 2 1 1 v1 we1 upd /\ h_update 2 1 1 v1 we1 w1 h1 (snd (upd false (w1, h1))) /\
     (* the exact profile is 11/5, which is no number of the format *)
     B2R (snd (upd false (w1, h1)) 0%nat 0%nat) = 9227469 / 4194304 /\
     step_range 24 128 2 1 1 v1 we1 upd true (w1, h1)).
Proof.
  pose proof (lit_value 1 ltac:(auto)) as [L1 P1]. pose proof (lit_value 2 ltac:(auto)) as [L2 P2].
  pose proof (lit_value 3 ltac:(auto)) as [L3 P3]. pose proof (lit_value 5 ltac:(auto)) as [L5 P5].
  assert (V0 : forall j, value v1 0%nat j = 1) by (intros; exact L1). assert (V1 : forall j, value v1 1%nat j = 5) by (intros; exact L5).
  assert (E0 : forall i j, value we1 i j = 1) by (intros; exact L1).
  assert (W0 : forall j, value w1 0%nat j = 1) by (intros; exact L1). assert (W1 : forall j, value w1 1%nat j = 2) by (intros; exact L2).
  assert (H0 : forall i j, value h1 i j = 3) by (intros; exact L3).
  assert (RC : common_range 128 2 1 1 (value v1) (value we1) (value w1) (value h1)).
  { intros [|[|i]] [|j] Hi Hj; try lia; unfold model; cbn [rsum]; rewrite ?V0, ?V1, ?E0, ?W0, ?W1, ?H0;
      (repeat split; [apply range32; lra|apply range32; lra|apply range32; lra|intros [|a] Ha; [|lia]; rewrite ?W0, ?W1, ?H0; apply range32; lra]). }
  assert (RW : contribution_range 128 2 1 1 (value v1) (value we1) (value w1) (value h1)).
  { split; [exact RC|]. intros [|[|i]] [|a] Hi Ha; try lia; unfold model; cbn [rsum]; rewrite ?V0, ?V1, ?E0, ?W0, ?W1, ?H0; cbv zeta;
      (repeat split; [apply range32; lra|apply range32; lra|lra|apply range32; lra|apply range32; lra| |]; 
        destruct j as [|j]; try lia; rewrite ?V0, ?V1, ?E0, ?W0, ?W1, ?H0; apply range32; lra). }
  split; [intros [|[|i]] j Hi _; [exact P1|exact P5|lia]|]. split; [intros i j _ _; exact P1|].
  split; [intros [|[|i]] j Hi _; [exact P1|exact P2|lia]|]. split; [intros i j _ _; exact P3|].
  split; [|split; [exact RW|]].
  - split; [exact RC|]. intros [|a] [|j] Ha Hj; try lia; unfold model; cbn [rsum]; rewrite ?V0, ?V1, ?E0, ?W0, ?W1, ?H0; cbv zeta.
    repeat split; [apply range32; lra|apply range32; lra|lra|apply range32; lra|apply range32; lra| |];
      destruct i as [|[|i]]; try lia; rewrite ?V0, ?V1, ?E0, ?W0, ?W1, ?H0; apply range32; lra.
  - exists (upd_ltr 2 1 1 v1 we1). split; [apply upd_ltr_ok|]. split; [apply (upd_ltr_ok 2 1 1 v1 we1 false (w1, h1))|].
    split; [|split; [discriminate|exact RW]].
    assert (E : B2R (snd (upd_ltr 2 1 1 v1 we1 false (w1, h1)) 0%nat 0%nat) = F2R (Float radix2 9227469 (-22))) by (vm_compute; reflexivity).
    rewrite E. unfold F2R. cbn. lra.
Qed.

Example C115_profile_step_example : exists upd, implements 2 1 1 v1 we1 upd /\ proper (snd (upd false (w1, h1)) 0%nat 0%nat) /\
  close 24 9 (9227469 / 4194304) (11 / 5).
Proof.
  destruct C115_instance as (a & b & c & d & e & _ & upd & I & f & g & _). exists upd. split; [exact I|].
  destruct (C115_profile_step 24 128 _ _ 2 1 1 v1 we1 w1 h1 _ a b c d e ltac:(cbn; lia) f 0%nat 0%nat ltac:(lia) ltac:(lia)) as [P Q].
  split; [exact P|]. rewrite g in Q.
  destruct (lit_value 1 ltac:(auto)) as [L1 _]. destruct (lit_value 2 ltac:(auto)) as [L2 _].
  destruct (lit_value 3 ltac:(auto)) as [L3 _]. destruct (lit_value 5 ltac:(auto)) as [L5 _].
  cbn [Nat.mul Nat.add] in Q. match type of Q with close _ _ _ ?x => replace (11 / 5) with x; [exact Q|] end.
  unfold value, v1, we1, w1, h1. cbn [rsum Nat.eqb]. rewrite L1, L2, L3, L5. field.
Qed.
