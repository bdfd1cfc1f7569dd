(** Properties C05-C09 and C59: the LS-NMF update. *)
From Coq Require Import Reals Lra Lia List ZArith.
From Verif Require Import Base Metrics_Model Metrics_Spec LSNMF_Model LSNMF_Proofs.
Open Scope R_scope.

(** C05: non-negativity is preserved by any number of iterations that do not
    divide by zero. *)
Theorem C05_nonneg_preserved :
  forall (m n k : nat) (V We : mat) (hold : nat -> bool) (N i0 : nat) (W H W' H' : mat),
    mall m n (fun x => 0 <= x) V -> mall m n (fun x => 0 <= x) We ->
    mall m k (fun x => 0 <= x) W -> mall k n (fun x => 0 <= x) H ->
    ls_iter m n k V We hold i0 N (W, H) = Some (W', H') ->
    mall m k (fun x => 0 <= x) W' /\ mall k n (fun x => 0 <= x) H'.
Proof. exact ls_iter_nonneg. Qed.
Print Assumptions C05_nonneg_preserved.
Definition xl_V : mat := fun i j => INR (i + j).
Definition xl_one : mat := fun _ _ => 1.
Definition xl_U : mat := fun i j => INR (i + 2 * j + 1).
Lemma xl_V_nn m n : mall m n (fun x => 0 <= x) xl_V.
Proof. intros i j _ _. apply pos_INR. Qed.
Lemma xl_V_full : no_empty 2 2 xl_V.
Proof.
  split.
  - intros i Hi. exists 1%nat. split; [lia|]. unfold xl_V. apply lt_0_INR. lia.
  - intros j Hj. exists 1%nat. split; [lia|]. unfold xl_V. apply lt_0_INR. lia.
Qed.
Lemma xl_one_pos m n : mall m n (fun x => 0 < x) xl_one.
Proof. intros i j _ _. unfold xl_one. lra. Qed.
Lemma xl_one_nn m n : mall m n (fun x => 0 <= x) xl_one.
Proof. intros i j _ _. unfold xl_one. lra. Qed.
Lemma xl_U_nz m n : mall m n (fun x => x <> 0) xl_U.
Proof. intros i j _ _. apply not_0_INR. lia. Qed.
Lemma xl_w_pos m n : mall m n (fun x => 0 < x) (weights xl_U).
Proof. intros i j Hi Hj. unfold weights. assert (0 < xl_U i j) by (apply lt_0_INR; lia). apply Rdiv_lt_0_compat; [lra|]. apply pow_lt. assumption. Qed.

(** C05: with strictly positive start, and data with no all-zero sample or
    feature, no iteration divides by zero and everything stays positive. *)
Theorem C05_positive_forever :
  forall (m n k : nat) (V We : mat) (hold : nat -> bool) (N i0 : nat) (W H : mat),
    (0 < m)%nat -> (0 < n)%nat -> (0 < k)%nat ->
    mall m n (fun x => 0 <= x) V -> no_empty m n V ->
    mall m n (fun x => 0 < x) We -> mall m k (fun x => 0 < x) W -> mall k n (fun x => 0 < x) H ->
    exists W' H', ls_iter m n k V We hold i0 N (W, H) = Some (W', H') /\
      mall m k (fun x => 0 < x) W' /\ mall k n (fun x => 0 < x) H'.
Proof. exact ls_iter_pos. Qed.
Print Assumptions C05_positive_forever.
Example C05_positive_forever_example := C05_positive_forever 2 2 1 xl_V (weights xl_U) (fun _ => false) 7 0 xl_one xl_one
  ltac:(lia) ltac:(lia) ltac:(lia) (xl_V_nn 2 2) xl_V_full (xl_w_pos 2 2) (xl_one_pos 2 1) (xl_one_pos 1 2).
(** The run of the example above, for the theorems about finished runs. *)
Example C05_nonneg_preserved_example : exists W' H', ls_iter 2 2 1 xl_V (weights xl_U) (fun _ => false) 0 7 (xl_one, xl_one) = Some (W', H') /\
  mall 2 1 (fun x => 0 <= x) W' /\ mall 1 2 (fun x => 0 <= x) H'.
Proof.
  destruct C05_positive_forever_example as (W' & H' & E & _). exists W', H'. split; [exact E|].
  refine (C05_nonneg_preserved 2 2 1 xl_V (weights xl_U) (fun _ => false) 7 0 xl_one xl_one W' H' (xl_V_nn 2 2) _ (xl_one_nn 2 1) (xl_one_nn 1 2) E).
  intros i j Hi Hj. apply Rlt_le, (xl_w_pos 2 2); assumption.
Qed.

Theorem C05_zero_stays_zero :
  forall (m n k : nat) (V We : mat) (hold : nat -> bool) (N i0 : nat) (W H W' H' : mat),
    ls_iter m n k V We hold i0 N (W, H) = Some (W', H') ->
    (forall i a, W i a = 0 -> W' i a = 0) /\ (forall a j, H a j = 0 -> H' a j = 0).
Proof. exact ls_iter_zero. Qed.
Print Assumptions C05_zero_stays_zero.
(** Two factors, the second of which is zero: it stays zero. *)
Definition xl_half : mat := fun a _ => match a with O => 1 | S _ => 0 end.
Definition xl_halfT : mat := fun _ a => match a with O => 1 | S _ => 0 end.
Example C05_zero_stays_zero_example : forall N W' H', ls_iter 2 2 2 xl_V (weights xl_U) (fun _ => false) 0 N (xl_halfT, xl_half) = Some (W', H') -> H' 1%nat 0%nat = 0.
Proof. intros N W' H' E. exact (proj2 (C05_zero_stays_zero 2 2 2 xl_V (weights xl_U) (fun _ => false) N 0 xl_halfT xl_half W' H' E) 1%nat 0%nat eq_refl). Qed.

Example C05_instance :
  let V := (fun i j => INR (i + j)) : mat in
  let One := (fun _ _ => 1) : mat in
  mall 2 2 (fun x => 0 <= x) V /\ no_empty 2 2 V /\ V 0%nat 0%nat = 0 /\
  exists W' H', ls_iter 2 2 1 V One (fun _ => false) 0 7 (One, One) = Some (W', H') /\
    mall 2 1 (fun x => 0 < x) W' /\ mall 1 2 (fun x => 0 < x) H'.
Proof.
  intros V One.
  assert (HV : mall 2 2 (fun x => 0 <= x) V) by (intros i j _ _; apply pos_INR).
  assert (Hne : no_empty 2 2 V).
  { split; [intros i Hi|intros j Hj]; exists 1%nat; (split; [lia|]); unfold V;
      apply lt_0_INR; lia. }
  split; [assumption|]. split; [assumption|]. split; [reflexivity|].
  apply C05_positive_forever; try lia; try assumption; intros i j _ _; unfold One; lra.
Qed.

(** C06: Q(true) never increases over any number of iterations. *)
Theorem C06_q_non_increasing :
  forall (m n k : nat) (V U : mat) (hold : nat -> bool) (N i0 : nat) (W H W' H' : mat),
    mall m n (fun x => 0 <= x) V -> mall m n (fun u => u <> 0) U ->
    mall m k (fun x => 0 <= x) W -> mall k n (fun x => 0 <= x) H ->
    ls_iter m n k V (weights U) hold i0 N (W, H) = Some (W', H') ->
    q_loss m n k true V U W' H' <= q_loss m n k true V U W H.
Proof. exact ls_iter_q. Qed.
Print Assumptions C06_q_non_increasing.
Example C06_q_non_increasing_example : exists W' H', ls_iter 2 2 1 xl_V (weights xl_U) (fun _ => false) 0 7 (xl_one, xl_one) = Some (W', H') /\
  q_loss 2 2 1 true xl_V xl_U W' H' <= q_loss 2 2 1 true xl_V xl_U xl_one xl_one.
Proof.
  destruct C05_positive_forever_example as (W' & H' & E & _). exists W', H'. split; [exact E|].
  exact (C06_q_non_increasing 2 2 1 xl_V xl_U (fun _ => false) 7 0 xl_one xl_one W' H' (xl_V_nn 2 2) (xl_U_nz 2 2) (xl_one_nn 2 1) (xl_one_nn 1 2) E).
Qed.

(** C06: and it stays the same only if the iteration changed nothing. *)
Theorem C06_q_equal_only_if_stationary :
  forall (m n k : nat) (V U : mat) (hold : bool) (W H W' H' : mat),
    mall m n (fun x => 0 <= x) V -> mall m n (fun u => u <> 0) U ->
    mall m k (fun x => 0 <= x) W -> mall k n (fun x => 0 <= x) H ->
    ls_update m n k V (weights U) hold (W, H) = Some (W', H') ->
    q_loss m n k true V U W' H' = q_loss m n k true V U W H ->
    meq m k W' W /\ meq k n H' H.
Proof. exact ls_update_q_stationary. Qed.
Print Assumptions C06_q_equal_only_if_stationary.

(** C07 (LS-NMF): held profiles are untouched; with a delay they are untouched
    for the first [delay + 1] iterations. *)
Theorem C07_ls_held_profile :
  forall (m n k : nat) (V We : mat) (delay : Z) (N : nat) (W H W' H' : mat),
    ((delay <= 0)%Z \/ (Z.of_nat N <= delay + 1)%Z) ->
    ls_iter m n k V We (hold_at true delay) 0 N (W, H) = Some (W', H') -> H' = H.
Proof. exact ls_iter_hold_at. Qed.
Print Assumptions C07_ls_held_profile.
Example C07_ls_held_profile_example : exists W', ls_iter 2 2 1 xl_V (weights xl_U) (hold_at true 0) 0 7 (xl_one, xl_one) = Some (W', xl_one).
Proof.
  destruct (C05_positive_forever 2 2 1 xl_V (weights xl_U) (hold_at true 0) 7 0 xl_one xl_one
    ltac:(lia) ltac:(lia) ltac:(lia) (xl_V_nn 2 2) xl_V_full (xl_w_pos 2 2) (xl_one_pos 2 1) (xl_one_pos 1 2)) as (W' & H' & E & _).
  exists W'. rewrite E. rewrite (C07_ls_held_profile 2 2 1 xl_V (weights xl_U) 0 7 xl_one xl_one W' H' ltac:(left; lia) E). reflexivity.
Qed.

Example C06_C07_instance :
  let V := (fun i j => INR (i + j)) : mat in
  let U := (fun i j => INR (i + 2 * j + 1)) : mat in
  let One := (fun _ _ => 1) : mat in
  mall 2 2 (fun x => 0 <= x) V /\ mall 2 2 (fun u => u <> 0) U /\ mall 2 1 (fun x => 0 <= x) One /\ mall 1 2 (fun x => 0 <= x) One /\
  (exists W' H', ls_iter 2 2 1 V (weights U) (fun _ => false) 0 7 (One, One) = Some (W', H')) /\
  (exists W' H', ls_iter 2 2 1 V (weights U) (hold_at true 0) 0 7 (One, One) = Some (W', H')).
Proof.
  intros V U One.
  assert (HV : mall 2 2 (fun x => 0 <= x) V) by (intros i j _ _; apply pos_INR).
  assert (HU : mall 2 2 (fun u => u <> 0) U) by (intros i j _ _; unfold U; apply not_0_INR; lia).
  assert (Hne : no_empty 2 2 V) by (split; [intros i Hi|intros j Hj]; exists 1%nat; (split; [lia|]); unfold V; apply lt_0_INR; lia).
  assert (HW : mall 2 2 (fun x => 0 < x) (weights U)).
  { intros i j Hi Hj. unfold weights. apply Rdiv_lt_0_compat; [lra|]. pose proof (HU i j Hi Hj). nra. }
  repeat match goal with |- _ /\ _ => split end; auto; try (intros i j _ _; unfold One; lra).
  - destruct (C05_positive_forever 2 2 1 V (weights U) (fun _ => false) 7 0 One One) as (W' & H' & E & _); try lia; auto; try (intros i j _ _; unfold One; lra). eauto.
  - destruct (C05_positive_forever 2 2 1 V (weights U) (hold_at true 0) 7 0 One One) as (W' & H' & E & _); try lia; auto; try (intros i j _ _; unfold One; lra). eauto.
Qed.


(** C08: an exact factorisation is a fixed point. *)
Theorem C08_exact_factorisation_fixed :
  forall (m n k : nat) (V We : mat) (hold : bool) (W H : mat),
    (0 < m)%nat -> (0 < n)%nat -> (0 < k)%nat ->
    mall m n (fun x => 0 < x) We -> mall m k (fun x => 0 < x) W -> mall k n (fun x => 0 < x) H ->
    reproduces m n k V W H ->
    exists W' H', ls_update m n k V We hold (W, H) = Some (W', H') /\
      meq m k W' W /\ meq k n H' H.
Proof. exact ls_update_fixpoint. Qed.
Print Assumptions C08_exact_factorisation_fixed.
Definition xl_W : mat := fun i _ => INR (i + 1).
Definition xl_H : mat := fun _ j => INR (j + 1).
Definition xl_WH : mat := fun i j => INR (i + 1) * INR (j + 1).
Lemma xl_rep : reproduces 3 2 1 xl_WH xl_W xl_H.
Proof. intros i j _ _. unfold xl_WH, xl_W, xl_H. cbn [rsum]. ring. Qed.
Example C08_exact_factorisation_fixed_example := C08_exact_factorisation_fixed 3 2 1 xl_WH (weights xl_U) false xl_W xl_H
  ltac:(lia) ltac:(lia) ltac:(lia) (xl_w_pos 3 2) ltac:(intros i j _ _; apply lt_0_INR; lia) ltac:(intros i j _ _; apply lt_0_INR; lia) xl_rep.
(** At an exact factorisation Q stays the same. *)
Example C06_q_equal_only_if_stationary_example : exists W' H', ls_update 3 2 1 xl_WH (weights xl_U) false (xl_W, xl_H) = Some (W', H') /\
  q_loss 3 2 1 true xl_WH xl_U W' H' = q_loss 3 2 1 true xl_WH xl_U xl_W xl_H /\ meq 3 1 W' xl_W.
Proof.
  destruct C08_exact_factorisation_fixed_example as (W' & H' & E & EW & EH). exists W', H'. split; [exact E|].
  assert (Q : q_loss 3 2 1 true xl_WH xl_U W' H' = q_loss 3 2 1 true xl_WH xl_U xl_W xl_H).
  { unfold q_loss. apply msum_ext. intros i j Hi Hj. unfold resid, mmul. cbn [rsum]. rewrite (EW i 0%nat), (EH 0%nat j) by lia. reflexivity. }
  split; [exact Q|].
  refine (proj1 (C06_q_equal_only_if_stationary 3 2 1 xl_WH xl_U false xl_W xl_H W' H' _ (xl_U_nz 3 2) _ _ E Q)).
  - intros i j _ _. apply Rmult_le_pos; apply pos_INR.
  - intros i j _ _. apply pos_INR.
  - intros i j _ _. apply pos_INR.
Qed.

Example C08_instance :
  let W := (fun i _ => INR (i + 1)) : mat in
  let H := (fun _ j => INR (j + 1)) : mat in
  let V := (fun i j => INR (i + 1) * INR (j + 1)) : mat in
  mall 3 1 (fun x => 0 < x) W /\ mall 1 2 (fun x => 0 < x) H /\ reproduces 3 2 1 V W H.
Proof.
  intros W H V. repeat split.
  - intros i j _ _. apply lt_0_INR. lia.
  - intros i j _ _. apply lt_0_INR. lia.
  - intros i j _ _. unfold V, W, H. cbn [rsum]. ring.
Qed.

(** C09: permuting samples/features/factors and changing units commutes with
    any number of iterations (including the division-by-zero outcome). *)
Theorem C09_relabel_and_rescale :
  forall (m n k : nat) (sr sf sk : nat -> nat) (d c : nat -> R),
    bij m sr -> bij n sf -> bij k sk ->
    (forall i, (i < m)%nat -> 0 < d i) -> (forall j, (j < n)%nat -> 0 < c j) ->
    forall V We V' We' : mat,
    (forall i j, (i < m)%nat -> (j < n)%nat -> V' i j = d i * c j * V (sr i) (sf j)) ->
    (forall i j, (i < m)%nat -> (j < n)%nat ->
       We' i j = We (sr i) (sf j) / (d i * c j * (d i * c j))) ->
    forall (hold : nat -> bool) (N i0 : nat) (st st' : mat * mat),
    sym m n k sr sf sk d c st st' ->
    orel (sym m n k sr sf sk d c)
      (ls_iter m n k V We hold i0 N st) (ls_iter m n k V' We' hold i0 N st').
Proof. exact sym_iter. Qed.
Print Assumptions C09_relabel_and_rescale.
(** Samples in reverse order, the second feature in another unit, factors swapped. *)
Definition xl_rev (i : nat) : nat := (1 - i)%nat.
Definition xl_c (j : nat) : R := INR (j + 1).
Lemma xl_rev_bij : bij 2 xl_rev.
Proof. unfold xl_rev. split; intros; lia. Qed.
Lemma xl_id_bij n : bij n (fun i => i).
Proof. split; auto. Qed.
Definition xl_V2 : mat := fun i j => 1 * xl_c j * xl_V (xl_rev i) j.
Definition xl_We2 : mat := fun i j => weights xl_U (xl_rev i) j / (1 * xl_c j * (1 * xl_c j)).
Example C09_relabel_and_rescale_example := fun N => C09_relabel_and_rescale 2 2 2 xl_rev (fun j => j) xl_rev (fun _ => 1) xl_c xl_rev_bij (xl_id_bij 2) xl_rev_bij
  ltac:(intros; lra) ltac:(intros j _; apply lt_0_INR; lia) xl_V (weights xl_U) xl_V2 xl_We2 (fun i j _ _ => eq_refl) (fun i j _ _ => eq_refl) (fun _ => false) N 0
  (xl_W, fun a j => INR (a + j + 1)) (fun i a => 1 * xl_W (xl_rev i) (xl_rev a), fun a j => xl_c j * INR (xl_rev a + j + 1))
  (conj (fun i a _ _ => eq_refl) (fun a j _ _ => eq_refl)).

Theorem C09_q_invariant :
  forall (m n k : nat) (sr sf sk : nat -> nat) (d c : nat -> R) (V U V' U' W H W' H' : mat),
    bij m sr -> bij n sf -> bij k sk ->
    (forall i, (i < m)%nat -> 0 < d i) -> (forall j, (j < n)%nat -> 0 < c j) ->
    mall m n (fun u => u <> 0) U ->
    (forall i j, (i < m)%nat -> (j < n)%nat -> V' i j = d i * c j * V (sr i) (sf j)) ->
    (forall i j, (i < m)%nat -> (j < n)%nat -> U' i j = d i * c j * U (sr i) (sf j)) ->
    sym m n k sr sf sk d c (W, H) (W', H') ->
    q_loss m n k true V' U' W' H' = q_loss m n k true V U W H.
Proof. exact q_loss_sym. Qed.
Print Assumptions C09_q_invariant.
Example C09_q_invariant_example := C09_q_invariant 2 2 2 xl_rev (fun j => j) xl_rev (fun _ => 1) xl_c xl_V xl_U xl_V2 (fun i j => 1 * xl_c j * xl_U (xl_rev i) j)
  xl_W (fun a j => INR (a + j + 1)) (fun i a => 1 * xl_W (xl_rev i) (xl_rev a)) (fun a j => xl_c j * INR (xl_rev a + j + 1)) xl_rev_bij (xl_id_bij 2) xl_rev_bij
  ltac:(intros; lra) ltac:(intros j _; apply lt_0_INR; lia) (xl_U_nz 2 2) (fun i j _ _ => eq_refl) (fun i j _ _ => eq_refl) (conj (fun i a _ _ => eq_refl) (fun a j _ _ => eq_refl)).

(** A swap of two samples together with a change of unit. *)
Example C09_instance :
  bij 2 (fun i => 1 - i)%nat /\ bij 3 (fun j => j) /\ (forall i, (i < 2)%nat -> 0 < INR (i + 5)).
Proof.
  repeat split; intros; try lia. apply lt_0_INR. lia.
Qed.

(** C59: an all-zero sample (or, when profiles are updated, an all-zero
    feature) always ends in a division by zero at the second iteration. *)
Theorem C59_zero_sample_breaks :
  forall (m n k : nat) (V We W H : mat) (i0 : nat) (hold : nat -> bool) (N : nat),
    (0 < k)%nat -> (2 <= N)%nat ->
    (exists i, (i < m)%nat /\ forall j, (j < n)%nat -> V i j = 0) ->
    ls_iter m n k V We hold i0 N (W, H) = None.
Proof. exact zero_sample_breaks_all. Qed.
Print Assumptions C59_zero_sample_breaks.
Definition xl_Z : mat := fun i j => INR i * INR (j + 1).
Example C59_zero_sample_breaks_example := fun N (HN : (2 <= N)%nat) => C59_zero_sample_breaks 2 2 1 xl_Z (weights xl_U) xl_one xl_one 0 (fun _ => false) N ltac:(lia) HN
  (ex_intro _ 0%nat (conj (Nat.lt_0_succ 1) (fun j _ => Rmult_0_l (INR (j + 1))))).

Theorem C59_zero_feature_breaks :
  forall (m n k : nat) (V We W H : mat) (i0 : nat) (hold : nat -> bool) (N : nat),
    (0 < k)%nat -> (2 <= N)%nat ->
    (exists j, (j < n)%nat /\ forall i, (i < m)%nat -> V i j = 0) ->
    hold i0 = false -> hold (S i0) = false ->
    ls_iter m n k V We hold i0 N (W, H) = None.
Proof. exact zero_feature_breaks_all. Qed.
Print Assumptions C59_zero_feature_breaks.
Example C59_zero_feature_breaks_example := fun N (HN : (2 <= N)%nat) => C59_zero_feature_breaks 2 2 1 (fun i j => INR j * INR (i + 1)) (weights xl_U) xl_one xl_one 0 (fun _ => false) N ltac:(lia) HN
  (ex_intro _ 0%nat (conj (Nat.lt_0_succ 1) (fun i _ => Rmult_0_l (INR (i + 1))))) eq_refl eq_refl.

Example C59_instance :
  (exists i, (i < 2)%nat /\ forall j, (j < 2)%nat -> INR i * INR (j + 1) = 0) /\
  (exists j, (j < 2)%nat /\ forall i, (i < 2)%nat -> INR j * INR (i + 1) = 0).
Proof. split; exists 0%nat; (split; [lia|]); intros; cbn [INR]; ring. Qed.

