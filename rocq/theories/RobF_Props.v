(** C118: the robust loss in floating point. *)
From Coq Require Import ZArith Reals Lra Lia List Bool Permutation Arith.
From Flocq Require Import Core BinarySingleNaN.
From Verif Require Import Base Boot_Proofs Float_Model Float_Spec Float_Proofs Acc_Spec Acc_Proofs RobF_Model RobF_Spec RobF_Proofs RobF_Acc.
Import ListNotations.
Local Open Scope R_scope.

Section L.
  Context {prec emax : Z} {Hprec : Prec_gt_0 prec} {Hmax : Prec_lt_emax prec emax}.
  Notation F := (binary_float prec emax).
  Variables (alpha tiny : F) (V U WH : fmat prec emax).
  Hypothesis Pa : positive alpha.

  Section Cell.
    Variables (i j : nat).
    Hypothesis Pu : positive (U i j).
    Hypothesis Fr : is_finite (fsub (V i j) (WH i j)) = true.

    Lemma sres_nn : nn (sres V U WH i j).
    Proof. apply absdiv_val; [exact Fr|apply Pu|apply Pu]. Qed.
    Lemma runc_big : Bltb alpha (sres V U WH i j) = true -> nn (runc alpha V U WH i j) /\ B2R (U i j) <= val (runc alpha V U WH i j).
    Proof. intros L. apply inflated; try apply Pa; try apply Pu; [apply sres_nn|exact L]. Qed.
    Lemma runc_same : Bltb alpha (sres V U WH i j) = true -> runc_py alpha tiny V U WH i j = runc alpha V U WH i j.
    Proof.
      intros L. destruct (runc_big L) as [N B]. unfold runc_py. destruct (Bleb (runc alpha V U WH i j) fzero) eqn:E; [|reflexivity].
      exfalso. apply leb_val in E; [|exact N|split; reflexivity]. cbn in E. pose proof (proj2 Pu). lra.
    Qed.
    Lemma merged_same : merged_py alpha tiny V U WH i j = merged_rs alpha V U WH i j.
    Proof.
      unfold merged_py, merged_rs. destruct (Bltb alpha (sres V U WH i j)) eqn:L; [|reflexivity]. rewrite (runc_same L). reflexivity.
    Qed.
    Lemma merged_le : nn (merged_rs alpha V U WH i j) /\ val (merged_rs alpha V U WH i j) <= val (sres V U WH i j).
    Proof.
      unfold merged_rs. destruct (Bltb alpha (sres V U WH i j)) eqn:L; [|split; [apply sres_nn|lra]].
      destruct (runc_big L) as [N B]. apply shrunk; try assumption; apply Pu.
    Qed.
    Lemma term_le : nn (term_rs alpha V U WH (i, j)) /\ nn (term_true V U WH (i, j)) /\
      val (term_rs alpha V U WH (i, j)) <= val (term_true V U WH (i, j)).
    Proof.
      destruct merged_le as [N L]. unfold term_rs, term_true. cbn [fst snd].
      assert (E : fmul (scaled V U WH i j) (scaled V U WH i j) = fmul (sres V U WH i j) (sres V U WH i j)) by (symmetry; apply sqr_abs).
      rewrite E. split; [apply sqr_val, N|]. split; [apply sqr_val, sres_nn|]. apply sqr_mono; [exact N|apply sres_nn|exact L].
    Qed.
    Lemma term_same : term_py alpha tiny V U WH (i, j) = term_rs alpha V U WH (i, j).
    Proof. unfold term_py, term_rs. cbn [fst snd]. rewrite merged_same. reflexivity. Qed.
  End Cell.
End L.

Lemma in_cells m n p : In p (list_prod (seq 0 m) (seq 0 n)) <-> (fst p < m /\ snd p < n)%nat.
Proof. destruct p as [a b]. rewrite in_prod_iff, !in_seq. cbn. lia. Qed.
Lemma in_columns m n p : In p (by_columns m n) <-> (fst p < m /\ snd p < n)%nat.
Proof.
  unfold by_columns. rewrite in_flat_map. split.
  - intros (j & Hj & Hp). apply in_map_iff in Hp. destruct Hp as (i & <- & Hi). apply in_seq in Hi, Hj. cbn. lia.
  - intros [A B]. exists (snd p). split; [apply in_seq; lia|]. apply in_map_iff. exists (fst p). split; [destruct p; reflexivity|apply in_seq; lia].
Qed.
Lemma lsum_cells m n f : lsum (map f (list_prod (seq 0 m) (seq 0 n))) = rsum m (fun i => rsum n (fun j => f (i, j))).
Proof.
  rewrite rsum_lsum. induction (seq 0 m) as [|a l IH]; cbn [list_prod map lsum]; [reflexivity|].
  rewrite map_app, lsum_app, IH, map_map. rewrite rsum_lsum. reflexivity.
Qed.
Lemma lsum_columns m n f : lsum (map f (by_columns m n)) = rsum m (fun i => rsum n (fun j => f (i, j))).
Proof.
  rewrite rsum_swap. rewrite rsum_lsum. unfold by_columns. induction (seq 0 n) as [|a l IH]; cbn [flat_map map lsum]; [reflexivity|].
  rewrite map_app, lsum_app, IH, map_map. rewrite rsum_lsum. reflexivity.
Qed.
Lemma length_columns m n : List.length (by_columns m n) = (m * n)%nat.
Proof.
  unfold by_columns. rewrite <- (seq_length n 0) at 2. induction (seq 0 n) as [|a l IH]; cbn [flat_map List.length]; [lia|].
  rewrite app_length, map_length, seq_length, IH. lia.
Qed.

(** With one order of summation for both, the robust loss is never above the loss:
    not even by a rounding error, and it is never NaN. *)
Theorem C118_robust_at_most_true :
  forall (prec emax : Z) (Hp : Prec_gt_0 prec) (He : Prec_lt_emax prec emax) (m n : nat) (alpha tiny : binary_float prec emax) (V U WH : fmat prec emax) s,
  positive alpha ->
  (forall i j, (i < m)%nat -> (j < n)%nat -> positive (U i j) /\ is_finite (fsub (V i j) (WH i j)) = true) ->
  summing (list_prod (seq 0 m) (seq 0 n)) s ->
  at_most (s (term_py alpha tiny V U WH)) (s (term_true V U WH)).
Proof.
  intros prec emax Hp He m n alpha tiny V U WH s Pa Hc Hs.
  destruct (summing_mono _ s (term_py alpha tiny V U WH) (term_true V U WH) Hs) as (N1 & N2 & L).
  - intros [i j] Hin. apply in_cells in Hin. destruct (Hc i j) as [Pu Fr]; [apply Hin|apply Hin|].
    rewrite (term_same alpha tiny V U WH Pa i j Pu Fr). apply (term_le alpha V U WH Pa i j Pu Fr).
  - apply leb_val; assumption.
Qed.
Print Assumptions C118_robust_at_most_true.

(** Without outliers the two losses are the same number, bit for bit. *)
Theorem C118_equal_without_outliers :
  forall (prec emax : Z) (Hp : Prec_gt_0 prec) (He : Prec_lt_emax prec emax) (m n : nat) (alpha tiny : binary_float prec emax) (V U WH : fmat prec emax) s,
  (forall i j, (i < m)%nat -> (j < n)%nat -> Bltb alpha (Babs (fdiv (fsub (V i j) (WH i j)) (U i j))) = false) ->
  summing (list_prod (seq 0 m) (seq 0 n)) s ->
  s (term_py alpha tiny V U WH) = s (term_true V U WH) /\
  forall i j, (i < m)%nat -> (j < n)%nat -> updated alpha tiny V U WH i j = U i j.
Proof.
  intros prec emax Hp He m n alpha tiny V U WH s Hc Hs.
  assert (E : forall (l : list (nat * nat)) s f h, summing l s -> (forall p, In p l -> f p = h p) -> (s f : binary_float prec emax) = s h).
  { clear. intros l s f h. induction 1 as [|x|l1 l2 s1 s2 H1 IH1 H2 IH2|l l' s Hp' H IH]; intros Hf.
    - reflexivity.
    - apply Hf. left. reflexivity.
    - rewrite IH1, IH2; [reflexivity| |]; intros p Hin; apply Hf, in_or_app; auto.
    - apply IH. intros p Hin. apply Hf. eapply Permutation_in; eassumption. }
  split.
  - apply (E _ _ _ _ Hs). intros [i j] Hin. apply in_cells in Hin. unfold term_py, term_true, merged_py, sres, res, fabs. cbn [fst snd].
    rewrite (Hc i j) by apply Hin. exact (sqr_abs _).
  - intros i j Hi Hj. unfold updated, merged_py, sres, res, fabs. rewrite ! (Hc i j Hi Hj). reflexivity.
Qed.
Print Assumptions C118_equal_without_outliers.

(** Both engines use the same residuals, and no uncertainty is lowered. *)
Theorem C118_same_cells :
  forall (prec emax : Z) (Hp : Prec_gt_0 prec) (He : Prec_lt_emax prec emax) (alpha tiny : binary_float prec emax) (V U WH : fmat prec emax) i j,
  positive alpha -> positive (U i j) -> is_finite (fsub (V i j) (WH i j)) = true ->
  merged_py alpha tiny V U WH i j = merged_rs alpha V U WH i j /\
  at_most (merged_rs alpha V U WH i j) (Babs (fdiv (fsub (V i j) (WH i j)) (U i j))) /\
  at_most (U i j) (updated alpha tiny V U WH i j).
Proof.
  intros prec emax Hp He alpha tiny V U WH i j Pa Pu Fr.
  split; [apply merged_same; assumption|]. destruct (merged_le alpha V U WH Pa i j Pu Fr) as [N L].
  split; [apply leb_val; [exact N|apply (sres_nn V U WH i j Pu Fr)|exact L]|].
  assert (Nu : nn (U i j)) by (apply proper_nn, positive_proper, Pu).
  unfold updated. rewrite (merged_same alpha tiny V U WH Pa i j Pu Fr).
  destruct (Bltb alpha (merged_rs alpha V U WH i j)) eqn:B; [|apply leb_val; [exact Nu|exact Nu|lra]].
  assert (O : Bltb alpha (sres V U WH i j) = true).
  { destruct (Bltb alpha (sres V U WH i j)) eqn:O; [reflexivity|]. unfold merged_rs in B. rewrite O, O in B. discriminate. }
  rewrite (runc_same alpha tiny V U WH Pa i j Pu Fr O). destruct (runc_big alpha V U WH Pa i j Pu Fr O) as [Nr Lr].
  apply leb_val; [exact Nu|exact Nr|]. rewrite val_fin by apply Pu. exact Lr.
Qed.
Print Assumptions C118_same_cells.

(** Accuracy: the robust loss of either engine, added up in any order, against the
    bounded loss of the computed residuals. *)
Theorem C118_accuracy :
  forall (prec emax : Z) (Hp : Prec_gt_0 prec) (He : Prec_lt_emax prec emax) (m n : nat) (alpha tiny : binary_float prec emax) (V U WH : fmat prec emax),
  positive alpha ->
  (forall i j, (i < m)%nat -> (j < n)%nat -> positive (U i j) /\ is_finite (fsub (V i j) (WH i j)) = true /\
     cell_range emax (B2R alpha) (B2R (fsub (V i j) (WH i j))) (B2R (U i j))) ->
  let Q := rsum m (fun i => rsum n (fun j => bounded_loss (B2R alpha) (B2R (fsub (V i j) (WH i j)) / B2R (U i j)))) in
  Q <= bpow radix2 (emax - 2) ->
  (2 * Z.of_nat (m * n + 11) <= 2 ^ prec)%Z ->
  (forall s, summing (list_prod (seq 0 m) (seq 0 n)) s -> proper (s (term_py alpha tiny V U WH)) /\
     close prec (m * n + 11) (B2R (s (term_py alpha tiny V U WH))) Q) /\
  proper (rust_robust m n alpha V U WH) /\ close prec (m * n + 11) (B2R (rust_robust m n alpha V U WH)) Q.
Proof.
  intros prec emax Hp He m n alpha tiny V U WH Pa Hc Q HQ HB.
  destruct (g_bound (prec := prec) _ HB) as [_ G].
  assert (G11 : growth prec ^ 11 <= 2) by (eapply Rle_trans; [apply g_mono|exact G]; lia).
  set (loss := fun p : nat * nat => bounded_loss (B2R alpha) (B2R (fsub (V (fst p) (snd p)) (WH (fst p) (snd p))) / B2R (U (fst p) (snd p)))).
  assert (K : forall l q, (forall p, In p l -> (fst p < m /\ snd p < n)%nat) -> List.length l = (m * n)%nat -> lsum (map loss l) = Q ->
            total (map (term_rs alpha V U WH) l) q -> proper q /\ close prec (m * n + 11) (B2R q) Q).
  { intros l q Hl Len Sum Ht.
    assert (Hf : Forall2 (one_ok 11) (map (term_rs alpha V U WH) l) (map loss l)).
    { clear -Hl Hc Pa G11. induction l as [|[i j] l IH]; cbn [map]; constructor; [|apply IH; intros p Hin; apply Hl; right; exact Hin].
      destruct (Hl (i, j) (or_introl eq_refl)) as [Hi Hj]. cbn in Hi, Hj. destruct (Hc i j Hi Hj) as (Pu & Fr & R).
      destruct (cell_near alpha alpha V U WH i j Pa Pu Fr R G11) as [P N]. split; [exact P|]. split; [exact N|].
      unfold loss, bounded_loss. cbn [fst snd]. destruct (Rle_dec _ _); [apply Rle_0_sqr|]. apply Rmult_le_pos; [left; apply Pa|apply Rabs_pos]. }
    destruct (total_near 11 _ q Ht (map loss l) Hf) as [P N].
    - rewrite Sum. exact HQ.
    - rewrite map_length, Len, Nat.add_comm. exact G.
    - split; [exact P|]. rewrite map_length, Len, Sum, Nat.add_comm in N. apply near_close; [exact HB| |exact N].
      rewrite <- Sum. exact (ones_nonneg _ _ _ Hf). }
  split.
  - intros s Hs. apply K with (l := list_prod (seq 0 m) (seq 0 n)).
    + intros p Hin. apply in_cells, Hin.
    + rewrite prod_length, !seq_length. reflexivity.
    + rewrite lsum_cells. reflexivity.
    + assert (E : map (term_py alpha tiny V U WH) (list_prod (seq 0 m) (seq 0 n)) = map (term_rs alpha V U WH) (list_prod (seq 0 m) (seq 0 n))).
      { apply map_ext_in. intros [i j] Hin. apply in_cells in Hin. destruct (Hc i j) as (Pu & Fr & _); [apply Hin|apply Hin|]. apply term_same; assumption. }
      rewrite <- E. apply summing_total, Hs.
  - apply K with (l := by_columns m n).
    + intros p Hin. apply in_columns, Hin.
    + apply length_columns.
    + rewrite lsum_columns. reflexivity.
    + apply total_ltr_ok.
Qed.
Print Assumptions C118_accuracy.

(** The compiled engine adds up the two losses in different orders: there the
    robust loss is at most the loss up to the error of the two summations. *)
Theorem C118_compiled_nearly_at_most :
  forall (prec emax : Z) (Hp : Prec_gt_0 prec) (He : Prec_lt_emax prec emax) (m n : nat) (alpha : binary_float prec emax) (V U WH : fmat prec emax),
  positive alpha ->
  (forall i j, (i < m)%nat -> (j < n)%nat -> positive (U i j) /\ is_finite (fsub (V i j) (WH i j)) = true) ->
  let qt := rust_true m n V U WH in let qr := rust_robust m n alpha V U WH in
  is_nan qt = false /\ is_nan qr = false /\
  (is_finite qt = true -> is_finite qr = true ->
   let u := bpow radix2 (- prec) in
   B2R qr * (1 - u) ^ (m * n - 1) <= B2R qt * (1 + u) ^ (m * n - 1)).
Proof.
  intros prec emax Hp He m n alpha V U WH Pa Hc qt qr.
  assert (Ct : forall p, In p (by_rows m n) -> nn (term_true V U WH p)).
  { intros [i j] Hin. apply in_cells in Hin. destruct (Hc i j) as [Pu Fr]; [apply Hin|apply Hin|]. apply (term_le alpha V U WH Pa i j Pu Fr). }
  assert (Cr : forall p, In p (by_columns m n) -> nn (term_rs alpha V U WH p)).
  { intros [i j] Hin. apply in_columns in Hin. destruct (Hc i j) as [Pu Fr]; [apply Hin|apply Hin|]. apply (term_le alpha V U WH Pa i j Pu Fr). }
  assert (Tt : total (map (term_true V U WH) (by_rows m n)) qt) by apply total_ltr_ok.
  assert (Tr : total (map (term_rs alpha V U WH) (by_columns m n)) qr) by apply total_ltr_ok.
  assert (Nn : forall l (q : binary_float prec emax), total l q -> (forall x, In x l -> nn x) -> nn q).
  { clear. induction 1 as [|x|l1 l2 a b H1 IH1 H2 IH2|l l' a Hp' H IH]; intros Hl.
    - split; reflexivity.
    - apply Hl. left. reflexivity.
    - apply add_val; [apply IH1|apply IH2]; intros x Hx; apply Hl, in_or_app; auto.
    - apply IH. intros x Hx. apply Hl. eapply Permutation_in; eassumption. }
  assert (Gd : forall l (q : binary_float prec emax), total l q -> (forall x, In x l -> nn x) -> is_finite q = true -> Forall good l).
  { intros l q Ht. induction Ht as [|x|l1 l2 a b H1 IH1 H2 IH2|l l' a Hp' H IH]; intros Hl Hf.
    - constructor.
    - constructor; [|constructor]. split; [apply (Hl x); left; reflexivity|exact Hf].
    - assert (A : nn a) by (apply (Nn l1); [exact H1|]; intros x Hx; apply Hl, in_or_app; auto).
      assert (B : nn b) by (apply (Nn l2); [exact H2|]; intros x Hx; apply Hl, in_or_app; auto).
      destruct (add_finite_inv a b Hf (proj1 A) (proj1 B)) as [Fa Fb]. apply Forall_app.
      split; [apply IH1|apply IH2]; try assumption; intros x Hx; apply Hl, in_or_app; auto.
    - apply (Permutation_Forall Hp'). apply IH; [|exact Hf]. intros x Hx. apply Hl. eapply Permutation_in; eassumption. }
  assert (Mt : forall x, In x (map (term_true V U WH) (by_rows m n)) -> nn x) by (intros x Hx; apply in_map_iff in Hx; destruct Hx as (p & <- & Hin); apply Ct, Hin).
  assert (Mr : forall x, In x (map (term_rs alpha V U WH) (by_columns m n)) -> nn x) by (intros x Hx; apply in_map_iff in Hx; destruct Hx as (p & <- & Hin); apply Cr, Hin).
  split; [apply (Nn _ _ Tt Mt)|]. split; [apply (Nn _ _ Tr Mr)|]. intros Ft Fr u.
  pose proof (Gd _ _ Tt Mt Ft) as Gt. pose proof (Gd _ _ Tr Mr Fr) as Gr.
  pose proof (total_accuracy _ _ Tt Gt Ft) as [At _]. pose proof (total_accuracy _ _ Tr Gr Fr) as [_ Ar].
  rewrite map_length in At, Ar. rewrite length_columns in Ar.
  assert (Lr : List.length (by_rows m n) = (m * n)%nat) by (unfold by_rows; rewrite prod_length, !seq_length; reflexivity). rewrite Lr in At.
  assert (ES : forall (f : nat * nat -> binary_float prec emax) l, exact_sum (map f l) = lsum (map (fun p => B2R (f p)) l)).
  { intros f l. unfold exact_sum. induction l as [|a l IH]; cbn; [reflexivity|]. rewrite IH. reflexivity. }
  rewrite ES in At, Ar. unfold by_rows in At. rewrite lsum_cells in At. rewrite lsum_columns in Ar. fold u in At, Ar.
  set (St := rsum m (fun i => rsum n (fun j => B2R (term_true V U WH (i, j))))) in *.
  set (Sr := rsum m (fun i => rsum n (fun j => B2R (term_rs alpha V U WH (i, j))))) in *.
  assert (LS : Sr <= St).
  { apply rsum_le. intros i Hi. apply rsum_le. intros j Hj. destruct (Hc i j Hi Hj) as [Pu Fc].
    destruct (term_le alpha V U WH Pa i j Pu Fc) as (_ & _ & L).
    rewrite Forall_forall in Gt, Gr.
    assert (F1 : is_finite (term_true V U WH (i, j)) = true) by (apply Gt, in_map, in_cells; cbn; lia).
    assert (F2 : is_finite (term_rs alpha V U WH (i, j)) = true) by (apply Gr, in_map, in_columns; cbn; lia).
    rewrite !val_fin in L by assumption. exact L. }
  destruct (u_bounds (prec := prec)) as [U1 U2]. fold u in U1, U2.
  assert (D : 0 <= (1 - u) ^ (m * n - 1)) by (apply pow_le; lra).
  assert (E : 0 <= (1 + u) ^ (m * n - 1)) by (apply pow_le; lra).
  apply Rle_trans with (Sr * (1 + u) ^ (m * n - 1) * (1 - u) ^ (m * n - 1)); [apply Rmult_le_compat_r; [exact D|exact Ar]|].
  apply Rle_trans with (St * (1 - u) ^ (m * n - 1) * (1 + u) ^ (m * n - 1)); [|apply Rmult_le_compat_r; [exact E|exact At]].
  replace (Sr * (1 + u) ^ (m * n - 1) * (1 - u) ^ (m * n - 1)) with (Sr * ((1 + u) ^ (m * n - 1) * (1 - u) ^ (m * n - 1))) by ring.
  replace (St * (1 - u) ^ (m * n - 1) * (1 + u) ^ (m * n - 1)) with (St * ((1 + u) ^ (m * n - 1) * (1 - u) ^ (m * n - 1))) by ring.
  apply Rmult_le_compat_r; [apply Rmult_le_pos; assumption|exact LS].
Qed.
Print Assumptions C118_compiled_nearly_at_most.

(** ** Where it fails *)
Definition mat22 (a b c d : b32) : fmat 24 128 :=
  fun i j => match i, j with O, O => a | O, _ => b | _, O => c | _, _ => d end.
Definition ones : fmat 24 128 := fun _ _ => lit32 1 0.

(** The compiled engine adds up the two losses in different orders, so it can report
    a robust loss above the loss although there is no outlier. *)
Theorem C118_compiled_order_refuted :
  let V := mat22 (lit32 2 0) (lit32 4097 (-12)) (lit32 8195 (-13)) (lit32 1 0) in
  (forall i j, (i < 2)%nat -> (j < 2)%nat -> positive (ones i j) /\ is_finite (fsub (V i j) (ones i j)) = true /\
     Bltb (lit32 4 0) (Babs (fdiv (fsub (V i j) (ones i j)) (ones i j))) = false) /\
  B2R (rust_true 2 2 V ones ones) = 1 + / 8388608 /\
  B2R (rust_robust 2 2 (lit32 4 0) V ones ones) = 1 + / 4194304.
Proof.
  cbv zeta.
  assert (P1 : positive (lit32 1 0)).
  { split; [reflexivity|]. assert (E : B2R (lit32 1 0) = F2R (Float radix2 8388608 (-23))) by (vm_compute; reflexivity). rewrite E. unfold F2R. cbn. lra. }
  split; [|split].
  - intros i j Hi Hj. split; [exact P1|]. destruct i as [|[|]], j as [|[|]]; try lia; split; vm_compute; reflexivity.
  - match goal with |- B2R ?x = _ => assert (E : B2R x = F2R (Float radix2 8388609 (-23))) by (vm_compute; reflexivity) end. rewrite E. unfold F2R. cbn. lra.
  - match goal with |- B2R ?x = _ => assert (E : B2R x = F2R (Float radix2 8388610 (-23))) by (vm_compute; reflexivity) end. rewrite E. unfold F2R. cbn. lra.
Qed.
Print Assumptions C118_compiled_order_refuted.

(** An outlier whose scaled residual overflows does not count at all, and an
    infinite residual makes the robust loss NaN where the loss is infinite. *)
Theorem C118_overflowing_outlier_refuted :
  let V := fun _ _ : nat => lit32 1 100 in
  let U := fun _ _ : nat => lit32 1 (-100) in
  let WH := fun _ _ : nat => lit32 1 0 in
  let tiny := lit32 1 (-40) in
  positive (U 0%nat 0%nat) /\ is_finite (fsub (V 0%nat 0%nat) (WH 0%nat 0%nat)) = true /\
  term_true V U WH (0, 0)%nat = B754_infinity false /\
  term_py (lit32 4 0) tiny V U WH (0, 0)%nat = B754_zero false /\ term_rs (lit32 4 0) V U WH (0, 0)%nat = B754_zero false.
Proof.
  cbv zeta. split; [|split; [|split; [|split]]]; try (vm_compute; reflexivity).
  split; [reflexivity|]. assert (E : B2R (lit32 1 (-100)) = F2R (Float radix2 8388608 (-123))) by (vm_compute; reflexivity). rewrite E.
  unfold F2R. cbn [Fnum Fexp]. apply Rmult_lt_0_compat; [lra|apply bpow_gt_0].
Qed.
Print Assumptions C118_overflowing_outlier_refuted.

Theorem C118_infinite_residual_refuted :
  let V := fun _ _ : nat => lit32 3 126 in
  let U := fun _ _ : nat => lit32 1 0 in
  let WH := fun _ _ : nat => Bopp (lit32 3 126) in
  is_finite (V 0%nat 0%nat) = true /\ is_finite (WH 0%nat 0%nat) = true /\
  term_true V U WH (0, 0)%nat = B754_infinity false /\
  is_nan (term_py (lit32 4 0) (lit32 1 (-40)) V U WH (0, 0)%nat) = true /\ is_nan (term_rs (lit32 4 0) V U WH (0, 0)%nat) = true.
Proof. cbv zeta. repeat split; vm_compute; reflexivity. Qed.
Print Assumptions C118_infinite_residual_refuted.

(** An instance with one outlier: residuals 1 and 9, robust loss 1 + 4*9. *)
Example C118_instance :
  let V : fmat 24 128 := fun i _ => if (i =? 0)%nat then lit32 2 0 else lit32 10 0 in
  let tiny := lit32 1 (-40) in
  positive (lit32 4 0) /\
  (forall i j, (i < 2)%nat -> (j < 1)%nat -> positive (ones i j) /\ is_finite (fsub (V i j) (ones i j)) = true /\
     cell_range 128 (B2R (lit32 4 0)) (B2R (fsub (V i j) (ones i j))) (B2R (ones i j))) /\
  (exists s, summing (list_prod (seq 0 2) (seq 0 1)) s /\
     B2R (s (term_py (lit32 4 0) tiny V ones ones)) = 37 /\ B2R (s (term_true V ones ones)) = 82) /\
  B2R (updated (lit32 4 0) tiny V ones ones 1 0) = 3 / 2 /\
  rsum 2 (fun i => rsum 1 (fun j => bounded_loss 4 (B2R (fsub (V i j) (ones i j)) / B2R (ones i j)))) = 37.
Proof.
  cbv zeta.
  assert (E1 : B2R (lit32 1 0) = 1).
  { assert (E : B2R (lit32 1 0) = F2R (Float radix2 8388608 (-23))) by (vm_compute; reflexivity). rewrite E. unfold F2R. cbn. lra. }
  assert (E4 : B2R (lit32 4 0) = 4).
  { assert (E : B2R (lit32 4 0) = F2R (Float radix2 8388608 (-21))) by (vm_compute; reflexivity). rewrite E. unfold F2R. cbn. lra. }
  assert (R0 : B2R (fsub (lit32 2 0) (lit32 1 0)) = 1).
  { assert (E : B2R (fsub (lit32 2 0) (lit32 1 0)) = F2R (Float radix2 8388608 (-23))) by (vm_compute; reflexivity). rewrite E. unfold F2R. cbn. lra. }
  assert (R1 : B2R (fsub (lit32 10 0) (lit32 1 0)) = 9).
  { assert (E : B2R (fsub (lit32 10 0) (lit32 1 0)) = F2R (Float radix2 9437184 (-20))) by (vm_compute; reflexivity). rewrite E. unfold F2R. cbn. lra. }
  assert (Q1 : sqrt (9 / 4) = 3 / 2) by (replace (9 / 4) with (3 / 2 * (3 / 2)) by lra; apply sqrt_square; lra).
  assert (Q2 : sqrt (4 * 9) = 6) by (replace (4 * 9) with (6 * 6) by lra; apply sqrt_square; lra).
  assert (Rg : forall x, / 1000 <= x <= 1000 -> in_range (emax := 128) x).
  { intros x [A B]. right. split.
    - apply Rle_trans with (/ 1000); [|exact A]. apply Rle_trans with (bpow radix2 (-10)); [apply bpow_le; lia|]. change (bpow radix2 (-10)) with (/ 1024). lra.
    - apply Rle_trans with 1000; [exact B|]. apply Rle_trans with (bpow radix2 10); [change (bpow radix2 10) with 1024; lra|apply bpow_le; lia]. }
  assert (P1 : positive (lit32 1 0)) by (split; [reflexivity|rewrite E1; lra]).
  split; [split; [reflexivity|rewrite E4; lra]|]. split; [|split; [|split]].
  - intros i j Hi Hj. split; [exact P1|]. unfold ones. destruct i as [|[|]]; [| |lia]; cbn [Nat.eqb].
    + split; [vm_compute; reflexivity|]. unfold cell_range. rewrite E4, R0, E1. replace (1 / 1) with 1 by lra. rewrite Rabs_R1.
      split; [apply Rg; lra|]. split; [intros _; apply Rg; lra|intros; lra].
    + split; [vm_compute; reflexivity|]. unfold cell_range. rewrite E4, R1, E1. replace (9 / 1) with 9 by lra. rewrite (Rabs_pos_eq 9) by lra.
      split; [apply Rg; lra|]. split; [intros; lra|]. intros _. rewrite Q1, Q2. repeat split; apply Rg; lra.
  - exists (fun f => fadd (f (0, 0)%nat) (f (1, 0)%nat)). split.
    + apply (sum_both [(0, 0)%nat] [(1, 0)%nat] (fun f => f (0, 0)%nat) (fun f => f (1, 0)%nat)); apply sum_one.
    + split; match goal with |- B2R ?x = _ => idtac end.
      * match goal with |- B2R ?x = _ => assert (E : B2R x = F2R (Float radix2 9699328 (-18))) by (vm_compute; reflexivity) end. rewrite E. unfold F2R. cbn. lra.
      * match goal with |- B2R ?x = _ => assert (E : B2R x = F2R (Float radix2 10747904 (-17))) by (vm_compute; reflexivity) end. rewrite E. unfold F2R. cbn. lra.
  - match goal with |- B2R ?x = _ => assert (E : B2R x = F2R (Float radix2 12582912 (-23))) by (vm_compute; reflexivity) end. rewrite E. unfold F2R. cbn. lra.
  - cbn [rsum Nat.eqb]. unfold ones. rewrite R0, R1, E1. unfold bounded_loss.
    replace (1 / 1) with 1 by lra. replace (9 / 1) with 9 by lra. rewrite Rabs_R1, (Rabs_pos_eq 9) by lra.
    destruct (Rle_dec 1 4); [|lra]. destruct (Rle_dec 9 4); lra.
Qed.

Definition xrf_V : fmat 24 128 := fun i _ => if (i =? 0)%nat then lit32 2 0 else lit32 10 0.
Lemma xrf_cell i j : (i < 2)%nat -> (j < 1)%nat -> positive (ones i j) /\ is_finite (fsub (xrf_V i j) (ones i j)) = true.
Proof. intros Hi Hj. destruct (proj1 (proj2 C118_instance) i j Hi Hj) as (A & B & _). split; assumption. Qed.
Example C118_robust_at_most_true_example : exists s, summing (list_prod (seq 0 2) (seq 0 1)) s /\
  at_most (s (term_py (lit32 4 0) (lit32 1 (-40)) xrf_V ones ones)) (s (term_true xrf_V ones ones)).
Proof.
  destruct C118_instance as (P & _ & (s & S1 & _) & _). exists s. split; [exact S1 |].
  exact (C118_robust_at_most_true 24 128 _ _ 2 1 (lit32 4 0) (lit32 1 (-40)) xrf_V ones ones s P xrf_cell S1).
Qed.
Example C118_equal_without_outliers_example : exists s, summing (list_prod (seq 0 1) (seq 0 1)) s -> s (term_py (lit32 4 0) (lit32 1 (-40)) xrf_V ones ones) = s (term_true xrf_V ones ones).
Proof.
  exists (fun f => f (0, 0)%nat). intros H.
  refine (proj1 (C118_equal_without_outliers 24 128 _ _ 1 1 (lit32 4 0) (lit32 1 (-40)) xrf_V ones ones _ _ H)).
  intros i j Hi Hj. replace i with 0%nat by lia. vm_compute. reflexivity.
Qed.
Example C118_same_cells_example :=
  C118_same_cells 24 128 _ _ (lit32 4 0) (lit32 1 (-40)) xrf_V ones ones 1 0 (proj1 C118_instance) (proj1 (xrf_cell 1 0 ltac:(lia) ltac:(lia))) (proj2 (xrf_cell 1 0 ltac:(lia) ltac:(lia))).
Example C118_compiled_nearly_at_most_example :=
  C118_compiled_nearly_at_most 24 128 _ _ 2 1 (lit32 4 0) xrf_V ones ones (proj1 C118_instance) xrf_cell.

Example C118_accuracy_example :
  let V : fmat 24 128 := fun i _ => if (i =? 0)%nat then lit32 2 0 else lit32 10 0 in
  proper (rust_robust 2 1 (lit32 4 0) V ones ones) /\ close 24 13 (B2R (rust_robust 2 1 (lit32 4 0) V ones ones)) 37.
Proof.
  intros V. destruct C118_instance as (P & C & _ & _ & Q).
  assert (E4 : B2R (lit32 4 0) = 4).
  { assert (E : B2R (lit32 4 0) = F2R (Float radix2 8388608 (-21))) by (vm_compute; reflexivity). rewrite E. unfold F2R. cbn. lra. }
  pose proof (C118_accuracy 24 128 _ _ 2 1 (lit32 4 0) (lit32 1 (-40)) V ones ones P C) as X. cbv zeta in X. rewrite E4 in X.
  assert (Q' : rsum 2 (fun i => rsum 1 (fun j => bounded_loss 4 (B2R (fsub (V i j) (ones i j)) / B2R (ones i j)))) = 37) by exact Q.
  rewrite Q' in X.
  apply X; [|vm_compute; discriminate].
  change (128 - 2)%Z with (6 + 120)%Z. rewrite bpow_plus. pose proof (bpow_le radix2 0 120 ltac:(lia)) as B. change (bpow radix2 6) with 64. change (bpow radix2 0) with 1 in B. lra.
Qed.
