(** LS-NMF inside the training loops: guaranteed convergence. *)
From Coq Require Import Reals Lra Lia List Bool ZArith Arith.
From Verif Require Import Base Fl Metrics_Model Metrics_Proofs LSNMF_Model LSNMF_Proofs
  Train_Model Train_Spec Train_Proofs.
Import ListNotations.
Open Scope R_scope.

Section LS.
  Context (m n k : nat) (V U : mat) (delta : R) (cn : Z) (hold_h : bool) (delay_h : Z).
  Context (W H : mat).
  Context (Hm : (0 < m)%nat) (Hn : (0 < n)%nat) (Hk : (0 < k)%nat).
  Context (HV : mall m n (fun x => 0 <= x) V) (Hne : no_empty m n V).
  Context (HU : mall m n (fun u => u <> 0) U).
  Context (HW : mall m k (fun x => 0 < x) W) (HH : mall k n (fun x => 0 < x) H).
  Context (Hd : 0 < delta).

  Let holds := hold_at hold_h delay_h.

  Lemma state_at_iter i :
    state_at (ls_step m n k V U) holds (Some (W, H)) i
    = ls_iter m n k V (weights U) holds 0 i (W, H).
  Proof.
    induction i as [|i IH]; [reflexivity|]. cbn [state_at]. rewrite IH.
    replace (S i) with (i + 1)%nat by lia. rewrite ls_iter_add.
    unfold ls_step at 1. destruct (ls_iter m n k V (weights U) holds 0 i (W, H)) as [st|]; [|reflexivity].
    cbn [ls_iter Nat.add]. destruct (ls_update m n k V (weights U) (holds i) st); reflexivity.
  Qed.

  (** the loss after [i] iterations *)
  Definition Qn (i : nat) : R :=
    match ls_iter m n k V (weights U) holds 0 i (W, H) with
    | Some (W', H') => q_loss m n k true V U W' H'
    | None => 0
    end.

  Lemma iter_pos i : exists W' H',
    ls_iter m n k V (weights U) holds 0 i (W, H) = Some (W', H') /\
    mall m k (fun x => 0 < x) W' /\ mall k n (fun x => 0 < x) H'.
  Proof.
    exact (ls_iter_pos m n k V (weights U) holds i 0%nat W H Hm Hn Hk HV Hne (weights_pos m n U HU) HW HH).
  Qed.

  Lemma loss_at_Qn i :
    loss_at (ls_step m n k V U) (ls_loss m n k V U) holds (Some (W, H)) i = Fin (Qn (S i)).
  Proof.
    unfold loss_at. rewrite state_at_iter. unfold Qn.
    destruct (iter_pos (S i)) as (W' & H' & E & _). rewrite E. reflexivity.
  Qed.

  Lemma Qn_nonneg i : 0 <= Qn i.
  Proof.
    unfold Qn. destruct (iter_pos i) as (W' & H' & E & _). rewrite E. apply q_loss_nonneg.
  Qed.

  Lemma Qn_step i : Qn (S i) <= Qn i.
  Proof.
    unfold Qn. destruct (iter_pos i) as (W1 & H1 & E1 & A & B).
    destruct (iter_pos (S i)) as (W2 & H2 & E2 & _). rewrite E1, E2.
    replace (S i) with (i + 1)%nat in E2 by lia. rewrite ls_iter_add, E1 in E2.
    exact (ls_iter_q m n k V U holds 1 (0 + i) W1 H1 W2 H2 HV HU
             (pos_nonneg _ _ _ A) (pos_nonneg _ _ _ B) E2).
  Qed.

  Lemma Qn_mono i j : (i <= j)%nat -> Qn j <= Qn i.
  Proof.
    induction 1 as [|j Hij IH]; [lra|]. pose proof (Qn_step j). lra.
  Qed.

  (** Among [K] consecutive windows one decreases by less than [delta]. *)
  Lemma small_window (w K s : nat) :
    Qn s < INR K * delta ->
    exists t, (1 <= t <= K)%nat /\ Qn (s + (t - 1) * w) - Qn (s + t * w) < delta.
  Proof.
    intros HK.
    assert (Hdec : (exists t, (1 <= t <= K)%nat /\ Qn (s + (t - 1) * w) - Qn (s + t * w) < delta) \/
                   Qn s - Qn (s + K * w) >= INR K * delta).
    { clear HK. induction K as [|K IH].
      - right. cbn. replace (s + 0)%nat with s by lia. lra.
      - destruct IH as [(t & Ht & Hlt)|Hge]; [left; exists t; split; [lia|assumption]|].
        destruct (Rlt_dec (Qn (s + K * w) - Qn (s + S K * w)) delta) as [Hl|Hl].
        + left. exists (S K). split; [lia|]. replace (S K - 1)%nat with K by lia. assumption.
        + right. rewrite S_INR. lra. }
    destruct Hdec as [Hex|Hge]; [exact Hex|].
    exfalso. pose proof (Qn_nonneg (s + K * w)). lra.
  Qed.

  Lemma fbelow_fin a b : fbelow delta (Fin a) (Fin b) = true <-> a - b < delta.
  Proof. unfold fbelow, fsub, fopp, fadd. rewrite flt_fin. unfold Rminus. reflexivity. Qed.

  Let q := loss_at (ls_step m n k V U) (ls_loss m n k V U) holds (Some (W, H)).

  Lemma crit_window t : (1 <= t)%nat ->
    Qn (1 + (t - 1) * span cn) - Qn (1 + t * span cn) < delta ->
    criterion (fbelow delta) cn q (t * span cn).
  Proof.
    intros Ht Hq. split; [nia|]. unfold q. rewrite !loss_at_Qn. apply fbelow_fin.
    replace (S (t * span cn - span cn)) with (1 + (t - 1) * span cn)%nat by nia.
    exact Hq.
  Qed.

  Lemma Q1_lt K : q_loss m n k true V U W H < INR K * delta -> Qn 1 < INR K * delta.
  Proof. intros HK. pose proof (Qn_step 0) as Hs. change (Qn 0) with (q_loss m n k true V U W H) in Hs. lra. Qed.

  Lemma ls_rust_converges (tick : nat -> bool) (max_iter : Z) (K : nat) :
    q_loss m n k true V U W H < INR K * delta ->
    (Z.of_nat (K * span cn) < max_iter)%Z ->
    let r := ls_rust_train m n k V U delta cn hold_h delay_h tick max_iter W H in
    rr_conv r = true /\ (rr_ci r <= K * span cn)%nat /\
    exists W' H', rr_state r = Some (W', H') /\
      mall m k (fun x => 0 < x) W' /\ mall k n (fun x => 0 < x) H' /\
      rr_q r = Some (Fin (q_loss m n k true V U W' H')) /\
      q_loss m n k true V U W' H' <= q_loss m n k true V U W H.
  Proof.
    intros HK Hmax r.
    destruct (small_window (span cn) K 1 (Q1_lt K HK)) as (t & Ht & Hq).
    assert (Hc : criterion (fbelow delta) cn q (t * span cn)) by (apply crit_window; [lia|exact Hq]).
    assert (Hfin : forall j, exists W' H', state_at (ls_step m n k V U) holds (Some (W, H)) (S j) = Some (W', H') /\
      mall m k (fun x => 0 < x) W' /\ mall k n (fun x => 0 < x) H' /\
      loss_at (ls_step m n k V U) (ls_loss m n k V U) holds (Some (W, H)) j = Fin (q_loss m n k true V U W' H') /\
      q_loss m n k true V U W' H' <= q_loss m n k true V U W H).
    { intros j. rewrite state_at_iter. destruct (iter_pos (S j)) as (W' & H' & E & A & B).
      exists W', H'. rewrite loss_at_Qn. split; [exact E|]. split; [exact A|]. split; [exact B|].
      assert (EQ : Qn (S j) = q_loss m n k true V U W' H') by (unfold Qn; rewrite E; reflexivity).
      split; [rewrite EQ; reflexivity|]. rewrite <- EQ. apply (Qn_mono 0 (S j)). lia. }
    destruct (rust_train_spec (ls_step m n k V U) (ls_loss m n k V U) (fbelow delta)
                cn hold_h delay_h tick (Some (W, H)) max_iter)
      as [(j & Hj & [Hf1 Hf2] & R1 & R2 & R3 & R4 & R5)|(Hb & R)].
    - unfold r, ls_rust_train. rewrite R3, R4, R1, R2. split; [reflexivity|]. split.
      + destruct (Nat.le_gt_cases j (t * span cn)) as [|Hgt]; [nia|].
        exfalso. exact (Hf2 _ Hgt Hc).
      + destruct (Hfin j) as (W' & H' & E1 & A & B & E2 & C).
        exists W', H'. split; [exact E1|]. split; [exact A|]. split; [exact B|].
        split; [rewrite <- E2; reflexivity|exact C].
    - exfalso. apply (Hb (t * span cn)%nat); [|exact Hc]. nia.
  Qed.

  Lemma not_nan i :
    is_nan (ls_loss m n k V U (state_at (ls_step m n k V U) holds (Some (W, H)) (S i))) = false.
  Proof. pose proof (loss_at_Qn i) as E. unfold loss_at in E. rewrite E. reflexivity. Qed.

  Lemma ls_py_converges (max_iter : Z) (K : nat) :
    (1 <= cn)%Z ->
    q_loss m n k true V U W H < INR K * delta ->
    (Z.of_nat (K * span cn) + 1 < max_iter)%Z ->
    let r := ls_py_train m n k V U delta cn delay_h hold_h max_iter W H in
    pr_stop r = PConverged /\ (pr_steps r <= K * span cn + 1)%nat.
  Proof.
    intros Hcn HK Hmax r.
    assert (H2 : Qn 2 < INR K * delta) by (pose proof (Q1_lt K HK); pose proof (Qn_step 1); lra).
    destruct (small_window (span cn) K 2 H2) as (t & Ht & Hq).
    assert (Hc : stopb_py (ls_step m n k V U) (ls_loss m n k V U) (fbelow delta) cn delay_h hold_h (Some (W, H))
                   (1 + t * span cn) = true).
    { unfold stopb_py. apply andb_true_iff. split.
      - apply Nat.leb_le. unfold span in *. nia.
      - change (hold_at hold_h delay_h) with holds. rewrite !loss_at_Qn. apply fbelow_fin.
        replace (S (1 + t * span cn - (Z.to_nat cn - 1)))%nat with (2 + (t - 1) * span cn)%nat
          by (unfold span in *; nia).
        exact Hq. }
    destruct (py_train_spec (ls_step m n k V U) (ls_loss m n k V U) (fbelow delta)
                (fun o => is_nan (ls_loss m n k V U o)) cn delay_h hold_h (Some (W, H)) max_iter Hcn)
      as [(j & Hj & Hb & A & B & C & D)|(Hb & A & B & C & D)].
    - destruct D as [[D _]|(_ & _ & D)].
      { change (hold_at hold_h delay_h) with holds in D. rewrite not_nan in D. discriminate. }
      unfold r, ls_py_train. rewrite D, C. split; [reflexivity|].
      destruct (Nat.le_gt_cases j (1 + t * span cn)) as [|Hgt]; [nia|].
      destruct (Hb _ Hgt) as [_ Hx]. rewrite Hc in Hx. discriminate.
    - exfalso. assert (Hlt : (1 + t * span cn < Z.to_nat max_iter)%nat) by nia.
      destruct (Hb _ Hlt) as [_ Hx]. rewrite Hc in Hx. discriminate.
  Qed.
End LS.
