(** C151: the first iteration forgets the scale of the starting profiles of every
    feature; so fits do not depend on units where the start is chosen well. *)
From Coq Require Import Reals Lra Lia List Bool ZArith Arith Psatz.
From Verif Require Import Base Fl Metrics_Model LSNMF_Model LSNMF_Proofs Train_Model Train_Spec Train_Proofs Train_LS
  Repeat_Props SymRuns_Props SA_Model SA_Proofs SA_Props Whiten_Model.
Import ListNotations.
Open Scope R_scope.

(** ** Runs that agree from the first iteration on *)
Lemma hold_first hold_h delay_h : hold_at hold_h delay_h 0 = hold_h.
Proof.
  unfold hold_at. replace ((0 <? delay_h) && (delay_h <? Z.of_nat 0))%Z%bool with false; [destruct hold_h; reflexivity|].
  symmetry. apply andb_false_iff. destruct (Z.ltb_spec 0 delay_h); [right|left; reflexivity]. apply Z.ltb_ge. lia.
Qed.
Section First.
  Context {S1 S2 F : Type} (u1 : bool -> S1 -> S1) (u2 : bool -> S2 -> S2) (l1 : S1 -> F) (l2 : S2 -> F) (below : F -> F -> bool)
    (Rel : S1 -> S2 -> Prop).
  Context (Hu : forall h a b, Rel a b -> Rel (u1 h a) (u2 h b)) (Hl : forall a b, Rel a b -> l1 a = l2 b).

  Lemma rust_first cn hold_h delay_h tick max_iter a b : (1 <= max_iter)%Z -> Rel (u1 hold_h a) (u2 hold_h b) ->
    let r1 := rust_train u1 l1 below cn hold_h delay_h tick max_iter a in
    let r2 := rust_train u2 l2 below cn hold_h delay_h tick max_iter b in
    Rel (rr_state r1) (rr_state r2) /\ rr_q r1 = rr_q r2 /\ rr_conv r1 = rr_conv r2 /\ rr_ci r1 = rr_ci r2 /\
    rr_hist r1 = rr_hist r2 /\ rr_events r1 = rr_events r2.
  Proof.
    intros Hm Rab. unfold rust_train. destruct (Z.to_nat max_iter) as [|rem] eqn:E; [lia|].
    cbn [rust_loop]. rewrite hold_first, (Hl _ _ Rab).
    destruct (_ && _)%bool; cbn [rr_state rr_q rr_conv rr_ci rr_hist rr_events]; [repeat split; auto|].
    apply (rust_loop_sim u1 u2 l1 l2 below Rel Hu Hl), Rab.
  Qed.
  Lemma py_first (n1 : S1 -> bool) (n2 : S2 -> bool) cn delay_h hold_h max_iter a b : (1 <= max_iter)%Z -> (forall a b, Rel a b -> n1 a = n2 b) ->
    Rel (u1 hold_h a) (u2 hold_h b) ->
    let r1 := py_train u1 l1 below n1 cn delay_h hold_h max_iter a in
    let r2 := py_train u2 l2 below n2 cn delay_h hold_h max_iter b in
    Rel (pr_state r1) (pr_state r2) /\ pr_stop r1 = pr_stop r2 /\ pr_hist r1 = pr_hist r2 /\ pr_steps r1 = pr_steps r2.
  Proof.
    intros Hm Hn Rab. unfold py_train. destruct (Z.to_nat max_iter) as [|rem] eqn:E; [lia|].
    cbn [py_loop]. replace (if ((0 <? delay_h) && (delay_h <? Z.of_nat 0))%Z then false else hold_h) with hold_h
      by (destruct (Z.ltb_spec 0 delay_h); [|reflexivity]; cbn [andb]; destruct (Z.ltb_spec delay_h (Z.of_nat 0)); [lia|reflexivity]).
    rewrite (Hl _ _ Rab), (Hn _ _ Rab). destruct (n2 _); [repeat split; auto|].
    destruct (cn <? _)%Z; [|apply (py_loop_sim u1 u2 l1 l2 below Rel Hu Hl n1 n2 cn delay_h rem Hn), Rab]. destruct (tl _); [repeat split; auto|].
    destruct (below _ _); [repeat split; auto|]. apply (py_loop_sim u1 u2 l1 l2 below Rel Hu Hl n1 n2 cn delay_h rem Hn), Rab.
  Qed.
End First.

(** ** The first iteration *)
Lemma id_bij q : bij q (fun i => i).
Proof. repeat split; intros; auto. Qed.

Section Step.
  Context (m n k : nat) (d c e : nat -> R).
  Context (Hd : forall i, (i < m)%nat -> 0 < d i) (Hc : forall j, (j < n)%nat -> 0 < c j).
  Context (V U V' U' : mat) (HU : mall m n (fun u => u <> 0) U).
  Context (HV : forall i j, (i < m)%nat -> (j < n)%nat -> V' i j = d i * c j * V i j).
  Context (HU' : forall i j, (i < m)%nat -> (j < n)%nat -> U' i j = d i * c j * U i j).
  Notation idn := (fun i : nat => i).
  Notation Rel := (orel (sym m n k idn idn idn d c)).

  Lemma fe i j : (i < m)%nat -> (j < n)%nat -> weights U' i j = weights U i j / (d i * c j * (d i * c j)).
  Proof. intros Hi Hj. apply (sym_we m n idn idn d c (id_bij m) (id_bij n) Hd Hc U U' HU HU' i j Hi Hj). Qed.

  Lemma profiles_first W H W' H' : (forall j, (j < n)%nat -> e j <> 0) ->
    (forall i a, (i < m)%nat -> (a < k)%nat -> W' i a = d i * W i a) -> (forall a j, (a < k)%nat -> (j < n)%nat -> H' a j = e j * H a j) ->
    Rel (ls_step m n k V U false (Some (W, H))) (ls_step m n k V' U' false (Some (W', H'))).
  Proof.
    intros He HW HH.
    assert (Mm : forall i j, (i < m)%nat -> (j < n)%nat -> mmul k W' H' i j = d i * e j * mmul k W H i j).
    { intros i j Hi Hj. unfold mmul. rewrite <- rsum_scal_l. apply rsum_ext. intros a Ha. rewrite HW, HH by assumption. ring. }
    assert (Dn : forall a j, (a < k)%nat -> (j < n)%nat -> h_den m k (weights U') W' H' a j = e j / (c j * c j) * h_den m k (weights U) W H a j).
    { intros a j Ha Hj. unfold h_den. rewrite <- rsum_scal_l. apply rsum_ext. intros i Hi. rewrite fe, Mm, HW by assumption.
      pose proof (Hd i Hi). pose proof (Hc j Hj). field; split; lra. }
    assert (Nm : forall a j, (a < k)%nat -> (j < n)%nat -> h_num m V' (weights U') W' a j = / c j * h_num m V (weights U) W a j).
    { intros a j Ha Hj. unfold h_num. rewrite <- rsum_scal_l. apply rsum_ext. intros i Hi. unfold wev. rewrite fe, HV, HW by assumption.
      pose proof (Hd i Hi). pose proof (Hc j Hj). field; split; lra. }
    cbn [ls_step]. unfold ls_update, h_step.
    assert (E : all_nz k n (h_den m k (weights U) W H) = all_nz k n (h_den m k (weights U') W' H')).
    { apply eq_true_iff_eq. rewrite !all_nz_true. split; intros Q a j Ha Hj; specialize (Q a j Ha Hj); cbv beta in Q |- *; rewrite Dn in * by assumption;
        pose proof (Hc j Hj); pose proof (He j Hj).
      - apply Rmult_integral_contrapositive_currified; [|exact Q]. unfold Rdiv. apply Rmult_integral_contrapositive_currified; [assumption|apply Rinv_neq_0_compat; nra].
      - intros Z. apply Q. rewrite Z. ring. }
    rewrite E. destruct (all_nz k n (h_den m k (weights U') W' H')) eqn:Nz; [|exact I].
    set (H1 := fun a j => H a j * _). set (H1' := fun a j => H' a j * _).
    pose proof (sym_step m n k idn idn idn d c (id_bij m) (id_bij n) (id_bij k) Hd Hc V (weights U) V' (weights U') HV fe true (W, H1) (W', H1')) as X.
    apply X. split; cbn [fst snd]; [exact HW|]. intros a j Ha Hj. unfold H1, H1'. rewrite Dn, Nm, HH by assumption.
    pose proof (proj1 (all_nz_true _ _ _) E a j Ha Hj) as Y. cbv beta in Y. pose proof (Hc j Hj). pose proof (He j Hj). field. repeat split; (exact Y || lra || assumption).
  Qed.

  Lemma contributions_first W H W' H' : (forall i, (i < m)%nat -> e i <> 0) ->
    (forall i a, (i < m)%nat -> (a < k)%nat -> W' i a = e i * W i a) -> (forall a j, (a < k)%nat -> (j < n)%nat -> H' a j = c j * H a j) ->
    Rel (ls_step m n k V U true (Some (W, H))) (ls_step m n k V' U' true (Some (W', H'))).
  Proof.
    intros He HW HH.
    assert (Mm : forall i j, (i < m)%nat -> (j < n)%nat -> mmul k W' H' i j = e i * c j * mmul k W H i j).
    { intros i j Hi Hj. unfold mmul. rewrite <- rsum_scal_l. apply rsum_ext. intros a Ha. rewrite HW, HH by assumption. ring. }
    assert (Dn : forall i a, (i < m)%nat -> (a < k)%nat -> w_den n k (weights U') W' H' i a = e i / (d i * d i) * w_den n k (weights U) W H i a).
    { intros i a Hi Ha. unfold w_den. rewrite <- rsum_scal_l. apply rsum_ext. intros j Hj. rewrite fe, Mm, HH by assumption.
      pose proof (Hd i Hi). pose proof (Hc j Hj). field; split; lra. }
    assert (Nm : forall i a, (i < m)%nat -> (a < k)%nat -> w_num n V' (weights U') H' i a = / d i * w_num n V (weights U) H i a).
    { intros i a Hi Ha. unfold w_num. rewrite <- rsum_scal_l. apply rsum_ext. intros j Hj. unfold wev. rewrite fe, HV, HH by assumption.
      pose proof (Hd i Hi). pose proof (Hc j Hj). field; split; lra. }
    cbn [ls_step]. unfold ls_update, w_step.
    assert (E : all_nz m k (w_den n k (weights U) W H) = all_nz m k (w_den n k (weights U') W' H')).
    { apply eq_true_iff_eq. rewrite !all_nz_true. split; intros Q i a Hi Ha; specialize (Q i a Hi Ha); cbv beta in Q |- *; rewrite Dn in * by assumption;
        pose proof (Hd i Hi); pose proof (He i Hi).
      - apply Rmult_integral_contrapositive_currified; [|exact Q]. unfold Rdiv. apply Rmult_integral_contrapositive_currified; [assumption|apply Rinv_neq_0_compat; nra].
      - intros Z. apply Q. rewrite Z. ring. }
    rewrite E. destruct (all_nz m k (w_den n k (weights U') W' H')) eqn:Nz; [|exact I].
    split; cbn [fst snd]; [|exact HH]. intros i a Hi Ha. rewrite Dn, Nm, HW by assumption.
    pose proof (proj1 (all_nz_true _ _ _) E i a Hi Ha) as Y. cbv beta in Y. pose proof (Hd i Hi). pose proof (He i Hi). field. repeat split; (exact Y || lra || assumption).
  Qed.
End Step.

(** ** C151 *)
(** Data and uncertainties in other units ([d] per sample, [c] per feature), the starting
    contributions in the units of the samples, the starting profiles multiplied by
    anything non-zero per feature: the same losses, the same stopping iteration and
    verdict, and the factors in the new units. *)
Theorem C151_feature_scale_forgotten :
  forall (m n k : nat) (d c e : nat -> R) (V U V' U' W H W' H' : mat)
    (delta : R) (cn : Z) (delay_h : Z) (tick : nat -> bool) (max_iter : Z),
  (1 <= max_iter)%Z ->
  (forall i, (i < m)%nat -> 0 < d i) -> (forall j, (j < n)%nat -> 0 < c j) -> (forall j, (j < n)%nat -> e j <> 0) ->
  mall m n (fun u => u <> 0) U ->
  (forall i j, (i < m)%nat -> (j < n)%nat -> V' i j = d i * c j * V i j) ->
  (forall i j, (i < m)%nat -> (j < n)%nat -> U' i j = d i * c j * U i j) ->
  (forall i a, (i < m)%nat -> (a < k)%nat -> W' i a = d i * W i a) ->
  (forall a j, (a < k)%nat -> (j < n)%nat -> H' a j = e j * H a j) ->
  let r := ls_rust_train m n k V U delta cn false delay_h tick max_iter W H in
  let r' := ls_rust_train m n k V' U' delta cn false delay_h tick max_iter W' H' in
  rr_hist r' = rr_hist r /\ rr_conv r' = rr_conv r /\ rr_ci r' = rr_ci r /\ rr_q r' = rr_q r /\ rr_events r' = rr_events r /\
  match rr_state r, rr_state r' with
  | Some (W1, H1), Some (W2, H2) =>
      (forall i a, (i < m)%nat -> (a < k)%nat -> W2 i a = d i * W1 i a) /\
      (forall a j, (a < k)%nat -> (j < n)%nat -> H2 a j = c j * H1 a j)
  | None, None => True
  | _, _ => False
  end.
Proof.
  intros m n k d c e V U V' U' W H W' H' delta cn delay_h tick max_iter Hm Hd Hc He HU HV HU' HW HH r r'.
  destruct (rust_first _ _ _ _ (fbelow delta) (orel (sym m n k (fun i => i) (fun i => i) (fun i => i) d c))
    (sym_step_o m n k _ _ _ d c (id_bij m) (id_bij n) (id_bij k) Hd Hc V U V' U' HU HV HU') (sym_loss_o m n k _ _ _ d c (id_bij m) (id_bij n) (id_bij k) Hd Hc V U V' U' HU HV HU')
    cn false delay_h tick max_iter (Some (W, H)) (Some (W', H')) Hm (profiles_first m n k d c e Hd Hc V U V' U' HU HV HU' W H W' H' He HW HH)) as (A & B & C & D & E & G).
  fold (ls_rust_train m n k V U delta cn false delay_h tick max_iter W H) in A, B, C, D, E, G.
  fold (ls_rust_train m n k V' U' delta cn false delay_h tick max_iter W' H') in A, B, C, D, E, G. fold r r' in A, B, C, D, E, G.
  repeat split; auto. destruct (rr_state r) as [[W1 H1]|], (rr_state r') as [[W2 H2]|]; try contradiction; try exact I. exact A.
Qed.
Print Assumptions C151_feature_scale_forgotten.

Theorem C151_feature_scale_forgotten_python :
  forall (m n k : nat) (d c e : nat -> R) (V U V' U' W H W' H' : mat)
    (delta : R) (cn : Z) (delay_h : Z) (max_iter : Z),
  (1 <= max_iter)%Z ->
  (forall i, (i < m)%nat -> 0 < d i) -> (forall j, (j < n)%nat -> 0 < c j) -> (forall j, (j < n)%nat -> e j <> 0) ->
  mall m n (fun u => u <> 0) U ->
  (forall i j, (i < m)%nat -> (j < n)%nat -> V' i j = d i * c j * V i j) ->
  (forall i j, (i < m)%nat -> (j < n)%nat -> U' i j = d i * c j * U i j) ->
  (forall i a, (i < m)%nat -> (a < k)%nat -> W' i a = d i * W i a) ->
  (forall a j, (a < k)%nat -> (j < n)%nat -> H' a j = e j * H a j) ->
  let r := ls_py_train m n k V U delta cn delay_h false max_iter W H in
  let r' := ls_py_train m n k V' U' delta cn delay_h false max_iter W' H' in
  pr_hist r' = pr_hist r /\ pr_stop r' = pr_stop r /\ pr_steps r' = pr_steps r /\
  match pr_state r, pr_state r' with
  | Some (W1, H1), Some (W2, H2) =>
      (forall i a, (i < m)%nat -> (a < k)%nat -> W2 i a = d i * W1 i a) /\
      (forall a j, (a < k)%nat -> (j < n)%nat -> H2 a j = c j * H1 a j)
  | None, None => True
  | _, _ => False
  end.
Proof.
  intros m n k d c e V U V' U' W H W' H' delta cn delay_h max_iter Hm Hd Hc He HU HV HU' HW HH r r'.
  pose proof (sym_loss_o m n k _ _ _ d c (id_bij m) (id_bij n) (id_bij k) Hd Hc V U V' U' HU HV HU') as RL.
  destruct (py_first _ _ _ _ (fbelow delta) (orel (sym m n k (fun i => i) (fun i => i) (fun i => i) d c))
    (sym_step_o m n k _ _ _ d c (id_bij m) (id_bij n) (id_bij k) Hd Hc V U V' U' HU HV HU') RL
    (fun o => is_nan (ls_loss m n k V U o)) (fun o => is_nan (ls_loss m n k V' U' o)) cn delay_h false max_iter (Some (W, H)) (Some (W', H')) Hm) as (A & B & C & D).
  - intros a b Rab. rewrite (RL a b Rab). reflexivity.
  - exact (profiles_first m n k d c e Hd Hc V U V' U' HU HV HU' W H W' H' He HW HH).
  - fold (ls_py_train m n k V U delta cn delay_h false max_iter W H) in A, B, C, D.
    fold (ls_py_train m n k V' U' delta cn delay_h false max_iter W' H') in A, B, C, D. fold r r' in A, B, C, D.
    repeat split; auto. destruct (pr_state r) as [[W1 H1]|], (pr_state r') as [[W2 H2]|]; try contradiction; try exact I. exact A.
Qed.
Print Assumptions C151_feature_scale_forgotten_python.

(** With the profiles held at first the same holds of the contributions of a sample. *)
Theorem C151_sample_scale_forgotten :
  forall (m n k : nat) (d c e : nat -> R) (V U V' U' W H W' H' : mat)
    (delta : R) (cn : Z) (delay_h : Z) (tick : nat -> bool) (max_iter : Z),
  (1 <= max_iter)%Z ->
  (forall i, (i < m)%nat -> 0 < d i) -> (forall j, (j < n)%nat -> 0 < c j) -> (forall i, (i < m)%nat -> e i <> 0) ->
  mall m n (fun u => u <> 0) U ->
  (forall i j, (i < m)%nat -> (j < n)%nat -> V' i j = d i * c j * V i j) ->
  (forall i j, (i < m)%nat -> (j < n)%nat -> U' i j = d i * c j * U i j) ->
  (forall i a, (i < m)%nat -> (a < k)%nat -> W' i a = e i * W i a) ->
  (forall a j, (a < k)%nat -> (j < n)%nat -> H' a j = c j * H a j) ->
  let r := ls_rust_train m n k V U delta cn true delay_h tick max_iter W H in
  let r' := ls_rust_train m n k V' U' delta cn true delay_h tick max_iter W' H' in
  rr_hist r' = rr_hist r /\ rr_conv r' = rr_conv r /\ rr_ci r' = rr_ci r /\ rr_q r' = rr_q r /\ rr_events r' = rr_events r /\
  match rr_state r, rr_state r' with
  | Some (W1, H1), Some (W2, H2) =>
      (forall i a, (i < m)%nat -> (a < k)%nat -> W2 i a = d i * W1 i a) /\
      (forall a j, (a < k)%nat -> (j < n)%nat -> H2 a j = c j * H1 a j)
  | None, None => True
  | _, _ => False
  end.
Proof.
  intros m n k d c e V U V' U' W H W' H' delta cn delay_h tick max_iter Hm Hd Hc He HU HV HU' HW HH r r'.
  destruct (rust_first _ _ _ _ (fbelow delta) (orel (sym m n k (fun i => i) (fun i => i) (fun i => i) d c))
    (sym_step_o m n k _ _ _ d c (id_bij m) (id_bij n) (id_bij k) Hd Hc V U V' U' HU HV HU') (sym_loss_o m n k _ _ _ d c (id_bij m) (id_bij n) (id_bij k) Hd Hc V U V' U' HU HV HU')
    cn true delay_h tick max_iter (Some (W, H)) (Some (W', H')) Hm (contributions_first m n k d c e Hd Hc V U V' U' HU HV HU' W H W' H' He HW HH)) as (A & B & C & D & E & G).
  fold (ls_rust_train m n k V U delta cn true delay_h tick max_iter W H) in A, B, C, D, E, G.
  fold (ls_rust_train m n k V' U' delta cn true delay_h tick max_iter W' H') in A, B, C, D, E, G. fold r r' in A, B, C, D, E, G.
  repeat split; auto. destruct (rr_state r) as [[W1 H1]|], (rr_state r') as [[W2 H2]|]; try contradiction; try exact I. exact A.
Qed.
Print Assumptions C151_sample_scale_forgotten.

Theorem C151_sample_scale_forgotten_python :
  forall (m n k : nat) (d c e : nat -> R) (V U V' U' W H W' H' : mat)
    (delta : R) (cn : Z) (delay_h : Z) (max_iter : Z),
  (1 <= max_iter)%Z ->
  (forall i, (i < m)%nat -> 0 < d i) -> (forall j, (j < n)%nat -> 0 < c j) -> (forall i, (i < m)%nat -> e i <> 0) ->
  mall m n (fun u => u <> 0) U ->
  (forall i j, (i < m)%nat -> (j < n)%nat -> V' i j = d i * c j * V i j) ->
  (forall i j, (i < m)%nat -> (j < n)%nat -> U' i j = d i * c j * U i j) ->
  (forall i a, (i < m)%nat -> (a < k)%nat -> W' i a = e i * W i a) ->
  (forall a j, (a < k)%nat -> (j < n)%nat -> H' a j = c j * H a j) ->
  let r := ls_py_train m n k V U delta cn delay_h true max_iter W H in
  let r' := ls_py_train m n k V' U' delta cn delay_h true max_iter W' H' in
  pr_hist r' = pr_hist r /\ pr_stop r' = pr_stop r /\ pr_steps r' = pr_steps r /\
  match pr_state r, pr_state r' with
  | Some (W1, H1), Some (W2, H2) =>
      (forall i a, (i < m)%nat -> (a < k)%nat -> W2 i a = d i * W1 i a) /\
      (forall a j, (a < k)%nat -> (j < n)%nat -> H2 a j = c j * H1 a j)
  | None, None => True
  | _, _ => False
  end.
Proof.
  intros m n k d c e V U V' U' W H W' H' delta cn delay_h max_iter Hm Hd Hc He HU HV HU' HW HH r r'.
  pose proof (sym_loss_o m n k _ _ _ d c (id_bij m) (id_bij n) (id_bij k) Hd Hc V U V' U' HU HV HU') as RL.
  destruct (py_first _ _ _ _ (fbelow delta) (orel (sym m n k (fun i => i) (fun i => i) (fun i => i) d c))
    (sym_step_o m n k _ _ _ d c (id_bij m) (id_bij n) (id_bij k) Hd Hc V U V' U' HU HV HU') RL
    (fun o => is_nan (ls_loss m n k V U o)) (fun o => is_nan (ls_loss m n k V' U' o)) cn delay_h true max_iter (Some (W, H)) (Some (W', H')) Hm) as (A & B & C & D).
  - intros a b Rab. rewrite (RL a b Rab). reflexivity.
  - exact (contributions_first m n k d c e Hd Hc V U V' U' HU HV HU' W H W' H' He HW HH).
  - fold (ls_py_train m n k V U delta cn delay_h true max_iter W H) in A, B, C, D.
    fold (ls_py_train m n k V' U' delta cn delay_h true max_iter W' H') in A, B, C, D. fold r r' in A, B, C, D.
    repeat split; auto. destruct (pr_state r) as [[W1 H1]|], (pr_state r') as [[W2 H2]|]; try contradiction; try exact I. exact A.
Qed.
Print Assumptions C151_sample_scale_forgotten_python.

(** Seeding with some profiles divides every feature of the start by its total
    (sa.py:300): a training that does not hold the profiles does not notice. *)
Theorem C151_normalisation_of_seeds :
  forall (m n k : nat) (V U W H H' : mat) (P : nd) (delta : R) (cn : Z) (delay_h : Z) (tick : nat -> bool) (max_iter : Z),
  (1 <= max_iter)%Z -> mall m n (fun u => u <> 0) U ->
  rows P = k -> cols P = n -> entries P H -> (forall j, (j < n)%nat -> rsum k (fun b => H b j) <> 0) ->
  entries (col_normalise P) H' ->
  let r := ls_rust_train m n k V U delta cn false delay_h tick max_iter W H in
  let r' := ls_rust_train m n k V U delta cn false delay_h tick max_iter W H' in
  let s := ls_py_train m n k V U delta cn delay_h false max_iter W H in
  let s' := ls_py_train m n k V U delta cn delay_h false max_iter W H' in
  (rr_hist r' = rr_hist r /\ rr_conv r' = rr_conv r /\ rr_ci r' = rr_ci r /\ rr_q r' = rr_q r /\ rr_events r' = rr_events r /\
   match rr_state r, rr_state r' with Some (W1, H1), Some (W2, H2) => meq m k W2 W1 /\ meq k n H2 H1 | None, None => True | _, _ => False end) /\
  (pr_hist s' = pr_hist s /\ pr_stop s' = pr_stop s /\ pr_steps s' = pr_steps s /\
   match pr_state s, pr_state s' with Some (W1, H1), Some (W2, H2) => meq m k W2 W1 /\ meq k n H2 H1 | None, None => True | _, _ => False end).
Proof.
  intros m n k V U W H H' P delta cn delay_h tick max_iter Hm HU Ek En EP Hs EP' r r' s s'.
  assert (HH : forall a j, (a < k)%nat -> (j < n)%nat -> H' a j = / rsum k (fun b => H b j) * H a j).
  { intros a j Ha Hj. assert (X : cell (col_normalise P) a j = Fin (H' a j)) by (apply EP'; cbn [rows cols col_normalise]; lia).
    cbn [cell col_normalise] in X. rewrite (fsum_ext _ _ (fun b => Fin (H b j))), fsum_fin, (EP a j) in X by (try (intros; apply EP); lia).
    rewrite Ek in X. cbn [fdiv] in X. destruct (Req_EM_T _ 0) as [Z|_]; [destruct (Hs j Hj Z)|]. injection X as <-. unfold Rdiv. ring. }
  assert (He : forall j, (j < n)%nat -> / rsum k (fun b => H b j) <> 0) by (intros j Hj; apply Rinv_neq_0_compat, Hs, Hj).
  assert (One1 : forall i : nat, True -> 0 < (fun _ : nat => 1) i) by (intros; lra).
  split.
  - destruct (C151_feature_scale_forgotten m n k (fun _ => 1) (fun _ => 1) (fun j => / rsum k (fun b => H b j)) V U V U W H W H' delta cn delay_h tick max_iter Hm)
      as (A & B & C & D & E & G); auto; try (intros; ring); try (intros; lra).
    fold r r' in A, B, C, D, E, G. repeat split; auto. destruct (rr_state r) as [[W1 H1]|], (rr_state r') as [[W2 H2]|]; try contradiction; try exact I.
    destruct G as [G1 G2]. split; intros x y Hx Hy; [rewrite G1|rewrite G2]; auto; ring.
  - destruct (C151_feature_scale_forgotten_python m n k (fun _ => 1) (fun _ => 1) (fun j => / rsum k (fun b => H b j)) V U V U W H W H' delta cn delay_h max_iter Hm)
      as (A & B & C & G); auto; try (intros; ring); try (intros; lra).
    fold s s' in A, B, C, G. repeat split; auto. destruct (pr_state s) as [[W1 H1]|], (pr_state s') as [[W2 H2]|]; try contradiction; try exact I.
    destruct G as [G1 G2]. split; intros x y Hx Hy; [rewrite G1|rewrite G2]; auto; ring.
Qed.
Print Assumptions C151_normalisation_of_seeds.

(** ** Whitening *)
Definition varies (m : nat) (V : mat) (j : nat) : Prop := exists i i', (i < m)%nat /\ (i' < m)%nat /\ V i j <> V i' j.

Lemma std_scale m n c V V' j : (forall j, (j < n)%nat -> 0 < c j) ->
  (forall i j, (i < m)%nat -> (j < n)%nat -> V' i j = c j * V i j) -> (j < n)%nat -> col_std m V' j = c j * col_std m V j.
Proof.
  intros Hc HV Hj. unfold col_std. pose proof (Hc j Hj) as P.
  assert (A : col_avg m V' j = c j * col_avg m V j).
  { unfold col_avg. rewrite (rsum_ext m _ (fun i => c j * V i j)) by (intros; apply HV; assumption). rewrite rsum_scal_l. unfold Rdiv. ring. }
  rewrite A, (rsum_ext m _ (fun i => (c j * c j) * ((V i j - col_avg m V j) * (V i j - col_avg m V j)))).
  - rewrite rsum_scal_l. unfold Rdiv. rewrite Rmult_assoc, sqrt_mult_alt by nra. rewrite sqrt_square by lra. reflexivity.
  - intros i Hi. rewrite HV by assumption. ring.
Qed.
Lemma std_pos m V j : varies m V j -> 0 < col_std m V j.
Proof.
  intros (i & i' & Hi & Hi' & Ne). unfold col_std. apply sqrt_lt_R0. apply Rmult_lt_0_compat; [|apply Rinv_0_lt_compat, lt_0_INR; lia].
  set (mu := col_avg m V j).
  assert (Nn : forall t, (t < m)%nat -> 0 <= (V t j - mu) * (V t j - mu)) by (intros t _; apply (Rle_0_sqr (V t j - mu))).
  destruct (Req_EM_T (V i j) mu) as [E|E].
  - apply (rsum_pos_strict m _ i'); auto. assert (V i' j - mu <> 0) by (intros Z; apply Ne; lra). apply (Rsqr_pos_lt (V i' j - mu)); assumption.
  - apply (rsum_pos_strict m _ i); auto. assert (V i j - mu <> 0) by lra. apply (Rsqr_pos_lt (V i j - mu)); assumption.
Qed.

(** Whitened data do not depend on the units of the features that vary. *)
Theorem C151_whitening_unit_free :
  forall (m n : nat) (c : nat -> R) (V V' : mat),
  (forall j, (j < n)%nat -> 0 < c j) -> (forall j, (j < n)%nat -> varies m V j) ->
  (forall i j, (i < m)%nat -> (j < n)%nat -> V' i j = c j * V i j) ->
  meq m n (observations true m V') (observations true m V) /\
  (forall j, (j < n)%nat -> col_std m (observations true m V) j = 1).
Proof.
  intros m n c V V' Hc Hv HV.
  assert (Wh : forall i j, (i < m)%nat -> (j < n)%nat -> whiten m V i j = / col_std m V j * V i j).
  { intros i j Hi Hj. unfold whiten. pose proof (std_pos m V j (Hv j Hj)). destruct (Req_EM_T _ 0); [lra|]. unfold Rdiv. ring. }
  split.
  - intros i j Hi Hj. cbn [observations]. rewrite Wh by assumption. unfold whiten. rewrite (std_scale m n c V V' j Hc HV Hj), HV by assumption.
    pose proof (std_pos m V j (Hv j Hj)). pose proof (Hc j Hj). destruct (Req_EM_T _ 0) as [Z|_]; [nra|]. field; lra.
  - intros j Hj. cbn [observations]. pose proof (std_pos m V j (Hv j Hj)).
    rewrite (std_scale m n (fun j => if lt_dec j n then / col_std m V j else 1) V (whiten m V) j); auto.
    + destruct (lt_dec j n); [|contradiction]. field. lra.
    + intros q Hq. destruct (lt_dec q n); [|contradiction]. apply Rinv_0_lt_compat, std_pos, Hv, Hq.
    + intros i q Hi Hq. destruct (lt_dec q n); [|contradiction]. apply Wh; assumption.
Qed.
Print Assumptions C151_whitening_unit_free.

(** So a fit that starts from k-means with init_norm is the same in all units of the
    features: the same contributions, losses and verdict, the profiles in the new units. *)
Theorem C151_normalised_kmeans_unit_free :
  forall (m n k : nat) (c : nat -> R) (V U V' U' : mat) (km : mat -> mat * (nat -> nat)) (draws : nat -> R)
    (delta : R) (cn : Z) (delay_h : Z) (tick : nat -> bool) (max_iter : Z),
  (1 <= max_iter)%Z -> (forall j, (j < n)%nat -> 0 < c j) -> (forall j, (j < n)%nat -> varies m V j) ->
  mall m n (fun u => u <> 0) U ->
  (forall i j, (i < m)%nat -> (j < n)%nat -> V' i j = c j * V i j) ->
  (forall i j, (i < m)%nat -> (j < n)%nat -> U' i j = c j * U i j) ->
  (forall X Y, meq m n X Y -> km X = km Y) ->
  let fit V U := let (W, H) := km_start true m k km draws V in ls_rust_train m n k V U delta cn false delay_h tick max_iter W H in
  let pyfit V U := let (W, H) := km_start true m k km draws V in ls_py_train m n k V U delta cn delay_h false max_iter W H in
  (rr_hist (fit V' U') = rr_hist (fit V U) /\ rr_conv (fit V' U') = rr_conv (fit V U) /\ rr_ci (fit V' U') = rr_ci (fit V U) /\
   match rr_state (fit V U), rr_state (fit V' U') with
   | Some (W1, H1), Some (W2, H2) => meq m k W2 W1 /\ (forall a j, (a < k)%nat -> (j < n)%nat -> H2 a j = c j * H1 a j)
   | None, None => True
   | _, _ => False
   end) /\
  (pr_hist (pyfit V' U') = pr_hist (pyfit V U) /\ pr_stop (pyfit V' U') = pr_stop (pyfit V U) /\
   match pr_state (pyfit V U), pr_state (pyfit V' U') with
   | Some (W1, H1), Some (W2, H2) => meq m k W2 W1 /\ (forall a j, (a < k)%nat -> (j < n)%nat -> H2 a j = c j * H1 a j)
   | None, None => True
   | _, _ => False
   end).
Proof.
  intros m n k c V U V' U' km draws delta cn delay_h tick max_iter Hm Hc Hv HU HV HU' Hkm fit pyfit.
  assert (E : km_start true m k km draws V' = km_start true m k km draws V).
  { unfold km_start. rewrite (Hkm _ _ (proj1 (C151_whitening_unit_free m n c V V' Hc Hv HV))). reflexivity. }
  unfold fit, pyfit. rewrite E. destruct (km_start true m k km draws V) as [W H].
  assert (HV1 : forall i j, (i < m)%nat -> (j < n)%nat -> V' i j = 1 * c j * V i j) by (intros; rewrite HV by assumption; ring).
  assert (HU1 : forall i j, (i < m)%nat -> (j < n)%nat -> U' i j = 1 * c j * U i j) by (intros; rewrite HU' by assumption; ring).
  split.
  - destruct (C151_feature_scale_forgotten m n k (fun _ => 1) c (fun _ => 1) V U V' U' W H W H delta cn delay_h tick max_iter Hm)
      as (A & B & C & _ & _ & G); auto; try (intros; ring); try (intros; lra).
    repeat split; auto. destruct (rr_state (ls_rust_train m n k V U _ _ _ _ _ _ _ _)) as [[W1 H1]|], (rr_state _) as [[W2 H2]|]; try contradiction; try exact I.
    destruct G as [G1 G2]. split; [|exact G2]. intros x y Hx Hy. rewrite G1; auto; ring.
  - destruct (C151_feature_scale_forgotten_python m n k (fun _ => 1) c (fun _ => 1) V U V' U' W H W H delta cn delay_h max_iter Hm)
      as (A & B & _ & G); auto; try (intros; ring); try (intros; lra).
    repeat split; auto. destruct (pr_state (ls_py_train m n k V U _ _ _ _ _ _ _)) as [[W1 H1]|], (pr_state _) as [[W2 H2]|]; try contradiction; try exact I.
    destruct G as [G1 G2]. split; [|exact G2]. intros x y Hx Hy. rewrite G1; auto; ring.
Qed.
Print Assumptions C151_normalised_kmeans_unit_free.

(** ** The default start *)
Definition fg_V : mat := fun i j => if (i =? j)%nat then 2 else 0.
Definition fg_c : nat -> R := fun j => if (j =? 0)%nat then 1 else 4.
Definition fg_nd (V : mat) : nd := ND 2 2 (fun i j => Fin (V i j)).

Lemma fg_run V U W H W1 H1 : mall 2 1 (fun x => x <> 0) (w_den 2 1 (weights U) W H1) ->
  mall 1 2 (fun x => x <> 0) (h_den 2 1 (weights U) W H) ->
  meq 1 2 H1 (fun a j => H a j * (h_num 2 V (weights U) W a j / h_den 2 1 (weights U) W H a j)) ->
  meq 2 1 W1 (fun i a => W i a * (w_num 2 V (weights U) H1 i a / w_den 2 1 (weights U) W H1 i a)) ->
  exists W2 H2, rr_state (ls_rust_train 2 2 1 V U 0 1 false (-1) (fun _ => false) 1 W H) = Some (W2, H2) /\ meq 2 1 W2 W1 /\ meq 1 2 H2 H1.
Proof.
  intros Dw Dh EH EW. unfold ls_rust_train, rust_train. change (Z.to_nat 1) with 1%nat. cbn [rust_loop]. rewrite hold_first.
  set (st := ls_step 2 2 1 V U false (Some (W, H))).
  assert (X : exists W2 H2, st = Some (W2, H2) /\ meq 2 1 W2 W1 /\ meq 1 2 H2 H1).
  { unfold st. cbn [ls_step]. unfold ls_update, h_step. rewrite (proj2 (all_nz_true 1 2 _) Dh). unfold w_step.
    set (Hn := fun a j : nat => H a j * _).
    assert (Q : forall i a, (i < 2)%nat -> (a < 1)%nat -> w_den 2 1 (weights U) W Hn i a = w_den 2 1 (weights U) W H1 i a /\ w_num 2 V (weights U) Hn i a = w_num 2 V (weights U) H1 i a).
    { intros i a Hi Ha. unfold w_den, w_num. split; apply rsum_ext; intros j Hj; unfold mmul; cbn [rsum]; rewrite !(EH _ j) by (auto; lia); reflexivity. }
    assert (Dn : all_nz 2 1 (w_den 2 1 (weights U) W Hn) = true).
    { apply all_nz_true. intros i a Hi Ha. cbv beta. rewrite (proj1 (Q i a Hi Ha)). exact (Dw i a Hi Ha). }
    rewrite Dn. eexists _, _. split; [reflexivity|]. split; intros x y Hx Hy.
    - rewrite (proj1 (Q x y Hx Hy)), (proj2 (Q x y Hx Hy)). symmetry. exact (EW x y Hx Hy).
    - symmetry. exact (EH x y Hx Hy). }
  destruct (_ && _)%bool; exact X.
Qed.

(** The default start (column_mean) draws the contributions of a sample around the root
    of its mean over all features, whatever their units: one iteration from the same
    draws gives another product in other units. *)
Theorem C151_default_start_refuted :
  ~ (forall (m n k : nat) (c : nat -> R) (V U W H W' H' : mat) (rngH rngW : nat -> nat -> fl) (max_iter : Z) W1 H1 W2 H2,
     (0 < m)%nat -> (0 < n)%nat -> (0 < k)%nat -> (1 <= max_iter)%Z -> (forall j, (j < n)%nat -> 0 < c j) ->
     mall m n (fun v => 0 <= v) V -> mall m n (fun u => 0 < u) U -> (forall j, (j < n)%nat -> varies m V j) ->
     let V' i j := c j * V i j in let U' i j := c j * U i j in
     entries (random_H (ND m n (fun i j => Fin (V i j))) k n rngH) H -> entries (random_W LSNMF (ND m n (fun i j => Fin (V i j))) m k rngW) W ->
     entries (random_H (ND m n (fun i j => Fin (V' i j))) k n rngH) H' -> entries (random_W LSNMF (ND m n (fun i j => Fin (V' i j))) m k rngW) W' ->
     rr_state (ls_rust_train m n k V U 0 1 false (-1) (fun _ => false) max_iter W H) = Some (W1, H1) ->
     rr_state (ls_rust_train m n k V' U' 0 1 false (-1) (fun _ => false) max_iter W' H') = Some (W2, H2) ->
     forall i j, (i < m)%nat -> (j < n)%nat -> mmul k W2 H2 i j = c j * mmul k W1 H1 i j).
Proof.
  intros All. set (One := fun _ _ : nat => 1).
  set (V' := fun i j => fg_c j * fg_V i j). set (U' := fun i j : nat => fg_c j * 1).
  set (W' := fun i _ : nat => if (i =? 0)%nat then 1 else 2). set (H' := fun _ j : nat => if (j =? 0)%nat then 1 else 2).
  set (Hf := fun _ j : nat => if (j =? 0)%nat then 2 / 5 else 16 / 5).
  destruct (fg_run fg_V One One One One One) as (W1 & H1 & S1 & EW1 & EH1).
  1-4: intros x y Hx Hy; destruct x as [|[|x]], y as [|[|y]]; try lia; unfold w_den, h_den, w_num, h_num, wev, weights, mmul, One, fg_V; cbn [rsum Nat.eqb]; lra.
  destruct (fg_run V' U' W' H' W' Hf) as (W2 & H2 & S2 & EW2 & EH2).
  1-4: intros x y Hx Hy; destruct x as [|[|x]], y as [|[|y]]; try lia; unfold w_den, h_den, w_num, h_num, wev, weights, mmul, U', V', W', H', Hf, fg_V, fg_c; cbn [rsum Nat.eqb]; lra.
  assert (X : mmul 1 W2 H2 0%nat 0%nat = fg_c 0%nat * mmul 1 W1 H1 0%nat 0%nat).
  { apply (All 2%nat 2%nat 1%nat fg_c fg_V One One One W' H' (fun _ _ => Fin 1) (fun _ _ => Fin 1) 1%Z); auto; try lia.
    - intros j _. unfold fg_c. destruct (j =? 0)%nat; lra.
    - intros i j _ _. unfold fg_V. destruct (i =? j)%nat; lra.
    - intros i j _ _. unfold One. lra.
    - intros j Hj. exists 0%nat, 1%nat. unfold fg_V. destruct j as [|[|j]]; try lia; cbn [Nat.eqb]; repeat split; try lia; lra.
    - intros a j Ha Hj. cbn [rows cols random_H] in Ha, Hj. cbn [cell random_H]. unfold col_mean. cbn [rows cell]. rewrite fsum_fin. cbn [fdiv INR].
      destruct (Req_EM_T _ 0); [lra|]. cbn [fdiv]. destruct (Req_EM_T _ 0); [lra|]. cbn [fsqrt]. destruct j as [|[|j]]; try lia; unfold fg_V, One; cbn [rsum Nat.eqb].
      all: destruct (Rlt_dec _ 0); [lra|]; cbn [fmul]; f_equal; replace ((_ + _) / _ / _) with (1 * 1) by lra; rewrite sqrt_square; lra.
    - intros i a Hi Ha. cbn [rows cols random_W ndmap] in Hi, Ha. cbn [cell random_W ndmap]. unfold row_mean. cbn [cols cell]. rewrite fsum_fin. cbn [fdiv INR].
      destruct (Req_EM_T _ 0); [lra|]. cbn [fdiv]. destruct (Req_EM_T _ 0); [lra|]. cbn [fsqrt]. destruct i as [|[|i]]; try lia; unfold fg_V, One; cbn [rsum Nat.eqb].
      all: destruct (Rlt_dec _ 0); [lra|]; cbn [fmul]; rewrite floor_w_fin; f_equal; replace ((_ + _) / _ / _) with (1 * 1) by lra; rewrite sqrt_square by lra;
        unfold made_positive; destruct (Rle_dec _ 0); lra.
    - intros a j Ha Hj. cbn [rows cols random_H] in Ha, Hj. cbn [cell random_H]. unfold col_mean. cbn [rows cell]. rewrite fsum_fin. cbn [fdiv INR].
      destruct (Req_EM_T _ 0); [lra|]. cbn [fdiv]. destruct (Req_EM_T _ 0); [lra|]. cbn [fsqrt]. destruct j as [|[|j]]; try lia; unfold fg_V, fg_c, H'; cbn [rsum Nat.eqb].
      all: destruct (Rlt_dec _ 0); [lra|]; cbn [fmul]; f_equal;
        first [replace ((_ + _) / _ / _) with (1 * 1) by lra; rewrite sqrt_square; lra | replace ((_ + _) / _ / _) with (2 * 2) by lra; rewrite sqrt_square; lra].
    - intros i a Hi Ha. cbn [rows cols random_W ndmap] in Hi, Ha. cbn [cell random_W ndmap]. unfold row_mean. cbn [cols cell]. rewrite fsum_fin. cbn [fdiv INR].
      destruct (Req_EM_T _ 0); [lra|]. cbn [fdiv]. destruct (Req_EM_T _ 0); [lra|]. cbn [fsqrt]. destruct i as [|[|i]]; try lia; unfold fg_V, fg_c, W'; cbn [rsum Nat.eqb].
      all: destruct (Rlt_dec _ 0); [lra|]; cbn [fmul]; rewrite floor_w_fin; f_equal;
        first [replace ((_ + _) / _ / _) with (1 * 1) by lra; rewrite sqrt_square by lra | replace ((_ + _) / _ / _) with (2 * 2) by lra; rewrite sqrt_square by lra];
        unfold made_positive; destruct (Rle_dec _ 0); lra. }
  unfold mmul in X. cbn [rsum] in X. rewrite EW1, EH1, EW2, EH2 in X by lia. unfold W', Hf, One, fg_c in X. cbn [Nat.eqb] in X. lra.
Qed.
Print Assumptions C151_default_start_refuted.
(* the second feature in another unit, other scales of the two starting profiles *)
Definition xfg_d (_ : nat) : R := 1.
Definition xfg_e (j : nat) : R := if (j =? 0)%nat then 3 else - 2.
Lemma xfg_cpos j : (j < 2)%nat -> 0 < fg_c j.
Proof. intros _. unfold fg_c. destruct (j =? 0)%nat; lra. Qed.
Lemma xfg_enz j : (j < 2)%nat -> xfg_e j <> 0.
Proof. intros _. unfold xfg_e. destruct (j =? 0)%nat; lra. Qed.
Lemma xfg_u : mall 2 2 (fun u => u <> 0) (fun _ _ => 1).
Proof. intros i j _ _. lra. Qed.
Lemma xfg_varies j : (j < 2)%nat -> varies 2 fg_V j.
Proof. intros Hj. exists 0%nat, 1%nat. unfold fg_V. destruct j as [|[|j]]; try lia; cbn [Nat.eqb]; repeat split; try lia; lra. Qed.
Example C151_feature_scale_forgotten_example :=
  C151_feature_scale_forgotten 2 2 1 xfg_d fg_c xfg_e fg_V (fun _ _ => 1) (fun i j => xfg_d i * fg_c j * fg_V i j) (fun i j => xfg_d i * fg_c j * 1)
    (fun _ _ => 1) (fun _ _ => 1) (fun i _ => xfg_d i * 1) (fun _ j => xfg_e j * 1) 0 1 (-1) (fun _ => false) 20
    ltac:(lia) ltac:(intros; unfold xfg_d; lra) xfg_cpos xfg_enz xfg_u (fun _ _ _ _ => eq_refl) (fun _ _ _ _ => eq_refl) (fun _ _ _ _ => eq_refl) (fun _ _ _ _ => eq_refl).
Example C151_feature_scale_forgotten_python_example :=
  C151_feature_scale_forgotten_python 2 2 1 xfg_d fg_c xfg_e fg_V (fun _ _ => 1) (fun i j => xfg_d i * fg_c j * fg_V i j) (fun i j => xfg_d i * fg_c j * 1)
    (fun _ _ => 1) (fun _ _ => 1) (fun i _ => xfg_d i * 1) (fun _ j => xfg_e j * 1) 0 1 (-1) 20
    ltac:(lia) ltac:(intros; unfold xfg_d; lra) xfg_cpos xfg_enz xfg_u (fun _ _ _ _ => eq_refl) (fun _ _ _ _ => eq_refl) (fun _ _ _ _ => eq_refl) (fun _ _ _ _ => eq_refl).
Example C151_sample_scale_forgotten_example :=
  C151_sample_scale_forgotten 2 2 1 xfg_d fg_c xfg_e fg_V (fun _ _ => 1) (fun i j => xfg_d i * fg_c j * fg_V i j) (fun i j => xfg_d i * fg_c j * 1)
    (fun _ _ => 1) (fun _ _ => 1) (fun i _ => xfg_e i * 1) (fun _ j => fg_c j * 1) 0 1 (-1) (fun _ => false) 20
    ltac:(lia) ltac:(intros; unfold xfg_d; lra) xfg_cpos xfg_enz xfg_u (fun _ _ _ _ => eq_refl) (fun _ _ _ _ => eq_refl) (fun _ _ _ _ => eq_refl) (fun _ _ _ _ => eq_refl).
Example C151_sample_scale_forgotten_python_example :=
  C151_sample_scale_forgotten_python 2 2 1 xfg_d fg_c xfg_e fg_V (fun _ _ => 1) (fun i j => xfg_d i * fg_c j * fg_V i j) (fun i j => xfg_d i * fg_c j * 1)
    (fun _ _ => 1) (fun _ _ => 1) (fun i _ => xfg_e i * 1) (fun _ j => fg_c j * 1) 0 1 (-1) 20
    ltac:(lia) ltac:(intros; unfold xfg_d; lra) xfg_cpos xfg_enz xfg_u (fun _ _ _ _ => eq_refl) (fun _ _ _ _ => eq_refl) (fun _ _ _ _ => eq_refl) (fun _ _ _ _ => eq_refl).
Example C151_whitening_unit_free_example :=
  C151_whitening_unit_free 2 2 fg_c fg_V (fun i j => fg_c j * fg_V i j) xfg_cpos xfg_varies (fun _ _ _ _ => eq_refl).
Definition xfg_km (X : mat) : mat * (nat -> nat) := ((fun _ j => rsum 2 (fun i => X i 0%nat)), (fun _ => 0%nat)).
Lemma xfg_kmext X Y : meq 2 2 X Y -> xfg_km X = xfg_km Y.
Proof. intros E. unfold xfg_km. cbn [rsum]. rewrite (E 0%nat 0%nat), (E 1%nat 0%nat) by lia. reflexivity. Qed.
Example C151_normalised_kmeans_unit_free_example :=
  C151_normalised_kmeans_unit_free 2 2 1 fg_c fg_V (fun _ _ => 1) (fun i j => fg_c j * fg_V i j) (fun i j => fg_c j * 1) xfg_km (fun _ => 1 / 2) 0 1 (-1) (fun _ => false) 20
    ltac:(lia) xfg_cpos xfg_varies xfg_u (fun _ _ _ _ => eq_refl) (fun _ _ _ _ => eq_refl) xfg_kmext.

(** Two samples, two features of which the second is given in other units, and a start
    whose profiles are not in those units: the run goes on to the end. *)
Example C151_instance :
  (forall j, (j < 2)%nat -> 0 < fg_c j) /\ (forall j, (j < 2)%nat -> varies 2 fg_V j) /\ mall 2 2 (fun u => u <> 0) (fun _ _ => 1) /\
  (forall j, (j < 2)%nat -> col_std 2 fg_V j = 1) /\
  (exists km : mat -> mat * (nat -> nat), (forall X Y, meq 2 2 X Y -> km X = km Y) /\ fst (km fg_V) 0%nat 0%nat <> fst (km (fun i j => fg_c j * fg_V i j + 1)) 0%nat 0%nat) /\
  exists W1 H1, rr_state (ls_rust_train 2 2 1 fg_V (fun _ _ => 1) 0 1 false (-1) (fun _ => false) 1 (fun _ _ => 1) (fun _ j => fg_c j)) = Some (W1, H1).
Proof.
  split; [intros j _; unfold fg_c; destruct (j =? 0)%nat; lra|].
  split; [intros j Hj; exists 0%nat, 1%nat; unfold fg_V; destruct j as [|[|j]]; try lia; cbn [Nat.eqb]; repeat split; try lia; lra|].
  split; [intros i j _ _; lra|].
  split.
  { intros j Hj. unfold col_std, col_avg, fg_V. cbn [INR]. destruct j as [|[|j]]; try lia; cbn [rsum Nat.eqb];
      match goal with |- sqrt ?x = 1 => replace x with (1 * 1) by lra end; apply sqrt_square; lra. }
  split.
  { exists (fun X => (fun _ j => rsum 2 (fun i => X i 0%nat), fun _ => 0%nat)). split; [|cbn [fst rsum]; unfold fg_V, fg_c; cbn [Nat.eqb]; lra].
    intros X Y E. f_equal. cbn [rsum]. rewrite (E 0%nat 0%nat), (E 1%nat 0%nat) by lia. reflexivity. }
  destruct (fg_run fg_V (fun _ _ => 1) (fun _ _ => 1) (fun _ j => fg_c j) (fun _ _ => 1) (fun _ _ => 1)) as (W1 & H1 & E & _).
  1-4: intros x y Hx Hy; destruct x as [|[|x]], y as [|[|y]]; try lia; unfold w_den, h_den, w_num, h_num, wev, weights, mmul, fg_V, fg_c; cbn [rsum Nat.eqb]; lra.
  exists W1, H1. exact E.
Qed.

(** Two seeded profiles 1 and 3 of one feature, normalised to 1/4 and 3/4. *)
Example C151_normalisation_of_seeds_example V W delta cn delay_h tick max_iter : (1 <= max_iter)%Z ->
  let H : mat := fun b _ => INR (1 + 2 * b) in let H' : mat := fun b _ => INR (1 + 2 * b) / 4 in
  rr_hist (ls_rust_train 3 1 2 V (fun _ _ => 1) delta cn false delay_h tick max_iter W H')
  = rr_hist (ls_rust_train 3 1 2 V (fun _ _ => 1) delta cn false delay_h tick max_iter W H).
Proof.
  intros Hi H H'.
  apply (C151_normalisation_of_seeds 3 1 2 V (fun _ _ => 1) W H H' (ND 2 1 (fun b j => Fin (H b j))) delta cn delay_h tick max_iter Hi).
  - intros i j _ _. lra.
  - reflexivity.
  - reflexivity.
  - intros i j _ _. reflexivity.
  - intros j _. unfold H. cbn. lra.
  - intros i j _ _. unfold col_normalise, H', H. cbn. destruct (Req_EM_T _ 0) as [E|E]; [exfalso; lra|]. f_equal. f_equal. lra.
Qed.
