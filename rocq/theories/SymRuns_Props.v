(** C09 for whole training runs of both engines. *)
From Coq Require Import Reals Lra Lia List Bool ZArith Arith.
From Verif Require Import Base Fl Metrics_Model LSNMF_Model LSNMF_Proofs Train_Model Train_Spec Train_Proofs Train_LS WSNMF_Proofs Repeat_Props.
Import ListNotations.
Open Scope R_scope.

Section SymRun.
  Context (m n k : nat) (sr sf sk : nat -> nat) (d c : nat -> R).
  Context (Br : bij m sr) (Bf : bij n sf) (Bk : bij k sk).
  Context (Hd : forall i, (i < m)%nat -> 0 < d i) (Hc : forall j, (j < n)%nat -> 0 < c j).
  Context (V U V' U' : mat) (HU : mall m n (fun u => u <> 0) U).
  Context (HV : forall i j, (i < m)%nat -> (j < n)%nat -> V' i j = d i * c j * V (sr i) (sf j)).
  Context (HU' : forall i j, (i < m)%nat -> (j < n)%nat -> U' i j = d i * c j * U (sr i) (sf j)).
  Let Rel := orel (sym m n k sr sf sk d c).

  Lemma sym_we i j : (i < m)%nat -> (j < n)%nat -> weights U' i j = weights U (sr i) (sf j) / (d i * c j * (d i * c j)).
  Proof.
    intros Hi Hj. unfold weights. rewrite HU' by assumption. pose proof (Hd i Hi). pose proof (Hc j Hj).
    assert (U (sr i) (sf j) <> 0) by (apply HU; [apply Br|apply Bf]; assumption). field. repeat split; try lra; assumption.
  Qed.
  Lemma sym_step_o h a b : Rel a b -> Rel (ls_step m n k V U h a) (ls_step m n k V' U' h b).
  Proof.
    destruct a as [st|], b as [st'|]; cbn [Rel orel ls_step]; try (intros []; fail); try (intros; exact I). intros Rl.
    apply (sym_step m n k sr sf sk d c Br Bf Bk Hd Hc V (weights U) V' (weights U') HV sym_we h st st' Rl).
  Qed.
  Lemma sym_loss_o a b : Rel a b -> ls_loss m n k V U a = ls_loss m n k V' U' b.
  Proof.
    destruct a as [[W H]|], b as [[W' H']|]; cbn [Rel orel ls_loss]; intros Rl; try contradiction; [|reflexivity]. f_equal. symmetry.
    apply (q_loss_sym m n k sr sf sk d c V U V' U' W H W' H'); assumption.
  Qed.
End SymRun.

(** A whole training with samples, features and factors permuted and units changed: the
    same losses, the same stopping iteration, the same verdict on convergence, and the
    factors permuted and rescaled in the same way. *)
Theorem C09_whole_runs :
  forall (m n k : nat) (sr sf sk : nat -> nat) (d c : nat -> R) (V U V' U' W H W' H' : mat)
    (delta : R) (cn : Z) (hold_h : bool) (delay_h : Z) (tick : nat -> bool) (max_iter : Z),
  bij m sr -> bij n sf -> bij k sk ->
  (forall i, (i < m)%nat -> 0 < d i) -> (forall j, (j < n)%nat -> 0 < c j) ->
  mall m n (fun u => u <> 0) U ->
  (forall i j, (i < m)%nat -> (j < n)%nat -> V' i j = d i * c j * V (sr i) (sf j)) ->
  (forall i j, (i < m)%nat -> (j < n)%nat -> U' i j = d i * c j * U (sr i) (sf j)) ->
  (forall i a, (i < m)%nat -> (a < k)%nat -> W' i a = d i * W (sr i) (sk a)) ->
  (forall a j, (a < k)%nat -> (j < n)%nat -> H' a j = c j * H (sk a) (sf j)) ->
  let r := ls_rust_train m n k V U delta cn hold_h delay_h tick max_iter W H in
  let r' := ls_rust_train m n k V' U' delta cn hold_h delay_h tick max_iter W' H' in
  rr_hist r' = rr_hist r /\ rr_conv r' = rr_conv r /\ rr_ci r' = rr_ci r /\ rr_q r' = rr_q r /\ rr_events r' = rr_events r /\
  match rr_state r, rr_state r' with
  | Some (W1, H1), Some (W2, H2) =>
      (forall i a, (i < m)%nat -> (a < k)%nat -> W2 i a = d i * W1 (sr i) (sk a)) /\
      (forall a j, (a < k)%nat -> (j < n)%nat -> H2 a j = c j * H1 (sk a) (sf j))
  | None, None => True
  | _, _ => False
  end.
Proof.
  intros m n k sr sf sk d c V U V' U' W H W' H' delta cn hold_h delay_h tick max_iter Br Bf Bk Hd Hc HU HV HU' HW HH r r'.
  destruct (rust_sim _ _ _ _ (fbelow delta) (orel (sym m n k sr sf sk d c))
    (sym_step_o m n k sr sf sk d c Br Bf Bk Hd Hc V U V' U' HU HV HU') (sym_loss_o m n k sr sf sk d c Br Bf Bk Hd Hc V U V' U' HU HV HU')
    cn hold_h delay_h tick max_iter (Some (W, H)) (Some (W', H')) (conj HW HH)) as (A & B & C & D & E & G).
  fold (ls_rust_train m n k V U delta cn hold_h delay_h tick max_iter W H) in A, B, C, D, E, G.
  fold (ls_rust_train m n k V' U' delta cn hold_h delay_h tick max_iter W' H') in A, B, C, D, E, G. fold r r' in A, B, C, D, E, G.
  repeat split; auto. destruct (rr_state r) as [[W1 H1]|], (rr_state r') as [[W2 H2]|]; try contradiction; try exact I. exact A.
Qed.
Print Assumptions C09_whole_runs.

Theorem C09_whole_runs_python :
  forall (m n k : nat) (sr sf sk : nat -> nat) (d c : nat -> R) (V U V' U' W H W' H' : mat)
    (delta : R) (cn : Z) (hold_h : bool) (delay_h : Z) (max_iter : Z),
  bij m sr -> bij n sf -> bij k sk ->
  (forall i, (i < m)%nat -> 0 < d i) -> (forall j, (j < n)%nat -> 0 < c j) ->
  mall m n (fun u => u <> 0) U ->
  (forall i j, (i < m)%nat -> (j < n)%nat -> V' i j = d i * c j * V (sr i) (sf j)) ->
  (forall i j, (i < m)%nat -> (j < n)%nat -> U' i j = d i * c j * U (sr i) (sf j)) ->
  (forall i a, (i < m)%nat -> (a < k)%nat -> W' i a = d i * W (sr i) (sk a)) ->
  (forall a j, (a < k)%nat -> (j < n)%nat -> H' a j = c j * H (sk a) (sf j)) ->
  let r := ls_py_train m n k V U delta cn delay_h hold_h max_iter W H in
  let r' := ls_py_train m n k V' U' delta cn delay_h hold_h max_iter W' H' in
  pr_hist r' = pr_hist r /\ pr_stop r' = pr_stop r /\ pr_steps r' = pr_steps r /\
  match pr_state r, pr_state r' with
  | Some (W1, H1), Some (W2, H2) =>
      (forall i a, (i < m)%nat -> (a < k)%nat -> W2 i a = d i * W1 (sr i) (sk a)) /\
      (forall a j, (a < k)%nat -> (j < n)%nat -> H2 a j = c j * H1 (sk a) (sf j))
  | None, None => True
  | _, _ => False
  end.
Proof.
  intros m n k sr sf sk d c V U V' U' W H W' H' delta cn hold_h delay_h max_iter Br Bf Bk Hd Hc HU HV HU' HW HH r r'.
  pose proof (sym_loss_o m n k sr sf sk d c Br Bf Bk Hd Hc V U V' U' HU HV HU') as RL.
  destruct (py_sim _ _ _ _ (fbelow delta) (orel (sym m n k sr sf sk d c))
    (sym_step_o m n k sr sf sk d c Br Bf Bk Hd Hc V U V' U' HU HV HU') RL
    (fun o => is_nan (ls_loss m n k V U o)) (fun o => is_nan (ls_loss m n k V' U' o)) cn delay_h hold_h max_iter (Some (W, H)) (Some (W', H'))) as (A & B & C & D).
  - intros a b Rab. rewrite (RL a b Rab). reflexivity.
  - exact (conj HW HH).
  - fold (ls_py_train m n k V U delta cn delay_h hold_h max_iter W H) in A, B, C, D.
    fold (ls_py_train m n k V' U' delta cn delay_h hold_h max_iter W' H') in A, B, C, D. fold r r' in A, B, C, D.
    repeat split; auto. destruct (pr_state r) as [[W1 H1]|], (pr_state r') as [[W2 H2]|]; try contradiction; try exact I. exact A.
Qed.
Print Assumptions C09_whole_runs_python.

(** Three samples reversed and each in its own unit, two features swapped, in a run that
    converges. *)
Example C09_whole_runs_instance :
  bij 3 (fun i => 2 - i)%nat /\ bij 2 (fun j => 1 - j)%nat /\ bij 1 (fun a => a) /\
  (forall i, (i < 3)%nat -> 0 < INR (i + 5)) /\ mall 3 2 (fun u => u <> 0) rp_Us /\
  exists (max_iter : Z) (W1 H1 : mat), let r := ls_rust_train 3 2 1 rp_V rp_Us (1 / 10) 2 false (-1) (fun _ => false) max_iter One One in
    rr_conv r = true /\ rr_state r = Some (W1, H1).
Proof.
  split; [repeat split; intros; lia|]. split; [repeat split; intros; lia|]. split; [repeat split; intros; lia|]. split; [intros; apply lt_0_INR; lia|].
  destruct C143_instance as (C1 & C2 & _ & _ & HU & X). split; [|exact X].
  intros i j Hi Hj. unfold rp_Us. pose proof (HU i j Hi Hj) as Hu. cbv beta in Hu.
  assert (P : 0 < sqrt (INR (times_in 6 rp_s i) * INR (times_in 3 rp_p j))).
  { apply sqrt_lt_R0, Rmult_lt_0_compat; [apply (times_pos 6 3)|apply (times_pos 3 2)]; assumption. }
  unfold Rdiv. apply Rmult_integral_contrapositive. split; [exact Hu|apply Rinv_neq_0_compat; lra].
Qed.

Example C09_whole_runs_example :=
  match C09_whole_runs_instance with conj a (conj b (conj c (conj d (conj e _)))) =>
    C09_whole_runs 3 2 1 (fun i => 2 - i)%nat (fun j => 1 - j)%nat (fun a => a) (fun i => INR (i + 5)) (fun _ => 1) rp_V rp_Us
      (fun i j => INR (i + 5) * 1 * rp_V (2 - i)%nat (1 - j)%nat) (fun i j => INR (i + 5) * 1 * rp_Us (2 - i)%nat (1 - j)%nat)
      One One (fun i a => INR (i + 5) * One (2 - i)%nat a) (fun a j => 1 * One a (1 - j)%nat) (1 / 10) 2 false (-1) (fun _ => false) 100
      a b c d (fun _ _ => Rlt_0_1) e (fun _ _ _ _ => eq_refl) (fun _ _ _ _ => eq_refl) (fun _ _ _ _ => eq_refl) (fun _ _ _ _ => eq_refl) end.
Example C09_whole_runs_python_example :=
  match C09_whole_runs_instance with conj a (conj b (conj c (conj d (conj e _)))) =>
    C09_whole_runs_python 3 2 1 (fun i => 2 - i)%nat (fun j => 1 - j)%nat (fun a => a) (fun i => INR (i + 5)) (fun _ => 1) rp_V rp_Us
      (fun i j => INR (i + 5) * 1 * rp_V (2 - i)%nat (1 - j)%nat) (fun i j => INR (i + 5) * 1 * rp_Us (2 - i)%nat (1 - j)%nat)
      One One (fun i a => INR (i + 5) * One (2 - i)%nat a) (fun a j => 1 * One a (1 - j)%nat) (1 / 10) 2 false (-1) 100
      a b c d (fun _ _ => Rlt_0_1) e (fun _ _ _ _ => eq_refl) (fun _ _ _ _ => eq_refl) (fun _ _ _ _ => eq_refl) (fun _ _ _ _ => eq_refl) end.
