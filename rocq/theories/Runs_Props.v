(** C06, C07 and C08 for whole training runs of both engines. *)
From Coq Require Import Reals Lra Lia List Bool ZArith Arith.
From Verif Require Import Base Fl Metrics_Model Metrics_Spec Metrics_Proofs LSNMF_Model LSNMF_Proofs LSNMF_Props
  Train_Model Train_Spec Train_Proofs Train_LS Train_Props.
Import ListNotations.
Open Scope R_scope.

(** [y] is not more than [x], or the run met a division by zero. *)
Definition not_above (y x : fl) : Prop := y = NaN \/ exists a b, x = Fin a /\ y = Fin b /\ b <= a.

Section Run.
  Context (m n k : nat) (V U W H : mat) (holds : nat -> bool).
  Context (HV : mall m n (fun x => 0 <= x) V) (HU : mall m n (fun u => u <> 0) U).
  Context (HW : mall m k (fun x => 0 <= x) W) (HH : mall k n (fun x => 0 <= x) H).
  Notation st i := (state_at (ls_step m n k V U) holds (Some (W, H)) i).

  Lemma st_iter i : st i = ls_iter m n k V (weights U) holds 0 i (W, H).
  Proof.
    induction i as [|i IH]; [reflexivity|]. cbn [state_at]. rewrite IH.
    replace (S i) with (i + 1)%nat by lia. rewrite ls_iter_add.
    unfold ls_step at 1. destruct (ls_iter m n k V (weights U) holds 0 i (W, H)) as [s|]; [|reflexivity].
    cbn [ls_iter Nat.add]. destruct (ls_update m n k V (weights U) (holds i) s); reflexivity.
  Qed.
  Lemma st_add i d : st (i + d) = match st i with Some s => ls_iter m n k V (weights U) holds i d s | None => None end.
  Proof. rewrite !st_iter, ls_iter_add. destruct (ls_iter m n k V (weights U) holds 0 i (W, H)); reflexivity. Qed.
  Lemma st_below i d : not_above (ls_loss m n k V U (st (i + d))) (ls_loss m n k V U (st i)).
  Proof.
    rewrite st_add. destruct (st i) as [[W1 H1]|] eqn:E; [|left; reflexivity].
    destruct (ls_iter m n k V (weights U) holds i d (W1, H1)) as [[W2 H2]|] eqn:E2; [|left; reflexivity].
    right. cbn [ls_loss]. do 2 eexists. split; [reflexivity|]. split; [reflexivity|].
    rewrite st_iter in E.
    destruct (ls_iter_nonneg m n k V (weights U) holds i 0 W H W1 H1 HV (pos_nonneg _ _ _ (weights_pos m n U HU)) HW HH E) as [A B].
    exact (ls_iter_q m n k V U holds d i W1 H1 W2 H2 HV HU A B E2).
  Qed.
End Run.

Lemma history_below m n k V U W H holds len : mall m n (fun x => 0 <= x) V -> mall m n (fun u => u <> 0) U ->
  mall m k (fun x => 0 <= x) W -> mall k n (fun x => 0 <= x) H ->
  let hist := map (loss_at (ls_step m n k V U) (ls_loss m n k V U) holds (Some (W, H))) (seq 0 len) in
  forall i j x y, (i <= j)%nat -> nth_error (Fin (q_loss m n k true V U W H) :: hist) i = Some x ->
    nth_error (Fin (q_loss m n k true V U W H) :: hist) j = Some y -> not_above y x.
Proof.
  intros HV HU HW HH hist i j x y Hij.
  assert (X : forall i x, nth_error (Fin (q_loss m n k true V U W H) :: hist) i = Some x ->
    x = ls_loss m n k V U (state_at (ls_step m n k V U) holds (Some (W, H)) i)).
  { intros [|t] z; cbn [nth_error]; [intros E; injection E as <-; reflexivity|]. intros E. unfold hist in E.
    rewrite nth_error_map in E. destruct (nth_error (seq 0 len) t) as [q|] eqn:Eq; [|discriminate]. injection E as <-.
    assert (Ht : (t < len)%nat) by (rewrite <- (seq_length len 0); apply nth_error_Some; congruence).
    pose proof (nth_error_nth _ _ 0%nat Eq) as Y. rewrite seq_nth in Y by exact Ht. cbn [Nat.add] in Y. subst q. reflexivity. }
  intros Ex Ey. rewrite (X i x Ex), (X j y Ey). replace j with (i + (j - i))%nat by lia. apply st_below; assumption.
Qed.

(** The history of a training, preceded by the Q of its start, never rises; after a
    division by zero it is NaN. *)
Theorem C06_history_non_increasing :
  forall (m n k : nat) (V U W H : mat) (delta : R) (cn : Z) (hold_h : bool) (delay_h : Z) (tick : nat -> bool) (max_iter : Z),
  mall m n (fun x => 0 <= x) V -> mall m n (fun u => u <> 0) U ->
  mall m k (fun x => 0 <= x) W -> mall k n (fun x => 0 <= x) H ->
  let start := Fin (q_loss m n k true V U W H) in
  let compiled := start :: rr_hist (ls_rust_train m n k V U delta cn hold_h delay_h tick max_iter W H) in
  let python := start :: pr_hist (ls_py_train m n k V U delta cn delay_h hold_h max_iter W H) in
  (forall i j x y, (i <= j)%nat -> nth_error compiled i = Some x -> nth_error compiled j = Some y -> not_above y x) /\
  ((1 <= cn)%Z -> forall i j x y, (i <= j)%nat -> nth_error python i = Some x -> nth_error python j = Some y -> not_above y x).
Proof.
  intros m n k V U W H delta cn hold_h delay_h tick max_iter HV HU HW HH start compiled python. split.
  - unfold compiled.
    destruct (C13_bounded_complete_history _ _ (ls_step m n k V U) (ls_loss m n k V U) (fbelow delta) cn hold_h delay_h tick (Some (W, H)) max_iter
      (hold_at hold_h delay_h) (hold_at_held_iff hold_h delay_h)) as (_ & E & _).
    fold (ls_rust_train m n k V U delta cn hold_h delay_h tick max_iter W H) in E. rewrite E. apply history_below; assumption.
  - intros Hcn. unfold python.
    destruct (C13_python_history _ _ (ls_step m n k V U) (ls_loss m n k V U) (fbelow delta) (fun o => is_nan (ls_loss m n k V U o)) cn hold_h delay_h (Some (W, H)) max_iter
      (hold_at hold_h delay_h) Hcn (hold_at_held_iff hold_h delay_h)) as (_ & E & _).
    fold (ls_py_train m n k V U delta cn delay_h hold_h max_iter W H) in E. rewrite E. apply history_below; assumption.
Qed.
Print Assumptions C06_history_non_increasing.

(** C07 for whole runs: with hold_h, and no delay that expires within max_iter, both
    engines return the profiles they were given. *)
Theorem C07_ls_held_run :
  forall (m n k : nat) (V U W H : mat) (delta : R) (cn : Z) (delay_h : Z) (tick : nat -> bool) (max_iter : Z),
  ((delay_h <= 0)%Z \/ (max_iter <= delay_h + 1)%Z) ->
  (forall W' H', rr_state (ls_rust_train m n k V U delta cn true delay_h tick max_iter W H) = Some (W', H') -> H' = H) /\
  ((1 <= cn)%Z -> forall W' H', pr_state (ls_py_train m n k V U delta cn delay_h true max_iter W H) = Some (W', H') -> H' = H).
Proof.
  intros m n k V U W H delta cn delay_h tick max_iter Hd. split.
  - intros W' H' E.
    destruct (C13_bounded_complete_history _ _ (ls_step m n k V U) (ls_loss m n k V U) (fbelow delta) cn true delay_h tick (Some (W, H)) max_iter
      (hold_at true delay_h) (hold_at_held_iff true delay_h)) as (Hl & _ & Es & _).
    fold (ls_rust_train m n k V U delta cn true delay_h tick max_iter W H) in Hl, Es. rewrite Es, st_iter in E.
    apply (ls_iter_hold_at m n k V (weights U) delay_h _ W H W' H') in E; [exact E|]. lia.
  - intros Hcn W' H' E.
    destruct (C13_python_history _ _ (ls_step m n k V U) (ls_loss m n k V U) (fbelow delta) (fun o => is_nan (ls_loss m n k V U o)) cn true delay_h (Some (W, H)) max_iter
      (hold_at true delay_h) Hcn (hold_at_held_iff true delay_h)) as (Hl & _ & Es & _).
    fold (ls_py_train m n k V U delta cn delay_h true max_iter W H) in Hl, Es. rewrite Es, st_iter in E.
    apply (ls_iter_hold_at m n k V (weights U) delay_h _ W H W' H') in E; [exact E|]. lia.
Qed.
Print Assumptions C07_ls_held_run.

(** ** C08 *)
Section Exact.
  Context (m n k : nat) (V U W H : mat) (holds : nat -> bool).
  Context (Hm : (0 < m)%nat) (Hn : (0 < n)%nat) (Hk : (0 < k)%nat) (HU : mall m n (fun u => u <> 0) U)
    (HW : mall m k (fun x => 0 < x) W) (HH : mall k n (fun x => 0 < x) H) (HR : reproduces m n k V W H).

  Lemma exact_stays i : exists W' H', state_at (ls_step m n k V U) holds (Some (W, H)) i = Some (W', H') /\ meq m k W' W /\ meq k n H' H.
  Proof.
    induction i as [|i (W1 & H1 & E & EW & EH)]; [exists W, H; repeat split; intros ? ? _ _; reflexivity|].
    cbn [state_at]. rewrite E. cbn [ls_step].
    destruct (C08_exact_factorisation_fixed m n k V (weights U) (holds i) W1 H1 Hm Hn Hk (weights_pos m n U HU)) as (W2 & H2 & E2 & A & B).
    - intros x y Hx Hy. rewrite EW by assumption. apply HW; assumption.
    - intros x y Hx Hy. rewrite EH by assumption. apply HH; assumption.
    - intros x y Hx Hy. rewrite (HR x y Hx Hy). apply rsum_ext. intros p Hp. rewrite EW, EH by assumption. reflexivity.
    - exists W2, H2. split; [exact E2|]. split; intros x y Hx Hy; [rewrite A, EW|rewrite B, EH]; auto.
  Qed.
  Lemma exact_loss i : loss_at (ls_step m n k V U) (ls_loss m n k V U) holds (Some (W, H)) i = Fin 0.
  Proof.
    unfold loss_at. destruct (exact_stays (S i)) as (W1 & H1 & -> & EW & EH). cbn [ls_loss]. f_equal. apply q_loss_zero; [exact HU|].
    intros x y Hx Hy. rewrite (HR x y Hx Hy). apply rsum_ext. intros p Hp. rewrite EW, EH by assumption. reflexivity.
  Qed.
End Exact.

Lemma map_const {A B} (f : A -> B) (c : B) l : (forall x, In x l -> f x = c) -> map f l = repeat c (length l).
Proof. induction l as [|x l IH]; intros E; [reflexivity|]. cbn [map length repeat]. rewrite (E x (or_introl eq_refl)), IH; [reflexivity|]. intros y Hy. apply E. right. exact Hy. Qed.

(** Training that starts at a perfect solution stays there: the compiled engine converges
    after converge_n iterations with a history of zeros. *)
Theorem C08_training_stays :
  forall (m n k : nat) (V U W H : mat) (delta : R) (cn : Z) (hold_h : bool) (delay_h : Z) (tick : nat -> bool) (max_iter : Z),
  (0 < m)%nat -> (0 < n)%nat -> (0 < k)%nat -> mall m n (fun u => u <> 0) U ->
  mall m k (fun x => 0 < x) W -> mall k n (fun x => 0 < x) H -> reproduces m n k V W H ->
  let r := ls_rust_train m n k V U delta cn hold_h delay_h tick max_iter W H in
  let p := ls_py_train m n k V U delta cn delay_h hold_h max_iter W H in
  ((exists W' H', rr_state r = Some (W', H') /\ meq m k W' W /\ meq k n H' H) /\
   rr_hist r = repeat (Fin 0) (length (rr_hist r)) /\
   (0 < delta -> (1 <= cn <= max_iter)%Z -> rr_conv r = true /\ rr_hist r = repeat (Fin 0) (Z.to_nat cn))) /\
  ((1 <= cn)%Z -> (exists W' H', pr_state p = Some (W', H') /\ meq m k W' W /\ meq k n H' H) /\
   pr_hist p = repeat (Fin 0) (length (pr_hist p))).
Proof.
  intros m n k V U W H delta cn hold_h delay_h tick max_iter Hm Hn Hk HU HW HH HR r p. split.
  - destruct (C13_bounded_complete_history _ _ (ls_step m n k V U) (ls_loss m n k V U) (fbelow delta) cn hold_h delay_h tick (Some (W, H)) max_iter
      (hold_at hold_h delay_h) (hold_at_held_iff hold_h delay_h)) as (_ & E & Es & _).
    fold (ls_rust_train m n k V U delta cn hold_h delay_h tick max_iter W H) in E, Es. fold r in E, Es.
    assert (Eh : rr_hist r = repeat (Fin 0) (length (rr_hist r))).
    { rewrite E at 1. rewrite (map_const _ (Fin 0)), seq_length; [reflexivity|]. intros i _. apply exact_loss; assumption. }
    split; [rewrite Es; apply exact_stays; assumption|]. split; [exact Eh|]. intros Hd Hcn.
    destruct (C14_converged_iff _ _ (ls_step m n k V U) (ls_loss m n k V U) (fbelow delta) cn hold_h delay_h tick (Some (W, H)) max_iter
      (hold_at hold_h delay_h) (hold_at_held_iff hold_h delay_h)) as [C1 C2].
    fold (ls_rust_train m n k V U delta cn hold_h delay_h tick max_iter W H) in C1, C2. fold r in C1, C2.
    assert (Bl : forall i j, fbelow delta (loss_at (ls_step m n k V U) (ls_loss m n k V U) (hold_at hold_h delay_h) (Some (W, H)) i)
      (loss_at (ls_step m n k V U) (ls_loss m n k V U) (hold_at hold_h delay_h) (Some (W, H)) j) = true).
    { intros i j. rewrite !exact_loss by assumption. apply fbelow_fin. lra. }
    assert (Cv : rr_conv r = true) by (apply C1; exists (Z.to_nat (cn - 1)); repeat split; try lia; apply Bl).
    split; [exact Cv|]. destruct (C2 Cv) as [[[F1 _] F2] L]. rewrite Eh. f_equal. rewrite L.
    assert (Hle : (rr_ci r <= Z.to_nat (cn - 1))%nat).
    { destruct (le_lt_dec (rr_ci r) (Z.to_nat (cn - 1))) as [Le|Lt]; [exact Le|]. exfalso. apply (F2 _ Lt). split; [lia|apply Bl]. }
    lia.
  - intros Hcn.
    destruct (C13_python_history _ _ (ls_step m n k V U) (ls_loss m n k V U) (fbelow delta) (fun o => is_nan (ls_loss m n k V U o)) cn hold_h delay_h (Some (W, H)) max_iter
      (hold_at hold_h delay_h) Hcn (hold_at_held_iff hold_h delay_h)) as (_ & E & Es & _).
    fold (ls_py_train m n k V U delta cn delay_h hold_h max_iter W H) in E, Es. fold p in E, Es.
    split; [rewrite Es; apply exact_stays; assumption|].
    rewrite E at 1. rewrite (map_const _ (Fin 0)), seq_length; [reflexivity|]. intros i _. apply exact_loss; assumption.
Qed.
Print Assumptions C08_training_stays.

(** A product of two vectors, which is also what the C06 and C07 runs may start from. *)
Example C08_runs_instance :
  let W : mat := fun i _ => INR (i + 1) in let H : mat := fun _ j => INR (j + 1) in
  let V : mat := fun i j => INR (i + 1) * INR (j + 1) in let U : mat := fun _ _ => 1 / 2 in
  mall 3 2 (fun x => 0 <= x) V /\ mall 3 2 (fun u => u <> 0) U /\ mall 3 1 (fun x => 0 < x) W /\ mall 1 2 (fun x => 0 < x) H /\ reproduces 3 2 1 V W H /\
  (1 <= 4 <= 9)%Z /\ rr_hist (ls_rust_train 3 2 1 V U (1 / 10) 4 false (-1) (fun _ => false) 9 W H) = [Fin 0; Fin 0; Fin 0; Fin 0].
Proof.
  intros W H V U.
  assert (P : mall 3 1 (fun x => 0 < x) W) by (intros i j _ _; apply lt_0_INR; lia).
  assert (Q : mall 1 2 (fun x => 0 < x) H) by (intros i j _ _; apply lt_0_INR; lia).
  assert (HU : mall 3 2 (fun u => u <> 0) U) by (intros i j _ _; unfold U; lra).
  assert (HR : reproduces 3 2 1 V W H) by (intros i j _ _; unfold V, W, H; cbn [rsum]; ring).
  split; [intros i j _ _; apply Rmult_le_pos; apply pos_INR|]. split; [exact HU|]. split; [exact P|]. split; [exact Q|]. split; [exact HR|]. split; [lia|].
  destruct (C08_training_stays 3 2 1 V U W H (1 / 10) 4 false (-1) (fun _ => false) 9) as ((_ & _ & X) & _); try lia; try assumption.
  apply X; [lra|lia].
Qed.

(** ** C59, C60 for whole runs *)
Lemma state_pos m n k V U W H holds i : (0 < m)%nat -> (0 < n)%nat -> (0 < k)%nat ->
  mall m n (fun x => 0 <= x) V -> no_empty m n V -> mall m n (fun u => u <> 0) U ->
  mall m k (fun x => 0 < x) W -> mall k n (fun x => 0 < x) H ->
  exists W' H', state_at (ls_step m n k V U) holds (Some (W, H)) i = Some (W', H') /\
    mall m k (fun x => 0 < x) W' /\ mall k n (fun x => 0 < x) H' /\ q_loss m n k true V U W' H' <= q_loss m n k true V U W H.
Proof.
  intros Hm Hn Hk HV Hne HU HW HH. rewrite st_iter.
  destruct (ls_iter_pos m n k V (weights U) holds i 0 W H Hm Hn Hk HV Hne (weights_pos m n U HU) HW HH) as (W' & H' & E & A & B).
  exists W', H'. split; [exact E|]. split; [exact A|]. split; [exact B|].
  exact (ls_iter_q m n k V U holds i 0 W H W' H' HV HU (pos_nonneg _ _ _ HW) (pos_nonneg _ _ _ HH) E).
Qed.

(** With a positive value in every sample and feature no run ever divides by zero. *)
Theorem C59_positive_start_never_breaks :
  forall (m n k : nat) (V U W H : mat) (delta : R) (cn : Z) (hold_h : bool) (delay_h : Z) (tick : nat -> bool) (max_iter : Z),
  (0 < m)%nat -> (0 < n)%nat -> (0 < k)%nat ->
  mall m n (fun x => 0 <= x) V ->
  (forall i, (i < m)%nat -> exists j, (j < n)%nat /\ 0 < V i j) -> (forall j, (j < n)%nat -> exists i, (i < m)%nat /\ 0 < V i j) ->
  mall m n (fun u => u <> 0) U -> mall m k (fun x => 0 < x) W -> mall k n (fun x => 0 < x) H ->
  let good s := exists W' H', s = Some (W', H') /\ mall m k (fun x => 0 < x) W' /\ mall k n (fun x => 0 < x) H' /\
    q_loss m n k true V U W' H' <= q_loss m n k true V U W H in
  let r := ls_rust_train m n k V U delta cn hold_h delay_h tick max_iter W H in
  let p := ls_py_train m n k V U delta cn delay_h hold_h max_iter W H in
  (good (rr_state r) /\ ~ In NaN (rr_hist r)) /\
  ((1 <= cn)%Z -> good (pr_state p) /\ ~ In NaN (pr_hist p) /\ pr_stop p <> PNaN).
Proof.
  intros m n k V U W H delta cn hold_h delay_h tick max_iter Hm Hn Hk HV Hr Hc HU HW HH good r p.
  assert (Hne : no_empty m n V) by (split; assumption).
  assert (G : forall i, good (state_at (ls_step m n k V U) (hold_at hold_h delay_h) (Some (W, H)) i)) by (intros i; apply state_pos; assumption).
  assert (NN : forall len, ~ In NaN (map (loss_at (ls_step m n k V U) (ls_loss m n k V U) (hold_at hold_h delay_h) (Some (W, H))) (seq 0 len))).
  { intros len X. apply in_map_iff in X. destruct X as (i & X & _). unfold loss_at in X.
    destruct (G (S i)) as (A & B & E & _). rewrite E in X. discriminate X. }
  split.
  - destruct (C13_bounded_complete_history _ _ (ls_step m n k V U) (ls_loss m n k V U) (fbelow delta) cn hold_h delay_h tick (Some (W, H)) max_iter
      (hold_at hold_h delay_h) (hold_at_held_iff hold_h delay_h)) as (_ & E & Es & _).
    fold (ls_rust_train m n k V U delta cn hold_h delay_h tick max_iter W H) in E, Es. fold r in E, Es.
    split; [rewrite Es; apply G|rewrite E; apply NN].
  - intros Hcn.
    destruct (C13_python_history _ _ (ls_step m n k V U) (ls_loss m n k V U) (fbelow delta) (fun o => is_nan (ls_loss m n k V U o)) cn hold_h delay_h (Some (W, H)) max_iter
      (hold_at hold_h delay_h) Hcn (hold_at_held_iff hold_h delay_h)) as (_ & E & Es & _ & _ & P & _).
    fold (ls_py_train m n k V U delta cn delay_h hold_h max_iter W H) in E, Es, P. fold p in E, Es, P.
    split; [rewrite Es; apply G|]. split; [rewrite E; apply NN|]. intros X. apply P in X. destruct X as [_ X].
    rewrite Es in X. destruct (G (length (pr_hist p))) as (A & B & E' & _). rewrite E' in X. discriminate X.
Qed.
Print Assumptions C59_positive_start_never_breaks.

Lemma fbelow_nan delta x : fbelow delta x NaN = false.
Proof. unfold fbelow. destruct x; reflexivity. Qed.

(** With an all-zero sample the compiled engine spends all its iterations on NaN matrices and
    the Python engine gives up by the second. *)
Theorem C59_zero_sample_runs :
  forall (m n k : nat) (V U W H : mat) (delta : R) (cn : Z) (hold_h : bool) (delay_h : Z) (tick : nat -> bool) (max_iter : Z),
  (0 < k)%nat -> (2 <= cn)%Z -> (2 <= max_iter)%Z ->
  (exists i, (i < m)%nat /\ forall j, (j < n)%nat -> V i j = 0) ->
  let r := ls_rust_train m n k V U delta cn hold_h delay_h tick max_iter W H in
  let p := ls_py_train m n k V U delta cn delay_h hold_h max_iter W H in
  (rr_conv r = false /\ rr_state r = None /\ rr_q r = Some NaN /\ length (rr_hist r) = Z.to_nat max_iter) /\
  (pr_stop p = PNaN /\ pr_state p = None /\ (pr_steps p <= 1)%nat).
Proof.
  intros m n k V U W H delta cn hold_h delay_h tick max_iter Hk Hcn Hmi Hz r p.
  assert (N : forall i, (2 <= i)%nat -> state_at (ls_step m n k V U) (hold_at hold_h delay_h) (Some (W, H)) i = None).
  { intros i Hi. rewrite st_iter. apply C59_zero_sample_breaks; assumption. }
  assert (L : forall i, (1 <= i)%nat -> loss_at (ls_step m n k V U) (ls_loss m n k V U) (hold_at hold_h delay_h) (Some (W, H)) i = NaN).
  { intros i Hi. unfold loss_at. rewrite N by lia. reflexivity. }
  split.
  - destruct (C13_bounded_complete_history _ _ (ls_step m n k V U) (ls_loss m n k V U) (fbelow delta) cn hold_h delay_h tick (Some (W, H)) max_iter
      (hold_at hold_h delay_h) (hold_at_held_iff hold_h delay_h)) as (_ & _ & Es & Eq & _ & Ec).
    destruct (C14_converged_iff _ _ (ls_step m n k V U) (ls_loss m n k V U) (fbelow delta) cn hold_h delay_h tick (Some (W, H)) max_iter
      (hold_at hold_h delay_h) (hold_at_held_iff hold_h delay_h)) as [C1 _].
    fold (ls_rust_train m n k V U delta cn hold_h delay_h tick max_iter W H) in Es, Eq, Ec, C1. fold r in Es, Eq, Ec, C1.
    assert (F : rr_conv r = false).
    { destruct (rr_conv r) eqn:X; [|reflexivity]. destruct (proj1 C1 eq_refl) as (j & _ & Hj & B). rewrite (L j) in B by lia.
      rewrite fbelow_nan in B. discriminate B. }
    specialize (Ec F). rewrite Ec in Es, Eq. rewrite N in Es by lia. rewrite Es in Eq.
    split; [exact F|]. split; [exact Es|]. split; [|exact Ec]. rewrite Eq.
    destruct (Nat.eqb_spec (Z.to_nat max_iter) 0); [lia|reflexivity].
  - assert (E2 : (Z.to_nat max_iter = S (S (Z.to_nat max_iter - 2)))%nat) by lia.
    unfold p, ls_py_train, py_train. rewrite E2. cbn [py_loop]. cbn [app length].
    set (h0 := if ((0 <? delay_h) && (delay_h <? Z.of_nat 0))%Z then false else hold_h).
    assert (T0 : ((cn <? Z.of_nat 1)%Z = false)) by (apply Z.ltb_ge; lia). rewrite T0.
    set (s1 := ls_step m n k V U h0 (Some (W, H))).
    destruct (is_nan (ls_loss m n k V U s1)) eqn:X.
    { cbn [pr_stop pr_state pr_steps]. split; [reflexivity|]. split; [destruct s1 as [[A B]|]; [discriminate X|reflexivity]|lia]. }
    set (h1 := if ((0 <? delay_h) && (delay_h <? Z.of_nat 1))%Z then false else h0).
    assert (S2 : ls_step m n k V U h1 s1 = None).
    { pose proof (C59_zero_sample_breaks m n k V (weights U) W H 0 (fun i => if (i =? 0)%nat then h0 else h1) 2 Hk (le_n 2) Hz) as Y.
      cbn [ls_iter Nat.eqb] in Y. unfold s1, ls_step. destruct (ls_update m n k V (weights U) h0 (W, H)) as [t|]; [|reflexivity].
      destruct (ls_update m n k V (weights U) h1 t); [discriminate Y|reflexivity]. }
    rewrite S2. cbn [ls_loss is_nan pr_stop pr_state pr_steps]. repeat split. lia.
Qed.
Print Assumptions C59_zero_sample_runs.

(** A Python run that stops under C60 ends at a finite, positive, no worse solution. *)
Theorem C60_python_result :
  forall (m n k : nat) (V U : mat) (delta : R) (cn : Z) (hold_h : bool) (delay_h : Z) (W H : mat) (max_iter : Z) (K : nat),
    (0 < m)%nat -> (0 < n)%nat -> (0 < k)%nat ->
    mall m n (fun x => 0 <= x) V -> no_empty m n V -> mall m n (fun u => u <> 0) U ->
    mall m k (fun x => 0 < x) W -> mall k n (fun x => 0 < x) H ->
    0 < delta -> (1 <= cn)%Z -> q_loss m n k true V U W H < INR K * delta -> (Z.of_nat (K * span cn) + 1 < max_iter)%Z ->
    let r := ls_py_train m n k V U delta cn delay_h hold_h max_iter W H in
    pr_stop r = PConverged /\ (pr_steps r <= K * span cn + 1)%nat /\
    exists W' H', pr_state r = Some (W', H') /\ mall m k (fun x => 0 < x) W' /\ mall k n (fun x => 0 < x) H' /\
      last (pr_hist r) NaN = Fin (q_loss m n k true V U W' H') /\ q_loss m n k true V U W' H' <= q_loss m n k true V U W H.
Proof.
  intros m n k V U delta cn hold_h delay_h W H max_iter K Hm Hn Hk HV Hne HU HW HH Hd Hcn HK Hmi r.
  destruct (C60_python_ls_nmf_always_converges m n k V U delta cn hold_h delay_h W H max_iter K Hm Hn Hk HV Hne HU HW HH Hd Hcn HK Hmi) as [A B].
  fold r in A, B. split; [exact A|]. split; [exact B|].
  destruct (C13_python_history _ _ (ls_step m n k V U) (ls_loss m n k V U) (fbelow delta) (fun o => is_nan (ls_loss m n k V U o)) cn hold_h delay_h (Some (W, H)) max_iter
      (hold_at hold_h delay_h) Hcn (hold_at_held_iff hold_h delay_h)) as (_ & E & Es & _ & Pn & _).
  fold (ls_py_train m n k V U delta cn delay_h hold_h max_iter W H) in E, Es, Pn. fold r in E, Es, Pn.
  destruct (Pn ltac:(rewrite A; discriminate)) as [Pl _].
  destruct (state_pos m n k V U W H (hold_at hold_h delay_h) (length (pr_hist r)) Hm Hn Hk HV Hne HU HW HH) as (W' & H' & E' & PW & PH & Q).
  exists W', H'. split; [rewrite Es; exact E'|]. split; [exact PW|]. split; [exact PH|]. split; [|exact Q].
  rewrite E. destruct (length (pr_hist r)) as [|L] eqn:EL; [lia|]. rewrite seq_S, map_app. cbn [map Nat.add]. rewrite last_last.
  unfold loss_at. rewrite E'. reflexivity.
Qed.
Print Assumptions C60_python_result.

Example C59_runs_instance :
  let V : mat := fun i j => INR i * INR (j + 1) in let One : mat := fun _ _ => 1 in
  let r := ls_rust_train 2 2 1 V One (1 / 10) 2 false (-1) (fun _ => false) 5 One One in
  rr_state r = None /\ length (rr_hist r) = 5%nat /\
  pr_stop (ls_py_train 2 2 1 V One (1 / 10) 2 (-1) false 5 One One) = PNaN.
Proof.
  intros V One r.
  destruct (C59_zero_sample_runs 2 2 1 V One One One (1 / 10) 2 false (-1) (fun _ => false) 5) as ((_ & A & _ & B) & C & _); try lia.
  - exists 0%nat. split; [lia|]. intros j _. unfold V. cbn [INR]. ring.
  - split; [exact A|]. split; [exact B|exact C].
Qed.

Definition xrn_W : mat := fun i _ => INR (i + 1).
Definition xrn_H : mat := fun _ j => INR (j + 1).
Definition xrn_V : mat := fun i j => INR (i + 1) * INR (j + 1).
Definition xrn_U : mat := fun _ _ => 1 / 2.
Definition xrn_one : mat := fun _ _ => 1.
Lemma xrn_pos m n : mall m n (fun x => 0 < x) xrn_one.
Proof. intros i j _ _. unfold xrn_one. lra. Qed.
Lemma xrn_nn m n : mall m n (fun x => 0 <= x) xrn_one.
Proof. intros i j _ _. unfold xrn_one. lra. Qed.
Lemma xrn_v : mall 3 2 (fun x => 0 <= x) xrn_V. Proof. apply C08_runs_instance. Qed.
Lemma xrn_u : mall 3 2 (fun x => x <> 0) xrn_U. Proof. apply C08_runs_instance. Qed.
Lemma xrn_cell i j : 0 < xrn_V i j.
Proof. unfold xrn_V. apply Rmult_lt_0_compat; apply lt_0_INR; lia. Qed.
Example C06_history_non_increasing_example :=
  C06_history_non_increasing 3 2 1 xrn_V xrn_U xrn_one xrn_one (1 / 10) 4 false (-1) (fun _ => false) 50 xrn_v xrn_u (xrn_nn 3 1) (xrn_nn 1 2).
Example C07_ls_held_run_example :=
  C07_ls_held_run 3 2 1 xrn_V xrn_U xrn_one xrn_one (1 / 10) 4 (-1) (fun _ => false) 50 ltac:(left; lia).
Example C08_training_stays_example :=
  C08_training_stays 3 2 1 xrn_V xrn_U xrn_W xrn_H (1 / 10) 4 false (-1) (fun _ => false) 9 ltac:(lia) ltac:(lia) ltac:(lia) xrn_u
    (proj1 (proj2 (proj2 C08_runs_instance))) (proj1 (proj2 (proj2 (proj2 C08_runs_instance)))) (proj1 (proj2 (proj2 (proj2 (proj2 C08_runs_instance))))).
Example C59_positive_start_never_breaks_example :=
  C59_positive_start_never_breaks 3 2 1 xrn_V xrn_U xrn_one xrn_one (1 / 10) 4 false (-1) (fun _ => false) 50 ltac:(lia) ltac:(lia) ltac:(lia) xrn_v
    ltac:(intros i _; exists 0%nat; split; [lia | apply xrn_cell]) ltac:(intros j _; exists 0%nat; split; [lia | apply xrn_cell]) xrn_u (xrn_pos 3 1) (xrn_pos 1 2).
Example C59_zero_sample_runs_example :=
  C59_zero_sample_runs 2 2 1 (fun i j => INR i * INR (j + 1)) xrn_one xrn_one xrn_one (1 / 10) 2 false (-1) (fun _ => false) 5 ltac:(lia) ltac:(lia) ltac:(lia)
    ltac:(exists 0%nat; split; [lia | intros j _; cbn; lra]).
Example C60_python_result_example :=
  C60_python_result 1 1 1 xrn_one xrn_one (1 / 10) 2 false (-1) xrn_one xrn_one 10 1 ltac:(lia) ltac:(lia) ltac:(lia) (xrn_nn 1 1)
    ltac:(split; intros i Hi; exists 0%nat; (split; [lia | unfold xrn_one; lra])) ltac:(intros i j _ _; unfold xrn_one; lra) (xrn_pos 1 1) (xrn_pos 1 1) ltac:(lra) ltac:(lia)
    ltac:(unfold q_loss, msum, resid, mmul, xrn_one; cbn; lra) eq_refl.
