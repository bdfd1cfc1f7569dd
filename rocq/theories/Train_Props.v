(** Properties C13-C17, C60, C61: the training loops. *)
From Coq Require Import Reals Lra Lia List Bool ZArith Arith.
From Verif Require Import Base Fl Metrics_Model LSNMF_Model LSNMF_Proofs
  Train_Model Train_Spec Train_Proofs Train_LS.
Import ListNotations.
Local Open Scope nat_scope.

(** C13: at most max_iter iterations; the history has one entry per iteration
    performed, in order; the returned matrices are those of the last
    iteration, the reported Q its loss; no convergence means exactly max_iter
    iterations. *)
Theorem C13_bounded_complete_history :
  forall (S F : Type) (upd : bool -> S -> S) (loss : S -> F) (below : F -> F -> bool)
    (cn : Z) (hold_h : bool) (delay_h : Z) (tick : nat -> bool) (st0 : S) (max_iter : Z)
    (b : nat -> bool),
    (forall i, b i = true <-> held hold_h delay_h i) ->
    let r := rust_train upd loss below cn hold_h delay_h tick max_iter st0 in
    let n := length (rr_hist r) in
    n <= Z.to_nat max_iter /\
    rr_hist r = map (loss_at upd loss b st0) (seq 0 n) /\
    rr_state r = state_at upd b st0 n /\
    rr_q r = (if n =? 0 then None else Some (loss (rr_state r))) /\
    rr_ci r = n - 1 /\
    (rr_conv r = false -> n = Z.to_nat max_iter).
Proof.
  intros S F upd loss below cn hold_h delay_h tick st0 max_iter b Hb r n.
  destruct (rust_summary upd loss below cn hold_h delay_h tick st0 max_iter b Hb)
    as (A & B & C & D & E & G & _).
  fold r n in A, B, C, D, E, G. repeat split; auto.
  rewrite D, C. destruct (Nat.eqb_spec n 0) as [|Hn]; [reflexivity|].
  unfold loss_at. replace (Datatypes.S (n - 1)) with n by lia. reflexivity.
Qed.
Print Assumptions C13_bounded_complete_history.
(** A countdown that never converges, profiles held for two iterations. *)
Example C13_bounded_complete_history_example := C13_bounded_complete_history Z Z (fun _ s => s - 1)%Z (fun s => s) (fun a b => (a - b <? 1)%Z) 2 true 1 (fun _ => false) 10%Z 4
  (hold_at true 1) (hold_at_held_iff true 1).

Theorem C13_python_history :
  forall (S F : Type) (upd : bool -> S -> S) (loss : S -> F) (below : F -> F -> bool)
    (isnan : S -> bool) (cn : Z) (hold_h : bool) (delay_h : Z) (st0 : S) (max_iter : Z)
    (b : nat -> bool),
    (1 <= cn)%Z ->
    (forall i, b i = true <-> held hold_h delay_h i) ->
    let r := py_train upd loss below isnan cn delay_h hold_h max_iter st0 in
    let n := length (pr_hist r) in
    n <= Z.to_nat max_iter /\
    pr_hist r = map (loss_at upd loss b st0) (seq 0 n) /\
    pr_state r = state_at upd b st0 n /\
    (pr_stop r = PDone -> n = Z.to_nat max_iter /\ pr_steps r = n) /\
    (pr_stop r <> PDone -> 0 < n /\ pr_steps r = n - 1) /\
    (pr_stop r = PNaN <-> 0 < n /\ isnan (pr_state r) = true) /\
    (pr_stop r = PConverged -> criterion below cn (loss_at upd loss b st0) (n - 1)).
Proof. exact @py_summary. Qed.
Print Assumptions C13_python_history.
Example C13_python_history_example := C13_python_history Z Z (fun _ s => s - 1)%Z (fun s => s) (fun a b => (a - b <? 1)%Z) (fun _ => false) 2 true 1 10%Z 4
  (hold_at true 1) ltac:(lia) (hold_at_held_iff true 1).

(** A countdown whose loss is the state itself. *)
Example C13_instance :
  let r := rust_train (fun (_ : bool) s => s - 1)%Z (fun s => s)
             (fun a b => (a - b <? 1)%Z) 2 true 1 (fun _ => false) 4 10%Z in
  rr_hist r = [9; 8; 7; 6]%Z /\ rr_conv r = false /\ rr_ci r = 3.
Proof. repeat split. Qed.

(** C14: converged exactly when some iteration within the bound meets the
    criterion, and then the run ends at the first such iteration. *)
Theorem C14_converged_iff :
  forall (S F : Type) (upd : bool -> S -> S) (loss : S -> F) (below : F -> F -> bool)
    (cn : Z) (hold_h : bool) (delay_h : Z) (tick : nat -> bool) (st0 : S) (max_iter : Z)
    (b : nat -> bool),
    (forall i, b i = true <-> held hold_h delay_h i) ->
    let r := rust_train upd loss below cn hold_h delay_h tick max_iter st0 in
    let q := loss_at upd loss b st0 in
    (rr_conv r = true <->
       exists j, j < Z.to_nat max_iter /\ Z.to_nat (cn - 1) <= j /\
         below (q (j - Z.to_nat (cn - 1))) (q j) = true) /\
    (rr_conv r = true ->
       first_such (fun j => Z.to_nat (cn - 1) <= j /\
                     below (q (j - Z.to_nat (cn - 1))) (q j) = true) (rr_ci r) /\
       length (rr_hist r) = rr_ci r + 1).
Proof.
  intros S F upd loss below cn hold_h delay_h tick st0 max_iter b Hb r q.
  destruct (rust_summary upd loss below cn hold_h delay_h tick st0 max_iter b Hb)
    as (_ & _ & _ & _ & E & _ & G & I).
  fold r q in E, G, I. split; [exact G|].
  intros Hc. destruct (I Hc) as [I1 I2]. rewrite E. split; [exact I1|lia].
Qed.
Print Assumptions C14_converged_iff.
Example C14_converged_iff_example := C14_converged_iff nat nat (fun _ s => Nat.div2 s) (fun s => s) (fun a b => Nat.ltb (a - b) 2) 2 false 0 (fun _ => false) 20 100
  (hold_at false 0) (hold_at_held_iff false 0).

(** converge_n <= 1 with a positive tolerance: stops after one iteration
    whenever the first loss is finite. *)
Theorem C14_small_window :
  forall (S : Type) (upd : bool -> S -> S) (loss : S -> fl) (delta : R)
    (cn : Z) (hold_h : bool) (delay_h : Z) (tick : nat -> bool) (st0 : S) (max_iter : Z) (x : R),
    (cn <= 1)%Z -> (0 < delta)%R -> (0 < max_iter)%Z ->
    loss (upd hold_h st0) = Fin x ->
    let r := rust_train upd loss (fbelow delta) cn hold_h delay_h tick max_iter st0 in
    rr_conv r = true /\ rr_hist r = [Fin x].
Proof.
  intros S upd loss delta cn hold_h delay_h tick st0 max_iter x Hcn Hd Hm Hl r.
  assert (H0 : hold_at hold_h delay_h 0 = hold_h).
  { unfold hold_at. destruct hold_h; cbn; [|reflexivity].
    destruct (Z.ltb_spec 0 delay_h), (Z.ltb_spec delay_h 0); cbn; try reflexivity; lia. }
  unfold r, rust_train. destruct (Z.to_nat max_iter) as [|N] eqn:EN; [lia|].
  cbn [rust_loop]. rewrite H0, Hl. cbn [app length hd tl].
  replace (cn <=? Z.of_nat 1)%Z with true by (symmetry; apply Z.leb_le; lia).
  assert (Hb : fbelow delta (Fin x) (Fin x) = true) by (apply fbelow_fin; lra).
  rewrite Hb. split; reflexivity.
Qed.
Print Assumptions C14_small_window.
Example C14_small_window_example := C14_small_window R (fun _ s => s / 2)%R (fun s => Fin s) (1 / 10)%R 1 false 0 (fun _ => false) 8%R 50 (8 / 2)%R
  ltac:(lia) ltac:(lra) ltac:(lia) eq_refl.

(** A converged run never ends on, or started its last window from, a NaN. *)
Theorem C14_nan_never_converged :
  forall (S : Type) (upd : bool -> S -> S) (loss : S -> fl) (delta : R)
    (cn : Z) (hold_h : bool) (delay_h : Z) (tick : nat -> bool) (st0 : S) (max_iter : Z),
    let r := rust_train upd loss (fbelow delta) cn hold_h delay_h tick max_iter st0 in
    rr_conv r = true ->
    loss (rr_state r) <> NaN /\ exists x, rr_q r = Some x /\ x <> NaN.
Proof.
  intros S upd loss delta cn hold_h delay_h tick st0 max_iter r Hc.
  set (b := hold_at hold_h delay_h).
  destruct (rust_summary upd loss (fbelow delta) cn hold_h delay_h tick st0 max_iter b
              (hold_at_held_iff hold_h delay_h)) as (_ & _ & A & B & _ & _ & _ & I).
  fold r in A, B, I. destruct (I Hc) as [[[I1 I2] _] I3].
  set (n := length (rr_hist r)) in *.
  assert (Hne : loss_at upd loss b st0 (n - 1) <> NaN).
  { intros E. rewrite E in I2. unfold fbelow, fsub in I2. cbn in I2.
    destruct (loss_at upd loss b st0 (n - 1 - span cn)); discriminate. }
  split.
  - rewrite A. unfold loss_at in Hne. replace (Datatypes.S (n - 1)) with n in Hne by lia. exact Hne.
  - rewrite B. destruct (Nat.eqb_spec n 0); [lia|]. eexists; split; [reflexivity|exact Hne].
Qed.
Print Assumptions C14_nan_never_converged.
(** The run of the previous example converged. *)
Example C14_nan_never_converged_example := C14_nan_never_converged R (fun _ s => s / 2)%R (fun s => Fin s) (1 / 10)%R 1 false 0 (fun _ => false) 8%R 50 (proj1 C14_small_window_example).

(** The difference is signed: a loss that rose over the window, even to
    infinity, counts as converged. *)
Theorem C14_rising_loss_counts_as_converged :
  forall (S : Type) (upd : bool -> S -> S) (loss : S -> fl) (delta : R)
    (cn : Z) (hold_h : bool) (delay_h : Z) (tick : nat -> bool) (st0 : S) (max_iter : Z)
    (b : nat -> bool) (j : nat),
    (forall i, b i = true <-> held hold_h delay_h i) -> (0 <= delta)%R ->
    j < Z.to_nat max_iter -> Z.to_nat (cn - 1) <= j ->
    flt (loss_at upd loss b st0 (j - Z.to_nat (cn - 1))) (loss_at upd loss b st0 j) = true ->
    rr_conv (rust_train upd loss (fbelow delta) cn hold_h delay_h tick max_iter st0) = true.
Proof.
  intros S upd loss delta cn hold_h delay_h tick st0 max_iter b j Hb Hd Hj Hw Hlt.
  apply (C14_converged_iff S fl upd loss (fbelow delta) cn hold_h delay_h tick st0 max_iter b Hb).
  exists j. split; [exact Hj|]. split; [exact Hw|].
  destruct (loss_at upd loss b st0 (j - Z.to_nat (cn - 1))) as [x| | |],
    (loss_at upd loss b st0 j) as [y| | |]; cbn in *; try discriminate; try reflexivity.
  unfold fbelow. cbn. apply Rltb_iff. apply Rltb_iff in Hlt. lra.
Qed.
Print Assumptions C14_rising_loss_counts_as_converged.
(** A loss that doubles in every iteration. *)
Example C14_rising_loss_counts_as_converged_example := C14_rising_loss_counts_as_converged R (fun _ s => s * 2)%R (fun s => Fin s) (1 / 10)%R 2 false 0 (fun _ => false) 1%R 50
  (hold_at false 0) 1 (hold_at_held_iff false 0) ltac:(lra) ltac:(apply Nat.ltb_lt; reflexivity) ltac:(apply Nat.leb_le; reflexivity) ltac:(change (flt (Fin (1 * 2)%R) (Fin (1 * 2 * 2)%R) = true); apply (proj2 (flt_fin _ _)); lra).

(** losses 10, 5, 2, 1 with window 2, tolerance 2: stops at index 3. *)
Example C14_instance :
  let r := rust_train (fun (_ : bool) s => Nat.div2 s) (fun s => s)
             (fun a b => Nat.ltb (a - b) 2) 2 false 0 (fun _ => false) 100 20 in
  rr_hist r = [10; 5; 2; 1] /\ rr_conv r = true /\ rr_ci r = 3.
Proof. repeat split. Qed.

(** C15: the profile update is applied at iteration i exactly when the profile
    is not held; both engines produce the states of that schedule. *)
Theorem C15_schedule :
  forall (S F : Type) (upd : bool -> S -> S) (loss : S -> F) (below : F -> F -> bool)
    (isnan : S -> bool) (cn : Z) (hold_h : bool) (delay_h : Z) (tick : nat -> bool)
    (st0 : S) (max_iter : Z) (b : nat -> bool),
    (forall i, b i = true <->
       hold_h = true /\ ((delay_h <= 0)%Z \/ (Z.of_nat i <= delay_h)%Z)) ->
    let r := rust_train upd loss below cn hold_h delay_h tick max_iter st0 in
    rr_state r = state_at upd b st0 (length (rr_hist r)) /\
    ((1 <= cn)%Z ->
     let p := py_train upd loss below isnan cn delay_h hold_h max_iter st0 in
     pr_state p = state_at upd b st0 (length (pr_hist p))).
Proof.
  intros S F upd loss below isnan cn hold_h delay_h tick st0 max_iter b Hb r. split.
  - apply (rust_summary upd loss below cn hold_h delay_h tick st0 max_iter b Hb).
  - intros Hcn p. apply (py_summary upd loss below isnan cn hold_h delay_h st0 max_iter b Hcn Hb).
Qed.
Print Assumptions C15_schedule.
Example C15_schedule_example := C15_schedule nat nat (fun (hold : bool) s => if hold then s else s + 1) (fun s => s) (fun _ _ => false) (fun _ => false) 10 true 2 (fun _ => false) 0 5
  (hold_at true 2) (hold_at_held_iff true 2).

(** With hold_h off the value of delay_h is irrelevant. *)
Theorem C15_delay_needs_hold :
  forall (S F : Type) (upd : bool -> S -> S) (loss : S -> F) (below : F -> F -> bool)
    (isnan : S -> bool) (cn : Z) (delay_h delay_h' : Z) (tick : nat -> bool)
    (st0 : S) (max_iter : Z),
    rust_train upd loss below cn false delay_h tick max_iter st0
    = rust_train upd loss below cn false delay_h' tick max_iter st0 /\
    py_train upd loss below isnan cn delay_h false max_iter st0
    = py_train upd loss below isnan cn delay_h' false max_iter st0.
Proof.
  intros S F upd loss below isnan cn d d' tick st0 max_iter. split.
  - apply rust_loop_delay.
  - apply py_loop_delay.
Qed.
Print Assumptions C15_delay_needs_hold.
Example C15_delay_needs_hold_example :=
  C15_delay_needs_hold nat nat (fun hold s => if hold then s else S s) (fun s => 10 - s) (fun a b => Nat.ltb (a - b) 1)
    (fun _ => false) 3 2 7 (fun _ => false) 0 20.

(** delay_h = 2: iterations 0, 1, 2 are held, the update starts at index 3. *)
Example C15_instance :
  rr_hist (rust_train (fun (hold : bool) s => if hold then s else s + 1) (fun s => s)
    (fun _ _ => false) 10 true 2 (fun _ => false) 5 0) = [0; 0; 0; 1; 2].
Proof. reflexivity. Qed.

(** C16 *)
Theorem C16_engines_agree :
  forall (S F : Type) (upd : bool -> S -> S) (loss : S -> F) (below : F -> F -> bool)
    (isnan : S -> bool) (cn delay_h : Z) (hold_h : bool) (tick : nat -> bool) (st0 : S)
    (max_iter : Z),
    (1 <= cn)%Z ->
    let holds := hold_at hold_h delay_h in
    let q := loss_at upd loss holds st0 in
    (forall i, isnan (state_at upd holds st0 (Datatypes.S i)) = false) ->
    ~ first_such (criterion below cn q) (span cn) ->
    let r := rust_train upd loss below cn hold_h delay_h tick max_iter st0 in
    let p := py_train upd loss below isnan cn delay_h hold_h max_iter st0 in
    pr_state p = rr_state r /\ pr_hist p = rr_hist r /\
    (pr_stop p = PConverged <-> rr_conv r = true) /\
    (pr_stop p = PConverged \/ pr_stop p = PDone) /\
    (rr_conv r = true -> pr_steps p = rr_ci r) /\
    (rr_conv r = false -> pr_steps p = Z.to_nat max_iter /\ rr_ci r = Z.to_nat max_iter - 1).
Proof. intros. apply engines_agree; assumption. Qed.
Print Assumptions C16_engines_agree.
(** Halving from 20 with window 3: the first possible stop is not used (10 - 2 is not below 3). *)
Example C16_engines_agree_example := C16_engines_agree nat nat (fun (_ : bool) s => Nat.div2 s) (fun s => s) (fun a b => Nat.ltb (a - b) 3) (fun _ => false) 3 0 false (fun _ => false) 20 100
  ltac:(lia) (fun _ => eq_refl) ltac:(intros [C _]; destruct C as [_ C]; discriminate C).

Theorem C16_engines_differ :
  forall (S F : Type) (upd : bool -> S -> S) (loss : S -> F) (below : F -> F -> bool)
    (isnan : S -> bool) (cn delay_h : Z) (hold_h : bool) (tick : nat -> bool) (st0 : S)
    (max_iter : Z),
    (1 <= cn)%Z ->
    let holds := hold_at hold_h delay_h in
    let q := loss_at upd loss holds st0 in
    (forall i, isnan (state_at upd holds st0 (Datatypes.S i)) = false) ->
    criterion below cn q (span cn) -> (cn < max_iter)%Z ->
    let r := rust_train upd loss below cn hold_h delay_h tick max_iter st0 in
    let p := py_train upd loss below isnan cn delay_h hold_h max_iter st0 in
    length (rr_hist r) = Z.to_nat cn /\ length (rr_hist r) < length (pr_hist p).
Proof. intros S F upd loss below isnan cn delay_h hold_h tick st0 max_iter Hc holds q. apply engines_differ. exact Hc. Qed.
Print Assumptions C16_engines_differ.
Example C16_engines_differ_example := C16_engines_differ nat nat (fun (_ : bool) s => Nat.div2 s) (fun s => s) (fun a b => Nat.ltb (a - b) 9) (fun _ => false) 3 0 false (fun _ => false) 20 100
  ltac:(lia) (fun _ => eq_refl) ltac:(split; [apply Nat.le_refl|reflexivity]) ltac:(lia).

Theorem C16_python_index_error :
  forall (S F : Type) (upd : bool -> S -> S) (loss : S -> F) (below : F -> F -> bool)
    (isnan : S -> bool) (cn delay_h : Z) (hold_h : bool) (st0 : S) (max_iter : Z),
    (cn <= 0)%Z -> (0 < max_iter)%Z -> isnan (upd hold_h st0) = false ->
    pr_stop (py_train upd loss below isnan cn delay_h hold_h max_iter st0) = PIndexError.
Proof.
  intros S F upd loss below isnan cn delay_h hold_h st0 max_iter Hc Hm Hn.
  apply py_train_nonpos; try assumption. cbn [state_at].
  replace (hold_at hold_h delay_h 0) with hold_h; [exact Hn|].
  unfold hold_at. destruct hold_h; cbn; [|reflexivity].
  destruct (Z.ltb_spec 0 delay_h), (Z.ltb_spec delay_h 0); cbn; try reflexivity; lia.
Qed.
Print Assumptions C16_python_index_error.
Example C16_python_index_error_example := C16_python_index_error nat nat (fun (_ : bool) s => Nat.div2 s) (fun s => s) (fun a b => Nat.ltb (a - b) 9) (fun _ => false) 0 0 false 20 100
  ltac:(lia) ltac:(lia) eq_refl.

(** Both engines, window 3, losses 10 5 2 1 0: with tolerance 3 both stop at the
    same place; with tolerance 9 the compiled engine stops at index 2, the
    Python engine at index 3. *)
Example C16_instance :
  let go b := rust_train (fun (_ : bool) s => Nat.div2 s) (fun s => s) b 3 false 0 (fun _ => false) 100 20 in
  let py b := py_train (fun (_ : bool) s => Nat.div2 s) (fun s => s) b (fun _ => false) 3 0 false 100 20 in
  (rr_hist (go (fun a b => Nat.ltb (a - b) 3)) = [10; 5; 2; 1; 0] /\
   pr_hist (py (fun a b => Nat.ltb (a - b) 3)) = [10; 5; 2; 1; 0] /\
   rr_hist (go (fun a b => Nat.ltb (a - b) 9)) = [10; 5; 2] /\
   pr_hist (py (fun a b => Nat.ltb (a - b) 9)) = [10; 5; 2; 1]).
Proof. repeat split. Qed.

(** C17 *)
Theorem C17_python_status_accumulates :
  forall (S F : Type) (calls : list (presult S F)),
    let s := fold_left (fun s r => py_status r s) calls status0 in
    (s_converged s = true <-> exists r, In r calls /\ pr_stop r = PConverged) /\
    s_steps s = fold_right Z.add 0%Z (map (fun r => Z.of_nat (pr_steps r)) calls).
Proof.
  intros S F calls s. destruct (py_status_history calls status0) as [A B].
  fold s in A, B. cbn [status0 s_converged s_steps orb] in A, B. split.
  - rewrite A, existsb_exists. split; intros (r & Hr & Hs); exists r; split; auto.
    + destruct (pr_stop r); try discriminate. reflexivity.
    + rewrite Hs. reflexivity.
  - rewrite B. lia.
Qed.
Print Assumptions C17_python_status_accumulates.
Example C17_python_status_accumulates_example :=
  let run start := py_train (fun (_ : bool) s => S s) (fun s => 10 - s) (fun a b => Nat.ltb (a - b) 1) (fun _ => false) 3 2 false 20 start in
  C17_python_status_accumulates nat nat [run 0; run 5; run 9].

Theorem C17_compiled_status_is_last_call :
  forall (S F : Type) (calls : list (rresult S F)) (r : rresult S F) (s : status),
    let s' := fold_left (fun s r => rust_status r s) (calls ++ [r]) s in
    s_converged s' = rr_conv r /\ s_steps s' = Z.of_nat (rr_ci r).
Proof.
  intros S F calls r s s'. unfold s'. rewrite rust_status_history. split; reflexivity.
Qed.
Print Assumptions C17_compiled_status_is_last_call.
Example C17_compiled_status_is_last_call_example :=
  let run start := rust_train (fun (_ : bool) s => S s) (fun s => 10 - s) (fun a b => Nat.ltb (a - b) 1) 3 false 2 (fun _ => false) 20 start in
  C17_compiled_status_is_last_call nat nat [run 0; run 5] (run 9) status0.

(** A converged call of 3 steps followed by an unconverged one of 2. *)
Example C17_instance :
  fold_left (fun s r => py_status r s)
    [mkP 0 PConverged [5; 4; 3; 3] 3; mkP 0 PDone [7; 6] 2] status0 = mkStatus true 5 /\
  fold_left (fun s r => rust_status r s)
    [mkR 0 (Some 3) true 3 [5; 4; 3; 3] []; mkR 0 (Some 6) false 1 [7; 6] []] status0 = mkStatus false 1.
Proof. split; reflexivity. Qed.

(** C60: LS-NMF in exact arithmetic always meets the convergence criterion:
    with K windows such that Q0 < K * delta, training converges before
    iteration K * (converge_n - 1), whatever the hold schedule. *)
Theorem C60_ls_nmf_always_converges :
  forall (m n k : nat) (V U : mat) (delta : R) (cn : Z) (hold_h : bool) (delay_h : Z) (W H : mat)
    (tick : nat -> bool) (max_iter : Z) (K : nat),
    0 < m -> 0 < n -> 0 < k ->
    mall m n (fun x => 0 <= x)%R V -> no_empty m n V -> mall m n (fun u => u <> 0%R) U ->
    mall m k (fun x => 0 < x)%R W -> mall k n (fun x => 0 < x)%R H ->
    (0 < delta)%R ->
    (q_loss m n k true V U W H < INR K * delta)%R ->
    (Z.of_nat (K * span cn) < max_iter)%Z ->
    let r := ls_rust_train m n k V U delta cn hold_h delay_h tick max_iter W H in
    rr_conv r = true /\ rr_ci r <= K * span cn /\
    exists W' H', rr_state r = Some (W', H') /\
      mall m k (fun x => 0 < x)%R W' /\ mall k n (fun x => 0 < x)%R H' /\
      rr_q r = Some (Fin (q_loss m n k true V U W' H')) /\
      (q_loss m n k true V U W' H' <= q_loss m n k true V U W H)%R.
Proof. intros. apply ls_rust_converges; assumption. Qed.
Print Assumptions C60_ls_nmf_always_converges.
Definition xt_V : mat := fun i j => INR (i + j).
Definition xt_one : mat := fun _ _ => 1%R.
Lemma xt_V_nn : mall 2 2 (fun x => 0 <= x)%R xt_V.
Proof. intros i j _ _. apply pos_INR. Qed.
Lemma xt_V_full : no_empty 2 2 xt_V.
Proof. split; intros i Hi; exists 1; (split; [lia|]); apply lt_0_INR; lia. Qed.
Lemma xt_one_pos m n : mall m n (fun x => 0 < x)%R xt_one.
Proof. intros i j _ _. unfold xt_one. lra. Qed.
Lemma xt_one_nz m n : mall m n (fun x => x <> 0)%R xt_one.
Proof. intros i j _ _. unfold xt_one. lra. Qed.
Lemma xt_q : (q_loss 2 2 1 true xt_V xt_one xt_one xt_one < INR 3 * 1)%R.
Proof. unfold q_loss, resid, mmul, msum, xt_V, xt_one. cbn. lra. Qed.
Example C60_ls_nmf_always_converges_example := C60_ls_nmf_always_converges 2 2 1 xt_V xt_one 1%R 10 false 0 xt_one xt_one (fun _ => false) 28 3
  ltac:(lia) ltac:(lia) ltac:(lia) xt_V_nn xt_V_full (xt_one_nz 2 2) (xt_one_pos 2 1) (xt_one_pos 1 2) ltac:(lra) xt_q ltac:(reflexivity).

Theorem C60_python_ls_nmf_always_converges :
  forall (m n k : nat) (V U : mat) (delta : R) (cn : Z) (hold_h : bool) (delay_h : Z) (W H : mat)
    (max_iter : Z) (K : nat),
    0 < m -> 0 < n -> 0 < k ->
    mall m n (fun x => 0 <= x)%R V -> no_empty m n V -> mall m n (fun u => u <> 0%R) U ->
    mall m k (fun x => 0 < x)%R W -> mall k n (fun x => 0 < x)%R H ->
    (0 < delta)%R -> (1 <= cn)%Z ->
    (q_loss m n k true V U W H < INR K * delta)%R ->
    (Z.of_nat (K * span cn) + 1 < max_iter)%Z ->
    let r := ls_py_train m n k V U delta cn delay_h hold_h max_iter W H in
    pr_stop r = PConverged /\ pr_steps r <= K * span cn + 1.
Proof. intros. apply ls_py_converges; assumption. Qed.
Print Assumptions C60_python_ls_nmf_always_converges.
Example C60_python_ls_nmf_always_converges_example := C60_python_ls_nmf_always_converges 2 2 1 xt_V xt_one 1%R 10 false 0 xt_one xt_one 29 3
  ltac:(lia) ltac:(lia) ltac:(lia) xt_V_nn xt_V_full (xt_one_nz 2 2) (xt_one_pos 2 1) (xt_one_pos 1 2) ltac:(lra) ltac:(lia) xt_q ltac:(reflexivity).

Example C60_instance :
  let V := (fun i j => INR (i + j)) : mat in
  let One := (fun _ _ => 1%R) : mat in
  mall 2 2 (fun x => 0 <= x)%R V /\ no_empty 2 2 V /\
  (q_loss 2 2 1 true V One One One < INR 3 * 1)%R /\ (Z.of_nat (3 * span 10) < 28)%Z.
Proof.
  intros V One. split; [intros i j _ _; apply pos_INR|]. split.
  - split; [intros i Hi|intros j Hj]; exists 1; (split; [lia|]); unfold V; apply lt_0_INR; lia.
  - split; [|reflexivity]. unfold q_loss, msum, resid, mmul, V, One. cbn. lra.
Qed.

(** C61: the progress callback gets exactly one "completed" event, the last
    one, carrying the final iteration and loss. *)
Theorem C61_completed_event_once_last :
  forall (S F : Type) (upd : bool -> S -> S) (loss : S -> F) (below : F -> F -> bool)
    (cn : Z) (hold_h : bool) (delay_h : Z) (tick : nat -> bool) (st0 : S) (max_iter : Z),
    (0 < max_iter)%Z ->
    let r := rust_train upd loss below cn hold_h delay_h tick max_iter st0 in
    exists es e, rr_events r = es ++ [e] /\ ev_completed e = true /\
      (forall x, In x es -> ev_completed x = false) /\
      ev_i e = rr_ci r /\ rr_q r = Some (ev_q e).
Proof.
  intros S F upd loss below cn hold_h delay_h tick st0 max_iter Hm r.
  apply rust_loop_events; [lia|]. intros e [].
Qed.
Print Assumptions C61_completed_event_once_last.
Example C61_completed_event_once_last_example := C61_completed_event_once_last nat nat (fun (_ : bool) s => Nat.div2 s) (fun s => s)
    (fun a b => Nat.ltb (a - b) 2) 2 false 0 (fun i => i =? 1) 20 100 ltac:(lia).

Example C61_instance :
  rr_events (rust_train (fun (_ : bool) s => Nat.div2 s) (fun s => s)
    (fun a b => Nat.ltb (a - b) 2) 2 false 0 (fun i => i =? 1) 100 20)
  = [mkEvent 1 5 false; mkEvent 3 1 true].
Proof. reflexivity. Qed.
