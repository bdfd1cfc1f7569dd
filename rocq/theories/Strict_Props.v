(** C145: stricter and looser stopping settings. *)
From Coq Require Import Reals Lra Lia List Bool ZArith Arith Psatz.
From Verif Require Import Base Fl Metrics_Model Metrics_Spec Metrics_Proofs LSNMF_Model LSNMF_Proofs
  Train_Model Train_Spec Train_Proofs Train_LS WSNMF_Proofs Repeat_Props.
Import ListNotations.
Open Scope R_scope.

Lemma firstn_map_seq {A} (q : nat -> A) n1 n2 : (n2 <= n1)%nat -> firstn n2 (map q (seq 0 n1)) = map q (seq 0 n2).
Proof. intros Hn. rewrite firstn_map. f_equal. replace n1 with (n2 + (n1 - n2))%nat by lia. rewrite seq_app, firstn_app, seq_length, Nat.sub_diag. cbn [firstn]. rewrite app_nil_r, firstn_all2; [reflexivity|rewrite seq_length; lia]. Qed.

Section Rust.
  Context {S F : Type} (upd : bool -> S -> S) (loss : S -> F) (b1 b2 : F -> F -> bool) (cn1 cn2 : Z) (hold_h : bool) (delay_h : Z) (st0 : S).
  Let st := state_at upd (hold_at hold_h delay_h) st0.
  Let q := loss_at upd loss (hold_at hold_h delay_h) st0.
  Context (Imp : forall j, criterion b1 cn1 q j -> criterion b2 cn2 q j).

  Lemma rust_run b cn tick N : let r := rust_train upd loss b cn hold_h delay_h tick N st0 in
    let n := List.length (rr_hist r) in
    (n <= Z.to_nat N)%nat /\ rr_hist r = map q (seq 0 n) /\ rr_state r = st n /\ rr_q r = (if (n =? 0)%nat then None else Some (q (n - 1)%nat)) /\
    (forall l, (Datatypes.S l < n)%nat -> ~ criterion b cn q l) /\ ((n < Z.to_nat N)%nat -> (0 < n)%nat /\ criterion b cn q (n - 1)%nat).
  Proof.
    intros r n. destruct (rust_train_spec upd loss b cn hold_h delay_h tick st0 N) as [(j & Hj & [Hf1 Hf2] & R1 & R2 & R3 & R4 & R5)|(Hno & R1 & R2 & R3 & R4 & R5)].
    - fold r in R1, R2, R3, R4, R5. assert (En : n = Datatypes.S j) by (unfold n; rewrite R5, map_length, seq_length; reflexivity). rewrite En. cbn [Nat.eqb].
      replace (Datatypes.S j - 1)%nat with j by lia. repeat split; try lia; auto. intros l Hl. apply Hf2. lia.
      all: try exact Hf1. all: apply Hf1.
    - fold r in R1, R2, R3, R4, R5. assert (En : n = Z.to_nat N) by (unfold n; rewrite R3, map_length, seq_length; reflexivity). rewrite En.
      repeat split; try lia; auto. intros l Hl. apply Hno. lia.
  Qed.

  Lemma rust_looser tick1 tick2 tick3 N1 N2 : (N2 <= N1)%Z ->
    let r1 := rust_train upd loss b1 cn1 hold_h delay_h tick1 N1 st0 in
    let r2 := rust_train upd loss b2 cn2 hold_h delay_h tick2 N2 st0 in
    let n1 := List.length (rr_hist r1) in let n2 := List.length (rr_hist r2) in
    (n2 <= n1)%nat /\ rr_hist r2 = firstn n2 (rr_hist r1) /\
    rr_state (rust_train upd loss b1 cn1 hold_h delay_h tick3 (Z.of_nat n2) st0) = rr_state r2.
  Proof.
    intros HN r1 r2 n1 n2.
    pose proof (rust_run b1 cn1 tick1 N1) as (A1 & A2 & A3 & A4 & A5 & A6). pose proof (rust_run b2 cn2 tick2 N2) as (B1 & B2 & B3 & B4 & B5 & B6).
    fold r1 in A1, A2, A3, A4, A5, A6. fold n1 in A1, A2, A3, A4, A5, A6. fold r2 in B1, B2, B3, B4, B5, B6. fold n2 in B1, B2, B3, B4, B5, B6.
    assert (Hn : (n2 <= n1)%nat).
    { destruct (Nat.le_gt_cases n2 n1) as [|G]; [assumption|]. exfalso. destruct (A6 ltac:(lia)) as [P C].
      apply (B5 (n1 - 1)%nat ltac:(lia)), Imp, C. }
    split; [exact Hn|]. split; [rewrite A2, firstn_map_seq by exact Hn; exact B2|].
    pose proof (rust_run b1 cn1 tick3 (Z.of_nat n2)) as (C1 & C2 & C3 & C4 & C5 & C6).
    rewrite C3, B3. f_equal. rewrite Nat2Z.id in *.
    destruct (Nat.eq_dec (List.length (rr_hist (rust_train upd loss b1 cn1 hold_h delay_h tick3 (Z.of_nat n2) st0))) n2) as [E|Ne]; [exact E|].
    exfalso. destruct (C6 ltac:(lia)) as [P C]. apply (B5 _) with (2 := Imp _ C). lia.
  Qed.
End Rust.

Section Py.
  Context {S F : Type} (upd : bool -> S -> S) (loss : S -> F) (isnan : S -> bool) (b1 b2 : F -> F -> bool) (cn1 cn2 : Z) (H1 : (1 <= cn1)%Z) (H2 : (1 <= cn2)%Z)
    (hold_h : bool) (delay_h : Z) (st0 : S).
  Let st := state_at upd (hold_at hold_h delay_h) st0.
  Let q := loss_at upd loss (hold_at hold_h delay_h) st0.
  Let stop b cn j := stopb_py upd loss b cn delay_h hold_h st0 j.
  Context (Imp : forall j, stop b1 cn1 j = true -> stop b2 cn2 j = true).

  Lemma py_run b cn N : (1 <= cn)%Z -> let r := py_train upd loss b isnan cn delay_h hold_h N st0 in
    let n := List.length (pr_hist r) in
    (n <= Z.to_nat N)%nat /\ pr_hist r = map q (seq 0 n) /\ pr_state r = st n /\
    (forall l, (Datatypes.S l < n)%nat -> isnan (st (Datatypes.S l)) = false /\ stop b cn l = false) /\
    ((n < Z.to_nat N)%nat -> (0 < n)%nat /\ (isnan (st n) = true \/ stop b cn (n - 1)%nat = true)).
  Proof.
    intros Hc r n. destruct (py_train_spec upd loss b isnan cn delay_h hold_h st0 N Hc) as [(j & Hj & Hb & A & B & C & D)|(Hb & A & B & C & D)].
    - fold r in A, B, C, D. assert (En : n = Datatypes.S j) by (unfold n; rewrite B, map_length, seq_length; reflexivity). rewrite En.
      replace (Datatypes.S j - 1)%nat with j by lia. split; [lia|]. split; [exact B|]. split; [exact A|]. split; [intros l Hl; apply Hb; lia|].
      intros _. split; [lia|]. destruct D as [[D _]|(_ & D & _)]; [left|right]; exact D.
    - fold r in A, B, C, D. assert (En : n = Z.to_nat N) by (unfold n; rewrite B, map_length, seq_length; reflexivity). rewrite En.
      split; [lia|]. split; [exact B|]. split; [exact A|]. split; [intros l Hl; apply Hb; lia|]. intros X. lia.
  Qed.
  Lemma py_looser N1 N2 : (N2 <= N1)%Z ->
    let r1 := py_train upd loss b1 isnan cn1 delay_h hold_h N1 st0 in
    let r2 := py_train upd loss b2 isnan cn2 delay_h hold_h N2 st0 in
    let n1 := List.length (pr_hist r1) in let n2 := List.length (pr_hist r2) in
    (n2 <= n1)%nat /\ pr_hist r2 = firstn n2 (pr_hist r1) /\
    pr_state (py_train upd loss b1 isnan cn1 delay_h hold_h (Z.of_nat n2) st0) = pr_state r2.
  Proof.
    intros HN r1 r2 n1 n2.
    pose proof (py_run b1 cn1 N1 H1) as (A1 & A2 & A3 & A5 & A6). pose proof (py_run b2 cn2 N2 H2) as (B1 & B2 & B3 & B5 & B6).
    fold r1 in A1, A2, A3, A5, A6. fold n1 in A1, A2, A3, A5, A6. fold r2 in B1, B2, B3, B5, B6. fold n2 in B1, B2, B3, B5, B6.
    assert (Cut : forall x, (x < n2)%nat -> (0 < x)%nat /\ (isnan (st x) = true \/ stop b1 cn1 (x - 1)%nat = true) -> False).
    { intros x Hx [P C]. destruct (B5 (x - 1)%nat ltac:(lia)) as [Q1 Q2]. replace (Datatypes.S (x - 1)) with x in Q1 by lia.
      destruct C as [C|C]; [congruence|]. apply Imp in C. congruence. }
    assert (Hn : (n2 <= n1)%nat).
    { destruct (Nat.le_gt_cases n2 n1) as [|G]; [assumption|]. exfalso. apply (Cut n1 G), A6. lia. }
    split; [exact Hn|]. split; [rewrite A2, firstn_map_seq by exact Hn; exact B2|].
    pose proof (py_run b1 cn1 (Z.of_nat n2) H1) as (C1 & C2 & C3 & C5 & C6).
    rewrite C3, B3. f_equal. rewrite Nat2Z.id in *.
    destruct (Nat.eq_dec (List.length (pr_hist (py_train upd loss b1 isnan cn1 delay_h hold_h (Z.of_nat n2) st0))) n2) as [E|Ne]; [exact E|].
    exfalso. assert (X : (List.length (pr_hist (py_train upd loss b1 isnan cn1 delay_h hold_h (Z.of_nat n2) st0)) < n2)%nat) by lia.
    apply (Cut _ X (C6 X)).
  Qed.
End Py.

(** ** C145 *)
(** Whatever is updated and whatever the loss: a larger tolerance or a smaller limit on the
    iterations stops the run earlier on the same path. *)
Theorem C145_looser_stops_earlier :
  forall (S F : Type) (upd : bool -> S -> S) (loss : S -> F) (below1 below2 : F -> F -> bool) (cn : Z) (hold_h : bool) (delay_h : Z)
    (tick1 tick2 tick3 : nat -> bool) (N1 N2 : Z) (st0 : S),
  (forall x y, below1 x y = true -> below2 x y = true) -> (N2 <= N1)%Z ->
  let strict := rust_train upd loss below1 cn hold_h delay_h tick1 N1 st0 in
  let loose := rust_train upd loss below2 cn hold_h delay_h tick2 N2 st0 in
  let n := List.length (rr_hist loose) in
  (n <= List.length (rr_hist strict))%nat /\ rr_hist loose = firstn n (rr_hist strict) /\
  rr_state (rust_train upd loss below1 cn hold_h delay_h tick3 (Z.of_nat n) st0) = rr_state loose.
Proof.
  intros S F upd loss below1 below2 cn hold_h delay_h tick1 tick2 tick3 N1 N2 st0 Hb HN. apply rust_looser; [|exact HN].
  intros j [A B]. split; [exact A|apply Hb, B].
Qed.
Print Assumptions C145_looser_stops_earlier.

Theorem C145_looser_stops_earlier_python :
  forall (S F : Type) (upd : bool -> S -> S) (loss : S -> F) (isnan : S -> bool) (below1 below2 : F -> F -> bool) (cn : Z) (hold_h : bool) (delay_h : Z)
    (N1 N2 : Z) (st0 : S),
  (1 <= cn)%Z -> (forall x y, below1 x y = true -> below2 x y = true) -> (N2 <= N1)%Z ->
  let strict := py_train upd loss below1 isnan cn delay_h hold_h N1 st0 in
  let loose := py_train upd loss below2 isnan cn delay_h hold_h N2 st0 in
  let n := List.length (pr_hist loose) in
  (n <= List.length (pr_hist strict))%nat /\ pr_hist loose = firstn n (pr_hist strict) /\
  pr_state (py_train upd loss below1 isnan cn delay_h hold_h (Z.of_nat n) st0) = pr_state loose.
Proof.
  intros S F upd loss isnan below1 below2 cn hold_h delay_h N1 N2 st0 Hc Hb HN. apply py_looser; try assumption.
  intros j. unfold stopb_py. rewrite !andb_true_iff. intros [A B]. split; [exact A|apply Hb, B].
Qed.
Print Assumptions C145_looser_stops_earlier_python.

(** The tolerance of the engines is such a setting. *)
Lemma fbelow_mono d1 d2 x y : d1 <= d2 -> fbelow d1 x y = true -> fbelow d2 x y = true.
Proof.
  intros Hd. unfold fbelow. destruct (fsub x y) as [r| | |]; try (cbn; auto; fail). rewrite !flt_fin. lra.
Qed.

(** LS-NMF: a smaller tolerance, a longer window and a higher limit never stop earlier and
    never give a worse fit. *)
Theorem C145_stricter_never_worse :
  forall (m n k : nat) (V U W H : mat) (delta1 delta2 : R) (cn1 cn2 : Z) (hold_h : bool) (delay_h : Z) (tick1 tick2 tick3 : nat -> bool) (N1 N2 : Z),
  (0 < m)%nat -> (0 < n)%nat -> (0 < k)%nat ->
  mall m n (fun x => 0 <= x) V -> no_empty m n V -> mall m n (fun u => u <> 0) U ->
  mall m k (fun x => 0 < x) W -> mall k n (fun x => 0 < x) H ->
  delta1 <= delta2 -> (cn2 <= cn1)%Z -> (N2 <= N1)%Z ->
  let strict := ls_rust_train m n k V U delta1 cn1 hold_h delay_h tick1 N1 W H in
  let loose := ls_rust_train m n k V U delta2 cn2 hold_h delay_h tick2 N2 W H in
  let l := List.length (rr_hist loose) in
  (l <= List.length (rr_hist strict))%nat /\ rr_hist loose = firstn l (rr_hist strict) /\
  rr_state (ls_rust_train m n k V U delta1 cn1 hold_h delay_h tick3 (Z.of_nat l) W H) = rr_state loose /\
  ((0 < N2)%Z -> exists x1 x2, rr_q strict = Some (Fin x1) /\ rr_q loose = Some (Fin x2) /\ x1 <= x2).
Proof.
  intros m n k V U W H delta1 delta2 cn1 cn2 hold_h delay_h tick1 tick2 tick3 N1 N2 Hm Hn Hk HV NE HU HW HH Hd Hc HN strict loose l.
  set (q := loss_at (ls_step m n k V U) (ls_loss m n k V U) (hold_at hold_h delay_h) (Some (W, H))).
  set (Q := Qn m n k V U hold_h delay_h W H).
  assert (EQ : forall i, q i = Fin (Q (S i))) by (intros i; apply loss_at_Qn; assumption).
  assert (Mo : forall i j, (i <= j)%nat -> Q j <= Q i) by (intros i j; apply Qn_mono; assumption).
  assert (Imp : forall j, criterion (fbelow delta1) cn1 q j -> criterion (fbelow delta2) cn2 q j).
  { intros j [A B]. assert (Sp : (span cn2 <= span cn1)%nat) by (unfold span; lia). split; [lia|]. rewrite !EQ in B |- *.
    rewrite fbelow_fin in B |- *. pose proof (Mo (S (j - span cn1)) (S (j - span cn2)) ltac:(lia)). lra. }
  destruct (rust_looser (ls_step m n k V U) (ls_loss m n k V U) (fbelow delta1) (fbelow delta2) cn1 cn2 hold_h delay_h (Some (W, H)) Imp tick1 tick2 tick3 N1 N2 HN) as (A & B & C).
  fold (ls_rust_train m n k V U delta1 cn1 hold_h delay_h tick1 N1 W H) in A, B, C.
  fold (ls_rust_train m n k V U delta2 cn2 hold_h delay_h tick2 N2 W H) in A, B, C. fold strict loose in A, B, C. fold l in A, B, C.
  split; [exact A|]. split; [exact B|]. split; [exact C|]. intros P.
  destruct (rust_run (ls_step m n k V U) (ls_loss m n k V U) hold_h delay_h (Some (W, H)) (fbelow delta1) cn1 tick1 N1) as (A1 & _ & _ & A4 & _ & A6).
  destruct (rust_run (ls_step m n k V U) (ls_loss m n k V U) hold_h delay_h (Some (W, H)) (fbelow delta2) cn2 tick2 N2) as (B1 & _ & _ & B4 & _ & B6).
  fold (ls_rust_train m n k V U delta1 cn1 hold_h delay_h tick1 N1 W H) in A1, A4, A6. fold strict in A1, A4, A6. fold q in A4, A6.
  fold (ls_rust_train m n k V U delta2 cn2 hold_h delay_h tick2 N2 W H) in B1, B4, B6. fold loose in B1, B4, B6. fold l in B1, B4, B6. fold q in B4, B6.
  assert (L0 : (0 < l)%nat) by (destruct (Nat.lt_ge_cases l (Z.to_nat N2)) as [X|X]; [apply B6, X|lia]).
  destruct (Nat.eqb_spec l 0) as [X|_]; [lia|]. destruct (Nat.eqb_spec (List.length (rr_hist strict)) 0) as [X|_]; [lia|].
  rewrite EQ in A4, B4. eexists. eexists. split; [exact A4|]. split; [exact B4|]. apply Mo. lia.
Qed.
Print Assumptions C145_stricter_never_worse.

Theorem C145_stricter_never_worse_python :
  forall (m n k : nat) (V U W H : mat) (delta1 delta2 : R) (cn1 cn2 : Z) (hold_h : bool) (delay_h : Z) (N1 N2 : Z),
  (0 < m)%nat -> (0 < n)%nat -> (0 < k)%nat ->
  mall m n (fun x => 0 <= x) V -> no_empty m n V -> mall m n (fun u => u <> 0) U ->
  mall m k (fun x => 0 < x) W -> mall k n (fun x => 0 < x) H ->
  delta1 <= delta2 -> (1 <= cn2 <= cn1)%Z -> (N2 <= N1)%Z ->
  let strict := ls_py_train m n k V U delta1 cn1 delay_h hold_h N1 W H in
  let loose := ls_py_train m n k V U delta2 cn2 delay_h hold_h N2 W H in
  let l := List.length (pr_hist loose) in
  (l <= List.length (pr_hist strict))%nat /\ pr_hist loose = firstn l (pr_hist strict) /\
  exists W1 H1 W2 H2, pr_state strict = Some (W1, H1) /\ pr_state loose = Some (W2, H2) /\
    q_loss m n k true V U W1 H1 <= q_loss m n k true V U W2 H2.
Proof.
  intros m n k V U W H delta1 delta2 cn1 cn2 hold_h delay_h N1 N2 Hm Hn Hk HV NE HU HW HH Hd Hc HN strict loose l.
  set (q := loss_at (ls_step m n k V U) (ls_loss m n k V U) (hold_at hold_h delay_h) (Some (W, H))).
  set (Q := Qn m n k V U hold_h delay_h W H).
  assert (EQ : forall i, q i = Fin (Q (S i))) by (intros i; apply loss_at_Qn; assumption).
  assert (Mo : forall i j, (i <= j)%nat -> Q j <= Q i) by (intros i j; apply Qn_mono; assumption).
  assert (Imp : forall j, stopb_py (ls_step m n k V U) (ls_loss m n k V U) (fbelow delta1) cn1 delay_h hold_h (Some (W, H)) j = true ->
    stopb_py (ls_step m n k V U) (ls_loss m n k V U) (fbelow delta2) cn2 delay_h hold_h (Some (W, H)) j = true).
  { intros j. unfold stopb_py. fold q. rewrite !andb_true_iff, !Nat.leb_le, !EQ, !fbelow_fin. intros [A B]. split; [lia|].
    pose proof (Mo (S (j - (Z.to_nat cn1 - 1))) (S (j - (Z.to_nat cn2 - 1))) ltac:(lia)). lra. }
  set (isnan := fun o => is_nan (ls_loss m n k V U o)).
  destruct (py_looser (ls_step m n k V U) (ls_loss m n k V U) isnan (fbelow delta1) (fbelow delta2) cn1 cn2 ltac:(lia) ltac:(lia) hold_h delay_h (Some (W, H)) Imp N1 N2 HN) as (A & B & _).
  unfold isnan in A, B.
  fold (ls_py_train m n k V U delta1 cn1 delay_h hold_h N1 W H) in A, B.
  fold (ls_py_train m n k V U delta2 cn2 delay_h hold_h N2 W H) in A, B. fold strict loose in A, B. fold l in A, B.
  split; [exact A|]. split; [exact B|].
  destruct (py_run (ls_step m n k V U) (ls_loss m n k V U) isnan hold_h delay_h (Some (W, H)) (fbelow delta1) cn1 N1 ltac:(lia)) as (_ & _ & A3 & _).
  destruct (py_run (ls_step m n k V U) (ls_loss m n k V U) isnan hold_h delay_h (Some (W, H)) (fbelow delta2) cn2 N2 ltac:(lia)) as (_ & _ & B3 & _).
  unfold isnan in A3, B3.
  fold (ls_py_train m n k V U delta1 cn1 delay_h hold_h N1 W H) in A3. fold strict in A3.
  fold (ls_py_train m n k V U delta2 cn2 delay_h hold_h N2 W H) in B3. fold loose in B3. fold l in B3.
  rewrite state_at_iter in A3, B3.
  destruct (iter_pos m n k V U hold_h delay_h W H Hm Hn Hk HV NE HU HW HH (List.length (pr_hist strict))) as (W1 & H1 & E1 & _).
  destruct (iter_pos m n k V U hold_h delay_h W H Hm Hn Hk HV NE HU HW HH l) as (W2 & H2 & E2 & _).
  rewrite E1 in A3. rewrite E2 in B3. exists W1, H1, W2, H2. split; [exact A3|]. split; [exact B3|].
  pose proof (Mo l (List.length (pr_hist strict)) A) as X. unfold Q, Qn in X. rewrite E1, E2 in X. exact X.
  all: try assumption.
Qed.
Print Assumptions C145_stricter_never_worse_python.

(** A loss that does not fall all the time: there a longer window may stop earlier.  The
    states are the iteration numbers. *)
Definition zig (i : nat) : fl := Fin (nth i [0; 5; 9; 1; 5; 0] 0).
Lemma zig_at i : loss_at (fun _ => S) zig (hold_at false (-1)) 0%nat i = zig (S i).
Proof.
  unfold loss_at. f_equal. cut (forall x, state_at (fun _ : bool => S) (hold_at false (-1)) 0%nat x = x); [intros ->; reflexivity|].
  induction x as [|x IH]; [reflexivity|]. cbn [state_at]. rewrite IH. reflexivity.
Qed.
Theorem C145_longer_window_refuted :
  exists (S : Type) (upd : bool -> S -> S) (loss : S -> fl) (st0 : S) (delta : R) (cn1 cn2 : Z) (N : Z),
    0 < delta /\ (1 <= cn2 <= cn1)%Z /\
    (List.length (rr_hist (rust_train upd loss (fbelow delta) cn1 false (-1) (fun _ => false) N st0))
     < List.length (rr_hist (rust_train upd loss (fbelow delta) cn2 false (-1) (fun _ => false) N st0)))%nat.
Proof.
  exists nat, (fun _ => S), zig, 0%nat, 1, 4%Z, 3%Z, 5%Z. split; [lra|]. split; [lia|].
  destruct (rust_run (fun _ => S) zig false (-1) 0%nat (fbelow 1) 4 (fun _ => false) 5) as (_ & _ & _ & _ & A5 & _).
  destruct (rust_run (fun _ => S) zig false (-1) 0%nat (fbelow 1) 3 (fun _ => false) 5) as (B1 & _ & _ & _ & _ & B6).
  set (n1 := List.length (rr_hist (rust_train _ _ _ 4 _ _ _ _ _))) in *. set (n2 := List.length (rr_hist (rust_train _ _ _ 3 _ _ _ _ _))) in *.
  assert (L1 : (n1 <= 4)%nat).
  { destruct (Nat.le_gt_cases n1 4) as [|G]; [assumption|]. exfalso. apply (A5 3%nat G). split; [cbn; lia|]. rewrite !zig_at. unfold zig. apply fbelow_fin. change (span 4) with 3%nat. cbn [nth Nat.sub]. lra. }
  assert (L2 : (5 <= n2)%nat).
  { destruct (Nat.le_gt_cases 5 n2) as [|G]; [assumption|]. exfalso. destruct (B6 ltac:(exact G)) as [P [C1 C2]]. rewrite !zig_at in C2. unfold zig in C2. apply fbelow_fin in C2.
    change (span 3) with 2%nat in C1, C2. destruct n2 as [|[|[|[|[|x]]]]]; try lia; cbn [nth Nat.sub] in C2; lra. }
  lia.
Qed.
Print Assumptions C145_longer_window_refuted.

(** Tolerance a tenth of the loose one, window twice as long. *)
Example C145_instance :
  mall 3 2 (fun x => 0 <= x) rp_V /\ no_empty 3 2 rp_V /\ mall 3 2 (fun u => u <> 0) rp_U /\ mall 3 2 (fun x => 0 < x) One /\
  fbelow (1 / 100) (Fin 3) (Fin 3) = true /\ fbelow (1 / 10) (Fin 3) (Fin (29 / 10 + 1 / 20)) = true /\ fbelow (1 / 100) (Fin 3) (Fin (29 / 10 + 1 / 20)) = false.
Proof.
  split; [intros i j _ _; apply pos_INR|]. split; [split; intros i Hi; exists 0%nat; (split; [lia|unfold rp_V; apply lt_0_INR; lia])|].
  split; [intros i j _ _; unfold rp_U; apply not_0_INR; lia|]. split; [intros i j _ _; unfold One; lra|].
  split; [apply fbelow_fin; lra|]. split; [apply fbelow_fin; lra|].
  destruct (fbelow (1 / 100) (Fin 3) (Fin (29 / 10 + 1 / 20))) eqn:E; [|reflexivity]. apply fbelow_fin in E. lra.
Qed.

Lemma xst_below x y : fbelow (1 / 100) x y = true -> fbelow (1 / 10) x y = true.
Proof. destruct x as [a| | |], y as [b| | |]; cbn; try discriminate; auto. intros E. apply Rltb_iff in E. apply Rltb_iff. lra. Qed.
Example C145_looser_stops_earlier_example :=
  C145_looser_stops_earlier nat fl (fun _ i => S i) (fun i => Fin (/ INR i)) (fbelow (1 / 100)) (fbelow (1 / 10)) 3 false (-1) (fun _ => false) (fun _ => true) (fun _ => false) 90 50 1%nat
    xst_below ltac:(lia).
Example C145_looser_stops_earlier_python_example :=
  C145_looser_stops_earlier_python nat fl (fun _ i => S i) (fun i => Fin (/ INR i)) (fun _ => false) (fbelow (1 / 100)) (fbelow (1 / 10)) 3 false (-1) 90 50 1%nat
    ltac:(lia) xst_below ltac:(lia).
Lemma xst_one m n : mall m n (fun x => 0 < x) One.
Proof. intros i j _ _. unfold One. lra. Qed.
Example C145_stricter_never_worse_example :=
  C145_stricter_never_worse 3 2 2 rp_V rp_U One One (1 / 100) (1 / 10) 5 2 false (-1) (fun _ => false) (fun _ => true) (fun _ => false) 90 50 ltac:(lia) ltac:(lia) ltac:(lia)
    (proj1 C145_instance) (proj1 (proj2 C145_instance)) (proj1 (proj2 (proj2 C145_instance))) (xst_one 3 2) (xst_one 2 2) ltac:(lra) ltac:(lia) ltac:(lia).
Example C145_stricter_never_worse_python_example :=
  C145_stricter_never_worse_python 3 2 2 rp_V rp_U One One (1 / 100) (1 / 10) 5 2 false (-1) 90 50 ltac:(lia) ltac:(lia) ltac:(lia)
    (proj1 C145_instance) (proj1 (proj2 C145_instance)) (proj1 (proj2 (proj2 C145_instance))) (xst_one 3 2) (xst_one 2 2) ltac:(lra) ltac:(lia) ltac:(lia).
