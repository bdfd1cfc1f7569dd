(** C154: training in several calls, each starting where the one before ended.
    sa.py:403-464: the pure Python engine reads self.W and self.H at the start of a call
    and leaves its result there, so a second call to train carries on; the window of
    losses and the iteration number start afresh (431, 434).  rust/lib.rs:299-408 does
    the same when it is handed the matrices it returned. *)
From Coq Require Import Reals Lra Lia List Bool ZArith Arith Psatz.
From Verif Require Import Base Fl Metrics_Model Metrics_Spec Metrics_Proofs LSNMF_Model LSNMF_Proofs
  Train_Model Train_Spec Train_Proofs Train_LS WSNMF_Proofs Repeat_Props Strict_Props
  Layout_Model Layout_Proofs SA_Model SA_Proofs SA_Props Pipeline_Model Pipeline_Spec Pipeline_Proofs Pipeline_Props.
Import ListNotations.
Open Scope R_scope.

(** The calls one after another: all the losses in order, and the last state. *)
Fixpoint instalments {S F : Type} (call : Z -> S -> list F * S) (Ns : list Z) (st : S) : list F * S :=
  match Ns with
  | [] => ([], st)
  | N :: rest => let '(h, st1) := call N st in let '(h', st2) := instalments call rest st1 in (h ++ h', st2)
  end.

(** One call of either engine, seen from outside. *)
Definition py_call {S F} (upd : bool -> S -> S) (loss : S -> F) below isnan cn delay_h hold_h (N : Z) (st : S) : list F * S :=
  let r := py_train upd loss below isnan cn delay_h hold_h N st in (pr_hist r, pr_state r).
Definition rust_call {S F} (upd : bool -> S -> S) (loss : S -> F) below cn hold_h delay_h tick (N : Z) (st : S) : list F * S :=
  let r := rust_train upd loss below cn hold_h delay_h tick N st in (rr_hist r, rr_state r).

Definition total (Ns : list Z) : nat := fold_right (fun N t => (Z.to_nat N + t)%nat) 0%nat Ns.

(** The profiles are free all the time, or held all the time. *)
Definition steady (hold_h : bool) (delay_h : Z) : Prop := hold_h = false \/ (delay_h <= 0)%Z.

Lemma steady_hold hold_h delay_h i : steady hold_h delay_h -> hold_at hold_h delay_h i = hold_h.
Proof.
  intros St. destruct (hold_at hold_h delay_h i) eqn:E.
  - symmetry. apply hold_at_held_iff in E. destruct E as [E _]. exact E.
  - destruct hold_h; [|reflexivity]. rewrite <- E. apply hold_at_held_iff. split; [reflexivity|]. destruct St as [St|St]; [discriminate|left; exact St].
Qed.

Lemma steady_iter {S} (upd : bool -> S -> S) hold_h delay_h st0 i : steady hold_h delay_h -> state_at upd (hold_at hold_h delay_h) st0 i = Nat.iter i (upd hold_h) st0.
Proof. intros Hs. induction i as [|i IH]; [reflexivity|]. cbn [state_at Nat.iter]. rewrite IH, steady_hold by exact Hs. reflexivity. Qed.
Lemma seq_plus a n : forall b, map (fun i => (a + i)%nat) (seq b n) = seq (a + b) n.
Proof. induction n as [|n IH]; intros b; [reflexivity|]. cbn [seq map]. rewrite IH, Nat.add_succ_r. reflexivity. Qed.

Section Shift.
  Context {S F : Type} (upd : bool -> S -> S) (loss : S -> F) (hold_h : bool) (delay_h : Z) (Hs : steady hold_h delay_h).
  Let st s := state_at upd (hold_at hold_h delay_h) s.
  Let q s := loss_at upd loss (hold_at hold_h delay_h) s.

  Lemma st_shift s a i : st (st s a) i = st s (a + i)%nat.
  Proof.
    unfold st. induction i as [|i IH]; [rewrite Nat.add_0_r; reflexivity|]. rewrite Nat.add_succ_r. cbn [state_at].
    rewrite IH, !steady_hold by exact Hs. reflexivity.
  Qed.
  Lemma q_shift s a i : q (st s a) i = q s (a + i)%nat.
  Proof.
    unfold q, loss_at. change (loss (st (st s a) (Datatypes.S i)) = loss (st s (Datatypes.S (a + i)))). rewrite st_shift.
    rewrite Nat.add_succ_r. reflexivity.
  Qed.
  Lemma hist_shift s a n : map (q s) (seq 0 a) ++ map (q (st s a)) (seq 0 n) = map (q s) (seq 0 (a + n)).
  Proof.
    rewrite seq_app, map_app. f_equal. cbn [Nat.add]. transitivity (map (fun i => q s (a + i)%nat) (seq 0 n)).
    - apply map_ext. intros i. apply q_shift.
    - rewrite <- (map_map (fun i => (a + i)%nat) (q s)). f_equal. rewrite seq_plus, Nat.add_0_r. reflexivity.
  Qed.
End Shift.

(** What both engines have in common: a call runs until [halt] says so or its limit is
    reached, and [halt] forgets what happened before the call. *)
Section Common.
  Context {S F : Type} (upd : bool -> S -> S) (loss : S -> F) (hold_h : bool) (delay_h : Z) (Hs : steady hold_h delay_h).
  Let st s := state_at upd (hold_at hold_h delay_h) s.
  Let q s := loss_at upd loss (hold_at hold_h delay_h) s.
  Context (halt : S -> nat -> Prop) (call : Z -> S -> list F * S).
  Context (Hshift : forall s a i, halt (st s a) i -> halt s (a + i)%nat).
  Context (Hcall : forall N s, let n := List.length (fst (call N s)) in
    (n <= Z.to_nat N)%nat /\ fst (call N s) = map (q s) (seq 0 n) /\ snd (call N s) = st s n /\
    (forall l, (Datatypes.S l < n)%nat -> ~ halt s l) /\ ((n < Z.to_nat N)%nat -> (0 < n)%nat /\ halt s (n - 1)%nat)).

  Lemma instal_run Ns : forall s, let r := instalments call Ns s in let n := List.length (fst r) in
    (n <= total Ns)%nat /\ fst r = map (q s) (seq 0 n) /\ snd r = st s n /\
    ((n < total Ns)%nat -> exists p, (p < n)%nat /\ halt s p) /\
    ((forall a N x, In N Ns -> (x < Z.to_nat N)%nat -> ~ halt (st s a) x) -> n = total Ns).
  Proof.
    induction Ns as [|N Ns IH]; intros s; cbn [instalments total fold_right fst snd List.length].
    - split; [lia|]. split; [reflexivity|]. split; [reflexivity|]. split; [lia|reflexivity].
    - fold (total Ns). pose proof (Hcall N s) as (A1 & A2 & A3 & A4 & A5). destruct (call N s) as [h s1]. cbn [fst snd] in *.
      specialize (IH s1). cbv zeta in IH. destruct (instalments call Ns s1) as [h' s2]. cbn [fst snd] in *. destruct IH as (B1 & B2 & B3 & B4 & B5).
      rewrite app_length. set (a := List.length h) in *. set (c := List.length h') in *.
      split; [lia|]. split; [rewrite A2, B2, A3; apply hist_shift; exact Hs|]. split; [rewrite B3, A3; apply st_shift; exact Hs|]. split.
      + intros Hlt. destruct (Nat.lt_ge_cases a (Z.to_nat N)) as [G|G].
        * destruct (A5 G) as [P Q]. exists (a - 1)%nat. split; [lia|exact Q].
        * destruct (B4 ltac:(lia)) as (p & Hp & Q). rewrite A3 in Q. exists (a + p)%nat. split; [lia|apply Hshift, Q].
      + intros Never. assert (Ea : a = Z.to_nat N).
        { destruct (Nat.lt_ge_cases a (Z.to_nat N)) as [G|G]; [|lia]. destruct (A5 G) as [P Q]. exfalso. apply (Never 0%nat N (a - 1)%nat); [left; reflexivity|lia|exact Q]. }
        rewrite Ea. f_equal. apply B5. intros a' N' x Hin. rewrite A3. unfold st. rewrite st_shift by exact Hs. apply Never. right. exact Hin.
  Qed.

  Lemma instal_one Ns s : let r := instalments call Ns s in let one := call (Z.of_nat (total Ns)) s in let n := List.length (fst one) in
    (n <= List.length (fst r) <= total Ns)%nat /\ fst one = firstn n (fst r) /\ (n = List.length (fst r) -> r = one).
  Proof.
    intros r one n. destruct (instal_run Ns s) as (A1 & A2 & A3 & A4 & _). fold r in A1, A2, A3, A4. set (l := List.length (fst r)) in *.
    pose proof (Hcall (Z.of_nat (total Ns)) s) as (B1 & B2 & B3 & B4 & B5). fold one in B1, B2, B3, B4, B5. fold n in B1, B2, B3, B4, B5. rewrite Nat2Z.id in *.
    assert (Hn : (n <= l)%nat).
    { destruct (Nat.le_gt_cases n l) as [|G]; [assumption|]. exfalso. destruct (A4 ltac:(lia)) as (p & Hp & Q). apply (B4 p ltac:(lia) Q). }
    split; [lia|]. split; [rewrite A2, firstn_map_seq by exact Hn; exact B2|].
    intros En. rewrite (surjective_pairing r), (surjective_pairing one), A2, A3, B2, B3, En. reflexivity.
  Qed.
End Common.

(** *** The pure Python engine *)
Section Py.
  Context {S F : Type} (upd : bool -> S -> S) (loss : S -> F) (below : F -> F -> bool) (isnan : S -> bool) (cn : Z) (Hcn : (1 <= cn)%Z)
    (hold_h : bool) (delay_h : Z) (Hs : steady hold_h delay_h).
  Let st s := state_at upd (hold_at hold_h delay_h) s.
  Definition py_halt (s : S) (l : nat) : Prop :=
    isnan (state_at upd (hold_at hold_h delay_h) s (Datatypes.S l)) = true \/ stopb_py upd loss below cn delay_h hold_h s l = true.
  Lemma py_halt_shift s a i : py_halt (st s a) i -> py_halt s (a + i)%nat.
  Proof.
    unfold py_halt, st. rewrite st_shift by exact Hs. rewrite Nat.add_succ_r. intros [A|A]; [left; exact A|right]. revert A. unfold stopb_py. rewrite !andb_true_iff, !Nat.leb_le.
    intros [A B]. split; [lia|]. rewrite !q_shift in B by exact Hs. replace (a + i - (Z.to_nat cn - 1))%nat with (a + (i - (Z.to_nat cn - 1)))%nat by lia. exact B.
  Qed.
  Lemma py_call_run N s : let n := List.length (fst (py_call upd loss below isnan cn delay_h hold_h N s)) in
    (n <= Z.to_nat N)%nat /\ fst (py_call upd loss below isnan cn delay_h hold_h N s) = map (loss_at upd loss (hold_at hold_h delay_h) s) (seq 0 n) /\
    snd (py_call upd loss below isnan cn delay_h hold_h N s) = st s n /\
    (forall l, (Datatypes.S l < n)%nat -> ~ py_halt s l) /\ ((n < Z.to_nat N)%nat -> (0 < n)%nat /\ py_halt s (n - 1)%nat).
  Proof.
    unfold py_call. cbn [fst snd]. cbv zeta. destruct (py_run upd loss isnan hold_h delay_h s below cn N Hcn) as (A & B & C & D & E).
    split; [exact A|]. split; [exact B|]. split; [exact C|]. split.
    - intros l Hl [X|X]; destruct (D l Hl) as [Y Z]; congruence.
    - intros G. destruct (E G) as [P X]. split; [exact P|]. unfold py_halt. destruct X as [X|X]; [left|right; exact X].
      match type of P with (0 < ?z)%nat => replace (Datatypes.S (z - 1)) with z by lia end. exact X.
  Qed.
End Py.

(** Several calls never make fewer iterations than one call with all their limits
    together: the history of the one call is the beginning of theirs, and if the lengths
    agree so do the results. *)
Theorem C154_instalments_never_stop_earlier_python :
  forall (S F : Type) (upd : bool -> S -> S) (loss : S -> F) (below : F -> F -> bool) (isnan : S -> bool) (cn : Z) (hold_h : bool) (delay_h : Z) (Ns : list Z) (st0 : S),
  (1 <= cn)%Z -> steady hold_h delay_h ->
  let several := instalments (py_call upd loss below isnan cn delay_h hold_h) Ns st0 in
  let one := py_train upd loss below isnan cn delay_h hold_h (Z.of_nat (total Ns)) st0 in
  let n := List.length (pr_hist one) in let l := List.length (fst several) in
  (n <= l <= total Ns)%nat /\ pr_hist one = firstn n (fst several) /\
  (forall t, (t < l)%nat -> nth_error (fst several) t = Some (loss (Nat.iter (t + 1) (upd hold_h) st0))) /\
  snd several = Nat.iter l (upd hold_h) st0 /\
  (n = l -> pr_hist one = fst several /\ pr_state one = snd several).
Proof.
  intros S F upd loss below isnan cn hold_h delay_h Ns st0 Hcn Hs several one n l.
  pose proof (instal_one upd loss hold_h delay_h Hs (py_halt upd loss below isnan cn hold_h delay_h) (py_call upd loss below isnan cn delay_h hold_h)
    (py_halt_shift upd loss below isnan cn Hcn hold_h delay_h Hs) (py_call_run upd loss below isnan cn Hcn hold_h delay_h) Ns st0) as (A & B & C).
  pose proof (instal_run upd loss hold_h delay_h Hs (py_halt upd loss below isnan cn hold_h delay_h) (py_call upd loss below isnan cn delay_h hold_h)
    (py_halt_shift upd loss below isnan cn Hcn hold_h delay_h Hs) (py_call_run upd loss below isnan cn Hcn hold_h delay_h) Ns st0) as (_ & D & E & _).
  fold several in A, B, C, D, E. fold l in A, D, E. change (List.length (fst (py_call upd loss below isnan cn delay_h hold_h (Z.of_nat (total Ns)) st0))) with n in A, B, C.
  pose proof (fun i => steady_iter upd hold_h delay_h st0 i Hs) as It.
  split; [exact A|]. split; [exact B|]. split.
  { intros t Ht. rewrite D, nth_error_map. rewrite (nth_error_nth' _ 0%nat) by (rewrite seq_length; exact Ht). rewrite seq_nth by exact Ht. cbn [Nat.add option_map].
    unfold loss_at. rewrite It, Nat.add_1_r. reflexivity. }
  split; [rewrite E; apply It|]. intros En. rewrite (C En). split; reflexivity.
Qed.
Print Assumptions C154_instalments_never_stop_earlier_python.

(** Calls no longer than converge_n never converge: unless a loss is NaN they make all
    their iterations, however flat the loss. *)
Theorem C154_short_calls_never_converge_python :
  forall (S F : Type) (upd : bool -> S -> S) (loss : S -> F) (below : F -> F -> bool) (isnan : S -> bool) (cn : Z) (hold_h : bool) (delay_h : Z) (Ns : list Z) (st0 : S),
  (1 <= cn)%Z -> steady hold_h delay_h -> (forall N, In N Ns -> (N <= cn)%Z) -> (forall i, isnan (Nat.iter i (upd hold_h) st0) = false) ->
  let several := instalments (py_call upd loss below isnan cn delay_h hold_h) Ns st0 in
  List.length (fst several) = total Ns /\ snd several = Nat.iter (total Ns) (upd hold_h) st0.
Proof.
  intros S F upd loss below isnan cn hold_h delay_h Ns st0 Hcn Hs HN Hnan several.
  destruct (C154_instalments_never_stop_earlier_python S F upd loss below isnan cn hold_h delay_h Ns st0 Hcn Hs) as (_ & _ & _ & E & _). fold several in E.
  pose proof (instal_run upd loss hold_h delay_h Hs (py_halt upd loss below isnan cn hold_h delay_h) (py_call upd loss below isnan cn delay_h hold_h)
    (py_halt_shift upd loss below isnan cn Hcn hold_h delay_h Hs) (py_call_run upd loss below isnan cn Hcn hold_h delay_h) Ns st0) as (_ & _ & _ & _ & D).
  fold several in D. assert (L : List.length (fst several) = total Ns).
  { apply D. intros a N x Hin Hx [X|X].
    - rewrite st_shift, (steady_iter upd) in X by exact Hs. rewrite Hnan in X. discriminate.
    - unfold stopb_py in X. apply andb_true_iff in X. destruct X as [X _]. apply Nat.leb_le in X. specialize (HN N Hin). lia. }
  split; [exact L|]. rewrite E, L. reflexivity.
Qed.
Print Assumptions C154_short_calls_never_converge_python.

(** *** The compiled engine, handed the matrices it returned *)
Section Rust.
  Context {S F : Type} (upd : bool -> S -> S) (loss : S -> F) (below : F -> F -> bool) (cn : Z) (tick : nat -> bool)
    (hold_h : bool) (delay_h : Z) (Hs : steady hold_h delay_h).
  Let st s := state_at upd (hold_at hold_h delay_h) s.
  Definition rust_halt (s : S) (l : nat) : Prop := criterion below cn (loss_at upd loss (hold_at hold_h delay_h) s) l.
  Lemma rust_halt_shift s a i : rust_halt (st s a) i -> rust_halt s (a + i)%nat.
  Proof.
    unfold rust_halt, st, criterion. intros [A B]. split; [lia|]. rewrite !q_shift in B by exact Hs. replace (a + i - span cn)%nat with (a + (i - span cn))%nat by lia. exact B.
  Qed.
  Lemma rust_call_run N s : let n := List.length (fst (rust_call upd loss below cn hold_h delay_h tick N s)) in
    (n <= Z.to_nat N)%nat /\ fst (rust_call upd loss below cn hold_h delay_h tick N s) = map (loss_at upd loss (hold_at hold_h delay_h) s) (seq 0 n) /\
    snd (rust_call upd loss below cn hold_h delay_h tick N s) = st s n /\
    (forall l, (Datatypes.S l < n)%nat -> ~ rust_halt s l) /\ ((n < Z.to_nat N)%nat -> (0 < n)%nat /\ rust_halt s (n - 1)%nat).
  Proof.
    unfold rust_call. cbn [fst snd]. cbv zeta. destruct (rust_run upd loss hold_h delay_h s below cn tick N) as (A & B & C & _ & D & E).
    split; [exact A|]. split; [exact B|]. split; [exact C|]. split; [exact D|exact E].
  Qed.
End Rust.

Theorem C154_instalments_never_stop_earlier :
  forall (S F : Type) (upd : bool -> S -> S) (loss : S -> F) (below : F -> F -> bool) (cn : Z) (hold_h : bool) (delay_h : Z) (tick : nat -> bool) (Ns : list Z) (st0 : S),
  steady hold_h delay_h ->
  let several := instalments (rust_call upd loss below cn hold_h delay_h tick) Ns st0 in
  let one := rust_train upd loss below cn hold_h delay_h tick (Z.of_nat (total Ns)) st0 in
  let n := List.length (rr_hist one) in let l := List.length (fst several) in
  (n <= l <= total Ns)%nat /\ rr_hist one = firstn n (fst several) /\
  (forall t, (t < l)%nat -> nth_error (fst several) t = Some (loss (Nat.iter (t + 1) (upd hold_h) st0))) /\
  snd several = Nat.iter l (upd hold_h) st0 /\
  (n = l -> rr_hist one = fst several /\ rr_state one = snd several) /\
  ((forall N, In N Ns -> (N < cn)%Z) -> l = total Ns).
Proof.
  intros S F upd loss below cn hold_h delay_h tick Ns st0 Hs several one n l.
  pose proof (instal_one upd loss hold_h delay_h Hs (rust_halt upd loss below cn hold_h delay_h) (rust_call upd loss below cn hold_h delay_h tick)
    (rust_halt_shift upd loss below cn tick hold_h delay_h Hs) (rust_call_run upd loss below cn tick hold_h delay_h) Ns st0) as (A & B & C).
  pose proof (instal_run upd loss hold_h delay_h Hs (rust_halt upd loss below cn hold_h delay_h) (rust_call upd loss below cn hold_h delay_h tick)
    (rust_halt_shift upd loss below cn tick hold_h delay_h Hs) (rust_call_run upd loss below cn tick hold_h delay_h) Ns st0) as (_ & D & E & _ & G).
  fold several in A, B, C, D, E, G. fold l in A, D, E, G. change (List.length (fst (rust_call upd loss below cn hold_h delay_h tick (Z.of_nat (total Ns)) st0))) with n in A, B, C.
  pose proof (fun i => steady_iter upd hold_h delay_h st0 i Hs) as It.
  split; [exact A|]. split; [exact B|]. split.
  { intros t Ht. rewrite D, nth_error_map. rewrite (nth_error_nth' _ 0%nat) by (rewrite seq_length; exact Ht). rewrite seq_nth by exact Ht. cbn [Nat.add option_map].
    unfold loss_at. rewrite It, Nat.add_1_r. reflexivity. }
  split; [rewrite E; apply It|]. split; [intros En; rewrite (C En); split; reflexivity|].
  intros HN. apply G. intros s N x Hin Hx [X _]. specialize (HN N Hin). unfold span in X. lia.
Qed.
Print Assumptions C154_instalments_never_stop_earlier.

(** LS-NMF: the fit after several calls is never worse than after the one. *)
Theorem C154_instalments_never_worse :
  forall (m n k : nat) (V U W H : mat) (delta : R) (cn : Z) (hold_h : bool) (delay_h : Z) (Ns : list Z),
  (0 < m)%nat -> (0 < n)%nat -> (0 < k)%nat ->
  mall m n (fun x => 0 <= x) V -> no_empty m n V -> mall m n (fun u => u <> 0) U ->
  mall m k (fun x => 0 < x) W -> mall k n (fun x => 0 < x) H -> (1 <= cn)%Z -> steady hold_h delay_h ->
  let several := instalments (py_call (ls_step m n k V U) (ls_loss m n k V U) (fbelow delta) (fun o => is_nan (ls_loss m n k V U o)) cn delay_h hold_h) Ns (Some (W, H)) in
  let one := ls_py_train m n k V U delta cn delay_h hold_h (Z.of_nat (total Ns)) W H in
  exists W1 H1 W2 H2, snd several = Some (W1, H1) /\ pr_state one = Some (W2, H2) /\
    q_loss m n k true V U W1 H1 <= q_loss m n k true V U W2 H2 /\
    ((forall N, In N Ns -> (N <= cn)%Z) -> List.length (fst several) = total Ns).
Proof.
  intros m n k V U W H delta cn hold_h delay_h Ns Hm Hn Hk HV NE HU HW HH Hcn Hs several one.
  set (isnan := fun o => is_nan (ls_loss m n k V U o)) in *.
  destruct (C154_instalments_never_stop_earlier_python _ _ (ls_step m n k V U) (ls_loss m n k V U) (fbelow delta) isnan cn hold_h delay_h Ns (Some (W, H)) Hcn Hs) as (A & _).
  pose proof (instal_run (ls_step m n k V U) (ls_loss m n k V U) hold_h delay_h Hs (py_halt (ls_step m n k V U) (ls_loss m n k V U) (fbelow delta) isnan cn hold_h delay_h) (py_call (ls_step m n k V U) (ls_loss m n k V U) (fbelow delta) isnan cn delay_h hold_h)
    (py_halt_shift (ls_step m n k V U) (ls_loss m n k V U) (fbelow delta) isnan cn Hcn hold_h delay_h Hs) (py_call_run (ls_step m n k V U) (ls_loss m n k V U) (fbelow delta) isnan cn Hcn hold_h delay_h)) as Run.
  destruct (Run Ns (Some (W, H))) as (_ & _ & E & D & _).
  destruct (py_run (ls_step m n k V U) (ls_loss m n k V U) isnan hold_h delay_h (Some (W, H)) (fbelow delta) cn (Z.of_nat (total Ns)) Hcn) as (_ & _ & B & _).
  fold several in A, E, D. unfold isnan in A, B. fold (ls_py_train m n k V U delta cn delay_h hold_h (Z.of_nat (total Ns)) W H) in A, B. fold one in A, B.
  rewrite state_at_iter in E, B by assumption.
  destruct (iter_pos m n k V U hold_h delay_h W H Hm Hn Hk HV NE HU HW HH (List.length (fst several))) as (W1 & H1 & E1 & _).
  destruct (iter_pos m n k V U hold_h delay_h W H Hm Hn Hk HV NE HU HW HH (List.length (pr_hist one))) as (W2 & H2 & E2 & _).
  rewrite E1 in E. rewrite E2 in B. exists W1, H1, W2, H2. split; [exact E|]. split; [exact B|]. split.
  - assert (X : Qn m n k V U hold_h delay_h W H (List.length (fst several)) <= Qn m n k V U hold_h delay_h W H (List.length (pr_hist one))) by (apply Qn_mono; try assumption; lia).
    unfold Qn in X. rewrite E1, E2 in X. exact X.
  - intros HN. apply (C154_short_calls_never_converge_python _ _ (ls_step m n k V U) (ls_loss m n k V U) (fbelow delta) isnan cn hold_h delay_h Ns (Some (W, H)) Hcn Hs HN).
    intros i. rewrite <- (steady_iter (ls_step m n k V U) hold_h delay_h (Some (W, H)) i Hs), state_at_iter by assumption.
    destruct (iter_pos m n k V U hold_h delay_h W H Hm Hn Hk HV NE HU HW HH i) as (Wi & Hi & Ei & _). rewrite Ei. reflexivity.
Qed.
Print Assumptions C154_instalments_never_worse.

(** With the profiles held for a number of iterations only, the calls count afresh, so
    that two calls do not do what one does: three and three iterations with delay_h = 1. *)
Theorem C154_delayed_instalments_refuted :
  exists (S : Type) (upd : bool -> S -> S) (loss : S -> fl) (st0 : S) (cn delay_h : Z) (N1 N2 : Z),
    (1 <= cn)%Z /\ (0 < delay_h)%Z /\
    let several := instalments (py_call upd loss (fbelow (1 / 10)) (fun _ => false) cn delay_h true) [N1; N2] st0 in
    let one := py_train upd loss (fbelow (1 / 10)) (fun _ => false) cn delay_h true (N1 + N2) st0 in
    List.length (fst several) = List.length (pr_hist one) /\ snd several <> pr_state one.
Proof.
  exists nat, (fun (hold : bool) (x : nat) => if hold then x else S x), (fun x : nat => Fin (INR x)), 0%nat, 100%Z, 1%Z, 3%Z, 3%Z.
  split; [lia|]. split; [lia|]. cbv zeta. split; [vm_compute; reflexivity|]. vm_compute. discriminate.
Qed.
Print Assumptions C154_delayed_instalments_refuted.

(** SA.train with the compiled engine re-reads its own result in another memory order
    (C111), which changes it in general; with a single factor it does not, and a second
    call carries on from the factors of the first. *)
Theorem C154_one_factor_carries_on :
  forall (o : orders) (m n : nat) (v u : mat) (s : sa) d d' tick tick' (p p' : settings) f w1 h1 b,
    s_init s = true -> s_valid s = true -> s_engine s = LSNMF -> s_k s = 1%nat ->
    sV s = data m n v -> sU s = data m n u -> (forall i j, u i j <> 0) -> sWe s = ndmap weight_of (data m n u) ->
    train o s d tick p = Trained f -> f_WH f = Some (w1, h1) ->
    (forall i, b i = true <-> held (p_hold p') (p_delay p') i) ->
    exists f', train (orders_again o w1 h1) (again s w1 h1) d' tick' p' = Trained f' /\
      let v' := reread (oV o) m n v in let u' := reread (oU o) m n u in
      let at_ t := ls_iter m n 1 v' (weights u') b 0 t (aget w1, aget h1) in
      (forall t, (t < length (f_hist f'))%nat -> nth_error (f_hist f') t =
         Some (match at_ (S t) with None => NaN | Some (W, H) => Fin (misfit m n 1 v' u' W H) end)) /\
      (forall w2 h2, f_WH f' = Some (w2, h2) -> exists W H, at_ (length (f_hist f')) = Some (W, H) /\
         meq m 1 (aget w2) W /\ meq 1 n (aget h2) H).
Proof.
  intros o m n v u s d d' tick tick' p p' f w1 h1 b Hi Hv He Ek EV EU Hu EWe Et EF Hb.
  destruct (C111_train_again o m n 1 v u s d d' tick tick' p p' f w1 h1 b Hi Hv He Ek EV EU Hu EWe Et EF Hb) as (f' & E & A & B & _).
  exists f'. split; [exact E|]. intros v' u' at_. fold v' u' in A, B.
  set (start := ((fun i a => aget w1 ((i * 1 + a) mod m) ((i * 1 + a) / m)), (fun a j => aget h1 ((a * n + j) mod 1) ((a * n + j) / 1)))%nat) in *.
  assert (Nr : near m n 1 start (aget w1, aget h1)).
  { split; cbn [fst snd start].
    - intros i a Ha Hb'. assert (a = 0)%nat as -> by lia. rewrite Nat.mul_1_r, Nat.add_0_r, Nat.mod_small, Nat.div_small by lia. reflexivity.
    - intros a j Ha Hj. assert (a = 0)%nat as -> by lia. rewrite Nat.mul_0_l, Nat.add_0_l, Nat.mod_1_r, Nat.div_1_r. reflexivity. }
  assert (Same : forall t, orel (near m n 1) (ls_iter m n 1 v' (weights u') b 0 t start) (at_ t)).
  { intros t. apply ls_iter_local; [intros i j _ _; reflexivity|intros i j _ _; reflexivity|exact Nr]. }
  split.
  - intros t Ht. rewrite (A t Ht). f_equal. specialize (Same (S t)). destruct (ls_iter m n 1 v' (weights u') b 0 (S t) start) as [[W H]|], (at_ (S t)) as [[W' H']|]; try contradiction; [|reflexivity].
    destruct Same as [S1 S2]. cbn [fst snd] in S1, S2. f_equal. unfold misfit. apply msum_ext. intros i j Hi' Hj'. cbn [rsum]. rewrite S1, S2 by lia. reflexivity.
  - intros w2 h2 E2. destruct (B w2 h2 E2) as (W & H & EW & MW & MH). specialize (Same (length (f_hist f'))). rewrite EW in Same.
    destruct (at_ (length (f_hist f'))) as [[W' H']|]; [|contradiction]. destruct Same as [S1 S2]. cbn [fst snd] in S1, S2. exists W', H'. split; [reflexivity|].
    split; intros i j Hi' Hj'; [rewrite MW, S1|rewrite MH, S2]; auto.
Qed.
Print Assumptions C154_one_factor_carries_on.

(** One held factor through V = [[2,4],[2,4]]: the state and the first call exist. *)
Example C154_one_factor_carries_on_example :
  exists s f w1 h1, s_init s = true /\ s_valid s = true /\ s_engine s = LSNMF /\ s_k s = 1%nat /\
    sV s = data 2 2 (cells [[2; 4]; [2; 4]]) /\ sU s = data 2 2 (fun _ _ => 1) /\ sWe s = ndmap weight_of (data 2 2 (fun _ _ => 1)) /\
    train (mkOrd FOrder FOrder COrder COrder) s (ColumnMean false (fun _ _ => Fin 0) (fun _ _ => Fin 0) (fun x => x)) (fun _ => false) held_once = Trained f /\
    f_WH f = Some (w1, h1).
Proof.
  destruct (given_states 2 2 1 (cells [[2; 4]; [2; 4]]) (fun _ _ => 1) (fun _ _ => 1) (cells [[1; 2]])) as
    (s0 & s & c & E1 & E2 & G1 & G2 & G3 & G4 & G5 & G6 & G7 & Tr); try lia.
  { intros i j Hi Hj. small i j Hi Hj; cbn; lra. }
  rewrite unit_unc in *. set (d := ColumnMean false (fun _ _ => Fin 0) (fun _ _ => Fin 0) (fun x => x)).
  pose proof (Tr (mkOrd FOrder FOrder COrder COrder) d (fun _ => false) held_once) as T1.
  set (f := run_engine _ _ _ _ _ _ _ _ _) in *.
  assert (L1 : made_positive 1 = 1) by (apply lifted_pos; lra). assert (L2 : made_positive 2 = 2) by (apply lifted_pos; lra).
  destruct (held_spec (mkOrd FOrder FOrder COrder COrder) 2 2 1 (cells [[2; 4]; [2; 4]]) (fun _ _ => 1) (data 2 1 (fun _ _ => 1)) (data 1 2 (fun a j => made_positive (cells [[1; 2]] a j)))
     (fun _ _ => 1) (fun a j => made_positive (cells [[1; 2]] a j)) (fun _ _ => 2) (cells [[1; 2]]) (fun _ => false)) as (_ & B & w1 & h1 & F1 & _);
    try reflexivity; try apply entries_data.
  { intros; lra. }
  { cbv zeta. cbn [oV oU oW oH]. intros i a Hi Ha. small i a Hi Ha; calc; rewrite L1, L2; split; lra. }
  { intros i j Hi Hj. small i j Hi Hj; cbn; apply lifted_pos; lra. }
  exists s, f, w1, h1. repeat (split; [assumption|]). exact F1.
Qed.

(** The loss 1 / i; calls of 4, 30 and 2 iterations. *)
Example C154_instalments_never_stop_earlier_python_example :=
  C154_instalments_never_stop_earlier_python nat fl (fun _ i => S i) (fun i => Fin (/ INR i)) (fbelow (1 / 100)) (fun _ => false) 3 false 5 [4; 30; 2]%Z 1%nat ltac:(lia) (or_introl eq_refl).
Example C154_instalments_never_stop_earlier_example :=
  C154_instalments_never_stop_earlier nat fl (fun _ i => S i) (fun i => Fin (/ INR i)) (fbelow (1 / 100)) 3 true (-1) (fun _ => true) [4; 30; 2]%Z 1%nat (or_intror (Pos2Z.neg_is_nonpos 1)).
Lemma instal_short N : In N [3; 2; 3]%Z -> (N <= 3)%Z.
Proof. cbn [In]. lia. Qed.
Example C154_short_calls_never_converge_python_example :=
  C154_short_calls_never_converge_python nat fl (fun _ i => S i) (fun i => Fin (/ INR i)) (fbelow (1 / 100)) (fun _ => false) 3 false (-1) [3; 2; 3]%Z 1%nat ltac:(lia) (or_introl eq_refl)
    instal_short (fun _ => eq_refl).
Example C154_instalments_never_worse_example :=
  C154_instalments_never_worse 3 2 2 rp_V rp_U One One (1 / 100) 3 false (-1) [3; 2; 3]%Z ltac:(lia) ltac:(lia) ltac:(lia)
    (proj1 C145_instance) (proj1 (proj2 C145_instance)) (proj1 (proj2 (proj2 C145_instance))) (xst_one 3 2) (xst_one 2 2) ltac:(lia) (or_introl eq_refl).
