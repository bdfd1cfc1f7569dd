(** Properties C84-C88: LS-NMF training in IEEE arithmetic, for every order of
    summation and any use of fused operations. *)
From Coq Require Import ZArith Reals Lra Lia List Bool Permutation Arith.
From Flocq Require Import Core BinarySingleNaN.
From Verif Require Import Float_Model Float_Spec Float_Proofs LSNMF_Model Train_Model Train_Spec Train_Proofs.
Import ListNotations.
Local Open Scope nat_scope.

(** ** C84: signs *)

Lemma run_inv {S} (P : S -> Prop) (upd : bool -> S -> S) (b : nat -> bool) st0 :
  P st0 -> (forall h s, P s -> P (upd h s)) -> forall i, P (state_at upd b st0 i).
Proof. intros H0 Hs. induction i as [|i IH]; [exact H0|]. apply Hs, IH. Qed.

Section C84.
  Context (prec emax : Z) (Hp : Prec_gt_0 prec) (He : Prec_lt_emax prec emax).
  Context (m n k : nat) (V We U W0 H0 : fmat prec emax).
  Context (upd : bool -> fmat prec emax * fmat prec emax -> fmat prec emax * fmat prec emax).
  Context (loss : fmat prec emax * fmat prec emax -> binary_float prec emax).

  Lemma states_nn : implements m n k V We upd ->
    every m n nonneg V -> every m n nonneg We -> every m k nonneg W0 -> every k n nonneg H0 ->
    forall b i, every m k nonneg (fst (state_at upd b (W0, H0) i)) /\
                every k n nonneg (snd (state_at upd b (W0, H0) i)).
  Proof.
    intros Hi HV HWe HW HH b i.
    apply (run_inv (fun st => every m k nonneg (fst st) /\ every k n nonneg (snd st)) upd b (W0, H0)).
    - split; assumption.
    - intros h s [A B]. exact (fstep_nn m n k V We HV HWe h s _ A B (Hi h s)).
  Qed.
End C84.

Theorem C84_entries_and_losses_nonneg :
  forall (prec emax : Z) (Hp : Prec_gt_0 prec) (He : Prec_lt_emax prec emax)
    (m n k : nat) (V We U W0 H0 : fmat prec emax) upd loss
    (delta : binary_float prec emax) (cn : Z) (hold_h : bool) (delay_h : Z)
    (tick : nat -> bool) (max_iter : Z),
    implements m n k V We upd -> measures m n k V U loss ->
    every m n nonneg V -> every m n nonneg We -> every m k nonneg W0 -> every k n nonneg H0 ->
    let r := rust_train upd loss (ieee_below delta) cn hold_h delay_h tick max_iter (W0, H0) in
    every m k nonneg (fst (rr_state r)) /\ every k n nonneg (snd (rr_state r)) /\
    Forall nonneg (rr_hist r).
Proof.
  intros prec emax Hp He m n k V We U W0 H0 upd loss delta cn hold_h delay_h tick max_iter
    Hi Hl HV HWe HW HH r.
  destruct (rust_summary upd loss (ieee_below delta) cn hold_h delay_h tick (W0, H0) max_iter _
              (hold_at_held_iff hold_h delay_h)) as (_ & Eh & Es & _).
  fold r in Eh, Es. rewrite Es.
  destruct (states_nn prec emax Hp He m n k V We W0 H0 upd Hi HV HWe HW HH
              (hold_at hold_h delay_h) (length (rr_hist r))) as [A B].
  split; [exact A|]. split; [exact B|]. rewrite Eh.
  apply Forall_forall. intros x Hx. apply in_map_iff in Hx. destruct Hx as (i & <- & _).
  apply (fq_nn m n k V U _ _ (Hl _)).
Qed.
Print Assumptions C84_entries_and_losses_nonneg.

Theorem C84_python_entries_and_losses_nonneg :
  forall (prec emax : Z) (Hp : Prec_gt_0 prec) (He : Prec_lt_emax prec emax)
    (m n k : nat) (V We U W0 H0 : fmat prec emax) upd loss
    (delta : binary_float prec emax) (nan_stop : fmat prec emax * fmat prec emax -> bool)
    (cn : Z) (hold_h : bool) (delay_h : Z) (max_iter : Z),
    implements m n k V We upd -> measures m n k V U loss ->
    every m n nonneg V -> every m n nonneg We -> every m k nonneg W0 -> every k n nonneg H0 ->
    (1 <= cn)%Z ->
    let r := py_train upd loss (ieee_below delta) nan_stop cn delay_h hold_h max_iter (W0, H0) in
    every m k nonneg (fst (pr_state r)) /\ every k n nonneg (snd (pr_state r)) /\
    Forall nonneg (pr_hist r).
Proof.
  intros prec emax Hp He m n k V We U W0 H0 upd loss delta nan_stop cn hold_h delay_h max_iter
    Hi Hl HV HWe HW HH Hcn r.
  destruct (py_summary upd loss (ieee_below delta) nan_stop cn hold_h delay_h (W0, H0) max_iter _ Hcn
              (hold_at_held_iff hold_h delay_h)) as (_ & Eh & Es & _).
  fold r in Eh, Es. rewrite Es.
  destruct (states_nn prec emax Hp He m n k V We W0 H0 upd Hi HV HWe HW HH
              (hold_at hold_h delay_h) (length (pr_hist r))) as [A B].
  split; [exact A|]. split; [exact B|]. rewrite Eh.
  apply Forall_forall. intros x Hx. apply in_map_iff in Hx. destruct Hx as (i & <- & _).
  apply (fq_nn m n k V U _ _ (Hl _)).
Qed.
Print Assumptions C84_python_entries_and_losses_nonneg.

(** The weights computed from the uncertainties are never negative, whatever
    the uncertainties. *)
Theorem C84_weights_nonneg :
  forall (prec emax : Z) (Hp : Prec_gt_0 prec) (He : Prec_lt_emax prec emax) (U : fmat prec emax) i j,
    nonneg (fweights U i j).
Proof.
  intros prec emax Hp He U i j. unfold fweights. apply nn_div; [|apply nn_sqr].
  right. apply Bsign_Bone.
Qed.
Print Assumptions C84_weights_nonneg.

(** An entry that starts at zero is zero or NaN at the end. *)
Theorem C84_zero_entries_locked :
  forall (prec emax : Z) (Hp : Prec_gt_0 prec) (He : Prec_lt_emax prec emax)
    (m n k : nat) (V We W0 H0 : fmat prec emax) upd
    (loss : fmat prec emax * fmat prec emax -> binary_float prec emax)
    (delta : binary_float prec emax) (cn : Z) (hold_h : bool) (delay_h : Z)
    (tick : nat -> bool) (max_iter : Z),
    implements m n k V We upd ->
    let r := rust_train upd loss (ieee_below delta) cn hold_h delay_h tick max_iter (W0, H0) in
    (forall i a, i < m -> a < k -> iszero (W0 i a) ->
       iszero (fst (rr_state r) i a) \/ isnan (fst (rr_state r) i a)) /\
    (forall a j, a < k -> j < n -> iszero (H0 a j) ->
       iszero (snd (rr_state r) a j) \/ isnan (snd (rr_state r) a j)).
Proof.
  intros prec emax Hp He m n k V We W0 H0 upd loss delta cn hold_h delay_h tick max_iter Hi r.
  destruct (rust_summary upd loss (ieee_below delta) cn hold_h delay_h tick (W0, H0) max_iter _
              (hold_at_held_iff hold_h delay_h)) as (_ & _ & Es & _).
  fold r in Es. rewrite Es. set (N := length (rr_hist r)).
  split.
  - intros i a Hi' Ha Hz.
    enough (G : void (fst (state_at upd (hold_at hold_h delay_h) (W0, H0) N) i a)) by (destruct G; auto).
    apply (run_inv (fun st => void (fst st i a)) upd _ (W0, H0)).
    + right. exact Hz.
    + intros h s Hs. exact (fstep_w_void m n k V We h s _ i a Hi' Ha (Hi h s) Hs).
  - intros a j Ha Hj Hz.
    enough (G : void (snd (state_at upd (hold_at hold_h delay_h) (W0, H0) N) a j)) by (destruct G; auto).
    apply (run_inv (fun st => void (snd st a j)) upd _ (W0, H0)).
    + right. exact Hz.
    + intros h s Hs. exact (fstep_h_void m n k V We h s _ a j Ha Hj (Hi h s) Hs).
Qed.
Print Assumptions C84_zero_entries_locked.

Definition cst (x : b32) : fmat 24 128 := fun _ _ => x.

(** Unlike in exact arithmetic (C05), positive finite data and factors do not
    guarantee positive, or even numeric, factors: 1 x 1, V = U = 1,
    W = H = 2^-80. *)
Theorem C84_positive_stays_positive_refuted :
  exists (V U W H : fmat 24 128) upd,
    implements 1 1 1 V (fweights U) upd /\
    (forall x, In x [V 0 0; U 0 0; W 0 0; H 0 0] -> is_finite x = true /\ Bltb fzero x = true) /\
    is_nan (fst (upd false (W, H)) 0 0) = true.
Proof.
  exists (cst (lit32 1 0)), (cst (lit32 1 0)), (cst (lit32 1 (-80))), (cst (lit32 1 (-80))).
  exists (upd_ltr 1 1 1 (cst (lit32 1 0)) (fweights (cst (lit32 1 0)))).
  split; [apply upd_ltr_ok|]. split.
  - intros x [<-|[<-|[<-|[<-|[]]]]]; vm_compute; auto.
  - vm_compute. reflexivity.
Qed.
Print Assumptions C84_positive_stays_positive_refuted.
(* a 2 by 2 problem with a zero contribution, and the summation order of the loops *)
Definition xf_V : fmat 24 128 := fun i j => lit32 (Z.of_nat (1 + i + 2 * j)) 0.
Definition xf_W : fmat 24 128 := fun i a => if (i =? 0) && (a =? 0) then lit32 0 0 else lit32 (Z.of_nat (3 + a)) 0.
Definition xf_H : fmat 24 128 := fun a j => lit32 (Z.of_nat (1 + a + j)) 0.
Definition xf_U : fmat 24 128 := cst (lit32 1 0).
Definition xf_upd := upd_ltr 2 2 2 xf_V (fweights xf_U).
Definition xf_loss := q_ltr 2 2 2 xf_V xf_U.
Lemma xf_nonneg (A : fmat 24 128) : (Bsign (A 0 0) || Bsign (A 0 1) || Bsign (A 1 0) || Bsign (A 1 1) ||
  is_nan (A 0 0) || is_nan (A 0 1) || is_nan (A 1 0) || is_nan (A 1 1)) = false -> every 2 2 nonneg A.
Proof.
  intros E i j Hi Hj. repeat (apply orb_false_iff in E; destruct E as [E ?]).
  right. destruct i as [|[|]], j as [|[|]]; try lia; assumption.
Qed.
Example C84_entries_and_losses_nonneg_example : every 2 2 nonneg
  (fst (rr_state (rust_train xf_upd xf_loss (ieee_below (lit32 1 (-3))) 2 false (-1) (fun _ => false) 5 (xf_W, xf_H)))).
Proof.
  refine (proj1 (C84_entries_and_losses_nonneg _ _ _ _ 2 2 2 xf_V (fweights xf_U) xf_U xf_W xf_H xf_upd xf_loss
    _ 2 false (-1)%Z (fun _ => false) 5 (upd_ltr_ok _ _ _ _ _) (q_ltr_ok _ _ _ _ _) _ _ _ _)); apply xf_nonneg; vm_compute; reflexivity.
Qed.
Example C84_python_entries_and_losses_nonneg_example : Forall nonneg
  (pr_hist (py_train xf_upd xf_loss (ieee_below (lit32 1 (-3))) (fun s => is_nan (xf_loss s)) 2 (-1) false 5 (xf_W, xf_H))).
Proof.
  refine (proj2 (proj2 (C84_python_entries_and_losses_nonneg _ _ _ _ 2 2 2 xf_V (fweights xf_U) xf_U xf_W xf_H xf_upd xf_loss
    _ _ 2 false (-1)%Z 5 (upd_ltr_ok _ _ _ _ _) (q_ltr_ok _ _ _ _ _) _ _ _ _ _))); try (apply xf_nonneg; vm_compute; reflexivity). lia.
Qed.
Example C84_weights_nonneg_example := C84_weights_nonneg 24 128 _ _ (cst (lit32 (-3) 0)) 0 0.
Example C84_zero_entries_locked_example :
  let r := rust_train xf_upd xf_loss (ieee_below (lit32 1 (-3))) 2 false (-1) (fun _ => false) 5 (xf_W, xf_H) in
  iszero (fst (rr_state r) 0 0) \/ isnan (fst (rr_state r) 0 0).
Proof.
  refine (proj1 (C84_zero_entries_locked _ _ _ _ 2 2 2 xf_V (fweights xf_U) xf_W xf_H xf_upd xf_loss
    _ 2 false (-1)%Z (fun _ => false) 5 (upd_ltr_ok _ _ _ _ _)) 0 0 _ _ _); [lia | lia |]. exists false. vm_compute. reflexivity.
Qed.

(** 2 x 2 data with two factors; one entry of W zero. *)
Example C84_instance :
  let V := fun i j => lit32 (Z.of_nat (1 + i + 2 * j)) 0 in
  let W := fun i a => if (i =? 0) && (a =? 0) then lit32 0 0 else lit32 (Z.of_nat (3 + a)) 0 in
  let H := fun a j => lit32 (Z.of_nat (1 + a + j)) 0 in
  let U := cst (lit32 1 0) in
  let r := rust_train (upd_ltr 2 2 2 V (fweights U)) (q_ltr 2 2 2 V U) (ieee_below (lit32 1 (-3)))
             2 false (-1) (fun _ => false) 5 (W, H) in
  implements 2 2 2 V (fweights U) (upd_ltr 2 2 2 V (fweights U)) /\
  measures 2 2 2 V U (q_ltr 2 2 2 V U) /\
  every 2 2 nonneg V /\ every 2 2 nonneg W /\ every 2 2 nonneg H /\ iszero (W 0 0) /\
  rr_conv r = true /\ fst (rr_state r) 0 0 = fzero /\ Bltb fzero (fst (rr_state r) 1 0) = true.
Proof.
  cbv zeta. split; [apply upd_ltr_ok|]. split; [apply q_ltr_ok|].
  split. { intros i j Hi Hj. right. destruct i as [|[|]], j as [|[|]]; try lia; reflexivity. }
  split. { intros i j Hi Hj. right. destruct i as [|[|]], j as [|[|]]; try lia; reflexivity. }
  split. { intros i j Hi Hj. right. destruct i as [|[|]], j as [|[|]]; try lia; reflexivity. }
  split. { exists false. reflexivity. }
  repeat split; vm_compute; reflexivity.
Qed.

(** ** C85: NaN never goes away *)

(** Once an entry of W or H is NaN (in the starting factors, j = 0, or after j
    iterations), the compiled run goes on to max_iter without converging, all
    further losses are NaN and the returned factors contain the NaN. *)
Theorem C85_nan_is_permanent :
  forall (prec emax : Z) (Hp : Prec_gt_0 prec) (He : Prec_lt_emax prec emax)
    (m n k : nat) (V We U W0 H0 : fmat prec emax) upd loss
    (delta : binary_float prec emax) (cn : Z) (hold_h : bool) (delay_h : Z)
    (tick : nat -> bool) (max_iter : Z) (b : nat -> bool) (j : nat),
    implements m n k V We upd -> measures m n k V U loss -> 0 < m -> 0 < n ->
    (forall i, b i = true <-> held hold_h delay_h i) ->
    let r := rust_train upd loss (ieee_below delta) cn hold_h delay_h tick max_iter (W0, H0) in
    poisoned m n k (state_at upd b (W0, H0) j) ->
    j <= length (rr_hist r) ->
    rr_conv r = false /\ length (rr_hist r) = Z.to_nat max_iter /\
    (forall i, j <= i + 1 -> i < Z.to_nat max_iter -> nth_error (rr_hist r) i = Some B754_nan) /\
    poisoned m n k (rr_state r).
Proof.
  intros prec emax Hp He m n k V We U W0 H0 upd loss delta cn hold_h delay_h tick max_iter b j
    Hi Hl Hm Hn Hb r Hj Hlen.
  destruct (rust_summary upd loss (ieee_below delta) cn hold_h delay_h tick (W0, H0) max_iter b Hb)
    as (L & Eh & Es & _ & _ & Enc & _ & Ec).
  fold r in L, Eh, Es, Enc, Ec. set (N := length (rr_hist r)) in *.
  assert (Hpois : forall i, j <= i -> poisoned m n k (state_at upd b (W0, H0) i)).
  { induction 1 as [|i _ IH]; [exact Hj|]. exact (fstep_poisoned m n k V We _ _ _ (Hi (b i) _) IH). }
  assert (Hq : forall i, j <= i + 1 -> loss_at upd loss b (W0, H0) i = B754_nan).
  { intros i Hji. apply nan_eq. apply (fq_poisoned m n k V U _ _ Hm Hn (Hpois (Datatypes.S i) ltac:(lia)) (Hl _)). }
  assert (Hnc : rr_conv r = false).
  { destruct (rr_conv r) eqn:Er; [|reflexivity]. exfalso.
    destruct (Ec eq_refl) as [[[_ Hc] _] HN].
    assert (Hend : j <= N - 1 + 1) by lia.
    rewrite (Hq (N - 1) Hend) in Hc. unfold ieee_below, fsub in Hc.
    destruct (loss_at upd loss b (W0, H0) (N - 1 - span cn)); discriminate. }
  split; [exact Hnc|]. specialize (Enc Hnc). split; [exact Enc|]. split.
  - intros i Hji HiN. rewrite Eh, Enc. rewrite nth_error_map.
    rewrite (nth_error_nth' _ 0) by (rewrite seq_length; exact HiN).
    rewrite seq_nth by exact HiN. cbn. rewrite Hq by exact Hji. reflexivity.
  - rewrite Es. apply Hpois. exact Hlen.
Qed.
Print Assumptions C85_nan_is_permanent.

(** The Python engine stops at the first iteration that produces a NaN. *)
Theorem C85_python_stops_at_nan :
  forall (prec emax : Z) (Hp : Prec_gt_0 prec) (He : Prec_lt_emax prec emax)
    (m n k : nat) (V We U W0 H0 : fmat prec emax) upd loss
    (delta : binary_float prec emax) (nan_stop : fmat prec emax * fmat prec emax -> bool)
    (cn : Z) (hold_h : bool) (delay_h : Z) (max_iter : Z) (b : nat -> bool) (j : nat),
    implements m n k V We upd -> measures m n k V U loss -> 0 < m -> 0 < n -> (1 <= cn)%Z ->
    (forall s, isnan (loss s) -> nan_stop s = true) ->
    (forall i, b i = true <-> held hold_h delay_h i) ->
    let r := py_train upd loss (ieee_below delta) nan_stop cn delay_h hold_h max_iter (W0, H0) in
    poisoned m n k (state_at upd b (W0, H0) j) -> j < Z.to_nat max_iter ->
    length (pr_hist r) <= Nat.max 1 j /\
    (length (pr_hist r) = Nat.max 1 j -> pr_stop r = PNaN).
Proof.
  intros prec emax Hp He m n k V We U W0 H0 upd loss delta nan_stop cn hold_h delay_h max_iter b j
    Hi Hl Hm Hn Hcn Hst Hb r Hj Hlt.
  destruct (py_summary upd loss (ieee_below delta) nan_stop cn hold_h delay_h (W0, H0) max_iter b Hcn Hb)
    as (L & Eh & Es & Ed & Ens & En & Ec).
  fold r in L, Eh, Es, Ed, Ens, En, Ec. set (N := length (pr_hist r)) in *.
  assert (Hpois : forall i, j <= i -> poisoned m n k (state_at upd b (W0, H0) i)).
  { induction 1 as [|i _ IH]; [exact Hj|]. exact (fstep_poisoned m n k V We _ _ _ (Hi (b i) _) IH). }
  assert (Hnan : forall i, j <= i -> nan_stop (state_at upd b (W0, H0) i) = true).
  { intros i Hji. apply Hst. exact (fq_poisoned m n k V U _ _ Hm Hn (Hpois i Hji) (Hl _)). }
  assert (HN : N <= Nat.max 1 j).
  { destruct (Nat.le_gt_cases N (Nat.max 1 j)) as [|Hgt]; [assumption|]. exfalso.
    destruct (py_train_spec upd loss (ieee_below delta) nan_stop cn delay_h hold_h (W0, H0) max_iter Hcn)
      as [(i & Hii & Hno & _ & B & _)|(Hno & _ & B & _)]; fold r in B;
      (assert (EN : N = length (pr_hist r)) by reflexivity); rewrite B, map_length, seq_length in EN.
    - destruct (Hno (Nat.max 1 j - 1)) as [Hx _]; [lia|].
      rewrite (state_at_ext _ _ b _ _ (decides_eq b hold_h delay_h Hb)) in Hx.
      rewrite Hnan in Hx by lia. discriminate.
    - destruct (Hno (Nat.max 1 j - 1)) as [Hx _]; [lia|].
      rewrite (state_at_ext _ _ b _ _ (decides_eq b hold_h delay_h Hb)) in Hx.
      rewrite Hnan in Hx by lia. discriminate. }
  split; [exact HN|]. intros HE. apply En. split; [lia|]. rewrite Es. apply Hnan. lia.
Qed.
Print Assumptions C85_python_stops_at_nan.

(** A sample all of whose weights are zero: its row of W is NaN after the first
    iteration, so the run cannot converge. *)
Theorem C85_unweighted_sample :
  forall (prec emax : Z) (Hp : Prec_gt_0 prec) (He : Prec_lt_emax prec emax)
    (m n k : nat) (V We U W0 H0 : fmat prec emax) upd loss
    (delta : binary_float prec emax) (cn : Z) (hold_h : bool) (delay_h : Z)
    (tick : nat -> bool) (max_iter : Z) (i : nat),
    implements m n k V We upd -> measures m n k V U loss -> i < m -> 0 < n -> 0 < k ->
    (forall j, j < n -> iszero (We i j)) -> (0 < max_iter)%Z ->
    let r := rust_train upd loss (ieee_below delta) cn hold_h delay_h tick max_iter (W0, H0) in
    rr_conv r = false /\ rr_hist r = repeat B754_nan (Z.to_nat max_iter) /\
    forall a, a < k -> isnan (fst (rr_state r) i a).
Proof.
  intros prec emax Hp He m n k V We U W0 H0 upd loss delta cn hold_h delay_h tick max_iter i
    Hi Hl Him Hn Hk Hz Hmi r.
  set (b := hold_at hold_h delay_h).
  destruct (rust_summary upd loss (ieee_below delta) cn hold_h delay_h tick (W0, H0) max_iter b
              (hold_at_held_iff hold_h delay_h)) as (L & Eh & Es & _ & _ & Enc & _ & Ec).
  fold r in L, Eh, Es, Enc, Ec. set (N := length (rr_hist r)) in *.
  assert (Hpois : forall j a, a < k -> is_nan (fst (state_at upd b (W0, H0) (Datatypes.S j)) i a) = true).
  { intros j a Ha. cbn [state_at].
    apply (fstep_dead_row m n k V We (b j) _ _ i a Him Ha) with (2 := Hi (b j) _).
    intros l Hln. right. exact (Hz l Hln). }
  assert (Hq : forall j, loss_at upd loss b (W0, H0) j = B754_nan).
  { intros j. apply nan_eq. unfold loss_at.
    apply (fq_poisoned m n k V U (state_at upd b (W0, H0) (Datatypes.S j)) _ ltac:(lia) Hn); [|apply Hl].
    left. exists i, 0. repeat split; try assumption. apply Hpois, Hk. }
  assert (Hnc : rr_conv r = false).
  { destruct (rr_conv r) eqn:Er; [|reflexivity]. exfalso.
    destruct (Ec eq_refl) as [[[_ Hc] _] HN]. rewrite !Hq in Hc. discriminate. }
  specialize (Enc Hnc). split; [exact Hnc|]. split.
  - rewrite Eh, Enc. generalize (Z.to_nat max_iter) as M. intros M.
    assert (G : forall M s, map (loss_at upd loss b (W0, H0)) (seq s M) = repeat B754_nan M).
    { clear -Hq. induction M as [|M IH]; intros s; [reflexivity|]. cbn [seq map repeat]. rewrite Hq, IH. reflexivity. }
    apply G.
  - intros a Ha. rewrite Es, Enc. destruct (Z.to_nat max_iter) as [|M] eqn:EM; [lia|]. apply Hpois, Ha.
Qed.
Print Assumptions C85_unweighted_sample.

(** Likewise a feature, unless the profiles are held in the first iteration. *)
Theorem C85_unweighted_feature :
  forall (prec emax : Z) (Hp : Prec_gt_0 prec) (He : Prec_lt_emax prec emax)
    (m n k : nat) (V We U W0 H0 : fmat prec emax) upd loss
    (delta : binary_float prec emax) (cn : Z) (delay_h : Z)
    (tick : nat -> bool) (max_iter : Z) (j : nat),
    implements m n k V We upd -> measures m n k V U loss -> 0 < m -> j < n -> 0 < k ->
    (forall i, i < m -> iszero (We i j)) -> (0 < max_iter)%Z ->
    let r := rust_train upd loss (ieee_below delta) cn false delay_h tick max_iter (W0, H0) in
    rr_conv r = false /\ rr_hist r = repeat B754_nan (Z.to_nat max_iter) /\
    forall a, a < k -> isnan (snd (rr_state r) a j).
Proof.
  intros prec emax Hp He m n k V We U W0 H0 upd loss delta cn delay_h tick max_iter j
    Hi Hl Hm Hj Hk Hz Hmi r.
  set (b := hold_at false delay_h).
  destruct (rust_summary upd loss (ieee_below delta) cn false delay_h tick (W0, H0) max_iter b
              (hold_at_held_iff false delay_h)) as (L & Eh & Es & _ & _ & Enc & _ & Ec).
  fold r in L, Eh, Es, Enc, Ec. set (N := length (rr_hist r)) in *.
  assert (Hpois : forall t a, a < k -> is_nan (snd (state_at upd b (W0, H0) (Datatypes.S t)) a j) = true).
  { intros t a Ha. cbn [state_at].
    apply (fstep_dead_col m n k V We _ _ a j Ha Hj) with (2 := Hi (b t) _).
    intros l Hln. right. exact (Hz l Hln). }
  assert (Hq : forall t, loss_at upd loss b (W0, H0) t = B754_nan).
  { intros t. apply nan_eq. unfold loss_at.
    apply (fq_poisoned m n k V U (state_at upd b (W0, H0) (Datatypes.S t)) _ Hm ltac:(lia)); [|apply Hl].
    right. exists 0, j. repeat split; try assumption. apply Hpois, Hk. }
  assert (Hnc : rr_conv r = false).
  { destruct (rr_conv r) eqn:Er; [|reflexivity]. exfalso.
    destruct (Ec eq_refl) as [[[_ Hc] _] HN]. rewrite !Hq in Hc. discriminate. }
  specialize (Enc Hnc). split; [exact Hnc|]. split.
  - rewrite Eh, Enc. generalize (Z.to_nat max_iter) as M. intros M.
    assert (G : forall M s, map (loss_at upd loss b (W0, H0)) (seq s M) = repeat B754_nan M).
    { clear -Hq. induction M as [|M IH]; intros s; [reflexivity|]. cbn [seq map repeat]. rewrite Hq, IH. reflexivity. }
    apply G.
  - intros a Ha. rewrite Es, Enc. destruct (Z.to_nat max_iter) as [|M] eqn:EM; [lia|]. apply Hpois, Ha.
Qed.
Print Assumptions C85_unweighted_feature.

(** Uncertainties from 2^64 upwards have weight exactly zero in single
    precision: their square overflows. *)
Theorem C85_large_uncertainty_has_zero_weight :
  forall (U : fmat 24 128) i j,
    (is_finite (U i j) = true /\ (bpow radix2 64 <= B2R (U i j))%R) \/ U i j = B754_infinity false ->
    iszero (fweights U i j).
Proof.
  intros U i j Hu. unfold fweights.
  assert (E : fmul (U i j) (U i j) = (B754_infinity false : b32)).
  { destruct Hu as [[Hf Hu]|Hu]; [|rewrite Hu; reflexivity].
    pose proof (Bmult_correct 24 128 prec32 max32 mode_NE (U i j) (U i j)) as H.
    rewrite Rlt_bool_false in H.
    - rewrite xorb_nilpotent in H. unfold fmul.
      destruct (Bmult mode_NE (U i j) (U i j)); cbn in H; try discriminate.
      injection H as ->. reflexivity.
    - apply Rle_trans with (2 := Rle_abs _).
      apply round_ge_generic; try typeclasses eauto.
      + apply generic_format_bpow. unfold SpecFloat.fexp, SpecFloat.emin. cbn. lia.
      + assert (E128 : bpow radix2 128 = (bpow radix2 64 * bpow radix2 64)%R) by (rewrite <- bpow_plus; reflexivity).
        rewrite E128.
        pose proof (bpow_gt_0 radix2 64). apply Rmult_le_compat; lra. }
  rewrite E. exists false. reflexivity.
Qed.
Print Assumptions C85_large_uncertainty_has_zero_weight.
(* two samples, the second with an uncertainty too large for a weight *)
Definition xf_U2 : fmat 24 128 := fun i _ => if i =? 0 then lit32 1 0 else lit32 1 70.
Definition xf_upd2 := upd_ltr 2 1 1 (cst (lit32 1 0)) (fweights xf_U2).
Definition xf_loss2 := q_ltr 2 1 1 (cst (lit32 1 0)) xf_U2.
Lemma xf_free (i : nat) : (fun _ : nat => false) i = true <-> held false (-1) i.
Proof. unfold held. split; [discriminate | intros [E _]; discriminate E]. Qed.
Lemma xf_poisoned : poisoned 2 1 1 (state_at xf_upd2 (fun _ => false) (cst (lit32 1 1), cst (lit32 3 0)) 1).
Proof. left. exists 1, 0. split; [lia |]. split; [lia |]. vm_compute. reflexivity. Qed.
Lemma xf_unweighted (j : nat) : j < 1 -> iszero (fweights xf_U2 1 j).
Proof. intros _. exists false. vm_compute. reflexivity. Qed.
Example C85_nan_is_permanent_example :
  rr_conv (rust_train xf_upd2 xf_loss2 (ieee_below (lit32 1 0)) 5 false (-1) (fun _ => false) 3 (cst (lit32 1 1), cst (lit32 3 0))) = false.
Proof.
  refine (proj1 (C85_nan_is_permanent _ _ _ _ 2 1 1 _ _ _ _ _ xf_upd2 xf_loss2 _ 5 false (-1)%Z (fun _ => false) 3 (fun _ => false) 1
    (upd_ltr_ok _ _ _ _ _) (q_ltr_ok _ _ _ _ _) _ _ xf_free xf_poisoned _)); [lia | lia | vm_compute; lia].
Qed.
Example C85_python_stops_at_nan_example :
  length (pr_hist (py_train xf_upd2 xf_loss2 (ieee_below (lit32 1 0)) (fun s => is_nan (xf_loss2 s)) 5 (-1) false 3 (cst (lit32 1 1), cst (lit32 3 0)))) <= 1.
Proof.
  refine (proj1 (C85_python_stops_at_nan _ _ _ _ 2 1 1 _ _ _ _ _ xf_upd2 xf_loss2 _ (fun s => is_nan (xf_loss2 s)) 5 false (-1)%Z 3 (fun _ => false) 1
    (upd_ltr_ok _ _ _ _ _) (q_ltr_ok _ _ _ _ _) _ _ _ _ xf_free xf_poisoned _)); try lia; try (cbn; lia). intros s Hs. unfold isnan in Hs. rewrite Hs. reflexivity.
Qed.
Example C85_unweighted_sample_example :
  rr_hist (rust_train xf_upd2 xf_loss2 (ieee_below (lit32 1 0)) 5 true 2 (fun _ => false) 3 (cst (lit32 1 1), cst (lit32 3 0))) = repeat B754_nan 3.
Proof.
  refine (proj1 (proj2 (C85_unweighted_sample _ _ _ _ 2 1 1 _ _ _ _ _ xf_upd2 xf_loss2 _ 5 true 2%Z (fun _ => false) 3 1
    (upd_ltr_ok _ _ _ _ _) (q_ltr_ok _ _ _ _ _) _ _ _ xf_unweighted _))); lia.
Qed.
(* the same with the second feature *)
Definition xf_U3 : fmat 24 128 := fun _ j => if j =? 0 then lit32 1 0 else lit32 1 70.
Definition xf_upd3 := upd_ltr 1 2 1 (cst (lit32 1 0)) (fweights xf_U3).
Definition xf_loss3 := q_ltr 1 2 1 (cst (lit32 1 0)) xf_U3.
Example C85_unweighted_feature_example :
  rr_conv (rust_train xf_upd3 xf_loss3 (ieee_below (lit32 1 0)) 5 false (-1) (fun _ => false) 3 (cst (lit32 1 1), cst (lit32 3 0))) = false.
Proof.
  refine (proj1 (C85_unweighted_feature _ _ _ _ 1 2 1 _ _ _ _ _ xf_upd3 xf_loss3 _ 5 (-1)%Z (fun _ => false) 3 1
    (upd_ltr_ok _ _ _ _ _) (q_ltr_ok _ _ _ _ _) _ _ _ _ _)); try lia. intros i _. exists false. vm_compute. reflexivity.
Qed.
Example C85_large_uncertainty_has_zero_weight_example : iszero (fweights (cst (B754_infinity false)) 4 2).
Proof. apply C85_large_uncertainty_has_zero_weight. right. reflexivity. Qed.

(** 2 x 1 data, second sample with uncertainty 2^70. *)
Example C85_instance :
  let V := cst (lit32 1 0) in
  let U := fun i (_ : nat) => if i =? 0 then lit32 1 0 else lit32 1 70 in
  let W := cst (lit32 1 1) in
  let H := cst (lit32 3 0) in
  let upd := upd_ltr 2 1 1 V (fweights U) in
  let loss := q_ltr 2 1 1 V U in
  implements 2 1 1 V (fweights U) upd /\ measures 2 1 1 V U loss /\
  (forall j, j < 1 -> iszero (fweights U 1 j)) /\
  poisoned 2 1 1 (state_at upd (fun _ => false) (W, H) 1) /\
  rr_hist (rust_train upd loss (ieee_below (lit32 1 0)) 5 false (-1) (fun _ => false) 3 (W, H))
  = [B754_nan; B754_nan; B754_nan] /\
  pr_stop (py_train upd loss (ieee_below (lit32 1 0)) (fun s => is_nan (loss s)) 5 (-1) false 3 (W, H)) = PNaN.
Proof.
  cbv zeta. split; [apply upd_ltr_ok|]. split; [apply q_ltr_ok|].
  split. { intros j Hj. exists false. vm_compute. reflexivity. }
  split. { left. exists 1, 0. split; [lia|]. split; [lia|]. vm_compute. reflexivity. }
  split; vm_compute; reflexivity.
Qed.

(** ** C86: the tolerance loses its meaning for large Q *)

(** When the tolerance is at most 2^e and every loss at least 2^(e + prec - 1),
    the run is reported converged exactly when some loss is not smaller than
    the one a window earlier: the size of the tolerance is irrelevant. *)
Theorem C86_tolerance_below_spacing :
  forall (prec emax : Z) (Hp : Prec_gt_0 prec) (He : Prec_lt_emax prec emax)
    (S : Type) (upd : bool -> S -> S) (loss : S -> binary_float prec emax)
    (delta : binary_float prec emax) (cn : Z) (hold_h : bool) (delay_h : Z)
    (tick : nat -> bool) (max_iter : Z) (st0 : S) (b : nat -> bool) (e : Z),
    (forall i, b i = true <-> held hold_h delay_h i) ->
    let q := loss_at upd loss b st0 in
    (forall i, i < Z.to_nat max_iter ->
       is_finite (q i) = true /\ (bpow radix2 (e + prec - 1) <= B2R (q i))%R) ->
    is_finite delta = true -> (0 < B2R delta <= bpow radix2 e)%R ->
    let r := rust_train upd loss (ieee_below delta) cn hold_h delay_h tick max_iter st0 in
    rr_conv r = true <->
    exists j, j < Z.to_nat max_iter /\ Z.to_nat (cn - 1) <= j /\
      (B2R (q (j - Z.to_nat (cn - 1))%nat) <= B2R (q j))%R.
Proof.
  intros prec emax Hp He S upd loss delta cn hold_h delay_h tick max_iter st0 b e Hb q Hq Hd Hde r.
  destruct (rust_summary upd loss (ieee_below delta) cn hold_h delay_h tick st0 max_iter b Hb)
    as (_ & _ & _ & _ & _ & _ & G & _).
  fold r q in G. rewrite G. unfold criterion, span.
  assert (Hs : forall i, i < Z.to_nat max_iter -> Bsign (q i) = false).
  { intros i Hi. destruct (Hq i Hi) as [_ H2]. pose proof (bpow_gt_0 radix2 (e + prec - 1)).
    destruct (q i) as [s|s| |s mm ee Hbd]; cbn [B2R Bsign] in *; try lra.
    destruct s; [|reflexivity]. exfalso.
    assert (F2R (Float radix2 (cond_Zopp true (Z.pos mm)) ee) <= 0)%R by (apply F2R_le_0; cbn; lia). lra. }
  split.
  - intros (j & Hj & Hw & Hx). exists j. split; [exact Hj|]. split; [exact Hw|].
    assert (Hj' : j - Z.to_nat (cn - 1) < Z.to_nat max_iter) by lia.
    apply (below_granular delta _ _ e) in Hx; try assumption; try (apply Hq; assumption); apply Hs; assumption.
  - intros (j & Hj & Hw & Hx). exists j. split; [exact Hj|]. split; [exact Hw|].
    assert (Hj' : j - Z.to_nat (cn - 1) < Z.to_nat max_iter) by lia.
    apply (below_granular delta _ _ e); try assumption; try (apply Hq; assumption); apply Hs; assumption.
Qed.
Print Assumptions C86_tolerance_below_spacing.

(** In single precision with the default tolerance 0.1: losses from 2^20 =
    1048576 upwards. *)
Theorem C86_default_tolerance :
  forall (S : Type) (upd : bool -> S -> S) (loss : S -> b32)
    (cn : Z) (hold_h : bool) (delay_h : Z) (tick : nat -> bool) (max_iter : Z) (st0 : S) (b : nat -> bool),
    (forall i, b i = true <-> held hold_h delay_h i) ->
    let q := loss_at upd loss b st0 in
    (forall i, i < Z.to_nat max_iter -> is_finite (q i) = true /\ (1048576 <= B2R (q i))%R) ->
    let r := rust_train upd loss (ieee_below (lit32 13421773 (-27))) cn hold_h delay_h tick max_iter st0 in
    rr_conv r = true <->
    exists j, j < Z.to_nat max_iter /\ Z.to_nat (cn - 1) <= j /\
      (B2R (q (j - Z.to_nat (cn - 1))%nat) <= B2R (q j))%R.
Proof.
  intros S upd loss cn hold_h delay_h tick max_iter st0 b Hb q Hq r.
  apply (C86_tolerance_below_spacing 24 128 _ _ S upd loss _ cn hold_h delay_h tick max_iter st0 b (-3) Hb).
  - intros i Hi. destruct (Hq i Hi) as [A B]. split; [exact A|].
    change (bpow radix2 (-3 + 24 - 1)) with (IZR (2 ^ 20)). exact B.
  - vm_compute. reflexivity.
  - assert (E : B2R (lit32 13421773 (-27)) = F2R (Float radix2 13421773 (-27))) by (vm_compute; reflexivity).
    rewrite E. unfold F2R. cbn. lra.
Qed.
Print Assumptions C86_default_tolerance.
(* the loss is 2^20 + 8 at first and 2^20 from then on *)
Definition xf_q (s : nat) : b32 := match s with 0 | 1 => lit32 1048584 0 | _ => lit32 1048576 0 end.
Lemma xf_q_large i : is_finite (xf_q i) = true /\ (1048576 <= B2R (xf_q i))%R.
Proof.
  assert (A : B2R (lit32 1048584 0) = 1048584%R /\ B2R (lit32 1048576 0) = 1048576%R).
  { split; unfold lit32; vm_compute (B2R _); cbn; lra. }
  destruct A as [A B]. destruct i as [|[|i]]; cbn [xf_q]; rewrite ?A, ?B; (split; [vm_compute; reflexivity | lra]).
Qed.
Definition xf_run := rust_train (fun (_ : bool) s => Datatypes.S s) xf_q (ieee_below (lit32 13421773 (-27))) 2 false (-1) (fun _ => false) 10 0.
Example C86_default_tolerance_example : rr_conv xf_run = true <->
  exists j, j < 10 /\ 1 <= j /\ (B2R (xf_q (Datatypes.S (j - 1))) <= B2R (xf_q (Datatypes.S j)))%R.
Proof.
  pose proof (C86_default_tolerance nat (fun _ s => Datatypes.S s) xf_q 2 false (-1) (fun _ => false) 10 0 (fun _ => false) xf_free
    (fun i _ => xf_q_large _)) as E. cbv zeta in E. unfold loss_at in E.
  assert (K : forall i, state_at (fun (_ : bool) s => Datatypes.S s) (fun _ => false) 0 i = i) by (induction i as [|i IH]; cbn [state_at]; congruence).
  unfold xf_run. rewrite E. split; intros (j & A & B & C); exists j; rewrite !K in *; repeat split; try assumption; cbn in *; lia.
Qed.
Example C86_tolerance_below_spacing_example : rr_conv xf_run = true.
Proof.
  refine (proj2 (C86_tolerance_below_spacing 24 128 _ _ nat (fun _ s => Datatypes.S s) xf_q (lit32 13421773 (-27)) 2 false (-1) (fun _ => false) 10 0
    (fun _ => false) (-3) xf_free (fun i _ => _) _ _) _).
  - destruct (xf_q_large (state_at (fun (_ : bool) s => Datatypes.S s) (fun _ => false) 0 (Datatypes.S i))) as [A B]. split; [exact A |].
    eapply Rle_trans; [| exact B]. cbn. lra.
  - vm_compute. reflexivity.
  - assert (A : B2R (lit32 13421773 (-27)) = (13421773 * / 134217728)%R) by (unfold lit32; vm_compute (B2R _); cbn; lra). rewrite A. cbn. lra.
  - exists 3. split; [cbn; lia |]. split; [cbn; lia |]. apply Rle_refl.
Qed.

(** The tolerance is the float nearest to 0.1; losses 1048578, 1048577.75,
    1048577.75 with window 2: not converged at the drop of 0.25 (above the
    tolerance), converged at the repeat. *)
Example C86_instance :
  let q := fun s : nat => match s with 0 => lit32 1048579 0 | 1 => lit32 1048578 0 | _ => lit32 8388622 (-3) end in
  let r := rust_train (fun (_ : bool) s => Datatypes.S s) q (ieee_below (lit32 13421773 (-27)))
             2 false (-1) (fun _ => false) 10 0 in
  (forall s, is_finite (q s) = true) /\ rr_conv r = true /\ rr_ci r = 2 /\
  Bltb (lit32 1048575 0) (q 2) = true.
Proof.
  cbv zeta. split; [intros [|[|s]]; vm_compute; reflexivity|].
  repeat split; vm_compute; reflexivity.
Qed.

(** ** C87: every run converges or meets a NaN *)

Lemma least_nan {prec emax} (q : nat -> binary_float prec emax) N :
  (forall i, i <= N -> is_nan (q i) = false) \/ exists i, i <= N /\ is_nan (q i) = true.
Proof.
  induction N as [|N IH].
  - destruct (is_nan (q 0)) eqn:E; [right; exists 0; auto|left]. intros i Hi. replace i with 0 by lia. exact E.
  - destruct IH as [IH|(i & Hi & E)]; [|right; exists i; auto].
    destruct (is_nan (q (S N))) eqn:E; [right; exists (S N); auto|left].
    intros i Hi. destruct (Nat.eq_dec i (S N)) as [->|]; [exact E|]. apply IH. lia.
Qed.

(** Whatever the update does (LS-NMF, WS-NMF or a user's replacement), as long
    as the losses are sums of squares: if the first loss is finite and the
    tolerance positive, the compiled run converges within K windows, K the
    number of half-tolerances in the first loss, or a NaN appears. *)
Theorem C87_converges_or_nan :
  forall (prec emax : Z) (Hp : Prec_gt_0 prec) (He : Prec_lt_emax prec emax)
    (m n k : nat) (V U : fmat prec emax) upd loss st0
    (delta : binary_float prec emax) (cn : Z) (hold_h : bool) (delay_h : Z)
    (tick : nat -> bool) (max_iter : Z) (b : nat -> bool) (K : nat),
    measures m n k V U loss ->
    (forall i, b i = true <-> held hold_h delay_h i) ->
    let q := loss_at upd loss b st0 in
    is_finite (q 0) = true -> is_finite delta = true -> (0 < B2R delta)%R ->
    (2 * B2R (q 0%nat) < INR K * B2R delta)%R ->
    (Z.of_nat (K * span cn) < max_iter)%Z ->
    let r := rust_train upd loss (ieee_below delta) cn hold_h delay_h tick max_iter st0 in
    (rr_conv r = true /\ rr_ci r <= K * span cn) \/
    (exists i, i <= K * span cn /\ nth_error (rr_hist r) i = Some B754_nan).
Proof.
  intros prec emax Hp He m n k V U upd loss st0 delta cn hold_h delay_h tick max_iter b K
    Hl Hb q Hf Fd Hd HK Hmi r.
  destruct (rust_summary upd loss (ieee_below delta) cn hold_h delay_h tick st0 max_iter b Hb)
    as (L & Eh & Es & _ & Eci & Enc & Eiff & Ec).
  fold r q in L, Eh, Es, Eci, Enc, Eiff, Ec. set (N := length (rr_hist r)) in *.
  assert (Hnn : forall i, nonneg (q i)) by (intros i; apply (fq_nn m n k V U _ _ (Hl _))).
  destruct (least_nan q (K * span cn)) as [Hno|(i & Hi & Hx)].
  - left.
    destruct (windows q delta (span cn) K 0 Hnn Hf Fd Hd HK) as (t & Ht & Hbw).
    { intros t Ht. apply Hno. cbn. nia. }
    cbn [Nat.add] in Hbw.
    assert (Hc : criterion (ieee_below delta) cn q (t * span cn)).
    { split; [nia|]. replace (t * span cn - span cn) with ((t - 1) * span cn) by nia. exact Hbw. }
    assert (Hconv : rr_conv r = true) by (apply Eiff; exists (t * span cn); split; [nia|exact Hc]).
    split; [exact Hconv|]. destruct (Ec Hconv) as [[_ Hfirst] HN]. rewrite Eci.
    destruct (Nat.le_gt_cases (N - 1) (t * span cn)) as [|Hgt]; [nia|].
    exfalso. exact (Hfirst _ Hgt Hc).
  - destruct (Nat.lt_ge_cases i N) as [HiN|HiN].
    + right. exists i. split; [exact Hi|]. rewrite Eh, nth_error_map.
      rewrite (nth_error_nth' _ 0) by (rewrite seq_length; exact HiN).
      rewrite seq_nth by exact HiN. cbn. rewrite (nan_eq _ Hx). reflexivity.
    + left. assert (Hconv : rr_conv r = true).
      { destruct (rr_conv r) eqn:Er; [reflexivity|]. specialize (Enc eq_refl). nia. }
      split; [exact Hconv|]. rewrite Eci. lia.
Qed.
Print Assumptions C87_converges_or_nan.

Theorem C87_python_converges_or_nan :
  forall (prec emax : Z) (Hp : Prec_gt_0 prec) (He : Prec_lt_emax prec emax)
    (m n k : nat) (V U : fmat prec emax) upd loss st0
    (delta : binary_float prec emax) (nan_stop : fmat prec emax * fmat prec emax -> bool)
    (cn : Z) (hold_h : bool) (delay_h : Z) (max_iter : Z) (b : nat -> bool) (K : nat),
    measures m n k V U loss -> (1 <= cn)%Z ->
    (forall s, isnan (loss s) -> nan_stop s = true) ->
    (forall i, b i = true <-> held hold_h delay_h i) ->
    let q := loss_at upd loss b st0 in
    is_finite (q 1) = true -> is_finite delta = true -> (0 < B2R delta)%R ->
    (2 * B2R (q 1%nat) < INR K * B2R delta)%R ->
    (Z.of_nat (K * span cn) + 1 < max_iter)%Z ->
    let r := py_train upd loss (ieee_below delta) nan_stop cn delay_h hold_h max_iter st0 in
    (pr_stop r = PConverged \/ pr_stop r = PNaN) /\ length (pr_hist r) <= K * span cn + 2.
Proof.
  intros prec emax Hp He m n k V U upd loss st0 delta nan_stop cn hold_h delay_h max_iter b K
    Hl Hcn Hst Hb q Hf Fd Hd HK Hmi r.
  pose proof (decides_eq b hold_h delay_h Hb) as Eb.
  assert (Eq : forall i, loss_at upd loss (hold_at hold_h delay_h) st0 i = q i)
    by (intros i; apply loss_at_ext; exact Eb).
  assert (Hnn : forall i, nonneg (q i)) by (intros i; apply (fq_nn m n k V U _ _ (Hl _))).
  assert (Hbad : exists i, i <= K * span cn + 1 /\
    (nan_stop (state_at upd (hold_at hold_h delay_h) st0 (Datatypes.S i)) = true \/
     stopb_py upd loss (ieee_below delta) cn delay_h hold_h st0 i = true)).
  { destruct (least_nan q (K * span cn + 1)) as [Hno|(i & Hi & Hx)].
    - destruct (windows q delta (span cn) K 1 Hnn Hf Fd Hd HK) as (t & Ht & Hbw).
      { intros t Ht. apply Hno. nia. }
      exists (1 + t * span cn). split; [nia|]. right. unfold stopb_py.
      apply andb_true_iff. split.
      + apply Nat.leb_le. unfold span in *. nia.
      + rewrite !Eq.
        replace (1 + t * span cn - (Z.to_nat cn - 1)) with (1 + (t - 1) * span cn) by (unfold span in *; nia).
        exact Hbw.
    - exists i. split; [exact Hi|]. left. apply Hst. unfold isnan. rewrite (state_at_ext _ _ b _ _ Eb). exact Hx. }
  destruct Hbad as (i & Hi & Hx).
  destruct (py_train_spec upd loss (ieee_below delta) nan_stop cn delay_h hold_h st0 max_iter Hcn)
    as [(j & Hj & Hno & A & B & C & D)|(Hno & A & B & C & D)].
  - fold r in A, B, C, D. split.
    + destruct D as [[_ D]|(_ & _ & D)]; auto.
    + rewrite B, map_length, seq_length.
      destruct (Nat.le_gt_cases j i) as [|Hgt]; [lia|].
      destruct (Hno _ Hgt) as [H1 H2]. destruct Hx; congruence.
  - exfalso. assert (Hlt : i < Z.to_nat max_iter) by lia.
    destruct (Hno _ Hlt) as [H1 H2]. destruct Hx; congruence.
Qed.
Print Assumptions C87_python_converges_or_nan.
(* one cell of value 5 *)
Definition xf_upd4 := upd_ltr 1 1 1 (cst (lit32 5 0)) (fweights (cst (lit32 1 0))).
Definition xf_loss4 := q_ltr 1 1 1 (cst (lit32 5 0)) (cst (lit32 1 0)).
Definition xf_q4 (i : nat) : b32 := loss_at xf_upd4 xf_loss4 (fun _ => false) (cst (lit32 1 0), cst (lit32 3 0)) i.
Lemma xf_delta : B2R (lit32 1 (-3)) = (/ 8)%R.
Proof. unfold lit32. vm_compute (B2R _). cbn. lra. Qed.
Lemma xf_small i : Bltb (xf_q4 i) (lit32 1 (-3)) = true -> is_finite (xf_q4 i) = true -> (2 * B2R (xf_q4 i) < INR 3 * B2R (lit32 1 (-3)))%R.
Proof. intros A B. rewrite Bltb_correct in A by (exact B || reflexivity). revert A. case Rlt_bool_spec; [| discriminate]. intros A _. rewrite xf_delta in *. replace (INR 3) with 3%R by (cbn; lra). lra. Qed.
Example C87_converges_or_nan_example :
  let r := rust_train xf_upd4 xf_loss4 (ieee_below (lit32 1 (-3))) 3 false (-1) (fun _ => false) 100 (cst (lit32 1 0), cst (lit32 3 0)) in
  (rr_conv r = true /\ rr_ci r <= 6) \/ (exists i, i <= 6 /\ nth_error (rr_hist r) i = Some B754_nan).
Proof.
  refine (C87_converges_or_nan _ _ _ _ 1 1 1 _ _ xf_upd4 xf_loss4 _ (lit32 1 (-3)) 3 false (-1) (fun _ => false) 100 (fun _ => false) 3
    (q_ltr_ok _ _ _ _ _) xf_free _ _ _ (xf_small 0 _ _) _); try (vm_compute; reflexivity). rewrite xf_delta. lra.
Qed.
Example C87_python_converges_or_nan_example :
  let r := py_train xf_upd4 xf_loss4 (ieee_below (lit32 1 (-3))) (fun s => is_nan (xf_loss4 s)) 3 (-1) false 100 (cst (lit32 1 0), cst (lit32 3 0)) in
  (pr_stop r = PConverged \/ pr_stop r = PNaN) /\ length (pr_hist r) <= 8.
Proof.
  refine (C87_python_converges_or_nan _ _ _ _ 1 1 1 _ _ xf_upd4 xf_loss4 _ (lit32 1 (-3)) (fun s => is_nan (xf_loss4 s)) 3 false (-1) 100 (fun _ => false) 3
    (q_ltr_ok _ _ _ _ _) _ _ xf_free _ _ _ (xf_small 1 _ _) _).
  - lia.
  - intros s Hs. unfold isnan in Hs. rewrite Hs. reflexivity.
  - vm_compute. reflexivity.
  - reflexivity.
  - rewrite xf_delta. lra.
  - vm_compute. reflexivity.
  - vm_compute. reflexivity.
  - reflexivity.
Qed.

(** 1 x 1 data, tolerance 1/8, window 3: first loss below 0.25, so K = 4. *)
Example C87_instance :
  let V := cst (lit32 5 0) in let U := cst (lit32 1 0) in
  let W := cst (lit32 1 0) in let H := cst (lit32 3 0) in
  let upd := upd_ltr 1 1 1 V (fweights U) in
  let loss := q_ltr 1 1 1 V U in
  let q := loss_at upd loss (fun _ => false) (W, H) in
  let r := rust_train upd loss (ieee_below (lit32 1 (-3))) 3 false (-1) (fun _ => false) 100 (W, H) in
  measures 1 1 1 V U loss /\ is_finite (q 0) = true /\ Bltb (q 0) (lit32 1 (-2)) = true /\
  rr_conv r = true /\ rr_ci r = 2.
Proof.
  cbv zeta. split; [apply q_ltr_ok|]. repeat split; vm_compute; reflexivity.
Qed.

(** ** C88: accuracy of the reported loss *)

(** Non-negative numbers added in any order: the result is within the factors
    (1 - 2^-prec)^(N-1) and (1 + 2^-prec)^(N-1) of the exact sum. *)
Theorem C88_summation_accuracy :
  forall (prec emax : Z) (Hp : Prec_gt_0 prec) (He : Prec_lt_emax prec emax)
    (l : list (binary_float prec emax)) (s : binary_float prec emax),
    total l s ->
    (forall x, In x l -> Bsign x = false /\ is_finite x = true) ->
    let u := bpow radix2 (- prec) in
    let N := length l in
    ((exact_sum l * (1 + u) ^ (N - 1) < bpow radix2 emax)%R -> is_finite s = true) /\
    (is_finite s = true ->
     (exact_sum l * (1 - u) ^ (N - 1) <= B2R s <= exact_sum l * (1 + u) ^ (N - 1))%R).
Proof.
  intros prec emax Hp He l s Ht Hl u N.
  assert (Hg : Forall good l) by (apply Forall_forall; exact Hl).
  split; intros H.
  - exact (total_no_overflow l s Ht Hg H).
  - exact (total_accuracy l s Ht Hg H).
Qed.
Print Assumptions C88_summation_accuracy.

(** The loss of any engine: for the products it computed, the reported value is
    within those factors of the sum of the computed squares. *)
Theorem C88_loss_accuracy :
  forall (prec emax : Z) (Hp : Prec_gt_0 prec) (He : Prec_lt_emax prec emax)
    (m n k : nat) (V U : fmat prec emax) loss st,
    measures m n k V U loss -> is_finite (loss st) = true ->
    exists WH, product m k n (fst st) (snd st) WH /\
      let sq := fun p : nat * nat =>
        let r := fdiv (fsub (V (fst p) (snd p)) (WH (fst p) (snd p))) (U (fst p) (snd p)) in fmul r r in
      let Q := exact_sum (map sq (list_prod (seq 0 m) (seq 0 n))) in
      let u := bpow radix2 (- prec) in
      (Q * (1 - u) ^ (m * n - 1) <= B2R (loss st) <= Q * (1 + u) ^ (m * n - 1))%R.
Proof.
  intros prec emax Hp He m n k V U loss st Hl Hf. destruct (Hl st) as (WH & E1 & E2).
  exists WH. split; [exact E1|]. cbv zeta.
  set (l := map (fun p => let r := scaled V U WH (fst p) (snd p) in fmul r r)
                (list_prod (seq 0 m) (seq 0 n))) in *.
  assert (EN : length l = m * n).
  { unfold l. rewrite map_length, prod_length, !seq_length. reflexivity. }
  assert (Hg : Forall good l).
  { apply Forall_forall. intros x Hx. split.
    - unfold l in Hx. apply in_map_iff in Hx. destruct Hx as (p & <- & Hp'). apply nn_sign; [apply nn_sqr|].
      destruct (is_nan (let r := scaled V U WH (fst p) (snd p) in fmul r r)) eqn:En; [|reflexivity]. exfalso.
      assert (Hn : is_nan (loss st) = true).
      { apply (total_nan _ _ E2). exists (let r := scaled V U WH (fst p) (snd p) in fmul r r).
        split; [|exact En]. apply (in_map (fun p => let r := scaled V U WH (fst p) (snd p) in fmul r r)), Hp'. }
      destruct (loss st); discriminate.
    - assert (Hnn : forall y, In y l -> Bsign y = false \/ is_nan y = true).
      { intros y Hy. unfold l in Hy. apply in_map_iff in Hy. destruct Hy as (p & <- & _).
        destruct (nn_sqr (scaled V U WH (fst p) (snd p))); auto. }
      clear -E2 Hf Hx Hnn. revert Hf Hnn x Hx. induction E2 as [|x|l1 l2 a b H1 IH1 H2 IH2|l l' a Hp' H IH]; intros Hf Hnn y Hy.
      + destruct Hy.
      + destruct Hy as [<-|[]]. exact Hf.
      + assert (Ha : nonneg a) by (apply (total_nn _ _ H1); intros z Hz; destruct (Hnn z (in_or_app _ _ _ (or_introl Hz))); [right|left]; assumption).
        assert (Hb : nonneg b) by (apply (total_nn _ _ H2); intros z Hz; destruct (Hnn z (in_or_app _ _ _ (or_intror Hz))); [right|left]; assumption).
        assert (Fab : is_finite a = true /\ is_finite b = true).
        { destruct (is_nan a) eqn:Na; [exfalso; pose proof (add_nan_l a b Na); destruct (fadd a b); discriminate|].
          destruct (is_nan b) eqn:Nb; [exfalso; pose proof (add_nan_r a b Nb); destruct (fadd a b); discriminate|].
          apply add_finite_inv; [exact Hf|apply nn_sign; assumption|apply nn_sign; assumption]. }
        apply in_app_or in Hy. destruct Hy as [Hy|Hy].
        * apply IH1; [apply Fab| |exact Hy]. intros z Hz. apply Hnn, in_or_app. auto.
        * apply IH2; [apply Fab| |exact Hy]. intros z Hz. apply Hnn, in_or_app. auto.
      + apply IH; [exact Hf| |].
        * intros z Hz. apply Hnn. eapply Permutation_in; eassumption.
        * eapply Permutation_in; [|exact Hy]. symmetry. exact Hp'. }
  pose proof (total_accuracy l _ E2 Hg Hf) as HA. rewrite EN in HA. exact HA.
Qed.
Print Assumptions C88_loss_accuracy.
Definition xf_l : list b32 := [lit32 1 24; lit32 1 0; lit32 1 0; lit32 1 0].
Definition xf_s : b32 := fadd (lit32 1 24) (fadd (lit32 1 0) (fadd (lit32 1 0) (lit32 1 0))).
Lemma xf_total : total xf_l xf_s.
Proof.
  apply (total_app _ _ _ _ [lit32 1 24] [lit32 1 0; lit32 1 0; lit32 1 0]); [apply total_one |].
  apply (total_app _ _ _ _ [lit32 1 0] [lit32 1 0; lit32 1 0]); [apply total_one |].
  apply (total_app _ _ _ _ [lit32 1 0] [lit32 1 0]); apply total_one.
Qed.
Lemma xf_signs x : In x xf_l -> Bsign x = false /\ is_finite x = true.
Proof. intros [<- | [<- | [<- | [<- | []]]]]; vm_compute; auto. Qed.
Example C88_summation_accuracy_example :
  (exact_sum xf_l * (1 - bpow radix2 (-24)) ^ 3 <= B2R xf_s <= exact_sum xf_l * (1 + bpow radix2 (-24)) ^ 3)%R.
Proof. refine (proj2 (C88_summation_accuracy _ _ _ _ xf_l xf_s xf_total xf_signs) _). vm_compute. reflexivity. Qed.
Example C88_loss_accuracy_example :=
  C88_loss_accuracy 24 128 _ _ 1 1 1 (cst (lit32 5 0)) (cst (lit32 1 0)) xf_loss4 (cst (lit32 2 0), cst (lit32 3 0)) (q_ltr_ok _ _ _ _ _)
    ltac:(vm_compute; reflexivity).

(** The exact-arithmetic guarantee that LS-NMF never raises Q (C06) fails in
    single precision: V = U = 1, W = 21, H = 3, losses 2^-48 then 2^-46. *)
Theorem C88_monotone_refuted :
  exists (V U W H : fmat 24 128) upd loss,
    implements 1 1 1 V (fweights U) upd /\ measures 1 1 1 V U loss /\
    (forall x, In x [V 0 0; U 0 0; W 0 0; H 0 0] -> is_finite x = true /\ Bltb fzero x = true) /\
    let q := loss_at upd loss (fun _ => false) (W, H) in
    Bltb (q 0) (q 1) = true /\ is_finite (q 1) = true.
Proof.
  exists (cst (lit32 1 0)), (cst (lit32 1 0)), (cst (lit32 21 0)), (cst (lit32 3 0)).
  exists (upd_ltr 1 1 1 (cst (lit32 1 0)) (fweights (cst (lit32 1 0)))).
  exists (q_ltr 1 1 1 (cst (lit32 1 0)) (cst (lit32 1 0))).
  split; [apply upd_ltr_ok|]. split; [apply q_ltr_ok|]. split.
  - intros x [<-|[<-|[<-|[<-|[]]]]]; vm_compute; auto.
  - split; vm_compute; reflexivity.
Qed.
Print Assumptions C88_monotone_refuted.

(** 2^24 + 1 + 1 + 1 gives 2^24 from the left and 2^24 + 4 from the right. *)
Example C88_instance :
  let l := [lit32 1 24; lit32 1 0; lit32 1 0; lit32 1 0] in
  (forall x, In x l -> Bsign x = false /\ is_finite x = true) /\
  (exists s, total l s /\ s = lit32 1 24) /\
  (exists s, total l s /\ s = lit32 16777220 0).
Proof.
  cbv zeta. split; [intros x [<-|[<-|[<-|[<-|[]]]]]; vm_compute; auto|].
  split.
  - eexists. split; [apply total_ltr_ok|]. apply B2SF_inj. vm_compute. reflexivity.
  - exists (fadd (lit32 1 24) (fadd (lit32 1 0) (fadd (lit32 1 0) (lit32 1 0)))). split.
    + apply (total_app _ _ _ _ [lit32 1 24] [lit32 1 0; lit32 1 0; lit32 1 0]); [apply total_one|].
      apply (total_app _ _ _ _ [lit32 1 0] [lit32 1 0; lit32 1 0]); [apply total_one|].
      apply (total_app _ _ _ _ [lit32 1 0] [lit32 1 0]); apply total_one.
    + apply B2SF_inj. vm_compute. reflexivity.
Qed.
