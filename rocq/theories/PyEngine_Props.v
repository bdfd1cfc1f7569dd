(** C84-C86 for the Python engine: zero entries, samples and features without weight, and
    a tolerance below the spacing of the losses. *)
From Coq Require Import ZArith Reals Lra Lia List Bool Permutation Arith.
From Flocq Require Import Core BinarySingleNaN.
From Verif Require Import Float_Model Float_Spec Float_Proofs LSNMF_Model Train_Model Train_Spec Train_Proofs Float_Props.
Import ListNotations.
Local Open Scope nat_scope.

(** An entry that starts at zero is zero or NaN at the end. *)
Theorem C84_python_zero_entries_locked :
  forall (prec emax : Z) (Hp : Prec_gt_0 prec) (He : Prec_lt_emax prec emax)
    (m n k : nat) (V We W0 H0 : fmat prec emax) upd
    (loss : fmat prec emax * fmat prec emax -> binary_float prec emax)
    (delta : binary_float prec emax) (nan_stop : fmat prec emax * fmat prec emax -> bool)
    (cn : Z) (hold_h : bool) (delay_h : Z) (max_iter : Z),
    implements m n k V We upd -> (1 <= cn)%Z ->
    let r := py_train upd loss (ieee_below delta) nan_stop cn delay_h hold_h max_iter (W0, H0) in
    (forall i a, i < m -> a < k -> iszero (W0 i a) ->
       iszero (fst (pr_state r) i a) \/ isnan (fst (pr_state r) i a)) /\
    (forall a j, a < k -> j < n -> iszero (H0 a j) ->
       iszero (snd (pr_state r) a j) \/ isnan (snd (pr_state r) a j)).
Proof.
  intros prec emax Hp He m n k V We W0 H0 upd loss delta nan_stop cn hold_h delay_h max_iter Hi Hcn r.
  destruct (py_summary upd loss (ieee_below delta) nan_stop cn hold_h delay_h (W0, H0) max_iter _ Hcn
              (hold_at_held_iff hold_h delay_h)) as (_ & _ & Es & _).
  fold r in Es. rewrite Es. set (N := length (pr_hist r)).
  split.
  - intros i a Hi' Ha Hz.
    enough (G : void (fst (state_at upd (hold_at hold_h delay_h) (W0, H0) N) i a)) by (destruct G; auto).
    apply (run_inv (fun st => void (fst st i a)) upd _ (W0, H0)).
    + right. exact Hz.
    + intros h s Hs. exact (fstep_w_void m n k V We h s _ i a Hi' Ha (Hi h s) Hs).
  - intros a j Ha Hj Hz.
    enough (G : void (snd (state_at upd (hold_at hold_h delay_h) (W0, H0) N) a j)) by (destruct G; auto).
    apply (run_inv (fun st => void (snd st a j)) upd _ (W0, H0)).
    + right. exact Hz.
    + intros h s Hs. exact (fstep_h_void m n k V We h s _ a j Ha Hj (Hi h s) Hs).
Qed.
Print Assumptions C84_python_zero_entries_locked.

(** A sample or a feature without weight: stopped by the NaN of the first iteration. *)
Lemma first_nan prec emax (Hp : Prec_gt_0 prec) (He : Prec_lt_emax prec emax) m n k (V U : fmat prec emax) upd loss delta nan_stop cn hold_h delay_h max_iter st0 :
  measures m n k V U loss -> 0 < m -> 0 < n -> (1 <= cn)%Z -> (0 < max_iter)%Z -> (forall s, isnan (loss s) -> nan_stop s = true) ->
  poisoned m n k (upd (hold_at hold_h delay_h 0) st0) ->
  let r := py_train upd loss (ieee_below delta) nan_stop cn delay_h hold_h max_iter st0 in
  pr_stop r = PNaN /\ pr_hist r = [B754_nan] /\ pr_state r = upd (hold_at hold_h delay_h 0) st0.
Proof.
  intros Hl Hm Hn Hcn Hmi Hst Hpo. set (r := py_train _ _ _ _ _ _ _ _ _).
  assert (Hq : isnan (loss (upd (hold_at hold_h delay_h 0) st0))) by exact (fq_poisoned m n k V U _ _ Hm Hn Hpo (Hl _)).
  assert (Q : nan_stop (state_at upd (hold_at hold_h delay_h) st0 1) = true) by (apply Hst, Hq).
  destruct (py_train_spec upd loss (ieee_below delta) nan_stop cn delay_h hold_h st0 max_iter Hcn)
    as [(j & Hj & Hno & A & B & _ & D)|(Hno & _)]; [|destruct (Hno 0 ltac:(lia)) as [X _]; congruence].
  fold r in A, B, D. destruct j as [|j]; [|destruct (Hno 0 ltac:(lia)) as [X _]; congruence].
  split; [destruct D as [[_ D]|(D & _)]; [exact D|congruence]|]. split; [|exact A].
  rewrite B. cbn. f_equal. apply nan_eq, Hq.
Qed.

Theorem C85_python_unweighted :
  forall (prec emax : Z) (Hp : Prec_gt_0 prec) (He : Prec_lt_emax prec emax)
    (m n k : nat) (V We U W0 H0 : fmat prec emax) upd loss
    (delta : binary_float prec emax) (nan_stop : fmat prec emax * fmat prec emax -> bool)
    (cn : Z) (hold_h : bool) (delay_h : Z) (max_iter : Z),
    implements m n k V We upd -> measures m n k V U loss -> 0 < m -> 0 < n -> 0 < k ->
    (1 <= cn)%Z -> (0 < max_iter)%Z -> (forall s, isnan (loss s) -> nan_stop s = true) ->
    let r := py_train upd loss (ieee_below delta) nan_stop cn delay_h hold_h max_iter (W0, H0) in
    (forall i, i < m -> (forall j, j < n -> iszero (We i j)) ->
       pr_stop r = PNaN /\ pr_hist r = [B754_nan] /\ forall a, a < k -> isnan (fst (pr_state r) i a)) /\
    (forall j, j < n -> (forall i, i < m -> iszero (We i j)) -> hold_h = false ->
       pr_stop r = PNaN /\ pr_hist r = [B754_nan] /\ forall a, a < k -> isnan (snd (pr_state r) a j)).
Proof.
  intros prec emax Hp He m n k V We U W0 H0 upd loss delta nan_stop cn hold_h delay_h max_iter Hi Hl Hm Hn Hk Hcn Hmi Hst r.
  pose proof (first_nan prec emax Hp He m n k V U upd loss delta nan_stop cn hold_h delay_h max_iter (W0, H0) Hl Hm Hn Hcn Hmi Hst) as F.
  cbv zeta in F. fold r in F. split.
  - intros i Him Hz.
    assert (Hpois : forall a, a < k -> is_nan (fst (upd (hold_at hold_h delay_h 0) (W0, H0)) i a) = true).
    { intros a Ha. apply (fstep_dead_row m n k V We (hold_at hold_h delay_h 0) _ _ i a Him Ha) with (2 := Hi _ _). intros l Hln. right. exact (Hz l Hln). }
    destruct F as (A & B & C).
    + left. exists i, 0. repeat split; try assumption. apply Hpois, Hk.
    + split; [exact A|]. split; [exact B|]. replace (pr_state r) with (upd (hold_at hold_h delay_h 0) (W0, H0)) by (symmetry; exact C). exact Hpois.
  - intros j Hj Hz Eh. subst hold_h.
    assert (Hpois : forall a, a < k -> is_nan (snd (upd (hold_at false delay_h 0) (W0, H0)) a j) = true).
    { intros a Ha. apply (fstep_dead_col m n k V We _ _ a j Ha Hj) with (2 := Hi _ _). intros l Hln. right. exact (Hz l Hln). }
    destruct F as (A & B & C).
    + right. exists 0, j. repeat split; try assumption. apply Hpois, Hk.
    + split; [exact A|]. split; [exact B|]. replace (pr_state r) with (upd (hold_at false delay_h 0) (W0, H0)) by (symmetry; exact C). exact Hpois.
Qed.
Print Assumptions C85_python_unweighted.

(** The first loss is not looked at by the Python engine. *)
Theorem C86_python_tolerance_below_spacing :
  forall (prec emax : Z) (Hp : Prec_gt_0 prec) (He : Prec_lt_emax prec emax)
    (S : Type) (upd : bool -> S -> S) (loss : S -> binary_float prec emax)
    (delta : binary_float prec emax) (nan_stop : S -> bool) (cn : Z) (hold_h : bool) (delay_h : Z)
    (max_iter : Z) (st0 : S) (b : nat -> bool) (e : Z),
    (1 <= cn)%Z -> (forall i, b i = true <-> held hold_h delay_h i) ->
    let q := loss_at upd loss b st0 in
    (forall i, i < Z.to_nat max_iter ->
       nan_stop (state_at upd b st0 (i + 1)) = false /\
       is_finite (q i) = true /\ (bpow radix2 (e + prec - 1) <= B2R (q i))%R) ->
    is_finite delta = true -> (0 < B2R delta <= bpow radix2 e)%R ->
    let r := py_train upd loss (ieee_below delta) nan_stop cn delay_h hold_h max_iter st0 in
    pr_stop r = PConverged <->
    exists j, j < Z.to_nat max_iter /\ Z.to_nat cn <= j /\
      (B2R (q (j - Z.to_nat (cn - 1))%nat) <= B2R (q j))%R.
Proof.
  intros prec emax Hp He S upd loss delta nan_stop cn hold_h delay_h max_iter st0 b e Hcn Hb q Hq Hd Hde r.
  pose proof (decides_eq b hold_h delay_h Hb) as Eb.
  assert (Eq : forall i, loss_at upd loss (hold_at hold_h delay_h) st0 i = q i) by (intros i; apply loss_at_ext; exact Eb).
  assert (Hs : forall i, i < Z.to_nat max_iter -> Bsign (q i) = false).
  { intros i Hi. destruct (Hq i Hi) as (_ & _ & H2). pose proof (bpow_gt_0 radix2 (e + prec - 1)).
    destruct (q i) as [s|s| |s mm ee Hbd]; cbn [B2R Bsign] in *; try lra.
    destruct s; [|reflexivity]. exfalso.
    assert (F2R (Float radix2 (cond_Zopp true (Z.pos mm)) ee) <= 0)%R by (apply F2R_le_0; cbn; lia). lra. }
  assert (G : forall j, j < Z.to_nat max_iter -> stopb_py upd loss (ieee_below delta) cn delay_h hold_h st0 j = true <->
    Z.to_nat cn <= j /\ (B2R (q (j - Z.to_nat (cn - 1))%nat) <= B2R (q j))%R).
  { intros j Hj. unfold stopb_py. rewrite andb_true_iff, Nat.leb_le, !Eq.
    replace (Z.to_nat cn - 1) with (Z.to_nat (cn - 1)) by lia.
    assert (Hj' : j - Z.to_nat (cn - 1) < Z.to_nat max_iter) by lia.
    split; (intros [H1 H2]; split; [exact H1|]).
    - apply (below_granular delta _ _ e) in H2; try assumption; try (apply Hq; assumption); apply Hs; assumption.
    - apply (below_granular delta _ _ e); try assumption; try (apply Hq; assumption); apply Hs; assumption. }
  assert (Hn : forall i, i < Z.to_nat max_iter -> nan_stop (state_at upd (hold_at hold_h delay_h) st0 (Datatypes.S i)) = false).
  { intros i Hi. rewrite (state_at_ext _ _ b _ _ Eb). destruct (Hq i Hi) as [X _]. rewrite Nat.add_1_r in X. exact X. }
  destruct (py_train_spec upd loss (ieee_below delta) nan_stop cn delay_h hold_h st0 max_iter Hcn)
    as [(j & Hj & Hno & _ & _ & _ & D)|(Hno & _ & _ & _ & D)]; fold r in D.
  - destruct D as [[D _]|(_ & D1 & D2)]; [rewrite Hn in D by exact Hj; discriminate|]. split; [|intros _; exact D2].
    intros _. exists j. split; [exact Hj|]. apply G; assumption.
  - split; [rewrite D; discriminate|]. intros (j & Hj & H). exfalso. apply G in H; [|exact Hj]. destruct (Hno j Hj) as [_ X]. congruence.
Qed.
Print Assumptions C86_python_tolerance_below_spacing.

(** 2 x 2 data with a zero start entry; then one sample without weight; losses 2^20 + 4,
    2^20 + 2, 2^20 + 1.75, 2^20 + 1.75 in single precision with window 2. *)
Example C86_python_instance :
  let V := fun i j => lit32 (Z.of_nat (1 + i + 2 * j)) 0 in
  let W := fun i a => if (i =? 0) && (a =? 0) then lit32 0 0 else lit32 (Z.of_nat (3 + a)) 0 in
  let H := fun a j => lit32 (Z.of_nat (1 + a + j)) 0 in
  let U := cst (lit32 1 0) in
  let U2 := fun i (_ : nat) => if i =? 0 then lit32 1 0 else lit32 1 70 in
  let run U := py_train (upd_ltr 2 2 2 V (fweights U)) (q_ltr 2 2 2 V U) (ieee_below (lit32 1 (-3)))
             (fun s => is_nan (q_ltr 2 2 2 V U s)) 2 (-1) false 5 (W, H) in
  let q := fun s : nat => match s with 0 | 1 => lit32 1048580 0 | 2 => lit32 1048578 0 | _ => lit32 8388622 (-3) end in
  iszero (W 0 0) /\ fst (pr_state (run U)) 0 0 = fzero /\ pr_stop (run U) = PConverged /\
  (forall j, j < 2 -> iszero (fweights U2 1 j)) /\ pr_stop (run U2) = PNaN /\
  let r := py_train (fun (_ : bool) s => Datatypes.S s) q (ieee_below (lit32 13421773 (-27))) (fun _ => false) 2 (-1) false 10 0 in
  pr_stop r = PConverged /\ length (pr_hist r) = 4.
Proof.
  cbv zeta. split; [exists false; reflexivity|]. split; [vm_compute; reflexivity|]. split; [vm_compute; reflexivity|].
  split; [intros j Hj; exists false; vm_compute; reflexivity|]. repeat split; vm_compute; reflexivity.
Qed.

Example C84_python_zero_entries_locked_example :
  let r := py_train xf_upd xf_loss (ieee_below (lit32 1 (-3))) (fun s => is_nan (xf_loss s)) 2 (-1) false 5 (xf_W, xf_H) in
  iszero (fst (pr_state r) 0 0) \/ isnan (fst (pr_state r) 0 0).
Proof.
  refine (proj1 (C84_python_zero_entries_locked _ _ _ _ 2 2 2 xf_V (fweights xf_U) xf_W xf_H xf_upd xf_loss
    _ _ 2 false (-1)%Z 5 (upd_ltr_ok _ _ _ _ _) _) 0 0 _ _ _); [lia | lia | lia |]. exists false. vm_compute. reflexivity.
Qed.
Example C85_python_unweighted_example :
  pr_stop (py_train xf_upd2 xf_loss2 (ieee_below (lit32 1 0)) (fun s => is_nan (xf_loss2 s)) 5 2 true 3 (cst (lit32 1 1), cst (lit32 3 0))) = PNaN.
Proof.
  refine (proj1 (proj1 (C85_python_unweighted _ _ _ _ 2 1 1 _ _ _ _ _ xf_upd2 xf_loss2 _ (fun s => is_nan (xf_loss2 s)) 5 true 2%Z 3
    (upd_ltr_ok _ _ _ _ _) (q_ltr_ok _ _ _ _ _) _ _ _ _ _ _) 1 _ xf_unweighted)); try lia. intros s Hs. unfold isnan in Hs. rewrite Hs. reflexivity.
Qed.
