(** C125: WS-NMF in IEEE arithmetic. *)
From Coq Require Import ZArith Reals Lra Lia List Bool Arith.
From Flocq Require Import Core BinarySingleNaN.
From Verif Require Import Base LSNMF_Model Train_Model Train_Spec Train_Proofs Float_Model Float_Spec Float_Proofs Float_Props
  Acc_Spec Acc_Proofs RobF_Model WsF_Model WsF_Spec WsF_Proofs.
Import ListNotations.
Local Open Scope nat_scope.

(** Whatever the data, the weights and the starting contributions (NaN and infinities
    included), and whatever the inverse returns: no profile entry of a run is ever less
    than zero. *)
Theorem C125_profiles_never_negative :
  forall (prec emax : Z) (Hp : Prec_gt_0 prec) (He : Prec_lt_emax prec emax)
    solve (tiny : binary_float prec emax) (m n k : nat) (V We W0 H0 : fmat prec emax) upd
    (loss : fmat prec emax * fmat prec emax -> binary_float prec emax)
    (delta : binary_float prec emax) (cn : Z) (hold_h : bool) (delay_h : Z) (tick : nat -> bool) (max_iter : Z),
    ws_implements solve tiny m n k V We upd ->
    every k n (fun x => Bltb x fzero = false) H0 ->
    let r := rust_train upd loss (ieee_below delta) cn hold_h delay_h tick max_iter (W0, H0) in
    every k n (fun x => Bltb x fzero = false) (snd (rr_state r)).
Proof.
  intros prec emax Hp He solve tiny m n k V We W0 H0 upd loss delta cn hold_h delay_h tick max_iter Hi HH r.
  destruct (rust_summary upd loss (ieee_below delta) cn hold_h delay_h tick (W0, H0) max_iter _
              (hold_at_held_iff hold_h delay_h)) as (_ & _ & Es & _).
  fold r in Es. rewrite Es.
  apply (run_inv (fun st => every k n (fun x => Bltb x fzero = false) (snd st)) upd _ (W0, H0)); [exact HH|].
  intros h s Hs. destruct (Hi h s) as [_ E]. destruct h.
  - intros a j Ha Hj. rewrite E by assumption. apply Hs; assumption.
  - exact (ws_h_lt0 tiny m n k V We _ _ _ Hs E).
Qed.
Print Assumptions C125_profiles_never_negative.

(** The Python engine updates the profiles in every iteration. *)
Theorem C125_python_profiles_never_negative :
  forall (prec emax : Z) (Hp : Prec_gt_0 prec) (He : Prec_lt_emax prec emax)
    solve (tiny : binary_float prec emax) (m n k : nat) (V We W0 H0 : fmat prec emax) upd
    (loss : fmat prec emax * fmat prec emax -> binary_float prec emax)
    (delta : binary_float prec emax) (nan_stop : fmat prec emax * fmat prec emax -> bool)
    (cn : Z) (hold_h : bool) (delay_h : Z) (max_iter : Z),
    (forall hold st, ws_fstep solve tiny m n k V We false st (upd hold st)) -> (1 <= cn)%Z ->
    every k n (fun x => Bltb x fzero = false) H0 ->
    let r := py_train upd loss (ieee_below delta) nan_stop cn delay_h hold_h max_iter (W0, H0) in
    every k n (fun x => Bltb x fzero = false) (snd (pr_state r)).
Proof.
  intros prec emax Hp He solve tiny m n k V We W0 H0 upd loss delta nan_stop cn hold_h delay_h max_iter Hi Hcn HH r.
  destruct (py_summary upd loss (ieee_below delta) nan_stop cn hold_h delay_h (W0, H0) max_iter _ Hcn
              (hold_at_held_iff hold_h delay_h)) as (_ & _ & Es & _).
  fold r in Es. rewrite Es.
  apply (run_inv (fun st => every k n (fun x => Bltb x fzero = false) (snd st)) upd _ (W0, H0)); [exact HH|].
  intros h s Hs. destruct (Hi h s) as [_ E]. exact (ws_h_lt0 tiny m n k V We _ _ _ Hs E).
Qed.
Print Assumptions C125_python_profiles_never_negative.

(** For non-negative data and weights not even a negative zero appears. *)
Theorem C125_nonneg_data :
  forall (prec emax : Z) (Hp : Prec_gt_0 prec) (He : Prec_lt_emax prec emax)
    solve (tiny : binary_float prec emax) (m n k : nat) (V We W0 H0 : fmat prec emax) upd
    (loss : fmat prec emax * fmat prec emax -> binary_float prec emax)
    (delta : binary_float prec emax) (cn : Z) (hold_h : bool) (delay_h : Z) (tick : nat -> bool) (max_iter : Z),
    ws_implements solve tiny m n k V We upd ->
    every m n nonneg V -> every m n nonneg We -> nonneg tiny -> every k n nonneg H0 ->
    let r := rust_train upd loss (ieee_below delta) cn hold_h delay_h tick max_iter (W0, H0) in
    every k n nonneg (snd (rr_state r)).
Proof.
  intros prec emax Hp He solve tiny m n k V We W0 H0 upd loss delta cn hold_h delay_h tick max_iter Hi HV HW Ht HH r.
  destruct (rust_summary upd loss (ieee_below delta) cn hold_h delay_h tick (W0, H0) max_iter _
              (hold_at_held_iff hold_h delay_h)) as (_ & _ & Es & _).
  fold r in Es. rewrite Es.
  apply (run_inv (fun st => every k n nonneg (snd st)) upd _ (W0, H0)); [exact HH|].
  intros h s Hs. destruct (Hi h s) as [_ E]. destruct h.
  - intros a j Ha Hj. rewrite E by assumption. apply Hs; assumption.
  - exact (ws_h_nn tiny m n k V We _ _ _ HV HW Ht Hs E).
Qed.
Print Assumptions C125_nonneg_data.

(** A profile entry that is zero stays zero or becomes NaN. *)
Theorem C125_zero_profiles_locked :
  forall (prec emax : Z) (Hp : Prec_gt_0 prec) (He : Prec_lt_emax prec emax)
    solve (tiny : binary_float prec emax) (m n k : nat) (V We W0 H0 : fmat prec emax) upd
    (loss : fmat prec emax * fmat prec emax -> binary_float prec emax)
    (delta : binary_float prec emax) (cn : Z) (hold_h : bool) (delay_h : Z) (tick : nat -> bool) (max_iter : Z),
    ws_implements solve tiny m n k V We upd ->
    let r := rust_train upd loss (ieee_below delta) cn hold_h delay_h tick max_iter (W0, H0) in
    forall a j, a < k -> j < n -> iszero (H0 a j) -> iszero (snd (rr_state r) a j) \/ isnan (snd (rr_state r) a j).
Proof.
  intros prec emax Hp He solve tiny m n k V We W0 H0 upd loss delta cn hold_h delay_h tick max_iter Hi r a j Ha Hj Hz.
  destruct (rust_summary upd loss (ieee_below delta) cn hold_h delay_h tick (W0, H0) max_iter _
              (hold_at_held_iff hold_h delay_h)) as (_ & _ & Es & _).
  fold r in Es. rewrite Es. set (N := length (rr_hist r)).
  enough (G : void (snd (state_at upd (hold_at hold_h delay_h) (W0, H0) N) a j)) by (destruct G; auto).
  apply (run_inv (fun st => void (snd st a j)) upd _ (W0, H0)); [right; exact Hz|].
  intros h s Hs. destruct (Hi h s) as [_ E]. destruct h; [rewrite E by assumption; exact Hs|].
  exact (ws_h_void tiny m n k V We _ _ _ a j Ha Hj Hs E).
Qed.
Print Assumptions C125_zero_profiles_locked.

(** One NaN profile entry is enough: the next iteration makes every contribution NaN and,
    unless the profiles are held, every profile entry. *)
Theorem C125_one_nan_takes_all :
  forall (prec emax : Z) (Hp : Prec_gt_0 prec) (He : Prec_lt_emax prec emax)
    solve (tiny : binary_float prec emax) (m n k : nat) (V We : fmat prec emax) hold st st',
    0 < m -> ws_fstep solve tiny m n k V We hold st st' -> somewhere k n isnan (snd st) ->
    every m k isnan (fst st') /\ (hold = false -> every k n isnan (snd st')).
Proof.
  intros prec emax Hp He solve tiny m n k V We hold st st' Hm E N.
  destruct (ws_step_nan solve tiny m n k V We hold st st' Hm E N) as (A & _ & B). split; assumption.
Qed.
Print Assumptions C125_one_nan_takes_all.

(** So does one contribution that comes out infinite or NaN, in the same iteration. *)
Theorem C125_one_bad_contribution_takes_all :
  forall (prec emax : Z) (Hp : Prec_gt_0 prec) (He : Prec_lt_emax prec emax)
    solve (tiny : binary_float prec emax) (m n k : nat) (V We : fmat prec emax) st st' i a,
    ws_fstep solve tiny m n k V We false st st' -> i < m -> a < k -> is_finite (fst st' i a) = false ->
    every k n isnan (snd st').
Proof.
  intros prec emax Hp He solve tiny m n k V We st st' i a [_ E] Hi Ha Hn. exact (ws_h_nan tiny m n k V We _ _ _ i a Hi Ha Hn E).
Qed.
Print Assumptions C125_one_bad_contribution_takes_all.

(** From then on the compiled run goes on to max_iter, does not converge and reports NaN
    losses only. *)
Theorem C125_nan_is_permanent :
  forall (prec emax : Z) (Hp : Prec_gt_0 prec) (He : Prec_lt_emax prec emax)
    solve (tiny : binary_float prec emax) (m n k : nat) (V We U W0 H0 : fmat prec emax) upd loss
    (delta : binary_float prec emax) (cn : Z) (hold_h : bool) (delay_h : Z)
    (tick : nat -> bool) (max_iter : Z) (b : nat -> bool) (j : nat),
    ws_implements solve tiny m n k V We upd -> measures m n k V U loss -> 0 < m -> 0 < n ->
    (forall i, b i = true <-> held hold_h delay_h i) ->
    let r := rust_train upd loss (ieee_below delta) cn hold_h delay_h tick max_iter (W0, H0) in
    somewhere k n isnan (snd (state_at upd b (W0, H0) j)) ->
    j <= length (rr_hist r) ->
    rr_conv r = false /\ length (rr_hist r) = Z.to_nat max_iter /\
    (forall i, j <= i + 1 -> i < Z.to_nat max_iter -> nth_error (rr_hist r) i = Some B754_nan) /\
    (j < Z.to_nat max_iter -> every m k isnan (fst (rr_state r)) /\
       (b (Z.to_nat max_iter - 1) = false -> every k n isnan (snd (rr_state r)))).
Proof.
  intros prec emax Hp He solve tiny m n k V We U W0 H0 upd loss delta cn hold_h delay_h tick max_iter b j
    Hi Hl Hm Hn Hb r Hj Hlen.
  destruct (rust_summary upd loss (ieee_below delta) cn hold_h delay_h tick (W0, H0) max_iter b Hb)
    as (L & Eh & Es & _ & _ & Enc & _ & Ec).
  fold r in L, Eh, Es, Enc, Ec. set (N := length (rr_hist r)) in *.
  assert (Hpois : forall i, j <= i -> somewhere k n isnan (snd (state_at upd b (W0, H0) i))).
  { induction 1 as [|i _ IH]; [exact Hj|]. apply (ws_step_nan solve tiny m n k V We _ _ _ Hm (Hi (b i) _) IH). }
  assert (Hq : forall i, j <= i + 1 -> loss_at upd loss b (W0, H0) i = B754_nan).
  { intros i Hji. apply nan_eq. apply (fq_poisoned m n k V U _ _ Hm Hn (or_intror (Hpois (Datatypes.S i) ltac:(lia))) (Hl _)). }
  assert (Hnc : rr_conv r = false).
  { destruct (rr_conv r) eqn:Er; [|reflexivity]. exfalso.
    destruct (Ec eq_refl) as [[[_ Hc] _] HN].
    assert (Hend : j <= N - 1 + 1) by lia.
    rewrite (Hq (N - 1) Hend) in Hc. unfold ieee_below, fsub in Hc.
    destruct (loss_at upd loss b (W0, H0) (N - 1 - span cn)); discriminate. }
  split; [exact Hnc|]. specialize (Enc Hnc). split; [exact Enc|]. split.
  - intros i Hji HiN. rewrite Eh, Enc. rewrite nth_error_map.
    rewrite (nth_error_nth' _ 0) by (rewrite seq_length; exact HiN).
    rewrite seq_nth by exact HiN. cbn. rewrite Hq by exact Hji. reflexivity.
  - intros Hjm. rewrite Es, Enc. destruct (Z.to_nat max_iter) as [|M] eqn:EM; [lia|]. cbn [state_at]. replace (Datatypes.S M - 1) with M by lia.
    destruct (ws_step_nan solve tiny m n k V We _ _ _ Hm (Hi (b M) _) (Hpois M ltac:(lia))) as (A & _ & B). split; assumption.
Qed.
Print Assumptions C125_nan_is_permanent.

(** A NaN among the data or the weights makes the contributions of its sample NaN in every
    iteration; unless the profiles are held in the first iteration it makes everything NaN. *)
Theorem C125_nan_data :
  forall (prec emax : Z) (Hp : Prec_gt_0 prec) (He : Prec_lt_emax prec emax)
    solve (tiny : binary_float prec emax) (m n k : nat) (V We U W0 H0 : fmat prec emax) upd
    (loss : fmat prec emax * fmat prec emax -> binary_float prec emax)
    (delta : binary_float prec emax) (cn : Z) (hold_h : bool) (delay_h : Z)
    (tick : nat -> bool) (max_iter : Z) i j,
    ws_implements solve tiny m n k V We upd -> measures m n k V U loss -> i < m -> j < n -> 0 < k ->
    isnan (We i j) \/ isnan (V i j) -> (0 < max_iter)%Z ->
    let r := rust_train upd loss (ieee_below delta) cn hold_h delay_h tick max_iter (W0, H0) in
    rr_conv r = false /\ rr_hist r = repeat B754_nan (Z.to_nat max_iter) /\
    (forall a, a < k -> isnan (fst (rr_state r) i a)) /\
    (hold_h = false -> every k n isnan (snd (rr_state r)) /\ ((2 <= max_iter)%Z -> every m k isnan (fst (rr_state r)))).
Proof.
  intros prec emax Hp He solve tiny m n k V We U W0 H0 upd loss delta cn hold_h delay_h tick max_iter i j
    Hi Hl Him Hn Hk Hz Hmi r.
  set (b := hold_at hold_h delay_h).
  destruct (rust_summary upd loss (ieee_below delta) cn hold_h delay_h tick (W0, H0) max_iter b
              (hold_at_held_iff hold_h delay_h)) as (L & Eh & Es & _ & _ & Enc & _ & Ec).
  fold r in L, Eh, Es, Enc, Ec. set (N := length (rr_hist r)) in *.
  assert (Hw : forall t a, a < k -> is_nan (fst (state_at upd b (W0, H0) (Datatypes.S t)) i a) = true).
  { intros t a Ha. cbn [state_at]. destruct (Hi (b t) (state_at upd b (W0, H0) t)) as [E _].
    exact (ws_w_nan_row solve m n k V We _ _ i j Him Hn Hz E a Ha). }
  assert (Hq : forall t, loss_at upd loss b (W0, H0) t = B754_nan).
  { intros t. apply nan_eq. unfold loss_at.
    apply (fq_poisoned m n k V U (state_at upd b (W0, H0) (Datatypes.S t)) _ ltac:(lia) ltac:(lia)); [|apply Hl].
    left. exists i, 0. repeat split; try assumption. apply Hw, Hk. }
  assert (Hnc : rr_conv r = false).
  { destruct (rr_conv r) eqn:Er; [|reflexivity]. exfalso.
    destruct (Ec eq_refl) as [[[_ Hc] _] HN]. rewrite !Hq in Hc. discriminate. }
  specialize (Enc Hnc). split; [exact Hnc|]. split; [|split].
  - rewrite Eh, Enc. generalize (Z.to_nat max_iter) as M. intros M.
    assert (G : forall M s, map (loss_at upd loss b (W0, H0)) (seq s M) = repeat B754_nan M).
    { clear -Hq. induction M as [|M IH]; intros s; [reflexivity|]. cbn [seq map repeat]. rewrite Hq, IH. reflexivity. }
    apply G.
  - intros a Ha. rewrite Es, Enc. destruct (Z.to_nat max_iter) as [|M] eqn:EM; [lia|]. apply Hw, Ha.
  - intros Hh. assert (Hb : forall t, b t = false) by (intros t; unfold b, hold_at; rewrite Hh; destruct t; reflexivity).
    assert (HH : forall t, every k n isnan (snd (state_at upd b (W0, H0) (Datatypes.S t)))).
    { intros t. pose proof (Hw t 0 Hk) as X. cbn [state_at] in *. destruct (Hi (b t) (state_at upd b (W0, H0) t)) as [_ E].
      rewrite Hb in *. apply (ws_h_nan tiny m n k V We _ _ _ i 0 Him Hk) with (2 := E).
      destruct (fst (upd false (state_at upd b (W0, H0) t)) i 0); cbn in *; congruence. }
    rewrite Es, Enc. destruct (Z.to_nat max_iter) as [|M] eqn:EM; [lia|]. split; [apply HH|]. intros H2. destruct M as [|M]; [lia|].
    apply (ws_step_nan solve tiny m n k V We (b (Datatypes.S M)) (state_at upd b (W0, H0) (Datatypes.S M)) _ ltac:(lia) (Hi _ _)).
    exists 0, j. repeat split; try assumption. apply HH; assumption.
Qed.
Print Assumptions C125_nan_data.

(** The split of the contributions into positive and negative part is exact up to half of
    the largest number. *)
Theorem C125_split_is_exact :
  forall (prec emax : Z) (Hp : Prec_gt_0 prec) (He : Prec_lt_emax prec emax) (W : fmat prec emax) i a,
  is_finite (W i a) = true -> (Rabs (B2R (W i a)) < bpow radix2 (emax - 1))%R ->
  is_finite (fpos_part W i a) = true /\ B2R (fpos_part W i a) = Rmax (B2R (W i a)) 0 /\
  is_finite (fneg_part W i a) = true /\ B2R (fneg_part W i a) = Rmax (- B2R (W i a)) 0.
Proof.
  intros prec emax Hp He W i a Ff L. destruct (pos_exact W i a Ff L) as [[_ A] B]. destruct (neg_exact W i a Ff L) as [[_ C] D]. auto.
Qed.
Print Assumptions C125_split_is_exact.

(** The computed profiles are those of an exact WS-NMF step from the same contributions
    and profiles, up to 4m+2k+7 roundings. *)
Theorem C125_profile_step :
  forall (prec emax : Z) (Hp : Prec_gt_0 prec) (He : Prec_lt_emax prec emax) (m n k : nat)
    (V We W H H' : fmat prec emax) (tiny : binary_float prec emax) j,
  every m n proper V -> every m n proper We -> every k n proper H -> (j < n)%nat -> proper tiny -> (0 < B2R tiny)%R ->
  (forall i a, (i < m)%nat -> (a < k)%nat -> is_finite (W i a) = true /\ (Rabs (value W i a) < bpow radix2 (emax - 1))%R) ->
  column_range emax m k (value V) (value We) (value W) (value H) (B2R tiny) j ->
  (2 * Z.of_nat (4 * m + 2 * k + 7) <= 2 ^ prec)%Z ->
  ws_h_update tiny m n k V We W H H' ->
  forall a, (a < k)%nat -> proper (H' a j) /\
    close prec (4 * m + 2 * k + 7) (B2R (H' a j)) (exact_profile m k (value V) (value We) (value W) (value H) (B2R tiny) a j).
Proof.
  intros prec emax Hp He m n k V We W H H' tiny j HV HE HH Hj Pt Lt HW Rc G E a Ha.
  destruct (g_bound (4 * m + 2 * k + 7) G) as [_ G2].
  destruct (ws_profile_near m n k V We W H tiny j HV HE HH Hj H' Pt Lt HW Rc G2 E a Ha) as [A B].
  split; [exact A|]. apply near_close; [exact G| |exact B].
  apply (ok_nonneg (emax := emax)). apply Rc. exact Ha.
Qed.
Print Assumptions C125_profile_step.

(** *** Binary32, one factor, the inverse 1/x; 1e-12 is 9223372 * 2^-63 *)
Definition inv1 (A : fmat 24 128) : fmat 24 128 := fun _ _ => fdiv (lit32 1 0) (A 0 0).
Definition tiny32 : b32 := lit32 9223372 (-63).

(** Data with negative values (2 x 2, V = (-1 2; -4 9), unit uncertainties, profile (1 1)):
    the whole result is NaN after two of the hundred iterations, and all hundred are run. *)
Theorem C125_negative_data_refuted :
  exists (V U W H : fmat 24 128) upd loss,
    ws_implements inv1 tiny32 2 2 1 V (fweights U) upd /\ measures 2 2 1 V U loss /\
    every 2 2 (fun x => is_finite x = true) V /\ every 2 2 (fun x => x = lit32 1 0) U /\ every 1 2 (fun x => x = lit32 1 0) H /\
    let r := rust_train upd loss (ieee_below (lit32 1 (-3))) 2 false (-1) (fun _ => false) 100 (W, H) in
    length (rr_hist r) = 100 /\ rr_conv r = false /\ every 2 1 isnan (fst (rr_state r)) /\ every 1 2 isnan (snd (rr_state r)).
Proof.
  set (V := (fun i j => match i, j with 0, 0 => lit32 (-1) 0 | 0, _ => lit32 2 0 | _, 0 => lit32 (-4) 0 | _, _ => lit32 9 0 end) : fmat 24 128).
  set (U := cst (lit32 1 0)).
  pose proof (ws_upd_ltr_ok inv1 tiny32 2 2 1 V (fweights U)) as Hi.
  exists V, U, (cst (lit32 1 0)), (cst (lit32 1 0)), (ws_upd_ltr inv1 tiny32 2 2 1 V (fweights U)), (q_ltr 2 2 1 V U).
  split; [exact Hi|]. split; [apply q_ltr_ok|].
  split. { intros i j Hii Hj. destruct i as [|[|]], j as [|[|]]; try lia; reflexivity. }
  split. { intros i j Hii Hj. reflexivity. }
  split. { intros i j Hii Hj. reflexivity. }
  cbv zeta. set (r := rust_train _ _ _ _ _ _ _ _ _).
  assert (S1 : somewhere 1 2 isnan (snd (state_at (ws_upd_ltr inv1 tiny32 2 2 1 V (fweights U)) (hold_at false (-1)) (cst (lit32 1 0), cst (lit32 1 0)) 1))).
  { exists 0, 0. split; [lia|]. split; [lia|]. vm_compute. reflexivity. }
  assert (L1 : 1 <= length (rr_hist r)).
  { destruct (rust_summary (ws_upd_ltr inv1 tiny32 2 2 1 V (fweights U)) (q_ltr 2 2 1 V U) (ieee_below (lit32 1 (-3))) 2 false (-1) (fun _ => false) (cst (lit32 1 0), cst (lit32 1 0)) 100 _
      (hold_at_held_iff false (-1))) as (_ & _ & _ & _ & _ & Enc & _ & Ec). fold r in Enc, Ec.
    destruct (rr_conv r); [destruct (Ec eq_refl) as [_ X]; lia|rewrite (Enc eq_refl); lia]. }
  destruct (C125_nan_is_permanent 24 128 _ _ inv1 tiny32 2 2 1 V (fweights U) U _ _ _ _ (lit32 1 (-3)) 2 false (-1) (fun _ => false) 100
    (hold_at false (-1)) 1 Hi (q_ltr_ok 2 2 1 V U) ltac:(lia) ltac:(lia) (hold_at_held_iff false (-1)) S1 L1) as (A & B & _ & D).
  fold r in A, B, D. destruct (D ltac:(lia)) as [D1 D2]. split; [exact B|]. split; [exact A|]. split; [exact D1|apply D2; reflexivity].
Qed.
Print Assumptions C125_negative_data_refuted.
(* two samples of three features, one factor; the first entry of the profile is zero *)
Definition xwf_V : fmat 24 128 := fun i j => lit32 (Z.of_nat (1 + i + 2 * j)) 0.
Definition xwf_H : fmat 24 128 := fun _ j => lit32 (Z.of_nat j) 0.
Definition xwf_U := cst (lit32 1 0).
Definition xwf_upd := ws_upd_ltr inv1 tiny32 2 3 1 xwf_V (fweights xwf_U).
Definition xwf_loss := q_ltr 2 3 1 xwf_V xwf_U.
Definition xwf_run (H : fmat 24 128) := rust_train xwf_upd xwf_loss (ieee_below (lit32 1 (-3))) 2 false (-1) (fun _ => false) 2 (cst B754_nan, H).
Lemma xwf_ok : ws_implements inv1 tiny32 2 3 1 xwf_V (fweights xwf_U) xwf_upd.
Proof. apply ws_upd_ltr_ok. Qed.
Example C125_profiles_never_negative_example : every 1 3 (fun x => Bltb x fzero = false) (snd (rr_state (xwf_run xwf_H))).
Proof.
  refine (C125_profiles_never_negative _ _ _ _ _ _ 2 3 1 _ _ _ _ xwf_upd xwf_loss _ 2 false (-1)%Z _ 2 xwf_ok _).
  intros a j _ Hj. destruct j as [|[|[|j]]]; try lia; vm_compute; reflexivity.
Qed.
Example C125_python_profiles_never_negative_example :
  every 1 3 (fun x => Bltb x fzero = false) (snd (pr_state (py_train (fun _ => xwf_upd false) xwf_loss (ieee_below (lit32 1 (-3))) (fun s => is_nan (xwf_loss s)) 2 (-1) false 2 (cst B754_nan, xwf_H)))).
Proof.
  refine (C125_python_profiles_never_negative _ _ _ _ inv1 tiny32 2 3 1 xwf_V (fweights xwf_U) _ _ (fun _ => xwf_upd false) xwf_loss _ _ 2 false (-1)%Z 2 (fun _ st => xwf_ok false st) _ _); [lia |].
  intros a j _ Hj. destruct j as [|[|[|j]]]; try lia; vm_compute; reflexivity.
Qed.
Lemma xwf_nonneg (a : nat) (A : fmat 24 128) : (forall i j, i < a -> j < 3 -> (Bsign (A i j) || is_nan (A i j)) = false) -> every a 3 nonneg A.
Proof. intros E i j Hi Hj. specialize (E i j Hi Hj). apply orb_false_iff in E. right. apply E. Qed.
Example C125_nonneg_data_example : every 1 3 nonneg (snd (rr_state (xwf_run xwf_H))).
Proof.
  refine (C125_nonneg_data _ _ _ _ _ _ 2 3 1 _ _ _ _ xwf_upd xwf_loss _ 2 false (-1)%Z _ 2 xwf_ok _ _ _ _).
  - apply xwf_nonneg. intros [|[|i]] [|[|[|j]]] Hi Hj; try lia; vm_compute; reflexivity.
  - apply xwf_nonneg. intros [|[|i]] [|[|[|j]]] Hi Hj; try lia; vm_compute; reflexivity.
  - right. vm_compute. reflexivity.
  - apply xwf_nonneg. intros [|i] [|[|[|j]]] Hi Hj; try lia; vm_compute; reflexivity.
Qed.
Example C125_zero_profiles_locked_example :
  iszero (snd (rr_state (xwf_run xwf_H)) 0 0) \/ isnan (snd (rr_state (xwf_run xwf_H)) 0 0).
Proof.
  refine (C125_zero_profiles_locked _ _ _ _ _ _ 2 3 1 _ _ _ _ xwf_upd xwf_loss _ 2 false (-1)%Z _ 2 xwf_ok 0 0 _ _ _); [lia | lia |].
  exists false. vm_compute. reflexivity.
Qed.
(* a profile with one entry that is not a number *)
Definition xwf_N : fmat 24 128 := fun _ j => if j =? 1 then B754_nan else lit32 1 0.
Lemma xwf_bad : somewhere 1 3 isnan xwf_N.
Proof. exists 0, 1. split; [lia |]. split; [lia |]. reflexivity. Qed.
Example C125_one_nan_takes_all_example : every 2 1 isnan (fst (xwf_upd true (cst fzero, xwf_N))).
Proof. refine (proj1 (C125_one_nan_takes_all _ _ _ _ _ _ 2 3 1 _ _ true (cst fzero, xwf_N) _ _ (xwf_ok true _) xwf_bad)). lia. Qed.
(* a sample with a value that is not a number *)
Definition xwf_V2 : fmat 24 128 := fun i j => if (i =? 1) && (j =? 2) then B754_nan else lit32 1 0.
Definition xwf_upd2 := ws_upd_ltr inv1 tiny32 2 3 1 xwf_V2 (fweights xwf_U).
Example C125_one_bad_contribution_takes_all_example : every 1 3 isnan (snd (xwf_upd2 false (cst fzero, xwf_H))).
Proof.
  refine (C125_one_bad_contribution_takes_all _ _ _ _ inv1 tiny32 2 3 1 xwf_V2 (fweights xwf_U) (cst fzero, xwf_H) _ 1 0 (ws_upd_ltr_ok _ _ _ _ _ _ _ false _) _ _ _); [lia | lia |].
  vm_compute. reflexivity.
Qed.
Example C125_nan_is_permanent_example : rr_conv (xwf_run xwf_N) = false.
Proof.
  refine (proj1 (C125_nan_is_permanent _ _ _ _ _ _ 2 3 1 _ _ xwf_U _ _ xwf_upd xwf_loss _ 2 false (-1)%Z _ 2 (fun _ => false) 0
    xwf_ok (q_ltr_ok _ _ _ _ _) _ _ _ xwf_bad _)); try lia.
  intros i. unfold held. split; [discriminate | intros [E _]; discriminate E].
Qed.
Example C125_nan_data_example :
  rr_hist (rust_train xwf_upd2 (q_ltr 2 3 1 xwf_V2 xwf_U) (ieee_below (lit32 1 (-3))) 2 false (-1) (fun _ => false) 2 (cst fzero, xwf_H)) = [B754_nan; B754_nan].
Proof.
  refine (proj1 (proj2 (C125_nan_data _ _ _ _ inv1 tiny32 2 3 1 xwf_V2 (fweights xwf_U) xwf_U _ _ xwf_upd2 _ _ 2 false (-1)%Z _ 2 1 2
    (ws_upd_ltr_ok _ _ _ _ _ _ _) (q_ltr_ok _ _ _ _ _) _ _ _ _ _))); try lia. right. reflexivity.
Qed.
Example C125_split_is_exact_example : is_finite (fneg_part (cst (lit32 (-5) 0)) 0 0) = true.
Proof.
  refine (proj1 (proj2 (proj2 (C125_split_is_exact _ _ _ _ (cst (lit32 (-5) 0)) 0 0 _ _)))); [vm_compute; reflexivity |].
  assert (A : B2R (lit32 (-5) 0) = (-5)%R) by (unfold lit32; vm_compute (B2R _); cbn; lra). unfold cst. rewrite A, Rabs_left by lra.
  apply Rlt_le_trans with (bpow radix2 3); [cbn; lra | apply bpow_le; lia].
Qed.

(** Non-negative data, starting contributions all NaN (they are not read): two iterations
    give finite factors; one profile entry is zero throughout. *)
Example C125_instance :
  let V := (fun i j => lit32 (Z.of_nat (1 + i + 2 * j)) 0) : fmat 24 128 in
  let U := cst (lit32 1 0) in
  let W := cst B754_nan in
  let H := (fun a j => lit32 (Z.of_nat j) 0) : fmat 24 128 in
  let upd := ws_upd_ltr inv1 tiny32 2 3 1 V (fweights U) in
  let r := rust_train upd (q_ltr 2 3 1 V U) (ieee_below (lit32 1 (-3))) 2 false (-1) (fun _ => false) 2 (W, H) in
  ws_implements inv1 tiny32 2 3 1 V (fweights U) upd /\ measures 2 3 1 V U (q_ltr 2 3 1 V U) /\
  every 2 3 nonneg V /\ nonneg tiny32 /\ every 1 3 nonneg H /\ iszero (H 0 0) /\
  every 2 1 (fun x => is_finite x = true) (fst (rr_state r)) /\ iszero (snd (rr_state r) 0 0) /\ Bltb fzero (snd (rr_state r) 0 1) = true.
Proof.
  cbv zeta. split; [apply ws_upd_ltr_ok|]. split; [apply q_ltr_ok|].
  split. { intros i j Hi Hj. right. destruct i as [|[|]], j as [|[|[|]]]; try lia; reflexivity. }
  split. { right. reflexivity. }
  split. { intros i j Hi Hj. right. destruct i as [|], j as [|[|[|]]]; try lia; reflexivity. }
  split. { exists false. reflexivity. }
  split. { intros i j Hi Hj. destruct i as [|[|]], j as [|]; try lia; vm_compute; reflexivity. }
  split. { exists false. vm_compute. reflexivity. }
  vm_compute. reflexivity.
Qed.

(** Contributions 1 and -1 against data 3 and 1: one profile step. *)
Lemma ok_mid x : (1 <= x <= 8)%R -> in_range (emax := 128) x.
Proof.
  intros [A B]. right. split.
  - apply Rle_trans with 1%R; [|exact A]. change 1%R with (bpow radix2 0). apply bpow_le. lia.
  - apply Rle_trans with 8%R; [exact B|]. change 8%R with (bpow radix2 3). apply bpow_le. lia.
Qed.

Example C125_profile_step_instance :
  let V := (fun i _ => if i =? 0 then lit32 3 0 else lit32 1 0) : fmat 24 128 in
  let W := (fun i _ => if i =? 0 then lit32 1 0 else lit32 (-1) 0) : fmat 24 128 in
  let One := cst (lit32 1 0) in
  every 2 1 proper V /\ every 2 1 proper One /\ every 1 1 proper One /\ proper tiny32 /\ (0 < B2R tiny32)%R /\
  (forall i a, i < 2 -> a < 1 -> is_finite (W i a) = true /\ (Rabs (value W i a) < bpow radix2 (128 - 1))%R) /\
  column_range 128 2 1 (value V) (value One) (value W) (value One) (B2R tiny32) 0 /\
  (2 * Z.of_nat (4 * 2 + 2 * 1 + 7) <= 2 ^ 24)%Z /\
  (exists H', ws_h_update tiny32 2 1 1 V One W One H') /\
  exact_profile 2 1 (value V) (value One) (value W) (value One) (B2R tiny32) 0 0 = sqrt ((4 + B2R tiny32) / (2 + B2R tiny32)).
Proof.
  cbv zeta.
  assert (E1 : B2R (lit32 1 0) = 1%R) by (vm_compute; lra).
  assert (E3 : B2R (lit32 3 0) = 3%R) by (vm_compute; lra).
  assert (Em : B2R (lit32 (-1) 0) = (-1)%R) by (vm_compute; lra).
  assert (Et : (0 < B2R tiny32 < 1)%R) by (vm_compute; lra). set (e := B2R tiny32) in *.
  assert (U1 : up 1 = 1%R) by (apply Rmax_left; lra). assert (U2 : up (-1) = 0%R) by (apply Rmax_right; lra).
  assert (D1 : down 1 = 0%R) by (apply Rmax_right; lra). assert (D2 : down (-1) = 1%R) by (unfold down; rewrite Rmax_left; lra).
  set (V := (fun i _ => if i =? 0 then lit32 3 0 else lit32 1 0) : fmat 24 128).
  set (W := (fun i _ => if i =? 0 then lit32 1 0 else lit32 (-1) 0) : fmat 24 128).
  assert (vV0 : value V 0 0 = 3%R) by exact E3. assert (vV1 : value V 1 0 = 1%R) by exact E1.
  assert (vW0 : value W 0 0 = 1%R) by exact E1. assert (vW1 : value W 1 0 = (-1)%R) by exact Em.
  assert (vO : forall i j, value (cst (lit32 1 0)) i j = 1%R) by (intros; exact E1).
  assert (L : forall p, lin 2 (value V) (value (cst (lit32 1 0))) (value W) p 0 0 = (3 * p 1 + p (-1))%R).
  { intros p. unfold lin. cbn [rsum]. rewrite !vO, vV0, vV1, vW0, vW1. ring. }
  assert (Gm : forall p, gram 2 (value (cst (lit32 1 0))) (value W) p 0 0 0 = (p 1 * p 1 + p (-1) * p (-1))%R).
  { intros p. unfold gram. cbn [rsum]. rewrite !vO, vW0, vW1. ring. }
  assert (Q : forall p, quad 2 1 (value (cst (lit32 1 0))) (value W) (value (cst (lit32 1 0))) p 0 0 = (p 1 * p 1 + p (-1) * p (-1))%R).
  { intros p. unfold quad. cbn [rsum]. rewrite Gm, vO. ring. }
  assert (Rt : (1 <= (4 + e) / (2 + e) <= 2)%R).
  { split; [apply Rmult_le_reg_r with (2 + e)%R; [lra|]|apply Rmult_le_reg_r with (2 + e)%R; [lra|]]; unfold Rdiv; rewrite Rmult_assoc, Rinv_l by lra; lra. }
  assert (Ep : exact_profile 2 1 (value V) (value (cst (lit32 1 0))) (value W) (value (cst (lit32 1 0))) e 0 0 = sqrt ((4 + e) / (2 + e))).
  { unfold exact_profile. rewrite !L, !Q, vO, U1, U2, D1, D2. rewrite Rmult_1_l. f_equal. f_equal; ring. }
  split. { intros i j Hi Hj. destruct i as [|[|]]; try lia; split; reflexivity. }
  split. { intros i j Hi Hj. split; reflexivity. }
  split. { intros i j Hi Hj. split; reflexivity. }
  split. { split; reflexivity. }
  split. { apply Et. }
  split. { intros i a Hi Ha. assert (B : (1 < bpow radix2 (128 - 1))%R) by (change 1%R with (bpow radix2 0); apply bpow_lt; lia).
    destruct i as [|[|]]; [| |lia]; (split; [reflexivity|]); unfold value, W; cbn [Nat.eqb]; rewrite ?E1, ?Em; unfold Rabs; destruct (Rcase_abs _); lra. }
  split.
  { assert (P : forall p, (p 1%R = 0%R \/ p 1%R = 1%R) -> (p (-1)%R = 0%R \/ p (-1)%R = 1%R) -> (p 1 + p (-1) = 1)%R ->
      part_range 128 2 1 (value V) (value (cst (lit32 1 0))) (value W) (value (cst (lit32 1 0))) 0 p).
    { intros p A B C. repeat split.
      all: intros; repeat match goal with a : nat, H : ?a < 1 |- _ => assert (a = 0) by lia; subst a end.
      all: repeat match goal with i : nat |- _ => destruct i as [|[|]]; [| |lia] end.
      all: rewrite ?L, ?Q, ?Gm, ?vO, ?vV0, ?vV1, ?vW0, ?vW1.
      all: destruct A as [A|A], B as [B|B]; rewrite ?A, ?B in *; try lra.
      all: first [apply ok_mid; lra|left; lra]. }
    split; [apply P; auto; lra|]. split; [apply P; auto; lra|].
    intros a Ha. assert (a = 0) by lia. subst a. rewrite Ep, !L, !Q, U1, U2, D1, D2.
    replace (3 * 1 + 0 + (0 * 0 + 1 * 1) + e)%R with (4 + e)%R by ring. replace (3 * 0 + 1 + (1 * 1 + 0 * 0) + e)%R with (2 + e)%R by ring.
    repeat split; apply ok_mid; try lra. split.
    - rewrite <- sqrt_1. apply sqrt_le_1_alt. lra.
    - apply Rle_trans with (sqrt (8 * 8)); [apply sqrt_le_1_alt; lra|rewrite sqrt_square; lra]. }
  split; [cbn; lia|]. split; [|exact Ep].
  eexists (fun a j => _). intros j Hj. do 8 eexists.
  split; [apply prod_ltr_ok|]. split; [apply prod_ltr_ok|]. split; [apply prod_ltr_ok|]. split; [apply prod_ltr_ok|].
  split; [apply prod_ltr_ok|]. split; [apply prod_ltr_ok|]. split; [apply prod_ltr_ok|]. split; [apply prod_ltr_ok|].
  intros a Ha. cbv beta. reflexivity.
Qed.
