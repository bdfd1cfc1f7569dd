(** C35-C39 and C64: displacement (esat/error/displacement.py). *)
From Coq Require Import List Bool ZArith Lia Reals Lra Permutation Sorted.
From Verif Require Import Base Fl Metrics_Model Disp_Model Disp_Proofs.
Import ListNotations.
Local Open Scope R_scope.

(** [targets] is the list of dQ targets, [32; 16; 8; 4] in DISP and
    [4; 2; 1; 1/2] in BS-DISP.  [a] is what is reported for a target [T]. *)

(** ** C35 *)
Theorem C35_increase_in_tolerance : forall (dq : R -> fl) targets thr fuel n l,
  increase dq targets thr fuel = Some (n, l) ->
  Forall2 (fun T a => f_dq a = dq (f_mod a) /\ 1 < f_mod a < 2 ^ 101 /\
             ((f_n a < 100)%nat -> f_dq a = NaN \/ exists x, f_dq a = Fin x /\ T - thr <= x <= T))
          targets l.
Proof.
  intros dq targets thr fuel n l. unfold increase.
  destruct (loop (high_body dq targets) fuel (2, 0%nat)) as [[h n']|] eqn:E; [|discriminate].
  destruct (inc_targets dq thr fuel targets h) as [l'|] eqn:E'; [|discriminate]. intros [= <- <-].
  pose proof (high_range dq targets fuel h n' E) as Hh.
  apply inc_targets_spec in E'; [|lra]. eapply F2_impl; [|exact E'].
  intros T a (H1 & H2 & _ & _ & _ & H6). repeat split; try assumption; try lra.
Qed.
Print Assumptions C35_increase_in_tolerance.

Theorem C35_decrease_in_tolerance : forall (dq : R -> fl) targets thr fuel l,
  decrease dq targets thr fuel = Some l ->
  Forall2 (fun T a => f_dq a = fabs (dq (f_mod a)) /\ 0 < f_mod a < 1 /\
             ((f_n a < 26)%nat -> f_dq a = NaN \/ exists x, f_dq a = Fin x /\ T - thr <= x <= T))
          targets l.
Proof.
  intros dq targets thr fuel l H. apply dec_targets_spec in H. eapply F2_impl; [|exact H].
  intros T a (H1 & H2 & _ & H4). auto.
Qed.
Print Assumptions C35_decrease_in_tolerance.

(** The reported percentages and contributions bracket those of the base model. *)
Theorem C35_ranges_bracket_base : forall (dqi dqd : R -> fl) targets thr fuel n li ld m k W H i j,
  increase dqi targets thr fuel = Some (n, li) -> decrease dqd targets thr fuel = Some ld ->
  (i < k)%nat -> (forall a, (a < k)%nat -> 0 < H a j) -> (forall t, (t < m)%nat -> 0 <= W t i) ->
  forall a b, In a li -> In b ld ->
    percent k (displaced H i j (f_mod b)) i j <= percent k H i j <= percent k (displaced H i j (f_mod a)) i j /\
    conc m W (displaced H i j (f_mod b)) i j <= conc m W H i j <= conc m W (displaced H i j (f_mod a)) i j /\
    (let reported x := clamp (conc m W (displaced H i j x) i j) in
     reported (f_mod b) = Rmax (conc m W (displaced H i j (f_mod b)) i j) (1 / 10000) /\
     reported (f_mod a) = Rmax (conc m W (displaced H i j (f_mod a)) i j) (1 / 10000) /\
     reported (f_mod b) <= Rmax (conc m W H i j) (1 / 10000) <= reported (f_mod a)).
Proof.
  intros dqi dqd targets thr fuel n li ld m k W H i j Hi Hd Hik HH HW a b Ha Hb.
  apply C35_increase_in_tolerance in Hi. apply C35_decrease_in_tolerance in Hd.
  assert (Ha' : 1 < f_mod a).
  { assert (G : forall ts l, Forall2 (fun T a => f_dq a = dqi (f_mod a) /\ 1 < f_mod a < 2 ^ 101 /\
             ((f_n a < 100)%nat -> f_dq a = NaN \/ exists x, f_dq a = Fin x /\ T - thr <= x <= T)) ts l -> In a l -> 1 < f_mod a).
    { induction 1 as [|? ? ? ? (_ & Hx & _) _ IH]; intros Hin; [destruct Hin|]. destruct Hin as [->|Hin]; [lra|auto]. }
    exact (G _ _ Hi Ha). }
  assert (Hb' : 0 < f_mod b < 1).
  { assert (G : forall ts l, Forall2 (fun T a => f_dq a = fabs (dqd (f_mod a)) /\ 0 < f_mod a < 1 /\
             ((f_n a < 26)%nat -> f_dq a = NaN \/ exists x, f_dq a = Fin x /\ T - thr <= x <= T)) ts l -> In b l -> 0 < f_mod b < 1).
    { induction 1 as [|? ? ? ? (_ & Hx & _) _ IH]; intros Hin; [destruct Hin|]. destruct Hin as [->|Hin]; [lra|auto]. }
    exact (G _ _ Hd Hb). }
  assert (H1 : percent k (displaced H i j 1) i j = percent k H i j).
  { rewrite percent_displaced by exact Hik. unfold percent. f_equal; [ring|ring_simplify; reflexivity]. }
  assert (Hc : forall x, conc m W (displaced H i j x) i j = rsum m (fun t => W t i) * (H i j * x)).
  { intros x. unfold conc. rewrite <- rsum_scal_r. apply rsum_ext. intros t Ht. unfold displaced.
    rewrite !Nat.eqb_refl. reflexivity. }
  assert (Hc1 : conc m W H i j = rsum m (fun t => W t i) * (H i j * 1)).
  { unfold conc. rewrite <- rsum_scal_r. apply rsum_ext. intros t Ht. ring. }
  assert (Hmono : forall x y, 0 <= x -> x <= y -> rsum m (fun t => W t i) * (H i j * x) <= rsum m (fun t => W t i) * (H i j * y)).
  { intros x y Hx Hxy. apply Rmult_le_compat_l; [apply rsum_nonneg; exact HW|]. specialize (HH i Hik).
    apply Rmult_le_compat_l; lra. }
  split; [|split].
  - rewrite <- H1. split; apply percent_mono; try assumption; lra.
  - rewrite !Hc, Hc1. split; apply Hmono; lra.
  - cbv beta zeta.
    assert (Hcl : forall c, clamp c = Rmax c (1 / 10000)).
    { intros c. unfold clamp. destruct (Rltb (/ 10000) c) eqn:E;
        [apply Rltb_iff in E; rewrite Rmax_left by lra|apply Rltb_false in E; rewrite Rmax_right by lra]; lra. }
    rewrite !Hcl. split; [reflexivity|]. split; [reflexivity|].
    rewrite !Hc, Hc1. split; apply Rle_max_compat_r; apply Hmono; lra.
Qed.
Print Assumptions C35_ranges_bracket_base.

(** ** C36 *)
Theorem C36_increase_budget : forall (dq : R -> fl) targets thr fuel, (100 <= fuel)%nat ->
  exists n l, increase dq targets thr fuel = Some (n, l) /\ increase dq targets thr 100 = Some (n, l) /\
    (1 <= n <= 100)%nat /\ length l = length targets /\ Forall (fun a => (1 <= f_n a <= 100)%nat) l.
Proof.
  intros dq targets thr fuel Hf. unfold increase.
  destruct (high_terminates dq targets 100 (le_n _)) as [[h n] E]. rewrite E.
  rewrite (loop_mono _ 100 fuel Hf _ _ E).
  destruct (inc_targets_total dq thr 100 targets (le_n _) h) as (l & E' & Hl). rewrite E'.
  rewrite (inc_targets_mono dq thr 100 fuel targets Hf h l E').
  exists n, l. repeat split; try reflexivity; try (apply high_spec in E; lia).
  apply inc_targets_spec in E'; [|apply high_range in E; lra].
  clear Hl E Hf. induction E' as [|? ? ? ? Hx _ IH]; constructor; [|exact IH]. destruct Hx as (_ & _ & _ & _ & Hx & _). exact Hx.
Qed.
Print Assumptions C36_increase_budget.

(** The limit of 50 steps is never reached. *)
Theorem C36_decrease_budget : forall (dq : R -> fl) targets thr fuel, (26 <= fuel)%nat ->
  exists l, decrease dq targets thr fuel = Some l /\ decrease dq targets thr 26 = Some l /\
    length l = length targets /\ Forall (fun a => (1 <= f_n a <= 26)%nat) l.
Proof.
  intros dq targets thr fuel Hf. unfold decrease.
  destruct (dec_targets_total dq thr 26 targets (le_n _)) as (l & E & Hl). rewrite E.
  rewrite (dec_targets_mono dq thr 26 fuel targets Hf l E). exists l. repeat split; try reflexivity; [exact Hl|].
  apply dec_targets_spec in E. clear Hl Hf. induction E as [|? ? ? ? Hx _ IH]; constructor; [|exact IH].
  destruct Hx as (_ & _ & Hx & _). exact Hx.
Qed.
Print Assumptions C36_decrease_budget.
(* a change of loss of 33 per unit of the factor, searched at the published targets *)
Definition xd_dq (x : R) : fl := Fin (33 * (x - 1)).
Definition xd_inc := increase xd_dq dQmax (1 / 10) 100.
Definition xd_dec := decrease xd_dq dQmax (1 / 10) 100.
Example C36_increase_budget_example := C36_increase_budget xd_dq dQmax (1 / 10) 150 ltac:(lia).
Example C36_decrease_budget_example := C36_decrease_budget xd_dq dQmax (1 / 10) 150 ltac:(lia).
Example C35_increase_in_tolerance_example : exists n l, xd_inc = Some (n, l) /\
  Forall2 (fun T a => f_dq a = xd_dq (f_mod a) /\ 1 < f_mod a < 2 ^ 101 /\
             ((f_n a < 100)%nat -> f_dq a = NaN \/ exists x, f_dq a = Fin x /\ T - 1 / 10 <= x <= T)) dQmax l.
Proof.
  destruct (C36_increase_budget xd_dq dQmax (1 / 10) 100 ltac:(lia)) as (n & l & H & _).
  exists n, l. split; [exact H | exact (C35_increase_in_tolerance xd_dq dQmax (1 / 10) 100 n l H)].
Qed.
Example C35_decrease_in_tolerance_example : exists l, xd_dec = Some l /\
  Forall2 (fun T a => f_dq a = fabs (xd_dq (f_mod a)) /\ 0 < f_mod a < 1 /\
             ((f_n a < 26)%nat -> f_dq a = NaN \/ exists x, f_dq a = Fin x /\ T - 1 / 10 <= x <= T)) dQmax l.
Proof.
  destruct (C36_decrease_budget xd_dq dQmax (1 / 10) 100 ltac:(lia)) as (l & H & _).
  exists l. split; [exact H | exact (C35_decrease_in_tolerance xd_dq dQmax (1 / 10) 100 l H)].
Qed.
Example C35_ranges_bracket_base_example : exists n li ld, xd_inc = Some (n, li) /\ xd_dec = Some ld /\
  li <> [] /\ ld <> [] /\
  forall a b, In a li -> In b ld ->
    let H : mat := fun a j => 1 + INR a in
    percent 2 (displaced H 1 0 (f_mod b)) 1 0 <= percent 2 H 1 0 <= percent 2 (displaced H 1 0 (f_mod a)) 1 0.
Proof.
  destruct (C36_increase_budget xd_dq dQmax (1 / 10) 100 ltac:(lia)) as (n & li & H & _ & _ & Hl & _).
  destruct (C36_decrease_budget xd_dq dQmax (1 / 10) 100 ltac:(lia)) as (ld & Hd & _ & Hl' & _).
  exists n, li, ld. split; [exact H |]. split; [exact Hd |].
  split; [intros ->; discriminate |]. split; [intros ->; discriminate |].
  intros a b Ha Hb.
  refine (proj1 (C35_ranges_bracket_base xd_dq xd_dq dQmax (1 / 10) 100 n li ld 3 2 (fun _ _ => 1) (fun a j => 1 + INR a)
    1 0 H Hd ltac:(lia) _ _ a b Ha Hb)).
  - intros c _. pose proof (pos_INR c). lra.
  - intros t _. lra.
Qed.

(** ** C37 *)
(** [p] is the first power for which the change reaches the largest target. *)
Theorem C37_increase_succeeds : forall (F : R -> R) T0 Ts thr L p fuel,
  StronglySorted (fun a b => b <= a) (T0 :: Ts) ->
  0 < thr -> (1 <= p <= 100)%nat ->
  (forall i, (1 <= i < p)%nat -> F (2 ^ i) < T0) -> T0 <= F (2 ^ p) ->
  (forall T, In T (T0 :: Ts) -> F 1 <= T - thr) ->
  (forall x y, 1 <= x -> x <= y -> y <= 2 ^ p -> Rabs (F y - F x) <= L * (y - x)) ->
  0 <= L -> L * (2 ^ p - 1) <= thr * 2 ^ 100 -> (100 <= fuel)%nat ->
  exists l, increase (fun x => Fin (F x)) (T0 :: Ts) thr fuel = Some (p, l) /\
    Forall2 (fun T a => exists x, f_dq a = Fin x /\ F (f_mod a) = x /\ T - thr <= x <= T) (T0 :: Ts) l.
Proof.
  intros F T0 Ts thr L p fuel Hsort Hthr Hp Hbelow Hreach Hone HL HL0 HLb Hfuel.
  set (targets := T0 :: Ts) in *.
  destruct (C36_increase_budget (fun x => Fin (F x)) targets thr fuel Hfuel) as (n & l & E & _ & _ & Hlen & _).
  pose proof (C35_increase_in_tolerance _ _ _ _ _ _ E) as Htol.
  revert E. unfold increase.
  destruct (loop (high_body (fun x => Fin (F x)) targets) fuel (2, 0%nat)) as [[h n']|] eqn:E; [|discriminate].
  destruct (inc_targets (fun x => Fin (F x)) thr fuel targets h) as [l'|] eqn:E'; [|discriminate]. intros [= -> ->].
  apply high_spec in E. destruct E as (Hn & Hlow & Hcase). change (hd 0 targets) with T0 in *.
  assert (n = p /\ h = 2 ^ p).
  { destruct Hcase as [[Hh Hx]|(Hn100 & Hh & Hx)].
    - cbn [flt] in Hx. apply Rltb_false in Hx. assert (n = p); [|subst; auto].
      destruct (Nat.lt_trichotomy n p) as [Hlt|[Heq|Hgt]]; [exfalso|exact Heq|exfalso].
      + specialize (Hbelow n ltac:(lia)). rewrite <- Hh in Hbelow. lra.
      + specialize (Hlow p ltac:(lia)). cbn [flt] in Hlow. apply Rltb_iff in Hlow. lra.
    - exfalso. cbn [flt] in Hx. apply Rltb_iff in Hx. destruct (Nat.eq_dec p 100) as [->|]; [lra|].
      specialize (Hlow p ltac:(lia)). cbn [flt] in Hlow. apply Rltb_iff in Hlow. lra. }
  destruct H as [-> ->]. exists l. split; [reflexivity|].
  assert (Hh1 : 1 < 2 ^ p) by (apply Rlt_pow_R1; [lra|lia]).
  assert (Hfind : Forall2 (fun T a => exists x, f_dq a = Fin x /\ T - thr <= x <= T) targets l).
  { apply (inc_targets_find F thr Hthr fuel L targets (2 ^ p) l); try assumption.
    intros T HT. split; [apply Hone, HT|]. destruct HT as [<-|HT]; [exact Hreach|].
    inversion Hsort as [|? ? _ Hall]; subst. rewrite Forall_forall in Hall. specialize (Hall T HT). cbn in Hall. lra. }
  clear -Htol Hfind.
  revert Hfind. induction Htol as [|T a ts l Ha _ IH]; intros Hf; [constructor|]. inversion Hf as [|? ? ? ? Hx Hf']; subst.
  constructor; [|apply IH, Hf']. destruct Hx as (x & Hx & Hr). exists x. split; [exact Hx|]. split; [|exact Hr].
  destruct Ha as (Ha & _). rewrite Hx in Ha. congruence.
Qed.
Print Assumptions C37_increase_succeeds.

Theorem C37_decrease_succeeds : forall (F : R -> R) targets thr L fuel,
  0 < thr -> (forall T, In T targets -> T <= Rabs (F 0) /\ Rabs (F 1) <= T - thr) ->
  (forall x y, 0 <= x -> x <= y -> y <= 1 -> Rabs (F y - F x) <= L * (y - x)) ->
  L <= thr * 2 ^ 26 -> (26 <= fuel)%nat ->
  exists l, decrease (fun x => Fin (F x)) targets thr fuel = Some l /\
    Forall2 (fun T a => exists x, f_dq a = Fin x /\ Rabs (F (f_mod a)) = x /\ T - thr <= x <= T) targets l.
Proof.
  intros F targets thr L fuel Hthr HT HL HLb Hfuel.
  destruct (C36_decrease_budget (fun x => Fin (F x)) targets thr fuel Hfuel) as (l & E & _).
  exists l. split; [exact E|].
  pose proof (C35_decrease_in_tolerance _ _ _ _ _ E) as Htol.
  assert (Hfind : Forall2 (fun T a => exists x, f_dq a = Fin x /\ T - thr <= x <= T) targets l).
  { apply (dec_targets_find F thr L fuel targets l Hthr); try assumption.
    intros T Hin. destruct (HT T Hin). split; assumption. }
  clear -Htol Hfind.
  revert Hfind. induction Htol as [|T a ts l Ha _ IH]; intros Hf; [constructor|]. inversion Hf as [|? ? ? ? Hx Hf']; subst.
  constructor; [|apply IH, Hf']. destruct Hx as (x & Hx & Hr). exists x. split; [exact Hx|]. split; [|exact Hr].
  destruct Ha as (Ha & _). rewrite Hx in Ha. cbn [fabs] in Ha. congruence.
Qed.
Print Assumptions C37_decrease_succeeds.

(** The loss the code uses is a quadratic of the modifier, so the Lipschitz
    hypothesis is met by every data set; [A], [B], [C] are given by the data. *)
Theorem C37_model_loss : forall m n k V U W H base i j T0 Ts thr p fuel,
  let A := rsum m (fun t => (W t i * H i j / U t j) * (W t i * H i j / U t j)) in
  let B := rsum m (fun t => -2 * (W t i * H i j / U t j) * ((V t j - mmul k W H t j) / U t j)) in
  let C := q_loss m n k true V U W H - base in
  let F := fun x => A * ((x - 1) * (x - 1)) + B * (x - 1) + C in
  (i < k)%nat -> (j < n)%nat ->
  (forall x, disp_change m n k V U W H base i j x = F x) /\
  (StronglySorted (fun a b => b <= a) (T0 :: Ts) -> 0 < thr -> (1 <= p <= 100)%nat ->
   (forall q, (1 <= q < p)%nat -> F (2 ^ q) < T0) -> T0 <= F (2 ^ p) ->
   (forall T, In T (T0 :: Ts) -> C <= T - thr) ->
   (2 * A * (2 ^ p - 1) + Rabs B) * (2 ^ p - 1) <= thr * 2 ^ 100 -> (100 <= fuel)%nat ->
   exists l, increase (fun x => Fin (disp_change m n k V U W H base i j x)) (T0 :: Ts) thr fuel = Some (p, l) /\
     Forall2 (fun T a => exists x, f_dq a = Fin x /\ disp_change m n k V U W H base i j (f_mod a) = x /\ T - thr <= x <= T)
             (T0 :: Ts) l).
Proof.
  intros m n k V U W H base i j T0 Ts thr p fuel A B C F Hi Hj.
  assert (HF : forall x, disp_change m n k V U W H base i j x = F x).
  { intros x. unfold disp_change, F, C, A, B.
    pose proof (disp_quadratic m n k V U W H i j x Hi Hj) as Hq. lra. }
  split; [exact HF|]. intros Hsort Hthr Hp Hbelow Hreach Hone HLb Hfuel.
  assert (HA : 0 <= A) by (apply rsum_nonneg; intros; apply Rle_0_sqr).
  assert (Hh1 : 1 < 2 ^ p) by (apply Rlt_pow_R1; [lra|lia]).
  apply (C37_increase_succeeds (disp_change m n k V U W H base i j) T0 Ts thr (2 * A * (2 ^ p - 1) + Rabs B) p fuel); try assumption.
  - intros q Hq. rewrite HF. apply Hbelow, Hq.
  - rewrite HF. exact Hreach.
  - intros T HT. rewrite HF. unfold F. specialize (Hone T HT). lra.
  - intros x y Hx Hxy Hy. rewrite !HF. unfold F. apply quad_lip; try assumption; lra.
  - pose proof (Rabs_pos B). assert (0 <= A * (2 ^ p - 1)) by (apply Rmult_le_pos; lra). lra.
Qed.
Print Assumptions C37_model_loss.

(** The same for the downward search: between 0 and the current value the change is a quadratic
    too, so the search finds every target that is reached when the entry is removed. *)
Theorem C37_model_loss_decrease : forall m n k V U W H base i j targets thr fuel,
  let A := rsum m (fun t => (W t i * H i j / U t j) * (W t i * H i j / U t j)) in
  let B := rsum m (fun t => -2 * (W t i * H i j / U t j) * ((V t j - mmul k W H t j) / U t j)) in
  let C := q_loss m n k true V U W H - base in
  (i < k)%nat -> (j < n)%nat -> 0 < thr ->
  (forall T, In T targets -> T <= Rabs (A - B + C) /\ Rabs C <= T - thr) ->
  2 * A + Rabs B <= thr * 2 ^ 26 -> (26 <= fuel)%nat ->
  exists l, decrease (fun x => Fin (disp_change m n k V U W H base i j x)) targets thr fuel = Some l /\
    Forall2 (fun T a => exists x, f_dq a = Fin x /\ Rabs (disp_change m n k V U W H base i j (f_mod a)) = x /\ T - thr <= x <= T)
            targets l.
Proof.
  intros m n k V U W H base i j targets thr fuel A B C Hi Hj Hthr HT HL Hfuel.
  assert (HF : forall x, disp_change m n k V U W H base i j x = A * ((x - 1) * (x - 1)) + B * (x - 1) + C).
  { intros x. unfold disp_change, C, A, B.
    pose proof (disp_quadratic m n k V U W H i j x Hi Hj) as Hq. lra. }
  assert (HA : 0 <= A) by (apply rsum_nonneg; intros; apply Rle_0_sqr).
  apply (C37_decrease_succeeds (disp_change m n k V U W H base i j) targets thr (2 * A + Rabs B) fuel); try assumption.
  - intros T Hin. destruct (HT T Hin) as [H0 H1]. rewrite !HF. split.
    + replace (A * ((0 - 1) * (0 - 1)) + B * (0 - 1) + C) with (A - B + C) by ring. exact H0.
    + replace (A * ((1 - 1) * (1 - 1)) + B * (1 - 1) + C) with C by ring. exact H1.
  - intros x y Hx Hxy Hy. rewrite !HF.
    replace (A * ((y - 1) * (y - 1)) + B * (y - 1) + C - (A * ((x - 1) * (x - 1)) + B * (x - 1) + C))
      with ((A * (x + y - 2) + B) * (y - x)) by ring.
    rewrite Rabs_mult, (Rabs_pos_eq (y - x)) by lra. apply Rmult_le_compat_r; [lra|].
    eapply Rle_trans; [apply Rabs_triang|]. apply Rplus_le_compat_r. rewrite Rabs_mult, (Rabs_pos_eq A) by exact HA.
    rewrite Rabs_left1 by lra. nra.
Qed.
Print Assumptions C37_model_loss_decrease.

(** Where the change never gets near the targets the search reports a value all
    the same, without a flag, after exhausting its steps. *)
Theorem C37_unreachable_target : forall (F : R -> R) T0 Ts thr fuel,
  (forall T x, In T (T0 :: Ts) -> F x < T - thr) -> 0 <= thr -> (100 <= fuel)%nat ->
  exists l, increase (fun x => Fin (F x)) (T0 :: Ts) thr fuel = Some (100%nat, l) /\
    Forall2 (fun T a => f_n a = 100%nat /\ exists x, f_dq a = Fin x /\ x < T - thr) (T0 :: Ts) l.
Proof.
  intros F T0 Ts thr fuel HF Hthr Hfuel.
  destruct (C36_increase_budget (fun x => Fin (F x)) (T0 :: Ts) thr fuel Hfuel) as (n & l & E & _ & Hn & Hlen & Hb).
  pose proof (C35_increase_in_tolerance _ _ _ _ _ _ E) as Htol.
  exists l. split.
  - rewrite E. f_equal. f_equal. revert E. unfold increase.
    destruct (loop (high_body (fun x => Fin (F x)) (T0 :: Ts)) fuel (2, 0%nat)) as [[h n']|] eqn:E; [|discriminate].
    destruct (inc_targets (fun x => Fin (F x)) thr fuel (T0 :: Ts) h) as [l'|] eqn:E'; [|discriminate]. intros [= -> ->].
    apply high_spec in E. destruct E as (_ & _ & [[_ Hx]|[Hx _]]); [|exact Hx].
    cbn [flt hd] in Hx. apply Rltb_false in Hx. specialize (HF T0 h (or_introl eq_refl)). lra.
  - clear Hlen E. induction Htol as [|T a ts l Ha _ IH]; [constructor|]. inversion Hb; subst.
    constructor; [|apply IH; [intros; apply HF; right; assumption|assumption]]. destruct Ha as (Ha & _ & Hc).
    assert (Hx : exists x, f_dq a = Fin x /\ x < T - thr) by (eexists; split; [exact Ha|apply HF; left; reflexivity]).
    split; [|exact Hx]. destruct (Nat.eq_dec (f_n a) 100) as [|Hne]; [assumption|exfalso].
    destruct (Hc ltac:(lia)) as [C|(y & Hy & Hr)]; [congruence|]. destruct Hx as (x & Hx & Hlt).
    rewrite Hx in Hy. injection Hy as <-. lra.
Qed.
Print Assumptions C37_unreachable_target.
Example C37_unreachable_target_example :=
  C37_unreachable_target (fun x => 1) 4 [2] (1 / 10) 100
    ltac:(intros T x [<- | [<- | []]]; lra) ltac:(lra) ltac:(lia).

(** The targets of the two error estimation methods meet the hypotheses. *)
Example C37_targets : StronglySorted (fun a b => b <= a) dQmax /\ StronglySorted (fun a b => b <= a) bs_dQmax.
Proof. unfold dQmax, bs_dQmax. split; repeat constructor; lra. Qed.

(** [max_search] (lines 44, 60, 83) does not limit the searches: whatever it is, for a factor
    without contributions the search of every target takes 100 steps. *)
Theorem C36_max_search_refuted :
  exists (m n k : nat) (V U W H : mat) (i j : nat), (i < k)%nat /\ (j < n)%nat /\
    let F := disp_change m n k V U W H (q_loss m n k true V U W H) i j in
    forall max_search : nat, (max_search < 100)%nat -> exists c l,
      increase (fun x => Fin (F x)) dQmax (1 / 10) 100 = Some (c, l) /\
      (max_search < c)%nat /\ length l = 4%nat /\ Forall (fun a => (max_search < f_n a)%nat) l.
Proof.
  exists 1%nat, 1%nat, 1%nat, (fun _ _ => 1), (fun _ _ => 1), (fun _ _ => 0), (fun _ _ => 1), 0%nat, 0%nat.
  split; [lia|]. split; [lia|]. intros F ms Hms.
  assert (HF : forall x, F x = 0).
  { intros x. unfold F, disp_change, q_loss, msum, resid, mmul. cbn [rsum]. lra. }
  destruct (C37_unreachable_target F 32 [16; 8; 4] (1 / 10) 100) as (l & E & Hl); try lia; try lra.
  { intros T x HT. rewrite HF. destruct HT as [<-|[<-|[<-|[<-|[]]]]]; lra. }
  exists 100%nat, l. split; [exact E|]. split; [lia|].
  split; [destruct (C36_increase_budget (fun x => Fin (F x)) dQmax (1 / 10) 100 (le_n _)) as (c' & l' & E' & _ & _ & L & _);
          unfold dQmax in E'; rewrite E in E'; injection E' as _ <-; exact L|].
  clear E. induction Hl as [|? ? ? ? [Hn _] _ IH]; constructor; [lia|exact IH].
Qed.
Print Assumptions C36_max_search_refuted.

Example C35_C36_C37_instance :
  let F := fun x => 33 * (x - 1) in
  exists l ld, increase (fun x => Fin (F x)) dQmax (1/10) 100 = Some (1%nat, l) /\ decrease (fun x => Fin (F x)) dQmax (1/10) 100 = Some ld /\
    Forall2 (fun T a => exists x, f_dq a = Fin x /\ F (f_mod a) = x /\ T - 1/10 <= x <= T) [32; 16; 8; 4] l /\
    Forall2 (fun T a => exists x, f_dq a = Fin x /\ Rabs (F (f_mod a)) = x /\ T - 1/10 <= x <= T) [32; 16; 8; 4] ld.
Proof.
  intros F.
  assert (HL : forall x y, x <= y -> Rabs (F y - F x) <= 33 * (y - x)).
  { intros x y Hxy. unfold F. replace (33 * (y - 1) - 33 * (x - 1)) with (33 * (y - x)) by ring.
    rewrite Rabs_right; lra. }
  destruct (C37_increase_succeeds F 32 [16; 8; 4] (1/10) 33 1 100) as (l & El & Hl); try lia; try lra; try apply C37_targets.
  { unfold F. lra. }
  { intros T [<-|[<-|[<-|[<-|[]]]]]; unfold F; lra. }
  { intros; apply HL; assumption. }
  destruct (C37_decrease_succeeds F dQmax (1/10) 33 100) as (ld & Ed & Hd); try lia; try lra.
  { unfold F. replace (33 * (0 - 1)) with (-33) by ring. replace (33 * (1 - 1)) with 0 by ring. rewrite Rabs_R0.
    rewrite Rabs_left by lra. intros T [<-|[<-|[<-|[<-|[]]]]]; lra. }
  { intros; apply HL; assumption. }
  exists l, ld. auto.
Qed.

Example C37_decrease_instance :
  let one : mat := fun _ _ => 1 in
  let F := disp_change 1 1 1 one (fun _ _ => / 10) one one 0 0 0 in
  exists l, decrease (fun x => Fin (F x)) dQmax (1/10) 100 = Some l /\
    Forall2 (fun T a => exists x, f_dq a = Fin x /\ Rabs (F (f_mod a)) = x /\ T - 1/10 <= x <= T) dQmax l.
Proof.
  intros one F.
  apply (C37_model_loss_decrease 1 1 1 one (fun _ _ => / 10) one one 0 0 0 dQmax (1/10) 100); try lia; try lra.
  - unfold q_loss, msum, resid, mmul, one. cbn [rsum]. intros T [<-|[<-|[<-|[<-|[]]]]]; split;
      unfold Rabs; destruct Rcase_abs; lra.
  - unfold mmul, one. cbn [rsum]. unfold Rabs; destruct Rcase_abs; lra.
Qed.

Example C37_model_loss_instance :
  let one : mat := fun _ _ => 1 in
  let F := disp_change 1 1 1 one (fun _ _ => / 10) one one 0 0 0 in
  exists l, increase (fun x => Fin (F x)) dQmax (1/10) 100 = Some (1%nat, l) /\
    Forall2 (fun T a => exists x, f_dq a = Fin x /\ F (f_mod a) = x /\ T - 1/10 <= x <= T) [32; 16; 8; 4] l.
Proof.
  intros one F.
  destruct (C37_model_loss 1 1 1 one (fun _ _ => / 10) one one 0 0 0 32 [16; 8; 4] (1/10) 1 100 ltac:(lia) ltac:(lia)) as [HF H].
  assert (EC : q_loss 1 1 1 true one (fun _ _ => / 10) one one - 0 = 0).
  { unfold q_loss, msum, resid, mmul. cbn [rsum]. unfold one. field. }
  assert (EB : rsum 1 (fun t => -2 * (one t 0%nat * one 0%nat 0%nat / / 10) * ((one t 0%nat - mmul 1 one one t 0%nat) / / 10)) = 0).
  { unfold mmul. cbn [rsum]. unfold one. field. }
  assert (EA : rsum 1 (fun t => (one t 0%nat * one 0%nat 0%nat / / 10) * (one t 0%nat * one 0%nat 0%nat / / 10)) = 100).
  { cbn [rsum]. unfold one. field. }
  cbv zeta in H. rewrite EA, EB, EC, Rabs_R0 in H. apply H; try lia; try lra; try apply C37_targets.
  intros T [<-|[<-|[<-|[<-|[]]]]]; lra.
Qed.

(** ** C38 *)
Local Open Scope nat_scope.
(** Number of searched features of factor [i] whose displacement swapped the
    factors at target row [r]. *)
Definition nswaps (features : list nat) (swap : nat -> nat -> list bool) (i r : nat) : nat :=
  length (filter (fun j => nth r (swap i j) false) features).

Lemma nth_error_tab {V} (g : nat -> V) L c : nth_error (tab g L) c = option_map (fun i => (i, g i)) (nth_error L c).
Proof. apply nth_error_map. Qed.
Lemma tab_cells (swap : nat -> nat -> cell) (feats : nat -> list nat) L :
  (forall i j, length (swap i j) = 4) ->
  forall i e p, In (i, e) (tab (fun i => tab (swap i) (feats i)) L) -> In p e -> length (snd p) = 4.
Proof.
  intros Hs i e p Hin Hp. apply tab_in in Hin. destruct Hin as [-> _]. destruct p as [j v].
  apply tab_in in Hp. destruct Hp as [-> _]. apply Hs.
Qed.

Theorem C38_sequential_table : forall k features (inc dec : nat -> nat -> list bool) t r c,
  NoDup features -> (forall i j, length (inc i j) = 4 /\ length (dec i j) = 4) -> r < 4 -> c < k ->
  compile (seq_results k features inc []) (seq_results k features dec []) t r c =
  (fst (t r c) + 2 * length features, snd (t r c) + nswaps features inc c r + nswaps features dec c r).
Proof.
  intros k features inc dec t r c Hf Hs Hr Hc. unfold compile. rewrite !seq_results_tab by exact Hf.
  rewrite count_factors_spec; [|apply (tab_cells dec (fun _ => features)); intros; apply Hs|exact Hr].
  rewrite count_factors_spec; [|apply (tab_cells inc (fun _ => features)); intros; apply Hs|exact Hr].
  cbn [Nat.leb]. rewrite !Nat.sub_0_r.
  rewrite !nth_error_tab, !(nth_error_nth' (seq 0 k) 0) by (rewrite seq_length; exact Hc). rewrite seq_nth by exact Hc.
  cbn [option_map Nat.add fst snd].
  rewrite !tab_length, !sw_tab. unfold nswaps. f_equal; lia.
Qed.
Print Assumptions C38_sequential_table.

(** Running again on the same object doubles the totals: the tables are never
    reset. *)
Theorem C38_second_run_doubles : forall k features (i1 d1 i2 d2 : nat -> nat -> list bool) r c,
  NoDup features -> (forall i j, length (i1 i j) = 4 /\ length (d1 i j) = 4 /\ length (i2 i j) = 4 /\ length (d2 i j) = 4) ->
  r < 4 -> c < k ->
  let zero := fun _ _ => (0, 0) in
  let ri := seq_results k features i1 [] in
  let rd := seq_results k features d1 [] in
  compile (seq_results k features i2 ri) (seq_results k features d2 rd) (compile ri rd zero) r c =
  (4 * length features, nswaps features i1 c r + nswaps features d1 c r + nswaps features i2 c r + nswaps features d2 c r).
Proof.
  intros k features i1 d1 i2 d2 r c Hf Hs Hr Hc zero ri rd. unfold ri, rd. rewrite !seq_results_again by exact Hf.
  rewrite !C38_sequential_table; try assumption; try (intros i j; specialize (Hs i j); tauto).
  cbn [fst snd zero]. f_equal; lia.
Qed.
Print Assumptions C38_second_run_doubles.

Lemma prod_nodup (ks features : list nat) : NoDup ks -> NoDup features -> NoDup (list_prod ks features).
Proof.
  intros Hk Hf. induction ks as [|a l IH]; cbn; [constructor|]. inversion Hk; subst.
  assert (Happ : forall (x y : list (nat * nat)), NoDup x -> NoDup y -> (forall p, In p x -> In p y -> False) -> NoDup (x ++ y)).
  { induction x as [|p x IHx]; intros y Hx Hy Hd; cbn; [exact Hy|]. inversion Hx; subst. constructor.
    - rewrite in_app_iff. intros [?|?]; [contradiction|]. apply (Hd p); [left; reflexivity|assumption].
    - apply IHx; try assumption. intros q Hq. apply Hd. right. exact Hq. }
  apply Happ; [|apply IH; assumption|].
  - clear -Hf. induction features as [|b fs IH]; cbn; [constructor|]. inversion Hf; subst. constructor; [|apply IH; assumption].
    rewrite in_map_iff. intros (y & E & Hy). injection E as ->. contradiction.
  - intros [x y] Hx Hy. apply in_map_iff in Hx. destruct Hx as (z & E & _). injection E as <- <-.
    apply in_prod_iff in Hy. tauto.
Qed.

(** Parallel mode: [s1], [s2] are the completion orders of the increase and the
    decrease tasks.  Column [c] belongs to the [c]-th factor to complete first. *)
Theorem C38_parallel_table : forall k features (inc dec : nat -> nat -> list bool) s1 s2 t r c,
  NoDup features -> (forall i j, length (inc i j) = 4 /\ length (dec i j) = 4) ->
  Permutation s1 (list_prod (seq 0 k) features) -> Permutation s2 (list_prod (seq 0 k) features) ->
  features <> [] -> r < 4 -> c < k ->
  Permutation (firsts (map fst s1)) (seq 0 k) /\ Permutation (firsts (map fst s2)) (seq 0 k) /\
  compile (par_results s1 inc []) (par_results s2 dec []) t r c =
  (fst (t r c) + 2 * length features,
   snd (t r c) + nswaps features inc (nth c (firsts (map fst s1)) 0) r
               + nswaps features dec (nth c (firsts (map fst s2)) 0) r).
Proof.
  intros k features inc dec s1 s2 t r c Hf Hs Hp1 Hp2 Hne Hr Hc.
  assert (Hprod : NoDup (list_prod (seq 0 k) features)) by (apply prod_nodup; [apply seq_NoDup|exact Hf]).
  assert (Hfirst : forall s, Permutation s (list_prod (seq 0 k) features) -> Permutation (firsts (map fst s)) (seq 0 k)).
  { intros s Hp. apply NoDup_Permutation; [apply firsts_nodup|apply seq_NoDup|]. intros x. rewrite firsts_in, in_map_iff. split.
    - intros ([a b] & <- & Hin). apply (Permutation_in _ Hp) in Hin. apply in_prod_iff in Hin. apply Hin.
    - intros Hx. destruct features as [|b fs]; [congruence|]. exists (x, b). split; [reflexivity|].
      apply (Permutation_in _ (Permutation_sym Hp)). apply in_prod_iff. split; [exact Hx|left; reflexivity]. }
  split; [apply Hfirst, Hp1|]. split; [apply Hfirst, Hp2|].
  assert (Hone : forall (swap : nat -> nat -> list bool) s (t : tables), (forall i j, length (swap i j) = 4) ->
    Permutation s (list_prod (seq 0 k) features) ->
    count_factors t 0 (par_results s swap []) r c =
    (fst (t r c) + length features, snd (t r c) + nswaps features swap (nth c (firsts (map fst s)) 0) r)).
  { intros swap s t' Hsw Hp. rewrite par_results_tab by (apply (Permutation_NoDup (Permutation_sym Hp)); exact Hprod).
    rewrite count_factors_spec; [|apply (tab_cells swap (fun i => proj i s)); exact Hsw|exact Hr].
    cbn [Nat.leb]. rewrite Nat.sub_0_r.
    assert (Hlen : length (firsts (map fst s)) = k) by (rewrite (Permutation_length (Hfirst s Hp)); apply seq_length).
    rewrite nth_error_tab, (nth_error_nth' (firsts (map fst s)) 0) by (rewrite Hlen; exact Hc).
    cbn [option_map]. set (i := nth c (firsts (map fst s)) 0).
    assert (Hi : In i (seq 0 k)) by (apply (Permutation_in _ (Hfirst s Hp)); apply nth_In; rewrite Hlen; exact Hc).
    rewrite tab_length, sw_tab.
    assert (Hpp : Permutation (proj i s) features).
    { rewrite (proj_perm i _ _ Hp), (proj_prod i (seq 0 k) features (seq_NoDup k 0) Hi). reflexivity. }
    rewrite (Permutation_length Hpp), (filter_perm_length _ _ _ Hpp). reflexivity. }
  unfold compile. rewrite Hone; [|intros; apply Hs|exact Hp2]. rewrite Hone; [|intros; apply Hs|exact Hp1].
  cbn [fst snd]. f_equal; lia.
Qed.
Print Assumptions C38_parallel_table.

Lemma filter_le {A} (f : A -> bool) l : length (filter f l) <= length l.
Proof. induction l as [|a l IH]; cbn; [lia|]. destruct (f a); cbn; lia. Qed.

(** Swap counts never exceed totals. *)
Theorem C38_swaps_bounded : forall features (inc dec : nat -> nat -> list bool) i i' r,
  nswaps features inc i r + nswaps features dec i' r <= 2 * length features.
Proof.
  intros. unfold nswaps.
  pose proof (filter_le (fun j => nth r (inc i j) false) features).
  pose proof (filter_le (fun j => nth r (dec i' j) false) features). lia.
Qed.
Print Assumptions C38_swaps_bounded.
Definition xd_swap (i j : nat) : list bool := [i =? j; true; false; j =? 1]%nat.
Example C38_sequential_table_example :=
  C38_sequential_table 2 [0; 2]%nat xd_swap xd_swap (fun _ _ => (0, 0)%nat) 1 1
    ltac:(repeat constructor; cbn; lia) ltac:(intros; split; reflexivity) ltac:(lia) ltac:(lia).
Example C38_second_run_doubles_example :=
  C38_second_run_doubles 2 [0; 2]%nat xd_swap xd_swap xd_swap xd_swap 1 1
    ltac:(repeat constructor; cbn; lia) ltac:(intros; repeat split; reflexivity) ltac:(lia) ltac:(lia).
Lemma xd_perm : Permutation [(1, 2); (0, 0); (1, 0); (0, 2)]%nat (list_prod (seq 0 2) [0; 2]%nat).
Proof.
  cbn. symmetry. apply (Permutation_cons_app [(1, 2)]%nat [(1, 0); (0, 2)]%nat). cbn.
  apply (Permutation_cons_app [(1, 2); (1, 0)]%nat []). cbn. constructor.
Qed.
Example C38_parallel_table_example :=
  C38_parallel_table 2 [0; 2]%nat xd_swap xd_swap [(1, 2); (0, 0); (1, 0); (0, 2)]%nat
    (list_prod (seq 0 2) [0; 2]%nat) (fun _ _ => (0, 0)%nat) 1 1
    ltac:(repeat constructor; cbn; lia) ltac:(intros; split; reflexivity) xd_perm (Permutation_refl _)
    ltac:(discriminate) ltac:(lia) ltac:(lia).
Example C38_swaps_bounded_example := C38_swaps_bounded [0; 2]%nat xd_swap xd_swap 0 1 1.

(** With two workers finishing in another order the columns are exchanged. *)
Theorem C38_parallel_column_is_factor_refuted :
  exists k features (inc dec : nat -> nat -> list bool) s1 s2,
    Permutation s1 (list_prod (seq 0 k) features) /\ Permutation s2 (list_prod (seq 0 k) features) /\
    snd (compile (par_results s1 inc []) (par_results s2 dec []) (fun _ _ => (0, 0)) 0 0)
      <> nswaps features inc 0 0 + nswaps features dec 0 0.
Proof.
  exists 2, [0], (fun i _ => if i =? 0 then [true; true; true; true] else [false; false; false; false]),
         (fun i _ => if i =? 0 then [true; true; true; true] else [false; false; false; false]), [(1, 0); (0, 0)], [(1, 0); (0, 0)].
  split; [apply perm_swap|]. split; [apply perm_swap|]. cbv. discriminate.
Qed.
Print Assumptions C38_parallel_column_is_factor_refuted.

Example C38_instance :
  let inc := fun i j => [i =? j; true; false; j =? 1] in
  compile (seq_results 2 [0; 2] inc []) (seq_results 2 [0; 2] inc []) (fun _ _ => (0, 0)) 0 0 = (4, 2) /\
  compile (par_results [(1, 2); (0, 0); (1, 0); (0, 2)] inc []) (par_results [(0, 0); (0, 2); (1, 0); (1, 2)] inc [])
    (fun _ _ => (0, 0)) 0 0 = (4, 1).
Proof. split; reflexivity. Qed.

(** ** C39 *)
Local Open Scope R_scope.
(** Row [r] holds the percentages for target [32 / 2^r] and is labelled [4 * 2^r]. *)
Theorem C39_labels_reversed : forall k (t : tables) r d, (r < 4)%nat ->
  fst (nth r (summary_rows k t) d) = 4 * 2 ^ r /\ nth r dQmax 0 = 32 / 2 ^ r /\
  fst (nth r (summary_rows k t) d) = nth (3 - r) dQmax 0 /\
  fst (nth r (summary_rows k t) d) <> nth r dQmax 0 /\
  (forall c, snd (nth r (summary_rows k t) d) c = 100 * (INR (snd (t r c)) / INR (fst (t r c)))).
Proof.
  intros k t r d Hr. destruct r as [|[|[|[|r]]]]; [| | | |lia];
    (split; [cbn; lra|split; [cbn; lra|split; [cbn; lra|split; [cbn; lra|intros c; reflexivity]]]]).
Qed.
Print Assumptions C39_labels_reversed.
Example C39_labels_reversed_example := C39_labels_reversed 1 (fun _ _ => (2, 1)%nat) 2 (0, fun _ => 0) ltac:(lia).

(** The percentages for the target 32 are printed under the label 4. *)
Theorem C39_row_under_its_own_label_refuted : exists k (t : tables) r,
  (r < 4)%nat /\ In r [0; 1; 2; 3]%nat /\
  forall row, In row (summary_rows k t) -> fst row = nth r dQmax 0 -> snd row 0%nat <> 100 * (INR (snd (t r 0%nat)) / INR (fst (t r 0%nat))).
Proof.
  exists 1%nat, (fun r _ => (1%nat, if (r =? 0)%nat then 1%nat else 0%nat)), 0%nat. split; [lia|]. split; [left; reflexivity|].
  intros row [<-|[<-|[<-|[<-|[]]]]]; cbn; intros; lra.
Qed.
Print Assumptions C39_row_under_its_own_label_refuted.
Example C39_instance : (2 < 4)%nat /\ forall d, fst (nth 2 (summary_rows 1 (fun _ _ => (2, 1)%nat)) d) = 16.
Proof. split; [lia|]. intros d. destruct (C39_labels_reversed 1 (fun _ _ => (2, 1)%nat) 2 d) as [-> _]; [lia|lra]. Qed.


(** ** C64 *)
Local Open Scope nat_scope.
Theorem C64_parallel_model_number : forall k features,
  par_completes k features = true <-> (forall i j, i < k -> In j features -> i * length features + j + 1 <= 127).
Proof.
  intros k features. unfold par_completes. rewrite forallb_forall. split.
  - intros H i j Hi Hj. specialize (H i). rewrite in_seq in H. specialize (H ltac:(lia)).
    rewrite forallb_forall in H. specialize (H j Hj). apply Nat.leb_le in H. exact H.
  - intros H i Hi. apply in_seq in Hi. apply forallb_forall. intros j Hj. apply Nat.leb_le. apply H; [lia|exact Hj].
Qed.
Print Assumptions C64_parallel_model_number.

(** All features: more than 127 profile cells and the parallel run cannot finish;
    the sequential run is not limited. *)
Theorem C64_parallel_limit : forall k n, 1 <= k -> 1 <= n ->
  (par_completes k (seq 0 n) = true <-> k * n <= 127) /\ seq_completes k (seq 0 n) 127 = true.
Proof.
  intros k n Hk Hn. split.
  - rewrite C64_parallel_model_number, seq_length. split.
    + intros H. specialize (H (k - 1) (n - 1) ltac:(lia)). rewrite in_seq in H. specialize (H ltac:(lia)). nia.
    + intros H i j Hi Hj. apply in_seq in Hj. nia.
  - unfold seq_completes. apply forallb_forall. intros i _. apply forallb_forall. intros j _. reflexivity.
Qed.
Print Assumptions C64_parallel_limit.
Example C64_parallel_model_number_example := C64_parallel_model_number 6 [0; 3; 130]%nat.
Example C64_parallel_limit_example := C64_parallel_limit 6 22 ltac:(lia) ltac:(lia).

Example C64_instance : par_completes 6 (seq 0 21) = true /\ par_completes 6 (seq 0 22) = false /\ par_completes 6 [130] = false.
Proof. repeat split. Qed.
