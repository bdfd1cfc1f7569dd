(** Properties C10, C11, C62 and the WS-NMF part of C07. *)
From Coq Require Import Reals Lra Lia List ZArith Bool.
From Verif Require Import Base Metrics_Model Metrics_Spec Metrics_Proofs LSNMF_Model LSNMF_Proofs.
From Verif Require Import WSNMF_Model WSNMF_Proofs.
Open Scope R_scope.

(** Specification of the linear algebra routine the update relies on: for a
    matrix that has an inverse it returns one ([G A = A G = I]). *)
Definition ident (k : nat) (A : mat) : Prop :=
  forall a c, (a < k)%nat -> (c < k)%nat -> A a c = if Nat.eqb a c then 1 else 0.
Definition inverse_of (k : nat) (A G : mat) : Prop := ident k (mmul k A G) /\ ident k (mmul k G A).
Definition inverts (k : nat) (solve : nat -> mat -> mat) : Prop :=
  forall A B, inverse_of k A B -> inverse_of k A (solve k A).

Lemma mmul_assoc k A B C a c : mmul k (mmul k A B) C a c = mmul k A (mmul k B C) a c.
Proof.
  unfold mmul. transitivity (rsum k (fun p => rsum k (fun d => A a d * B d p * C p c))).
  - apply rsum_ext. intros p Hp. rewrite rsum_scal_r. reflexivity.
  - rewrite rsum_swap. apply rsum_ext. intros d Hd. rewrite <- rsum_scal_l. apply rsum_ext. intros; ring.
Qed.

Lemma ident_l k I A : ident k I -> meq k k (mmul k I A) A.
Proof.
  intros HI a c Ha Hc. unfold mmul. rewrite (rsum_single k _ a Ha).
  - rewrite HI by assumption. rewrite Nat.eqb_refl. ring.
  - intros p Hp Hne. rewrite HI by assumption. destruct (Nat.eqb_spec a p); [congruence|ring].
Qed.

Lemma ident_r k I A : ident k I -> meq k k (mmul k A I) A.
Proof.
  intros HI a c Ha Hc. unfold mmul. rewrite (rsum_single k _ c Hc).
  - rewrite HI by assumption. rewrite Nat.eqb_refl. ring.
  - intros p Hp Hne. rewrite HI by assumption. destruct (Nat.eqb_spec p c); [congruence|ring].
Qed.

Lemma inverse_unique k A G B : inverse_of k A G -> inverse_of k A B -> meq k k G B.
Proof.
  intros [HAG HGA] [HAB HBA] a c Ha Hc.
  rewrite <- (ident_l k (mmul k B A) G HBA a c Ha Hc), mmul_assoc.
  rewrite <- (ident_r k (mmul k A G) B HAG a c Ha Hc). reflexivity.
Qed.

(** C10: for a fixed profile [H] the contribution step minimises Q over every
    real contribution matrix; the inverse routine only has to return a
    generalised inverse (which the inverse and the pseudo-inverse both are), so
    singular profiles are included.  The result does not depend on the previous
    contributions. *)
Theorem C10_contributions_optimal :
  forall (solve : nat -> mat -> mat) (m n k : nat) (V U W0 H W' H' : mat) (hold : bool),
    mall m n (fun u => 0 < u) U ->
    (forall i, (i < m)%nat -> ginverse k (ws_wd n (weights U) H i) (solve k (ws_wd n (weights U) H i))) ->
    ws_update solve m n k V (weights U) hold (W0, H) = Some (W', H') ->
    (forall W : mat, q_spec m n k V U W' H <= q_spec m n k V U W H) /\
    (forall W1 : mat, ws_update solve m n k V (weights U) hold (W1, H) = Some (W', H')).
Proof.
  intros solve m n k V U W0 H W' H' hold HU HG Hs.
  assert (HU0 : mall m n (fun u => u <> 0) U)
    by (intros i j Hi Hj; apply Rgt_not_eq; apply HU; assumption).
  assert (HW : W' = ws_w_step solve n k V (weights U) H).
  { unfold ws_update in Hs. destruct hold; [congruence|].
    destruct (ws_h_step _ _ _ _ _ _ _); congruence. }
  split; [|intros W1; exact Hs].
  intros W. rewrite <- !q_loss_spec by assumption. rewrite !q_loss_wloss by assumption. subst W'.
  apply ws_w_min; [|assumption]. exact (pos_nonneg _ _ _ (weights_pos m n U HU0)).
Qed.
Print Assumptions C10_contributions_optimal.

(** C10: the premise above follows when every per-sample normal matrix is
    invertible and the routine inverts. *)
Theorem C10_invertible_case :
  forall (solve : nat -> mat -> mat) (m n k : nat) (V U W0 H W' H' : mat) (hold : bool),
    mall m n (fun u => 0 < u) U -> inverts k solve ->
    (forall i, (i < m)%nat -> exists B,
       inverse_of k (fun a b => rsum n (fun j => H a j * (/ (U i j * U i j) * H b j))) B) ->
    ws_update solve m n k V (weights U) hold (W0, H) = Some (W', H') ->
    forall W : mat, q_spec m n k V U W' H <= q_spec m n k V U W H.
Proof.
  intros solve m n k V U W0 H W' H' hold HU Hinv HB Hs.
  apply (C10_contributions_optimal solve m n k V U W0 H W' H' hold HU); [|exact Hs].
  intros i Hi. destruct (HB i Hi) as [B HBi].
  assert (E : meq k k (ws_wd n (weights U) H i)
             (fun a b => rsum n (fun j => H a j * (/ (U i j * U i j) * H b j)))).
  { intros a b _ _. unfold ws_wd, weights. apply rsum_ext. intros j Hj. unfold Rdiv. rewrite Rmult_1_l.
    replace (U i j ^ 2) with (U i j * U i j) by ring. reflexivity. }
  apply inverse_ginverse. intros a c Ha Hc.
  refine (proj1 (Hinv (ws_wd n (weights U) H i) B _) a c Ha Hc).
  destruct HBi as [H1 H2]. split; intros x y Hx Hy.
  - rewrite <- H1 by assumption. unfold mmul. apply rsum_ext. intros p Hp. rewrite E by assumption. reflexivity.
  - rewrite <- H2 by assumption. unfold mmul. apply rsum_ext. intros p Hp. rewrite E by assumption. reflexivity.
Qed.
Print Assumptions C10_invertible_case.

(** 2x2 adjugate formula; used in the examples. *)
Definition solve2 : nat -> mat -> mat := fun _ A a b =>
  let d := A 0%nat 0%nat * A 1%nat 1%nat - A 0%nat 1%nat * A 1%nat 0%nat in
  match a, b with
  | O, O => A 1%nat 1%nat / d
  | O, S _ => - A 0%nat 1%nat / d
  | S _, O => - A 1%nat 0%nat / d
  | S _, S _ => A 0%nat 0%nat / d
  end.

Lemma solve2_inverts : inverts 2 solve2.
Proof.
  intros A B [H1 H2].
  pose proof (H1 0%nat 0%nat ltac:(lia) ltac:(lia)) as E00. pose proof (H1 0%nat 1%nat ltac:(lia) ltac:(lia)) as E01.
  pose proof (H1 1%nat 0%nat ltac:(lia) ltac:(lia)) as E10. pose proof (H1 1%nat 1%nat ltac:(lia) ltac:(lia)) as E11.
  unfold mmul in *. cbn [rsum Nat.eqb] in *.
  assert (Hd : A 0%nat 0%nat * A 1%nat 1%nat - A 0%nat 1%nat * A 1%nat 0%nat <> 0).
  { intros Hd.
    assert (Hdd : (A 0%nat 0%nat * A 1%nat 1%nat - A 0%nat 1%nat * A 1%nat 0%nat)
              * (B 0%nat 0%nat * B 1%nat 1%nat - B 0%nat 1%nat * B 1%nat 0%nat) = 1).
    { replace 1 with ((0 + A 0%nat 0%nat * B 0%nat 0%nat + A 0%nat 1%nat * B 1%nat 0%nat)
        * (0 + A 1%nat 0%nat * B 0%nat 1%nat + A 1%nat 1%nat * B 1%nat 1%nat)
        - (0 + A 0%nat 0%nat * B 0%nat 1%nat + A 0%nat 1%nat * B 1%nat 1%nat)
        * (0 + A 1%nat 0%nat * B 0%nat 0%nat + A 1%nat 1%nat * B 1%nat 0%nat))
        by (rewrite E00, E01, E10, E11; ring). ring. }
    rewrite Hd in Hdd. lra. }
  split; intros a c Ha Hc; unfold mmul; cbn [rsum]; unfold solve2;
    destruct a as [|[|a]]; destruct c as [|[|c]]; try lia; cbn [Nat.eqb]; field; assumption.
Qed.

(** The identity data with the profile [[2,1],[1,1]]: normal matrix invertible. *)
Example C10_instance :
  inverts 2 solve2 /\ mall 2 2 (fun u => 0 < u) One /\
  (forall i, (i < 2)%nat -> exists B,
     inverse_of 2 (fun a b => rsum 2 (fun j => wit_H a j * (/ (One i j * One i j) * wit_H b j))) B).
Proof.
  split; [exact solve2_inverts|]. split; [intros i j _ _; unfold One; lra|].
  intros i Hi. exists wit_G. unfold One.
  split; intros a c Ha Hc; unfold mmul; cbn [rsum]; unfold wit_H, wit_G;
    destruct a as [|[|a]]; destruct c as [|[|c]]; try lia; cbn [Nat.eqb]; field.
Qed.

(** C11: with non-negative data and positive profiles no number of iterations
    takes the root of a negative number; the profiles stay positive. *)
Theorem C11_defined_for_nonnegative_data :
  forall (solve : nat -> mat -> mat) (m n k : nat) (V We : mat) (hold : nat -> bool)
         (N i0 : nat) (W H : mat),
    mall m n (fun x => 0 <= x) V -> mall m n (fun x => 0 <= x) We -> mall k n (fun x => 0 < x) H ->
    exists W' H', ws_iter solve m n k V We hold i0 N (W, H) = Some (W', H') /\
      mall k n (fun x => 0 < x) H'.
Proof. intros. apply ws_iter_defined; assumption. Qed.
Print Assumptions C11_defined_for_nonnegative_data.
Lemma xw_one_pos m n : mall m n (fun u => 0 < u) One.
Proof. intros i j _ _. unfold One. lra. Qed.
Lemma xw_one_nn m n : mall m n (fun u => 0 <= u) One.
Proof. intros i j _ _. unfold One. lra. Qed.
Lemma xw_V_nn : mall 2 2 (fun u => 0 <= u) wit_V.
Proof. intros i j _ _. unfold wit_V. destruct (Nat.eqb i j); lra. Qed.
Lemma xw_H_pos : mall 2 2 (fun u => 0 < u) wit_H.
Proof. intros i j _ _. unfold wit_H. destruct i, j; lra. Qed.
Lemma xw_H_nn : mall 2 2 (fun u => 0 <= u) wit_H.
Proof. intros i j _ _. unfold wit_H. destruct i, j; lra. Qed.
Lemma xw_ginv i : ginverse 2 (ws_wd 2 (weights One) wit_H i) (solve2 2 (ws_wd 2 (weights One) wit_H i)).
Proof.
  intros a c Ha Hc. unfold mmul, ws_wd, solve2, weights, One, wit_H. cbn [rsum]. destruct a as [|[|a]]; destruct c as [|[|c]]; try lia; field.
Qed.
Example C11_defined_for_nonnegative_data_example := fun N => C11_defined_for_nonnegative_data solve2 2 2 2 wit_V (weights One) (fun _ => false) N 0 One wit_H
  xw_V_nn ltac:(intros i j _ _; unfold weights, One; lra) xw_H_pos.
(** One iteration from the identity data, whose contributions are optimal. *)
Example C10_contributions_optimal_example : exists W' H', ws_update solve2 2 2 2 wit_V (weights One) false (One, wit_H) = Some (W', H') /\
  forall W, q_spec 2 2 2 wit_V One W' wit_H <= q_spec 2 2 2 wit_V One W wit_H.
Proof.
  destruct (C11_defined_for_nonnegative_data_example 1%nat) as (W' & H' & E & _). cbn [ws_iter] in E.
  destruct (ws_update solve2 2 2 2 wit_V (weights One) false (One, wit_H)) as [[W1 H1]|] eqn:E1; [|discriminate]. exists W1, H1. split; [reflexivity|].
  exact (proj1 (C10_contributions_optimal solve2 2 2 2 wit_V One One wit_H W1 H1 false (xw_one_pos 2 2) (fun i _ => xw_ginv i) E1)).
Qed.
Example C10_invertible_case_example : exists W' H', ws_update solve2 2 2 2 wit_V (weights One) false (One, wit_H) = Some (W', H') /\
  forall W, q_spec 2 2 2 wit_V One W' wit_H <= q_spec 2 2 2 wit_V One W wit_H.
Proof.
  destruct C10_contributions_optimal_example as (W' & H' & E & _). exists W', H'. split; [exact E|]. destruct C10_instance as (A & B & C).
  exact (C10_invertible_case solve2 2 2 2 wit_V One One wit_H W' H' false B A C E).
Qed.

(** C11: one iteration, entries that are zero stay zero and only those. *)
Theorem C11_zero_pattern_kept :
  forall (solve : nat -> mat -> mat) (m n k : nat) (V We W H : mat),
    mall m n (fun x => 0 <= x) V -> mall m n (fun x => 0 <= x) We -> mall k n (fun x => 0 <= x) H ->
    exists W' H', ws_update solve m n k V We false (W, H) = Some (W', H') /\
      mall k n (fun x => 0 <= x) H' /\
      (forall a j, (a < k)%nat -> (j < n)%nat -> (0 < H a j <-> 0 < H' a j)).
Proof.
  intros solve m n k V We W H HV He HH.
  destruct (ws_h_step_defined m n k V We (ws_w_step solve n k V We H) H HV He HH) as (H' & E & H1 & H2).
  exists (ws_w_step solve n k V We H), H'. unfold ws_update. rewrite E. auto.
Qed.
Print Assumptions C11_zero_pattern_kept.
Example C11_zero_pattern_kept_example := C11_zero_pattern_kept solve2 2 2 2 wit_V (weights One) One wit_V xw_V_nn ltac:(intros i j _ _; unfold weights, One; lra) xw_V_nn.

(** C11 refuted for the documented use (data with negative values): positive
    weights, positive profile, and the first iteration already yields NaN. *)
Theorem C11_negative_data_refuted :
  exists (m n k : nat) (V We W H : mat),
    mall m n (fun x => 0 < x) We /\ mall k n (fun x => 0 < x) H /\
    forall solve, inverts k solve -> ws_update solve m n k V We false (W, H) = None.
Proof.
  exists 1%nat, 1%nat, 1%nat, (fun _ _ => -1), (fun _ _ => 1), (fun _ _ => 1), (fun _ _ => 1).
  split; [intros i j _ _; lra|]. split; [intros i j _ _; lra|].
  intros solve Hinv. apply ws_negative_nan. intros A HA.
  destruct (Hinv A (fun _ _ => / A 0%nat 0%nat)) as [E _].
  - split; intros a c Ha Hc; assert (a = 0%nat) by lia; assert (c = 0%nat) by lia; subst a c;
      unfold mmul; cbn [rsum Nat.eqb]; field; assumption.
  - specialize (E 0%nat 0%nat ltac:(lia) ltac:(lia)). unfold mmul in E. cbn [rsum Nat.eqb] in E.
    apply (Rmult_eq_reg_l (A 0%nat 0%nat)); [|assumption]. rewrite Rinv_r by assumption. lra.
Qed.
Print Assumptions C11_negative_data_refuted.

Example C11_instance :
  mall 2 2 (fun x => 0 <= x) wit_V /\ mall 2 2 (fun x => 0 <= x) One /\ mall 2 2 (fun x => 0 < x) wit_H.
Proof.
  repeat split; intros i j _ _.
  - unfold wit_V. destruct (Nat.eqb i j); lra.
  - unfold One. lra.
  - unfold wit_H. destruct i, j; lra.
Qed.

(** C07 (WS-NMF): held profiles are untouched. *)
Theorem C07_ws_held_profile :
  forall (solve : nat -> mat -> mat) (m n k : nat) (V We : mat) (delay : Z) (N : nat) (W H W' H' : mat),
    ((delay <= 0)%Z \/ (Z.of_nat N <= delay + 1)%Z) ->
    ws_iter solve m n k V We (hold_at true delay) 0 N (W, H) = Some (W', H') -> H' = H.
Proof.
  intros solve m n k V We delay N W H W' H' Hd Hs. eapply ws_iter_hold; [|exact Hs].
  intros i Hi. unfold hold_at. cbn [negb orb].
  destruct (Z.ltb_spec 0 delay) as [?|?]; [|reflexivity].
  destruct (Z.ltb_spec delay (Z.of_nat i)); [lia|reflexivity].
Qed.
Print Assumptions C07_ws_held_profile.
Example C07_ws_held_profile_example : exists W', ws_iter solve2 2 2 2 wit_V (weights One) (hold_at true 3) 0 4 (One, wit_H) = Some (W', wit_H).
Proof.
  destruct (C11_defined_for_nonnegative_data solve2 2 2 2 wit_V (weights One) (hold_at true 3) 4 0 One wit_H
    xw_V_nn ltac:(intros i j _ _; unfold weights, One; lra) xw_H_pos) as (W' & H' & E & _).
  exists W'. rewrite E. rewrite (C07_ws_held_profile solve2 2 2 2 wit_V (weights One) 3 4 One wit_H W' H' ltac:(right; lia) E). reflexivity.
Qed.

(** C62: an iteration whose new contributions are non-negative, or that holds
    the profile, does not raise Q. *)
Theorem C62_q_non_increasing_if_contributions_nonneg :
  forall (solve : nat -> mat -> mat) (m n k : nat) (V U : mat) (hold : bool) (W H W' H' : mat),
    mall m n (fun u => 0 < u) U -> mall k n (fun x => 0 <= x) H ->
    (forall i, (i < m)%nat -> ginverse k (ws_wd n (weights U) H i) (solve k (ws_wd n (weights U) H i))) ->
    ws_update solve m n k V (weights U) hold (W, H) = Some (W', H') ->
    (hold = true \/ mall m k (fun x => 0 <= x) W') ->
    q_spec m n k V U W' H' <= q_spec m n k V U W H.
Proof.
  intros solve m n k V U hold W H W' H' HU HH HG Hs Hc.
  assert (HU0 : mall m n (fun u => u <> 0) U)
    by (intros i j Hi Hj; apply Rgt_not_eq; apply HU; assumption).
  rewrite <- !q_loss_spec by assumption. rewrite !q_loss_wloss by assumption.
  exact (ws_update_loss solve m n k V (weights U) hold W H W' H'
           (pos_nonneg _ _ _ (weights_pos m n U HU0)) HH HG Hs Hc).
Qed.
Print Assumptions C62_q_non_increasing_if_contributions_nonneg.
(** Held profiles: Q of the identity data falls to that of the best contributions. *)
Example C62_q_non_increasing_if_contributions_nonneg_example : exists W', ws_update solve2 2 2 2 wit_V (weights One) true (One, wit_H) = Some (W', wit_H) /\
  q_spec 2 2 2 wit_V One W' wit_H <= q_spec 2 2 2 wit_V One One wit_H.
Proof.
  eexists. split; [reflexivity|].
  refine (C62_q_non_increasing_if_contributions_nonneg solve2 2 2 2 wit_V One true One wit_H _ wit_H (xw_one_pos 2 2) xw_H_nn (fun i _ => xw_ginv i) eq_refl (or_introl eq_refl)).
Qed.

(** C62: in general Q may rise: from an exact reproduction of non-negative data
    (Q = 0) one iteration goes to Q > 0. *)
Theorem C62_q_may_rise_refuted :
  exists (m n k : nat) (V W H : mat),
    mall m n (fun x => 0 <= x) V /\ mall k n (fun x => 0 < x) H /\
    q_spec m n k V (fun _ _ => 1) W H = 0 /\
    forall solve, inverts k solve ->
      exists W' H', ws_update solve m n k V (weights (fun _ _ => 1)) false (W, H) = Some (W', H') /\
        meq m k W' W /\ 0 < q_spec m n k V (fun _ _ => 1) W' H'.
Proof.
  exists 2%nat, 2%nat, 2%nat, wit_V, wit_W, wit_H.
  assert (HU : mall 2 2 (fun u => 0 < u) (fun _ _ => 1)) by (intros i j _ _; lra).
  assert (HU0 : mall 2 2 (fun u => u <> 0) (fun _ _ => 1)) by (intros i j _ _; lra).
  assert (EW : forall i j, weights (fun _ _ => 1) i j = One i j) by (intros; unfold weights, One; field).
  assert (EL : forall W H, q_spec 2 2 2 wit_V (fun _ _ => 1) W H = wloss 2 2 2 wit_V One W H).
  { intros W H. rewrite <- q_loss_spec, q_loss_wloss by assumption. unfold wloss. apply msum_ext.
    intros i j _ _. rewrite EW. reflexivity. }
  destruct C11_instance as (H1 & _ & H3).
  split; [exact H1|]. split; [exact H3|].
  split.
  { rewrite EL. unfold wloss, msum, mmul, wit_V, One, wit_W, wit_H. cbn. lra. }
  intros solve Hinv.
  destruct (wit_breaks solve) as [_ (W' & H' & E & EWW & Hpos)].
  { intros A HA. apply (inverse_unique 2 A).
    - apply (Hinv A wit_G). split; intros a c Ha Hc; unfold mmul; cbn [rsum];
      rewrite ?HA by lia; unfold ws_wd, One, wit_H, wit_G; cbn [rsum];
        destruct a as [|[|a]]; destruct c as [|[|c]]; try lia; cbn [Nat.eqb]; lra.
    - split; intros a c Ha Hc; unfold mmul; cbn [rsum];
      rewrite ?HA by lia; unfold ws_wd, One, wit_H, wit_G; cbn [rsum];
        destruct a as [|[|a]]; destruct c as [|[|c]]; try lia; cbn [Nat.eqb]; lra. }
  exists W', H'. split; [|split; [exact EWW|rewrite EL; exact Hpos]].
  rewrite <- E. unfold ws_update.
  replace (weights (fun _ _ => 1)) with One; [reflexivity|].
  unfold weights, One. apply FunctionalExtensionality.functional_extensionality. intros i.
  apply FunctionalExtensionality.functional_extensionality. intros j. field.
Qed.
Print Assumptions C62_q_may_rise_refuted.

(** Data equal to the profile matrix: the new contributions are the identity. *)
Example C62_instance :
  inverts 2 solve2 /\ mall 2 2 (fun x => 0 <= x) wit_H /\
  mall 2 2 (fun x => 0 <= x) (ws_w_step solve2 2 2 wit_H One wit_H).
Proof.
  split; [exact solve2_inverts|]. split.
  - intros i j _ _. unfold wit_H. destruct i, j; lra.
  - intros i a Hi Ha.
    replace (ws_w_step solve2 2 2 wit_H One wit_H i a) with (if Nat.eqb i a then 1 else 0).
    + destruct (Nat.eqb i a); lra.
    + unfold ws_w_step, ws_wn, ws_wd, wev, solve2, One, wit_H. cbn [rsum].
      destruct i as [|[|i]]; destruct a as [|[|a]]; try lia; cbn [Nat.eqb]; field.
Qed.
