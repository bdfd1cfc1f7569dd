(** C41-C43: constraints of the constrained model. *)
From Coq Require Import List Bool ZArith Lia Reals Lra Permutation.
From Verif Require Import Base Fl Metrics_Model LSNMF_Model Disp_Model Disp_Proofs Constr_Model Constr_Proofs.
Import ListNotations.
Local Open Scope R_scope.

(** ** C41 *)
(** Indices the add operation lets through. *)
Definition accepted (m n k : Z) (c : constr) : Prop :=
  match c_tgt c with
  | Feature => (0 <= c_i c < k)%Z /\ (0 <= c_j c < n)%Z
  | Sample => (0 <= c_i c < m)%Z /\ (0 <= c_j c < m)%Z
  | Other => True
  end.

Theorem C41_add :
  forall (m n k : Z) (r : registry) (c : constr) r' ok,
    add_constraint m n k r c = (r', ok) ->
    (ok = true <-> accepted m n k c /\ ~ In (label_of c) (map fst r)) /\
    (ok = true -> r' = r ++ [(label_of c, c)]) /\ (ok = false -> r' = r).
Proof.
  intros m n k r c r' ok. unfold add_constraint.
  assert (Hi : index_ok m n k c = true <-> accepted m n k c).
  { unfold index_ok, accepted. destruct (c_tgt c); try tauto;
      rewrite andb_true_iff, !negb_true_iff, !orb_false_iff, !Z.leb_gt, !Z.ltb_ge; lia. }
  destruct (index_ok m n k c); cbn [negb].
  - destruct (existsb (fun p => clabel_eqb (fst p) (label_of c)) r) eqn:E; intros [= <- <-].
    + apply existsb_label in E. repeat split; try discriminate; try tauto. 
    + assert (~ In (label_of c) (map fst r)) by (intros H; apply existsb_label in H; congruence).
      repeat split; try discriminate; try tauto.
  - intros [= <- <-]. repeat split; try discriminate. intros [H _]. apply Hi in H. discriminate.
Qed.
Print Assumptions C41_add.

Theorem C41_remove :
  forall (r : registry) (l : clabel),
    (remove_constraint r l = None <-> ~ In l (map fst r)) /\
    (forall r', remove_constraint r l = Some r' ->
       exists a c b, r = a ++ (l, c) :: b /\ r' = a ++ b).
Proof.
  intros r l. split; [apply remove_None|]. intros r' H.
  destruct (remove_Some r l r' H) as (a & c & b & H1 & H2 & _). eauto.
Qed.
Print Assumptions C41_remove.

Theorem C41_add_then_remove :
  forall (m n k : Z) (r : registry) (c : constr) r',
    add_constraint m n k r c = (r', true) -> remove_constraint r' (label_of c) = Some r.
Proof.
  intros m n k r c r' H. destruct (C41_add _ _ _ _ _ _ _ H) as (H1 & H2 & _).
  rewrite (H2 eq_refl). apply remove_last. apply (proj1 H1 eq_refl).
Qed.
Print Assumptions C41_add_then_remove.

(** Any history of operations; a failing remove raises and changes nothing. *)
Inductive op := Add (c : constr) | Remove (l : clabel).
Definition do_op (m n k : Z) (r : registry) (o : op) : registry :=
  match o with
  | Add c => fst (add_constraint m n k r c)
  | Remove l => match remove_constraint r l with Some r' => r' | None => r end
  end.
Definition reachable (m n k : Z) (r : registry) : Prop := exists ops, r = fold_left (do_op m n k) ops [].

Lemma reachable_inv m n k r : reachable m n k r ->
  NoDup (map fst r) /\ Forall (fun p => fst p = label_of (snd p) /\ accepted m n k (snd p)) r.
Proof.
  intros [ops ->].
  assert (H : forall r0, NoDup (map fst r0) /\ Forall (fun p => fst p = label_of (snd p) /\ accepted m n k (snd p)) r0 ->
     let r := fold_left (do_op m n k) ops r0 in
     NoDup (map fst r) /\ Forall (fun p => fst p = label_of (snd p) /\ accepted m n k (snd p)) r).
  { induction ops as [|o ops IH]; intros r0 H; [exact H|]. cbn [fold_left]. apply IH. clear IH ops.
    destruct H as [Hd Hf]. destruct o as [c|l]; cbn [do_op].
    - destruct (add_constraint m n k r0 c) as [r' ok] eqn:E. cbn [fst].
      destruct (C41_add _ _ _ _ _ _ _ E) as (H1 & H2 & H3). destruct ok; [|rewrite H3; auto].
      rewrite H2 by reflexivity. destruct (proj1 H1 eq_refl) as [Ha Hn]. split.
      + rewrite map_app. cbn [map fst]. apply (Permutation_NoDup (Permutation_cons_append _ _)).
        constructor; assumption.
      + apply Forall_app. split; [exact Hf|]. constructor; [cbn; auto|constructor].
    - destruct (remove_constraint r0 l) as [r'|] eqn:E; [|auto].
      destruct (remove_Some _ _ _ E) as (a & c & b & -> & -> & _). split.
      + rewrite map_app in *. cbn [map] in Hd. apply NoDup_remove_1 in Hd. exact Hd.
      + apply Forall_app in Hf. destruct Hf as [Ha Hb]. inversion Hb; subst. apply Forall_app. auto. }
  apply H. split; constructor.
Qed.

(** At most one constraint per element, over every history. *)
Theorem C41_one_constraint_per_element :
  forall (m n k : Z) (r : registry), reachable m n k r ->
    (forall l c, In (l, c) r -> accepted m n k c /\ l = label_of c) /\
    (forall p q l c l' c', nth_error r p = Some (l, c) -> nth_error r q = Some (l', c') ->
       c_tgt c = c_tgt c' -> c_i c = c_i c' -> c_j c = c_j c' -> p = q) /\
    (forall p q l c l' c', nth_error r p = Some (l, c) -> nth_error r q = Some (l', c') ->
       c_tgt c = Other -> c_tgt c' = Other -> p = q).
Proof.
  intros m n k r H. destruct (reachable_inv m n k r H) as [Hd Hf]. rewrite Forall_forall in Hf.
  split; [intros l c Hi; specialize (Hf _ Hi); cbn in Hf; tauto|].
  assert (Hp : forall p q l c l' c', nth_error r p = Some (l, c) -> nth_error r q = Some (l', c') ->
    label_of c = label_of c' -> p = q).
  { intros p q l c l' c' Ep Eq He.
    pose proof (Hf _ (nth_error_In _ _ Ep)) as [Hl _]. pose proof (Hf _ (nth_error_In _ _ Eq)) as [Hl' _]. cbn in Hl, Hl'.
    rewrite NoDup_nth_error in Hd. apply Hd.
    - rewrite map_length. apply nth_error_Some. congruence.
    - rewrite (map_nth_error fst _ _ Ep), (map_nth_error fst _ _ Eq). cbn. congruence. }
  split; intros p q l c l' c' Ep Eq Ht.
  - intros Hi Hj. apply (Hp p q l c l' c' Ep Eq). unfold label_of. rewrite Ht, Hi, Hj. reflexivity.
  - intros Ht'. apply (Hp p q l c l' c' Ep Eq). unfold label_of. rewrite Ht, Ht'. reflexivity.
Qed.
Print Assumptions C41_one_constraint_per_element.
(* one constraint on a profile of a model of five samples, four features and two factors *)
Definition xc_r : registry := [(LFeature 1 3, mkC SetZero 1 3 Feature)].
Lemma xc_add : add_constraint 5 4 2 [] (mkC SetZero 1 3 Feature) = (xc_r, true).
Proof. reflexivity. Qed.
Example C41_add_example := C41_add 5 4 2 [] (mkC SetZero 1 3 Feature) xc_r true xc_add.
Example C41_remove_example := C41_remove xc_r (LFeature 1 3).
Example C41_add_then_remove_example : remove_constraint xc_r (LFeature 1 3) = Some [] :=
  C41_add_then_remove 5 4 2 [] (mkC SetZero 1 3 Feature) xc_r xc_add.
Example C41_one_constraint_per_element_example :=
  C41_one_constraint_per_element 5 4 2 xc_r (ex_intro _ [Add (mkC SetZero 1 3 Feature)] eq_refl).

Example C41_instance :
  let r := fst (add_constraint 5 4 2 [] (mkC SetZero 1 3 Feature)) in
  reachable 5 4 2 r /\ r = [(LFeature 1 3, mkC SetZero 1 3 Feature)] /\
  add_constraint 5 4 2 r (mkC SetBase 1 3 Feature) = (r, false) /\
  add_constraint 5 4 2 r (mkC SetBase 2 3 Feature) = (r, false) /\
  snd (add_constraint 5 4 2 r (mkC SetBase 1 3 Sample)) = true.
Proof. split; [exists [Add (mkC SetZero 1 3 Feature)]; reflexivity|]. repeat split; reflexivity. Qed.

(** The factor index of a sample constraint is compared with the number of
    samples: out-of-range ones are accepted and training then raises; with more
    factors than samples valid ones are refused. *)
Theorem C41_sample_factor_index :
  forall (m n k : nat) (V U bW bH iW iH : mat) (D : mat * mat) (r : registry) (t : ctype) (i j : Z),
    (0 <= i < Z.of_nat m)%Z -> ~ In (LSample i j) (map fst r) ->
    let c := mkC t i j Sample in
    ((Z.of_nat k <= j < Z.of_nat m)%Z ->
       exists r', add_constraint (Z.of_nat m) (Z.of_nat n) (Z.of_nat k) r c = (r', true) /\
       apply_constraints m n k V U bW bH iW iH r' D = None) /\
    ((Z.of_nat m <= j < Z.of_nat k)%Z ->
       add_constraint (Z.of_nat m) (Z.of_nat n) (Z.of_nat k) r c = (r, false)).
Proof.
  intros m n k V U bW bH iW iH D r t i j Hi Hn c.
  destruct (add_constraint (Z.of_nat m) (Z.of_nat n) (Z.of_nat k) r c) as [r' ok] eqn:E.
  destruct (C41_add _ _ _ _ _ _ _ E) as (H1 & H2 & H3). split; intros Hj.
  - assert (ok = true) as -> by (apply H1; cbn; split; [lia|exact Hn]).
    exists r'. split; [reflexivity|]. rewrite (H2 eq_refl).
    apply (apply_total m n k V U bW bH iW iH (r ++ [(label_of c, c)]) D).
    exists (label_of c, c). split; [apply in_or_app; right; left; reflexivity|].
    unfold cell_of. cbn. rewrite (py_index_high k j) by lia. destruct (py_index m i); reflexivity.
  - destruct ok; [|rewrite H3; reflexivity]. exfalso. destruct (proj1 H1 eq_refl) as [Ha _]. cbn in Ha. lia.
Qed.
Print Assumptions C41_sample_factor_index.
(* five samples and two factors: the third contribution of a sample is accepted *)
Example C41_sample_factor_index_example : forall V U bW bH iW iH D,
  exists r', add_constraint 5 4 2 xc_r (mkC SetZero 1 2 Sample) = (r', true) /\
             apply_constraints 5 4 2 V U bW bH iW iH r' D = None.
Proof.
  intros. apply (proj1 (C41_sample_factor_index 5 4 2 V U bW bH iW iH D xc_r SetZero 1 2 ltac:(lia)
    ltac:(cbn; intros [H | []]; discriminate))). cbn. lia.
Qed.

Theorem C41_accepted_constraints_are_applicable_refuted :
  exists (m n k : nat) (r : registry), reachable (Z.of_nat m) (Z.of_nat n) (Z.of_nat k) r /\
    forall V U bW bH iW iH D, apply_constraints m n k V U bW bH iW iH r D = None.
Proof.
  exists 3%nat, 2%nat, 1%nat, [(LSample 0 2, mkC SetZero 0 2 Sample)]. split.
  - exists [Add (mkC SetZero 0 2 Sample)]. reflexivity.
  - reflexivity.
Qed.
Print Assumptions C41_accepted_constraints_are_applicable_refuted.

(** ** C43 *)
Theorem C43_pull_down :
  forall (loss : R -> fl) (cur limit : R),
    exists v n, (forall f, (31 <= f)%nat -> pull_down loss cur limit f = Some (v, n)) /\ (1 <= n <= 26)%nat /\
      ((n < 26)%nat -> forall d, fabs (fsub (loss cur) (loss (if Reqb cur 0 then 0 else v))) = d ->
         flt (Fin limit) d = false /\ flt d (Fin (limit - 100)) = false) /\
      (exists c, 0 < c <= 1 / 2 /\ (v = cur * c \/ (cur = 0 /\ v = / 100000000))) /\
      (0 < cur -> 0 < v <= cur / 2) /\ (cur = 0 -> v = / 100000000).
Proof.
  intros loss cur limit. destruct (pd_terminates loss cur limit 31 (le_n _)) as [[v n] E].
  destruct (pd_spec loss cur limit 31 v n E) as (Hn & Hstop & c & Hc & Hv).
  exists (if Reqb v 0 then / 100000000 else v), n.
  split.
  { intros f Hf. unfold pull_down. rewrite (loop_mono _ 31 f Hf _ _ E). reflexivity. }
  split; [exact Hn|].
  assert (Hz : v = 0 -> cur = 0).
  { intros H. rewrite H in Hv. symmetry in Hv. apply Rmult_integral in Hv. destruct Hv; lra. }
  split.
  { intros Hlt d <-. specialize (Hstop Hlt). unfold dQ_of in Hstop.
    destruct (Reqb cur 0) eqn:E0.
    - apply Reqb_iff in E0. assert (v = 0) as -> by (rewrite Hv, E0; ring). exact Hstop.
    - destruct (Reqb v 0) eqn:E1; [|exact Hstop]. apply Reqb_iff in E1. rewrite (proj2 (Reqb_iff cur 0) (Hz E1)) in E0. discriminate. }
  split.
  - exists c. split; [exact Hc|]. destruct (Reqb v 0) eqn:E0.
    + right. apply Reqb_iff in E0. auto.
    + left. exact Hv.
  - split.
    + intros Hp. destruct (Reqb v 0) eqn:E0; [apply Reqb_iff in E0; specialize (Hz E0); lra|]. rewrite Hv. split.
      * apply Rmult_lt_0_compat; lra.
      * unfold Rdiv. apply Rmult_le_compat_l; lra.
    + intros Hp. rewrite (proj2 (Reqb_iff v 0)); [reflexivity|]. rewrite Hv, Hp. ring.
Qed.
Print Assumptions C43_pull_down.
Example C43_pull_down_example := C43_pull_down (fun v => Fin (1000 * v)) 3 250.

(** However small the allowed change of the loss, the value is at least halved. *)
Theorem C43_pull_down_within_budget_refuted :
  exists (loss : R -> fl) (cur limit : R), 0 < limit /\ 0 < cur /\
    forall v n f, (31 <= f)%nat -> pull_down loss cur limit f = Some (v, n) ->
      flt (Fin limit) (fabs (fsub (loss cur) (loss v))) = true.
Proof.
  exists (fun v => Fin (1000 * v)), 1, 1. split; [lra|]. split; [lra|]. intros v n f Hf E.
  destruct (C43_pull_down (fun v => Fin (1000 * v)) 1 1) as (v' & n' & H & _ & _ & _ & Hv & _).
  rewrite (H f Hf) in E. injection E as <- <-. cbn. apply Rltb_iff.
  rewrite Rabs_right; lra.
Qed.
Print Assumptions C43_pull_down_within_budget_refuted.

Theorem C43_pull_up :
  forall (loss : R -> fl) (cur limit x : R), loss cur = Fin x -> 0 <= limit ->
    exists r, (forall f, (30 <= f)%nat -> pull_up loss cur limit f = Some r) /\
      (exists c, 1 <= c <= 2 ^ 30 /\ pull_value r = cur * c) /\
      match r with
      | Exhausted v => v = cur * 2 ^ 30
      | Searched v n => (1 <= n <= 30)%nat /\
          ((n < 30)%nat -> let d := fabs (fsub (loss cur) (loss v)) in
                           d = NaN \/ exists y, d = Fin y /\ limit - 100 <= y <= limit)
      end.
Proof.
  intros loss cur limit x Hx Hl. destruct (pu_high_terminates loss cur limit 30 (le_n _)) as [a E].
  pose proof (pu_high_spec loss cur limit 30 a E) as Ha. destruct a as [v|[lo hi]].
  - exists (Exhausted v). split; [intros f Hf; unfold pull_up; rewrite (loop_mono _ 30 f Hf _ _ E); reflexivity|].
    destruct Ha as [-> _]. cbn [pull_value]. split; [|reflexivity]. exists (2 ^ 30). split; [|reflexivity].
    split; [apply pow_R1_Rle; lra|lra].
  - destruct Ha as (p & Hp & Hhi & Hlo & _).
    assert (H1 : 1 <= lo \/ lo = 0 /\ hi = 2).
    { destruct (Nat.eqb_spec p 1) as [->|]; [right; split; [exact Hlo|rewrite Hhi; ring]|left].
      rewrite Hlo. apply pow_R1_Rle. lra. }
    assert (H2 : lo < hi).
    { destruct (Nat.eqb_spec p 1) as [->|]; [destruct H1; lra|]. rewrite Hlo, Hhi.
      apply Rlt_pow; [lra|lia]. }
    destruct (pu_terminates loss cur limit 30 lo hi (le_n _)) as [[v n] E2].
    destruct (pu_spec loss cur limit 30 lo hi v n x Hx Hl H1 H2 E2) as (Hn & (c & Hc & Hv) & Hd).
    exists (Searched v n).
    split; [intros f Hf; unfold pull_up; rewrite (loop_mono _ 30 f Hf _ _ E), (loop_mono _ 30 f Hf _ _ E2); reflexivity|].
    cbn [pull_value]. split; [|auto]. exists c. split; [|exact Hv]. split; [lra|].
    assert (hi <= 2 ^ 30) by (rewrite Hhi; apply Rle_pow; [lra|lia]). lra.
Qed.
Print Assumptions C43_pull_up.
Example C43_pull_up_example := C43_pull_up (fun v => Fin (1000 * v)) 3 250 _ eq_refl ltac:(lra).

(** When the search runs out of evaluations, the value is still within a relative
    2^-28 of a point where the loss change reaches the limit. *)
Theorem C43_pull_up_brackets_limit :
  forall (loss : R -> fl) (cur limit x v : R) (f : nat), loss cur = Fin x -> 0 <= limit ->
    pull_up loss cur limit f = Some (Searched v 30) ->
    exists c1 c2 c, v = cur * c /\ 1 <= c1 < c /\ c < c2 /\ c2 - c1 <= c1 / 2 ^ 28 /\
      flt (fabs (fsub (loss cur) (loss (cur * c1)))) (Fin limit) = true /\
      flt (fabs (fsub (loss cur) (loss (cur * c2)))) (Fin limit) = false.
Proof.
  intros loss cur limit x v f Hx Hl E. unfold pull_up in E.
  destruct (loop (pu_high loss cur limit) f (0, 2, 0%nat)) as [[w|[lo hi]]|] eqn:E1; try discriminate.
  destruct (loop (pu_body loss cur limit) f (lo, hi, (hi + lo) / 2, 0%nat)) as [[v' n']|] eqn:E2; [|discriminate].
  injection E as -> ->.
  destruct (pu_high_spec loss cur limit f _ E1) as (p & Hp & Hhi & Hlo & Hover & Hbelow).
  apply (pu_bracket loss cur limit f lo hi v x Hx Hl); [| |exact Hover|exact E2].
  - destruct (Nat.eqb_spec p 1) as [->|].
    { right. split; [exact Hlo|]. rewrite Hhi. ring. }
    left. rewrite Hlo, Hhi. repeat split.
    + apply pow_R1_Rle. lra.
    + replace p with (S (p - 1)) at 1 by lia. cbn [pow]. lra.
    + rewrite <- (Hbelow (p - 1)%nat) by lia. reflexivity.
  - destruct (Nat.eqb_spec p 1) as [->|]; [rewrite Hlo, Hhi; lra|]. rewrite Hlo, Hhi. apply Rlt_pow; [lra|lia].
Qed.
Print Assumptions C43_pull_up_brackets_limit.

Definition step_loss (v : R) : fl := if Rleb v 3 then Fin 0 else Fin 1000.
Example C43_pull_up_brackets_instance : step_loss 1 = Fin 0 /\ exists v, pull_up step_loss 1 500 31 = Some (Searched v 30).
Proof.
  assert (H1 : step_loss 1 = Fin 0) by (unfold step_loss; rewrite (proj2 (Rleb_iff 1 3)) by lra; reflexivity).
  split; [exact H1|]. destruct (C43_pull_up step_loss 1 500 0 H1 ltac:(lra)) as (r & Hr & _ & H).
  specialize (Hr 31%nat ltac:(lia)). destruct r as [v|v n].
  - exfalso. unfold pull_up in Hr. destruct (loop _ _ _) as [[w|[lo hi]]|] eqn:E in Hr; try discriminate.
    2:{ destruct (loop _ _ _) as [[? ?]|] in Hr; discriminate. }
    apply pu_high_spec in E. destruct E as [_ E]. specialize (E 2%nat ltac:(lia)).
    unfold dQ_of in E. rewrite H1 in E. unfold step_loss in E. rewrite (proj2 (Rleb_false (1 * 2 ^ 2) 3)) in E by (cbn; lra).
    cbn [fsub fopp fadd fabs] in E. apply flt_fin in E. revert E. unfold Rabs. destruct (Rcase_abs _); lra.
  - exists v. destruct H as [Hn H]. destruct (Nat.eq_dec n 30) as [->|]; [exact Hr|]. exfalso.
    specialize (H ltac:(lia)). cbv zeta in H. rewrite H1 in H. unfold step_loss in H.
    destruct (Rleb v 3); cbn [fsub fopp fadd fabs] in H; destruct H as [H|(y & [= H] & Hy)]; try discriminate; revert H; unfold Rabs; destruct (Rcase_abs _); lra.
Qed.

(** When doubling already uses up a limit of at most 100, nothing is pulled. *)
Theorem C43_pull_up_small_limit_no_effect :
  forall (loss : R -> fl) (cur limit x : R) (f : nat), loss cur = Fin x -> 0 <= limit <= 100 -> (30 <= f)%nat ->
    flt (fabs (fsub (loss cur) (loss (2 * cur)))) (Fin limit) = false ->
    exists r, pull_up loss cur limit f = Some r /\ pull_value r = cur.
Proof.
  intros loss cur limit x f Hx Hl Hf Hd.
  destruct f as [|f]; [lia|].
  exists (Searched (cur * 1) 1). split; [|cbn; ring].
  unfold pull_up. cbn [loop]. unfold pu_high at 1.
  unfold dQ_of. replace (cur * 2) with (2 * cur) by ring. rewrite Hd. cbn [Nat.leb negb].
  unfold pu_body at 1. cbv zeta. replace ((2 + 0) / 2) with 1 by field. rewrite Rmult_1_r.
  change (fabs (fsub (loss cur) (loss cur))) with (dQ_of loss cur cur). rewrite (dQ_cur loss cur x Hx).
  replace (flt (Fin limit) (Fin 0)) with false by (symmetry; cbn; apply Rltb_false; lra).
  replace (flt (Fin 0) (Fin (limit - 100))) with false by (symmetry; cbn; apply Rltb_false; lra).
  reflexivity.
Qed.
Print Assumptions C43_pull_up_small_limit_no_effect.

Theorem C43_pull_to :
  forall (loss : R -> fl) (cur target limit : R),
    exists v n, (forall f, (31 <= f)%nat -> pull_to loss cur limit target f = Some (v, n)) /\ (n <= 31)%nat /\
      (flt (fabs (fsub (loss cur) (loss target))) (Fin limit) = true -> v = target /\ n = 0%nat) /\
      (flt (fabs (fsub (loss cur) (loss target))) (Fin limit) = false -> cur <> target ->
         Rmin cur target < v < Rmax cur target).
Proof.
  intros loss cur target limit. unfold pull_to. change (fabs (fsub (loss cur) (loss target))) with (dQ_of loss cur target).
  destruct (flt (dQ_of loss cur target) (Fin limit)).
  { exists target, 0%nat. split; [reflexivity|]. split; [lia|]. split; [auto|discriminate]. }
  set (lo := if Rltb cur target then cur else target). set (hi := if Rltb cur target then target else cur).
  destruct (pt_terminates loss cur limit 31 lo hi (le_n _)) as [[v n] E].
  exists v, n. split; [intros f Hf; apply (loop_mono _ 31 f Hf _ _ E)|].
  assert (Hlt : cur <> target -> lo < hi /\ lo = Rmin cur target /\ hi = Rmax cur target).
  { intros Hne. unfold lo, hi, Rmin, Rmax, Rltb. destruct (Rlt_dec cur target), (Rle_dec cur target); try lra; auto; split; lra. }
  split; [|split; [discriminate|]].
  - assert (Hn : forall f s a, loop (pt_body loss cur limit) f s = Some a -> (t_n s <= 30)%nat -> (snd a <= 31)%nat).
    { intros f s a H Hs. apply (loop_inv (pt_body loss cur limit) (fun s => (t_n s <= 30)%nat) (fun a => (snd a <= 31)%nat)) in H; auto.
      intros s0 H0. unfold pt_body. cbv zeta.
      match goal with |- context [if ?b then inr _ else _] => destruct b eqn:Eb end; cbn [snd t_n]; [lia|].
      apply orb_false_iff in Eb. destruct Eb as [_ Eb]. apply Nat.leb_gt in Eb. lia. }
    apply Hn in E; [exact E|]. cbn. lia.
  - intros _ Hne. destruct (Hlt Hne) as (H1 & H2 & H3). rewrite <- H2, <- H3.
    apply (pt_spec loss cur limit 31 lo hi v n H1 E).
Qed.
Print Assumptions C43_pull_to.

(** Pulling to a target stops for one of these reasons: the change of the loss is
    between limit - 100 and limit; 31 values were tried; the next value to try would
    be within 1e-8 of zero, after the first; or it would be within 1e-8 of the last
    one, that is, the distance to the target halved so often is.  It does not go on
    after that. *)
Theorem C43_pull_to_stops :
  forall (loss : R -> fl) (cur target limit v : R) (n f : nat), (31 <= f)%nat ->
    flt (fabs (fsub (loss cur) (loss target))) (Fin limit) = false ->
    pull_to loss cur limit target f = Some (v, n) ->
    let change := fabs (fsub (loss cur) (loss v)) in
    let over := flt (Fin limit) change = true in
    let under := flt change (Fin (limit - 100)) = true in
    ((~ over /\ ~ under) \/ n = 31%nat \/
     (n = 1%nat /\ ((over /\ Rabs ((v + Rmax cur target) / 2) <= / 10 ^ 8) \/
                    (under /\ Rabs ((Rmin cur target + v) / 2) <= / 10 ^ 8))) \/
     ((2 <= n)%nat /\ Rabs (target - cur) / 2 ^ (n + 1) <= / 10 ^ 8)) /\
    ((3 <= n)%nat -> / 10 ^ 8 < Rabs (target - cur) / 2 ^ n).
Proof.
  intros loss cur target limit v n f Hf Hd E change over under.
  unfold pull_to in E. change (dQ_of loss cur target) with (fabs (fsub (loss cur) (loss target))) in E. rewrite Hd in E.
  assert (X : (if Rltb cur target then target else cur) = Rmax cur target /\ (if Rltb cur target then cur else target) = Rmin cur target).
  { unfold Rmin, Rmax, Rltb. destruct (Rlt_dec cur target), (Rle_dec cur target); split; lra. }
  destruct X as [-> ->] in E.
  assert (Hle : Rmin cur target <= Rmax cur target) by (apply Rle_trans with cur; [apply Rmin_l|apply Rmax_l]).
  assert (Hw : Rmax cur target - Rmin cur target = Rabs (target - cur)).
  { unfold Rmin, Rmax, Rabs. destruct (Rle_dec cur target), (Rcase_abs (target - cur)); lra. }
  pose proof (pt_stops loss cur limit f _ _ v n Hle E) as S. rewrite Hw in S.
  replace (10 ^ 8) with 100000000 by ring. unfold over, under. change (dQ_of loss cur v) with change in S.
  destruct S as [S S']. split; [|exact S'].
  destruct S as [[S1 S2]|S]; [left; rewrite S1, S2; split; discriminate|right; exact S].
Qed.
Print Assumptions C43_pull_to_stops.

(** Pulling a value up to a target: if the change of the loss is over the limit
    from the midpoint on, the search walks towards the target and ends over the
    limit. *)
Theorem C43_pull_to_walks_away :
  forall (loss : R -> fl) (cur target limit : R) v n f, cur < target -> (31 <= f)%nat ->
    (forall w, (cur + target) / 2 <= w <= target -> flt (Fin limit) (fabs (fsub (loss cur) (loss w))) = true) ->
    pull_to loss cur limit target f = Some (v, n) ->
    (cur + target) / 2 <= v /\ flt (Fin limit) (fabs (fsub (loss cur) (loss v))) = true.
Proof.
  intros loss cur target limit v n f Hlt Hf Hup E.
  destruct (C43_pull_to loss cur target limit) as (v' & n' & H1 & _ & Ht & Hv).
  rewrite (H1 f Hf) in E. injection E as -> ->.
  assert (E0 : flt (fabs (fsub (loss cur) (loss target))) (Fin limit) = false).
  { specialize (Hup target ltac:(lra)). destruct (fabs (fsub (loss cur) (loss target))); cbn in *; try reflexivity; try discriminate.
    apply Rltb_iff in Hup. apply Rltb_false. lra. }
  specialize (Hv E0 ltac:(lra)). rewrite Rmin_left, Rmax_right in Hv by lra.
  assert (Hm : (cur + target) / 2 <= v).
  { specialize (H1 f Hf). unfold pull_to in H1. change (dQ_of loss cur target) with (fabs (fsub (loss cur) (loss target))) in H1.
    rewrite E0 in H1. rewrite (proj2 (Rltb_iff _ _) Hlt) in H1.
    replace ((cur + target) / 2) with ((target + cur) / 2) by lra.
    apply (pt_up loss cur limit f cur target v n Hlt); [|exact H1]. intros w Hw. apply Hup. lra. }
  split; [exact Hm|]. apply Hup. lra.
Qed.
Print Assumptions C43_pull_to_walks_away.
Lemma xc_change : forall a b, fabs (fsub (Fin (1000 * a)) (Fin (1000 * b))) = Fin (Rabs (1000 * a - 1000 * b)).
Proof. reflexivity. Qed.
Lemma xc_far : forall w, 2 <= w -> flt (Fin 50) (fabs (fsub (Fin (1000 * 1)) (Fin (1000 * w)))) = true.
Proof. intros w Hw. rewrite xc_change. cbn. apply Rltb_iff. rewrite Rabs_left; lra. Qed.
Lemma xc_not_near : forall w, 2 <= w -> flt (fabs (fsub (Fin (1000 * 1)) (Fin (1000 * w)))) (Fin 50) = false.
Proof. intros w Hw. rewrite xc_change. cbn. apply Rltb_false. rewrite Rabs_left; lra. Qed.
Example C43_pull_up_brackets_limit_example : exists v, pull_up step_loss 1 500 31 = Some (Searched v 30) /\
  exists c1 c2 c, v = 1 * c /\ 1 <= c1 < c /\ c < c2 /\ c2 - c1 <= c1 / 2 ^ 28 /\
      flt (fabs (fsub (step_loss 1) (step_loss (1 * c1)))) (Fin 500) = true /\
      flt (fabs (fsub (step_loss 1) (step_loss (1 * c2)))) (Fin 500) = false.
Proof.
  destruct C43_pull_up_brackets_instance as [Hx [v Hv]]. exists v. split; [exact Hv |].
  exact (C43_pull_up_brackets_limit step_loss 1 500 0 v 31 Hx ltac:(lra) Hv).
Qed.
Example C43_pull_up_small_limit_no_effect_example :=
  C43_pull_up_small_limit_no_effect (fun v => Fin (1000 * v)) 1 50 _ 30 eq_refl ltac:(lra) ltac:(lia)
    (xc_not_near (2 * 1) ltac:(lra)).
Example C43_pull_to_example := C43_pull_to (fun v => Fin (1000 * v)) 1 3 50.
Example C43_pull_to_stops_example : exists v n, pull_to (fun v => Fin (1000 * v)) 1 50 3 31 = Some (v, n) /\
  let change := fabs (fsub (Fin (1000 * 1)) (Fin (1000 * v))) in
  ((3 <= n)%nat -> / 10 ^ 8 < Rabs (3 - 1) / 2 ^ n) /\ 2 <= v /\ flt (Fin 50) change = true.
Proof.
  destruct (C43_pull_to (fun v => Fin (1000 * v)) 1 3 50) as (v & n & H & _).
  exists v, n. pose proof (H 31%nat ltac:(lia)) as Hv. split; [exact Hv |]. intros change.
  split; [exact (proj2 (C43_pull_to_stops (fun v => Fin (1000 * v)) 1 3 50 v n 31 ltac:(lia)
                          (xc_not_near 3 ltac:(lra)) Hv)) |].
  assert (Hw : forall w, (1 + 3) / 2 <= w <= 3 -> flt (Fin 50) (fabs (fsub (Fin (1000 * 1)) (Fin (1000 * w)))) = true)
    by (intros w Hw; apply xc_far; lra).
  destruct (C43_pull_to_walks_away (fun v => Fin (1000 * v)) 1 3 50 v n 31 ltac:(lra) ltac:(lia) Hw Hv) as [H1 H2].
  split; [lra | exact H2].
Qed.

Example C43_instance :
  let loss := fun v => Fin (1000 * v) in
  loss 1 = Fin (1000 * 1) /\
  (forall w, (1 + 3) / 2 <= w <= 3 -> flt (Fin 50) (fabs (fsub (loss 1) (loss w))) = true) /\
  flt (fabs (fsub (loss 1) (loss (2 * 1)))) (Fin 50) = false.
Proof.
  cbn. split; [reflexivity|]. split.
  - intros w Hw. apply Rltb_iff. unfold Rabs. destruct (Rcase_abs _); lra.
  - apply Rltb_false. unfold Rabs. destruct (Rcase_abs _); lra.
Qed.

Theorem C43_pull_to_within_budget_refuted :
  exists (loss : R -> fl) (cur target limit : R), 0 < limit /\ cur < target /\
    forall v n f, (31 <= f)%nat -> pull_to loss cur limit target f = Some (v, n) ->
      flt (Fin limit) (fabs (fsub (loss cur) (loss v))) = true.
Proof.
  exists (fun v => Fin (1000 * v)), 1, 3, 50. split; [lra|]. split; [lra|]. intros v n f Hf E.
  apply (C43_pull_to_walks_away (fun v => Fin (1000 * v)) 1 3 50 v n f ltac:(lra) Hf); [|exact E].
  apply C43_instance.
Qed.
Print Assumptions C43_pull_to_within_budget_refuted.

(** ** C42 *)
(** Value of a cell after its difference is added, by constraint type. *)
Definition effect (t : ctype) (cur base v : R) : Prop :=
  match t with
  | SetZero => v = 0
  | SetBase => v = base
  | Limits lo hi =>
      (cur < lo -> v = lo) /\ (lo <= cur -> hi < cur -> v = 2 * cur - hi) /\ (lo <= cur <= hi -> v = 2 * cur)
  | Unknown => v = cur
  | PullDown _ => (0 < cur -> 0 < v <= cur / 2) /\ (cur = 0 -> v = / 100000000)
  | PullUp l => 0 <= l -> 0 <= cur -> cur <= v <= 2 ^ 30 * cur
  | PullTo t _ => Rmin cur t <= v <= Rmax cur t
  end.

Lemma new_diff_effect loss cur base t d : (exists x, loss cur = Fin x) ->
  new_diff loss cur base t = Some d -> effect t cur base (cur + d).
Proof.
  intros [x Hx]. destruct t as [l|l|w l| | |lo hi|]; cbn [new_diff effect]; try (intros [= <-]; ring).
  - destruct (C43_pull_down loss cur l) as (v & n & H & _ & _ & _ & Hv). rewrite (H 31%nat) by lia.
    intros [= <-]. replace (cur + (v - cur)) with v by ring. exact Hv.
  - intros E Hl Hc. destruct (C43_pull_up loss cur l x Hx Hl) as (r & H & (c & Hr & Hv) & _).
    rewrite (H 31%nat) in E by lia. injection E as <-. replace (cur + (pull_value r - cur)) with (pull_value r) by ring.
    rewrite Hv. split; [rewrite <- (Rmult_1_r cur) at 1; apply Rmult_le_compat_l; lra|].
    rewrite Rmult_comm. apply Rmult_le_compat_r; lra.
  - destruct (C43_pull_to loss cur w l) as (v & n & H & _ & Ht & Hv). specialize (H 31%nat (le_n _)). rewrite H.
    intros [= <-]. replace (cur + (v - cur)) with v by ring.
    pose proof (Rmin_r cur w). pose proof (Rmax_r cur w). pose proof (Rmin_l cur w). pose proof (Rmax_l cur w).
    destruct (flt (fabs (fsub (loss cur) (loss w))) (Fin l)) eqn:E; [destruct (Ht eq_refl) as [-> _]; lra|].
    destruct (Req_dec cur w) as [<-|Hne]; [|specialize (Hv eq_refl Hne); lra].
    unfold pull_to, dQ_of in H. rewrite E in H. rewrite (proj2 (Rltb_false cur cur) (Rle_refl _)) in H.
    apply pt_weak in H; lra.
  - intros [= <-]. repeat split.
    + intros H. rewrite (proj2 (Rltb_iff _ _) H). ring.
    + intros H H'. rewrite (proj2 (Rltb_false _ _) H), (proj2 (Rltb_iff _ _) H'). ring.
    + intros [H H']. rewrite (proj2 (Rltb_false _ _) H), (proj2 (Rltb_false _ _) H'). ring.
Qed.

Lemma limits_any_loss loss loss' cur base lo hi d :
  new_diff loss cur base (Limits lo hi) = Some d -> new_diff loss' cur base (Limits lo hi) = Some d.
Proof. exact (fun H => H). Qed.

(** Cells no constraint of the registry refers to. *)
Definition untouched_feature (r : registry) (a j : nat) : Prop :=
  forall l c, In (l, c) r -> c_tgt c = Feature -> c_i c <> Z.of_nat a \/ c_j c <> Z.of_nat j.
Definition untouched_sample (r : registry) (i a : nat) : Prop :=
  forall l c, In (l, c) r -> c_tgt c = Sample -> c_i c <> Z.of_nat i \/ c_j c <> Z.of_nat a.
(** What the apply step needs. *)
Definition in_range (m n k : nat) (r : registry) : Prop :=
  forall l c, In (l, c) r -> match c_tgt c with
    | Feature => (0 <= c_i c < Z.of_nat k)%Z /\ (0 <= c_j c < Z.of_nat n)%Z
    | Sample => (0 <= c_i c < Z.of_nat m)%Z /\ (0 <= c_j c < Z.of_nat k)%Z
    | Other => False
    end.

Lemma cell_of_range m n k r l c : in_range m n k r -> In (l, c) r ->
  cell_of m n k c = Some (match c_tgt c with Feature => true | _ => false end, Z.to_nat (c_i c), Z.to_nat (c_j c)).
Proof.
  intros Hr Hi. specialize (Hr l c Hi). unfold cell_of.
  destruct (c_tgt c); [| |contradiction]; rewrite !py_index_ok by lia; reflexivity.
Qed.

Lemma range_unique m n k r l c l' c' (M N K : Z) : reachable M N K r -> in_range m n k r ->
  In (l, c) r -> In (l', c') r -> cell_of m n k c' = cell_of m n k c -> c' = c.
Proof.
  intros Hre Hr Hi Hi' He. rewrite (cell_of_range m n k r l c Hr Hi), (cell_of_range m n k r l' c' Hr Hi') in He.
  destruct (In_nth_error _ _ Hi) as [p Hp]. destruct (In_nth_error _ _ Hi') as [q Hq].
  destruct (C41_one_constraint_per_element _ _ _ _ Hre) as (_ & Hu & _).
  assert (q = p) as ->.
  { specialize (Hr l c Hi) as R1. specialize (Hr l' c' Hi') as R2. injection He as Ht H1 H2.
    apply (Hu q p l' c' l c Hq Hp); destruct (c_tgt c), (c_tgt c'); try contradiction; try discriminate; try reflexivity; lia. }
  congruence.
Qed.

Theorem C42_constrained_cells :
  forall (m n k : nat) (V U bW bH iW iH : mat) (Dw Dh : mat) (r : registry) M N K,
    reachable M N K r -> in_range m n k r ->
    exists Dw' Dh', apply_constraints m n k V U bW bH iW iH r (Dw, Dh) = Some (Dw', Dh') /\
      (forall l c, In (l, c) r ->
         let i := Z.to_nat (c_i c) in let j := Z.to_nat (c_j c) in
         match c_tgt c with
         | Feature => effect (c_type c) (iH i j) (bH i j) (iH i j + Dh' i j)
         | _ => effect (c_type c) (iW i j) (bW i j) (iW i j + Dw' i j)
         end) /\
      (forall a j, untouched_feature r a j -> Dh' a j = Dh a j) /\
      (forall i a, untouched_sample r i a -> Dw' i a = Dw i a).
Proof.
  intros m n k V U bW bH iW iH Dw Dh r M N K Hre Hr.
  destruct (proj1 (apply_total m n k V U bW bH iW iH r (Dw, Dh))) as [[Dw' Dh'] HD].
  { apply Forall_forall. intros [l c] Hi. cbn [snd]. rewrite (cell_of_range m n k r l c Hr Hi). discriminate. }
  exists Dw', Dh'. split; [exact HD|]. split; [|split].
  - intros l c Hi i j. pose proof (cell_of_range m n k r l c Hr Hi) as Hc.
    destruct (apply_cell m n k V U bW bH iW iH r (Dw, Dh) (Dw', Dh') l c _ _ _ HD Hi Hc) as (d & Hd & Ha).
    { intros l' c' Hi' Hc'. apply (range_unique m n k r l c l' c' M N K Hre Hr Hi Hi'). congruence. }
    unfold cell_diff in Hd. specialize (Hr l c Hi). destruct (c_tgt c); [| |contradiction]; cbn [at_cell fst snd] in Ha;
      (apply new_diff_effect in Hd; [rewrite <- Ha in Hd; exact Hd|eauto]).
  - intros a j Hu. change (at_cell (Dw', Dh') (true, a, j) = at_cell (Dw, Dh) (true, a, j)).
    apply (apply_other m n k V U bW bH iW iH r (Dw, Dh) (Dw', Dh')); [exact HD|]. intros [l c] Hi. cbn [snd].
    rewrite (cell_of_range m n k r l c Hr Hi). intros [= Ht H1 H2]. specialize (Hr l c Hi). specialize (Hu l c Hi).
    destruct (c_tgt c); try discriminate. specialize (Hu eq_refl). lia.
  - intros i a Hu. change (at_cell (Dw', Dh') (false, i, a) = at_cell (Dw, Dh) (false, i, a)).
    apply (apply_other m n k V U bW bH iW iH r (Dw, Dh) (Dw', Dh')); [exact HD|]. intros [l c] Hi. cbn [snd].
    rewrite (cell_of_range m n k r l c Hr Hi). intros [= Ht H1 H2]. specialize (Hr l c Hi). specialize (Hu l c Hi).
    destruct (c_tgt c); try discriminate; try contradiction. specialize (Hu eq_refl). lia.
Qed.
Print Assumptions C42_constrained_cells.
Definition xc_r2 : registry :=
  [(LFeature 0 1, mkC (Limits 2 3) 0 1 Feature); (LSample 1 0, mkC SetZero 1 0 Sample)].
Lemma xc_r2_in_range : in_range 2 2 1 xc_r2.
Proof. intros l c [H | [H | []]]; inversion H; cbn; lia. Qed.
Example C42_constrained_cells_example := fun V U bW bH iW iH Dw Dh =>
  C42_constrained_cells 2 2 1 V U bW bH iW iH Dw Dh xc_r2 2 2 1
    (ex_intro _ [Add (mkC (Limits 2 3) 0 1 Feature); Add (mkC SetZero 1 0 Sample)] eq_refl) xc_r2_in_range.

Example C42_instance :
  let r := [(LFeature 0 1, mkC (Limits 2 3) 0 1 Feature); (LSample 1 0, mkC SetZero 1 0 Sample)] in
  reachable 2 2 1 r /\ in_range 2 2 1 r /\ untouched_feature r 0 0 /\ untouched_sample r 0 0.
Proof.
  split; [exists [Add (mkC (Limits 2 3) 0 1 Feature); Add (mkC SetZero 1 0 Sample)]; reflexivity|].
  unfold in_range, untouched_feature, untouched_sample.
  repeat split; intros l c [[= <- <-]|[[= <- <-]|[]]]; cbn; try lia; try discriminate; auto; intros _; lia.
Qed.

(** 'define limits' with positive values: inside the limits afterwards exactly
    when the value was below the minimum, or is inside and its double too. *)
Theorem C42_limits_met_iff :
  forall (loss : R -> fl) (lo hi cur base d : R),
    lo <= hi -> new_diff loss cur base (Limits lo hi) = Some d ->
    (lo <= cur + d <= hi <-> cur < lo \/ (lo <= cur <= hi /\ lo <= 2 * cur <= hi)).
Proof.
  intros loss lo hi cur base d Hlh H. apply (limits_any_loss loss (fun _ => Fin 0)), new_diff_effect in H; [cbn [effect] in H|eauto]. destruct H as (H1 & H2 & H3).
  destruct (Rlt_le_dec cur lo) as [Hl|Hl].
  - rewrite (H1 Hl). split; intros; [left; exact Hl|lra].
  - destruct (Rlt_le_dec hi cur) as [Hh|Hh].
    + rewrite (H2 Hl Hh). split; [lra|]. intros [?|?]; lra.
    + rewrite (H3 (conj Hl Hh)). split; [intros; right; lra|]. intros [?|?]; lra.
Qed.
Print Assumptions C42_limits_met_iff.

(** A value above the maximum moves away from it by the amount it exceeds it. *)
Theorem C42_above_maximum_moves_away :
  forall (loss : R -> fl) (lo hi cur base d : R),
    lo <= hi -> hi < cur -> new_diff loss cur base (Limits lo hi) = Some d -> (cur + d) - hi = 2 * (cur - hi).
Proof.
  intros loss lo hi cur base d Hlh Hh H. apply (limits_any_loss loss (fun _ => Fin 0)), new_diff_effect in H; [cbn [effect] in H|eauto]. destruct H as (_ & H2 & _).
  rewrite H2 by lra. ring.
Qed.
Print Assumptions C42_above_maximum_moves_away.
(* limits from 2 to 3: the value 5 moves to 7 *)
Lemma xc_limits : new_diff (fun v => Fin v) 5 1 (Limits 2 3) = Some (5 - 3).
Proof.
  unfold new_diff. repeat (match goal with |- context [Rltb ?a ?b] =>
    first [replace (Rltb a b) with true by (symmetry; apply Rltb_iff; lra)
          | replace (Rltb a b) with false by (symmetry; apply Rltb_false; lra)] end). reflexivity.
Qed.
Example C42_limits_met_iff_example := C42_limits_met_iff (fun v => Fin v) 2 3 5 1 _ ltac:(lra) xc_limits.
Example C42_above_maximum_moves_away_example : (5 + (5 - 3)) - 3 = 2 * (5 - 3) :=
  C42_above_maximum_moves_away (fun v => Fin v) 2 3 5 1 _ ltac:(lra) ltac:(lra) xc_limits.

Theorem C42_limits_enforced_refuted :
  exists (lo hi cur : R), 0 <= lo < hi /\ lo <= cur <= hi /\
    forall loss base d, new_diff loss cur base (Limits lo hi) = Some d -> ~ (lo <= cur + d <= hi).
Proof.
  exists 1, 3, 2. split; [lra|]. split; [lra|]. intros loss base d H He.
  apply (C42_limits_met_iff loss 1 3 2 base d) in He; [|lra|exact H]. lra.
Qed.
Print Assumptions C42_limits_enforced_refuted.

