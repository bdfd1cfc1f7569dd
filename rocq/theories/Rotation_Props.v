(** Properties C107 and C108: what the fit does not determine.  Rotations of the
    factors, and the scale of each factor. *)
From Coq Require Import Reals Lra Lia List Bool ZArith Arith Psatz.
From Verif Require Import Base Fl Boot_Model Metrics_Model LSNMF_Model LSNMF_Proofs LSLimit_Props Analysis_Model.
Import ListNotations.
Open Scope R_scope.

(** ** C107 *)
(** [T] and [T'] are inverse to each other on [k] factors. *)
Definition inverse (k : nat) (T T' : mat) : Prop :=
  forall p q, (p < k)%nat -> (q < k)%nat -> rsum k (fun a => T p a * T' a q) = if (p =? q)%nat then 1 else 0.
Definition turned_W (k : nat) (W T : mat) : mat := fun i a => rsum k (fun p => W i p * T p a).
Definition turned_H (k : nat) (T' H : mat) : mat := fun a j => rsum k (fun p => T' a p * H p j).

Lemma turned_product k W H T T' i j : inverse k T T' -> mmul k (turned_W k W T) (turned_H k T' H) i j = mmul k W H i j.
Proof.
  intros I. unfold mmul, turned_W, turned_H.
  transitivity (rsum k (fun p => rsum k (fun q => W i p * H q j * rsum k (fun a => T p a * T' a q)))).
  - rewrite (rsum_ext k _ (fun a => rsum k (fun p => rsum k (fun q => W i p * H q j * (T p a * T' a q))))).
    + rewrite rsum_swap. apply rsum_ext. intros p Hp. rewrite rsum_swap. apply rsum_ext. intros q Hq. rewrite rsum_scal_l. reflexivity.
    + intros a Ha. rewrite <- rsum_scal_r. apply rsum_ext. intros p Hp. rewrite <- rsum_scal_l. apply rsum_ext. intros q Hq. ring.
  - apply rsum_ext. intros p Hp. rewrite (rsum_single k _ p Hp).
    + rewrite (I p p Hp Hp), Nat.eqb_refl. ring.
    + intros q Hq N. rewrite (I p q Hp Hq). destruct (Nat.eqb_spec p q); [congruence|]. ring.
Qed.
Lemma q_loss_ext m n k k' b V U W H W' H' : (forall i j, (i < m)%nat -> (j < n)%nat -> mmul k W H i j = mmul k' W' H' i j) ->
  q_loss m n k b V U W H = q_loss m n k' b V U W' H'.
Proof.
  intros E. unfold q_loss, resid. destruct b; apply msum_ext; intros i j Hi Hj; rewrite (E i j Hi Hj); reflexivity.
Qed.
Lemma qr_loss_ext m n k k' al V U W H W' H' : (forall i j, (i < m)%nat -> (j < n)%nat -> mmul k W H i j = mmul k' W' H' i j) ->
  qr_loss m n k al V U W H = qr_loss m n k' al V U W' H'.
Proof.
  intros E. unfold qr_loss, robust_scaled, robust_unc, scaled_resid, resid. apply msum_ext. intros i j Hi Hj. rewrite (E i j Hi Hj). reflexivity.
Qed.

(** Neither loss sees a rotation. *)
Theorem C107_rotation_same_fit : forall (m n k : nat) (W H T T' W2 H2 : mat), inverse k T T' ->
  W2 = (fun i a => rsum k (fun p => W i p * T p a)) -> H2 = (fun a j => rsum k (fun p => T' a p * H p j)) ->
  (forall i j, rsum k (fun a => W2 i a * H2 a j) = rsum k (fun a => W i a * H a j)) /\
  (forall V U b, q_loss m n k b V U W2 H2 = q_loss m n k b V U W H) /\
  (forall V U alpha, qr_loss m n k alpha V U W2 H2 = qr_loss m n k alpha V U W H).
Proof.
  intros m n k W H T T' W2 H2 I -> ->. pose proof (fun i j => turned_product k W H T T' i j I) as E. split; [exact E|].
  split; intros; [apply q_loss_ext|apply qr_loss_ext]; intros i j _ _; apply E.
Qed.
Print Assumptions C107_rotation_same_fit.

(** The equations of a stalled state. *)
Definition balanced (m n k : nat) (V We W H : mat) : Prop :=
  (forall a j, (a < k)%nat -> (j < n)%nat -> h_num m V We W a j = h_den m k We W H a j) /\
  (forall i a, (i < m)%nat -> (a < k)%nat -> w_num n V We H i a = w_den n k We W H i a).
Lemma quot_one w x y : 0 < w -> y <> 0 -> w * (x / y) = w -> x = y.
Proof. intros Hw Hy E. assert (x / y = 1) by (apply (Rmult_eq_reg_l w); lra). replace x with (x / y * y) by (field; exact Hy). rewrite H. ring. Qed.
Lemma stalled_balanced m n k V U W H W' H' :
  mall m n (fun x => 0 <= x) V -> mall m n (fun u => u <> 0) U ->
  mall m k (fun x => 0 < x) W -> mall k n (fun x => 0 < x) H ->
  ls_update m n k V (weights U) false (W, H) = Some (W', H') ->
  q_loss m n k true V U W' H' = q_loss m n k true V U W H -> balanced m n k V (weights U) W H.
Proof.
  intros HV HU HW HH Hs Hq.
  destruct (ls_update_q_stationary m n k V U false W H W' H' HV HU (pos_nonneg _ _ _ HW) (pos_nonneg _ _ _ HH) Hs Hq) as [EW EH].
  apply ls_update_inv in Hs. destruct Hs as (H1 & W1 & [= -> ->] & Hh & Hw).
  destruct (w_step_inv _ _ _ _ _ _ _ _ Hw) as [Hdw HW1]. destruct (h_step_inv _ _ _ _ _ _ _ _ Hh) as [Hdh HH1]. split.
  - intros a j Ha Hj. apply (quot_one (H a j)); [apply HH; auto|apply Hdh; auto|]. specialize (EH a j Ha Hj). rewrite HH1 in EH. exact EH.
  - intros i a Hi Ha. rewrite (w_num_ext m n k V (weights U) H V (weights U) H1 ) by (try exact Hi; try exact Ha; intros ? ? ? ?; try reflexivity; symmetry; apply EH; auto).
    rewrite (w_den_ext m n k (weights U) W H (weights U) W H1) by (try exact Hi; try exact Ha; intros ? ? ? ?; try reflexivity; symmetry; apply EH; auto).
    apply (quot_one (W i a)); [apply HW; auto|apply Hdw; auto|]. specialize (EW i a Hi Ha). rewrite HW1 in EW. exact EW.
Qed.
Lemma balanced_turned m n k V We W H T T' : inverse k T T' -> balanced m n k V We W H ->
  balanced m n k V We (turned_W k W T) (turned_H k T' H).
Proof.
  intros I [BH BW]. split.
  - intros a j Ha Hj. transitivity (rsum k (fun p => T p a * h_num m V We W p j)).
    + unfold h_num, turned_W. rewrite (rsum_ext m _ (fun i => rsum k (fun p => T p a * (W i p * wev V We i j)))).
      * rewrite rsum_swap. apply rsum_ext. intros p Hp. rewrite rsum_scal_l. reflexivity.
      * intros i Hi. rewrite <- rsum_scal_r. apply rsum_ext. intros p Hp. ring.
    + transitivity (rsum k (fun p => T p a * h_den m k We W H p j)); [apply rsum_ext; intros p Hp; rewrite (BH p j Hp Hj); reflexivity|].
      unfold h_den. symmetry. rewrite (rsum_ext m _ (fun i => rsum k (fun p => T p a * (W i p * (We i j * mmul k W H i j))))).
      * rewrite rsum_swap. apply rsum_ext. intros p Hp. rewrite rsum_scal_l. reflexivity.
      * intros i Hi. rewrite (turned_product k W H T T' i j I). unfold turned_W. rewrite <- rsum_scal_r. apply rsum_ext. intros p Hp. ring.
  - intros i a Hi Ha. transitivity (rsum k (fun p => T' a p * w_num n V We H i p)).
    + unfold w_num, turned_H. rewrite (rsum_ext n _ (fun j => rsum k (fun p => T' a p * (wev V We i j * H p j)))).
      * rewrite rsum_swap. apply rsum_ext. intros p Hp. rewrite rsum_scal_l. reflexivity.
      * intros j Hj. rewrite <- rsum_scal_l. apply rsum_ext. intros p Hp. ring.
    + transitivity (rsum k (fun p => T' a p * w_den n k We W H i p)); [apply rsum_ext; intros p Hp; rewrite (BW i p Hi Hp); reflexivity|].
      unfold w_den. symmetry. rewrite (rsum_ext n _ (fun j => rsum k (fun p => T' a p * (We i j * mmul k W H i j * H p j)))).
      * rewrite rsum_swap. apply rsum_ext. intros p Hp. rewrite rsum_scal_l. reflexivity.
      * intros j Hj. rewrite (turned_product k W H T T' i j I). unfold turned_H. rewrite <- rsum_scal_l. apply rsum_ext. intros p Hp. ring.
Qed.
Lemma balanced_ext m n k V We W H W' H' : meq m k W' W -> meq k n H' H -> balanced m n k V We W H -> balanced m n k V We W' H'.
Proof.
  intros EW EH [BH BW]. split.
  - intros a j Ha Hj. rewrite (h_num_ext m n k V We W' V We W) by (auto; intros ? ? ? ?; reflexivity).
    rewrite (h_den_ext m n k We W' H' We W H) by (auto; intros ? ? ? ?; reflexivity). auto.
  - intros i a Hi Ha. rewrite (w_num_ext m n k V We H' V We H) by (auto; intros ? ? ? ?; reflexivity).
    rewrite (w_den_ext m n k We W' H' We W H) by (auto; intros ? ? ? ?; reflexivity). auto.
Qed.
Lemma balanced_fixed m n k V We W H hold :
  (0 < m)%nat -> (0 < n)%nat -> (0 < k)%nat ->
  mall m n (fun x => 0 < x) We -> mall m k (fun x => 0 < x) W -> mall k n (fun x => 0 < x) H ->
  balanced m n k V We W H ->
  exists W' H', ls_update m n k V We hold (W, H) = Some (W', H') /\ meq m k W' W /\ meq k n H' H.
Proof.
  intros Hm Hn Hk He HW HH B.
  assert (P : forall H2, meq k n H2 H -> forall i j, (i < m)%nat -> (j < n)%nat -> 0 < mmul k W H2 i j).
  { intros H2 E i j Hi Hj. unfold mmul. apply rsum_pos; [exact Hk|]. intros p Hp. rewrite (E p j Hp Hj). apply Rmult_lt_0_compat; [apply HW|apply HH]; auto. }
  assert (S : exists H1, (if hold then Some H else h_step m n k V We W H) = Some H1 /\ meq k n H1 H).
  { destruct hold; [exists H; split; [reflexivity|intros ? ? _ _; reflexivity]|].
    assert (D : forall a j, (a < k)%nat -> (j < n)%nat -> 0 < h_den m k We W H a j).
    { intros a j Ha Hj. unfold h_den. apply rsum_pos; [exact Hm|]. intros i Hi. apply Rmult_lt_0_compat; [apply HW; auto|].
      apply Rmult_lt_0_compat; [apply He; auto|]. apply P; auto. intros ? ? _ _; reflexivity. }
    unfold h_step. replace (all_nz k n (h_den m k We W H)) with true.
    - eexists. split; [reflexivity|]. intros a j Ha Hj. cbv beta. rewrite (proj1 B a j Ha Hj). specialize (D a j Ha Hj). field. lra.
    - symmetry. apply all_nz_true. intros a j Ha Hj. specialize (D a j Ha Hj). lra. }
  destruct S as (H1 & E1 & M1). unfold ls_update. rewrite E1.
  assert (D : forall i a, (i < m)%nat -> (a < k)%nat -> 0 < w_den n k We W H1 i a).
  { intros i a Hi Ha. unfold w_den. apply rsum_pos; [exact Hn|]. intros j Hj. apply Rmult_lt_0_compat; [|rewrite (M1 a j Ha Hj); apply HH; auto].
    apply Rmult_lt_0_compat; [apply He; auto|]. apply P; auto. }
  pose proof (balanced_ext m n k V We W H W H1 ltac:(intros ? ? _ _; reflexivity) M1 B) as [_ B1].
  unfold w_step. replace (all_nz m k (w_den n k We W H1)) with true.
  - eexists _, _. split; [reflexivity|]. split; [|exact M1]. intros i a Hi Ha. cbv beta. rewrite (B1 i a Hi Ha). specialize (D i a Hi Ha). field. lra.
  - symmetry. apply all_nz_true. intros i a Hi Ha. specialize (D i a Hi Ha). lra.
Qed.

(** Where a run has come to rest, every rotation of the solution with positive
    entries is a place to come to rest as well: started there, any number of
    iterations leaves it as it is. *)
Theorem C107_rotations_of_a_stalled_run :
  forall (m n k : nat) (V U W H W' H' T T' W2 H2 : mat),
    (0 < m)%nat -> (0 < n)%nat -> (0 < k)%nat ->
    mall m n (fun x => 0 <= x) V -> mall m n (fun u => u <> 0) U ->
    mall m k (fun x => 0 < x) W -> mall k n (fun x => 0 < x) H ->
    ls_update m n k V (weights U) false (W, H) = Some (W', H') ->
    q_loss m n k true V U W' H' = q_loss m n k true V U W H ->
    inverse k T T' ->
    W2 = (fun i a => rsum k (fun p => W i p * T p a)) -> H2 = (fun a j => rsum k (fun p => T' a p * H p j)) ->
    mall m k (fun x => 0 < x) W2 -> mall k n (fun x => 0 < x) H2 ->
    forall (hold : nat -> bool) (i0 N : nat),
      exists W3 H3, ls_iter m n k V (weights U) hold i0 N (W2, H2) = Some (W3, H3) /\ meq m k W3 W2 /\ meq k n H3 H2.
Proof.
  intros m n k V U W H W' H' T T' W2 H2 Hm Hn Hk HV HU HW HH Hs Hq I EW EH PW PH hold i0 N.
  assert (B : balanced m n k V (weights U) W2 H2).
  { rewrite EW, EH. apply (balanced_turned m n k V (weights U) W H T T' I). exact (stalled_balanced _ _ _ _ _ _ _ _ _ HV HU HW HH Hs Hq). }
  assert (G : forall N i0 Wc Hc, meq m k Wc W2 -> meq k n Hc H2 ->
            exists W3 H3, ls_iter m n k V (weights U) hold i0 N (Wc, Hc) = Some (W3, H3) /\ meq m k W3 W2 /\ meq k n H3 H2).
  { clear N i0. induction N as [|N IH]; intros i0 Wc Hc MW MH; cbn [ls_iter]; [exists Wc, Hc; auto|].
    destruct (balanced_fixed m n k V (weights U) Wc Hc (hold i0) Hm Hn Hk (weights_pos _ _ _ HU)) as (W3 & H3 & E & A & A').
    - intros i a Hi Ha. rewrite (MW i a Hi Ha). apply PW; auto.
    - intros a j Ha Hj. rewrite (MH a j Ha Hj). apply PH; auto.
    - exact (balanced_ext _ _ _ _ _ _ _ _ _ MW MH B).
    - rewrite E. apply IH; intros x y Hx Hy; [rewrite (A x y Hx Hy); auto|rewrite (A' x y Hx Hy); auto]. }
  apply G; intros ? ? _ _; reflexivity.
Qed.
Print Assumptions C107_rotations_of_a_stalled_run.

(** A shear between two factors. *)
Definition shear (a b : nat) (e : R) : mat := fun p q => (if (p =? q)%nat then 1 else 0) + (if ((p =? a) && (q =? b))%nat then e else 0).
Lemma shear_pick k a b e (f : nat -> R) p : (p < k)%nat -> (b < k)%nat ->
  rsum k (fun q => shear a b e p q * f q) = f p + (if (p =? a)%nat then e * f b else 0).
Proof.
  intros Hp Hb. unfold shear.
  rewrite (rsum_ext k _ (fun q => (if (q =? p)%nat then f q else 0) + (if (q =? b)%nat then (if (p =? a)%nat then e else 0) * f q else 0))).
  - rewrite rsum_plus. rewrite (rsum_single k _ p Hp), (rsum_single k _ b Hb); [rewrite !Nat.eqb_refl; destruct (p =? a)%nat; ring| |];
      intros q Hq N; destruct (Nat.eqb_spec q p); destruct (Nat.eqb_spec q b); try congruence; reflexivity.
  - intros q Hq. rewrite (Nat.eqb_sym p q). destruct (q =? p)%nat, (p =? a)%nat, (q =? b)%nat; cbn [andb]; ring.
Qed.
Lemma shear_inverse k a b e : (a < k)%nat -> (b < k)%nat -> a <> b -> inverse k (shear a b e) (shear a b (- e)).
Proof.
  intros Ha Hb N p q Hp Hq. rewrite (shear_pick k a b e (fun c => shear a b (- e) c q) p Hp Hb). unfold shear.
  destruct (Nat.eqb_spec p a) as [->|Np]; destruct (Nat.eqb_spec b a); try congruence; cbn [andb]; [|ring].
  destruct (Nat.eqb_spec a q), (Nat.eqb_spec q b), (Nat.eqb_spec b q); try congruence; ring.
Qed.
Lemma small_step n (x y : nat -> R) : (forall j, (j < n)%nat -> 0 < x j /\ 0 < y j) ->
  exists e0, 0 < e0 /\ forall e, e < e0 -> forall j, (j < n)%nat -> 0 < x j - e * y j.
Proof.
  induction n as [|n IH]; intros P; [exists 1; split; [lra|intros; lia]|].
  destruct IH as (e1 & E1 & F); [intros; apply P; lia|]. destruct (P n) as [Px Py]; [lia|].
  exists (Rmin e1 (x n / y n)). split; [apply Rmin_glb_lt; [exact E1|apply Rdiv_lt_0_compat; assumption]|].
  intros e He j Hj. destruct (Nat.eq_dec j n) as [->|Nj].
  - assert (e < x n / y n) by (eapply Rlt_le_trans; [exact He|apply Rmin_r]).
    assert (L : e * y n < x n / y n * y n) by (apply Rmult_lt_compat_r; assumption). replace (x n / y n * y n) with (x n) in L by (field; lra). lra.
  - apply F; [eapply Rlt_le_trans; [exact He|apply Rmin_l]|lia].
Qed.

(** No solution with positive entries is unique: between any two factors with
    different profiles there is a whole interval of other solutions with positive
    entries and the same fit, whose profiles for one of the factors are pairwise
    different sources. *)
Theorem C107_positive_solutions_are_never_unique :
  forall (m n k : nat) (W H : mat) (a b : nat), (a < k)%nat -> (b < k)%nat -> a <> b -> (0 < n)%nat ->
    mall m k (fun x => 0 < x) W -> mall k n (fun x => 0 < x) H ->
    ~ (exists c, forall j, (j < n)%nat -> H a j = c * H b j) ->
    exists (e0 : R) (Ws Hs : R -> mat), 0 < e0 /\
      (forall e, 0 <= e < e0 ->
         mall m k (fun x => 0 < x) (Ws e) /\ mall k n (fun x => 0 < x) (Hs e) /\
         (forall i j, (i < m)%nat -> (j < n)%nat -> rsum k (fun p => Ws e i p * Hs e p j) = rsum k (fun p => W i p * H p j)) /\
         (forall V U, q_loss m n k true V U (Ws e) (Hs e) = q_loss m n k true V U W H) /\
         (forall V U alpha, qr_loss m n k alpha V U (Ws e) (Hs e) = qr_loss m n k alpha V U W H) /\
         (forall p j, p <> a -> (p < k)%nat -> (j < n)%nat -> Hs e p j = H p j)) /\
      (forall e e', 0 <= e < e0 -> 0 <= e' < e0 -> e <> e' ->
         ~ (exists c, forall j, (j < n)%nat -> Hs e a j = c * Hs e' a j)).
Proof.
  intros m n k W H a b Ha Hb Nab Hn PW PH NP.
  destruct (small_step n (H a) (H b)) as (e0 & E0 & F); [intros j Hj; split; apply PH; auto|].
  exists e0, (fun e => turned_W k W (shear a b e)), (fun e => turned_H k (shear a b (- e)) H). split; [exact E0|].
  assert (VH : forall e p j, (p < k)%nat -> turned_H k (shear a b (- e)) H p j = H p j + (if (p =? a)%nat then - e * H b j else 0)).
  { intros e p j Hp. unfold turned_H. apply (shear_pick k a b (- e) (fun q => H q j) p Hp Hb). }
  assert (VW : forall e i q, (q < k)%nat -> turned_W k W (shear a b e) i q = W i q + (if (q =? b)%nat then e * W i a else 0)).
  { intros e i q Hq. unfold turned_W, shear.
    rewrite (rsum_ext k _ (fun p => (if (p =? q)%nat then W i p else 0) + (if (p =? a)%nat then (if (q =? b)%nat then e * W i p else 0) else 0))).
    - rewrite rsum_plus, (rsum_single k _ q Hq), (rsum_single k _ a Ha); [rewrite !Nat.eqb_refl; reflexivity| |];
        intros p Hp N; [destruct (Nat.eqb_spec p a)|destruct (Nat.eqb_spec p q)]; try congruence; reflexivity.
    - intros p Hp. destruct (p =? q)%nat, (p =? a)%nat, (q =? b)%nat; cbn [andb]; ring. }
  split.
  - intros e [He He0]. pose proof (shear_inverse k a b e Ha Hb Nab) as I.
    pose proof (fun i j => turned_product k W H _ _ i j I) as E.
    repeat split.
    + intros i q Hi Hq. rewrite (VW e i q Hq). pose proof (PW i q Hi Hq). pose proof (PW i a Hi Ha). cbv beta in *. destruct (q =? b)%nat; nra.
    + intros p j Hp Hj. rewrite (VH e p j Hp). destruct (Nat.eqb_spec p a) as [->|Np].
      * specialize (F e He0 j Hj). lra.
      * specialize (PH p j Hp Hj). cbv beta in PH. lra.
    + intros i j _ _. apply E.
    + intros V U. apply q_loss_ext. intros i j _ _. apply E.
    + intros V U alpha. apply qr_loss_ext. intros i j _ _. apply E.
    + intros p j Np Hp Hj. rewrite (VH e p j Hp). destruct (Nat.eqb_spec p a); [congruence|]. ring.
  - intros e e' He He' Ne (c & P).
    assert (P' : forall j, (j < n)%nat -> (1 - c) * H a j = (e - c * e') * H b j).
    { intros j Hj. specialize (P j Hj). rewrite !(VH _ a j Ha), Nat.eqb_refl in P. lra. }
    destruct (Req_dec c 1) as [->|Nc].
    + specialize (P' 0%nat Hn). pose proof (PH b 0%nat Hb Hn) as Q. cbv beta in Q. apply Ne.
      apply (Rmult_eq_reg_r (H b 0%nat)); [|lra]. lra.
    + apply NP. exists ((e - c * e') / (1 - c)). intros j Hj. specialize (P' j Hj).
      apply (Rmult_eq_reg_l (1 - c)); [|lra]. rewrite P'. field. lra.
Qed.
Print Assumptions C107_positive_solutions_are_never_unique.
Definition ro_W : mat := fun i a => if (i =? a)%nat then 2 else 1.
Definition ro_H : mat := fun a j => if (a =? j)%nat then 3 else 1.
Definition ro_V : mat := mmul 2 ro_W ro_H.
Example C107_instance :
  mall 2 2 (fun x => 0 < x) ro_W /\ mall 2 2 (fun x => 0 < x) ro_H /\
  ~ (exists c, forall j, (j < 2)%nat -> ro_H 0%nat j = c * ro_H 1%nat j) /\
  inverse 2 (shear 0 1 (1 / 10)) (shear 0 1 (- (1 / 10))) /\
  mall 2 2 (fun x => 0 < x) (fun i a => rsum 2 (fun p => ro_W i p * shear 0 1 (1 / 10) p a)) /\
  mall 2 2 (fun x => 0 < x) (fun a j => rsum 2 (fun p => shear 0 1 (- (1 / 10)) a p * ro_H p j)) /\
  exists W' H', ls_update 2 2 2 ro_V (weights ones) false (ro_W, ro_H) = Some (W', H') /\
    q_loss 2 2 2 true ro_V ones W' H' = q_loss 2 2 2 true ro_V ones ro_W ro_H.
Proof.
  assert (PW : mall 2 2 (fun x => 0 < x) ro_W) by (intros i a _ _; unfold ro_W; destruct (i =? a)%nat; lra).
  assert (PH : mall 2 2 (fun x => 0 < x) ro_H) by (intros i a _ _; unfold ro_H; destruct (i =? a)%nat; lra).
  split; [exact PW|]. split; [exact PH|]. split; [|split; [|split; [|split]]].
  - intros (c & E). pose proof (E 0%nat ltac:(lia)) as E0. pose proof (E 1%nat ltac:(lia)) as E1. unfold ro_H in E0, E1. cbn in E0, E1. lra.
  - apply shear_inverse; lia.
  - intros [|[|i]] [|[|a]] Hi Ha; try lia; unfold ro_W, shear; cbn; lra.
  - intros [|[|i]] [|[|a]] Hi Ha; try lia; unfold ro_H, shear; cbn; lra.
  - destruct (ls_update_fixpoint 2 2 2 ro_V (weights ones) false ro_W ro_H) as (W' & H' & E & A & B); try lia; try assumption.
    + apply weights_pos. intros ? ? _ _. unfold ones. lra.
    + intros i j _ _. reflexivity.
    + exists W', H'. split; [exact E|]. apply q_loss_ext. intros i j Hi Hj. apply mmul_ext; intros p Hp; [apply A|apply B]; auto.
Qed.

(** ** C108 *)
(** The same solution with factor [a] measured in another unit. *)
Definition rescaled (m n k : nat) (s : nat -> R) (st st' : mat * mat) : Prop :=
  (forall i a, (i < m)%nat -> (a < k)%nat -> fst st' i a = fst st i a * s a) /\
  (forall a j, (a < k)%nat -> (j < n)%nat -> snd st' a j = snd st a j / s a).
Lemma rescaled_product m n k s W H W' H' i j : (forall a, (a < k)%nat -> 0 < s a) -> rescaled m n k s (W, H) (W', H') ->
  (i < m)%nat -> (j < n)%nat -> mmul k W' H' i j = mmul k W H i j.
Proof.
  intros Ps [A B] Hi Hj. apply rsum_ext. intros p Hp. cbn [fst snd] in *. rewrite (A i p Hi Hp), (B p j Hp Hj). field. specialize (Ps p Hp). lra.
Qed.
Lemma rescaled_step m n k s V We h : (forall a, (a < k)%nat -> 0 < s a) -> forall st st', rescaled m n k s st st' ->
  orel (rescaled m n k s) (ls_update m n k V We h st) (ls_update m n k V We h st').
Proof.
  intros Ps [W H] [W' H'] Rl. pose proof (proj1 Rl) as RW. pose proof (proj2 Rl) as RH. cbn [fst snd] in RW, RH.
  assert (NZ : forall p q D D' (c : nat -> nat -> R), (forall i j, (i < p)%nat -> (j < q)%nat -> c i j <> 0 /\ D' i j = c i j * D i j) -> all_nz p q D' = all_nz p q D).
  { intros p q D D' c E. apply eq_true_iff_eq. rewrite !all_nz_true. split; intros Z i j Hi Hj; specialize (Z i j Hi Hj); cbv beta in *; destruct (E i j Hi Hj) as [Nc Ed].
    - intros Q. apply Z. rewrite Ed, Q. ring.
    - rewrite Ed. apply Rmult_integral_contrapositive; auto. }
  assert (SH : orel (fun a b => rescaled m n k s a b) (option_map (pair W) (if h then Some H else h_step m n k V We W H))
                 (option_map (pair W') (if h then Some H' else h_step m n k V We W' H'))).
  { destruct h; [exact Rl|].
    assert (En : forall a j, (a < k)%nat -> (j < n)%nat -> h_num m V We W' a j = s a * h_num m V We W a j).
    { intros a j Ha Hj. unfold h_num. rewrite <- rsum_scal_l. apply rsum_ext. intros i Hi. rewrite (RW i a Hi Ha). cbn [fst]. ring. }
    assert (Ed : forall a j, (a < k)%nat -> (j < n)%nat -> h_den m k We W' H' a j = s a * h_den m k We W H a j).
    { intros a j Ha Hj. unfold h_den. rewrite <- rsum_scal_l. apply rsum_ext. intros i Hi.
      rewrite (rescaled_product m n k s W H W' H' i j Ps Rl Hi Hj), (RW i a Hi Ha). cbn [fst]. ring. }
    unfold h_step. rewrite (NZ k n (h_den m k We W H) (h_den m k We W' H') (fun a _ => s a)).
    - destruct (all_nz k n (h_den m k We W H)) eqn:Z; [|exact I]. cbn [option_map orel]. split; [exact (proj1 Rl)|].
      intros a j Ha Hj. cbn [snd]. rewrite (En a j Ha Hj), (Ed a j Ha Hj), (RH a j Ha Hj). cbn [snd].
      pose proof (proj1 (all_nz_true _ _ _) Z a j Ha Hj) as D. cbv beta in D. specialize (Ps a Ha). field. lra.
    - intros a j Ha Hj. split; [specialize (Ps a Ha); lra|]. apply Ed; auto. }
  unfold ls_update. destruct (if h then Some H else h_step m n k V We W H) as [H1|], (if h then Some H' else h_step m n k V We W' H') as [H1'|]; cbn [option_map orel] in SH; try contradiction; [|exact I].
  pose proof (proj2 SH) as SH2. cbn [fst snd] in SH2.
  assert (En : forall i a, (i < m)%nat -> (a < k)%nat -> w_num n V We H1' i a = / s a * w_num n V We H1 i a).
  { intros i a Hi Ha. unfold w_num. rewrite <- rsum_scal_l. apply rsum_ext. intros j Hj. rewrite (SH2 a j Ha Hj). cbn [snd]. unfold Rdiv. ring. }
  assert (Ed : forall i a, (i < m)%nat -> (a < k)%nat -> w_den n k We W' H1' i a = / s a * w_den n k We W H1 i a).
  { intros i a Hi Ha. unfold w_den. rewrite <- rsum_scal_l. apply rsum_ext. intros j Hj.
    rewrite (rescaled_product m n k s W H1 W' H1' i j Ps SH Hi Hj), (SH2 a j Ha Hj). cbn [snd]. unfold Rdiv. ring. }
  unfold w_step. rewrite (NZ m k (w_den n k We W H1) (w_den n k We W' H1') (fun _ a => / s a)).
  - destruct (all_nz m k (w_den n k We W H1)) eqn:Z; [|exact I]. cbn [orel]. split; [|exact (proj2 SH)].
    intros i a Hi Ha. cbn [fst]. rewrite (En i a Hi Ha), (Ed i a Hi Ha), (RW i a Hi Ha). cbn [fst].
    pose proof (proj1 (all_nz_true _ _ _) Z i a Hi Ha) as D. cbv beta in D. specialize (Ps a Ha). field. lra.
  - intros i a Hi Ha. split; [specialize (Ps a Ha); apply Rinv_neq_0_compat; lra|]. apply Ed; auto.
Qed.

(** The scale of a factor is carried through training unchanged. *)
Theorem C108_scale_is_kept : forall (m n k : nat) (V We : mat) (s : nat -> R) (hold : nat -> bool) (i0 N : nat) (W H W' H' : mat),
  (forall a, (a < k)%nat -> 0 < s a) ->
  (forall i a, (i < m)%nat -> (a < k)%nat -> W' i a = W i a * s a) ->
  (forall a j, (a < k)%nat -> (j < n)%nat -> H' a j = H a j / s a) ->
  match ls_iter m n k V We hold i0 N (W, H), ls_iter m n k V We hold i0 N (W', H') with
  | Some (W1, H1), Some (W1', H1') =>
      (forall i a, (i < m)%nat -> (a < k)%nat -> W1' i a = W1 i a * s a) /\
      (forall a j, (a < k)%nat -> (j < n)%nat -> H1' a j = H1 a j / s a) /\
      (forall i a j, (i < m)%nat -> (a < k)%nat -> (j < n)%nat -> W1' i a * H1' a j = W1 i a * H1 a j)
  | None, None => True
  | _, _ => False
  end.
Proof.
  intros m n k V We s hold i0 N W H W' H' Ps A B.
  pose proof (ls_iter_rel m n k V We V We hold (rescaled m n k s) (fun h => rescaled_step m n k s V We h Ps) N i0 (W, H) (W', H') (conj A B)) as R.
  destruct (ls_iter m n k V We hold i0 N (W, H)) as [[W1 H1]|], (ls_iter m n k V We hold i0 N (W', H')) as [[W1' H1']|]; try exact R.
  destruct R as [R1 R2]. cbn [fst snd] in *. repeat split; auto.
  intros i a j Hi Ha Hj. rewrite (R1 i a Hi Ha), (R2 a j Ha Hj). field. specialize (Ps a Ha). lra.
Qed.
Print Assumptions C108_scale_is_kept.

(** The unit for which the share is [x] percent. *)
Lemma unit_for k (h : nat -> R) p x : (p < k)%nat -> (2 <= k)%nat -> (forall a, (a < k)%nat -> 0 < h a) -> 0 < x < 100 ->
  exists s : nat -> R, (forall a, 0 < s a) /\ rsum k (fun a => h a / s a) <> 0 /\ 100 * (h p / s p / rsum k (fun a => h a / s a)) = x.
Proof.
  intros Hp Hk Ph Hx. set (rest := rsum k (fun a => if (a =? p)%nat then 0 else h a)).
  assert (Pr : 0 < rest).
  { set (q := if (p =? 0)%nat then 1%nat else 0%nat).
    assert (Hq : (q < k)%nat /\ q <> p) by (unfold q; destruct (Nat.eqb_spec p 0); lia). destruct Hq as [Hq Nq].
    apply (rsum_pos_strict k _ q); [|exact Hq|].
    - intros a Ha. destruct (a =? p)%nat; [lra|]. specialize (Ph a Ha). lra.
    - destruct (Nat.eqb_spec q p); [congruence|]. auto. }
  pose proof (Ph p Hp) as Pp. set (y := x * rest / (100 - x)).
  assert (Py : 0 < y) by (unfold y; apply Rdiv_lt_0_compat; nra).
  exists (fun a => if (a =? p)%nat then h p / y else 1). split; [|].
  - intros a. destruct (a =? p)%nat; [apply Rdiv_lt_0_compat; assumption|lra].
  - assert (E : rsum k (fun a => h a / (if (a =? p)%nat then h p / y else 1)) = y + rest).
    { rewrite (rsum_split k _ p Hp), Nat.eqb_refl. f_equal; [field; lra|]. apply rsum_ext. intros a Ha. destruct (a =? p)%nat; [reflexivity|field]. }
    rewrite E, Nat.eqb_refl. split; [lra|]. replace (h p / (h p / y)) with y by (field; lra). unfold y. field. split; [lra|]. nra.
Qed.
Lemma fdiv_scaled a b c : 0 < c -> b <> 0 -> fdiv (Fin (a * c)) (Fin (b * c)) = fdiv (Fin a) (Fin b).
Proof.
  intros Hc Hb. unfold fdiv. destruct (Req_EM_T (b * c) 0) as [E|_]; [exfalso; apply Rmult_integral in E; lra|].
  destruct (Req_EM_T b 0); [contradiction|]. f_equal. field. lra.
Qed.

(** The percentages of the profile, fingerprint, pie and composition plots are not
    determined by the solution: for every percentage there is a choice of units in
    which the very same factors, with the same masses and contributions in all
    plots, have that share of the feature. *)
Theorem C108_any_share : forall (m n k : nat) (W H : mat) (p j : nat) (x : R),
  (0 < m)%nat -> (p < k)%nat -> (j < n)%nat -> (2 <= k)%nat ->
  mall m k (fun x => 0 < x) W -> mall k n (fun x => 0 < x) H -> 0 < x < 100 ->
  exists W2 H2,
    mall m k (fun x => 0 < x) W2 /\ mall k n (fun x => 0 < x) H2 /\
    (forall t i l, W2 t i * H2 i l = W t i * H i l) /\
    (forall V U, q_loss m n k true V U W2 H2 = q_loss m n k true V U W H) /\
    (forall i l, conc_sum m W2 H2 i l = conc_sum m W H i l) /\
    (forall t i, (i < k)%nat -> profile_contribution m W2 t i = profile_contribution m W t i /\
       gspace_contribution m W2 t i = gspace_contribution m W t i /\ percent_contribution m W2 t i = percent_contribution m W t i) /\
    norm_profile k H2 p j = Fin x.
Proof.
  intros m n k W H p j x Hm Hp Hj Hk PW PH Hx.
  destruct (unit_for k (fun a => H a j) p x Hp Hk ltac:(intros; apply PH; auto) Hx) as (s & Ps & Nz & E).
  exists (fun t i => W t i * s i), (fun i l => H i l / s i).
  assert (C : forall t i l, W t i * s i * (H i l / s i) = W t i * H i l) by (intros t i l; specialize (Ps i); field; lra).
  split; [intros t i Ht Hi; apply Rmult_lt_0_compat; [apply PW; auto|apply Ps]|].
  split; [intros i l Hi Hl; apply Rdiv_lt_0_compat; [apply PH; auto|apply Ps]|].
  split; [exact C|]. split; [|split; [|split]].
  - intros V U. apply q_loss_ext. intros a b _ _. apply rsum_ext. intros q _. apply C.
  - intros i l. unfold conc_sum. rewrite (rsum_ext m _ (fun t => W t i * H i l)) by (intros; apply C). reflexivity.
  - intros t i Hi.
    assert (PS : 0 < rsum m (fun u => W u i)) by (apply rsum_pos; [exact Hm|intros; apply PW; auto]).
    assert (ES : rsum m (fun u => W u i * s i) = rsum m (fun u => W u i) * s i) by apply rsum_scal_r.
    unfold profile_contribution, gspace_contribution, percent_contribution, mean. rewrite ES.
    replace (rsum m (fun u => W u i) * s i / INR m) with (rsum m (fun u => W u i) / INR m * s i) by (unfold Rdiv; ring).
    assert (Hi' : rsum m (fun u => W u i) / INR m <> 0).
    { assert (0 < rsum m (fun u => W u i) / INR m) by (apply Rdiv_lt_0_compat; [exact PS|apply lt_0_INR; exact Hm]). lra. }
    rewrite !fdiv_scaled by (auto; lra). auto.
  - unfold norm_profile, fdiv. destruct (Req_EM_T (rsum k (fun l => H l j / s l)) 0); [exfalso; apply Nz; assumption|]. cbn [fmul]. f_equal. exact E.
Qed.
Print Assumptions C108_any_share.

(** So the starting matrices decide: training from the same start in other units
    gives the same fit, with any share one likes. *)
Theorem C108_start_decides_share : forall (m n k : nat) (V U W H W1 H1 : mat) (hold : nat -> bool) (i0 N : nat) (p j : nat) (x : R),
  (p < k)%nat -> (j < n)%nat -> (2 <= k)%nat ->
  mall m k (fun x => 0 < x) W -> mall k n (fun x => 0 < x) H -> mall k n (fun x => 0 < x) H1 ->
  ls_iter m n k V (weights U) hold i0 N (W, H) = Some (W1, H1) -> 0 < x < 100 ->
  exists W' H' W1' H1',
    mall m k (fun x => 0 < x) W' /\ mall k n (fun x => 0 < x) H' /\
    (forall t i l, W' t i * H' i l = W t i * H i l) /\
    ls_iter m n k V (weights U) hold i0 N (W', H') = Some (W1', H1') /\
    (forall t i l, (t < m)%nat -> (i < k)%nat -> (l < n)%nat -> W1' t i * H1' i l = W1 t i * H1 i l) /\
    q_loss m n k true V U W1' H1' = q_loss m n k true V U W1 H1 /\
    norm_profile k H1' p j = Fin x.
Proof.
  intros m n k V U W H W1 H1 hold i0 N p j x Hp Hj Hk PW PH PH1 E Hx.
  destruct (unit_for k (fun a => H1 a j) p x Hp Hk ltac:(intros; apply PH1; auto) Hx) as (s & Ps & Nz & Es).
  set (W' := (fun t i => W t i * s i) : mat). set (H' := (fun i l => H i l / s i) : mat).
  pose proof (C108_scale_is_kept m n k V (weights U) s hold i0 N W H W' H' (fun a _ => Ps a) ltac:(intros; reflexivity) ltac:(intros; reflexivity)) as Rl.
  rewrite E in Rl. destruct (ls_iter m n k V (weights U) hold i0 N (W', H')) as [[W1' H1']|] eqn:E'; [|contradiction].
  destruct Rl as (RW & RH & RP). exists W', H', W1', H1'.
  split; [intros t i Ht Hi; apply Rmult_lt_0_compat; [apply PW; auto|apply Ps]|].
  split; [intros i l Hi Hl; apply Rdiv_lt_0_compat; [apply PH; auto|apply Ps]|].
  split; [intros t i l; unfold W', H'; specialize (Ps i); field; lra|]. split; [exact E'|]. split; [exact RP|]. split.
  - apply q_loss_ext. intros a b Ha Hb. apply rsum_ext. intros q Hq. apply RP; auto.
  - unfold norm_profile. rewrite (rsum_ext k _ (fun l => H1 l j / s l)) by (intros; apply RH; auto). rewrite (RH p j Hp Hj).
    unfold fdiv. destruct (Req_EM_T (rsum k (fun l => H1 l j / s l)) 0); [exfalso; apply Nz; assumption|]. cbn [fmul]. f_equal. exact Es.
Qed.
Print Assumptions C108_start_decides_share.

(** "the percentage of the feature found in each factor" *)
Theorem C108_share_is_of_the_mass_refuted :
  ~ (forall (m k : nat) (W H : mat) (p j : nat), (p < k)%nat -> mall m k (fun x => 0 < x) W -> mall k (S j) (fun x => 0 < x) H ->
       norm_profile k H p j = Fin (100 * (conc_sum m W H p j / rsum k (fun i => conc_sum m W H i j)))).
Proof.
  intros A. specialize (A 1%nat 2%nat (fun _ a => if (a =? 0)%nat then 3 else 1) (fun _ _ => 1) 0%nat 0%nat ltac:(lia)).
  assert (P : norm_profile 2 (fun _ _ => 1) 0 0 = Fin (100 * (conc_sum 1 (fun _ a => if (a =? 0)%nat then 3 else 1) (fun _ _ => 1) 0 0 /
     rsum 2 (fun i => conc_sum 1 (fun _ a => if (a =? 0)%nat then 3 else 1) (fun _ _ => 1) i 0)))).
  { apply A; intros i a _ _; cbv beta; [destruct (a =? 0)%nat|]; lra. }
  unfold norm_profile, fdiv, conc_sum in P. cbn [rsum] in P.
  destruct (Req_EM_T (0 + 1 + 1) 0); [lra|]. cbn [fmul Nat.eqb] in P.
  assert (E3 : Reqb (0 + 3 * 1) 0 = false) by (destruct (Reqb (0 + 3 * 1) 0) eqn:Z; [apply Reqb_iff in Z; lra|reflexivity]).
  assert (E1 : Reqb (0 + 1 * 1) 0 = false) by (destruct (Reqb (0 + 1 * 1) 0) eqn:Z; [apply Reqb_iff in Z; lra|reflexivity]).
  rewrite E3, E1 in P. injection P as P. lra.
Qed.
Print Assumptions C108_share_is_of_the_mass_refuted.
Example C108_instance :
  mall 2 2 (fun x => 0 < x) ro_W /\ mall 2 2 (fun x => 0 < x) ro_H /\ norm_profile 2 ro_H 0 0 = Fin 75 /\
  exists W1 H1, ls_iter 2 2 2 ro_V (weights ones) (fun _ => false) 0 3 (ones, ro_H) = Some (W1, H1) /\ mall 2 2 (fun x => 0 < x) H1.
Proof.
  assert (PW : mall 2 2 (fun x => 0 < x) ro_W) by (intros i a _ _; unfold ro_W; destruct (i =? a)%nat; lra).
  assert (PH : mall 2 2 (fun x => 0 < x) ro_H) by (intros i a _ _; unfold ro_H; destruct (i =? a)%nat; lra).
  split; [exact PW|]. split; [exact PH|]. split.
  - unfold norm_profile, fdiv, ro_H. cbn. destruct (Req_EM_T (0 + 3 + 1) 0); [lra|]. cbn. f_equal. field.
  - assert (PV : forall i j, (i < 2)%nat -> (j < 2)%nat -> 0 < ro_V i j).
    { intros [|[|i]] [|[|j]] Hi Hj; try lia; unfold ro_V, ro_W, ro_H, mmul; cbn; lra. }
    destruct (ls_iter_pos 2 2 2 ro_V (weights ones) (fun _ => false) 3 0 ones ro_H) as (W1 & H1 & E & _ & P); try lia; try assumption.
    + intros i j Hi Hj. left. apply PV; auto.
    + split; [intros i Hi; exists 0%nat|intros j Hj; exists 0%nat]; split; try lia; apply PV; auto; lia.
    + apply weights_pos. intros ? ? _ _. unfold ones. lra.
    + intros ? ? _ _. unfold ones. lra.
    + exists W1, H1. auto.
Qed.

Definition xro_T : mat := shear 0 1 (1 / 10).
Definition xro_T' : mat := shear 0 1 (- (1 / 10)).
Lemma xro_inv : inverse 2 xro_T xro_T'.
Proof. apply C107_instance. Qed.
Lemma xro_W : mall 2 2 (fun x => 0 < x) ro_W. Proof. apply C107_instance. Qed.
Lemma xro_H : mall 2 2 (fun x => 0 < x) ro_H. Proof. apply C107_instance. Qed.
Example C107_rotation_same_fit_example := C107_rotation_same_fit 2 2 2 ro_W ro_H xro_T xro_T' _ _ xro_inv eq_refl eq_refl.
Example C107_positive_solutions_are_never_unique_example :=
  C107_positive_solutions_are_never_unique 2 2 2 ro_W ro_H 0 1 ltac:(lia) ltac:(lia) ltac:(lia) ltac:(lia) xro_W xro_H (proj1 (proj2 (proj2 C107_instance))).
Example C107_rotations_of_a_stalled_run_example : exists W3 H3,
  ls_iter 2 2 2 ro_V (weights ones) (fun _ => false) 0 50 ((fun i a => rsum 2 (fun p => ro_W i p * xro_T p a)), (fun a j => rsum 2 (fun p => xro_T' a p * ro_H p j))) = Some (W3, H3) /\
  meq 2 2 W3 (fun i a => rsum 2 (fun p => ro_W i p * xro_T p a)).
Proof.
  destruct C107_instance as (_ & _ & _ & _ & PW & PH & W' & H' & E & Q).
  destruct (C107_rotations_of_a_stalled_run 2 2 2 ro_V ones ro_W ro_H W' H' xro_T xro_T' _ _ ltac:(lia) ltac:(lia) ltac:(lia)
    ltac:(intros i j Hi Hj; unfold ro_V, mmul; apply Rlt_le; cbn [rsum]; pose proof (xro_W i 0%nat Hi ltac:(lia)); pose proof (xro_W i 1%nat Hi ltac:(lia)); pose proof (xro_H 0%nat j ltac:(lia) Hj); pose proof (xro_H 1%nat j ltac:(lia) Hj); nra)
    ltac:(intros i j _ _; unfold ones; lra) xro_W xro_H E Q xro_inv eq_refl eq_refl PW PH (fun _ => false) 0%nat 50%nat) as (W3 & H3 & E3 & M & _).
  exists W3, H3. split; [exact E3 | exact M].
Qed.
Example C108_scale_is_kept_example :=
  C108_scale_is_kept 2 2 2 ro_V ones (fun a => INR (S a)) (fun _ => false) 0 5 ro_W ro_H (fun i a => ro_W i a * INR (S a)) (fun a j => ro_H a j / INR (S a))
    ltac:(intros; apply lt_0_INR; lia) ltac:(reflexivity) ltac:(reflexivity).
Example C108_any_share_example := C108_any_share 2 2 2 ro_W ro_H 0 0 10 ltac:(lia) ltac:(lia) ltac:(lia) ltac:(lia) xro_W xro_H ltac:(lra).
Example C108_start_decides_share_example : exists W' H' W1' H1',
  mall 2 2 (fun x => 0 < x) H' /\ ls_iter 2 2 2 ro_V (weights ones) (fun _ => false) 0 3 (W', H') = Some (W1', H1') /\ norm_profile 2 H1' 0 0 = Fin 10.
Proof.
  destruct C108_instance as (_ & PH & _ & W1 & H1 & E & P1).
  destruct (C108_start_decides_share 2 2 2 ro_V ones ones ro_H W1 H1 (fun _ => false) 0 3 0 0 10 ltac:(lia) ltac:(lia) ltac:(lia) ltac:(intros i j _ _; unfold ones; lra) PH P1 E ltac:(lra))
    as (W' & H' & W1' & H1' & _ & A & _ & B & _ & _ & C). exists W', H', W1', H1'. auto.
Qed.
