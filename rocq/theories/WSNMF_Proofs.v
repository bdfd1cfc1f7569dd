From Coq Require Import Reals Lra Lia List Bool ZArith.
From Verif Require Import Base Metrics_Model Metrics_Proofs LSNMF_Model LSNMF_Proofs WSNMF_Model.
Open Scope R_scope.

(** ** Weighted least squares for one sample *)
Section Row.
  Context (n k : nat) (w v : nat -> R) (H : mat) (G : mat).
  Context (Hw : forall j, (j < n)%nat -> 0 <= w j).

  Let A : mat := fun a b => rsum n (fun j => H a j * (w j * H b j)).
  Let b : nat -> R := fun a => rsum n (fun j => H a j * (w j * v j)).

  Lemma quad_A z : rsum k (fun a => z a * rsum k (fun c => A a c * z c))
    = rsum n (fun j => w j * (rsum k (fun a => z a * H a j) * rsum k (fun a => z a * H a j))).
  Proof.
    transitivity (rsum k (fun a => rsum n (fun j => z a * H a j * w j * rsum k (fun c => z c * H c j)))).
    - apply rsum_ext. intros a Ha. unfold A.
      transitivity (z a * rsum n (fun j => rsum k (fun c => H a j * w j * (z c * H c j)))).
      + f_equal. rewrite (rsum_swap n k). apply rsum_ext. intros c Hc. rewrite <- rsum_scal_r.
        apply rsum_ext. intros. ring.
      + rewrite <- rsum_scal_l. apply rsum_ext. intros j Hj. rewrite rsum_scal_l. ring.
    - rewrite rsum_swap. apply rsum_ext. intros j Hj.
      transitivity (rsum k (fun a => z a * H a j) * (w j * rsum k (fun c => z c * H c j))).
      + rewrite <- rsum_scal_r. apply rsum_ext. intros. ring.
      + ring.
  Qed.

  Lemma kernel_orth z :
    (forall a, (a < k)%nat -> rsum k (fun c => A a c * z c) = 0) ->
    rsum k (fun a => b a * z a) = 0.
  Proof.
    intros Hz.
    assert (Hq : rsum n (fun j => w j * (rsum k (fun a => z a * H a j) * rsum k (fun a => z a * H a j))) = 0).
    { rewrite <- quad_A. rewrite (rsum_ext k _ (fun _ => 0)); [apply rsum_0|].
      intros a Ha. rewrite Hz by assumption. ring. }
    assert (Hj : forall j, (j < n)%nat -> w j * rsum k (fun a => z a * H a j) = 0).
    { intros j Hj.
      pose proof (rsum_nonneg_zero n _
        (fun j Hj => Rmult_le_pos _ _ (Hw j Hj) (Rle_0_sqr (rsum k (fun a => z a * H a j)))) Hq j Hj) as E.
      cbv beta in E. unfold Rsqr in E. apply Rmult_integral in E. destruct E as [E|E].
      - rewrite E. ring.
      - apply Rmult_integral in E. destruct E as [E|E]; rewrite E; ring. }
    transitivity (rsum k (fun a => rsum n (fun j => v j * (w j * (z a * H a j))))).
    - apply rsum_ext. intros a Ha. unfold b. rewrite <- rsum_scal_r. apply rsum_ext. intros. ring.
    - rewrite rsum_swap. rewrite (rsum_ext n _ (fun _ => 0)); [apply rsum_0|].
      intros j Hjn. rewrite !rsum_scal_l. rewrite Hj by assumption. ring.
  Qed.

  Let x : nat -> R := fun c => rsum k (fun a => b a * G a c).

  Lemma normal_eq : ginverse k A G -> forall c, (c < k)%nat -> rsum k (fun p => x p * A p c) = b c.
  Proof.
    intros HG c Hc.
    set (z := fun a => (if Nat.eqb a c then 1 else 0) - mmul k G A a c).
    assert (Hz : forall a, (a < k)%nat -> rsum k (fun d => A a d * z d) = 0).
    { intros a Ha. unfold z.
      transitivity (rsum k (fun d => A a d * (if Nat.eqb d c then 1 else 0)) - rsum k (fun d => A a d * mmul k G A d c)).
      - rewrite <- rsum_minus. apply rsum_ext. intros; ring.
      - rewrite (rsum_single k _ c Hc).
        + rewrite Nat.eqb_refl. replace (rsum k (fun d => A a d * mmul k G A d c)) with (A a c); [ring|].
          rewrite <- (HG a c Ha Hc). unfold mmul.
          transitivity (rsum k (fun p => rsum k (fun d => A a d * G d p * A p c))).
          * apply rsum_ext. intros p Hp. rewrite rsum_scal_r. reflexivity.
          * rewrite rsum_swap. apply rsum_ext. intros d Hd. rewrite <- rsum_scal_l. apply rsum_ext. intros; ring.
        + intros d Hd Hne. destruct (Nat.eqb_spec d c); [contradiction|ring]. }
    pose proof (kernel_orth z Hz) as E. unfold z in E.
    assert (E2 : rsum k (fun a => b a * (if Nat.eqb a c then 1 else 0)) - rsum k (fun a => b a * mmul k G A a c) = 0).
    { etransitivity; [|exact E]. rewrite <- rsum_minus. apply rsum_ext. intros; ring. }
    rewrite (rsum_single k _ c Hc) in E2.
    - rewrite Nat.eqb_refl in E2. replace (rsum k (fun p => x p * A p c)) with (rsum k (fun a => b a * mmul k G A a c)); [lra|].
      unfold x, mmul.
      transitivity (rsum k (fun a => rsum k (fun p => b a * G a p * A p c))).
      + apply rsum_ext. intros a Ha. rewrite <- rsum_scal_l. apply rsum_ext. intros; ring.
      + rewrite rsum_swap. apply rsum_ext. intros p Hp. rewrite rsum_scal_r. reflexivity.
    - intros d Hd Hne. destruct (Nat.eqb_spec d c); [contradiction|ring].
  Qed.

  Definition row_loss (y : nat -> R) : R :=
    rsum n (fun j => w j * ((v j - rsum k (fun p => y p * H p j)) * (v j - rsum k (fun p => y p * H p j)))).

  Lemma row_optimal y : ginverse k A G ->
    row_loss y = row_loss x + rsum n (fun j => w j *
      (rsum k (fun p => (x p - y p) * H p j) * rsum k (fun p => (x p - y p) * H p j))).
  Proof.
    intros HG. pose proof (normal_eq HG) as Hn. unfold row_loss.
    assert (Horth : rsum n (fun j => w j * (v j - rsum k (fun p => x p * H p j)) * rsum k (fun p => (x p - y p) * H p j)) = 0).
    { transitivity (rsum n (fun j => rsum k (fun p => (x p - y p) * (H p j * (w j * v j) - H p j * w j * rsum k (fun q => x q * H q j))))).
      - apply rsum_ext. intros j Hj. rewrite <- rsum_scal_l. apply rsum_ext. intros; ring.
      - rewrite rsum_swap. rewrite (rsum_ext k _ (fun _ => 0)); [apply rsum_0|].
        intros p Hp. rewrite rsum_scal_l, rsum_minus. fold (b p).
        replace (rsum n (fun i => H p i * w i * rsum k (fun q => x q * H q i))) with (rsum k (fun q => x q * A q p)).
        + rewrite Hn by assumption. ring.
        + unfold A. transitivity (rsum k (fun q => rsum n (fun j => H p j * w j * (x q * H q j)))).
          * apply rsum_ext. intros q Hq. rewrite <- rsum_scal_l. apply rsum_ext. intros; ring.
          * rewrite rsum_swap. apply rsum_ext. intros j Hj. rewrite rsum_scal_l. reflexivity. }
    transitivity (rsum n (fun j => w j * ((v j - rsum k (fun p => x p * H p j)) * (v j - rsum k (fun p => x p * H p j))))
      + 2 * rsum n (fun j => w j * (v j - rsum k (fun p => x p * H p j)) * rsum k (fun p => (x p - y p) * H p j))
      + rsum n (fun j => w j * (rsum k (fun p => (x p - y p) * H p j) * rsum k (fun p => (x p - y p) * H p j)))).
    - rewrite <- rsum_scal_l, <- !rsum_plus. apply rsum_ext. intros j Hj.
      replace (rsum k (fun p => y p * H p j)) with
        (rsum k (fun p => x p * H p j) - rsum k (fun p => (x p - y p) * H p j)).
      + ring.
      + rewrite <- rsum_minus. apply rsum_ext. intros; ring.
    - rewrite Horth. ring.
  Qed.
End Row.

Lemma ws_w_optimal solve m n k V We H W :
  mall m n (fun x => 0 <= x) We ->
  (forall i, (i < m)%nat -> ginverse k (ws_wd n We H i) (solve k (ws_wd n We H i))) ->
  wloss m n k V We W H
  = wloss m n k V We (ws_w_step solve n k V We H) H
    + msum m n (fun i j => We i j *
        (rsum k (fun p => (ws_w_step solve n k V We H i p - W i p) * H p j) *
         rsum k (fun p => (ws_w_step solve n k V We H i p - W i p) * H p j))).
Proof.
  intros He HG. unfold wloss, msum. rewrite <- rsum_plus. apply rsum_ext. intros i Hi.
  exact (row_optimal n k (We i) (V i) H (solve k (ws_wd n We H i)) (fun j Hj => He i j Hi Hj) (W i) (HG i Hi)).
Qed.

Lemma ws_w_min solve m n k V We H W :
  mall m n (fun x => 0 <= x) We ->
  (forall i, (i < m)%nat -> ginverse k (ws_wd n We H i) (solve k (ws_wd n We H i))) ->
  wloss m n k V We (ws_w_step solve n k V We H) H <= wloss m n k V We W H.
Proof.
  intros He HG. rewrite (ws_w_optimal solve m n k V We H W He HG).
  assert (0 <= msum m n (fun i j => We i j *
        (rsum k (fun p => (ws_w_step solve n k V We H i p - W i p) * H p j) *
         rsum k (fun p => (ws_w_step solve n k V We H i p - W i p) * H p j)))); [|lra].
  apply msum_nonneg. intros i j Hi Hj. apply Rmult_le_pos; [apply He; assumption|apply Rle_0_sqr].
Qed.

(** A genuine inverse is in particular a generalised one. *)
Lemma inverse_ginverse k A G :
  (forall a c, (a < k)%nat -> (c < k)%nat -> mmul k A G a c = if Nat.eqb a c then 1 else 0) ->
  ginverse k A G.
Proof.
  intros HI a c Ha Hc. unfold mmul at 1. rewrite (rsum_single k _ a Ha).
  - rewrite HI by assumption. rewrite Nat.eqb_refl. ring.
  - intros p Hp Hne. rewrite HI by assumption. destruct (Nat.eqb_spec a p); [congruence|ring].
Qed.

(** ** Profile step *)

Lemma sqrt_ok_true x y : sqrt_ok x y = true <-> y <> 0 /\ 0 <= x / y.
Proof.
  unfold sqrt_ok. rewrite andb_true_iff, nzb_true. destruct (Rle_dec 0 (x / y)); split; intros [A B]; split; auto;
    try discriminate; try contradiction.
Qed.

Lemma ws_h_step_inv m n k V We W H H' :
  ws_h_step m n k V We W H = Some H' ->
  (forall a j, (a < k)%nat -> (j < n)%nat ->
     ws_d m k V We W H a j <> 0 /\ 0 <= ws_n m k V We W H a j / ws_d m k V We W H a j) /\
  H' = (fun a j => H a j * sqrt (ws_n m k V We W H a j / ws_d m k V We W H a j)).
Proof.
  unfold ws_h_step. destruct (forallb _ _) eqn:E; [|discriminate]. intros [= <-]. split; [|reflexivity].
  intros a j Ha Hj. rewrite forallb_forall in E. specialize (E a). rewrite in_seq in E.
  specialize (E ltac:(lia)). rewrite forallb_forall in E. specialize (E j). rewrite in_seq in E.
  apply sqrt_ok_true. apply E. lia.
Qed.

Lemma neg_part_nonneg W i a : 0 <= neg_part W i a.
Proof. unfold neg_part. pose proof (Rle_abs (W i a)). lra. Qed.

Lemma pos_part_nonneg W i a : 0 <= pos_part W i a.
Proof. unfold pos_part. pose proof (Rle_abs (- W i a)). rewrite Rabs_Ropp in H. lra. Qed.

Lemma ws_lin_nonneg m n V We Wx a j :
  mall m n (fun x => 0 <= x) V -> mall m n (fun x => 0 <= x) We ->
  (forall i a, 0 <= Wx i a) -> (j < n)%nat -> 0 <= ws_lin m V We Wx a j.
Proof.
  intros HV He HW Hj. apply rsum_nonneg. intros i Hi. unfold wev.
  apply Rmult_le_pos; [|apply HW]. apply Rmult_le_pos; [apply He|apply HV]; assumption.
Qed.

Lemma ws_quad_nonneg m n k We Wx H a j :
  mall m n (fun x => 0 <= x) We -> mall k n (fun x => 0 <= x) H ->
  (forall i a, 0 <= Wx i a) -> (j < n)%nat -> 0 <= ws_quad m k We Wx H a j.
Proof.
  intros He HH HW Hj. apply rsum_nonneg. intros b Hb. apply Rmult_le_pos; [apply HH; assumption|].
  apply rsum_nonneg. intros i Hi.
  apply Rmult_le_pos; [|apply HW]. apply Rmult_le_pos; [apply HW|apply He; assumption].
Qed.

Lemma ws_h_step_defined m n k V We W H :
  mall m n (fun x => 0 <= x) V -> mall m n (fun x => 0 <= x) We -> mall k n (fun x => 0 <= x) H ->
  exists H', ws_h_step m n k V We W H = Some H' /\
    mall k n (fun x => 0 <= x) H' /\
    (forall a j, (a < k)%nat -> (j < n)%nat -> (0 < H a j <-> 0 < H' a j)).
Proof.
  intros HV He HH. pose proof EPS_pos as Hp.
  assert (Hn : forall a j, (j < n)%nat -> 0 < ws_n m k V We W H a j).
  { intros a j Hj. unfold ws_n.
    pose proof (ws_lin_nonneg m n V We (pos_part W) a j HV He (pos_part_nonneg W) Hj).
    pose proof (ws_quad_nonneg m n k We (neg_part W) H a j He HH (neg_part_nonneg W) Hj). lra. }
  assert (Hd : forall a j, (j < n)%nat -> 0 < ws_d m k V We W H a j).
  { intros a j Hj. unfold ws_d.
    pose proof (ws_lin_nonneg m n V We (neg_part W) a j HV He (neg_part_nonneg W) Hj).
    pose proof (ws_quad_nonneg m n k We (pos_part W) H a j He HH (pos_part_nonneg W) Hj). lra. }
  exists (fun a j => H a j * sqrt (ws_n m k V We W H a j / ws_d m k V We W H a j)).
  split; [|split].
  - unfold ws_h_step. replace (forallb _ _) with true; [reflexivity|].
    symmetry. apply forallb_forall. intros a Ha. apply forallb_forall. intros j Hj.
    apply in_seq in Hj. apply sqrt_ok_true. specialize (Hn a j ltac:(lia)). specialize (Hd a j ltac:(lia)).
    split; [lra|]. apply Rlt_le. apply Rdiv_lt_0_compat; assumption.
  - intros a j Ha Hj. apply Rmult_le_pos; [apply HH; assumption|apply sqrt_pos].
  - intros a j Ha Hj.
    assert (Hs : 0 < sqrt (ws_n m k V We W H a j / ws_d m k V We W H a j)).
    { apply sqrt_lt_R0. apply Rdiv_lt_0_compat; [apply Hn|apply Hd]; assumption. }
    split; intros Hx; [apply Rmult_lt_0_compat; assumption|].
    specialize (HH a j Ha Hj). cbv beta in HH. nra.
Qed.

(** Iterated: defined forever. *)
Lemma ws_iter_defined solve m n k V We hold N : forall i0 W H,
  mall m n (fun x => 0 <= x) V -> mall m n (fun x => 0 <= x) We -> mall k n (fun x => 0 < x) H ->
  exists W' H', ws_iter solve m n k V We hold i0 N (W, H) = Some (W', H') /\
    mall k n (fun x => 0 < x) H'.
Proof.
  induction N as [|N IH]; intros i0 W H HV He HH; cbn [ws_iter].
  - exists W, H. auto.
  - unfold ws_update. destruct (hold i0); [apply IH; assumption|].
    destruct (ws_h_step_defined m n k V We (ws_w_step solve n k V We H) H HV He
                (pos_nonneg _ _ _ HH)) as (H' & E & _ & Hp).
    rewrite E. apply IH; try assumption. intros a j Ha Hj. apply Hp; auto.
Qed.

Lemma ws_iter_hold solve m n k V We hold N : forall i0 W H W' H',
  (forall i, (i0 <= i < i0 + N)%nat -> hold i = true) ->
  ws_iter solve m n k V We hold i0 N (W, H) = Some (W', H') -> H' = H.
Proof.
  induction N as [|N IH]; intros i0 W H W' H' Hh Hs; cbn [ws_iter] in Hs.
  - congruence.
  - unfold ws_update in Hs. rewrite (Hh i0) in Hs by lia.
    eapply IH; [|exact Hs]. intros; apply Hh; lia.
Qed.

(** ** With non-negative contributions the profile step does not raise the loss *)

Lemma mult_gen m k (w v : nat -> R) (P : nat -> nat -> R) (t : nat -> R) :
  (forall i, (i < m)%nat -> 0 <= w i) ->
  (forall i a, (i < m)%nat -> (a < k)%nat -> 0 <= P i a) ->
  rsum m (fun i => w i * ((v i - rsum k (fun a => P i a * (1 + t a)))
                          * (v i - rsum k (fun a => P i a * (1 + t a)))))
  <= rsum m (fun i => w i * ((v i - rsum k (P i)) * (v i - rsum k (P i))))
     + rsum k (fun a => t a * t a * rsum m (fun i => w i * P i a * rsum k (P i))
         - 2 * t a * (rsum m (fun i => w i * P i a * v i) - rsum m (fun i => w i * P i a * rsum k (P i)))).
Proof.
  intros Hw HP.
  set (wh := fun i => rsum k (P i)). set (s := fun i => rsum k (fun a => P i a * t a)).
  assert (Enew : forall i, rsum k (fun a => P i a * (1 + t a)) = wh i + s i).
  { intros i. unfold wh, s. rewrite <- rsum_plus. apply rsum_ext. intros; ring. }
  assert (E1 : rsum m (fun i => w i * ((v i - rsum k (fun a => P i a * (1 + t a)))
                          * (v i - rsum k (fun a => P i a * (1 + t a)))))
     = rsum m (fun i => w i * ((v i - wh i) * (v i - wh i)))
       - 2 * rsum m (fun i => w i * (v i - wh i) * s i)
       + rsum m (fun i => w i * (s i * s i))).
  { rewrite <- rsum_scal_l, <- rsum_minus, <- rsum_plus. apply rsum_ext. intros i Hi.
    rewrite Enew. ring. }
  assert (E2 : rsum m (fun i => w i * (v i - wh i) * s i)
     = rsum k (fun a => t a * (rsum m (fun i => w i * P i a * v i) - rsum m (fun i => w i * P i a * wh i)))).
  { transitivity (rsum m (fun i => rsum k (fun a => t a * (w i * P i a * v i - w i * P i a * wh i)))).
    - apply rsum_ext. intros i Hi. unfold s. rewrite <- rsum_scal_l. apply rsum_ext. intros a Ha. ring.
    - rewrite rsum_swap. apply rsum_ext. intros a Ha. rewrite rsum_scal_l, rsum_minus. reflexivity. }
  assert (E3 : rsum m (fun i => w i * (s i * s i))
     <= rsum k (fun a => t a * t a * rsum m (fun i => w i * P i a * wh i))).
  { apply Rle_trans with (rsum m (fun i => w i * (wh i * rsum k (fun a => P i a * (t a * t a))))).
    - apply rsum_le. intros i Hi. apply Rmult_le_compat_l; [apply Hw; assumption|].
      apply jensen. intros a Ha. apply HP; assumption.
    - apply Req_le. transitivity (rsum m (fun i => rsum k (fun a => t a * t a * (w i * P i a * wh i)))).
      + apply rsum_ext. intros i Hi. rewrite <- !rsum_scal_l. apply rsum_ext. intros a Ha. ring.
      + rewrite rsum_swap. apply rsum_ext. intros a Ha. rewrite rsum_scal_l. reflexivity. }
  rewrite rsum_minus.
  replace (rsum k (fun i => 2 * t i * (rsum m (fun i0 => w i0 * P i0 i * v i0) - rsum m (fun i0 => w i0 * P i0 i * rsum k (P i0)))))
    with (2 * rsum m (fun i => w i * (v i - wh i) * s i)).
  - unfold wh in *. cbv beta in E1, E3. rewrite E1. lra.
  - rewrite E2, <- rsum_scal_l. apply rsum_ext. intros a Ha. unfold wh. ring.
Qed.

(** The scalar fact: the damped factor never overshoots. *)
Lemma damped b c e s :
  0 <= c -> 0 < e -> 0 <= s -> s * s * (c + e) = b + e ->
  (s - 1) * (s - 1) * c - 2 * (s - 1) * (b - c) <= 0.
Proof.
  intros Hc He Hs E.
  replace b with (s * s * (c + e) - e) by lra.
  replace ((s - 1) * (s - 1) * c - 2 * (s - 1) * (s * s * (c + e) - e - c))
    with (- ((s - 1) * (s - 1) * (c * (1 + 2 * s) + 2 * e * (1 + s)))) by ring.
  assert (0 <= (s - 1) * (s - 1) * (c * (1 + 2 * s) + 2 * e * (1 + s))); [|lra].
  apply Rmult_le_pos; [apply Rle_0_sqr|].
  apply Rplus_le_le_0_compat; apply Rmult_le_pos; lra.
Qed.

Lemma pos_part_id m k W : mall m k (fun x => 0 <= x) W -> forall i a, (i < m)%nat -> (a < k)%nat ->
  pos_part W i a = W i a /\ neg_part W i a = 0.
Proof.
  intros HW i a Hi Ha. unfold pos_part, neg_part. rewrite Rabs_pos_eq by (apply HW; assumption). split; field.
Qed.

Lemma ws_h_step_loss m n k V We W H H' :
  mall m n (fun x => 0 <= x) We -> mall m k (fun x => 0 <= x) W -> mall k n (fun x => 0 <= x) H ->
  ws_h_step m n k V We W H = Some H' ->
  wloss m n k V We W H' <= wloss m n k V We W H.
Proof.
  intros He HW HH Hs. apply ws_h_step_inv in Hs. destruct Hs as [Hok ->].
  unfold wloss, msum.
  rewrite (rsum_swap m n (fun i j => We i j * ((V i j - mmul k W H i j) * (V i j - mmul k W H i j)))).
  rewrite rsum_swap. apply rsum_le. intros j Hj.
  set (s := fun a => sqrt (ws_n m k V We W H a j / ws_d m k V We W H a j)).
  set (P := fun i a => W i a * H a j).
  pose proof (mult_gen m k (fun i => We i j) (fun i => V i j) P (fun a => s a - 1)
    (fun i Hi => He i j Hi Hj)
    (fun i a Hi Ha => Rmult_le_pos _ _ (HW i a Hi Ha) (HH a j Ha Hj))) as Hm. cbv beta in Hm.
  eapply Rle_trans; [|eapply Rle_trans; [exact Hm|]].
  - apply Req_le. apply rsum_ext. intros i Hi.
    replace (mmul k W (fun a j0 => H a j0 * sqrt (ws_n m k V We W H a j0 / ws_d m k V We W H a j0)) i j)
      with (rsum k (fun a => P i a * (1 + (s a - 1)))); [reflexivity|].
    unfold mmul. apply rsum_ext. intros a Ha. unfold P, s. ring.
  - match goal with |- ?x + ?y <= ?z => assert (Hy : y <= 0) end.
    + rewrite <- (rsum_0 k). apply rsum_le. intros a Ha.
      set (c := rsum m (fun i => We i j * W i a * rsum k (P i))).
      set (b := rsum m (fun i => We i j * W i a * V i j)).
      replace (rsum m (fun i => We i j * P i a * rsum k (P i))) with (H a j * c)
        by (unfold c, P; rewrite <- rsum_scal_l; apply rsum_ext; intros; ring).
      replace (rsum m (fun i => We i j * P i a * V i j)) with (H a j * b)
        by (unfold b, P; rewrite <- rsum_scal_l; apply rsum_ext; intros; ring).
      replace ((s a - 1) * (s a - 1) * (H a j * c) - 2 * (s a - 1) * (H a j * b - H a j * c))
        with (H a j * ((s a - 1) * (s a - 1) * c - 2 * (s a - 1) * (b - c))) by ring.
      assert (Hd : (s a - 1) * (s a - 1) * c - 2 * (s a - 1) * (b - c) <= 0).
      { apply (damped b c EPS (s a)).
        - unfold c. apply rsum_nonneg. intros i Hi. apply Rmult_le_pos.
          + apply Rmult_le_pos; [apply He|apply HW]; assumption.
          + apply rsum_nonneg. intros p Hp. unfold P. apply Rmult_le_pos; [apply HW|apply HH]; assumption.
        - apply EPS_pos.
        - apply sqrt_pos.
        - destruct (Hok a j Ha Hj) as [Hd0 Hq].
          assert (Ec : ws_d m k V We W H a j = c + EPS).
          { unfold ws_d. f_equal.
            assert (E0 : ws_lin m V We (neg_part W) a j = 0).
            { unfold ws_lin. rewrite (rsum_ext m _ (fun _ => 0)); [apply rsum_0|].
              intros i Hi. destruct (pos_part_id m k W HW i a Hi Ha) as [_ ->]. ring. }
            rewrite E0, Rplus_0_l. unfold ws_quad, c, P.
            transitivity (rsum k (fun p => rsum m (fun i => We i j * W i a * (W i p * H p j)))).
            - apply rsum_ext. intros p Hp. rewrite <- rsum_scal_l. apply rsum_ext. intros i Hi.
              destruct (pos_part_id m k W HW i a Hi Ha) as [-> _].
              destruct (pos_part_id m k W HW i p Hi Hp) as [-> _]. ring.
            - rewrite rsum_swap. apply rsum_ext. intros i Hi. rewrite rsum_scal_l. reflexivity. }
          assert (Eb : ws_n m k V We W H a j = b + EPS).
          { unfold ws_n. f_equal.
            assert (E0 : ws_quad m k We (neg_part W) H a j = 0).
            { unfold ws_quad. rewrite (rsum_ext k _ (fun _ => 0)); [apply rsum_0|].
              intros p Hp. rewrite (rsum_ext m _ (fun _ => 0)); [rewrite rsum_0; ring|].
              intros i Hi. destruct (pos_part_id m k W HW i a Hi Ha) as [_ ->]. ring. }
            rewrite E0, Rplus_0_r. unfold ws_lin, b. apply rsum_ext. intros i Hi.
            destruct (pos_part_id m k W HW i a Hi Ha) as [-> _]. unfold wev. ring. }
          unfold s. rewrite sqrt_sqrt by exact Hq. rewrite Ec in *. rewrite Eb. field. exact Hd0. }
      assert (Hh : 0 <= H a j) by (apply HH; assumption). nra.
    + eapply Rle_trans; [apply Rplus_le_compat_l; exact Hy|]. rewrite Rplus_0_r. apply Req_le.
      apply rsum_ext. intros i Hi. reflexivity.
Qed.

Lemma ws_update_loss solve m n k V We hold W H W' H' :
  mall m n (fun x => 0 <= x) We -> mall k n (fun x => 0 <= x) H ->
  (forall i, (i < m)%nat -> ginverse k (ws_wd n We H i) (solve k (ws_wd n We H i))) ->
  ws_update solve m n k V We hold (W, H) = Some (W', H') ->
  (hold = true \/ mall m k (fun x => 0 <= x) W') ->
  wloss m n k V We W' H' <= wloss m n k V We W H.
Proof.
  intros He HH HG Hs Hc. unfold ws_update in Hs.
  pose proof (ws_w_min solve m n k V We H W He HG) as Hw.
  destruct hold.
  - injection Hs as <- <-. exact Hw.
  - destruct (ws_h_step m n k V We _ H) as [H1|] eqn:E; [|discriminate]. injection Hs as <- <-.
    destruct Hc as [Hc|Hc]; [discriminate|].
    pose proof (ws_h_step_loss m n k V We _ H H1 He Hc HH E). lra.
Qed.

(** ** Counterexamples *)

Lemma EPS_lt_1 : EPS < 1.
Proof.
  unfold EPS. replace 1 with (/ 1) by field. apply Rinv_lt_contravar.
  - rewrite Rmult_1_l. apply pow_lt. lra.
  - apply Rlt_pow_R1; [lra|lia].
Qed.

(** Negative data, one cell. *)
Lemma ws_negative_nan (solve : nat -> mat -> mat) :
  (forall A, A 0%nat 0%nat <> 0 -> solve 1%nat A 0%nat 0%nat = / A 0%nat 0%nat) ->
  ws_update solve 1 1 1 (fun _ _ => -1) (fun _ _ => 1) false (fun _ _ => 1, fun _ _ => 1) = None.
Proof.
  intros Hs.
  assert (HW : ws_w_step solve 1 1 (fun _ _ => -1) (fun _ _ => 1) (fun _ _ => 1) 0%nat 0%nat = -1).
  { unfold ws_w_step. cbn [rsum]. rewrite Hs.
    - unfold ws_wn, ws_wd, wev. cbn [rsum]. field.
    - unfold ws_wd. cbn [rsum]. lra. }
  unfold ws_update, ws_h_step.
  set (W' := ws_w_step solve 1 1 _ _ _) in *.
  assert (Hp : pos_part W' 0%nat 0%nat = 0) by (unfold pos_part; rewrite HW, Rabs_left by lra; lra).
  assert (Hn : neg_part W' 0%nat 0%nat = 1) by (unfold neg_part; rewrite HW, Rabs_left by lra; lra).
  cbn [seq forallb]. unfold ws_n, ws_d, ws_lin, ws_quad, wev. cbn [rsum]. rewrite Hp, Hn.
  assert (HE : 0 < EPS < 1).
  { split; [apply EPS_pos|apply EPS_lt_1]. }
  replace (sqrt_ok _ _) with false; [reflexivity|].
  symmetry. apply not_true_is_false. rewrite sqrt_ok_true. intros [_ Hq].
  match type of Hq with 0 <= ?x / ?y => assert (Hx : 0 < x) by lra; assert (Hy : y < 0) by lra end.
  match type of Hq with 0 <= ?x / ?y =>
    assert (x / y < 0) by (unfold Rdiv; pose proof (Rinv_lt_0_compat y Hy); nra) end. lra.
Qed.

(** Non-negative data reproduced exactly, mixed-sign contributions: one
    iteration turns a zero loss into a positive one. *)
Definition wit_H : mat := fun a j =>
  match a, j with O, O => 2 | _, _ => 1 end.
Definition wit_V : mat := fun i j => if Nat.eqb i j then 1 else 0.
Definition wit_W : mat := fun i a =>
  match i, a with O, O => 1 | S O, S O => 2 | _, _ => -1 end.
Definition One : mat := fun _ _ => 1.
(** inverse of [H H^T = [[5,3],[3,2]]] *)
Definition wit_G : mat := fun a b =>
  match a, b with O, O => 2 | S O, S O => 5 | _, _ => -3 end.

Lemma wit_ginv i : ginverse 2 (ws_wd 2 One wit_H i) wit_G.
Proof.
  intros a c Ha Hc. unfold mmul, ws_wd, One, wit_H, wit_G. cbn [rsum].
  destruct a as [|[|a]]; destruct c as [|[|c]]; try lia; cbn; lra.
Qed.

Lemma wit_W_step solve : (forall A, meq 2 2 A (ws_wd 2 One wit_H 0) -> meq 2 2 (solve 2%nat A) wit_G) ->
  meq 2 2 (ws_w_step solve 2 2 wit_V One wit_H) wit_W.
Proof.
  intros Hs i b Hi Hb. unfold ws_w_step. cbn [rsum].
  assert (HA : meq 2 2 (ws_wd 2 One wit_H i) (ws_wd 2 One wit_H 0)) by (intros x y _ _; reflexivity).
  rewrite (Hs _ HA 0%nat b) by lia. rewrite (Hs _ HA 1%nat b) by lia.
  unfold ws_wn, wev, One, wit_H, wit_V, wit_W, wit_G. cbn [rsum].
  destruct i as [|[|i]]; destruct b as [|[|b]]; try lia; cbn; lra.
Qed.

Lemma wit_breaks solve :
  (forall A, meq 2 2 A (ws_wd 2 One wit_H 0) -> meq 2 2 (solve 2%nat A) wit_G) ->
  wloss 2 2 2 wit_V One wit_W wit_H = 0 /\
  exists W' H', ws_update solve 2 2 2 wit_V One false (wit_W, wit_H) = Some (W', H') /\
    meq 2 2 W' wit_W /\ 0 < wloss 2 2 2 wit_V One W' H'.
Proof.
  intros Hs. split.
  { unfold wloss, msum, mmul, wit_V, One, wit_W, wit_H. cbn. lra. }
  pose proof (wit_W_step solve Hs) as HW.
  destruct (ws_h_step_defined 2 2 2 wit_V One (ws_w_step solve 2 2 wit_V One wit_H) wit_H) as (H' & E & _ & _).
  - intros i j _ _. unfold wit_V. destruct (Nat.eqb i j); lra.
  - intros i j _ _. unfold One. lra.
  - intros a j _ _. unfold wit_H. destruct a, j; lra.
  - exists (ws_w_step solve 2 2 wit_V One wit_H), H'. split; [|split; [exact HW|]].
    + unfold ws_update. rewrite E. reflexivity.
    + apply ws_h_step_inv in E. destruct E as [_ ->].
      set (W' := ws_w_step solve 2 2 wit_V One wit_H) in *.
      set (H' := fun a j => _).
      (* cell (0,0): reconstruction 1*h00' - 1*h10' where h00'^2 > 4, h10'^2 < 1 *)
      assert (Habs : forall i a, (i < 2)%nat -> (a < 2)%nat -> W' i a = wit_W i a) by exact HW.
      assert (W00 : W' 0%nat 0%nat = 1) by (rewrite Habs by lia; reflexivity).
      assert (W01 : W' 0%nat 1%nat = -1) by (rewrite Habs by lia; reflexivity).
      assert (W10 : W' 1%nat 0%nat = -1) by (rewrite Habs by lia; reflexivity).
      assert (W11 : W' 1%nat 1%nat = 2) by (rewrite Habs by lia; reflexivity).
      assert (P00 : pos_part W' 0%nat 0%nat = 1) by (unfold pos_part; rewrite W00, Rabs_pos_eq by lra; lra).
      assert (P01 : pos_part W' 0%nat 1%nat = 0) by (unfold pos_part; rewrite W01, Rabs_left by lra; lra).
      assert (P10 : pos_part W' 1%nat 0%nat = 0) by (unfold pos_part; rewrite W10, Rabs_left by lra; lra).
      assert (P11 : pos_part W' 1%nat 1%nat = 2) by (unfold pos_part; rewrite W11, Rabs_pos_eq by lra; lra).
      assert (N00 : neg_part W' 0%nat 0%nat = 0) by (unfold neg_part; rewrite W00, Rabs_pos_eq by lra; lra).
      assert (N01 : neg_part W' 0%nat 1%nat = 1) by (unfold neg_part; rewrite W01, Rabs_left by lra; lra).
      assert (N10 : neg_part W' 1%nat 0%nat = 1) by (unfold neg_part; rewrite W10, Rabs_left by lra; lra).
      assert (N11 : neg_part W' 1%nat 1%nat = 0) by (unfold neg_part; rewrite W11, Rabs_pos_eq by lra; lra).
      pose proof EPS_pos as HE.
      pose proof EPS_lt_1 as HE1.
      assert (A0 : 2 < H' 0%nat 0%nat).
      { unfold H', ws_n, ws_d, ws_lin, ws_quad, wev, One, wit_V. cbn [rsum Nat.eqb wit_H].
        rewrite P00, P10, N00, N10, P01, P11, N01, N11.
        match goal with |- 2 < 2 * sqrt ?z => assert (Hz : 1 < z) end.
        { match goal with |- _ < ?x / ?y => apply (Rmult_lt_reg_r y); [lra|];
            replace (x / y * y) with x by (field; lra) end. lra. }
        pose proof (sqrt_lt_1_alt 1 _ (conj (Rlt_le _ _ Rlt_0_1) Hz)) as Hs1. rewrite sqrt_1 in Hs1. lra. }
      assert (A1 : H' 1%nat 0%nat <= 1).
      { unfold H', ws_n, ws_d, ws_lin, ws_quad, wev, One, wit_V. cbn [rsum Nat.eqb wit_H].
        rewrite P00, P10, N00, N10, P01, P11, N01, N11.
        match goal with |- 1 * sqrt ?z <= 1 => assert (Hz : z <= 1) end.
        { match goal with |- ?x / ?y <= 1 => apply (Rmult_le_reg_r y); [lra|];
            replace (x / y * y) with x by (field; lra) end. lra. }
        rewrite Rmult_1_l. apply Rle_trans with (sqrt 1); [apply sqrt_le_1_alt; exact Hz|rewrite sqrt_1; lra]. }
      (* residual at (0,0) is 1 - (h00' - h10') < 0 *)
      unfold wloss, msum. cbn [rsum].
      assert (R00 : 0 < One 0%nat 0%nat * ((wit_V 0%nat 0%nat - mmul 2 W' H' 0%nat 0%nat) * (wit_V 0%nat 0%nat - mmul 2 W' H' 0%nat 0%nat))).
      { unfold mmul. cbn [rsum]. rewrite W00, W01. unfold One, wit_V. cbn [Nat.eqb]. nra. }
      assert (Hsq : forall i j, 0 <= One i j * ((wit_V i j - mmul 2 W' H' i j) * (wit_V i j - mmul 2 W' H' i j))).
      { intros i j. unfold One. rewrite Rmult_1_l. apply Rle_0_sqr. }
      pose proof (Hsq 0%nat 1%nat). pose proof (Hsq 1%nat 0%nat). pose proof (Hsq 1%nat 1%nat). lra.
Qed.
