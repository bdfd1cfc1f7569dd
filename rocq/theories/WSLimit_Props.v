(** C141: what WS-NMF training approaches when it is never stopped. *)
From Coq Require Import Reals Lra Lia List Bool ZArith Arith Psatz.
From Verif Require Import Base Fl Metrics_Model Metrics_Spec Metrics_Proofs LSNMF_Model LSNMF_Proofs
  LSLimit_Props NearOpt_Props Forever_Props WSNMF_Model WSNMF_Proofs WSNMF_Props.
Import ListNotations.
Open Scope R_scope.

(** ** Limits of the quantities of one iteration *)
Lemma cv_neg m k A L : tends m k A L -> tends m k (fun t => neg_part (A t)) (neg_part L).
Proof.
  intros C i a Hi Ha. unfold neg_part, Rdiv. apply CV_mult; [|apply cv_const].
  apply CV_minus; [apply cv_cvabs|]; apply C; assumption.
Qed.
Lemma cv_pos m k A L : tends m k A L -> tends m k (fun t => pos_part (A t)) (pos_part L).
Proof.
  intros C i a Hi Ha. unfold pos_part, Rdiv. apply CV_mult; [|apply cv_const].
  apply CV_plus; [apply cv_cvabs|]; apply C; assumption.
Qed.
Lemma cv_lin m n k V We A L : tends m k A L -> forall a j, (a < k)%nat -> (j < n)%nat ->
  Un_cv (fun t => ws_lin m V We (A t) a j) (ws_lin m V We L a j).
Proof.
  intros C a j Ha Hj. unfold ws_lin. apply (cv_sum m (fun t i => wev V We i j * A t i a)). intros i Hi.
  apply CV_mult; [apply cv_const|apply C; assumption].
Qed.
Lemma cv_quad m n k We A B LA LB : tends m k A LA -> tends k n B LB -> forall a j, (a < k)%nat -> (j < n)%nat ->
  Un_cv (fun t => ws_quad m k We (A t) (B t) a j) (ws_quad m k We LA LB a j).
Proof.
  intros CA CB a j Ha Hj. unfold ws_quad.
  apply (cv_sum k (fun t b => B t b j * rsum m (fun i => A t i b * We i j * A t i a))). intros b Hb.
  apply CV_mult; [apply CB; assumption|]. apply (cv_sum m (fun t i => A t i b * We i j * A t i a)). intros i Hi.
  apply CV_mult; [|apply CA; assumption]. apply CV_mult; [apply CA; assumption|apply cv_const].
Qed.
Lemma cv_wn m n k V We B LB : tends k n B LB -> forall i a, (i < m)%nat -> (a < k)%nat ->
  Un_cv (fun t => ws_wn n V We (B t) i a) (ws_wn n V We LB i a).
Proof.
  intros CB i a Hi Ha. unfold ws_wn. apply (cv_sum n (fun t j => B t a j * wev V We i j)). intros j Hj.
  apply CV_mult; [apply CB; assumption|apply cv_const].
Qed.
Lemma cv_wd n k We B LB : tends k n B LB -> forall i a c, (a < k)%nat -> (c < k)%nat ->
  Un_cv (fun t => ws_wd n We (B t) i a c) (ws_wd n We LB i a c).
Proof.
  intros CB i a c Ha Hc. unfold ws_wd. apply (cv_sum n (fun t j => B t a j * (We i j * B t c j))). intros j Hj.
  apply CV_mult; [apply CB; assumption|]. apply CV_mult; [apply cv_const|apply CB; assumption].
Qed.

(** An entry that is multiplied by num/den over and over; no sign is needed. *)
Lemma entry_comp (x num den : nat -> R) (b : nat -> bool) (xl nl dl : R) :
  (forall t, b t = false -> x (S t) * den t = x t * num t) ->
  (forall T, exists t, (T <= t)%nat /\ b t = false) -> Un_cv x xl -> Un_cv num nl -> Un_cv den dl ->
  xl * (nl - dl) = 0.
Proof.
  intros Hm Hb Cx Cn Cd.
  assert (C : Un_cv (fun t => x (S t) * den t - x t * num t) (xl * dl - xl * nl)) by (apply CV_minus; apply CV_mult; try assumption; apply cv_S, Cx).
  destruct (Req_dec (xl * dl - xl * nl) 0) as [E|E]; [lra|]. exfalso.
  destruct (C (Rabs (xl * dl - xl * nl))) as [T HT]; [apply Rabs_pos_lt, E|]. destruct (Hb T) as (t & Ht & Hbt). specialize (HT t Ht). specialize (Hm t Hbt).
  unfold R_dist in HT. replace (x (S t) * den t - x t * num t - (xl * dl - xl * nl)) with (- (xl * dl - xl * nl)) in HT by lra. rewrite Rabs_Ropp in HT. lra.
Qed.

(** ** The key identity *)
Lemma parts W i a : pos_part W i a = neg_part W i a + W i a.
Proof. unfold pos_part, neg_part. field. Qed.

Lemma rsum_mm k f g : rsum k (fun a => f a - g a) = rsum k f - rsum k g.
Proof. apply rsum_minus. Qed.

Lemma row_identity k (N W b : nat -> R) (A : mat) :
  (forall a c, (a < k)%nat -> (c < k)%nat -> A a c = A c a) ->
  (forall c, (c < k)%nat -> rsum k (fun p => W p * A p c) = b c) ->
  rsum k (fun a => W a * b a) - rsum k (fun a => (N a + W a) * rsum k (fun p => (N p + W p) * A p a))
    + rsum k (fun a => N a * rsum k (fun p => N p * A p a))
  = - 2 * rsum k (fun a => N a * b a).
Proof.
  intros Sy Nq.
  assert (E1 : rsum k (fun a => W a * rsum k (fun p => N p * A p a)) = rsum k (fun a => N a * b a)).
  { transitivity (rsum k (fun a => rsum k (fun p => N p * (W a * A a p)))).
    - apply rsum_ext. intros a Ha. rewrite <- rsum_scal_l. apply rsum_ext. intros p Hp. rewrite (Sy p a Hp Ha). ring.
    - rewrite rsum_swap. apply rsum_ext. intros p Hp. rewrite rsum_scal_l, Nq by exact Hp. reflexivity. }
  assert (E2 : rsum k (fun a => (N a + W a) * rsum k (fun p => (N p + W p) * A p a))
     = rsum k (fun a => N a * rsum k (fun p => N p * A p a)) + rsum k (fun a => N a * b a)
       + rsum k (fun a => W a * rsum k (fun p => N p * A p a)) + rsum k (fun a => W a * b a)).
  { rewrite <- !rsum_plus. apply rsum_ext. intros a Ha.
    replace (rsum k (fun p => (N p + W p) * A p a)) with (rsum k (fun p => N p * A p a) + b a); [ring|].
    rewrite <- (Nq a Ha), <- rsum_plus. apply rsum_ext. intros. ring. }
  rewrite E2, E1. ring.
Qed.

Lemma lin_sum m n k V We Wx H :
  msum k n (fun a j => H a j * ws_lin m V We Wx a j) = rsum m (fun i => rsum k (fun a => Wx i a * ws_wn n V We H i a)).
Proof.
  unfold msum, ws_lin, ws_wn.
  transitivity (rsum k (fun a => rsum m (fun i => Wx i a * rsum n (fun j => H a j * wev V We i j)))).
  - apply rsum_ext. intros a Ha.
    transitivity (rsum n (fun j => rsum m (fun i => Wx i a * (H a j * wev V We i j)))).
    + apply rsum_ext. intros j Hj. rewrite <- rsum_scal_l. apply rsum_ext. intros. ring.
    + rewrite rsum_swap. apply rsum_ext. intros i Hi. rewrite rsum_scal_l. reflexivity.
  - apply rsum_swap.
Qed.

Lemma quad_sum m n k We Wx H :
  msum k n (fun a j => H a j * ws_quad m k We Wx H a j)
  = rsum m (fun i => rsum k (fun a => Wx i a * rsum k (fun p => Wx i p * ws_wd n We H i p a))).
Proof.
  unfold msum, ws_quad, ws_wd.
  transitivity (rsum k (fun a => rsum m (fun i => Wx i a * rsum k (fun p => Wx i p * rsum n (fun j => H p j * (We i j * H a j)))))).
  - apply rsum_ext. intros a Ha.
    transitivity (rsum n (fun j => rsum m (fun i => rsum k (fun p => Wx i a * (Wx i p * (H p j * (We i j * H a j))))))).
    + apply rsum_ext. intros j Hj. rewrite <- rsum_scal_l.
      transitivity (rsum k (fun p => rsum m (fun i => Wx i a * (Wx i p * (H p j * (We i j * H a j)))))).
      * apply rsum_ext. intros p Hp. rewrite <- Rmult_assoc, <- rsum_scal_l. apply rsum_ext. intros. ring.
      * apply rsum_swap.
    + rewrite rsum_swap. apply rsum_ext. intros i Hi. rewrite rsum_swap, <- rsum_scal_l. apply rsum_ext. intros p Hp.
      rewrite <- !rsum_scal_l. reflexivity.
  - apply rsum_swap.
Qed.

(** With contributions that solve the normal equations, the total pull of the update
    is minus twice what the negative contributions weigh. *)
Lemma pull m n k V We W H :
  (forall i c, (i < m)%nat -> (c < k)%nat -> rsum k (fun p => W i p * ws_wd n We H i p c) = ws_wn n V We H i c) ->
  msum k n (fun a j => H a j * (ws_n m k V We W H a j - ws_d m k V We W H a j))
  = - 2 * rsum m (fun i => rsum k (fun a => neg_part W i a * ws_wn n V We H i a)).
Proof.
  intros Nq.
  transitivity (msum k n (fun a j => H a j * ws_lin m V We (pos_part W) a j) - msum k n (fun a j => H a j * ws_lin m V We (neg_part W) a j)
    - msum k n (fun a j => H a j * ws_quad m k We (pos_part W) H a j) + msum k n (fun a j => H a j * ws_quad m k We (neg_part W) H a j)).
  - unfold msum. rewrite <- !rsum_minus, <- rsum_plus. apply rsum_ext. intros a Ha. rewrite <- !rsum_minus, <- rsum_plus. apply rsum_ext. intros j Hj.
    unfold ws_n, ws_d. ring.
  - rewrite !lin_sum, !quad_sum, <- rsum_scal_l, <- !rsum_minus, <- rsum_plus. apply rsum_ext. intros i Hi.
    rewrite <- (row_identity k (neg_part W i) (W i) (ws_wn n V We H i) (ws_wd n We H i)).
    + f_equal. f_equal.
      * rewrite <- rsum_minus. apply rsum_ext. intros a Ha. rewrite parts. ring.
      * apply rsum_ext. intros a Ha. rewrite parts. f_equal. apply rsum_ext. intros p Hp. rewrite parts. reflexivity.
    + intros a c Ha Hc. unfold ws_wd. apply rsum_ext. intros. ring.
    + intros c Hc. apply Nq; assumption.
Qed.

(** ** Iterates *)
Lemma ws_iter_add solve m n k V We b N : forall M i0 st,
  ws_iter solve m n k V We b i0 (N + M) st = match ws_iter solve m n k V We b i0 N st with
    | Some st' => ws_iter solve m n k V We b (i0 + N) M st' | None => None end.
Proof.
  induction N as [|N IH]; intros M i0 st; cbn [ws_iter Nat.add]; [rewrite Nat.add_0_r; reflexivity|].
  destruct (ws_update _ _ _ _ _ _ _ _); [|reflexivity]. rewrite IH. replace (i0 + S N)%nat with (S i0 + N)%nat by lia. reflexivity.
Qed.

Lemma ws_next solve m n k V We b W H (Wt Ht : nat -> mat) :
  (forall t, ws_iter solve m n k V We b 0 t (W, H) = Some (Wt t, Ht t)) ->
  forall t, Wt (S t) = ws_w_step solve n k V We (Ht t) /\
    if b t then Ht (S t) = Ht t else ws_h_step m n k V We (Wt (S t)) (Ht t) = Some (Ht (S t)).
Proof.
  intros It t. pose proof (It (S t)) as E. replace (S t) with (t + 1)%nat in E at 1 by lia.
  rewrite ws_iter_add, It in E. cbn [ws_iter Nat.add] in E. unfold ws_update in E. destruct (b t).
  - injection E as E1 E2. split; congruence.
  - destruct (ws_h_step m n k V We (ws_w_step solve n k V We (Ht t)) (Ht t)) as [H1|] eqn:Eh; [|discriminate].
    injection E as E1 E2. subst H1. rewrite <- E1. split; [reflexivity|]. exact Eh.
Qed.

Lemma ws_nonneg solve m n k V We b W H (Wt Ht : nat -> mat) :
  mall m n (fun x => 0 <= x) V -> mall m n (fun x => 0 <= x) We -> mall k n (fun x => 0 <= x) H ->
  (forall t, ws_iter solve m n k V We b 0 t (W, H) = Some (Wt t, Ht t)) ->
  forall t, mall k n (fun x => 0 <= x) (Ht t) /\ (forall a j, (a < k)%nat -> (j < n)%nat -> 0 < H a j -> 0 < Ht t a j).
Proof.
  intros HV He HH It t. induction t as [|t [IH1 IH2]].
  - specialize (It 0%nat). cbn [ws_iter] in It. injection It as E1 E2. rewrite <- E2. split; [exact HH|auto].
  - destruct (ws_next _ _ _ _ _ _ _ _ _ _ _ It t) as [_ Eh]. destruct (b t); [rewrite Eh; split; assumption|].
    destruct (ws_h_step_defined m n k V We (Wt (S t)) (Ht t) HV He IH1) as (H' & E & P1 & P2).
    rewrite E in Eh. injection Eh as <-. split; [exact P1|]. intros a j Ha Hj Hp. apply P2; auto.
Qed.

Lemma cv_unique_ext f g l l' : (forall t, f t = g t) -> Un_cv f l -> Un_cv g l' -> l = l'.
Proof. intros E C C'. apply (UL_sequence f); [exact C|]. apply Un_cv_ext with g; [intros; symmetry; apply E|exact C']. Qed.

Lemma h_parts m k V We W H a j : mall m k (fun x => 0 <= x) W -> (a < k)%nat ->
  ws_n m k V We W H a j - ws_d m k V We W H a j = h_num m V We W a j - h_den m k We W H a j.
Proof.
  intros HW Ha. unfold ws_n, ws_d.
  assert (E1 : ws_lin m V We (neg_part W) a j = 0).
  { unfold ws_lin. apply rsum_zero. intros i Hi. destruct (pos_part_id m k W HW i a Hi Ha) as [_ ->]. ring. }
  assert (E2 : ws_quad m k We (neg_part W) H a j = 0).
  { unfold ws_quad. apply rsum_zero. intros p Hp. rewrite rsum_zero; [ring|]. intros i Hi. destruct (pos_part_id m k W HW i a Hi Ha) as [_ ->]. ring. }
  assert (E3 : ws_lin m V We (pos_part W) a j = h_num m V We W a j).
  { unfold ws_lin, h_num. apply rsum_ext. intros i Hi. destruct (pos_part_id m k W HW i a Hi Ha) as [-> _]. ring. }
  assert (E4 : ws_quad m k We (pos_part W) H a j = h_den m k We W H a j).
  { unfold ws_quad, h_den, mmul.
    transitivity (rsum k (fun p => rsum m (fun i => W i a * We i j * (W i p * H p j)))).
    - apply rsum_ext. intros p Hp. rewrite <- rsum_scal_l. apply rsum_ext. intros i Hi.
      destruct (pos_part_id m k W HW i a Hi Ha) as [-> _]. destruct (pos_part_id m k W HW i p Hi Hp) as [-> _]. ring.
    - rewrite rsum_swap. apply rsum_ext. intros i Hi. rewrite rsum_scal_l. ring. }
  rewrite E1, E2, E3, E4. ring.
Qed.

(** ** C141 *)
Section Limit.
  Context (solve : nat -> mat -> mat) (m n k : nat) (V U : mat) (b : nat -> bool) (W H : mat) (Wt Ht : nat -> mat) (Wl Hl : mat).
  Context (HV : mall m n (fun x => 0 <= x) V) (HU : mall m n (fun u => u <> 0) U) (HH : mall k n (fun x => 0 <= x) H).
  Context (HG : forall t i, (i < m)%nat -> ginverse k (ws_wd n (weights U) (Ht t) i) (solve k (ws_wd n (weights U) (Ht t) i))).
  Context (It : forall t, ws_iter solve m n k V (weights U) b 0 t (W, H) = Some (Wt t, Ht t)).
  Context (CW : tends m k Wt Wl) (CH : tends k n Ht Hl).

  Let We := weights U.
  Let He : mall m n (fun x => 0 < x) We := weights_pos m n U HU.
  Let He0 : mall m n (fun x => 0 <= x) We := pos_nonneg _ _ _ He.
  Let CW1 : tends m k (fun t => Wt (S t)) Wl.
  Proof. intros i a Hi Ha. apply (cv_S (fun t => Wt t i a)), CW; assumption. Qed.

  Lemma lim_best_W W2 : wloss m n k V We Wl Hl <= wloss m n k V We W2 Hl.
  Proof.
    pose proof (cv_wloss m n k V We _ _ _ _ CW1 CH) as C1.
    assert (C2 : tends m k (fun _ : nat => W2) W2) by (intros i a _ _; apply cv_const).
    pose proof (cv_wloss m n k V We _ _ _ _ C2 CH) as C3.
    refine (@Rle_cv_lim _ _ _ _ _ C1 C3). intros t. cbv beta.
    destruct (ws_next _ _ _ _ _ _ _ _ _ _ _ It t) as [-> _]. apply ws_w_min; [exact He0|]. intros i Hi. apply HG, Hi.
  Qed.

  Lemma lim_normal i c : (i < m)%nat -> (c < k)%nat -> rsum k (fun p => Wl i p * ws_wd n We Hl i p c) = ws_wn n V We Hl i c.
  Proof.
    intros Hi Hc. refine (cv_unique_ext (fun t => rsum k (fun p => Wt (S t) i p * ws_wd n We (Ht t) i p c)) (fun t => ws_wn n V We (Ht t) i c) _ _ _ _ _).
    - intros t. destruct (ws_next _ _ _ _ _ _ _ _ _ _ _ It t) as [-> _].
      exact (normal_eq n k (We i) (V i) (Ht t) (solve k (ws_wd n We (Ht t) i)) (fun j Hj => He0 i j Hi Hj) (HG t i Hi) c Hc).
    - apply (cv_sum k (fun t p => Wt (S t) i p * ws_wd n We (Ht t) i p c)). intros p Hp. apply CV_mult; [apply CW1; assumption|apply (cv_wd n k We Ht Hl CH); assumption].
    - apply (cv_wn m n k V We Ht Hl CH); assumption.
  Qed.

  Lemma lim_n a j : (a < k)%nat -> (j < n)%nat -> Un_cv (fun t => ws_n m k V We (Wt (S t)) (Ht t) a j) (ws_n m k V We Wl Hl a j).
  Proof.
    intros Ha Hj. unfold ws_n. apply CV_plus; [|apply cv_const]. apply CV_plus.
    - apply (cv_lin m n k V We _ _ (cv_pos _ _ _ _ CW1)); assumption.
    - apply (cv_quad m n k We _ Ht _ Hl (cv_neg _ _ _ _ CW1) CH); assumption.
  Qed.
  Lemma lim_d a j : (a < k)%nat -> (j < n)%nat -> Un_cv (fun t => ws_d m k V We (Wt (S t)) (Ht t) a j) (ws_d m k V We Wl Hl a j).
  Proof.
    intros Ha Hj. unfold ws_d. apply CV_plus; [|apply cv_const]. apply CV_plus.
    - apply (cv_lin m n k V We _ _ (cv_neg _ _ _ _ CW1)); assumption.
    - apply (cv_quad m n k We _ Ht _ Hl (cv_pos _ _ _ _ CW1) CH); assumption.
  Qed.

  Lemma step_sq t a j : (a < k)%nat -> (j < n)%nat -> b t = false ->
    0 < ws_d m k V We (Wt (S t)) (Ht t) a j /\
    (Ht (S t) a j * Ht (S t) a j) * ws_d m k V We (Wt (S t)) (Ht t) a j = (Ht t a j * Ht t a j) * ws_n m k V We (Wt (S t)) (Ht t) a j.
  Proof.
    intros Ha Hj Hb. destruct (ws_next _ _ _ _ _ _ _ _ _ _ _ It t) as [_ Eh]. rewrite Hb in Eh. fold We in Eh.
    apply ws_h_step_inv in Eh. destruct Eh as [Ok EH]. destruct (Ok a j Ha Hj) as [Dn Q]. split.
    - pose proof EPS_pos. destruct (ws_nonneg _ _ _ _ _ _ _ _ _ _ _ HV He0 HH It t) as [P _]. unfold ws_d.
      pose proof (ws_lin_nonneg m n V We (neg_part (Wt (S t))) a j HV He0 (neg_part_nonneg _) Hj).
      pose proof (ws_quad_nonneg m n k We (pos_part (Wt (S t))) (Ht t) a j He0 P (pos_part_nonneg _) Hj). lra.
    - rewrite EH. cbv beta. set (N := ws_n m k V We (Wt (S t)) (Ht t) a j) in *. set (D := ws_d m k V We (Wt (S t)) (Ht t) a j) in *.
      replace (Ht t a j * sqrt (N / D) * (Ht t a j * sqrt (N / D)) * D) with (Ht t a j * Ht t a j * (sqrt (N / D) * sqrt (N / D)) * D) by ring.
      rewrite sqrt_sqrt by exact Q. field. exact Dn.
  Qed.

  Context (Hb : forall T, exists t, (T <= t)%nat /\ b t = false).

  Lemma lim_comp a j : (a < k)%nat -> (j < n)%nat -> Hl a j * (ws_n m k V We Wl Hl a j - ws_d m k V We Wl Hl a j) = 0.
  Proof.
    intros Ha Hj.
    pose proof (entry_comp (fun t => Ht t a j * Ht t a j) _ _ b (Hl a j * Hl a j) _ _
      (fun t Et => proj2 (step_sq t a j Ha Hj Et)) Hb (CV_mult _ _ _ _ (CH a j Ha Hj) (CH a j Ha Hj)) (lim_n a j Ha Hj) (lim_d a j Ha Hj)) as E.
    destruct (Req_dec (Hl a j) 0) as [Z|Z]; [rewrite Z; ring|].
    apply (Rmult_eq_reg_l (Hl a j)); [|exact Z]. rewrite Rmult_0_r, <- Rmult_assoc. exact E.
  Qed.

  Lemma lim_nonneg : mall k n (fun x => 0 <= x) Hl.
  Proof.
    intros a j Ha Hj. refine (@Rle_cv_lim (fun _ => 0) (fun t => Ht t a j) 0 (Hl a j) _ (cv_const _) (CH a j Ha Hj)).
    intros t. apply (ws_nonneg _ _ _ _ _ _ _ _ _ _ _ HV He0 HH It t); assumption.
  Qed.

  Lemma lim_neg i a j : (i < m)%nat -> (a < k)%nat -> (j < n)%nat -> Wl i a < 0 -> V i j * Hl a j = 0.
  Proof.
    intros Hi Ha Hj Neg.
    assert (Z : rsum m (fun i => rsum k (fun a => neg_part Wl i a * ws_wn n V We Hl i a)) = 0).
    { pose proof (pull m n k V We Wl Hl lim_normal) as P.
      assert (Z0 : msum k n (fun a j => Hl a j * (ws_n m k V We Wl Hl a j - ws_d m k V We Wl Hl a j)) = 0); [|lra].
      unfold msum. apply rsum_zero. intros a0 Ha0. apply rsum_zero. intros j0 Hj0. apply lim_comp; assumption. }
    assert (Nn : forall i a, (i < m)%nat -> (a < k)%nat -> 0 <= neg_part Wl i a * ws_wn n V We Hl i a).
    { intros i0 a0 Hi0 Ha0. apply Rmult_le_pos; [apply neg_part_nonneg|]. apply rsum_nonneg. intros j0 Hj0. unfold wev.
      apply Rmult_le_pos; [apply lim_nonneg; assumption|]. apply Rmult_le_pos; [apply He0|apply HV]; assumption. }
    pose proof (rsum_nonneg_zero m _ (fun i0 Hi0 => rsum_nonneg k _ (fun a0 Ha0 => Nn i0 a0 Hi0 Ha0)) Z i Hi) as Z1. cbv beta in Z1.
    pose proof (rsum_nonneg_zero k _ (fun a0 Ha0 => Nn i a0 Hi Ha0) Z1 a Ha) as Z2. cbv beta in Z2.
    assert (Np : 0 < neg_part Wl i a) by (unfold neg_part; rewrite Rabs_left by exact Neg; lra).
    apply Rmult_integral in Z2. destruct Z2 as [Z2|Z2]; [lra|]. unfold ws_wn in Z2.
    assert (T : forall j0, (j0 < n)%nat -> 0 <= Hl a j0 * wev V We i j0).
    { intros j0 Hj0. unfold wev. apply Rmult_le_pos; [apply lim_nonneg; assumption|]. apply Rmult_le_pos; [apply He0|apply HV]; assumption. }
    pose proof (rsum_nonneg_zero n _ T Z2 j Hj) as Z3. cbv beta in Z3. unfold wev in Z3.
    pose proof (He i j Hi Hj) as Hq. cbv beta in Hq. apply (Rmult_eq_reg_l (We i j)); [lra|lra].
  Qed.

  Lemma lim_best_H : mall k n (fun x => 0 < x) H -> mall m k (fun x => 0 <= x) Wl ->
    forall H2, mall k n (fun x => 0 <= x) H2 -> wloss m n k V We Wl Hl <= wloss m n k V We Wl H2.
  Proof.
    intros Hp HW H2 HH2. apply best_H; [exact He0| |exact HH2]. intros a j Ha Hj.
    pose proof (h_parts m k V We Wl Hl a j HW Ha) as E. pose proof (lim_comp a j Ha Hj) as C. rewrite E in C. split; [|exact C].
    assert (L : ws_n m k V We Wl Hl a j <= ws_d m k V We Wl Hl a j); [|lra].
    refine (proj1 (entry_limit (fun t => Ht t a j * Ht t a j) _ _ b (Hl a j * Hl a j) _ _ _ (fun t Et => step_sq t a j Ha Hj Et) _ Hb
      (CV_mult _ _ _ _ (CH a j Ha Hj) (CH a j Ha Hj)) (lim_n a j Ha Hj) (lim_d a j Ha Hj))).
    - intros t. assert (0 < Ht t a j); [|apply Rmult_lt_0_compat; assumption].
      apply (ws_nonneg _ _ _ _ _ _ _ _ _ _ _ HV He0 HH It t); try assumption. apply Hp; assumption.
    - intros t Et. destruct (ws_next _ _ _ _ _ _ _ _ _ _ _ It t) as [_ Eh]. rewrite Et in Eh. rewrite Eh. reflexivity.
  Qed.
End Limit.

(** If the entries settle and the profiles are not held for good, then for non-negative
    data: no contributions of any sign fit the limit's profiles better; a contribution
    is negative in the limit only for samples without data where its profile is
    non-zero; and if no contribution of the limit is negative, no non-negative profiles
    fit the limit's contributions better.  Q(true) tends to that of the limit. *)
Theorem C141_limit : forall (solve : nat -> mat -> mat) (m n k : nat) (V U : mat) (b : nat -> bool) (W H : mat) (Wt Ht : nat -> mat) (Wl Hl : mat),
  mall m n (fun x => 0 <= x) V -> mall m n (fun u => u <> 0) U -> mall k n (fun x => 0 <= x) H ->
  (forall t i, (i < m)%nat -> ginverse k (ws_wd n (weights U) (Ht t) i) (solve k (ws_wd n (weights U) (Ht t) i))) ->
  (forall t, ws_iter solve m n k V (weights U) b 0 t (W, H) = Some (Wt t, Ht t)) ->
  tends m k Wt Wl -> tends k n Ht Hl ->
  (forall W2, q_loss m n k true V U Wl Hl <= q_loss m n k true V U W2 Hl) /\
  Un_cv (fun t => q_loss m n k true V U (Wt t) (Ht t)) (q_loss m n k true V U Wl Hl) /\
  ((forall T, exists t, (T <= t)%nat /\ b t = false) ->
   (forall i a, (i < m)%nat -> (a < k)%nat -> Wl i a < 0 -> forall j, (j < n)%nat -> V i j = 0 \/ Hl a j = 0) /\
   (mall k n (fun x => 0 < x) H -> mall m k (fun x => 0 <= x) Wl ->
    forall H2, mall k n (fun x => 0 <= x) H2 -> q_loss m n k true V U Wl Hl <= q_loss m n k true V U Wl H2)).
Proof.
  intros solve m n k V U b W H Wt Ht Wl Hl HV HU HH HG It CW CH. split; [|split; [|intros Hb; split]].
  - intros W2. rewrite !q_loss_wloss by exact HU. eapply lim_best_W; eassumption.
  - rewrite q_loss_wloss by exact HU. apply Un_cv_ext with (fun t => wloss m n k V (weights U) (Wt t) (Ht t)); [intros t; symmetry; apply q_loss_wloss, HU|]. apply cv_wloss; assumption.
  - intros i a Hi Ha Neg j Hj. apply Rmult_integral.
    exact (lim_neg solve m n k V U b W H Wt Ht Wl Hl HV HU HH HG It CW CH Hb i a j Hi Ha Hj Neg).
  - intros Hp HW H2 HH2. rewrite !q_loss_wloss by exact HU.
    exact (lim_best_H solve m n k V U b W H Wt Ht Wl Hl HV HU HH It CW CH Hb Hp HW H2 HH2).
Qed.
Print Assumptions C141_limit.

(** With data that are positive throughout, and no factor whose profile vanishes in the
    limit, every contribution of the limit is non-negative although no iteration keeps
    contributions from being negative; the limit is then best in each of its two parts. *)
Theorem C141_positive_data : forall (solve : nat -> mat -> mat) (m n k : nat) (V U : mat) (b : nat -> bool) (W H : mat) (Wt Ht : nat -> mat) (Wl Hl : mat),
  mall m n (fun x => 0 < x) V -> mall m n (fun u => u <> 0) U -> mall k n (fun x => 0 < x) H ->
  (forall t i, (i < m)%nat -> ginverse k (ws_wd n (weights U) (Ht t) i) (solve k (ws_wd n (weights U) (Ht t) i))) ->
  (forall t, ws_iter solve m n k V (weights U) b 0 t (W, H) = Some (Wt t, Ht t)) ->
  tends m k Wt Wl -> tends k n Ht Hl ->
  (forall T, exists t, (T <= t)%nat /\ b t = false) ->
  (forall a, (a < k)%nat -> exists j, (j < n)%nat /\ Hl a j <> 0) ->
  mall m k (fun x => 0 <= x) Wl /\ mall k n (fun x => 0 <= x) Hl /\
  (forall W2, q_loss m n k true V U Wl Hl <= q_loss m n k true V U W2 Hl) /\
  (forall H2, mall k n (fun x => 0 <= x) H2 -> q_loss m n k true V U Wl Hl <= q_loss m n k true V U Wl H2).
Proof.
  intros solve m n k V U b W H Wt Ht Wl Hl HV HU HH HG It CW CH Hb Hd.
  destruct (C141_limit solve m n k V U b W H Wt Ht Wl Hl (pos_nonneg _ _ _ HV) HU (pos_nonneg _ _ _ HH) HG It CW CH) as (A & _ & B).
  destruct (B Hb) as [B1 B2].
  assert (Wn : mall m k (fun x => 0 <= x) Wl).
  { intros i a Hi Ha. destruct (Rle_lt_dec 0 (Wl i a)) as [L|L]; [exact L|]. exfalso. destruct (Hd a Ha) as (j & Hj & Nz).
    destruct (B1 i a Hi Ha L j Hj) as [Z|Z]; [specialize (HV i j Hi Hj); cbv beta in HV; lra|contradiction]. }
  split; [exact Wn|]. split; [|split; [exact A|apply B2; assumption]].
  exact (lim_nonneg solve m n k V U b W H Wt Ht Hl (pos_nonneg _ _ _ HV) HU (pos_nonneg _ _ _ HH) It CH).
Qed.
Print Assumptions C141_positive_data.

(** ** States that stay as they are *)
Lemma ws_n_ext m k V We W W' H H' a j : meq m k W' W -> (forall b, (b < k)%nat -> H' b j = H b j) -> (a < k)%nat ->
  ws_n m k V We W' H' a j = ws_n m k V We W H a j.
Proof.
  intros EW EH Ha. unfold ws_n. f_equal. f_equal.
  - unfold ws_lin. apply rsum_ext. intros i Hi. unfold pos_part. rewrite EW by assumption. reflexivity.
  - unfold ws_quad. apply rsum_ext. intros p Hp. rewrite EH by assumption. f_equal. apply rsum_ext. intros i Hi.
    unfold neg_part. rewrite !EW by assumption. reflexivity.
Qed.
Lemma ws_d_ext m k V We W W' H H' a j : meq m k W' W -> (forall b, (b < k)%nat -> H' b j = H b j) -> (a < k)%nat ->
  ws_d m k V We W' H' a j = ws_d m k V We W H a j.
Proof.
  intros EW EH Ha. unfold ws_d. f_equal. f_equal.
  - unfold ws_lin. apply rsum_ext. intros i Hi. unfold neg_part. rewrite EW by assumption. reflexivity.
  - unfold ws_quad. apply rsum_ext. intros p Hp. rewrite EH by assumption. f_equal. apply rsum_ext. intros i Hi.
    unfold pos_part. rewrite !EW by assumption. reflexivity.
Qed.

Lemma stays solve m n k V We b W H :
  mall m n (fun x => 0 <= x) V -> mall m n (fun x => 0 <= x) We -> mall k n (fun x => 0 <= x) H ->
  (forall H', meq k n H' H -> meq m k (ws_w_step solve n k V We H') W) ->
  (forall a j, (a < k)%nat -> (j < n)%nat -> H a j = 0 \/ ws_n m k V We W H a j = ws_d m k V We W H a j) ->
  forall N i0 W' H', meq m k W' W -> meq k n H' H ->
  exists W1 H1, ws_iter solve m n k V We b i0 N (W', H') = Some (W1, H1) /\ meq m k W1 W /\ meq k n H1 H.
Proof.
  intros HV He HH Fw Fh. induction N as [|N IH]; intros i0 W' H' EW EH; cbn [ws_iter].
  - exists W', H'. auto.
  - unfold ws_update. destruct (b i0); [apply IH; [apply Fw|]; exact EH|].
    assert (HH' : mall k n (fun x => 0 <= x) H') by (intros a j Ha Hj; rewrite EH by assumption; apply HH; assumption).
    destruct (ws_h_step_defined m n k V We (ws_w_step solve n k V We H') H' HV He HH') as (H1 & E & _ & _). rewrite E.
    apply IH; [apply Fw, EH|]. apply ws_h_step_inv in E. destruct E as [Ok ->]. intros a j Ha Hj. cbv beta.
    assert (Ej : forall p, (p < k)%nat -> H' p j = H p j) by (intros p Hp; apply EH; assumption).
    pose proof (ws_n_ext m k V We W (ws_w_step solve n k V We H') H H' a j (Fw H' EH) Ej Ha) as En.
    pose proof (ws_d_ext m k V We W (ws_w_step solve n k V We H') H H' a j (Fw H' EH) Ej Ha) as Ed.
    destruct (Ok a j Ha Hj) as [Nd _]. rewrite En, Ed in *. rewrite EH by assumption.
    destruct (Fh a j Ha Hj) as [Z|Z]; [rewrite Z; ring|]. rewrite Z.
    unfold Rdiv. rewrite Rinv_r by exact Nd. rewrite sqrt_1. ring.
Qed.

(** The run from such a state as a pair of sequences. *)
Lemma stays_seq solve m n k V We b W H :
  mall m n (fun x => 0 <= x) V -> mall m n (fun x => 0 <= x) We -> mall k n (fun x => 0 <= x) H ->
  (forall H', meq k n H' H -> meq m k (ws_w_step solve n k V We H') W) ->
  (forall a j, (a < k)%nat -> (j < n)%nat -> H a j = 0 \/ ws_n m k V We W H a j = ws_d m k V We W H a j) ->
  exists Wt Ht, (forall t, ws_iter solve m n k V We b 0 t (W, H) = Some (Wt t, Ht t)) /\
    (forall t, meq m k (Wt t) W /\ meq k n (Ht t) H).
Proof.
  intros HV He HH Fw Fh.
  exists (fun t => match ws_iter solve m n k V We b 0 t (W, H) with Some p => fst p | None => W end).
  exists (fun t => match ws_iter solve m n k V We b 0 t (W, H) with Some p => snd p | None => H end).
  split; intros t; destruct (stays solve m n k V We b W H HV He HH Fw Fh t 0 W H (fun _ _ _ _ => eq_refl) (fun _ _ _ _ => eq_refl)) as (W1 & H1 & E & E1 & E2);
    rewrite E; cbn [fst snd]; [reflexivity|split; assumption].
Qed.

Lemma ones_weights : forall i j, weights One i j = 1.
Proof. intros i j. unfold weights, One. field. Qed.

(** ** Non-negative data are not enough *)
(** Three samples, three species, two profiles without a zero row. *)
Definition zd_V : mat := fun i j =>
  match i, j with O, 2%nat => 3 | 1%nat, O => 3 | 2%nat, O => 2 | 2%nat, 1%nat => 7 | 2%nat, 2%nat => 2 | _, _ => 0 end.
Definition zd_H : mat := fun a j =>
  match a, j with O, O => 1 | O, 1%nat => 1 | 1%nat, 1%nat => 1 | 1%nat, 2%nat => 1 | _, _ => 0 end.
Definition zd_W : mat := fun i a =>
  match i, a with O, O => -1 | O, _ => 2 | 1%nat, O => 2 | 1%nat, _ => -1 | _, _ => 3 end.
(** Better profiles for the same contributions. *)
Definition zd_H2 : mat := fun a j => match a, j with O, 1%nat => 11 / 10 | _, _ => zd_H a j end.

Ltac cases i Hi := destruct i as [|[|[|i]]]; try (exfalso; lia).

Lemma zd_step H' : meq 2 3 H' zd_H -> meq 3 2 (ws_w_step solve2 3 2 zd_V (weights One) H') zd_W.
Proof.
  intros E.
  assert (E00 : H' 0%nat 0%nat = 1) by (rewrite E by lia; reflexivity). assert (E01 : H' 0%nat 1%nat = 1) by (rewrite E by lia; reflexivity).
  assert (E02 : H' 0%nat 2%nat = 0) by (rewrite E by lia; reflexivity). assert (E10 : H' 1%nat 0%nat = 0) by (rewrite E by lia; reflexivity).
  assert (E11 : H' 1%nat 1%nat = 1) by (rewrite E by lia; reflexivity). assert (E12 : H' 1%nat 2%nat = 1) by (rewrite E by lia; reflexivity).
  intros i a Hi Ha. unfold ws_w_step, ws_wn, solve2, ws_wd, wev. cbn [rsum]. rewrite !ones_weights, E00, E01, E02, E10, E11, E12.
  cases i Hi; destruct a as [|[|a]]; try (exfalso; lia); unfold zd_V, zd_W; field.
Qed.

Lemma abs_m1 : Rabs (-1) = 1. Proof. rewrite Rabs_left; lra. Qed.
Lemma abs_2 : Rabs 2 = 2. Proof. apply Rabs_pos_eq; lra. Qed.
Lemma abs_3 : Rabs 3 = 3. Proof. apply Rabs_pos_eq; lra. Qed.

Lemma zd_fix a j : (a < 2)%nat -> (j < 3)%nat ->
  zd_H a j = 0 \/ ws_n 3 2 zd_V (weights One) zd_W zd_H a j = ws_d 3 2 zd_V (weights One) zd_W zd_H a j.
Proof.
  intros Ha Hj. destruct a as [|[|a]]; try (exfalso; lia); cases j Hj; try (left; reflexivity); right;
    unfold ws_n, ws_d, ws_lin, ws_quad, wev, pos_part, neg_part; cbn [rsum]; rewrite !ones_weights; unfold zd_V, zd_W, zd_H;
    rewrite ?abs_m1, ?abs_2, ?abs_3; field.
Qed.

(** Data with zeros: the iteration stays for ever at a state with negative
    contributions, whose profiles are not the best non-negative ones. *)
Theorem C141_zero_data_refuted :
  mall 3 3 (fun x => 0 <= x) zd_V /\ mall 3 3 (fun u => 0 < u) One /\ mall 2 3 (fun x => 0 <= x) zd_H /\ inverts 2 solve2 /\
  (forall a, (a < 2)%nat -> exists j, (j < 3)%nat /\ zd_H a j <> 0) /\
  (forall b N, exists W1 H1, ws_iter solve2 3 3 2 zd_V (weights One) b 0 N (zd_W, zd_H) = Some (W1, H1) /\ meq 3 2 W1 zd_W /\ meq 2 3 H1 zd_H) /\
  zd_W 0%nat 0%nat < 0 /\ zd_W 1%nat 1%nat < 0 /\
  mall 2 3 (fun x => 0 <= x) zd_H2 /\ q_loss 3 3 2 true zd_V One zd_W zd_H2 < q_loss 3 3 2 true zd_V One zd_W zd_H.
Proof.
  assert (HV : mall 3 3 (fun x => 0 <= x) zd_V) by (intros i j Hi Hj; cases i Hi; cases j Hj; cbn [zd_V]; lra).
  assert (HO : mall 3 3 (fun u => 0 < u) One) by (intros i j _ _; unfold One; lra).
  assert (HH : mall 2 3 (fun x => 0 <= x) zd_H) by (intros i j Hi Hj; destruct i as [|[|i]]; try (exfalso; lia); cases j Hj; cbn [zd_H]; lra).
  split; [exact HV|]. split; [exact HO|]. split; [exact HH|]. split; [exact solve2_inverts|]. split.
  { intros a Ha. exists 1%nat. split; [lia|]. destruct a as [|[|a]]; try (exfalso; lia); cbn [zd_H]; apply R1_neq_R0. }
  split.
  { intros b N. apply stays; auto; [intros i j _ _; rewrite ones_weights; lra|exact zd_step|exact zd_fix|intros ? ? _ _; reflexivity|intros ? ? _ _; reflexivity]. }
  split; [cbn [zd_W]; lra|]. split; [cbn [zd_W]; lra|]. split.
  { intros i j Hi Hj; destruct i as [|[|i]]; try (exfalso; lia); cases j Hj; cbn [zd_H2 zd_H]; lra. }
  assert (HU : mall 3 3 (fun u => u <> 0) One) by (intros i j _ _; unfold One; apply R1_neq_R0).
  rewrite !q_loss_wloss by exact HU. unfold wloss, msum, mmul. cbn [rsum]. rewrite !ones_weights. unfold zd_V, zd_W, zd_H2, zd_H. lra.
Qed.
Print Assumptions C141_zero_data_refuted.

(** ** On the way contributions may be negative *)
Theorem C141_on_the_way_refuted :
  exists (V U W H W1 H1 : mat), mall 1 2 (fun x => 0 < x) V /\ mall 1 2 (fun u => 0 < u) U /\ mall 2 2 (fun x => 0 < x) H /\ mall 1 2 (fun x => 0 < x) W /\
    ws_iter solve2 1 2 2 V (weights U) (fun _ => false) 0 1 (W, H) = Some (W1, H1) /\ W1 0%nat 1%nat < 0.
Proof.
  set (V := (fun _ j => match j with O => 3 | _ => 1 end) : mat).
  assert (HV : mall 1 2 (fun x => 0 < x) V) by (intros i j _ _; unfold V; destruct j; lra).
  assert (HH : mall 2 2 (fun x => 0 < x) wit_H) by (intros a j _ _; unfold wit_H; destruct a as [|[|a]]; destruct j as [|[|j]]; cbn; lra).
  assert (HO : mall 1 2 (fun x => 0 < x) One) by (intros i j _ _; unfold One; lra).
  destruct (ws_h_step_defined 1 2 2 V (weights One) (ws_w_step solve2 2 2 V (weights One) wit_H) wit_H) as (H1 & E & _).
  - apply pos_nonneg, HV.
  - intros i j _ _. rewrite ones_weights. lra.
  - apply pos_nonneg, HH.
  - exists V, One, One, wit_H, (ws_w_step solve2 2 2 V (weights One) wit_H), H1.
    split; [exact HV|]. split; [exact HO|]. split; [exact HH|]. split; [exact HO|].
    split; [cbn [ws_iter]; unfold ws_update; rewrite E; reflexivity|].
    assert (X : ws_w_step solve2 2 2 V (weights One) wit_H 0%nat 1%nat = -1); [|rewrite X; lra].
    unfold ws_w_step, ws_wn, solve2, ws_wd, wev. cbn [rsum]. rewrite !ones_weights. unfold V, wit_H. cbn. field.
Qed.
Print Assumptions C141_on_the_way_refuted.

(** ** Instance *)
(** Two samples, two species, one factor, data of rank two: the run from the profile
    (1,1) settles at contributions 3/2 with Q 1. *)
Definition one_solve : nat -> mat -> mat := fun _ A a b => / A a b.
Definition in_V : mat := fun i j => if Nat.eqb i j then 2 else 1.
Definition in_W : mat := fun _ _ => 3 / 2.

Example C141_instance :
  mall 2 2 (fun x => 0 < x) in_V /\ mall 2 2 (fun u => u <> 0) One /\ mall 1 2 (fun x => 0 < x) One /\
  exists Wt Ht,
    (forall t i, (i < 2)%nat -> ginverse 1 (ws_wd 2 (weights One) (Ht t) i) (one_solve 1 (ws_wd 2 (weights One) (Ht t) i))) /\
    (forall t, ws_iter one_solve 2 2 1 in_V (weights One) (fun _ => false) 0 t (in_W, One) = Some (Wt t, Ht t)) /\
    tends 2 1 Wt in_W /\ tends 1 2 Ht One /\
    (forall T, exists t, (T <= t)%nat /\ (fun _ : nat => false) t = false) /\
    (forall a, (a < 1)%nat -> exists j, (j < 2)%nat /\ One a j <> 0) /\
    q_loss 2 2 1 true in_V One in_W One = 1.
Proof.
  assert (HV : mall 2 2 (fun x => 0 < x) in_V) by (intros i j _ _; unfold in_V; destruct (Nat.eqb i j); lra).
  assert (HU : mall 2 2 (fun u => u <> 0) One) by (intros i j _ _; unfold One; apply R1_neq_R0).
  assert (HO : mall 1 2 (fun x => 0 < x) One) by (intros i j _ _; unfold One; lra).
  split; [exact HV|]. split; [exact HU|]. split; [exact HO|].
  destruct (stays_seq one_solve 2 2 1 in_V (weights One) (fun _ => false) in_W One) as (Wt & Ht & It & St).
  - apply pos_nonneg, HV.
  - intros i j _ _. rewrite ones_weights. lra.
  - apply pos_nonneg, HO.
  - intros H' E i a Hi Ha. assert (a = 0%nat) as -> by lia.
    assert (E0 : H' 0%nat 0%nat = 1) by (rewrite E by lia; reflexivity). assert (E1 : H' 0%nat 1%nat = 1) by (rewrite E by lia; reflexivity).
    unfold ws_w_step, ws_wn, one_solve, ws_wd, wev. cbn [rsum]. rewrite !ones_weights, E0, E1. unfold in_V, in_W.
    destruct i as [|[|i]]; try (exfalso; lia); cbn [Nat.eqb]; field.
  - intros a j Ha Hj. right. assert (a = 0%nat) as -> by lia.
    assert (A : Rabs (3 / 2) = 3 / 2) by (apply Rabs_pos_eq; lra).
    unfold ws_n, ws_d, ws_lin, ws_quad, wev, pos_part, neg_part, in_W. cbn [rsum]. rewrite !ones_weights, A. unfold in_V, One.
    destruct j as [|[|j]]; try (exfalso; lia); cbn [Nat.eqb]; field.
  - exists Wt, Ht. split; [|split; [exact It|split; [|split; [|split; [|split]]]]].
    + intros t i Hi a c Ha Hc. assert (a = 0%nat) as -> by lia. assert (c = 0%nat) as -> by lia.
      assert (X : ws_wd 2 (weights One) (Ht t) i 0%nat 0%nat = 2).
      { unfold ws_wd. cbn [rsum]. rewrite !ones_weights, !(proj2 (St t)) by lia. unfold One. ring. }
      unfold mmul, one_solve. cbn [rsum]. rewrite X. field.
    + intros i a Hi Ha. apply Un_cv_ext with (fun _ => in_W i a); [|apply cv_const]. intros t. symmetry. apply (St t); assumption.
    + intros a j Ha Hj. apply Un_cv_ext with (fun _ => One a j); [|apply cv_const]. intros t. symmetry. apply (St t); assumption.
    + intros T. exists T. split; [lia|reflexivity].
    + intros a Ha. exists 0%nat. split; [lia|]. unfold One. apply R1_neq_R0.
    + rewrite q_loss_wloss by exact HU. unfold wloss, msum, mmul. cbn [rsum]. rewrite !ones_weights. unfold in_V, in_W, One. cbn [Nat.eqb]. field.
Qed.
