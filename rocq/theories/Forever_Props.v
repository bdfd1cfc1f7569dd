(** C135: what LS-NMF training approaches when it is never stopped. *)
From Coq Require Import Reals Lra Lia List Bool ZArith Arith Psatz.
From Verif Require Import Base Fl Metrics_Model Metrics_Spec Metrics_Proofs LSNMF_Model LSNMF_Proofs
  LSLimit_Props NearOpt_Props.
Import ListNotations.
Open Scope R_scope.

(** ** Specification *)
(** Every entry of the matrices tends to that of [L]. *)
Definition tends (m n : nat) (A : nat -> mat) (L : mat) : Prop :=
  forall i j, (i < m)%nat -> (j < n)%nat -> Un_cv (fun t => A t i j) (L i j).

(** ** Limits of sums *)
Lemma cv_const c : Un_cv (fun _ => c) c.
Proof. intros e He. exists 0%nat. intros t _. unfold R_dist. rewrite Rminus_diag_eq, Rabs_R0 by reflexivity. exact He. Qed.
Lemma cv_sum k (f : nat -> nat -> R) (g : nat -> R) : (forall a, (a < k)%nat -> Un_cv (fun t => f t a) (g a)) -> Un_cv (fun t => rsum k (f t)) (rsum k g).
Proof.
  induction k as [|k IH]; intros Hf; cbn [rsum]; [apply cv_const|].
  apply CV_plus; [apply IH; intros a Ha; apply Hf; lia|apply Hf; lia].
Qed.
Lemma cv_S (f : nat -> R) l : Un_cv f l -> Un_cv (fun t => f (S t)) l.
Proof. intros Hf. apply Un_cv_ext with (fun t => f (t + 1)%nat); [intros t; f_equal; lia|]. apply (CV_shift' f 1), Hf. Qed.
Lemma cv_mmul m n k A B LA LB : tends m k A LA -> tends k n B LB -> forall i j, (i < m)%nat -> (j < n)%nat -> Un_cv (fun t => mmul k (A t) (B t) i j) (mmul k LA LB i j).
Proof. intros HA HB i j Hi Hj. unfold mmul. apply (cv_sum k (fun t a => A t i a * B t a j)). intros a Ha. apply CV_mult; [apply HA; assumption|apply HB; assumption]. Qed.
Lemma cv_w_num m n k V We B LB : tends k n B LB -> forall i a, (i < m)%nat -> (a < k)%nat -> Un_cv (fun t => w_num n V We (B t) i a) (w_num n V We LB i a).
Proof. intros HB i a Hi Ha. unfold w_num. apply (cv_sum n (fun t j => wev V We i j * B t a j)). intros j Hj. apply CV_mult; [apply cv_const|apply HB; assumption]. Qed.
Lemma cv_w_den m n k We A B LA LB : tends m k A LA -> tends k n B LB -> forall i a, (i < m)%nat -> (a < k)%nat -> Un_cv (fun t => w_den n k We (A t) (B t) i a) (w_den n k We LA LB i a).
Proof.
  intros HA HB i a Hi Ha. unfold w_den. apply (cv_sum n (fun t j => We i j * mmul k (A t) (B t) i j * B t a j)). intros j Hj.
  apply CV_mult; [apply CV_mult; [apply cv_const|apply (cv_mmul m n k A B LA LB HA HB); assumption]|apply HB; assumption].
Qed.
Lemma cv_h_num m n k V We A LA : tends m k A LA -> forall a j, (a < k)%nat -> (j < n)%nat -> Un_cv (fun t => h_num m V We (A t) a j) (h_num m V We LA a j).
Proof. intros HA a j Ha Hj. unfold h_num. apply (cv_sum m (fun t i => A t i a * wev V We i j)). intros i Hi. apply CV_mult; [apply HA; assumption|apply cv_const]. Qed.
Lemma cv_h_den m n k We A B LA LB : tends m k A LA -> tends k n B LB -> forall a j, (a < k)%nat -> (j < n)%nat -> Un_cv (fun t => h_den m k We (A t) (B t) a j) (h_den m k We LA LB a j).
Proof.
  intros HA HB a j Ha Hj. unfold h_den. apply (cv_sum m (fun t i => A t i a * (We i j * mmul k (A t) (B t) i j))). intros i Hi.
  apply CV_mult; [apply HA; assumption|]. apply CV_mult; [apply cv_const|apply (cv_mmul m n k A B LA LB HA HB); assumption].
Qed.
Lemma cv_wloss m n k V We A B LA LB : tends m k A LA -> tends k n B LB -> Un_cv (fun t => wloss m n k V We (A t) (B t)) (wloss m n k V We LA LB).
Proof.
  intros HA HB. unfold wloss, msum. apply (cv_sum m (fun t i => rsum n (fun j => We i j * ((V i j - mmul k (A t) (B t) i j) * (V i j - mmul k (A t) (B t) i j))))). intros i Hi.
  apply (cv_sum n (fun t j => We i j * ((V i j - mmul k (A t) (B t) i j) * (V i j - mmul k (A t) (B t) i j)))). intros j Hj.
  pose proof (cv_mmul m n k A B LA LB HA HB i j Hi Hj) as C. apply CV_mult; [apply cv_const|]. apply CV_mult; apply CV_minus; try apply cv_const; exact C.
Qed.

(** One entry that is multiplied by num/den over and over. *)
Lemma entry_limit (x num den : nat -> R) (b : nat -> bool) (xl nl dl : R) :
  (forall t, 0 < x t) -> (forall t, b t = false -> 0 < den t /\ x (S t) * den t = x t * num t) -> (forall t, b t = true -> x (S t) = x t) ->
  (forall T, exists t, (T <= t)%nat /\ b t = false) -> Un_cv x xl -> Un_cv num nl -> Un_cv den dl ->
  nl <= dl /\ xl * (nl - dl) = 0.
Proof.
  intros Hx Hm Hh Hb Cx Cn Cd.
  assert (E : xl * dl - xl * nl = 0).
  { assert (C : Un_cv (fun t => x (S t) * den t - x t * num t) (xl * dl - xl * nl)) by (apply CV_minus; apply CV_mult; try assumption; apply cv_S, Cx).
    destruct (Req_dec (xl * dl - xl * nl) 0) as [E|E]; [exact E|]. exfalso.
    destruct (C (Rabs (xl * dl - xl * nl))) as [T HT]; [apply Rabs_pos_lt, E|]. destruct (Hb T) as (t & Ht & Hbt). specialize (HT t Ht). destruct (Hm t Hbt) as [_ Et].
    unfold R_dist in HT. replace (x (S t) * den t - x t * num t - (xl * dl - xl * nl)) with (- (xl * dl - xl * nl)) in HT by lra. rewrite Rabs_Ropp in HT. lra. }
  split; [|lra]. destruct (Rle_lt_dec nl dl) as [|Lt]; [assumption|]. exfalso.
  assert (X0 : xl = 0) by (apply (Rmult_eq_reg_r (dl - nl)); lra).
  destruct (CV_minus _ _ _ _ Cn Cd (nl - dl)) as [T HT]; [lra|].
  assert (Mon : forall s, x T <= x (s + T)%nat).
  { induction s as [|s IH]; [cbn; lra|]. eapply Rle_trans; [exact IH|]. cbn [Nat.add]. specialize (HT (s + T)%nat ltac:(lia)). unfold R_dist in HT. apply Rabs_def2 in HT.
    destruct (b (s + T)%nat) eqn:Eb; [rewrite (Hh _ Eb); lra|]. destruct (Hm _ Eb) as [Dp Et]. specialize (Hx (s + T)%nat).
    apply (Rmult_le_reg_r (den (s + T)%nat)); [exact Dp|]. rewrite Et. apply Rmult_le_compat_l; lra. }
  pose proof (@Rle_cv_lim (fun _ => x T) (fun s => x (s + T)%nat) (x T) xl Mon (cv_const _) (CV_shift' x T xl Cx)). specialize (Hx T). lra.
Qed.

Lemma best_W m n k V We W H : mall m n (fun x => 0 <= x) We ->
  (forall i a, (i < m)%nat -> (a < k)%nat -> w_num n V We H i a <= w_den n k We W H i a /\ W i a * (w_num n V We H i a - w_den n k We W H i a) = 0) ->
  forall W2, mall m k (fun x => 0 <= x) W2 -> wloss m n k V We W H <= wloss m n k V We W2 H.
Proof.
  intros He K W2 HW2. rewrite (W_expand m n k V We W H W2). pose proof (wdist_nonneg m n k We W H W2 H He).
  assert (msum m k (fun i a => (W2 i a - W i a) * (w_num n V We H i a - w_den n k We W H i a)) <= 0); [|lra].
  unfold msum. rewrite <- (rsum_zero m (fun _ => 0)) by reflexivity. apply rsum_le. intros i Hi. rewrite <- (rsum_zero k (fun _ => 0)) by reflexivity. apply rsum_le. intros a Ha.
  destruct (K i a Hi Ha) as [K1 K2]. specialize (HW2 i a Hi Ha). cbv beta in HW2. rewrite Rmult_minus_distr_r, K2.
  assert (0 <= W2 i a * (w_den n k We W H i a - w_num n V We H i a)) by (apply Rmult_le_pos; lra). lra.
Qed.
Lemma best_H m n k V We W H : mall m n (fun x => 0 <= x) We ->
  (forall a j, (a < k)%nat -> (j < n)%nat -> h_num m V We W a j <= h_den m k We W H a j /\ H a j * (h_num m V We W a j - h_den m k We W H a j) = 0) ->
  forall H2, mall k n (fun x => 0 <= x) H2 -> wloss m n k V We W H <= wloss m n k V We W H2.
Proof.
  intros He K H2 HH2. rewrite (H_expand m n k V We W H H2). pose proof (wdist_nonneg m n k We W H W H2 He).
  assert (msum k n (fun a j => (H2 a j - H a j) * (h_num m V We W a j - h_den m k We W H a j)) <= 0); [|lra].
  unfold msum. rewrite <- (rsum_zero k (fun _ => 0)) by reflexivity. apply rsum_le. intros a Ha. rewrite <- (rsum_zero n (fun _ => 0)) by reflexivity. apply rsum_le. intros j Hj.
  destruct (K a j Ha Hj) as [K1 K2]. specialize (HH2 a j Ha Hj). cbv beta in HH2. rewrite Rmult_minus_distr_r, K2.
  assert (0 <= H2 a j * (h_den m k We W H a j - h_num m V We W a j)) by (apply Rmult_le_pos; lra). lra.
Qed.

Lemma iterates m n k V U b W H (Wt Ht : nat -> mat) :
  (0 < m)%nat -> (0 < n)%nat -> (0 < k)%nat ->
  mall m n (fun x => 0 <= x) V -> no_empty m n V -> mall m n (fun u => u <> 0) U ->
  mall m k (fun x => 0 < x) W -> mall k n (fun x => 0 < x) H ->
  (forall t, ls_iter m n k V (weights U) b 0 t (W, H) = Some (Wt t, Ht t)) ->
  forall t, mall m k (fun x => 0 < x) (Wt t) /\ mall k n (fun x => 0 < x) (Ht t) /\
    ls_update m n k V (weights U) (b t) (Wt t, Ht t) = Some (Wt (S t), Ht (S t)).
Proof.
  intros Hm Hn Hk HV Hne HU HW HH It t.
  destruct (ls_iter_pos m n k V (weights U) b t 0 W H Hm Hn Hk HV Hne (weights_pos m n U HU) HW HH) as (A & B & E & PA & PB).
  rewrite It in E. injection E as <- <-. split; [exact PA|]. split; [exact PB|].
  pose proof (It (S t)) as E2. replace (S t) with (t + 1)%nat in E2 at 1 by lia. rewrite ls_iter_add, It in E2. cbn [ls_iter Nat.add] in E2.
  destruct (ls_update m n k V (weights U) (b t) (Wt t, Ht t)); [exact E2|discriminate].
Qed.

(** ** C135 *)
(** If the entries settle, no non-negative contributions fit the limit's profiles
    better; and if profiles are not held for good, no non-negative profiles fit the
    limit's contributions better.  Q(true) of the limit is what the losses tend to, and
    none of them is below it. *)
Theorem C135_limit : forall (m n k : nat) (V U : mat) (b : nat -> bool) (W H : mat) (Wt Ht : nat -> mat) (Wl Hl : mat),
  (0 < m)%nat -> (0 < n)%nat -> (0 < k)%nat ->
  mall m n (fun x => 0 <= x) V -> no_empty m n V -> mall m n (fun u => u <> 0) U ->
  mall m k (fun x => 0 < x) W -> mall k n (fun x => 0 < x) H ->
  (forall t, ls_iter m n k V (weights U) b 0 t (W, H) = Some (Wt t, Ht t)) ->
  tends m k Wt Wl -> tends k n Ht Hl ->
  (forall W2, mall m k (fun x => 0 <= x) W2 -> q_loss m n k true V U Wl Hl <= q_loss m n k true V U W2 Hl) /\
  ((forall T, exists t, (T <= t)%nat /\ b t = false) ->
   forall H2, mall k n (fun x => 0 <= x) H2 -> q_loss m n k true V U Wl Hl <= q_loss m n k true V U Wl H2) /\
  Un_cv (fun t => q_loss m n k true V U (Wt t) (Ht t)) (q_loss m n k true V U Wl Hl) /\
  (forall t, q_loss m n k true V U Wl Hl <= q_loss m n k true V U (Wt t) (Ht t)).
Proof.
  intros m n k V U b W H Wt Ht Wl Hl Hm Hn Hk HV Hne HU HW HH It CW CH.
  pose proof (iterates m n k V U b W H Wt Ht Hm Hn Hk HV Hne HU HW HH It) as St.
  pose proof (pos_nonneg _ _ _ (weights_pos m n U HU)) as He. set (We := weights U) in *.
  assert (CH1 : tends k n (fun t => Ht (S t)) Hl) by (intros a j Ha Hj; apply (cv_S (fun t => Ht t a j)), CH; assumption).
  assert (CQ : Un_cv (fun t => q_loss m n k true V U (Wt t) (Ht t)) (q_loss m n k true V U Wl Hl)).
  { rewrite q_loss_wloss by exact HU. apply Un_cv_ext with (fun t => wloss m n k V (weights U) (Wt t) (Ht t)); [intros t; symmetry; apply q_loss_wloss, HU|]. apply cv_wloss; assumption. }
  assert (Up : forall t, exists W1 H1, Wt (S t) = W1 /\ Ht (S t) = H1 /\ (if b t then H1 = Ht t else h_step m n k V We (Wt t) (Ht t) = Some H1) /\ w_step m n k V We (Wt t) H1 = Some W1).
  { intros t. destruct (St t) as (_ & _ & E). apply ls_update_inv in E. destruct E as (H1 & W1 & [= E1 E2] & X & Y). exists W1, H1. repeat split; assumption. }
  split; [|split; [|split; [exact CQ|]]].
  - intros W2 HW2. rewrite !q_loss_wloss by exact HU. apply best_W; [exact He| |exact HW2]. intros i a Hi Ha.
    apply (entry_limit (fun t => Wt t i a) (fun t => w_num n V We (Ht (S t)) i a) (fun t => w_den n k We (Wt t) (Ht (S t)) i a) (fun _ => false)).
    + intros t. apply (proj1 (St t)); assumption.
    + intros t _. destruct (Up t) as (W1 & H1 & E1 & E2 & X & Y). destruct (w_step_inv _ _ _ _ _ _ _ _ Y) as [Hd EW]. rewrite E1, E2, EW. specialize (Hd i a Hi Ha). split.
      * destruct (Rle_lt_or_eq_dec 0 (w_den n k We (Wt t) H1 i a)) as [D|D]; [|exact D|congruence].
        rewrite <- E2. eapply (w_den_nonneg m n k); [exact He|apply pos_nonneg, (St t)|apply pos_nonneg, (St (S t))|exact Hi|exact Ha].
      * field. exact Hd.
    + discriminate.
    + intros T. exists T. split; [lia|reflexivity].
    + apply CW; assumption.
    + apply (cv_w_num m n k V We (fun t => Ht (S t)) Hl CH1); assumption.
    + apply (cv_w_den m n k We Wt (fun t => Ht (S t)) Wl Hl CW CH1); assumption.
  - intros Hb H2 HH2. rewrite !q_loss_wloss by exact HU. apply best_H; [exact He| |exact HH2]. intros a j Ha Hj.
    apply (entry_limit (fun t => Ht t a j) (fun t => h_num m V We (Wt t) a j) (fun t => h_den m k We (Wt t) (Ht t) a j) b).
    + intros t. apply (proj1 (proj2 (St t))); assumption.
    + intros t Et. destruct (Up t) as (W1 & H1 & E1 & E2 & X & Y). rewrite Et in X. destruct (h_step_inv _ _ _ _ _ _ _ _ X) as [Hd EH]. rewrite E2, EH. specialize (Hd a j Ha Hj). split.
      * destruct (Rle_lt_or_eq_dec 0 (h_den m k We (Wt t) (Ht t) a j)) as [D|D]; [|exact D|congruence].
        eapply (h_den_nonneg m n k); [exact He|apply pos_nonneg, (St t)|apply pos_nonneg, (St t)|exact Ha|exact Hj].
      * field. exact Hd.
    + intros t Et. destruct (Up t) as (W1 & H1 & E1 & E2 & X & Y). rewrite Et in X. rewrite E2, X. reflexivity.
    + exact Hb.
    + apply CH; assumption.
    + apply (cv_h_num m n k V We Wt Wl CW); assumption.
    + apply (cv_h_den m n k We Wt Ht Wl Hl CW CH); assumption.
  - intros t. refine (@Rle_cv_lim (fun s => q_loss m n k true V U (Wt (s + t)%nat) (Ht (s + t)%nat)) (fun _ => q_loss m n k true V U (Wt t) (Ht t)) _ _ _ (CV_shift' _ t _ CQ) (cv_const _)).
    intros s. induction s as [|s IH]; [cbn; lra|]. eapply Rle_trans; [|exact IH]. cbn [Nat.add]. destruct (St (s + t)%nat) as (A & B & E). unfold We in E.
    exact (ls_iter_q m n k V U b 1 (s + t) _ _ _ _ HV HU (pos_nonneg _ _ _ A) (pos_nonneg _ _ _ B) ltac:(cbn [ls_iter]; rewrite E; reflexivity)).
Qed.
Print Assumptions C135_limit.

(** ** States that are approached again and again *)
Lemma cv_inv (f : nat -> R) l : l <> 0 -> Un_cv f l -> Un_cv (fun t => / f t) (/ l).
Proof.
  intros Hl Cf. apply (continuity_seq (fun x => / x) f l); [|exact Cf].
  apply (continuity_pt_inv id l); [apply derivable_continuous_pt, derivable_pt_id|exact Hl].
Qed.
Lemma cv_sub (f : nat -> R) l (phi : nat -> nat) : (forall s, (s <= phi s)%nat) -> Un_cv f l -> Un_cv (fun s => f (phi s)) l.
Proof. intros Hp Cf e He. destruct (Cf e He) as [T HT]. exists T. intros s Hs. apply HT. specialize (Hp s). lia. Qed.
Lemma cv_fit2 m n k We A B LA LB : tends m k A LA -> tends k n B LB -> Un_cv (fun t => fit2 m n k We (A t) (B t)) (fit2 m n k We LA LB).
Proof.
  intros HA HB. unfold fit2, msum. apply (cv_sum m (fun t i => rsum n (fun j => We i j * (mmul k (A t) (B t) i j * mmul k (A t) (B t) i j)))). intros i Hi.
  apply (cv_sum n (fun t j => We i j * (mmul k (A t) (B t) i j * mmul k (A t) (B t) i j))). intros j Hj.
  pose proof (cv_mmul m n k A B LA LB HA HB i j Hi Hj) as C. apply CV_mult; [apply cv_const|]. apply CV_mult; exact C.
Qed.
Lemma fit2_nonneg m n k We W H : mall m n (fun x => 0 <= x) We -> 0 <= fit2 m n k We W H.
Proof. intros He. apply msum_nonneg. intros i j Hi Hj. apply Rmult_le_pos; [apply He; assumption|apply (Rle_0_sqr (mmul k W H i j))]. Qed.
Lemma entry_le_msum m n (f : mat) i j : mall m n (fun x => 0 <= x) f -> (i < m)%nat -> (j < n)%nat -> f i j <= msum m n f.
Proof.
  intros Hf Hi Hj. unfold msum. apply Rle_trans with (rsum n (f i)).
  - apply (rsum_ge_term n (f i) j); [intros j' Hj'; apply Hf; assumption|exact Hj].
  - apply (rsum_ge_term m (fun i => rsum n (f i)) i); [intros i' Hi'; apply rsum_nonneg; intros j' Hj'; apply Hf; assumption|exact Hi].
Qed.
Lemma square_small (x f d : R) : 0 <= x -> 0 <= f -> 0 <= d -> x <= sqrt f * sqrt d -> x * x <= f * d.
Proof.
  intros Hx Hf Hd L. replace (f * d) with ((sqrt f * sqrt d) * (sqrt f * sqrt d)); [apply Rmult_le_compat; assumption|].
  transitivity ((sqrt f * sqrt f) * (sqrt d * sqrt d)); [ring|]. rewrite !sqrt_sqrt by assumption. reflexivity.
Qed.
Lemma vanishes (x f d : nat -> R) (xl fl : R) : (forall s, x s * x s <= f s * d s) -> Un_cv x xl -> Un_cv f fl -> Un_cv d 0 -> xl = 0.
Proof.
  intros L Cx Cf Cd. pose proof (@Rle_cv_lim _ _ _ _ L (CV_mult _ _ _ _ Cx Cx) (CV_mult _ _ _ _ Cf Cd)) as E. rewrite Rmult_0_r in E.
  apply Rsqr_0_uniq. unfold Rsqr. pose proof (Rle_0_sqr xl) as P. unfold Rsqr in P. lra.
Qed.
Lemma slope_value m k (f f' : mat -> R) (A g s : mat) : (forall B, f B = f' B) -> gradient m k f A g -> gradient m k f' A (fun i a => - 2 * s i a) ->
  forall i a, (i < m)%nat -> (a < k)%nat -> g i a = - 2 * s i a.
Proof.
  intros E G1 G2 i a Hi Ha. specialize (G1 i a Hi Ha). specialize (G2 i a Hi Ha). eapply uniqueness_limite; [exact G1|].
  intros eps He. destruct (G2 eps He) as [dl Hd]. exists dl. intros h Hh Hl. rewrite !E. apply Hd; assumption.
Qed.

(** Whether or not the entries settle: at every state the run comes back to arbitrarily
    closely, every entry of the profiles is zero or has derivative zero, and, if every
    modelled concentration is positive there and every factor contributes somewhere, so
    has every contribution. *)
Theorem C135_accumulation : forall (m n k : nat) (V U : mat) (W H : mat) (Wt Ht : nat -> mat) (phi : nat -> nat) (Wa Ha gW gH : mat),
  (0 < m)%nat -> (0 < n)%nat -> (0 < k)%nat ->
  mall m n (fun x => 0 <= x) V -> no_empty m n V -> mall m n (fun u => u <> 0) U ->
  mall m k (fun x => 0 < x) W -> mall k n (fun x => 0 < x) H ->
  (forall t, ls_iter m n k V (weights U) (fun _ => false) 0 t (W, H) = Some (Wt t, Ht t)) ->
  (forall s, (s <= phi s)%nat) -> tends m k (fun s => Wt (phi s)) Wa -> tends k n (fun s => Ht (phi s)) Ha ->
  gradient m k (fun A => q_loss m n k true V U A Ha) Wa gW -> gradient k n (fun A => q_loss m n k true V U Wa A) Ha gH ->
  (forall a j, (a < k)%nat -> (j < n)%nat -> Ha a j = 0 \/ gH a j = 0) /\
  (mall m n (fun x => 0 < x) (fitted k Wa Ha) -> (forall a, (a < k)%nat -> exists i, (i < m)%nat /\ 0 < Wa i a) ->
   forall i a, (i < m)%nat -> (a < k)%nat -> Wa i a = 0 \/ gW i a = 0) /\
  (forall t, q_loss m n k true V U Wa Ha <= q_loss m n k true V U (Wt t) (Ht t)).
Proof.
  intros m n k V U W H Wt Ht phi Wa Ha gW gH Hm Hn Hk HV Hne HU HW HH It Hphi CW CH GW GH.
  pose proof (iterates m n k V U _ W H Wt Ht Hm Hn Hk HV Hne HU HW HH It) as St. cbv beta in St.
  pose proof (pos_nonneg _ _ _ (weights_pos m n U HU)) as He.
  assert (Dec : forall t, q_loss m n k true V U (Wt (S t)) (Ht (S t)) <= q_loss m n k true V U (Wt t) (Ht t)).
  { intros t. destruct (St t) as (A & B & E). exact (ls_iter_q m n k V U (fun _ => false) 1 t _ _ _ _ HV HU (pos_nonneg _ _ _ A) (pos_nonneg _ _ _ B) ltac:(cbn [ls_iter]; rewrite E; reflexivity)). }
  assert (Dec2 : forall t s, q_loss m n k true V U (Wt (s + t)%nat) (Ht (s + t)%nat) <= q_loss m n k true V U (Wt t) (Ht t)).
  { intros t s. induction s as [|s IH]; [cbn; lra|]. eapply Rle_trans; [apply Dec|exact IH]. }
  assert (CQa : Un_cv (fun s => q_loss m n k true V U (Wt (phi s)) (Ht (phi s))) (q_loss m n k true V U Wa Ha)).
  { rewrite q_loss_wloss by exact HU. apply Un_cv_ext with (fun s => wloss m n k V (weights U) (Wt (phi s)) (Ht (phi s))); [intros t; symmetry; apply q_loss_wloss, HU|]. apply (cv_wloss m n k V (weights U) (fun s => Wt (phi s)) (fun s => Ht (phi s))); assumption. }
  assert (Low : forall t, q_loss m n k true V U Wa Ha <= q_loss m n k true V U (Wt t) (Ht t)).
  { intros t. refine (@Rle_cv_lim (fun s => q_loss m n k true V U (Wt (phi (s + t)%nat)) (Ht (phi (s + t)%nat))) (fun _ => q_loss m n k true V U (Wt t) (Ht t)) _ _ _ (CV_shift' (fun s => q_loss m n k true V U (Wt (phi s)) (Ht (phi s))) t _ CQa) (cv_const _)).
    intros s. pose proof (Hphi (s + t)%nat). replace (phi (s + t)%nat) with ((phi (s + t)%nat - t) + t)%nat by lia. apply Dec2. }
  assert (CD : Un_cv (fun t => q_loss m n k true V U (Wt t) (Ht t) - q_loss m n k true V U (Wt (S t)) (Ht (S t))) 0).
  { destruct (decreasing_cv (fun t => q_loss m n k true V U (Wt t) (Ht t))) as [l Cl]; [intros t; apply Dec| |].
    - exists (- q_loss m n k true V U Wa Ha). intros x [t ->]. unfold opp_seq. specialize (Low t). lra.
    - replace 0 with (l - l) by ring. apply CV_minus; [exact Cl|apply (cv_S (fun t => q_loss m n k true V U (Wt t) (Ht t))), Cl]. }
  pose proof (cv_sub _ _ phi Hphi CD) as CDp. cbv beta in CDp.
  set (We := weights U) in *.
  assert (Up : forall t, h_step m n k V We (Wt t) (Ht t) = Some (Ht (S t)) /\ w_step m n k V We (Wt t) (Ht (S t)) = Some (Wt (S t))).
  { intros t. destruct (St t) as (_ & _ & E). apply ls_update_inv in E. destruct E as (H1 & W1 & [= <- <-] & X & Y). split; assumption. }
  assert (HD : forall t, 0 <= wloss m n k V We (Wt t) (Ht t) - wloss m n k V We (Wt t) (Ht (S t)) <= q_loss m n k true V U (Wt t) (Ht t) - q_loss m n k true V U (Wt (S t)) (Ht (S t)) /\
                         0 <= wloss m n k V We (Wt t) (Ht (S t)) - wloss m n k V We (Wt (S t)) (Ht (S t)) <= q_loss m n k true V U (Wt t) (Ht t) - q_loss m n k true V U (Wt (S t)) (Ht (S t))).
  { intros t. destruct (St t) as (A & B & _). destruct (St (S t)) as (A1 & B1 & _). destruct (Up t) as [X Y]. rewrite !q_loss_wloss by exact HU. fold We.
    pose proof (h_step_move m n k V We _ _ _ He (pos_nonneg _ _ _ A) (pos_nonneg _ _ _ B) X). pose proof (w_step_move m n k V We _ _ _ He (pos_nonneg _ _ _ A) (pos_nonneg _ _ _ B1) Y).
    pose proof (wdist_nonneg m n k We (Wt t) (Ht t) (Wt t) (Ht (S t)) He). pose proof (wdist_nonneg m n k We (Wt t) (Ht (S t)) (Wt (S t)) (Ht (S t)) He). lra. }
  assert (KH : forall a j, (a < k)%nat -> (j < n)%nat -> Ha a j * Rabs (h_num m V We Wa a j - h_den m k We Wa Ha a j) = 0).
  { intros a j Hla Hj.
    apply (vanishes (fun s => Ht (phi s) a j * Rabs (h_num m V We (Wt (phi s)) a j - h_den m k We (Wt (phi s)) (Ht (phi s)) a j)) (fun s => fit2 m n k We (Wt (phi s)) (Ht (phi s)))
             (fun s => q_loss m n k true V U (Wt (phi s)) (Ht (phi s)) - q_loss m n k true V U (Wt (S (phi s))) (Ht (S (phi s)))) _ (fit2 m n k We Wa Ha)).
    - intros s. set (t := phi s). destruct (St t) as (A & B & _). destruct (Up t) as [X _]. destruct (HD t) as [D1 _]. pose proof (fit2_nonneg m n k We (Wt t) (Ht t) He) as F.
      pose proof (h_slopes m n k V We _ _ _ He (pos_nonneg _ _ _ A) (pos_nonneg _ _ _ B) X) as L.
      eapply Rle_trans; [apply square_small; [| | |]|].
      5: { apply Rmult_le_compat_l; [exact F|]. exact (proj2 D1). }
      + apply Rmult_le_pos; [apply Rlt_le, B; assumption|apply Rabs_pos].
      + exact F.
      + exact (proj1 D1).
      + eapply Rle_trans; [|exact L]. apply (entry_le_msum k n (fun a j => Ht t a j * Rabs (h_num m V We (Wt t) a j - h_den m k We (Wt t) (Ht t) a j)) a j); [|exact Hla|exact Hj].
        intros a' j' Ha' Hj'. apply Rmult_le_pos; [apply Rlt_le, B; assumption|apply Rabs_pos].
    - apply CV_mult; [apply CH; assumption|]. apply cv_cvabs, CV_minus; [apply (cv_h_num m n k V We (fun s => Wt (phi s)) Wa CW); assumption|apply (cv_h_den m n k We (fun s => Wt (phi s)) (fun s => Ht (phi s)) Wa Ha CW CH); assumption].
    - apply (cv_fit2 m n k We (fun s => Wt (phi s)) (fun s => Ht (phi s))); assumption.
    - exact CDp. }
  split; [|split; [|exact Low]].
  - intros a j Hla Hj. rewrite (slope_value k n (fun A => q_loss m n k true V U Wa A) (fun A => wloss m n k V We Wa A) Ha gH (fun a j => h_num m V We Wa a j - h_den m k We Wa Ha a j) (fun B => q_loss_wloss m n k V U Wa B HU) GH (gradient_H m n k V We Wa Ha) a j Hla Hj).
    destruct (Rmult_integral _ _ (KH a j Hla Hj)) as [E|E]; [left; exact E|right]. destruct (Req_dec (h_num m V We Wa a j - h_den m k We Wa Ha a j) 0) as [E2|E2]; [rewrite E2; ring|]. apply Rabs_no_R0 in E2. contradiction.
  - intros Fp Cp.
    assert (Np : mall m k (fun x => 0 <= x) Wa).
    { intros i a Hi Hla. refine (@Rle_cv_lim (fun _ => 0) (fun s => Wt (phi s) i a) _ _ _ (cv_const _) (CW i a Hi Hla)). intros s. apply Rlt_le, (proj1 (St (phi s))); assumption. }
    assert (Dp : forall a j, (a < k)%nat -> (j < n)%nat -> 0 < h_den m k We Wa Ha a j).
    { intros a j Hla Hj. destruct (Cp a Hla) as (i & Hi & Wp). unfold h_den.
      apply Rlt_le_trans with (Wa i a * (We i j * mmul k Wa Ha i j)).
      - apply Rmult_lt_0_compat; [exact Wp|]. apply Rmult_lt_0_compat; [apply (weights_pos m n U HU); assumption|apply (Fp i j Hi Hj)].
      - apply (rsum_ge_term m (fun i => Wa i a * (We i j * mmul k Wa Ha i j)) i); [|exact Hi]. intros i' Hi'. apply Rmult_le_pos; [apply Np; assumption|]. apply Rmult_le_pos; [apply He; assumption|apply Rlt_le, (Fp i' j Hi' Hj)]. }
    assert (CH1 : tends k n (fun s => Ht (S (phi s))) Ha).
    { intros a j Hla Hj. apply Un_cv_ext with (fun s => Ht (phi s) a j * (h_num m V We (Wt (phi s)) a j * / h_den m k We (Wt (phi s)) (Ht (phi s)) a j)).
      - intros s. destruct (Up (phi s)) as [X _]. destruct (h_step_inv _ _ _ _ _ _ _ _ X) as [_ E]. rewrite E. reflexivity.
      - specialize (Dp a j Hla Hj). replace (Ha a j) with (Ha a j * (h_num m V We Wa a j * / h_den m k We Wa Ha a j)).
        + apply CV_mult; [apply CH; assumption|]. apply CV_mult; [apply (cv_h_num m n k V We (fun s => Wt (phi s)) Wa CW); assumption|]. apply cv_inv; [lra|]. apply (cv_h_den m n k We (fun s => Wt (phi s)) (fun s => Ht (phi s)) Wa Ha CW CH); assumption.
        + destruct (Rmult_integral _ _ (KH a j Hla Hj)) as [E|E]; [rewrite E; ring|]. destruct (Req_dec (h_num m V We Wa a j - h_den m k We Wa Ha a j) 0) as [E2|E2]; [|apply Rabs_no_R0 in E2; contradiction].
          replace (h_num m V We Wa a j) with (h_den m k We Wa Ha a j) by lra. field. lra. }
    intros i a Hi Hla. rewrite (slope_value m k (fun A => q_loss m n k true V U A Ha) (fun A => wloss m n k V We A Ha) Wa gW (fun i a => w_num n V We Ha i a - w_den n k We Wa Ha i a) (fun B => q_loss_wloss m n k V U B Ha HU) GW (gradient_W m n k V We Wa Ha) i a Hi Hla).
    assert (KW : Wa i a * Rabs (w_num n V We Ha i a - w_den n k We Wa Ha i a) = 0).
    { apply (vanishes (fun s => Wt (phi s) i a * Rabs (w_num n V We (Ht (S (phi s))) i a - w_den n k We (Wt (phi s)) (Ht (S (phi s))) i a)) (fun s => fit2 m n k We (Wt (phi s)) (Ht (S (phi s))))
               (fun s => q_loss m n k true V U (Wt (phi s)) (Ht (phi s)) - q_loss m n k true V U (Wt (S (phi s))) (Ht (S (phi s)))) _ (fit2 m n k We Wa Ha)).
      - intros s. set (t := phi s). destruct (St t) as (A & _ & _). destruct (St (S t)) as (_ & B & _). destruct (Up t) as [_ Y]. destruct (HD t) as [_ D1]. pose proof (fit2_nonneg m n k We (Wt t) (Ht (S t)) He) as F.
        pose proof (w_slopes m n k V We _ _ _ He (pos_nonneg _ _ _ A) (pos_nonneg _ _ _ B) Y) as L.
        eapply Rle_trans; [apply square_small; [| | |]|].
        5: { apply Rmult_le_compat_l; [exact F|]. exact (proj2 D1). }
        + apply Rmult_le_pos; [apply Rlt_le, A; assumption|apply Rabs_pos].
        + exact F.
        + exact (proj1 D1).
        + eapply Rle_trans; [|exact L]. apply (entry_le_msum m k (fun i a => Wt t i a * Rabs (w_num n V We (Ht (S t)) i a - w_den n k We (Wt t) (Ht (S t)) i a)) i a); [|exact Hi|exact Hla].
          intros i' a' Hi' Ha'. apply Rmult_le_pos; [apply Rlt_le, A; assumption|apply Rabs_pos].
      - apply CV_mult; [apply CW; assumption|]. apply cv_cvabs, CV_minus; [apply (cv_w_num m n k V We (fun s => Ht (S (phi s))) Ha CH1); assumption|apply (cv_w_den m n k We (fun s => Wt (phi s)) (fun s => Ht (S (phi s))) Wa Ha CW CH1); assumption].
      - apply (cv_fit2 m n k We (fun s => Wt (phi s)) (fun s => Ht (S (phi s)))); assumption.
      - exact CDp. }
    destruct (Rmult_integral _ _ KW) as [E|E]; [left; exact E|right]. destruct (Req_dec (w_num n V We Ha i a - w_den n k We Wa Ha i a) 0) as [E2|E2]; [rewrite E2; ring|]. apply Rabs_no_R0 in E2. contradiction.
Qed.
Print Assumptions C135_accumulation.

(** The hypotheses are met: a run from starting matrices of ones whose entries settle. *)
Definition fv_V : mat := fun i j => INR (i + 1) * INR (j + 1).
Definition fv_run (t : nat) : mat * mat :=
  match ls_iter 2 2 1 fv_V (weights ones) (fun _ => false) 0 t (ones, ones) with Some s => s | None => (ones, ones) end.
Definition fv_W : mat := fun i _ => 2 / 3 * INR (i + 1).
Definition fv_H : mat := fun _ j => 3 / 2 * INR (j + 1).
Lemma fv_hyps : mall 2 2 (fun x => 0 <= x) fv_V /\ no_empty 2 2 fv_V /\ mall 2 2 (fun u => u <> 0) ones /\
  forall t, ls_iter 2 2 1 fv_V (weights ones) (fun _ => false) 0 t (ones, ones) = Some (fst (fv_run t), snd (fv_run t)).
Proof.
  assert (P : forall i j, 0 < fv_V i j) by (intros i j; unfold fv_V; apply Rmult_lt_0_compat; apply lt_0_INR; lia).
  assert (HV : mall 2 2 (fun x => 0 <= x) fv_V) by (intros i j _ _; apply Rlt_le, P).
  assert (Hne : no_empty 2 2 fv_V) by (split; [intros i Hi|intros j Hj]; exists 0%nat; (split; [lia|apply P])).
  assert (HU : mall 2 2 (fun u => u <> 0) ones) by (intros ? ? _ _; unfold ones; lra).
  split; [exact HV|]. split; [exact Hne|]. split; [exact HU|]. intros t.
  destruct (ls_iter_pos 2 2 1 fv_V (weights ones) (fun _ => false) t 0 ones ones) as (A & B & E & _); try lia; auto; try (intros i j _ _; unfold ones; lra); [apply (weights_pos 2 2 ones HU)|].
  unfold fv_run. rewrite E. reflexivity.
Qed.
Lemma fv_settles t : mall 2 1 (fun x => 0 < x) (fst (fv_run t)) /\ (forall i, (i < 2)%nat -> fst (fv_run (S t)) i 0%nat = fv_W i 0%nat) /\ (forall j, (j < 2)%nat -> snd (fv_run (S t)) 0%nat j = fv_H 0%nat j).
Proof.
  destruct fv_hyps as (HV & Hne & HU & It).
  assert (St := iterates 2 2 1 fv_V ones (fun _ => false) ones ones (fun t => fst (fv_run t)) (fun t => snd (fv_run t)) ltac:(lia) ltac:(lia) ltac:(lia) HV Hne HU ltac:(intros i j _ _; unfold ones; lra) ltac:(intros i j _ _; unfold ones; lra) It).
  split; [apply (St t)|].
  assert (Step : forall s c d, c <> 0 -> d <> 0 -> (fst (fv_run s) 0%nat 0%nat = c /\ fst (fv_run s) 1%nat 0%nat = d) -> c + 2 * d <> 0 ->
             snd (fv_run s) 0%nat 0%nat <> 0 -> snd (fv_run s) 0%nat 1%nat <> 0 -> c * c + d * d <> 0 ->
             (forall j, (j < 2)%nat -> snd (fv_run (S s)) 0%nat j = (c + 2 * d) / (c * c + d * d) * INR (j + 1)) /\
             (forall i, (i < 2)%nat -> fst (fv_run (S s)) i 0%nat = (c * c + d * d) / (c + 2 * d) * INR (i + 1))).
  { intros s c d Hc Hd [E0 E1] Hs N0 N1 Hq. destruct (St s) as (_ & _ & E). cbv beta in E. apply ls_update_inv in E. destruct E as (H1 & W1 & [= E2 E3] & X & Y).
    destruct (h_step_inv _ _ _ _ _ _ _ _ X) as [_ EH]. destruct (w_step_inv _ _ _ _ _ _ _ _ Y) as [_ EW].
    assert (HJ : forall j, (j < 2)%nat -> snd (fv_run (S s)) 0%nat j = (c + 2 * d) / (c * c + d * d) * INR (j + 1)).
    { intros j Hj. rewrite E3, EH. unfold h_num, h_den, wev, weights, mmul, ones, fv_V. cbn [rsum]. rewrite E0, E1.
      destruct j as [|[|j]]; [| |lia]; cbn; field; repeat split; try assumption;
      match goal with |- _ * (_ * ?x) + _ <> 0 => replace (c * (c * x) + d * (d * x)) with ((c * c + d * d) * x) by ring; apply Rmult_integral_contrapositive_currified; [exact Hq|assumption] end. }
    split; [exact HJ|]. intros i Hi. rewrite E2, EW. rewrite E3 in HJ. pose proof (HJ 0%nat ltac:(lia)) as J0. pose proof (HJ 1%nat ltac:(lia)) as J1.
    unfold w_num, w_den, wev, weights, mmul, ones, fv_V. cbn [rsum]. rewrite J0, J1.
    destruct i as [|[|i]]; [| |lia]; rewrite ?E0, ?E1; cbn; field; repeat split; try assumption;
      match goal with |- ?x * _ * _ + _ <> 0 => replace (x * (c + 2 * d) * (c + 2 * d) + x * ((c + 2 * d) * 2) * ((c + 2 * d) * 2)) with (5 * x * (c + 2 * d) * (c + 2 * d)) by ring; repeat (apply Rmult_integral_contrapositive_currified; [|assumption]); lra end. }
  assert (NZ : forall s j, (j < 2)%nat -> snd (fv_run s) 0%nat j <> 0) by (intros s j Hj; destruct (St s) as (_ & B & _); specialize (B 0%nat j ltac:(lia) Hj); cbv beta in B; lra).
  induction t as [|t [IW IH]].
  - destruct (Step 0%nat 1 1) as [SH SW]; try lra; try (apply NZ; lia); [split; reflexivity|].
    split; [intros i Hi; rewrite SW by exact Hi; unfold fv_W; field|intros j Hj; rewrite SH by exact Hj; unfold fv_H; field].
  - destruct (Step (S t) (2 / 3) (4 / 3)) as [SH SW]; try lra; try (apply NZ; lia); [split; rewrite IW by lia; unfold fv_W; cbn; field|].
    split; [intros i Hi; rewrite SW by exact Hi; unfold fv_W; field|intros j Hj; rewrite SH by exact Hj; unfold fv_H; field].
Qed.
Example C135_instance : exists Wt Ht,
  (forall t, ls_iter 2 2 1 fv_V (weights ones) (fun _ => false) 0 t (ones, ones) = Some (Wt t, Ht t)) /\
  tends 2 1 Wt fv_W /\ tends 1 2 Ht fv_H /\ mall 2 2 (fun x => 0 < x) (fitted 1 fv_W fv_H) /\ Wt 0%nat = ones /\ fv_W 0%nat 0%nat <> 1.
Proof.
  exists (fun t => fst (fv_run t)), (fun t => snd (fv_run t)). split; [apply fv_hyps|]. split; [|split; [|split; [|split; [reflexivity|unfold fv_W; cbn; lra]]]].
  - intros i a Hi Ha e He. exists 1%nat. intros [|t] Ht; [lia|]. destruct a; [|lia]. rewrite (proj1 (proj2 (fv_settles t))) by exact Hi. unfold R_dist. rewrite Rminus_diag_eq, Rabs_R0 by reflexivity. exact He.
  - intros a j Ha Hj e He. exists 1%nat. intros [|t] Ht; [lia|]. destruct a; [|lia]. rewrite (proj2 (proj2 (fv_settles t))) by exact Hj. unfold R_dist. rewrite Rminus_diag_eq, Rabs_R0 by reflexivity. exact He.
  - intros i j Hi Hj. unfold fitted, fv_W, fv_H. cbn [rsum]. assert (0 < INR (i + 1)) by (apply lt_0_INR; lia). assert (0 < INR (j + 1)) by (apply lt_0_INR; lia).
    replace (0 + 2 / 3 * INR (i + 1) * (3 / 2 * INR (j + 1))) with (INR (i + 1) * INR (j + 1)) by field. apply Rmult_lt_0_compat; assumption.
Qed.

(** Not so: the limit of a run from positive matrices is the best solution.  With two
    factors that start alike the data are never fitted, though they could be exactly. *)
Definition tw_run (t : nat) : mat * mat :=
  match ls_iter 2 2 2 eye (weights ones) (fun _ => false) 0 t (ones, quarter) with Some s => s | None => (ones, quarter) end.
Theorem C135_limit_is_best_refuted : exists (m n k : nat) (V U W H : mat) (Wt Ht : nat -> mat) (Wl Hl W2 H2 : mat),
  mall m n (fun x => 0 <= x) V /\ no_empty m n V /\ mall m n (fun u => u <> 0) U /\ mall m k (fun x => 0 < x) W /\ mall k n (fun x => 0 < x) H /\
  (forall t, ls_iter m n k V (weights U) (fun _ => false) 0 t (W, H) = Some (Wt t, Ht t)) /\ tends m k Wt Wl /\ tends k n Ht Hl /\
  mall m k (fun x => 0 <= x) W2 /\ mall k n (fun x => 0 <= x) H2 /\ q_loss m n k true V U W2 H2 = 0 /\ q_loss m n k true V U Wl Hl = 1.
Proof.
  assert (HV : mall 2 2 (fun x => 0 <= x) eye) by (intros i j _ _; unfold eye; destruct (i =? j)%nat; lra).
  assert (Hne : no_empty 2 2 eye) by (split; [intros i Hi; exists i|intros j Hj; exists j]; (split; [assumption|]); unfold eye; rewrite Nat.eqb_refl; lra).
  assert (HU : mall 2 2 (fun u => u <> 0) ones) by (intros ? ? _ _; unfold ones; lra).
  assert (PW : mall 2 2 (fun x => 0 < x) ones) by (intros ? ? _ _; unfold ones; lra).
  assert (PH : mall 2 2 (fun x => 0 < x) quarter) by (intros ? ? _ _; unfold quarter; lra).
  assert (It : forall t, ls_iter 2 2 2 eye (weights ones) (fun _ => false) 0 t (ones, quarter) = Some (fst (tw_run t), snd (tw_run t))).
  { intros t. destruct (ls_iter_pos 2 2 2 eye (weights ones) (fun _ => false) t 0 ones quarter) as (A & B & E & _); try lia; auto; [apply (weights_pos 2 2 ones HU)|]. unfold tw_run. rewrite E. reflexivity. }
  assert (St := iterates 2 2 2 eye ones (fun _ => false) ones quarter (fun t => fst (tw_run t)) (fun t => snd (tw_run t)) ltac:(lia) ltac:(lia) ltac:(lia) HV Hne HU PW PH It).
  assert (Fix_ : forall t, (forall i a, (i < 2)%nat -> (a < 2)%nat -> fst (tw_run t) i a = 1) /\ (forall a j, (a < 2)%nat -> (j < 2)%nat -> snd (tw_run t) a j = 1 / 4)).
  { induction t as [|t [IW IH]]; [split; intros; reflexivity|]. destruct (St t) as (_ & _ & E). cbv beta in E. apply ls_update_inv in E. destruct E as (H1 & W1 & [= E2 E3] & X & Y).
    destruct (h_step_inv _ _ _ _ _ _ _ _ X) as [_ EH]. destruct (w_step_inv _ _ _ _ _ _ _ _ Y) as [_ EW].
    assert (HJ : forall a j, (a < 2)%nat -> (j < 2)%nat -> H1 a j = 1 / 4).
    { intros a j Ha Hj. rewrite EH. unfold h_num, h_den, wev, weights, mmul, ones, eye. cbn [rsum]. rewrite !IW, !IH by lia. destruct j as [|[|j]]; [| |lia]; cbn; field. }
    split; [|intros a j Ha Hj; rewrite E3; apply HJ; assumption]. intros i a Hi Ha. rewrite E2, EW. unfold w_num, w_den, wev, weights, mmul, ones, eye. cbn [rsum]. rewrite !IW, !HJ by lia. destruct i as [|[|i]]; [| |lia]; cbn; field. }
  exists 2%nat, 2%nat, 2%nat, eye, ones, ones, quarter, (fun t => fst (tw_run t)), (fun t => snd (tw_run t)), ones, quarter, eye, eye.
  repeat (split; [assumption|]). split; [intros i a Hi Ha; apply Un_cv_ext with (fun _ => 1); [intros t; symmetry; apply Fix_; assumption|apply cv_const]|].
  split; [intros a j Ha Hj; apply Un_cv_ext with (fun _ => 1 / 4); [intros t; symmetry; apply Fix_; assumption|apply cv_const]|].
  repeat (split; [assumption|]). split; unfold q_loss, msum, resid, mmul, ones, quarter, eye; cbn; field.
Qed.
Print Assumptions C135_limit_is_best_refuted.
