(** C140: with held profiles the contributions themselves settle, at best ones. *)
From Coq Require Import Reals Lra Lia List Bool ZArith Arith Psatz Classical ConstructiveEpsilon.
From Verif Require Import Base Fl Metrics_Model Metrics_Spec Metrics_Proofs LSNMF_Model LSNMF_Proofs
  Train_Model Train_Spec Train_Proofs Train_LS LSLimit_Props NearOpt_Props Forever_Props HeldOpt_Props.
Import ListNotations.
Open Scope R_scope.

(** ** Subsequences *)
Definition cofinal (phi : nat -> nat) : Prop := forall s, (s <= phi s)%nat.
Lemma choose (P : nat -> nat -> Prop) : (forall s n, {P s n} + {~ P s n}) -> (forall s, exists n, P s n) -> exists phi, forall s, P s (phi s).
Proof.
  intros D E. exists (fun s => proj1_sig (constructive_indefinite_ground_description_nat (P s) (D s) (E s))).
  intros s. apply (proj2_sig (constructive_indefinite_ground_description_nat (P s) (D s) (E s))).
Qed.
Lemma cv_cofinal (u : nat -> R) l phi : cofinal phi -> Un_cv u l -> Un_cv (fun s => u (phi s)) l.
Proof. intros Hp Hu e He. destruct (Hu e He) as [N HN]. exists N. intros s Hs. apply HN. specialize (Hp s). unfold ge in *. lia. Qed.
Lemma small_cv : Un_cv (fun s => / INR (S s)) 0.
Proof.
  intros e He. destruct (archimed_cor1 e He) as (N & HN & Np). exists N. intros s Hs. unfold R_dist. rewrite Rminus_0_r, Rabs_right.
  - eapply Rle_lt_trans; [|exact HN]. apply Rinv_le_contravar; [apply lt_0_INR, Np|apply le_INR; unfold ge in Hs; lia].
  - apply Rle_ge, Rlt_le, Rinv_0_lt_compat, lt_0_INR. lia.
Qed.
Lemma bw1 (u : nat -> R) lo hi : (forall t, lo <= u t <= hi) -> exists phi l, cofinal phi /\ Un_cv (fun s => u (phi s)) l.
Proof.
  intros B. destruct (Bolzano_Weierstrass u (fun x => lo <= x <= hi) (compact_P3 lo hi) B) as [l Hl].
  assert (E : forall s, exists n, (s <= n)%nat /\ Rabs (u n - l) < / INR (S s)).
  { intros s. assert (P : 0 < / INR (S s)) by (apply Rinv_0_lt_compat, lt_0_INR; lia).
    destruct (Hl (disc l (mkposreal _ P)) s) as (n & Hn & Hd); [exists (mkposreal _ P); intros x Hx; exact Hx|]. exists n. split; [exact Hn|exact Hd]. }
  destruct (choose (fun s n => (s <= n)%nat /\ Rabs (u n - l) < / INR (S s))) as [phi Hphi]; [|exact E|].
  { intros s n. destruct (le_dec s n); [|right; tauto]. destruct (Rlt_dec (Rabs (u n - l)) (/ INR (S s))); [left; tauto|right; tauto]. }
  exists phi, l. split; [intros s; apply Hphi|]. intros e He. destruct (small_cv e He) as [N HN]. exists N. intros s Hs. specialize (HN s Hs). unfold R_dist in *.
  destruct (Hphi s) as [_ H]. rewrite Rminus_0_r in HN. pose proof (Rle_abs (/ INR (S s))). lra.
Qed.
Lemma bw_list (u : nat -> nat -> nat -> R) (cs : list (nat * nat)) B : (forall c t, In c cs -> 0 <= u t (fst c) (snd c) <= B) ->
  exists phi, cofinal phi /\ forall c, In c cs -> exists l, Un_cv (fun s => u (phi s) (fst c) (snd c)) l.
Proof.
  induction cs as [|c cs IH]; intros Hb.
  - exists (fun s => s). split; [intros s; lia|intros c []].
  - destruct IH as (phi & Hp & Hc); [intros c' t Hin; apply Hb; now right|].
    destruct (bw1 (fun s => u (phi s) (fst c) (snd c)) 0 B) as (psi & l & Hs & Hl); [intros t; apply Hb; now left|].
    exists (fun s => phi (psi s)). split; [intros s; specialize (Hs s); specialize (Hp (psi s)); lia|].
    intros c' [<- | Hin]; [exists l; exact Hl|]. destruct (Hc c' Hin) as [l' Hl']. exists l'. apply (cv_cofinal (fun s => u (phi s) (fst c') (snd c')) l' psi Hs Hl').
Qed.
Lemma bw_mat m k (A : nat -> mat) B : (forall t, mall m k (fun x => 0 <= x <= B) (A t)) -> exists phi L, cofinal phi /\ tends m k (fun s => A (phi s)) L.
Proof.
  intros Hb. destruct (bw_list (fun t i a => A t i a) (list_prod (seq 0 m) (seq 0 k)) B) as (phi & Hp & Hc).
  { intros [i a] t Hin. apply in_prod_iff in Hin. rewrite !in_seq in Hin. apply Hb; cbn; lia. }
  assert (C : forall i a, (i < m)%nat -> (a < k)%nat -> exists l, Un_cv (fun s => A (phi s) i a) l).
  { intros i a Hi Ha. apply (Hc (i, a)). apply in_prod_iff. rewrite !in_seq. lia. }
  (* the limits as a matrix, by induction on the rows and columns *)
  assert (Row : forall i, (i < m)%nat -> forall k', (k' <= k)%nat -> exists r : nat -> R, forall a, (a < k')%nat -> Un_cv (fun s => A (phi s) i a) (r a)).
  { intros i Hi. induction k' as [|k' IH]; intros Hk; [exists (fun _ => 0); intros a Ha; lia|]. destruct IH as [r Hr]; [lia|]. destruct (C i k' Hi ltac:(lia)) as [l Hl].
    exists (fun a => if (a =? k')%nat then l else r a). intros a Ha. destruct (Nat.eqb_spec a k') as [-> | N]; [exact Hl|apply Hr; lia]. }
  assert (All : forall m', (m' <= m)%nat -> exists L : mat, forall i a, (i < m')%nat -> (a < k)%nat -> Un_cv (fun s => A (phi s) i a) (L i a)).
  { induction m' as [|m' IH]; intros Hm; [exists (fun _ _ => 0); intros i a Hi; lia|]. destruct IH as [L HL]; [lia|]. destruct (Row m' ltac:(lia) k (Nat.le_refl k)) as [r Hr].
    exists (fun i a => if (i =? m')%nat then r a else L i a). intros i a Hi Ha. destruct (Nat.eqb_spec i m') as [-> | N]; [apply Hr, Ha|apply HL; [lia|exact Ha]]. }
  destruct (All m (Nat.le_refl m)) as [L HL]. exists phi, L. split; [exact Hp|exact HL].
Qed.
Lemma cv_le (u : nat -> R) l b : (forall t, u t <= b) -> Un_cv u l -> l <= b.
Proof. intros H C. exact (Rle_cv_lim (Un := u) (Vn := fun _ => b) H C (cv_const b)). Qed.
Lemma cv_ge (u : nat -> R) l b : (forall t, b <= u t) -> Un_cv u l -> b <= l.
Proof. intros H C. exact (Rle_cv_lim (Un := fun _ => b) (Vn := u) H (cv_const b) C). Qed.
Lemma cv_ln (u : nat -> R) l : 0 < l -> Un_cv u l -> Un_cv (fun t => ln (u t)) (ln l).
Proof. intros Hl C. apply (continuity_seq ln u l); [|exact C]. apply derivable_continuous_pt. exists (/ l). apply derivable_pt_lim_ln, Hl. Qed.

(** ** An abstract sequence that pays for its excess *)
Section Paying.
  Variables (m k : nat) (c : mat) (x : nat -> mat) (loss : mat -> R) (B : R).
  Hypothesis Hc : mall m k (fun v => 0 < v) c.
  Hypothesis Hx : forall t, mall m k (fun v => 0 < v <= B) (x t).
  Hypothesis Pays : forall y t, mall m k (fun v => 0 <= v) y -> loss (x t) - loss y <= 2 * msum m k (fun i a => y i a * c i a * (ln (x (S t) i a) - ln (x t i a))).
  Hypothesis Best : forall y e, mall m k (fun v => 0 <= v) y -> 0 < e -> exists N, forall t, (N <= t)%nat -> loss (x t) <= loss y + e.
  Hypothesis Cont : forall A L, tends m k A L -> Un_cv (fun t => loss (A t)) (loss L).
  Definition best (y : mat) : Prop := mall m k (fun v => 0 <= v) y /\ forall y2, mall m k (fun v => 0 <= v) y2 -> loss y <= loss y2.
  Definition level (y z : mat) : R := msum m k (fun i a => y i a * c i a * ln (z i a)).

  Lemma limit_best phi L : cofinal phi -> tends m k (fun s => x (phi s)) L -> best L.
  Proof.
    intros Hp HL. split.
    - intros i a Hi Ha. apply (cv_ge (fun s => x (phi s) i a) (L i a) 0); [intros s; destruct (Hx (phi s) i a Hi Ha); lra|apply HL; assumption].
    - intros y2 Hy. apply Rnot_lt_le. intros Lt. set (e := (loss L - loss y2) / 2). assert (He : 0 < e) by (unfold e; lra).
      destruct (Best y2 e Hy He) as [N HN]. destruct (Cont _ _ HL e He) as [N2 HN2]. specialize (HN2 (N + N2)%nat ltac:(unfold ge; lia)). specialize (HN (phi (N + N2)%nat) ltac:(specialize (Hp (N + N2)%nat); lia)).
      unfold R_dist in HN2. apply Rabs_def2 in HN2. unfold e in *. lra.
  Qed.
  Lemma level_step y t : best y -> level y (x t) <= level y (x (S t)).
  Proof.
    intros [Hy Hb]. pose proof (Pays y t Hy) as P. assert (L : loss y <= loss (x t)) by (apply Hb; intros i a Hi Ha; destruct (Hx t i a Hi Ha); lra).
    assert (E : msum m k (fun i a => y i a * c i a * (ln (x (S t) i a) - ln (x t i a))) = level y (x (S t)) - level y (x t)).
    { unfold level, msum. rewrite <- rsum_minus. apply rsum_ext. intros i Hi. rewrite <- rsum_minus. apply rsum_ext. intros a Ha. ring. }
    rewrite E in P. lra.
  Qed.
  Lemma level_mono y t s : best y -> (t <= s)%nat -> level y (x t) <= level y (x s).
  Proof. intros Hb H. induction H as [|s H IH]; [lra|]. pose proof (level_step y s Hb). lra. Qed.
  Lemma away y i a : best y -> (i < m)%nat -> (a < k)%nat -> 0 < y i a -> exists d, 0 < d /\ forall t, d <= x t i a.
  Proof.
    intros Hb Hi Ha Hy. assert (BP : 0 < B) by (destruct (Hx 0%nat i a Hi Ha); lra).
    set (K := msum m k (fun i a => y i a * c i a * ln B) - level y (x 0%nat)).
    assert (Hca : 0 < y i a * c i a) by (apply Rmult_lt_0_compat; [exact Hy|apply Hc; assumption]).
    exists (exp (ln B - K / (y i a * c i a))). split; [apply exp_pos|]. intros t. destruct (Hx t i a Hi Ha) as [X0 XB].
    assert (Tm : forall i' a', (i' < m)%nat -> (a' < k)%nat -> 0 <= y i' a' * c i' a' * (ln B - ln (x t i' a'))).
    { intros i' a' Hi' Ha'. destruct (Hx t i' a' Hi' Ha') as [P1 P2]. apply Rmult_le_pos; [apply Rmult_le_pos; [apply (proj1 Hb); assumption|apply Rlt_le, Hc; assumption]|].
      destruct P2 as [P2|P2]; [pose proof (ln_increasing _ _ P1 P2); lra|rewrite P2; lra]. }
    assert (S1 : y i a * c i a * (ln B - ln (x t i a)) <= msum m k (fun i a => y i a * c i a * (ln B - ln (x t i a)))).
    { unfold msum. apply Rle_trans with (rsum k (fun a => y i a * c i a * (ln B - ln (x t i a)))).
      - apply (rsum_ge_term k (fun a => y i a * c i a * (ln B - ln (x t i a))) a); [intros a' Ha'; apply Tm; assumption|exact Ha].
      - apply (rsum_ge_term m (fun i => rsum k (fun a => y i a * c i a * (ln B - ln (x t i a)))) i); [intros i' Hi'; apply rsum_nonneg; intros a' Ha'; apply Tm; assumption|exact Hi]. }
    assert (S2 : msum m k (fun i a => y i a * c i a * (ln B - ln (x t i a))) = msum m k (fun i a => y i a * c i a * ln B) - level y (x t)).
    { unfold level, msum. rewrite <- rsum_minus. apply rsum_ext. intros i' Hi'. rewrite <- rsum_minus. apply rsum_ext. intros a' Ha'. ring. }
    pose proof (level_mono y 0 t Hb ltac:(lia)) as Mo.
    assert (S3 : y i a * c i a * (ln B - ln (x t i a)) <= K) by (unfold K; lra).
    assert (S4 : ln B - K / (y i a * c i a) <= ln (x t i a)).
    { apply (Rmult_le_reg_l (y i a * c i a)); [exact Hca|].
      replace (y i a * c i a * (ln B - K / (y i a * c i a))) with (y i a * c i a * ln B - K); [lra|]. set (q := y i a * c i a) in *. field. lra. }
    rewrite <- (exp_ln (x t i a)) by exact X0. destruct S4 as [S4|S4]; [left; apply exp_increasing, S4|right; rewrite S4; reflexivity].
  Qed.
  Lemma level_cv y phi L : best y -> cofinal phi -> tends m k (fun s => x (phi s)) L -> Un_cv (fun s => level y (x (phi s))) (level y L).
  Proof.
    intros Hb Hp HL. unfold level, msum. apply (cv_sum m (fun s i => rsum k (fun a => y i a * c i a * ln (x (phi s) i a)))). intros i Hi.
    apply (cv_sum k (fun s a => y i a * c i a * ln (x (phi s) i a))). intros a Ha.
    destruct (Req_dec (y i a) 0) as [Z|Z].
    - rewrite Z. rewrite !Rmult_0_l. apply Un_cv_ext with (fun _ => 0); [intros s; ring|apply cv_const].
    - destruct (away y i a Hb Hi Ha) as (d & Hd & Hw); [destruct (proj1 Hb i a Hi Ha) as [P|P]; [exact P|congruence]|].
      apply CV_mult; [apply cv_const|]. apply cv_ln; [|apply HL; assumption].
      pose proof (cv_ge (fun s => x (phi s) i a) (L i a) d (fun s => Hw (phi s)) (HL i a Hi Ha)). lra.
  Qed.
  Lemma level_limit y phi L t : best y -> cofinal phi -> tends m k (fun s => x (phi s)) L -> level y (x t) <= level y L.
  Proof.
    intros Hb Hp HL. pose proof (level_cv y phi L Hb Hp HL) as C.
    apply (cv_ge (fun s => level y (x (phi (s + t)%nat))) (level y L) (level y (x t))).
    - intros s. apply level_mono; [exact Hb|]. specialize (Hp (s + t)%nat). lia.
    - apply (CV_shift' (fun s => level y (x (phi s))) t _ C).
  Qed.
  Lemma level_same y phi L psi M : best y -> cofinal phi -> tends m k (fun s => x (phi s)) L -> cofinal psi -> tends m k (fun s => x (psi s)) M -> level y M <= level y L.
  Proof.
    intros Hb Hp HL Hq HM. apply (cv_le (fun s => level y (x (psi s))) (level y M)); [intros s; apply (level_limit y phi L); assumption|apply level_cv; assumption].
  Qed.
  Lemma support phi L psi M i a : cofinal phi -> tends m k (fun s => x (phi s)) L -> cofinal psi -> tends m k (fun s => x (psi s)) M -> (i < m)%nat -> (a < k)%nat -> 0 < L i a -> 0 < M i a.
  Proof.
    intros Hp HL Hq HM Hi Ha P. destruct (away L i a (limit_best phi L Hp HL) Hi Ha P) as (d & Hd & Hw).
    pose proof (cv_ge (fun s => x (psi s) i a) (M i a) d (fun s => Hw (psi s)) (HM i a Hi Ha)). lra.
  Qed.
  Lemma one_limit phi L psi M : cofinal phi -> tends m k (fun s => x (phi s)) L -> cofinal psi -> tends m k (fun s => x (psi s)) M -> meq m k L M.
  Proof.
    intros Hp HL Hq HM. pose proof (limit_best phi L Hp HL) as BL. pose proof (limit_best psi M Hq HM) as BM.
    pose proof (level_same L phi L psi M BL Hp HL Hq HM). pose proof (level_same L psi M phi L BL Hq HM Hp HL).
    pose proof (level_same M phi L psi M BM Hp HL Hq HM). pose proof (level_same M psi M phi L BM Hq HM Hp HL).
    assert (Z : msum m k (fun i a => c i a * ((L i a - M i a) * (ln (L i a) - ln (M i a)))) = 0).
    { transitivity (level L L - level L M - (level M L - level M M)); [|lra].
      unfold level, msum. rewrite <- !rsum_minus. apply rsum_ext. intros i Hi. rewrite <- !rsum_minus. apply rsum_ext. intros a Ha. ring. }
    assert (Pos : forall i a, (i < m)%nat -> (a < k)%nat -> (L i a = 0 /\ M i a = 0) \/ (0 < L i a /\ 0 < M i a)).
    { intros i a Hi Ha. destruct (proj1 BL i a Hi Ha) as [P|P]; [right; split; [exact P|apply (support phi L psi M i a); assumption]|].
      destruct (proj1 BM i a Hi Ha) as [Q|Q]; [right; split; [apply (support psi M phi L i a); assumption|exact Q]|left; split; congruence]. }
    assert (Tm : mall m k (fun v => 0 <= v) (fun i a => c i a * ((L i a - M i a) * (ln (L i a) - ln (M i a))))).
    { intros i a Hi Ha. cbv beta. apply Rmult_le_pos; [apply Rlt_le, Hc; assumption|]. destruct (Pos i a Hi Ha) as [[-> ->]|[P Q]]; [lra|].
      destruct (Rtotal_order (L i a) (M i a)) as [C|[C|C]]; [pose proof (ln_increasing _ _ P C); nra|rewrite C; lra|pose proof (ln_increasing _ _ Q C); nra]. }
    intros i a Hi Ha. pose proof (msum_zero m k _ Tm Z i a Hi Ha) as E. cbv beta in E. specialize (Hc i a Hi Ha). cbv beta in Hc.
    destruct (Pos i a Hi Ha) as [[-> ->]|[P Q]]; [reflexivity|].
    apply Rmult_integral in E. destruct E as [E|E]; [lra|]. apply Rmult_integral in E. destruct E as [E|E]; [lra|]. apply ln_inv; [exact P|exact Q|lra].
  Qed.
  Lemma settles : exists L, tends m k x L /\ best L.
  Proof.
    assert (Bd : forall t, mall m k (fun v => 0 <= v <= B) (x t)) by (intros t i a Hi Ha; destruct (Hx t i a Hi Ha); lra).
    destruct (bw_mat m k x B Bd) as (phi & L & Hp & HL). exists L. split; [|apply (limit_best phi); assumption].
    intros i a Hi Ha e He. apply NNPP. intros NC.
    assert (Ex : forall s, exists t, (s <= t)%nat /\ e <= Rabs (x t i a - L i a)).
    { intros s. apply NNPP. intros N. apply NC. exists s. intros t Ht. unfold R_dist. apply Rnot_le_lt. intros C. apply N. exists t. split; [exact Ht|exact C]. }
    destruct (choose (fun s t => (s <= t)%nat /\ e <= Rabs (x t i a - L i a))) as [psi Hpsi]; [|exact Ex|].
    { intros s t. destruct (le_dec s t); [|right; tauto]. destruct (Rle_dec e (Rabs (x t i a - L i a))); [left; tauto|right; tauto]. }
    destruct (bw_mat m k (fun s => x (psi s)) B (fun s => Bd (psi s))) as (chi & M & Hq & HM).
    assert (Hpc : cofinal (fun s => psi (chi s))) by (intros s; destruct (Hpsi (chi s)); specialize (Hq s); lia).
    pose proof (one_limit phi L (fun s => psi (chi s)) M Hp HL Hpc HM i a Hi Ha) as E.
    destruct (HM i a Hi Ha e He) as [N HN]. specialize (HN N ltac:(unfold ge; lia)). unfold R_dist in HN. rewrite <- E in HN. destruct (Hpsi (chi N)). lra.
  Qed.
End Paying.

(** ** Held iterates *)
Lemma held_facts m n k V U H W : mall m n (fun x => 0 <= x) V -> mall m n (fun u => u <> 0) U -> mall k n (fun x => 0 <= x) H -> overlaps m n k V H -> mall m k (fun x => 0 < x) W ->
  exists (Wt : nat -> mat) (B : R),
    (forall t, ls_iter m n k V (weights U) (fun _ => true) 0 t (W, H) = Some (Wt t, H)) /\ mall m k (fun x => 0 < x) (Wt 0%nat) /\
    (forall t, mall m k (fun v => 0 < v <= B) (Wt (S t))) /\
    forall y t, mall m k (fun v => 0 <= v) y -> wloss m n k V (weights U) (Wt (S t)) H - wloss m n k V (weights U) y H <=
      2 * msum m k (fun i a => y i a * w_num n V (weights U) H i a * (ln (Wt (S (S t)) i a) - ln (Wt (S t) i a))).
Proof.
  intros HV HU HH Ho HW. pose proof (weights_pos m n U HU) as He. pose proof (pos_nonneg _ _ _ He) as He0.
  set (Wt := fun t => match ls_iter m n k V (weights U) (fun _ => true) 0 t (W, H) with Some s => fst s | None => W end).
  assert (It : forall t, ls_iter m n k V (weights U) (fun _ => true) 0 t (W, H) = Some (Wt t, H) /\ mall m k (fun x => 0 < x) (Wt t)).
  { intros t. destruct (held_iterates m n k V U H W HV HU HH Ho HW 0 t) as (W' & E & P & _). unfold Wt. rewrite E. split; [reflexivity|exact P]. }
  assert (Stp : forall t, w_step m n k V (weights U) (Wt t) H = Some (Wt (S t))).
  { intros t. destruct (held_iterates m n k V U H W HV HU HH Ho HW 0 t) as (W' & E & _ & W1 & S1 & _). pose proof (proj1 (It t)) as E1. rewrite E in E1. injection E1 as ->. rewrite S1. f_equal.
    pose proof (proj1 (It (S t))) as E2. replace (S t) with (t + 1)%nat in E2 at 1 by lia. rewrite ls_iter_add, E in E2. cbn [ls_iter ls_update Nat.add] in E2. rewrite S1 in E2. injection E2 as E2. exact E2. }
  set (We := weights U) in *.
  assert (Sc : forall t, fit2 m n k We (Wt (S t)) H <= msum m k (fun i a => Wt (S t) i a * w_num n V We H i a)).
  { intros t. exact (step_scale m n k V We (Wt t) H (Wt (S t)) He0 (pos_nonneg _ _ _ (proj2 (It t))) HH (Stp t)). }
  pose proof (num_pos m n k V We H HV He HH Ho) as Np.
  set (S0 := msum m n (fun i j => We i j * (V i j * V i j))).
  assert (B1 : forall t i a, (i < m)%nat -> (a < k)%nat -> Wt (S t) i a <= S0 / w_num n V We H i a).
  { intros t i a Hi Ha. specialize (Np i a Hi Ha) as Npa. apply (Rmult_le_reg_r (w_num n V We H i a)); [exact Npa|].
    replace (S0 / w_num n V We H i a * w_num n V We H i a) with S0 by (field; lra).
    eapply Rle_trans; [|apply (entry_bound m n k V We (Wt (S t)) H HV He HH Ho (proj2 (It (S t))) (Sc t))].
    assert (Tp : forall i' a', (i' < m)%nat -> (a' < k)%nat -> 0 <= Wt (S t) i' a' * w_num n V We H i' a').
    { intros i' a' Hi' Ha'. apply Rmult_le_pos; [apply Rlt_le, (proj2 (It (S t))); assumption|apply Rlt_le, Np; assumption]. }
    unfold msum. apply Rle_trans with (rsum k (fun a => Wt (S t) i a * w_num n V We H i a)).
    - apply (rsum_ge_term k (fun a => Wt (S t) i a * w_num n V We H i a) a); [intros a' Ha'; apply Tp; assumption|exact Ha].
    - apply (rsum_ge_term m (fun i => rsum k (fun a => Wt (S t) i a * w_num n V We H i a)) i); [|exact Hi]. intros i' Hi'. apply rsum_nonneg. intros a' Ha'. apply Tp; assumption. }
  assert (SP : 0 <= S0) by (apply msum_nonneg; intros i j Hi Hj; apply Rmult_le_pos; [apply He0; assumption|apply Rle_0_sqr]).
  exists Wt, (msum m k (fun i a => S0 / w_num n V We H i a)). split; [intros t; apply It|]. split; [apply It|]. split.
  - intros t i a Hi Ha. split; [apply It; assumption|]. eapply Rle_trans; [apply B1; assumption|].
    assert (Tp : forall i' a', (i' < m)%nat -> (a' < k)%nat -> 0 <= S0 / w_num n V We H i' a').
    { intros i' a' Hi' Ha'. apply Rmult_le_pos; [exact SP|apply Rlt_le, Rinv_0_lt_compat, Np; assumption]. }
    unfold msum. apply Rle_trans with (rsum k (fun a => S0 / w_num n V We H i a)).
    + apply (rsum_ge_term k (fun a => S0 / w_num n V We H i a) a); [intros a' Ha'; apply Tp; assumption|exact Ha].
    + apply (rsum_ge_term m (fun i => rsum k (fun a => S0 / w_num n V We H i a)) i); [|exact Hi]. intros i' Hi'. apply rsum_nonneg. intros a' Ha'. apply Tp; assumption.
  - intros y t Hy. exact (step_pays m n k V We (Wt (S t)) H (Wt (S (S t))) y HV He HH Ho (proj2 (It (S t))) Hy (Stp (S t)) (Sc t)).
Qed.

(** The best non-negative contributions for given profiles. *)
Definition best_contributions (m n k : nat) (V U H L : mat) : Prop :=
  mall m k (fun x => 0 <= x) L /\ forall W2, mall m k (fun x => 0 <= x) W2 -> q_loss m n k true V U L H <= q_loss m n k true V U W2 H.

(** ** C140 *)
(** With held profiles every entry of the contributions settles, and the limit is one of
    the best non-negative contributions. *)
Theorem C140_contributions_settle : forall (m n k : nat) (V U H W : mat),
  mall m n (fun x => 0 <= x) V -> mall m n (fun u => u <> 0) U -> mall k n (fun x => 0 <= x) H -> overlaps m n k V H -> mall m k (fun x => 0 < x) W ->
  exists (Wt : nat -> mat) (L : mat),
    (forall t, ls_iter m n k V (weights U) (fun _ => true) 0 t (W, H) = Some (Wt t, H)) /\ tends m k Wt L /\ best_contributions m n k V U H L.
Proof.
  intros m n k V U H W HV HU HH Ho HW. destruct (held_facts m n k V U H W HV HU HH Ho HW) as (Wt & B & It & _ & Bd & Py).
  pose proof (weights_pos m n U HU) as He. set (We := weights U) in *.
  destruct (settles m k (w_num n V We H) (fun t => Wt (S t)) (fun A => wloss m n k V We A H) B) as (L & TL & BL1 & BL2).
  - intros i a Hi Ha. apply (num_pos m n k V We H HV He HH Ho); assumption.
  - exact Bd.
  - intros y t Hy. exact (Py y t Hy).
  - intros y e Hy Hep. destruct (C136_tends_to_the_best m n k V U H W y e HV HU HH Ho HW Hy Hep) as [N HN]. exists N. intros t Ht.
    destruct (HN (S t)) as (W' & I & Q); [lia|]. fold We in I. rewrite It in I. injection I as <-. rewrite !q_loss_wloss in Q by exact HU. exact Q.
  - intros A L HA. apply (cv_wloss m n k V We A (fun _ => H) L H HA). intros a j _ _. apply cv_const.
  - exists Wt, L. split; [exact It|]. split.
    + intros i a Hi Ha e Hep. destruct (TL i a Hi Ha e Hep) as [N HN]. exists (S N). intros [|t] Ht; [unfold ge in Ht; lia|]. apply HN. unfold ge in *. lia.
    + split; [exact BL1|]. intros W2 HW2. rewrite !q_loss_wloss by exact HU. apply BL2, HW2.
Qed.
Print Assumptions C140_contributions_settle.

(** Profiles of which none can be made up from the others. *)
Definition independent (n k : nat) (H : mat) : Prop := forall c : nat -> R, (forall j, (j < n)%nat -> rsum k (fun a => c a * H a j) = 0) -> forall a, (a < k)%nat -> c a = 0.
Lemma best_unique m n k V U H L M : mall m n (fun u => u <> 0) U -> independent n k H -> best_contributions m n k V U H L -> best_contributions m n k V U H M -> meq m k L M.
Proof.
  intros HU Hi [L0 LB] [M0 MB]. set (A := fun i a => (L i a + M i a) / 2).
  assert (A0 : mall m k (fun x => 0 <= x) A) by (intros i a Hi' Ha; specialize (L0 i a Hi' Ha); specialize (M0 i a Hi' Ha); unfold A; cbv beta in *; lra).
  pose proof (LB A A0) as Q1. pose proof (MB A A0) as Q2. rewrite !q_loss_wloss in Q1, Q2 by exact HU. pose proof (weights_pos m n U HU) as He. set (We := weights U) in *.
  assert (Mm : forall i j, mmul k A H i j = (mmul k L H i j + mmul k M H i j) / 2).
  { intros i j. unfold mmul, A, Rdiv. rewrite <- rsum_plus, <- rsum_scal_r. apply rsum_ext. intros a Ha. field. }
  assert (E : wloss m n k V We L H + wloss m n k V We M H - 2 * wloss m n k V We A H = msum m n (fun i j => We i j * ((mmul k L H i j - mmul k M H i j) * (mmul k L H i j - mmul k M H i j)) / 2)).
  { unfold wloss, msum. rewrite <- rsum_plus, <- rsum_scal_l, <- rsum_minus. apply rsum_ext. intros i Hi'. rewrite <- rsum_plus, <- rsum_scal_l, <- rsum_minus. apply rsum_ext. intros j Hj. rewrite Mm. field. }
  assert (Tn : mall m n (fun x => 0 <= x) (fun i j => We i j * ((mmul k L H i j - mmul k M H i j) * (mmul k L H i j - mmul k M H i j)) / 2)).
  { intros i j Hi' Hj. specialize (He i j Hi' Hj). cbv beta in *. pose proof (Rle_0_sqr (mmul k L H i j - mmul k M H i j)) as Sq. unfold Rsqr in Sq. apply Rmult_le_pos; [apply Rmult_le_pos; lra|lra]. }
  pose proof (msum_nonneg _ _ _ Tn) as Nn. pose proof (msum_zero _ _ _ Tn ltac:(lra)) as Z.
  intros i a Hi' Ha. enough (L i a - M i a = 0) by lra. apply (Hi (fun a => L i a - M i a)); [|exact Ha]. intros j Hj. specialize (Z i j Hi' Hj). specialize (He i j Hi' Hj). cbv beta in Z, He.
  assert (D : mmul k L H i j - mmul k M H i j = 0).
  { set (d := mmul k L H i j - mmul k M H i j) in *. assert (Z1 : We i j * (d * d) = 0) by lra. apply Rmult_integral in Z1. destruct Z1 as [Z1|Z1]; [lra|]. apply Rmult_integral in Z1. tauto. }
  rewrite <- D. unfold mmul. rewrite <- rsum_minus. apply rsum_ext. intros b Hb. ring.
Qed.

(** With such profiles the limit does not depend on the starting contributions. *)
Theorem C140_start_does_not_matter : forall (m n k : nat) (V U H W W' : mat),
  mall m n (fun x => 0 <= x) V -> mall m n (fun u => u <> 0) U -> mall k n (fun x => 0 <= x) H -> overlaps m n k V H -> independent n k H ->
  mall m k (fun x => 0 < x) W -> mall m k (fun x => 0 < x) W' ->
  exists (Wt Wt' : nat -> mat) (L : mat),
    (forall t, ls_iter m n k V (weights U) (fun _ => true) 0 t (W, H) = Some (Wt t, H)) /\
    (forall t, ls_iter m n k V (weights U) (fun _ => true) 0 t (W', H) = Some (Wt' t, H)) /\
    tends m k Wt L /\ tends m k Wt' L /\ best_contributions m n k V U H L /\ forall M, best_contributions m n k V U H M -> meq m k M L.
Proof.
  intros m n k V U H W W' HV HU HH Ho Hi HW HW'.
  destruct (C140_contributions_settle m n k V U H W HV HU HH Ho HW) as (Wt & L & I1 & T1 & B1).
  destruct (C140_contributions_settle m n k V U H W' HV HU HH Ho HW') as (Wt' & L' & I2 & T2 & B2).
  pose proof (best_unique m n k V U H L L' HU Hi B1 B2) as E.
  exists Wt, Wt', L. split; [exact I1|]. split; [exact I2|]. split; [exact T1|]. split; [|split; [exact B1|]].
  - intros i a Hi' Ha. rewrite (E i a Hi' Ha). apply T2; assumption.
  - intros M BM. exact (best_unique m n k V U H M L HU Hi BM B1).
Qed.
Print Assumptions C140_start_does_not_matter.

(** Either engine, however it is told to stop: after enough iterations the entries it
    returns are as near the limit as one likes. *)
Theorem C140_run : forall (m n k : nat) (V U H W : mat),
  mall m n (fun x => 0 <= x) V -> mall m n (fun u => u <> 0) U -> mall k n (fun x => 0 <= x) H -> overlaps m n k V H -> mall m k (fun x => 0 < x) W ->
  exists L, best_contributions m n k V U H L /\ forall eps, 0 < eps -> exists N, forall (delta : R) (cn : Z) (delay_h : Z) (max_iter : Z),
    (forall i, held true delay_h i) ->
    (forall tick, let r := ls_rust_train m n k V U delta cn true delay_h tick max_iter W H in
       (N <= List.length (rr_hist r))%nat -> exists W', rr_state r = Some (W', H) /\ mall m k (fun x => Rabs x < eps) (fun i a => W' i a - L i a)) /\
    ((1 <= cn)%Z -> let r := ls_py_train m n k V U delta cn delay_h true max_iter W H in
       (N <= List.length (pr_hist r))%nat -> exists W', pr_state r = Some (W', H) /\ mall m k (fun x => Rabs x < eps) (fun i a => W' i a - L i a)).
Proof.
  intros m n k V U H W HV HU HH Ho HW. destruct (C140_contributions_settle m n k V U H W HV HU HH Ho HW) as (Wt & L & It & T & B).
  exists L. split; [exact B|]. intros eps Heps.
  assert (Un : exists N, forall t, (N <= t)%nat -> mall m k (fun x => Rabs x < eps) (fun i a => Wt t i a - L i a)).
  { assert (Row : forall i, (i < m)%nat -> forall k', (k' <= k)%nat -> exists N, forall t, (N <= t)%nat -> forall a, (a < k')%nat -> Rabs (Wt t i a - L i a) < eps).
    { intros i Hi. induction k' as [|k' IH]; intros Hk; [exists 0%nat; intros; lia|]. destruct IH as [N HN]; [lia|]. destruct (T i k' Hi ltac:(lia) eps Heps) as [N2 HN2].
      exists (N + N2)%nat. intros t Ht a Ha. destruct (Nat.eq_dec a k') as [-> | Ne]; [apply HN2; unfold ge; lia|apply HN; lia]. }
    assert (All : forall m', (m' <= m)%nat -> exists N, forall t, (N <= t)%nat -> forall i a, (i < m')%nat -> (a < k)%nat -> Rabs (Wt t i a - L i a) < eps).
    { induction m' as [|m' IH]; intros Hm; [exists 0%nat; intros; lia|]. destruct IH as [N HN]; [lia|]. destruct (Row m' ltac:(lia) k (Nat.le_refl k)) as [N2 HN2].
      exists (N + N2)%nat. intros t Ht i a Hi Ha. destruct (Nat.eq_dec i m') as [-> | Ne]; [apply HN2; lia|apply HN; lia]. }
    destruct (All m (Nat.le_refl m)) as [N HN]. exists N. intros t Ht i a Hi Ha. apply HN; assumption. }
  destruct Un as [N HN]. exists N. intros delta cn delay_h max_iter Hh.
  assert (SI : forall i, state_at (ls_step m n k V U) (fun _ => true) (Some (W, H)) i = Some (Wt i, H)).
  { intros i. induction i as [|i IH]; [cbn [state_at]; exact (It 0%nat)|]. cbn [state_at]. rewrite IH. unfold ls_step.
    pose proof (It (S i)) as E2. replace (S i) with (i + 1)%nat in E2 at 1 by lia. rewrite ls_iter_add, (It i) in E2. cbn [ls_iter] in E2.
    destruct (ls_update m n k V (weights U) true (Wt i, H)); [exact E2|discriminate]. }
  split.
  - intros tick r Hl. destruct (rust_summary (ls_step m n k V U) (ls_loss m n k V U) (fbelow delta) cn true delay_h tick (Some (W, H)) max_iter (fun _ => true)) as (_ & _ & C & _).
    { intros i. split; [intros _; apply Hh|reflexivity]. }
    fold (ls_rust_train m n k V U delta cn true delay_h tick max_iter W H) in C. fold r in C. exists (Wt (List.length (rr_hist r))). rewrite C. split; [apply SI|apply HN, Hl].
  - intros Hcn r Hl. destruct (py_summary (ls_step m n k V U) (ls_loss m n k V U) (fbelow delta) (fun o => is_nan (ls_loss m n k V U o)) cn true delay_h (Some (W, H)) max_iter (fun _ => true) Hcn) as (_ & _ & C & _).
    { intros i. split; [intros _; apply Hh|reflexivity]. }
    fold (ls_py_train m n k V U delta cn delay_h true max_iter W H) in C. fold r in C. exists (Wt (List.length (pr_hist r))). rewrite C. split; [apply SI|apply HN, Hl].
Qed.
Print Assumptions C140_run.

(** Without independence the limit depends on the start: two factors with the same
    profile keep the shares they start with. *)
Theorem C140_start_does_not_matter_refuted : exists (m n k : nat) (V U H W W' L L' : mat) (Wt Wt' : nat -> mat),
  mall m n (fun x => 0 <= x) V /\ mall m n (fun u => u <> 0) U /\ mall k n (fun x => 0 <= x) H /\ overlaps m n k V H /\ mall m k (fun x => 0 < x) W /\ mall m k (fun x => 0 < x) W' /\
  (forall t, ls_iter m n k V (weights U) (fun _ => true) 0 t (W, H) = Some (Wt t, H)) /\ tends m k Wt L /\
  (forall t, ls_iter m n k V (weights U) (fun _ => true) 0 t (W', H) = Some (Wt' t, H)) /\ tends m k Wt' L' /\
  L 0%nat 0%nat = 2 /\ L' 0%nat 0%nat = 1.
Proof.
  set (V := (fun _ _ => 4) : mat). set (U := (fun _ _ => 1) : mat). set (H := (fun _ _ => 1) : mat).
  set (W := (fun _ _ => 2) : mat). set (W' := (fun _ a => if (a =? 0)%nat then 1 else 3) : mat).
  assert (HV : mall 1 1 (fun x => 0 <= x) V) by (intros i j _ _; unfold V; lra). assert (HU : mall 1 1 (fun u => u <> 0) U) by (intros i j _ _; unfold U; lra).
  assert (HH : mall 2 1 (fun x => 0 <= x) H) by (intros i j _ _; unfold H; lra).
  assert (Ho : overlaps 1 1 2 V H) by (intros i a _ _; exists 0%nat; split; [lia|unfold V, H; lra]).
  assert (HW : mall 1 2 (fun x => 0 < x) W) by (intros i j _ _; unfold W; lra). assert (HW' : mall 1 2 (fun x => 0 < x) W') by (intros i j _ _; unfold W'; destruct (j =? 0)%nat; lra).
  assert (Fix : forall A Wt, A 0%nat 0%nat + A 0%nat 1%nat = 4 -> (forall t, ls_iter 1 1 2 V (weights U) (fun _ => true) 0 t (A, H) = Some (Wt t, H)) -> forall t a, (a < 2)%nat -> Wt t 0%nat a = A 0%nat a).
  { intros A Wt HA It. induction t as [|t IH]; intros a Ha.
    - specialize (It 0%nat). cbn [ls_iter] in It. injection It as <-. reflexivity.
    - pose proof (It (S t)) as E. replace (S t) with (t + 1)%nat in E at 1 by lia. rewrite ls_iter_add, (It t) in E. cbn [ls_iter ls_update] in E.
      destruct (w_step 1 1 2 V (weights U) (Wt t) H) as [W1|] eqn:Es; [|discriminate]. injection E as E. destruct (w_step_inv _ _ _ _ _ _ _ _ Es) as [_ EW]. rewrite <- E, EW.
      rewrite (IH a Ha). unfold w_num, w_den, wev, mmul, weights, V, U, H. cbn [rsum]. rewrite !IH by lia. match goal with |- _ * (?p / ?q) = _ => assert (Ep : p = 4) by field; assert (Eq : q = 4) by (replace (A 0%nat 1%nat) with (4 - A 0%nat 0%nat) by lra; field); rewrite Ep, Eq end. field. }
  assert (Tn : forall A Wt, (forall t a, (a < 2)%nat -> Wt t 0%nat a = A 0%nat a) -> tends 1 2 Wt A).
  { intros A Wt HA i a Hi Ha. replace i with 0%nat by lia. apply Un_cv_ext with (fun _ => A 0%nat a); [intros t; symmetry; apply HA, Ha|apply cv_const]. }
  destruct (held_facts 1 1 2 V U H W HV HU HH Ho HW) as (Wt & _ & It & _). destruct (held_facts 1 1 2 V U H W' HV HU HH Ho HW') as (Wt' & _ & It' & _).
  exists 1%nat, 1%nat, 2%nat, V, U, H, W, W', W, W', Wt, Wt'. repeat (split; [assumption|]). split; [apply Tn, (Fix W Wt); [unfold W; lra|exact It]|].
  split; [exact It'|]. split; [apply Tn, (Fix W' Wt'); [unfold W'; cbn; lra|exact It']|]. split; reflexivity.
Qed.
Print Assumptions C140_start_does_not_matter_refuted.

(** Two factors of different profiles, one sample: from any positive start the
    contributions tend to the best ones, here (0, 7/10): one of them vanishes. *)
Example C140_instance :
  mall 1 2 (fun x => 0 <= x) zr_V /\ mall 1 2 (fun u => u <> 0) ones /\ mall 2 2 (fun x => 0 <= x) zr_H /\ overlaps 1 2 2 zr_V zr_H /\ mall 1 2 (fun x => 0 < x) sl_W /\
  independent 2 2 zr_H /\ (forall i, held true (-1) i) /\
  best_contributions 1 2 2 zr_V ones zr_H (fun _ a => if (a =? 0)%nat then 0 else 7 / 10) /\
  exists Wt, (forall t, ls_iter 1 2 2 zr_V (weights ones) (fun _ => true) 0 t (sl_W, zr_H) = Some (Wt t, zr_H)) /\ Un_cv (fun t => Wt t 0%nat 0%nat) 0.
Proof.
  assert (A : mall 1 2 (fun x => 0 <= x) zr_V) by (intros i j _ _; unfold zr_V; destruct (j =? 0)%nat; lra).
  assert (B : mall 1 2 (fun u => u <> 0) ones) by (intros i j _ _; unfold ones; lra).
  assert (C : mall 2 2 (fun x => 0 <= x) zr_H) by (intros i j _ _; unfold zr_H; destruct (_ && _); lra).
  assert (D : overlaps 1 2 2 zr_V zr_H) by (intros i a Hi Ha; exists 0%nat; split; [lia|]; unfold zr_V, zr_H; rewrite andb_false_r; cbn; lra).
  assert (E : mall 1 2 (fun x => 0 < x) sl_W) by (intros i j _ _; unfold sl_W; destruct (j =? 0)%nat; lra).
  repeat (split; [assumption|]).
  assert (F : independent 2 2 zr_H); [|assert (G : best_contributions 1 2 2 zr_V ones zr_H (fun _ a => if (a =? 0)%nat then 0 else 7 / 10))].
  2:{ split; [intros i a _ _; cbv beta; destruct (a =? 0)%nat; lra|]. intros W2 HW2. pose proof (HW2 0%nat 0%nat ltac:(lia) ltac:(lia)) as P. pose proof (HW2 0%nat 1%nat ltac:(lia) ltac:(lia)) as Q. cbv beta in P, Q.
      unfold q_loss, msum, resid, mmul, zr_V, zr_H, ones. cbn. set (x := W2 0%nat 0%nat) in *. set (y := W2 0%nat 1%nat) in *.
      pose proof (Rle_0_sqr (x + (y - 7/10))) as S1. pose proof (Rle_0_sqr (x + 2 * (y - 7/10))) as S2. unfold Rsqr in S1, S2. clearbody x y. lra. }
  2:{ split; [exact F|]. split; [intros i; split; [reflexivity|left; lia]|]. split; [exact G|].
      destruct (C140_start_does_not_matter 1 2 2 zr_V ones zr_H sl_W sl_W A B C D F E E) as (Wt & _ & L & It & _ & T & _ & _ & Un). exists Wt. split; [exact It|].
      replace 0 with (L 0%nat 0%nat); [apply T; lia|]. symmetry. apply (Un _ G 0%nat 0%nat); lia. }
  intros c Hc a Ha. pose proof (Hc 0%nat ltac:(lia)) as H0. pose proof (Hc 1%nat ltac:(lia)) as H1. unfold zr_H in H0, H1. cbn in H0, H1. destruct a as [|[|a]]; [lra|lra|lia].
Qed.

Example C140_contributions_settle_example :=
  match C140_instance with conj a (conj b (conj c (conj d (conj e _)))) =>
    C140_contributions_settle 1 2 2 zr_V ones zr_H sl_W a b c d e end.
Example C140_start_does_not_matter_example :=
  match C140_instance with conj a (conj b (conj c (conj d (conj e (conj f _))))) =>
    C140_start_does_not_matter 1 2 2 zr_V ones zr_H sl_W ones a b c d f e (fun _ _ _ _ => Rlt_0_1) end.
Example C140_run_example :=
  match C140_instance with conj a (conj b (conj c (conj d (conj e _)))) =>
    C140_run 1 2 2 zr_V ones zr_H sl_W a b c d e end.
