From Coq Require Import Reals Lra Lia List Bool ZArith Arith FunctionalExtensionality.
From Verif Require Import Base Fl Metrics_Model Metrics_Spec Metrics_Proofs LSNMF_Model LSNMF_Proofs
  Train_Model Train_Spec Train_Proofs Train_LS Layout_Model Layout_Proofs SA_Model SA_Proofs SA_Props
  Boot_Model Boot_Proofs Utils_Model Pipeline_Model Pipeline_Spec Pipeline_Proofs Pipeline_Props Refit_Model Refit_Spec.
Import ListNotations.
Open Scope R_scope.

(** ** Starting from given profiles *)
Lemma fit_kept o m n k v u Hg h g c wsW d tick p :
  (0 < m)%nat -> (0 < n)%nat -> (0 < k)%nat -> mall m n (fun x => 0 <= x) v ->
  rows Hg = k -> cols Hg = n -> entries Hg h ->
  let x a j := made_positive (h a j) in
  let y i a := made_positive (sqrt (rsum n (v i) / INR n / INR k) * c i a) in
  exists Wn Hn, rows Wn = m /\ cols Wn = k /\ entries Wn y /\ rows Hn = k /\ cols Hn = n /\ entries Hn x /\
  fit o (data m n v) (data m n u) k (Some (Some (HArg Hg false), None, ColumnMean false g (fun i a => Fin (c i a)) wsW)) d tick p
  = Trained (run_engine o (data m n v) (data m n (used_unc u)) (ndmap weight_of (data m n (used_unc u))) Wn Hn k tick p).
Proof.
  intros Hm Hn Hk Hv HR HC Hh x y. unfold fit. destruct (construct_data m n k v u Hm Hn Hv) as (s & Ec & Ee). rewrite Ec.
  pose proof (construct_inv _ _ _ _ _ Ec) as (EV & EU & _ & Em & En & Ek & Emth & _ & _ & _ & Einit & _).
  cbn [data rows cols] in Em, En.
  set (kd := ColumnMean false g (fun i a => Fin (c i a)) wsW).
  assert (Hrow : forall i, (i < m)%nat -> 0 <= rsum n (v i)) by (intros; apply rsum_nonneg; intros; apply Hv; assumption).
  pose proof (random_W_fin LSNMF (data m n v) k v c (entries_data m n v) Hn Hk Hrow) as HW. cbn [data rows cols] in HW. fold (data m n v) in HW.
  set (Wr := random_W LSNMF (data m n v) m k (fun i a => Fin (c i a))) in *.
  set (Hf := ndmap (floor_h false) Hg).
  pose proof (floored Hg h Hh) as HF. fold Hf in HF.
  destruct (validate_defined (sV s) (sU s) (s_m s) (s_n s) (s_k s) Hf Wr) as (ok & neg & Ev);
    try (rewrite ?EV, ?EU; cbn; rewrite ?HR, ?HC; assumption).
  assert (Ei : exists s1 cc, initialize s (Some (HArg Hg false)) None kd = InitOk s1 cc /\ s_W s1 = Some Wr /\ s_H s1 = Some Hf).
  { unfold initialize, kd. cbv iota beta zeta. cbn [option_map h_arr h_is_int].
    replace (same_shape Hg (s_k s) (s_n s)) with true by (symmetry; apply same_shape_iff; rewrite Ek, En; split; assumption).
    cbn [option_map h_arr h_is_int]. rewrite Emth. replace (random_W LSNMF (sV s) (s_m s) (s_k s) (fun i a => Fin (c i a))) with Wr by (rewrite EV, Em, Ek; reflexivity).
    fold Hf. rewrite Ev. do 2 eexists. split; [reflexivity|]. split; reflexivity. }
  destruct Ei as (s1 & cc & Ei & EW & EH). rewrite Ei. exists Wr, Hf.
  split; [reflexivity|]. split; [reflexivity|]. split; [exact HW|]. split; [exact HR|]. split; [exact HC|]. split; [exact HF|].
  apply (reach m n k v u s s1 _ None kd cc o d tick p Wr Hf y x Ec Ee Ei EW EH); try assumption; try (split; first [reflexivity|assumption]).
  intros. left. apply made_positive_pos.
Qed.

(** Both matrices given. *)
Lemma fit_both o m n k v u Hg Wg h w d tick p :
  (0 < m)%nat -> (0 < n)%nat -> (0 < k)%nat -> mall m n (fun x => 0 <= x) v ->
  rows Hg = k -> cols Hg = n -> entries Hg h -> rows Wg = m -> cols Wg = k -> entries Wg w ->
  exists Hn, rows Hn = k /\ cols Hn = n /\ entries Hn (fun a j => made_positive (h a j)) /\
  fit o (data m n v) (data m n u) k (given Hg Wg) d tick p
  = Trained (run_engine o (data m n v) (data m n (used_unc u)) (ndmap weight_of (data m n (used_unc u))) Wg Hn k tick p).
Proof.
  intros Hm Hn Hk Hv HR HC Hh WR WC Hw. unfold fit. destruct (construct_data m n k v u Hm Hn Hv) as (s & Ec & Ee). rewrite Ec.
  pose proof (construct_inv _ _ _ _ _ Ec) as (EV & EU & _ & Em & En & Ek & Emth & _ & _ & _ & Einit & _).
  cbn [data rows cols] in Em, En.
  assert (SH : shape (h_arr (HArg Hg false)) (s_k s) (s_n s)) by (rewrite Ek, En; split; assumption).
  pose proof (initialize_user s (HArg Hg false) Wg (fun _ _ => Fin 0) (fun _ _ => Fin 0) (fun x => x) SH) as Ei.
  cbv zeta in Ei. cbn [h_is_int h_arr] in Ei.
  set (Hf := ndmap (floor_h false) Hg) in *. pose proof (floored Hg h Hh) as HF. fold Hf in HF.
  destruct (validate_defined (sV s) (sU s) (s_m s) (s_n s) (s_k s) Hf Wg) as (ok & neg & Ev);
    try (rewrite ?EV, ?EU; cbn; rewrite ?HR, ?HC, ?WR, ?WC; assumption).
  rewrite Ev in Ei. rewrite Ei. exists Hf. split; [exact HR|]. split; [exact HC|]. split; [exact HF|].
  refine (reach m n k v u s _ _ _ _ _ o d tick p Wg Hf w (fun a j => made_positive (h a j)) Ec Ee Ei eq_refl eq_refl _ _ Hw HF _);
    try (split; assumption). intros. left. apply made_positive_pos.
Qed.

(** Enough iterations happen. *)
Lemma engine_length o m n k V U We W H tick p :
  let f := run_engine o V U We W H k tick p in
  rows V = m -> cols V = n -> (1 <= Z.to_nat (p_max_iter p))%nat ->
  (1 <= length (f_hist f))%nat /\ ((2 <= p_cn p)%Z -> (2 <= Z.to_nat (p_max_iter p))%nat -> (2 <= length (f_hist f))%nat).
Proof.
  intros f Hr Hc Hit. unfold f, run_engine. cbn [f_hist].
  match goal with |- context [rust_train ?a1 ?a2 ?a3 ?a4 ?a5 ?a6 ?a7 ?a8 ?a9] =>
    pose proof (rust_summary a1 a2 a3 a4 a5 a6 a7 a9 a8 (hold_at a5 a6) (fun i => hold_at_held_iff a5 a6 i)) as T;
    set (r := rust_train a1 a2 a3 a4 a5 a6 a7 a8 a9) in * end.
  cbv zeta in T. destruct T as (_ & _ & _ & _ & _ & T1 & _ & T2).
  destruct (rr_conv r); [|rewrite T1 by reflexivity; split; [lia|intros; lia]].
  destruct (T2 eq_refl) as [[[T3 _] _] T4]. unfold span in T3. split; [lia|]. intros Hcn Hm2. lia.
Qed.

(** ** The positive case: data read as given, positive start *)
Lemma positive_run m n k v u y x p f :
  (0 < m)%nat -> (0 < n)%nat -> (0 < k)%nat -> mall m n (fun x => 0 <= x) v -> no_empty m n v -> (forall i j, 0 < u i j) ->
  0 < p_alpha p -> mall m k (fun x => 0 < x) y -> mall k n (fun x => 0 < x) x ->
  ((1 <= Z.to_nat (p_max_iter p))%nat -> (1 <= length (f_hist f))%nat) ->
  reports m n k v u v u y x (p_alpha p) (hold_at (p_hold p) (p_delay p)) (p_max_iter p) (p_cn p) (p_delta p) f ->
  improves m n k v u y x (p_alpha p) (p_max_iter p) (p_cn p) (p_delta p) f.
Proof.
  intros Hm Hn Hk Hv Hne Hu Hal Py Px HN1 S. unfold reports in S. cbv zeta in S. destruct S as (S1 & S2 & S3 & S4 & S5 & S6).
  set (N := length (f_hist f)) in *. set (b := hold_at (p_hold p) (p_delay p)) in *.
  assert (HU : mall m n (fun u => u <> 0) u) by (intros i j _ _; pose proof (Hu i j); lra).
  assert (HU' : mall m n (fun u => 0 < u) u) by (intros i j _ _; apply Hu).
  set (qn := Qn m n k v u (p_hold p) (p_delay p) y x).
  assert (At : forall t, exists W H, ls_iter m n k v (weights u) b 0 t (y, x) = Some (W, H) /\
                mall m k (fun x => 0 < x) W /\ mall k n (fun x => 0 < x) H /\ qn t = q_loss m n k true v u W H).
  { intros t. destruct (iter_pos m n k v u (p_hold p) (p_delay p) y x Hm Hn Hk Hv Hne HU Py Px t) as (W & H & E & A & B).
    fold b in E. exists W, H. split; [exact E|]. split; [exact A|]. split; [exact B|]. unfold qn, Qn. fold b. rewrite E. reflexivity. }
  assert (Mono : forall i j, (i <= j)%nat -> qn j <= qn i) by (intros i j Hij; apply Qn_mono; assumption).
  assert (Nth : forall t, (t < N)%nat -> nth_error (f_hist f) t = Some (Fin (qn (S t)))).
  { intros t Ht. rewrite (S5 t Ht). destruct (At (S t)) as (W & H & E & _ & _ & Eq). rewrite E, Eq. reflexivity. }
  destruct (At N) as (W & H & E & PW & PH & Eq). rewrite E in S6.
  destruct S6 as (w1 & h1 & P & F1 & F2 & F3 & F4 & F5 & F6 & F7 & F8 & F9).
  unfold improves. cbv zeta. exists w1, h1, P, (qn N), (qr_loss m n k (p_alpha p) v u W H).
  split; [exact F1|]. split; [exact F3|]. split; [exact F4|].
  split; [intros i a Hi Ha; rewrite F5 by assumption; apply PW; assumption|].
  split; [intros a j Ha Hj; rewrite F6 by assumption; apply PH; assumption|].
  split; [exact F2|]. split.
  { intros i j Hi Hj. rewrite (F7 i j Hi Hj). unfold mmul. apply rsum_ext. intros a Ha. rewrite F5, F6 by assumption. reflexivity. }
  split; [rewrite F8, Eq; reflexivity|]. split.
  { rewrite Eq, misfit_q. apply q_loss_local; try (intros i j _ _; reflexivity); intros i j Hi Hj; symmetry; [apply F5|apply F6]; assumption. }
  split; [exact F9|]. split; [rewrite Eq; apply qr_le_q; assumption|].
  split; [apply (Mono 0%nat N); lia|].
  split; [intros Hit; apply last_nth; fold N; rewrite Nth by (specialize (HN1 ltac:(lia)); lia);
          specialize (HN1 ltac:(lia)); replace (S (N - 1)) with N by lia; reflexivity|]. split.
  { exists (fun t => qn (S t)). split; [exact Nth|]. split; [apply (Mono 0%nat 1%nat); lia|intros t; apply Mono; lia]. }
  intros K Hd HK Hmax. apply S4.
  destruct (small_window m n k v u (p_delta p) (p_hold p) (p_delay p) y x Hm Hn Hk Hv Hne HU Py Px (span (p_cn p)) K 1) as (t & Ht & Hq).
  { pose proof (Mono 0%nat 1%nat ltac:(lia)) as M. change (qn 0%nat) with (misfit m n k v u y x) in M. fold qn. lra. }
  fold qn in Hq. exists (t * span (p_cn p))%nat. split; [nia|]. split; [nia|].
  destruct (At (S (t * span (p_cn p) - span (p_cn p)))) as (Wa & Ha & Ea & _ & _ & Eqa).
  destruct (At (S (t * span (p_cn p)))) as (Wb & Hb' & Eb & _ & _ & Eqb).
  rewrite Ea, Eb, !misfit_q, <- Eqa, <- Eqb. apply fbelow_fin.
  replace (S (t * span (p_cn p) - span (p_cn p))) with (1 + (t - 1) * span (p_cn p))%nat by nia. exact Hq.
Qed.
