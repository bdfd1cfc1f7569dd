(** Property C116: whole runs with the WS-NMF engine. *)
From Coq Require Import Reals Lra Lia List Bool ZArith Arith FunctionalExtensionality.
From Verif Require Import Base Fl Metrics_Model Metrics_Spec Metrics_Proofs LSNMF_Model LSNMF_Proofs WSNMF_Model WSNMF_Proofs WSNMF_Props
  Train_Model Train_Spec Train_Proofs Train_Props Train_LS Layout_Model Layout_Proofs SA_Model SA_Proofs SA_Props
  Pipeline_Model Pipeline_Spec Pipeline_Proofs Pipeline_Props WsRun_Model WsRun_Spec WsRun_Proofs.
Import ListNotations.
Open Scope R_scope.


(** Starting matrices given by the caller. *)
Notation start h w := (Some (Some (HArg h false), Some w, ColumnMean false (fun _ _ => Fin 0) (fun _ _ => Fin 0) (fun x => x))).

Lemma fit_given_ws solve mth o m n k v u w h d tick p :
  (0 < m)%nat -> (0 < n)%nat -> (0 < k)%nat -> needs_ws m n v mth ->
  fit_any solve mth o (data m n v) (data m n u) k (start (data k n h) (data m k w)) d tick p
  = Trained (run_ws solve o (data m n v) (data m n (used_unc u)) (ndmap weight_of (data m n (used_unc u)))
               (data m k w) (data k n (fun a j => made_positive (h a j))) k tick p).
Proof.
  intros Hm Hn Hk Hw. destruct (given_any m n k v u w h mth Hm Hn Hk) as (s0 & s & c & E1 & E2 & E3 & _ & _ & E4).
  unfold fit_any. rewrite E1, E3, E4, (proj2 E2 Hw). reflexivity.
Qed.

(** C116: data stored in any order, starting matrices given by the caller, ws-nmf
    asked for or some value negative.  The engine runs WS-NMF iterations on the
    re-read arrays, stops at the first iteration that meets the criterion, and its
    history is the loss of those; the reported Q values are those of the user's own
    data for the matrices it returns. *)
Theorem C116_engine_and_report :
  forall solve (mth : method) (o : orders) (m n k : nat) (v u w h : mat) d tick (p : settings) (b : nat -> bool),
    inside k solve -> (0 < m)%nat -> (0 < n)%nat -> (0 < k)%nat -> needs_ws m n v mth ->
    (forall i, b i = true <-> held (p_hold p) (p_delay p) i) ->
    let v' := reread (oV o) m n v in let u' := reread (oU o) m n (used_unc u) in
    let st := (reread_rows (oW o) m k w, reread_rows (oH o) k n (fun a j => lifted (h a j))) in
    let at_ t := ws_iter solve m n k v' (weights u') b 0 t st in
    let loss i := match at_ (S i) with None => NaN | Some (W, H) => Fin (misfit m n k v' u' W H) end in
    exists f,
      fit_any solve mth o (data m n v) (data m n u) k (start (data k n h) (data m k w)) d tick p = Trained f /\
      let N := length (f_hist f) in
      (N <= Z.to_nat (p_max_iter p))%nat /\ (f_conv f = false -> N = Z.to_nat (p_max_iter p)) /\ f_steps f = (N - 1)%nat /\
      (f_conv f = true <-> exists t, (t < Z.to_nat (p_max_iter p))%nat /\ criterion (fbelow (p_delta p)) (p_cn p) loss t) /\
      (f_conv f = true -> (1 <= N)%nat /\ first_such (criterion (fbelow (p_delta p)) (p_cn p) loss) (N - 1)) /\
      (forall t, (t < N)%nat -> nth_error (f_hist f) t = Some (loss t)) /\
      match at_ N with
      | None => f_WH f = None /\ f_prod f = None /\ f_Qtrue f = NaN /\ f_Qrobust f = NaN
      | Some (W, H) => exists w1 h1 P, f_WH f = Some (w1, h1) /\ f_prod f = Some P /\
          shaped m k FOrder w1 /\ shaped k n FOrder h1 /\
          meq m k (aget w1) W /\ meq k n (aget h1) H /\ meq m n P (mmul k W H) /\
          f_Qtrue f = Fin (misfit m n k v (used_unc u) W H) /\
          f_Qrobust f = Fin (qr_loss m n k (p_alpha p) v (used_unc u) W H)
      end.
Proof.
  intros solve mth o m n k v u w h d tick p b Hin Hm Hn Hk Hw Hb v' u' st at_ loss.
  eexists. split; [apply fit_given_ws; assumption|].
  exact (run_ws_spec solve k Hin o m n v (used_unc u) (data m k w) (data k n (fun a j => made_positive (h a j))) w
           (fun a j => made_positive (h a j)) tick p b (used_unc_nz u) eq_refl eq_refl (entries_data _ _ _) eq_refl eq_refl (entries_data _ _ _) Hb).
Qed.
Print Assumptions C116_engine_and_report.

(** C116: the starting contributions, and how they are stored, make no difference
    to anything a run with at least one iteration reports. *)
Theorem C116_start_contributions_ignored :
  forall solve (mth : method) oV oU oW oW' oH (m n k : nat) (v u w w' h : mat) d tick (p : settings),
    (0 < m)%nat -> (0 < n)%nat -> (0 < k)%nat -> needs_ws m n v mth -> (0 < p_max_iter p)%Z ->
    fit_any solve mth (mkOrd oV oU oW oH) (data m n v) (data m n u) k (start (data k n h) (data m k w)) d tick p
    = fit_any solve mth (mkOrd oV oU oW' oH) (data m n v) (data m n u) k (start (data k n h) (data m k w')) d tick p.
Proof.
  intros solve mth a1 a2 a3 a3' a4 m n k v u w w' h d tick p Hm Hn Hk Hw Hp. rewrite !fit_given_ws by assumption.
  f_equal. apply run_ws_forget. exact Hp.
Qed.
Print Assumptions C116_start_contributions_ignored.

(** C116: profiles held throughout, data stored by columns and profiles by rows.
    The profiles come back unchanged, the contributions minimise the misfit over
    all real matrices, every entry of the history is that minimum, and the run
    ends after converge_n iterations if converge_delta is positive, and otherwise
    never before max_iter. *)
Theorem C116_held_profiles :
  forall solve (mth : method) ow (m n k : nat) (v u w h : mat) d tick (p : settings),
    inside k solve -> (forall A, ginverse k A (solve k A)) ->
    (0 < m)%nat -> (0 < n)%nat -> (0 < k)%nat -> needs_ws m n v mth ->
    (0 < p_max_iter p)%Z -> p_hold p = true -> (p_delay p <= 0)%Z ->
    let H := (fun a j => lifted (h a j)) : mat in
    let T := Z.to_nat (p_max_iter p) in
    exists f w1 h1 q,
      fit_any solve mth (mkOrd FOrder FOrder ow COrder) (data m n v) (data m n u) k (start (data k n h) (data m k w)) d tick p = Trained f /\
      f_WH f = Some (w1, h1) /\ meq k n (aget h1) H /\
      f_Qtrue f = Fin q /\ q = misfit m n k v (used_unc u) (aget w1) H /\
      (forall W : mat, q <= misfit m n k v (used_unc u) W H) /\
      f_hist f = repeat (Fin q) (length (f_hist f)) /\
      length (f_hist f) = (if Rlt_dec 0 (p_delta p) then Nat.min T (Nat.max 1 (Z.to_nat (p_cn p))) else T) /\
      (f_conv f = true <-> 0 < p_delta p /\ (Z.to_nat (p_cn p) <= T)%nat).
Proof.
  intros solve mth ow m n k v u w h d tick p Hin Hg Hm Hn Hk Hw Hp Hh Hd H T.
  assert (Hb : forall i, (fun _ : nat => true) i = true <-> held (p_hold p) (p_delay p) i).
  { intros i. split; [intros _; split; [exact Hh|left; exact Hd]|reflexivity]. }
  destruct (C116_engine_and_report solve mth (mkOrd FOrder FOrder ow COrder) m n k v u w h d tick p (fun _ => true) Hin Hm Hn Hk Hw Hb)
    as (f & Ef & A & B & _ & D & D' & E & G).
  cbn [oV oU oW oH] in D, D', E, G. change (reread FOrder m n v) with v in *. change (reread FOrder m n (used_unc u)) with (used_unc u) in *.
  change (reread_rows COrder k n (fun a j => lifted (h a j))) with H in *.
  set (N := length (f_hist f)) in *. fold T in A, B, D.
  set (W1 := ws_w_step solve n k v (weights (used_unc u)) H).
  assert (At : forall t W0, (0 < t)%nat -> ws_iter solve m n k v (weights (used_unc u)) (fun _ => true) 0 t (W0, H) = Some (W1, H))
    by (intros t W0 Ht; apply ws_iter_held; [reflexivity|exact Ht]).
  set (q := misfit m n k v (used_unc u) W1 H).
  assert (Crit : forall t, criterion (fbelow (p_delta p)) (p_cn p)
     (fun i => match ws_iter solve m n k v (weights (used_unc u)) (fun _ => true) 0 (S i) (reread_rows ow m k w, H) with
               | None => NaN | Some (W, H0) => Fin (misfit m n k v (used_unc u) W H0) end) t <-> (span (p_cn p) <= t)%nat /\ 0 < p_delta p).
  { intros t. unfold criterion. rewrite !At by lia. fold q. rewrite fbelow_fin. rewrite Rminus_diag_eq by reflexivity. reflexivity. }
  assert (T1 : (1 <= T)%nat) by (unfold T; lia).
  assert (Cv : f_conv f = true <-> 0 < p_delta p /\ (Z.to_nat (p_cn p) <= T)%nat).
  { rewrite D. split.
    - intros (t & Ht & Hc). apply Crit in Hc. destruct Hc as [C1 C2]. split; [exact C2|]. unfold span in C1. lia.
    - intros [C1 C2]. exists (span (p_cn p)). unfold span at 1. split; [lia|]. apply Crit. split; [lia|exact C1]. }
  assert (LN : N = (if Rlt_dec 0 (p_delta p) then Nat.min T (Nat.max 1 (Z.to_nat (p_cn p))) else T)).
  { destruct (f_conv f) eqn:Ec.
    - destruct (proj1 Cv eq_refl) as [C1 C2]. destruct (Rlt_dec 0 (p_delta p)) as [_|]; [|contradiction].
      destruct (D' eq_refl) as (N1 & F1 & F2). apply Crit in F1. destruct F1 as [F1 _].
      assert ((N - 1 <= span (p_cn p))%nat).
      { destruct (Nat.le_gt_cases (N - 1) (span (p_cn p))) as [|L]; [assumption|]. exfalso. apply (F2 (span (p_cn p)) L). apply Crit. split; [lia|exact C1]. }
      unfold span in *. lia.
    - rewrite (B eq_refl). destruct (Rlt_dec 0 (p_delta p)) as [C1|]; [|reflexivity].
      destruct (Nat.le_gt_cases (Z.to_nat (p_cn p)) T) as [L|L]; [|lia].
      assert (false = true) by (apply Cv; split; assumption). discriminate. }
  assert (N1 : (0 < N)%nat) by (rewrite LN; destruct (Rlt_dec 0 (p_delta p)); lia).
  rewrite At in G by exact N1. destruct G as (w1 & h1 & P & G1 & _ & _ & _ & G5 & G6 & _ & G8 & _).
  exists f, w1, h1, q. split; [exact Ef|]. split; [exact G1|]. split; [exact G6|]. split; [exact G8|]. split.
  { unfold q. rewrite !misfit_q. apply q_loss_local; try (intros i j _ _; reflexivity). intros i j Hi Hj. symmetry. apply G5; assumption. }
  split.
  { intros W. assert (HU : mall m n (fun u => 0 < u) (used_unc u)) by (intros i j _ _; apply used_unc_pos).
    assert (HU0 : mall m n (fun u => u <> 0) (used_unc u)) by (intros i j _ _; apply used_unc_nz).
    assert (Hs : ws_update solve m n k v (weights (used_unc u)) true (W, H) = Some (W1, H)) by reflexivity.
    destruct (C10_contributions_optimal solve m n k v (used_unc u) W H W1 H true HU (fun i _ => Hg _) Hs) as [O _].
    unfold q. rewrite !misfit_q, !q_loss_spec by assumption. apply O. }
  split; [|split; [exact LN|exact Cv]].
  apply nth_ext with (d := NaN) (d' := NaN); [rewrite repeat_length; reflexivity|]. intros t Ht. fold N in Ht |- *.
  pose proof (E t Ht) as Et. rewrite At in Et by lia. rewrite (nth_error_nth _ _ _ Et).
  symmetry. assert (In (nth t (repeat (Fin q) N) NaN) (repeat (Fin q) N)) as I by (apply nth_In; rewrite repeat_length; exact Ht).
  exact (repeat_spec _ _ _ I).
Qed.
Print Assumptions C116_held_profiles.

(** C116: ws-nmf on non-negative data stored by columns, started by default.
    Every iteration is defined: the profiles reported are positive, the reported Q
    is the misfit of the reported matrices and is the last entry of the history, and
    Q(robust) lies between 0 and it. *)
Theorem C116_default_run :
  forall solve (m n k : nat) (v u g c : mat) wsW tick (p : settings),
    inside k solve -> (0 < m)%nat -> (0 < n)%nat -> (0 < k)%nat -> mall m n (fun x => 0 <= x) v ->
    (0 < p_max_iter p)%Z -> 0 < p_alpha p ->
    exists f w1 h1 P q r,
      fit_any solve WSNMF (mkOrd FOrder FOrder COrder COrder) (data m n v) (data m n u) k None
        (ColumnMean false (fun a j => Fin (g a j)) (fun i a => Fin (c i a)) wsW) tick p = Trained f /\
      f_WH f = Some (w1, h1) /\ shaped m k FOrder w1 /\ shaped k n FOrder h1 /\
      mall k n (fun x => 0 < x) (aget h1) /\
      f_prod f = Some P /\ meq m n P (fun i j => rsum k (fun a => aget w1 i a * aget h1 a j)) /\
      f_Qtrue f = Fin q /\ q = misfit m n k v (used_unc u) (aget w1) (aget h1) /\
      last (f_hist f) NaN = Fin q /\
      f_Qrobust f = Fin r /\ 0 <= r <= q /\
      (1 <= length (f_hist f) <= Z.to_nat (p_max_iter p))%nat /\
      (forall t, (t < length (f_hist f))%nat -> exists x, nth_error (f_hist f) t = Some (Fin x)).
Proof.
  intros solve m n k v u g c wsW tick p Hin Hm Hn Hk Hv Hit Hal.
  destruct (drawn_states m n k v u (fun a j => Fin (g a j)) (fun i a => Fin (c i a)) wsW WSNMF Hm Hn Hk) as (s0 & s & cc & Ec & Ee & Ei & EH & EW & Et).
  set (kd := ColumnMean false (fun a j => Fin (g a j)) (fun i a => Fin (c i a)) wsW) in *.
  assert (Hcol : forall j, (j < n)%nat -> 0 <= rsum m (fun i => v i j)) by (intros; apply rsum_nonneg; intros; apply Hv; assumption).
  assert (Hrow : forall i, (i < m)%nat -> 0 <= rsum n (v i)) by (intros; apply rsum_nonneg; intros; apply Hv; assumption).
  pose proof (C21_starting_matrices (data m n v) (data m n u) k WSNMF s0 s v g c false wsW cc Ec Hk (entries_data m n v)) as S21.
  cbv zeta in S21. cbn [data rows cols] in S21. destruct (S21 Hcol Hrow Ei) as (Hx & Wx & E1 & E2 & SH & HH & TW & _). destruct (TW eq_refl) as [SW HW].
  set (x := (fun a j => made_positive (sqrt (rsum m (fun i => v i j) / INR m / INR k) * g a j)) : mat) in *.
  set (y := (fun i a => sqrt (rsum n (v i) / INR n / INR k) * c i a) : mat) in *.
  destruct (reach_any solve m n k v u WSNMF s0 s None None kd cc (mkOrd FOrder FOrder COrder COrder) kd tick p Wx Hx y x Ec Ei E2 E1 SW SH HW HH
             (fun a j => Rlt_le _ _ (made_positive_pos _))) as (_ & _ & Tr).
  rewrite (proj2 Ee (or_introl eq_refl)) in Tr.
  set (f := run_ws solve _ _ _ _ _ _ _ _ _) in Tr.
  assert (Ef : fit_any solve WSNMF (mkOrd FOrder FOrder COrder COrder) (data m n v) (data m n u) k None kd tick p = Trained f)
    by (unfold fit_any; rewrite Ec, Et; exact Tr).
  destruct SW as [SW1 SW2], SH as [SH1 SH2].
  set (b := hold_at (p_hold p) (p_delay p)).
  assert (Hb : forall i, b i = true <-> held (p_hold p) (p_delay p) i) by (intros i; apply hold_at_held_iff).
  pose proof (run_ws_spec solve k Hin (mkOrd FOrder FOrder COrder COrder) m n v (used_unc u) Wx Hx y x tick p b
                (used_unc_nz u) SW1 SW2 HW SH1 SH2 HH Hb) as S.
  cbv zeta in S. cbn [oV oU oW oH] in S. fold f in S. set (N := length (f_hist f)) in *.
  change (reread FOrder m n v) with v in S. change (reread FOrder m n (used_unc u)) with (used_unc u) in S.
  change (reread_rows COrder m k y) with y in S. change (reread_rows COrder k n x) with x in S.
  destruct S as (S1 & S2 & S3 & S4 & S4' & S5 & S6).
  assert (HU : mall m n (fun u => u <> 0) (used_unc u)) by (intros i j _ _; apply used_unc_nz).
  assert (HU' : mall m n (fun u => 0 < u) (used_unc u)) by (intros i j _ _; apply used_unc_pos).
  assert (At : forall t, exists W H, ws_iter solve m n k v (weights (used_unc u)) b 0 t (y, x) = Some (W, H) /\ mall k n (fun x => 0 < x) H).
  { intros t. apply ws_iter_defined; [exact Hv| |].
    - intros i j Hi Hj. left. apply (weights_pos m n (used_unc u) HU); assumption.
    - intros a j _ _. apply made_positive_pos. }
  assert (N1 : (1 <= N)%nat) by (destruct (f_conv f); [apply S4'; reflexivity|rewrite S2 by reflexivity; lia]).
  destruct (At N) as (W & H & E & PH). rewrite E in S6. destruct S6 as (w1 & h1 & P & F1 & F2 & F3 & F4 & F5 & F6 & F7 & F8 & F9).
  exists f, w1, h1, P, (q_loss m n k true v (used_unc u) W H), (qr_loss m n k (p_alpha p) v (used_unc u) W H).
  split; [exact Ef|]. split; [exact F1|]. split; [exact F3|]. split; [exact F4|].
  split; [intros a j Ha Hj; rewrite F6 by assumption; apply PH; assumption|].
  split; [exact F2|]. split.
  { intros i j Hi Hj. rewrite (F7 i j Hi Hj). unfold mmul. apply rsum_ext. intros a Ha. rewrite F5, F6 by assumption. reflexivity. }
  split; [exact F8|]. split.
  { rewrite misfit_q. apply q_loss_local; try (intros i j _ _; reflexivity); intros i j Hi Hj; symmetry; [apply F5|apply F6]; assumption. }
  split. { apply last_nth. fold N. rewrite S5 by lia. replace (S (N - 1)) with N by lia. rewrite E. reflexivity. }
  split; [exact F9|]. split; [apply qr_le_q; assumption|]. split; [split; [exact N1|exact S1]|].
  intros t Ht. rewrite (S5 t Ht). destruct (At (S t)) as (Wt & Ht' & Et' & _). rewrite Et'. eexists. reflexivity.
Qed.
Print Assumptions C116_default_run.

(** C116: with the default start (any random draws that are numbers), training is
    refused exactly when some feature or some sample has a negative total; so data
    with negative values, for which ws-nmf is meant, need not be trainable. *)
Theorem C116_default_start_refused :
  forall solve (mth : method) (o : orders) (m n k : nat) (v u g c : mat) wsW tick (p : settings),
    (0 < m)%nat -> (0 < n)%nat -> (0 < k)%nat ->
    (fit_any solve mth o (data m n v) (data m n u) k None
       (ColumnMean false (fun a j => Fin (g a j)) (fun i a => Fin (c i a)) wsW) tick p = Refused
     <-> (exists j, (j < n)%nat /\ rsum m (fun i => v i j) < 0) \/ (exists i, (i < m)%nat /\ rsum n (v i) < 0)).
Proof.
  intros solve mth o m n k v u g c wsW tick p Hm Hn Hk.
  destruct (drawn_states m n k v u (fun a j => Fin (g a j)) (fun i a => Fin (c i a)) wsW mth Hm Hn Hk) as (s0 & s & cc & Ec & Ee & Ei & EH & EW & Et).
  set (kd := ColumnMean false (fun a j => Fin (g a j)) (fun i a => Fin (c i a)) wsW) in *.
  assert (Ef : fit_any solve mth o (data m n v) (data m n u) k None kd tick p = train_any solve o s kd tick p)
    by (unfold fit_any; rewrite Ec; apply Et).
  rewrite Ef.
  destruct (totals_refused (data m n v) k m n (fun a j => Fin (g a j)) (fun i a => Fin (c i a)) mth v (entries_data m n v) eq_refl eq_refl Hm Hn Hk) as [TC TR].
  pose proof (C22_decision_table s0 s None None kd cc kd Ei) as (H1 & W1 & G1 & G2 & Good & Bad).
  rewrite EH in G1. rewrite EW in G2. injection G1 as <-. injection G2 as <-. cbv zeta in Good, Bad. split.
  - intros Er.
    destruct (Classical_Prop.classic ((exists j, (j < n)%nat /\ rsum m (fun i => v i j) < 0) \/ (exists i, (i < m)%nat /\ rsum n (v i) < 0))) as [|No]; [assumption|].
    exfalso.
    assert (Hcol : forall j, (j < n)%nat -> 0 <= rsum m (fun i => v i j)).
    { intros j Hj. destruct (Rle_dec 0 (rsum m (fun i => v i j))) as [|C]; [assumption|]. exfalso. apply No. left. exists j. split; [exact Hj|lra]. }
    assert (Hrow : forall i, (i < m)%nat -> 0 <= rsum n (v i)).
    { intros i Hi. destruct (Rle_dec 0 (rsum n (v i))) as [|C]; [assumption|]. exfalso. apply No. right. exists i. split; [exact Hi|lra]. }
    pose proof (C21_starting_matrices (data m n v) (data m n u) k mth s0 s v g c false wsW cc Ec Hk (entries_data m n v)) as S21.
    cbv zeta in S21. cbn [data rows cols] in S21. destruct (S21 Hcol Hrow Ei) as (Hx & Wx & E1 & E2 & SH & HH & TW & _). destruct (TW eq_refl) as [SW HW].
    destruct (reach_any solve m n k v u mth s0 s None None kd cc o kd tick p Wx Hx _ _ Ec Ei E2 E1 SW SH HW HH
             (fun a j => Rlt_le _ _ (made_positive_pos _))) as (_ & _ & Tr).
    rewrite Tr in Er. discriminate.
  - intros Neg. unfold train_any. rewrite Bad; [reflexivity|]. intros (_ & _ & _ & _ & _ & NH & _ & _ & NW).
    destruct Neg as [Neg|Neg]; [exact (NH (TC Neg))|exact (NW (TR Neg))].
Qed.
Print Assumptions C116_default_start_refused.

(** C116 refuted for the Python engine: without the compiled module, every run that
    needs ws-nmf and has at least one iteration to do ends in a TypeError. *)
Theorem C116_python_engine_refuted :
  forall (mth : method) (m n k : nat) (v u w h : mat) d (p : settings),
    (0 < m)%nat -> (0 < n)%nat -> (0 < k)%nat -> (0 < p_max_iter p)%Z ->
    (fit_python mth (data m n v) (data m n u) k (start (data k n h) (data m k w)) d p = PyTypeError
     <-> needs_ws m n v mth).
Proof.
  intros mth m n k v u w h d p Hm Hn Hk Hp.
  destruct (given_any m n k v u w h mth Hm Hn Hk) as (s0 & s & c & E1 & E2 & E3 & _ & E5 & _).
  unfold fit_python, train_python. rewrite E1, E3, E5. unfold needs_ws. rewrite <- E2.
  destruct (Nat.eqb_spec (Z.to_nat (p_max_iter p)) 0) as [|_]; [lia|]. destruct (s_engine s0); cbn [takes_hold]; split; congruence.
Qed.
Print Assumptions C116_python_engine_refuted.

(** C110 for the Python engine, which runs when the compiled module cannot be
    imported: it iterates LS-NMF on the caller's own values, however they are stored,
    and its history is their loss. *)
Theorem C110_python_engine :
  forall (m n k : nat) (v u w h : mat) d (p : settings) (b : nat -> bool),
    (0 < m)%nat -> (0 < n)%nat -> (0 < k)%nat -> mall m n (fun x => 0 <= x) v -> (1 <= p_cn p)%Z ->
    (forall i, b i = true <-> held (p_hold p) (p_delay p) i) ->
    let at_ t := ls_iter m n k v (weights (used_unc u)) b 0 t (w, fun a j => lifted (h a j)) in
    let loss i := match at_ (S i) with None => NaN | Some (W, H) => Fin (misfit m n k v (used_unc u) W H) end in
    exists r,
      fit_python LSNMF (data m n v) (data m n u) k (start (data k n h) (data m k w)) d p = PyTrained r /\
      let N := length (pr_hist r) in
      (N <= Z.to_nat (p_max_iter p))%nat /\ pr_hist r = map loss (seq 0 N) /\ pr_state r = at_ N /\
      (pr_stop r = PDone -> N = Z.to_nat (p_max_iter p) /\ pr_steps r = N) /\
      (pr_stop r <> PDone -> (0 < N)%nat /\ pr_steps r = (N - 1)%nat) /\
      (pr_stop r = PNaN <-> (0 < N)%nat /\ at_ N = None) /\
      (pr_stop r = PConverged -> criterion (fbelow (p_delta p)) (p_cn p) loss (N - 1)).
Proof.
  intros m n k v u w h d p b Hm Hn Hk Hv Hc Hb at_ loss.
  destruct (given_any m n k v u w h LSNMF Hm Hn Hk) as (s0 & s & c & E1 & E2 & E3 & Ek & E5 & _).
  assert (L : s_engine s0 = LSNMF).
  { destruct (s_engine s0) eqn:Eg; [reflexivity|]. destruct (proj1 E2 eq_refl) as [C|(i & j & Hi & Hj & C)]; [discriminate|].
    pose proof (Hv i j Hi Hj) as P. cbv beta in P. lra. }
  set (st0 := (w, fun a j => made_positive (h a j)) : mat * mat).
  exists (py_train (ls_step m n k v (used_unc u)) (ls_loss m n k v (used_unc u)) (fbelow (p_delta p))
            (fun o => is_nan (ls_loss m n k v (used_unc u) o)) (p_cn p) (p_delay p) (p_hold p) (p_max_iter p) (Some st0)).
  split.
  - unfold fit_python, train_python. rewrite E1, E3, E5, L. cbn [takes_hold]. rewrite Ek. cbn [data rows cols cell num].
    assert (EW : (fun i j => num (cell (ndmap weight_of (data m n (used_unc u))) i j)) = weights (used_unc u)).
    { extensionality i. extensionality j. unfold weights. cbn [ndmap data cell]. rewrite num_weight by apply used_unc_nz. reflexivity. }
    rewrite EW. destruct (Nat.eqb_spec (Z.to_nat (p_max_iter p)) 0) as [Z0|_]; [|reflexivity].
    unfold py_train. rewrite Z0. reflexivity.
  - pose proof (C13_python_history _ _ (ls_step m n k v (used_unc u)) (ls_loss m n k v (used_unc u)) (fbelow (p_delta p))
      (fun o => is_nan (ls_loss m n k v (used_unc u) o)) (p_cn p) (p_hold p) (p_delay p) (Some st0) (p_max_iter p) b Hc Hb) as SU.
    cbv zeta in SU. set (r := py_train _ _ _ _ _ _ _ _ _) in *. intros N. fold N in SU.
    assert (AT : forall t, state_at (ls_step m n k v (used_unc u)) b (Some st0) t = at_ t) by (intros t; apply state_at_any).
    assert (LO : forall t, loss_at (ls_step m n k v (used_unc u)) (ls_loss m n k v (used_unc u)) b (Some st0) t = loss t).
    { intros t. unfold loss_at, loss. rewrite AT. unfold ls_loss. destruct (at_ (S t)) as [[]|]; reflexivity. }
    destruct SU as (S1 & S2 & S3 & S4 & S5 & S6 & S7). rewrite AT in S3. split; [exact S1|]. split.
    { etransitivity; [exact S2|]. apply map_ext. exact LO. }
    split; [exact S3|]. split; [exact S4|]. split; [exact S5|]. split.
    { rewrite S3 in S6. rewrite S6. unfold ls_loss. destruct (at_ N) as [[]|]; cbn [is_nan]; split; intros [A B]; (split; [exact A|]); try reflexivity; discriminate. }
    intros C. apply S7 in C. destruct C as [C1 C2]. split; [exact C1|]. rewrite !LO in C2. exact C2.
Qed.
Print Assumptions C110_python_engine.

(** An inverse routine for one factor, and data with a negative value whose totals
    are not negative. *)
Definition solve1 : nat -> mat -> mat := fun _ A _ _ => if Req_EM_T (A 0%nat 0%nat) 0 then 0 else / A 0%nat 0%nat.
Example C116_instance :
  (forall A, ginverse 1 A (solve1 1 A)) /\ inside 1 solve1 /\
  needs_ws 2 2 (cells [[-1; 2]; [3; 4]]) LSNMF /\
  (forall j, (j < 2)%nat -> 0 < rsum 2 (fun i => cells [[-1; 2]; [3; 4]] i j)) /\
  rsum 2 (cells [[-1; 2]; [-3; 4]] 0%nat) = 1 /\ rsum 2 (fun i => cells [[-1; 2]; [-3; 4]] i 0%nat) = -4.
Proof.
  split. { intros A a b Ha Hb. assert (a = 0%nat) by lia. assert (b = 0%nat) by lia. subst a b. unfold mmul, solve1. cbn [rsum].
    destruct (Req_EM_T _ 0) as [->|]; [ring|field; assumption]. }
  split. { intros A B E a b _ _. unfold solve1. rewrite (E 0%nat 0%nat) by lia. reflexivity. }
  split; [right; exists 0%nat, 0%nat; cbn; repeat split; lia || lra|].
  split; [intros [|[|j]] Hj; cbn; lra || lia|]. cbn. split; lra.
Qed.

Definition xwr_v : mat := cells [[-1; 2]; [3; 4]].
Definition xwr_p : settings := mkSet 1 1 10 4 true (-1).
Definition xwr_o : mat := fun _ _ => 1.
Lemma xwr_held i : (fun _ : nat => true) i = true <-> held (p_hold xwr_p) (p_delay xwr_p) i.
Proof. unfold held. cbn. split; [intros _; split; [reflexivity | left; lia] | reflexivity]. Qed.
Lemma xwr_needs : needs_ws 2 2 xwr_v LSNMF.
Proof. apply C116_instance. Qed.
Lemma xwr_ins : inside 1 solve1.
Proof. apply C116_instance. Qed.
Example C116_engine_and_report_example d tick :=
  C116_engine_and_report solve1 LSNMF (mkOrd FOrder FOrder COrder COrder) 2 2 1 xwr_v xwr_o xwr_o xwr_o d tick xwr_p (fun _ => true) xwr_ins ltac:(lia) ltac:(lia) ltac:(lia) xwr_needs xwr_held.
Example C116_start_contributions_ignored_example d tick :=
  C116_start_contributions_ignored solve1 LSNMF FOrder FOrder COrder FOrder COrder 2 2 1 xwr_v xwr_o xwr_o (fun i _ => INR i) xwr_o d tick xwr_p ltac:(lia) ltac:(lia) ltac:(lia) xwr_needs ltac:(cbn; lia).
Example C116_held_profiles_example d tick :=
  C116_held_profiles solve1 LSNMF COrder 2 2 1 xwr_v xwr_o xwr_o xwr_o d tick xwr_p xwr_ins (proj1 C116_instance) ltac:(lia) ltac:(lia) ltac:(lia) xwr_needs ltac:(cbn; lia) eq_refl ltac:(cbn; lia).
Example C116_default_run_example wsW tick :=
  C116_default_run solve1 2 2 1 (fun i j => INR (i + j)) xwr_o xwr_o xwr_o wsW tick xwr_p xwr_ins ltac:(lia) ltac:(lia) ltac:(lia) ltac:(intros i j _ _; apply pos_INR) ltac:(cbn; lia) ltac:(cbn; lra).
Example C116_default_start_refused_example wsW tick :=
  C116_default_start_refused solve1 WSNMF (mkOrd FOrder FOrder COrder COrder) 2 2 1 xwr_v xwr_o xwr_o xwr_o wsW tick xwr_p ltac:(lia) ltac:(lia) ltac:(lia).
Example C110_python_engine_example d :=
  C110_python_engine 2 2 1 (fun i j => INR (i + j)) xwr_o xwr_o xwr_o d xwr_p (fun _ => true) ltac:(lia) ltac:(lia) ltac:(lia) ltac:(intros i j _ _; apply pos_INR) ltac:(cbn; lia) xwr_held.
