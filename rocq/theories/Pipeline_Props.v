(** Properties C109-C111: whole runs with the compiled LS-NMF engine. *)
From Coq Require Import Reals Lra Lia List Bool ZArith Arith.
From Verif Require Import Base Fl Metrics_Model Metrics_Spec Metrics_Proofs LSNMF_Model LSNMF_Proofs
  Train_Model Train_Spec Train_Proofs Train_LS Layout_Model Layout_Proofs SA_Model SA_Proofs SA_Props
  Pipeline_Model Pipeline_Spec Pipeline_Proofs.
Import ListNotations.
Open Scope R_scope.

Lemma misfit_q m n k v u w h : misfit m n k v u w h = q_loss m n k true v u w h.
Proof. reflexivity. Qed.

Lemma last_nth {A} (l : list A) (x d : A) : nth_error l (length l - 1) = Some x -> last l d = x.
Proof.
  induction l as [|a [|b l] IH]; intros E; cbn in E; [discriminate|injection E as ->; reflexivity|].
  cbn [last]. apply IH. cbn. rewrite Nat.sub_0_r in *. exact E.
Qed.

(** C109: a default run on data stored by columns.  Whatever the random draws and
    the uncertainties, training runs; the results are positive; WH is their
    product; the reported Q(true) is the misfit of the reported matrices to the
    user's data and is the last entry of the history; the history never rises and
    stays below the misfit of the starting matrices; Q(robust) is between 0 and
    Q(true); and it converges given enough iterations. *)
Theorem C109_default_run :
  forall (m n k : nat) (v u g c : mat) wsW tick (p : settings),
    (0 < m)%nat -> (0 < n)%nat -> (0 < k)%nat -> mall m n (fun x => 0 <= x) v -> no_empty m n v ->
    (0 < p_max_iter p)%Z -> 0 < p_alpha p ->
    let x := (fun a j => lifted (sqrt (rsum m (fun i => v i j) / INR m / INR k) * g a j)) : mat in
    let y := (fun i a => lifted (sqrt (rsum n (v i) / INR n / INR k) * c i a)) : mat in
    let q0 := misfit m n k v (used_unc u) y x in
    exists f w1 h1 P q r,
      fit (mkOrd FOrder FOrder COrder COrder) (data m n v) (data m n u) k None
        (ColumnMean false (fun a j => Fin (g a j)) (fun i a => Fin (c i a)) wsW) tick p = Trained f /\
      f_WH f = Some (w1, h1) /\ shaped m k FOrder w1 /\ shaped k n FOrder h1 /\
      mall m k (fun z => 0 < z) (aget w1) /\ mall k n (fun z => 0 < z) (aget h1) /\
      f_prod f = Some P /\ meq m n P (fun i j => rsum k (fun a => aget w1 i a * aget h1 a j)) /\
      f_Qtrue f = Fin q /\ q = misfit m n k v (used_unc u) (aget w1) (aget h1) /\
      last (f_hist f) NaN = Fin q /\ f_Qrobust f = Fin r /\ 0 <= r <= q /\ q <= q0 /\
      (1 <= length (f_hist f) <= Z.to_nat (p_max_iter p))%nat /\ f_steps f = (length (f_hist f) - 1)%nat /\
      (f_conv f = false -> length (f_hist f) = Z.to_nat (p_max_iter p)) /\
      (exists qs : nat -> R, (forall t, (t < length (f_hist f))%nat -> nth_error (f_hist f) t = Some (Fin (qs t))) /\
         qs 0%nat <= q0 /\ forall t, qs (S t) <= qs t) /\
      (forall K, 0 < p_delta p -> q0 < INR K * p_delta p -> (Z.of_nat (K * span (p_cn p)) < p_max_iter p)%Z -> f_conv f = true).
Proof.
  intros m n k v u g c wsW tick p Hm Hn Hk Hv Hne Hit Hal x y q0.
  destruct (fit_drawn (mkOrd FOrder FOrder COrder COrder) m n k v u g c wsW tick p Hm Hn Hk Hv)
    as (Wn & Hx & R1 & R2 & HW & R3 & R4 & HH & Ef).
  change (entries Wn y) in HW. change (entries Hx x) in HH.
  set (b := hold_at (p_hold p) (p_delay p)).
  assert (Hb : forall i, b i = true <-> held (p_hold p) (p_delay p) i) by (intros i; apply hold_at_held_iff).
  pose proof (run_engine_spec (mkOrd FOrder FOrder COrder COrder) m n k v (used_unc u) Wn Hx y x tick p b
                (used_unc_nz u) R1 R2 HW R3 R4 HH Hb) as S.
  cbv zeta in S. cbn [oV oU oW oH] in S.
  set (f := run_engine _ _ _ _ _ _ _ _ _) in *. set (N := length (f_hist f)) in *.
  change (reread FOrder m n v) with v in S. change (reread FOrder m n (used_unc u)) with (used_unc u) in S.
  change (reread_rows COrder m k y) with y in S. change (reread_rows COrder k n x) with x in S.
  destruct S as (S1 & S2 & S3 & S4 & S5 & S6).
  assert (HU : mall m n (fun u => u <> 0) (used_unc u)) by (intros i j _ _; apply used_unc_nz).
  assert (HU' : mall m n (fun u => 0 < u) (used_unc u)) by (intros i j _ _; apply used_unc_pos).
  assert (Py : mall m k (fun x => 0 < x) y) by (intros i j _ _; apply made_positive_pos).
  assert (Px : mall k n (fun x => 0 < x) x) by (intros i j _ _; apply made_positive_pos).
  set (qn := Qn m n k v (used_unc u) (p_hold p) (p_delay p) y x).
  assert (At : forall t, exists W H, ls_iter m n k v (weights (used_unc u)) b 0 t (y, x) = Some (W, H) /\
                mall m k (fun x => 0 < x) W /\ mall k n (fun x => 0 < x) H /\ qn t = q_loss m n k true v (used_unc u) W H).
  { intros t. destruct (iter_pos m n k v (used_unc u) (p_hold p) (p_delay p) y x Hm Hn Hk Hv Hne HU Py Px t) as (W & H & E & A & B).
    fold b in E. exists W, H. split; [exact E|]. split; [exact A|]. split; [exact B|]. unfold qn, Qn. fold b. rewrite E. reflexivity. }
  assert (Mono : forall i j, (i <= j)%nat -> qn j <= qn i) by (intros i j Hij; apply Qn_mono; assumption).
  assert (Nth : forall t, (t < N)%nat -> nth_error (f_hist f) t = Some (Fin (qn (S t)))).
  { intros t Ht. rewrite (S5 t Ht). destruct (At (S t)) as (W & H & E & _ & _ & Eq). rewrite E, Eq. reflexivity. }
  assert (N1 : (1 <= N)%nat).
  { destruct (f_conv f) eqn:Ecv; [|rewrite (S2 eq_refl); lia].
    destruct (Nat.eq_dec N 0) as [E0|]; [|lia]. exfalso.
    assert (Eh : f_conv f = false); [|congruence].
    unfold N in E0. unfold f in E0 |- *. unfold run_engine in E0 |- *. cbn [f_hist f_conv] in E0 |- *.
    match goal with |- rr_conv (rust_train ?a1 ?a2 ?a3 ?a4 ?a5 ?a6 ?a7 ?a8 ?a9) = _ =>
      pose proof (rust_summary a1 a2 a3 a4 a5 a6 a7 a9 a8 b Hb) as T end.
    cbv zeta in T. destruct T as (_ & _ & _ & _ & _ & _ & _ & T). match goal with |- ?z = false => destruct z; [|reflexivity] end.
    destruct (T eq_refl) as [_ T']. lia. }
  destruct (At N) as (W & H & E & PW & PH & Eq). rewrite E in S6.
  destruct S6 as (w1 & h1 & P & F1 & F2 & F3 & F4 & F5 & F6 & F7 & F8 & F9).
  exists f, w1, h1, P, (qn N), (qr_loss m n k (p_alpha p) v (used_unc u) W H).
  split; [exact Ef|]. split; [exact F1|]. split; [exact F3|]. split; [exact F4|].
  split; [intros i a Hi Ha; rewrite F5 by assumption; apply PW; assumption|].
  split; [intros a j Ha Hj; rewrite F6 by assumption; apply PH; assumption|].
  split; [exact F2|]. split.
  { intros i j Hi Hj. rewrite (F7 i j Hi Hj). unfold mmul. apply rsum_ext. intros a Ha. rewrite F5, F6 by assumption. reflexivity. }
  split; [rewrite F8, Eq; reflexivity|]. split.
  { rewrite Eq, misfit_q. apply q_loss_local; try (intros i j _ _; reflexivity); intros i j Hi Hj; symmetry; [apply F5|apply F6]; assumption. }
  split; [apply last_nth; fold N; rewrite Nth by lia; replace (S (N - 1)) with N by lia; reflexivity|].
  split; [exact F9|]. split; [rewrite Eq; apply qr_le_q; assumption|].
  split; [apply (Mono 0%nat N); lia|]. split; [split; [exact N1|exact S1]|]. split; [exact S3|]. split; [exact S2|]. split.
  { exists (fun t => qn (S t)). split; [exact Nth|]. split; [apply (Mono 0%nat 1%nat); lia|intros t; apply Mono; lia]. }
  intros K Hd HK Hmax. apply S4.
  destruct (small_window m n k v (used_unc u) (p_delta p) (p_hold p) (p_delay p) y x Hm Hn Hk Hv Hne HU Py Px (span (p_cn p)) K 1) as (t & Ht & Hq).
  { pose proof (Mono 0%nat 1%nat ltac:(lia)) as M. change (qn 0%nat) with q0 in M. fold qn. lra. }
  fold qn in Hq. exists (t * span (p_cn p))%nat. split; [nia|]. split; [nia|].
  destruct (At (S (t * span (p_cn p) - span (p_cn p)))) as (Wa & Ha & Ea & _ & _ & Eqa).
  destruct (At (S (t * span (p_cn p)))) as (Wb & Hb' & Eb & _ & _ & Eqb).
  rewrite Ea, Eb, <- Eqa, <- Eqb. apply fbelow_fin.
  replace (S (t * span (p_cn p) - span (p_cn p))) with (1 + (t - 1) * span (p_cn p))%nat by nia. exact Hq.
Qed.
Print Assumptions C109_default_run.

Example C109_instance :
  let v := (fun i j => INR (i + j)) : mat in
  mall 2 2 (fun x => 0 <= x) v /\ no_empty 2 2 v /\
  (0 < p_max_iter (mkSet 5 1 10 4 false (-1)))%Z /\ 0 < p_alpha (mkSet 5 1 10 4 false (-1)) /\
  used_unc (fun _ _ => -3) 0%nat 0%nat = / 10 ^ 12.
Proof.
  intros v. split; [intros i j _ _; apply pos_INR|]. split.
  - split; [intros i Hi|intros j Hj]; exists 1%nat; (split; [lia|]); unfold v; apply lt_0_INR; lia.
  - cbn [p_max_iter p_alpha]. split; [lia|]. split; [lra|]. unfold used_unc. apply Rmax_left.
    assert (0 < / 10 ^ 12) by (apply Rinv_0_lt_compat, pow_lt; lra). lra.
Qed.

(** C110: data stored in any order, with starting matrices given by the caller.
    The engine trains on the re-read arrays, and its history is their loss; the
    reported Q(true), Q(robust) are those of the user's own data for the
    matrices it returns. *)
Theorem C110_engine_and_report :
  forall (o : orders) (m n k : nat) (v u w h : mat) d tick (p : settings) (b : nat -> bool),
    (0 < m)%nat -> (0 < n)%nat -> (0 < k)%nat -> mall m n (fun x => 0 <= x) v ->
    (forall i, b i = true <-> held (p_hold p) (p_delay p) i) ->
    let v' := reread (oV o) m n v in let u' := reread (oU o) m n (used_unc u) in
    let start := (reread_rows (oW o) m k w, reread_rows (oH o) k n (fun a j => lifted (h a j))) in
    let at_ t := ls_iter m n k v' (weights u') b 0 t start in
    exists f,
      fit o (data m n v) (data m n u) k
        (Some (Some (HArg (data k n h) false), Some (data m k w),
               ColumnMean false (fun _ _ => Fin 0) (fun _ _ => Fin 0) (fun x => x))) d tick p = Trained f /\
      let N := length (f_hist f) in
      (N <= Z.to_nat (p_max_iter p))%nat /\ (f_conv f = false -> N = Z.to_nat (p_max_iter p)) /\ f_steps f = (N - 1)%nat /\
      (f_conv f = true <-> exists t, (t < Z.to_nat (p_max_iter p))%nat /\
         criterion (fbelow (p_delta p)) (p_cn p) (fun i => match at_ (S i) with None => NaN | Some (W, H) => Fin (misfit m n k v' u' W H) end) t) /\
      (forall t, (t < N)%nat -> nth_error (f_hist f) t =
         Some (match at_ (S t) with None => NaN | Some (W, H) => Fin (misfit m n k v' u' W H) end)) /\
      match at_ N with
      | None => f_WH f = None /\ f_prod f = None /\ f_Qtrue f = NaN /\ f_Qrobust f = NaN
      | Some (W, H) => exists w1 h1 P, f_WH f = Some (w1, h1) /\ f_prod f = Some P /\
          shaped m k FOrder w1 /\ shaped k n FOrder h1 /\
          meq m k (aget w1) W /\ meq k n (aget h1) H /\ meq m n P (mmul k W H) /\
          f_Qtrue f = Fin (misfit m n k v (used_unc u) W H) /\
          f_Qrobust f = Fin (qr_loss m n k (p_alpha p) v (used_unc u) W H)
      end.
Proof.
  intros o m n k v u w h d tick p b Hm Hn Hk Hv Hb v' u' start at_.
  eexists. split; [apply fit_given; assumption|].
  exact (run_engine_spec o m n k v (used_unc u) (data m k w) (data k n (fun a j => made_positive (h a j))) w
           (fun a j => made_positive (h a j)) tick p b (used_unc_nz u) eq_refl eq_refl (entries_data _ _ _) eq_refl eq_refl (entries_data _ _ _) Hb).
Qed.
Print Assumptions C110_engine_and_report.

(** One iteration with the profiles held. *)
Lemma one_held m n k V We b W H : b 0%nat = true ->
  (forall i a, (i < m)%nat -> (a < k)%nat -> w_den n k We W H i a <> 0) ->
  ls_iter m n k V We b 0 1 (W, H) = Some (fun i a => W i a * (w_num n V We H i a / w_den n k We W H i a), H).
Proof. intros Eb Hd. cbn [ls_iter]. unfold ls_update. rewrite Eb. unfold w_step. apply all_nz_true in Hd. rewrite Hd. reflexivity. Qed.

Lemma one_iteration f m : (f_conv f = true <-> exists t, (t < Z.to_nat 1)%nat /\ (9 <= t)%nat /\ m t) ->
  (f_conv f = false -> length (f_hist f) = Z.to_nat 1) -> length (f_hist f) = 1%nat.
Proof.
  intros A B. destruct (f_conv f); [|rewrite B by reflexivity; reflexivity].
  exfalso. destruct (proj1 A eq_refl) as (t & Ht & Ht' & _). lia.
Qed.

Lemma unit_unc : used_unc (fun _ _ => 1) = fun _ _ => 1.
Proof.
  apply FunctionalExtensionality.functional_extensionality. intros i. apply FunctionalExtensionality.functional_extensionality. intros j.
  unfold used_unc. apply Rmax_right. rewrite <- Rinv_1. apply Rinv_le_contravar; [lra|]. apply pow_R1_Rle. lra.
Qed.
Lemma lifted_pos x : 0 < x -> lifted x = x.
Proof. intros Hx. unfold lifted. destruct (Rle_dec x 0); lra. Qed.

Definition held_once := mkSet 1 1 10 4 true (-1).

Definition cells (l : list (list R)) : mat := fun i j => nth j (nth i l []) 0.

(** The outcome of one held iteration in terms of concrete matrices. *)
Lemma held_spec o m n k v u Wn Hn w h W' H' tick :
  (forall i j, u i j <> 0) ->
  rows Wn = m -> cols Wn = k -> entries Wn w -> rows Hn = k -> cols Hn = n -> entries Hn h ->
  let v' := reread (oV o) m n v in let u' := reread (oU o) m n u in
  let w' := reread_rows (oW o) m k w in let h' := reread_rows (oH o) k n h in
  (forall i a, (i < m)%nat -> (a < k)%nat -> w_den n k (weights u') w' h' i a <> 0 /\
     W' i a * w_den n k (weights u') w' h' i a = w' i a * w_num n v' (weights u') h' i a) ->
  meq k n h' H' ->
  let f := run_engine o (data m n v) (data m n u) (ndmap weight_of (data m n u)) Wn Hn k tick held_once in
  f_hist f = [Fin (misfit m n k v' u' W' H')] /\ f_Qtrue f = Fin (misfit m n k v u W' H') /\
  exists w1 h1, f_WH f = Some (w1, h1) /\ shaped m k FOrder w1 /\ shaped k n FOrder h1 /\ meq m k (aget w1) W' /\ meq k n (aget h1) H'.
Proof.
  intros Hu R1 R2 Ew R3 R4 Eh v' u' w' h' Hd EH f.
  destruct (run_engine_spec o m n k v u Wn Hn w h tick held_once (hold_at true (-1)) Hu R1 R2 Ew R3 R4 Eh (fun i => hold_at_held_iff true (-1) i))
    as (A & B & C & D & E & F).
  fold f v' u' w' h' in A, B, C, D, E, F. cbn [p_max_iter held_once p_cn p_delta] in B, D.
  pose proof (one_iteration f _ D B) as N1. rewrite N1 in E, F. specialize (E 0%nat ltac:(lia)).
  rewrite one_held in E, F; [|reflexivity|intros i a Hi Ha; apply Hd; assumption
                              |reflexivity|intros i a Hi Ha; apply Hd; assumption].
  assert (EW : meq m k (fun i a => w' i a * (w_num n v' (weights u') h' i a / w_den n k (weights u') w' h' i a)) W').
  { intros i a Hi Ha. destruct (Hd i a Hi Ha) as [D1 D2]. apply (Rmult_eq_reg_r (w_den n k (weights u') w' h' i a)); [|exact D1].
    rewrite D2. field. exact D1. }
  destruct F as (w1 & h1 & P & F1 & _ & F3 & F4 & F5 & F6 & _ & F8 & _). split; [|split].
  - destruct (f_hist f) as [|x [|y l]]; cbn in N1, E; try discriminate. injection E as ->. f_equal. f_equal.
    apply q_loss_local; try (intros i j _ _; reflexivity); assumption.
  - rewrite F8. f_equal. apply q_loss_local; try (intros i j _ _; reflexivity); assumption.
  - exists w1, h1. split; [exact F1|]. split; [exact F3|]. split; [exact F4|].
    split; intros i j Hi Hj; [rewrite F5 by assumption; apply EW; assumption|rewrite F6 by assumption; apply EH; assumption].
Qed.

Ltac small i j Hi Hj := destruct i as [|[|i]]; try lia; destruct j as [|[|j]]; try lia; clear Hi Hj.
Ltac calc := unfold w_den, w_num, wev, mmul, weights, reread, reread_rows, cells; cbn; try lra; try field.

(** The reported Q(true) need not be the last entry of the history: V = [[1,2],[3,4]]
    stored by rows. *)
Theorem C110_report_is_last_of_history_refuted :
  exists f, fit (mkOrd COrder COrder COrder COrder) (data 2 2 (cells [[1; 2]; [3; 4]])) (data 2 2 (fun _ _ => 1)) 1
      (Some (Some (HArg (data 1 2 (fun _ _ => 1)) false), Some (data 2 1 (fun _ _ => 1)),
             ColumnMean false (fun _ _ => Fin 0) (fun _ _ => Fin 0) (fun x => x)))
      (ColumnMean false (fun _ _ => Fin 0) (fun _ _ => Fin 0) (fun x => x)) (fun _ => false) held_once = Trained f /\
    f_hist f = [Fin 4] /\ f_Qtrue f = Fin 2.
Proof.
  eexists. split.
  { apply fit_given; try lia. intros i j Hi Hj. small i j Hi Hj; cbn; lra. }
  rewrite unit_unc.
  match goal with |- context [run_engine ?o ?a ?b ?c (data ?m ?k ?w) (data _ ?n ?h) _ ?tk _] =>
    destruct (held_spec o m n k (cells [[1; 2]; [3; 4]]) (fun _ _ => 1) (data m k w) (data k n h) w h (cells [[2]; [3]]) (fun _ _ => 1) tk) as (A & B & _) end;
    try reflexivity; try apply entries_data.
  - intros; lra.
  - cbv zeta. cbn [oV oU oW oH]. intros i a Hi Ha. replace (made_positive 1) with 1 by (symmetry; apply lifted_pos; lra).
    small i a Hi Ha; calc; split; lra.
  - intros i j Hi Hj. cbn. apply lifted_pos. lra.
  - split; [rewrite A|rewrite B]; f_equal; try f_equal; unfold misfit, msum, reread, cells, Rsqr; cbn; lra.
Qed.
Print Assumptions C110_report_is_last_of_history_refuted.

(** Training can make a perfect solution worse: V = [[1,2],[1,2]] stored by rows is
    reproduced exactly by the starting matrices. *)
Theorem C110_training_never_worsens_refuted :
  let v := cells [[1; 2]; [1; 2]] in let h := cells [[1; 2]] in
  misfit 2 2 1 v (fun _ _ => 1) (fun _ _ => 1) h = 0 /\
  exists f, fit (mkOrd COrder COrder COrder COrder) (data 2 2 v) (data 2 2 (fun _ _ => 1)) 1
      (Some (Some (HArg (data 1 2 h) false), Some (data 2 1 (fun _ _ => 1)),
             ColumnMean false (fun _ _ => Fin 0) (fun _ _ => Fin 0) (fun x => x)))
      (ColumnMean false (fun _ _ => Fin 0) (fun _ _ => Fin 0) (fun x => x)) (fun _ => false) held_once = Trained f /\
    f_Qtrue f = Fin 1.
Proof.
  intros v h. split; [unfold misfit, msum, v, h, cells, Rsqr; cbn; lra|].
  eexists. split.
  { apply fit_given; try lia. intros i j Hi Hj. unfold v. small i j Hi Hj; cbn; lra. }
  rewrite unit_unc.
  match goal with |- context [run_engine ?o ?a ?b ?c (data ?m ?k ?w) (data _ ?n ?h') _ ?tk _] =>
    destruct (held_spec o m n k v (fun _ _ => 1) (data m k w) (data k n h') w h' (cells [[3/5]; [6/5]]) h tk) as (_ & B & _) end;
    try reflexivity; try apply entries_data.
  - intros; lra.
  - cbv zeta. cbn [oV oU oW oH]. intros i a Hi Ha. unfold v, h.
    assert (E1 : made_positive 1 = 1) by (apply lifted_pos; lra). assert (E2 : made_positive 2 = 2) by (apply lifted_pos; lra).
    small i a Hi Ha; calc; rewrite E1, E2; split; lra.
  - intros i j Hi Hj. unfold h. small i j Hi Hj; cbn; apply lifted_pos; lra.
  - rewrite B; f_equal. unfold misfit, msum, v, h, cells, Rsqr; cbn; lra.
Qed.
Print Assumptions C110_training_never_worsens_refuted.

Example C110_instance :
  mall 2 2 (fun x => 0 <= x) (cells [[1; 2]; [3; 4]]) /\
  (forall i, hold_at true (-1) i = true <-> held (p_hold held_once) (p_delay held_once) i) /\
  reread COrder 2 2 (cells [[1; 2]; [3; 4]]) 0%nat 1%nat = 3.
Proof.
  split; [intros i j Hi Hj; small i j Hi Hj; cbn; lra|]. split; [intros i; apply hold_at_held_iff|reflexivity].
Qed.

(** C111: calling train again on a trained model.  The second run starts from the
    returned arrays re-read by rows; with the profiles held they come back
    rearranged. *)
Theorem C111_train_again :
  forall (o : orders) (m n k : nat) (v u : mat) (s : sa) d d' tick tick' (p p' : settings) f w1 h1 b,
    s_init s = true -> s_valid s = true -> s_engine s = LSNMF -> s_k s = k ->
    sV s = data m n v -> sU s = data m n u -> (forall i j, u i j <> 0) -> sWe s = ndmap weight_of (data m n u) ->
    train o s d tick p = Trained f -> f_WH f = Some (w1, h1) ->
    (forall i, b i = true <-> held (p_hold p') (p_delay p') i) ->
    exists f', train (orders_again o w1 h1) (again s w1 h1) d' tick' p' = Trained f' /\
      let start := ((fun i a => aget w1 ((i * k + a) mod m) ((i * k + a) / m)),
                    (fun a j => aget h1 ((a * n + j) mod k) ((a * n + j) / k)))%nat in
      let v' := reread (oV o) m n v in let u' := reread (oU o) m n u in
      let at_ t := ls_iter m n k v' (weights u') b 0 t start in
      (forall t, (t < length (f_hist f'))%nat -> nth_error (f_hist f') t =
         Some (match at_ (S t) with None => NaN | Some (W, H) => Fin (misfit m n k v' u' W H) end)) /\
      (forall w2 h2, f_WH f' = Some (w2, h2) -> exists W H, at_ (length (f_hist f')) = Some (W, H) /\
         meq m k (aget w2) W /\ meq k n (aget h2) H) /\
      (p_hold p' = true -> (p_delay p' <= 0)%Z -> forall w2 h2, f_WH f' = Some (w2, h2) ->
         meq k n (aget h2) (snd start)).
Proof.
  intros o m n k v u s d d' tick tick' p p' f w1 h1 b Hi Hv He Ek EV EU Hu EWe Et EF Hb.
  assert (Sh : shaped m k FOrder w1 /\ shaped k n FOrder h1).
  { unfold train, train_guard in Et. rewrite Hi, Hv, He in Et. destruct (s_H s) as [Hn|], (s_W s) as [Wn|]; try discriminate.
    injection Et as <-. rewrite EV, Ek in EF. unfold run_engine in EF. cbn [f_WH rows cols data] in EF.
    match type of EF with match ?z with Some _ => _ | None => _ end = _ => destruct z as [[a c]|]; [|discriminate] end.
    injection EF as <- <-. repeat split. }
  destruct Sh as [[W1 [W2 W3]] [H1 [H2 H3]]].
  assert (Ea : train (orders_again o w1 h1) (again s w1 h1) d' tick' p'
               = Trained (run_engine (mkOrd (oV o) (oU o) FOrder FOrder) (data m n v) (data m n u) (ndmap weight_of (data m n u)) (as_nd w1) (as_nd h1) k tick' p')).
  { unfold train, train_guard, again, orders_again. rewrite W3, H3. cbn [s_init s_valid s_engine s_H s_W sV sU sWe s_k]. rewrite Hi, Hv, He, Ek, EV, EU, EWe. reflexivity. }
  rewrite Ea. eexists. split; [reflexivity|].
  pose proof (run_engine_spec (mkOrd (oV o) (oU o) FOrder FOrder) m n k v u (as_nd w1) (as_nd h1) (aget w1) (aget h1) tick' p' b
     Hu W1 W2 (fun i j _ _ => eq_refl) H1 H2 (fun i j _ _ => eq_refl) Hb) as S.
  set (f' := run_engine _ _ _ _ _ _ _ _ _) in *. cbv zeta in S |- *. cbn [oV oU oW oH] in S. unfold reread_rows in S.
  destruct S as (_ & _ & _ & _ & S5 & S6). split; [exact S5|].
  assert (R : forall w2 h2, f_WH f' = Some (w2, h2) -> exists W H,
     ls_iter m n k (reread (oV o) m n v) (weights (reread (oU o) m n u)) b 0 (length (f_hist f'))
       (fun i a => aget w1 ((i * k + a) mod m) ((i * k + a) / m), fun a j => aget h1 ((a * n + j) mod k) ((a * n + j) / k))%nat = Some (W, H) /\
     meq m k (aget w2) W /\ meq k n (aget h2) H).
  { intros w2 h2 E2. match type of S6 with match ?z with Some _ => _ | None => _ end => destruct z as [[W H]|] eqn:Ez end.
    - destruct S6 as (wa & ha & P & F1 & _ & _ & _ & F5 & F6 & _). rewrite E2 in F1. injection F1 as <- <-. exists W, H. auto.
    - destruct S6 as [S6 _]. congruence. }
  split; [exact R|]. intros Hh Hdl w2 h2 E2. destruct (R w2 h2 E2) as (W & H & Ez & _ & EH).
  assert (Hbt : forall i, b i = true) by (intros i; apply Hb; split; [exact Hh|left; exact Hdl]).
  assert (Keep : forall N i0 st W H, ls_iter m n k (reread (oV o) m n v) (weights (reread (oU o) m n u)) b i0 N st = Some (W, H) -> H = snd st).
  { induction N as [|N IH]; intros i0 [Wa Ha] Wb Hb' E; cbn [ls_iter] in E; [injection E as _ <-; reflexivity|].
    unfold ls_update in E. rewrite Hbt in E. destruct (w_step _ _ _ _ _ _ _) as [Wc|]; [|discriminate]. apply IH in E. exact E. }
  apply Keep in Ez. subst H. exact EH.
Qed.
Print Assumptions C111_train_again.

(** A perfect model, trained once more with its profiles held, is spoilt and its
    profiles are changed: V = [[2,4],[2,4]], two factors with profiles (1,2). *)
Theorem C111_held_profiles_stay_refuted :
  let v := cells [[2; 4]; [2; 4]] in let h := cells [[1; 2]; [1; 2]] in
  exists s0 s c f w1 h1 f' w2 h2,
    construct (data 2 2 v) (data 2 2 (fun _ _ => 1)) 2 LSNMF = Some s0 /\
    initialize s0 (Some (HArg (data 2 2 h) false)) (Some (data 2 2 (fun _ _ => 1)))
      (ColumnMean false (fun _ _ => Fin 0) (fun _ _ => Fin 0) (fun x => x)) = InitOk s c /\
    let d := ColumnMean false (fun _ _ => Fin 0) (fun _ _ => Fin 0) (fun x => x) in
    let o := mkOrd FOrder FOrder COrder COrder in
    train o s d (fun _ => false) held_once = Trained f /\ f_WH f = Some (w1, h1) /\
    meq 2 2 (aget h1) h /\ f_Qtrue f = Fin 0 /\
    train (orders_again o w1 h1) (again s w1 h1) d (fun _ => false) held_once = Trained f' /\ f_WH f' = Some (w2, h2) /\
    f_Qtrue f' = Fin 4 /\ aget h2 0%nat 1%nat = 1 /\ aget h1 0%nat 1%nat = 2.
Proof.
  intros v h.
  destruct (given_states 2 2 2 v (fun _ _ => 1) (fun _ _ => 1) h ltac:(lia) ltac:(lia) ltac:(lia)) as
    (s0 & s & c & E1 & E2 & G1 & G2 & G3 & G4 & G5 & G6 & G7 & Tr).
  { intros i j Hi Hj. unfold v. small i j Hi Hj; cbn; lra. }
  rewrite unit_unc in *.
  set (d := ColumnMean false (fun _ _ => Fin 0) (fun _ _ => Fin 0) (fun x => x)).
  assert (L1 : made_positive 1 = 1) by (apply lifted_pos; lra). assert (L2 : made_positive 2 = 2) by (apply lifted_pos; lra).
  destruct (held_spec (mkOrd FOrder FOrder COrder COrder) 2 2 2 v (fun _ _ => 1) (data 2 2 (fun _ _ => 1)) (data 2 2 (fun a j => made_positive (h a j)))
     (fun _ _ => 1) (fun a j => made_positive (h a j)) (fun _ _ => 1) h (fun _ => false)) as (_ & B & w1 & h1 & F1 & F2 & F3 & F4 & F5);
    try reflexivity; try apply entries_data.
  { intros; lra. }
  { cbv zeta. cbn [oV oU oW oH]. unfold v, h. intros i a Hi Ha. small i a Hi Ha; calc; rewrite L1, L2; split; lra. }
  { intros i j Hi Hj. unfold h. small i j Hi Hj; cbn; apply lifted_pos; lra. }
  pose proof (Tr (mkOrd FOrder FOrder COrder COrder) d (fun _ => false) held_once) as T1.
  set (f := run_engine _ _ _ _ _ _ _ _ _) in *.
  destruct F2 as [P1 [P2 P3]], F3 as [P4 [P5 P6]].
  destruct (held_spec (mkOrd FOrder FOrder FOrder FOrder) 2 2 2 v (fun _ _ => 1) (as_nd w1) (as_nd h1) (aget w1) (aget h1) (fun _ _ => 1)
     (cells [[1; 1]; [2; 2]]) (fun _ => false)) as (_ & B' & w2 & h2 & F1' & _ & _ & F4' & F5'); try assumption; try (intros; lra); try (intros i j _ _; reflexivity).
  { assert (Q : forall i j, (i < 2)%nat -> (j < 2)%nat -> aget w1 i j = 1) by (intros; apply F4; assumption).
    assert (Q' : forall i j, (i < 2)%nat -> (j < 2)%nat -> aget h1 i j = h i j) by (intros; apply F5; assumption).
    cbv zeta. cbn [oV oU oW oH]. intros i a Hi Ha. small i a Hi Ha; unfold w_den, w_num, wev, mmul, weights, reread, reread_rows, v; cbn;
      rewrite !Q, !Q' by lia; unfold h, cells; cbn; split; lra. }
  { intros i j Hi Hj. cbn [oH]. unfold reread_rows. rewrite F5; [|apply Nat.mod_upper_bound; lia|apply Nat.div_lt_upper_bound; lia].
    unfold h. small i j Hi Hj; reflexivity. }
  exists s0, s, c, f, w1, h1. eexists. exists w2, h2.
  split; [exact E1|]. split; [exact E2|]. cbv zeta. split; [exact T1|]. split; [exact F1|]. split; [exact F5|].
  split; [rewrite B; f_equal; unfold misfit, msum, v, h, cells, Rsqr; cbn; lra|].
  split.
  { unfold train, train_guard, again, orders_again. rewrite P3, P6. cbn [s_init s_valid s_engine s_H s_W sV sU sWe s_k]. rewrite G1, G2, G3, G4, G5, G6, G7. reflexivity. }
  split; [exact F1'|]. split; [refine (eq_trans B' _); f_equal; unfold misfit, msum, v, cells, Rsqr; cbn; lra|].
  split; [rewrite F5' by lia; reflexivity|rewrite F5 by lia; reflexivity].
Qed.
Print Assumptions C111_held_profiles_stay_refuted.

Example C111_instance :
  exists s0 s c, construct (data 2 2 (cells [[2; 4]; [2; 4]])) (data 2 2 (fun _ _ => 1)) 2 LSNMF = Some s0 /\
    initialize s0 (Some (HArg (data 2 2 (cells [[1; 2]; [1; 2]])) false)) (Some (data 2 2 (fun _ _ => 1)))
      (ColumnMean false (fun _ _ => Fin 0) (fun _ _ => Fin 0) (fun x => x)) = InitOk s c /\
    s_engine s = LSNMF /\ s_init s = true /\ s_valid s = true /\ s_k s = 2%nat /\
    sV s = data 2 2 (cells [[2; 4]; [2; 4]]) /\ sU s = data 2 2 (fun _ _ => 1) /\ sWe s = ndmap weight_of (data 2 2 (fun _ _ => 1)).
Proof.
  destruct (given_states 2 2 2 (cells [[2; 4]; [2; 4]]) (fun _ _ => 1) (fun _ _ => 1) (cells [[1; 2]; [1; 2]])) as
    (s0 & s & c & E1 & E2 & G1 & G2 & G3 & G4 & G5 & G6 & G7 & _); try lia.
  { intros i j Hi Hj. small i j Hi Hj; cbn; lra. }
  rewrite unit_unc in *. exists s0, s, c. repeat (split; [assumption|]). assumption.
Qed.

Definition xp_v : mat := fun i j => INR (i + j).
Example C109_default_run_example :=
  match C109_instance with conj a (conj b (conj c (conj d _))) =>
    C109_default_run 2 2 1 xp_v (fun _ _ => 1) (fun a j => INR (a + j)) (fun i a => INR (1 + i)) (fun x => x) (fun _ => false) (mkSet 5 1 10 4 false (-1))
      ltac:(lia) ltac:(lia) ltac:(lia) a b c d end.
Example C110_engine_and_report_example :=
  match C109_instance with conj a _ =>
    C110_engine_and_report (mkOrd FOrder COrder COrder FOrder) 2 2 1 xp_v (fun _ _ => 1) (fun i _ => INR (1 + i)) (fun _ _ => 1)
      (ColumnMean false (fun _ _ => Fin 0) (fun _ _ => Fin 0) (fun x => x)) (fun _ => false) (mkSet 5 1 10 4 true (-1)) (fun _ => true)
      ltac:(lia) ltac:(lia) ltac:(lia) a
      ltac:(intros i; unfold held; cbn; split; [intros _; split; [reflexivity | left; lia] | reflexivity]) end.
