(** C155: a batch of more models (esat/model/batch_sa.py:222-352).  The seeds are drawn
    one after another (222, 287), so that a larger batch with the same seed begins with
    the models of the smaller one. *)
From Coq Require Import List Bool ZArith Lia Permutation Reals Lra.
From Verif Require Import Fl Batch_Model Batch_Proofs Batch_Props.
Import ListNotations.
Local Open Scope Z_scope.

(** [s1] holds the first [n1] models of [s2]; the model chosen in [s2] is the one chosen
    in [s1], or it is a later one with a smaller loss.  If no loss of [s1] is below
    infinity (best_model is -2) it is a later one, if there is any. *)
Definition grown {M} (loss : M -> option fl) (n1 : nat) (s1 s2 : bstate M) : Prop :=
  b_results s1 = firstn n1 (b_results s2) /\
  exists b1 b2, b_best s1 = Some b1 /\ b_best s2 = Some b2 /\
    ((exists (k1 k2 : nat) m1 m2 q1 q2, b1 = Z.of_nat k1 /\ b2 = Z.of_nat k2 /\ (k1 < n1)%nat /\
        nth_error (b_results s2) k1 = Some (Some m1) /\ nth_error (b_results s2) k2 = Some (Some m2) /\
        loss m1 = Some q1 /\ loss m2 = Some q2 /\ flt q1 PInf = true /\
        (k2 = k1 \/ ((n1 <= k2)%nat /\ flt q2 q1 = true)))
     \/ (b1 = -2 /\ (b2 = -2 \/ exists k2, b2 = Z.of_nat k2 /\ (n1 <= k2)%nat))).

Lemma nth_firstn {A} (l : list A) n j : (j < n)%nat -> nth_error (firstn n l) j = nth_error l j.
Proof. revert n j. induction l as [|a l IH]; intros [|n] [|j] Hj; cbn; try lia; try reflexivity. apply IH. lia. Qed.
Lemma nth_firstn_some {A} (l : list A) n j x : nth_error (firstn n l) j = Some x -> (j < n)%nat /\ nth_error l j = Some x.
Proof.
  intros E. assert (L : (j < n)%nat). { assert (X : (j < length (firstn n l))%nat) by (apply nth_error_Some; rewrite E; discriminate). rewrite firstn_length in X. lia. }
  split; [exact L|]. rewrite nth_firstn in E by exact L. exact E.
Qed.
Lemma all_some_firstn {A} (l : list (option A)) r n : all_some l = Some r -> all_some (firstn n l) = Some (firstn n r).
Proof.
  revert r n. induction l as [|[a|] l IH]; intros r n E; cbn in E; try discriminate.
  - injection E as <-. destruct n; reflexivity.
  - destruct (all_some l) as [r'|] eqn:El; [|discriminate]. injection E as <-. destruct n as [|n]; [reflexivity|]. cbn. rewrite (IH r' n eq_refl). reflexivity.
Qed.
Lemma firstn_seq a n1 n2 : (n1 <= n2)%nat -> firstn n1 (seq a n2) = seq a n1.
Proof. intros Hn. replace n2 with (n1 + (n2 - n1))%nat by lia. rewrite seq_app, firstn_app, seq_length, Nat.sub_diag. cbn [firstn]. rewrite app_nil_r, firstn_all2; [reflexivity|rewrite seq_length; lia]. Qed.
Lemma usable_below q : ~ unusable q -> flt q PInf = true.
Proof. intros U. destruct q; cbn; try reflexivity; exfalso; apply U; [right|left]; reflexivity. Qed.

Lemma best_grows qs n1 b1 b2 : best_index (firstn n1 qs) b1 -> best_index qs b2 ->
  (exists (k1 k2 : nat) q1 q2, b1 = Z.of_nat k1 /\ b2 = Z.of_nat k2 /\ (k1 < n1)%nat /\ nth_error qs k1 = Some q1 /\ nth_error qs k2 = Some q2 /\
     flt q1 PInf = true /\ (k2 = k1 \/ ((n1 <= k2)%nat /\ flt q2 q1 = true)))
  \/ (b1 = -2 /\ (b2 = -2 \/ exists k2, b2 = Z.of_nat k2 /\ (n1 <= k2)%nat)).
Proof.
  intros [(k1 & q1 & -> & N1 & U1 & M1 & F1)|[-> A1]] [(k2 & q2 & -> & N2 & U2 & M2 & F2)|[-> A2]].
  - left. destruct (nth_firstn_some _ _ _ _ N1) as [L1 N1']. exists k1, k2, q1, q2. repeat (split; [solve [auto | apply usable_below; exact U1]|]).
    destruct (Nat.lt_ge_cases k2 n1) as [L|L].
    + left. assert (N2' : nth_error (firstn n1 qs) k2 = Some q2) by (rewrite nth_firstn by exact L; exact N2).
      destruct (Nat.lt_trichotomy k2 k1) as [C|[C|C]]; [|exact C|].
      * destruct (F1 k2 q2 C N2') as [X|X]; [exfalso; apply U2; left; exact X|]. rewrite (M2 k1 q1 N1') in X. discriminate.
      * destruct (F2 k1 q1 C N1') as [X|X]; [exfalso; apply U1; left; exact X|]. rewrite (M1 k2 q2 N2') in X. discriminate.
    + right. split; [exact L|]. destruct (F2 k1 q1 ltac:(lia) N1') as [X|X]; [exfalso; apply U1; left; exact X|exact X].
  - exfalso. destruct (nth_firstn_some _ _ _ _ N1) as [_ N1']. apply U1, (A2 k1 q1 N1').
  - right. split; [reflexivity|]. right. exists k2. split; [reflexivity|]. destruct (Nat.lt_ge_cases k2 n1) as [L|L]; [|exact L].
    exfalso. apply U2. apply (A1 k2 q2). rewrite nth_firstn by exact L. exact N2.
  - right. split; [reflexivity|]. left. reflexivity.
Qed.

Lemma best_in_range qs b n : best_index qs b -> length qs = n -> (2 <= n)%nat -> - Z.of_nat n <= b < Z.of_nat n.
Proof.
  intros [(k & q & -> & N & _)|[-> _]] Hl Hn; [|lia].
  assert (X : (k < length qs)%nat) by (apply nth_error_Some; rewrite N; discriminate). lia.
Qed.

Section Core.
  Context {M : Type} (qr qt : M -> option fl) (robust : bool).
  Lemma core (ms : list M) qs n1 b : all_some (map (sel_q qr qt robust) ms) = Some qs ->
    grown (if robust then qr else qt) n1 (mkB (map Some (firstn n1 ms)) (Some (scan (firstn n1 qs) 1 PInf (-1) - 1))) (mkB (map Some ms) (Some b)) \/ b <> scan qs 1 PInf (-1) - 1.
  Proof.
    intros Eq. destruct (Z.eq_dec b (scan qs 1 PInf (-1) - 1)) as [->|Ne]; [left|right; exact Ne].
    split; [cbn [b_results]; rewrite firstn_map; reflexivity|]. eexists. eexists. split; [reflexivity|]. split; [reflexivity|]. cbn [b_results].
    destruct (best_grows qs n1 _ _ (scan_best (firstn n1 qs)) (scan_best qs)) as [(k1 & k2 & q1 & q2 & E1 & E2 & L & N1 & N2 & P & D)|X]; [left|right; exact X].
    assert (Get : forall k q, nth_error qs k = Some q -> exists m, nth_error (map Some ms) k = Some (Some m) /\ (if robust then qr else qt) m = Some q).
    { intros k q Nk. pose proof (all_some_nth _ _ k Eq) as Hn. rewrite Nk in Hn. rewrite nth_error_map in Hn |- *. destruct (nth_error ms k) as [m|]; [|discriminate].
      cbn [option_map] in *. injection Hn as Hn. exists m. split; [reflexivity|]. destruct robust; exact Hn. }
    destruct (Get k1 q1 N1) as (m1 & A1 & B1). destruct (Get k2 q2 N2) as (m2 & A2 & B2).
    exists k1, k2, m1, m2, q1, q2. repeat (split; [assumption|]). exact D.
  Qed.
End Core.

(** In parallel: if the larger batch succeeds the smaller one does, its models are the
    first of the larger one, and the chosen one stays unless a later one is better. *)
Theorem C155_more_models_parallel :
  forall {M X} (qr qt : M -> option fl) (fit : Z -> mats X -> mats X -> Z -> nat -> option M)
         (robust verbose : bool) n1 n2 draw Hm Wm delay sched1 sched2 s s' s2,
    (1 <= n1 <= n2)%nat -> Permutation sched1 (seq 1 n1) -> Permutation sched2 (seq 1 n2) ->
    par_train qr qt fit robust verbose n2 draw Hm Wm delay sched2 s' = (true, s2) ->
    exists s1, par_train qr qt fit robust verbose n1 draw Hm Wm delay sched1 s = (true, s1) /\
      length (b_results s1) = n1 /\ length (b_results s2) = n2 /\ grown (if robust then qr else qt) n1 s1 s2.
Proof.
  intros M X qr qt fit robust verbose n1 n2 draw Hm Wm delay sched1 sched2 s s' s2 Hn P1 P2 Hf.
  rewrite par_train_spec in Hf by (intros i Hi; eapply Permutation_in; [symmetry; exact P2|apply in_seq; lia]).
  rewrite par_train_spec by (intros i Hi; eapply Permutation_in; [symmetry; exact P1|apply in_seq; lia]).
  destruct (all_some (map (trained fit draw Hm Wm delay) (seq 1 n2))) as [ms|] eqn:Em; [|discriminate].
  destruct (all_some (map (sel_q qr qt robust) ms)) as [qs|] eqn:Eq; [|discriminate].
  assert (Hl : length ms = n2) by (apply all_some_length in Em; rewrite map_length, seq_length in Em; exact Em).
  assert (Hq : length qs = n2) by (apply all_some_length in Eq; rewrite map_length in Eq; lia).
  assert (E1 : all_some (map (trained fit draw Hm Wm delay) (seq 1 n1)) = Some (firstn n1 ms)).
  { rewrite <- (firstn_seq 1 n1 n2), <- firstn_map by lia. apply all_some_firstn. exact Em. }
  rewrite E1. assert (E2 : all_some (map (sel_q qr qt robust) (firstn n1 ms)) = Some (firstn n1 qs)) by (rewrite <- firstn_map; apply all_some_firstn; exact Eq).
  rewrite E2. assert (N2 : ms <> []) by (intros ->; cbn in Hl; lia).
  assert (L1 : length (firstn n1 ms) = n1) by (rewrite firstn_length; lia).
  assert (N1 : firstn n1 ms <> []) by (intros Z; rewrite Z in L1; cbn in L1; lia).
  rewrite finish_par in Hf by exact N2. rewrite finish_par by exact N1. destruct (verbose && _) in Hf; [discriminate|]. injection Hf as <-.
  assert (Ok : py_index_ok (map Some (firstn n1 ms) ++ [None]) (scan (firstn n1 qs) 1 PInf (-1) - 1) = true).
  { unfold py_index_ok. rewrite app_length, map_length, L1. cbn [length].
    assert (Q1 : length (firstn n1 qs) = n1) by (rewrite firstn_length; lia).
    destruct (scan_best (firstn n1 qs)) as [(k & q & E & N & _)|[E _]].
    - assert (Y : (k < length (firstn n1 qs))%nat) by (apply nth_error_Some; rewrite N; discriminate). apply andb_true_iff. split; [apply Z.leb_le|apply Z.ltb_lt]; lia.
    - apply andb_true_iff. split; [apply Z.leb_le|apply Z.ltb_lt]; lia. }
  rewrite Ok, andb_false_r. eexists. split; [reflexivity|]. cbn [b_results]. rewrite !map_length. split; [exact L1|]. split; [exact Hl|].
  destruct (core qr qt robust ms qs n1 (scan qs 1 PInf (-1) - 1) Eq) as [G|G]; [exact G|contradiction].
Qed.
Print Assumptions C155_more_models_parallel.

Theorem C155_more_models_sequential :
  forall {M X} (qr qt : M -> option fl) (fit : Z -> mats X -> mats X -> Z -> nat -> option M)
         (robust verbose : bool) n1 n2 draw Hm Wm delay limit dur s s' s2,
    (1 <= n1 <= n2)%nat -> (verbose = true -> (2 <= n1)%nat) ->
    seq_train qr qt fit robust verbose n2 draw Hm Wm delay limit dur s' = (true, s2) ->
    exists s1, seq_train qr qt fit robust verbose n1 draw Hm Wm delay limit dur s = (true, s1) /\
      length (b_results s1) = n1 /\ length (b_results s2) = n2 /\ grown (if robust then qr else qt) n1 s1 s2.
Proof.
  intros M X qr qt fit robust verbose n1 n2 draw Hm Wm delay limit dur s s' s2 Hn Hv Hf.
  destruct (seq_cases qr qt fit robust draw Hm Wm limit dur n2) as [(ms & qs & Em & Eq & Hlim)|Hbad].
  2:{ pose proof (seq_train_bad qr qt fit robust verbose draw Hm Wm delay limit dur n2 s' Hbad) as Hb. rewrite Hf in Hb. discriminate. }
  rewrite (seq_train_ok _ _ _ _ _ _ _ _ _ _ _ _ ms qs _ Em Eq Hlim) in Hf.
  assert (Hl : length ms = n2) by (apply all_some_length in Em; rewrite map_length, seq_length in Em; exact Em).
  assert (Hq : length qs = n2) by (apply all_some_length in Eq; rewrite map_length in Eq; lia).
  assert (E1 : all_some (map (fun i => fit (draw (i - 1)%nat) Hm Wm (-1) i) (seq 1 n1)) = Some (firstn n1 ms)).
  { rewrite <- (firstn_seq 1 n1 n2), <- firstn_map by lia. apply all_some_firstn. exact Em. }
  assert (E2 : all_some (map (sel_q qr qt robust) (firstn n1 ms)) = Some (firstn n1 qs)) by (rewrite <- firstn_map; apply all_some_firstn; exact Eq).
  rewrite (seq_train_ok _ _ _ _ _ _ _ _ _ _ _ _ (firstn n1 ms) (firstn n1 qs) _ E1 E2) by (intros j Hj; apply Hlim; lia).
  assert (N2 : ms <> []) by (intros ->; cbn in Hl; lia).
  assert (L1 : length (firstn n1 ms) = n1) by (rewrite firstn_length; lia).
  assert (N1 : firstn n1 ms <> []) by (intros Z; rewrite Z in L1; cbn in L1; lia).
  rewrite finish_seq in Hf by exact N2. rewrite finish_seq by exact N1. destruct (verbose && _) in Hf; [discriminate|]. injection Hf as <-.
  assert (Ok : verbose && negb (py_index_ok (map Some (firstn n1 ms)) (scan (firstn n1 qs) 1 PInf (-1) - 1)) = false).
  { destruct verbose; [|reflexivity]. specialize (Hv eq_refl). cbn [andb]. apply negb_false_iff. unfold py_index_ok. rewrite map_length, L1.
    assert (Q1 : length (firstn n1 qs) = n1) by (rewrite firstn_length; lia).
    pose proof (best_in_range _ _ n1 (scan_best (firstn n1 qs)) Q1 Hv). apply andb_true_iff. split; [apply Z.leb_le|apply Z.ltb_lt]; lia. }
  rewrite Ok. eexists. split; [reflexivity|]. cbn [b_results]. rewrite !map_length. split; [exact L1|]. split; [exact Hl|].
  destruct (core qr qt robust ms qs n1 (scan qs 1 PInf (-1) - 1) Eq) as [G|G]; [exact G|contradiction].
Qed.
Print Assumptions C155_more_models_sequential.

(** A verbose sequential batch of one model whose loss is NaN fails, though the batch of
    two succeeds. *)
Theorem C155_smaller_batch_succeeds_refuted :
  exists (qr qt : nat -> option fl) (fit : Z -> mats unit -> mats unit -> Z -> nat -> option nat) s2,
    seq_train qr qt fit true true 2 (fun _ => 0) MNone MNone (-1) None (fun _ => 0) (mkB [] None) = (true, s2) /\ b_best s2 = Some 1 /\
    fst (seq_train qr qt fit true true 1 (fun _ => 0) MNone MNone (-1) None (fun _ => 0) (mkB [] None)) = false.
Proof.
  exists (fun i => Some (if (i =? 1)%nat then NaN else Fin 3)), (fun _ => Some (Fin 5)), (fun _ _ _ _ i => Some i). eexists.
  split; [vm_compute; reflexivity|]. split; vm_compute; reflexivity.
Qed.
Print Assumptions C155_smaller_batch_succeeds_refuted.

(** Losses NaN, 2 and 2: the second model is chosen of two and of three. *)
Example C155_more_models_parallel_example :=
  C155_more_models_parallel (X := unit) ex_q ex_q ex_fit true true 2 3 (fun i => Z.of_nat i) MNone MNone (-1) [2; 1]%nat [3; 1; 2]%nat (mkB [] None) (mkB [] None) _
    ltac:(lia) (perm_swap _ _ _) xb_perm (proj2 C24_instance).
Example C155_more_models_sequential_example :=
  C155_more_models_sequential (X := unit) ex_q ex_q ex_fit true true 2 3 (fun i => Z.of_nat i) MNone MNone (-1) None (fun _ => 0) (mkB [] None) (mkB [] None) _
    ltac:(lia) (fun _ => le_n 2) (proj1 C24_instance).

(** From data to best model: the best loss of the larger batch is at most that of the
    smaller one. *)
From Verif Require Import Base LSNMF_Proofs Layout_Model SA_Model SA_Proofs SA_Props Pipeline_Model Pipeline_Spec Pipeline_Proofs Pipeline_Props Refit_Model Refit_Spec Refit_Proofs Refit_Props BatchRun_Model BatchRun_Props.
Local Open Scope R_scope.
Theorem C155_best_fit_never_worse :
  forall J m n k v u (H : option (arr R)) g c wsW tick delay robust verbose nb1 nb2 seeds sched1 sched2 s s',
    (0 < m)%nat -> (0 < n)%nat -> (0 < k)%nat -> mall m n (fun x => 0 <= x) v -> no_empty m n v ->
    j_V J = data m n v -> j_U J = data m n u -> j_oV J = FOrder -> j_oU J = FOrder -> j_k J = k ->
    (forall h, H = Some h -> a_rows h = k /\ a_cols h = n) ->
    (1 <= nb1 <= nb2)%nat -> (nb2 <= 127)%nat -> Permutation sched1 (seq 1 nb1) -> Permutation sched2 (seq 1 nb2) ->
    let draw := fun z => draws (g z) (c z) wsW in
    exists fs b1 b2 f1 f2 q1 q2,
      batch_parallel J draw tick robust verbose nb1 seeds (of_arg H) MNone delay sched1 s =
        (true, mkB (map (fun f => Some (Some f)) (firstn nb1 fs)) (Some (Z.of_nat b1))) /\
      batch_parallel J draw tick robust verbose nb2 seeds (of_arg H) MNone delay sched2 s' =
        (true, mkB (map (fun f => Some (Some f)) fs) (Some (Z.of_nat b2))) /\
      length fs = nb2 /\ nth_error fs b1 = Some f1 /\ nth_error fs b2 = Some f2 /\
      (if robust then f_Qrobust f1 else f_Qtrue f1) = Fin q1 /\ (if robust then f_Qrobust f2 else f_Qtrue f2) = Fin q2 /\
      q2 <= q1 /\ (b2 = b1 \/ ((nb1 <= b2)%nat /\ q2 < q1)).
Proof.
  intros J m n k v u H g c wsW tick delay robust verbose nb1 nb2 seeds sched1 sched2 s s' Hm Hn Hk Hv NE EV EU EoV EoU Ek HH Hb1 Hb2 P1 P2 draw.
  destruct (C124_best_of_batch J m n k v u H g c wsW tick delay robust verbose nb2 seeds sched2 s') as (fs & b2 & f2 & q2 & R2 & L2 & N2 & Q2 & A2); try assumption; try lia.
  destruct (C124_best_of_batch J m n k v u H g c wsW tick delay robust verbose nb1 seeds sched1 s) as (fs1 & b1 & f1 & q1 & R1 & L1 & N1 & Q1 & A1); try assumption; try lia.
  destruct (C155_more_models_parallel rob_of true_of (i8_engine (member J draw tick)) robust verbose nb1 nb2 seeds (of_arg H) MNone delay sched1 sched2 s s' _ Hb1 P1 P2 R2)
    as (s1 & E1 & _ & _ & [Gr _]).
  unfold batch_parallel in R1. fold draw in R1. rewrite E1 in R1. injection R1 as ->. cbn [b_results] in Gr. rewrite firstn_map in Gr.
  assert (Ef : fs1 = firstn nb1 fs).
  { clear - Gr. revert Gr. generalize (firstn nb1 fs). induction fs1 as [|x fs1 IH]; intros [|y l] E; cbn in E; try discriminate; [reflexivity|].
    injection E as -> E. f_equal. apply IH. exact E. }
  subst fs1. destruct (nth_firstn_some _ _ _ _ N1) as [Lb1 N1'].
  destruct (A2 b1 ltac:(lia)) as (f & q & Nf & Qf & _ & Le & Lt & _). rewrite N1' in Nf. injection Nf as <-. rewrite Q1 in Qf. injection Qf as <-.
  assert (Lb2 : (b2 < nb2)%nat) by (rewrite <- L2; apply nth_error_Some; rewrite N2; discriminate).
  exists fs, b1, b2, f1, f2, q1, q2. split; [exact E1|]. split; [exact R2|]. repeat (split; [assumption|]).
  destruct (Nat.lt_ge_cases b2 nb1) as [G|G].
  - left. destruct (A1 b2 G) as (f & q & Nf & Qf & _ & Le' & Lt' & _). rewrite nth_firstn, N2 in Nf by exact G. injection Nf as <-. rewrite Q2 in Qf. injection Qf as <-.
    destruct (Nat.lt_trichotomy b1 b2) as [C|[C|C]]; [specialize (Lt C); lra|auto|specialize (Lt' C); lra].
  - right. split; [exact G|]. apply Lt. lia.
Qed.
Print Assumptions C155_best_fit_never_worse.

Example C155_best_fit_never_worse_example :=
  C155_best_fit_never_worse xb_J 2 2 1 xb_v (fun _ _ => 1) xb_H (fun _ _ _ => 1) (fun z _ _ => IZR z) (fun x => x) (fun _ _ => false) (-1)
    false true 1 2 (fun i => Z.of_nat (5 + i)) [1%nat] [2%nat; 1%nat] (mkB [] None) (mkB [] None)
    ltac:(lia) ltac:(lia) ltac:(lia) (proj1 C124_instance) (proj1 (proj2 C124_instance)) eq_refl eq_refl eq_refl eq_refl eq_refl
    xb_shape ltac:(lia) ltac:(lia) (Permutation_refl _) (perm_swap _ _ _).
