(** Theorems C24-C28 about BatchSA.train (esat/model/batch_sa.py). *)
From Coq Require Import List Bool ZArith Lia Permutation Reals Lra.
From Verif Require Import Fl Batch_Model Batch_Proofs LSNMF_Model Train_Model.
Import ListNotations.
Local Open Scope Z_scope.

(** ** C24: the best model.  [best_index] (Batch_Proofs) is the specification:
    the first minimal usable loss, or -2 when no loss is below infinity. *)

Definition losses_of {M} (q : M -> option fl) (rs : list (option M)) (qs : list fl) : Prop :=
  Forall2 (fun r x => exists m, r = Some m /\ q m = Some x) rs qs.

Lemma losses_of_all_some {M} (q : M -> option fl) (ms : list M) qs :
  all_some (map q ms) = Some qs -> losses_of q (map Some ms) qs.
Proof.
  intros H. apply all_some_map in H. unfold losses_of.
  induction H; cbn; constructor; eauto.
Qed.

Theorem C24_parallel_best :
  forall {M X} (qr qt : M -> option fl) (fit : Z -> mats X -> mats X -> Z -> nat -> option M)
         (robust verbose : bool) n draw Hm Wm delay sched s s',
    (forall i, (1 <= i <= n)%nat -> In i sched) ->
    par_train qr qt fit robust verbose n draw Hm Wm delay sched s = (true, s') ->
    exists qs b, losses_of (if robust then qr else qt) (b_results s') qs /\
                 b_best s' = Some b /\ best_index qs b.
Proof.
  intros M X qr qt fit robust verbose n draw Hm Wm delay sched s s' Hs.
  rewrite par_train_spec by exact Hs.
  destruct (all_some (map (trained fit draw Hm Wm delay) (seq 1 n))) as [ms|] eqn:Em; [|discriminate].
  destruct (all_some (map (sel_q qr qt robust) ms)) as [qs|] eqn:Eq; [|discriminate].
  intros Hf. exists qs, (scan qs 1 PInf (-1) - 1).
  assert (Hsel : sel_q qr qt robust = if robust then qr else qt) by (unfold sel_q; destruct robust; reflexivity).
  destruct ms as [|m0 ms0].
  - cbn in Eq. injection Eq as <-. cbn [map app] in Hf. rewrite finish_nil_par in Hf.
    destruct (verbose && _); [discriminate|]. injection Hf as <-. cbn [b_results b_best].
    split; [constructor|]. split; [reflexivity|apply scan_best].
  - rewrite finish_par in Hf by discriminate. destruct (verbose && _); [discriminate|].
    injection Hf as <-. cbn [b_results b_best]. split; [|split; [reflexivity|apply scan_best]].
    rewrite <- Hsel. exact (losses_of_all_some _ (m0 :: ms0) qs Eq).
Qed.
Print Assumptions C24_parallel_best.

Lemma seq_cases {M X} (qr qt : M -> option fl) (fit : Z -> mats X -> mats X -> Z -> nat -> option M)
      robust draw Hm Wm limit dur n :
  (exists ms qs, all_some (map (fun i => fit (draw (i - 1)%nat) Hm Wm (-1) i) (seq 1 n)) = Some ms /\
     all_some (map (sel_q qr qt robust) ms) = Some qs /\
     (forall j, (1 <= j < 1 + n)%nat -> over_limit limit (dur j) = false)) \/
  (exists f, (1 <= f < 1 + n)%nat /\
       match fit (draw (f - 1)%nat) Hm Wm (-1) f with
       | None => True
       | Some m => over_limit limit (dur f) = true \/ sel_q qr qt robust m = None
       end).
Proof.
  set (bad := fun f => match fit (draw (f - 1)%nat) Hm Wm (-1) f with
       | None => true
       | Some m => over_limit limit (dur f) || match sel_q qr qt robust m with None => true | _ => false end
       end).
  destruct (existsb bad (seq 1 n)) eqn:E.
  - right. apply existsb_exists in E. destruct E as (f & Hf & Hb). apply in_seq in Hf. exists f. split; [lia|].
    unfold bad in Hb. destruct (fit _ _ _ _ _); [|exact I]. apply orb_true_iff in Hb.
    destruct Hb as [Hb|Hb]; [left; exact Hb|right]. destruct (sel_q _ _ _ _); [discriminate|reflexivity].
  - left. assert (Hg : forall f, (1 <= f < 1 + n)%nat -> bad f = false).
    { intros f Hf. destruct (bad f) eqn:Eb; [|reflexivity].
      enough (existsb bad (seq 1 n) = true) by congruence. apply existsb_exists. exists f.
      split; [apply in_seq; lia|exact Eb]. }
    destruct (all_some (map (fun i => fit (draw (i - 1)%nat) Hm Wm (-1) i) (seq 1 n))) as [ms|] eqn:Em.
    + destruct (all_some (map (sel_q qr qt robust) ms)) as [qs|] eqn:Eq.
      * exists ms, qs. split; [reflexivity|]. split; [exact Eq|]. intros j Hj. specialize (Hg j Hj).
        unfold bad in Hg. destruct (fit _ _ _ _ _); [|discriminate]. apply orb_false_iff in Hg. tauto.
      * apply all_some_none in Eq. destruct Eq as (m & Hm' & Hn).
        apply all_some_map in Em.
        assert (exists i, In i (seq 1 n) /\ fit (draw (i - 1)%nat) Hm Wm (-1) i = Some m) as (i & Hi & Hfi).
        { clear - Em Hm'. induction Em as [|a b la lb Hab _ IH]; [destruct Hm'|].
          destruct Hm' as [->|Hin]; [exists a; split; [left; reflexivity|exact Hab]|].
          destruct (IH Hin) as (i & Hi & Hf). exists i. split; [right; exact Hi|exact Hf]. }
        apply in_seq in Hi. specialize (Hg i ltac:(lia)). unfold bad in Hg. rewrite Hfi, Hn in Hg.
        rewrite orb_true_r in Hg. discriminate.
    + apply all_some_none in Em. destruct Em as (i & Hi & Hn). apply in_seq in Hi.
      specialize (Hg i ltac:(lia)). unfold bad in Hg. cbv beta in Hn. rewrite Hn in Hg. discriminate.
Qed.

Lemma seq_train_ok {M X} (qr qt : M -> option fl) (fit : Z -> mats X -> mats X -> Z -> nat -> option M)
      robust verbose draw Hm Wm delay limit dur n ms qs s :
  all_some (map (fun i => fit (draw (i - 1)%nat) Hm Wm (-1) i) (seq 1 n)) = Some ms ->
  all_some (map (sel_q qr qt robust) ms) = Some qs ->
  (forall j, (1 <= j < 1 + n)%nat -> over_limit limit (dur j) = false) ->
  seq_train qr qt fit robust verbose n draw Hm Wm delay limit dur s
  = finish verbose (map Some ms) (scan qs 1 PInf (-1)) s.
Proof.
  intros H1 H2 H3. unfold seq_train. rewrite (seq_loop_ok qr qt fit robust draw Hm Wm limit dur n 1 _ _ _ ms qs H1 H2 H3).
  reflexivity.
Qed.

Lemma seq_train_bad {M X} (qr qt : M -> option fl) (fit : Z -> mats X -> mats X -> Z -> nat -> option M)
      robust verbose draw Hm Wm delay limit dur n s :
  (exists f, (1 <= f < 1 + n)%nat /\
       match fit (draw (f - 1)%nat) Hm Wm (-1) f with
       | None => True
       | Some m => over_limit limit (dur f) = true \/ sel_q qr qt robust m = None
       end) ->
  fst (seq_train qr qt fit robust verbose n draw Hm Wm delay limit dur s) = false.
Proof.
  intros H. unfold seq_train.
  destruct (seq_loop_fail qr qt fit robust draw Hm Wm limit dur n 1 [] PInf (-1) H) as [r ->]. reflexivity.
Qed.

Theorem C24_sequential_best :
  forall {M X} (qr qt : M -> option fl) (fit : Z -> mats X -> mats X -> Z -> nat -> option M)
         (robust verbose : bool) n draw Hm Wm delay limit dur s s',
    seq_train qr qt fit robust verbose n draw Hm Wm delay limit dur s = (true, s') ->
    exists qs b, losses_of (if robust then qr else qt) (b_results s') qs /\
                 b_best s' = Some b /\ best_index qs b.
Proof.
  intros M X qr qt fit robust verbose n draw Hm Wm delay limit dur s s' Hf.
  destruct (seq_cases qr qt fit robust draw Hm Wm limit dur n) as [(ms & qs & H1 & H2 & H3)|Hbad].
  - rewrite (seq_train_ok _ _ _ _ _ _ _ _ _ _ _ _ ms qs _ H1 H2 H3) in Hf.
    exists qs, (scan qs 1 PInf (-1) - 1).
    assert (Hsel : sel_q qr qt robust = if robust then qr else qt) by (unfold sel_q; destruct robust; reflexivity).
    destruct ms as [|m0 ms0].
    { cbn in H2. injection H2 as <-. unfold finish in Hf. cbn [map] in Hf.
      destruct (verbose && _); discriminate. }
    rewrite finish_seq in Hf by discriminate. destruct (verbose && _); [discriminate|].
    injection Hf as <-. cbn [b_results b_best]. split; [|split; [reflexivity|apply scan_best]].
    rewrite <- Hsel. exact (losses_of_all_some _ (m0 :: ms0) qs H2).
  - pose proof (seq_train_bad qr qt fit robust verbose draw Hm Wm delay limit dur n s Hbad) as Hb.
    rewrite Hf in Hb. discriminate.
Qed.
Print Assumptions C24_sequential_best.

(** Documented: the best model is an index into the results.  With only NaN
    losses training reports success and -2. *)
Theorem C24_best_is_an_index_refuted :
  exists (qr qt : unit -> option fl) (fit : Z -> mats unit -> mats unit -> Z -> nat -> option unit) s',
    seq_train qr qt fit true false 2 (fun _ => 0) MNone MNone (-1) None (fun _ => 0) (mkB [] None) = (true, s') /\
    b_best s' = Some (-2) /\ length (b_results s') = 2%nat.
Proof.
  exists (fun _ => Some NaN), (fun _ => Some NaN), (fun _ _ _ _ _ => Some tt). eexists.
  split; [reflexivity|]. split; reflexivity.
Qed.
Print Assumptions C24_best_is_an_index_refuted.

(** three models, losses NaN, 2, 2: the second is best, and both modes succeed. *)
Definition ex_q (i : nat) : option fl := match i with 1%nat => Some NaN | _ => Some (Fin 2) end.
Definition ex_fit (seed : Z) (H W : mats unit) (delay : Z) (i : nat) : option nat := Some i.

Lemma ex_lt22 : flt (Fin 2) (Fin 2) = false. Proof. apply flt_irrefl. Qed.

Example C24_instance :
  seq_train ex_q ex_q ex_fit true true 3 (fun i => Z.of_nat i) MNone MNone (-1) None (fun _ => 0) (mkB [] None)
  = (true, mkB [Some 1%nat; Some 2%nat; Some 3%nat] (Some 1)) /\
  par_train ex_q ex_q ex_fit true true 3 (fun i => Z.of_nat i) MNone MNone (-1) [3; 1; 2]%nat (mkB [] None)
  = (true, mkB [Some 1%nat; Some 2%nat; Some 3%nat] (Some 1)).
Proof.
  split.
  - rewrite (seq_train_ok ex_q ex_q ex_fit true true _ _ _ _ _ _ 3 [1; 2; 3]%nat [NaN; Fin 2; Fin 2] _
      eq_refl eq_refl) by reflexivity.
    rewrite finish_seq by discriminate. cbn [scan]. rewrite flt_nan_l.
    replace (flt (Fin 2) PInf) with true by reflexivity. rewrite ex_lt22. reflexivity.
  - rewrite par_train_spec by (intros i Hi; cbn; lia). 
    match goal with |- _ = ?r =>
      change (finish true (map Some [1; 2; 3]%nat ++ [None]) (scan [NaN; Fin 2; Fin 2] 1 PInf (-1)) (mkB [] None) = r) end.
    rewrite finish_par by discriminate. cbn [scan]. rewrite flt_nan_l.
    replace (flt (Fin 2) PInf) with true by reflexivity. rewrite ex_lt22. reflexivity.
Qed.

(** ** C25: scheduling. *)

(** Seed matrix of model [i] (1-based), specified separately. *)
Inductive seed_matrix {X} : mats X -> nat -> mats X -> Prop :=
| sm_none i : seed_matrix MNone i MNone
| sm_2 x i : seed_matrix (M2 x) i (M2 x)
| sm_3 l i x : nth_error l i = Some x -> seed_matrix (M3 l) (S i) (M2 x).

Theorem C25_result_is_model_of_its_seed :
  forall {M X} (qr qt : M -> option fl) (fit : Z -> mats X -> mats X -> Z -> nat -> option M)
         (robust verbose : bool) n draw Hm Wm delay sched s s',
    Permutation sched (seq 1 n) ->
    par_train qr qt fit robust verbose n draw Hm Wm delay sched s = (true, s') ->
    length (b_results s') = n /\
    forall i, (1 <= i <= n)%nat -> exists m h w,
      nth_error (b_results s') (i - 1) = Some (Some m) /\
      seed_matrix Hm i h /\ seed_matrix Wm i w /\
      fit (draw (i - 1)%nat) h w delay i = Some m.
Proof.
  intros M X qr qt fit robust verbose n draw Hm Wm delay sched s s' Hp.
  rewrite par_train_spec.
  2:{ intros i Hi. eapply Permutation_in; [symmetry; exact Hp|]. apply in_seq. lia. }
  destruct (all_some (map (trained fit draw Hm Wm delay) (seq 1 n))) as [ms|] eqn:Em; [|discriminate].
  destruct (all_some (map (sel_q qr qt robust) ms)) as [qs|] eqn:Eq; [|discriminate].
  intros Hf.
  assert (Hr : b_results s' = map Some ms).
  { destruct ms as [|m0 ms0].
    - cbn [map app] in Hf. rewrite finish_nil_par in Hf. destruct (verbose && _); [discriminate|].
      injection Hf as <-. reflexivity.
    - rewrite finish_par in Hf by discriminate. destruct (verbose && _); [discriminate|].
      injection Hf as <-. reflexivity. }
  assert (Hl : length ms = n) by (apply all_some_length in Em; rewrite map_length, seq_length in Em; exact Em).
  rewrite Hr, map_length. split; [exact Hl|]. intros i Hi.
  pose proof (all_some_nth _ _ (i - 1)%nat Em) as Hn.
  rewrite (map_nth_error (trained fit draw Hm Wm delay) (i - 1) (seq 1 n) (d := i)) in Hn
    by (rewrite nth_seq by lia; f_equal; lia).
  destruct (nth_error ms (i - 1)) as [m|] eqn:En; [|discriminate]. injection Hn as Hn.
  assert (Hsel : forall mm h, par_sel mm i = Some h -> @seed_matrix X mm i h).
  { intros mm h. destruct mm as [|x|l]; cbn.
    - intros [= <-]. constructor.
    - intros [= <-]. constructor.
    - destruct i as [|i]; [lia|]. cbn [Nat.sub]. rewrite Nat.sub_0_r.
      destruct (nth_error l i) eqn:E; [|discriminate]. intros [= <-]. constructor. exact E. }
  unfold trained in Hn. destruct (par_sel Hm i) as [h|] eqn:Eh; [|discriminate].
  destruct (par_sel Wm i) as [w|] eqn:Ew; [|discriminate].
  exists m, h, w. split; [exact (map_nth_error Some (i - 1) ms En)|]. auto.
Qed.
Print Assumptions C25_result_is_model_of_its_seed.

Theorem C25_schedule_irrelevant :
  forall {M X} (qr qt : M -> option fl) (fit : Z -> mats X -> mats X -> Z -> nat -> option M)
         (robust verbose : bool) n draw Hm Wm delay sched1 sched2 s,
    Permutation sched1 (seq 1 n) -> Permutation sched2 (seq 1 n) ->
    par_train qr qt fit robust verbose n draw Hm Wm delay sched1 s
    = par_train qr qt fit robust verbose n draw Hm Wm delay sched2 s.
Proof.
  intros M X qr qt fit robust verbose n draw Hm Wm delay sched1 sched2 s H1 H2.
  rewrite !par_train_spec; [reflexivity| |];
    intros i Hi; eapply Permutation_in; [symmetry; eassumption|apply in_seq; lia|symmetry; eassumption|apply in_seq; lia].
Qed.
Print Assumptions C25_schedule_irrelevant.
(* three models whose second loss is not a number, finishing in the order 3, 1, 2 *)
Definition xb_par (sched : list nat) :=
  par_train (X := unit) ex_q ex_q ex_fit true true 3 (fun i => Z.of_nat i) MNone MNone (-1) sched (mkB [] None).
Lemma xb_perm : Permutation [3; 1; 2]%nat (seq 1 3).
Proof. cbn. transitivity [1; 3; 2]%nat; [constructor | constructor; constructor]. Qed.
Example C24_parallel_best_example :
  exists qs b, losses_of ex_q (b_results (snd (xb_par [3; 1; 2]%nat))) qs /\
               b_best (snd (xb_par [3; 1; 2]%nat)) = Some b /\ best_index qs b.
Proof.
  apply (C24_parallel_best (X := unit) ex_q ex_q ex_fit true true 3 (fun i => Z.of_nat i) MNone MNone (-1)
           [3; 1; 2]%nat (mkB [] None)).
  - intros i Hi. assert (i = 1 \/ i = 2 \/ i = 3)%nat as [-> | [-> | ->]] by lia; cbn; tauto.
  - unfold xb_par. rewrite (proj2 C24_instance). reflexivity.
Qed.
Example C24_sequential_best_example :=
  C24_sequential_best (X := unit) ex_q ex_q ex_fit true true 3 (fun i => Z.of_nat i) MNone MNone (-1) None (fun _ => 0)
    (mkB [] None) _ (proj1 C24_instance).
Example C25_result_is_model_of_its_seed_example :=
  C25_result_is_model_of_its_seed (X := unit) ex_q ex_q ex_fit true true 3 (fun i => Z.of_nat i) MNone MNone (-1)
    [3; 1; 2]%nat (mkB [] None) _ xb_perm (proj2 C24_instance).
Example C25_schedule_irrelevant_example : xb_par [3; 1; 2]%nat = xb_par [1; 2; 3]%nat :=
  C25_schedule_irrelevant (X := unit) ex_q ex_q ex_fit true true 3 (fun i => Z.of_nat i) MNone MNone (-1)
    [3; 1; 2]%nat (seq 1 3) (mkB [] None) xb_perm (Permutation_refl _).

Definition not_stack {X} (m : mats X) : Prop := match m with M3 _ => False | _ => True end.

Theorem C25_modes_agree :
  forall {M X} (qr qt : M -> option fl) (fit : Z -> mats X -> mats X -> Z -> nat -> option M)
         (robust verbose : bool) n draw Hm Wm sched dur s,
    Permutation sched (seq 1 n) -> not_stack Hm -> not_stack Wm ->
    (1 <= n)%nat -> (verbose = true -> (2 <= n)%nat) ->
    let a := par_train qr qt fit robust verbose n draw Hm Wm (-1) sched s in
    let b := seq_train qr qt fit robust verbose n draw Hm Wm (-1) None dur s in
    fst a = fst b /\ (fst a = true -> snd a = snd b).
Proof.
  intros M X qr qt fit robust verbose n draw Hm Wm sched dur s Hp HH HW Hn Hv a b.
  assert (Hsel : forall (mm : mats X) i, not_stack mm -> par_sel mm i = Some mm)
    by (intros [| |] i Hns; cbn; [reflexivity|reflexivity|destruct Hns]).
  assert (Htr : map (trained fit draw Hm Wm (-1)) (seq 1 n)
                = map (fun i => fit (draw (i - 1)%nat) Hm Wm (-1) i) (seq 1 n)).
  { apply map_ext. intros i. unfold trained. rewrite !Hsel by assumption. reflexivity. }
  assert (Ha : a = match all_some (map (trained fit draw Hm Wm (-1)) (seq 1 n)) with
      | None => (false, s)
      | Some ms =>
          match all_some (map (sel_q qr qt robust) ms) with
          | None => (false, s)
          | Some qs => finish verbose (map Some ms ++ [None]) (scan qs 1 PInf (-1)) s
          end
      end).
  { apply par_train_spec. intros i Hi. eapply Permutation_in; [symmetry; exact Hp|]. apply in_seq. lia. }
  rewrite Htr in Ha.
  destruct (seq_cases qr qt fit robust draw Hm Wm None dur n) as [(ms & qs & H1 & H2 & H3)|Hbad].
  - assert (Hb : b = _) by exact (seq_train_ok qr qt fit robust verbose draw Hm Wm (-1) None dur n ms qs s H1 H2 H3).
    rewrite H1, H2 in Ha.
    assert (Hl : length ms = n) by (apply all_some_length in H1; rewrite map_length, seq_length in H1; exact H1).
    assert (Hne : ms <> []) by (intros ->; cbn in Hl; lia).
    rewrite finish_par in Ha by exact Hne. rewrite finish_seq in Hb by exact Hne.
    assert (Hidx : verbose = true ->
       py_index_ok (map Some ms ++ [None]) (scan qs 1 PInf (-1) - 1) = true /\
       py_index_ok (map Some ms) (scan qs 1 PInf (-1) - 1) = true).
    { intros Hvt. specialize (Hv Hvt).
      assert (Hql : length qs = n).
      { apply all_some_length in H2. rewrite map_length in H2. congruence. }
      unfold py_index_ok. rewrite app_length, !map_length. cbn [length].
      destruct (scan_best qs) as [(k & q & -> & Hk & _)|[-> _]].
      - assert (k < length qs)%nat by (apply nth_error_Some; congruence).
        split; apply andb_true_iff; split; try apply Z.leb_le; try apply Z.ltb_lt; lia.
      - split; apply andb_true_iff; split; try apply Z.leb_le; try apply Z.ltb_lt; lia. }
    destruct verbose.
    + destruct (Hidx eq_refl) as [E1 E2]. rewrite E1 in Ha. rewrite E2 in Hb. cbn in Ha, Hb.
      rewrite Ha, Hb. split; reflexivity.
    + cbn in Ha, Hb. rewrite Ha, Hb. split; reflexivity.
  - pose proof (seq_train_bad qr qt fit robust verbose draw Hm Wm (-1) None dur n s Hbad) as Hb.
    fold b in Hb. rewrite Hb.
    enough (fst a = false) as -> by (split; [reflexivity|discriminate]).
    rewrite Ha. destruct Hbad as (f & Hf & Hc).
    destruct (all_some (map (fun i => fit (draw (i - 1)%nat) Hm Wm (-1) i) (seq 1 n))) as [ms|] eqn:Em; [|reflexivity].
    destruct (all_some (map (sel_q qr qt robust) ms)) as [qs|] eqn:Eq; [|reflexivity].
    exfalso. pose proof (all_some_nth _ _ (f - 1)%nat Em) as Hnth.
    rewrite (map_nth_error (fun i => fit (draw (i - 1)%nat) Hm Wm (-1) i) (f - 1) (seq 1 n) (d := f)) in Hnth
      by (rewrite nth_seq by lia; f_equal; lia).
    destruct (nth_error ms (f - 1)) as [m|] eqn:En; [|discriminate]. injection Hnth as Hnth.
    rewrite Hnth in Hc. destruct Hc as [Hc|Hc]; [discriminate|].
    assert (all_some (map (sel_q qr qt robust) ms) = None) as Hnone.
    { apply all_some_none. exists m. split; [eapply nth_error_In; exact En|exact Hc]. }
    congruence.
Qed.
Print Assumptions C25_modes_agree.
Example C25_modes_agree_example :
  fst (xb_par [3; 1; 2]%nat) = true /\
  xb_par [3; 1; 2]%nat
  = seq_train (X := unit) ex_q ex_q ex_fit true true 3 (fun i => Z.of_nat i) MNone MNone (-1) None (fun _ => 60) (mkB [] None).
Proof.
  pose proof (C25_modes_agree (X := unit) ex_q ex_q ex_fit true true 3 (fun i => Z.of_nat i) MNone MNone
    [3; 1; 2]%nat (fun _ => 60) (mkB [] None) xb_perm I I ltac:(lia) ltac:(lia)) as H.
  cbv zeta in H. destruct H as [H1 H2].
  assert (Hs : fst (xb_par [3; 1; 2]%nat) = true) by (unfold xb_par; rewrite (proj2 C24_instance); reflexivity).
  split; [exact Hs |]. apply injective_projections; [exact H1 | apply H2; exact Hs].
Qed.

(** The side condition on verbose is needed: one model with a NaN loss. *)
Theorem C25_single_nan_verbose_refuted :
  exists (qr qt : unit -> option fl) (fit : Z -> mats unit -> mats unit -> Z -> nat -> option unit),
    fst (par_train qr qt fit true true 1 (fun _ => 0) MNone MNone (-1) [1%nat] (mkB [] None)) = true /\
    fst (seq_train qr qt fit true true 1 (fun _ => 0) MNone MNone (-1) None (fun _ => 0) (mkB [] None)) = false.
Proof.
  exists (fun _ => Some NaN), (fun _ => Some NaN), (fun _ _ _ _ _ => Some tt). split; reflexivity.
Qed.
Print Assumptions C25_single_nan_verbose_refuted.

Example C25_instance : Permutation [3; 1; 2]%nat (seq 1 3) /\ not_stack (@MNone unit).
Proof.
  split; [|exact I]. change (seq 1 3) with [1; 2; 3]%nat.
  eapply perm_trans; [apply perm_swap|]. constructor. apply perm_swap.
Qed.

(** ** C26: delay_h in the two modes. *)

Theorem C26_sequential_uses_default_delay :
  forall {M X} (qr qt : M -> option fl) (fit : Z -> mats X -> mats X -> Z -> nat -> option M)
         (robust verbose : bool) n draw Hm Wm delay limit dur s s',
    seq_train qr qt fit robust verbose n draw Hm Wm delay limit dur s = (true, s') ->
    length (b_results s') = n /\
    forall i, (1 <= i <= n)%nat -> exists m,
      nth_error (b_results s') (i - 1) = Some (Some m) /\
      fit (draw (i - 1)%nat) Hm Wm (-1) i = Some m.
Proof.
  intros M X qr qt fit robust verbose n draw Hm Wm delay limit dur s s' Hf.
  destruct (seq_cases qr qt fit robust draw Hm Wm limit dur n) as [(ms & qs & H1 & H2 & H3)|Hbad].
  - rewrite (seq_train_ok _ _ _ _ _ _ _ _ _ _ _ _ ms qs _ H1 H2 H3) in Hf.
    assert (Hl : length ms = n) by (apply all_some_length in H1; rewrite map_length, seq_length in H1; exact H1).
    assert (Hr : b_results s' = map Some ms).
    { destruct ms as [|m0 ms0].
      - unfold finish in Hf. cbn [map] in Hf. destruct (verbose && _); discriminate.
      - rewrite finish_seq in Hf by discriminate. destruct (verbose && _); [discriminate|].
        injection Hf as <-. reflexivity. }
    rewrite Hr, map_length. split; [exact Hl|]. intros i Hi.
    pose proof (all_some_nth _ _ (i - 1)%nat H1) as Hn.
    rewrite (map_nth_error (fun i => fit (draw (i - 1)%nat) Hm Wm (-1) i) (i - 1) (seq 1 n) (d := i)) in Hn
      by (rewrite nth_seq by lia; f_equal; lia).
    destruct (nth_error ms (i - 1)) as [m|] eqn:En; [|discriminate]. injection Hn as Hn.
    exists m. split; [exact (map_nth_error Some (i - 1) ms En)|exact Hn].
  - pose proof (seq_train_bad qr qt fit robust verbose draw Hm Wm delay limit dur n s Hbad) as Hb.
    rewrite Hf in Hb. discriminate.
Qed.
Print Assumptions C26_sequential_uses_default_delay.
Example C26_sequential_uses_default_delay_example :=
  C26_sequential_uses_default_delay (X := unit) ex_q ex_q ex_fit true true 3 (fun i => Z.of_nat i) MNone MNone (-1) None
    (fun _ => 0) (mkB [] None) _ (proj1 C24_instance).

(** A model whose profile state counts the updates it received; trained with
    the engine's own loop. *)
Definition count_upd (hold : bool) (st : nat) : nat := if hold then st else S st.
Definition count_fit (hold_h : bool) (max_iter : Z) (seed : Z) (H W : mats unit) (delay : Z) (i : nat)
  : option nat :=
  Some (rr_state (rust_train count_upd (fun _ => NaN) (fun _ _ => false) 10 hold_h delay (fun _ => false) max_iter 0%nat)).

Lemma count_loop delay : forall rem i st win hist q ci evs,
  rr_state (rust_loop count_upd (fun _ => NaN) (fun _ _ => false) 10 true delay (fun _ => false) rem i st win hist q ci evs)
  = (st + length (filter (fun j => negb (hold_at true delay j)) (seq i rem)))%nat.
Proof.
  induction rem as [|rem IH]; intros i st win hist q ci evs; cbn [rust_loop seq filter].
  - cbn. lia.
  - rewrite !andb_false_r. cbn [orb]. rewrite IH. unfold count_upd.
    destruct (hold_at true delay i); cbn [negb length]; lia.
Qed.

Theorem C26_modes_disagree :
  forall n max_iter delay, (1 <= n)%nat -> 0 < delay -> delay + 1 < max_iter ->
    exists s1 s2,
      par_train (fun _ => Some NaN) (fun _ => Some NaN) (count_fit true max_iter) true false n (fun _ => 0)
        MNone MNone delay (seq 1 n) (mkB [] None) = (true, s1) /\
      seq_train (fun _ => Some NaN) (fun _ => Some NaN) (count_fit true max_iter) true false n (fun _ => 0)
        MNone MNone delay None (fun _ => 0) (mkB [] None) = (true, s2) /\
      length (b_results s1) = n /\ length (b_results s2) = n /\
      forall i, (i < n)%nat -> nth_error (b_results s1) i <> nth_error (b_results s2) i.
Proof.
  intros n max_iter delay Hn Hd Hm.
  set (cnt d := rr_state (rust_train count_upd (fun _ => NaN) (fun _ _ => false) 10 true d (fun _ => false) max_iter 0%nat)).
  assert (Hq : forall (l : list nat), exists qs, all_some (map (sel_q (fun _ : nat => Some NaN) (fun _ => Some NaN) true) l) = Some qs).
  { induction l as [|a l [qs IH]]; cbn; [eauto|]. cbn in IH. rewrite IH. eauto. }
  assert (Hall : forall d i k, all_some (map (fun i => count_fit true max_iter 0 MNone MNone d i) (seq i k)) = Some (repeat (cnt d) k)).
  { intros d i k. revert i. induction k as [|k IH]; intros i; [reflexivity|]. cbn [seq map all_some].
    rewrite IH. reflexivity. }
  assert (Hr : forall d, repeat (cnt d) n <> []) by (intros d; destruct n; [lia|discriminate]).
  destruct (Hq (repeat (cnt delay) n)) as [q1 Hq1]. destruct (Hq (repeat (cnt (-1)) n)) as [q2 Hq2].
  eexists; eexists. split; [|split].
  - rewrite par_train_spec by (intros i Hi; apply in_seq; lia).
    change (map (trained (count_fit true max_iter) (fun _ => 0) MNone MNone delay) (seq 1 n))
      with (map (fun i => count_fit true max_iter 0 MNone MNone delay i) (seq 1 n)).
    rewrite Hall, Hq1, finish_par by apply Hr. cbn [andb]. reflexivity.
  - rewrite (seq_train_ok _ _ _ _ _ _ _ _ _ _ _ _ (repeat (cnt (-1)) n) q2 _ (Hall _ _ _) Hq2) by reflexivity.
    rewrite finish_seq by apply Hr. cbn [andb]. reflexivity.
  - cbn [b_results]. rewrite !map_length, !repeat_length. split; [reflexivity|]. split; [reflexivity|].
    assert (H1 : (1 <= cnt delay)%nat).
    { unfold cnt, rust_train. rewrite count_loop. cbn [Nat.add].
      assert (Hin : In (Z.to_nat (delay + 1)) (filter (fun j => negb (hold_at true delay j)) (seq 0 (Z.to_nat max_iter)))).
      { apply filter_In. split; [apply in_seq; lia|]. unfold hold_at. cbn [negb orb].
        destruct (Z.ltb_spec 0 delay); [|lia]. destruct (Z.ltb_spec delay (Z.of_nat (Z.to_nat (delay + 1)))); [reflexivity|lia]. }
      destruct (filter _ _); [destruct Hin|cbn; lia]. }
    assert (H2 : cnt (-1) = 0%nat).
    { unfold cnt, rust_train. rewrite count_loop. cbn [Nat.add].
      destruct (filter _ _) as [|x l] eqn:E; [reflexivity|].
      assert (Hin : In x (x :: l)) by (left; reflexivity). rewrite <- E in Hin. apply filter_In in Hin.
      destruct Hin as [_ Hin]. discriminate. }
    assert (Hnth : forall (c : nat) i k, (i < k)%nat -> nth_error (map Some (repeat c k)) i = Some (Some c)).
    { intros c i k. revert i. induction k as [|k IH]; intros i Hi; [lia|]. destruct i; cbn; [reflexivity|]. apply IH. lia. }
    intros i Hi. rewrite !Hnth by assumption. intros C. injection C as C. lia.
Qed.
Print Assumptions C26_modes_disagree.
Example C26_modes_disagree_example := C26_modes_disagree 3 20000 50 ltac:(lia) ltac:(lia) ltac:(lia).

Example C26_instance : (1 <= 3)%nat /\ 0 < 50 /\ 50 + 1 < 20000. Proof. lia. Qed.

(** ** C27: the 8-bit model number. *)

Theorem C27_at_most_127_models :
  forall {M X} (qr qt : M -> option fl) (fit : Z -> mats X -> mats X -> Z -> nat -> option M)
         (robust : bool) n draw Hm Wm delay sched dur s,
    (1 <= n)%nat -> Permutation sched (seq 1 n) -> not_stack Hm -> not_stack Wm ->
    (forall seed h w d i, exists m, fit seed h w d i = Some m) ->
    (forall m : M, exists q, ((if robust then qr else qt) m : option fl) = Some q) ->
    (fst (par_train qr qt (i8_engine fit) robust false n draw Hm Wm delay sched s) = true <-> (n <= 127)%nat) /\
    (fst (seq_train qr qt (i8_engine fit) robust false n draw Hm Wm delay None dur s) = true <-> (n <= 127)%nat).
Proof.
  intros M X qr qt fit robust n draw Hm Wm delay sched dur s Hn Hp HH HW Hfit Hq.
  assert (Hsel : forall (mm : mats X) i, not_stack mm -> par_sel mm i = Some mm)
    by (intros [| |] i Hns; cbn; [reflexivity|reflexivity|destruct Hns]).
  assert (Hq' : forall m, exists q, sel_q qr qt robust m = Some q).
  { intros m. destruct (Hq m) as [q Hm']. exists q. unfold sel_q. destruct robust; exact Hm'. }
  assert (Hqs : forall (l : list M), exists qs, all_some (map (sel_q qr qt robust) l) = Some qs).
  { induction l as [|a l [qs IH]]; cbn; [eauto|]. destruct (Hq' a) as [q ->]. rewrite IH. eauto. }
  assert (Hms : forall d, (n <= 127)%nat -> exists ms, ms <> [] /\
     all_some (map (fun i => i8_engine fit (draw (i - 1)%nat) Hm Wm d i) (seq 1 n)) = Some ms).
  { intros d Hle.
    destruct (all_some (map (fun i => i8_engine fit (draw (i - 1)%nat) Hm Wm d i) (seq 1 n))) as [ms|] eqn:E.
    - exists ms. split; [|reflexivity]. apply all_some_length in E. rewrite map_length, seq_length in E.
      intros ->. cbn in E. lia.
    - apply all_some_none in E. destruct E as (i & Hi & Hnone). apply in_seq in Hi. exfalso.
      unfold i8_engine in Hnone. destruct (Z.ltb_spec 127 (Z.of_nat i)); [lia|].
      destruct (Hfit (draw (i - 1)%nat) Hm Wm d i) as [m Hm']. congruence. }
  split.
  - rewrite par_train_spec.
    2:{ intros i Hi. eapply Permutation_in; [symmetry; exact Hp|]. apply in_seq. lia. }
    assert (Htr : map (trained (i8_engine fit) draw Hm Wm delay) (seq 1 n)
                = map (fun i => i8_engine fit (draw (i - 1)%nat) Hm Wm delay i) (seq 1 n)).
    { apply map_ext. intros i. unfold trained. rewrite !Hsel by assumption. reflexivity. }
    rewrite Htr. split.
    + intros H. destruct (Nat.le_gt_cases n 127) as [|Hgt]; [assumption|exfalso].
      replace (all_some (map (fun i => i8_engine fit (draw (i - 1)%nat) Hm Wm delay i) (seq 1 n))) with (@None (list M)) in H;
        [discriminate|].
      symmetry. apply all_some_none. exists 128%nat. split; [apply in_seq; lia|reflexivity].
    + intros Hle. destruct (Hms delay Hle) as (ms & Hne & ->). destruct (Hqs ms) as [qs ->].
      rewrite finish_par by exact Hne. reflexivity.
  - split.
    + intros H. destruct (Nat.le_gt_cases n 127) as [|Hgt]; [assumption|exfalso].
      rewrite seq_train_bad in H; [discriminate|]. exists 128%nat. split; [lia|]. exact I.
    + intros Hle. destruct (Hms (-1) Hle) as (ms & Hne & E). destruct (Hqs ms) as [qs Eq].
      rewrite (seq_train_ok _ _ _ _ _ _ _ _ _ _ _ _ ms qs _ E Eq) by reflexivity.
      rewrite finish_seq by exact Hne. reflexivity.
Qed.
Print Assumptions C27_at_most_127_models.

Theorem C27_state_after_overflow :
  forall {M X} (qr qt : M -> option fl) (fit : Z -> mats X -> mats X -> Z -> nat -> option M)
         (robust verbose : bool) n draw Hm Wm delay sched dur s,
    (127 < n)%nat -> Permutation sched (seq 1 n) ->
    (forall seed h w d i, exists m, fit seed h w d i = Some m) ->
    (forall m : M, exists q, ((if robust then qr else qt) m : option fl) = Some q) ->
    par_train qr qt (i8_engine fit) robust verbose n draw Hm Wm delay sched s = (false, s) /\
    exists s', seq_train qr qt (i8_engine fit) robust verbose n draw Hm Wm delay None dur s = (false, s') /\
      b_best s' = b_best s /\ length (b_results s') = 127%nat /\
      forall i, (i < 127)%nat -> exists m, nth_error (b_results s') i = Some (Some m) /\
        fit (draw i) Hm Wm (-1) (S i) = Some m.
Proof.
  intros M X qr qt fit robust verbose n draw Hm Wm delay sched dur s Hn Hp Hfit Hq. split.
  - rewrite par_train_spec.
    2:{ intros i Hi. eapply Permutation_in; [symmetry; exact Hp|]. apply in_seq. lia. }
    replace (all_some (map (trained (i8_engine fit) draw Hm Wm delay) (seq 1 n))) with (@None (list M)); [reflexivity|].
    symmetry. apply all_some_none. exists 128%nat. split; [apply in_seq; lia|].
    unfold trained. destruct (par_sel Hm 128); [|reflexivity]. destruct (par_sel Wm 128); reflexivity.
  - assert (Hq' : forall m, exists q, sel_q qr qt robust m = Some q).
    { intros m. destruct (Hq m) as [q Hm']. exists q. unfold sel_q. destruct robust; exact Hm'. }
    assert (Hqs : forall (l : list M), exists qs, all_some (map (sel_q qr qt robust) l) = Some qs).
    { induction l as [|a l [qs IH]]; cbn; [eauto|]. destruct (Hq' a) as [q ->]. rewrite IH. eauto. }
    set (g := fun i => i8_engine fit (draw (i - 1)%nat) Hm Wm (-1) i).
    assert (Hg : forall i, (1 <= i <= 127)%nat -> g i = fit (draw (i - 1)%nat) Hm Wm (-1) i).
    { intros i Hi. unfold g, i8_engine. destruct (Z.ltb_spec 127 (Z.of_nat i)); [lia|reflexivity]. }
    destruct (all_some (map g (seq 1 127))) as [ms|] eqn:E.
    2:{ apply all_some_none in E. destruct E as (i & Hi & Hnone). apply in_seq in Hi. exfalso.
        rewrite Hg in Hnone by lia. destruct (Hfit (draw (i - 1)%nat) Hm Wm (-1) i) as [m Hm']. congruence. }
    assert (Hl : length ms = 127%nat) by (apply all_some_length in E; rewrite map_length, seq_length in E; exact E).
    destruct (Hqs ms) as [qs Eq].
    exists (mkB (map Some ms) (b_best s)). cbn [b_results b_best]. split.
    + unfold seq_train. rewrite (seq_loop_stop qr qt (i8_engine fit) robust draw Hm Wm None dur n ms 1 [] PInf (-1) qs);
        [reflexivity|rewrite Hl; exact E|exact Eq|reflexivity|lia|].
      rewrite Hl. exact I.
    + split; [reflexivity|]. rewrite map_length. split; [exact Hl|]. intros i Hi.
      pose proof (all_some_nth _ _ i E) as Hnth.
      rewrite (map_nth_error g i (seq 1 127) (d := S i)) in Hnth by (rewrite nth_seq by lia; f_equal; lia).
      rewrite Hg in Hnth by lia. cbn [Nat.sub] in Hnth. rewrite Nat.sub_0_r in Hnth.
      destruct (nth_error ms i) as [m|] eqn:En; [|discriminate]. injection Hnth as Hnth.
      exists m. split; [exact (map_nth_error Some i ms En)|exact Hnth].
Qed.
Print Assumptions C27_state_after_overflow.
(* two hundred models, every fit returning *)
Lemma xb_fit : forall (seed : Z) (h w : mats unit) (d : Z) (i : nat), exists m, ex_fit seed h w d i = Some m.
Proof. intros. eexists. reflexivity. Qed.
Lemma xb_q : forall m : nat, exists q, ((if true then ex_q else ex_q) m : option fl) = Some q.
Proof. intros m. unfold ex_q. destruct m as [|[|m]]; eexists; reflexivity. Qed.
Example C27_at_most_127_models_example :=
  C27_at_most_127_models (X := unit) ex_q ex_q ex_fit true 200 (fun i => Z.of_nat i) MNone MNone (-1) (seq 1 200)
    (fun _ => 0) (mkB [] None) ltac:(lia) (Permutation_refl _) I I xb_fit xb_q.
Example C27_state_after_overflow_example :=
  C27_state_after_overflow (X := unit) ex_q ex_q ex_fit true false 200 (fun i => Z.of_nat i) MNone MNone (-1) (seq 1 200)
    (fun _ => 0) (mkB [] None) ltac:(lia) (Permutation_refl _) xb_fit xb_q.

Example C27_instance :
  (127 < 200)%nat /\ (forall seed h w d i, exists m, ex_fit seed h w d i = Some m) /\
  (forall m, exists q, ((if true then ex_q else ex_q) m : option fl) = Some q).
Proof.
  split; [lia|]. split; [intros; eexists; reflexivity|]. intros m. cbn. unfold ex_q.
  destruct m as [|[|]]; eexists; reflexivity.
Qed.

(** ** C28: the time limit.  Durations in microseconds, limits in minutes. *)

(** Specification: whole days are forgotten, then whole seconds are compared. *)
Definition exceeds (limit us : Z) : Prop :=
  limit <> 0 /\ exists days secs rest,
    us = (days * 86400 + secs) * 1000000 + rest /\ 0 <= secs < 86400 /\ 0 <= rest < 1000000 /\
    60 * limit < secs.

Lemma over_limit_exceeds l us : over_limit (Some l) us = true <-> exceeds l us.
Proof.
  unfold over_limit, td_seconds, exceeds. rewrite andb_true_iff, negb_true_iff, Z.eqb_neq, Z.ltb_lt. split.
  - intros [H1 H2]. split; [exact H1|].
    exists (us / 1000000 / 86400), ((us / 1000000) mod 86400), (us mod 1000000).
    pose proof (Z.div_mod us 1000000 ltac:(lia)). pose proof (Z.div_mod (us / 1000000) 86400 ltac:(lia)).
    pose proof (Z.mod_pos_bound us 1000000 ltac:(lia)). pose proof (Z.mod_pos_bound (us / 1000000) 86400 ltac:(lia)).
    repeat split; lia.
  - intros [H1 (days & secs & rest & -> & Hs & Hr & H2)]. split; [exact H1|].
    replace (((days * 86400 + secs) * 1000000 + rest) / 1000000) with (days * 86400 + secs).
    2:{ apply Z.div_unique with rest; lia. }
    replace ((days * 86400 + secs) mod 86400) with secs by (apply Z.mod_unique with days; lia). lia.
Qed.

Theorem C28_limit_decides :
  forall {M X} (qr qt : M -> option fl) (fit : Z -> mats X -> mats X -> Z -> nat -> option M)
         (robust : bool) n draw Hm Wm delay limit dur s,
    (1 <= n)%nat ->
    (forall seed h w d i, exists m, fit seed h w d i = Some m) ->
    (forall m : M, exists q, ((if robust then qr else qt) m : option fl) = Some q) ->
    (fst (seq_train qr qt fit robust false n draw Hm Wm delay (Some limit) dur s) = true <->
     forall i, (1 <= i <= n)%nat -> ~ exceeds limit (dur i)) /\
    (forall k, (1 <= k <= n)%nat -> exceeds limit (dur k) ->
       (forall i, (1 <= i < k)%nat -> ~ exceeds limit (dur i)) ->
       exists s', seq_train qr qt fit robust false n draw Hm Wm delay (Some limit) dur s = (false, s') /\
         b_best s' = b_best s /\ length (b_results s') = (k - 1)%nat /\
         forall i, (1 <= i < k)%nat -> exists m, nth_error (b_results s') (i - 1) = Some (Some m) /\
           fit (draw (i - 1)%nat) Hm Wm (-1) i = Some m).
Proof.
  intros M X qr qt fit robust n draw Hm Wm delay limit dur s Hn Hfit Hq.
  assert (Hq' : forall m, exists q, sel_q qr qt robust m = Some q).
  { intros m. destruct (Hq m) as [q Hm']. exists q. unfold sel_q. destruct robust; exact Hm'. }
  assert (Hqs : forall (l : list M), exists qs, all_some (map (sel_q qr qt robust) l) = Some qs).
  { induction l as [|a l [qs IH]]; cbn; [eauto|]. destruct (Hq' a) as [q ->]. rewrite IH. eauto. }
  set (g := fun i => fit (draw (i - 1)%nat) Hm Wm (-1) i).
  assert (Hms : forall k, exists ms, length ms = k /\ all_some (map g (seq 1 k)) = Some ms).
  { intros k. destruct (all_some (map g (seq 1 k))) as [ms|] eqn:E.
    - exists ms. split; [|reflexivity]. apply all_some_length in E. rewrite map_length, seq_length in E. exact E.
    - apply all_some_none in E. destruct E as (i & _ & Hnone). exfalso.
      destruct (Hfit (draw (i - 1)%nat) Hm Wm (-1) i) as [m Hm']. unfold g in Hnone. congruence. }
  split; [split|].
  - intros H i Hi He. rewrite seq_train_bad in H; [discriminate|]. exists i. split; [lia|].
    destruct (fit _ _ _ _ _); [|exact I]. left. apply over_limit_exceeds. exact He.
  - intros H. destruct (Hms n) as (ms & Hl & E). destruct (Hqs ms) as [qs Eq].
    rewrite (seq_train_ok _ _ _ _ _ _ _ _ _ _ _ _ ms qs _ E Eq).
    + rewrite finish_seq by (intros ->; cbn in Hl; lia). reflexivity.
    + intros j Hj. destruct (over_limit (Some limit) (dur j)) eqn:Eo; [|reflexivity].
      apply over_limit_exceeds in Eo. destruct (H j ltac:(lia) Eo).
  - intros k Hk He Hbefore. destruct (Hms (k - 1)%nat) as (ms & Hl & E). destruct (Hqs ms) as [qs Eq].
    exists (mkB (map Some ms) (b_best s)). cbn [b_results b_best]. split.
    + unfold seq_train.
      rewrite (seq_loop_stop qr qt fit robust draw Hm Wm (Some limit) dur n ms 1 [] PInf (-1) qs);
        [reflexivity|rewrite Hl; exact E|exact Eq| |lia|].
      * intros j Hj. destruct (over_limit (Some limit) (dur j)) eqn:Eo; [|reflexivity].
        apply over_limit_exceeds in Eo. destruct (Hbefore j ltac:(lia) Eo).
      * rewrite Hl. replace (1 + (k - 1))%nat with k by lia. cbv zeta.
        destruct (fit _ _ _ _ _); [|exact I]. left. apply over_limit_exceeds. exact He.
    + split; [reflexivity|]. rewrite map_length. split; [exact Hl|]. intros i Hi.
      pose proof (all_some_nth _ _ (i - 1)%nat E) as Hnth.
      rewrite (map_nth_error g (i - 1) (seq 1 (k - 1)) (d := i)) in Hnth by (rewrite nth_seq by lia; f_equal; lia).
      unfold g in Hnth. destruct (nth_error ms (i - 1)) as [m|] eqn:En; [|discriminate]. injection Hnth as Hnth.
      exists m. split; [exact (map_nth_error Some (i - 1) ms En)|exact Hnth].
Qed.
Print Assumptions C28_limit_decides.

(** Documented: the batch halts if a single model exceeds the limit.  A model
    that takes 24 hours and one minute passes a limit of two minutes. *)
Theorem C28_long_model_passes_refuted :
  exists (qr qt : nat -> option fl) (fit : Z -> mats unit -> mats unit -> Z -> nat -> option nat) dur s',
    2 * 60 * 1000000 < dur 1%nat /\ dur 1%nat = (24 * 60 + 1) * 60 * 1000000 /\
    seq_train qr qt fit true false 1 (fun _ => 0) MNone MNone (-1) (Some 2) dur (mkB [] None) = (true, s').
Proof.
  exists (fun _ => Some NaN), (fun _ => Some NaN), ex_fit, (fun _ => (24 * 60 + 1) * 60 * 1000000).
  eexists. split; [lia|]. split; [reflexivity|]. reflexivity.
Qed.
Print Assumptions C28_long_model_passes_refuted.

(** A limit of zero minutes is no limit, and parallel mode never looks. *)
Theorem C28_zero_limit_ignored :
  forall {M X} (qr qt : M -> option fl) (fit : Z -> mats X -> mats X -> Z -> nat -> option M)
         (robust verbose : bool) n draw Hm Wm delay dur s,
    seq_train qr qt fit robust verbose n draw Hm Wm delay (Some 0) dur s
    = seq_train qr qt fit robust verbose n draw Hm Wm delay None dur s.
Proof.
  intros. unfold seq_train.
  enough (forall k i r bq bm, seq_loop qr qt fit robust draw Hm Wm (Some 0) dur k i r bq bm
                     = seq_loop qr qt fit robust draw Hm Wm None dur k i r bq bm) as -> by reflexivity.
  induction k as [|k IH]; intros i r bq bm; cbn [seq_loop]; [reflexivity|].
  destruct (fit _ _ _ _ _); [|reflexivity]. cbn [over_limit Z.eqb negb andb].
  destruct (sel_q _ _ _ _); [|reflexivity]. rewrite !IH. reflexivity.
Qed.
Print Assumptions C28_zero_limit_ignored.
(* the second of three models runs for three minutes under a limit of two *)
Example C28_limit_decides_example :
  let run := seq_train (X := unit) ex_q ex_q ex_fit true false 3 (fun i => Z.of_nat i) MNone MNone (-1) (Some 2)
               (fun i => if (i =? 2)%nat then 3 * 60 * 1000000 else 90 * 1000000) (mkB [] None) in
  fst run = false /\ b_best (snd run) = None /\ length (b_results (snd run)) = 1%nat.
Proof.
  intros run.
  assert (He : exceeds 2 (3 * 60 * 1000000)).
  { split; [lia |]. exists 0, 180, 0. lia. }
  assert (Hn : ~ exceeds 2 (90 * 1000000)).
  { intros [_ (d & s & r & H1 & H2 & H3 & H4)]. assert (d = 0) by nia. lia. }
  destruct (proj2 (C28_limit_decides (X := unit) ex_q ex_q ex_fit true 3 (fun i => Z.of_nat i) MNone MNone (-1) 2
    (fun i => if (i =? 2)%nat then 3 * 60 * 1000000 else 90 * 1000000) (mkB [] None) ltac:(lia) xb_fit xb_q)
    2%nat ltac:(lia) He) as (s' & H1 & H2 & H3 & _).
  - intros i Hi. assert (i = 1%nat) as -> by lia. exact Hn.
  - unfold run. rewrite H1. cbn [fst snd]. rewrite H2, H3. auto.
Qed.
Example C28_zero_limit_ignored_example :=
  C28_zero_limit_ignored (X := unit) ex_q ex_q ex_fit true true 3 (fun i => Z.of_nat i) MNone MNone (-1)
    (fun _ => 3 * 60 * 1000000) (mkB [] None).

Example C28_instance : exceeds 2 (3 * 60 * 1000000) /\ ~ exceeds 2 (90 * 1000000).
Proof.
  split.
  - split; [lia|]. exists 0, 180, 0. lia.
  - intros [_ (d & s & r & H & Hs & Hr & Hl)]. lia.
Qed.
