(** C99-C101: what the error estimates show (esat/error). *)
From Coq Require Import List Bool Arith ZArith Lia Reals Lra Permutation.
From Flocq Require Import Core.
From Verif Require Import Base Fl Boot_Model Boot_Proofs Boot_Props Disp_Model Disp_Proofs Disp_Props BSDisp_Model BSDisp_Props ErrPlot_Model.
Import ListNotations.
Local Open Scope R_scope.

(** ** Rounding *)
Lemma round4_err x : Rabs (round4 x - x) <= / 20000.
Proof.
  unfold round4. pose proof (Znearest_half (fun z => negb (Z.even z)) (x * 10000)) as H.
  replace (IZR (ZnearestE (x * 10000)) / 10000 - x) with ((IZR (ZnearestE (x * 10000)) - x * 10000) / 10000) by field.
  rewrite Rabs_minus_sym in H. unfold Rdiv. rewrite Rabs_mult, (Rabs_pos_eq (/ 10000)) by lra. lra.
Qed.

Lemma round4_le x y : x <= y -> round4 x <= round4 y.
Proof.
  intros H. unfold round4. apply Rmult_le_compat_r; [lra|]. apply IZR_le.
  assert (G : Valid_rnd ZnearestE) by apply valid_rnd_N. apply G. lra.
Qed.

Lemma round4_grid z : round4 (IZR z / 10000) = IZR z / 10000.
Proof.
  unfold round4. replace (IZR z / 10000 * 10000) with (IZR z) by field.
  assert (G : Valid_rnd ZnearestE) by apply valid_rnd_N. rewrite (@Zrnd_IZR ZnearestE G). reflexivity.
Qed.

Lemma round4_0 : round4 0 = 0.
Proof. replace 0 with (IZR 0 / 10000) by (cbn; lra). apply round4_grid. Qed.
Lemma round4_1 : round4 1 = 1.
Proof. replace 1 with (IZR 10000 / 10000) by lra. apply round4_grid. Qed.

Lemma round4_zap x : 0 <= x -> round4 (if Rltb x EPS8 then 0 else x) = round4 x.
Proof.
  intros Hx. destruct (Rltb x EPS8) eqn:E; [|reflexivity]. apply Rltb_iff in E. unfold EPS8 in E.
  unfold round4. f_equal. f_equal. rewrite Rmult_0_l.
  rewrite (Znearest_imp (fun z => negb (Z.even z)) 0 0) by (rewrite Rabs_pos_eq; lra).
  symmetry. apply (Znearest_imp (fun z => negb (Z.even z)) (x * 10000) 0). rewrite Rabs_pos_eq; lra.
Qed.

Lemma factor_statistics_spec k H a b : (a < k)%nat ->
  factor_statistics k H a b = if Rltb (H a b) EPS8 then 0 else H a b.
Proof.
  intros Ha. destruct (C34_statistics_zero_small_entries k H a b) as (H1 & H2 & _). unfold EPS8.
  destruct (Rltb (H a b) (/ 100000000)) eqn:E.
  - apply Rltb_iff in E. apply H1; assumption.
  - apply Rltb_false in E. apply H2; assumption.
Qed.

Lemma run_H_nonneg k r a b : (a < k)%nat -> 0 <= run_H k r a b.
Proof.
  intros Ha. unfold run_H. rewrite factor_statistics_spec by exact Ha.
  destruct (Rltb _ EPS8) eqn:E; [lra|]. apply Rltb_false in E. unfold EPS8 in E. lra.
Qed.

Lemma floor4_max x : floor4 x = Rmax x (1 / 10000).
Proof.
  unfold floor4. destruct (Rltb x (/ 10000)) eqn:E.
  - apply Rltb_iff in E. rewrite Rmax_right; lra.
  - apply Rltb_false in E. rewrite Rmax_left; lra.
Qed.

Lemma rmax_lip x y c : Rabs (Rmax x c - Rmax y c) <= Rabs (x - y).
Proof. unfold Rmax. destruct (Rle_dec x c), (Rle_dec y c); unfold Rabs; repeat destruct (Rcase_abs _); lra. Qed.

Lemma bad_factor_iff k f : bad_factor k f = false <-> (1 <= f <= Z.of_nat k)%Z.
Proof. unfold bad_factor. destruct (Z.ltb_spec (Z.of_nat k) f), (Z.ltb_spec f 1); cbn [orb]; split; intros; try discriminate; try lia; reflexivity. Qed.
Lemma bad_factor_pos k f : (1 <= f <= Z.of_nat k)%Z -> (pos_of f < k)%nat.
Proof. unfold pos_of. lia. Qed.

(** ** C99: the bootstrap distributions *)

(** Entry of a profile as the bootstrap keeps it. *)
Definition kept (x : R) : R := if Rltb x (/ 100000000) then 0 else x.

Lemma run_H_kept k r a b : (a < k)%nat -> run_H k r a b = kept (r_H r a b).
Proof. intros Ha. unfold run_H. rewrite factor_statistics_spec by exact Ha. reflexivity. Qed.

Lemma kept_nonneg x : 0 <= kept x.
Proof. unfold kept. destruct (Rltb x (/ 100000000)) eqn:E; [lra|]. apply Rltb_false in E. lra. Qed.

Lemma bs_profile_spec k r i j : (i < k)%nat ->
  let h := kept (r_H r i j) in
  let s := rsum k (fun a => kept (r_H r a j)) in
  (s = 0 -> bs_profile k r i j = NaN) /\
  (s <> 0 -> bs_profile k r i j = Fin (round4 (h / s)) /\ 0 <= h / s <= 1).
Proof.
  intros Hi h s.
  assert (Hs : rsum k (fun a => run_H k r a j) = s) by (apply rsum_ext; intros a Ha; apply run_H_kept; exact Ha).
  assert (Hh : run_H k r i j = h) by (apply run_H_kept; exact Hi).
  assert (H0 : 0 <= h <= s).
  { split; [apply kept_nonneg|]. unfold h, s. apply (rsum_ge_term k (fun a => kept (r_H r a j)) i); [intros; apply kept_nonneg|exact Hi]. }
  unfold bs_profile, share. rewrite Hs, Hh. split.
  - intros E. cbn [fdiv]. destruct (Req_EM_T s 0) as [_|C]; [|contradiction].
    assert (h = 0) by lra. rewrite H. unfold fsign. destruct (Rlt_dec 0 0); [lra|]. unfold inf_of_sign.
    destruct (Rlt_dec 0 0); [lra|]. cbn. reflexivity.
  - intros Hn. cbn [fdiv]. destruct (Req_EM_T s 0) as [C|_]; [contradiction|].
    assert (Hr : 0 <= h / s <= 1).
    { split; [apply Rmult_le_pos; [lra|]; left; apply Rinv_0_lt_compat; lra|].
      apply Rmult_le_reg_r with s; [lra|]. unfold Rdiv. rewrite Rmult_assoc, Rinv_l by lra. lra. }
    split; [|exact Hr]. cbn [flt].
    rewrite <- (round4_zap (h / s)) by lra. destruct (Rltb (h / s) EPS8); reflexivity.
Qed.

Lemma bs_contribution_spec k r i j : (i < k)%nat ->
  let c := rsum (r_m r) (fun t => r_W r t i * kept (r_H r i j)) in
  Rabs (floor4 (bs_contribution k r i j) - Rmax c (1 / 10000)) <= / 20000 /\
  (c < 15 / 100000 -> floor4 (bs_contribution k r i j) = 1 / 10000).
Proof.
  intros Hi c.
  assert (Hc : Boot_Model.conc (r_m r) (r_W r) (run_H k r) i j = c).
  { unfold Boot_Model.conc. apply rsum_ext. intros t Ht. rewrite run_H_kept by exact Hi. reflexivity. }
  unfold bs_contribution. rewrite Hc. rewrite floor4_max. split.
  - destruct (Rltb c EPS8) eqn:E.
    + apply Rltb_iff in E. unfold EPS8 in E. rewrite round4_0.
      rewrite !Rmax_right by lra. unfold Rminus. rewrite Rplus_opp_r, Rabs_R0. lra.
    + eapply Rle_trans; [apply rmax_lip|]. apply round4_err.
  - intros Hs. apply Rmax_right. destruct (Rltb c EPS8) eqn:E; [rewrite round4_0; lra|].
    apply Rltb_false in E. unfold EPS8 in E. unfold round4.
    assert (Hz : (ZnearestE (c * 10000) <= 1)%Z).
    { apply Z.lt_succ_r. apply lt_IZR.
      pose proof (Znearest_half (fun z => negb (Z.even z)) (c * 10000)) as G. apply Rabs_le_inv in G. cbn [Z.succ]. 
      change (IZR (Z.succ 1)) with 2. lra. }
    apply IZR_le in Hz. lra.
Qed.

Lemma nth_seq_map {A} (f : nat -> A) n j : (j < n)%nat -> nth_error (map f (seq 0 n)) j = Some (f j).
Proof. intros Hj. rewrite (map_nth_error f j (seq 0 n) (d := j)); [reflexivity|]. rewrite nth_seq by exact Hj. reflexivity. Qed.

(** When there is a figure at all: each of the two plots. *)
Theorem C99_when_shown : forall k n m runs base_W base_H f,
  let p := plot_factor k n runs base_H f in
  let c := plot_contribution k n m runs base_W base_H f in
  (p = Message <-> ~ (1 <= f <= Z.of_nat k)%Z) /\ (c = Message <-> ~ (1 <= f <= Z.of_nat k)%Z) /\
  (p = Raises <-> (1 <= f <= Z.of_nat k)%Z /\ runs = [] /\ n <> O) /\
  (c = Raises <-> (1 <= f <= Z.of_nat k)%Z /\ runs = [] /\ n <> O).
Proof.
  intros k n m runs base_W base_H f p c. unfold p, c, plot_factor, plot_contribution.
  destruct (bad_factor k f) eqn:E.
  - assert (Hf : ~ (1 <= f <= Z.of_nat k)%Z) by (rewrite <- bad_factor_iff, E; discriminate).
    repeat split; intros; try discriminate; tauto.
  - apply bad_factor_iff in E. destruct runs as [|r runs], n as [|n]; cbn [length Nat.eqb negb andb];
      repeat split; intros; try discriminate; try tauto; try (destruct H as (_ & Hx & Hy); congruence).
Qed.
Print Assumptions C99_when_shown.

(** The profile boxes of factor [f] hold, run by run, the share of the run's own
    factor number [f], to two decimals of a percent; a feature without any
    contribution in a run shows as NaN. *)
Theorem C99_profile_boxes : forall k n runs base_H f,
  (1 <= f <= Z.of_nat k)%Z -> runs <> [] ->
  exists fig, plot_factor k n runs base_H f = Shows fig /\ length fig = n /\
  forall j, (j < n)%nat -> exists box mark, nth_error fig j = Some (box, mark) /\ length box = length runs /\
    let i := Z.to_nat (f - 1) in
    (forall x r, nth_error runs x = Some r ->
       let h := kept (r_H r i j) in
       let s := rsum k (fun a => kept (r_H r a j)) in
       (s = 0 -> nth_error box x = Some NaN) /\
       (s <> 0 -> exists v z, nth_error box x = Some (Fin v) /\ v = IZR z / 100 /\ 0 <= v <= 100 /\
                              Rabs (v - 100 * (h / s)) <= 1 / 200)) /\
    (rsum k (fun a => base_H a j) <> 0 -> mark = Fin (100 * (base_H i j / rsum k (fun a => base_H a j)))).
Proof.
  intros k n runs base_H f Hf Hr. unfold plot_factor. rewrite (proj2 (bad_factor_iff k f) Hf).
  destruct runs as [|r0 runs0] eqn:Er; [congruence|]. cbn [length Nat.eqb andb]. rewrite <- Er. clear Hr.
  eexists. split; [reflexivity|]. split; [rewrite map_length, seq_length; reflexivity|].
  intros j Hj. rewrite nth_seq_map by exact Hj. do 2 eexists. split; [reflexivity|].
  split; [unfold bs_profiles; rewrite !map_length; rewrite Er; reflexivity|]. cbv zeta. split.
  - intros x r Hx. unfold bs_profiles. rewrite !map_map.
    destruct (bs_profile_spec k r (pos_of f) j (bad_factor_pos k f Hf)) as [Ha Hb]. fold (pos_of f).
    rewrite (map_nth_error _ _ _ Hx). split.
    + intros Hs. rewrite (Ha Hs). reflexivity.
    + intros Hs. destruct (Hb Hs) as [Hb' Hrg]. rewrite Hb'.
      set (q := kept (r_H r (pos_of f) j) / rsum k (fun a => kept (r_H r a j))) in *.
      exists (100 * round4 q), (ZnearestE (q * 10000)). split; [reflexivity|]. split; [unfold round4; field|]. split.
      * pose proof (round4_le 0 q ltac:(lra)) as G1. pose proof (round4_le q 1 ltac:(lra)) as G2.
        rewrite round4_0 in G1. rewrite round4_1 in G2. lra.
      * replace (100 * round4 q - 100 * q) with (100 * (round4 q - q)) by ring.
        rewrite Rabs_mult, (Rabs_pos_eq 100) by lra. pose proof (round4_err q). lra.
  - intros Hs. unfold share. cbn [fdiv]. fold (pos_of f). destruct (Req_EM_T _ 0); [contradiction|]. reflexivity.
Qed.
Print Assumptions C99_profile_boxes.

(** The contribution boxes: the run's own factor number [f], to the nearest
    ten-thousandth of the unit of the data, and never below it: all contributions
    under 0.00015 look the same. *)
Theorem C99_contribution_boxes : forall k n m runs base_W base_H f,
  (1 <= f <= Z.of_nat k)%Z -> runs <> [] ->
  exists fig, plot_contribution k n m runs base_W base_H f = Shows fig /\ length fig = n /\
  forall j, (j < n)%nat -> exists box mark, nth_error fig j = Some (box, mark) /\ length box = length runs /\
    let i := Z.to_nat (f - 1) in
    (forall x r, nth_error runs x = Some r -> exists v, nth_error box x = Some v /\
       let c := rsum (r_m r) (fun t => r_W r t i * kept (r_H r i j)) in
       Rabs (v - Rmax c (1 / 10000)) <= 1 / 20000 /\ (c < 15 / 100000 -> v = 1 / 10000)) /\
    mark = Rmax (rsum m (fun t => base_W t i * base_H i j)) (1 / 10000).
Proof.
  intros k n m runs base_W base_H f Hf Hr. unfold plot_contribution. rewrite (proj2 (bad_factor_iff k f) Hf).
  destruct runs as [|r0 runs0] eqn:Er; [congruence|]. cbn [length Nat.eqb andb]. rewrite <- Er. clear Hr.
  eexists. split; [reflexivity|]. split; [rewrite map_length, seq_length; reflexivity|].
  intros j Hj. rewrite nth_seq_map by exact Hj. do 2 eexists. split; [reflexivity|].
  split; [unfold bs_contributions; rewrite !map_length; rewrite Er; reflexivity|]. cbv zeta. split.
  - intros x r Hx. unfold bs_contributions. rewrite map_map. fold (pos_of f).
    eexists. split; [apply (map_nth_error _ _ _ Hx)|].
    destruct (bs_contribution_spec k r (pos_of f) j (bad_factor_pos k f Hf)) as [Ha Hb]. split; [lra|exact Hb].
  - apply floor4_max.
Qed.
Print Assumptions C99_contribution_boxes.

(** The strictly best match is the one mapped to. *)
Lemma strict_best corr k thr i c e : mapping_ok corr k thr i e -> (i < k)%nat -> (c < k)%nat -> (2 <= k)%nat ->
  (forall d, (d < k)%nat -> d <> c -> flt (corr i d) (corr i c) = true) ->
  e = mkMap c (corr i c) (fle thr (corr i c)).
Proof.
  intros Hok Hi Hc Hk Hst.
  assert (Hn : forall d, (d < k)%nat -> corr i d <> NaN).
  { intros d Hd C. destruct (Nat.eq_dec d c) as [->|Hne].
    - set (d := if (c =? 0)%nat then 1%nat else 0%nat).
      assert (Hd' : (d < k)%nat /\ d <> c) by (unfold d; destruct (Nat.eqb_spec c 0); lia).
      specialize (Hst d (proj1 Hd') (proj2 Hd')). rewrite C in Hst. destruct (corr i d); discriminate.
    - specialize (Hst d Hd Hne). rewrite C in Hst. discriminate. }
  assert (Hm : mp_match e = c).
  { destruct (Nat.eq_dec (mp_match e) c) as [E|E]; [exact E|exfalso].
    pose proof (Hst _ (mo_range _ _ _ _ _ Hok) E) as C.
    destruct (mo_best _ _ _ _ _ Hok (Hn i Hi)) as [_ Hb]. rewrite (Hb c Hc) in C. discriminate. }
  pose proof (mo_value _ _ _ _ _ Hok) as Hv. pose proof (mo_mapped _ _ _ _ _ Hok) as Hp.
  destruct e as [em er ep]. cbn in *. subst em er. f_equal.
  destruct ep, (fle thr (corr i c)); try reflexivity; destruct Hp as [P1 P2]; [symmetry; apply P1; reflexivity|apply P2; reflexivity].
Qed.

(** A run whose factors come in another order (a relabelling [s]): its factor
    [s i] moves to the distributions of factor [i] ... while the mapping follows
    the factor, whenever the run's factor has one best match among the base
    factors. *)
Theorem C99_relabelled_run : forall k n r r' s, bij k s -> r_m r' = r_m r ->
  (forall a j, (a < k)%nat -> (j < n)%nat -> r_H r' a j = r_H r (s a) j) ->
  (forall t a, (a < k)%nat -> r_W r' t a = r_W r t (s a)) ->
  forall i, (i < k)%nat ->
    (forall j, (j < n)%nat -> bs_profile k r' i j = bs_profile k r (s i) j /\
               bs_contribution k r' i j = bs_contribution k r (s i) j /\
               round4 (run_H k r' i j) = round4 (run_H k r (s i) j)) /\
    (forall mb Wb Hb thr c, (2 <= k)%nat -> (c < k)%nat ->
       let fit a d := r2 n (Boot_Model.conc (r_m r) (r_W r) (r_H r) a) (Boot_Model.conc mb Wb Hb d) in
       (forall d, (d < k)%nat -> d <> c -> flt (fit (s i) d) (fit (s i) c) = true) ->
       let e := mkMap c (fit (s i) c) (fle thr (fit (s i) c)) in
       nth_error (map_contributions (r_m r') mb n k (r_W r') (r_H r') Wb Hb thr) i = Some e /\
       nth_error (map_contributions (r_m r) mb n k (r_W r) (r_H r) Wb Hb thr) (s i) = Some e).
Proof.
  intros k n r r' s Hs Hm HH HW i Hi.
  assert (Hsi : (s i < k)%nat) by (apply Hs; exact Hi).
  assert (HR : forall a j, (a < k)%nat -> (j < n)%nat -> run_H k r' a j = run_H k r (s a) j).
  { intros a j Ha Hj. rewrite !run_H_kept by (try apply Hs; exact Ha). rewrite HH by assumption. reflexivity. }
  split.
  - intros j Hj. split; [|split].
    + unfold bs_profile, share. rewrite (HR i j Hi Hj).
      assert (E : rsum k (fun a => run_H k r' a j) = rsum k (fun a => run_H k r a j)).
      { rewrite <- (rsum_reindex k s (fun a => run_H k r a j) Hs). apply rsum_ext. intros a Ha. apply HR; assumption. }
      rewrite E. reflexivity.
    + unfold bs_contribution, Boot_Model.conc. rewrite Hm.
      assert (E : rsum (r_m r) (fun t => r_W r' t i * run_H k r' i j) = rsum (r_m r) (fun t => r_W r t (s i) * run_H k r (s i) j)).
      { apply rsum_ext. intros t Ht. rewrite HW, HR by assumption. reflexivity. }
      rewrite E. reflexivity.
    + rewrite HR by assumption. reflexivity.
  - intros mb Wb Hb thr c Hk Hc fit Hst e.
    assert (Hf : forall d, r2 n (Boot_Model.conc (r_m r') (r_W r') (r_H r') i) (Boot_Model.conc mb Wb Hb d) = fit (s i) d).
    { intros d. unfold fit. apply r2_ext; [|reflexivity]. intros j Hj. unfold Boot_Model.conc. rewrite Hm.
      apply rsum_ext. intros t Ht. rewrite HW, HH by assumption. reflexivity. }
    split.
    + destruct (C32_mapping_is_best (r_m r') mb n k (r_W r') (r_H r') Wb Hb thr i Hi) as (e' & He & Hok).
      rewrite He. f_equal. apply (strict_best _ k thr i c) in Hok; try assumption.
      * rewrite Hok. rewrite Hf. reflexivity.
      * intros d Hd Hne. rewrite !Hf. apply Hst; assumption.
    + destruct (C32_mapping_is_best (r_m r) mb n k (r_W r) (r_H r) Wb Hb thr (s i) Hsi) as (e' & He & Hok).
      rewrite He. f_equal. apply (strict_best _ k thr (s i) c) in Hok; try assumption.
Qed.
Print Assumptions C99_relabelled_run.

(** A base model and a run that found the same two factors in the other order. *)
Definition ex_H : mat := fun i j => if ((i =? j) && (i <? 2))%nat then 4 else 1.
Definition ex_run : run := mkRun 1 (fun _ _ => 1) (fun i j => ex_H (1 - i)%nat j).

Lemma ex_r2 i : (i < 2)%nat ->
  r2 3 (Boot_Model.conc 1 (r_W ex_run) (r_H ex_run) i) (Boot_Model.conc 1 (fun _ _ => 1) ex_H (1 - i)%nat) = Fin 1 /\
  r2 3 (Boot_Model.conc 1 (r_W ex_run) (r_H ex_run) i) (Boot_Model.conc 1 (fun _ _ => 1) ex_H i) = Fin (1 / 4).
Proof.
  intros Hi. unfold r2, cov, mean, Boot_Model.conc, ex_run, r_W, r_H, ex_H.
  destruct i as [|[|i]]; [| |lia]; cbn [rsum Nat.sub Nat.eqb Nat.ltb Nat.leb andb INR]; split;
    repeat match goal with |- context [Reqb ?a 0] => destruct (Reqb a 0) eqn:?E; [apply Reqb_iff in E; exfalso; lra|clear E] end;
    f_equal; field.
Qed.

(** The run's factors are recognised, each with the base factor it equals (R2 = 1,
    above any threshold up to 1), yet its values are shown with the other one:
    the box of factor 1 at its first feature is at 20 percent, the base at 80. *)
Theorem C99_distributions_follow_mapping_refuted : forall thr, thr <= 1 ->
  (forall i, (i < 2)%nat ->
     nth_error (map_contributions 1 1 3 2 (r_W ex_run) (r_H ex_run) (fun _ _ => 1) ex_H (Fin thr)) i
     = Some (mkMap (1 - i)%nat (Fin 1) true)) /\
  exists rest, plot_factor 2 3 [ex_run] ex_H 1 = Shows (([Fin 20], Fin 80) :: rest).
Proof.
  intros thr Ht. split.
  - intros i Hi. destruct (C32_mapping_is_best 1 1 3 2 (r_W ex_run) (r_H ex_run) (fun _ _ => 1) ex_H (Fin thr) i Hi) as (e & He & Hok).
    rewrite He. f_equal. destruct (ex_r2 i Hi) as [Ea Eb].
    apply (strict_best _ 2 (Fin thr) i (1 - i)%nat) in Hok; try lia.
    + rewrite Hok, Ea. f_equal. cbn. apply Rleb_iff. exact Ht.
    + intros d Hd Hne. assert (d = i) as -> by lia. rewrite Ea, Eb. apply flt_fin. lra.
  - assert (E1 : bs_profile 2 ex_run 0 0 = Fin (1 / 5)).
    { destruct (bs_profile_spec 2 ex_run 0 0 ltac:(lia)) as [_ Hb].
      assert (K1 : kept (r_H ex_run 0%nat 0%nat) = 1).
      { unfold kept, ex_run, r_H, ex_H. cbn. destruct (Rltb 1 _) eqn:E; [apply Rltb_iff in E; lra|reflexivity]. }
      assert (K2 : rsum 2 (fun a => kept (r_H ex_run a 0%nat)) = 5).
      { cbn [rsum]. rewrite K1. unfold kept, ex_run, r_H, ex_H. cbn. destruct (Rltb 4 _) eqn:E; [apply Rltb_iff in E; lra|lra]. }
      cbv zeta in Hb. rewrite K1, K2 in Hb. destruct (Hb ltac:(lra)) as [-> _]. f_equal.
      replace (1 / 5) with (IZR 2000 / 10000) by field. apply round4_grid. }
    assert (E2 : share 2 ex_H 0 0 = Fin (4 / 5)).
    { unfold share. cbn [rsum fdiv]. unfold ex_H. cbn [Nat.eqb Nat.ltb Nat.leb andb].
      destruct (Req_EM_T (0 + 4 + 1) 0) as [C|_]; [exfalso; lra|]. f_equal. field. }
    unfold plot_factor. replace (bad_factor 2 1) with false by reflexivity.
    cbn [length Nat.eqb andb seq map bs_profiles]. change (pos_of 1) with 0%nat. unfold bs_profiles. cbn [map]. rewrite E1, E2.
    cbn [fmul]. replace (100 * (1 / 5)) with 20 by field. replace (100 * (4 / 5)) with 80 by field.
    eexists. reflexivity.
Qed.
Print Assumptions C99_distributions_follow_mapping_refuted.
Example C99_when_shown_example := C99_when_shown 2 3 1 [ex_run] (fun _ _ => 1) ex_H 1.
Example C99_profile_boxes_example := C99_profile_boxes 2 3 [ex_run] ex_H 1 ltac:(lia) ltac:(discriminate).
Example C99_contribution_boxes_example :=
  C99_contribution_boxes 2 3 1 [ex_run] (fun _ _ => 1) ex_H 1 ltac:(lia) ltac:(discriminate).

Example C99_instance :
  (1 <= 1 <= Z.of_nat 2)%Z /\ [ex_run] <> [] /\ bij 2 (fun i => (1 - i)%nat) /\
  (forall a j, (a < 2)%nat -> (j < 3)%nat -> r_H ex_run a j = r_H (mkRun 1 (fun _ _ => 1) ex_H) (1 - a)%nat j) /\
  rsum 2 (fun a => ex_H a 0%nat) <> 0 /\
  (forall d, (d < 2)%nat -> d <> 1%nat ->
     flt (r2 3 (Boot_Model.conc 1 (r_W ex_run) (r_H ex_run) 0) (Boot_Model.conc 1 (fun _ _ => 1) ex_H d))
         (r2 3 (Boot_Model.conc 1 (r_W ex_run) (r_H ex_run) 0) (Boot_Model.conc 1 (fun _ _ => 1) ex_H 1)) = true).
Proof.
  split; [lia|]. split; [discriminate|]. split; [split; [intros; lia|intros; lia]|]. split; [reflexivity|].
  split; [unfold ex_H; cbn; lra|]. intros d Hd Hne. assert (d = 0%nat) as -> by lia.
  destruct (ex_r2 0 ltac:(lia)) as [Ea Eb]. cbn [Nat.sub] in Ea. rewrite Ea, Eb. apply flt_fin. lra.
Qed.

(** ** C100: error bars *)

(** The labels of a compiled table: target number, target, factor, feature. *)
Notation label := (nat * R * nat * nat)%type (only parsing).
Definition l_t (l : label) : nat := fst (fst (fst l)).
Definition l_dQ (l : label) : R := snd (fst (fst l)).
Definition l_i (l : label) : nat := snd (fst l).
Definition l_j (l : label) : nat := snd l.

Fixpoint labels_from (k n : nat) (targets : list R) (t : nat) : list label :=
  match targets with
  | [] => []
  | dQ :: r => flat_map (fun i => map (fun j => (t, dQ, i, j)) (seq 0 n)) (seq 0 k) ++ labels_from k n r (S t)
  end.

Definition row_at m k W H excluded inc dec (l : label) : drow :=
  disp_row m k W H excluded inc dec (l_t l) (l_dQ l) (l_i l) (l_j l).

Lemma map_flat_map {A B C} (g : B -> C) (f : A -> list B) l : map g (flat_map f l) = flat_map (fun x => map g (f x)) l.
Proof. induction l as [|a l IH]; cbn; [reflexivity|]. rewrite map_app, IH. reflexivity. Qed.

Lemma disp_rows_labels m k n W H excluded inc dec targets t :
  disp_rows_from m k n W H excluded inc dec targets t = map (row_at m k W H excluded inc dec) (labels_from k n targets t).
Proof.
  revert t. induction targets as [|dQ r IH]; intros t; cbn [disp_rows_from labels_from map]; [reflexivity|].
  rewrite map_app, map_flat_map, IH. f_equal. apply flat_map_ext. intros i. rewrite map_map. reflexivity.
Qed.

Lemma disp_row_labels m k W H excluded inc dec t dQ i j :
  let r := disp_row m k W H excluded inc dec t dQ i j in w_dQ r = dQ /\ w_factor r = i /\ w_feature r = j.
Proof. cbv zeta. unfold disp_row. destruct (excluded j); cbn; auto. Qed.

Lemma filter_none {A} (p : A -> bool) l : (forall x, In x l -> p x = false) -> filter p l = [].
Proof. induction l as [|a l IH]; intros H; cbn; [reflexivity|]. rewrite (H a (or_introl eq_refl)). apply IH. intros x Hx. apply H. right. exact Hx. Qed.
Lemma filter_every {A} (p : A -> bool) l : (forall x, In x l -> p x = true) -> filter p l = l.
Proof. induction l as [|a l IH]; intros H; cbn; [reflexivity|]. rewrite (H a (or_introl eq_refl)). f_equal. apply IH. intros x Hx. apply H. right. exact Hx. Qed.

Definition at_label (f : nat) (q : R) (l : label) : bool := (l_i l =? f)%nat && Reqb (l_dQ l) q.

Lemma select_block n t dQ f q : forall k a, (a <= f < a + k)%nat ->
  filter (at_label f q) (flat_map (fun i => map (fun j => (t, dQ, i, j)) (seq 0 n)) (seq a k))
  = if Reqb dQ q then map (fun j => (t, dQ, f, j)) (seq 0 n) else [].
Proof.
  assert (Hout : forall k a, ~ (a <= f < a + k)%nat ->
    filter (at_label f q) (flat_map (fun i => map (fun j => (t, dQ, i, j)) (seq 0 n)) (seq a k)) = []).
  { intros k a Hn. apply filter_none. intros x Hx. apply in_flat_map in Hx. destruct Hx as (i & Hi & Hx).
    apply in_seq in Hi. apply in_map_iff in Hx. destruct Hx as (j & <- & _). unfold at_label, l_i. cbn [fst snd].
    destruct (Nat.eqb_spec i f); [lia|reflexivity]. }
  induction k as [|k IH]; intros a Ha; [lia|]. cbn [seq flat_map]. rewrite filter_app.
  destruct (Nat.eq_dec a f) as [->|Hne].
  - rewrite Hout by lia. rewrite app_nil_r. destruct (Reqb dQ q) eqn:E.
    + apply filter_every. intros x Hx. apply in_map_iff in Hx. destruct Hx as (j & <- & _).
      unfold at_label, l_i, l_dQ. cbn [fst snd]. rewrite Nat.eqb_refl, E. reflexivity.
    + apply filter_none. intros x Hx. apply in_map_iff in Hx. destruct Hx as (j & <- & _).
      unfold at_label, l_i, l_dQ. cbn [fst snd]. rewrite E. apply andb_false_r.
  - rewrite (filter_none _ (map _ _)).
    + rewrite IH by lia. reflexivity.
    + intros x Hx. apply in_map_iff in Hx. destruct Hx as (j & <- & _). unfold at_label, l_i. cbn [fst snd].
      destruct (Nat.eqb_spec a f); [contradiction|reflexivity].
Qed.

Lemma Reqb_refl x : Reqb x x = true.
Proof. apply Reqb_iff. reflexivity. Qed.

Lemma select_labels k n f q : (f < k)%nat -> forall targets t x, NoDup targets -> nth_error targets x = Some q ->
  filter (at_label f q) (labels_from k n targets t) = map (fun j => ((t + x)%nat, q, f, j)) (seq 0 n).
Proof.
  intros Hf.
  assert (Hout : forall targets t, ~ In q targets -> filter (at_label f q) (labels_from k n targets t) = []).
  { induction targets as [|d r IH]; intros t Hn; cbn [labels_from filter]; [reflexivity|].
    rewrite filter_app, select_block by lia. rewrite IH by (intros C; apply Hn; right; exact C).
    destruct (Reqb d q) eqn:E; [|reflexivity]. apply Reqb_iff in E. destruct Hn. left. exact E. }
  induction targets as [|d r IH]; intros t x Hnd Hx; [destruct x; discriminate|].
  inversion Hnd as [|? ? Hnin Hnd']; subst. cbn [labels_from]. rewrite filter_app, select_block by lia.
  destruct x as [|x]; cbn [nth_error] in Hx.
  - injection Hx as ->. rewrite Reqb_refl, Hout by exact Hnin. rewrite app_nil_r, Nat.add_0_r. reflexivity.
  - rewrite (IH (S t) x Hnd' Hx). destruct (Reqb d q) eqn:E.
    + apply Reqb_iff in E. subst d. destruct Hnin. apply (nth_error_In _ _ Hx).
    + cbn [app]. replace (S t + x)%nat with (t + S x)%nat by lia. reflexivity.
Qed.

Lemma filter_filter {A} (p q : A -> bool) l : filter q (filter p l) = filter (fun x => p x && q x) l.
Proof. induction l as [|a l IH]; cbn; [reflexivity|]. destruct (p a); cbn; rewrite IH; destruct (q a); reflexivity. Qed.
Lemma filter_map {A B} (p : B -> bool) (g : A -> B) l : filter p (map g l) = map g (filter (fun x => p (g x)) l).
Proof. induction l as [|a l IH]; cbn; [reflexivity|]. destruct (p (g a)); cbn; rewrite IH; reflexivity. Qed.

(** Selecting from any table whose rows carry these labels. *)
Lemma select_rows (row : label -> drow) k n targets f q x :
  (forall l, w_dQ (row l) = l_dQ l /\ w_factor (row l) = l_i l) ->
  (f < k)%nat -> NoDup targets -> nth_error targets x = Some q ->
  select f q (map row (labels_from k n targets 0)) = map (fun j => row (x, q, f, j)) (seq 0 n).
Proof.
  intros Hr Hf Hnd Hx. unfold select. rewrite filter_filter, filter_map.
  rewrite (filter_ext _ (at_label f q)).
  - rewrite (select_labels k n f q Hf targets 0 x Hnd Hx). rewrite map_map. reflexivity.
  - intros l. destruct (Hr l) as [-> ->]. reflexivity.
Qed.

Lemma pick_dQ_spec targets default dQ : In default targets ->
  In (pick_dQ targets default dQ) targets /\
  (In dQ targets -> pick_dQ targets default dQ = dQ) /\ (~ In dQ targets -> pick_dQ targets default dQ = default).
Proof.
  intros Hd. unfold pick_dQ. destruct (existsb (Reqb dQ) targets) eqn:E.
  - apply existsb_exists in E. destruct E as (y & Hy & Ey). apply Reqb_iff in Ey. subst y. tauto.
  - assert (Hn : ~ In dQ targets).
    { intros C. rewrite (proj2 (existsb_exists _ _)) in E; [discriminate|]. exists dQ. split; [exact C|apply Reqb_refl]. }
    tauto.
Qed.

(** The searches of a displacement: for every searched cell, the increasing and the
    decreasing search ended, and the stored entries are those of the modifiers
    found; the refits' Q are [qi] and [qd]. *)
Definition searched (m k n : nat) (W H : mat) (excluded : nat -> bool) (targets : list R) (thr base : R)
    (inc dec : nat -> nat -> nat -> found_at) (qi qd : nat -> nat -> nat -> fl) : Prop :=
  forall i j, (i < k)%nat -> (j < n)%nat -> excluded j = false ->
    exists dqi dqd fuel steps li ld,
      increase dqi targets thr fuel = Some (steps, li) /\ decrease dqd targets thr fuel = Some ld /\
      (forall t a, nth_error li t = Some a -> inc i j t = found_of m k W H base i j (f_mod a) (qi i j t)) /\
      (forall t a, nth_error ld t = Some a -> dec i j t = found_of m k W H base i j (f_mod a) (qd i j t)).

Lemma F2_length {A B} (P : A -> B -> Prop) l l' : Forall2 P l l' -> length l = length l'.
Proof. induction 1; cbn; congruence. Qed.

Lemma percent_pos k H i j : (i < k)%nat -> (forall a, (a < k)%nat -> 0 < H a j) -> 0 < percent k H i j <= 1.
Proof.
  intros Hi HH. unfold percent.
  assert (Hle : H i j <= rsum k (fun a => H a j)) by (apply (rsum_ge_term k (fun a => H a j)); [intros a Ha; left; apply HH; exact Ha|exact Hi]).
  specialize (HH i Hi) as Hp. split.
  - apply Rmult_lt_0_compat; [exact Hp|]. apply Rinv_0_lt_compat. lra.
  - apply Rmult_le_reg_r with (rsum k (fun a => H a j)); [lra|]. unfold Rdiv. rewrite Rmult_assoc, Rinv_l by lra. lra.
Qed.

Lemma clamp_max c : clamp c = Rmax c (1 / 10000).
Proof.
  unfold clamp. destruct (Rltb (/ 10000) c) eqn:E.
  - apply Rltb_iff in E. rewrite Rmax_left; lra.
  - apply Rltb_false in E. rewrite Rmax_right; lra.
Qed.

(** What a compiled row says, for positive profiles and nonnegative
    contributions. *)
Lemma row_facts m k n W H excluded targets thr base inc dec qi qd t q i j :
  searched m k n W H excluded targets thr base inc dec qi qd ->
  (i < k)%nat -> (j < n)%nat -> (forall a b, (a < k)%nat -> (b < n)%nat -> 0 < H a b) ->
  (forall s a, (s < m)%nat -> (a < k)%nat -> 0 <= W s a) -> nth_error targets t = Some q ->
  let r := disp_row m k W H excluded inc dec t q i j in
  w_profile r = percent k H i j /\ 0 < w_pmin r <= w_profile r /\ w_profile r <= w_pmax r <= 1 /\
  w_conc r = Disp_Model.conc m W H i j /\ 1 / 10000 <= w_cmin r <= Rmax (w_conc r) (1 / 10000) /\
  Rmax (w_conc r) (1 / 10000) <= w_cmax r /\
  (excluded j = true -> w_pmin r = w_pmax r /\ w_cmin r = w_cmax r /\ w_drop r = Fin 0) /\
  (excluded j = false ->
     w_pmax r = a_percent (inc i j t) /\ w_pmin r = a_percent (dec i j t) /\
     w_cmax r = Rmax (a_conc (inc i j t)) (1 / 10000) /\ w_cmin r = Rmax (a_conc (dec i j t)) (1 / 10000) /\
     a_drop (inc i j t) = fsub (Fin base) (qi i j t) /\ a_drop (dec i j t) = fsub (Fin base) (qd i j t)).
Proof.
  intros Hse Hi Hj HH HW Ht r.
  assert (Hpos : 0 < percent k H i j <= 1) by (apply percent_pos; [exact Hi|]; intros a Ha; apply HH; assumption).
  assert (Hfl : 1 / 10000 <= Rmax (Disp_Model.conc m W H i j) (1 / 10000)) by apply Rmax_r.
  unfold r, disp_row. destruct (excluded j) eqn:Ex.
  - cbn [w_profile w_pmin w_pmax w_conc w_cmin w_cmax w_drop]. rewrite clamp_max.
    repeat split; try lra; try discriminate; try reflexivity.
  - destruct (Hse i j Hi Hj Ex) as (dqi & dqd & fuel & steps & li & ld & Hin & Hde & Hai & Had).
    assert (Li : length li = length targets) by (symmetry; eapply F2_length; apply C35_increase_in_tolerance in Hin; exact Hin).
    assert (Ld : length ld = length targets) by (symmetry; eapply F2_length; apply C35_decrease_in_tolerance in Hde; exact Hde).
    assert (Htl : (t < length targets)%nat) by (apply nth_error_Some; rewrite Ht; discriminate).
    destruct (nth_error li t) as [a|] eqn:Ea; [|apply nth_error_None in Ea; lia].
    destruct (nth_error ld t) as [b|] eqn:Eb; [|apply nth_error_None in Eb; lia].
    rewrite (Hai t a Ea), (Had t b Eb).
    destruct (C35_ranges_bracket_base dqi dqd targets thr fuel steps li ld m k W H i j Hin Hde Hi
      (fun a Ha => HH a j Ha Hj) (fun s Hs => HW s i Hs Hi) a b (nth_error_In _ _ Ea) (nth_error_In _ _ Eb)) as (Hp & Hc & Hr).
    cbv zeta in Hr. destruct Hr as (R1 & R2 & R3).
    assert (Hda : forall x, 0 < x -> forall c, (c < k)%nat -> 0 < displaced H i j x c j).
    { intros x Hx c Hc'. unfold displaced. destruct (((c =? i) && (j =? j))%nat) eqn:E; [|apply HH; assumption].
      apply Rmult_lt_0_compat; [apply HH; assumption|exact Hx]. }
    assert (Hma : 1 < f_mod a).
    { apply C35_increase_in_tolerance in Hin. clear - Hin Ea. revert t Ea. induction Hin as [|? ? ? ? (_ & G & _) _ IH]; intros t Ea; [destruct t; discriminate|].
      destruct t; cbn in Ea; [injection Ea as <-; lra|eauto]. }
    assert (Hmb : 0 < f_mod b).
    { apply C35_decrease_in_tolerance in Hde. clear - Hde Eb. revert t Eb. induction Hde as [|? ? ? ? (_ & G & _) _ IH]; intros t Eb; [destruct t; discriminate|].
      destruct t; cbn in Eb; [injection Eb as <-; lra|eauto]. }
    pose proof (percent_pos k (displaced H i j (f_mod a)) i j Hi (Hda (f_mod a) (Rlt_trans _ _ _ Rlt_0_1 Hma))) as Pa.
    pose proof (percent_pos k (displaced H i j (f_mod b)) i j Hi (Hda _ Hmb)) as Pb.
    cbn [w_profile w_pmin w_pmax w_conc w_cmin w_cmax w_drop found_of a_percent a_conc a_drop].
    rewrite <- clamp_max in R3. rewrite clamp_max in R3. rewrite !clamp_max in *.
    pose proof (Rmax_r (Disp_Model.conc m W (displaced H i j (f_mod b)) i j) (1 / 10000)).
    repeat split; try lra; try discriminate; try reflexivity.
Qed.

(** Both plots of a displacement, for any valid factor and any dQ: one bar per
    feature, in order; the marker is the base model's share (percent) or summed
    contribution (at least 0.0001) and lies inside its bar; bars of features that
    were not displaced have no height; the ends of the others are what the two
    searches stored for the target shown. *)
Theorem C100_displacement_plots :
  forall m k n W H excluded targets thr base inc dec qi qd default factor dQ,
  searched m k n W H excluded targets thr base inc dec qi qd ->
  (forall a b, (a < k)%nat -> (b < n)%nat -> 0 < H a b) -> (forall s a, (s < m)%nat -> (a < k)%nat -> 0 <= W s a) ->
  NoDup targets -> In default targets -> (1 <= factor <= Z.of_nat k)%Z ->
  let rows := disp_rows m k n W H excluded inc dec targets in
  let i := Z.to_nat (factor - 1) in
  exists q t pb cb, nth_error targets t = Some q /\
    (In dQ targets -> q = dQ) /\ (~ In dQ targets -> q = default) /\
    plot_profile targets default k rows factor dQ = Shows (q, pb) /\
    plot_conc targets default k rows factor dQ = Shows (q, cb) /\
    length pb = n /\ length cb = n /\
    forall j, (j < n)%nat -> exists p c, nth_error pb j = Some p /\ nth_error cb j = Some c /\
      g_feature p = j /\ g_feature c = j /\
      g_mark p = 100 * (H i j / rsum k (fun a => H a j)) /\
      0 < g_base p <= g_mark p /\ g_mark p <= g_base p + g_height p <= 100 /\
      g_mark c = Rmax (rsum m (fun s => W s i * H i j)) (1 / 10000) /\
      1 / 10000 <= g_base c <= g_mark c /\ g_mark c <= g_base c + g_height c /\
      (excluded j = true -> g_height p = 0 /\ g_height c = 0) /\
      (excluded j = false ->
         g_base p + g_height p = 100 * a_percent (inc i j t) /\ g_base p = 100 * a_percent (dec i j t) /\
         g_base c + g_height c = Rmax (a_conc (inc i j t)) (1 / 10000) /\ g_base c = Rmax (a_conc (dec i j t)) (1 / 10000)).
Proof.
  intros m k n W H excluded targets thr base inc dec qi qd default factor dQ Hse HH HW Hnd Hde Hf rows i.
  destruct (pick_dQ_spec targets default dQ Hde) as (Hq & Hq1 & Hq2).
  set (q := pick_dQ targets default dQ) in *.
  destruct (In_nth_error _ _ Hq) as [t Ht].
  pose proof (bad_factor_pos k factor Hf) as Hi. change (pos_of factor) with i in Hi.
  assert (Hsel : select i q rows = map (fun j => disp_row m k W H excluded inc dec t q i j) (seq 0 n)).
  { unfold rows, disp_rows. rewrite disp_rows_labels. rewrite (select_rows _ k n targets i q t); try assumption; [reflexivity|].
    intros l. unfold row_at. destruct (disp_row_labels m k W H excluded inc dec (l_t l) (l_dQ l) (l_i l) (l_j l)) as (-> & -> & _). auto. }
  exists q, t. unfold plot_profile, plot_conc. rewrite (proj2 (bad_factor_iff k factor) Hf). cbv zeta. fold q.
  change (pos_of factor) with i. rewrite Hsel.
  do 2 eexists. split; [exact Ht|]. split; [exact Hq1|]. split; [exact Hq2|]. split; [reflexivity|]. split; [reflexivity|].
  split; [rewrite !map_length, seq_length; reflexivity|]. split; [rewrite !map_length, seq_length; reflexivity|].
  intros j Hj. rewrite !map_map. rewrite !nth_seq_map by exact Hj. do 2 eexists. split; [reflexivity|]. split; [reflexivity|].
  cbn [g_feature g_mark g_base g_height].
  destruct (disp_row_labels m k W H excluded inc dec t q i j) as (_ & _ & ->).
  destruct (row_facts m k n W H excluded targets thr base inc dec qi qd t q i j Hse Hi Hj HH HW Ht)
    as (E1 & E2 & E3 & E4 & E5 & E6 & E7 & E8).
  set (r := disp_row m k W H excluded inc dec t q i j) in *.
  rewrite floor4_max. change (percent k H i j) with (H i j / rsum k (fun a => H a j)) in E1. rewrite <- E1.
  change (Disp_Model.conc m W H i j) with (rsum m (fun s => W s i * H i j)) in E4. rewrite <- E4.
  split; [reflexivity|]. split; [reflexivity|]. split; [reflexivity|]. split; [lra|]. split; [lra|].
  split; [reflexivity|]. split; [lra|]. split; [lra|]. split.
  - intros Ex. destruct (E7 Ex) as (Ea & Eb & _). rewrite Ea, Eb. lra.
  - intros Ex. destruct (E8 Ex) as (Ea & Eb & Ec & Ed & _). rewrite <- Ea, <- Eb, <- Ec, <- Ed. lra.
Qed.
Print Assumptions C100_displacement_plots.

(** The markers of one feature over all factors add up to 100 percent. *)
Theorem C100_markers_total : forall m k n W H excluded inc dec targets default dQ j,
  (j < n)%nat -> rsum k (fun a => H a j) <> 0 -> NoDup targets -> In default targets ->
  exists marks : nat -> R, rsum k marks = 100 /\
    forall factor, (1 <= factor <= Z.of_nat k)%Z ->
      exists q pb p, plot_profile targets default k (disp_rows m k n W H excluded inc dec targets) factor dQ = Shows (q, pb) /\
        nth_error pb j = Some p /\ g_feature p = j /\ g_mark p = marks (Z.to_nat (factor - 1)).
Proof.
  intros m k n W H excluded inc dec targets default dQ j Hj Hs Hnd Hde.
  exists (fun i => 100 * percent k H i j). split.
  { rewrite rsum_scal_l. unfold percent, Rdiv. rewrite rsum_scal_r. rewrite Rinv_r by exact Hs. ring. }
  intros factor Hf. pose proof (bad_factor_pos k factor Hf) as Hi.
  destruct (pick_dQ_spec targets default dQ Hde) as (Hq & _). destruct (In_nth_error _ _ Hq) as [t Ht].
  unfold plot_profile. rewrite (proj2 (bad_factor_iff k factor) Hf). cbv zeta. unfold disp_rows. rewrite disp_rows_labels.
  rewrite (select_rows _ k n targets (pos_of factor) _ t); try assumption.
  - do 3 eexists. split; [reflexivity|]. rewrite map_map, nth_seq_map by exact Hj. split; [reflexivity|].
    cbn [g_feature g_mark]. unfold row_at, disp_row, l_j, l_i. cbn [fst snd]. destruct (excluded j); split; reflexivity.
  - intros l. unfold row_at. destruct (disp_row_labels m k W H excluded inc dec (l_t l) (l_dQ l) (l_i l) (l_j l)) as (-> & -> & _). auto.
Qed.
Print Assumptions C100_markers_total.
Example C99_relabelled_run_example :=
  C99_relabelled_run 2 3 (mkRun 1 (fun _ _ => 1) ex_H) ex_run (fun i => (1 - i)%nat) (proj1 (proj2 (proj2 C99_instance)))
    eq_refl (proj1 (proj2 (proj2 (proj2 C99_instance)))) (fun _ _ _ => eq_refl).

(** *** BS-DISP *)
Lemma map_nth_seq {A B} (f : A -> B) d (l : list A) : map (fun x => f (nth x l d)) (seq 0 (length l)) = map f l.
Proof.
  induction l as [|a l IH]; [reflexivity|]. cbn [length seq map nth]. f_equal. rewrite <- seq_shift, map_map. exact IH.
Qed.

Lemma bsd_row_local tab order x : bsd_row tab order x = bsd_row (fun i _ => tab i x) order 0.
Proof. reflexivity. Qed.

Lemma bsd_rows_labels k n targets order d0 (row : nat -> label -> drow) (rows : nat -> list drow) :
  (forall i, rows i = map (row i) (labels_from k n targets 0)) ->
  bsd_rows (fun i x => nth x (rows i) d0) (length (rows (keys0 order))) order
  = map (fun l => bsd_row (fun i _ => row i l) order 0) (labels_from k n targets 0).
Proof.
  intros Hr. unfold bsd_rows. rewrite (Hr (keys0 order)), map_length.
  destruct (labels_from k n targets 0) as [|l0 ls] eqn:El; [reflexivity|]. rewrite <- El in *.
  rewrite <- (map_nth_seq _ l0). apply map_ext_in. intros x Hx. apply in_seq in Hx. rewrite bsd_row_local.
  assert (E : forall i, nth x (rows i) d0 = row i (nth x (labels_from k n targets 0) l0)).
  { intros i. rewrite Hr. rewrite (nth_indep _ d0 (row i l0)) by (rewrite map_length; lia). apply map_nth. }
  unfold bsd_row, compile_row. rewrite !E.
  assert (Em : forall (g : drow -> R) l, map (fun i => g (nth x (rows i) d0)) l = map (fun i => g (row i (nth x (labels_from k n targets 0) l0))) l)
    by (intros g l; apply map_ext; intros i; rewrite E; reflexivity).
  assert (Ef : forall (op : R -> R -> R) (g : drow -> R) l a, fold_left (fun a i => op a (g (nth x (rows i) d0))) l a
                = fold_left (fun a i => op a (g (row i (nth x (labels_from k n targets 0) l0)))) l a).
  { intros op g. induction l as [|i l IH]; intros a; cbn [fold_left]; [reflexivity|]. rewrite E. apply IH. }
  cbn [b_pmax b_pmin b_conc b_cmax b_cmin b_drop].
  rewrite (Em (fun r => cconc (drow_crow r))), (Ef npmax (fun r => profile_max (drow_crow r))),
    (Ef npmin (fun r => profile (drow_crow r))), (Ef npmax (fun r => conc_max (drow_crow r))),
    (Ef npmin (fun r => conc_min (drow_crow r))), (Ef npmin (fun r => dQ_drop (drow_crow r))). reflexivity.
Qed.

(** The tables of the runs of a BS-DISP: run [i] has base model [Ws i], [Hs i]. *)
Definition run_rows k n excluded targets (ms : nat -> nat) (Ws Hs : nat -> mat)
    (incs decs : nat -> nat -> nat -> nat -> found_at) (i : nat) : list drow :=
  disp_rows (ms i) k n (Ws i) (Hs i) excluded (incs i) (decs i) targets.
Definition d0 : drow := mkRow 0 0 0 0 0 0 0 0 0 (Fin 0).
Definition bsd_table k n excluded targets ms Ws Hs incs decs (order : list nat) : list drow :=
  let rows := run_rows k n excluded targets ms Ws Hs incs decs in
  bsd_rows (fun i x => nth x (rows i) d0) (length (rows (keys0 order))) order.

(** The plots of a BS-DISP of [R'] runs, the first of which to be stored was [f]:
    one bar per feature in order, covering what run [f] and the runs 1 .. R'-1
    found; the profile marker is run [f]'s share (not an average), the
    contribution marker the average over these runs; both lie inside the bars. *)
Theorem C100_bsdisp_plots :
  forall k n excluded targets thr ms Ws Hs incs decs bases qis qds R' f rest default factor dQ,
  Permutation (f :: rest) (seq 1 R') ->
  (forall r, (1 <= r <= R')%nat ->
     searched (ms r) k n (Ws r) (Hs r) excluded targets thr (bases r) (incs r) (decs r) (qis r) (qds r) /\
     (forall a b, (a < k)%nat -> (b < n)%nat -> 0 < Hs r a b) /\
     (forall s a, (s < ms r)%nat -> (a < k)%nat -> 0 <= Ws r s a)) ->
  NoDup targets -> In default targets -> (1 <= factor <= Z.of_nat k)%Z ->
  let rows := bsd_table k n excluded targets ms Ws Hs incs decs (f :: rest) in
  let i := Z.to_nat (factor - 1) in
  let used := f :: seq 1 (R' - 1) in
  exists q t pb cb, nth_error targets t = Some q /\
    (In dQ targets -> q = dQ) /\ (~ In dQ targets -> q = default) /\
    plot_profile targets default k rows factor dQ = Shows (q, pb) /\
    plot_conc targets default k rows factor dQ = Shows (q, cb) /\
    length pb = n /\ length cb = n /\
    forall j, (j < n)%nat -> exists p c, nth_error pb j = Some p /\ nth_error cb j = Some c /\
      g_feature p = j /\ g_feature c = j /\
      g_mark p = 100 * (Hs f i j / rsum k (fun a => Hs f a j)) /\
      0 < g_base p <= g_mark p /\ g_mark p <= g_base p + g_height p <= 100 /\
      g_mark c = Rmax (lsum (map (fun r => rsum (ms r) (fun s => Ws r s i * Hs r i j)) used) / INR R') (1 / 10000) /\
      1 / 10000 <= g_base c <= g_mark c /\ g_mark c <= g_base c + g_height c /\
      (excluded j = false -> forall r, In r used ->
         100 * a_percent (incs r i j t) <= g_base p + g_height p /\
         g_base c <= Rmax (a_conc (decs r i j t)) (1 / 10000) /\
         Rmax (a_conc (incs r i j t)) (1 / 10000) <= g_base c + g_height c) /\
      (excluded j = false -> g_base p <= 100 * a_percent (decs f i j t)).
Proof.
  intros k n excluded targets thr ms Ws Hs incs decs bases qis qds R' f rest default factor dQ
    Hp Hruns Hnd Hde Hf rows i used.
  destruct (pick_dQ_spec targets default dQ Hde) as (Hq & Hq1 & Hq2).
  set (q := pick_dQ targets default dQ) in *.
  destruct (In_nth_error _ _ Hq) as [t Ht].
  pose proof (bad_factor_pos k factor Hf) as Hi. change (pos_of factor) with i in Hi.
  set (row := fun r l => row_at (ms r) k (Ws r) (Hs r) excluded (incs r) (decs r) l).
  assert (Hlab : forall r l, w_dQ (row r l) = l_dQ l /\ w_factor (row r l) = l_i l /\ w_feature (row r l) = l_j l).
  { intros r l. apply disp_row_labels. }
  assert (Hsel : select i q rows = map (fun j => bsd_row (fun r _ => row r (t, q, i, j)) (f :: rest) 0) (seq 0 n)).
  { unfold rows, bsd_table. rewrite (bsd_rows_labels k n targets (f :: rest) d0 row)
      by (intros r; unfold run_rows, disp_rows; apply disp_rows_labels).
    rewrite (select_rows _ k n targets i q t); try assumption; [reflexivity|].
    intros l. unfold bsd_row. cbn [w_dQ w_factor]. destruct (Hlab (keys0 (f :: rest)) l) as (-> & -> & _). auto. }
  exists q, t. unfold plot_profile, plot_conc. rewrite (proj2 (bad_factor_iff k factor) Hf). cbv zeta. fold q.
  change (pos_of factor) with i. rewrite Hsel.
  do 2 eexists. split; [exact Ht|]. split; [exact Hq1|]. split; [exact Hq2|]. split; [reflexivity|]. split; [reflexivity|].
  split; [rewrite !map_length, seq_length; reflexivity|]. split; [rewrite !map_length, seq_length; reflexivity|].
  intros j Hj. rewrite !map_map. rewrite !nth_seq_map by exact Hj. do 2 eexists. split; [reflexivity|]. split; [reflexivity|].
  cbn [g_feature g_mark g_base g_height].
  set (comp := fun r (_ : nat) => drow_crow (row r (t, q, i, j))).
  assert (Eb : bsd_row (fun r _ => row r (t, q, i, j)) (f :: rest) 0
             = let b := compile_row comp (f :: rest) 0 in
               mkRow q i j (w_profile (row f (t, q, i, j))) (b_pmax b) (b_pmin b) (b_conc b) (b_cmax b) (b_cmin b) (Fin (b_drop b))).
  { unfold bsd_row. cbn [keys0 hd]. destruct (Hlab f (t, q, i, j)) as (-> & -> & ->). reflexivity. }
  rewrite Eb. cbv zeta. cbn [w_feature w_profile w_pmin w_pmax w_conc w_cmin w_cmax].
  pose proof (C40_compiled_ranges comp R' f rest 0 Hp) as HC. cbv zeta in HC.
  set (b := compile_row comp (f :: rest) 0) in *.
  destruct HC as (Cpx & Cpn & Ccx & Ccn & _ & _ & Cc).
  assert (Hlen : length (f :: rest) = R') by (rewrite (Permutation_length Hp); apply seq_length).
  assert (HR : (0 < R')%nat) by (cbn in Hlen; lia).
  assert (Hf1 : (1 <= f <= R')%nat).
  { assert (G : In f (seq 1 R')) by (apply (Permutation_in _ Hp); left; reflexivity). apply in_seq in G. lia. }
  assert (Hused : forall r, In r used -> (1 <= r <= R')%nat).
  { intros r [<-|Hr]; [exact Hf1|]. apply in_seq in Hr. lia. }
  assert (Hrow : forall r, In r used ->
     let w := row r (t, q, i, j) in
     w_profile w = Hs r i j / rsum k (fun a => Hs r a j) /\ 0 < w_pmin w <= w_profile w /\ w_profile w <= w_pmax w <= 1 /\
     w_conc w = rsum (ms r) (fun s => Ws r s i * Hs r i j) /\ 0 <= w_conc w /\
     1 / 10000 <= w_cmin w <= Rmax (w_conc w) (1 / 10000) /\ Rmax (w_conc w) (1 / 10000) <= w_cmax w /\
     (excluded j = false -> w_pmax w = a_percent (incs r i j t) /\ w_pmin w = a_percent (decs r i j t) /\
        w_cmax w = Rmax (a_conc (incs r i j t)) (1 / 10000) /\ w_cmin w = Rmax (a_conc (decs r i j t)) (1 / 10000))).
  { intros r Hr. destruct (Hruns r (Hused r Hr)) as (Hse & HH & HW).
    destruct (row_facts (ms r) k n (Ws r) (Hs r) excluded targets thr (bases r) (incs r) (decs r) (qis r) (qds r) t q i j Hse Hi Hj HH HW Ht)
      as (E1 & E2 & E3 & E4 & E5 & E6 & _ & E8).
    cbv zeta. unfold row, row_at, l_t, l_dQ, l_i, l_j. cbn [fst snd].
    set (w := disp_row (ms r) k (Ws r) (Hs r) excluded (incs r) (decs r) t q i j) in *.
    assert (Hc0 : 0 <= w_conc w).
    { rewrite E4. unfold Disp_Model.conc. apply rsum_nonneg. intros s Hs'. apply Rmult_le_pos; [apply HW; assumption|].
      left. apply HH; assumption. }
    split; [exact E1|]. split; [exact E2|]. split; [exact E3|]. split; [exact E4|]. split; [exact Hc0|]. split; [exact E5|].
    split; [exact E6|]. intros Ex. destruct (E8 Ex) as (Ea & Ebb & Ec & Ed & _). auto. }
  assert (Hfu : In f used) by (left; reflexivity).
  assert (Hvals : forall (g : drow -> R) (g' : crow -> R), (forall w, g w = g' (drow_crow w)) ->
     forall r, In r used -> In (g (row r (t, q, i, j))) (g' (comp f 0%nat) :: map (fun r => g' (comp r 0%nat)) (seq 1 (R' - 1)))).
  { intros g g' Hg r [<-|Hr]; [left; symmetry; apply Hg|right]. apply in_map_iff. exists r. split; [symmetry; apply Hg|exact Hr]. }
  assert (Hex : forall (g : drow -> R) (g' : crow -> R) v, (forall w, g w = g' (drow_crow w)) ->
     In v (g' (comp f 0%nat) :: map (fun r => g' (comp r 0%nat)) (seq 1 (R' - 1))) -> exists r, In r used /\ v = g (row r (t, q, i, j))).
  { intros g g' v Hg [<-|Hv]; [exists f; split; [exact Hfu|symmetry; apply Hg]|].
    apply in_map_iff in Hv. destruct Hv as (r & <- & Hr). exists r. split; [right; exact Hr|symmetry; apply Hg]. }
  destruct Cpx as [Ipx Cpx], Cpn as [Ipn Cpn], Ccx as [Icx Ccx], Ccn as [Icn Ccn].
  destruct (Hex w_pmax profile_max _ (fun w => eq_refl) Ipx) as (rx & Hrx & Erx).
  destruct (Hex w_cmin conc_min _ (fun w => eq_refl) Icn) as (rc & Hrc & Erc).
  destruct (Hrow f Hfu) as (F1 & F2 & F3 & F4 & F4' & F5 & F6 & F7).
  destruct (Hrow rx Hrx) as (_ & _ & X3 & _). destruct (Hrow rc Hrc) as (_ & _ & _ & _ & _ & X5 & _).
  assert (Hpn : b_pmin b <= w_profile (row f (t, q, i, j))).
  { assert (G : b_pmin b <= profile_min (comp f 0%nat)) by (apply Cpn; left; reflexivity).
    change (profile_min (comp f 0%nat)) with (w_pmin (row f (t, q, i, j))) in G. lra. }
  assert (Hpp : 0 < b_pmin b).
  { destruct Ipn as [G|G].
    - rewrite <- G. change (profile_min (comp f 0%nat)) with (w_pmin (row f (t, q, i, j))). lra.
    - apply in_map_iff in G. destruct G as (r & <- & Hr). destruct (Hrow r (or_intror Hr)) as (_ & G2 & _).
      change (profile (comp r 0%nat)) with (w_profile (row r (t, q, i, j))). lra. }
  assert (Hpx : w_pmax (row f (t, q, i, j)) <= b_pmax b) by (apply Cpx; left; reflexivity).
  assert (Hcc : b_conc b = lsum (map (fun r => rsum (ms r) (fun s => Ws r s i * Hs r i j)) used) / INR R').
  { assert (HnR : INR R' <> 0) by (apply not_0_INR; lia).
    apply Rmult_eq_reg_r with (INR R'); [|exact HnR]. rewrite Cc. unfold Rdiv. rewrite Rmult_assoc, Rinv_l by exact HnR. rewrite Rmult_1_r.
    unfold used. cbn [map]. f_equal. f_equal.
    - destruct (Hrow f Hfu) as (_ & _ & _ & G & _). exact G.
    - apply map_ext_in. intros r Hr. destruct (Hrow r (or_intror Hr)) as (_ & _ & _ & G & _). exact G. }
  assert (Hmean : forall lo hi, (forall r, In r used -> lo <= w_conc (row r (t, q, i, j)) <= hi) -> lo <= b_conc b <= hi).
  { intros lo hi G. rewrite Hcc.
    replace (lsum (map (fun r => rsum (ms r) (fun s => Ws r s i * Hs r i j)) used) / INR R')
      with (lmean (map (fun r => rsum (ms r) (fun s => Ws r s i * Hs r i j)) used)).
    - apply mean_bounds; [discriminate|]. intros y Hy. apply in_map_iff in Hy. destruct Hy as (r & <- & Hr).
      destruct (Hrow r Hr) as (_ & _ & _ & E & _). rewrite <- E. apply G. exact Hr.
    - unfold lmean. f_equal. f_equal. rewrite map_length. unfold used. cbn [length]. rewrite seq_length. lia. }
  assert (Hcn : forall r, In r used -> b_cmin b <= w_cmin (row r (t, q, i, j))) by (intros r Hr; apply Ccn, (Hvals w_cmin conc_min (fun w => eq_refl) r Hr)).
  assert (Hcx : forall r, In r used -> w_cmax (row r (t, q, i, j)) <= b_cmax b) by (intros r Hr; apply Ccx, (Hvals w_cmax conc_max (fun w => eq_refl) r Hr)).
  assert (Hlo : 1 / 10000 <= b_cmin b) by (rewrite Erc; lra).
  assert (Hhi : forall r, In r used -> w_conc (row r (t, q, i, j)) <= b_cmax b).
  { intros r Hr. destruct (Hrow r Hr) as (_ & _ & _ & _ & _ & _ & G & _). pose proof (Rmax_l (w_conc (row r (t, q, i, j))) (1 / 10000)).
    specialize (Hcx r Hr). lra. }
  assert (Hm1 : b_conc b <= b_cmax b).
  { apply (Hmean 0 (b_cmax b)). intros r Hr. split; [apply (Hrow r Hr)|apply Hhi; exact Hr]. }
  assert (Hm2 : b_cmin b <= Rmax (b_conc b) (1 / 10000)).
  { destruct (Rle_dec (b_cmin b) (1 / 10000)) as [G|G]; [eapply Rle_trans; [exact G|apply Rmax_r]|].
    eapply Rle_trans; [|apply Rmax_l]. apply (Hmean (b_cmin b) (b_cmax b)). intros r Hr. split; [|apply Hhi; exact Hr].
    destruct (Hrow r Hr) as (_ & _ & _ & _ & _ & G5 & _). specialize (Hcn r Hr).
    unfold Rmax in G5. destruct (Rle_dec (w_conc (row r (t, q, i, j))) (1 / 10000)); lra. }
  assert (Hm3 : Rmax (b_conc b) (1 / 10000) <= b_cmax b).
  { apply Rmax_lub; [exact Hm1|]. specialize (Hcx f Hfu). pose proof (Rmax_r (w_conc (row f (t, q, i, j))) (1 / 10000)). lra. }
  rewrite floor4_max, <- Hcc, <- F1.
  split; [reflexivity|]. split; [reflexivity|]. split; [reflexivity|]. split; [lra|]. split; [rewrite Erx in *; lra|].
  split; [reflexivity|]. split; [lra|]. split; [lra|]. split.
  - intros Ex r Hr. destruct (Hrow r Hr) as (_ & _ & _ & _ & _ & _ & _ & G). destruct (G Ex) as (<- & _ & <- & <-).
    specialize (Hcn r Hr). specialize (Hcx r Hr).
    assert (w_pmax (row r (t, q, i, j)) <= b_pmax b) by (apply Cpx, (Hvals w_pmax profile_max (fun w => eq_refl) r Hr)). lra.
  - intros Ex. destruct (F7 Ex) as (_ & <- & _).
    assert (G : b_pmin b <= profile_min (comp f 0%nat)) by (apply Cpn; left; reflexivity).
    change (profile_min (comp f 0%nat)) with (w_pmin (row f (t, q, i, j))) in G. lra.
Qed.
Print Assumptions C100_bsdisp_plots.

(** *** Which dQ is shown *)
Lemma nodup_dQmax : NoDup dQmax.
Proof. unfold dQmax. repeat constructor; cbn [In]; intros C; repeat destruct C as [C|C]; try lra; exact C. Qed.
Lemma nodup_bs_dQmax : NoDup bs_dQmax.
Proof. unfold bs_dQmax. repeat constructor; cbn [In]; intros C; repeat destruct C as [C|C]; try lra; exact C. Qed.

Lemma in_dQmax x : In x dQmax <-> x = 4 \/ x = 8 \/ x = 16 \/ x = 32.
Proof. unfold dQmax. cbn [In]. split; intros H; repeat destruct H as [H|H]; subst; tauto. Qed.
Lemma in_bs_dQmax x : In x bs_dQmax <-> x = 1 / 2 \/ x = 1 \/ x = 2 \/ x = 4.
Proof. unfold bs_dQmax. cbn [In]. split; intros H; repeat destruct H as [H|H]; subst; tauto. Qed.

(** Valid values are shown as asked for.  Anything else: displacement plots show
    dQ = 4, BS-DISP's plot_results dQ = 0.5, but its two plots called directly
    dQ = 4. *)
Theorem C100_which_dQ : forall k rows factor dQ, (1 <= factor <= Z.of_nat k)%Z ->
  let title (o : outcome (R * list bar)) := match o with Shows (q, _) => Some q | _ => None end in
  let own := dQ = 4 \/ dQ = 8 \/ dQ = 16 \/ dQ = 32 in
  let bs_own := dQ = 1 / 2 \/ dQ = 1 \/ dQ = 2 \/ dQ = 4 in
  (own -> title (disp_profile k rows factor dQ) = Some dQ /\ title (disp_conc k rows factor dQ) = Some dQ /\
          disp_results k rows factor dQ = (disp_profile k rows factor dQ, disp_conc k rows factor dQ)) /\
  (~ own -> disp_profile k rows factor dQ = disp_profile k rows factor 4 /\ disp_conc k rows factor dQ = disp_conc k rows factor 4 /\
            disp_results k rows factor dQ = disp_results k rows factor 4) /\
  (bs_own -> title (bsd_profile k rows factor dQ) = Some dQ /\ title (bsd_conc k rows factor dQ) = Some dQ /\
             bsd_results k rows factor dQ = (bsd_profile k rows factor dQ, bsd_conc k rows factor dQ)) /\
  (~ bs_own -> bsd_profile k rows factor dQ = bsd_profile k rows factor 4 /\ bsd_conc k rows factor dQ = bsd_conc k rows factor 4 /\
               bsd_results k rows factor dQ = bsd_results k rows factor (1 / 2)).
Proof.
  intros k rows factor dQ Hf title own bs_own. subst own bs_own.
  assert (H4 : In 4 dQmax) by (apply in_dQmax; auto). assert (B4 : In 4 bs_dQmax) by (apply in_bs_dQmax; auto).
  assert (Bh : In (1 / 2) bs_dQmax) by (apply in_bs_dQmax; auto).
  rewrite <- in_dQmax, <- in_bs_dQmax.
  unfold disp_results, bsd_results, disp_profile, disp_conc, bsd_profile, bsd_conc, plot_profile, plot_conc.
  rewrite (proj2 (bad_factor_iff k factor) Hf). cbv zeta.
  destruct (pick_dQ_spec dQmax 4 dQ H4) as (_ & D1 & D2). destruct (pick_dQ_spec bs_dQmax 4 dQ B4) as (_ & S1 & S2).
  destruct (pick_dQ_spec bs_dQmax (1 / 2) dQ Bh) as (_ & T1 & T2).
  destruct (pick_dQ_spec dQmax 4 4 H4) as (_ & E1 & _). destruct (pick_dQ_spec bs_dQmax 4 4 B4) as (_ & U1 & _).
  destruct (pick_dQ_spec bs_dQmax (1 / 2) (1 / 2) Bh) as (_ & V1 & _).
  split; [|split; [|split]]; intros H.
  - rewrite !(D1 H). cbn. repeat split; rewrite ?(D1 H); reflexivity.
  - rewrite !(D2 H), !(E1 H4). auto.
  - rewrite !(S1 H), !(T1 H). cbn. rewrite !(S1 H). auto.
  - rewrite !(S2 H), !(T2 H), !(U1 B4), !(V1 Bh). auto.
Qed.
Print Assumptions C100_which_dQ.

(** Documented: "will use default if invalid value provided", default 0.5. *)
Theorem C100_bsdisp_default_refuted : forall k rows factor, (1 <= factor <= Z.of_nat k)%Z ->
  exists bars, bsd_profile k rows factor 3 = Shows (4, bars) /\ bsd_profile k rows factor 3 = bsd_profile k rows factor 4.
Proof.
  intros k rows factor Hf. destruct (C100_which_dQ k rows factor 3 Hf) as (_ & _ & _ & H4).
  destruct H4 as (H4 & _); [lra|]. destruct (C100_which_dQ k rows factor 4 Hf) as (_ & _ & H & _).
  destruct H as (H & _); [auto|]. rewrite H4. destruct (bsd_profile k rows factor 4) as [[q b]| |]; try discriminate.
  injection H as ->. eauto.
Qed.
Print Assumptions C100_bsdisp_default_refuted.

(** *** The combined summary *)
Definition given {A} (o : option A) : Prop := o <> None.

(** When plot_summary shows something: with BS-DISP results alone never; the
    factor is checked against the last method given only, so that it fails if
    another has fewer factors, or a bootstrap without runs. *)
Theorem C100_summary_when : forall bs dp bd factor,
  let f := Z.to_nat (factor - 1) in
  let last := match bd, dp, bs with Some d, _, _ => bd_k d | None, Some d, _ => dp_k d | None, None, Some b => bt_k b | None, None, None => O end in
  let refused := (bs = None /\ dp = None) \/ ~ (1 <= factor <= Z.of_nat last)%Z in
  let failing := (exists b, bs = Some b /\ (bt_runs b = [] \/ (bt_k b <= f)%nat)) \/ (exists d, dp = Some d /\ (dp_k d <= f)%nat) in
  (plot_summary bs dp bd factor = Message <-> refused) /\
  (plot_summary bs dp bd factor = Raises <-> ~ refused /\ failing) /\
  ((exists p, plot_summary bs dp bd factor = Shows p) <-> ~ refused /\ ~ failing).
Proof.
  intros bs dp bd factor f last refused failing.
  set (out := plot_summary bs dp bd factor).
  assert (Hlast : err_factors bs dp bd = last) by (unfold err_factors, last; destruct bd, dp, bs; reflexivity).
  assert (Hspec : (out = Message /\ refused) \/ (out = Raises /\ ~ refused /\ failing) \/ ((exists p, out = Shows p) /\ ~ refused /\ ~ failing)).
  { unfold out, plot_summary. destruct (match bs, dp with None, None => true | _, _ => false end) eqn:E0.
    { destruct bs, dp; try discriminate. left. split; [reflexivity|]. left. auto. }
    assert (Hno : ~ (bs = None /\ dp = None)) by (intros [-> ->]; discriminate).
    assert (Hout : forall X, match bs, dp with None, None => @Message summary_plot | _, _ => X end = X) by (intros X; destruct bs, dp; try reflexivity; discriminate).
    rewrite Hout. rewrite Hlast. destruct (bad_factor last factor) eqn:Eb.
    { left. split; [reflexivity|]. right. rewrite <- bad_factor_iff, Eb. discriminate. }
    right. apply bad_factor_iff in Eb.
    assert (Hnr : ~ refused) by (intros [C|C]; [exact (Hno C)|exact (C Eb)]).
    change (pos_of factor) with f. cbv zeta.
    assert (HB : forall b, bs_bars b f = None <-> (bt_runs b = [] \/ (bt_k b <= f)%nat)).
    { intros b. unfold bs_bars. destruct (Nat.leb_spec (bt_k b) f); cbn [orb]; [tauto|].
      destruct (bt_runs b); cbn [length Nat.eqb]; split; intros G; try tauto; try discriminate. destruct G as [G|G]; [discriminate|lia]. }
    assert (HD : forall k r, row_bars k r f = None <-> (k <= f)%nat).
    { intros k r. unfold row_bars. destruct (Nat.leb_spec k f); split; intros G; try tauto; try discriminate; lia. }
    assert (Hbd : forall d, bd = Some d -> row_bars (bd_k d) (bd_rows d) f <> None).
    { intros d ->. rewrite HD. unfold last in Eb. unfold f. destruct dp, bs; lia. }
    destruct bs as [b|].
    - destruct (bs_bars b f) as [bb|] eqn:Ebb.
      + assert (Hfb : ~ (bt_runs b = [] \/ (bt_k b <= f)%nat)) by (rewrite <- HB, Ebb; discriminate).
        destruct dp as [d|].
        * destruct (row_bars (dp_k d) (dp_rows d) f) as [db|] eqn:Edb.
          -- assert (Hfd : ~ (dp_k d <= f)%nat) by (rewrite <- (HD (dp_k d) (dp_rows d)), Edb; discriminate).
             right. split; [|split; [exact Hnr|]].
             ++ destruct bd as [e|]; [|cbn; eauto]. destruct (row_bars (bd_k e) (bd_rows e) f) eqn:Ee; [|destruct (Hbd e eq_refl Ee)]. cbn. eauto.
             ++ intros [(b' & [= <-] & C)|(d' & [= <-] & C)]; contradiction.
          -- left. split; [destruct bd as [e|]; cbn; [destruct (row_bars (bd_k e) (bd_rows e) f)|]; reflexivity|]. split; [exact Hnr|].
             right. exists d. split; [reflexivity|]. apply (HD (dp_k d) (dp_rows d)). exact Edb.
        * right. split; [|split; [exact Hnr|]].
          ++ destruct bd as [e|]; [|cbn; eauto]. destruct (row_bars (bd_k e) (bd_rows e) f) eqn:Ee; [|destruct (Hbd e eq_refl Ee)]. cbn. eauto.
          ++ intros [(b' & [= <-] & C)|(d' & C & _)]; [contradiction|discriminate].
      + left. split; [|split; [exact Hnr|]].
        * cbn. destruct dp as [d|]; [destruct (row_bars (dp_k d) (dp_rows d) f); cbn|];
            (destruct bd as [e|]; [destruct (row_bars (bd_k e) (bd_rows e) f); reflexivity|reflexivity]).
        * left. exists b. split; [reflexivity|]. apply HB. exact Ebb.
    - destruct dp as [d|]; [|discriminate].
      destruct (row_bars (dp_k d) (dp_rows d) f) as [db|] eqn:Edb.
      + assert (Hfd : ~ (dp_k d <= f)%nat) by (rewrite <- (HD (dp_k d) (dp_rows d)), Edb; discriminate).
        right. split; [|split; [exact Hnr|]].
        * destruct bd as [e|]; [|cbn; eauto]. destruct (row_bars (bd_k e) (bd_rows e) f) eqn:Ee; [|destruct (Hbd e eq_refl Ee)]. cbn. eauto.
        * intros [(b' & C & _)|(d' & [= <-] & C)]; [discriminate|contradiction].
      + left. split; [destruct bd as [e|]; cbn; [destruct (row_bars (bd_k e) (bd_rows e) f)|]; reflexivity|]. split; [exact Hnr|].
        right. exists d. split; [reflexivity|]. apply (HD (dp_k d) (dp_rows d)). exact Edb. }
  destruct Hspec as [(E & Hr)|[(E & Hr & Hf)|((p & E) & Hr & Hf)]]; rewrite E.
  - repeat split; intros; try discriminate; try tauto; try (destruct H as [p H]; discriminate).
  - repeat split; intros; try discriminate; try tauto; try (destruct H as [p H]; discriminate).
  - repeat split; intros; try discriminate; try tauto. exists p. reflexivity.
Qed.
Print Assumptions C100_summary_when.

Lemma lmin_is l : l <> [] -> is_min (lmin l) l.
Proof.
  destruct l as [|a l]; [congruence|]. intros _. cbn [lmin].
  pose proof (fold_min (fun i => nth i l 0) (seq 0 (length l)) a) as H.
  rewrite (map_nth_seq (fun y => y) 0 l), map_id in H.
  replace (fold_left npmin l a) with (fold_left (fun a i => npmin a (nth i l 0)) (seq 0 (length l)) a); [exact H|].
  clear H. revert a. induction l as [|b l IH]; intros a; [reflexivity|]. cbn [length seq fold_left nth].
  rewrite <- IH. rewrite <- seq_shift. generalize (seq 0 (length l)) (npmin a b). clear.
  induction l0 as [|x xs IH]; intros c; cbn; [reflexivity|]. apply IH.
Qed.
Lemma lmax_is l : l <> [] -> is_max (lmax l) l.
Proof.
  destruct l as [|a l]; [congruence|]. intros _. cbn [lmax].
  pose proof (fold_max (fun i => nth i l 0) (seq 0 (length l)) a) as H.
  rewrite (map_nth_seq (fun y => y) 0 l), map_id in H.
  replace (fold_left npmax l a) with (fold_left (fun a i => npmax a (nth i l 0)) (seq 0 (length l)) a); [exact H|].
  clear H. revert a. induction l as [|b l IH]; intros a; [reflexivity|]. cbn [length seq fold_left nth].
  rewrite <- IH. rewrite <- seq_shift. generalize (seq 0 (length l)) (npmax a b). clear.
  induction l0 as [|x xs IH]; intros c; cbn; [reflexivity|]. apply IH.
Qed.

Definition ends (b : bar) : R * R := (g_base b, g_height b).

(** What the summary shows: the methods given, in order.  The bootstrap bar of a
    feature spans the contributions in the box of plot_contribution; the DISP bar
    is the one of plot_contribution with its default dQ = 4, the BS-DISP bar the one
    with dQ = 4 as well (not its default).  The markers are the contributions of
    the base model of the last method given. *)
Theorem C100_summary_contents : forall bs dp bd factor p,
  plot_summary bs dp bd factor = Shows p ->
  let f := Z.to_nat (factor - 1) in
  exists bb db eb,
    sp_bars p = bb ++ db ++ eb /\
    match bs with
    | None => bb = []
    | Some b => exists bars box, bb = [(BS, bars)] /\ length bars = bt_n b /\
        plot_contribution (bt_k b) (bt_n b) (bt_m b) (bt_runs b) (bt_W b) (bt_H b) factor = Shows box /\
        forall j, (j < bt_n b)%nat -> exists lo hi vs mark, nth_error bars j = Some (lo, hi - lo) /\
          nth_error box j = Some (vs, mark) /\ is_min lo vs /\ is_max hi vs
    end /\
    match dp with
    | None => db = []
    | Some d => exists bars, disp_conc (dp_k d) (dp_rows d) factor 4 = Shows (4, bars) /\ db = [(DISP, map ends bars)]
    end /\
    match bd with
    | None => eb = []
    | Some d => exists bars, bsd_conc (bd_k d) (bd_rows d) factor 4 = Shows (4, bars) /\ eb = [(BSDISP, map ends bars)]
    end /\
    sp_marks p =
      let conc m n (W H : mat) := map (fun j => Rmax (rsum m (fun s => W s f * H f j)) (1 / 10000)) (seq 0 n) in
      match bd, dp, bs with
      | Some d, _, _ => conc (bd_m d) (bd_n d) (bd_W d) (bd_H d)
      | None, Some d, _ => conc (dp_m d) (dp_n d) (dp_W d) (dp_H d)
      | None, None, Some b => conc (bt_m b) (bt_n b) (bt_W b) (bt_H b)
      | None, None, None => []
      end.
Proof.
  intros bs dp bd factor p Hp f.
  assert (Hsh : exists p, plot_summary bs dp bd factor = Shows p) by eauto.
  destruct (C100_summary_when bs dp bd factor) as (_ & _ & Hw). cbv zeta in Hw. apply Hw in Hsh. clear Hw.
  destruct Hsh as [Hnr Hnf]. fold f in Hnf.
  set (last := match bd, dp, bs with Some d, _, _ => bd_k d | None, Some d, _ => dp_k d | None, None, Some b => bt_k b | None, None, None => O end) in Hnr.
  assert (Hrange : (1 <= factor)%Z).
  { destruct (Z_le_gt_dec 1 factor) as [G|G]; [exact G|]. destruct Hnr. right. lia. }
  assert (Hk : forall k, ~ (k <= f)%nat -> bad_factor k factor = false).
  { intros k G. apply bad_factor_iff. unfold f in G. lia. }
  assert (Hmarks : forall m n W H, base_marks m n W H f = map (fun j => Rmax (rsum m (fun s => W s f * H f j)) (1 / 10000)) (seq 0 n)).
  { intros m n W H. unfold base_marks. apply map_ext. intros j. rewrite floor4_max. reflexivity. }
  assert (HB : forall b, bs = Some b -> exists bars box, bs_bars b f = Some bars /\ length bars = bt_n b /\
        plot_contribution (bt_k b) (bt_n b) (bt_m b) (bt_runs b) (bt_W b) (bt_H b) factor = Shows box /\
        forall j, (j < bt_n b)%nat -> exists lo hi vs mark, nth_error bars j = Some (lo, hi - lo) /\
          nth_error box j = Some (vs, mark) /\ is_min lo vs /\ is_max hi vs).
  { intros b Eb. assert (G1 : bt_runs b <> []) by (intros C; apply Hnf; left; exists b; auto).
    assert (G2 : ~ (bt_k b <= f)%nat) by (intros C; apply Hnf; left; exists b; auto).
    unfold bs_bars, plot_contribution. rewrite (Hk _ G2). destruct (Nat.leb_spec (bt_k b) f); [contradiction|].
    destruct (bt_runs b) as [|r0 rs] eqn:Er; [congruence|]. cbn [length Nat.eqb orb andb]. rewrite <- Er.
    do 2 eexists. split; [reflexivity|]. split; [rewrite map_length, seq_length; reflexivity|]. split; [reflexivity|].
    intros j Hj. rewrite !nth_seq_map by exact Hj. change (pos_of factor) with f.
    set (vs := map floor4 (bs_contributions (bt_k b) (bt_runs b) f j)).
    assert (Hne : vs <> []) by (unfold vs, bs_contributions; rewrite Er; discriminate).
    exists (lmin vs), (lmax vs), vs. eexists. split; [reflexivity|]. split; [reflexivity|].
    split; [apply lmin_is; exact Hne|apply lmax_is; exact Hne]. }
  assert (HD : forall d, dp = Some d -> exists bars, disp_conc (dp_k d) (dp_rows d) factor 4 = Shows (4, bars) /\
                 row_bars (dp_k d) (dp_rows d) f = Some (map ends bars)).
  { intros d Ed. assert (G : ~ (dp_k d <= f)%nat) by (intros C; apply Hnf; right; exists d; auto).
    unfold disp_conc, plot_conc, row_bars. rewrite (Hk _ G). destruct (Nat.leb_spec (dp_k d) f); [contradiction|].
    destruct (pick_dQ_spec dQmax 4 4) as (_ & Hq & _); [apply in_dQmax; auto|]. rewrite Hq by (apply in_dQmax; auto).
    cbv zeta. eexists. split; [reflexivity|]. change (pos_of factor) with f. rewrite map_map. reflexivity. }
  assert (HE : forall d, bd = Some d -> exists bars, bsd_conc (bd_k d) (bd_rows d) factor 4 = Shows (4, bars) /\
                 row_bars (bd_k d) (bd_rows d) f = Some (map ends bars)).
  { intros d Ed. assert (G : ~ (bd_k d <= f)%nat).
    { intros C. apply Hnr. right. unfold last. rewrite Ed. unfold f in C. lia. }
    unfold bsd_conc, plot_conc, row_bars. rewrite (Hk _ G). destruct (Nat.leb_spec (bd_k d) f); [contradiction|].
    destruct (pick_dQ_spec bs_dQmax 4 4) as (_ & Hq & _); [apply in_bs_dQmax; auto|]. rewrite Hq by (apply in_bs_dQmax; auto).
    cbv zeta. eexists. split; [reflexivity|]. change (pos_of factor) with f. rewrite map_map. reflexivity. }
  unfold plot_summary in Hp.
  assert (Hout : forall X, match bs, dp with None, None => @Message summary_plot | _, _ => X end = Shows p -> X = Shows p)
    by (intros X; destruct bs, dp; auto; discriminate).
  apply Hout in Hp. destruct (bad_factor _ factor); [discriminate|]. change (pos_of factor) with f in Hp. cbv zeta in Hp.
  cbv zeta.
  destruct bs as [b|]; [destruct (HB b eq_refl) as (bars & box & Ebb & Hb); rewrite Ebb in Hp|];
  (destruct dp as [d|]; [destruct (HD d eq_refl) as (dbars & Hd & Edb); rewrite Edb in Hp|]);
  (destruct bd as [e|]; [destruct (HE e eq_refl) as (ebars & He & Eeb); rewrite Eeb in Hp|]);
  cbn [add_method sp_bars app] in Hp; injection Hp as <-; cbn [sp_bars sp_marks]; rewrite ?Hmarks.
  - exists [(BS, bars)], [(DISP, map ends dbars)], [(BSDISP, map ends ebars)]. repeat split; eauto.
  - exists [(BS, bars)], [(DISP, map ends dbars)], []. repeat split; eauto.
  - exists [(BS, bars)], [], [(BSDISP, map ends ebars)]. repeat split; eauto.
  - exists [(BS, bars)], [], []. repeat split; eauto.
  - exists [], [(DISP, map ends dbars)], [(BSDISP, map ends ebars)]. repeat split; eauto.
  - exists [], [(DISP, map ends dbars)], []. repeat split; eauto.
  - destruct Hnr. left. auto.
  - destruct Hnr. left. auto.
Qed.
Print Assumptions C100_summary_contents.

(** The base model need not lie inside its bootstrap bar: with the run above, the
    bar of factor 1 at its first feature is at 1, the base at 4. *)
Theorem C100_base_inside_bs_bar_refuted :
  exists p bars marks, plot_summary (Some (mkBoot 2 3 1 (fun _ _ => 1) ex_H [ex_run])) None None 1 = Shows p /\
    sp_bars p = [(BS, (1, 0) :: bars)] /\ sp_marks p = 4 :: marks.
Proof.
  assert (E : floor4 (bs_contribution 2 ex_run 0 0) = 1).
  { unfold bs_contribution, Boot_Model.conc. rewrite run_H_kept by lia.
    assert (K1 : kept (r_H ex_run 0%nat 0%nat) = 1).
    { unfold kept, ex_run, r_H, ex_H. cbn. destruct (Rltb 1 _) eqn:E; [apply Rltb_iff in E; lra|reflexivity]. }
    rewrite K1. cbn [r_m r_W ex_run rsum]. replace (0 + 1 * 1) with 1 by ring.
    destruct (Rltb 1 EPS8) eqn:E; [apply Rltb_iff in E; unfold EPS8 in E; lra|]. rewrite round4_1, floor4_max, Rmax_left; lra. }
  unfold plot_summary, bs_bars, bs_contributions, base_marks. replace (bad_factor _ 1) with false by reflexivity. change (pos_of 1) with 0%nat.
  cbn [bt_k bt_n bt_m bt_W bt_H bt_runs length Nat.eqb Nat.leb orb map seq lmin lmax fold_left add_method sp_bars app].
  rewrite E. unfold Boot_Model.conc at 1. cbn [rsum]. change (ex_H 0%nat 0%nat) with 4.
  replace (floor4 (0 + 1 * 4)) with 4 by (rewrite floor4_max, Rmax_left; lra).
  replace (1 - 1) with 0 by ring. do 3 eexists. split; [reflexivity|]. split; reflexivity.
Qed.
Print Assumptions C100_base_inside_bs_bar_refuted.

(** The BS-DISP bar of the summary is not the one BS-DISP shows by default. *)
Theorem C100_summary_shows_defaults_refuted :
  exists dp bd p bars, plot_summary None (Some dp) (Some bd) 1 = Shows p /\
    In (BSDISP, [(1, 8)]) (sp_bars p) /\ snd (bsd_results (bd_k bd) (bd_rows bd) 1 (1 / 2)) = Shows (1 / 2, bars) /\ map ends bars = [(2, 1)].
Proof.
  exists (mkDisp 1 1 1 (fun _ _ => 1) (fun _ _ => 1) []),
         (mkBsd 1 1 1 (fun _ _ => 1) (fun _ _ => 1) [mkRow 4 0 0 1 1 1 2 9 1 (Fin 0); mkRow (1 / 2) 0 0 1 1 1 2 3 2 (Fin 0)]).
  assert (E1 : Reqb 4 4 = true) by apply Reqb_refl. assert (E2 : Reqb (1 / 2) (1 / 2) = true) by apply Reqb_refl.
  assert (E3 : Reqb (1 / 2) 4 = false) by (unfold Reqb; destruct (Req_EM_T _ _); [lra|reflexivity]).
  assert (E4 : Reqb 4 (1 / 2) = false) by (unfold Reqb; destruct (Req_EM_T _ _); [lra|reflexivity]).
  assert (Hin : In (1 / 2) bs_dQmax) by (apply in_bs_dQmax; auto). assert (Hin4 : In 4 bs_dQmax) by (apply in_bs_dQmax; auto).
  destruct (pick_dQ_spec bs_dQmax (1 / 2) (1 / 2) Hin) as (_ & P1 & _). destruct (pick_dQ_spec bs_dQmax 4 (1 / 2) Hin4) as (_ & P2 & _).
  unfold plot_summary, row_bars, bsd_results, bsd_conc, plot_conc, snd. replace (bad_factor _ 1) with false by reflexivity.
  cbn [bd_k bd_rows]. replace (bad_factor 1 1) with false by reflexivity. cbv zeta. rewrite (P1 Hin), (P2 Hin). change (pos_of 1) with 0%nat.
  unfold select. cbn [dp_k dp_rows filter w_factor w_dQ Nat.eqb Nat.leb]. rewrite E1, E2, E3, E4. cbn [map w_cmin w_cmax w_feature w_conc add_method sp_bars app].
  do 2 eexists. split; [reflexivity|]. split; [|split; [reflexivity|]].
  - cbn [sp_bars In]. right. left. replace (9 - 1) with 8 by ring. reflexivity.
  - cbn [map]. unfold ends. cbn [g_base g_height]. replace (3 - 2) with 1 by ring. reflexivity.
Qed.
Print Assumptions C100_summary_shows_defaults_refuted.

Example C100_instance :
  let one : mat := fun _ _ => 1 in let skip := fun j => (j =? 1)%nat in
  (exists inc dec, searched 1 1 2 one one skip dQmax (1/10) 0 inc dec (fun _ _ _ => Fin 0) (fun _ _ _ => Fin 0)) /\
  NoDup dQmax /\ In 4 dQmax /\ NoDup bs_dQmax /\ In 4 bs_dQmax /\ (1 <= 1 <= Z.of_nat 1)%Z /\ Permutation [2; 1]%nat (seq 1 2) /\
  rsum 1 (fun a => one a 0%nat) <> 0.
Proof.
  intros one skip. destruct C35_C36_C37_instance as (l & ld & Hl & Hd & _ & _).
  split.
  - exists (fun i j t => found_of 1 1 one one 0 i j (f_mod (nth t l (mkFound NaN 0 0 0))) (Fin 0)),
           (fun i j t => found_of 1 1 one one 0 i j (f_mod (nth t ld (mkFound NaN 0 0 0))) (Fin 0)).
    intros i j _ _ _. do 6 eexists. split; [exact Hl|]. split; [exact Hd|].
    split; intros t a Ha; rewrite (nth_error_nth _ _ _ Ha); reflexivity.
  - split; [apply nodup_dQmax|]. split; [apply in_dQmax; auto|]. split; [apply nodup_bs_dQmax|]. split; [apply in_bs_dQmax; auto|].
    split; [lia|]. split; [apply perm_swap|]. unfold one. cbn. lra.
Qed.

(** ** C101: the "largest dQ decrease" *)

Lemma q_drop_fin x y : q_drop (Fin x) (Fin y) = Fin (- Rmax 0 (Rmax (- x) (- y))).
Proof.
  unfold q_drop. cbn [flt]. destruct (Rltb x y) eqn:E; [apply Rltb_iff in E|apply Rltb_false in E]; cbn [flt].
  - rewrite (Rmax_left (- x)) by lra. destruct (Rltb x 0) eqn:F; [apply Rltb_iff in F; rewrite Rmax_right by lra; f_equal; ring|].
    apply Rltb_false in F. rewrite Rmax_left by lra. f_equal. ring.
  - rewrite (Rmax_right (- x)) by lra. destruct (Rltb y 0) eqn:F; [apply Rltb_iff in F; rewrite Rmax_right by lra; f_equal; ring|].
    apply Rltb_false in F. rewrite Rmax_left by lra. f_equal. ring.
Qed.

(** One row: never NaN and never positive, whatever the two refits gave; a refit
    whose Q is lower than the base model's leaves no trace, and neither does one
    whose Q is higher when the decreasing displacement's Q is NaN. *)
Theorem C101_row : forall base qi qd,
  let d := q_drop (fsub (Fin base) qi) (fsub (Fin base) qd) in
  (d = NInf \/ exists x, d = Fin x /\ x <= 0) /\
  (forall a b, qi = Fin a -> qd = Fin b -> d = Fin (- Rmax 0 (Rmax (a - base) (b - base)))) /\
  (forall a b, qi = Fin a -> qd = Fin b -> a <= base -> b <= base -> d = Fin 0) /\
  (qd = NaN -> d = Fin 0).
Proof.
  intros base qi qd d.
  assert (Hf : forall a b, qi = Fin a -> qd = Fin b -> d = Fin (- Rmax 0 (Rmax (a - base) (b - base)))).
  { intros a b -> ->. unfold d, fsub. cbn [fopp fadd]. rewrite q_drop_fin. f_equal. f_equal. f_equal. f_equal; ring. }
  split; [|split; [exact Hf|split]].
  - unfold d, q_drop. cbv zeta. generalize (if flt (fsub (Fin base) qi) (fsub (Fin base) qd) then fsub (Fin base) qi else fsub (Fin base) qd). intros m.
    destruct (flt m (Fin 0)) eqn:E; [|right; exists 0; split; [reflexivity|lra]].
    destruct m as [x| | |]; try discriminate; [|left; reflexivity]. right. exists x. split; [reflexivity|]. apply flt_fin in E. lra.
  - intros a b Ea Eb Ha Hb. rewrite (Hf a b Ea Eb). f_equal. rewrite Rmax_left; [ring|]. apply Rmax_lub; lra.
  - intros ->. unfold d, fsub. cbn [fopp fadd]. unfold q_drop. rewrite flt_nan_r. reflexivity.
Qed.
Print Assumptions C101_row.
(* one factor of two features, the second excluded from the search *)
Definition xep_one : mat := fun _ _ => 1.
Definition xep_skip (j : nat) : bool := (j =? 1)%nat.
Definition xep_q (i j t : nat) : fl := Fin 0.
Lemma xep_pos : forall a b, (a < 1)%nat -> (b < 2)%nat -> 0 < xep_one a b.
Proof. intros. unfold xep_one. lra. Qed.
Lemma xep_nonneg : forall s a, (s < 1)%nat -> (a < 1)%nat -> 0 <= xep_one s a.
Proof. intros. unfold xep_one. lra. Qed.
Example C100_displacement_plots_example : exists inc dec pb,
  let rows := disp_rows 1 1 2 xep_one xep_one xep_skip inc dec dQmax in
  plot_profile dQmax 4 1 rows 1 8 = Shows (8, pb) /\ length pb = 2%nat.
Proof.
  destruct C100_instance as ((inc & dec & Hs) & Hnd & Hin & _).
  exists inc, dec.
  destruct (C100_displacement_plots 1 1 2 xep_one xep_one xep_skip dQmax (1 / 10) 0 inc dec xep_q xep_q 4 1 8 Hs xep_pos
    xep_nonneg Hnd Hin ltac:(lia)) as (q & t & pb & cb & _ & Hq & _ & Hp & _ & Hl & _).
  exists pb. rewrite (Hq ltac:(cbn; tauto)) in Hp. split; assumption.
Qed.
Example C100_markers_total_example := fun inc dec =>
  C100_markers_total 1 1 2 xep_one xep_one xep_skip inc dec dQmax 4 8 0 ltac:(lia)
    (proj2 (proj2 (proj2 (proj2 (proj2 (proj2 (proj2 C100_instance)))))))
    (proj1 (proj2 C100_instance)) (proj1 (proj2 (proj2 C100_instance))).
Example C100_bsdisp_plots_example : exists inc dec pb,
  let rows := bsd_table 1 2 xep_skip dQmax (fun _ => 1%nat) (fun _ => xep_one) (fun _ => xep_one) (fun _ => inc) (fun _ => dec) [2; 1]%nat in
  plot_profile dQmax 4 1 rows 1 8 = Shows (8, pb) /\ length pb = 2%nat.
Proof.
  destruct C100_instance as ((inc & dec & Hs) & Hnd & Hin & _ & _ & _ & Hperm & _).
  exists inc, dec.
  destruct (C100_bsdisp_plots 1 2 xep_skip dQmax (1 / 10) (fun _ => 1%nat) (fun _ => xep_one) (fun _ => xep_one)
    (fun _ => inc) (fun _ => dec) (fun _ => 0) (fun _ => xep_q) (fun _ => xep_q) 2 2 [1%nat] 4 1 8 Hperm)
    as (q & t & pb & cb & _ & Hq & _ & Hp & _ & Hl & _); try assumption; try lia.
  - intros r _. split; [exact Hs | split; [exact xep_pos | exact xep_nonneg]].
  - exists pb. rewrite (Hq ltac:(cbn; tauto)) in Hp. split; assumption.
Qed.
Example C100_which_dQ_example := C100_which_dQ 1 [d0] 1 3 ltac:(lia).
Example C100_summary_when_example :=
  C100_summary_when (Some (mkBoot 2 3 1 (fun _ _ => 1) ex_H [ex_run])) None None 1.
Example C100_summary_contents_example : exists p,
  plot_summary (Some (mkBoot 2 3 1 (fun _ _ => 1) ex_H [ex_run])) None None 1 = Shows p /\
  exists bb db eb, sp_bars p = bb ++ db ++ eb /\ db = [] /\ eb = [].
Proof.
  destruct C100_base_inside_bs_bar_refuted as (p & _ & _ & Hp & _ & _). exists p. split; [exact Hp |].
  destruct (C100_summary_contents _ _ _ _ _ Hp) as (bb & db & eb & H1 & _ & H2 & H3 & _).
  exists bb, db, eb. repeat split; assumption.
Qed.
Example C101_row_example : q_drop (fsub (Fin 20) (Fin 25)) (fsub (Fin 20) (Fin 10)) = Fin (- Rmax 0 (Rmax (25 - 20) (10 - 20))) :=
  proj1 (proj2 (C101_row 20 (Fin 25) (Fin 10))) 25 10 eq_refl eq_refl.

Lemma col_min_fin (l : list R) : l <> [] -> exists x, col_min (map Fin l) = Fin x /\ is_min x l.
Proof.
  induction l as [|a l IH]; [congruence|]. intros _. cbn [map col_min is_nan].
  destruct l as [|b l].
  - cbn. exists a. split; [reflexivity|]. split; [left; reflexivity|]. intros y [<-|[]]. lra.
  - destruct IH as (x & -> & Hx1 & Hx2); [discriminate|]. cbn [is_nan flt]. destruct (Rltb a x) eqn:E.
    + apply Rltb_iff in E. exists a. split; [reflexivity|]. split; [left; reflexivity|]. intros y [<-|Hy]; [lra|]. specialize (Hx2 y Hy). lra.
    + apply Rltb_false in E. exists x. split; [reflexivity|]. split; [right; exact Hx1|]. intros y [<-|Hy]; [lra|]. apply Hx2. exact Hy.
Qed.
Lemma col_max_fin (l : list R) : l <> [] -> exists x, col_max (map Fin l) = Fin x /\ is_max x l.
Proof.
  induction l as [|a l IH]; [congruence|]. intros _. cbn [map col_max is_nan].
  destruct l as [|b l].
  - cbn. exists a. split; [reflexivity|]. split; [left; reflexivity|]. intros y [<-|[]]. lra.
  - destruct IH as (x & -> & Hx1 & Hx2); [discriminate|]. cbn [is_nan flt]. destruct (Rltb x a) eqn:E.
    + apply Rltb_iff in E. exists a. split; [reflexivity|]. split; [left; reflexivity|]. intros y [<-|Hy]; [lra|]. specialize (Hx2 y Hy). lra.
    + apply Rltb_false in E. exists x. split; [reflexivity|]. split; [right; exact Hx1|]. intros y [<-|Hy]; [lra|]. apply Hx2. exact Hy.
Qed.

(** A column without positive entries: its minimum is reported. *)
Lemma largest_is_min rows (l : list R) : map w_drop rows = map Fin l -> l <> [] -> (forall y, In y l -> y <= 0) ->
  exists x, largest_decrease rows = Fin x /\ is_min x l.
Proof.
  intros Er Hne Hle. unfold largest_decrease. rewrite Er.
  destruct (col_min_fin l Hne) as (x & -> & Hx). destruct (col_max_fin l Hne) as (y & -> & Hy).
  exists x. split; [|exact Hx]. cbn [fabs flt]. destruct Hx as [Hx1 Hx2], Hy as [Hy1 Hy2].
  pose proof (Hle x Hx1). pose proof (Hle y Hy1). pose proof (Hx2 y Hy1).
  replace (Rltb (Rabs x) (Rabs y)) with false; [reflexivity|]. symmetry. apply Rltb_false.
  rewrite (Rabs_left1 x), (Rabs_left1 y) by lra. lra.
Qed.

Lemma labels_in k n targets : forall t0 l, In l (labels_from k n targets t0) <->
  exists x q i j, nth_error targets x = Some q /\ (i < k)%nat /\ (j < n)%nat /\ l = ((t0 + x)%nat, q, i, j).
Proof.
  induction targets as [|d r IH]; intros t0 l; cbn [labels_from].
  - split; [intros []|]. intros (x & q & i & j & C & _). destruct x; discriminate.
  - rewrite in_app_iff, IH, in_flat_map. split.
    + intros [(i & Hi & Hx)|(x & q & i & j & Hx & Hi & Hj & ->)].
      * apply in_seq in Hi. apply in_map_iff in Hx. destruct Hx as (j & <- & Hj). apply in_seq in Hj.
        exists 0%nat, d, i, j. rewrite Nat.add_0_r. repeat split; lia.
      * exists (S x), q, i, j. repeat split; try assumption. f_equal. f_equal. f_equal. lia.
    + intros (x & q & i & j & Hx & Hi & Hj & ->). destruct x as [|x]; cbn [nth_error] in Hx.
      * left. injection Hx as ->. exists i. split; [apply in_seq; lia|]. apply in_map_iff. exists j. rewrite Nat.add_0_r.
        split; [reflexivity|apply in_seq; lia].
      * right. exists x, q, i, j. repeat split; try assumption. f_equal. f_equal. f_equal. lia.
Qed.

(** [rise i j t]: by how much the worse of the two refits of a cell raised Q. *)
Definition rise (base : R) (excluded : nat -> bool) (qi qd : nat -> nat -> nat -> R) (i j t : nat) : R :=
  if excluded j then 0 else Rmax 0 (Rmax (qi i j t - base) (qd i j t - base)).

Definition refits m k (W H : mat) base (xs q : nat -> nat -> nat -> R) : nat -> nat -> nat -> found_at :=
  fun i j t => found_of m k W H base i j (xs i j t) (Fin (q i j t)).

Lemma row_drop m k W H excluded base xi xd qi qd l :
  w_drop (row_at m k W H excluded (refits m k W H base xi qi) (refits m k W H base xd qd) l)
  = Fin (- rise base excluded qi qd (l_i l) (l_j l) (l_t l)).
Proof.
  unfold row_at, disp_row, rise. destruct (excluded (l_j l)); cbn [w_drop]; [f_equal; ring|].
  unfold refits, found_of. cbn [a_drop].
  destruct (C101_row base (Fin (qi (l_i l) (l_j l) (l_t l))) (Fin (qd (l_i l) (l_j l) (l_t l)))) as (_ & G & _).
  apply (G _ _ eq_refl eq_refl).
Qed.

Lemma rise_cases base excluded qi qd i j t : 0 <= rise base excluded qi qd i j t /\
  (excluded j = false -> qi i j t - base <= rise base excluded qi qd i j t /\ qd i j t - base <= rise base excluded qi qd i j t) /\
  (rise base excluded qi qd i j t = 0 \/
   (excluded j = false /\ (rise base excluded qi qd i j t = qi i j t - base \/ rise base excluded qi qd i j t = qd i j t - base))).
Proof.
  unfold rise. destruct (excluded j); [split; [lra|split; [discriminate|left; reflexivity]]|].
  pose proof (Rmax_l 0 (Rmax (qi i j t - base) (qd i j t - base))). pose proof (Rmax_r 0 (Rmax (qi i j t - base) (qd i j t - base))).
  pose proof (Rmax_l (qi i j t - base) (qd i j t - base)). pose proof (Rmax_r (qi i j t - base) (qd i j t - base)).
  split; [lra|]. split; [intros _; lra|].
  unfold Rmax at 1 3 5. destruct (Rle_dec 0 (Rmax (qi i j t - base) (qd i j t - base))); [|left; reflexivity].
  right. split; [reflexivity|]. unfold Rmax. destruct (Rle_dec _ _); auto.
Qed.

(** The number a displacement's summary logs as "Largest dQ Decrease" is minus the
    largest increase of Q, over every displaced cell, target and direction (0 if Q
    never increased). *)
Theorem C101_reported_number : forall m k n W H excluded targets base xi xd qi qd,
  (0 < k)%nat -> (0 < n)%nat -> targets <> [] ->
  let rows := disp_rows m k n W H excluded (refits m k W H base xi qi) (refits m k W H base xd qd) targets in
  exists M, largest_decrease rows = Fin (- M) /\ 0 <= M /\
    (forall i j t, (i < k)%nat -> (j < n)%nat -> (t < length targets)%nat -> excluded j = false ->
       qi i j t - base <= M /\ qd i j t - base <= M) /\
    (M = 0 \/ exists i j t, (i < k)%nat /\ (j < n)%nat /\ (t < length targets)%nat /\ excluded j = false /\
       (M = qi i j t - base \/ M = qd i j t - base)).
Proof.
  intros m k n W H excluded targets base xi xd qi qd Hk Hn Ht rows.
  set (labs := labels_from k n targets 0).
  set (R1 := fun l => rise base excluded qi qd (l_i l) (l_j l) (l_t l)).
  assert (Er : map w_drop rows = map Fin (map (fun l => - R1 l) labs)).
  { unfold rows, disp_rows. rewrite disp_rows_labels, !map_map. apply map_ext. intros l. apply row_drop. }
  assert (Hlab : forall i j t, (i < k)%nat -> (j < n)%nat -> (t < length targets)%nat -> exists q, In (t, q, i, j) labs).
  { intros i j t Hi Hj Htl. destruct (nth_error targets t) as [q|] eqn:Eq; [|apply nth_error_None in Eq; lia].
    exists q. apply labels_in. exists t, q, i, j. auto. }
  assert (Hlt : (0 < length targets)%nat) by (destruct targets; [congruence|cbn; lia]).
  destruct (largest_is_min rows (map (fun l => - R1 l) labs) Er) as (x & Ex & Hx1 & Hx2).
  { destruct (Hlab 0%nat 0%nat 0%nat Hk Hn Hlt) as [q Hq]. destruct labs; [destruct Hq|discriminate]. }
  { intros y Hy. apply in_map_iff in Hy. destruct Hy as (l & <- & _).
    destruct (rise_cases base excluded qi qd (l_i l) (l_j l) (l_t l)) as [G _]. unfold R1. lra. }
  exists (- x). rewrite Ropp_involutive. split; [exact Ex|].
  apply in_map_iff in Hx1. destruct Hx1 as (l & El & Hl).
  destruct (rise_cases base excluded qi qd (l_i l) (l_j l) (l_t l)) as (G0 & _ & G2). fold (R1 l) in G0, G2.
  split; [lra|]. split.
  - intros i j t Hi Hj Htl He. destruct (Hlab i j t Hi Hj Htl) as [q Hq].
    assert (Hle : x <= - R1 (t, q, i, j)) by (apply Hx2, in_map_iff; eexists; split; [reflexivity|exact Hq]).
    unfold R1, l_i, l_j, l_t in Hle. cbn [fst snd] in Hle.
    destruct (rise_cases base excluded qi qd i j t) as (_ & G & _). specialize (G He). lra.
  - destruct G2 as [G|[He G]]; [left; lra|right].
    apply labels_in in Hl. destruct Hl as (t & q & i & j & Eq & Hi & Hj & ->). cbn [Nat.add] in *.
    unfold R1, l_i, l_j, l_t in *. cbn [fst snd] in *. exists i, j, t.
    split; [exact Hi|]. split; [exact Hj|]. split; [apply nth_error_Some; rewrite Eq; discriminate|]. split; [exact He|].
    destruct G as [G|G]; [left|right]; lra.
Qed.
Print Assumptions C101_reported_number.

(** BS-DISP: the same over the runs its table is compiled from, and "# of Q drops"
    counts, among the runs 1 .. R'-1, those in which some refit raised Q. *)
Theorem C101_bsdisp_numbers : forall k n excluded targets ms Ws Hs bases xis xds qis qds R' f rest,
  (0 < k)%nat -> (0 < n)%nat -> targets <> [] -> Permutation (f :: rest) (seq 1 R') ->
  let incs r := refits (ms r) k (Ws r) (Hs r) (bases r) (xis r) (qis r) in
  let decs r := refits (ms r) k (Ws r) (Hs r) (bases r) (xds r) (qds r) in
  let rows := run_rows k n excluded targets ms Ws Hs incs decs in
  let used := f :: seq 1 (R' - 1) in
  let cell i j t := (i < k)%nat /\ (j < n)%nat /\ (t < length targets)%nat /\ excluded j = false in
  (exists M, largest_decrease (bsd_table k n excluded targets ms Ws Hs incs decs (f :: rest)) = Fin (- M) /\ 0 <= M /\
     (forall r i j t, In r used -> cell i j t -> qis r i j t - bases r <= M /\ qds r i j t - bases r <= M) /\
     (M = 0 \/ exists r i j t, In r used /\ cell i j t /\ (M = qis r i j t - bases r \/ M = qds r i j t - bases r))) /\
  (forall c : nat -> bool,
     (forall r, c r = true <-> exists i j t, cell i j t /\ (bases r < qis r i j t \/ bases r < qds r i j t)) ->
     n_drops (fun r x => drow_crow (nth x (rows r) d0)) (length (rows f)) (f :: rest)
     = length (filter c (seq 1 (R' - 1)))).
Proof.
  intros k n excluded targets ms Ws Hs bases xis xds qis qds R' f rest Hk Hn Ht Hp incs decs rows used cell.
  set (labs := labels_from k n targets 0).
  set (row := fun r l => row_at (ms r) k (Ws r) (Hs r) excluded (incs r) (decs r) l).
  set (R1 := fun r l => rise (bases r) excluded (qis r) (qds r) (l_i l) (l_j l) (l_t l)).
  assert (Hrows : forall r, rows r = map (row r) labs) by (intros r; apply disp_rows_labels).
  assert (Hdrop : forall r l, w_drop (row r l) = Fin (- R1 r l)) by (intros r l; apply row_drop).
  assert (Hlen : length (f :: rest) = R') by (rewrite (Permutation_length Hp); apply seq_length).
  assert (Hlab : forall i j t, cell i j t -> exists q, In (t, q, i, j) labs).
  { intros i j t (Hi & Hj & Htl & _). destruct (nth_error targets t) as [q|] eqn:Eq; [|apply nth_error_None in Eq; lia].
    exists q. apply labels_in. exists t, q, i, j. auto. }
  assert (Hlabs : labs <> []).
  { assert (Hlt : (0 < length targets)%nat) by (destruct targets; [congruence|cbn; lia]).
    destruct targets as [|q ts]; [congruence|]. assert (G : In (0%nat, q, 0%nat, 0%nat) labs).
    { apply labels_in. exists 0%nat, q, 0%nat, 0%nat. auto. } intros C. rewrite C in G. destruct G. }
  assert (HR1 : forall r l, 0 <= R1 r l) by (intros r l; apply rise_cases).
  split.
  - set (D := fun l => b_drop (compile_row (fun r (_ : nat) => drow_crow (row r l)) (f :: rest) 0)).
    assert (HD : forall l, is_min (D l) (map (fun r => - R1 r l) used)).
    { intros l. destruct (C40_compiled_ranges (fun r (_ : nat) => drow_crow (row r l)) R' f rest 0 Hp) as (_ & _ & _ & _ & G & _).
      unfold D, used. cbn [map]. cbn [drow_crow dQ_drop] in G. 
      assert (E : forall r, match w_drop (row r l) with Fin x => x | _ => 0 end = - R1 r l) by (intros r; rewrite Hdrop; reflexivity).
      rewrite E in G. rewrite (map_ext _ (fun r => - R1 r l) E) in G. exact G. }
    unfold bsd_table. fold rows. change (rows (keys0 (f :: rest))) with (rows (keys0 (f :: rest))).
    rewrite (bsd_rows_labels k n targets (f :: rest) d0 row) by exact Hrows. fold labs.
    set (trows := map _ labs).
    assert (Er : map w_drop trows = map Fin (map D labs)) by (unfold trows; rewrite !map_map; reflexivity).
    destruct (largest_is_min trows (map D labs) Er) as (x & Ex & Hx1 & Hx2).
    { destruct labs; [congruence|discriminate]. }
    { intros y Hy. apply in_map_iff in Hy. destruct Hy as (l & <- & _). destruct (HD l) as [G _].
      apply in_map_iff in G. destruct G as (r & <- & _). specialize (HR1 r l). lra. }
    exists (- x). rewrite Ropp_involutive. split; [exact Ex|].
    apply in_map_iff in Hx1. destruct Hx1 as (l & El & Hl). destruct (HD l) as [G _]. rewrite El in G.
    apply in_map_iff in G. destruct G as (r & Er' & Hr). specialize (HR1 r l) as H0. split; [lra|]. split.
    + intros r' i j t Hr' Hc. destruct (Hlab i j t Hc) as [q Hq].
      assert (Hle : x <= D (t, q, i, j)) by (apply Hx2, in_map_iff; eexists; split; [reflexivity|exact Hq]).
      destruct (HD (t, q, i, j)) as [_ G2].
      assert (Hle2 : D (t, q, i, j) <= - R1 r' (t, q, i, j)) by (apply G2, in_map_iff; eexists; split; [reflexivity|exact Hr']).
      unfold R1, l_i, l_j, l_t in Hle2. cbn [fst snd] in Hle2.
      destruct (rise_cases (bases r') excluded (qis r') (qds r') i j t) as (_ & G & _). destruct Hc as (_ & _ & _ & He). specialize (G He). lra.
    + destruct (rise_cases (bases r) excluded (qis r) (qds r) (l_i l) (l_j l) (l_t l)) as (_ & _ & G2). fold (R1 r l) in G2.
      destruct G2 as [G|[He G]]; [left; lra|right].
      apply labels_in in Hl. destruct Hl as (t & q & i & j & Eq & Hi & Hj & ->). cbn [Nat.add] in *.
      unfold R1, l_i, l_j, l_t in *. cbn [fst snd] in *. exists r, i, j, t. split; [exact Hr|].
      split; [repeat split; try assumption; apply nth_error_Some; rewrite Eq; discriminate|]. destruct G as [G|G]; [left|right]; lra.
  - intros c Hc. unfold n_drops, loop_keys. rewrite Hlen. f_equal. apply filter_ext. intros r.
    destruct (c r) eqn:Ec.
    + apply Hc in Ec. destruct Ec as (i & j & t & Hcell & Hq). destruct (Hlab i j t Hcell) as [q Hin].
      apply existsb_exists. apply (In_nth _ _ (0%nat, 0, 0%nat, 0%nat)) in Hin. destruct Hin as (x & Hx & Ex). exists x.
      split; [apply in_seq; rewrite Hrows, map_length; lia|].
      assert (En : nth x (rows r) d0 = row r (t, q, i, j)).
      { rewrite Hrows. rewrite (nth_indep _ d0 (row r (0%nat, 0, 0%nat, 0%nat))) by (rewrite map_length; exact Hx). rewrite map_nth, Ex. reflexivity. }
      rewrite En. cbn [drow_crow dQ_drop]. rewrite Hdrop. apply Rltb_iff. unfold R1, l_i, l_j, l_t. cbn [fst snd].
      destruct (rise_cases (bases r) excluded (qis r) (qds r) i j t) as (_ & G & _). destruct Hcell as (_ & _ & _ & He). specialize (G He). lra.
    + destruct (existsb _ _) eqn:Ee; [exfalso|reflexivity]. apply existsb_exists in Ee. destruct Ee as (x & Hx & Hlt).
      apply in_seq in Hx. rewrite Hrows, map_length in Hx.
      assert (En : nth x (rows r) d0 = row r (nth x labs (0%nat, 0, 0%nat, 0%nat))).
      { rewrite Hrows. rewrite (nth_indep _ d0 (row r (0%nat, 0, 0%nat, 0%nat))) by (rewrite map_length; lia). apply map_nth. }
      rewrite En in Hlt. cbn [drow_crow dQ_drop] in Hlt. rewrite Hdrop in Hlt. apply Rltb_iff in Hlt.
      set (l := nth x labs (0%nat, 0, 0%nat, 0%nat)) in *.
      assert (Hl : In l labs) by (apply nth_In; lia). apply labels_in in Hl. destruct Hl as (t & q & i & j & Eq & Hi & Hj & El). cbn [Nat.add] in El.
      rewrite El in Hlt. unfold R1, l_i, l_j, l_t in Hlt. cbn [fst snd] in Hlt.
      destruct (rise_cases (bases r) excluded (qis r) (qds r) i j t) as (_ & _ & [G|[He G]]); [lra|].
      assert (Hct : c r = true).
      { apply Hc. exists i, j, t. split; [repeat split; try assumption; apply nth_error_Some; rewrite Eq; discriminate|].
        destruct G as [G|G]; rewrite G in Hlt; [left|right]; lra. }
      congruence.
Qed.
Print Assumptions C101_bsdisp_numbers.
Example C101_reported_number_example :=
  C101_reported_number 1 1 2 xep_one xep_one xep_skip dQmax 20 (fun _ _ _ => 2) (fun _ _ _ => 1 / 2)
    (fun _ j _ => 25 + INR j) (fun _ _ _ => 20) ltac:(lia) ltac:(lia) ltac:(discriminate).
Example C101_bsdisp_numbers_example :=
  C101_bsdisp_numbers 1 2 xep_skip dQmax (fun _ => 1%nat) (fun _ => xep_one) (fun _ => xep_one) (fun r => 20 + INR r)
    (fun _ _ _ _ => 2) (fun _ _ _ _ => 1 / 2) (fun _ _ j _ => 25 + INR j) (fun _ _ _ _ => 20) 2 2 [1%nat]
    ltac:(lia) ltac:(lia) ltac:(discriminate) (proj1 (proj2 (proj2 (proj2 (proj2 (proj2 (proj2 C100_instance))))))).

(** One cell and one target: both refits lowered Q by 10 and 0 is reported; or one
    raised it by 5 and the other kept it, and the "decrease" reported is -5. *)
Theorem C101_largest_decrease_refuted :
  let one : mat := fun _ _ => 1 in
  let rows a b := disp_rows 1 1 1 one one (fun _ => false) (refits 1 1 one one 20 (fun _ _ _ => 2) (fun _ _ _ => a))
                                  (refits 1 1 one one 20 (fun _ _ _ => 1 / 2) (fun _ _ _ => b)) [4] in
  largest_decrease (rows 10 10) = Fin 0 /\ largest_decrease (rows 25 20) = Fin (-5).
Proof.
  intros one rows.
  assert (G : forall a b, exists M, largest_decrease (rows a b) = Fin (- M) /\ 0 <= M /\ (a - 20 <= M /\ b - 20 <= M) /\ (M = 0 \/ M = a - 20 \/ M = b - 20)).
  { intros a b. destruct (C101_reported_number 1 1 1 one one (fun _ => false) [4] 20 (fun _ _ _ => 2) (fun _ _ _ => 1 / 2) (fun _ _ _ => a) (fun _ _ _ => b))
      as (M & E & H0 & H1 & H2); try lia; try discriminate.
    exists M. split; [exact E|]. split; [exact H0|]. split; [apply (H1 0%nat 0%nat 0%nat); cbn; lia || reflexivity|].
    destruct H2 as [H2|(i & j & t & _ & _ & _ & _ & H2)]; tauto. }
  split.
  - destruct (G 10 10) as (M & -> & H0 & H1 & H2). f_equal. lra.
  - destruct (G 25 20) as (M & -> & H0 & H1 & H2). f_equal. lra.
Qed.
Print Assumptions C101_largest_decrease_refuted.

Example C101_instance : (0 < 2)%nat /\ dQmax <> [] /\ Permutation [3; 1; 2]%nat (seq 1 3) /\
  fsub (Fin 20) (Fin 25) = Fin (-5) /\ q_drop (Fin (-5)) (Fin 10) = Fin (-5).
Proof.
  split; [lia|]. split; [discriminate|]. split; [apply (Permutation_cons_append [1; 2]%nat 3%nat)|].
  split; [cbn; f_equal; lra|]. rewrite q_drop_fin. f_equal. rewrite (Rmax_left (- -5)), Rmax_right by lra. lra.
Qed.
