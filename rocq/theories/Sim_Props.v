(** C54, C78, C79: the simulator. *)
From Coq Require Import List Bool ZArith Reals Lra Lia.
From Flocq Require Import Core.
From Verif Require Import Base Fl Boot_Model Constr_Model Sim_Model.
Import ListNotations.
Local Open Scope R_scope.

Lemma tiny_pos : 0 < tiny. Proof. unfold tiny. lra. Qed.
Definition pos_fin (x : fl) : Prop := exists r, x = Fin r /\ 0 < r.

(** ** C54: data *)
Lemma positive_fin d : pos_fin (positive (Fin d)).
Proof.
  unfold positive. destruct (fle (Fin d) (Fin 0)) eqn:E.
  - exists tiny. split; [reflexivity|apply tiny_pos].
  - exists d. split; [reflexivity|]. cbn in E. apply Rleb_false in E. exact E.
Qed.

(** Whatever the draws, data and uncertainties are positive numbers, provided the
    outlier magnitude is not zero (or outliers are off). *)
Theorem C54_positive : forall (k : nat) (p : params) (W H : mat) (d : cell_draws) (t j : nat),
  outliers p = false \/ outlier_mag p <> 0 ->
  pos_fin (gen_data k p W H d t j) /\ pos_fin (gen_unc k p W H d t j).
Proof.
  intros k p W H d t j Hm.
  assert (A : pos_fin (gen_data k p W H d t j)).
  { unfold gen_data, data_cell. set (x := with_noise _ _ _). clearbody x. unfold with_outliers.
    destruct (outliers p) eqn:E; [|apply positive_fin]. destruct Hm as [Hm|Hm]; [discriminate|]. cbv zeta.
    destruct (Rleb (outlier_p p * (1 / 2)) (cd_outlier d t j)); [|apply positive_fin].
    cbn [fdiv]. destruct (Req_EM_T (outlier_mag p) 0); [contradiction|]. apply positive_fin. }
  split; [exact A|]. unfold gen_unc. destruct A as (r & -> & Hr). unfold unc_cell. cbn [fmul]. destruct (fle (Fin (r * cd_unc d t j)) (Fin 0)) eqn:E.
  - exists (/ 10000). split; [reflexivity|lra].
  - exists (r * cd_unc d t j). split; [reflexivity|]. cbn in E. apply Rleb_false in E. exact E.
Qed.
Print Assumptions C54_positive.
(** A magnitude of zero makes NaN of ordinary cells. *)
Theorem C54_positive_without_side_condition_refuted : exists (p : params) (W H : mat) (d : cell_draws),
  outlier_p p = 1 / 10 /\ mmul 1 W H 0%nat 0%nat = 1 /\ gen_data 1 p W H d 0 0 = NaN.
Proof.
  exists (mkParams true (1 / 10) 0), (fun _ _ => 1), (fun _ _ => 1), (mkCD (fun _ _ => 0) (fun _ _ => 0) (fun _ _ => 1 / 2) (fun _ _ => 0)).
  split; [reflexivity|]. split; [unfold mmul; cbn; lra|].
  unfold gen_data, data_cell, with_outliers. cbn [outliers outlier_p outlier_mag cd_noise cd_sign cd_outlier].
  rewrite (proj2 (Rleb_iff _ _)) by lra. rewrite (proj2 (Rleb_iff _ _)) by lra. rewrite Rmult_0_r. cbn [fdiv].
  destruct (Req_EM_T 0 0); [|contradiction]. unfold fsign. destruct (Rlt_dec 0 0); [lra|]. unfold inf_of_sign.
  destruct (Rlt_dec 0 0); [lra|]. reflexivity.
Qed.
Print Assumptions C54_positive_without_side_condition_refuted.

(** Which cells become outliers: exactly those with a draw below p/2 (multiplied)
    or above 1 - p/2 (divided). *)
Theorem C54_outliers : forall (p : params) (d om : R), outliers p = true -> 0 <= outlier_p p <= 1 -> outlier_mag p <> 0 ->
  (om < outlier_p p / 2 -> with_outliers p d om = Fin (d * outlier_mag p)) /\
  (1 - outlier_p p / 2 < om -> with_outliers p d om = Fin (d / outlier_mag p)) /\
  (outlier_p p / 2 <= om <= 1 - outlier_p p / 2 -> with_outliers p d om = Fin d).
Proof.
  intros p d om Ho Hp Hm. unfold with_outliers. rewrite Ho. cbv zeta. split; [|split]; intros H.
  - rewrite (proj2 (Rleb_iff om _)) by lra. rewrite (proj2 (Rleb_false _ om)) by lra. reflexivity.
  - rewrite (proj2 (Rleb_false om _)) by lra. rewrite (proj2 (Rleb_iff _ om)) by lra. cbn [fdiv]. destruct (Req_EM_T (outlier_mag p) 0); [contradiction|]. reflexivity.
  - rewrite (proj2 (Rleb_iff om _)) by lra. rewrite (proj2 (Rleb_iff _ om)) by lra. cbn [fdiv]. destruct (Req_EM_T (outlier_mag p) 0); [contradiction|]. f_equal. field. assumption.
Qed.
Print Assumptions C54_outliers.
Example C54_outliers_instance : with_outliers (mkParams true (1 / 10) 2) 3 (1 / 100) = Fin 6.
Proof.
  destruct (C54_outliers (mkParams true (1 / 10) 2) 3 (1 / 100)) as [H _]; cbn [outliers outlier_p outlier_mag]; [reflexivity|lra|lra|].
  rewrite H by (cbn; lra). cbn [outlier_mag]. f_equal. lra.
Qed.

(** A cell that is not an outlier deviates from the model by exactly the noise
    draw, in the direction of the sign draw, unless that makes it non-positive. *)
Theorem C54_noise : forall (k : nat) (p : params) (W H : mat) (d : cell_draws) (t j : nat),
  (outliers p = false \/ (0 <= outlier_p p <= 1 /\ outlier_mag p <> 0 /\ outlier_p p / 2 <= cd_outlier d t j <= 1 - outlier_p p / 2)) ->
  let wh := rsum k (fun f => W t f * H f j) in
  let v := wh * (1 + (if Rlt_dec (cd_sign d t j) (1 / 2) then - cd_noise d t j else cd_noise d t j)) in
  gen_data k p W H d t j = Fin (if Rlt_dec 0 v then v else / 1000000000000).
Proof.
  intros k p W H d t j Hc. cbv zeta. unfold gen_data, data_cell. fold (mmul k W H t j). set (wh := mmul k W H t j).
  assert (E : with_outliers p (with_noise wh (cd_noise d t j) (cd_sign d t j)) (cd_outlier d t j) = Fin (with_noise wh (cd_noise d t j) (cd_sign d t j))).
  { destruct Hc as [Hc|(H1 & H2 & H3)]; [unfold with_outliers; rewrite Hc; reflexivity|].
    destruct (outliers p) eqn:Eo; [|unfold with_outliers; rewrite Eo; reflexivity]. apply (C54_outliers p _ _ Eo H1 H2). exact H3. }
  rewrite E. unfold with_noise, positive. cbv zeta. cbn [fle].
  assert (V : wh + (if Rltb (cd_sign d t j) (1 / 2) then wh * cd_noise d t j * -1 else wh * cd_noise d t j) =
              wh * (1 + (if Rlt_dec (cd_sign d t j) (1 / 2) then - cd_noise d t j else cd_noise d t j))).
  { unfold Rltb. destruct (Rlt_dec (cd_sign d t j) (1 / 2)); ring. }
  rewrite V. destruct (Rlt_dec 0 _) as [Hl|Hl].
  - rewrite (proj2 (Rleb_false _ 0)) by exact Hl. reflexivity.
  - rewrite (proj2 (Rleb_iff _ 0)) by lra. reflexivity.
Qed.
Print Assumptions C54_noise.

(** The uncertainty is the data times the relative uncertainty drawn, or 1e-4. *)
Theorem C54_uncertainty : forall (k : nat) (p : params) (W H : mat) (d : cell_draws) (t j : nat),
  outliers p = false \/ outlier_mag p <> 0 ->
  exists v, gen_data k p W H d t j = Fin v /\ gen_unc k p W H d t j = Fin (if Rlt_dec 0 (cd_unc d t j) then v * cd_unc d t j else / 10000).
Proof.
  intros k p W H d t j Hm. destruct (C54_positive k p W H d t j Hm) as [(v & Ev & Hv) _]. exists v. split; [exact Ev|].
  unfold gen_unc, unc_cell. rewrite Ev. cbn [fmul fle]. destruct (Rlt_dec 0 (cd_unc d t j)) as [Hu|Hu].
  - rewrite (proj2 (Rleb_false _ 0)) by (apply Rmult_lt_0_compat; assumption). reflexivity.
  - rewrite (proj2 (Rleb_iff _ 0)); [reflexivity|]. rewrite <- (Rmult_0_r v). apply Rmult_le_compat_l; lra.
Qed.
Print Assumptions C54_uncertainty.
(* one factor, one sample of one feature, with outliers *)
Definition xsi_p : params := mkParams true (1 / 10) 2.
Definition xsi_one : mat := fun _ _ => 1.
Definition xsi_d : cell_draws := mkCD (fun _ _ => 3 / 4) (fun _ _ => 1 / 10) (fun _ _ => 1 / 2) (fun _ _ => 1 / 20).
Example C54_positive_example := C54_positive 1 xsi_p xsi_one xsi_one xsi_d 0 0 ltac:(right; cbn; lra).
Example C54_outliers_example : with_outliers xsi_p 3 (99 / 100) = Fin (3 / 2).
Proof. refine (proj1 (proj2 (C54_outliers xsi_p 3 (99 / 100) eq_refl _ _)) _); cbn; lra. Qed.
Example C54_noise_example := C54_noise 1 xsi_p xsi_one xsi_one xsi_d 0 0 ltac:(right; cbn; repeat split; lra).
Example C54_uncertainty_example := C54_uncertainty 1 xsi_p xsi_one xsi_one xsi_d 0 0 ltac:(right; cbn; lra).

(** ** C79: profiles and time steps *)
Lemma clamp_tiny_pos P f i : 0 < clamp_tiny P f i.
Proof. unfold clamp_tiny. destruct (Rleb (P f i) 0) eqn:E; [apply tiny_pos|apply Rleb_false in E; exact E]. Qed.
Lemma assign_out l v f : forall q, ~ In f l -> assign_from l v q f = 0.
Proof. induction l as [|c l IH]; intros q H; cbn; [reflexivity|]. destruct (c =? f)%nat eqn:E; [apply Nat.eqb_eq in E; subst; exfalso; apply H; left; reflexivity|]. apply IH. intros G. apply H. right. exact G. Qed.
Lemma assign_in l v f : forall q, In f l -> exists r, assign_from l v q f = v r.
Proof.
  induction l as [|c l IH]; intros q H; [destruct H|]. cbn. destruct (c =? f)%nat eqn:E; [exists q; reflexivity|].
  destruct H as [->|H]; [apply Nat.eqb_neq in E; contradiction|]. apply IH, H.
Qed.

(** Whatever was asked for, profiles are positive; random ones are below one, and
    for every feature at least one factor and not all factors contribute. *)
Theorem C79_profiles_positive : forall (k n : nat) (d : profile_draws) (c : option custom) (P : mat),
  generate_profiles k n d c = Ok P -> forall f i, 0 < P f i.
Proof.
  intros k n d c P. unfold generate_profiles. destruct c as [c|].
  - destruct ((cu_rows c =? k) && (cu_cols c =? n))%nat; [intros [= <-] f i; apply clamp_tiny_pos|].
    destruct (random_profiles k n d); [|discriminate]. destruct (overlay k n c a); [|discriminate]. intros [= <-] f i. apply clamp_tiny_pos.
  - destruct (random_profiles k n d); [|discriminate]. intros [= <-] f i. apply clamp_tiny_pos.
Qed.
Print Assumptions C79_profiles_positive.

Theorem C79_random_profiles : forall (k n : nat) (d : profile_draws) (i : nat), pd_ok k n d -> (i < n)%nat ->
  exists P, generate_profiles k n d None = Ok P /\
    (forall f, (f < k)%nat -> P f i < 1) /\
    (exists l, NoDup l /\ (1 <= List.length l < k)%nat /\ (forall f, In f l -> (f < k)%nat) /\
       (forall f, (f < k)%nat -> ~ In f l -> P f i = / 1000000000000)) /\
    (exists f, (f < k)%nat /\ P f i = / 1000000000000).
Proof.
  intros k n d i Hd Hi. destruct (Hd i Hi) as (Hc & Hl & Hn & Hr & Hv). unfold generate_profiles, random_profiles.
  replace ((0 <? n) && (k <=? 1))%nat with false.
  2:{ symmetry. apply andb_false_iff. right. apply Nat.leb_gt. lia. }
  eexists. split; [reflexivity|]. assert (B : forall f, ~ In f (pd_chosen d i) -> clamp_tiny (fun f i => assign_from (pd_chosen d i) (pd_value d i) 0 f) f i = / 1000000000000).
  { intros f Hf. unfold clamp_tiny. rewrite assign_out by exact Hf. rewrite (proj2 (Rleb_iff 0 0)) by lra. reflexivity. }
  split; [|split].
  - intros f _. destruct (in_dec Nat.eq_dec f (pd_chosen d i)) as [Hf|Hf]; [|rewrite B by exact Hf; lra].
    unfold clamp_tiny. destruct (assign_in _ (pd_value d i) f 0%nat Hf) as [r ->]. destruct (Rleb _ 0); [unfold tiny; lra|]. apply Hv.
  - exists (pd_chosen d i). split; [exact Hn|]. split; [lia|]. split; [exact Hr|]. intros f _ Hf. apply B, Hf.
  - assert (G : exists f, In f (seq 0 k) /\ ~ In f (pd_chosen d i)).
    { assert (D : {f | In f (seq 0 k) /\ ~ In f (pd_chosen d i)} + {forall f, In f (seq 0 k) -> In f (pd_chosen d i)}).
      { clear - d. generalize (seq 0 k) as L. induction L as [|a L IH]; [right; intros ? []|]. destruct (in_dec Nat.eq_dec a (pd_chosen d i)) as [H|H].
        - destruct IH as [(f & Hf & Hn)|IH]; [left; exists f; split; [right; exact Hf|exact Hn]|]. right. intros f [->|Hf]; [exact H|apply IH, Hf].
        - left. exists a. split; [left; reflexivity|exact H]. }
      destruct D as [(f & H)|D]; [exists f; exact H|]. exfalso. pose proof (NoDup_incl_length (seq_NoDup k 0) D) as L. rewrite seq_length in L. lia. }
    destruct G as (f & Hf & Hnf). exists f. split; [apply in_seq in Hf; lia|]. apply B, Hnf.
Qed.
Print Assumptions C79_random_profiles.
Example C79_instance : pd_ok 2 1 (mkPD (fun _ => 1%nat) (fun _ => [1%nat]) (fun _ _ => 1 / 2)).
Proof.
  intros i Hi. cbn. split; [lia|]. split; [reflexivity|]. split; [repeat constructor; intros []|]. split; [intros f [<-|[]]; lia|]. intros. lra.
Qed.

(** A simulator with a single factor cannot be created: the random profiles drawn
    first ask for a number of factors between 1 and 0. *)
Theorem C79_one_factor_raises : forall (k n : nat) (d : profile_draws), (k <= 1)%nat -> (0 < n)%nat -> generate_profiles k n d None = Raise ValueError.
Proof.
  intros k n d Hk Hn. unfold generate_profiles, random_profiles. rewrite (proj2 (Nat.ltb_lt 0 n) Hn), (proj2 (Nat.leb_le k 1) Hk). reflexivity.
Qed.
Print Assumptions C79_one_factor_raises.
Definition xsi_pd : profile_draws := mkPD (fun _ => 1%nat) (fun _ => [1%nat]) (fun _ _ => 1 / 2).
Example C79_random_profiles_example := C79_random_profiles 2 1 xsi_pd 0 C79_instance ltac:(lia).
Example C79_profiles_positive_example : exists P, generate_profiles 2 1 xsi_pd None = Ok P /\ 0 < P 0%nat 0%nat.
Proof. destruct C79_random_profiles_example as (P & E & _). exists P. split; [exact E | exact (C79_profiles_positive _ _ _ _ _ E _ _)]. Qed.
Example C79_one_factor_raises_example := C79_one_factor_raises 1 2 xsi_pd ltac:(lia) ltac:(lia).

(** Custom profiles: a matrix of the right shape is used as is, except that
    non-positive cells become 1e-12; fewer rows replace the first rows, a single
    column is repeated over the features; everything else raises. *)
Theorem C79_custom_profiles : forall (k n : nat) (d : profile_draws) (c : custom), (1 < k)%nat -> (0 < cu_rows c)%nat ->
  let fix_up x := if Rlt_dec 0 x then x else / 1000000000000 in
  match generate_profiles k n d (Some c) with
  | Ok P => (cu_rows c <= k)%nat /\ (cu_cols c = n \/ cu_cols c = 1%nat) /\
      (forall f i, (f < cu_rows c)%nat -> (i < n)%nat -> P f i = fix_up (cu_val c f (if (cu_cols c =? n)%nat then i else 0%nat))) /\
      (forall f i P0, (cu_rows c <= f < k)%nat -> (i < n)%nat -> generate_profiles k n d None = Ok P0 -> P f i = P0 f i)
  | Raise e => (k < cu_rows c)%nat \/ (cu_cols c <> n /\ cu_cols c <> 1%nat)
  end.
Proof.
  intros k n d c Hk Hr. cbv zeta.
  assert (F : forall x, (if Rleb x 0 then tiny else x) = if Rlt_dec 0 x then x else / 1000000000000).
  { intros x. destruct (Rlt_dec 0 x); [rewrite (proj2 (Rleb_false x 0)) by assumption; reflexivity|rewrite (proj2 (Rleb_iff x 0)) by lra; reflexivity]. }
  unfold generate_profiles. destruct ((cu_rows c =? k) && (cu_cols c =? n))%nat eqn:E.
  - apply andb_true_iff in E. destruct E as [E1 E2]. apply Nat.eqb_eq in E1. split; [lia|]. split; [left; apply Nat.eqb_eq, E2|].
    split; [|intros; lia]. intros f i _ _. rewrite E2. unfold clamp_tiny. apply F.
  - unfold random_profiles. rewrite (proj2 (Nat.leb_gt k 1) Hk), andb_false_r. unfold overlay.
    destruct (cu_rows c =? 0)%nat eqn:E0; [apply Nat.eqb_eq in E0; lia|]. destruct (k =? 0)%nat eqn:Ek; [apply Nat.eqb_eq in Ek; lia|].
    destruct ((cu_cols c =? n) || (cu_cols c =? 1))%nat eqn:Ec; cbn [negb].
    + destruct (k <? cu_rows c)%nat eqn:Er; [left; apply Nat.ltb_lt, Er|]. apply Nat.ltb_ge in Er. split; [exact Er|].
      split; [apply orb_true_iff in Ec; rewrite !Nat.eqb_eq in Ec; exact Ec|]. split.
      * intros f i Hf _. unfold clamp_tiny. rewrite (proj2 (Nat.ltb_lt f (cu_rows c)) Hf). apply F.
      * intros f i P0 Hf _ [= <-]. unfold clamp_tiny. rewrite (proj2 (Nat.ltb_ge f (cu_rows c))) by lia. reflexivity.
    + right. apply orb_false_iff in Ec. rewrite !Nat.eqb_neq in Ec. exact Ec.
Qed.
Print Assumptions C79_custom_profiles.
Example C79_custom_profiles_example := C79_custom_profiles 2 3 xsi_pd (mkCustom 1 1 (fun _ _ => 5)) ltac:(lia) ltac:(cbn; lia).
Example C79_custom_instance : exists P, generate_profiles 2 1 (mkPD (fun _ => 1%nat) (fun _ => [1%nat]) (fun _ _ => 1 / 2)) (Some (mkCustom 1 1 (fun _ _ => 5))) = Ok P /\ P 0%nat 0%nat = 5 /\ P 1%nat 0%nat = 1 / 2.
Proof.
  eexists. split; [reflexivity|]. unfold clamp_tiny. cbn. rewrite !(proj2 (Rleb_false _ 0)) by lra. split; reflexivity.
Qed.

(** Time steps: for every time of day and clock reading there is exactly one per
    sample, a minute apart, the last one within the minute before midnight. *)
Theorem C79_time_steps : forall (now1 now2 : Z) (N : nat), (now1 <= now2)%Z ->
  let l := time_steps now1 now2 N in
  List.length l = N /\
  (forall q a b, nth_error l q = Some a -> nth_error l (S q) = Some b -> (b = a + 60000000)%Z) /\
  (forall a, (0 < N)%nat -> nth_error l (N - 1) = Some a -> (now2 / 86400000000 * 86400000000 - 60000000 < a <= now2 / 86400000000 * 86400000000)%Z).
Proof.
  intros now1 now2 N Hn. cbv zeta. change 86400000000%Z with day. change 60000000%Z with minute. unfold time_steps. cbv zeta.
  set (start := (now1 - day - Z.of_nat N * minute)%Z). set (stop := (now2 / day * day)%Z).
  assert (Hd : (0 < day)%Z) by reflexivity. assert (Hmin : (0 < minute)%Z) by reflexivity.
  assert (Hs : (start + Z.of_nat N * minute < stop)%Z).
  { unfold start, stop. pose proof (Z.mod_pos_bound now2 day Hd) as HB. pose proof (Z.div_mod now2 day ltac:(lia)) as HE. lia. }
  assert (Hss : (start < stop)%Z) by (pose proof (Zle_0_nat N); nia).
  unfold date_range. rewrite (proj2 (Z.ltb_ge stop start)) by lia.
  set (c := Z.to_nat ((stop - start) / minute + 1)).
  assert (Hc : (Z.of_nat N < Z.of_nat c)%Z).
  { unfold c. rewrite Z2Nat.id by (apply Z.add_nonneg_nonneg; [apply Z.div_pos; lia|lia]).
    assert (Z.of_nat N <= (stop - start) / minute)%Z; [|lia]. apply Z.div_le_lower_bound; [exact Hmin|]. lia. }
  set (g := fun q => (start + Z.of_nat q * minute)%Z).
  assert (HL : List.length (map g (seq 0 c)) = c) by (rewrite map_length, seq_length; reflexivity).
  rewrite HL. unfold slice_from. rewrite (proj2 (Z.ltb_ge _ 0)) by lia. set (s := Z.to_nat (Z.of_nat c - Z.of_nat N)).
  assert (Es : s = (c - N)%nat) by (unfold s; lia). clearbody s. subst s.
  assert (NTH : forall q a, nth_error (skipn (c - N) (map g (seq 0 c))) q = Some a -> (q < N)%nat /\ a = g (c - N + q)%nat).
  { intros q a Hq. assert (Hlt : (q < N)%nat).
    { assert (q < List.length (skipn (c - N) (map g (seq 0 c))))%nat by (apply nth_error_Some; congruence). rewrite skipn_length, HL in H. lia. }
    split; [exact Hlt|]. rewrite <- (firstn_skipn (c - N) (map g (seq 0 c))) in HL.
    assert (Hk : nth_error (map g (seq 0 c)) (c - N + q) = Some a).
    { rewrite <- (firstn_skipn (c - N) (map g (seq 0 c))). rewrite nth_error_app2; rewrite firstn_length, map_length, seq_length; [|lia].
      replace (c - N + q - Nat.min (c - N) c)%nat with q by lia. exact Hq. }
    rewrite nth_error_map in Hk. destruct (nth_error (seq 0 c) (c - N + q)) eqn:En; [|discriminate]. cbn in Hk. injection Hk as <-.
    apply nth_error_nth with (d := 0%nat) in En. rewrite seq_nth in En by lia. cbn in En. subst. reflexivity. }
  split; [|split].
  - rewrite skipn_length, HL. lia.
  - intros q a b Ha Hb. apply NTH in Ha, Hb. destruct Ha as [_ ->], Hb as [_ ->]. unfold g. lia.
  - intros a HN Ha. apply NTH in Ha. destruct Ha as [_ ->]. unfold g. replace (c - N + (N - 1))%nat with (c - 1)%nat by lia.
    pose proof (Z.mod_pos_bound (stop - start) minute Hmin). pose proof (Z.div_mod (stop - start) minute ltac:(lia)).
    assert (Z.of_nat (c - 1) = (stop - start) / minute)%Z. { unfold c. rewrite Nat2Z.inj_sub by lia. rewrite Z2Nat.id by (apply Z.add_nonneg_nonneg; [apply Z.div_pos; lia|lia]). lia. }
    rewrite H1. lia.
Qed.
Print Assumptions C79_time_steps.
Example C79_time_steps_example := C79_time_steps 1700000000000000 1700000000000009 5 ltac:(lia).

(** The comparison plots cannot show the first model of the batch unless it is
    the best one: index 0 counts as not given. *)
Theorem C79_plot_model : forall (model_i : option Z) (best : Z), shown_model model_i best = 0%Z -> best = 0%Z.
Proof. intros [z|] best; cbn; [|auto]. destruct (Z.eqb_spec z 0); congruence. Qed.
Print Assumptions C79_plot_model.
Example C79_plot_model_example := C79_plot_model (Some 0%Z) 0 eq_refl.
Theorem C79_selected_model_plotted_refuted : exists (model_i best : Z), shown_model (Some model_i) best <> model_i.
Proof. exists 0%Z, 3%Z. discriminate. Qed.
Print Assumptions C79_selected_model_plotted_refuted.

(** ** C78: contribution curves *)
Lemma nth_map_seq (f : nat -> R) n t : (t < n)%nat -> nth t (map f (seq 0 n)) 0 = f t.
Proof. intros Ht. rewrite (nth_indep _ 0 (f 0%nat)) by (rewrite map_length, seq_length; exact Ht). rewrite map_nth, seq_nth by exact Ht. reflexivity. Qed.
Lemma linspace_spec a b num : (0 <= num)%Z -> exists l, linspace a b num = Ok l /\ List.length l = Z.to_nat num /\
  (forall t, (t < Z.to_nat num)%nat -> nth t l 0 = a + INR t * ((b - a) / IZR (Z.max 1 (num - 1)))).
Proof.
  intros H. unfold linspace. rewrite (proj2 (Z.ltb_ge num 0)) by exact H. eexists. split; [reflexivity|]. rewrite map_length, seq_length. split; [reflexivity|].
  intros t Ht. exact (nth_map_seq (fun t => a + INR t * ((b - a) / IZR (Z.max 1 (num - 1)))) _ _ Ht).
Qed.
Lemma linspace_neg a b num : (num < 0)%Z -> linspace a b num = Raise ValueError.
Proof. intros H. unfold linspace. rewrite (proj2 (Z.ltb_lt num 0) H). reflexivity. Qed.
(** A point of an evenly spaced list lies between its ends. *)
Lemma linspace_point a b num t : (0 <= num)%Z -> (t < Z.to_nat num)%nat -> let x := a + INR t * ((b - a) / IZR (Z.max 1 (num - 1))) in
  Rmin a b <= x <= Rmax a b.
Proof.
  intros H Ht. cbv zeta. set (q := INR t / IZR (Z.max 1 (num - 1))). assert (Hp : 0 < IZR (Z.max 1 (num - 1))) by (apply IZR_lt; lia).
  assert (Hq : 0 <= q <= 1).
  { unfold q. split; [apply Rmult_le_pos; [apply pos_INR|left; apply Rinv_0_lt_compat, Hp]|].
    apply (Rmult_le_reg_r (IZR (Z.max 1 (num - 1)))); [exact Hp|]. unfold Rdiv. rewrite Rmult_assoc, Rinv_l, Rmult_1_r, Rmult_1_l by lra.
    rewrite INR_IZR_INZ. apply IZR_le. lia. }
  replace (a + INR t * ((b - a) / IZR (Z.max 1 (num - 1)))) with (a + q * (b - a)) by (unfold q; field; lra).
  unfold Rmin, Rmax. destruct (Rle_dec a b); nra.
Qed.

Lemma concat_ok {A} (f : A -> res (list R)) (len : A -> nat) l : (forall i, In i l -> exists a, f i = Ok a /\ List.length a = len i) ->
  exists xs, concat_res (map f l) = Ok xs /\ List.length xs = list_sum (map len l).
Proof.
  induction l as [|i l IH]; intros H; [exists []; split; reflexivity|]. destruct (H i) as (a & Ea & La); [left; reflexivity|].
  destruct IH as (xs & Ex & Lx); [intros q Hq; apply H; right; exact Hq|]. exists (a ++ xs)%list. cbn. rewrite Ea. cbn. rewrite Ex. cbn. rewrite app_length, La, Lx. auto.
Qed.
Lemma concat_raise {A} (f : A -> res (list R)) l i e : In i l -> f i = Raise e -> forall xs, concat_res (map f l) <> Ok xs.
Proof.
  induction l as [|c l IH]; intros Hi Hf xs; [destruct Hi|]. cbn. destruct Hi as [->|Hi]; [rewrite Hf; discriminate|].
  destruct (f c); [|discriminate]. cbn. destruct (concat_res (map f l)) as [b|] eqn:E; [|discriminate]. exfalso. exact (IH Hi Hf b eq_refl).
Qed.
Lemma list_sum_const c l : list_sum (map (fun _ : nat => c) l) = (c * List.length l)%nat.
Proof. induction l as [|x l IH]; [cbn; lia|]. change (c + list_sum (map (fun _ : nat => c) l) = c * S (List.length l))%nat. rewrite IH. lia. Qed.

Lemma logistic_x_ok N np : (0 <= N)%Z -> (2 <= np)%Z -> exists xs, logistic_x N np = Ok xs /\ (Z.to_nat N <= List.length xs)%nat.
Proof.
  intros HN Hp. unfold logistic_x. rewrite (proj2 (Z.leb_gt (np + 1) 0)) by lia.
  set (s := Z.quot N np). assert (Hs : (0 <= s)%Z) by (apply Z.quot_pos; lia).
  assert (Hs2 : (np * s <= N)%Z) by (apply Z.mul_quot_le; lia).
  destruct (concat_ok (logistic_segment N np) (fun i => if (Z.of_nat i =? np)%Z then Z.to_nat (N - 2 * s) else Z.to_nat s) (seq 0 (Z.to_nat (np + 1)))) as (xs & E & L).
  { intros i Hi. unfold logistic_segment, int_div. rewrite (proj2 (Z.eqb_neq np 0)) by lia. cbn [bind]. fold s.
    destruct (Z.of_nat i =? np)%Z; destruct (Nat.even i);
      [destruct (linspace_spec (-100) 100 (N - 2 * s)) as (l & E & L & _)|destruct (linspace_spec 100 (-100) (N - 2 * s)) as (l & E & L & _)|
       destruct (linspace_spec (-100) 100 s) as (l & E & L & _)|destruct (linspace_spec 100 (-100) s) as (l & E & L & _)]; try nia; exists l; auto. }
  exists xs. split; [exact E|]. rewrite L. replace (Z.to_nat (np + 1)) with (S (Z.to_nat np)) by lia. rewrite seq_S, map_app, list_sum_app. cbn [map list_sum fold_right].
  replace (Z.of_nat (0 + Z.to_nat np) =? np)%Z with true by (symmetry; apply Z.eqb_eq; lia).
  rewrite (map_ext_in _ (fun _ => Z.to_nat s)).
  2:{ intros i Hi. apply in_seq in Hi. replace (Z.of_nat i =? np)%Z with false by (symmetry; apply Z.eqb_neq; lia). reflexivity. }
  rewrite list_sum_const, seq_length. nia.
Qed.
Lemma logistic_x_bad N np : (0 < N)%Z -> (np <= 1)%Z -> forall xs, logistic_x N np <> Ok xs.
Proof.
  intros HN Hp xs. unfold logistic_x. destruct (np + 1 <=? 0)%Z eqn:E; [discriminate|]. apply Z.leb_gt in E.
  assert (D : np = 0%Z \/ np = 1%Z) by lia. destruct D as [-> | ->].
  - apply (concat_raise (logistic_segment N 0) _ 0%nat ZeroDivisionError); [left; reflexivity|reflexivity].
  - apply (concat_raise (logistic_segment N 1) _ 1%nat ValueError); [right; left; reflexivity|].
    unfold logistic_segment, int_div. cbn [Z.eqb bind Z.of_nat Pos.of_succ_nat Pos.eqb Nat.even]. apply linspace_neg. rewrite Z.quot_1_r. lia.
Qed.

Lemma tile_length {A} (l : list A) q : List.length (tile l q) = (List.length l * q)%nat.
Proof. induction q as [|q IH]; cbn; [lia|]. rewrite app_length, IH. lia. Qed.
Lemma lmin_spec l : forall x, lmin x l <= x /\ (forall y, In y l -> lmin x l <= y) /\ (lmin x l = x \/ In (lmin x l) l).
Proof.
  induction l as [|z l IH]; intros x; cbn [lmin].
  - split; [lra|]. split; [intros ? []|left; reflexivity].
  - destruct (IH (Rmin x z)) as (H1 & H2 & H3). pose proof (Rmin_l x z). pose proof (Rmin_r x z). split; [lra|]. split.
    + intros y [<-|Hy]; [lra|apply H2, Hy].
    + destruct H3 as [H3|H3]; [|right; right; exact H3]. rewrite H3. unfold Rmin. destruct (Rle_dec x z); [left; reflexivity|right; left; reflexivity].
Qed.

(** The number of points the periodic curve has before it is cut. *)
Definition periodic_points (N : nat) (np : Z) : Z := ((Z.of_nat N / np - 1) * (np + 1))%Z.
Lemma periodic_spec N np mn mx : (0 < N)%nat -> mn <= mx ->
  (forall l, periodic N np mn mx = Ok l -> (forall y, In y l -> mn <= y <= mx) /\ In mn l) /\
  ((exists l, periodic N np mn mx = Ok l /\ List.length l = N) <-> (1 <= np)%Z /\ (Z.of_nat N <= periodic_points N np)%Z) /\
  (forall l, periodic N np mn mx = Ok l -> List.length l = 1%nat -> N = 1%nat).
Proof.
  intros HN Hle.
  assert (K : forall l, periodic N np mn mx = Ok l -> (forall y, In y l -> mn <= y <= mx) /\ In mn l /\
     (1 <= np)%Z /\ (2 <= Z.of_nat N / np)%Z /\ List.length l = Nat.min N (Z.to_nat (periodic_points N np))).
  { intros l. unfold periodic, int_div. destruct (np =? 0)%Z eqn:E0; [discriminate|]. apply Z.eqb_neq in E0. cbn [bind].
    set (s := Z.quot (Z.of_nat N) np). destruct (Z_lt_le_dec s 0) as [Hs|Hs]; [rewrite linspace_neg by exact Hs; discriminate|].
    destruct (linspace_spec (- PI) PI s Hs) as (a & -> & La & Na). cbn [bind]. cbv zeta.
    set (pts := firstn N (tile (firstn (List.length a - 1) a) (Z.to_nat (np + 1)))).
    destruct (map (fun x => sin x * ((mx - mn) / 2)) pts) as [|y0 t] eqn:Ey; [discriminate|]. intros [= <-].
    assert (Lp : List.length pts = Nat.min N ((Z.to_nat s - 1) * Z.to_nat (np + 1))).
    { unfold pts. rewrite firstn_length, tile_length, firstn_length, La. f_equal. f_equal. lia. }
    assert (Lpos : (0 < List.length pts)%nat) by (rewrite <- (map_length (fun x => sin x * ((mx - mn) / 2))), Ey; cbn; lia).
    assert (Hnp : (1 <= np)%Z).
    { destruct (Z_lt_le_dec np 1); [|lia]. exfalso. replace (Z.to_nat (np + 1)) with 0%nat in Lp by lia. rewrite Nat.mul_0_r, Nat.min_0_r in Lp. lia. }
    assert (Hs2 : (2 <= s)%Z) by nia. assert (Es : s = (Z.of_nat N / np)%Z) by (unfold s; apply Z.quot_div_nonneg; lia).
    set (h := (mx - mn) / 2). assert (Hh : 0 <= h) by (unfold h; lra).
    assert (HB : forall v, In v (y0 :: t) -> - h <= v <= h).
    { intros v Hv. rewrite <- Ey in Hv. apply in_map_iff in Hv. destruct Hv as (x & <- & _). pose proof (SIN_bound x). fold h. nra. }
    destruct (lmin_spec t y0) as (M1 & M2 & M3). set (m := lmin y0 t) in *.
    assert (Hm : In m (y0 :: t)) by (destruct M3 as [M3|M3]; [left; symmetry; exact M3|right; exact M3]).
    assert (Hmin : forall v, In v (y0 :: t) -> m <= v) by (intros v [<-|Hv]; [exact M1|apply M2, Hv]).
    assert (Habs : m <= 0 -> Rabs m = - m) by (intros; apply Rabs_left1; assumption).
    assert (Hy0 : y0 = 0).
    { assert (E : nth 0 (map (fun x => sin x * ((mx - mn) / 2)) pts) 0 = y0) by (rewrite Ey; reflexivity).
      assert (EP : exists r, pts = (- PI) :: r).
      { unfold pts. specialize (Na 0%nat ltac:(lia)). rewrite Rmult_0_l, Rplus_0_r in Na. destruct a as [|a0 a]; [cbn in La; lia|]. cbn in Na. subst a0.
        destruct N as [|N']; [lia|]. replace (Z.to_nat (np + 1)) with (S (Z.to_nat np)) by lia. cbn [tile List.length Nat.sub].
        destruct a as [|a1 a]; [cbn in La; lia|]. cbn [List.length Nat.sub firstn app]. eexists. reflexivity. }
      destruct EP as (r & EP). rewrite EP in E. cbn in E. rewrite <- E. rewrite sin_neg, sin_PI. ring. }
    assert (Hm0 : m <= 0) by (rewrite <- Hy0; exact M1). split; [|split; [|split; [exact Hnp|split; [lia|]]]].
    - intros y Hy. change (In y (map (fun v => v + Rabs m + mn) (y0 :: t))) in Hy. apply in_map_iff in Hy. destruct Hy as (v & <- & Hv). rewrite Habs by exact Hm0.
      specialize (HB v Hv). specialize (Hmin v Hv). pose proof (Hm' := Hm). assert (- h <= m <= h).
      { apply (HB) || idtac. rewrite <- Ey in Hm. apply in_map_iff in Hm. destruct Hm as (x & Hx & _). rewrite <- Hx. pose proof (SIN_bound x). fold h. nra. }
      unfold h in *. lra.
    - change (In mn (map (fun v => v + Rabs m + mn) (y0 :: t))). apply in_map_iff. exists m. split; [|exact Hm]. rewrite Habs by exact Hm0. ring.
    - change (List.length (map (fun v => v + Rabs m + mn) (y0 :: t)) = Nat.min N (Z.to_nat (periodic_points N np))). rewrite map_length, <- Ey, map_length, Lp. f_equal. unfold periodic_points. rewrite <- Es. nia. }
  split; [|split].
  - intros l E. destruct (K l E) as (H1 & H2 & _). auto.
  - split.
    + intros (l & E & L). destruct (K l E) as (_ & _ & H1 & H2 & H3). split; [exact H1|]. rewrite L in H3. lia.
    + intros (H1 & H2).
      assert (Hs : (2 <= Z.of_nat N / np)%Z). { unfold periodic_points in H2. destruct (Z_le_gt_dec 2 (Z.of_nat N / np)); [assumption|]. exfalso. nia. }
      assert (EX : exists l, periodic N np mn mx = Ok l).
      { unfold periodic, int_div. rewrite (proj2 (Z.eqb_neq np 0)) by lia. cbn [bind]. rewrite Z.quot_div_nonneg by lia.
        destruct (linspace_spec (- PI) PI (Z.of_nat N / np) ltac:(lia)) as (a & -> & La & _). cbn [bind]. cbv zeta.
        destruct (map _ (firstn N (tile (firstn (List.length a - 1) a) (Z.to_nat (np + 1))))) as [|y0 t] eqn:E; [|eexists; reflexivity].
        exfalso. apply (f_equal (@List.length R)) in E. rewrite map_length, firstn_length, tile_length, firstn_length, La in E. cbn in E. unfold periodic_points in H2. nia. }
      destruct EX as (l & E). exists l. split; [exact E|]. destruct (K l E) as (_ & _ & _ & _ & H3). rewrite H3. lia.
  - intros l E L. destruct (K l E) as (_ & _ & H1 & H2 & H3). rewrite L in H3. unfold periodic_points in H3. nia.
Qed.

Definition lo (mn mx : R) : R := Rmin mn mx.
Definition hi (mn mx : R) : R := if Req_EM_T mn mx then 2 * mx else Rmax mn mx.
Lemma bounds_eq mn mx : curve_bounds mn mx = (lo mn mx, hi mn mx).
Proof.
  unfold curve_bounds, lo, hi, Rmin, Rmax. destruct (Rltb mx mn) eqn:E.
  - apply Rltb_iff in E. destruct (Req_EM_T mn mx); [lra|]. destruct (Rle_dec mn mx); [lra|]. reflexivity.
  - apply Rltb_false in E. unfold Reqb. destruct (Req_EM_T mn mx) as [->|Hne]; [destruct (Rle_dec mx mx); [|lra]; f_equal; ring|].
    destruct (Rle_dec mn mx); [reflexivity|lra].
Qed.

(** When a curve can be drawn for N samples, in terms of the frequency. *)
Definition drawable (N : nat) (c : curve) (freq : R) : Prop :=
  match c with
  | Increasing | Decreasing | Uniform => True
  | Logistic => 0 < freq <= 1
  | Periodic => freq <> 0 /\ (1 <= Ztrunc (1 / freq) + 1)%Z /\ (Z.of_nat N <= periodic_points N (Ztrunc (1 / freq) + 1))%Z
  end.
Lemma periods_ge2 freq : freq <> 0 -> (2 <= Ztrunc (1 / freq) + 1)%Z <-> 0 < freq <= 1.
Proof.
  intros H. split.
  - intros H2. destruct (Rlt_dec 0 freq) as [Hp|Hp].
    + split; [exact Hp|]. destruct (Rle_dec freq 1); [assumption|]. exfalso.
      assert (0 < / freq) by (apply Rinv_0_lt_compat, Hp). assert (/ freq < 1). { rewrite <- Rinv_1. apply Rinv_lt_contravar; lra. }
      rewrite Ztrunc_floor in H2 by lra. assert (Zfloor (1 / freq) = 0%Z) by (apply Zfloor_imp; cbn; lra). lia.
    + exfalso. assert (Hn : freq < 0) by lra. assert (/ freq < 0) by (apply Rinv_lt_0_compat, Hn).
      rewrite Ztrunc_ceil in H2 by lra. assert (Zceil (1 / freq) <= 0)%Z by (apply Zceil_glb; lra). lia.
  - intros [Hp H1]. assert (1 <= / freq). { rewrite <- Rinv_1. apply Rinv_le_contravar; lra. } rewrite Ztrunc_floor by lra.
    assert (1 <= Zfloor (1 / freq))%Z by (apply Zfloor_lub; lra). lia.
Qed.

Lemma firstn_In {A} (x : A) n l : In x (firstn n l) -> In x l.
Proof. intros H. rewrite <- (firstn_skipn n l). apply in_or_app. left. exact H. Qed.
Lemma nth_in_list (l : list R) t : (t < List.length l)%nat -> In (nth t l 0) l.
Proof. apply nth_In. Qed.

Lemma curve_ok N c freq mn mx unif : (0 < N)%nat -> lo mn mx <= hi mn mx ->
  ((exists l, curve_values N c freq mn mx unif = Ok l /\ List.length l = N) <-> drawable N c freq) /\
  (forall l, curve_values N c freq mn mx unif = Ok l -> List.length l = 1%nat -> N = 1%nat) /\
  (forall l, curve_values N c freq mn mx unif = Ok l -> c <> Uniform -> forall y, In y l -> lo mn mx <= y <= hi mn mx).
Proof.
  intros HN Hle. unfold curve_values. rewrite bounds_eq. cbv beta iota zeta. set (a := lo mn mx) in *. set (b := hi mn mx) in *.
  assert (LS : forall u v, exists l, bind (linspace u v (Z.of_nat N)) (fun l => Ok (firstn N l)) = Ok l /\ List.length l = N /\ forall y, In y l -> Rmin u v <= y <= Rmax u v).
  { intros u v. destruct (linspace_spec u v (Z.of_nat N) ltac:(lia)) as (l & E & L & P). exists (firstn N l). rewrite E. cbn [bind]. split; [reflexivity|].
    rewrite Nat2Z.id in *. split; [rewrite firstn_length, L; lia|]. intros y Hy. apply firstn_In in Hy. apply (In_nth _ _ 0) in Hy. destruct Hy as (t & Ht & <-). rewrite P by lia.
    apply linspace_point; lia. }
  assert (Rmin a b = a /\ Rmax a b = b /\ Rmin b a = a /\ Rmax b a = b) as (M1 & M2 & M3 & M4).
  { unfold Rmin, Rmax. destruct (Rle_dec a b); [|lra]. destruct (Rle_dec b a); repeat split; try reflexivity; lra. }
  destruct c; cbn [drawable].
  - destruct (LS a b) as (l & E & L & P). split; [split; [auto|intros _; exists l; auto]|]. rewrite E. split; intros l' [= <-]; [lia|]. intros _ y Hy. specialize (P y Hy). lra.
  - destruct (LS b a) as (l & E & L & P). split; [split; [auto|intros _; exists l; auto]|]. rewrite E. split; intros l' [= <-]; [lia|]. intros _ y Hy. specialize (P y Hy). lra.
  - unfold n_periods, Reqb. destruct (Req_EM_T freq 0) as [->|Hf]; cbn [bind].
    + split; [split; [intros (l & [=] & _)|intros H; lra]|]. split; intros l [=].
    + set (np := (Ztrunc (1 / freq) + 1)%Z). assert (EQ : (2 <= np)%Z <-> 0 < freq <= 1) by (apply periods_ge2, Hf). rewrite <- EQ.
      assert (K : forall l, bind (bind (logistic_x (Z.of_nat N) np) (fun xs => Ok (map (logistic_y a b) xs))) (fun l => Ok (firstn N l)) = Ok l ->
         (2 <= np)%Z /\ List.length l = N /\ forall y, In y l -> a <= y <= b).
      { intros l E. destruct (Z_le_gt_dec 2 np) as [H2|H2].
        - split; [exact H2|]. destruct (logistic_x_ok (Z.of_nat N) np ltac:(lia) H2) as (xs & Ex & Lx). rewrite Ex in E. cbn [bind] in E. injection E as <-. rewrite Nat2Z.id in Lx. split.
          + rewrite firstn_length, map_length. lia.
          + intros y Hy. apply firstn_In in Hy. apply in_map_iff in Hy. destruct Hy as (x & <- & _). unfold logistic_y. pose proof (exp_pos (- x)) as He.
            assert (Hi : 0 < / (1 + exp (- x)) <= 1). { split; [apply Rinv_0_lt_compat; lra|]. rewrite <- Rinv_1 at 2. apply Rinv_le_contravar; lra. }
            unfold Rdiv. nra.
        - exfalso. destruct (logistic_x (Z.of_nat N) np) as [xs|] eqn:Ex; [|discriminate]. apply (logistic_x_bad (Z.of_nat N) np ltac:(lia) ltac:(lia) xs Ex). }
      split; [split|split].
      * intros (l & E & _). apply (K l E).
      * intros H2. destruct (logistic_x_ok (Z.of_nat N) np ltac:(lia) H2) as (xs & Ex & Lx). rewrite Ex. cbn [bind]. eexists. split; [reflexivity|]. rewrite firstn_length, map_length. rewrite Nat2Z.id in Lx. lia.
      * intros l E L. destruct (K l E) as (_ & L' & _). lia.
      * intros l E _ y Hy. apply (K l E), Hy.
  - unfold n_periods, Reqb. destruct (Req_EM_T freq 0) as [->|Hf]; cbn [bind].
    + split; [split; [intros (l & [=] & _)|intros [H _]; lra]|]. split; intros l [=].
    + set (np := (Ztrunc (1 / freq) + 1)%Z). destruct (periodic_spec N np a b HN Hle) as (P1 & P2 & P3).
      assert (FN : forall l, periodic N np a b = Ok l -> (List.length l <= N)%nat).
      { intros l. unfold periodic. destruct (int_div (Z.of_nat N) np) as [s|]; [|discriminate]. cbn [bind]. destruct (linspace (- PI) PI s) as [u|]; [|discriminate]. cbn [bind]. cbv zeta.
        destruct (map _ _) as [|y0 t] eqn:E; [discriminate|]. intros [= <-].
        assert (L1 : List.length (y0 :: t) = List.length (firstn N (tile (firstn (Datatypes.length u - 1) u) (Z.to_nat (np + 1))))) by (rewrite <- E, map_length; reflexivity).
        rewrite firstn_length in L1. cbn [List.length map] in *. rewrite map_length. lia. }
      split; [split|split].
      * intros (l & E & L). split; [exact Hf|]. destruct (periodic N np a b) as [u|] eqn:Eu; [|discriminate]. cbn [bind] in E. injection E as <-.
        apply P2. exists u. split; [reflexivity|]. rewrite firstn_length in L. specialize (FN u eq_refl). lia.
      * intros (_ & H). apply P2 in H. destruct H as (l & E & L). exists (firstn N l). rewrite E. cbn [bind]. split; [reflexivity|]. rewrite firstn_length. lia.
      * intros l E L. destruct (periodic N np a b) as [u|] eqn:Eu; [|discriminate]. cbn [bind] in E. injection E as <-. rewrite firstn_length in L. specialize (FN u eq_refl). apply (P3 u eq_refl). lia.
      * intros l E _ y Hy. destruct (periodic N np a b) as [u|] eqn:Eu; [|discriminate]. cbn [bind] in E. injection E as <-. apply firstn_In in Hy. apply (proj1 (P1 u eq_refl)), Hy.
  - cbn [bind]. split; [split; [auto|intros _; eexists; split; [reflexivity|]; rewrite firstn_length, map_length, seq_length; lia]|]. split.
    + intros l [= <-] L. rewrite firstn_length, map_length, seq_length in L. lia.
    + intros l _ H. contradiction.
Qed.

(** An update succeeds exactly when the index exists, the scale is not negative
    and the curve can be drawn: always for the linear and uniform ones, for a
    frequency in (0, 1] for the logistic one. *)
Theorem C78_update_succeeds : forall (N k : nat) (s : sim) (factor_i : Z) (c : curve) (scale freq mx mn : R) (unif z : nat -> R),
  (0 < N)%nat -> lo mn mx <= hi mn mx ->
  (exists s', update_contribution N k s factor_i c scale freq mx mn unif z = Ok s') <->
  0 <= scale /\ (- Z.of_nat k <= factor_i < Z.of_nat k)%Z /\ drawable N c freq.
Proof.
  intros N k s fi c scale freq mx mn unif z HN Hle. destruct (curve_ok N c freq mn mx unif HN Hle) as (C1 & C2 & _). unfold update_contribution.
  assert (PI' : (- Z.of_nat k <= fi < Z.of_nat k)%Z <-> exists f, py_index k fi = Some f).
  { unfold py_index. cbv zeta. destruct ((0 <=? fi) && (fi <? Z.of_nat k))%Z eqn:E.
    - apply andb_true_iff in E. rewrite Z.leb_le, Z.ltb_lt in E. split; [intros _; eexists; reflexivity|intros _; lia].
    - destruct ((- Z.of_nat k <=? fi) && (fi <? 0))%Z eqn:E2.
      + apply andb_true_iff in E2. rewrite Z.leb_le, Z.ltb_lt in E2. split; [intros _; eexists; reflexivity|intros _; lia].
      + apply andb_false_iff in E, E2. rewrite Z.leb_gt, Z.ltb_ge in *. split; [lia|intros (f & [=])]. }
  rewrite PI'. clear PI'. split.
  - intros (s' & E). destruct (curve_values N c freq mn mx unif) as [l|] eqn:El; [|discriminate]. cbn [bind] in E.
    destruct (Rltb scale 0) eqn:Es; [discriminate|]. apply Rltb_false in Es. split; [exact Es|].
    destruct (py_index k fi) as [f|]; [|discriminate]. split; [exists f; reflexivity|]. apply C1. exists l. split; [reflexivity|].
    destruct (Nat.eqb_spec (List.length l) N) as [|Hne]; [assumption|]. destruct (Nat.eqb_spec (List.length l) 1) as [H1|]; [|discriminate]. rewrite H1. symmetry. apply (C2 l eq_refl H1).
  - intros (Hs & (f & Hf) & Hd). apply C1 in Hd. destruct Hd as (l & -> & L). cbn [bind]. rewrite (proj2 (Rltb_false scale 0)) by exact Hs. rewrite Hf, L, Nat.eqb_refl. eexists. reflexivity.
Qed.
Print Assumptions C78_update_succeeds.
Definition xsi_s : sim := mkSim (fun _ _ => 1) (fun _ _ => 1) None.
Example C78_update_succeeds_example : exists s', update_contribution 100 2 xsi_s (-1) Increasing 0 (1 / 2) 4 1 (fun _ => 1 / 2) (fun _ => 0) = Ok s'.
Proof.
  apply C78_update_succeeds; [lia | unfold lo, hi; destruct (Req_EM_T 1 4); [lra |]; rewrite Rmin_left, Rmax_right; lra |].
  cbn. split; [lra |]. split; [lia | exact I].
Qed.
Example C78_drawable_instance : drawable 100 Periodic (1 / 2) /\ ~ drawable 10 Periodic (1 / 4) /\ ~ drawable 100 Logistic 2.
Proof.
  assert (Z2 : Ztrunc (1 / (1 / 2)) = 2%Z) by (replace (1 / (1 / 2)) with (IZR 2) by field; apply Ztrunc_IZR).
  assert (Z4 : Ztrunc (1 / (1 / 4)) = 4%Z) by (replace (1 / (1 / 4)) with (IZR 4) by field; apply Ztrunc_IZR).
  cbn [drawable]. rewrite Z2, Z4. split; [|split].
  - split; [lra|]. split; [lia|]. unfold periodic_points. vm_compute. discriminate.
  - intros (_ & _ & H). vm_compute in H. apply H. reflexivity.
  - lra.
Qed.

(** What an update does: one column becomes the curve, within its bounds, plus
    scaled noise, non-positive values replaced; nothing else changes.  In particular,
    data already generated stay as they were. *)
Theorem C78_update_effect : forall (N k : nat) (s s' : sim) (factor_i : Z) (c : curve) (scale freq mx mn : R) (unif z : nat -> R),
  (0 < N)%nat -> lo mn mx <= hi mn mx ->
  update_contribution N k s factor_i c scale freq mx mn unif z = Ok s' ->
  let f := Z.to_nat (if (factor_i <? 0)%Z then Z.of_nat k + factor_i else factor_i) in
  (f < k)%nat /\
  (forall t g, g <> f -> s_W s' t g = s_W s t g) /\ s_H s' = s_H s /\ s_data s' = s_data s /\
  (forall t, (t < N)%nat -> 0 < s_W s' t f) /\
  (forall t, (t < N)%nat -> exists v, (c <> Uniform -> lo mn mx <= v <= hi mn mx) /\ (c = Uniform -> v = unif t * hi mn mx) /\
     s_W s' t f = if Rlt_dec 0 (v + scale * z t) then v + scale * z t else / 1000000000000).
Proof.
  intros N k s s' fi c scale freq mx mn unif z HN Hle E. cbv zeta. destruct (curve_ok N c freq mn mx unif HN Hle) as (C1 & C2 & C3). unfold update_contribution in E.
  destruct (curve_values N c freq mn mx unif) as [l|] eqn:El; [|discriminate]. cbn [bind] in E. destruct (Rltb scale 0); [discriminate|].
  destruct (py_index k fi) as [f|] eqn:Ef; [|discriminate].
  assert (Hf : f = Z.to_nat (if (fi <? 0)%Z then Z.of_nat k + fi else fi) /\ (f < k)%nat).
  { unfold py_index in Ef. cbv zeta in Ef. destruct ((0 <=? fi) && (fi <? Z.of_nat k))%Z eqn:Eb.
    - apply andb_true_iff in Eb. rewrite Z.leb_le, Z.ltb_lt in Eb. injection Ef as <-. rewrite (proj2 (Z.ltb_ge fi 0)) by lia. split; [reflexivity|lia].
    - destruct ((- Z.of_nat k <=? fi) && (fi <? 0))%Z eqn:Eb2; [|discriminate]. apply andb_true_iff in Eb2. rewrite Z.leb_le, Z.ltb_lt in Eb2. injection Ef as <-.
      rewrite (proj2 (Z.ltb_lt fi 0)) by lia. split; [reflexivity|lia]. }
  destruct Hf as [<- Hfk]. split; [exact Hfk|].
  assert (L : List.length l = N).
  { destruct (Nat.eqb_spec (List.length l) N) as [|Hne]; [assumption|]. destruct (Nat.eqb_spec (List.length l) 1) as [H1|]; [|discriminate]. rewrite H1. symmetry. apply (C2 l eq_refl H1). }
  rewrite L, Nat.eqb_refl in E. injection E as <-. cbn [s_W s_H s_data].
  assert (NF : forall t, noisy scale z l t = if Rlt_dec 0 (nth t l 0 + scale * z t) then nth t l 0 + scale * z t else / 1000000000000).
  { intros t. unfold noisy. cbv zeta. destruct (Rlt_dec 0 _); [rewrite (proj2 (Rleb_false _ 0)) by assumption; reflexivity|rewrite (proj2 (Rleb_iff _ 0)) by lra; reflexivity]. }
  split; [intros t g Hg; rewrite (proj2 (Nat.eqb_neq g f) Hg); reflexivity|]. split; [reflexivity|]. split; [reflexivity|]. split.
  - intros t _. rewrite Nat.eqb_refl, NF. destruct (Rlt_dec 0 _); [assumption|lra].
  - intros t Ht. exists (nth t l 0). rewrite Nat.eqb_refl, NF. split; [|split; [|reflexivity]].
    + intros Hc. apply (C3 l eq_refl Hc). apply nth_In. lia.
    + intros ->. unfold curve_values in El. rewrite bounds_eq in El. cbn [bind] in El. injection El as <-.
      rewrite firstn_all2 by (rewrite map_length, seq_length; lia).
      exact (nth_map_seq (fun t => unif t * hi mn mx) _ _ Ht).
Qed.
Print Assumptions C78_update_effect.
Example C78_update_effect_example : exists s', update_contribution 100 2 xsi_s (-1) Increasing 0 (1 / 2) 4 1 (fun _ => 1 / 2) (fun _ => 0) = Ok s' /\
  s_W s' 5%nat 0%nat = 1 /\ 0 < s_W s' 5%nat 1%nat.
Proof.
  destruct C78_update_succeeds_example as (s' & E). exists s'. split; [exact E |].
  assert (B : lo 1 4 <= hi 1 4) by (unfold lo, hi; destruct (Req_EM_T 1 4); [lra |]; rewrite Rmin_left, Rmax_right; lra).
  destruct (C78_update_effect 100 2 xsi_s s' (-1) Increasing 0 (1 / 2) 4 1 (fun _ => 1 / 2) (fun _ => 0) ltac:(lia) B E) as (_ & K & _ & _ & P & _).
  split; [rewrite K by (cbn; lia); reflexivity | apply P; lia].
Qed.

(** The documentation promises the minimum for every curve; the uniform one
    ignores it. *)
Lemma lo_hi_5_10 : lo 5 10 <= hi 5 10.
Proof. unfold lo, hi, Rmin, Rmax; destruct (Req_EM_T 5 10); destruct (Rle_dec 5 10); lra. Qed.
Theorem C78_uniform_respects_minimum_refuted : exists (s s' : sim) (unif z : nat -> R), (forall t, 0 <= unif t < 1) /\
  update_contribution 1 1 s 0 Uniform 0 (1 / 2) 10 5 unif z = Ok s' /\ 0 < s_W s' 0%nat 0%nat < 5.
Proof.
  exists (mkSim (fun _ _ => 0) (fun _ _ => 0) None). destruct (proj2 (C78_update_succeeds 1 1 (mkSim (fun _ _ => 0) (fun _ _ => 0) None) 0 Uniform 0 (1 / 2) 10 5 (fun _ => 1 / 10) (fun _ => 0) ltac:(lia)
      lo_hi_5_10)) as (s' & E); [cbn [drawable]; repeat split; try lia; lra|].
  exists s', (fun _ => 1 / 10), (fun _ => 0). split; [intros; lra|]. split; [exact E|].
  destruct (C78_update_effect 1 1 _ _ _ _ _ _ _ _ _ _ ltac:(lia) lo_hi_5_10 E) as (_ & _ & _ & _ & _ & H).
  destruct (H 0%nat ltac:(lia)) as (v & _ & Hv & Hw). change (Z.to_nat (if (0 <? 0)%Z then Z.of_nat 1 + 0 else 0)) with 0%nat in Hw. rewrite Hw.
  rewrite (Hv eq_refl). unfold hi, Rmax. destruct (Req_EM_T 5 10); [lra|]. destruct (Rle_dec 5 10); [|lra]. cbv beta. destruct (Rlt_dec 0 (1 / 10 * 10 + 0 * 0)); split; lra.
Qed.
Print Assumptions C78_uniform_respects_minimum_refuted.

(** The increasing curve rises from the minimum to the maximum in equal steps, the
    decreasing one is its mirror image; the periodic one touches the minimum. *)
Theorem C78_curve_shapes : forall (N : nat) (freq mn mx : R) (unif : nat -> R), (1 < N)%nat -> mn < mx ->
  (exists l, curve_values N Increasing freq mn mx unif = Ok l /\ List.length l = N /\ nth 0 l 0 = mn /\ nth (N - 1) l 0 = mx /\
     forall t, (S t < N)%nat -> nth (S t) l 0 - nth t l 0 = (mx - mn) / (INR N - 1)) /\
  (exists l, curve_values N Decreasing freq mn mx unif = Ok l /\ List.length l = N /\ nth 0 l 0 = mx /\ nth (N - 1) l 0 = mn /\
     forall t, (S t < N)%nat -> nth (S t) l 0 - nth t l 0 = - ((mx - mn) / (INR N - 1))) /\
  (drawable N Periodic freq -> exists l, curve_values N Periodic freq mn mx unif = Ok l /\ List.length l = N /\ In mn l).
Proof.
  intros N freq mn mx unif HN Hlt. unfold curve_values. rewrite bounds_eq.
  assert (El : lo mn mx = mn) by (unfold lo, Rmin; destruct (Rle_dec mn mx); lra).
  assert (Eh : hi mn mx = mx) by (unfold hi, Rmax; destruct (Req_EM_T mn mx); [lra|]; destruct (Rle_dec mn mx); lra).
  rewrite El, Eh.
  assert (HM : IZR (Z.max 1 (Z.of_nat N - 1)) = INR N - 1) by (rewrite Z.max_r by lia; rewrite minus_IZR, <- INR_IZR_INZ; reflexivity).
  assert (HP : 0 < INR N - 1) by (rewrite <- HM; apply IZR_lt; lia).
  assert (LS : forall a b, exists l, bind (linspace a b (Z.of_nat N)) (fun l => Ok (firstn N l)) = Ok l /\ List.length l = N /\ nth 0 l 0 = a /\ nth (N - 1) l 0 = b /\
     forall t, (S t < N)%nat -> nth (S t) l 0 - nth t l 0 = (b - a) / (INR N - 1)).
  { intros a b. destruct (linspace_spec a b (Z.of_nat N) ltac:(lia)) as (l & E & L & P). rewrite Nat2Z.id in *. rewrite HM in P. exists l. rewrite E. cbn [bind]. rewrite firstn_all2 by lia.
    split; [reflexivity|]. split; [exact L|]. split; [rewrite P by lia; cbn [INR]; ring|]. split.
    - rewrite P by lia. rewrite minus_INR by lia. cbn [INR]. field. lra.
    - intros t Ht. rewrite !P by lia. rewrite S_INR. field. lra. }
  split; [apply LS|]. split.
  - destruct (LS mx mn) as (l & E & L & A & B & S). exists l. split; [exact E|]. split; [exact L|]. split; [exact A|]. split; [exact B|]. intros t Ht. rewrite S by exact Ht. field. lra.
  - intros (Hf & H1 & H2). unfold n_periods, Reqb. destruct (Req_EM_T freq 0); [contradiction|]. cbn [bind].
    destruct (periodic_spec N (Ztrunc (1 / freq) + 1) mn mx ltac:(lia) ltac:(lra)) as (P1 & P2 & _). destruct (proj2 P2 (conj H1 H2)) as (l & E & L).
    exists l. rewrite E. cbn [bind]. rewrite firstn_all2 by lia. split; [reflexivity|]. split; [exact L|]. apply (P1 l E).
Qed.
Print Assumptions C78_curve_shapes.
Example C78_curve_shapes_example := C78_curve_shapes 100 (1 / 2) 1 4 (fun _ => 1 / 2) ltac:(lia) ltac:(lra).
