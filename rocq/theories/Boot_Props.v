(** Theorems C29-C34 and C63 about esat/error/bootstrap.py. *)
From Coq Require Import List Bool ZArith Lia Reals Lra Permutation.
From Verif Require Import Base Fl Boot_Model Boot_Proofs.
Import ListNotations.
Local Open Scope nat_scope.

(** ** C29: shape of the resample. *)

Theorem C29_block_resample :
  forall {X Y Z'} overlapping N b r (data : nat -> X) (unc : nat -> Y) (W : nat -> Z'),
    (0 < b)%Z -> (2 * b <= Z.of_nat N)%Z -> (overlapping = true -> 2 < N) ->
    exists d u w idx starts,
      block_resample overlapping N (BInt b) r data unc W = (BInt b, Ok (d, u, w, idx)) /\
      length idx = N /\
      (* concatenation of runs of [b] consecutive samples, the last run cut to size *)
      idx = firstn N (concat (map (fun s => seq s (Z.to_nat b)) starts)) /\
      N <= length starts * Z.to_nat b < N + Z.to_nat b /\
      (forall s, In s starts -> s + Z.to_nat b <= N) /\
      (overlapping = false -> forall s, In s starts -> exists k, s = k * Z.to_nat b) /\
      (* the three arrays are resampled with the same indices *)
      (forall i, i < N -> exists k, nth_error idx i = Some k /\ k < N /\
                                    d i = data k /\ u i = unc k /\ w i = W k).
Proof.
  intros X Y Z' ov N b r data unc W Hb H2 Hov.
  destruct (ceil_div_bounds N b Hb H2) as (H1 & Hlt & Hge & Hc & H2c).
  set (M := Z.to_nat (ceil_div N b)) in *. set (c := Z.to_nat b) in *.
  set (st := fun j => if ov then r j mod (N - c - 1) else (r j mod (M - 1)) * c).
  set (starts := map st (seq 0 M)).
  set (idx := firstn N (flat_map (fun j => seq (st j) c) (seq 0 M))).
  assert (Hidx : block_index ov N (BInt b) r = (BInt b, Ok idx)).
  { unfold idx, st. destruct ov; [apply block_index_overlapping; auto|apply block_index_nonoverlapping; auto]. }
  assert (Hfm : flat_map (fun j => seq (st j) c) (seq 0 M) = concat (map (fun s => seq s c) starts)).
  { unfold starts. rewrite map_map, <- flat_map_concat_map. reflexivity. }
  assert (Hlen : length idx = N).
  { unfold idx. rewrite firstn_length, flat_map_seq_length, seq_length. lia. }
  assert (Hst : forall s, In s starts -> s + c <= N).
  { intros s Hs. apply in_map_iff in Hs. destruct Hs as (j & <- & _). unfold st. destruct ov.
    - specialize (Hov eq_refl). pose proof (Nat.mod_upper_bound (r j) (N - c - 1) ltac:(lia)). lia.
    - pose proof (Nat.mod_upper_bound (r j) (M - 1) ltac:(lia)) as Hm. nia. }
  exists (take_rows idx data), (take_rows idx unc), (take_rows idx W), idx, starts.
  split; [unfold block_resample; rewrite Hidx; reflexivity|]. split; [exact Hlen|].
  split; [unfold idx; rewrite Hfm; reflexivity|].
  split. { unfold starts. rewrite map_length, seq_length. nia. }
  split; [exact Hst|]. split.
  { intros -> s Hs. apply in_map_iff in Hs. destruct Hs as (j & <- & _). eexists. reflexivity. }
  intros i Hi. unfold take_rows. destruct (nth_error idx i) as [k|] eqn:E.
  - exists k. split; [reflexivity|]. split; [|auto].
    assert (Hin : In k idx) by (eapply nth_error_In; exact E).
    unfold idx in Hin. rewrite Hfm in Hin.
    assert (Hin' : In k (concat (map (fun s => seq s c) starts))).
    { rewrite <- (firstn_skipn N (concat _)). apply in_or_app. left. exact Hin. }
    apply in_concat in Hin'. destruct Hin' as (l & Hl & Hk). apply in_map_iff in Hl.
    destruct Hl as (s & <- & Hs). apply in_seq in Hk. specialize (Hst s Hs). lia.
  - apply nth_error_None in E. lia.
Qed.
Print Assumptions C29_block_resample.
Example C29_block_resample_example :=
  C29_block_resample false 7 3 (fun i => i) (fun i => i) (fun i => 2 * i) (fun i => 3 * i)
    ltac:(lia) ltac:(lia) ltac:(lia).

(** Overlapping blocks on two samples raise instead. *)
Theorem C29_two_samples_overlapping_refuted :
  exists b r, (0 < b)%Z /\ (2 * b <= Z.of_nat 2)%Z /\ snd (block_index true 2 (BInt b) r) = Raise ValueError.
Proof. exists 1%Z, (fun _ => 0). repeat split; lia. Qed.
Print Assumptions C29_two_samples_overlapping_refuted.

(** Resampling single rows. *)
Theorem C29_single_resample :
  forall N r, 0 < N ->
    length (resample_index N r) = N /\ (forall k, In k (resample_index N r) -> k < N) /\
    (forall k, k < N -> exists r', In k (resample_index N r')).
Proof.
  intros N r HN. unfold resample_index. rewrite map_length, seq_length. split; [reflexivity|]. split.
  - intros k Hk. apply in_map_iff in Hk. destruct Hk as (i & <- & _). apply Nat.mod_upper_bound. lia.
  - intros k Hk. exists (fun _ => k). apply in_map_iff. exists 0. split; [apply Nat.mod_small; exact Hk|].
    apply in_seq. lia.
Qed.
Print Assumptions C29_single_resample.
Example C29_single_resample_example := C29_single_resample 7 (fun i => 5 * i) ltac:(lia).

(** seven samples, blocks of three, two different streams *)
Example C29_instance :
  snd (block_index false 7 (BInt 3) (fun i => i)) = Ok [0; 1; 2; 3; 4; 5; 0] /\
  snd (block_index true 7 (BInt 3) (fun i => 2 - i)) = Ok [2; 3; 4; 1; 2; 3; 0].
Proof. split; vm_compute; reflexivity. Qed.

(** ** C30: which samples can be drawn. *)

Theorem C30_last_block_never_drawn :
  forall N b, (0 < b)%Z -> (2 * b <= Z.of_nat N)%Z ->
    exists last, (* first sample of the last block *)
      (exists k, last = k * Z.to_nat b) /\ last < N <= last + Z.to_nat b /\
      (forall r idx k, snd (block_index false N (BInt b) r) = Ok idx -> In k idx -> k < last) /\
      (forall k, k < last -> exists r idx, snd (block_index false N (BInt b) r) = Ok idx /\ In k idx).
Proof.
  intros N b Hb H2. destruct (ceil_div_bounds N b Hb H2) as (H1 & Hlt & Hge & Hc & H2c).
  set (M := Z.to_nat (ceil_div N b)) in *. set (c := Z.to_nat b) in *.
  exists ((M - 1) * c). split; [eexists; reflexivity|]. split; [nia|]. split.
  - intros r idx k E Hk. rewrite block_index_nonoverlapping in E by assumption. cbn [snd] in E. injection E as <-.
    fold M c in Hk.
    assert (Hin : In k (flat_map (fun j => seq ((r j mod (M - 1)) * c) c) (seq 0 M))).
    { rewrite <- (firstn_skipn N (flat_map _ _)). apply in_or_app. left. exact Hk. }
    apply in_flat_map in Hin. destruct Hin as (j & _ & Hj). apply in_seq in Hj.
    pose proof (Nat.mod_upper_bound (r j) (M - 1) ltac:(lia)). nia.
  - intros k Hk. exists (fun _ => k / c). eexists. split.
    { rewrite block_index_nonoverlapping by assumption. reflexivity. }
    fold M c.
    assert (Hd : k / c < M - 1) by (apply Nat.div_lt_upper_bound; lia).
    destruct M as [|t] eqn:EM; [lia|]. cbn [seq flat_map].
    rewrite firstn_app_ge by (rewrite seq_length; lia). apply in_or_app. left. apply in_seq.
    rewrite Nat.mod_small by exact Hd. pose proof (Nat.div_mod k c ltac:(lia)).
    pose proof (Nat.mod_upper_bound k c ltac:(lia)). lia.
Qed.
Print Assumptions C30_last_block_never_drawn.
Example C30_last_block_never_drawn_example := C30_last_block_never_drawn 365 10 ltac:(lia) ltac:(lia).

Theorem C30_overlapping_last_two_never_drawn :
  forall N b, (0 < b)%Z -> (2 * b <= Z.of_nat N)%Z -> 2 < N ->
    (forall r idx k, snd (block_index true N (BInt b) r) = Ok idx -> In k idx -> k + 2 < N) /\
    (forall k, k + 2 < N -> exists r idx, snd (block_index true N (BInt b) r) = Ok idx /\ In k idx).
Proof.
  intros N b Hb H2 HN. destruct (ceil_div_bounds N b Hb H2) as (H1 & Hlt & Hge & Hc & H2c).
  set (M := Z.to_nat (ceil_div N b)) in *. set (c := Z.to_nat b) in *. split.
  - intros r idx k E Hk. rewrite block_index_overlapping in E by assumption. cbn [snd] in E. injection E as <-.
    fold M c in Hk.
    assert (Hin : In k (flat_map (fun j => seq (r j mod (N - c - 1)) c) (seq 0 M))).
    { rewrite <- (firstn_skipn N (flat_map _ _)). apply in_or_app. left. exact Hk. }
    apply in_flat_map in Hin. destruct Hin as (j & _ & Hj). apply in_seq in Hj.
    pose proof (Nat.mod_upper_bound (r j) (N - c - 1) ltac:(lia)). lia.
  - intros k Hk. exists (fun _ => k + 1 - c). eexists. split.
    { rewrite block_index_overlapping by assumption. reflexivity. }
    fold M c. destruct M as [|t] eqn:EM; [lia|]. cbn [seq flat_map].
    rewrite firstn_app_ge by (rewrite seq_length; lia). apply in_or_app. left. apply in_seq.
    rewrite Nat.mod_small by lia. lia.
Qed.
Print Assumptions C30_overlapping_last_two_never_drawn.
Example C30_overlapping_last_two_never_drawn_example :=
  C30_overlapping_last_two_never_drawn 365 10 ltac:(lia) ltac:(lia) ltac:(lia).

Theorem C30_half_blocks_repeat_first_half :
  forall c r, 0 < c ->
    snd (block_index false (2 * c) (BInt (Z.of_nat c)) r) = Ok (seq 0 c ++ seq 0 c).
Proof.
  intros c r Hc. rewrite block_index_nonoverlapping by lia. cbn [snd]. rewrite Nat2Z.id.
  assert (HM : Z.to_nat (ceil_div (2 * c) (Z.of_nat c)) = 2).
  { unfold ceil_div. rewrite Nat2Z.inj_mul. change (Z.of_nat 2) with 2%Z.
    replace (- (2 * Z.of_nat c))%Z with ((-2) * Z.of_nat c)%Z by ring.
    rewrite Z.div_mul by lia. reflexivity. }
  rewrite HM. cbn [seq flat_map Nat.sub]. rewrite !Nat.mod_1_r, app_nil_r. cbn [Nat.mul].
  rewrite firstn_all2; [reflexivity|]. rewrite app_length, !seq_length. lia.
Qed.
Print Assumptions C30_half_blocks_repeat_first_half.
Example C30_half_blocks_repeat_first_half_example : snd (block_index false 6 (BInt 3) (fun i => i)) = Ok [0; 1; 2; 0; 1; 2] :=
  C30_half_blocks_repeat_first_half 3 (fun i => i) ltac:(lia).

(** Documented: blocks are selected from the whole dataset. *)
Theorem C30_every_sample_drawable_refuted :
  exists N b, (0 < b)%Z /\ (2 * b <= Z.of_nat N)%Z /\
    forall r idx, snd (block_index false N (BInt b) r) = Ok idx -> ~ In (N - 1) idx.
Proof.
  exists 10, 3%Z. split; [lia|]. split; [lia|]. intros r idx E Hin.
  destruct (C30_last_block_never_drawn 10 3 ltac:(lia) ltac:(lia)) as (last & (k & Hk) & Hl & Hno & _).
  specialize (Hno r idx _ E Hin). cbn in Hl, Hno, Hk. lia.
Qed.
Print Assumptions C30_every_sample_drawable_refuted.

Example C30_instance : (0 < 10)%Z /\ (2 * 10 <= Z.of_nat 365)%Z /\ 2 < 365.
Proof. lia. Qed.

(** ** C31: oversized blocks. *)

Definition raises {A} (o : res A) : Prop := exists e, o = Raise e.

Theorem C31_oversized_block_raises :
  forall overlapping N b r, (Z.of_nat N < 2 * b)%Z ->
    let (bs', o) := block_index overlapping N (BInt b) r in
    bs' = BHalf N /\ raises o /\
    (0 < N -> overlapping = false -> o = Raise TypeError) /\
    (3 < N -> o = Raise TypeError) /\
    (* and so does every later call on the same object *)
    (forall ov2 r2, fst (block_index ov2 N bs' r2) = BHalf N /\ raises (snd (block_index ov2 N bs' r2))).
Proof.
  intros ov N b r Hb.
  assert (Hraise : forall ov r, raises (snd (block_index ov N (BHalf N) r))).
  { intros ov' r'. unfold block_index, too_big. rewrite Nat.ltb_irrefl. cbn [snd].
    destruct (N =? 0); [eexists; reflexivity|]. destruct ov'; [|eexists; reflexivity].
    destruct (rng_int _ _ _); eexists; reflexivity. }
  assert (Hsame : forall ov r, block_index ov N (BInt b) r = block_index ov N (BHalf N) r).
  { intros ov' r'. unfold block_index, too_big. rewrite Nat.ltb_irrefl.
    destruct (Z.ltb_spec (Z.of_nat N) (2 * b)); [reflexivity|lia]. }
  assert (Hfst : forall ov r, fst (block_index ov N (BHalf N) r) = BHalf N).
  { intros ov' r'. unfold block_index, too_big. rewrite Nat.ltb_irrefl. reflexivity. }
  rewrite Hsame. pose proof (Hraise ov r) as H1. pose proof (Hfst ov r) as H2.
  destruct (block_index ov N (BHalf N) r) as [bs' o] eqn:E. cbn [fst snd] in *. subst bs'.
  split; [reflexivity|]. split; [exact H1|].
  unfold block_index, too_big in E. rewrite Nat.ltb_irrefl in E.
  apply (f_equal snd) in E. cbn [snd] in E. rename E into Eo.
  split; [|split; [|intros; split; auto]].
  - intros HN ->. destruct (Nat.eqb_spec N 0); [lia|]. symmetry; exact Eo.
  - intros HN. destruct (Nat.eqb_spec N 0); [lia|]. destruct ov; [|symmetry; exact Eo].
    unfold rng_int in Eo.
    destruct (Z.leb_spec ((2 * Z.of_nat N - Z.of_nat N - 2) / 2) 0) as [C|C]; [exfalso|symmetry; exact Eo].
    pose proof (Z.div_mod (2 * Z.of_nat N - Z.of_nat N - 2) 2 ltac:(lia)).
    pose proof (Z.mod_pos_bound (2 * Z.of_nat N - Z.of_nat N - 2) 2 ltac:(lia)). lia.
Qed.
Print Assumptions C31_oversized_block_raises.
Example C31_oversized_block_raises_example : snd (block_index false 15 (BInt 10) (fun i => i)) = Raise TypeError.
Proof.
  pose proof (C31_oversized_block_raises false 15 10 (fun i => i) ltac:(lia)) as H.
  destruct (block_index false 15 (BInt 10) (fun i => i)) as [bs o]. cbn [snd].
  apply (proj1 (proj2 (proj2 H))); [lia | reflexivity].
Qed.

Example C31_instance : (Z.of_nat 15 < 2 * 10)%Z. Proof. lia. Qed.

(** ** C32: factor mapping. *)

(** Specification of one mapping entry for row [i] of a correlation table. *)
Record mapping_ok (corr : nat -> nat -> fl) (k : nat) (thr : fl) (i : nat) (e : mapped_to) : Prop := {
  mo_range : mp_match e < k;
  mo_value : mp_r2 e = corr i (mp_match e);
  mo_mapped : mp_mapped e = true <-> fle thr (mp_r2 e) = true;
  mo_nan : corr i i = NaN -> mp_match e = i /\ mp_mapped e = false;
  mo_best : corr i i <> NaN -> corr i (mp_match e) <> NaN /\
            forall j, j < k -> flt (corr i (mp_match e)) (corr i j) = false;
  mo_ties : corr i i <> NaN -> mp_match e <> i ->
            flt (corr i i) (corr i (mp_match e)) = true /\
            forall j, j < mp_match e -> corr i j = NaN \/ flt (corr i j) (corr i (mp_match e)) = true }.

Lemma fle_nan_r thr : fle thr NaN = false.
Proof. destruct thr; reflexivity. Qed.

Lemma map_one_ok corr k thr i : i < k -> mapping_ok corr k thr i (map_one corr k thr i).
Proof.
  intros Hi. unfold map_one.
  assert (H0 : inv (corr i) i 0 i (corr i i)).
  { destruct (is_nan (corr i i)) eqn:E.
    - left. destruct (corr i i); try discriminate. auto.
    - right. assert (Hn : corr i i <> NaN) by (intros C; rewrite C in E; discriminate).
      split; [exact Hn|]. split; [reflexivity|]. split; [exact Hn|]. split; [auto|].
      split; [intros; lia|]. split; [apply flt_irrefl|]. intros; congruence. }
  pose proof (best_match_inv (corr i) i k 0 i (corr i i) H0) as H.
  destruct (best_match (corr i) k 0 i (corr i i)) as [bi br]. cbn [Nat.add] in H.
  destruct H as [(Hc & -> & ->)|(Hc & -> & Hn & Hor & Hall & Hown & Hfst)];
    constructor; cbn [mp_match mp_r2 mp_mapped]; try congruence; try tauto.
  - intros _. split; [reflexivity|apply fle_nan_r].
  - destruct Hor as [->|[? ?]]; assumption.
  - intros _ Hne. split; [destruct Hor as [?|[_ ?]]; [contradiction|assumption]|].
    intros j Hj. apply Hfst; assumption.
Qed.

Theorem C32_mapping_is_best :
  forall m1 m2 n k W1 H1 W2 H2 thr i, i < k ->
    exists e, nth_error (map_contributions m1 m2 n k W1 H1 W2 H2 thr) i = Some e /\
      mapping_ok (fun i j => r2 n (conc m1 W1 H1 i) (conc m2 W2 H2 j)) k thr i e.
Proof.
  intros m1 m2 n k W1 H1 W2 H2 thr i Hi. eexists. split.
  - unfold map_contributions. rewrite (map_nth_error _ i (seq 0 k) (d := i)) by (rewrite nth_seq by exact Hi; reflexivity).
    reflexivity.
  - apply map_one_ok. exact Hi.
Qed.
Print Assumptions C32_mapping_is_best.

Theorem C32_profile_mapping_is_best :
  forall n k1 k2 H1 H2 thr i, i < k1 -> i < k2 ->
    exists e, nth_error (map_factors n k1 k2 H1 H2 thr) i = Some e /\
      mapping_ok (fun i j => r2 n (H1 i) (H2 j)) k2 thr i e.
Proof.
  intros n k1 k2 H1 H2 thr i Hi Hi2. eexists. split.
  - unfold map_factors. rewrite (map_nth_error _ i (seq 0 k1) (d := i)) by (rewrite nth_seq by exact Hi; reflexivity).
    reflexivity.
  - apply map_one_ok. exact Hi2.
Qed.
Print Assumptions C32_profile_mapping_is_best.

Lemma best_match_ext corr corr' : forall t j bi br,
  (forall j', j <= j' < j + t -> corr j' = corr' j') ->
  best_match corr t j bi br = best_match corr' t j bi br.
Proof.
  induction t as [|t IH]; intros j bi br H; cbn [best_match]; [reflexivity|].
  rewrite (H j) by lia. rewrite !IH by (intros; apply H; lia). reflexivity.
Qed.

(** Mapping by contributions is mapping by profiles when no factor's
    contributions add up to zero. *)
Theorem C32_contributions_add_nothing :
  forall m1 m2 n k W1 H1 W2 H2 thr,
    (forall i, i < k -> rsum m1 (fun t => W1 t i) <> 0%R) ->
    (forall i, i < k -> rsum m2 (fun t => W2 t i) <> 0%R) ->
    map_contributions m1 m2 n k W1 H1 W2 H2 thr = map_factors n k k H1 H2 thr.
Proof.
  intros m1 m2 n k W1 H1 W2 H2 thr Hw1 Hw2. unfold map_contributions, map_factors.
  apply map_ext_in. intros i Hi. apply in_seq in Hi.
  assert (Hc : forall m (W H : mat) i j, conc m W H i j = (rsum m (fun t => W t i) * H i j)%R).
  { intros m W H i0 j. unfold conc. rewrite rsum_scal_r. reflexivity. }
  assert (Heq : forall j, j < k -> r2 n (conc m1 W1 H1 i) (conc m2 W2 H2 j) = r2 n (H1 i) (H2 j)).
  { intros j Hj.
    rewrite (r2_ext n _ _ (fun x => rsum m1 (fun t => W1 t i) * H1 i x)%R (fun x => rsum m2 (fun t => W2 t j) * H2 j x)%R)
      by (intros; apply Hc).
    apply r2_scal; [apply Hw1; lia|apply Hw2; exact Hj]. }
  unfold map_one. rewrite Heq by lia. rewrite (best_match_ext _ (fun j => r2 n (H1 i) (H2 j))).
  - reflexivity.
  - intros j' Hj'. apply Heq. lia.
Qed.
Print Assumptions C32_contributions_add_nothing.

(** A factor that did not change (up to scale) is mapped to itself with R2 = 1. *)
Theorem C32_unchanged_factor_maps_to_itself :
  forall n k1 k2 (H1 H2 : mat) thr i c, i < k1 -> i < k2 -> (c <> 0)%R ->
    (forall j, j < n -> H1 i j = (c * H2 i j)%R) ->
    cov n (H2 i) (H2 i) <> 0%R ->
    exists e, nth_error (map_factors n k1 k2 H1 H2 (Fin thr)) i = Some e /\
      mp_match e = i /\ mp_r2 e = Fin 1 /\ (mp_mapped e = true <-> (thr <= 1)%R).
Proof.
  intros n k1 k2 H1 H2 thr i c Hi Hi2 Hc Heq Hv.
  destruct (C32_profile_mapping_is_best n k1 k2 H1 H2 (Fin thr) i Hi Hi2) as (e & He & Hok).
  exists e. split; [exact He|].
  assert (Hii : r2 n (H1 i) (H2 i) = Fin 1).
  { rewrite (r2_ext n _ _ (fun j => c * H2 i j)%R (fun j => 1 * H2 i j)%R).
    - rewrite r2_scal by (exact Hc || lra). apply r2_self. exact Hv.
    - exact Heq.
    - intros. ring. }
  assert (Hnn : r2 n (H1 i) (H2 i) <> NaN) by (rewrite Hii; discriminate).
  assert (Hm : mp_match e = i).
  { destruct (Nat.eq_dec (mp_match e) i) as [E|E]; [exact E|exfalso].
    destruct (mo_ties _ _ _ _ _ Hok Hnn E) as [C _]. cbv beta in C. rewrite Hii in C.
    destruct (r2 n (H1 i) (H2 (mp_match e))) as [v| | |] eqn:Ev.
    - apply flt_fin in C. apply r2_range in Ev. lra.
    - unfold r2 in Ev. destruct (Reqb _ 0); [discriminate|]. destruct (Reqb _ 0); discriminate.
    - discriminate.
    - discriminate. }
  assert (Hr : mp_r2 e = Fin 1) by (rewrite (mo_value _ _ _ _ _ Hok), Hm; exact Hii).
  split; [exact Hm|]. split; [exact Hr|].
  rewrite (mo_mapped _ _ _ _ _ Hok), Hr. cbn. apply Rleb_iff.
Qed.
Print Assumptions C32_unchanged_factor_maps_to_itself.
(* three factors with the profiles 0, 1, 2; 1, 3, 5; and 2, 5, 8, mapped on their doubles *)
Definition xo_H : mat := fun i j => (INR i + INR j * (INR i + 1))%R.
Definition xo_W : mat := fun t i => (1 + INR t)%R.
Example C32_mapping_is_best_example :=
  C32_mapping_is_best 2 2 3 3 xo_W xo_H xo_W (fun i j => (2 * xo_H i j)%R) (Fin (8 / 10)) 1 ltac:(lia).
Example C32_profile_mapping_is_best_example :=
  C32_profile_mapping_is_best 3 3 3 xo_H (fun i j => (2 * xo_H i j)%R) (Fin (8 / 10)) 1 ltac:(lia) ltac:(lia).
Lemma xo_W_sum : forall i, i < 3 -> rsum 2 (fun t => xo_W t i) <> 0%R.
Proof. intros i _. unfold xo_W. cbn [rsum INR]. lra. Qed.
Example C32_contributions_add_nothing_example :=
  C32_contributions_add_nothing 2 2 3 3 xo_W xo_H xo_W (fun i j => (2 * xo_H i j)%R) (Fin (8 / 10)) xo_W_sum xo_W_sum.
Lemma xo_cov : cov 3 (xo_H 1) (xo_H 1) <> 0%R.
Proof. unfold cov, mean, xo_H. cbn [rsum INR]. lra. Qed.
Example C32_unchanged_factor_maps_to_itself_example :=
  C32_unchanged_factor_maps_to_itself 3 3 3 (fun i j => (2 * xo_H i j)%R) xo_H (8 / 10) 1 2 ltac:(lia) ltac:(lia)
    ltac:(lra) (fun j _ => eq_refl) xo_cov.

Example C32_instance :
  (forall i, i < 2 -> rsum 2 (fun t => (fun t i => 1 : R)%R t i) <> 0%R) /\
  cov 2 (fun j => INR j) (fun j => INR j) <> 0%R.
Proof.
  split.
  - intros i _. cbn [rsum]. lra.
  - unfold cov, mean. cbn [rsum INR]. lra.
Qed.

(** ** C33: the mapping table. *)

Definition sum_nat (k : nat) (f : nat -> nat) : nat := fold_left (fun a c => a + f c) (seq 0 k) 0.

Definition well_mapped (k : nat) (mp : list mapped_to) : Prop :=
  length mp = k /\ forall e, In e mp -> mp_match e < k.

Lemma fold_add {A} (f : A -> nat) l : forall a, fold_left (fun a x => a + f x) l a = a + list_sum (map f l).
Proof.
  induction l as [|x l IH]; intros a; cbn [fold_left map list_sum fold_right]; [unfold list_sum; cbn; lia|].
  rewrite IH. unfold list_sum. cbn [fold_right]. lia.
Qed.

Lemma list_sum_zero {A} (l : list A) : list_sum (map (fun _ => 0) l) = 0.
Proof. unfold list_sum. induction l; cbn; auto. Qed.

Lemma list_sum_perm l l' : Permutation l l' -> list_sum l = list_sum l'.
Proof. unfold list_sum. induction 1; cbn [fold_right] in *; lia. Qed.

Lemma sum_nat_list k f : sum_nat k f = list_sum (map f (seq 0 k)).
Proof. unfold sum_nat. rewrite fold_add. reflexivity. Qed.

Lemma sum_indicator k x : forall i, i <= x < i + k -> list_sum (map (fun c => if x =? c then 1 else 0) (seq i k)) = 1.
Proof.
  induction k as [|k IH]; intros i Hx; [lia|]. cbn [seq map list_sum]. cbn.
  destruct (Nat.eqb_spec x i) as [->|Hne].
  - enough (forall j, i < j -> list_sum (map (fun c => if i =? c then 1 else 0) (seq j k)) = 0) as H by (unfold list_sum in H; rewrite H; lia).
    clear. induction k as [|k IH]; intros j Hj; [reflexivity|]. cbn. destruct (Nat.eqb_spec i j); [lia|].
    unfold list_sum in IH. rewrite IH; lia.
  - unfold list_sum in IH. rewrite IH by lia. reflexivity.
Qed.

Lemma list_sum_swap (k : nat) (g : nat -> list mapped_to -> nat) l :
  list_sum (map (fun c => list_sum (map (g c) l)) (seq 0 k))
  = list_sum (map (fun x => list_sum (map (fun c => g c x) (seq 0 k))) l).
Proof.
  induction l as [|x l IH]; cbn [map].
  - cbn. induction (seq 0 k); cbn; auto.
  - cbn [list_sum fold_right]. change (fold_right Nat.add 0) with list_sum. rewrite <- IH.
    clear IH. generalize (seq 0 k) as s. induction s as [|a s IH]; cbn; [reflexivity|].
    change (fold_right Nat.add 0) with list_sum in *. lia.
Qed.

Theorem C33_rows_account_for_every_run :
  forall k (results : list (list mapped_to)) j, j < k ->
    (forall mp, In mp results -> well_mapped k mp) ->
    sum_nat k (table results j) + unmapped results j = length results.
Proof.
  intros k results j Hj Hw. rewrite sum_nat_list. unfold table, unmapped.
  rewrite fold_add. cbn [Nat.add].
  rewrite (map_ext _ (fun c => list_sum (map (count_entry j c) results))) by (intros c; rewrite fold_add; reflexivity).
  rewrite (list_sum_swap k (fun c => count_entry j c)).
  induction results as [|mp results IH]; [reflexivity|]. cbn [map list_sum fold_right length].
  change (fold_right Nat.add 0) with list_sum.
  assert (IH' := IH (fun m Hm => Hw m (or_intror Hm))).
  enough (list_sum (map (fun c => count_entry j c mp) (seq 0 k)) + count_unmapped j mp = 1) by lia.
  destruct (Hw mp (or_introl eq_refl)) as [Hl Hm]. unfold count_entry, count_unmapped.
  destruct (nth_error mp j) as [e|] eqn:E.
  - destruct (mp_mapped e); cbn [andb].
    + rewrite sum_indicator; [lia|]. specialize (Hm e (nth_error_In _ _ E)). lia.
    + rewrite list_sum_zero. reflexivity.
  - apply nth_error_None in E. lia.
Qed.
Print Assumptions C33_rows_account_for_every_run.

(** The hypothesis above is what map_contributions always delivers. *)
Theorem C33_mappings_are_complete :
  forall m1 m2 n k W1 H1 W2 H2 thr, well_mapped k (map_contributions m1 m2 n k W1 H1 W2 H2 thr).
Proof.
  intros. unfold well_mapped, map_contributions. rewrite map_length, seq_length. split; [reflexivity|].
  intros e He. apply in_map_iff in He. destruct He as (i & <- & Hi). apply in_seq in Hi.
  apply (mo_range _ _ _ _ _ (map_one_ok _ k thr i ltac:(lia))).
Qed.
Print Assumptions C33_mappings_are_complete.

Lemma dict_set_fresh {V} (d : list (nat * V)) k v : ~ In k (map fst d) -> dict_set d k v = d ++ [(k, v)].
Proof.
  induction d as [|[k' v'] d IH]; cbn; intros H; [reflexivity|].
  destruct (Nat.eqb_spec k' k); [tauto|]. rewrite IH by tauto. reflexivity.
Qed.

Lemma fold_dict_fresh {V} (l : list (nat * V)) : forall d, NoDup (map fst (d ++ l)) ->
  fold_left (fun d p => dict_set d (fst p) (snd p)) l d = d ++ l.
Proof.
  induction l as [|[k v] l IH]; intros d H; cbn [fold_left]; [symmetry; apply app_nil_r|].
  cbn [fst snd]. rewrite dict_set_fresh.
  - rewrite IH by (rewrite <- app_assoc; exact H). rewrite <- app_assoc. reflexivity.
  - rewrite map_app in H. cbn in H. apply NoDup_remove_2 in H. intros C. apply H. apply in_or_app. left. exact C.
Qed.

Lemma all_runs_spec {M} (work : nat -> option M) sched l : all_runs work sched = Some l ->
  map fst l = sched /\ Forall (fun p => work (fst p) = Some (snd p)) l.
Proof.
  revert l. induction sched as [|i t IH]; intros l; cbn; [intros [= <-]; auto|].
  destruct (work i) as [m|] eqn:E; [|discriminate]. destruct (all_runs work t) as [l'|]; [|discriminate].
  intros [= <-]. destruct (IH l' eq_refl) as [H1 H2]. cbn. rewrite H1. auto.
Qed.

Lemma all_runs_total {M} (work : nat -> option M) sched :
  (exists l, all_runs work sched = Some l) <-> (forall i, In i sched -> work i <> None).
Proof.
  induction sched as [|i t IH]; cbn.
  - split; [intros _ i []|intros _; eexists; reflexivity].
  - destruct (work i) as [m|] eqn:E.
    + destruct (all_runs work t) as [l|] eqn:El.
      * split; [|intros; eexists; reflexivity]. intros _ i' [<-|Hi]; [congruence|]. apply IH; eauto.
      * split; [intros [l C]; discriminate|]. intros H. destruct IH as [_ IH].
        destruct IH as [l C]; [intros i' Hi'; apply H; right; exact Hi'|discriminate].
    + split; [intros [l C]; discriminate|]. intros H. destruct (H i (or_introl eq_refl) E).
Qed.

Lemma perm_values {M} (work : nat -> option M) l1 l2 :
  Permutation (map fst l1) (map fst l2) ->
  Forall (fun p => work (fst p) = Some (snd p)) l1 -> Forall (fun p => work (fst p) = Some (snd p)) l2 ->
  Permutation l1 l2.
Proof.
  intros Hp H1 H2.
  assert (Ho : forall l, Forall (fun p => work (fst p) = Some (snd p)) l ->
               map (fun p => Some p) l = map (fun i => option_map (pair i) (work i)) (map fst l)).
  { induction 1 as [|[i m] l Hx _ IH]; cbn; [reflexivity|]. cbn in Hx. rewrite Hx, IH. reflexivity. }
  assert (Hpm : Permutation (map (fun p => Some p) l1) (map (fun p => Some p) l2)).
  { rewrite (Ho l1 H1), (Ho l2 H2). apply Permutation_map. exact Hp. }
  apply Permutation_map_inv in Hpm. destruct Hpm as (l3 & E & Hp3).
  assert (Hinj : forall (a b : list (nat * M)), map (fun p => Some p) a = map (fun p => Some p) b -> a = b).
  { induction a as [|x a IH]; intros [|y b]; cbn; try discriminate; intros C; [reflexivity|].
    injection C as -> C. f_equal. apply IH. exact C. }
  apply Hinj in E. subst. symmetry. assumption.
Qed.

Theorem C33_order_of_completion_irrelevant :
  forall {M} (work : nat -> option M) (mapping : M -> list mapped_to) n sched,
    Permutation sched (seq 1 n) ->
    let (ok, d) := par_runs work sched [] in
    let (ok', d') := seq_runs work n 1 [] in
    ok = ok' /\
    (ok = true -> length d = n /\ Permutation d d' /\
       (forall i m, In (i, m) d -> work i = Some m) /\
       forall j c, table (map (fun p => mapping (snd p)) d) j c = table (map (fun p => mapping (snd p)) d') j c /\
                   unmapped (map (fun p => mapping (snd p)) d) j = unmapped (map (fun p => mapping (snd p)) d') j).
Proof.
  intros M work mapping n sched Hp.
  assert (Hseq : forall t i d, (forall p, In p d -> fst p < i) ->
     match all_runs work (seq i t) with
     | Some l => seq_runs work t i d = (true, d ++ l)
     | None => fst (seq_runs work t i d) = false
     end).
  { induction t as [|t IH]; intros i d Hd; cbn [seq all_runs seq_runs].
    - rewrite app_nil_r. reflexivity.
    - destruct (work i) as [m|]; [|reflexivity].
      assert (Hf : dict_set d i m = d ++ [(i, m)]).
      { apply dict_set_fresh. intros C. apply in_map_iff in C. destruct C as (p & Hpi & Hin). specialize (Hd p Hin). lia. }
      rewrite Hf. specialize (IH (S i) (d ++ [(i, m)])).
      assert (Hd' : forall p, In p (d ++ [(i, m)]) -> fst p < S i).
      { intros p Hin. apply in_app_or in Hin. destruct Hin as [Hin|[<-|[]]]; [specialize (Hd p Hin); lia|cbn; lia]. }
      specialize (IH Hd'). destruct (all_runs work (seq (S i) t)) as [l|]; [|exact IH].
      rewrite IH, <- app_assoc. reflexivity. }
  specialize (Hseq n 1 [] ltac:(intros p [])). unfold par_runs.
  assert (Hiff : (exists l, all_runs work sched = Some l) <-> (exists l, all_runs work (seq 1 n) = Some l)).
  { rewrite !all_runs_total. split; intros H i Hi; apply H;
      [exact (Permutation_in _ (Permutation_sym Hp) Hi)|exact (Permutation_in _ Hp Hi)]. }
  destruct (all_runs work sched) as [l|] eqn:El, (all_runs work (seq 1 n)) as [l'|] eqn:El'.
  - rewrite Hseq. split; [reflexivity|]. intros _.
    apply all_runs_spec in El, El'. destruct El as [Ef El], El' as [Ef' El'].
    assert (Hnd : NoDup (map fst l)).
    { rewrite Ef. eapply Permutation_NoDup; [symmetry; exact Hp|apply seq_NoDup]. }
    rewrite fold_dict_fresh by exact Hnd. cbn [app].
    assert (Hpl : Permutation l l') by (apply (perm_values work); [rewrite Ef, Ef'; exact Hp|exact El|exact El']).
    split. { rewrite <- (map_length fst l), Ef, (Permutation_length Hp). apply seq_length. }
    split; [exact Hpl|]. split.
    { intros i m Hin. rewrite Forall_forall in El. exact (El (i, m) Hin). }
    intros j c. unfold table, unmapped. rewrite !fold_add. cbn [Nat.add].
    split; apply list_sum_perm, Permutation_map, Permutation_map; exact Hpl.
  - exfalso. destruct Hiff as [H _]. destruct H as [x C]; [eauto|discriminate].
  - exfalso. destruct Hiff as [_ H]. destruct H as [x C]; [eauto|discriminate].
  - destruct (seq_runs work n 1 []) as [ok' d']. cbn in Hseq. subst ok'. split; [reflexivity|discriminate].
Qed.
Print Assumptions C33_order_of_completion_irrelevant.
(* two runs, in each of which one factor is mapped and one is not *)
Definition xo_runs : list (list mapped_to) :=
  [[mkMap 1 (Fin 1) true; mkMap 0 NaN false]; [mkMap 0 NaN false; mkMap 1 (Fin 1) true]].
Lemma xo_well : forall mp, In mp xo_runs -> well_mapped 2 mp.
Proof.
  intros mp [<- | [<- | []]]; (split; [reflexivity | intros e [<- | [<- | []]]; cbn; lia]).
Qed.
Example C33_rows_account_for_every_run_example :=
  C33_rows_account_for_every_run 2 xo_runs 1 ltac:(lia) xo_well.
Example C33_mappings_are_complete_example :=
  C33_mappings_are_complete 2 2 3 3 xo_W xo_H xo_W (fun i j => (2 * xo_H i j)%R) (Fin (8 / 10)).
Lemma xo_perm : Permutation [3; 1; 2] (seq 1 3).
Proof. cbn. transitivity [1; 3; 2]; [constructor | constructor; constructor]. Qed.
Example C33_order_of_completion_irrelevant_example :=
  C33_order_of_completion_irrelevant (fun i => Some i) (fun i => nth (i - 1) xo_runs []) 3 [3; 1; 2] xo_perm.

(** The list of losses (q_results), read off the same dictionary, does depend on
    the order. *)
Theorem C33_loss_order_refuted :
  exists (work : nat -> option nat) s1 s2, Permutation s1 s2 /\
    map snd (snd (par_runs work s1 [])) <> map snd (snd (par_runs work s2 [])).
Proof.
  exists (fun i => Some i), [1; 2], [2; 1]. split; [apply perm_swap|]. cbn. discriminate.
Qed.
Print Assumptions C33_loss_order_refuted.

Example C33_instance :
  let e := mkMap 1 (Fin 1) true in let u := mkMap 0 NaN false in
  well_mapped 2 [e; u] /\ sum_nat 2 (table [[e; u]; [u; e]] 0) = 1 /\ unmapped [[e; u]; [u; e]] 0 = 1.
Proof.
  cbv zeta. split; [|split; reflexivity]. split; [reflexivity|].
  intros e [<-|[<-|[]]]; cbn; lia.
Qed.

(** ** C34: the results are modified when compiled or shown. *)
Local Open Scope R_scope.

Lemma zap_row_spec eps i H a b :
  zap_row eps i H a b = (if (a =? i)%nat then (if Rltb (H a b) eps then 0 else H a b) else H a b).
Proof. reflexivity. Qed.

Lemma zap_rows_spec eps k : forall i H a b, 0 < eps ->
  fold_left (fun h i => zap_row eps i h) (seq i k) H a b
  = (if ((i <=? a) && (a <? i + k))%nat then (if Rltb (H a b) eps then 0 else H a b) else H a b).
Proof.
  induction k as [|k IH]; intros i H a b He; cbn [seq fold_left].
  - destruct (Nat.leb_spec i a), (Nat.ltb_spec a (i + 0)); try reflexivity. lia.
  - rewrite IH by exact He. rewrite zap_row_spec.
    destruct (Nat.eqb_spec a i) as [->|Hne].
    + destruct (Nat.leb_spec (S i) i); [lia|]. destruct (Nat.leb_spec i i); [|lia].
      destruct (Nat.ltb_spec i (i + S k)); [|lia]. cbn [andb]. reflexivity.
    + destruct (Nat.leb_spec (S i) a), (Nat.leb_spec i a), (Nat.ltb_spec a (S i + k)), (Nat.ltb_spec a (i + S k));
        try lia; reflexivity.
Qed.

Theorem C34_statistics_zero_small_entries :
  forall k (H : mat) a b,
    ((a < k)%nat -> H a b < / 100000000 -> factor_statistics k H a b = 0) /\
    ((a < k)%nat -> / 100000000 <= H a b -> factor_statistics k H a b = H a b) /\
    factor_statistics k (factor_statistics k H) a b = factor_statistics k H a b.
Proof.
  intros k H a b. assert (He : 0 < EPS8) by (unfold EPS8; lra).
  assert (Hs : forall h, factor_statistics k h a b = (if (a <? k)%nat then (if Rltb (h a b) EPS8 then 0 else h a b) else h a b)).
  { intros h. unfold factor_statistics. rewrite zap_rows_spec by exact He. reflexivity. }
  rewrite !Hs. split; [|split].
  - intros Ha Hv. destruct (Nat.ltb_spec a k); [|lia]. destruct (Rltb (H a b) EPS8) eqn:E; [reflexivity|].
    apply Rltb_false in E. unfold EPS8 in E. lra.
  - intros Ha Hv. destruct (Nat.ltb_spec a k); [|lia]. destruct (Rltb (H a b) EPS8) eqn:E; [|reflexivity].
    apply Rltb_iff in E. unfold EPS8 in E. lra.
  - destruct (Nat.ltb_spec a k); [|reflexivity]. destruct (Rltb (H a b) EPS8) eqn:E; [|rewrite E; reflexivity].
    destruct (Rltb 0 EPS8); reflexivity.
Qed.
Print Assumptions C34_statistics_zero_small_entries.

Lemma show_factor_spec k f H a b :
  show_factor k f H a b
  = (if ((1 <=? f) && (f <=? Z.of_nat k) && (Z.of_nat a =? f - 1))%Z
     then (if Rltb (H a b) EPS5 then 0 else H a b) else H a b).
Proof.
  unfold show_factor.
  destruct (Z.ltb_spec (Z.of_nat k) f), (Z.ltb_spec f 1), (Z.leb_spec 1 f), (Z.leb_spec f (Z.of_nat k)); try lia; cbn [orb andb]; try reflexivity.
  rewrite zap_row_spec. destruct (Nat.eqb_spec a (Z.to_nat (f - 1))), (Z.eqb_spec (Z.of_nat a) (f - 1)); try lia; reflexivity.
Qed.

(** Every history of displays: an entry is zero exactly if it was small and its
    factor was displayed; otherwise it is untouched. *)
Theorem C34_display_history :
  forall k (history : list Z) (H : mat) a b, (a < k)%nat ->
    let H' := fold_left (fun h f => show_factor k f h) history H in
    (In (Z.of_nat a + 1)%Z history -> H a b < / 100000 -> H' a b = 0) /\
    (~ In (Z.of_nat a + 1)%Z history \/ / 100000 <= H a b -> H' a b = H a b).
Proof.
  intros k history H a b Ha H'.
  assert (Hs : H' a b = if in_dec Z.eq_dec (Z.of_nat a + 1)%Z history
                        then (if Rltb (H a b) EPS5 then 0 else H a b) else H a b).
  { unfold H'. clear H'. revert H. induction history as [|f l IH]; intros H; cbn [fold_left].
    - destruct (in_dec _ _ _) as [[]|]; reflexivity.
    - rewrite IH. rewrite show_factor_spec.
      destruct (Z.eq_dec f (Z.of_nat a + 1)) as [->|Hne].
      + destruct (in_dec Z.eq_dec (Z.of_nat a + 1)%Z ((Z.of_nat a + 1)%Z :: l)) as [_|C]; [|destruct C; left; reflexivity].
        destruct (Z.leb_spec 1 (Z.of_nat a + 1)), (Z.leb_spec (Z.of_nat a + 1) (Z.of_nat k)), (Z.eqb_spec (Z.of_nat a) (Z.of_nat a + 1 - 1)); try lia.
        cbn [andb]. destruct (Rltb (H a b) EPS5) eqn:E.
        * destruct (in_dec _ _ _); [|reflexivity]. destruct (Rltb 0 EPS5); reflexivity.
        * rewrite E. destruct (in_dec _ _ _); reflexivity.
      + assert (Hf : (((1 <=? f) && (f <=? Z.of_nat k) && (Z.of_nat a =? f - 1))%Z) = false).
        { destruct (Z.eqb_spec (Z.of_nat a) (f - 1)); [lia|]. apply andb_false_r. }
        rewrite Hf.
        destruct (in_dec Z.eq_dec (Z.of_nat a + 1)%Z l) as [Hl|Hl],
                 (in_dec Z.eq_dec (Z.of_nat a + 1)%Z (f :: l)) as [Hl'|Hl']; try reflexivity.
        * destruct Hl'. right. exact Hl.
        * destruct Hl' as [C|C]; [congruence|contradiction]. }
  rewrite Hs. split.
  - intros Hin Hv. destruct (in_dec _ _ _); [|contradiction].
    destruct (Rltb (H a b) EPS5) eqn:E; [reflexivity|]. apply Rltb_false in E. unfold EPS5 in E. lra.
  - intros Hor. destruct (in_dec _ _ _); [|reflexivity]. destruct Hor as [C|Hv]; [contradiction|].
    destruct (Rltb (H a b) EPS5) eqn:E; [|reflexivity]. apply Rltb_iff in E. unfold EPS5 in E. lra.
Qed.
Print Assumptions C34_display_history.
Definition xo_small : mat := fun a b => if (b =? 0)%nat then (/ 1000000000)%R else 5%R.
Example C34_statistics_zero_small_entries_example :
  factor_statistics 2 xo_small 1%nat 0%nat = 0%R /\ factor_statistics 2 xo_small 1%nat 1%nat = 5%R.
Proof.
  split.
  - apply (proj1 (C34_statistics_zero_small_entries 2 xo_small 1%nat 0%nat)); [lia | unfold xo_small; cbn; lra].
  - apply (proj1 (proj2 (C34_statistics_zero_small_entries 2 xo_small 1%nat 1%nat))); [lia | unfold xo_small; cbn; lra].
Qed.
Example C34_display_history_example :
  fold_left (fun h f => show_factor 2 f h) [2; 1]%Z xo_small 0%nat 0%nat = 0%R /\
  fold_left (fun h f => show_factor 2 f h) [2; 2]%Z xo_small 0%nat 0%nat = (/ 1000000000)%R.
Proof.
  split.
  - apply (proj1 (C34_display_history 2 [2; 1]%Z xo_small 0%nat 0%nat ltac:(lia))); [cbn; tauto | unfold xo_small; cbn; lra].
  - apply (proj2 (C34_display_history 2 [2; 2]%Z xo_small 0%nat 0%nat ltac:(lia))). left. cbn. lia.
Qed.

(** Showing a factor is not read-only for the base model. *)
Theorem C34_display_read_only_refuted :
  exists k (H : mat), summary k H 0%nat 0%nat <> H 0%nat 0%nat.
Proof.
  exists 1%nat, (fun _ _ => / 1000000). unfold summary. cbn [seq fold_left].
  rewrite show_factor_spec. cbn. destruct (Rltb (/ 1000000) EPS5) eqn:E.
  - lra.
  - apply Rltb_false in E. unfold EPS5 in E. lra.
Qed.
Print Assumptions C34_display_read_only_refuted.

Example C34_instance :
  let H := (fun a b => if (b =? 0)%nat then / 1000000000 else 5) : mat in
  (0 < 2)%nat /\ H 0%nat 0%nat < / 100000000 /\ / 100000 <= H 0%nat 1%nat /\ In (Z.of_nat 0 + 1)%Z [2; 1]%Z.
Proof. intros H. unfold H; cbn [Nat.eqb]. repeat split; try lia; try lra. cbn; auto. Qed.


(** ** C63: more than 127 runs. *)
Local Open Scope nat_scope.

Theorem C63_at_most_127_runs :
  forall {M} (work : nat -> option M) n sched d,
    (forall i, work i <> None) -> Permutation sched (seq 1 n) ->
    (fst (par_runs (i8_run work) sched d) = true <-> n <= 127) /\
    (fst (seq_runs (i8_run work) n 1 d) = true <-> n <= 127) /\
    (127 < n -> par_runs (i8_run work) sched d = (false, d) /\
                seq_runs (i8_run work) n 1 d = (false, snd (seq_runs work 127 1 d))).
Proof.
  intros M work n sched d Hw Hp.
  assert (Hpar : (exists l, all_runs (i8_run work) sched = Some l) <-> n <= 127).
  { rewrite all_runs_total. unfold i8_run. split.
    - intros H. destruct (Nat.le_gt_cases n 127) as [|Hgt]; [assumption|exfalso].
      apply (H 128); [|reflexivity]. eapply Permutation_in; [symmetry; exact Hp|]. apply in_seq. lia.
    - intros Hle i Hi. apply (Permutation_in _ Hp) in Hi. apply in_seq in Hi.
      destruct (Nat.ltb_spec 127 i); [lia|apply Hw]. }
  assert (Hseq1 : forall t i d, i + t <= 128 -> seq_runs (i8_run work) t i d = seq_runs work t i d).
  { induction t as [|t IH]; intros i d' Ht; cbn [seq_runs]; [reflexivity|].
    unfold i8_run at 1. destruct (Nat.ltb_spec 127 i); [lia|]. destruct (work i); [|reflexivity]. apply IH. lia. }
  assert (Hok : forall t i d, fst (seq_runs work t i d) = true).
  { induction t as [|t IH]; intros i d'; cbn [seq_runs]; [reflexivity|].
    destruct (work i) eqn:E; [apply IH|]. destruct (Hw i E). }
  assert (Hseq2 : forall t i d, i <= 128 -> 128 < i + t ->
    seq_runs (i8_run work) t i d = (false, snd (seq_runs work (128 - i) i d))).
  { induction t as [|t IH]; intros i d' Hi Ht; [lia|]. cbn [seq_runs]. unfold i8_run at 1.
    destruct (Nat.ltb_spec 127 i).
    - replace i with 128 by lia. reflexivity.
    - replace (128 - i) with (S (128 - S i)) by lia. cbn [seq_runs].
      destruct (work i) eqn:E; [|reflexivity]. apply IH; lia. }
  split; [|split].
  - rewrite <- Hpar. unfold par_runs. destruct (all_runs (i8_run work) sched) as [l|]; cbn.
    + split; [intros _; eexists; reflexivity|reflexivity].
    + split; [discriminate|intros [l C]; discriminate].
  - split.
    + intros H. destruct (Nat.le_gt_cases n 127) as [|Hgt]; [assumption|exfalso].
      rewrite Hseq2 in H by lia. discriminate.
    + intros Hle. rewrite Hseq1 by lia. apply Hok.
  - intros Hgt. split.
    + unfold par_runs. destruct (all_runs (i8_run work) sched) as [l|] eqn:E; [|reflexivity].
      assert (n <= 127) by (apply Hpar; eauto). lia.
    + rewrite Hseq2 by lia. reflexivity.
Qed.
Print Assumptions C63_at_most_127_runs.
Lemma xo_work : forall i : nat, (fun i : nat => Some i) i <> None.
Proof. discriminate. Qed.
Example C63_at_most_127_runs_example :=
  C63_at_most_127_runs (fun i : nat => Some i) 200 (seq 1 200) [] xo_work (Permutation_refl _).

Example C63_instance : (forall i, (fun i : nat => Some i) i <> None) /\ 127 < 200.
Proof. split; [discriminate|lia]. Qed.
