(** Properties of CmpView_Model. *)
From Coq Require Import List Bool Arith ZArith Lia Reals Lra String Permutation.
From Verif Require Import Base Fl TimePlot_Model TimePlot_Props CmpView_Model.
Import ListNotations.
Local Open Scope R_scope.

(** What a user hands over: distinct features, the rows of all profile tables in their
    order, and mappings that name a column for every factor. *)
Definition names (k : nat) (mp : list nat) : Prop := List.length mp = k /\ forall q, In q mp -> (1 <= q <= k)%nat.
Definition regular (a : analyzer) : Prop :=
  NoDup (c_features a) /\ species (pmf a) = c_features a /\ species (ls a) = c_features a /\ species (ws a) = c_features a /\
  names (c_k a) (ls_map a) /\ names (c_k a) (ws_map a).
(** Number (from 0) of the column named for factor [f]. *)
Definition col (mp : list nat) (f : nat) : nat := (nth f mp 1 - 1)%nat.
Definition total (k : nat) (s : solution) (j : nat) : R := rsum k (fun f => prof s f j).

Lemma index_of_nth l j x : NoDup l -> nth_error l j = Some x -> index_of x l = Some j.
Proof.
  revert j. induction l as [|y l IH]; intros [|j] ND H; cbn in *; try discriminate.
  - injection H as ->. rewrite String.eqb_refl. reflexivity.
  - inversion ND; subst. destruct (String.eqb_spec y x) as [-> | N]; [exfalso; eauto using nth_error_In|]. rewrite (IH j) by assumption. reflexivity.
Qed.
Lemma index_of_none l x : ~ In x l -> index_of x l = None.
Proof.
  induction l as [|y l IH]; intros H; cbn; [reflexivity|]. destruct (String.eqb_spec y x) as [-> | N]; [exfalso; apply H; now left|].
  rewrite IH; [reflexivity|]. intros C. apply H. now right.
Qed.
Lemma standardize_fin k s f j : total k s j <> 0 -> standardize k s f j = Fin (prof s f j / total k s j).
Proof. intros H. unfold standardize, fdiv, total in *. destruct (Req_EM_T _ 0); [contradiction|reflexivity]. Qed.
Lemma mapped_names k mp f : names k mp -> (f < k)%nat -> mapped k mp f = Ok (col mp f) /\ (col mp f < k)%nat.
Proof.
  intros [L H] Hf. unfold mapped, col. destruct (nth_error mp f) as [q|] eqn:E.
  - rewrite (nth_error_nth _ _ 1%nat E). specialize (H q (nth_error_In _ _ E)).
    destruct (Nat.leb_spec 1 q), (Nat.leb_spec q k); cbn; try lia. split; [reflexivity|lia].
  - apply nth_error_None in E. lia.
Qed.
Lemma each_total {A B} (f : A -> res B) (g : A -> B) l : (forall x, In x l -> f x = Ok (g x)) -> each f l = Ok (map g l).
Proof. induction l as [|x l IH]; intros H; cbn; [reflexivity|]. rewrite H by (now left). cbn. rewrite IH by (intros; apply H; now right). reflexivity. Qed.
Lemma each_raise {A B} (f : A -> res B) (g : A -> B) l1 x l2 e : (forall y, In y l1 -> f y = Ok (g y)) -> f x = Raise e -> each f (l1 ++ x :: l2) = Raise e.
Proof.
  induction l1 as [|y l1 IH]; intros H E; cbn; [rewrite E; reflexivity|]. rewrite H by (now left). cbn. rewrite IH; [reflexivity| |exact E]. intros; apply H; now right.
Qed.

(** ** Pies *)
Definition lookup_pie (p : list (nat * fl)) (q : nat) : fl := match find (fun x => (fst x =? q)%nat) p with Some x => snd x | None => NaN end.
(** The pies show, for the feature asked for (or the one of the number given, modulo
    their number), the share of each factor of each solution under its own number. *)
Theorem C139_pies : forall a x j i, regular a -> c_array a = true -> nth_error (c_features a) j = Some x ->
  (forall s, In s [pmf a; ls a; ws a] -> total (c_k a) s j <> 0) ->
  exists p1 p2 p3, plot_factor_contribution a (Some x) i = Ok (x, [p1; p2; p3]) /\
    (forall y, ~ In y (c_features a) -> (i mod Z.of_nat (List.length (c_features a)) = Z.of_nat j)%Z ->
       plot_factor_contribution a (Some y) i = Ok (x, [p1; p2; p3]) /\ plot_factor_contribution a None i = Ok (x, [p1; p2; p3])) /\
    forall s p, In (s, p) [(pmf a, p1); (ls a, p2); (ws a, p3)] ->
      List.length p = c_k a /\ (forall f, (f < c_k a)%nat -> nth_error p f = Some (S f, Fin (prof s f j / total (c_k a) s j))) /\
      exists v, map snd p = map Fin v /\ lsum v = 1.
Proof.
  intros a x j i (ND & E1 & E2 & E3 & _) Ha Hx Ht.
  assert (Ix : index_of x (c_features a) = Some j) by (apply index_of_nth; assumption).
  assert (Hj : (j < List.length (c_features a))%nat) by (apply nth_error_Some; rewrite Hx; discriminate).
  assert (W : forall s, In s [pmf a; ls a; ws a] -> with_features a s = Ok tt).
  { intros s Hs. unfold with_features. replace (species s) with (c_features a); [rewrite Nat.eqb_refl; reflexivity|]. destruct Hs as [<- | [<- | [<- | []]]]; congruence. }
  assert (Go : forall y, y = Ok x -> bind y (fun x => bind (with_features a (pmf a)) (fun _ => bind (with_features a (ls a)) (fun _ => bind (with_features a (ws a)) (fun _ =>
      if c_array a then match index_of x (c_features a) with Some j => Ok (x, [pie a (pmf a) j; pie a (ls a) j; pie a (ws a) j]) | None => Raise IndexError end else Raise KeyError)))) =
      Ok (x, [pie a (pmf a) j; pie a (ls a) j; pie a (ws a) j])).
  { intros y ->. cbn [bind]. rewrite !W by (cbn; tauto). cbn [bind]. rewrite Ha, Ix. reflexivity. }
  exists (pie a (pmf a) j), (pie a (ls a) j), (pie a (ws a) j). split; [|split].
  - unfold plot_factor_contribution. apply Go. unfold pick. rewrite Ix. reflexivity.
  - intros y Hy Hi.
    assert (Fb : (if (List.length (c_features a) =? 0)%nat then Raise ZeroDivisionError
                  else match nth_error (c_features a) (Z.to_nat (i mod Z.of_nat (List.length (c_features a)))) with Some y => Ok y | None => Raise IndexError end) = Ok x).
    { destruct (Nat.eqb_spec (List.length (c_features a)) 0); [lia|]. rewrite Hi, Nat2Z.id, Hx. reflexivity. }
    split; unfold plot_factor_contribution; apply Go; unfold pick; [rewrite (index_of_none _ _ Hy)|]; exact Fb.
  - intros s p Hsp. assert (Hs : In s [pmf a; ls a; ws a] /\ p = pie a s j).
    { destruct Hsp as [H | [H | [H | []]]]; injection H as <- <-; cbn; tauto. }
    destruct Hs as [Hs ->]. specialize (Ht s Hs). unfold pie. rewrite map_length, seq_length. split; [reflexivity|].
    assert (Sd : forall f, standardize (c_k a) s f j = Fin (prof s f j / total (c_k a) s j)) by (intros; apply standardize_fin, Ht).
    split.
    + intros f Hf. erewrite map_nth_error; [rewrite Sd; reflexivity|]. rewrite nth_error_nth' with (d := O) by (rewrite seq_length; exact Hf). rewrite seq_nth by exact Hf. reflexivity.
    + exists (map (fun f => prof s f j / total (c_k a) s j) (seq 0 (c_k a))). split.
      * rewrite !map_map. cbn [snd]. apply map_ext. exact Sd.
      * rewrite <- rsum_lsum. unfold Rdiv. rewrite rsum_scal_r. fold (total (c_k a) s j). apply Rinv_r, Ht.
Qed.
Print Assumptions C139_pies.

(** Features given as a list instead of an array: never a figure. *)
Theorem C139_pies_need_array : forall a feature i, c_array a = false -> forall r, plot_factor_contribution a feature i <> Ok r.
Proof.
  intros a feature i Ha r. unfold plot_factor_contribution. destruct (pick a feature i true); cbn; [|discriminate].
  destruct (with_features a (pmf a)); cbn; [|discriminate]. destruct (with_features a (ls a)); cbn; [|discriminate].
  destruct (with_features a (ws a)); cbn; [|discriminate]. rewrite Ha. discriminate.
Qed.
Print Assumptions C139_pies_need_array.

(** ** Fingerprints *)
Definition stack (bars : list bar) (j : nat) : fl :=
  fold_left fadd (map (fun b => match nth_error (snd b) j with Some p => snd p | None => NaN end) bars) (Fin 0).
Lemma fold_fin l : forall x, fold_left fadd (map Fin l) (Fin x) = Fin (x + lsum l).
Proof. induction l as [|y l IH]; intros x; cbn; [f_equal; lra|]. rewrite IH. f_equal. lra. Qed.
Lemma percent_nth a s f j : (j < List.length (species s))%nat ->
  nth_error (percent a s f) j = Some (nth j (species s) EmptyString, fmul (Fin 100) (standardize (c_k a) s f j)).
Proof.
  intros Hj. unfold percent. erewrite map_nth_error; [reflexivity|]. rewrite nth_error_nth' with (d := O) by (rewrite seq_length; exact Hj). rewrite seq_nth by exact Hj. reflexivity.
Qed.

(** The bars, last factor first: the matched factors at the same place.  They stack to
    100 for a feature of which something is attributed, if every column is named once. *)
Theorem C139_fingerprints : forall a r1 r2, regular a ->
  exists g, plot_fingerprints a r1 r2 = Ok g /\
    (title_ls g = if Rlt_dec 0 r1 then Some r1 else None) /\ (title_ws g = if Rlt_dec 0 r2 then Some r2 else None) /\
    List.length (g_pmf g) = c_k a /\ List.length (g_ls g) = c_k a /\ List.length (g_ws g) = c_k a /\
    (forall f, (f < c_k a)%nat -> exists b1 b2 b3,
       nth_error (g_pmf g) (c_k a - 1 - f) = Some (S f, b1) /\ nth_error (g_ls g) (c_k a - 1 - f) = Some (nth f (ls_map a) 1%nat, b2) /\
       nth_error (g_ws g) (c_k a - 1 - f) = Some (nth f (ws_map a) 1%nat, b3) /\
       forall j x, nth_error (c_features a) j = Some x ->
         (total (c_k a) (pmf a) j <> 0 -> nth_error b1 j = Some (x, Fin (100 * (prof (pmf a) f j / total (c_k a) (pmf a) j)))) /\
         (total (c_k a) (ls a) j <> 0 -> nth_error b2 j = Some (x, Fin (100 * (prof (ls a) (col (ls_map a) f) j / total (c_k a) (ls a) j)))) /\
         (total (c_k a) (ws a) j <> 0 -> nth_error b3 j = Some (x, Fin (100 * (prof (ws a) (col (ws_map a) f) j / total (c_k a) (ws a) j))))) /\
    (forall j, (j < List.length (c_features a))%nat ->
       (total (c_k a) (pmf a) j <> 0 -> stack (g_pmf g) j = Fin 100) /\
       (bij (c_k a) (col (ls_map a)) -> total (c_k a) (ls a) j <> 0 -> stack (g_ls g) j = Fin 100) /\
       (bij (c_k a) (col (ws_map a)) -> total (c_k a) (ws a) j <> 0 -> stack (g_ws g) j = Fin 100)).
Proof.
  intros a r1 r2 (ND & E1 & E2 & E3 & N1 & N2). unfold plot_fingerprints.
  set (gf := fun f => ((S f, percent a (pmf a) f), (S (col (ls_map a) f), percent a (ls a) (col (ls_map a) f)), (S (col (ws_map a) f), percent a (ws a) (col (ws_map a) f))) : bar * bar * bar).
  rewrite (each_total _ gf).
  2:{ intros f Hf. rewrite <- in_rev in Hf. apply in_seq in Hf. destruct (mapped_names _ _ f N1 ltac:(lia)) as [-> _], (mapped_names _ _ f N2 ltac:(lia)) as [-> _]. reflexivity. }
  cbn [bind]. eexists. split; [reflexivity|]. cbn [title_ls title_ws g_pmf g_ls g_ws].
  split; [unfold Rltb; destruct (Rlt_dec 0 r1); reflexivity|]. split; [unfold Rltb; destruct (Rlt_dec 0 r2); reflexivity|].
  rewrite !map_map, !map_length, rev_length, seq_length. split; [reflexivity|]. split; [reflexivity|]. split; [reflexivity|].
  assert (Rv : forall f, (f < c_k a)%nat -> nth_error (rev (seq 0 (c_k a))) (c_k a - 1 - f) = Some f).
  { intros f Hf. rewrite nth_error_nth' with (d := O) by (rewrite rev_length, seq_length; lia). rewrite rev_nth by (rewrite seq_length; lia). rewrite seq_length, seq_nth by lia. f_equal. lia. }
  assert (Nm : forall mp f, names (c_k a) mp -> (f < c_k a)%nat -> S (col mp f) = nth f mp 1%nat).
  { intros mp f [L H] Hf. unfold col. assert (In (nth f mp 1%nat) mp) as Hin by (apply nth_In; lia). specialize (H _ Hin). lia. }
  split.
  - intros f Hf. exists (percent a (pmf a) f), (percent a (ls a) (col (ls_map a) f)), (percent a (ws a) (col (ws_map a) f)).
    rewrite <- (Nm _ f N1 Hf), <- (Nm _ f N2 Hf).
    split; [erewrite map_nth_error by (apply Rv; exact Hf); reflexivity|]. split; [erewrite map_nth_error by (apply Rv; exact Hf); reflexivity|].
    split; [erewrite map_nth_error by (apply Rv; exact Hf); reflexivity|]. intros j x Hx.
    assert (Hj : (j < List.length (c_features a))%nat) by (apply nth_error_Some; rewrite Hx; discriminate).
    assert (G : forall s g, species s = c_features a -> total (c_k a) s j <> 0 -> nth_error (percent a s g) j = Some (x, Fin (100 * (prof s g j / total (c_k a) s j)))).
    { intros s g Es Ht. rewrite percent_nth by (rewrite Es; exact Hj). rewrite Es, (nth_error_nth _ _ EmptyString Hx), standardize_fin by exact Ht. reflexivity. }
    repeat split; intros; apply G; assumption.
  - intros j Hj.
    assert (St : forall s (c : nat -> nat), species s = c_features a -> total (c_k a) s j <> 0 -> bij (c_k a) c ->
      stack (map (fun f => (S (c f), percent a s (c f))) (rev (seq 0 (c_k a)))) j = Fin 100).
    { intros s c Es Ht Hb. unfold stack. rewrite map_map. cbn [snd].
      rewrite (map_ext _ (fun f => Fin (100 * (prof s (c f) j / total (c_k a) s j)))).
      2:{ intros f. rewrite percent_nth by (rewrite Es; exact Hj). cbn [snd]. rewrite standardize_fin by exact Ht. reflexivity. }
      rewrite <- (map_map (fun f => 100 * (prof s (c f) j / total (c_k a) s j)) Fin). rewrite fold_fin. f_equal. rewrite Rplus_0_l.
      rewrite map_rev, (lsum_perm _ _ (Permutation_sym (Permutation_rev _))), <- rsum_lsum.
      rewrite (rsum_reindex (c_k a) c (fun f => 100 * (prof s f j / total (c_k a) s j)) Hb).
      rewrite (rsum_ext _ _ (fun f => (100 / total (c_k a) s j) * prof s f j)) by (intros; field; exact Ht). rewrite rsum_scal_l. fold (total (c_k a) s j). field. exact Ht. }
    split; [|split]; intros.
    + apply (St (pmf a) (fun f => f)); auto. split; auto.
    + apply (St (ls a) (col (ls_map a))); auto.
    + apply (St (ws a) (col (ws_map a))); auto.
Qed.
Print Assumptions C139_fingerprints.

(** ** Normalised profiles *)
Theorem C139_factors : forall a, regular a ->
  ((c_k a <= 6)%nat -> exists rows, plot_factors a = Ok rows /\ List.length rows = c_k a /\
     forall f, (f < c_k a)%nat -> exists b1 b2 b3, nth_error rows f = Some ((S f, b1), (nth f (ws_map a) 1%nat, b2), (nth f (ls_map a) 1%nat, b3)) /\
       forall j x, nth_error (c_features a) j = Some x ->
         (total (c_k a) (pmf a) j <> 0 -> nth_error b1 j = Some (x, Fin (prof (pmf a) f j / total (c_k a) (pmf a) j))) /\
         (total (c_k a) (ws a) j <> 0 -> nth_error b2 j = Some (x, Fin (prof (ws a) (col (ws_map a) f) j / total (c_k a) (ws a) j))) /\
         (total (c_k a) (ls a) j <> 0 -> nth_error b3 j = Some (x, Fin (prof (ls a) (col (ls_map a) f) j / total (c_k a) (ls a) j)))) /\
  ((6 < c_k a)%nat -> plot_factors a = Raise ValueError).
Proof.
  intros a (ND & E1 & E2 & E3 & N1 & N2). unfold plot_factors.
  set (gf := fun f => ((S f, share_bars a (pmf a) f), (S (col (ws_map a) f), share_bars a (ws a) (col (ws_map a) f)), (S (col (ls_map a) f), share_bars a (ls a) (col (ls_map a) f))) : bar * bar * bar).
  assert (G : forall f, (f < c_k a)%nat -> bind (mapped (c_k a) (ws_map a) f) (fun w => bind (mapped (c_k a) (ls_map a) f) (fun l =>
          if (f <? 6)%nat then Ok ((S f, share_bars a (pmf a) f), (S w, share_bars a (ws a) w), (S l, share_bars a (ls a) l)) else Raise ValueError)) =
          if (f <? 6)%nat then Ok (gf f) else Raise ValueError).
  { intros f Hf. destruct (mapped_names _ _ f N1 Hf) as [-> _], (mapped_names _ _ f N2 Hf) as [-> _]. reflexivity. }
  assert (Nm : forall mp f, names (c_k a) mp -> (f < c_k a)%nat -> S (col mp f) = nth f mp 1%nat).
  { intros mp f [L H] Hf. unfold col. assert (In (nth f mp 1%nat) mp) as Hin by (apply nth_In; lia). specialize (H _ Hin). lia. }
  split.
  - intros Hk. rewrite (each_total _ gf).
    2:{ intros f Hf. apply in_seq in Hf. rewrite G by lia. destruct (Nat.ltb_spec f 6); [reflexivity|lia]. }
    eexists. split; [reflexivity|]. rewrite map_length, seq_length. split; [reflexivity|]. intros f Hf.
    exists (share_bars a (pmf a) f), (share_bars a (ws a) (col (ws_map a) f)), (share_bars a (ls a) (col (ls_map a) f)).
    rewrite <- (Nm _ f N1 Hf), <- (Nm _ f N2 Hf). split.
    { erewrite map_nth_error; [reflexivity|]. rewrite nth_error_nth' with (d := O) by (rewrite seq_length; exact Hf). rewrite seq_nth by exact Hf. reflexivity. }
    intros j x Hx. assert (Hj : (j < List.length (c_features a))%nat) by (apply nth_error_Some; rewrite Hx; discriminate).
    assert (Sb : forall s g, species s = c_features a -> total (c_k a) s j <> 0 -> nth_error (share_bars a s g) j = Some (x, Fin (prof s g j / total (c_k a) s j))).
    { intros s g Es Ht. unfold share_bars. erewrite map_nth_error; [rewrite standardize_fin by exact Ht; rewrite Es, (nth_error_nth _ _ EmptyString Hx); reflexivity|].
      rewrite nth_error_nth' with (d := O) by (rewrite seq_length, Es; exact Hj). rewrite seq_nth by (rewrite Es; exact Hj). reflexivity. }
    repeat split; intros; apply Sb; assumption.
  - intros Hk. assert (Es : seq 0 (c_k a) = seq 0 6 ++ 6%nat :: seq 7 (c_k a - 7)) by (replace (c_k a) with (6 + S (c_k a - 7))%nat at 1 by lia; rewrite seq_app; reflexivity).
    rewrite Es. apply (each_raise _ gf).
    + intros f Hf. apply in_seq in Hf. rewrite G by lia. destruct (Nat.ltb_spec f 6); [reflexivity|lia].
    + apply (G 6%nat). lia.
Qed.
Print Assumptions C139_factors.

(** ** One factor over time *)
Theorem C139_feature_timeseries : forall a f i j x show, regular a -> (f < c_k a)%nat -> nth_error (c_features a) j = Some x ->
  (i = Z.of_nat j \/ i = Z.of_nat j - Z.of_nat (List.length (c_features a)))%Z -> (show = true -> In x (c_columns a)) ->
  exists g, plot_feature_timeseries a f (OneFeature i) show = Ok [g] /\ ts_name g = x /\
    let line_of s q := map (fun t => (c_stamps a t, Fin (contr s t q * prof s q j))) (seq 0 (c_m a)) in
    ts_pmf g = line_of (pmf a) f /\ ts_ls g = line_of (ls a) (col (ls_map a) f) /\ ts_ws g = line_of (ws a) (col (ws_map a) f) /\
    ts_in g = if show then Some (map (fun t => Fin (c_input a t x)) (seq 0 (List.length (c_index a)))) else None.
Proof.
  intros a f i j x show (ND & E1 & E2 & E3 & N1 & N2) Hf Hx Hi Hc. unfold plot_feature_timeseries. destruct (Nat.leb_spec (c_k a) f); [lia|].
  assert (Hj : (j < List.length (c_features a))%nat) by (apply nth_error_Some; rewrite Hx; discriminate).
  assert (Ix : index_of x (c_features a) = Some j) by (apply index_of_nth; assumption).
  unfold product. rewrite E1, E2, E3, Nat.eqb_refl. cbn [bind].
  destruct (mapped_names _ _ f N1 Hf) as [-> _], (mapped_names _ _ f N2 Hf) as [-> _]. cbn [bind feature_list each].
  assert (Pi : py_index (List.length (c_features a)) i = Some j).
  { unfold py_index. destruct (Z.leb_spec (- Z.of_nat (List.length (c_features a))) i), (Z.ltb_spec i (Z.of_nat (List.length (c_features a)))); cbn; try lia.
    f_equal. destruct (Z.ltb_spec i 0); lia. }
  rewrite Pi, Hx, Ix. cbn [bind]. destruct show.
  - assert (Hin : exists q, index_of x (c_columns a) = Some q).
    { specialize (Hc eq_refl). clear - Hc. induction (c_columns a) as [|y l IH]; [destruct Hc|]. cbn. destruct (String.eqb_spec y x); [eauto|].
      destruct Hc as [-> | Hc]; [congruence|]. destruct (IH Hc) as (q & ->). cbn. eauto. }
    destruct Hin as (q & Eq). unfold input_line. rewrite Eq. cbn [bind]. eexists. split; [reflexivity|]. cbn. auto.
  - eexists. split; [reflexivity|]. cbn. auto.
Qed.
Print Assumptions C139_feature_timeseries.

(** ** All factors: fitted data over time, and residuals *)
Lemma fitted_regular a s : species s = c_features a ->
  fitted a s = Ok (fun x t => match index_of x (c_features a) with Some j => rsum (c_k a) (fun f => contr s t f * prof s f j) | None => 0 end).
Proof. intros E. unfold fitted. rewrite E, Nat.eqb_refl. reflexivity. Qed.

(** Daily means of the fitted data of each solution (all factors, no mapping needed) and
    of the input. *)
Theorem C139_timeseries : forall a x j i, regular a -> nth_error (c_features a) j = Some x -> In x (c_columns a) ->
  exists s1 s2 s3 s4, timeseries_plot a (Some x) i = Ok (x, [s1; s2; s3; s4]) /\
    (forall s sr, In (s, sr) [(pmf a, s1); (ls a, s2); (ws a, s3)] ->
       daily_means (fun t => (t < c_m a)%nat) (c_stamps a) (fun t => Fin (mmul (c_k a) (contr s) (prof s) t j)) sr) /\
    daily_means (fun t => (t < List.length (c_index a))%nat) (fun t => nth t (c_index a) 0%Z) (fun t => Fin (c_input a t x)) s4.
Proof.
  intros a x j i (ND & E1 & E2 & E3 & _) Hx Hc.
  assert (Ix : index_of x (c_features a) = Some j) by (apply index_of_nth; assumption).
  unfold timeseries_plot. rewrite !fitted_regular by assumption. cbn [bind]. unfold pick. rewrite Ix. cbn [bind]. unfold input_at.
  assert (Hin : exists q, index_of x (c_columns a) = Some q).
  { clear - Hc. induction (c_columns a) as [|y l IH]; [destruct Hc|]. cbn. destruct (String.eqb_spec y x); [eauto|].
    destruct Hc as [-> | Hc]; [congruence|]. destruct (IH Hc) as (q & ->). cbn. eauto. }
  destruct Hin as (q & ->). cbn [bind]. do 4 eexists. split; [reflexivity|]. rewrite Ix. split.
  - assert (D : forall s, daily_means (fun t => (t < c_m a)%nat) (c_stamps a) (fun t => Fin (mmul (c_k a) (contr s) (prof s) t j))
        (daily (c_stamps a) (seq 0 (c_m a)) (fun t => Fin (rsum (c_k a) (fun f => contr s t f * prof s f j))))).
    { intros s. eapply daily_means_ext; [| |apply daily_spec, seq_NoDup]; cbv beta; [intros t; rewrite in_seq; lia|reflexivity]. }
    intros s sr Hs. destruct Hs as [H | [H | [H | []]]]; injection H as <- <-; apply D.
  - eapply daily_means_ext; [| |apply daily_spec, seq_NoDup]; cbv beta; [intros t; rewrite in_seq; lia|reflexivity].
Qed.
Print Assumptions C139_timeseries.

(** Summary of some residuals. *)
Definition summary_of (m : nat) (th : R) (r : nat -> R) (s : stats) : Prop :=
  exists lo hi, st_min s = Fin lo /\ st_max s = Fin hi /\ st_mean s = Fin (rsum m r / INR m) /\
    (exists t, (t < m)%nat /\ r t = lo) /\ (exists t, (t < m)%nat /\ r t = hi) /\ (forall t, (t < m)%nat -> lo <= r t <= hi) /\
    exists big, NoDup big /\ (forall t, In t big <-> (t < m)%nat /\ th <= Rabs (r t)) /\ st_count s = List.length big.

Lemma fold_Rmin l : forall x, (fold_left Rmin l x = x \/ In (fold_left Rmin l x) l) /\ fold_left Rmin l x <= x /\ forall y, In y l -> fold_left Rmin l x <= y.
Proof.
  induction l as [|z l IH]; intros x; cbn; [repeat split; auto; [lra|tauto]|]. destruct (IH (Rmin x z)) as (H1 & H2 & H3).
  pose proof (Rmin_l x z). pose proof (Rmin_r x z). split; [|split].
  - destruct H1 as [H1 | H1]; [|tauto]. rewrite H1. destruct (Rle_dec x z); [rewrite Rmin_left by lra | rewrite Rmin_right by lra]; auto.
  - lra.
  - intros y [<- | Hy]; [lra|auto].
Qed.
Lemma fold_Rmax l : forall x, (fold_left Rmax l x = x \/ In (fold_left Rmax l x) l) /\ x <= fold_left Rmax l x /\ forall y, In y l -> y <= fold_left Rmax l x.
Proof.
  induction l as [|z l IH]; intros x; cbn; [repeat split; auto; [lra|tauto]|]. destruct (IH (Rmax x z)) as (H1 & H2 & H3).
  pose proof (Rmax_l x z). pose proof (Rmax_r x z). split; [|split].
  - destruct H1 as [H1 | H1]; [|tauto]. rewrite H1. destruct (Rle_dec x z); [rewrite Rmax_right by lra | rewrite Rmax_left by lra]; auto.
  - lra.
  - intros y [<- | Hy]; [lra|auto].
Qed.
Lemma values_fin l : values (map Fin l) = l.
Proof. induction l as [|x l IH]; cbn; [reflexivity|]. f_equal. exact IH. Qed.
Lemma values_nan {A} (l : list A) : values (map (fun _ => NaN) l) = [].
Proof. induction l as [|x l IH]; cbn; auto. Qed.
Lemma filter_map_length {A B} (f : A -> B) p l : List.length (filter p (map f l)) = List.length (filter (fun x => p (f x)) l).
Proof. induction l as [|x l IH]; cbn; [reflexivity|]. destruct (p (f x)); cbn; rewrite IH; reflexivity. Qed.
Lemma describe_spec m th r : (0 < m)%nat -> summary_of m th r (describe th (map (fun t => Fin (r t)) (seq 0 m))).
Proof.
  intros Hm. rewrite <- (map_map r Fin). unfold describe. rewrite values_fin.
  destruct (map r (seq 0 m)) as [|v l] eqn:E; [destruct m; [lia|discriminate]|].
  assert (L : S (List.length l) = m) by (apply (f_equal (@List.length R)) in E; rewrite map_length, seq_length in E; cbn in E; lia).
  assert (I1 : forall y, In y (v :: l) -> exists t, (t < m)%nat /\ r t = y).
  { rewrite <- E. intros y Hy. apply in_map_iff in Hy. destruct Hy as (t & <- & Ht). apply in_seq in Ht. exists t. split; [lia|reflexivity]. }
  assert (I2 : forall t, (t < m)%nat -> In (r t) (v :: l)) by (intros t Ht; rewrite <- E; apply in_map, in_seq; lia).
  destruct (fold_Rmin l v) as (A1 & A2 & A3), (fold_Rmax l v) as (B1 & B2 & B3).
  exists (fold_left Rmin l v), (fold_left Rmax l v). cbn [st_min st_max st_mean st_count]. split; [reflexivity|]. split; [reflexivity|].
  split; [rewrite <- E, L, <- rsum_lsum; reflexivity|].
  split; [apply I1; destruct A1 as [-> | A1]; [now left|now right]|]. split; [apply I1; destruct B1 as [-> | B1]; [now left|now right]|].
  split.
  - intros t Ht. destruct (I2 t Ht) as [<- | Hi]; [split; assumption|]. split; auto.
  - exists (filter (fun t => Rleb th (Rabs (r t))) (seq 0 m)). split; [apply NoDup_filter, seq_NoDup|]. split.
    + intros t. rewrite filter_In, in_seq. unfold Rleb. destruct (Rle_dec th (Rabs (r t))); split; intros [? ?]; split; try lia; try assumption; try reflexivity; try discriminate; contradiction.
    + rewrite <- E. apply (filter_map_length r (fun v => Rleb th (Rabs v))).
Qed.
Lemma zindex_nth l j z : NoDup l -> nth_error l j = Some z -> zindex z l = Some j.
Proof.
  revert j. induction l as [|y l IH]; intros [|j] ND H; cbn in *; try discriminate.
  - injection H as ->. rewrite Z.eqb_refl. reflexivity.
  - inversion ND; subst. destruct (Z.eqb_spec y z) as [-> | N]; [exfalso; eauto using nth_error_In|]. rewrite (IH j) by assumption. reflexivity.
Qed.
Lemma zindex_in l z i : zindex z l = Some i -> In z l.
Proof.
  revert i. induction l as [|y l IH]; cbn; intros i H; [discriminate|]. destruct (Z.eqb_spec y z); [now left|]. destruct (zindex z l) eqn:E; [right; eauto|discriminate].
Qed.

(** Residuals of the feature: input minus fitted data at each time, with their smallest,
    mean and largest value, and the number of those of at least the threshold in size. *)
Theorem C139_histogram : forall a x j i th, regular a -> nth_error (c_features a) j = Some x -> In x (c_columns a) -> (0 < c_m a)%nat ->
  c_index a = map (c_stamps a) (seq 0 (c_m a)) -> NoDup (c_index a) ->
  exists r1 r2 r3, feature_histogram a (Some x) i th = Ok (x, [r1; r2; r3]) /\
    forall s r, In (s, r) [(pmf a, r1); (ls a, r2); (ws a, r3)] ->
      let res t := c_input a t x - mmul (c_k a) (contr s) (prof s) t j in
      fst r = map (fun t => Fin (res t)) (seq 0 (c_m a)) /\ summary_of (c_m a) th res (snd r).
Proof.
  intros a x j i th (ND & E1 & E2 & E3 & _) Hx Hc Hm Hi Hn.
  assert (Ix : index_of x (c_features a) = Some j) by (apply index_of_nth; assumption).
  unfold feature_histogram. rewrite !fitted_regular by assumption. cbn [bind]. unfold pick. rewrite Ix. cbn [bind]. rewrite Ix.
  assert (Hin : exists q, index_of x (c_columns a) = Some q).
  { clear - Hc. induction (c_columns a) as [|y l IH]; [destruct Hc|]. cbn. destruct (String.eqb_spec y x); [eauto|].
    destruct Hc as [-> | Hc]; [congruence|]. destruct (IH Hc) as (q & ->). cbn. eauto. }
  destruct Hin as (q & ->).
  assert (Rs : forall y, residuals a x y = map (fun t => Fin (c_input a t x - y t)) (seq 0 (c_m a))).
  { intros y. unfold residuals. destruct (list_eq_dec Z.eq_dec (c_index a) (map (c_stamps a) (seq 0 (c_m a)))) as [_|N]; [|contradiction].
    match goal with |- map ?F _ = _ => set (G := F) end. rewrite Hi, map_map. apply map_ext_in. intros t Ht. apply in_seq in Ht. unfold G. rewrite <- Hi.
    rewrite (zindex_nth (c_index a) t (c_stamps a t) Hn); [reflexivity|]. rewrite Hi. apply map_nth_error.
    rewrite nth_error_nth' with (d := O) by (rewrite seq_length; lia). rewrite seq_nth by lia. reflexivity. }
  rewrite !Rs. do 3 eexists. split; [reflexivity|]. intros s r Hs.
  destruct Hs as [H | [H | [H | []]]]; injection H as <- <-; cbn [fst snd]; (split; [reflexivity|apply (describe_spec (c_m a) th (fun t => c_input a t x - mmul (c_k a) _ _ t j)), Hm]).
Qed.
Print Assumptions C139_histogram.

(** No name, or one that is not there: the feature of the number given, counted from the
    end if negative; unlike the pies, a number that is too large raises. *)
Theorem C139_feature_by_number : forall a feature i th, regular a -> (forall y, feature = Some y -> ~ In y (c_features a)) ->
  (forall j x, nth_error (c_features a) j = Some x -> (i = Z.of_nat j \/ i = Z.of_nat j - Z.of_nat (List.length (c_features a)))%Z ->
     timeseries_plot a feature i = timeseries_plot a (Some x) i /\ feature_histogram a feature i th = feature_histogram a (Some x) i th) /\
  ((forall j, (j < List.length (c_features a))%nat -> (i <> Z.of_nat j /\ i <> Z.of_nat j - Z.of_nat (List.length (c_features a)))%Z) ->
     timeseries_plot a feature i = Raise IndexError /\ feature_histogram a feature i th = Raise IndexError).
Proof.
  intros a feature i th (ND & E1 & E2 & E3 & _) Hy.
  assert (P : pick a feature i false = match py_index (List.length (c_features a)) i with
      | Some q => match nth_error (c_features a) q with Some y => Ok y | None => Raise IndexError end | None => Raise IndexError end).
  { unfold pick. destruct feature as [y|]; [rewrite (index_of_none _ _ (Hy y eq_refl))|]; reflexivity. }
  split.
  - intros j x Hx Hi.
    assert (Hj : (j < List.length (c_features a))%nat) by (apply nth_error_Some; rewrite Hx; discriminate).
    assert (Q : pick a feature i false = pick a (Some x) i false).
    { rewrite P. unfold pick. rewrite (index_of_nth _ _ _ ND Hx). unfold py_index.
      destruct (Z.leb_spec (- Z.of_nat (List.length (c_features a))) i), (Z.ltb_spec i (Z.of_nat (List.length (c_features a)))); cbn [andb]; try lia.
      replace (Z.to_nat (if (i <? 0)%Z then (i + Z.of_nat (List.length (c_features a)))%Z else i)) with j; [rewrite Hx; reflexivity|].
      destruct (Z.ltb_spec i 0); lia. }
    unfold timeseries_plot, feature_histogram. rewrite Q. split; reflexivity.
  - intros Hi.
    assert (Q : pick a feature i false = Raise IndexError).
    { rewrite P. unfold py_index.
      destruct (Z.leb_spec (- Z.of_nat (List.length (c_features a))) i), (Z.ltb_spec i (Z.of_nat (List.length (c_features a)))); cbn [andb]; try reflexivity.
      exfalso. destruct (Z.ltb_spec i 0).
      - destruct (Hi (Z.to_nat (i + Z.of_nat (List.length (c_features a)))) ltac:(lia)) as [_ N]. lia.
      - destruct (Hi (Z.to_nat i) ltac:(lia)) as [N _]. lia. }
    unfold timeseries_plot, feature_histogram. rewrite Q, !fitted_regular by assumption. split; reflexivity.
Qed.
Print Assumptions C139_feature_by_number.

(** Times read differently for the input and the solutions (no common label): the call
    completes with figures of nothing. *)
Theorem C139_histogram_other_times : forall a x j i th, regular a -> nth_error (c_features a) j = Some x -> (0 < c_m a)%nat ->
  (forall t, (t < c_m a)%nat -> ~ In (c_stamps a t) (c_index a)) ->
  exists r1 r2 r3, feature_histogram a (Some x) i th = Ok (x, [r1; r2; r3]) /\
    forall r, In r [r1; r2; r3] -> (forall v, In v (fst r) -> v = NaN) /\ snd r = mkStats NaN NaN NaN 0.
Proof.
  intros a x j i th (ND & E1 & E2 & E3 & _) Hx Hm Hd.
  assert (Ix : index_of x (c_features a) = Some j) by (apply index_of_nth; assumption).
  unfold feature_histogram. rewrite !fitted_regular by assumption. cbn [bind]. unfold pick. rewrite Ix. cbn [bind]. rewrite Ix.
  assert (Rs : forall y, exists l : list nat, residuals a x y = map (fun _ => NaN) l).
  { intros y. unfold residuals. destruct (list_eq_dec Z.eq_dec (c_index a) (map (c_stamps a) (seq 0 (c_m a)))) as [Q|N].
    - exfalso. apply (Hd O Hm). rewrite Q. apply in_map, in_seq. lia.
    - set (L := zsort _). exists (seq 0 (List.length L)). rewrite (map_ext _ (fun _ => NaN)).
      2:{ intros z. destruct (zindex z (c_index a)) eqn:Z1; [|reflexivity]. destruct (zindex z (map (c_stamps a) (seq 0 (c_m a)))) eqn:Z2; [|reflexivity].
          apply zindex_in in Z1, Z2. apply in_map_iff in Z2. destruct Z2 as (t & <- & Ht). apply in_seq in Ht. exfalso. apply (Hd t); [lia|exact Z1]. }
      clearbody L. clear.
      generalize 0%nat. induction L as [|z L IH]; intros n; cbn; [reflexivity|]. f_equal. apply IH. }
  do 3 eexists. split; [reflexivity|].
  assert (G : forall y r, r = (let q := if index_of x (c_columns a) then residuals a x y else map (fun _ => NaN) (residuals a x y) in (q, describe th q)) ->
    (forall v, In v (fst r) -> v = NaN) /\ snd r = mkStats NaN NaN NaN 0).
  { intros y r ->. cbv zeta. cbn [fst snd]. destruct (Rs y) as (l & ->).
    assert (El : (if index_of x (c_columns a) then map (fun _ : nat => NaN) l else map (fun _ : fl => NaN) (map (fun _ : nat => NaN) l)) = map (fun _ => NaN) l) by (destruct (index_of x (c_columns a)); [reflexivity|apply map_map]).
    rewrite El. split; [intros v Hv; apply in_map_iff in Hv; destruct Hv as (? & <- & _); reflexivity|]. unfold describe. rewrite values_nan. reflexivity. }
  intros r [<- | [<- | [<- | []]]]; eapply G; reflexivity.
Qed.
Print Assumptions C139_histogram_other_times.

(** Which features plot_feature_timeseries shows: all of them for "all", in their order,
    those of the numbers given for a list; any other text raises. *)
Theorem C139_features_shown : forall a f, regular a -> (f < c_k a)%nat ->
  (exists gs, plot_feature_timeseries a f AllFeatures false = Ok gs /\ map ts_name gs = c_features a) /\
  (forall js, (forall j, In j js -> (j < List.length (c_features a))%nat) ->
     exists gs, plot_feature_timeseries a f (Several (map Z.of_nat js)) false = Ok gs /\
       map ts_name gs = map (fun j => nth j (c_features a) EmptyString) js /\
       forall i j g, nth_error js i = Some j -> nth_error gs i = Some g -> plot_feature_timeseries a f (OneFeature (Z.of_nat j)) false = Ok [g]) /\
  (forall show, plot_feature_timeseries a f SomeText show = Raise TypeError).
Proof.
  intros a f Hr Hf.
  assert (One : forall j, (j < List.length (c_features a))%nat -> exists g, plot_feature_timeseries a f (OneFeature (Z.of_nat j)) false = Ok [g] /\ ts_name g = nth j (c_features a) EmptyString).
  { intros j Hj. destruct (C139_feature_timeseries a f (Z.of_nat j) j (nth j (c_features a) EmptyString) false Hr Hf) as (g & G & N & _).
    - apply nth_error_nth'. exact Hj.
    - now left.
    - discriminate.
    - eauto. }
  destruct Hr as (ND & E1 & E2 & E3 & N1 & N2). unfold plot_feature_timeseries in *. destruct (Nat.leb_spec (c_k a) f); [lia|].
  unfold product in *. rewrite E1, E2, E3, Nat.eqb_refl in *. cbn [bind] in *.
  destruct (mapped_names _ _ f N1 Hf) as [M1 _], (mapped_names _ _ f N2 Hf) as [M2 _]. rewrite M1, M2 in *. cbn [bind feature_list] in *.
  match goal with |- (exists gs, each ?F _ = _ /\ _) /\ _ => set (F0 := F) in * end.
  assert (Each : forall js, (forall j, In j js -> (j < List.length (c_features a))%nat) ->
     exists gs, each F0 (map Some (map Z.of_nat js)) = Ok gs /\ map ts_name gs = map (fun j => nth j (c_features a) EmptyString) js /\
       forall i j g, nth_error js i = Some j -> nth_error gs i = Some g -> each F0 [Some (Z.of_nat j)] = Ok [g]).
  { induction js as [|j js IH]; intros H0.
    - exists []. repeat split. intros [|?] ? ? ?; discriminate.
    - destruct IH as (gs & G1 & G2 & G3); [intros; apply H0; now right|]. destruct (One j) as (g & O1 & O2); [apply H0; now left|].
      exists (g :: gs). assert (Fj : F0 (Some (Z.of_nat j)) = Ok g).
      { cbn [each] in O1. destruct (F0 (Some (Z.of_nat j))) eqn:EF; cbn [bind] in O1; [injection O1 as ->; reflexivity|discriminate]. }
      split; [cbn [map each]; rewrite Fj; cbn [bind]; rewrite G1; reflexivity|]. split; [cbn; rewrite O2, G2; reflexivity|].
      intros [|i] j' g' Hj Hg; cbn in Hj, Hg; [|eauto]. injection Hj as <-. injection Hg as <-. exact O1. }
  split; [|split].
  - rewrite E1. destruct (Each (seq 0 (List.length (c_features a)))) as (gs & G1 & G2 & _).
    { intros j Hj. apply in_seq in Hj. lia. }
    exists gs. rewrite map_map in G1. split; [exact G1|]. rewrite G2. clear. induction (c_features a) as [|x l IH]; cbn [List.length seq map nth]; [reflexivity|].
    f_equal. rewrite <- seq_shift, map_map. exact IH.
  - intros js Hjs. destruct (Each js Hjs) as (gs & G). exists gs. exact G.
  - intros show. reflexivity.
Qed.
Print Assumptions C139_features_shown.

(** ** Where the views mislead *)
Definition ab : list string := ["a"; "b"]%string.
Definition two (sp : list string) (H2 : mat) (mp : list nat) : analyzer :=
  mkAn 2 1 ab true (mkSol ab (fun f j => if (f =? 0)%nat then 3 else 1) (fun _ f => INR (f + 1)))
    (mkSol sp H2 (fun _ f => INR (f + 1))) (mkSol sp H2 (fun _ f => INR (f + 1))) mp mp (fun t => Z.of_nat t) [0%Z] ab (fun _ _ => 10).
Lemma nodup_ab : NoDup ab.
Proof. constructor; [intros [H | []]; discriminate H|]. constructor; [intros []|constructor]. Qed.
Lemma two_regular H2 p q : (1 <= p <= 2)%nat -> (1 <= q <= 2)%nat -> regular (two ab H2 [p; q]).
Proof.
  intros Hp Hq. assert (N : names 2 [p; q]) by (split; [reflexivity|intros r [<- | [<- | []]]; assumption]).
  split; [exact nodup_ab|]. do 3 (split; [reflexivity|]). split; exact N.
Qed.

(** Slices of the same number in the three pies are not matched factors. *)
Theorem C139_pies_matched_refuted : ~ forall a x i p1 p2 p3, regular a -> bij (c_k a) (col (ls_map a)) ->
  (forall f j, (f < c_k a)%nat -> prof (ls a) (col (ls_map a) f) j = prof (pmf a) f j) ->
  plot_factor_contribution a (Some x) i = Ok (x, [p1; p2; p3]) -> p2 = p1.
Proof.
  intros H. set (a := two ab (fun f j => if (f =? 0)%nat then 1 else 3) [2%nat; 1%nat]).
  specialize (H a "a"%string 0%Z (pie a (pmf a) 0) (pie a (ls a) 0) (pie a (ws a) 0)).
  assert (E : pie a (ls a) 0 = pie a (pmf a) 0).
  { apply H.
    - apply two_regular; lia.
    - split.
      + intros [|[|f]] Hf; cbn in *; lia.
      + intros [|[|f]] [|[|g]] Hf Hg Hfg; cbn in *; lia.
    - intros [|[|f]] j Hf; cbn in *; try reflexivity; lia.
    - reflexivity. }
  unfold pie in E. cbn [c_k a two seq map] in E. injection E as E _.
  rewrite !standardize_fin in E by (unfold total; cbn [rsum]; cbn; lra). injection E as E. unfold total in E. cbn in E. lra.
Qed.
Print Assumptions C139_pies_matched_refuted.

(** With a column named twice the bars do not stack to 100. *)
Theorem C139_stack_refuted : ~ forall a r1 r2 g j, regular a -> plot_fingerprints a r1 r2 = Ok g ->
  (j < List.length (c_features a))%nat -> total (c_k a) (ls a) j <> 0 -> stack (g_ls g) j = Fin 100.
Proof.
  intros H. set (a := two ab (fun f j => if (f =? 0)%nat then 1 else 3) [2%nat; 2%nat]).
  assert (Hr : regular a) by (apply two_regular; lia).
  specialize (H a 0 0 _ 0%nat Hr eq_refl). cbn [g_ls] in H. assert (T : total (c_k a) (ls a) 0 = 4) by (unfold total; cbn; lra).
  assert (E := H ltac:(cbn; lia) ltac:(rewrite T; lra)). clear H.
  unfold stack in E. cbn [map fst snd rev seq c_k a two app Nat.sub ls_map ws_map] in E.
  rewrite !percent_nth in E by (cbn; lia). cbn [snd] in E. rewrite !standardize_fin in E by (rewrite T; lra). rewrite T in E. cbn in E. injection E as E. lra.
Qed.
Print Assumptions C139_stack_refuted.

(** A solution whose species come in another order: the line named after a feature is
    that of another species. *)
Theorem C139_species_order_refuted : ~ forall a f j x q g, NoDup (c_features a) -> species (pmf a) = c_features a ->
  Permutation (species (ls a)) (c_features a) -> Permutation (species (ws a)) (c_features a) -> names (c_k a) (ls_map a) -> names (c_k a) (ws_map a) ->
  (f < c_k a)%nat -> nth_error (c_features a) j = Some x -> nth_error (species (ls a)) q = Some x ->
  plot_feature_timeseries a f (OneFeature (Z.of_nat j)) false = Ok [g] ->
  ts_ls g = map (fun t => (c_stamps a t, Fin (contr (ls a) t (col (ls_map a) f) * prof (ls a) (col (ls_map a) f) q))) (seq 0 (c_m a)).
Proof.
  intros H. set (a := two ["b"; "a"]%string (fun f j => INR j) [1%nat; 2%nat]).
  assert (N : names 2 [1; 2]%nat) by (split; [reflexivity|intros r [<- | [<- | []]]; lia]).
  specialize (H a 0%nat 0%nat "a"%string 1%nat (mkTs "a" [(0%Z, Fin (INR 1 * 3))] [(0%Z, Fin (INR 1 * INR 0))] [(0%Z, Fin (INR 1 * INR 0))] None)).
  assert (E : ts_ls (mkTs "a" [(0%Z, Fin (INR 1 * 3))] [(0%Z, Fin (INR 1 * INR 0))] [(0%Z, Fin (INR 1 * INR 0))] None) = [(0%Z, Fin (INR 1 * INR 1))]).
  { apply H; try exact N; try reflexivity; try exact nodup_ab; try apply perm_swap. cbn. lia. }
  cbn in E. injection E as E. lra.
Qed.
Print Assumptions C139_species_order_refuted.
(* two factors, two features, the factors of the other solutions in the other order *)
Definition xcv_a : analyzer := two ab (fun f j => if (f =? 0)%nat then 1 else 3) [2%nat; 1%nat].
Lemma xcv_names : names 2 [2%nat; 1%nat].
Proof. split; [reflexivity |]. intros q [<- | [<- | []]]; lia. Qed.
Lemma xcv_regular : regular xcv_a.
Proof.
  split; [repeat constructor; cbn; intuition discriminate |]. split; [reflexivity |]. split; [reflexivity |]. split; [reflexivity |].
  split; exact xcv_names.
Qed.
Lemma xcv_total (s : solution) : In s [pmf xcv_a; ls xcv_a; ws xcv_a] -> total (c_k xcv_a) s 1 <> 0.
Proof. intros [<- | [<- | [<- | []]]]; cbn; lra. Qed.
Example C139_pies_example := C139_pies xcv_a "b"%string 1 3 xcv_regular eq_refl eq_refl xcv_total.
Definition xcv_list : analyzer := mkAn 2 1 ab false (pmf xcv_a) (ls xcv_a) (ws xcv_a) [1; 2]%nat [1; 2]%nat (fun t => Z.of_nat t) [0%Z] ab (fun _ _ => 10).
Example C139_pies_need_array_example := C139_pies_need_array xcv_list (Some "a"%string) 0 eq_refl.
Example C139_fingerprints_example := C139_fingerprints xcv_a (1 / 2) (-1) xcv_regular.
Example C139_factors_example := proj1 (C139_factors xcv_a xcv_regular) ltac:(cbn; lia).
Example C139_feature_timeseries_example :=
  C139_feature_timeseries xcv_a 1 (-1) 1 "b"%string true xcv_regular ltac:(cbn; lia) eq_refl ltac:(cbn; lia) ltac:(cbn; tauto).
Example C139_timeseries_example := C139_timeseries xcv_a "b"%string 1 0 xcv_regular eq_refl ltac:(cbn; tauto).
Example C139_histogram_example :=
  C139_histogram xcv_a "a"%string 0 0 3 xcv_regular eq_refl ltac:(cbn; tauto) ltac:(cbn; lia) eq_refl ltac:(cbn; repeat constructor; cbn; tauto).
Example C139_feature_by_number_example :=
  C139_feature_by_number xcv_a (Some "c"%string) (-1) 3 xcv_regular ltac:(intros y E; injection E as <-; cbn; intuition discriminate).
Definition xcv_later : analyzer := mkAn 2 1 ab true (pmf xcv_a) (ls xcv_a) (ws xcv_a) [2; 1]%nat [2; 1]%nat (fun t => Z.of_nat t) [7%Z] ab (fun _ _ => 10).
Example C139_histogram_other_times_example :=
  C139_histogram_other_times xcv_later "a"%string 0 0 3 xcv_regular eq_refl ltac:(cbn; lia)
    ltac:(intros t Ht [E | []]; cbn in *; lia).
Example C139_features_shown_example := C139_features_shown xcv_a 1 xcv_regular ltac:(cbn; lia).

(** Two factors and two features: the first PMF factor is column 2 of the other
    solutions, whose pies keep the order of their own columns. *)
Example C139_instance :
  let a := two ab (fun f j => if (f =? 0)%nat then 1 else 3) [2%nat; 1%nat] in
  regular a /\
  plot_factor_contribution a (Some "b"%string) 0 =
    Ok ("b"%string, [[(1%nat, Fin (3/4)); (2%nat, Fin (1/4))]; [(1%nat, Fin (1/4)); (2%nat, Fin (3/4))]; [(1%nat, Fin (1/4)); (2%nat, Fin (3/4))]]) /\
  (exists g, plot_fingerprints a (1/2) (-1) = Ok g /\ title_ls g = Some (1/2) /\ title_ws g = None /\ map fst (g_pmf g) = [2; 1]%nat /\ map fst (g_ls g) = [1; 2]%nat /\
     stack (g_ls g) 1 = Fin 100) /\
  (exists r1 r2 r3, feature_histogram a (Some "a"%string) 0 3 = Ok ("a"%string, [r1; r2; r3]) /\
     fst r1 = [Fin 5] /\ fst r2 = [Fin 3] /\ st_count (snd r1) = 1%nat /\ st_count (snd r2) = 1%nat /\ st_mean (snd r2) = Fin 3).
Proof.
  intros a. assert (Hr : regular a) by (apply two_regular; lia). split; [exact Hr|].
  assert (T1 : forall j, total 2 (pmf a) j = 4) by (intros; unfold total; cbn; lra). assert (T2 : forall j, total 2 (ls a) j = 4) by (intros; unfold total; cbn; lra).
  assert (T3 : forall j, total 2 (ws a) j = 4) by (intros; unfold total; cbn; lra).
  split; [|split].
  - cbv beta iota delta [plot_factor_contribution pick c_features two a index_of ab String.eqb Ascii.eqb Bool.eqb bind with_features species pmf ls ws List.length Nat.eqb c_array option_map].
    unfold pie. cbn [c_k seq map]. rewrite !standardize_fin by (unfold total; cbn; lra). repeat f_equal; unfold total; cbn; lra.
  - destruct (C139_fingerprints a (1/2) (-1) Hr) as (g & G & Tl & Tw & L1 & L2 & L3 & Bars & Stk). exists g. split; [exact G|].
    rewrite Tl, Tw. destruct (Rlt_dec 0 (1/2)); [|lra]. destruct (Rlt_dec 0 (-1)); [lra|]. split; [reflexivity|]. split; [reflexivity|].
    injection G as <-. split; [reflexivity|]. split; [reflexivity|]. apply (Stk 1%nat); [cbn; lia| |change (c_k a) with 2%nat; rewrite T2; lra].
    split; [intros [|[|f]] Hf; cbn in *; lia|intros [|[|f]] [|[|h]] Hf Hh Hfh; cbn in *; lia].
  - do 3 eexists. split; [reflexivity|]. cbn. unfold Rleb, values, describe. cbn.
    repeat match goal with |- context [Rle_dec ?p ?q] => destruct (Rle_dec p q) as [?|C]; [|exfalso; apply C; rewrite Rabs_right; lra] end.
    repeat split; try (repeat f_equal; lra).
Qed.
