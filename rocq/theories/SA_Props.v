(** Properties C20-C23: construction, validation and initialisation of a model. *)
From Coq Require Import Reals Lra Lia Arith List Bool.
From Verif Require Import Base Fl Metrics_Model Metrics_Proofs SA_Model SA_Proofs.
Open Scope R_scope.

(** C20: what becomes of each uncertainty and what its weight is. *)
Theorem C20_uncertainty_floor :
  forall (V U : nd) (k : nat) (mth : method) (s : sa),
    construct V U k mth = Some s ->
    rows (sU s) = rows U /\ cols (sU s) = cols U /\
    forall i j,
      match cell U i j with
      | Fin u => cell (sU s) i j = Fin (Rmax (/ 10 ^ 12) u) /\
                 exists w, cell (sWe s) i j = Fin w /\ 0 < w <= 10 ^ 24 /\
                           w * (Rmax (/ 10 ^ 12) u * Rmax (/ 10 ^ 12) u) = 1
      | NInf => cell (sU s) i j = Fin (/ 10 ^ 12) /\ cell (sWe s) i j = Fin (10 ^ 24)
      | PInf => cell (sU s) i j = PInf /\ cell (sWe s) i j = Fin 0
      | NaN => cell (sU s) i j = NaN /\ cell (sWe s) i j = NaN
      end.
Proof.
  intros V U k mth s E. apply construct_inv in E.
  destruct E as (_ & EU & EW & _). rewrite EU, EW. split; [reflexivity|]. split; [reflexivity|].
  intros i j. cbn [ndmap cell]. rewrite floor_u_cases.
  assert (H12 : 0 < 10 ^ 12) by (apply pow_lt; lra).
  assert (HE : 0 < / 10 ^ 12) by (apply Rinv_0_lt_compat; exact H12).
  destruct (cell U i j) as [u| | |].
  - split; [reflexivity|]. fold EPS in *. set (x := Rmax EPS u).
    assert (Hx : EPS <= x) by apply Rmax_l.
    assert (Hxx : 0 < x * x) by (apply Rmult_lt_0_compat; lra).
    unfold weight_of. cbn [fmul fdiv]. destruct (Req_EM_T (x * x) 0); [lra|].
    exists (1 / (x * x)). split; [reflexivity|]. split; [split|].
    + apply Rdiv_lt_0_compat; lra.
    + apply (Rmult_le_reg_r (x * x)); [assumption|].
      replace (1 / (x * x) * (x * x)) with 1 by (field; lra).
      apply Rle_trans with (10 ^ 24 * (EPS * EPS)).
      * unfold EPS. replace (10 ^ 24) with (10 ^ 12 * 10 ^ 12) by (rewrite <- pow_add; reflexivity).
        right. field; lra.
      * apply Rmult_le_compat_l; [apply pow_le; lra|].
        apply Rmult_le_compat; lra.
    + field; lra.
  - split; [reflexivity|]. unfold weight_of. cbn [fmul fdiv fsign]. unfold inf_of_sign. destruct (Rlt_dec 0 (1 * 1)); [reflexivity|lra].
  - split; [reflexivity|]. unfold weight_of. cbn [fmul fdiv]. unfold EPS.
    destruct (Req_EM_T (/ 10 ^ 12 * / 10 ^ 12) 0) as [e|e].
    + assert (0 < / 10 ^ 12 * / 10 ^ 12) by (apply Rmult_lt_0_compat; assumption). lra.
    + f_equal. replace (10 ^ 24) with (10 ^ 12 * 10 ^ 12) by (rewrite <- pow_add; reflexivity).
      field; lra.
  - split; reflexivity.
Qed.
Print Assumptions C20_uncertainty_floor.

(** A one-sample, two-feature model; used as the concrete case throughout. *)
Definition arr12 (x y : fl) : nd := ND 1 2 (fun _ j => match j with O => x | _ => y end).
Definition arr11 (x : fl) : nd := ND 1 1 (fun _ _ => x).

(** C20: the documented rejection of negative uncertainties never happens; here
    a negative and a zero uncertainty are trained on. *)
Theorem C20_negative_uncertainty_refuted :
  exists (V U : nd) (s s' : sa) (h : harg) (W : nd) c,
    contains U negative /\
    construct V U 1 LSNMF = Some s /\
    initialize s (Some h) (Some W) (ColumnMean false (fun _ _ => NaN) (fun _ _ => NaN) (fun x => x)) = InitOk s' c /\
    forall d, exists We' U' W' H' s2, train_guard s' d = TRun LSNMF V U' We' W' H' s2.
Proof.
  exists (arr12 (Fin 1) (Fin 2)), (arr12 (Fin (-3)) (Fin 0)).
  set (h := HArg (arr12 (Fin 1) (Fin 1)) false). set (W := arr11 (Fin 1)).
  assert (Hc : exists s, construct (arr12 (Fin 1) (Fin 2)) (arr12 (Fin (-3)) (Fin 0)) 1 LSNMF = Some s).
  { unfold construct, validate.
    destruct (min_neg_defined (arr12 (Fin 1) (Fin 2))) as [? ->]; try (cbn; lia).
    destruct (min_neg_defined (ndmap floor_u (arr12 (Fin (-3)) (Fin 0)))) as [? ->]; try (cbn; lia). eauto. }
  destruct Hc as [s Es]. pose proof (construct_inv _ _ _ _ _ Es) as
    (EV & EU & EWe & Em & En & Ek & _ & _ & _ & _ & _ & _ & _ & _ & _ & Eng).
  assert (Hsh : shape (h_arr h) (s_k s) (s_n s)) by (rewrite Ek, En; split; reflexivity).
  pose proof (initialize_user s h W (fun _ _ => NaN) (fun _ _ => NaN) (fun x => x) Hsh) as EI.
  cbv zeta in EI.
  destruct (validate_defined (sV s) (sU s) (s_m s) (s_n s) (s_k s)
             (ndmap (floor_h (h_is_int h)) (h_arr h)) W) as (ok & neg & Ev);
    try (rewrite ?EV, ?EU; cbn; lia).
  rewrite Ev in EI.
  assert (Hpos : 0 < EPS) by apply EPS_pos.
  assert (Hok : ok = true).
  { apply (validate_spec _ _ _ _ _ _ _ _ _ Ev). rewrite EV, EU, Em, En, Ek.
    repeat apply conj; try reflexivity; intros (i & j & Hi & Hj & Hx);
      unfold negative in *; cbn in Hi, Hj, Hx; destruct j as [|[|j]]; try lia; cbn in Hx;
        try discriminate; try (now apply floor_u_not_neg in Hx);
        try (now apply floor_h_not_neg in Hx);
        try (apply floor_h_nan in Hx; discriminate);
        try (rewrite floor_u_cases in Hx; discriminate). }
  exists s. eexists. exists h, W. eexists.
  split.
  { exists 0%nat, 0%nat. cbn. split; [lia|]. split; [lia|]. unfold negative. cbn. apply Rltb_iff. lra. }
  split; [exact Es|]. split; [exact EI|]. intros d. unfold train_guard. cbn. rewrite Hok.
  assert (Heng : s_engine s = LSNMF).
  { apply Eng. split; [reflexivity|]. right. intros (i & j & Hi & Hj & Hx). unfold negative in Hx.
    cbn in Hi, Hj, Hx. destruct j as [|[|j]]; try lia; cbn in Hx; apply Rltb_iff in Hx; lra. }
  rewrite Heng, EV. repeat eexists.
Qed.
Print Assumptions C20_negative_uncertainty_refuted.
Example C20_instance : exists s, construct (arr12 (Fin 1) (Fin 2)) (arr12 NaN (Fin 0)) 1 WSNMF = Some s.
Proof.
  unfold construct, validate.
  destruct (min_neg_defined (arr12 (Fin 1) (Fin 2))) as [? ->]; try (cbn; lia).
  destruct (min_neg_defined (ndmap floor_u (arr12 NaN (Fin 0)))) as [? ->]; try (cbn; lia). eauto.
Qed.


(** C21: every initial profile entry is NaN or strictly positive, for every
    source of initial matrices and every floating-point matrix of the caller. *)
Theorem C21_profiles_positive :
  forall (s s' : sa) (H0 : option harg) (W0 : option nd) (kind : init_kind) c,
    initialize s H0 W0 kind = InitOk s' c ->
    (forall h, H0 = Some h -> h_is_int h = false) ->
    exists H, s_H s' = Some H /\ everywhere H (fun x => x = NaN \/ positive x).
Proof. intros s s1 H0 W0 kind c. apply initialize_positive. Qed.
Print Assumptions C21_profiles_positive.

(** C21: contributions drawn by the column-mean method for ls-nmf. *)
Theorem C21_drawn_contributions_positive :
  forall (s s' : sa) (H0 : option harg) rngH rngW wsW c,
    s_method s = LSNMF ->
    initialize s H0 None (ColumnMean false rngH rngW wsW) = InitOk s' c ->
    exists W, s_W s' = Some W /\ everywhere W (fun x => x = NaN \/ positive x).
Proof. intros s s1 H0 rngH rngW wsW c. apply initialize_W_positive. Qed.
Print Assumptions C21_drawn_contributions_positive.

(** C21: the caller's own profile array is edited in place (right shape, no
    k-means), and is left alone in the other cases. *)
Theorem C21_caller_array_edited :
  forall (s s' : sa) (h : harg) (W0 : option nd) (kind : init_kind) c,
    initialize s (Some h) W0 kind = InitOk s' c ->
    match kind with
    | Kmeans _ _ _ => c = Some (h_arr h)
    | ColumnMean _ _ _ _ =>
        (shape (h_arr h) (s_k s) (s_n s) -> c = s_H s') /\
        (~ shape (h_arr h) (s_k s) (s_n s) -> c = Some (h_arr h))
    end.
Proof.
  intros s s' h W0 kind c. unfold initialize. destruct kind as [cents clus draws|upd rngH rngW wsW].
  - cbv zeta. match goal with |- match ?x with Some _ => _ | None => _ end = _ -> _ => destruct x as [h2|] end; [|discriminate].
    match goal with |- match ?x with Some _ => _ | None => _ end = _ -> _ => destruct x as [[ok neg]|] end; [|discriminate].
    intros [= _ <-]. reflexivity.
  - rewrite <- !same_shape_iff. destruct (same_shape (h_arr h) (s_k s) (s_n s)).
    + cbv zeta. destruct (validate _ _ _ _ _ _ _) as [[ok neg]|]; [|discriminate].
      intros [= <- <-]. cbn. split; [reflexivity|congruence].
    + cbv zeta. cbn [option_map]. destruct (insert_prior _ _) as [h2|]; [|discriminate].
      cbn [option_map]. destruct (validate _ _ _ _ _ _ _) as [[ok neg]|]; [|discriminate].
      intros [= <- <-]. cbn. split; [discriminate|reflexivity].
Qed.
Print Assumptions C21_caller_array_edited.

(** A constructed one-cell model. *)
Lemma one_cell_construct v mth : exists s, construct (arr11 (Fin v)) (arr11 (Fin 1)) 1 mth = Some s /\
  (0 <= v -> s_engine s = mth).
Proof.
  unfold construct, validate.
  destruct (min_neg_defined (arr11 (Fin v))) as [b Eb]; try (cbn; lia). rewrite Eb.
  destruct (min_neg_defined (ndmap floor_u (arr11 (Fin 1)))) as [? ->]; try (cbn; lia).
  eexists. split; [reflexivity|]. intros Hv. cbn. destruct mth; [|reflexivity].
  destruct b; [|reflexivity]. exfalso. apply min_neg_some in Eb. destruct Eb as (_ & _ & Eb).
  destruct Eb as [Eb _]. destruct (Eb eq_refl) as [_ (i & j & _ & _ & Hx)].
  unfold negative in Hx. cbn in Hx. apply Rltb_iff in Hx. lra.
Qed.

(** C21 refuted for integer arrays: 1e-12 is truncated to 0, so a zero entry
    stays zero. *)
Theorem C21_integer_profile_refuted :
  exists (s s' : sa) (h : harg) (W : nd) kind c H,
    initialize s (Some h) (Some W) kind = InitOk s' c /\ s_valid s' = true /\
    s_H s' = Some H /\ contains H (fun x => x = Fin 0).
Proof.
  destruct (one_cell_construct 1 LSNMF) as (s & Es & _).
  pose proof (construct_inv _ _ _ _ _ Es) as (EV & EU & _ & Em & En & Ek & _).
  set (h := HArg (arr11 (Fin 0)) true). set (W := arr11 (Fin 1)).
  assert (Hsh : shape (h_arr h) (s_k s) (s_n s)) by (rewrite Ek, En; split; reflexivity).
  pose proof (initialize_user s h W (fun _ _ => NaN) (fun _ _ => NaN) (fun x => x) Hsh) as EI. cbv zeta in EI.
  destruct (validate_defined (sV s) (sU s) (s_m s) (s_n s) (s_k s)
             (ndmap (floor_h (h_is_int h)) (h_arr h)) W) as (ok & neg & Ev);
    try (rewrite ?EV, ?EU; cbn; lia).
  rewrite Ev in EI.
  assert (Hok : ok = true).
  { apply (validate_spec _ _ _ _ _ _ _ _ _ Ev). rewrite EV, EU, Em, En, Ek.
    repeat apply conj; try reflexivity; intros (i & j & Hi & Hj & Hx);
      unfold negative in *; cbn in Hi, Hj, Hx; try discriminate;
        try (now apply floor_u_not_neg in Hx);
        try (now apply floor_h_not_neg in Hx);
        try (apply floor_h_nan in Hx; discriminate);
        try (rewrite floor_u_cases in Hx; discriminate). }
  exists s. eexists. exists h, W. do 3 eexists. split; [exact EI|]. split; [exact Hok|].
  split; [reflexivity|]. exists 0%nat, 0%nat. cbn. split; [lia|]. split; [lia|].
  unfold floor_h. cbn. unfold Rleb. destruct (Rle_dec 0 0); [reflexivity|lra].
Qed.
Print Assumptions C21_integer_profile_refuted.

(** C21 refuted for an init_method containing "update" and for k-means: an
    accepted ls-nmf model, run by the LS-NMF engine, with negative contributions. *)
Theorem C21_update_contributions_refuted :
  exists (V U : nd) (s s' : sa) kind c W,
    construct V U 1 LSNMF = Some s /\
    initialize s None None kind = InitOk s' c /\ s_valid s' = true /\ s_engine s' = LSNMF /\
    s_W s' = Some W /\ contains W negative.
Proof.
  destruct (one_cell_construct 1 LSNMF) as (s & Es & Eeng).
  pose proof (construct_inv _ _ _ _ _ Es) as (EV & EU & _ & Em & En & Ek & Emth & _).
  exists (arr11 (Fin 1)), (arr11 (Fin 1)), s.
  set (kind := ColumnMean true (fun _ _ => Fin (-1)) (fun _ _ => NaN) (fun x => x)).
  assert (EH : forall a j, cell (random_H (sV s) (s_k s) (s_n s) (fun _ _ => Fin (-1))) a j = Fin (-1)).
  { intros a j. rewrite EV, Ek, En. unfold random_H, col_mean. cbn.
    destruct (Req_EM_T 1 0); [lra|]. cbn. destruct (Req_EM_T 1 0); [lra|].
    replace ((0 + 1) / 1 / 1) with 1 by field. cbn. destruct (Rlt_dec 1 0); [lra|]. cbn. f_equal. rewrite sqrt_1. ring. }
  cbn in Em, En.
  set (Hr := random_H (sV s) (s_k s) (s_n s) (fun _ _ => Fin (-1))) in *.
  assert (EWc : forall i a, cell (matmul_T (sV s) Hr) i a = Fin (-1)).
  { intros i a. unfold matmul_T. cbn [cell]. rewrite (fsum_ext _ _ (fun j => Fin (-1))).
    - rewrite EV, fsum_fin. cbn. f_equal. ring.
    - intros j _. rewrite EH, EV. cbn. f_equal. ring. }
  destruct (validate_defined (sV s) (sU s) (s_m s) (s_n s) (s_k s)
             (ndmap (floor_h false) Hr) (matmul_T (sV s) Hr)) as (ok & neg & Ev);
    try (rewrite ?EV, ?EU; cbn; rewrite ?Ek, ?En; lia).
  assert (Hok : ok = true).
  { apply (validate_spec _ _ _ _ _ _ _ _ _ Ev). rewrite EU, Em, En, Ek.
    repeat apply conj; try reflexivity; try (rewrite EV; reflexivity); try (cbn; rewrite ?Ek, ?En; reflexivity);
      try (intros (i & j & Hi & Hj & Hx)).
    - rewrite EV in Hx. discriminate.
    - cbn in Hx. rewrite floor_u_cases in Hx. discriminate.
    - cbn in Hx. now apply floor_u_not_neg in Hx.
    - cbn [ndmap cell] in Hx. apply (proj1 (floor_h_nan _ _)) in Hx. rewrite EH in Hx. discriminate.
    - cbn [ndmap cell] in Hx. now apply floor_h_not_neg in Hx.
    - rewrite EWc in Hx. discriminate. }
  subst ok.
  eexists. exists kind. do 2 eexists. split; [exact Es|].
  unfold initialize, kind. cbv zeta. cbn [option_map]. rewrite Emth. fold Hr.
  rewrite Ev. split; [reflexivity|]. split; [reflexivity|]. split; [apply Eeng; lra|]. split; [reflexivity|].
  exists 0%nat, 0%nat. unfold negative. rewrite EWc. rewrite EV. cbn. rewrite Ek.
  split; [lia|]. split; [lia|]. apply Rltb_iff. lra.
Qed.
Print Assumptions C21_update_contributions_refuted.

Theorem C21_kmeans_contributions_refuted :
  exists (V U : nd) (s s' : sa) kind c W,
    construct V U 1 LSNMF = Some s /\
    initialize s None None kind = InitOk s' c /\ s_valid s' = true /\ s_engine s' = LSNMF /\
    s_W s' = Some W /\ contains W negative.
Proof.
  destruct (one_cell_construct 1 LSNMF) as (s & Es & Eeng).
  pose proof (construct_inv _ _ _ _ _ Es) as (EV & EU & _ & Em & En & Ek & Emth & _).
  exists (arr11 (Fin 1)), (arr11 (Fin 1)), s.
  set (kind := Kmeans (fun _ _ => Fin 1) (fun _ => 0%nat) (fun _ => Fin (-1))).
  set (Hk := ND (s_k s) (s_n s) (fun _ _ : nat => Fin 1)).
  set (W := ND (s_m s) (s_k s) (fun i a => if (a =? 0)%nat then Fin (-1) else Fin (1 / INR (s_k s)))).
  destruct (validate_defined (sV s) (sU s) (s_m s) (s_n s) (s_k s)
             (ndmap (floor_h false) Hk) W) as (ok & neg & Ev);
    try (rewrite ?EV, ?EU; cbn; rewrite ?Em, ?Ek, ?En; cbn; lia).
  assert (Hok : ok = true).
  { apply (validate_spec _ _ _ _ _ _ _ _ _ Ev). rewrite EU.
    repeat apply conj; try reflexivity; try (rewrite EV; reflexivity);
      try (intros (i & j & Hi & Hj & Hx)).
    - rewrite EV in Hx. discriminate.
    - cbn in Hx. rewrite floor_u_cases in Hx. discriminate.
    - cbn in Hx. now apply floor_u_not_neg in Hx.
    - cbn [ndmap cell] in Hx. apply (proj1 (floor_h_nan _ _)) in Hx. discriminate.
    - cbn [ndmap cell] in Hx. now apply floor_h_not_neg in Hx.
    - unfold W in Hx. cbn in Hx. destruct (j =? 0)%nat; discriminate. }
  subst ok. eexists. exists kind. do 2 eexists. split; [exact Es|].
  unfold initialize, kind. cbv zeta. cbn [option_map]. fold Hk W. rewrite Ev.
  split; [reflexivity|]. split; [reflexivity|]. split; [apply Eeng; lra|]. split; [reflexivity|].
  exists 0%nat, 0%nat. unfold negative, W. cbn. rewrite Em, Ek. cbn.
  split; [lia|]. split; [lia|]. apply Rltb_iff. lra.
Qed.
Print Assumptions C21_kmeans_contributions_refuted.

Example C21_instance : exists s, construct (arr11 (Fin 1)) (arr11 (Fin 1)) 1 LSNMF = Some s /\
  exists s' c, initialize s None None (ColumnMean false (fun _ _ => Fin (-2)) (fun _ _ => Fin (-2)) (fun x => x))
     = InitOk s' c.
Proof.
  destruct (one_cell_construct 1 LSNMF) as (s & Es & _). exists s. split; [exact Es|].
  pose proof (construct_inv _ _ _ _ _ Es) as (EV & EU & _ & Em & En & Ek & Emth & _).
  unfold initialize. cbv zeta. cbn [option_map].
  match goal with |- context [validate ?v ?u ?m ?n ?k (Some ?h) (Some ?w)] =>
    destruct (validate_defined v u m n k h w) as (ok & neg & Ev) end;
    try (rewrite ?EV, ?EU; cbn; rewrite ?Emth; cbn; rewrite ?Em, ?Ek, ?En; cbn; lia).
  rewrite Ev. eauto.
Qed.

(** C22: with both matrices supplied, train refuses (returns -1) exactly on the
    listed defects of the four inputs, and otherwise runs on exactly them. *)
Theorem C22_refused_exactly :
  forall (V U : nd) (k : nat) (mth : method) (s0 s : sa) (h : harg) (W : nd) rngH rngW wsW c d,
    construct V U k mth = Some s0 ->
    shape (h_arr h) k (cols V) ->
    initialize s0 (Some h) (Some W) (ColumnMean false rngH rngW wsW) = InitOk s c ->
    let bad := contains V (fun x => x = NaN) \/ contains U (fun x => x = NaN) \/
               ~ shape U (rows V) (cols V) \/ contains (h_arr h) (fun x => x = NaN) \/
               ~ shape W (rows V) k \/ contains W (fun x => x = NaN) in
    (bad -> train_guard s d = TRefused s) /\
    (~ bad -> exists eng U' We' H',
        train_guard s d = TRun eng V U' We' W H' s /\
        U' = ndmap floor_u U /\ We' = ndmap weight_of U' /\
        H' = ndmap (floor_h (h_is_int h)) (h_arr h)).
Proof.
  intros V U k mth s0 s h W rngH rngW wsW c d Ec Hsh Ei bad.
  pose proof (construct_inv _ _ _ _ _ Ec) as (EV & EU & EWe & Em & En & Ek & _).
  assert (Hsh' : shape (h_arr h) (s_k s0) (s_n s0)) by (rewrite Ek, En; exact Hsh).
  rewrite (initialize_user s0 h W rngH rngW wsW Hsh') in Ei. cbv zeta in Ei.
  destruct (validate _ _ _ _ _ _ _) as [[ok neg]|] eqn:Ev; [|discriminate].
  injection Ei as <- _. unfold train_guard. cbn.
  apply validate_spec in Ev. rewrite EV, EU, Em, En, Ek in Ev.
  assert (Hiff : ok = true <-> ~ bad).
  { rewrite Ev. unfold bad. split.
    - intros (H1 & H2 & H3 & H4 & H5 & H6 & H7 & H8 & H9) [B|[B|[B|[B|[B|B]]]]]; try tauto.
      + apply H2. destruct B as (i & j & Hi & Hj & E). exists i, j. cbn. rewrite E. auto.
      + apply H6. destruct B as (i & j & Hi & Hj & E). exists i, j. cbn. rewrite E.
        split; [assumption|]. split; [assumption|]. reflexivity.
    - intros Hn. repeat apply conj.
      + tauto.
      + intros (i & j & Hi & Hj & E). apply Hn. right. left. exists i, j. cbn in *.
        rewrite floor_u_cases in E. destruct (cell U i j); try discriminate. auto.
      + intros (i & j & Hi & Hj & E). now apply floor_u_not_neg in E.
      + unfold shape in *. cbn. destruct (Nat.eq_dec (rows U) (rows V)); [assumption|]. exfalso. tauto.
      + unfold shape in *. cbn. destruct (Nat.eq_dec (cols U) (cols V)); [assumption|]. exfalso. tauto.
      + destruct Hsh. assumption.
      + destruct Hsh. assumption.
      + intros (i & j & Hi & Hj & E). apply Hn. do 3 right. left. exists i, j. cbn in *.
        apply floor_h_nan in E. auto.
      + intros (i & j & Hi & Hj & E). now apply floor_h_not_neg in E.
      + destruct (Nat.eq_dec (rows W) (rows V)); [assumption|]. exfalso. apply Hn. do 4 right. left. intros []; auto.
      + destruct (Nat.eq_dec (cols W) k); [assumption|]. exfalso. apply Hn. do 4 right. left. intros []; auto.
      + tauto. }
  destruct ok.
  - split; [intros B; exfalso; apply Hiff; auto|]. intros _. rewrite EV, EU, EWe. repeat eexists.
  - split; [reflexivity|]. intros Hn. apply Hiff in Hn. discriminate.
Qed.
Print Assumptions C22_refused_exactly.
(** A model and its start from given matrices can always be made from non-empty arrays. *)
Lemma xs_construct V U k mth : (0 < rows V)%nat -> (0 < cols V)%nat -> (0 < rows U)%nat -> (0 < cols U)%nat -> exists s, construct V U k mth = Some s.
Proof.
  intros. unfold construct, validate. destruct (min_neg_defined V) as [? ->]; auto. destruct (min_neg_defined (ndmap floor_u U)) as [? ->]; auto. eauto.
Qed.
Lemma xs_start V U k mth s h W f g w : construct V U k mth = Some s -> shape (h_arr h) k (cols V) -> (0 < k)%nat -> (0 < rows W)%nat -> (0 < cols W)%nat ->
  exists s' c, initialize s (Some h) (Some W) (ColumnMean false f g w) = InitOk s' c.
Proof.
  intros E Hs Hk H1 H2. pose proof (construct_inv _ _ _ _ _ E) as (EV & EU & _ & Em & En & Ek & _ & _ & _ & _ & _ & R1 & R2 & R3 & R4 & _).
  rewrite initialize_user by (rewrite Ek, En; exact Hs). cbv zeta. destruct Hs as [S1 S2].
  destruct (validate_defined (sV s) (sU s) (s_m s) (s_n s) (s_k s) (ndmap (floor_h (h_is_int h)) (h_arr h)) W) as (ok & neg & Ev); try (rewrite ?EV, ?EU; cbn; lia). rewrite Ev. eauto.
Qed.
Example C20_uncertainty_floor_example : exists s, construct (arr12 (Fin 1) (Fin 2)) (arr12 NaN (Fin 0)) 1 WSNMF = Some s /\ cell (sU s) 0 0 = NaN.
Proof. destruct C20_instance as [s E]. exists s. split; [exact E|]. exact (proj1 (proj2 (proj2 (C20_uncertainty_floor _ _ _ _ s E)) 0%nat 0%nat)). Qed.
(** One factor and one cell, with every draw -2. *)
Example C21_profiles_positive_example : exists s s' c H, construct (arr11 (Fin 1)) (arr11 (Fin 1)) 1 LSNMF = Some s /\
  initialize s None None (ColumnMean false (fun _ _ => Fin (-2)) (fun _ _ => Fin (-2)) (fun x => x)) = InitOk s' c /\
  s_H s' = Some H /\ everywhere H (fun x => x = NaN \/ positive x).
Proof.
  destruct C21_instance as (s & E & s' & c & I). destruct (C21_profiles_positive s s' None None _ c I ltac:(discriminate)) as (H & A & B). exists s, s', c, H. auto.
Qed.
Example C21_drawn_contributions_positive_example : exists s s' c W, construct (arr11 (Fin 1)) (arr11 (Fin 1)) 1 LSNMF = Some s /\
  initialize s None None (ColumnMean false (fun _ _ => Fin (-2)) (fun _ _ => Fin (-2)) (fun x => x)) = InitOk s' c /\
  s_W s' = Some W /\ everywhere W (fun x => x = NaN \/ positive x).
Proof.
  destruct C21_instance as (s & E & s' & c & I). pose proof (construct_inv _ _ _ _ _ E) as (_ & _ & _ & _ & _ & _ & Me & _).
  destruct (C21_drawn_contributions_positive s s' None _ _ _ c Me I) as (W & A & B). exists s, s', c, W. auto.
Qed.
(** A profile given for every factor is edited in place. *)
Example C21_caller_array_edited_example : exists s s' c, construct (arr11 (Fin 1)) (arr11 (Fin 1)) 1 LSNMF = Some s /\
  initialize s (Some (HArg (arr11 (Fin (-3))) false)) (Some (arr11 (Fin 2))) (ColumnMean false (fun _ _ => Fin 1) (fun _ _ => Fin 1) (fun x => x)) = InitOk s' c /\ c = s_H s'.
Proof.
  destruct (xs_construct (arr11 (Fin 1)) (arr11 (Fin 1)) 1 LSNMF) as [s E]; try (cbn; lia).
  destruct (xs_start _ _ _ _ s (HArg (arr11 (Fin (-3))) false) (arr11 (Fin 2)) (fun _ _ => Fin 1) (fun _ _ => Fin 1) (fun x => x) E) as (s' & c & I); try (cbn; lia); [split; reflexivity|].
  exists s, s', c. split; [exact E|]. split; [exact I|]. pose proof (construct_inv _ _ _ _ _ E) as (_ & _ & _ & _ & En & Ek & _).
  apply (C21_caller_array_edited _ _ _ _ _ _ I). rewrite En, Ek. split; reflexivity.
Qed.
(** A NaN in the data: refused. *)
Example C22_refused_exactly_example : forall d, exists s0 s c, construct (arr11 NaN) (arr11 (Fin 1)) 1 LSNMF = Some s0 /\
  initialize s0 (Some (HArg (arr11 (Fin 3)) false)) (Some (arr11 (Fin 2))) (ColumnMean false (fun _ _ => Fin 1) (fun _ _ => Fin 1) (fun x => x)) = InitOk s c /\
  train_guard s d = TRefused s.
Proof.
  intros d. destruct (xs_construct (arr11 NaN) (arr11 (Fin 1)) 1 LSNMF) as [s E]; try (cbn; lia).
  destruct (xs_start _ _ _ _ s (HArg (arr11 (Fin 3)) false) (arr11 (Fin 2)) (fun _ _ => Fin 1) (fun _ _ => Fin 1) (fun x => x) E) as (s' & c & I); try (cbn; lia); [split; reflexivity|].
  exists s, s', c. split; [exact E|]. split; [exact I|].
  apply (C22_refused_exactly _ _ 1 LSNMF s s' (HArg (arr11 (Fin 3)) false) _ _ _ _ c d E ltac:(split; reflexivity) I). left. exists 0%nat, 0%nat. cbn. repeat split; lia.
Qed.

(** C22: the stored flag, for any initialised model (any source of matrices). *)
Theorem C22_decision_table :
  forall (s0 s : sa) (H0 : option harg) (W0 : option nd) (kind : init_kind) c d,
    initialize s0 H0 W0 kind = InitOk s c ->
    exists H W, s_H s = Some H /\ s_W s = Some W /\
    let good := ~ contains (sV s) (fun x => x = NaN) /\ ~ contains (sU s) (fun x => x = NaN) /\
                ~ contains (sU s) negative /\ shape (sU s) (rows (sV s)) (cols (sV s)) /\
                shape H (s_k s) (s_n s) /\ ~ contains H (fun x => x = NaN) /\ ~ contains H negative /\
                shape W (s_m s) (s_k s) /\ ~ contains W (fun x => x = NaN) in
    (good -> train_guard s d = TRun (s_engine s) (sV s) (sU s) (sWe s) W H s) /\
    (~ good -> train_guard s d = TRefused s).
Proof.
  intros s0 s H0 W0 kind c d Ei. apply initialize_inv in Ei.
  destruct Ei as (hi & h2 & W & EH & EW & _ & EV & EU & _ & Em & En & Ek & _ & _ & Einit & Ev).
  exists (ndmap (floor_h hi) h2), W. split; [exact EH|]. split; [exact EW|]. intros good.
  rewrite EH, EW in Ev. apply validate_spec in Ev.
  unfold train_guard. rewrite Einit, EH, EW.
  assert (Hiff : s_valid s = true <-> good).
  { rewrite Ev. unfold good. rewrite EV, EU, Em, En, Ek. reflexivity. }
  destruct (s_valid s).
  - split; [reflexivity|]. intros Hn. exfalso. apply Hn. apply Hiff. reflexivity.
  - split; [|reflexivity]. intros Hg. apply Hiff in Hg. discriminate.
Qed.
Print Assumptions C22_decision_table.
(** Contributions of the wrong shape: refused. *)
Example C22_decision_table_example : forall d, exists s0 s c, construct (arr11 (Fin 1)) (arr11 (Fin 1)) 1 LSNMF = Some s0 /\
  initialize s0 (Some (HArg (arr11 (Fin 3)) false)) (Some (arr12 (Fin 2) (Fin 2))) (ColumnMean false (fun _ _ => Fin 1) (fun _ _ => Fin 1) (fun x => x)) = InitOk s c /\
  train_guard s d = TRefused s.
Proof.
  intros d. destruct (xs_construct (arr11 (Fin 1)) (arr11 (Fin 1)) 1 LSNMF) as [s E]; try (cbn; lia).
  destruct (xs_start _ _ _ _ s (HArg (arr11 (Fin 3)) false) (arr12 (Fin 2) (Fin 2)) (fun _ _ => Fin 1) (fun _ _ => Fin 1) (fun x => x) E) as (s' & c & I); try (cbn; lia); [split; reflexivity|].
  exists s, s', c. split; [exact E|]. split; [exact I|].
  apply (C22_refused_exactly _ _ 1 LSNMF s s' (HArg (arr11 (Fin 3)) false) _ _ _ _ c d E ltac:(split; reflexivity) I). do 4 right. left. intros [_ B]. cbn in B. discriminate B.
Qed.

(** C22: validation is not repeated by train, so matrices replaced on the object
    after initialisation are used unchecked. *)
Theorem C22_replaced_matrices_unchecked :
  forall (s : sa) (H W Hnew Wnew : nd) d,
    s_init s = true -> s_valid s = true -> s_H s = Some H -> s_W s = Some W ->
    train_guard {| sV := sV s; sU := sU s; sWe := sWe s; s_m := s_m s; s_n := s_n s; s_k := s_k s;
                   s_method := s_method s; s_engine := s_engine s;
                   s_H := Some Hnew; s_W := Some Wnew;
                   s_neg := s_neg s; s_valid := s_valid s; s_init := s_init s |} d
    = TRun (s_engine s) (sV s) (sU s) (sWe s) Wnew Hnew
           {| sV := sV s; sU := sU s; sWe := sWe s; s_m := s_m s; s_n := s_n s; s_k := s_k s;
              s_method := s_method s; s_engine := s_engine s;
              s_H := Some Hnew; s_W := Some Wnew;
              s_neg := s_neg s; s_valid := s_valid s; s_init := s_init s |}.
Proof. intros s H W Hnew Wnew d Hi Hv _ _. unfold train_guard. cbn. rewrite Hi, Hv. reflexivity. Qed.
Print Assumptions C22_replaced_matrices_unchecked.

(** C22: data whose mean over some feature is negative cannot be trained with
    the default initialisation, whatever the method and the random draws: the
    square root of the mean makes the initial profile NaN. *)
Theorem C22_negative_feature_mean_refused :
  forall (V U : nd) (k : nat) (mth : method) (s : sa) rngH rngW wsW (x : nat -> nat -> R) (j : nat),
    construct V U k mth = Some s -> (0 < k)%nat ->
    (forall i, (i < rows V)%nat -> cell V i j = Fin (x i j)) -> (j < cols V)%nat ->
    rsum (rows V) (fun i => x i j) < 0 ->
    exists s', train_guard s (ColumnMean false rngH rngW wsW) = TRefused s'.
Proof.
  intros V U k mth s rngH rngW wsW x j Ec Hk Hx Hj Hneg.
  pose proof (construct_inv _ _ _ _ _ Ec) as
    (EV & EU & EWe & Em & En & Ek & _ & _ & _ & _ & Einit & Hr & Hc & HUr & HUc & _).
  unfold train_guard. rewrite Einit.
  destruct (initialize s None None (ColumnMean false rngH rngW wsW)) as [|s' c'] eqn:Ei.
  - exfalso. unfold initialize in Ei. cbv zeta in Ei. cbn [option_map] in Ei.
    match type of Ei with context [validate ?v ?u ?m ?n ?k (Some ?h) (Some ?w)] =>
      destruct (validate_defined v u m n k h w) as (ok & neg & Ev) end;
      try (rewrite ?EV, ?EU; cbn; unfold random_W; destruct (s_method s); cbn; rewrite ?Em, ?Ek, ?En; assumption).
    rewrite Ev in Ei. discriminate.
  - assert (EHs : s_H s' = Some (ndmap (floor_h false) (random_H (sV s) (s_k s) (s_n s) rngH))).
    { unfold initialize in Ei. cbv zeta in Ei. cbn [option_map] in Ei.
      destruct (validate _ _ _ _ _ _ _) as [[ok neg]|]; [|discriminate]. injection Ei as <- _. reflexivity. }
    apply initialize_inv in Ei.
    destruct Ei as (hi & h2 & W & EH & EW & _ & EV' & EU' & _ & _ & _ & _ & _ & _ & _ & Ev).
    rewrite EHs, EW in Ev. destruct (s_valid s') eqn:Eval; [|eauto].
    exfalso. pose proof (proj1 (validate_spec _ _ _ _ _ _ _ _ _ Ev) eq_refl) as
      (_ & _ & _ & _ & _ & Hnan & _).
    apply Hnan. exists 0%nat, j. cbn. rewrite Ek, En. split; [assumption|]. split; [assumption|].
    apply floor_h_nan. unfold col_mean. rewrite EV, (fsum_ext _ _ (fun i => Fin (x i j))) by exact Hx.
    rewrite fsum_fin. cbn.
    assert (Hm : 0 < INR (rows V)) by (apply lt_0_INR; assumption).
    assert (Hkk : 0 < INR k) by (apply lt_0_INR; assumption).
    destruct (Req_EM_T (INR (rows V)) 0); [lra|]. cbn. destruct (Req_EM_T (INR k) 0); [lra|].
    cbn. match goal with |- context [Rlt_dec ?y 0] => assert (Hy : y < 0) end.
    { unfold Rdiv. rewrite Rmult_assoc.
      assert (0 < / INR (rows V) * / INR k) by (apply Rmult_lt_0_compat; apply Rinv_0_lt_compat; assumption).
      nra. }
    destruct (Rlt_dec _ 0); [reflexivity|contradiction].
Qed.
Print Assumptions C22_negative_feature_mean_refused.
Example C22_negative_feature_mean_refused_example : exists s, construct (arr11 (Fin (-1))) (arr11 (Fin 1)) 1 WSNMF = Some s /\
  forall rngH rngW wsW, exists s', train_guard s (ColumnMean false rngH rngW wsW) = TRefused s'.
Proof.
  destruct (xs_construct (arr11 (Fin (-1))) (arr11 (Fin 1)) 1 WSNMF) as [s E]; try (cbn; lia). exists s. split; [exact E|]. intros rngH rngW wsW.
  apply (C22_negative_feature_mean_refused _ _ 1 WSNMF s rngH rngW wsW (fun _ _ => -1) 0 E); try (cbn; lia); [intros; reflexivity|cbn; lra].
Qed.

Example C22_instance : exists s, construct (arr11 (Fin (-1))) (arr11 (Fin 1)) 1 WSNMF = Some s /\
  rsum 1 (fun _ => -1) < 0.
Proof.
  destruct (one_cell_construct (-1) WSNMF) as (s & Es & _). exists s. split; [exact Es|]. cbn. lra.
Qed.

(** C23: profiles for fewer factors than the model has, all data finite.
    [raw] is the combined matrix before normalisation: seeded rows first. *)
Theorem C23_seeded_rows_rescaled :
  forall (s s' : sa) (h : harg) (p g : nat -> nat -> R) rngH rngW wsW W0 c,
    (rows (h_arr h) < s_k s)%nat -> cols (h_arr h) = s_n s -> (0 < rows (h_arr h))%nat ->
    (forall a j, cell (h_arr h) a j = Fin (p a j)) ->
    (forall a j, cell (random_H (sV s) (s_k s) (s_n s) rngH) a j = Fin (g a j)) ->
    initialize s (Some h) W0 (ColumnMean false rngH rngW wsW) = InitOk s' c ->
    let raw a j := if (a <? rows (h_arr h))%nat then p a j else g a j in
    let total j := rsum (s_k s) (fun a => raw a j) in
    exists H, s_H s' = Some H /\ shape H (s_k s) (s_n s) /\
      (forall a j, total j <> 0 ->
         cell H a j = Fin (if Rle_dec (raw a j / total j) 0 then / 10 ^ 12 else raw a j / total j)) /\
      (* all combined entries of a column positive: the column sums to one and a
         seeded entry survives only if the column already did *)
      (forall j, (forall a, (a < s_k s)%nat -> 0 < raw a j) ->
         fsum (s_k s) (fun a => cell H a j) = Fin 1 /\
         forall a, (a < rows (h_arr h))%nat ->
           (cell H a j = cell (h_arr h) a j <-> total j = 1)).
Proof.
  intros s s' h p g rngH rngW wsW W0 c Hr Hc Hr0 Hp Hg Ei raw total.
  assert (Hns : same_shape (h_arr h) (s_k s) (s_n s) = false) by (unfold same_shape; apply andb_false_iff; left; apply Nat.eqb_neq; lia).
  unfold initialize in Ei. rewrite Hns in Ei. cbv zeta in Ei. cbn [option_map] in Ei.
  unfold insert_prior in Ei.
  destruct (Nat.eqb_spec (rows (h_arr h)) 0) as [?|_]; [lia|].
  cbn [random_H rows cols] in Ei.
  destruct (Nat.ltb_spec (s_k s) (rows (h_arr h))) as [?|_]; [lia|].
  rewrite Hc, Nat.eqb_refl in Ei. cbn [option_map] in Ei.
  match type of Ei with context [Some (ndmap (floor_h false) ?x)] => set (Hn := x) in Ei end.
  assert (EH : s_H s' = Some (ndmap (floor_h false) Hn)).
  { destruct (validate _ _ _ _ _ _ _) as [[ok neg]|]; [|discriminate]. injection Ei as <- _. reflexivity. }
  clear Ei. exists (ndmap (floor_h false) Hn). split; [exact EH|].
  split; [split; reflexivity|].
  assert (Hcell : forall a j, total j <> 0 -> cell Hn a j = Fin (raw a j / total j)).
  { intros a j Ht. unfold Hn, col_normalise. cbn [cell rows].
    assert (Hraw : forall b, (if (b <? rows (h_arr h))%nat then cell (h_arr h) b j
               else cell (random_H (sV s) (s_k s) (s_n s) rngH) b j) = Fin (raw b j)).
    { intros b. unfold raw. destruct (b <? rows (h_arr h))%nat; [apply Hp|apply Hg]. }
    rewrite (fsum_ext _ _ (fun b => Fin (raw b j))) by (intros; apply Hraw).
    rewrite fsum_fin, Hraw. fold (total j).
    cbn. destruct (Req_EM_T (total j) 0); [contradiction|]. reflexivity. }
  assert (Hfinal : forall a j, total j <> 0 ->
         cell (ndmap (floor_h false) Hn) a j
         = Fin (if Rle_dec (raw a j / total j) 0 then / 10 ^ 12 else raw a j / total j)).
  { intros a j Ht. cbn [ndmap cell]. rewrite Hcell by exact Ht. unfold floor_h. cbn.
    unfold Rleb. destruct (Rle_dec (raw a j / total j) 0); reflexivity. }
  split; [exact Hfinal|].
  intros j Hpos.
  assert (Ht : 0 < total j) by (apply rsum_pos; [lia|exact Hpos]).
  assert (Hent : forall a, (a < s_k s)%nat ->
      cell (ndmap (floor_h false) Hn) a j = Fin (raw a j / total j)).
  { intros a Ha. rewrite Hfinal by lra.
    assert (0 < raw a j / total j) by (apply Rdiv_lt_0_compat; auto).
    destruct (Rle_dec (raw a j / total j) 0); [lra|reflexivity]. }
  split.
  - rewrite (fsum_ext _ _ (fun a => Fin (raw a j / total j))) by exact Hent.
    rewrite fsum_fin. f_equal. unfold Rdiv. rewrite rsum_scal_r. apply Rinv_r. lra.
  - intros a Ha. rewrite Hent by lia. rewrite Hp.
    assert (Er : raw a j = p a j) by (unfold raw; destruct (Nat.ltb_spec a (rows (h_arr h))); [reflexivity|lia]).
    assert (0 < raw a j) by (apply Hpos; lia). rewrite Er in *.
    split.
    + intros [= E]. apply (Rmult_eq_reg_l (p a j)); [|lra]. rewrite Rmult_1_r. rewrite <- E at 1. field; lra.
    + intros ->. f_equal. field.
Qed.
Print Assumptions C23_seeded_rows_rescaled.

(** C23: more rows than factors, or another number of features (not one), is an
    error. *)
Theorem C23_bad_seed_raises :
  forall (s : sa) (h : harg) W0 kind,
    (0 < rows (h_arr h))%nat ->
    ((s_k s < rows (h_arr h))%nat \/ (cols (h_arr h) <> s_n s /\ cols (h_arr h) <> 1%nat)) ->
    initialize s (Some h) W0 kind = InitRaises.
Proof.
  intros s h W0 kind Hr Hbad.
  assert (Hns : same_shape (h_arr h) (s_k s) (s_n s) = false).
  { unfold same_shape. apply andb_false_iff. rewrite !Nat.eqb_neq. lia. }
  unfold initialize. rewrite Hns. cbn [option_map].
  assert (Hins : forall f, insert_prior (ND (s_k s) (s_n s) f) (h_arr h) = None).
  { intros f. unfold insert_prior. cbn [rows cols].
    destruct (Nat.eqb_spec (rows (h_arr h)) 0) as [?|_]; [lia|].
    destruct (Nat.ltb_spec (s_k s) (rows (h_arr h))) as [?|?]; [reflexivity|].
    destruct (Nat.eqb_spec (cols (h_arr h)) (s_n s)); [lia|].
    destruct (Nat.eqb_spec (cols (h_arr h)) 1); [lia|reflexivity]. }
  destruct kind; cbv zeta; unfold random_H; rewrite Hins; reflexivity.
Qed.
Print Assumptions C23_bad_seed_raises.
Example C23_bad_seed_raises_example : exists s, construct (arr11 (Fin 1)) (arr11 (Fin 1)) 1 LSNMF = Some s /\
  forall W0 kind, initialize s (Some (HArg (ND 2 1 (fun _ _ => Fin 1)) false)) W0 kind = InitRaises.
Proof.
  destruct (xs_construct (arr11 (Fin 1)) (arr11 (Fin 1)) 1 LSNMF) as [s E]; try (cbn; lia). exists s. split; [exact E|]. intros W0 kind.
  pose proof (construct_inv _ _ _ _ _ E) as (_ & _ & _ & _ & _ & Ek & _). apply C23_bad_seed_raises; [cbn; lia|left; cbn; rewrite Ek; lia].
Qed.

(** C23: a positive seed can be lost altogether: a negative random remainder
    larger than the seed turns it into 1e-12. *)
Theorem C23_seed_kept_refuted :
  exists (s s' : sa) (h : harg) rngH rngW wsW c H,
    everywhere (h_arr h) positive /\ (rows (h_arr h) < s_k s)%nat /\ cols (h_arr h) = s_n s /\
    initialize s (Some h) None (ColumnMean false rngH rngW wsW) = InitOk s' c /\
    s_valid s' = true /\ s_H s' = Some H /\
    everywhere (h_arr h) (fun x => x = Fin 1) /\ cell H 0 0 = Fin (/ 10 ^ 12).
Proof.
  assert (Ec : exists s, construct (arr11 (Fin 2)) (arr11 (Fin 1)) 2 LSNMF = Some s).
  { unfold construct, validate.
    destruct (min_neg_defined (arr11 (Fin 2))) as [b Eb]; try (cbn; lia). rewrite Eb.
    destruct (min_neg_defined (ndmap floor_u (arr11 (Fin 1)))) as [? ->]; try (cbn; lia). eauto. }
  destruct Ec as [s Es].
  pose proof (construct_inv _ _ _ _ _ Es) as (EV & EU & _ & Em & En & Ek & Emth & _).
  cbn in Em, En.
  set (h := HArg (arr11 (Fin 1)) false).
  set (rngH := fun _ _ : nat => Fin (-2)). set (rngW := fun _ _ : nat => Fin 1).
  assert (EH : forall a j, cell (random_H (sV s) (s_k s) (s_n s) rngH) a j = Fin (-2)).
  { intros a j. rewrite EV, Ek, En. unfold random_H, col_mean. cbn.
    destruct (Req_EM_T 1 0); [lra|]. cbn. destruct (Req_EM_T (1 + 1) 0); [lra|].
    replace ((0 + 2) / 1 / (1 + 1)) with 1 by field. cbn. destruct (Rlt_dec 1 0); [lra|]. cbn. f_equal. rewrite sqrt_1. ring. }
  assert (EI : exists s' c, initialize s (Some h) None (ColumnMean false rngH rngW (fun x => x)) = InitOk s' c).
  { unfold initialize. replace (same_shape (h_arr h) (s_k s) (s_n s)) with false
      by (rewrite Ek; reflexivity).
    cbv zeta. cbn [option_map]. unfold insert_prior. cbn [h h_arr arr11 rows cols random_H].
    rewrite Ek, En. cbn [Nat.eqb Nat.ltb Nat.leb option_map].
    match goal with |- context [validate ?v ?u ?m ?n ?k (Some ?hh) (Some ?w)] =>
      destruct (validate_defined v u m n k hh w) as (ok & neg & Ev) end;
      try (rewrite ?EV, ?EU; cbn; unfold random_W; rewrite ?Emth; cbn; rewrite ?Em; lia).
    rewrite Ev. eauto. }
  destruct EI as (s' & c & EI).
  destruct (C23_seeded_rows_rescaled s s' h (fun _ _ => 1) (fun _ _ => -2) rngH rngW (fun x => x) None c)
    as (H & EHs & Hshape & Hcell & _); try assumption; try (rewrite Ek; cbn; lia); try (rewrite En; reflexivity);
    try (intros; reflexivity); try (cbn; lia).
  rewrite Ek in Hcell. cbn in Hcell.
  exists s, s', h, rngH, rngW, (fun x => x), c, H.
  split; [intros i j _ _; unfold positive; cbn; apply Rltb_iff; lra|].
  split; [rewrite Ek; cbn; lia|]. split; [rewrite En; reflexivity|]. split; [exact EI|].
  assert (HW : forall i a, (i < 1)%nat -> cell (random_W LSNMF (sV s) (s_m s) (s_k s) rngW) i a = Fin 1).
  { intros i a Hi. rewrite EV, Ek, Em. unfold random_W, row_mean. cbn.
    destruct (Req_EM_T 1 0); [lra|]. cbn. destruct (Req_EM_T (1 + 1) 0); [lra|].
    replace ((0 + 2) / 1 / (1 + 1)) with 1 by field. cbn. destruct (Rlt_dec 1 0); [lra|]. cbn.
    rewrite sqrt_1. unfold floor_w. cbn. unfold Rleb. destruct (Rle_dec (1 * 1) 0); [lra|]. f_equal. ring. }
  assert (EWs : s_W s' = Some (random_W LSNMF (sV s) (s_m s) (s_k s) rngW)).
  { unfold initialize in EI. replace (same_shape (h_arr h) (s_k s) (s_n s)) with false in EI
      by (rewrite Ek; reflexivity).
    cbv zeta in EI. cbn [option_map] in EI. unfold insert_prior in EI. cbn [h h_arr arr11 rows cols random_H] in EI.
    rewrite Ek, En in EI. cbn [Nat.eqb Nat.ltb Nat.leb option_map] in EI.
    destruct (validate _ _ _ _ _ _ _) as [[ok neg]|]; [|discriminate]. injection EI as <- _. cbn.
    rewrite Emth, Ek. reflexivity. }
  pose proof (initialize_inv _ _ _ _ _ _ EI) as (hi & h2 & W & EH2 & EW2 & _ & EV' & EU' & _ & _ & _ & _ & _ & _ & _ & Ev).
  assert (Hh0 : cell H 0 0 = Fin (/ 10 ^ 12)).
  { rewrite Hcell by lra. cbn [Nat.leb].
    destruct (Rle_dec (1 / (0 + 1 + -2)) 0) as [?|n0]; [reflexivity|].
    exfalso. apply n0. replace (1 / (0 + 1 + -2)) with (-1) by field; lra. }
  split.
  { rewrite EHs, EWs in Ev. apply (validate_spec _ _ _ _ _ _ _ _ _ Ev).
    destruct Hshape as [Hs1 Hs2].
    assert (Hfin : forall i j, (i < 2)%nat -> (j < 1)%nat -> exists x, cell H i j = Fin x /\ 0 < x).
    { intros i j Hi Hj. rewrite Hcell by lra. eexists. split; [reflexivity|].
      destruct (Rle_dec _ 0) as [?|n0]; [apply Rinv_0_lt_compat; lra|lra]. }
    repeat apply conj.
    - rewrite EV. intros (i & j & _ & _ & E). discriminate.
    - rewrite EU. intros (i & j & _ & _ & E). cbn in E. rewrite floor_u_cases in E. discriminate.
    - rewrite EU. intros (i & j & _ & _ & E). now apply floor_u_not_neg in E.
    - rewrite EU, EV. reflexivity.
    - rewrite EU, EV. reflexivity.
    - exact Hs1.
    - exact Hs2.
    - intros (i & j & Hi & Hj & E). rewrite Hs1, Ek in Hi. rewrite Hs2, En in Hj.
      destruct (Hfin i j Hi Hj) as (x & Ex & _). congruence.
    - intros (i & j & Hi & Hj & E). rewrite Hs1, Ek in Hi. rewrite Hs2, En in Hj.
      destruct (Hfin i j Hi Hj) as (x & Ex & Hx). unfold negative in E. rewrite Ex in E. cbn in E.
      apply Rltb_iff in E. lra.
    - reflexivity.
    - reflexivity.
    - intros (i & j & Hi & Hj & E). unfold random_W in Hi. cbn in Hi. rewrite Em in Hi.
      rewrite HW in E by exact Hi. discriminate. }
  split; [exact EHs|]. split; [intros i j _ _; reflexivity|exact Hh0].
Qed.
Print Assumptions C23_seed_kept_refuted.

(** The hypotheses of C23_seeded_rows_rescaled with a positive remainder. *)
Example C23_instance : exists s s' c,
  let h := HArg (arr11 (Fin 3)) false in
  let rngH := fun _ _ : nat => Fin 1 in
  construct (arr11 (Fin 2)) (arr11 (Fin 1)) 2 LSNMF = Some s /\
  (rows (h_arr h) < s_k s)%nat /\ cols (h_arr h) = s_n s /\
  (forall a j, cell (random_H (sV s) (s_k s) (s_n s) rngH) a j = Fin 1) /\
  initialize s (Some h) None (ColumnMean false rngH rngH (fun x => x)) = InitOk s' c.
Proof.
  assert (Ec : exists s, construct (arr11 (Fin 2)) (arr11 (Fin 1)) 2 LSNMF = Some s).
  { unfold construct, validate.
    destruct (min_neg_defined (arr11 (Fin 2))) as [b Eb]; try (cbn; lia). rewrite Eb.
    destruct (min_neg_defined (ndmap floor_u (arr11 (Fin 1)))) as [? ->]; try (cbn; lia). eauto. }
  destruct Ec as [s Es].
  pose proof (construct_inv _ _ _ _ _ Es) as (EV & EU & _ & Em & En & Ek & Emth & _). cbn in Em, En.
  set (h := HArg (arr11 (Fin 3)) false). set (rngH := fun _ _ : nat => Fin 1).
  assert (EI : exists s' c, initialize s (Some h) None (ColumnMean false rngH rngH (fun x => x)) = InitOk s' c).
  { unfold initialize. replace (same_shape (h_arr h) (s_k s) (s_n s)) with false
      by (rewrite Ek; reflexivity).
    cbv zeta. cbn [option_map]. unfold insert_prior. cbn [h h_arr arr11 rows cols random_H].
    rewrite Ek, En. cbn [Nat.eqb Nat.ltb Nat.leb option_map].
    match goal with |- context [validate ?v ?u ?m ?n ?k (Some ?hh) (Some ?w)] =>
      destruct (validate_defined v u m n k hh w) as (ok & neg & Ev) end;
      try (rewrite ?EV, ?EU; cbn; unfold random_W; rewrite ?Emth; cbn; rewrite ?Em; lia).
    rewrite Ev. eauto. }
  destruct EI as (s' & c & EI). exists s, s', c. cbv zeta. split; [exact Es|].
  split; [rewrite Ek; cbn; lia|]. split; [rewrite En; reflexivity|]. split; [|exact EI].
  intros a j. rewrite EV, Ek, En. unfold random_H, col_mean. cbn.
  destruct (Req_EM_T 1 0); [lra|]. cbn. destruct (Req_EM_T (1 + 1) 0); [lra|].
  replace ((0 + 2) / 1 / (1 + 1)) with 1 by field. cbn. destruct (Rlt_dec 1 0); [lra|]. cbn. f_equal. rewrite sqrt_1. ring.
Qed.

(** C21: the matrices training starts from.  For finite data [v] of m samples and
    n features, whose column and row sums are not negative, and finite draws: a
    drawn profile value is the square root of the feature's mean over k times the
    draw, a drawn contribution the square root of the sample's mean over k times
    the draw, and "update" takes V times the transposed profiles (before they are
    made positive).  A prior of [p] complete profiles takes the place of the first
    [p] drawn ones, and every feature is then divided by its total. *)
Definition made_positive (x : R) : R := if Rle_dec x 0 then / 10 ^ 12 else x.
Definition entries (a : nd) (f : nat -> nat -> R) : Prop :=
  forall i j, (i < rows a)%nat -> (j < cols a)%nat -> cell a i j = Fin (f i j).
Lemma floor_w_fin x : floor_w (Fin x) = Fin (made_positive x).
Proof. unfold floor_w, made_positive, EPS, fle, Rleb. destruct (Rle_dec x 0); reflexivity. Qed.
Lemma floor_h_fin x : floor_h false (Fin x) = Fin (made_positive x).
Proof. unfold floor_h, made_positive, EPS, fle, Rleb. destruct (Rle_dec x 0); reflexivity. Qed.
Lemma root_share f N k g : (0 < N)%nat -> (0 < k)%nat -> 0 <= rsum N f ->
  fmul (fsqrt (fdiv (fdiv (fsum N (fun i => Fin (f i))) (Fin (INR N))) (Fin (INR k)))) (Fin g) = Fin (sqrt (rsum N f / INR N / INR k) * g).
Proof.
  intros HN Hk H0. apply lt_0_INR in HN, Hk. rewrite fsum_fin. cbn [fdiv].
  destruct (Req_EM_T (INR N) 0); [lra|]. cbn [fdiv]. destruct (Req_EM_T (INR k) 0); [lra|]. cbn [fsqrt].
  destruct (Rlt_dec (rsum N f / INR N / INR k) 0) as [Hn|_]; [|reflexivity].
  exfalso. assert (0 <= rsum N f / INR N / INR k); [|lra]. repeat apply Rmult_le_pos; auto; left; apply Rinv_0_lt_compat; auto.
Qed.
Definition start_profile (v : nat -> nat -> R) (m k : nat) (g : nat -> nat -> R) (a j : nat) : R :=
  sqrt (rsum m (fun i => v i j) / INR m / INR k) * g a j.
Lemma random_H_fin V k v g : entries V v -> (0 < rows V)%nat -> (0 < k)%nat ->
  (forall j, (j < cols V)%nat -> 0 <= rsum (rows V) (fun i => v i j)) ->
  entries (random_H V k (cols V) (fun a j => Fin (g a j))) (start_profile v (rows V) k g).
Proof.
  intros HV Hm Hk Hc a j Ha Hj. cbn in Ha, Hj. unfold random_H, col_mean. cbn [cell].
  rewrite (fsum_ext _ _ (fun i => Fin (v i j))) by (intros; apply HV; auto). apply root_share; auto.
Qed.
Lemma random_W_fin mth V k v h : entries V v -> (0 < cols V)%nat -> (0 < k)%nat ->
  (forall i, (i < rows V)%nat -> 0 <= rsum (cols V) (v i)) ->
  entries (random_W mth V (rows V) k (fun i a => Fin (h i a)))
    (fun i a => let y := sqrt (rsum (cols V) (v i) / INR (cols V) / INR k) * h i a in
                match mth with LSNMF => made_positive y | WSNMF => y end).
Proof.
  intros HV Hn Hk Hr i a Hi Ha. unfold random_W in *. destruct mth; cbn in Hi, Ha; cbn [ndmap cell rows cols]; unfold row_mean;
    rewrite (fsum_ext _ _ (fun j => Fin (v i j))) by (intros; apply HV; auto); rewrite root_share by auto; [apply floor_w_fin|reflexivity].
Qed.
Lemma matmul_T_fin V H v x : entries V v -> entries H x -> cols H = cols V ->
  entries (matmul_T V H) (fun i a => rsum (cols V) (fun j => v i j * x a j)).
Proof.
  intros HV HH Hc i a Hi Ha. cbn in Hi, Ha. unfold matmul_T. cbn [cell].
  rewrite (fsum_ext _ _ (fun j => Fin (v i j * x a j))); [apply fsum_fin|]. intros j Hj. rewrite HV, HH by lia. reflexivity.
Qed.
Lemma floored H x : entries H x -> entries (ndmap (floor_h false) H) (fun a j => made_positive (x a j)).
Proof. intros HH a j Ha Hj. cbn in *. rewrite HH by auto. apply floor_h_fin. Qed.

Theorem C21_starting_matrices : forall (V U : nd) (k : nat) (mth : method) (s0 s : sa) v g h upd wsW c,
    construct V U k mth = Some s0 -> (0 < k)%nat -> entries V v ->
    let m := rows V in let n := cols V in
    (forall j, (j < n)%nat -> 0 <= rsum m (fun i => v i j)) -> (forall i, (i < m)%nat -> 0 <= rsum n (v i)) ->
    initialize s0 None None (ColumnMean upd (fun a j => Fin (g a j)) (fun i a => Fin (h i a)) wsW) = InitOk s c ->
    let x a j := sqrt (rsum m (fun i => v i j) / INR m / INR k) * g a j in
    let y i a := sqrt (rsum n (v i) / INR n / INR k) * h i a in
    exists H W, s_H s = Some H /\ s_W s = Some W /\
      shape H k n /\ entries H (fun a j => made_positive (x a j)) /\
      (upd = false -> shape W m k /\ entries W (fun i a => match mth with LSNMF => made_positive (y i a) | WSNMF => y i a end)) /\
      (upd = true -> mth = LSNMF -> shape W m k /\ entries W (fun i a => rsum n (fun j => v i j * x a j))).
Proof.
  intros V U k mth s0 s v g h upd wsW c Ec Hk HV m n Hcol Hrow Ei x y.
  pose proof (construct_inv _ _ _ _ _ Ec) as (EV & _ & _ & Em & En & Ek & Emth & _ & _ & _ & _ & Hm & Hn & _).
  unfold initialize in Ei. cbn [option_map] in Ei. cbv zeta iota beta in Ei. rewrite EV, Em, En, Ek, Emth in Ei.
  set (Hr := random_H V k (cols V) (fun a j => Fin (g a j))) in *.
  pose proof (random_H_fin V k v g HV Hm Hk Hcol) as HH. fold Hr in HH.
  match type of Ei with match ?o with Some _ => _ | None => _ end = _ => destruct o as [[ok neg]|]; [|discriminate] end.
  injection Ei as <- _. cbn [s_H s_W]. do 2 eexists. split; [reflexivity|]. split; [reflexivity|].
  split; [split; reflexivity|]. split; [apply floored, HH|]. split.
  - intros ->. split; [unfold random_W; destruct mth; split; reflexivity|]. apply random_W_fin; auto.
  - intros -> ->. split; [split; reflexivity|]. apply (matmul_T_fin V Hr v x); auto.
Qed.
Print Assumptions C21_starting_matrices.
Example C21_starting_matrices_instance :
  let v := fun i j => if (i =? j)%nat then 8 else 0 in
  let V := ND 2 2 (fun i j => Fin (v i j)) in
  entries V v /\ (forall j, (j < 2)%nat -> rsum 2 (fun i => v i j) = 8) /\ (forall i, (i < 2)%nat -> rsum 2 (v i) = 8) /\
  (exists s0, construct V V 2 LSNMF = Some s0) /\
  sqrt (8 / INR 2 / INR 1) * 3 = 6.
Proof.
  cbv zeta. split; [intros i j _ _; reflexivity|].
  split; [intros [|[|j]] Hj; [| |lia]; cbn; lra|]. split; [intros [|[|j]] Hj; [| |lia]; cbn; lra|]. split.
  - unfold construct, validate.
    destruct (min_neg_defined (ND 2 2 (fun i j => Fin (if (i =? j)%nat then 8 else 0)))) as [? ->]; try (cbn; lia).
    destruct (min_neg_defined (ndmap floor_u (ND 2 2 (fun i j => Fin (if (i =? j)%nat then 8 else 0))))) as [? ->]; try (cbn; lia). eauto.
  - replace (8 / INR 2 / INR 1) with (2 * 2) by (cbn; field). rewrite sqrt_square by lra. lra.
Qed.

(** C21: profiles given. A complete set is used as it is (made positive); fewer
    rows ([p]) replace the first drawn profiles and each feature is divided by its
    total over the factors. *)
Theorem C21_given_profiles : forall (V U P : nd) (k : nat) (mth : method) (s0 s : sa) v z g rngW W0 upd wsW c,
    construct V U k mth = Some s0 -> (0 < k)%nat -> entries V v -> entries P z -> cols P = cols V ->
    let m := rows V in let n := cols V in let p := rows P in
    (forall j, (j < n)%nat -> 0 <= rsum m (fun i => v i j)) ->
    initialize s0 (Some (HArg P false)) W0 (ColumnMean upd (fun a j => Fin (g a j)) rngW wsW) = InitOk s c ->
    let x a j := if (a <? p)%nat then z a j else sqrt (rsum m (fun i => v i j) / INR m / INR k) * g a j in
    let t j := rsum k (fun a => x a j) in
    exists H W, s_H s = Some H /\ s_W s = Some W /\ shape H k n /\ (p <= k)%nat /\
      (p = k -> entries H (fun a j => made_positive (z a j))) /\
      ((p < k)%nat -> (forall j, (j < n)%nat -> t j <> 0) -> entries H (fun a j => made_positive (x a j / t j))) /\
      (p = k -> upd = true -> mth = LSNMF -> entries W (fun i a => rsum n (fun j => v i j * z a j))) /\
      (upd = false -> forall w, W0 = Some w -> W = w).
Proof.
  intros V U P k mth s0 s v z g rngW W0 upd wsW c Ec Hk HV HP HPn m n p Hcol Ei x t.
  pose proof (construct_inv _ _ _ _ _ Ec) as (EV & _ & _ & Em & En & Ek & Emth & _ & _ & _ & _ & Hm & Hn & _).
  unfold initialize in Ei. cbn [option_map h_arr h_is_int] in Ei. cbv zeta in Ei. rewrite EV, Em, En, Ek, Emth in Ei.
  set (Hr := random_H V k (cols V) (fun a j => Fin (g a j))) in *.
  pose proof (random_H_fin V k v g HV Hm Hk Hcol) as HH. fold Hr in HH.
  destruct (same_shape P k (cols V)) eqn:Esh.
  - apply same_shape_iff in Esh. destruct Esh as [Er Eco]. cbn [option_map h_arr h_is_int] in Ei.
    match type of Ei with match ?o with Some _ => _ | None => _ end = _ => destruct o as [[ok neg]|]; [|discriminate] end.
    injection Ei as <- _. cbn [s_H s_W]. do 2 eexists. split; [reflexivity|]. split; [reflexivity|].
    split; [split; [exact Er|exact Eco]|]. split; [unfold p; lia|]. split; [intros _; apply floored, HP|].
    split; [unfold p; lia|]. split.
    + intros _ -> ->. apply (matmul_T_fin V P v z); auto.
    + intros -> w ->. reflexivity.
  - assert (Hne : rows P <> k). { intros E. assert (Hs : same_shape P k (cols V) = true) by (apply same_shape_iff; split; auto). congruence. }
    cbn [option_map h_arr] in Ei. unfold insert_prior in Ei. cbn [Hr random_H rows cols] in Ei. rewrite HPn, Nat.eqb_refl in Ei.
    destruct (rows P =? 0)%nat eqn:E0.
    + apply Nat.eqb_eq in E0. cbn [option_map] in Ei.
      match type of Ei with match ?o with Some _ => _ | None => _ end = _ => destruct o as [[ok neg]|]; [|discriminate] end.
      injection Ei as <- _. cbn [s_H s_W]. do 2 eexists. split; [reflexivity|]. split; [reflexivity|].
      split; [split; reflexivity|]. split; [unfold p; lia|]. split; [unfold p; lia|]. split.
      * intros _ Ht. apply floored. intros a j Ha Hj. cbn in Ha, Hj. unfold col_normalise. cbn [cell rows].
        assert (EX : forall b, (b < k)%nat -> cell Hr b j = Fin (x b j)).
        { intros b Hb. rewrite (HH b j) by auto. unfold x, p. rewrite E0. reflexivity. }
        change (rows Hr) with k. rewrite (fsum_ext _ _ (fun b => Fin (x b j))) by (intros b Hb; apply EX, Hb).
        rewrite fsum_fin, EX by auto. fold (t j). cbn [fdiv]. destruct (Req_EM_T (t j) 0) as [E|_]; [destruct (Ht j Hj E)|reflexivity].
      * split; [unfold p; lia|]. intros -> w ->. reflexivity.
    + destruct (k <? rows P)%nat eqn:E1; [discriminate|]. apply Nat.ltb_ge in E1. cbn [option_map] in Ei.
      match type of Ei with match ?o with Some _ => _ | None => _ end = _ => destruct o as [[ok neg]|]; [|discriminate] end.
      injection Ei as <- _. cbn [s_H s_W]. do 2 eexists. split; [reflexivity|]. split; [reflexivity|].
      split; [split; reflexivity|]. split; [unfold p; lia|]. split; [unfold p; lia|]. split.
      * intros _ Ht. apply floored. intros a j Ha Hj. cbn in Ha, Hj. unfold col_normalise. cbn [cell rows].
        assert (EX : forall b, (b < k)%nat -> (if (b <? rows P)%nat then cell P b j else cell Hr b j) = Fin (x b j)).
        { intros b Hb. unfold x, p. destruct (b <? rows P)%nat eqn:Eb; [apply HP; [apply Nat.ltb_lt, Eb|rewrite HPn; exact Hj]|apply HH; auto]. }
        rewrite (fsum_ext _ _ (fun b => Fin (x b j))) by (intros b Hb; apply EX, Hb).
        rewrite fsum_fin, EX by auto. change (rows Hr) with k. fold (t j). cbn [fdiv]. destruct (Req_EM_T (t j) 0) as [E|_]; [destruct (Ht j Hj E)|reflexivity].
      * split; [unfold p; lia|]. intros -> w ->. reflexivity.
Qed.
Print Assumptions C21_given_profiles.

(** C21: a prior of one column is repeated over the features. *)
Theorem C21_one_column_prior : forall (V U P : nd) (k : nat) (mth : method) (s0 s : sa) v z g rngW W0 upd wsW c,
    construct V U k mth = Some s0 -> (0 < k)%nat -> entries V v -> entries P z -> cols P = 1%nat -> cols V <> 1%nat -> rows P <> 0%nat ->
    let m := rows V in let n := cols V in let p := rows P in
    (forall j, (j < n)%nat -> 0 <= rsum m (fun i => v i j)) ->
    initialize s0 (Some (HArg P false)) W0 (ColumnMean upd (fun a j => Fin (g a j)) rngW wsW) = InitOk s c ->
    let x a j := if (a <? p)%nat then z a 0%nat else sqrt (rsum m (fun i => v i j) / INR m / INR k) * g a j in
    let t j := rsum k (fun a => x a j) in
    exists H W, s_H s = Some H /\ s_W s = Some W /\ shape H k n /\ (p <= k)%nat /\
      ((forall j, (j < n)%nat -> t j <> 0) -> entries H (fun a j => made_positive (x a j / t j))).
Proof.
  intros V U P k mth s0 s v z g rngW W0 upd wsW c Ec Hk HV HP HP1 HV1 HP0 m n p Hcol Ei x t.
  pose proof (construct_inv _ _ _ _ _ Ec) as (EV & _ & _ & Em & En & Ek & Emth & _ & _ & _ & _ & Hm & Hn & _).
  unfold initialize in Ei. cbn [option_map h_arr h_is_int] in Ei. cbv zeta in Ei. rewrite EV, Em, En, Ek, Emth in Ei.
  set (Hr := random_H V k (cols V) (fun a j => Fin (g a j))) in *.
  pose proof (random_H_fin V k v g HV Hm Hk Hcol) as HH. fold Hr in HH.
  destruct (same_shape P k (cols V)) eqn:Esh.
  { apply same_shape_iff in Esh. destruct Esh as [_ E]. congruence. }
  cbn [option_map h_arr] in Ei. unfold insert_prior in Ei. cbn [Hr random_H rows cols] in Ei.
  apply Nat.eqb_neq in HP0. rewrite HP0, HP1 in Ei. replace (1 =? cols V)%nat with false in Ei by (symmetry; apply Nat.eqb_neq; auto).
  rewrite Nat.eqb_refl in Ei.
  destruct (k <? rows P)%nat eqn:E1; [discriminate|]. apply Nat.ltb_ge in E1. cbn [option_map] in Ei.
  match type of Ei with match ?o with Some _ => _ | None => _ end = _ => destruct o as [[ok neg]|]; [|discriminate] end.
  injection Ei as <- _. cbn [s_H s_W]. do 2 eexists. split; [reflexivity|]. split; [reflexivity|].
  split; [split; reflexivity|]. split; [unfold p; lia|].
  intros Ht. apply floored. intros a j Ha Hj. cbn in Ha, Hj. unfold col_normalise. cbn [cell rows].
  assert (EX : forall b, (b < k)%nat -> (if (b <? rows P)%nat then cell P b 0%nat else cell Hr b j) = Fin (x b j)).
  { intros b Hb. unfold x, p. destruct (b <? rows P)%nat eqn:Eb; [apply HP; [apply Nat.ltb_lt, Eb|rewrite HP1; lia]|apply HH; auto]. }
  rewrite (fsum_ext _ _ (fun b => Fin (x b j))) by (intros b Hb; apply EX, Hb).
  rewrite fsum_fin, EX by auto. change (rows Hr) with k. fold (t j). cbn [fdiv]. destruct (Req_EM_T (t j) 0) as [E|_]; [destruct (Ht j Hj E)|reflexivity].
Qed.
Print Assumptions C21_one_column_prior.
Example C21_one_column_instance :
  let V := ND 1 2 (fun _ _ => Fin 8) in
  (exists s0, construct V V 2 LSNMF = Some s0) /\
  (let x a := if (a <? 1)%nat then 3 else sqrt (8 / INR 1 / INR 2) * 1 in rsum 2 x = 5).
Proof.
  cbv zeta. split.
  - unfold construct, validate.
    destruct (min_neg_defined (ND 1 2 (fun _ _ => Fin 8))) as [? ->]; try (cbn; lia).
    destruct (min_neg_defined (ndmap floor_u (ND 1 2 (fun _ _ => Fin 8)))) as [? ->]; try (cbn; lia). eauto.
  - replace (8 / INR 1 / INR 2) with (2 * 2) by (cbn; field). rewrite sqrt_square by lra. cbn. lra.
Qed.

(** C21: k-means.  Each sample has 1/k everywhere but in its own cluster, which has
    its draw; the profiles are the centroids, whatever matrices were given. *)
Theorem C21_kmeans_start : forall (V U : nd) (k : nat) (mth : method) (s0 s : sa) H0 W0 ce cl d c,
    construct V U k mth = Some s0 ->
    (forall h, H0 = Some h -> shape (h_arr h) k (cols V)) ->
    initialize s0 H0 W0 (Kmeans (fun a j => Fin (ce a j)) cl (fun i => Fin (d i))) = InitOk s c ->
    exists H W, s_H s = Some H /\ s_W s = Some W /\ shape H k (cols V) /\ shape W (rows V) k /\
      entries H (fun a j => made_positive (ce a j)) /\
      (forall i a, (i < rows V)%nat -> (a < k)%nat -> (a = cl i -> cell W i a = Fin (d i)) /\ (a <> cl i -> cell W i a = Fin (/ INR k))).
Proof.
  intros V U k mth s0 s H0 W0 ce cl d c Ec Hsh Ei.
  pose proof (construct_inv _ _ _ _ _ Ec) as (EV & _ & _ & Em & En & Ek & Emth & _).
  unfold initialize in Ei. cbv zeta in Ei. rewrite EV, Em, En, Ek in Ei.
  assert (Eu : match H0 with Some h => same_shape (h_arr h) k (cols V) | None => false end = false -> option_map h_arr H0 = None).
  { destruct H0 as [h|]; [|reflexivity]. intros E. exfalso. assert (same_shape (h_arr h) k (cols V) = true) by (apply same_shape_iff, Hsh; reflexivity). congruence. }
  assert (Ep : (if match H0 with Some h => same_shape (h_arr h) k (cols V) | None => false end then None else option_map h_arr H0) = None).
  { destruct (match H0 with Some h => _ | None => false end) eqn:E; [reflexivity|]. apply Eu. reflexivity. }
  rewrite Ep in Ei.
  match type of Ei with match ?o with Some _ => _ | None => _ end = _ => destruct o as [[ok neg]|]; [|discriminate] end.
  injection Ei as <- _. cbn [s_H s_W]. do 2 eexists. split; [reflexivity|]. split; [reflexivity|].
  split; [split; reflexivity|]. split; [split; reflexivity|]. split; [apply floored; intros a j _ _; reflexivity|].
  intros i a _ _. cbn [cell]. split.
  - intros ->. rewrite Nat.eqb_refl. reflexivity.
  - intros Hne. apply Nat.eqb_neq in Hne. rewrite Hne. f_equal. unfold Rdiv. ring.
Qed.
Print Assumptions C21_kmeans_start.
Example C21_given_profiles_instance :
  let V := ND 1 1 (fun _ _ => Fin 8) in let P := ND 1 1 (fun _ _ => Fin 3) in
  let g := fun _ _ : nat => 1 in
  (exists s0, construct V V 2 LSNMF = Some s0) /\
  (let x a := if (a <? 1)%nat then 3 else sqrt (8 / INR 1 / INR 2) * g a 0%nat in
   rsum 2 x = 5 /\ x 0%nat / rsum 2 x = 3 / 5 /\ x 1%nat / rsum 2 x = 2 / 5).
Proof.
  cbv zeta. split.
  - unfold construct, validate.
    destruct (min_neg_defined (ND 1 1 (fun _ _ => Fin 8))) as [? ->]; try (cbn; lia).
    destruct (min_neg_defined (ndmap floor_u (ND 1 1 (fun _ _ => Fin 8)))) as [? ->]; try (cbn; lia). eauto.
  - replace (8 / INR 1 / INR 2) with (2 * 2) by (cbn; field). rewrite sqrt_square by lra. cbn. repeat split; field.
Qed.

(** k-means with one cluster of centre -2 and the draw 3. *)
Example C21_kmeans_start_example : exists s0 s c H W, construct (arr11 (Fin 1)) (arr11 (Fin 1)) 1 LSNMF = Some s0 /\
  initialize s0 None None (Kmeans (fun _ _ => Fin (-2)) (fun _ => 0%nat) (fun _ => Fin 3)) = InitOk s c /\
  s_H s = Some H /\ s_W s = Some W /\ cell H 0 0 = Fin (/ 10 ^ 12) /\ cell W 0 0 = Fin 3.
Proof.
  destruct (one_cell_construct 1 LSNMF) as (s0 & Es & _).
  pose proof (construct_inv _ _ _ _ _ Es) as (EV & EU & _ & Em & En & Ek & Emth & _).
  assert (E : exists s c, initialize s0 None None (Kmeans (fun _ _ => Fin (-2)) (fun _ => 0%nat) (fun _ => Fin 3)) = InitOk s c).
  { unfold initialize. cbv zeta. cbn [option_map].
    match goal with |- context [validate ?v ?u ?m ?n ?k (Some ?h) (Some ?w)] =>
      destruct (validate_defined v u m n k h w) as (ok & neg & Ev) end;
      try (rewrite ?EV, ?EU; cbn; rewrite ?Em, ?Ek, ?En; cbn; lia).
    rewrite Ev. eauto. }
  destruct E as (s & c & E).
  destruct (C21_kmeans_start (arr11 (Fin 1)) (arr11 (Fin 1)) 1 LSNMF s0 s None None (fun _ _ => -2) (fun _ => 0%nat) (fun _ => 3) c Es ltac:(discriminate) E)
    as (H & W & EH & EW & [S1 S2] & _ & XH & XW).
  exists s0, s, c, H, W. repeat (split; [assumption|]). split.
  - rewrite XH by (rewrite ?S1, ?S2; cbn; lia). unfold made_positive. destruct (Rle_dec (-2) 0); [reflexivity|lra].
  - apply (XW 0%nat 0%nat); [cbn; lia|lia|reflexivity].
Qed.
(** Matrices replaced by NaN ones of any shape after a good start. *)
Example C22_replaced_matrices_unchecked_example d :=
  C22_replaced_matrices_unchecked
    {| sV := arr11 (Fin 1); sU := arr11 (Fin 1); sWe := arr11 (Fin 1); s_m := 1; s_n := 1; s_k := 1; s_method := LSNMF; s_engine := LSNMF;
       s_H := Some (arr11 (Fin 1)); s_W := Some (arr11 (Fin 1)); s_neg := false; s_valid := true; s_init := true |}
    (arr11 (Fin 1)) (arr11 (Fin 1)) (ND 3 2 (fun _ _ => NaN)) (ND 1 7 (fun _ _ => NaN)) d eq_refl eq_refl eq_refl eq_refl.
