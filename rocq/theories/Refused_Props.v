(** C22: which data a model with the default initialisation refuses. *)
From Coq Require Import Reals Lra Lia List Bool Arith.
From Verif Require Import Base Fl SA_Model SA_Proofs SA_Props.
Open Scope R_scope.

Lemma made_pos x : 0 < made_positive x.
Proof. unfold made_positive. destruct (Rle_dec x 0); [apply Rinv_0_lt_compat, pow_lt; lra|lra]. Qed.

(** A model that was not initialised, trained on finite data: train returns -1 exactly
    when the uncertainties have another shape or contain NaN, or the mean of some feature
    or of some sample is negative; otherwise the engine is called on the data. *)
Theorem C22_default_start_refused_exactly :
  forall (V U : nd) (k : nat) (mth : method) (s0 : sa) (v g h : nat -> nat -> R) wsW,
  construct V U k mth = Some s0 -> (0 < k)%nat -> entries V v ->
  let kind := ColumnMean false (fun a j => Fin (g a j)) (fun i a => Fin (h i a)) wsW in
  let bad := contains U (fun x => x = NaN) \/ ~ shape U (rows V) (cols V) \/
    (exists j, (j < cols V)%nat /\ rsum (rows V) (fun i => v i j) / INR (rows V) < 0) \/
    (exists i, (i < rows V)%nat /\ rsum (cols V) (v i) / INR (cols V) < 0) in
  (bad -> exists s, train_guard s0 kind = TRefused s) /\
  (~ bad -> exists eng W H s, train_guard s0 kind = TRun eng V (ndmap floor_u U) (ndmap weight_of (ndmap floor_u U)) W H s /\
     everywhere H positive /\ (mth = LSNMF -> everywhere W positive)).
Proof.
  intros V U k mth s0 v g h wsW Ec Hk Ev kind bad.
  pose proof (construct_inv _ _ _ _ _ Ec) as (EV & EU & EWe & Em & En & Ek & Emth & _ & _ & _ & Einit & Hr & Hc & HUr & HUc & _).
  assert (Pm : 0 < INR (rows V)) by (apply lt_0_INR; assumption). assert (Pn : 0 < INR (cols V)) by (apply lt_0_INR; assumption).
  assert (Pk : 0 < INR k) by (apply lt_0_INR; assumption).
  assert (Neg : forall x y, 0 < y -> (x / y < 0 <-> x < 0)).
  { intros x y Hy. pose proof (Rinv_0_lt_compat y Hy). unfold Rdiv. split; intros; nra. }
  destruct (initialize s0 None None kind) as [|s c] eqn:Ei.
  { exfalso. unfold kind, initialize in Ei. cbv zeta in Ei. cbn [option_map] in Ei.
    match type of Ei with context [validate ?v ?u ?m ?n ?k (Some ?h) (Some ?w)] => destruct (validate_defined v u m n k h w) as (ok & neg & Eva) end;
      try (rewrite ?EV, ?EU; cbn; unfold random_W; destruct (s_method s0); cbn; rewrite ?Em, ?Ek, ?En; assumption).
    rewrite Eva in Ei. discriminate. }
  assert (Eq : exists Hm Wm, s_H s = Some Hm /\ s_W s = Some Wm /\ sV s = V /\ sU s = ndmap floor_u U /\ sWe s = ndmap weight_of (ndmap floor_u U) /\ s_init s = true /\
    s_m s = rows V /\ s_n s = cols V /\ s_k s = k /\ Wm = random_W mth V (rows V) k (fun i a => Fin (h i a))).
  { unfold kind, initialize in Ei. cbv zeta in Ei. cbn [option_map] in Ei.
    destruct (validate _ _ _ _ _ _ _) as [[ok neg]|]; [|discriminate]. injection Ei as <- _. cbn [s_H s_W sV sU sWe s_init s_m s_n s_k].
    rewrite EV, Em, Ek, Emth. do 2 eexists. repeat split; assumption. }
  destruct Eq as (Hm & Wm & EH & EW & EV' & EU' & EWe' & Ein & Em' & En' & Ek' & EWm).
  assert (Et : train_guard s0 kind = train_guard s kind).
  { unfold train_guard. rewrite Einit, Ei, Ein. reflexivity. }
  destruct (C22_decision_table s0 s None None kind c kind Ei) as (Hx & Wx & EHx & EWx & Dg & Db).
  assert (Hx = Hm) by congruence. assert (Wx = Wm) by congruence. subst Hx Wx.
  rewrite EV', EU', Em', En', Ek' in Db. rewrite EV', EU', EWe', Em', En', Ek' in Dg. rewrite Et.
  assert (Sh : shape (ndmap floor_u U) (rows V) (cols V) <-> shape U (rows V) (cols V)) by (unfold shape; cbn [ndmap rows cols]; tauto).
  split.
  - intros [B|[B|[(j & Hj & B)|(i & Hi & B)]]].
    + exists s. apply Db. intros (_ & Q & _). apply Q. destruct B as (x & y & Hx & Hy & E). exists x, y. cbn [ndmap rows cols cell]. rewrite E. repeat split; assumption.
    + exists s. apply Db. intros (_ & _ & _ & Q & _). apply B, Sh, Q.
    + rewrite <- Et. apply (C22_negative_feature_mean_refused V U k mth s0 (fun a j => Fin (g a j)) (fun i a => Fin (h i a)) wsW v j Ec Hk).
      * intros i Hi. apply Ev; assumption.
      * exact Hj.
      * apply (Neg _ _ Pm), B.
    + exists s. apply Db. intros (_ & _ & _ & _ & _ & _ & _ & _ & Q). apply Q. apply (proj1 (Neg _ _ Pn)) in B.
      assert (Nan : fmul (fsqrt (fdiv (row_mean V i) (Fin (INR k)))) (Fin (h i 0%nat)) = NaN).
      { unfold row_mean. rewrite (fsum_ext _ _ (fun j => Fin (v i j))) by (intros; apply Ev; assumption). rewrite fsum_fin. cbn [fdiv].
        destruct (Req_EM_T (INR (cols V)) 0); [lra|]. cbn [fdiv]. destruct (Req_EM_T (INR k) 0); [lra|]. cbn [fsqrt].
        assert (Y : rsum (cols V) (fun j => v i j) / INR (cols V) / INR k < 0) by (apply (Neg _ _ Pk), (Neg _ _ Pn), B).
        destruct (Rlt_dec _ 0); [reflexivity|contradiction]. }
      exists i, 0%nat. rewrite EWm. unfold random_W. destruct mth; cbn [ndmap rows cols cell]; (split; [assumption|]); (split; [assumption|]); rewrite Nan; reflexivity.
  - intros Nb.
    assert (Cs : forall j, (j < cols V)%nat -> 0 <= rsum (rows V) (fun i => v i j)).
    { intros j Hj. destruct (Rlt_le_dec (rsum (rows V) (fun i => v i j)) 0) as [Q|Q]; [|exact Q]. exfalso. apply Nb. right. right. left. exists j. split; [exact Hj|]. apply (Neg _ _ Pm), Q. }
    assert (Rs : forall i, (i < rows V)%nat -> 0 <= rsum (cols V) (v i)).
    { intros i Hi. destruct (Rlt_le_dec (rsum (cols V) (v i)) 0) as [Q|Q]; [|exact Q]. exfalso. apply Nb. right. right. right. exists i. split; [exact Hi|]. apply (Neg _ _ Pn), Q. }
    destruct (C21_starting_matrices V U k mth s0 s v g h false wsW c Ec Hk Ev Cs Rs Ei) as (H1 & W1 & EH1 & EW1 & ShH & EnH & Wf & _).
    destruct (Wf eq_refl) as [ShW EnW]. assert (H1 = Hm) by congruence. assert (W1 = Wm) by congruence. subst H1 W1.
    assert (PH : everywhere Hm positive).
    { intros a j Ha Hj. rewrite (EnH a j Ha Hj). unfold positive, flt, Rltb. pose proof (made_pos (sqrt (rsum (rows V) (fun i => v i j) / INR (rows V) / INR k) * g a j)).
      destruct (Rlt_dec _ _); [reflexivity|contradiction]. }
    exists (s_engine s), Wm, Hm, s. split; [|split; [exact PH|]].
    + apply Dg. repeat split.
      * intros (x & y & Hx & Hy & E). rewrite (Ev x y Hx Hy) in E. discriminate.
      * intros (x & y & Hx & Hy & E). apply Nb. left. exists x, y. cbn [ndmap rows cols cell] in Hx, Hy, E. repeat split; auto.
        rewrite floor_u_cases in E. destruct (cell U x y); try discriminate. reflexivity.
      * intros (x & y & Hx & Hy & E). exact (floor_u_not_neg _ E).
      * apply Sh. destruct (Nat.eq_dec (rows U) (rows V)) as [E1|E1], (Nat.eq_dec (cols U) (cols V)) as [E2|E2]; try (split; assumption); exfalso; apply Nb; right; left; intros [Q1 Q2]; contradiction.
      * apply Sh. destruct (Nat.eq_dec (rows U) (rows V)) as [E1|E1], (Nat.eq_dec (cols U) (cols V)) as [E2|E2]; try (split; assumption); exfalso; apply Nb; right; left; intros [Q1 Q2]; contradiction.
      * apply ShH.
      * apply ShH.
      * intros (x & y & Hx & Hy & E). rewrite (EnH x y Hx Hy) in E. discriminate.
      * intros (x & y & Hx & Hy & E). pose proof (PH x y Hx Hy) as P. unfold negative in E. unfold positive in P. rewrite (EnH x y Hx Hy) in E, P. unfold flt, Rltb in E, P.
        destruct (Rlt_dec _ 0); [|discriminate]. destruct (Rlt_dec 0 _); [lra|discriminate].
      * apply ShW.
      * apply ShW.
      * intros (x & y & Hx & Hy & E). rewrite (EnW x y Hx Hy) in E. discriminate.
    + intros ->. intros i a Hi Ha. rewrite (EnW i a Hi Ha). unfold positive, flt, Rltb. cbv beta iota.
      pose proof (made_pos (sqrt (rsum (cols V) (v i) / INR (cols V) / INR k) * h i a)). destruct (Rlt_dec _ _); [reflexivity|contradiction].
Qed.
Print Assumptions C22_default_start_refused_exactly.

(** Data with a negative cell are accepted when the means are not negative, and refused
    when a sample's mean is, although no feature's is. *)
Example C22_default_instance :
  let V x := ND 2 2 (fun i j => Fin (if (i =? 0)%nat then (if (j =? 0)%nat then x else 1) else 5)) in
  let v x := fun i j : nat => if (i =? 0)%nat then (if (j =? 0)%nat then x else 1) else 5 in
  let U := ND 2 2 (fun _ _ => Fin 1) in
  (exists s, construct (V (-1)) U 1 WSNMF = Some s) /\ (exists s, construct (V (-2)) U 1 WSNMF = Some s) /\ entries (V (-1)) (v (-1)) /\
  (forall i, (i < 2)%nat -> 0 <= rsum 2 (v (-1) i) / INR 2) /\ (forall j, (j < 2)%nat -> 0 <= rsum 2 (fun i => v (-2) i j) / INR 2) /\ rsum 2 (v (-2) 0%nat) / INR 2 < 0.
Proof.
  cbv zeta. split; [|split; [|split; [|split; [|split]]]].
  1-2: unfold construct, validate; repeat match goal with |- context [min_neg ?a] => destruct (min_neg_defined a) as [? ->]; try (cbn; lia) end; eauto.
  - intros i j _ _. reflexivity.
  - intros [|[|i]] Hi; try lia; cbn [rsum Nat.eqb INR]; lra.
  - intros [|[|j]] Hj; try lia; cbn [rsum Nat.eqb INR]; lra.
  - cbn [rsum Nat.eqb INR]. lra.
Qed.
