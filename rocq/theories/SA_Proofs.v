From Coq Require Import Reals Lra Lia Arith List Bool ZifyBool ZifyNat.
From Verif Require Import Base Fl Metrics_Model Metrics_Proofs SA_Model.
Open Scope R_scope.

(** ** Specification vocabulary *)
Definition contains (a : nd) (P : fl -> Prop) : Prop :=
  exists i j, (i < rows a)%nat /\ (j < cols a)%nat /\ P (cell a i j).
Definition everywhere (a : nd) (P : fl -> Prop) : Prop :=
  forall i j, (i < rows a)%nat -> (j < cols a)%nat -> P (cell a i j).
Definition negative (x : fl) : Prop := flt x (Fin 0) = true.
Definition positive (x : fl) : Prop := flt (Fin 0) x = true.
Definition shape (a : nd) (r c : nat) : Prop := rows a = r /\ cols a = c.

Lemma ndany_iff p a : ndany p a = true <-> contains a (fun x => p x = true).
Proof.
  unfold ndany, contains. rewrite existsb_exists. split.
  - intros (i & Hi & E). apply existsb_exists in E. destruct E as (j & Hj & E).
    apply in_seq in Hi, Hj. exists i, j. split; [lia|split; [lia|exact E]].
  - intros (i & j & Hi & Hj & E). exists i. split; [apply in_seq; lia|].
    apply existsb_exists. exists j. split; [apply in_seq; lia|exact E].
Qed.

Lemma is_nan_iff x : is_nan x = true <-> x = NaN.
Proof. destruct x; cbn; split; congruence. Qed.

Lemma has_nan_iff a : has_nan a = true <-> contains a (fun x => x = NaN).
Proof.
  unfold has_nan. rewrite ndany_iff. unfold contains.
  split; intros (i & j & Hi & Hj & E); exists i, j; rewrite is_nan_iff in *; auto.
Qed.

Lemma same_shape_iff a r c : same_shape a r c = true <-> shape a r c.
Proof. unfold same_shape, shape. lia. Qed.

Lemma min_neg_some a b : min_neg a = Some b ->
  (0 < rows a)%nat /\ (0 < cols a)%nat /\
  (b = true <-> ~ contains a (fun x => x = NaN) /\ contains a negative).
Proof.
  unfold min_neg. destruct ((rows a =? 0)%nat || (cols a =? 0)%nat) eqn:E; [discriminate|].
  destruct (has_nan a) eqn:En; intros [= <-]; split; try lia; split; try lia.
  - split; [discriminate|]. intros [H _]. exfalso. apply H. apply has_nan_iff. exact En.
  - rewrite ndany_iff. split.
    + intros Hc. split; [|exact Hc]. rewrite <- has_nan_iff. congruence.
    + intros [_ Hc]. exact Hc.
Qed.

Lemma min_neg_defined a : (0 < rows a)%nat -> (0 < cols a)%nat -> exists b, min_neg a = Some b.
Proof.
  intros. unfold min_neg. destruct ((rows a =? 0)%nat || (cols a =? 0)%nat) eqn:E; [lia|].
  destruct (has_nan a); eauto.
Qed.

Lemma validate_spec V U m n k H W ok neg :
  validate V U m n k (Some H) (Some W) = Some (ok, neg) ->
  (ok = true <->
     ~ contains V (fun x => x = NaN) /\ ~ contains U (fun x => x = NaN) /\ ~ contains U negative /\
     shape U (rows V) (cols V) /\
     shape H k n /\ ~ contains H (fun x => x = NaN) /\ ~ contains H negative /\
     shape W m k /\ ~ contains W (fun x => x = NaN)).
Proof.
  unfold validate.
  destruct (min_neg V) as [vn|] eqn:EV; [|discriminate].
  destruct (min_neg U) as [un|] eqn:EU; [|discriminate].
  destruct (min_neg H) as [hn|] eqn:EH; [|discriminate].
  destruct (min_neg W) as [wn|] eqn:EW; [|discriminate].
  intros [= <- _].
  apply min_neg_some in EU. destruct EU as (_ & _ & EU).
  apply min_neg_some in EH. destruct EH as (_ & _ & EH).
  rewrite !andb_true_iff, !negb_true_iff, !same_shape_iff, <- !not_true_iff_false, !has_nan_iff.
  rewrite EU, EH. tauto.
Qed.

Lemma validate_defined V U m n k H W :
  (0 < rows V)%nat -> (0 < cols V)%nat -> (0 < rows U)%nat -> (0 < cols U)%nat ->
  (0 < rows H)%nat -> (0 < cols H)%nat -> (0 < rows W)%nat -> (0 < cols W)%nat ->
  exists ok neg, validate V U m n k (Some H) (Some W) = Some (ok, neg).
Proof.
  intros. unfold validate.
  destruct (min_neg_defined V) as [? ->]; auto. destruct (min_neg_defined U) as [? ->]; auto.
  destruct (min_neg_defined H) as [? ->]; auto. destruct (min_neg_defined W) as [? ->]; eauto.
Qed.

(** ** Uncertainty floor *)

Lemma floor_u_cases u :
  floor_u u = match u with
              | NaN => NaN | PInf => PInf | NInf => Fin EPS
              | Fin x => Fin (Rmax EPS x)
              end.
Proof.
  unfold floor_u. destruct u; cbn; auto. unfold Rltb, Rmax.
  destruct (Rlt_dec x EPS), (Rle_dec EPS x); auto; f_equal; lra.
Qed.

Lemma floor_u_not_neg u : ~ negative (floor_u u).
Proof.
  rewrite floor_u_cases. pose proof EPS_pos. unfold negative.
  destruct u; cbn; try discriminate.
  - rewrite Rltb_iff. pose proof (Rmax_l EPS x). lra.
  - rewrite Rltb_iff. lra.
Qed.

Lemma construct_inv V U k mth s : construct V U k mth = Some s ->
  sV s = V /\ sU s = ndmap floor_u U /\ sWe s = ndmap weight_of (ndmap floor_u U) /\
  s_m s = rows V /\ s_n s = cols V /\ s_k s = k /\ s_method s = mth /\
  s_H s = None /\ s_W s = None /\ s_valid s = false /\ s_init s = false /\
  (0 < rows V)%nat /\ (0 < cols V)%nat /\ (0 < rows U)%nat /\ (0 < cols U)%nat /\
  (s_engine s = LSNMF <->
     mth = LSNMF /\ (contains V (fun x => x = NaN) \/ ~ contains V negative)).
Proof.
  unfold construct, validate.
  destruct (min_neg V) as [vn|] eqn:EV; [|discriminate].
  destruct (min_neg (ndmap floor_u U)) as [un|] eqn:EU; [|discriminate].
  intros [= <-]. cbn. apply min_neg_some in EV. destruct EV as (HV1 & HV2 & EV).
  apply min_neg_some in EU. cbn in EU. destruct EU as (HU1 & HU2 & EU).
  repeat (split; [solve [auto]|]). destruct mth; [|split; [discriminate|intros [? _]; discriminate]].
  destruct vn; cbn.
  - destruct EV as [EV _]. specialize (EV eq_refl). split; [discriminate|]. intros [_ [|]]; tauto.
  - split; [|reflexivity]. intros _. split; [reflexivity|].
    destruct (has_nan V) eqn:E; [left; apply has_nan_iff; exact E|right].
    intros Hc. destruct EV as [_ EV]. assert (false = true); [|discriminate]. apply EV. split; [|exact Hc].
    rewrite <- has_nan_iff. congruence.
Qed.

(** ** Initialisation *)

Lemma floor_h_pos x : floor_h false x = NaN \/ positive (floor_h false x).
Proof.
  pose proof EPS_pos. unfold floor_h, positive. destruct x; cbn; auto.
  - unfold Rleb. destruct (Rle_dec x 0); cbn; right; apply Rltb_iff; lra.
  - right. apply Rltb_iff. assumption.
Qed.

Lemma floor_h_nan b x : floor_h b x = NaN <-> x = NaN.
Proof.
  unfold floor_h. destruct x; cbn; try tauto; try (destruct b; split; congruence).
  destruct (Rleb x 0); destruct b; split; congruence.
Qed.

Lemma floor_h_not_neg b x : ~ negative (floor_h b x).
Proof.
  pose proof EPS_pos. unfold floor_h, negative. destruct x; cbn; try discriminate.
  - unfold Rleb. destruct (Rle_dec x 0); [destruct b|]; cbn; rewrite Rltb_iff; lra.
  - destruct b; cbn; rewrite Rltb_iff; lra.
Qed.

Lemma floor_w_pos x : floor_w x = NaN \/ positive (floor_w x).
Proof. exact (floor_h_pos x). Qed.

Lemma initialize_inv s H0 W0 kind s' c :
  initialize s H0 W0 kind = InitOk s' c ->
  exists hi h2 W, s_H s' = Some (ndmap (floor_h hi) h2) /\ s_W s' = Some W /\
    (hi = true -> exists h, H0 = Some h /\ h_is_int h = true) /\
    sV s' = sV s /\ sU s' = sU s /\ sWe s' = sWe s /\ s_m s' = s_m s /\ s_n s' = s_n s /\ s_k s' = s_k s /\
    s_method s' = s_method s /\ s_engine s' = s_engine s /\ s_init s' = true /\
    validate (sV s) (sU s) (s_m s) (s_n s) (s_k s) (s_H s') (s_W s') = Some (s_valid s', s_neg s').
Proof.
  unfold initialize.
  destruct kind as [cents clus draws|upd rngH rngW wsW].
  - cbv zeta.
    match goal with |- match ?x with Some _ => _ | None => _ end = _ -> _ => destruct x as [h2|] eqn:E2 end; [|discriminate].
    match goal with |- match ?x with Some _ => _ | None => _ end = _ -> _ => destruct x as [[ok neg]|] eqn:Ev end; [|discriminate].
    intros [= <- _]. cbn. exists false, h2. eexists.
    repeat (split; [solve [reflexivity|discriminate]|]). exact Ev.
  - destruct (if match H0 with Some h => same_shape (h_arr h) (s_k s) (s_n s) | None => false end
              then H0 else None) as [h|] eqn:E1.
    + match goal with |- match ?x with Some _ => _ | None => _ end = _ -> _ => destruct x as [h2|] eqn:E2 end; [|discriminate].
      match goal with |- match ?x with Some _ => _ | None => _ end = _ -> _ => destruct x as [[ok neg]|] eqn:Ev end; [|discriminate].
      intros [= <- _]. cbn. exists (h_is_int h), h2. eexists.
      split; [reflexivity|]. split; [reflexivity|]. split.
      * intros Hi. exists h. split; [|exact Hi].
        destruct (match H0 with Some h => same_shape (h_arr h) (s_k s) (s_n s) | None => false end);
          [exact E1|discriminate].
      * repeat (split; [reflexivity|]). exact Ev.
    + match goal with |- match ?x with Some _ => _ | None => _ end = _ -> _ => destruct x as [h2|] eqn:E2 end; [|discriminate].
      match goal with |- match ?x with Some _ => _ | None => _ end = _ -> _ => destruct x as [[ok neg]|] eqn:Ev end; [|discriminate].
      intros [= <- _]. cbn. exists false, h2. eexists.
      repeat (split; [solve [reflexivity|discriminate]|]). exact Ev.
Qed.

Lemma initialize_positive s H0 W0 kind s' c :
  initialize s H0 W0 kind = InitOk s' c ->
  (forall h, H0 = Some h -> h_is_int h = false) ->
  exists H, s_H s' = Some H /\ everywhere H (fun x => x = NaN \/ positive x).
Proof.
  intros E Hint. apply initialize_inv in E.
  destruct E as (hi & h2 & W & EH & _ & Hhi & _).
  destruct hi.
  - destruct (Hhi eq_refl) as (h & Eh & Ei). rewrite (Hint h Eh) in Ei. discriminate.
  - eexists. split; [exact EH|]. intros i j _ _. apply floor_h_pos.
Qed.

Lemma initialize_W_positive s H0 rngH rngW wsW s' c :
  s_method s = LSNMF ->
  initialize s H0 None (ColumnMean false rngH rngW wsW) = InitOk s' c ->
  exists W, s_W s' = Some W /\ everywhere W (fun x => x = NaN \/ positive x).
Proof.
  intros Hm. unfold initialize.
  destruct (if match H0 with Some h => same_shape (h_arr h) (s_k s) (s_n s) | None => false end
            then H0 else None) as [h|] eqn:E1;
    (match goal with |- match ?x with Some _ => _ | None => _ end = _ -> _ => destruct x as [h2|] eqn:E2 end; [|discriminate]);
    (match goal with |- match ?x with Some _ => _ | None => _ end = _ -> _ => destruct x as [[ok neg]|] eqn:Ev end; [|discriminate]);
    intros [= <- _]; cbn; eexists; (split; [reflexivity|]); rewrite Hm;
    intros i j _ _; apply floor_w_pos.
Qed.

(** Both matrices supplied by the caller. *)
Lemma initialize_user s h W rngH rngW wsW :
  shape (h_arr h) (s_k s) (s_n s) ->
  initialize s (Some h) (Some W) (ColumnMean false rngH rngW wsW)
  = let Hf := ndmap (floor_h (h_is_int h)) (h_arr h) in
    match validate (sV s) (sU s) (s_m s) (s_n s) (s_k s) (Some Hf) (Some W) with
    | None => InitRaises
    | Some (ok, neg) =>
        InitOk {| sV := sV s; sU := sU s; sWe := sWe s;
                    s_m := s_m s; s_n := s_n s; s_k := s_k s;
                    s_method := s_method s; s_engine := s_engine s;
                    s_H := Some Hf; s_W := Some W;
                    s_neg := neg; s_valid := ok; s_init := true |} (Some Hf)
    end.
Proof.
  intros Hs. unfold initialize. apply same_shape_iff in Hs. rewrite Hs. reflexivity.
Qed.

(** ** Partial profiles *)

Lemma fsum_fin n f : fsum n (fun i => Fin (f i)) = Fin (rsum n f).
Proof. induction n; cbn; [reflexivity|]. rewrite IHn. reflexivity. Qed.

Lemma fsum_ext n f g : (forall i, (i < n)%nat -> f i = g i) -> fsum n f = fsum n g.
Proof.
  induction n; intros H; cbn; [reflexivity|]. rewrite IHn by (intros; apply H; lia).
  rewrite H by lia. reflexivity.
Qed.
