From Coq Require Import List Bool ZArith Lia Reals Lra Permutation.
From Verif Require Import Base Fl Metrics_Model LSNMF_Model LSNMF_Proofs Disp_Model Disp_Proofs Constr_Model.
Import ListNotations.
Local Open Scope R_scope.

(** ** Registry *)
Lemma clabel_eqb_iff a b : clabel_eqb a b = true <-> a = b.
Proof.
  destruct a, b; cbn; try (split; [discriminate|congruence]); try tauto.
  - rewrite andb_true_iff, !Z.eqb_eq. split; [intros [-> ->]; reflexivity|intros [= -> ->]; auto].
  - rewrite andb_true_iff, !Z.eqb_eq. split; [intros [-> ->]; reflexivity|intros [= -> ->]; auto].
Qed.

Lemma clabel_eqb_refl a : clabel_eqb a a = true.
Proof. apply clabel_eqb_iff. reflexivity. Qed.

Lemma existsb_label r l : existsb (fun p : clabel * constr => clabel_eqb (fst p) l) r = true <-> In l (map fst r).
Proof.
  rewrite existsb_exists, in_map_iff. split.
  - intros (p & Hp & He). apply clabel_eqb_iff in He. exists p. auto.
  - intros (p & He & Hp). exists p. rewrite He. split; [exact Hp|apply clabel_eqb_refl].
Qed.

Lemma remove_None r l : remove_constraint r l = None <-> ~ In l (map fst r).
Proof.
  induction r as [|[l' c] r IH]; cbn; [tauto|].
  destruct (clabel_eqb l' l) eqn:E.
  - apply clabel_eqb_iff in E. split; [discriminate|]. intros H. exfalso. apply H. auto.
  - assert (l' <> l) by (intros ->; rewrite clabel_eqb_refl in E; discriminate).
    destruct (remove_constraint r l) as [t|].
    + split; [discriminate|]. intros Hn. exfalso. apply Hn. right.
      destruct (in_dec (fun a b => ltac:(destruct (clabel_eqb a b) eqn:Q; [left; apply clabel_eqb_iff; exact Q|right; intros ->; rewrite clabel_eqb_refl in Q; discriminate])) l (map fst r)) as [|Hn']; [assumption|].
      apply IH in Hn'. discriminate.
    + split; [|reflexivity]. intros _ [H'|H']; [congruence|]. apply IH in H'; [exact H'|reflexivity].
Qed.

Lemma remove_Some r l r' : remove_constraint r l = Some r' ->
  exists a c b, r = a ++ (l, c) :: b /\ r' = a ++ b /\ ~ In l (map fst a).
Proof.
  revert r'. induction r as [|[l' c] r IH]; intros r'; cbn; [discriminate|].
  destruct (clabel_eqb l' l) eqn:E.
  - apply clabel_eqb_iff in E. subst l'. intros [= <-]. exists [], c, r. auto.
  - destruct (remove_constraint r l) as [t|]; [|discriminate]. intros [= <-].
    destruct (IH t eq_refl) as (a & c' & b & -> & -> & Hn). exists ((l', c) :: a), c', b.
    split; [reflexivity|]. split; [reflexivity|]. cbn. intros [->|H]; [|exact (Hn H)].
    rewrite clabel_eqb_refl in E. discriminate.
Qed.

Lemma remove_last r l c : ~ In l (map fst r) -> remove_constraint (r ++ [(l, c)]) l = Some r.
Proof.
  induction r as [|[l' c'] r IH]; cbn; intros Hn.
  - rewrite clabel_eqb_refl. reflexivity.
  - destruct (clabel_eqb l' l) eqn:E; [apply clabel_eqb_iff in E; tauto|]. rewrite IH; tauto.
Qed.

(** ** Searches *)
Section Pull.
  Context (loss : R -> fl) (cur limit : R).
  Notation dQ := (dQ_of loss cur).

  Lemma pd_terminates f : (31 <= f)%nat -> exists a, loop (pd_body loss cur limit) f (mkPd 0 1 (1 / 2) 0 0 cur) = Some a.
  Proof.
    intros Hf. apply (loop_terminates (pd_body loss cur limit) p_n 31 (fun _ => True)); cbn [p_n]; try lia; auto.
    intros s _. unfold pd_body. cbv zeta.
    match goal with |- context [if ?b then inr _ else _] => destruct b eqn:E end; [exact I|].
    cbn [p_n]. apply orb_false_iff in E. destruct E as [_ E]. apply Nat.leb_gt in E. repeat split; lia.
  Qed.

  Definition pd_ok (s : pd) : Prop :=
    0 <= p_low s /\ p_high s <= 1 /\ p_mod s = (p_low s + p_high s) / 2 /\ p_high s - p_low s = (/ 2) ^ p_n s /\
    (p_n s <= 25)%nat /\ (p_n s <> 0%nat -> p_prev s = p_mod s) /\ (p_n s = 0%nat -> p_prev s = 0) /\
    ((p_n s = 0%nat /\ p_val s = cur /\ p_mod s = 1 / 2) \/ exists c, 0 < c <= 1 / 2 /\ p_val s = cur * c).

  (** The tolerance is met at evaluation 26 and not before. *)
  Lemma pd_tolerance n : (/ 2) ^ n / 4 <= / 100000000 <-> (25 <= n)%nat.
  Proof.
    assert (H25 : (/ 2) ^ 25 / 4 <= / 100000000) by (cbn; lra).
    assert (H24 : / 100000000 < (/ 2) ^ 24 / 4) by (cbn; lra).
    assert (Mono : forall a b, (a <= b)%nat -> (/ 2) ^ b <= (/ 2) ^ a).
    { intros a b Hab. induction Hab as [|b Hab IH]; [lra|]. cbn [pow]. assert (0 < (/ 2) ^ b) by (apply pow_lt; lra). lra. }
    split; intros H.
    - destruct (Nat.le_gt_cases 25 n) as [L|L]; [exact L|exfalso]. specialize (Mono n 24%nat ltac:(lia)). lra.
    - specialize (Mono 25%nat n H). lra.
  Qed.

  Lemma pd_spec f v n : loop (pd_body loss cur limit) f (mkPd 0 1 (1 / 2) 0 0 cur) = Some (v, n) ->
    (1 <= n <= 26)%nat /\
    ((n < 26)%nat -> flt (Fin limit) (dQ v) = false /\ flt (dQ v) (Fin (limit - 100)) = false) /\
    exists c, 0 < c <= 1 / 2 /\ v = cur * c.
  Proof.
    set (Q := fun a : R * nat => (1 <= snd a <= 26)%nat /\
      ((snd a < 26)%nat -> flt (Fin limit) (dQ (fst a)) = false /\ flt (dQ (fst a)) (Fin (limit - 100)) = false) /\
      exists c, 0 < c <= 1 / 2 /\ fst a = cur * c).
    intros H. change (Q (v, n)). revert H. apply (loop_inv (pd_body loss cur limit) pd_ok Q).
    2:{ unfold pd_ok. cbn. repeat split; try lra; try lia. left. auto. }
    intros s (H1 & H2 & H3 & Hw & H5 & Hp & Hp0 & H6).
    assert (Hpos : 0 < (/ 2) ^ p_n s) by (apply pow_lt; lra).
    assert (Hv : exists c, 0 < c <= 1 / 2 /\ p_val s * p_mod s = cur * c).
    { destruct H6 as [(_ & -> & ->)|(c & Hc & ->)]; [exists (1/2); split; [lra|reflexivity]|].
      exists (c * p_mod s). split; [|ring]. split; [apply Rmult_lt_0_compat; lra|].
      replace (1 / 2) with (1 / 2 * 1) by ring. apply Rmult_le_compat; lra. }
    unfold pd_body. cbv zeta. set (v' := p_val s * p_mod s) in *.
    set (up := flt (Fin limit) (dQ v')). set (down := flt (dQ v') (Fin (limit - 100))).
    set (mod' := if up then (p_mod s + p_high s) / 2 else if down then (p_low s + p_mod s) / 2 else p_mod s).
    assert (Step : up || down = true -> p_n s <> 0%nat -> Rabs (p_prev s - mod') = (/ 2) ^ p_n s / 4).
    { intros Hud Hn. rewrite (Hp Hn). unfold mod'. destruct up; [rewrite Rabs_left; lra|].
      destruct down; [rewrite Rabs_right; lra|discriminate Hud]. }
    assert (Step0 : up || down = true -> p_n s = 0%nat -> / 100000000 < Rabs (p_prev s - mod')).
    { intros Hud Hn. rewrite (Hp0 Hn). rewrite Hn in Hw. cbn in Hw. unfold mod'.
      destruct up; [rewrite Rabs_left; lra|]. destruct down; [rewrite Rabs_left; lra|discriminate Hud]. }
    destruct (negb up && negb down || Rleb (Rabs (p_prev s - mod')) (/ 100000000) || (30 <=? p_n s)%nat) eqn:E.
    - unfold Q. cbn [fst snd]. split; [lia|]. split; [|exact Hv]. intros Hn26. fold up down.
      destruct (up || down) eqn:Eud; [|apply orb_false_iff in Eud; exact Eud]. exfalso.
      apply orb_true_iff in E. destruct E as [E|E]; [|apply Nat.leb_le in E; lia].
      apply orb_true_iff in E. destruct E as [E|E]; [destruct up, down; discriminate|].
      apply Rleb_iff in E. destruct (Nat.eq_dec (p_n s) 0) as [E0|E0].
      + specialize (Step0 eq_refl E0). lra.
      + rewrite (Step eq_refl E0) in E. apply pd_tolerance in E. lia.
    - apply orb_false_iff in E. destruct E as [E _]. apply orb_false_iff in E. destruct E as [Eud E].
      assert (Hud : up || down = true) by (destruct up, down; try reflexivity; discriminate).
      assert (Hlt : (p_n s < 25)%nat).
      { destruct (Nat.eq_dec (p_n s) 0) as [E0|E0]; [lia|]. rewrite (Step Hud E0) in E.
        destruct (Nat.lt_ge_cases (p_n s) 25) as [L|L]; [exact L|]. apply pd_tolerance in L. apply Rleb_iff in L. congruence. }
      unfold pd_ok. cbn [p_low p_mod p_high p_prev p_n p_val]. unfold mod'. cbn [pow].
      destruct up; [|destruct down; [|discriminate Hud]]; repeat split; try lra; try lia; right; exact Hv.
  Qed.

  Lemma pu_high_terminates f : (30 <= f)%nat -> exists a, loop (pu_high loss cur limit) f (0, 2, 0%nat) = Some a.
  Proof.
    intros Hf. apply (loop_terminates (pu_high loss cur limit) snd 30 (fun _ => True)); cbn [snd]; try lia; auto.
    intros [[lo hi] n] _. unfold pu_high. destruct (Nat.leb_spec 30 (S n)); [exact I|].
    destruct (flt _ _); [|exact I]. cbn [snd]. repeat split; lia.
  Qed.

  Lemma pu_terminates f lo hi : (30 <= f)%nat -> exists a, loop (pu_body loss cur limit) f (lo, hi, (hi + lo) / 2, 0%nat) = Some a.
  Proof.
    intros Hf. apply (loop_terminates (pu_body loss cur limit) snd 30 (fun _ => True)); cbn [snd]; try lia; auto.
    intros [[[l h] md] n] _. unfold pu_body. cbv zeta.
    destruct (Nat.leb_spec 30 (S n)); [rewrite orb_true_r; exact I|]. rewrite orb_false_r.
    destruct (flt (Fin limit) _); cbn [negb andb].
    - cbn [snd]. repeat split; lia.
    - destruct (flt _ (Fin (limit - 100))); cbn [negb]; [|exact I]. cbn [snd]. repeat split; lia.
  Qed.

  (** Doubling phase. *)
  Lemma pu_high_spec f a : loop (pu_high loss cur limit) f (0, 2, 0%nat) = Some a ->
    match a with
    | inl v => v = cur * 2 ^ 30 /\ (forall i, (1 <= i < 30)%nat -> flt (dQ (cur * 2 ^ i)) (Fin limit) = true)
    | inr (lo, hi) => exists p, (1 <= p < 30)%nat /\ hi = 2 ^ p /\ (lo = (if (p =? 1)%nat then 0 else 2 ^ (p - 1))) /\
                      flt (dQ (cur * hi)) (Fin limit) = false /\
                      (forall i, (1 <= i < p)%nat -> flt (dQ (cur * 2 ^ i)) (Fin limit) = true)
    end.
  Proof.
    set (I := fun s : R * R * nat => let '(lo, hi, n) := s in (n < 30)%nat /\ hi = 2 ^ (S n) /\
       lo = (if (n =? 0)%nat then 0 else 2 ^ n) /\
       forall i, (1 <= i <= n)%nat -> flt (dQ (cur * 2 ^ i)) (Fin limit) = true).
    match goal with |- _ -> ?G => set (Q := fun a : R + R * R => ltac:(let t := eval pattern a in G in match t with ?F _ => let u := eval cbv beta in (F a) in exact u end)) end.
    intros H. change (Q a). revert H. apply (loop_inv (pu_high loss cur limit) I Q).
    2:{ unfold I. repeat split; try lia. cbn. ring. }
    intros [[lo hi] n] (Hn & Hh & Hl & Hi). unfold pu_high.
    destruct (flt (dQ (cur * hi)) (Fin limit)) eqn:E; cbn [negb].
    - destruct (Nat.leb_spec 30 (S n)) as [Hs|Hs].
      + unfold Q. assert (n = 29%nat) by lia. subst n. rewrite Hh. split; [reflexivity|].
        intros i Hi'. apply Hi. lia.
      + unfold I. repeat split; try lia; cbn [Nat.eqb]; try (rewrite Hh; cbn [pow]; ring).
        intros i Hi'. destruct (Nat.eq_dec i (S n)) as [->|]; [rewrite <- Hh; exact E|apply Hi; lia].
    - destruct (Nat.leb_spec 30 (S n)) as [Hs|Hs].
      + unfold Q. assert (n = 29%nat) by lia. subst n. rewrite Hh. split; [reflexivity|].
        intros i Hi'. apply Hi. lia.
      + unfold Q. exists (S n). repeat split; try lia; auto.
        * rewrite Hl. destruct n; [reflexivity|]. cbn [Nat.eqb]. f_equal. 
        * intros i Hi'. apply Hi. lia.
  Qed.

  Definition pu_ok (H : R) (s : R * R * R * nat) : Prop :=
    let '(lo, hi, md, n) := s in
    (n < 30)%nat /\ hi <= H /\ lo < md < hi /\ 0 <= lo /\ (1 <= lo \/ (lo = 0 /\ md = 1)).

  Lemma dQ_cur x : loss cur = Fin x -> dQ cur = Fin 0.
  Proof. intros E. unfold dQ_of. rewrite E. cbn. f_equal. replace (x + - x) with 0 by ring. apply Rabs_R0. Qed.

  Lemma pu_spec f lo hi v n x : loss cur = Fin x -> 0 <= limit ->
    (1 <= lo \/ (lo = 0 /\ hi = 2)) -> lo < hi ->
    loop (pu_body loss cur limit) f (lo, hi, (hi + lo) / 2, 0%nat) = Some (v, n) ->
    (1 <= n <= 30)%nat /\ (exists c, 1 <= c < hi /\ v = cur * c) /\
    ((n < 30)%nat -> dQ v = NaN \/ exists d, dQ v = Fin d /\ limit - 100 <= d <= limit).
  Proof.
    intros Hx Hlim H0 Hlt.
    set (Q := fun a : R * nat => let (v, n) := a in (1 <= n <= 30)%nat /\ (exists c, 1 <= c < hi /\ v = cur * c) /\
    ((n < 30)%nat -> dQ v = NaN \/ exists d, dQ v = Fin d /\ limit - 100 <= d <= limit)).
    intros H. change (Q (v, n)). revert H. apply (loop_inv (pu_body loss cur limit) (pu_ok hi) Q).
    2:{ unfold pu_ok. repeat split; try lia; try lra. }
    intros [[[l h] md] k] (H1 & H2 & H3 & H4 & H5). unfold pu_body. cbv zeta.
    assert (Hc : exists c, 1 <= c < hi /\ cur * md = cur * c).
    { exists md. split; [|reflexivity]. lra. }
    destruct (flt (Fin limit) (dQ (cur * md))) eqn:E1; cbn [negb andb orb].
    - assert (1 <= l).
      { destruct H5 as [|[-> ->]]; [assumption|]. rewrite Rmult_1_r, (dQ_cur x Hx) in E1.
        apply flt_fin in E1. lra. }
      destruct (Nat.leb_spec 30 (S k)).
      + unfold Q. repeat split; try lia. exact Hc.
      + unfold pu_ok. repeat split; try lia; lra.
    - destruct (flt (dQ (cur * md)) (Fin (limit - 100))) eqn:E2; cbn [negb andb orb].
      + destruct (Nat.leb_spec 30 (S k)).
        * unfold Q. repeat split; try lia. exact Hc.
        * unfold pu_ok. repeat split; try lia; lra.
      + unfold Q. repeat split; try lia; [exact Hc|]. intros _. apply flt_cases; assumption.
  Qed.

  Lemma pu_bracket f lo hi v x : loss cur = Fin x -> 0 <= limit ->
    ((1 <= lo /\ hi - lo <= lo /\ flt (dQ (cur * lo)) (Fin limit) = true) \/ (lo = 0 /\ hi = 2)) -> lo < hi ->
    flt (dQ (cur * hi)) (Fin limit) = false ->
    loop (pu_body loss cur limit) f (lo, hi, (hi + lo) / 2, 0%nat) = Some (v, 30%nat) ->
    exists c1 c2 c, v = cur * c /\ 1 <= c1 < c /\ c < c2 /\ c2 - c1 <= c1 / 2 ^ 28 /\
      flt (dQ (cur * c1)) (Fin limit) = true /\ flt (dQ (cur * c2)) (Fin limit) = false.
  Proof.
    intros Hx Hlim H0 Hlt Hh.
    set (I := fun s : R * R * R * nat => let '(l, h, md, n) := s in (n < 30)%nat /\ l < h /\ md = (h + l) / 2 /\ flt (dQ (cur * h)) (Fin limit) = false /\
      ((1 <= l /\ (h - l) * 2 ^ n <= 2 * l /\ flt (dQ (cur * l)) (Fin limit) = true) \/ (l = 0 /\ h = 2 /\ n = 0%nat))).
    set (Q := fun a : R * nat => let (v, n) := a in n = 30%nat -> exists c1 c2 c, v = cur * c /\ 1 <= c1 < c /\ c < c2 /\ c2 - c1 <= c1 / 2 ^ 28 /\
      flt (dQ (cur * c1)) (Fin limit) = true /\ flt (dQ (cur * c2)) (Fin limit) = false).
    intros H. assert (G : Q (v, 30%nat)); [|exact (G eq_refl)]. revert H. apply (loop_inv (pu_body loss cur limit) I Q).
    2:{ unfold I. split; [lia|]. split; [exact Hlt|]. split; [reflexivity|]. split; [exact Hh|].
        destruct H0 as [(A & B & C)|[-> ->]]; [left|right]; repeat split; try assumption; cbn [pow]; lra. }
    intros [[[l h] md] k] (H1 & H2 & H3 & H4 & H5). unfold pu_body. cbv zeta.
    assert (Hmd1 : l = 0 -> h = 2 -> dQ (cur * md) = Fin 0).
    { intros -> ->. rewrite H3. replace ((2 + 0) / 2) with 1 by field. rewrite Rmult_1_r. apply (dQ_cur x Hx). }
    assert (Hend : (30 <= S k)%nat -> Q (cur * md, S k)).
    { intros Hk. unfold Q. intros _. exists l, h, md. destruct H5 as [(A & B & C)|(_ & _ & ->)]; [|lia].
      assert (k = 29%nat) by lia. subst k. split; [reflexivity|]. split; [split; [exact A|rewrite H3; lra]|]. split; [rewrite H3; lra|].
      split; [|split; assumption]. replace (2 ^ 29) with (2 * 2 ^ 28) in B by (cbn [pow]; ring).
      apply (Rmult_le_reg_r (2 ^ 28)); [apply pow_lt; lra|]. unfold Rdiv. rewrite Rmult_assoc, Rinv_l by (apply pow_nonzero; lra). lra. }
    destruct (flt (Fin limit) (dQ (cur * md))) eqn:E1; cbn [negb andb orb].
    - destruct (Nat.leb_spec 30 (S k)) as [Hk|Hk]; [apply Hend, Hk|].
      unfold I. split; [lia|]. split; [rewrite H3; lra|]. split; [reflexivity|].
      split; [destruct (flt (dQ (cur * md)) (Fin limit)) eqn:E2; [|reflexivity]; pose proof (flt_trans _ _ _ E1 E2) as E3; rewrite flt_irrefl in E3; discriminate|].
      destruct H5 as [(A & B & C)|(Hl0 & Hh2 & Hk0)].
      + left. split; [exact A|]. split; [|exact C]. rewrite H3. cbn [pow]. lra.
      + rewrite (Hmd1 Hl0 Hh2) in E1. apply flt_fin in E1. lra.
    - destruct (flt (dQ (cur * md)) (Fin (limit - 100))) eqn:E2; cbn [negb andb orb].
      + destruct (Nat.leb_spec 30 (S k)) as [Hk|Hk]; [apply Hend, Hk|].
        assert (E3 : flt (dQ (cur * md)) (Fin limit) = true) by (apply (flt_trans _ _ _ E2), flt_fin; lra).
        unfold I. split; [lia|]. split; [rewrite H3; lra|]. split; [reflexivity|]. split; [exact H4|]. left.
        destruct H5 as [(A & B & C)|(-> & -> & ->)]; rewrite H3 in *.
        * split; [lra|]. split; [cbn [pow]; lra|]. exact E3.
        * split; [lra|]. split; [cbn [pow]; lra|]. exact E3.
      + unfold Q. intros Hk. apply Hend; [lia|exact Hk].
  Qed.

  Lemma pt_terminates f lo hi : (31 <= f)%nat -> exists a, loop (pt_body loss cur limit) f (mkPt lo hi ((hi + lo) / 2) 0 0) = Some a.
  Proof.
    intros Hf. apply (loop_terminates (pt_body loss cur limit) t_n 31 (fun _ => True)); cbn [t_n]; try lia; auto.
    intros s _. unfold pt_body. cbv zeta.
    match goal with |- context [if ?b then inr _ else _] => destruct b eqn:E end; [exact I|].
    cbn [t_n]. apply orb_false_iff in E. destruct E as [_ E]. apply Nat.leb_gt in E. repeat split; lia.
  Qed.

  Lemma pt_spec f lo hi v n : lo < hi ->
    loop (pt_body loss cur limit) f (mkPt lo hi ((hi + lo) / 2) 0 0) = Some (v, n) ->
    (1 <= n <= 31)%nat /\ lo < v < hi.
  Proof.
    intros Hlt.
    set (Q := fun a : R * nat => let (v, n) := a in (1 <= n <= 31)%nat /\ lo < v < hi).
    set (I := fun s : pt => lo <= t_low s /\ t_low s < t_mid s < t_high s /\ t_high s <= hi /\ (t_n s <= 30)%nat).
    intros H. change (Q (v, n)). revert H. apply (loop_inv (pt_body loss cur limit) I Q).
    2:{ unfold I. cbn. repeat split; try lia; lra. }
    intros s (H1 & H2 & H3 & H4). unfold pt_body. cbv zeta.
    match goal with |- context [if ?b then inr _ else _] => destruct b eqn:E end.
    - unfold Q. repeat split; try lia; lra.
    - apply orb_false_iff in E. destruct E as [_ E]. apply Nat.leb_gt in E.
      unfold I. cbn [t_low t_mid t_high t_n].
      destruct (flt (Fin limit) (dQ (t_mid s))); [repeat split; try lia; lra|].
      destruct (flt (dQ (t_mid s)) (Fin (limit - 100))); repeat split; try lia; lra.
  Qed.

  Lemma pt_weak f lo hi v n : lo <= hi ->
    loop (pt_body loss cur limit) f (mkPt lo hi ((hi + lo) / 2) 0 0) = Some (v, n) -> lo <= v <= hi.
  Proof.
    intros Hlt.
    set (Q := fun a : R * nat => lo <= fst a <= hi).
    set (I := fun s : pt => lo <= t_low s /\ t_low s <= t_mid s <= t_high s /\ t_high s <= hi).
    intros H. change (Q (v, n)). revert H. apply (loop_inv (pt_body loss cur limit) I Q).
    2:{ unfold I. cbn. repeat split; lra. }
    intros s (H1 & H2 & H3). unfold pt_body. cbv zeta.
    match goal with |- context [if ?b then inr _ else _] => destruct b eqn:E end.
    - unfold Q. cbn [fst]. lra.
    - unfold I. cbn [t_low t_mid t_high].
      destruct (flt (Fin limit) (dQ (t_mid s))); [repeat split; lra|].
      destruct (flt (dQ (t_mid s)) (Fin (limit - 100))); repeat split; lra.
  Qed.

  (** Over the budget at the midpoint the search only moves upwards. *)
  Lemma pt_up f lo hi v n : lo < hi ->
    (forall w, (hi + lo) / 2 <= w < hi -> flt (Fin limit) (dQ w) = true) ->
    loop (pt_body loss cur limit) f (mkPt lo hi ((hi + lo) / 2) 0 0) = Some (v, n) ->
    (hi + lo) / 2 <= v.
  Proof.
    intros Hlt Hup.
    set (Q := fun a : R * nat => let (v, n) := a in (hi + lo) / 2 <= v).
    set (I := fun s : pt => (hi + lo) / 2 <= t_mid s < hi /\ t_high s = hi).
    intros H. change (Q (v, n)). revert H. apply (loop_inv (pt_body loss cur limit) I Q).
    2:{ unfold I. cbn. repeat split; try lia; lra. }
    intros s (H1 & H2). unfold pt_body. cbv zeta. rewrite (Hup _ H1). cbn [negb andb orb].
    match goal with |- context [if ?b then inr _ else _] => destruct b eqn:E end.
    - unfold Q. lra.
    - unfold I. cbn [t_mid t_high]. split; [lra|exact H2].
  Qed.

  (** Why the search stops. *)
  Lemma pt_stops f lo hi v n : lo <= hi ->
    loop (pt_body loss cur limit) f (mkPt lo hi ((hi + lo) / 2) 0 0) = Some (v, n) ->
    ((flt (Fin limit) (dQ v) = false /\ flt (dQ v) (Fin (limit - 100)) = false) \/ n = 31%nat \/
     (n = 1%nat /\ ((flt (Fin limit) (dQ v) = true /\ Rabs ((v + hi) / 2) <= / 100000000) \/
                    (flt (dQ v) (Fin (limit - 100)) = true /\ Rabs ((lo + v) / 2) <= / 100000000))) \/
     ((2 <= n)%nat /\ (hi - lo) / 2 ^ (n + 1) <= / 100000000)) /\
    ((3 <= n)%nat -> / 100000000 < (hi - lo) / 2 ^ n).
  Proof.
    intros Hle.
    set (Q := fun a : R * nat => let (v, n) := a in
      ((flt (Fin limit) (dQ v) = false /\ flt (dQ v) (Fin (limit - 100)) = false) \/ n = 31%nat \/
       (n = 1%nat /\ ((flt (Fin limit) (dQ v) = true /\ Rabs ((v + hi) / 2) <= / 100000000) \/
                      (flt (dQ v) (Fin (limit - 100)) = true /\ Rabs ((lo + v) / 2) <= / 100000000))) \/
       ((2 <= n)%nat /\ (hi - lo) / 2 ^ (n + 1) <= / 100000000)) /\
      ((3 <= n)%nat -> / 100000000 < (hi - lo) / 2 ^ n)).
    set (I := fun s : pt => (t_n s <= 30)%nat /\ t_high s - t_low s = (hi - lo) / 2 ^ (t_n s) /\ t_mid s = (t_high s + t_low s) / 2 /\
      (t_n s = 0%nat -> t_prev s = 0 /\ t_low s = lo /\ t_high s = hi) /\ ((1 <= t_n s)%nat -> t_prev s = t_mid s) /\
      ((2 <= t_n s)%nat -> / 100000000 < (hi - lo) / 2 ^ (S (t_n s)))).
    intros H. change (Q (v, n)). revert H. apply (loop_inv (pt_body loss cur limit) I Q).
    2:{ unfold I. cbn. repeat split; try lia; try field. }
    intros s (H0 & H1 & H2 & H3 & H4 & H5). unfold pt_body. cbv zeta.
    assert (HD : forall x, (hi - lo) / 2 ^ S x = (hi - lo) / 2 ^ x / 2).
    { intros x. cbn [pow]. field. apply pow_nonzero. lra. }
    set (up := flt (Fin limit) (dQ (t_mid s))). set (down := flt (dQ (t_mid s)) (Fin (limit - 100))).
    set (mid := if up then (t_mid s + t_high s) / 2 else if down then (t_low s + t_mid s) / 2 else t_mid s).
    assert (W0 : 0 <= t_high s - t_low s).
    { rewrite H1. apply Rmult_le_pos; [lra|]. apply Rlt_le, Rinv_0_lt_compat, pow_lt. lra. }
    assert (Mv : up = true \/ down = true -> (1 <= t_n s)%nat -> Rabs (t_prev s - mid) = (hi - lo) / 2 ^ (S (S (t_n s)))).
    { intros Hud Hn. rewrite (H4 Hn), !HD, <- H1. unfold mid. destruct up; [|destruct down]; try (destruct Hud; discriminate);
        rewrite H2; unfold Rabs; destruct (Rcase_abs _); lra. }
    match goal with |- context [if ?b then inr _ else _] => destruct b eqn:E end.
    - unfold Q. fold up down. split.
      2:{ intros Hn. apply H5. lia. }
      apply orb_true_iff in E. destruct E as [E|E]; [|right; left; apply Nat.leb_le in E; lia].
      apply orb_true_iff in E. destruct E as [E|E].
      { left. destruct up, down; try discriminate. split; reflexivity. }
      apply Rleb_iff in E. destruct up eqn:Eu; [|destruct down eqn:Ed].
      3:{ left. split; reflexivity. }
      all: right; right; destruct (Nat.eq_dec (t_n s) 0) as [En|En].
      all: try (left; split; [lia|]; destruct (H3 En) as (P1 & P2 & P3); rewrite P1 in E; unfold mid in E; rewrite ?P2, ?P3 in E;
                rewrite Rminus_0_l, Rabs_Ropp in E; (left; split; [reflexivity|exact E]) || (right; split; [reflexivity|exact E])).
      all: right; split; [lia|]; replace (S (t_n s) + 1)%nat with (S (S (t_n s))) by lia; rewrite <- Mv; [exact E|auto|lia].
    - apply orb_false_iff in E. destruct E as [E E3]. apply orb_false_iff in E. destruct E as [E1 E2].
      apply Nat.leb_gt in E3. apply Rleb_false in E2.
      assert (Hud : up = true \/ down = true) by (destruct up, down; auto; discriminate).
      unfold I. cbn [t_low t_mid t_high t_n t_prev]. split; [lia|]. split.
      { rewrite HD, <- H1. destruct up; [|destruct down]; try (destruct Hud; discriminate); rewrite H2; field. }
      split. { unfold mid. destruct up; [|destruct down]; try (destruct Hud; discriminate); rewrite H2; field. }
      split; [lia|]. split; [reflexivity|]. intros Hn. rewrite <- Mv by (auto; lia). exact E2.
  Qed.
End Pull.

(** ** Applying constraints *)
Lemma py_index_ok len z : (0 <= z < Z.of_nat len)%Z -> py_index len z = Some (Z.to_nat z).
Proof.
  intros H. unfold py_index. replace ((0 <=? z) && (z <? Z.of_nat len))%Z with true; [reflexivity|].
  symmetry. apply andb_true_iff. rewrite Z.leb_le, Z.ltb_lt. lia.
Qed.
Lemma py_index_high len z : (Z.of_nat len <= z)%Z -> py_index len z = None.
Proof.
  intros H. unfold py_index.
  replace ((0 <=? z) && (z <? Z.of_nat len))%Z with false
    by (symmetry; apply andb_false_iff; right; apply Z.ltb_ge; lia).
  replace ((- Z.of_nat len <=? z) && (z <? 0))%Z with false; [reflexivity|].
  symmetry. apply andb_false_iff. right. apply Z.ltb_ge. lia.
Qed.

Lemma new_diff_total loss cur base t : exists d, new_diff loss cur base t = Some d.
Proof.
  destruct t as [l|l|v l| | |lo hi|]; cbn [new_diff]; eauto.
  - unfold pull_down. destruct (pd_terminates loss cur l 31 ltac:(lia)) as [[v n] ->]. eauto.
  - unfold pull_up. destruct (pu_high_terminates loss cur l 31 ltac:(lia)) as [[v|[lo hi]] ->]; eauto.
    destruct (pu_terminates loss cur l 31 lo hi ltac:(lia)) as [[v n] ->]. eauto.
  - unfold pull_to. destruct (flt _ _); eauto.
    destruct (pt_terminates loss cur l 31 (if Rltb cur v then cur else v) (if Rltb cur v then v else cur) ltac:(lia)) as [[w n] ->]. eauto.
Qed.

Lemma set_cell_eq A i j v : set_cell A i j v i j = v.
Proof. unfold set_cell. rewrite !Nat.eqb_refl. reflexivity. Qed.
Lemma set_cell_neq A i j v a b : (a, b) <> (i, j) -> set_cell A i j v a b = A a b.
Proof.
  intros H. unfold set_cell. destruct ((a =? i) && (b =? j))%nat eqn:E; [|reflexivity].
  apply andb_true_iff in E. rewrite !Nat.eqb_eq in E. destruct E as [-> ->]. congruence.
Qed.

Section Apply.
  Context (m n k : nat) (V U bW bH : mat).
  Notation apply_one := (apply_one m n k V U bW bH).
  Notation apply_constraints := (apply_constraints m n k V U bW bH).

  (** The cell a constraint acts on: feature matrix ([true]) or sample matrix. *)
  Definition cell_of (c : constr) : option (bool * nat * nat) :=
    match c_tgt c with
    | Feature => match py_index k (c_i c), py_index n (c_j c) with Some i, Some j => Some (true, i, j) | _, _ => None end
    | _ => match py_index m (c_i c), py_index k (c_j c) with Some i, Some j => Some (false, i, j) | _, _ => None end
    end.
  Definition cell_diff (iW iH : mat) (c : constr) (i j : nat) : option R :=
    match c_tgt c with
    | Feature => new_diff (fun v => Fin (q_loss m n k true V U iW (set_cell iH i j v))) (iH i j) (bH i j) (c_type c)
    | _ => new_diff (fun v => Fin (q_loss m n k true V U (set_cell iW i j v) iH)) (iW i j) (bW i j) (c_type c)
    end.
  Definition at_cell (D : mat * mat) (x : bool * nat * nat) : R :=
    let '(f, i, j) := x in if f then snd D i j else fst D i j.

  Lemma apply_one_spec iW iH D c :
    match cell_of c with
    | None => apply_one iW iH D c = None
    | Some (f, i, j) => exists D' d, apply_one iW iH D c = Some D' /\ cell_diff iW iH c i j = Some d /\
        at_cell D' (f, i, j) = d /\ forall x, x <> (f, i, j) -> at_cell D' x = at_cell D x
    end.
  Proof.
    unfold cell_of, Constr_Model.apply_one, cell_diff. destruct (c_tgt c).
    - destruct (py_index k (c_i c)) as [i|]; [|reflexivity]. destruct (py_index n (c_j c)) as [j|]; [|reflexivity].
      match goal with |- context [new_diff ?l ?a ?b ?t] => destruct (new_diff_total l a b t) as [d Hd] end.
      rewrite Hd. exists (fst D, set_cell (snd D) i j d), d.
      split; [reflexivity|]. split; [reflexivity|]. cbn [at_cell fst snd].
      split; [apply set_cell_eq|]. intros [[[] a] b] Hx; cbn; [|reflexivity].
      apply set_cell_neq. congruence.
    - destruct (py_index m (c_i c)) as [i|]; [|reflexivity]. destruct (py_index k (c_j c)) as [j|]; [|reflexivity].
      match goal with |- context [new_diff ?l ?a ?b ?t] => destruct (new_diff_total l a b t) as [d Hd] end.
      rewrite Hd. exists (set_cell (fst D) i j d, snd D), d.
      split; [reflexivity|]. split; [reflexivity|]. cbn [at_cell fst snd].
      split; [apply set_cell_eq|]. intros [[[] a] b] Hx; cbn; [reflexivity|].
      apply set_cell_neq. congruence.
    - destruct (py_index m (c_i c)) as [i|]; [|reflexivity]. destruct (py_index k (c_j c)) as [j|]; [|reflexivity].
      match goal with |- context [new_diff ?l ?a ?b ?t] => destruct (new_diff_total l a b t) as [d Hd] end.
      rewrite Hd. exists (set_cell (fst D) i j d, snd D), d.
      split; [reflexivity|]. split; [reflexivity|]. cbn [at_cell fst snd].
      split; [apply set_cell_eq|]. intros [[[] a] b] Hx; cbn; [reflexivity|].
      apply set_cell_neq. congruence.
  Qed.

  Lemma apply_total iW iH r : forall D,
    (Forall (fun p => cell_of (snd p) <> None) r -> exists D', apply_constraints iW iH r D = Some D') /\
    ((exists p, In p r /\ cell_of (snd p) = None) -> apply_constraints iW iH r D = None).
  Proof.
    induction r as [|[l c] r IH]; intros D.
    - cbn. split; [eauto|]. intros (p & [] & _).
    - cbn [Constr_Model.apply_constraints]. pose proof (apply_one_spec iW iH D c) as H. split.
      + intros HF. inversion HF as [|? ? Hc HF']; subst. cbn in Hc. destruct (cell_of c) as [[[f i] j]|]; [|congruence].
        destruct H as (D' & d & -> & _). apply IH. exact HF'.
      + intros (p & [<-|Hp] & Hn); cbn [snd] in *.
        * rewrite Hn in H. rewrite H. reflexivity.
        * destruct (apply_one iW iH D c) as [D'|]; [|reflexivity]. apply (IH D'). eauto.
  Qed.

  Lemma apply_other iW iH r : forall D D' x, apply_constraints iW iH r D = Some D' ->
    (forall p, In p r -> cell_of (snd p) <> Some x) -> at_cell D' x = at_cell D x.
  Proof.
    induction r as [|[l c] r IH]; intros D D' x; cbn [Constr_Model.apply_constraints].
    - intros [= <-]. reflexivity.
    - pose proof (apply_one_spec iW iH D c) as H. destruct (apply_one iW iH D c) as [D1|] eqn:E; [|discriminate].
      intros H' Hn. rewrite (IH D1 D' x H'); [|intros p Hp; apply Hn; right; exact Hp].
      specialize (Hn (l, c) (or_introl eq_refl)). cbn [snd] in Hn.
      destruct (cell_of c) as [[[f i] j]|]; [|discriminate].
      destruct H as (D2 & d & [= <-] & _ & _ & Ho). apply Ho. congruence.
  Qed.

  Lemma apply_cell iW iH r : forall D D' l c f i j, apply_constraints iW iH r D = Some D' ->
    In (l, c) r -> cell_of c = Some (f, i, j) ->
    (forall l' c', In (l', c') r -> cell_of c' = Some (f, i, j) -> c' = c) ->
    exists d, cell_diff iW iH c i j = Some d /\ at_cell D' (f, i, j) = d.
  Proof.
    induction r as [|[l0 c0] r IH]; intros D D' l c f i j; cbn [Constr_Model.apply_constraints In]; [tauto|].
    pose proof (apply_one_spec iW iH D c0) as H. destruct (apply_one iW iH D c0) as [D1|] eqn:E; [|discriminate].
    intros H' Hin Hc Hu.
    assert (Hdec : (exists p, In p r /\ cell_of (snd p) = Some (f, i, j)) \/ (forall p, In p r -> cell_of (snd p) <> Some (f, i, j))).
    { clear -r. induction r as [|p r [(q & Hq & He)|Hn]]; [right; intros p []|left; exists q; cbn; auto|].
      destruct (cell_of (snd p)) as [[[f' i'] j']|] eqn:E.
      - destruct (Bool.bool_dec f' f), (Nat.eq_dec i' i), (Nat.eq_dec j' j);
          try (left; exists p; cbn; split; [auto|congruence]);
          right; intros q [<-|Hq] He; try congruence; exact (Hn q Hq He).
      - right. intros q [<-|Hq] He; [congruence|exact (Hn q Hq He)]. }
    destruct Hdec as [([l1 c1] & Hp & He)|Hn].
    - cbn [snd] in He. assert (c1 = c) by (eapply Hu; [right; exact Hp|exact He]). subst c1.
      apply (IH D1 D' l1 c f i j H' Hp Hc). intros l' c' Hi' He'. eapply Hu; [right; exact Hi'|exact He'].
    - destruct Hin as [[= -> ->]|Hin]; [|exfalso; exact (Hn (l, c) Hin Hc)].
      rewrite (apply_other iW iH r D1 D' (f, i, j) H' Hn).
      rewrite Hc in H. destruct H as (D2 & d & [= <-] & Hd & Ha & _). eauto.
  Qed.
End Apply.
