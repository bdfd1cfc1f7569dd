(** C114: the plots of a constrained model. *)
From Coq Require Import List Bool ZArith Ascii String Reals Lia Lra.
From Flocq Require Import Core.
From Verif Require Import Base Fl Boot_Model Constr_Model Constr_Proofs Expr_Model Analysis_Model Report_Model Report_Spec Report_Props.
Import ListNotations.
Local Open Scope R_scope.

Lemma row_nth {A} n (f : nat -> A) j : (j < n)%nat -> nth_error (row n f) j = Some (f j).
Proof.
  intros L. unfold row. rewrite nth_error_map. assert (E : nth_error (seq 0 n) j = Some j).
  { rewrite (nth_error_nth' _ 0%nat) by (rewrite seq_length; exact L). rewrite seq_nth by exact L. reflexivity. }
  rewrite E. reflexivity.
Qed.
Lemma mark_ok n fi : forall mp l, (forall e, In e mp -> e_i e = fi -> (- Z.of_nat n <= e_j e < Z.of_nat n)%Z) -> exists l', mark n fi mp l = inr l'.
Proof.
  induction mp as [|e mp IH]; intros l H; [cbn; eauto|]. cbn [mark]. destruct (_ && _) eqn:B; [|apply IH; intros; apply H; [right|]; auto].
  apply andb_true_iff in B as [_ B]. apply Z.eqb_eq in B. specialize (H e (or_introl eq_refl) B) as Hj.
  assert (P : exists j, py_index n (e_j e) = Some j).
  { unfold py_index. destruct ((0 <=? e_j e) && (e_j e <? Z.of_nat n))%Z eqn:Q; [eauto|].
    assert (X : ((- Z.of_nat n <=? e_j e) && (e_j e <? 0))%Z = true).
    { apply andb_false_iff in Q. apply andb_true_iff. rewrite Z.leb_le, Z.ltb_lt. rewrite Z.leb_gt, Z.ltb_ge in Q. lia. }
    rewrite X. eauto. }
  destruct P as [j ->]. apply IH. intros; apply H; [right|]; auto.
Qed.
Lemma norm_value k (H : mat) i j : rsum k (fun a => H a j) <> 0 -> norm_profile k H i j = Fin (100 * (H i j / rsum k (fun a => H a j))).
Proof. intros N. unfold norm_profile, fdiv. destruct (Req_EM_T _ 0); [contradiction|]. reflexivity. Qed.
Lemma gspace_value m (W : mat) t i : rsum m (fun s => W s i) <> 0 -> gspace_contribution m W t i = Fin (W t i / rsum m (fun s => W s i)).
Proof. intros N. unfold gspace_contribution, fdiv. destruct (Req_EM_T _ 0); [contradiction|]. reflexivity. Qed.
Lemma good_factor k f : (1 <= f <= Z.of_nat k)%Z -> ((Z.of_nat k <? f) || (f <? 1))%Z = false /\ py_index k (f - 1) = Some (Z.to_nat (f - 1)).
Proof.
  intros H. split; [apply orb_false_iff; rewrite !Z.ltb_ge; lia|apply py_index_ok; lia].
Qed.
Lemma bad_factor k f : (f < 1 \/ Z.of_nat k < f)%Z -> ((Z.of_nat k <? f) || (f <? 1))%Z = true.
Proof. intros H. apply orb_true_iff. rewrite !Z.ltb_lt. lia. Qed.

(** Profile and contributions of a factor, numbered from 1: shares of every feature in
    per cent to two decimals, concentrations (the smallest positive bar for none), and
    contributions with average 1, each for the base and the constrained solution.  No
    bar is outlined differently from the others. *)
Theorem C114_profile_contributions :
  forall (m n k : nat) (bW bH : mat) (s : cmodel) (o : sol) (mp : list entry) (f : Z),
    m_sol s = Some o -> m_mapped s = Some mp ->
    (forall e, In e mp -> e_i e = (f - 1)%Z -> (- Z.of_nat n <= e_j e < Z.of_nat n)%Z) ->
    let i := Z.to_nat (f - 1) in
    ((f < 1 \/ Z.of_nat k < f)%Z -> plot_profile_contributions m n k bW bH s (Some f) = inr None) /\
    ((1 <= f <= Z.of_nat k)%Z ->
     exists p base new,
       plot_profile_contributions m n k bW bH s (Some f) = inr (Some (p, (f, base, new))) /\ p_label p = f /\ p_outline p = repeat Green n /\
       (forall H shares, (H, shares) = (bH, p_base_share p) \/ (H, shares) = (o_H o, p_share p) -> forall j, (j < n)%nat -> rsum k (fun a => H a j) <> 0 ->
          exists x, nth_error shares j = Some (Fin x) /\ Rabs (x - 100 * (H i j / rsum k (fun a => H a j))) <= 5 / 1000) /\
       (forall W H conc, (W, H, conc) = (bW, bH, p_base_conc p) \/ (W, H, conc) = (o_W o, o_H o, p_conc p) -> forall j, (j < n)%nat ->
          exists x, nth_error conc j = Some x /\ (rsum m (fun t => W t i * H i j) <> 0 -> x = rsum m (fun t => W t i * H i j)) /\ (rsum m (fun t => W t i * H i j) = 0 -> 0 < x < / 1000000)) /\
       (forall W series, (W, series) = (bW, base) \/ (W, series) = (o_W o, new) -> rsum m (fun t => W t i) <> 0 -> (0 < m)%nat ->
          exists x, (forall t, (t < m)%nat -> nth_error series t = Some (Fin (x t)) /\ x t * (rsum m (fun t => W t i) / INR m) = W t i) /\ rsum m x = INR m)).
Proof.
  intros m n k bW bH s o mp f So Mp Hj i. unfold plot_profile_contributions. rewrite So. split.
  - intros B. rewrite bad_factor by exact B. reflexivity.
  - intros G. destruct (good_factor k f G) as [-> Pi]. unfold plot_profile, plot_contributions. rewrite Pi, So, Mp. fold i.
    destruct (mark_ok n (f - 1) mp (repeat Green n) Hj) as [l' ->].
    do 3 eexists. split; [reflexivity|]. cbn [p_label p_outline p_base_share p_share p_base_conc p_conc]. split; [reflexivity|]. split; [reflexivity|].
    split; [|split].
    + intros H shares Q j L N.
      assert (E : nth_error shares j = Some (frnd 2 (norm_profile k H i j))) by (destruct Q as [Q|Q]; injection Q as -> ->; [exact (row_nth n (fun j => frnd 2 (norm_profile k bH i j)) j L)|exact (row_nth n (fun j => frnd 2 (norm_profile k (o_H o) i j)) j L)]).
      rewrite norm_value in E by exact N. cbn [frnd] in E. eexists. split; [exact E|].
      pose proof (rnd_err 2 (100 * (H i j / rsum k (fun a => H a j)))) as X. replace (/ (2 * 10 ^ 2)) with (5 / 1000) in X by (cbn; lra). exact X.
    + intros W H conc Q j L. assert (E : nth_error conc j = Some (conc_sum m W H i j)) by (destruct Q as [Q|Q]; injection Q as -> -> ->; [exact (row_nth n (conc_sum m bW bH i) j L)|exact (row_nth n (conc_sum m (o_W o) (o_H o) i) j L)]).
      eexists. split; [exact E|]. unfold conc_sum. cbv zeta. unfold Reqb. destruct (Req_EM_T _ 0) as [Z|Z]; split; intros; try contradiction; try reflexivity. lra.
    + intros W series Q N Mm. assert (Im : 0 < INR m) by (apply lt_0_INR; exact Mm).
      exists (fun t => W t i / (rsum m (fun t => W t i) / INR m)). split.
      * intros t L. assert (E : nth_error series t = Some (profile_contribution m W t i)) by (destruct Q as [Q|Q]; injection Q as -> ->; [exact (row_nth m (fun t => profile_contribution m bW t i) t L)|exact (row_nth m (fun t => profile_contribution m (o_W o) t i) t L)]).
        rewrite E. unfold profile_contribution, fdiv, mean. assert (N' : rsum m (fun s => W s i) / INR m <> 0) by (apply Rmult_integral_contrapositive; split; [exact N|apply Rinv_neq_0_compat; lra]).
        destruct (Req_EM_T _ 0); [contradiction|]. split; [reflexivity|field; split; [lra|exact N]].
      * unfold Rdiv at 1. rewrite rsum_scal_r. field. split; [lra|exact N].
Qed.
Print Assumptions C114_profile_contributions.

(** The labels of the expressions are looked at although no bar is outlined: the
    profile of a factor that exists is not drawn exactly when a label that contains
    "feature" is about this factor and about a feature that does not exist. *)
Definition contains (w s : string) : Prop := exists a b, s = (a ++ w ++ b)%string.
Lemma prefix_iff w : forall s, prefix w s = true <-> exists b, s = (w ++ b)%string.
Proof.
  induction w as [|c w IH]; intros s.
  - split; [intros _; exists s; reflexivity|intros _; destruct s; reflexivity].
  - destruct s as [|d s]; cbn [prefix]; [split; [discriminate|intros [b E]; discriminate]|]. destruct (ascii_dec c d) as [->|Hn].
    + rewrite IH. split; intros [b E]; exists b; [rewrite E; reflexivity|cbn in E; injection E as E; exact E].
    + split; [discriminate|]. intros [b E]. cbn in E. injection E as E _. congruence.
Qed.
Lemma mentions_iff w : w <> ""%string -> forall s, mentions w s = true <-> contains w s.
Proof.
  intros Hw. destruct w as [|c w]; [contradiction|]. induction s as [|d s IH].
  - split; [discriminate|]. intros (a & b & E). destruct a; discriminate.
  - pose proof (prefix_iff (String c w) (String d s)) as P. unfold mentions in *. cbn [index]. destruct (prefix (String c w) (String d s)) eqn:F.
    + split; [intros _|reflexivity]. destruct (proj1 P eq_refl) as [b E]. exists ""%string, b. exact E.
    + destruct (index 0 (String c w) s) as [i|]; split; try discriminate; try reflexivity.
      * intros _. destruct (proj1 IH eq_refl) as (a & b & E). exists (String d a), b. cbn. rewrite E. reflexivity.
      * intros (a & b & E). destruct a as [|x a]; [assert (X : false = true) by (apply P; exists b; exact E); discriminate|]. cbn in E. injection E as _ E. apply IH. exists a, b. exact E.
Qed.
Lemma py_index_none n z : py_index n z = None <-> ~ (- Z.of_nat n <= z < Z.of_nat n)%Z.
Proof.
  unfold py_index. destruct (Z.leb_spec 0 z), (Z.ltb_spec z (Z.of_nat n)), (Z.leb_spec (- Z.of_nat n) z), (Z.ltb_spec z 0); cbn [andb]; split; intros; try discriminate; try reflexivity; lia.
Qed.
Lemma mark_fails n fi : forall mp l, (mark n fi mp l = inl IndexErr \/ exists l', mark n fi mp l = inr l') /\
  (mark n fi mp l = inl IndexErr <-> exists e, In e mp /\ contains "feature" (e_label e) /\ e_i e = fi /\ ~ (- Z.of_nat n <= e_j e < Z.of_nat n)%Z).
Proof.
  induction mp as [|e mp IH]; intros l; cbn [mark].
  - split; [right; eauto|]. split; [discriminate|]. intros (e & [] & _).
  - destruct (mentions "feature" (e_label e) && (e_i e =? fi)%Z) eqn:B.
    + apply andb_true_iff in B as [B1 B2]. apply mentions_iff in B1; [|discriminate]. apply Z.eqb_eq in B2. destruct (py_index n (e_j e)) as [j|] eqn:P.
      * destruct (IH (set_nth j Red l)) as [A1 A2]. split; [exact A1|]. rewrite A2. split; intros (e' & I & C); exists e'; [split; [right; exact I|exact C]|]. destruct I as [<-|I]; [|split; assumption].
        exfalso. destruct C as (_ & _ & C). apply py_index_none in C. congruence.
      * split; [left; reflexivity|]. split; [intros _|reflexivity]. exists e. split; [left; reflexivity|]. split; [exact B1|]. split; [exact B2|]. apply py_index_none, P.
    + destruct (IH l) as [A1 A2]. split; [exact A1|]. rewrite A2. split; intros (e' & I & C); exists e'; [split; [right; exact I|exact C]|]. destruct I as [<-|I]; [|split; assumption].
      exfalso. destruct C as (C1 & C2 & _). apply andb_false_iff in B. destruct B as [B|B]; [apply (mentions_iff "feature") in C1; [congruence|discriminate]|]. apply Z.eqb_neq in B. contradiction.
Qed.
Theorem C114_profile_index_error : forall (m n k : nat) (bW bH : mat) (s : cmodel) (o : sol) (mp : list entry) (f : Z),
  m_sol s = Some o -> m_mapped s = Some mp -> (1 <= f <= Z.of_nat k)%Z ->
  (plot_profile m n k bW bH s (Some f) = inl IndexErr \/ exists p, plot_profile m n k bW bH s (Some f) = inr p) /\
  (plot_profile m n k bW bH s (Some f) = inl IndexErr <->
   exists e, In e mp /\ contains "feature" (e_label e) /\ e_i e = (f - 1)%Z /\ ~ (- Z.of_nat n <= e_j e < Z.of_nat n)%Z).
Proof.
  intros m n k bW bH s o mp f So Mp Hf. unfold plot_profile. destruct (good_factor k f Hf) as [_ ->]. rewrite So, Mp.
  destruct (mark_fails n (f - 1) mp (repeat Green n)) as [A1 A2]. rewrite <- A2. destruct A1 as [->|[l' ->]].
  - split; [left; reflexivity|split; reflexivity].
  - split; [right; eauto|split; discriminate].
Qed.
Print Assumptions C114_profile_index_error.

Example C114_profile_instance :
  m_sol (mkCM [] [] (Some []) (Some []) (Some (mkSol ones ones))) = Some (mkSol ones ones) /\ (1 <= 2 <= Z.of_nat 3)%Z /\ rsum 3 (fun a => ones a 0%nat) <> 0.
Proof. repeat split; try lia. cbn. unfold ones. lra. Qed.

(** The two plots called by themselves do not check the number: 0 and below count from
    the last factor and are labelled as given. *)
Theorem C114_unchecked_number :
  forall (m n k : nat) (bW bH : mat) (s : cmodel) (f : Z),
    (- Z.of_nat k < f <= 0)%Z ->
    (forall g, g = (f + Z.of_nat k)%Z -> (forall c b d, plot_contributions m k bW s (Some g) = inr (c, b, d) -> plot_contributions m k bW s (Some f) = inr (f, b, d))) /\
    (forall o mp, m_sol s = Some o -> m_mapped s = Some mp -> (forall e, In e mp -> (- Z.of_nat n <= e_j e < Z.of_nat n)%Z) ->
       exists p q, plot_profile m n k bW bH s (Some f) = inr p /\ plot_profile m n k bW bH s (Some (f + Z.of_nat k)%Z) = inr q /\
         p_label p = f /\ p_share p = p_share q /\ p_conc p = p_conc q /\ p_base_share p = p_base_share q /\ p_base_conc p = p_base_conc q).
Proof.
  intros m n k bW bH s f G.
  assert (P1 : py_index k (f - 1) = Some (Z.to_nat (f + Z.of_nat k - 1))).
  { unfold py_index. replace ((0 <=? f - 1) && (f - 1 <? Z.of_nat k))%Z with false by (symmetry; apply andb_false_iff; left; apply Z.leb_gt; lia).
    replace ((- Z.of_nat k <=? f - 1) && (f - 1 <? 0))%Z with true by (symmetry; apply andb_true_iff; rewrite Z.leb_le, Z.ltb_lt; lia). f_equal. f_equal. lia. }
  assert (P2 : py_index k (f + Z.of_nat k - 1) = Some (Z.to_nat (f + Z.of_nat k - 1))) by (apply py_index_ok; lia).
  split.
  - intros g -> c b d. unfold plot_contributions. rewrite P1, P2. destruct (m_sol s); [|discriminate]. intros E. injection E as _ <- <-. reflexivity.
  - intros o mp So Mp Hj. unfold plot_profile. rewrite P1, P2, So, Mp.
    destruct (mark_ok n (f - 1) mp (repeat Green n)) as [l1 ->]; [intros; apply Hj; auto|].
    destruct (mark_ok n (f + Z.of_nat k - 1) mp (repeat Green n)) as [l2 ->]; [intros; apply Hj; auto|].
    do 2 eexists. split; [reflexivity|]. split; [reflexivity|]. repeat split.
Qed.
Print Assumptions C114_unchecked_number.

(** Before a completed training every plot raises, or warns for an invalid number. *)
Theorem C114_untrained :
  forall (m n k : nat) (bW bH : mat) (s : cmodel) (f : Z) (f1 f2 : Z) (base delta : bool) (j : Z) (c : R),
    m_sol s = None ->
    plot_profile_contributions m n k bW bH s (Some f) = inl AttrErr /\ plot_fingerprints n k bH s = inl AttrErr /\
    ((1 <= f1 <= Z.of_nat k)%Z -> (1 <= f2 <= Z.of_nat k)%Z -> plot_g_space m k bW s (Some f1) (Some f2) base delta = inl AttrErr) /\
    ((1 <= j <= Z.of_nat n)%Z -> plot_factor_contributions m n k s (Some j) c = inl AttrErr).
Proof.
  intros m n k bW bH s f f1 f2 base delta j c Sn. unfold plot_profile_contributions, plot_fingerprints, plot_g_space, plot_factor_contributions. rewrite Sn.
  repeat split; auto.
  - intros G1 G2. cbv zeta. rewrite (proj1 (good_factor k f1 G1)), (proj1 (good_factor k f2 G2)). reflexivity.
  - intros G. cbv zeta. replace ((j <? 1) || (Z.of_nat n <? j))%Z with false by (symmetry; apply orb_false_iff; rewrite !Z.ltb_ge; lia). reflexivity.
Qed.
Print Assumptions C114_untrained.

(** Elements of expressions are not highlighted. *)
Theorem C114_highlight_refuted :
  ~ (forall (m n k : nat) (bW bH : mat) (s : cmodel) (mp : list entry) (e : entry) (p : profile),
       m_mapped s = Some mp -> In e mp -> e_kind e = "feature"%string -> (0 <= e_i e < Z.of_nat k)%Z -> (0 <= e_j e < Z.of_nat n)%Z ->
       plot_profile m n k bW bH s (Some (e_i e + 1)%Z) = inr p -> nth_error (p_outline p) (Z.to_nat (e_j e)) <> Some Green).
Proof.
  intros H.
  specialize (H 1%nat 1%nat 1%nat ones ones (mkCM [] [] None (Some [mkEntry "factor:0|feature:0" 0 0 "feature" []]) (Some (mkSol ones ones)))
    [mkEntry "factor:0|feature:0" 0 0 "feature" []] (mkEntry "factor:0|feature:0" 0 0 "feature" [])).
  eapply H; try reflexivity; try (cbn; lia). left. reflexivity.
Qed.
Print Assumptions C114_highlight_refuted.

(** ** Fingerprints *)
(** With at most ten factors each feature is a stack of all factors, the last at the
    bottom, of total 100 in both solutions; with more the plot raises. *)
Theorem C114_fingerprints :
  forall (n k : nat) (bH : mat) (s : cmodel) (o : sol), m_sol s = Some o ->
    ((10 < k)%nat -> plot_fingerprints n k bH s = inl IndexErr) /\
    ((k <= 10)%nat -> exists stacks, plot_fingerprints n k bH s = inr stacks /\
       map (fun x => fst (fst x)) stacks = map (fun a => Z.of_nat a) (rev (seq 1 k)) /\
       forall j, (j < n)%nat -> rsum k (fun a => bH a j) <> 0 -> rsum k (fun a => o_H o a j) <> 0 ->
         exists b c : nat -> R, (forall a, (a < k)%nat -> exists x, nth_error stacks (k - 1 - a) = Some x /\ fst (fst x) = (Z.of_nat a + 1)%Z /\
                         nth_error (snd (fst x)) j = Some (Fin (b a)) /\ nth_error (snd x) j = Some (Fin (c a)) /\
                         b a * rsum k (fun a => bH a j) = 100 * bH a j /\ c a * rsum k (fun a => o_H o a j) = 100 * o_H o a j) /\
           rsum k b = 100 /\ rsum k c = 100).
Proof.
  intros n k bH s o So. unfold plot_fingerprints. rewrite So. split.
  - intros L. apply Nat.ltb_lt in L. rewrite L. reflexivity.
  - intros L. apply Nat.ltb_ge in L. rewrite L. eexists. split; [reflexivity|]. split.
    + rewrite map_map. cbn [fst]. rewrite <- seq_shift, <- map_rev, map_map. apply map_ext. intros a. lia.
    + intros j Lj N1 N2. exists (fun a => 100 * (bH a j / rsum k (fun a => bH a j))), (fun a => 100 * (o_H o a j / rsum k (fun a => o_H o a j))).
      split; [|split].
      * intros a La. eexists. split.
        { rewrite nth_error_map. assert (E : nth_error (rev (seq 0 k)) (k - 1 - a) = Some a).
          { rewrite (nth_error_nth' _ 0%nat) by (rewrite rev_length, seq_length; lia). rewrite rev_nth by (rewrite seq_length; lia). rewrite seq_length, seq_nth by lia. f_equal. lia. }
          rewrite E. reflexivity. }
        cbn [fst snd]. rewrite !row_nth by exact Lj. rewrite !norm_value by assumption. repeat split; field; assumption.
      * unfold Rdiv. rewrite rsum_scal_l, rsum_scal_r. field. exact N1.
      * unfold Rdiv. rewrite rsum_scal_l, rsum_scal_r. field. exact N2.
Qed.
Print Assumptions C114_fingerprints.
Theorem C114_any_number_of_factors_refuted :
  ~ (forall (n k : nat) (bH : mat) (s : cmodel) (o : sol), m_sol s = Some o -> exists stacks, plot_fingerprints n k bH s = inr stacks).
Proof. intros H. destruct (H 1%nat 11%nat ones (mkCM [] [] None None (Some (mkSol ones ones))) (mkSol ones ones) eq_refl) as [x E]. discriminate. Qed.
Print Assumptions C114_any_number_of_factors_refuted.

(** ** G-space *)
(** Each sample is a point whose abscissa is its share of all contributions of the
    first factor and whose ordinate that of the second; the abscissa is titled with the
    number of the second factor and the ordinate with the first.  The base solution is
    shown if asked for or with the changes, which lead from it to the constrained one. *)
Theorem C114_g_space :
  forall (m k : nat) (bW : mat) (s : cmodel) (o : sol) (f1 f2 : Z) (base delta : bool), m_sol s = Some o ->
    let i1 := Z.to_nat (f1 - 1) in let i2 := Z.to_nat (f2 - 1) in
    let total (W : mat) i := rsum m (fun t => W t i) in
    ((f1 < 1 \/ Z.of_nat k < f1)%Z \/ (f2 < 1 \/ Z.of_nat k < f2)%Z -> plot_g_space m k bW s (Some f1) (Some f2) base delta = inr None) /\
    ((1 <= f1 <= Z.of_nat k)%Z -> (1 <= f2 <= Z.of_nat k)%Z ->
     total bW i1 <> 0 -> total bW i2 <> 0 -> total (o_W o) i1 <> 0 -> total (o_W o) i2 <> 0 ->
     exists g name pts bpts, plot_g_space m k bW s (Some f1) (Some f2) base delta = inr (Some g) /\
       g_points g = ((name, pts) :: if (base || delta)%bool then [(NBase, bpts)] else []) /\
       g_xtitle g = f2 /\ g_ytitle g = f1 /\
       List.length pts = m /\ List.length bpts = m /\ List.length (g_arrows g) = (if delta then m else 0%nat) /\
       (forall t, (t < m)%nat ->
          nth_error pts t = Some (Fin (o_W o t i1 / total (o_W o) i1), Fin (o_W o t i2 / total (o_W o) i2)) /\
          nth_error bpts t = Some (Fin (bW t i1 / total bW i1), Fin (bW t i2 / total bW i2)) /\
          (delta = true -> exists u v, nth_error (g_arrows g) t = Some (Fin (bW t i1 / total bW i1), Fin (bW t i2 / total bW i2), (Fin u, Fin v)) /\
             bW t i1 / total bW i1 + u = o_W o t i1 / total (o_W o) i1 /\ bW t i2 / total bW i2 + v = o_W o t i2 / total (o_W o) i2))).
Proof.
  intros m k bW s o f1 f2 base delta So i1 i2 total. unfold plot_g_space. rewrite So. cbv zeta. split.
  - intros [B|B]; [rewrite bad_factor by exact B; reflexivity|]. rewrite (bad_factor k f2 B). destruct (_ || _)%bool; reflexivity.
  - intros G1 G2 B1 B2 C1 C2. rewrite (proj1 (good_factor k f1 G1)), (proj1 (good_factor k f2 G2)). fold i1 i2.
    set (pts W := row m (fun t => (gspace_contribution m W t i1, gspace_contribution m W t i2))).
    exists (if delta then mkG [(NConstrained, pts (o_W o)); (NBase, pts bW)]
              (row m (fun t => ((gspace_contribution m bW t i1, gspace_contribution m bW t i2),
                                (fsub (gspace_contribution m (o_W o) t i1) (gspace_contribution m bW t i1),
                                 fsub (gspace_contribution m (o_W o) t i2) (gspace_contribution m bW t i2))))) f2 f1
            else mkG ((NFpeak, pts (o_W o)) :: if base then [(NBase, pts bW)] else []) [] f2 f1), (if delta then NConstrained else NFpeak), (pts (o_W o)), (pts bW).
    split; [reflexivity|]. split; [destruct delta, base; reflexivity|]. split; [destruct delta; reflexivity|]. split; [destruct delta; reflexivity|].
    assert (Len : forall {A} (f : nat -> A), List.length (row m f) = m) by (intros A f; unfold row; rewrite map_length, seq_length; reflexivity).
    split; [apply Len|]. split; [apply Len|]. split; [destruct delta; [apply Len|reflexivity]|].
    intros t Lt. unfold pts. rewrite !row_nth by exact Lt. rewrite !gspace_value by assumption. split; [reflexivity|]. split; [reflexivity|].
    intros ->. cbn [g_arrows]. rewrite row_nth by exact Lt. rewrite !gspace_value by assumption.
    exists (o_W o t i1 / total (o_W o) i1 - bW t i1 / total bW i1), (o_W o t i2 / total (o_W o) i2 - bW t i2 / total bW i2). split; [reflexivity|]. lra.
Qed.
Print Assumptions C114_g_space.
(** Without the number of a factor it raises, unless the other number is refused first. *)
Theorem C114_g_space_needs_numbers :
  forall (m k : nat) (bW : mat) (s : cmodel) (f1 f2 : option Z) (base delta : bool),
    f1 = None \/ f2 = None -> (forall x, f1 = Some x \/ f2 = Some x -> (1 <= x <= Z.of_nat k)%Z) ->
    plot_g_space m k bW s f1 f2 base delta = inl TypeErr.
Proof.
  intros m k bW s f1 f2 base delta N G. unfold plot_g_space. destruct f1 as [x1|], f2 as [x2|].
  - destruct N; discriminate.
  - rewrite (proj1 (good_factor k x1 (G x1 (or_introl eq_refl)))). reflexivity.
  - rewrite (proj1 (good_factor k x2 (G x2 (or_intror eq_refl)))). reflexivity.
  - reflexivity.
Qed.
Print Assumptions C114_g_space_needs_numbers.
Example C114_g_space_instance : let total (W : mat) i := rsum 2 (fun t => W t i) in total ones 0%nat <> 0 /\ (1 <= 1 <= Z.of_nat 2)%Z.
Proof. cbn. unfold ones. split; [lra|lia]. Qed.

(** The axes are titled with each other's factor, and the shown contributions do not
    have average 1. *)
Theorem C114_g_space_titles_refuted :
  ~ (forall (m k : nat) (bW : mat) (s : cmodel) (f1 f2 : Z) (g : gspace),
       plot_g_space m k bW s (Some f1) (Some f2) false false = inr (Some g) -> g_xtitle g = f1 /\ g_ytitle g = f2).
Proof.
  intros H. specialize (H 1%nat 2%nat ones (mkCM [] [] None None (Some (mkSol ones ones))) 1%Z 2%Z). cbn in H.
  destruct (H _ eq_refl) as [X _]. discriminate.
Qed.
Print Assumptions C114_g_space_titles_refuted.
Theorem C114_g_space_average_refuted :
  ~ (forall (m k : nat) (bW : mat) (s : cmodel) (f1 f2 : Z) (g : gspace) name pts (x : nat -> R),
       plot_g_space m k bW s (Some f1) (Some f2) false false = inr (Some g) -> In (name, pts) (g_points g) ->
       (forall t, (t < m)%nat -> exists y, nth_error pts t = Some (Fin (x t), y)) -> rsum m x / INR m = 1).
Proof.
  intros H.
  destruct (C114_g_space 2 1 ones (mkCM [] [] None None (Some (mkSol ones ones))) (mkSol ones ones) 1 1 false false eq_refl) as [_ G].
  destruct G as (g & name & pts & bpts & E & Ep & _ & _ & _ & _ & _ & P); try (cbn; lia); try (cbn; unfold ones; lra).
  specialize (H 2%nat 1%nat ones _ 1%Z 1%Z g name pts (fun _ => 1 / 2) E). rewrite Ep in H. specialize (H (or_introl eq_refl)).
  assert (X : rsum 2 (fun _ => 1 / 2) / INR 2 = 1); [|cbn in X; lra].
  apply H. intros t L. destruct (P t L) as [Q _]. eexists. rewrite Q. f_equal. f_equal. f_equal. cbn. unfold ones. lra.
Qed.
Print Assumptions C114_g_space_average_refuted.

(** ** Contributions to a feature *)
(** Features are numbered from 1, none given is the first; the pie has the factors whose
    share of the feature is above the threshold (any threshold), the last first; the
    series are each factor's contributions in per cent of their total. *)
Theorem C114_factor_contributions :
  forall (m n k : nat) (s : cmodel) (o : sol) (c : R), m_sol s = Some o ->
    (forall x, (x < 1 \/ Z.of_nat n < x)%Z -> plot_factor_contributions m n k s (Some x) c = inr None) /\
    ((0 < n)%nat -> plot_factor_contributions m n k s None c = plot_factor_contributions m n k s (Some 1%Z) c) /\
    (forall x, (1 <= x <= Z.of_nat n)%Z -> let j := Z.to_nat (x - 1) in rsum k (fun a => o_H o a j) <> 0 ->
       exists pie series, plot_factor_contributions m n k s (Some x) c = inr (Some (j, pie, series)) /\
         (forall a v, In (Z.of_nat a + 1, v)%Z pie <-> (a < k)%nat /\ v = Fin (100 * (o_H o a j / rsum k (fun b => o_H o b j))) /\ c < 100 * (o_H o a j / rsum k (fun b => o_H o b j))) /\
         (forall a, (a < k)%nat -> rsum m (fun t => o_W o t a) <> 0 ->
            exists l, nth_error series a = Some ((Z.of_nat a + 1)%Z, l) /\
              forall t, (t < m)%nat -> nth_error l t = Some (Fin (100 * (o_W o t a / rsum m (fun t => o_W o t a))))) /\
         List.length series = k).
Proof.
  intros m n k s o c So. unfold plot_factor_contributions. rewrite So. cbv zeta. split; [|split].
  - intros x B. replace ((x <? 1) || (Z.of_nat n <? x))%Z with true by (symmetry; apply orb_true_iff; rewrite !Z.ltb_lt; lia). reflexivity.
  - intros Hn. replace ((1 <? 1) || (Z.of_nat n <? 1))%Z with false by (symmetry; apply orb_false_iff; rewrite !Z.ltb_ge; lia). reflexivity.
  - intros x B. intros N. replace ((x <? 1) || (Z.of_nat n <? x))%Z with false by (symmetry; apply orb_false_iff; rewrite !Z.ltb_ge; lia).
    set (j := Z.to_nat (x - 1)) in *. do 2 eexists. split; [reflexivity|]. split; [|split].
    + intros a v. rewrite in_map_iff. unfold pie. split.
      * intros ([b w] & E & I). apply filter_In in I as [I Fw]. apply in_map_iff in I as (b' & E' & I). injection E' as -> <-. cbn [fst snd] in *.
        injection E as E <-. assert (b = a) by lia. subst b. rewrite norm_value in * by exact N. apply in_rev, in_seq in I. repeat split; [lia|].
        cbn in Fw. unfold Rltb in Fw. destruct (Rlt_dec c _); [assumption|discriminate].
      * intros (L & -> & G). exists (a, Fin (100 * (o_H o a j / rsum k (fun b => o_H o b j)))). split; [reflexivity|]. apply filter_In. split.
        -- apply in_map_iff. exists a. rewrite norm_value by exact N. split; [reflexivity|]. rewrite <- in_rev. apply in_seq. lia.
        -- cbn. unfold Rltb. destruct (Rlt_dec c _); [reflexivity|contradiction].
    + intros a La Na. eexists. split.
      * rewrite nth_error_map. assert (E : nth_error (seq 0 k) a = Some a) by (rewrite (nth_error_nth' _ 0%nat) by (rewrite seq_length; exact La); rewrite seq_nth by exact La; reflexivity).
        rewrite E. reflexivity.
      * intros t Lt. rewrite row_nth by exact Lt. unfold percent_contribution, fdiv. destruct (Req_EM_T _ 0); [contradiction|]. reflexivity.
    + rewrite map_length, seq_length. reflexivity.
Qed.
Print Assumptions C114_factor_contributions.
(* one mapped constraint, two samples, three factors *)
Definition xcp_s : cmodel := mkCM [] [] (Some []) (Some []) (Some (mkSol ones ones)).
Example C114_profile_contributions_example :=
  C114_profile_contributions 2 2 3 ones ones xcp_s (mkSol ones ones) [] 2 eq_refl eq_refl ltac:(intros e []).
Example C114_profile_index_error_example :=
  C114_profile_index_error 2 2 3 ones ones xcp_s (mkSol ones ones) [] 2 eq_refl eq_refl ltac:(lia).
Example C114_unchecked_number_example := C114_unchecked_number 2 2 3 ones ones xcp_s (-1) ltac:(lia).
Example C114_untrained_example := C114_untrained 2 2 3 ones ones (mkCM [] [] (Some []) (Some []) None) 2 1 3 true false 1 (1 / 10) eq_refl.
Example C114_fingerprints_example : exists stacks, plot_fingerprints 2 3 ones xcp_s = inr stacks /\ map (fun x => fst (fst x)) stacks = [3; 2; 1]%Z.
Proof.
  destruct (proj2 (C114_fingerprints 2 3 ones xcp_s (mkSol ones ones) eq_refl) ltac:(lia)) as (st & E & N & _). exists st. split; [exact E | exact N].
Qed.
Example C114_g_space_example :=
  proj2 (C114_g_space 2 3 ones xcp_s (mkSol ones ones) 1 3 true true eq_refl) ltac:(lia) ltac:(lia) ltac:(cbn; unfold ones; lra) ltac:(cbn; unfold ones; lra) ltac:(cbn; unfold ones; lra) ltac:(cbn; unfold ones; lra).
Example C114_g_space_needs_numbers_example :=
  C114_g_space_needs_numbers 2 3 ones xcp_s None (Some 3%Z) true false (or_introl eq_refl) ltac:(intros x [E | E]; [discriminate | injection E as <-; lia]).
Example C114_factor_contributions_example :=
  proj2 (proj2 (C114_factor_contributions 2 2 3 xcp_s (mkSol ones ones) (1 / 10) eq_refl)) 2%Z ltac:(lia) ltac:(cbn; unfold ones; lra).
