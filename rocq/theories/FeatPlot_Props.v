(** C131: plots of features. *)
From Coq Require Import List Bool Arith ZArith Lia Reals Lra Permutation Sorting.Sorted.
From Verif Require Import Base Fl FeatPlot_Model.
From Verif Require Boot_Model Boot_Proofs Recomb_Model Recomb_Proofs Show_Model Show_Props Analysis_Model Analysis_Props.
Import ListNotations.
Local Open Scope R_scope.

(** ** Points *)
(** The samples with a finite value of both features, in order. *)
Definition complete (m : nat) (A : cells) (x y : nat) (pts : list (nat * (R * R))) : Prop :=
  StronglySorted (fun p q => (fst p < fst q)%nat) pts /\
  forall t a b, In (t, (a, b)) pts <-> (t < m)%nat /\ A t x = Fin a /\ A t y = Fin b.

Lemma finite_pairs_complete m A x y : complete m A x y (finite_pairs m A x y).
Proof.
  unfold complete, finite_pairs. split.
  - assert (G : forall k s, StronglySorted (fun p q : nat * (R * R) => (fst p < fst q)%nat) (flat_map (fun t => match A t x, A t y with Fin a, Fin b => [(t, (a, b))] | _, _ => [] end) (seq s k)) /\
        forall p, In p (flat_map (fun t => match A t x, A t y with Fin a, Fin b => [(t, (a, b))] | _, _ => [] end) (seq s k)) -> (s <= fst p)%nat).
    { induction k as [|k IH]; intros s; cbn [seq flat_map]; [split; [constructor|intros p []]|]. destruct (IH (S s)) as [G1 G2]. split.
      - destruct (A s x); try exact G1. destruct (A s y); try exact G1. cbn [app]. constructor; [exact G1|]. apply Forall_forall. intros p Hp. specialize (G2 p Hp). cbn. lia.
      - intros p Hp. apply in_app_iff in Hp. destruct Hp as [Hp|Hp]; [|specialize (G2 p Hp); lia]. destruct (A s x), (A s y); cbn in Hp; try contradiction. destruct Hp as [<-|[]]. cbn. lia. }
    apply (G m 0%nat).
  - intros t a b. rewrite in_flat_map. split.
    + intros (s & Hs & Hp). apply in_seq in Hs. destruct (A s x) eqn:E1; try contradiction. destruct (A s y) eqn:E2; try contradiction. destruct Hp as [[= <- <- <-]|[]]. repeat split; [lia|assumption|assumption].
    + intros (Ht & E1 & E2). exists t. split; [apply in_seq; lia|]. rewrite E1, E2. left. reflexivity.
Qed.
Lemma ssorted_lt_unique (l l' : list (nat * (R * R))) : StronglySorted (fun p q => (fst p < fst q)%nat) l -> StronglySorted (fun p q => (fst p < fst q)%nat) l' ->
  (forall p, In p l <-> In p l') -> l = l'.
Proof.
  revert l'. induction l as [|p t IH]; intros l' A B H.
  - destruct l' as [|q t']; [reflexivity|]. exfalso. apply (proj2 (H q)). left. reflexivity.
  - destruct l' as [|q t']; [exfalso; apply (proj1 (H p)); left; reflexivity|]. inversion A as [|? ? A1 A2]; subst. inversion B as [|? ? B1 B2]; subst. rewrite Forall_forall in A2, B2.
    assert (E : p = q).
    { assert (I1 : In q (p :: t)) by (apply H; left; reflexivity). assert (I2 : In p (q :: t')) by (apply H; left; reflexivity).
      destruct I1 as [->|I1]; [reflexivity|]. destruct I2 as [->|I2]; [reflexivity|]. specialize (A2 q I1). specialize (B2 p I2). lia. }
    subst q. f_equal. apply IH; [exact A1|exact B1|]. intros r. split; intros Hr.
    + destruct (proj1 (H r) (or_intror Hr)) as [<-|]; [|assumption]. specialize (A2 p Hr). lia.
    + destruct (proj2 (H r) (or_intror Hr)) as [<-|]; [|assumption]. specialize (B2 p Hr). lia.
Qed.
Lemma complete_unique m A x y pts : complete m A x y pts -> pts = finite_pairs m A x y.
Proof.
  intros [H1 H2]. destruct (finite_pairs_complete m A x y) as [G1 G2]. apply ssorted_lt_unique; [exact H1|exact G1|]. intros (t & a & b). rewrite H2, G2. reflexivity.
Qed.

Lemma greatest_spec l : (l = [] /\ greatest l = NaN) \/ exists v, greatest l = Fin v /\ In v l /\ forall x, In x l -> x <= v.
Proof.
  induction l as [|a t IH]; [left; split; reflexivity|]. right. cbn [greatest fold_right]. fold (greatest t). destruct IH as [[-> E]|(v & E & I & M)]; rewrite E.
  - exists a. split; [reflexivity|]. split; [left; reflexivity|]. intros x [<-|[]]. lra.
  - exists (Rmax a v). split; [reflexivity|]. split.
    + unfold Rmax. destruct (Rle_dec a v); [right; exact I|left; reflexivity].
    + intros x [<-|Hx]; [apply Rmax_l|]. eapply Rle_trans; [apply M, Hx|apply Rmax_r].
Qed.

Lemma rsum_list {B} (F : B -> R) (d : B) (l : list B) : rsum (length l) (fun i => F (nth i l d)) = lsum (map F l).
Proof.
  induction l as [|a t IH] using rev_ind; [reflexivity|]. rewrite app_length, Nat.add_1_r, map_app, lsum_app. cbn [rsum map lsum fold_right].
  rewrite app_nth2, Nat.sub_diag by lia. cbn [nth]. rewrite (rsum_ext _ _ (fun i => F (nth i t d))) by (intros i Hi; rewrite app_nth1 by exact Hi; reflexivity). rewrite IH. cbn. lra.
Qed.

(** ** One feature against another *)
Lemma nth_fst (pts : list (nat * (R * R))) i : nth i (map (fun p => fst (snd p)) pts) 0 = fst (snd (nth i pts (0%nat, (0, 0)))).
Proof. exact (map_nth (fun p : nat * (R * R) => fst (snd p)) pts (0%nat, (0, 0)) i). Qed.
Lemma nth_snd (pts : list (nat * (R * R))) i : nth i (map (fun p => snd (snd p)) pts) 0 = snd (snd (nth i pts (0%nat, (0, 0)))).
Proof. exact (map_nth (fun p : nat * (R * R) => snd (snd p)) pts (0%nat, (0, 0)) i). Qed.

(** Feature numbers must be valid; then every sample with both values finite is a
    point, in order, the regression line is the best line for these points and the
    other line is y = x at every point. *)
Theorem C131_scatter : forall A m n x y, (0 <= x < Z.of_nat n)%Z -> (0 <= y < Z.of_nat n)%Z ->
  exists f, plot_feature_data (Some A) m n x y = Figure f /\
    complete m A (Z.to_nat x) (Z.to_nat y) (sc_points f) /\
    sc_one f = map (fun p => fst (snd p)) (sc_points f) /\
    (exists b c, sc_fit f = map (fun p => b * fst (snd p) + c) (sc_points f) /\
       forall b' c', lsum (map (fun p => (snd (snd p) - (b * fst (snd p) + c)) * (snd (snd p) - (b * fst (snd p) + c))) (sc_points f))
                     <= lsum (map (fun p => (snd (snd p) - (b' * fst (snd p) + c')) * (snd (snd p) - (b' * fst (snd p) + c'))) (sc_points f))) /\
    forall t a b, In (t, (a, b)) (sc_points f) ->
      (fle (Fin (sc_x0 f)) (Fin a) = true /\ fle (Fin a) (sc_x1 f) = true <-> 0 <= a) /\
      (fle (Fin (sc_y0 f)) (Fin b) = true /\ fle (Fin b) (sc_y1 f) = true <-> 0 <= b) /\
      fle (Fin (a + 1 / 2)) (sc_x1 f) = true /\ fle (Fin (b + 1 / 2)) (sc_y1 f) = true.
Proof.
  intros A m n x y Hx Hy. unfold plot_feature_data.
  assert (((Z.of_nat n - 1 <? x) || (x <? 0))%Z = false) as -> by (apply orb_false_iff; rewrite !Z.ltb_ge; lia).
  assert (((Z.of_nat n - 1 <? y) || (y <? 0))%Z = false) as -> by (apply orb_false_iff; rewrite !Z.ltb_ge; lia).
  set (pts := finite_pairs m A (Z.to_nat x) (Z.to_nat y)). set (xs := map (fun p => fst (snd p)) pts). set (ys := map (fun p => snd (snd p)) pts).
  destruct (Show_Model.lstsq (length pts) (fun i => nth i xs 0) (fun i => nth i ys 0)) as [b c] eqn:E.
  destruct (Show_Model.lstsq (length pts) (fun i => nth i xs 0) (fun i => nth i xs 0)) as [b1 c1] eqn:E1.
  assert (HL : pts = [] \/ (0 < length pts)%nat) by (destruct pts; [left; reflexivity|right; cbn; lia]).
  eexists. split; [reflexivity|]. cbn [sc_points sc_fit sc_one sc_x0 sc_x1 sc_y0 sc_y1].
  split; [apply finite_pairs_complete|]. split; [|split].
  - destruct HL as [HL|Hl]; [unfold xs; rewrite HL; reflexivity|].
    pose proof (Show_Props.lstsq_best (length pts) (fun i => nth i xs 0) (fun i => nth i xs 0) 1 0 Hl) as B. rewrite E1 in B.
    rewrite (rsum_ext _ (fun t => (nth t xs 0 - (1 * nth t xs 0 + 0)) * (nth t xs 0 - (1 * nth t xs 0 + 0))) (fun _ => 0)) in B by (intros; ring). rewrite rsum_0 in B.
    transitivity (map (fun v : R => v) xs); [|apply map_id]. apply map_ext_in. intros v Hv. apply (In_nth _ _ 0) in Hv. destruct Hv as (i & Hi & <-). unfold xs in Hi. rewrite map_length in Hi.
    assert (Z : (nth i xs 0 - (b1 * nth i xs 0 + c1)) * (nth i xs 0 - (b1 * nth i xs 0 + c1)) = 0).
    { apply Rle_antisym; [|apply Rle_0_sqr]. eapply Rle_trans; [|exact B].
      apply (rsum_ge_term (length pts) (fun t => (nth t xs 0 - (b1 * nth t xs 0 + c1)) * (nth t xs 0 - (b1 * nth t xs 0 + c1))) i); [intros; apply Rle_0_sqr|exact Hi]. }
    apply Rmult_integral in Z. lra.
  - exists b, c. split; [unfold xs; rewrite map_map; reflexivity|]. intros b' c'. destruct HL as [HL|Hl]; [rewrite HL; cbn; lra|].
    pose proof (Show_Props.lstsq_best (length pts) (fun i => nth i xs 0) (fun i => nth i ys 0) b' c' Hl) as B. rewrite E in B.
    rewrite <- !(rsum_list _ (0%nat, (0, 0))).
    rewrite (rsum_ext _ (fun t => (nth t ys 0 - (b * nth t xs 0 + c)) * (nth t ys 0 - (b * nth t xs 0 + c)))
       (fun i => (snd (snd (nth i pts (0%nat, (0, 0)))) - (b * fst (snd (nth i pts (0%nat, (0, 0)))) + c)) * (snd (snd (nth i pts (0%nat, (0, 0)))) - (b * fst (snd (nth i pts (0%nat, (0, 0)))) + c)))) in B
      by (intros; unfold xs, ys; rewrite nth_fst, nth_snd; reflexivity).
    rewrite (rsum_ext _ (fun t => (nth t ys 0 - (b' * nth t xs 0 + c')) * (nth t ys 0 - (b' * nth t xs 0 + c')))
       (fun i => (snd (snd (nth i pts (0%nat, (0, 0)))) - (b' * fst (snd (nth i pts (0%nat, (0, 0)))) + c')) * (snd (snd (nth i pts (0%nat, (0, 0)))) - (b' * fst (snd (nth i pts (0%nat, (0, 0)))) + c')))) in B
      by (intros; unfold xs, ys; rewrite nth_fst, nth_snd; reflexivity). exact B.
  - intros t a b0 Hp.
    assert (G : forall l v, In v l -> (fle (Fin 0) (Fin v) = true /\ fle (Fin v) (fplus_half (greatest l)) = true <-> 0 <= v)).
    { intros l v Hv. destruct (greatest_spec l) as [[-> _]|(w & -> & _ & M)]; [destruct Hv|]. specialize (M v Hv). cbn. split.
      - intros [H _]. apply Rleb_iff in H. exact H.
      - intros H. split; apply Rleb_iff; lra. }
    assert (G1 : forall l v, In v l -> fle (Fin (v + 1 / 2)) (fplus_half (greatest l)) = true).
    { intros l v Hv. destruct (greatest_spec l) as [[-> _]|(w & -> & _ & M)]; [destruct Hv|]. specialize (M v Hv). cbn. apply Rleb_iff. lra. }
    split; [|split; [|split]]; [apply G|apply G|apply G1|apply G1];
      first [exact (in_map (fun p => fst (snd p)) _ _ Hp)|exact (in_map (fun p => snd (snd p)) _ _ Hp)].
Qed.
(** No figure for an invalid number, an error without plot data. *)
Theorem C131_scatter_nothing : forall A m n x y, ~ ((0 <= x < Z.of_nat n)%Z /\ (0 <= y < Z.of_nat n)%Z) ->
  plot_feature_data (Some A) m n x y = NoFigure /\ plot_feature_data None m n x y = Fails.
Proof.
  intros A m n x y H. split; [|reflexivity]. unfold plot_feature_data. destruct (_ || _) eqn:E; [reflexivity|]. destruct (_ || _) eqn:E2 in |- *; [reflexivity|].
  exfalso. apply H. apply orb_false_iff in E, E2. rewrite !Z.ltb_ge in *. lia.
Qed.
Print Assumptions C131_scatter.
Print Assumptions C131_scatter_nothing.

(** ** Correlations *)
(** Sum of products of deviations from the means. *)
Definition codeviation {B : Type} (f g : B -> R) (l : list B) : R :=
  let c h := lsum (map h l) / INR (length l) in lsum (map (fun p => (f p - c f) * (g p - c g)) l).
Definition constant {B : Type} (f : B -> R) (l : list B) : Prop := forall p q, In p l -> In q l -> f p = f q.

Lemma cov_list {B} (f g : B -> R) d (l : list B) : Boot_Model.cov (length l) (fun i => f (nth i l d)) (fun i => g (nth i l d)) = codeviation f g l.
Proof.
  unfold Boot_Model.cov, Boot_Model.mean, codeviation. rewrite !rsum_list. exact (rsum_list (fun p => (f p - lsum (map f l) / INR (length l)) * (g p - lsum (map g l) / INR (length l))) d l).
Qed.
Lemma codeviation_zero {B} (f : B -> R) (l : list B) : codeviation f f l = 0 <-> constant f l.
Proof.
  destruct l as [|d t]; [split; [intros _ p q []|reflexivity]|]. set (l := d :: t). assert (Hl : (0 < length l)%nat) by (cbn; lia).
  rewrite <- (cov_list f f d l). split.
  - intros E. pose proof (Show_Props.cov_zero_const _ _ E) as K. intros p q Hp Hq. apply (In_nth _ _ d) in Hp, Hq. destruct Hp as (i & Hi & <-). destruct Hq as (j & Hj & <-). rewrite (K i Hi), (K j Hj). reflexivity.
  - intros C. unfold Boot_Model.cov. rewrite <- (rsum_0 (length l)). apply rsum_ext. intros i Hi.
    assert (E : Boot_Model.mean (length l) (fun i => f (nth i l d)) = f (nth i l d)).
    { unfold Boot_Model.mean. rewrite (rsum_ext _ _ (fun _ => f (nth i l d))) by (intros k Hk; apply C; apply nth_In; assumption). rewrite rsum_const. field. apply not_0_INR. lia. }
    rewrite E. ring.
Qed.
Lemma finite_pairs_swap m A i j : finite_pairs m A j i = map (fun p => (fst p, (snd (snd p), fst (snd p)))) (finite_pairs m A i j).
Proof.
  unfold finite_pairs. induction (seq 0 m) as [|t l IH]; [reflexivity|]. cbn [flat_map]. rewrite map_app, IH. f_equal. destruct (A t i), (A t j); reflexivity.
Qed.
Lemma correlation_eq m A i j : let pts := finite_pairs m A i j in
  let x p := fst (snd p) in let y p := snd (snd p) in
  correlation m A i j = if Reqb (codeviation x x pts) 0 then NaN else if Reqb (codeviation y y pts) 0 then NaN
    else Fin (codeviation x y pts / sqrt (codeviation x x pts * codeviation y y pts)).
Proof.
  intros pts x y. unfold correlation. fold pts. rewrite <- !(cov_list _ _ (0%nat, (0, 0))).
  rewrite (Recomb_Proofs.corr_ext _ _ _ (fun i => x (nth i pts (0%nat, (0, 0)))) (fun i => y (nth i pts (0%nat, (0, 0))))) by (intros; unfold x, y; (rewrite nth_fst || rewrite nth_snd); reflexivity).
  reflexivity.
Qed.
Lemma codeviation_map {B C} (h : B -> C) f g l : codeviation f g (map h l) = codeviation (fun p => f (h p)) (fun p => g (h p)) l.
Proof. unfold codeviation. rewrite !map_map, map_length. reflexivity. Qed.
Lemma codeviation_sym {B} (f g : B -> R) l : codeviation f g l = codeviation g f l.
Proof. unfold codeviation. f_equal. apply map_ext. intros. ring. Qed.
Lemma correlation_sym m A i j : correlation m A i j = correlation m A j i.
Proof.
  rewrite !correlation_eq, (finite_pairs_swap m A i j), !codeviation_map. cbn [fst snd]. set (pts := finite_pairs m A i j).
  rewrite (codeviation_sym (fun p : nat * (R * R) => snd (snd p)) (fun p => fst (snd p))). destruct (Reqb (codeviation (fun p : nat * (R * R) => fst (snd p)) _ pts) 0), (Reqb (codeviation (fun p : nat * (R * R) => snd (snd p)) (fun p => snd (snd p)) pts) 0); try reflexivity.
  do 3 f_equal. ring.
Qed.
Lemma codeviation_cauchy {B} (f g : B -> R) (l : list B) : codeviation f g l * codeviation f g l <= codeviation f f l * codeviation g g l.
Proof.
  destruct l as [|d t]; [cbn; lra|]. rewrite <- !(cov_list _ _ d). apply Boot_Proofs.cauchy.
Qed.
Lemma codeviation_nonneg {B} (f : B -> R) l : 0 <= codeviation f f l.
Proof. destruct l as [|d t]; [cbn; lra|]. rewrite <- (cov_list _ _ d). apply Boot_Proofs.cov_nonneg. Qed.
(** Full correlation: one feature is a linear function of the other. *)
Lemma codeviation_linear {B} (f g : B -> R) (l : list B) : codeviation f f l <> 0 -> codeviation g g l <> 0 ->
  (codeviation f g l * codeviation f g l = codeviation f f l * codeviation g g l <-> exists a b, forall p, In p l -> g p = a * f p + b).
Proof.
  intros Hf Hg. destruct l as [|d t]; [exfalso; apply Hf; reflexivity|]. set (l := d :: t) in *. assert (Hl : (0 < length l)%nat) by (cbn; lia).
  rewrite <- !(cov_list _ _ d) in *. set (n := length l) in *. set (x := fun i => f (nth i l d)) in *. set (y := fun i => g (nth i l d)) in *.
  destruct (Analysis_Model.linregress n x y) as [r|] eqn:E; [|unfold Analysis_Model.linregress in E; destruct (Reqb (Boot_Model.cov n x x) 0) eqn:E0; [apply Reqb_iff in E0; contradiction|discriminate]].
  destruct (Analysis_Props.C77_regression n x y r Hl E) as (_ & _ & _ & _ & _ & L). specialize (L Hg). destruct (Analysis_Props.r_sq n x y r E) as (Q & _ & P).
  split.
  - intros H. assert (O : Analysis_Model.rg_r r * Analysis_Model.rg_r r = 1). { rewrite <- Q in H. pose proof (Boot_Proofs.cov_nonneg n y). apply (Rmult_eq_reg_r (Boot_Model.cov n x x * Boot_Model.cov n y y)); [|apply Rmult_integral_contrapositive; split; assumption]. lra. }
    apply L in O. destruct O as (a & b & O). exists a, b. intros p Hp. apply (In_nth _ _ d) in Hp. destruct Hp as (i & Hi & <-). apply (O i Hi).
  - intros (a & b & H). assert (O : Analysis_Model.rg_r r * Analysis_Model.rg_r r = 1). { apply L. exists a, b. intros i Hi. apply H, nth_In, Hi. } rewrite <- Q, O. ring.
Qed.

(** Each cell is the correlation of the two features over the samples with both
    values finite, and empty exactly when one of them is constant there. *)
Theorem C131_heatmap : forall A m n, exists z, plot_heatmap (Some A) m n = Figure z /\ length z = n /\
  forall i, (i < n)%nat -> exists row, nth_error z i = Some row /\ length row = n /\
  forall j, (j < n)%nat -> exists v, nth_error row j = Some v /\
    (forall row' , nth_error z j = Some row' -> nth_error row' i = Some v) /\
    forall pts, complete m A i j pts -> let x p := fst (snd p) in let y p := snd (snd p) in
      (constant x pts \/ constant y pts -> v = NaN) /\
      (~ constant x pts -> ~ constant y pts -> exists r, v = Fin r /\ -1 <= r <= 1 /\
         r * sqrt (codeviation x x pts * codeviation y y pts) = codeviation x y pts /\
         (r * r = 1 <-> exists a b, forall p, In p pts -> y p = a * x p + b) /\
         (i = j -> r = 1)).
Proof.
  intros A m n. eexists. split; [reflexivity|]. split; [rewrite map_length, seq_length; reflexivity|].
  assert (AT : forall {B} (f : nat -> B) i, (i < n)%nat -> nth_error (map f (seq 0 n)) i = Some (f i)).
  { intros B f i Hi. rewrite nth_error_map, (nth_error_nth' _ 0%nat) by (rewrite seq_length; exact Hi). rewrite seq_nth by exact Hi. reflexivity. }
  intros i Hi. rewrite AT by exact Hi. eexists. split; [reflexivity|]. split; [rewrite map_length, seq_length; reflexivity|].
  intros j Hj. rewrite !AT by assumption. eexists. split; [reflexivity|]. split.
  - intros row' [= <-]. rewrite AT by exact Hi. rewrite correlation_sym. reflexivity.
  - intros pts Hp x y. apply complete_unique in Hp. rewrite correlation_eq, <- Hp. fold x y. fold x. split.
    + intros [C|C]; apply codeviation_zero in C; apply Reqb_iff in C.
      * change (fun p : nat * (R * R) => fst (snd p)) with x. rewrite C. reflexivity.
      * change (fun p : nat * (R * R) => snd (snd p)) with y. rewrite C. destruct (Reqb (codeviation x x pts) 0); reflexivity.
    + intros Cx Cy. change (fun p : nat * (R * R) => fst (snd p)) with x. change (fun p : nat * (R * R) => snd (snd p)) with y.
      rewrite <- codeviation_zero in Cx, Cy. destruct (Reqb (codeviation x x pts) 0) eqn:E1; [apply Reqb_iff in E1; contradiction|]. destruct (Reqb (codeviation y y pts) 0) eqn:E2; [apply Reqb_iff in E2; contradiction|].
      eexists. split; [reflexivity|]. pose proof (codeviation_nonneg x pts) as N1. pose proof (codeviation_nonneg y pts) as N2. pose proof (codeviation_cauchy x y pts) as CS. pose proof (codeviation_linear x y pts Cx Cy) as CL.
      set (X := codeviation x x pts) in *. set (Y := codeviation y y pts) in *. set (C := codeviation x y pts) in *.
      assert (P : 0 < X * Y) by (apply Rmult_lt_0_compat; lra). pose proof (sqrt_lt_R0 _ P) as Q. assert (SS : sqrt (X * Y) * sqrt (X * Y) = X * Y) by (apply sqrt_sqrt; lra).
      set (s := sqrt (X * Y)) in *. assert (RS : C / s * s = C) by (field; lra). set (r := C / s) in *.
      assert (RR : r * r * (X * Y) = C * C) by (rewrite <- SS, <- RS; ring).
      assert (LE : r * r <= 1). { apply (Rmult_le_reg_r (X * Y)); [exact P|]. lra. }
      split; [split; nra|]. split; [exact RS|]. split.
      * rewrite <- CL. split; intros H; [rewrite <- RR, H; ring|]. apply (Rmult_eq_reg_r (X * Y)); [|lra]. lra.
      * intros ->. assert (E : forall p, In p pts -> x p = y p). { intros (t & a & b) Ht. rewrite Hp in Ht. apply finite_pairs_complete in Ht. destruct Ht as (_ & H1 & H2). unfold x, y. cbn. congruence. }
        assert (EX : map x pts = map y pts) by (apply map_ext_in, E).
        assert (E3 : X = C). { unfold X, C, codeviation. rewrite <- EX. f_equal. apply map_ext_in. intros p Hpi. rewrite (E p Hpi). reflexivity. }
        assert (E4 : Y = C). { unfold Y, C, codeviation. rewrite <- EX. f_equal. apply map_ext_in. intros p Hpi. rewrite (E p Hpi). reflexivity. }
        assert (s = C). { unfold s. rewrite E3, E4. apply sqrt_square. lra. } unfold r. rewrite H. field. lra.
Qed.
Theorem C131_nothing_kept : forall m n log_x h a b k, plot_heatmap None m n = Fails /\ plot_ridgeline None m n log_x h a b k = Fails.
Proof. intros. split; reflexivity. Qed.
Print Assumptions C131_heatmap.
Print Assumptions C131_nothing_kept.

(** ** Ridgelines *)
(** The finite values of a feature that are plotted, with their samples in order. *)
Definition values (log_x : bool) (m : nat) (A : cells) (j : nat) (l : list (nat * R)) : Prop :=
  StronglySorted (fun p q => (fst p < fst q)%nat) l /\
  forall t a, In (t, a) l <-> (t < m)%nat /\ A t j = Fin a /\ (log_x = true -> 0 < a).
(** At most one sample has a value; only the linear plot then leaves the feature out. *)
Definition left_out (log_x : bool) (m : nat) (A : cells) (j : nat) : Prop :=
  log_x = false /\ forall t s, (t < m)%nat -> (s < m)%nat -> A t j <> NaN -> A s j <> NaN -> t = s.
(** No infinite values to plot and two different values. *)
Definition drawable (log_x : bool) (m : nat) (A : cells) (j : nat) : Prop :=
  (forall t, (t < m)%nat -> A t j <> PInf /\ (log_x = false -> A t j <> NInf)) /\
  exists t s a b, (t < m)%nat /\ (s < m)%nat /\ A t j = Fin a /\ A s j = Fin b /\ (log_x = true -> 0 < a /\ 0 < b) /\ a <> b.
(** The normal density with mean [v] and variance [w]. *)
Definition normal (v w x : R) : R := exp (- ((x - v) * (x - v)) / (2 * w)) / sqrt (2 * PI * w).

Definition val_pairs (log_x : bool) (m : nat) (A : cells) (j : nat) : list (nat * R) :=
  flat_map (fun t => match A t j with Fin a => if negb log_x || Rltb 0 a then [(t, a)] else [] | _ => [] end) (seq 0 m).
Lemma considered_iff log_x a : negb log_x || Rltb 0 a = true <-> (log_x = true -> 0 < a).
Proof.
  destruct log_x; cbn [negb orb]; [rewrite Rltb_iff; split; intros H; [intros _; exact H|apply H; reflexivity]|split; [discriminate|reflexivity]].
Qed.
Lemma val_pairs_values log_x m A j : values log_x m A j (val_pairs log_x m A j).
Proof.
  unfold values, val_pairs. split.
  - set (g := fun t => match A t j with Fin a => if negb log_x || Rltb 0 a then [(t, a)] else [] | _ => [] end).
    assert (G : forall k s, StronglySorted (fun p q : nat * R => (fst p < fst q)%nat) (flat_map g (seq s k)) /\ forall p, In p (flat_map g (seq s k)) -> (s <= fst p)%nat).
    { induction k as [|k IH]; intros s; cbn [seq flat_map]; [split; [constructor|intros p []]|]. destruct (IH (S s)) as [G1 G2]. split.
      - unfold g at 1. destruct (A s j); try exact G1. destruct (negb log_x || Rltb 0 x); [|exact G1]. cbn [app]. constructor; [exact G1|]. apply Forall_forall. intros p Hp. specialize (G2 p Hp). cbn. lia.
      - intros p Hp. apply in_app_iff in Hp. destruct Hp as [Hp|Hp]; [|specialize (G2 p Hp); lia]. unfold g in Hp. destruct (A s j); try contradiction. destruct (negb log_x || Rltb 0 x); [|destruct Hp]. destruct Hp as [<-|[]]. cbn. lia. }
    apply (G m 0%nat).
  - intros t a. rewrite in_flat_map. split.
    + intros (s & Hs & Hp). apply in_seq in Hs. destruct (A s j) eqn:E; try contradiction. destruct (negb log_x || Rltb 0 x) eqn:C; [|destruct Hp]. destruct Hp as [[= <- <-]|[]]. repeat split; [lia|exact E|]. apply considered_iff, C.
    + intros (Ht & E & C). exists t. split; [apply in_seq; lia|]. rewrite E. apply considered_iff in C. rewrite C. left. reflexivity.
Qed.
Lemma values_unique log_x m A j l : values log_x m A j l -> l = val_pairs log_x m A j.
Proof.
  intros [H1 H2]. destruct (val_pairs_values log_x m A j) as [G1 G2].
  assert (H : forall p, In p l <-> In p (val_pairs log_x m A j)) by (intros (t & a); rewrite H2, G2; reflexivity).
  clear H2 G2. revert H1 G1 H. generalize (val_pairs log_x m A j). intros l' A1 B1 H. revert l' A1 B1 H. induction l as [|p t IH]; intros l' A1 B1 H.
  - destruct l' as [|q t']; [reflexivity|]. exfalso. apply (proj2 (H q)). left. reflexivity.
  - destruct l' as [|q t']; [exfalso; apply (proj1 (H p)); left; reflexivity|]. inversion A1 as [|? ? A2 A3]; subst. inversion B1 as [|? ? B2 B3]; subst. rewrite Forall_forall in A3, B3.
    assert (E : p = q).
    { assert (I1 : In q (p :: t)) by (apply H; left; reflexivity). assert (I2 : In p (q :: t')) by (apply H; left; reflexivity).
      destruct I1 as [->|I1]; [reflexivity|]. destruct I2 as [->|I2]; [reflexivity|]. specialize (A3 q I1). specialize (B3 p I2). lia. }
    subst q. f_equal. apply IH; [exact A2|exact B2|]. intros r. split; intros Hr.
    + destruct (proj1 (H r) (or_intror Hr)) as [<-|]; [|assumption]. specialize (A3 p Hr). lia.
    + destruct (proj2 (H r) (or_intror Hr)) as [<-|]; [|assumption]. specialize (B3 p Hr). lia.
Qed.

Definition to_plot (log_x : bool) (m : nat) (A : cells) (j : nat) : list fl :=
  let data := present (column m A j) in if log_x then positive data else data.
Lemma to_plot_finite log_x m A j :
  (all_finite (to_plot log_x m A j) = None <-> exists t, (t < m)%nat /\ (A t j = PInf \/ log_x = false /\ A t j = NInf)) /\
  (forall l, all_finite (to_plot log_x m A j) = Some l -> l = map snd (val_pairs log_x m A j)).
Proof.
  unfold to_plot, column, val_pairs. assert (Hin : forall t, (t < m)%nat <-> In t (seq 0 m)) by (intros t; rewrite in_seq; lia).
  set (F := fun r => all_finite (let data := present (map (fun t => A t j) r) in if log_x then positive data else data)).
  set (g := fun t => match A t j with Fin a => if negb log_x || Rltb 0 a then [(t, a)] else [] | _ => [] end).
  assert (G : forall r, (F r = None <-> exists t, In t r /\ (A t j = PInf \/ log_x = false /\ A t j = NInf)) /\ (forall l, F r = Some l -> l = map snd (flat_map g r))).
  { unfold F. induction r as [|t r [IH1 IH2]].
    - split; [destruct log_x; cbn; split; [discriminate|intros (t & [] & _)|discriminate|intros (t & [] & _)]|]. destruct log_x; cbn; intros l [= <-]; reflexivity.
    - cbn [map flat_map]. rewrite map_app. set (rest := all_finite (let data := present (map (fun t0 => A t0 j) r) in if log_x then positive data else data)) in *.
      assert (ST : all_finite (let data := present (A t j :: map (fun t0 => A t0 j) r) in if log_x then positive data else data)
                   = match A t j with
                     | Fin a => if negb log_x || Rltb 0 a then option_map (cons a) rest else rest
                     | PInf => None | NInf => if log_x then rest else None | NaN => rest end).
      { unfold rest, present, positive. destruct (A t j) as [a| | |] eqn:E, log_x; cbn [filter flt negb orb all_finite]; try reflexivity. destruct (Rltb 0 a); reflexivity. }
      cbv zeta in ST |- *. rewrite ST. unfold g at 1.
      assert (EX : (exists t0, In t0 (t :: r) /\ (A t0 j = PInf \/ log_x = false /\ A t0 j = NInf)) <-> (A t j = PInf \/ log_x = false /\ A t j = NInf) \/ exists t0, In t0 r /\ (A t0 j = PInf \/ log_x = false /\ A t0 j = NInf)).
      { split; [intros (t0 & [<-|H0] & H); [left; exact H|right; exists t0; auto]|]. intros [H|(t0 & H0 & H)]; [exists t; split; [left; reflexivity|exact H]|exists t0; split; [right; exact H0|exact H]]. }
      rewrite EX. clear EX ST. destruct (A t j) as [a| | |] eqn:E.
      + destruct (negb log_x || Rltb 0 a).
        * destruct rest as [l0|]; cbn [option_map].
          -- split; [split; [discriminate|]|intros l [= <-]; cbn; f_equal; apply IH2; reflexivity]. intros [[H|[_ H]]|H]; [discriminate|discriminate|]. apply IH1 in H. discriminate.
          -- split; [|discriminate]. split; [intros _; right; apply IH1; reflexivity|reflexivity].
        * split; [|exact IH2]. rewrite IH1. split; [intros H; right; exact H|]. intros [[H|[_ H]]|H]; [discriminate|discriminate|exact H].
      + split; [|discriminate]. split; [left; left; reflexivity|reflexivity].
      + destruct log_x; [|split; [|discriminate]; split; [left; right; split; reflexivity|reflexivity]]. split; [|exact IH2]. rewrite IH1. split; [intros H; right; exact H|]. intros [[H|[H _]]|H]; [discriminate|discriminate|exact H].
      + split; [|exact IH2]. rewrite IH1. split; [intros H; right; exact H|]. intros [[H|[_ H]]|H]; [discriminate|discriminate|exact H]. }
  destruct (G (seq 0 m)) as [G1 G2]. split; [|exact G2]. unfold F in G1. cbv zeta in G1 |- *. rewrite G1. split; intros (t & H); exists t; rewrite Hin in *; exact H.
Qed.
Lemma few_values m A j : (length (present (column m A j)) < 2)%nat <-> left_out false m A j.
Proof.
  unfold left_out, column. assert (Hin : forall t, (t < m)%nat <-> In t (seq 0 m)) by (intros t; rewrite in_seq; lia). pose proof (seq_NoDup m 0) as ND.
  assert (G : forall r, NoDup r -> (length (present (map (fun t => A t j) r)) = 0 <-> forall t, In t r -> A t j = NaN)%nat /\
     ((length (present (map (fun t => A t j) r)) < 2)%nat <-> forall t s, In t r -> In s r -> A t j <> NaN -> A s j <> NaN -> t = s)).
  { induction r as [|t r IH]; intros N; [cbn; split; split; [intros _ t []|reflexivity|intros _ t s []|lia]|]. inversion N as [|? ? N1 N2]; subst. destruct (IH N2) as [I1 I2]. clear IH. cbn [map present filter]. fold (present (map (fun t0 => A t0 j) r)).
    destruct (match A t j with NaN => false | _ => true end) eqn:E.
    - assert (NE : A t j <> NaN) by (intros X; rewrite X in E; discriminate). cbn [length]. split; [split; [discriminate|intros H; exfalso; apply NE, H; left; reflexivity]|]. split.
      + intros H. assert (Z : length (present (map (fun t0 => A t0 j) r)) = 0%nat) by lia. rewrite I1 in Z. intros a b [<-|Ha] [<-|Hb] H1 H2; [reflexivity|exfalso; apply H2, Z, Hb|exfalso; apply H1, Z, Ha|exfalso; apply H1, Z, Ha].
      + intros H. enough (length (present (map (fun t0 => A t0 j) r)) = 0%nat) by lia. apply I1. intros a Ha. destruct (A a j) eqn:X; [exfalso|exfalso|exfalso|reflexivity]; (assert (a = t) by (apply H; [right; exact Ha|left; reflexivity|congruence|exact NE])); subst a; contradiction.
    - assert (NE : A t j = NaN) by (destruct (A t j); try discriminate; reflexivity). split; [rewrite I1; split; [intros H a [<-|Ha]; [exact NE|apply H, Ha]|intros H a Ha; apply H; right; exact Ha]|]. rewrite I2. split.
      + intros H a b [<-|Ha] [<-|Hb] H1 H2; try contradiction. apply H; assumption.
      + intros H a b Ha Hb. apply H; right; assumption. }
  destruct (G _ ND) as [_ ->]. split; [intros H; split; [reflexivity|]; intros t s Ht Hs; apply H; apply Hin; assumption|]. intros [_ H] t s Ht Hs. apply H; apply Hin; assumption.
Qed.

Lemma constant_short {B} (f : B -> R) l : (length l < 2)%nat -> constant f l.
Proof. intros H p q Hp Hq. destruct l as [|a [|b t]]; [destruct Hp| |cbn in H; lia]. destruct Hp as [<-|[]], Hq as [<-|[]]. reflexivity. Qed.
Lemma variance_eq l : variance l = codeviation (fun v => v) (fun v => v) l / (INR (length l) - 1).
Proof. unfold variance, codeviation. rewrite map_id. reflexivity. Qed.
Lemma variance_zero l : (2 <= length l)%nat -> (variance l = 0 <-> constant (fun v : R => v) l).
Proof.
  intros H. rewrite variance_eq, <- codeviation_zero. assert (1 < INR (length l)) by (apply (lt_INR 1); lia). split; intros E.
  - apply (Rmult_eq_reg_r (/ (INR (length l) - 1))); [|apply Rinv_neq_0_compat; lra]. unfold Rdiv in E. lra.
  - rewrite E. unfold Rdiv. ring.
Qed.
Lemma kde_none l : gaussian_kde l = None <-> constant (fun v : R => v) l.
Proof.
  unfold gaussian_kde. destruct (Nat.ltb_spec (length l) 2) as [H|H]; [split; [intros _; apply constant_short, H|reflexivity]|].
  destruct (Reqb (variance l) 0) eqn:E; [apply Reqb_iff in E; apply (variance_zero l H) in E; split; [intros _; exact E|reflexivity]|].
  split; [discriminate|]. intros C. apply (variance_zero l H), Reqb_iff in C. congruence.
Qed.
Lemma lsum_div {B} (f : B -> R) c l : lsum (map (fun v => f v / c) l) = lsum (map f l) / c.
Proof. induction l as [|a t IH]; cbn; [unfold Rdiv; ring|]. cbn in IH. rewrite IH. unfold Rdiv. ring. Qed.
Lemma lsum_pos {B} (f : B -> R) l : (0 < length l)%nat -> (forall v, In v l -> 0 < f v) -> 0 < lsum (map f l).
Proof.
  induction l as [|a t IH]; intros H P; [cbn in H; lia|]. cbn. specialize (P a (or_introl eq_refl)) as Pa. destruct t as [|b t]; [cbn; lra|].
  assert (0 < lsum (map f (b :: t))) by (apply IH; [cbn; lia|intros v Hv; apply P; right; exact Hv]). cbn in *. lra.
Qed.
Lemma kde_some l k : gaussian_kde l = Some k -> forall x,
  k x = lsum (map (fun v => normal v (codeviation (fun u => u) (fun u => u) l / (INR (length l) - 1) * Rpower (INR (length l)) (- (2 / 5))) x) l) / INR (length l) /\ 0 < k x.
Proof.
  unfold gaussian_kde. destruct (Nat.ltb_spec (length l) 2) as [|H]; [discriminate|]. destruct (Reqb (variance l) 0) eqn:E; [discriminate|]. intros [= <-] x.
  rewrite <- variance_eq. set (w := variance l * Rpower (INR (length l)) (- (2 / 5))).
  assert (N : 1 < INR (length l)) by (apply (lt_INR 1); lia).
  assert (W : 0 < w). { apply Rmult_lt_0_compat; [|apply exp_pos]. assert (NZ : variance l <> 0) by (intros X; apply Reqb_iff in X; congruence).
    assert (0 <= variance l); [|lra]. rewrite variance_eq. apply Rmult_le_pos; [apply codeviation_nonneg|]. left. apply Rinv_0_lt_compat. lra. }
  assert (P : 0 < sqrt (2 * PI * w)) by (apply sqrt_lt_R0; apply Rmult_lt_0_compat; [|exact W]; pose proof PI_RGT_0; lra).
  split.
  - unfold normal. rewrite (lsum_div (fun v => exp (- ((x - v) * (x - v)) / (2 * w)))). field. lra.
  - apply Rmult_lt_0_compat; [apply lsum_pos; [lia|intros; apply exp_pos]|]. apply Rinv_0_lt_compat, Rmult_lt_0_compat; lra.
Qed.
Lemma least_spec l : l <> [] -> In (least l) l /\ forall x, In x l -> least l <= x.
Proof.
  intros H. unfold least. destruct l as [|d t]; [contradiction|]. cbn [hd].
  assert (G : forall r, (In (fold_right Rmin d r) r \/ fold_right Rmin d r = d) /\ (forall x, In x r -> fold_right Rmin d r <= x)).
  { induction r as [|a r [I1 I2]]; cbn; [split; [right; reflexivity|intros x []]|]. split.
    - set (f := fold_right Rmin d r) in *. assert (X : Rmin a f = a \/ Rmin a f = f) by (unfold Rmin; destruct (Rle_dec a f); auto). destruct X as [->| ->]; [left; left; reflexivity|]. destruct I1 as [I1|I1]; [left; right; exact I1|right; exact I1].
    - intros x [<-|Hx]; [apply Rmin_l|]. eapply Rle_trans; [apply Rmin_r|apply I2, Hx]. }
  destruct (G (d :: t)) as [[G1|G1] G2]; split; try exact G2; [exact G1|rewrite G1; left; reflexivity].
Qed.
Lemma most_spec l : l <> [] -> In (most l) l /\ forall x, In x l -> x <= most l.
Proof.
  intros H. unfold most. destruct l as [|d t]; [contradiction|]. cbn [hd].
  assert (G : forall r, (In (fold_right Rmax d r) r \/ fold_right Rmax d r = d) /\ (forall x, In x r -> x <= fold_right Rmax d r)).
  { induction r as [|a r [I1 I2]]; cbn; [split; [right; reflexivity|intros x []]|]. split.
    - set (f := fold_right Rmax d r) in *. assert (X : Rmax a f = a \/ Rmax a f = f) by (unfold Rmax; destruct (Rle_dec a f); auto). destruct X as [->| ->]; [left; left; reflexivity|]. destruct I1 as [I1|I1]; [left; right; exact I1|right; exact I1].
    - intros x [<-|Hx]; [apply Rmax_l|]. eapply Rle_trans; [apply I2, Hx|apply Rmax_r]. }
  destruct (G (d :: t)) as [[G1|G1] G2]; split; try exact G2; [exact G1|rewrite G1; left; reflexivity].
Qed.

(** The curve of feature [j]: on [nbins] evenly spaced points from the least to the
    greatest value, the average of normal densities around the values (Scott's
    bandwidth), raised by [j] times the spacing. *)
Definition ridge_ok (log_x : bool) (spacing : R) (nbins m : nat) (A : cells) (j : nat) (r : ridge) : Prop :=
  rd_feature r = j /\ rd_base r = INR j * spacing /\ length (rd_x r) = nbins /\ length (rd_y r) = nbins /\
  forall l, values log_x m A j l ->
    let vals := map (fun p => if log_x then ln (snd p) / ln 10 else snd p) l in
    let c := INR (length vals) in
    let w := codeviation (fun v => v) (fun v => v) vals / (c - 1) * Rpower c (- (2 / 5)) in
    exists lo hi, In lo vals /\ In hi vals /\ lo < hi /\ (forall v, In v vals -> lo <= v <= hi) /\
      forall k, (k < nbins)%nat -> let x := lo + INR k * ((hi - lo) / (INR nbins - 1)) in
        let density := lsum (map (fun v => normal v w x) vals) / c in
        nth_error (rd_x r) k = Some x /\ nth_error (rd_y r) k = Some (rd_base r + density) /\ 0 < density.

Lemma log10_inj a b : 0 < a -> 0 < b -> Recomb_Model.log10 a = Recomb_Model.log10 b -> a = b.
Proof.
  unfold Recomb_Model.log10. intros Ha Hb H. apply ln_inv; [exact Ha|exact Hb|]. assert (0 < ln 10) by (rewrite <- ln_1; apply ln_increasing; lra). apply (Rmult_eq_reg_r (/ ln 10)); [exact H|apply Rinv_neq_0_compat; lra].
Qed.
Lemma drawn_spec (log_x : bool) spacing nbins m A j : let vals := map (fun p => if log_x then ln (snd p) / ln 10 else snd p) (val_pairs log_x m A j) in
  forall k, gaussian_kde vals = Some k ->
  ridge_ok log_x spacing nbins m A j (mkRidge j (INR j * spacing) (linspace (least vals) (most vals) nbins) (map (fun x => k x + INR j * spacing) (linspace (least vals) (most vals) nbins))).
Proof.
  intros vals k Hk. unfold ridge_ok. cbn [rd_feature rd_base rd_x rd_y]. split; [reflexivity|]. split; [reflexivity|]. unfold linspace. rewrite !map_length, seq_length. split; [reflexivity|]. split; [reflexivity|].
  intros l Hl. apply values_unique in Hl. subst l. fold vals.
  assert (NC : ~ constant (fun v : R => v) vals) by (rewrite <- kde_none; congruence).
  assert (NE : vals <> []) by (intros X; apply NC; rewrite X; intros p q []).
  destruct (least_spec vals NE) as [L1 L2]. destruct (most_spec vals NE) as [M1 M2]. exists (least vals), (most vals). split; [exact L1|]. split; [exact M1|]. split; [|split].
  - destruct (Rlt_le_dec (least vals) (most vals)) as [|G]; [assumption|]. exfalso. apply NC. intros p q Hp Hq. pose proof (L2 p Hp). pose proof (M2 p Hp). pose proof (L2 q Hq). pose proof (M2 q Hq). lra.
  - intros v Hv. split; [apply L2, Hv|apply M2, Hv].
  - intros i Hi. cbv zeta. rewrite !nth_error_map, (nth_error_nth' _ 0%nat) by (rewrite seq_length; exact Hi). rewrite seq_nth by exact Hi. cbn [option_map Nat.add].
    destruct (kde_some vals k Hk (least vals + INR i * ((most vals - least vals) / (INR nbins - 1)))) as [K1 K2]. rewrite K1 in K2. split; [reflexivity|]. split; [rewrite K1; f_equal; ring|exact K2].
Qed.
Lemma drawable_kept log_x m A j : drawable log_x m A j -> ~ left_out log_x m A j.
Proof.
  intros (_ & t & s & a & b & Ht & Hs & Ea & Eb & _ & N) [_ H]. assert (t = s) by (apply H; [exact Ht|exact Hs|congruence|congruence]). subst s. congruence.
Qed.
Lemma ridge_cases (log_x : bool) spacing nbins m A j :
  (left_out log_x m A j -> ridge_of log_x spacing nbins m A j = NoFigure) /\
  (drawable log_x m A j -> exists r, ridge_of log_x spacing nbins m A j = Figure r /\ ridge_ok log_x spacing nbins m A j r) /\
  (~ left_out log_x m A j -> ~ drawable log_x m A j -> ridge_of log_x spacing nbins m A j = Fails).
Proof.
  set (vals := map (fun p => if log_x then ln (snd p) / ln 10 else snd p) (val_pairs log_x m A j)).
  set (draw := fun vals : list R => match gaussian_kde vals return outcome ridge with None => Fails | Some kde =>
        let grid := linspace (least vals) (most vals) nbins in Figure (mkRidge j (INR j * spacing) grid (map (fun x => kde x + INR j * spacing) grid)) end).
  assert (EQ : ~ left_out log_x m A j -> ridge_of log_x spacing nbins m A j = match all_finite (to_plot log_x m A j) with None => Fails | Some _ => draw vals end).
  { intros NL. unfold ridge_of, to_plot. destruct (to_plot_finite log_x m A j) as [_ TF]. unfold to_plot in TF. destruct log_x.
    - cbv zeta in TF |- *. destruct (all_finite (positive (present (column m A j)))) as [l|]; [|reflexivity]. rewrite (TF l eq_refl), map_map. reflexivity.
    - destruct (Nat.ltb_spec (length (present (column m A j))) 2) as [L|L]; [exfalso; apply NL, few_values, L|]. cbv zeta in TF |- *. destruct (all_finite (present (column m A j))) as [l|]; [|reflexivity]. rewrite (TF l eq_refl). reflexivity. }
  assert (CN : constant (fun v : R => v) vals <-> ~ exists t s a b, (t < m)%nat /\ (s < m)%nat /\ A t j = Fin a /\ A s j = Fin b /\ (log_x = true -> 0 < a /\ 0 < b) /\ a <> b).
  { destruct (val_pairs_values log_x m A j) as [_ V]. split.
    - intros C (t & s & a & b & Ht & Hs & Ea & Eb & P & N). apply N.
      assert (I1 : In (t, a) (val_pairs log_x m A j)) by (apply V; repeat split; [exact Ht|exact Ea|intros X; apply P, X]).
      assert (I2 : In (s, b) (val_pairs log_x m A j)) by (apply V; repeat split; [exact Hs|exact Eb|intros X; apply P, X]).
      apply (in_map (fun p => if log_x then ln (snd p) / ln 10 else snd p)) in I1, I2. specialize (C _ _ I1 I2). cbn in C. destruct log_x; [|exact C]. destruct (P eq_refl). apply log10_inj; assumption.
    - intros N p q Hp Hq. unfold vals in Hp, Hq. apply in_map_iff in Hp, Hq. destruct Hp as ((t & a) & <- & Hp). destruct Hq as ((s & b) & <- & Hq). apply V in Hp, Hq. destruct Hp as (Ht & Ea & Pa). destruct Hq as (Hs & Eb & Pb). cbn [snd].
      destruct (Req_dec a b) as [->|NE]; [reflexivity|]. exfalso. apply N. exists t, s, a, b. repeat split; auto. }
  split; [|split].
  - intros L. destruct L as [-> H]. unfold ridge_of. assert (Z : (length (present (column m A j)) < 2)%nat) by (apply few_values; split; [reflexivity|exact H]). apply Nat.ltb_lt in Z. rewrite Z. reflexivity.
  - intros D. rewrite EQ by (apply drawable_kept; exact D). destruct D as [D1 D2]. destruct (to_plot_finite log_x m A j) as [TN _]. destruct (all_finite (to_plot log_x m A j)) as [l|].
    + unfold draw. destruct (gaussian_kde vals) as [k|] eqn:K.
      * eexists. split; [reflexivity|]. apply drawn_spec, K.
      * exfalso. apply kde_none, CN in K. apply K, D2.
    + exfalso. destruct (proj1 TN eq_refl) as (t & Ht & [X|[X Y]]); destruct (D1 t Ht) as [Z1 Z2]; [contradiction|apply Z2; assumption].
  - intros NL ND. rewrite EQ by exact NL. destruct (all_finite (to_plot log_x m A j)) as [l|] eqn:E; [|reflexivity]. unfold draw. destruct (gaussian_kde vals) as [k|] eqn:K; [|reflexivity]. exfalso. apply ND. split.
    + intros t Ht. split; [intros X|intros X Y]; (assert (Z : all_finite (to_plot log_x m A j) = None) by (apply to_plot_finite; exists t; auto)); congruence.
    + assert (NC : ~ constant (fun v : R => v) vals) by (rewrite <- kde_none; congruence). rewrite CN in NC. apply Classical_Prop.NNPP, NC.
Qed.

Lemma ridges_spec log_x spacing nbins m A : forall k s,
  let run := ridges (ridge_of log_x spacing nbins m A) (seq s k) in
  ((forall j, (s <= j < s + k)%nat -> left_out log_x m A j \/ drawable log_x m A j) -> exists l, run = Some l /\
     StronglySorted (fun p q => (rd_feature p < rd_feature q)%nat) l /\
     (forall j, (exists r, In r l /\ rd_feature r = j) <-> (s <= j < s + k)%nat /\ drawable log_x m A j) /\
     forall r, In r l -> ridge_ok log_x spacing nbins m A (rd_feature r) r) /\
  ((exists j, (s <= j < s + k)%nat /\ ~ left_out log_x m A j /\ ~ drawable log_x m A j) -> run = None).
Proof.
  induction k as [|k IH]; intros s; cbn [seq ridges].
  - split; [|intros (j & Hj & _); lia]. intros _. exists []. split; [reflexivity|]. split; [constructor|]. split; [|intros r []]. intros j. split; [intros (r & [] & _)|lia].
  - specialize (IH (S s)). cbv zeta in IH. destruct IH as [I1 I2]. destruct (ridge_cases log_x spacing nbins m A s) as (C1 & C2 & C3). cbv zeta. split.
    + intros H. destruct I1 as (l & E & SS & IN & OK); [intros j Hj; apply H; lia|]. destruct (H s ltac:(lia)) as [L|D].
      * rewrite (C1 L). exists l. split; [exact E|]. split; [exact SS|]. split; [|exact OK]. intros j. rewrite IN. split; [intros [Hj Dj]; split; [lia|exact Dj]|]. intros [Hj Dj]. split; [|exact Dj]. assert (j <> s); [|lia]. intros ->. apply (drawable_kept _ _ _ _ Dj), L.
      * destruct (C2 D) as (r & -> & Hr). rewrite E. cbn [option_map]. exists (r :: l). split; [reflexivity|]. assert (F : rd_feature r = s) by apply Hr. split; [|split].
        -- constructor; [exact SS|]. apply Forall_forall. intros q Hq. rewrite F. destruct (proj1 (IN (rd_feature q))) as [G _]; [exists q; auto|]. lia.
        -- intros j. split.
           ++ intros (q & [<-|Hq] & Fq); [split; [lia|]; replace j with s by lia; exact D|]. destruct (proj1 (IN j)) as [G G']; [exists q; auto|]. split; [lia|exact G'].
           ++ intros [Hj Dj]. destruct (Nat.eq_dec j s) as [->|NE]; [exists r; split; [left; reflexivity|exact F]|]. destruct (proj2 (IN j)) as (q & Hq & Fq); [split; [lia|exact Dj]|]. exists q. split; [right; exact Hq|exact Fq].
        -- intros q [<-|Hq]; [rewrite F; exact Hr|apply OK, Hq].
    + intros (j & Hj & NL & ND). destruct (Nat.eq_dec j s) as [->|NE]; [rewrite (C3 NL ND); reflexivity|]. rewrite I2 by (exists j; split; [lia|auto]). destruct (ridge_of log_x spacing nbins m A s); reflexivity.
Qed.
(** With plot data and at least one feature: the plot fails exactly when some feature
    cannot be drawn; otherwise there is one curve for every feature not left out. *)
Theorem C131_ridgeline : forall A m n log_x h smin smax nbins, (0 < n)%nat ->
  let run := plot_ridgeline (Some A) m n log_x h smin smax nbins in
  let even := (h - 100) / (50 * INR n) in
  ((exists j, (j < n)%nat /\ ~ left_out log_x m A j /\ ~ drawable log_x m A j) -> run = Fails) /\
  ((forall j, (j < n)%nat -> left_out log_x m A j \/ drawable log_x m A j) -> exists l spacing, run = Figure l /\
     (smin <= smax -> smin <= spacing <= smax /\ (smin <= even <= smax -> spacing = even) /\ (even <= smin -> spacing = smin) /\ (smax <= even -> spacing = smax)) /\
     StronglySorted (fun p q => (rd_feature p < rd_feature q)%nat) l /\
     (forall j, (exists r, In r l /\ rd_feature r = j) <-> (j < n)%nat /\ drawable log_x m A j) /\
     forall r, In r l -> ridge_ok log_x spacing nbins m A (rd_feature r) r).
Proof.
  intros A m n log_x h smin smax nbins Hn run even. unfold run, plot_ridgeline. destruct (Nat.eqb_spec n 0) as [|_]; [lia|].
  destruct (ridges_spec log_x (spacing_of h smin smax n) nbins m A n 0) as [S1 S2]. split.
  - intros (j & Hj & H). rewrite S2 by (exists j; split; [lia|exact H]). reflexivity.
  - intros H. destruct S1 as (l & E & SS & IN & OK); [intros j Hj; apply H; lia|]. exists l, (spacing_of h smin smax n). rewrite E. split; [reflexivity|]. split; [|split; [exact SS|split; [|exact OK]]].
    + intros Hs. unfold spacing_of. assert (0 < INR n) by (apply lt_0_INR; exact Hn). replace ((h - 100) / INR n / 50) with even by (unfold even; field; lra).
      unfold Rmin, Rmax. destruct (Rle_dec smin even) as [L|L]; [destruct (Rle_dec smax even)|destruct (Rle_dec smax smin)]; repeat split; intros; lra.
    + intros j. rewrite IN. split; intros [G1 G2]; (split; [lia|exact G2]).
Qed.
(** No features, no plot. *)
Theorem C131_ridgeline_no_features : forall A m log_x h smin smax nbins, plot_ridgeline (Some A) m 0 log_x h smin smax nbins = Fails.
Proof. reflexivity. Qed.
(** Stated differently: one feature without two different positive values, such as
    one never detected, and the default plot of all features fails. *)
Theorem C131_one_feature_spoils : forall A m n h smin smax nbins j, (j < n)%nat ->
  (forall t s a b, (t < m)%nat -> (s < m)%nat -> A t j = Fin a -> A s j = Fin b -> 0 < a -> 0 < b -> a = b) ->
  plot_ridgeline (Some A) m n true h smin smax nbins = Fails.
Proof.
  intros A m n h smin smax nbins j Hj H. destruct (C131_ridgeline A m n true h smin smax nbins ltac:(lia)) as [F _]. apply F. exists j. split; [exact Hj|]. split; [intros [X _]; discriminate|].
  intros (_ & t & s & a & b & Ht & Hs & Ea & Eb & P & N). destruct (P eq_refl). apply N. apply (H t s); assumption.
Qed.
Print Assumptions C131_ridgeline.
Print Assumptions C131_ridgeline_no_features.
Print Assumptions C131_one_feature_spoils.

(** Two samples of three features: distinct, never detected, negative and missing. *)
Definition ex_A : cells := fun t j => match j with
  | 0%nat => Fin (INR t + 1) | 1%nat => Fin 0 | _ => match t with 0%nat => Fin (-1) | 1%nat => Fin 2 | _ => NaN end end.
Example C131_instance : complete 3 ex_A 0 2 [(0%nat, (1, -1)); (1%nat, (2, 2))] /\ drawable true 3 ex_A 0 /\ ~ drawable true 3 ex_A 1 /\ ~ left_out true 3 ex_A 1 /\ drawable false 3 ex_A 2 /\ left_out false 1 ex_A 2 /\
  (exists l, plot_ridgeline (Some ex_A) 3 1 true 800 (1 / 2) (3 / 2) 500 = Figure l) /\ plot_ridgeline (Some ex_A) 3 3 true 800 (1 / 2) (3 / 2) 500 = Fails.
Proof.
  assert (D : drawable true 3 ex_A 0). { split; [intros t _; split; [discriminate|discriminate]|]. exists 0%nat, 1%nat, (INR 0 + 1), (INR 1 + 1). cbn. repeat split; try lia; try lra. }
  split; [|split; [exact D|split; [|split; [|split; [|split; [|split]]]]]].
  - split; [repeat constructor|]. intros t a b. cbn [In]. split.
    + intros [[= <- <- <-]|[[= <- <- <-]|[]]]; cbn; repeat split; try lia; f_equal; lra.
    + intros (Ht & E1 & E2). destruct t as [|[|[|t]]]; cbn in E1, E2; [left|right; left|discriminate|lia]; injection E1 as <-; injection E2 as <-; repeat f_equal; lra.
  - intros (_ & t & s & a & b & _ & _ & Ea & Eb & P & _). cbn in Ea. injection Ea as <-. destruct (P eq_refl). lra.
  - intros [X _]. discriminate.
  - split; [intros [|[|t]] _; cbn; split; discriminate|]. exists 0%nat, 1%nat, (-1), 2. cbn. repeat split; try lia; try discriminate; lra.
  - split; [reflexivity|]. intros t s Ht Hs _ _. lia.
  - destruct (C131_ridgeline ex_A 3 1 true 800 (1 / 2) (3 / 2) 500 ltac:(lia)) as [_ G]. destruct G as (l & sp & E & _); [|exists l; exact E]. intros j Hj. right. replace j with 0%nat by lia. exact D.
  - apply (C131_one_feature_spoils _ _ _ _ _ _ _ 1); [lia|]. cbn. intros t s a b _ _ [= <-]. lra.
Qed.
(** A sample with a negative value is a point outside the axes. *)
Theorem C131_every_point_visible_refuted : ~ (forall A m n x y f, plot_feature_data (Some A) m n x y = Figure f ->
  forall t a b, In (t, (a, b)) (sc_points f) -> sc_x0 f <= a /\ sc_y0 f <= b).
Proof.
  intros H. destruct (C131_scatter ex_A 3 3 0 2) as (f & E & [_ C] & _ & _ & V); [cbn; lia|cbn; lia|].
  assert (I : In (0%nat, (1, -1)) (sc_points f)). { apply C. cbn. repeat split; [lia|f_equal; lra]. }
  specialize (H _ _ _ _ _ _ E _ _ _ I). unfold plot_feature_data in E. cbn [Z.of_nat] in E. destruct (_ || _) in E; [discriminate|].
  destruct (Show_Model.lstsq _ _ _) in E. destruct (Show_Model.lstsq _ _ _) in E. injection E as <-. cbn in H. lra.
Qed.
(** One species that was never detected takes the default plot of all others with it. *)
Theorem C131_ridgeline_shows_others_refuted : ~ (forall A m n h smin smax nbins, (exists j, (j < n)%nat /\ drawable true m A j) ->
  exists l, plot_ridgeline (Some A) m n true h smin smax nbins = Figure l).
Proof.
  intros H. destruct C131_instance as (_ & D & _ & _ & _ & _ & _ & F). destruct (H ex_A 3%nat 3%nat 800 (1 / 2) (3 / 2) 500%nat) as (l & E); [exists 0%nat; split; [lia|exact D]|]. rewrite F in E. discriminate.
Qed.
Print Assumptions C131_every_point_visible_refuted.
Print Assumptions C131_ridgeline_shows_others_refuted.

Example C131_scatter_example := C131_scatter ex_A 3 3 0 2 ltac:(lia) ltac:(lia).
Example C131_scatter_nothing_example := C131_scatter_nothing ex_A 3 3 0 3 ltac:(lia).
Example C131_heatmap_example := C131_heatmap ex_A 3 3.
Example C131_ridgeline_example := proj1 (C131_ridgeline ex_A 3 3 true 800 (1 / 2) (3 / 2) 500 ltac:(lia))
  (ex_intro _ 1%nat (conj (le_S _ _ (le_n 2)) (conj (proj1 (proj2 (proj2 (proj2 C131_instance)))) (proj1 (proj2 (proj2 C131_instance)))))).
Example C131_one_feature_spoils_example :=
  C131_one_feature_spoils ex_A 3 3 800 (1 / 2) (3 / 2) 500 1 ltac:(lia) ltac:(intros t s a b _ _ E1 E2 _ _; injection E1 as <-; injection E2 as <-; reflexivity).

Example C131_nothing_kept_example : plot_heatmap None 3 2 = Fails.
Proof. exact (proj1 (C131_nothing_kept 3 2 true 1 0 1 10)). Qed.
Example C131_ridgeline_no_features_example := C131_ridgeline_no_features (fun _ _ => Fin 1) 4 false 1 0 1 10.
