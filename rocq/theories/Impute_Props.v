(** C119: imputing missing values. *)
From Coq Require Import List Bool Arith Lia Reals Lra String.
From Verif Require Import Impute_Model.
Import ListNotations.
Local Open Scope string_scope.
Local Open Scope nat_scope.

(** No imputer can be created, whether or not scikit-learn is installed. *)
Theorem C119_never_created : forall has1 has2,
  construct (module_names has1 has2) =
  if has1 && has2 then Raises NameError else Raises ImportError.
Proof. intros [] []; reflexivity. Qed.
Print Assumptions C119_never_created.

Theorem C119_installed_package_suffices_refuted : construct (module_names true true) <> Returns tt.
Proof. discriminate. Qed.
Print Assumptions C119_installed_package_suffices_refuted.

(** The documented strategies. *)
Definition documented : list string := ["mean"; "median"; "most_frequent"; "knn"; "iterative"].
Lemma valid_strategy s : existsb (String.eqb s) strategies = true <-> In s documented.
Proof.
  change documented with strategies.
  rewrite existsb_exists. split.
  - intros (x & Hx & E). apply String.eqb_eq in E. subst. exact Hx.
  - intros H. exists s. split; [exact H|apply String.eqb_refl].
Qed.

(** The body of impute for an object made in another way: with a missing value, NaN
    by default, every strategy fails. *)
Theorem C119_default_fails : forall fills m n V U mv s,
  mv <> MNone -> In s documented -> impute fills m n (Some (V, U)) mv s = Raises AttributeError.
Proof.
  intros fills m n V U mv s Hm Hs. unfold impute. apply valid_strategy in Hs. rewrite Hs. cbn [negb].
  destruct mv; [contradiction|reflexivity|reflexivity].
Qed.
Print Assumptions C119_default_fails.

Theorem C119_default_works_refuted : forall fills m n V U,
  ~ exists r, impute fills m n (Some (V, U)) MNaN "mean" = Returns (Some r).
Proof.
  intros fills m n V U [r H]. rewrite C119_default_fails in H; [discriminate|discriminate|left; reflexivity].
Qed.
Print Assumptions C119_default_works_refuted.

Lemma observed_in m A j x : In x (observed m A j) <-> exists i, i < m /\ A i j = Some x.
Proof.
  unfold observed. rewrite in_flat_map. split.
  - intros (i & Hi & H). apply in_seq in Hi. exists i. split; [lia|]. destruct (A i j); [|destruct H]. destruct H as [->|[]]. reflexivity.
  - intros (i & Hi & E). exists i. split; [apply in_seq; lia|]. rewrite E. left. reflexivity.
Qed.
Lemma has_value_iff m A j : has_value m A j = true <-> exists i x, i < m /\ A i j = Some x.
Proof.
  unfold has_value. rewrite negb_true_iff, Nat.eqb_neq. split.
  - intros H. destruct (observed m A j) as [|x l] eqn:E; [contradiction|]. destruct (proj1 (observed_in m A j x)) as (i & Hi & Hx); [rewrite E; left; reflexivity|].
    exists i, x. auto.
  - intros (i & x & Hi & Hx) C. apply length_zero_iff_nil in C. assert (In x (observed m A j)) by (apply observed_in; eauto). rewrite C in H. destruct H.
Qed.
Lemma kept_all m n A : List.length (kept m n A) = n <-> forall j, j < n -> exists i x, i < m /\ A i j = Some x.
Proof.
  unfold kept. assert (G : forall l, List.length (filter (has_value m A) l) = List.length l <-> forall j, In j l -> has_value m A j = true).
  { intros l. induction l as [|a l IH]; cbn; [split; [intros _ j []|reflexivity]|].
    assert (L : List.length (filter (has_value m A) l) <= List.length l) by (clear; induction l as [|b l IH]; cbn; [lia|]; destruct (has_value m A b); cbn; lia). destruct (has_value m A a) eqn:E; cbn; split.
    - intros H j [<-|Hj]; [exact E|]. apply IH; [lia|exact Hj].
    - intros H. f_equal. apply IH. intros j Hj. apply H. right. exact Hj.
    - intros H. exfalso. lia.
    - intros H. rewrite (H a) in E by (left; reflexivity). discriminate. }
  specialize (G (seq 0 n)). rewrite seq_length in G. rewrite G. split; intros H j Hj.
  - apply has_value_iff, H, in_seq. lia.
  - apply has_value_iff, H. apply in_seq in Hj. lia.
Qed.

(** Only with missing_value=None can it succeed, and then exactly when every column
    of both tables has a value; every given value is kept, whatever the strategy. *)
Theorem C119_when_it_works : forall fills m n V U mv s,
  In s documented ->
  ((exists r, impute fills m n (Some (V, U)) mv s = Returns (Some r)) <->
   mv = MNone /\ (forall j, j < n -> exists i x, i < m /\ V i j = Some x) /\
                 (forall j, j < n -> exists i x, i < m /\ U i j = Some x)) /\
  (forall r, impute fills m n (Some (V, U)) mv s = Returns (Some r) ->
   (forall i j x, V i j = Some x -> i_data r i j = x) /\ (forall i j x, U i j = Some x -> i_unc r i j = x) /\
   (forall i j, i_mask r i j = true <-> V i j = None \/ U i j = None)).
Proof.
  intros fills m n V U mv s Hs. apply valid_strategy in Hs. unfold impute. rewrite Hs. cbn [negb].
  destruct mv as [| |x]; cbn [is_frame negb mark].
  - split.
    + destruct (Nat.eqb_spec (List.length (kept m n V)) n) as [EV|EV]; cbn [negb].
      * destruct (Nat.eqb_spec (List.length (kept m n U)) n) as [EU|EU]; cbn [negb].
        -- split; [|eauto]. intros _. split; [reflexivity|]. split; apply kept_all; assumption.
        -- split; [intros [r C]; discriminate|]. intros (_ & _ & C). apply kept_all in C. contradiction.
      * split; [intros [r C]; discriminate|]. intros (_ & C & _). apply kept_all in C. contradiction.
    + intros r. destruct (List.length (kept m n V) =? n); [|discriminate]. destruct (List.length (kept m n U) =? n); [|discriminate].
      cbn [negb]. intros [= <-]. cbn [i_data i_unc i_mask]. unfold filled, missing_at. split; [|split].
      * intros i j y E. rewrite E. reflexivity.
      * intros i j y E. rewrite E. reflexivity.
      * intros i j. destruct (V i j), (U i j); cbn; split; intros H; auto; try discriminate; destruct H; discriminate.
  - split; [split; [intros [r C]; discriminate|intros [C _]; discriminate]|intros r C; discriminate].
  - split; [split; [intros [r C]; discriminate|intros [C _]; discriminate]|intros r C; discriminate].
Qed.
Print Assumptions C119_when_it_works.

Local Open Scope R_scope.
Lemma sum_bounds l lo hi : (forall x, In x l -> lo <= x <= hi) ->
  lo * INR (List.length l) <= fold_right Rplus 0 l <= hi * INR (List.length l).
Proof.
  induction l as [|a l IH]; intros H; [cbn; lra|]. change (List.length (a :: l)) with (S (List.length l)). rewrite S_INR. cbn [fold_right].
  specialize (IH (fun x Hx => H x (or_intror Hx))). pose proof (H a (or_introl eq_refl)). lra.
Qed.

(** The strategy "mean": a missing cell gets the mean of the values of its column,
    data and uncertainties separately, so it lies between the smallest and largest. *)
Theorem C119_mean : forall fills m n V U r,
  impute fills m n (Some (V, U)) MNone "mean" = Returns (Some r) ->
  forall X D, (X = V /\ D = i_data r \/ X = U /\ D = i_unc r) ->
  forall i j, (j < n)%nat -> X i j = None ->
  let given := flat_map (fun a => match X a j with Some x => [x] | None => [] end) (seq 0 m) in
  given <> [] /\ D i j * INR (List.length given) = fold_right Rplus 0 given /\
  (forall lo hi, (forall x, In x given -> lo <= x <= hi) -> lo <= D i j <= hi).
Proof.
  intros fills m n V U r H X D HX i j Hj HV given.
  destruct (C119_when_it_works fills m n V U MNone "mean" (or_introl eq_refl)) as [W _].
  destruct (proj1 W (ex_intro _ r H)) as (_ & K1 & K2).
  assert (N : given <> []).
  { assert (E : exists a x, (a < m)%nat /\ X a j = Some x) by (destruct HX as [[-> _] | [-> _]]; auto).
    destruct E as (a & x & Ha & Hx). intros C. assert (I : In x given) by (apply (observed_in m X j x); eauto). rewrite C in I. destruct I. }
  assert (P : 0 < INR (List.length given)) by (apply lt_0_INR; destruct given; [contradiction|cbn; lia]).
  assert (M : D i j = fold_right Rplus 0 given / INR (List.length given)).
  { unfold impute in H. cbn [existsb strategies] in H. cbn in H.
    destruct (List.length (kept m n V) =? n)%nat; [|discriminate]. destruct (List.length (kept m n U) =? n)%nat; [|discriminate].
    cbn in H. injection H as <-. cbn [i_data i_unc] in HX.
    destruct HX as [[-> ->] | [-> ->]]; unfold filled; rewrite HV; reflexivity. }
  rewrite M. split; [exact N|]. split; [field; lra|]. intros lo hi B. pose proof (sum_bounds given lo hi B) as [B1 B2].
  split; apply Rmult_le_reg_r with (INR (List.length given)); try exact P; unfold Rdiv; rewrite Rmult_assoc, Rinv_l by lra; lra.
Qed.
Print Assumptions C119_mean.

(** Other answers of impute: an unknown strategy is refused first of all, and
    without a handler nothing is returned. *)
Theorem C119_other_calls : forall fills m n h mv s,
  (impute fills m n h mv s = Raises ValueError <->
   ~ In s documented \/ (exists V U, h = Some (V, U) /\ mv = MNone /\
     ((exists j, (j < n)%nat /\ forall i, (i < m)%nat -> V i j = None) \/ (exists j, (j < n)%nat /\ forall i, (i < m)%nat -> U i j = None)))) /\
  (impute fills m n h mv s = Returns None <-> In s documented /\ h = None).
Proof.
  intros fills m n h mv s.
  assert (NK : forall A, List.length (kept m n A) <> n <-> exists j, (j < n)%nat /\ forall i, (i < m)%nat -> A i j = None).
  { intros A. rewrite kept_all. split.
    - intros H. destruct (forallb (has_value m A) (seq 0 n)) eqn:E.
      + exfalso. apply H. intros j Hj. rewrite forallb_forall in E. apply has_value_iff, E, in_seq. lia.
      + assert (X : exists j, In j (seq 0 n) /\ has_value m A j = false).
        { clear -E. induction (seq 0 n) as [|a l IH]; cbn in E; [discriminate|]. destruct (has_value m A a) eqn:F.
          - destruct (IH E) as (j & Hj & Hf). exists j. split; [right; exact Hj|exact Hf].
          - exists a. split; [left; reflexivity|exact F]. }
        destruct X as (j & Hj & Hf). apply in_seq in Hj. exists j. split; [lia|]. intros i Hi. destruct (A i j) as [x|] eqn:Ea; [|reflexivity].
        assert (has_value m A j = true) by (apply has_value_iff; eauto). congruence.
    - intros (j & Hj & Hn) K. destruct (K j Hj) as (i & x & Hi & Hx). rewrite (Hn i Hi) in Hx. discriminate. }
  destruct (existsb (String.eqb s) strategies) eqn:E.
  - pose proof (proj1 (valid_strategy s) E) as Hs. unfold impute. rewrite E. cbn [negb]. destruct h as [[V U]|].
    + split.
      * destruct mv as [| |x]; cbn [is_frame negb mark].
        -- split.
           ++ intros H. right. exists V, U. split; [reflexivity|]. split; [reflexivity|].
              destruct (Nat.eqb_spec (List.length (kept m n V)) n) as [EV|EV]; cbn [negb] in H; [|left; apply NK, EV].
              destruct (Nat.eqb_spec (List.length (kept m n U)) n) as [EU|EU]; cbn [negb] in H; [discriminate|right; apply NK, EU].
           ++ intros [C|(V' & U' & [= <- <-] & _ & [C|C])]; [contradiction| |]; apply NK in C; apply Nat.eqb_neq in C; rewrite C; cbn [negb].
              ** reflexivity.
              ** destruct (negb _); reflexivity.
        -- split; [intros C; discriminate|intros [C|(V' & U' & _ & C & _)]; [contradiction|discriminate]].
        -- split; [intros C; discriminate|intros [C|(V' & U' & _ & C & _)]; [contradiction|discriminate]].
      * split; [|intros [_ C]; discriminate]. destruct (negb (is_frame mv)); [discriminate|]. destruct (negb (_ =? n)%nat); [discriminate|]. destruct (negb (_ =? n)%nat); discriminate.
    + split; [split; [discriminate|intros [C|(V & U & C & _)]; [contradiction|discriminate]]|tauto].
  - assert (Hs : ~ In s strategies) by (intros C; apply valid_strategy in C; congruence). unfold impute. rewrite E. cbn [negb].
    split; [split; [left; exact Hs|reflexivity]|]. split; [discriminate|intros [C _]; contradiction].
Qed.
Print Assumptions C119_other_calls.

Example C119_instance :
  let V : cells := fun i _ => match i with O => Some 1 | 1%nat => None | _ => Some 5 end in
  let U : cells := fun _ _ => Some 1 in
  exists r, impute (fun _ _ _ _ => 0) 3 1 (Some (V, U)) MNone "mean" = Returns (Some r) /\ i_data r 1%nat O = 3 /\ i_mask r 1%nat O = true /\
  impute (fun _ _ _ _ => 0) 3 1 (Some (V, U)) MNaN "mean" = Raises AttributeError /\
  impute (fun _ _ _ _ => 0) 3 1 (Some ((fun _ _ => None), U)) MNone "knn" = Raises ValueError.
Proof.
  cbv zeta. eexists. split; [reflexivity|]. split; [|split; [reflexivity|split; reflexivity]].
  cbn. unfold filled, mean_fill. cbn. lra.
Qed.

Local Open Scope R_scope.
Definition xi_V : cells := fun i _ => match i with O => Some 1 | 1%nat => None | _ => Some 5 end.
Definition xi_U : cells := fun _ _ => Some 1.
Example C119_default_fails_example :=
  C119_default_fails (fun _ _ _ _ => 0) 3 1 xi_V xi_U MNaN "median" ltac:(discriminate) ltac:(cbn; tauto).
Example C119_when_it_works_example :=
  C119_when_it_works (fun _ _ _ _ => 0) 3 1 xi_V xi_U MNone "mean" ltac:(cbn; tauto).
Example C119_mean_example : forall r, impute (fun _ _ _ _ => 0) 3 1 (Some (xi_V, xi_U)) MNone "mean" = Returns (Some r) -> i_data r 1%nat O * 2 = 6.
Proof.
  intros r H. destruct (C119_mean _ _ _ _ _ _ H xi_V (i_data r) (or_introl (conj eq_refl eq_refl)) 1%nat O ltac:(lia) eq_refl) as (_ & E & _).
  cbn in E. lra.
Qed.
Example C119_other_calls_example := C119_other_calls (fun _ _ _ _ => 0) 3 1 (Some ((fun _ _ => None), xi_U)) MNone "knn".

Example C119_never_created_example :
  construct (module_names true true) = Raises NameError /\ construct (module_names true false) = Raises ImportError.
Proof. split; apply C119_never_created. Qed.
