(** C128: comparing perturbed models with the base model (eval/perturbation.py). *)
From Coq Require Import List Bool Arith ZArith Lia Reals Lra String Permutation Sorting.Sorted.
From Flocq Require Import Core.
From Verif Require Import Base Fl Boot_Model Boot_Proofs SA_Proofs Analysis_Model Analysis_Props Perturb_Model Perturb_Props PerturbCmp_Model.
From Verif Require Align_Model Align_Props Cli_Model.
Import ListNotations.
Local Open Scope R_scope.

(** ** Which base factor is taken for factor [c] of a perturbed model *)
(** The first NaN, if there is one; otherwise the first of the best values. *)
Definition picks (k : nat) (me : method) (M : nat -> nat -> fl) (c j : nat) : Prop :=
  (j < k)%nat /\
  ((M j c = NaN /\ forall i, (i < j)%nat -> M i c <> NaN) \/
   ((forall i, (i < k)%nat -> M i c <> NaN) /\
    (forall i, (i < k)%nat -> better_of me (M i c) (M j c) = false) /\
    (forall i, (i < j)%nat -> better_of me (M j c) (M i c) = true))).

Lemma picks_unique k me M c j j' : picks k me M c j -> picks k me M c j' -> j = j'.
Proof.
  intros [Hj [[A1 A2]|(A1 & A2 & A3)]] [Hj' [[B1 B2]|(B1 & B2 & B3)]].
  - destruct (Nat.lt_total j j') as [L|[L|L]]; [exfalso; exact (B2 j L A1)|exact L|exfalso; exact (A2 j' L B1)].
  - exfalso. exact (B1 j Hj A1).
  - exfalso. exact (A1 j' Hj' B1).
  - destruct (Nat.lt_total j j') as [L|[L|L]]; [exfalso|exact L|exfalso].
    + specialize (B3 j L). rewrite (A2 j' Hj') in B3. discriminate.
    + specialize (A3 j' L). rewrite (B2 j Hj) in A3. discriminate.
Qed.

Lemma first_nan_found l : forall i q, first_nan l i = Some q -> (i <= q)%nat /\ nth_error l (q - i) = Some NaN /\ forall p, (p < q - i)%nat -> nth_error l p <> Some NaN.
Proof.
  induction l as [|x l IH]; intros i q H; [discriminate|]. cbn in H. destruct (is_nan x) eqn:E.
  - injection H as <-. rewrite Nat.sub_diag. split; [lia|]. split; [destruct x; try discriminate; reflexivity|]. intros p Hp. lia.
  - destruct (IH _ _ H) as (H1 & H2 & H3). split; [lia|]. replace (q - i)%nat with (S (q - S i)) by lia. split; [exact H2|].
    intros [|p] Hp; cbn; [intros G; injection G as ->; discriminate|apply H3; lia].
Qed.

Lemma better_trans me x y z : better_of me x y = true -> better_of me y z = true -> better_of me x z = true.
Proof. destruct me; cbn; intros A B; eauto using flt_trans. Qed.
Lemma better_under me x y z : x <> NaN -> y <> NaN -> z <> NaN -> better_of me x y = true -> better_of me z y = false -> better_of me x z = true.
Proof.
  intros Hx Hy Hz A B. destruct me; cbn in *.
  - destruct (flt_total z y Hz Hy) as [F|[->|F]]; [congruence|exact A|exact (flt_trans _ _ _ A F)].
  - destruct (flt_total z y Hz Hy) as [F|[->|F]]; [exact (flt_trans _ _ _ F A)|exact A|congruence].
  - destruct (flt_total z y Hz Hy) as [F|[->|F]]; [exact (flt_trans _ _ _ F A)|exact A|congruence].
Qed.
Lemma better_irrefl me x : better_of me x x = false.
Proof. destruct me; cbn; apply flt_irrefl. Qed.

Lemma best_at_spec me (f : nat -> fl) : forall len i bi, (forall p, (p < i + len)%nat -> f p <> NaN) -> (bi < i)%nat ->
  (forall p, (p < i)%nat -> better_of me (f p) (f bi) = false) -> (forall p, (p < bi)%nat -> better_of me (f bi) (f p) = true) ->
  let r := best_at (better_of me) (map f (seq i len)) i bi (f bi) in
  (r < i + len)%nat /\ (forall p, (p < i + len)%nat -> better_of me (f p) (f r) = false) /\ (forall p, (p < r)%nat -> better_of me (f r) (f p) = true).
Proof.
  induction len as [|len IH]; intros i bi HN Hbi Hno Hst r.
  - subst r. cbn. rewrite Nat.add_0_r. auto.
  - subst r. cbn [seq map best_at]. destruct (better_of me (f i) (f bi)) eqn:E.
    + replace (i + S len)%nat with (S i + len)%nat by lia. apply IH; [intros p Hp; apply HN; lia|lia| |].
      * intros p Hp. destruct (Nat.eq_dec p i) as [->|Hne]; [apply better_irrefl|]. destruct (better_of me (f p) (f i)) eqn:E2; [|reflexivity].
        pose proof (better_trans me _ _ _ E2 E) as G. rewrite Hno in G by lia. discriminate.
      * intros p Hp. apply (better_under me (f i) (f bi) (f p)); [apply HN; lia|apply HN; lia|apply HN; lia|exact E|apply Hno; lia].
    + replace (i + S len)%nat with (S i + len)%nat by lia. apply IH; [intros p Hp; apply HN; lia|lia| |exact Hst].
      intros p Hp. destruct (Nat.eq_dec p i) as [->|Hne]; [exact E|apply Hno; lia].
Qed.

Lemma nth_error_map_seq {A} (f : nat -> A) k i : (i < k)%nat -> nth_error (map f (seq 0 k)) i = Some (f i).
Proof. intros H. rewrite nth_error_map, (nth_error_nth' _ 0%nat) by (rewrite seq_length; exact H). rewrite seq_nth by exact H. reflexivity. Qed.

Lemma optimal_picks k me M c : (0 < k)%nat -> picks k me M c (optimal k me M c).
Proof.
  intros Hk. unfold optimal, np_arg. destruct (first_nan (map (fun j => M j c) (seq 0 k)) 0) as [q|] eqn:E.
  - destruct (first_nan_found _ _ _ E) as (_ & H2 & H3). rewrite Nat.sub_0_r in H2, H3.
    assert (Hq : (q < k)%nat). { assert (q < List.length (map (fun j => M j c) (seq 0 k)))%nat by (apply nth_error_Some; congruence). rewrite map_length, seq_length in H. exact H. }
    split; [exact Hq|]. left. rewrite nth_error_map_seq in H2 by exact Hq. split; [congruence|]. intros i Hi. specialize (H3 i Hi). rewrite nth_error_map_seq in H3 by lia. congruence.
  - assert (N : forall i, (i < k)%nat -> M i c <> NaN). { intros i Hi. apply (first_nan_none _ _ E). apply in_map_iff. exists i. split; [reflexivity|apply in_seq; lia]. }
    destruct k as [|k]; [lia|]. cbn [seq map]. pose proof (best_at_spec me (fun j => M j c) k 1 0) as B. cbv zeta in B.
    destruct B as (B1 & B2 & B3); [intros p Hp; apply N; lia|lia|intros p Hp; replace p with 0%nat by lia; apply better_irrefl|intros p Hp; lia|].
    split; [exact B1|]. right. split; [exact N|]. split; [intros i Hi; apply B2; lia|exact B3].
Qed.
Lemma picks_optimal k me M c j : picks k me M c j -> optimal k me M c = j.
Proof. intros P. apply (picks_unique k me M c); [apply optimal_picks; destruct P; lia|exact P]. Qed.

(** ** One mapping for every model *)
Lemma nodupb_NoDup l : nodupb l = true <-> NoDup l.
Proof.
  induction l as [|x l IH]; cbn; [split; [constructor|reflexivity]|]. rewrite andb_true_iff, negb_true_iff, IH. split.
  - intros [H1 H2]. constructor; [|exact H2]. intros Hin. assert (existsb (Nat.eqb x) l = true) by (apply existsb_exists; exists x; split; [exact Hin|apply Nat.eqb_refl]). congruence.
  - intros H. inversion H as [|? ? H1 H2]; subst. split; [|exact H2]. destruct (existsb (Nat.eqb x) l) eqn:E; [|reflexivity]. exfalso. apply existsb_exists in E. destruct E as (y & Hy & E). apply Nat.eqb_eq in E. subst. contradiction.
Qed.
Lemma inj_nodupb k f : (forall c c', (c < k)%nat -> (c' < k)%nat -> f c = f c' -> c = c') -> nodupb (map f (seq 0 k)) = true.
Proof.
  intros H. apply nodupb_NoDup. apply (NoDup_nth _ 0%nat). intros i j Hi Hj. rewrite map_length, seq_length in Hi, Hj. rewrite !nth_map_seqA by assumption. apply H; assumption.
Qed.
Definition numbers (k : nat) (M : nat -> nat -> fl) (f : nat -> nat) : list entry := map (fun j => Number (fround4 (M j (f j)))) (seq 0 k).
Lemma optimal_map k me M f : (forall c, (c < k)%nat -> picks k me M c (f c)) -> optimal_indices k me M = map f (seq 0 k).
Proof. intros H. unfold optimal_indices. apply map_ext_in. intros c Hc. apply in_seq in Hc. apply picks_optimal, H. lia. Qed.

Lemma map_all_ok k me : forall Ms orc (f : nat -> nat -> nat), List.length orc = List.length Ms ->
  (forall p, (p < List.length Ms)%nat -> forall c, (c < k)%nat -> picks k me (nth p Ms (fun _ _ => NaN)) c (f p c)) ->
  (forall p, (p < List.length Ms)%nat -> forall c c', (c < k)%nat -> (c' < k)%nat -> f p c = f p c' -> c = c') ->
  map_all k me Ms orc = Ok (map (fun p => map (f p) (seq 0 k)) (seq 0 (List.length Ms)),
                            map (fun p => numbers k (nth p Ms (fun _ _ => NaN)) (f p)) (seq 0 (List.length Ms))).
Proof.
  induction Ms as [|M Ms IH]; intros orc f HL HP HI; [reflexivity|]. destruct orc as [|o orc]; [discriminate|]. cbn [map_all].
  pose proof (optimal_map k me M (f 0%nat) (HP 0%nat ltac:(cbn; lia))) as E.
  assert (ND : nodupb (optimal_indices k me M) = true) by (rewrite E; apply inj_nodupb; apply (HI 0%nat); cbn; lia).
  rewrite ND. unfold determine_map, map_values. rewrite ND.
  rewrite (IH orc (fun p => f (S p))); [|cbn in HL; lia|intros p Hp; apply (HP (S p)); cbn; lia|intros p Hp; apply (HI (S p)); cbn; lia].
  cbn [List.length seq map]. rewrite <- seq_shift, !map_map. rewrite E. do 3 f_equal.
  unfold numbers. apply map_ext_in. intros j Hj. apply in_seq in Hj. rewrite nth_map_seqA by lia. reflexivity.
Qed.

Lemma map_all_ambiguous k me : forall Ms orc p c c', List.length orc = List.length Ms ->
  (forall o e, In o orc -> o = Raise e -> e = ValueError) ->
  (p < List.length Ms)%nat -> (c < k)%nat -> (c' < k)%nat -> c <> c' ->
  optimal k me (nth p Ms (fun _ _ => NaN)) c = optimal k me (nth p Ms (fun _ _ => NaN)) c' ->
  map_all k me Ms orc = Raise ValueError \/
  exists mps vss, map_all k me Ms orc = Ok (mps, vss) /\ forallb (forallb is_number) vss = false.
Proof.
  induction Ms as [|M Ms IH]; intros orc p c c' HL HO Hp Hc Hc' Hne E; [cbn in Hp; lia|]. destruct orc as [|o orc]; [discriminate|]. cbn [map_all].
  assert (HO' : forall o' e, In o' orc -> o' = Raise e -> e = ValueError) by (intros o' e Hin; apply HO; right; exact Hin).
  destruct p as [|p].
  - cbn [nth] in E. assert (NB : nodupb (optimal_indices k me M) = false).
    { destruct (nodupb (optimal_indices k me M)) eqn:En; [|reflexivity]. exfalso. apply nodupb_NoDup in En. apply Hne.
      apply (proj1 (NoDup_nth _ 0%nat) En); unfold optimal_indices; rewrite ?map_length, ?seq_length; try assumption. rewrite !nth_map_seqA by assumption. exact E. }
    rewrite NB. destruct o as [[rows cols]|e].
    2:{ left. f_equal. apply (HO (Raise e)); [left; reflexivity|reflexivity]. }
    unfold determine_map. destruct (map_all k me Ms orc) as [[mps vss]|e] eqn:R.
    + right. exists (optimal_indices k me M :: mps), (map_values k M (optimal_indices k me M) rows cols :: vss). split; [reflexivity|]. cbn [forallb]. apply andb_false_iff. left.
      unfold map_values. rewrite NB. destruct k as [|k]; [lia|]. reflexivity.
    + left. f_equal. clear - R HO'. revert orc HO' R. induction Ms as [|M Ms IH]; intros orc HO R; [discriminate|]. destruct orc as [|o orc]; [discriminate|]. cbn [map_all] in R.
      assert (HO' : forall o' e, In o' orc -> o' = Raise e -> e = ValueError) by (intros o' e' Hin; apply HO; right; exact Hin).
      destruct (nodupb _).
      * unfold determine_map in R. destruct (map_all k me Ms orc) as [[? ?]|e'] eqn:R'; [discriminate|]. injection R as <-. exact (IH orc HO' R').
      * destruct o as [[? ?]|e']; [|injection R as <-; apply (HO (Raise e')); [left; reflexivity|reflexivity]].
        unfold determine_map in R. destruct (map_all k me Ms orc) as [[? ?]|e''] eqn:R'; [discriminate|]. injection R as <-. exact (IH orc HO' R').
  - cbn [nth] in E. cbn in Hp, HL. destruct (IH orc p c c' ltac:(lia) HO' ltac:(lia) Hc Hc' Hne E) as [R|(mps & vss & R & F)].
    + left. rewrite R. destruct (nodupb _); [reflexivity|]. destruct o as [[? ?]|e]; [reflexivity|]. f_equal. apply (HO (Raise e)); [left; reflexivity|reflexivity].
    + rewrite R. destruct (nodupb _).
      * right. eexists _, _. split; [reflexivity|]. cbn [forallb]. rewrite F. apply andb_false_r.
      * destruct o as [[rows cols]|e]; [|left; f_equal; apply (HO (Raise e)); [left; reflexivity|reflexivity]].
        right. eexists _, _. split; [reflexivity|]. cbn [forallb]. rewrite F. apply andb_false_r.
Qed.

(** ** Reductions of finite values *)
Lemma fmean_fin N f g : (0 < N)%nat -> (forall p, (p < N)%nat -> f p = Fin (g p)) -> fmean N f = Fin (rsum N g / INR N).
Proof.
  intros HN H. unfold fmean. rewrite (fsum_ext N f (fun p => Fin (g p)) H), fsum_fin. unfold fdiv. destruct (Req_EM_T (INR N) 0) as [E|E]; [|reflexivity].
  exfalso. pose proof (lt_0_INR N HN). lra.
Qed.
Lemma fstd_fin N f g : (0 < N)%nat -> (forall p, (p < N)%nat -> f p = Fin (g p)) ->
  fstd N f = Fin (sqrt (rsum N (fun p => (g p - rsum N g / INR N) * (g p - rsum N g / INR N)) / INR N)).
Proof.
  intros HN H. unfold fstd. rewrite (fmean_fin N f g HN H). rewrite (fmean_fin N _ (fun p => (g p - rsum N g / INR N) * (g p - rsum N g / INR N)) HN).
  - cbn [fsqrt]. destruct (Rlt_dec _ 0) as [L|L]; [|reflexivity]. exfalso. apply (Rlt_not_le _ _ L). apply Rmult_le_pos; [apply rsum_nonneg; intros; apply Rle_0_sqr|]. left. apply Rinv_0_lt_compat, lt_0_INR, HN.
  - intros p Hp. rewrite (H p Hp). unfold fsub, fopp, fadd, fmul. f_equal; ring.
Qed.
Lemma fmin_fin f g : forall N, (0 < N)%nat -> (forall p, (p < N)%nat -> f p = Fin (g p)) ->
  exists lo, fminimum f N = Fin lo /\ (exists p, (p < N)%nat /\ lo = g p) /\ forall p, (p < N)%nat -> lo <= g p.
Proof.
  induction N as [|N IH]; intros HN H; [lia|]. destruct N as [|N].
  - exists (g 0%nat). cbn. split; [apply H; lia|]. split; [exists 0%nat; split; [lia|reflexivity]|]. intros p Hp. replace p with 0%nat by lia. lra.
  - destruct IH as (lo & E & (p0 & Hp0 & El) & B); [lia|intros; apply H; lia|]. unfold fminimum in *. change (freduce (np_pick flt) f (S (S N))) with (np_pick flt (freduce (np_pick flt) f (S N)) (f (S N))). rewrite E, (H (S N)) by lia.
    unfold np_pick. cbn [is_nan orb flt]. destruct (Rltb (g (S N)) lo) eqn:L.
    + apply Rltb_iff in L. exists (g (S N)). split; [reflexivity|]. split; [exists (S N); split; [lia|reflexivity]|]. intros p Hp. destruct (Nat.eq_dec p (S N)) as [->|Hne]; [lra|]. specialize (B p ltac:(lia)). lra.
    + apply Rltb_false in L. exists lo. split; [reflexivity|]. split; [exists p0; split; [lia|exact El]|]. intros p Hp. destruct (Nat.eq_dec p (S N)) as [->|Hne]; [lra|]. apply B. lia.
Qed.
Lemma fmax_fin f g : forall N, (0 < N)%nat -> (forall p, (p < N)%nat -> f p = Fin (g p)) ->
  exists hi, fmaximum f N = Fin hi /\ (exists p, (p < N)%nat /\ hi = g p) /\ forall p, (p < N)%nat -> g p <= hi.
Proof.
  induction N as [|N IH]; intros HN H; [lia|]. destruct N as [|N].
  - exists (g 0%nat). cbn. split; [apply H; lia|]. split; [exists 0%nat; split; [lia|reflexivity]|]. intros p Hp. replace p with 0%nat by lia. lra.
  - destruct IH as (lo & E & (p0 & Hp0 & El) & B); [lia|intros; apply H; lia|]. unfold fmaximum in *. match goal with |- context [freduce ?o f (S (S N))] => change (freduce o f (S (S N))) with (o (freduce o f (S N)) (f (S N))) end. rewrite E, (H (S N)) by lia.
    unfold np_pick. cbn [is_nan orb flt]. destruct (Rltb lo (g (S N))) eqn:L.
    + apply Rltb_iff in L. exists (g (S N)). split; [reflexivity|]. split; [exists (S N); split; [lia|reflexivity]|]. intros p Hp. destruct (Nat.eq_dec p (S N)) as [->|Hne]; [lra|]. specialize (B p ltac:(lia)). lra.
    + apply Rltb_false in L. exists lo. split; [reflexivity|]. split; [exists p0; split; [lia|exact El]|]. intros p Hp. destruct (Nat.eq_dec p (S N)) as [->|Hne]; [lra|]. apply B. lia.
Qed.

(** ** C128: what compare stores *)
(** Solutions as training leaves them: nothing negative, something in every sample
    and in every feature. *)
Definition regular (m n k : nat) (o : fmodel) : Prop :=
  (forall t i, (t < m)%nat -> (i < k)%nat -> 0 <= f_W o t i) /\ (forall t, (t < m)%nat -> 0 < rsum k (fun q => f_W o t q)) /\
  (forall i j, (i < k)%nat -> (j < n)%nat -> 0 <= f_H o i j) /\ (forall j, (j < n)%nat -> 0 < rsum k (fun q => f_H o q j)).
Definition part_W (k : nat) (o : fmodel) (t i : nat) : R := f_W o t i / rsum k (fun q => f_W o t q).
Definition part_H (k : nat) (o : fmodel) (i j : nat) : R := f_H o i j / rsum k (fun q => f_H o q j).
(** [mp p c] is the base factor taken for factor [c] of perturbed model [p]. *)
Definition mapped (m n k : nat) (me : method) (b : fmodel) (ms : list fmodel) (mp : nat -> nat -> nat) : Prop :=
  forall p c, (p < List.length ms)%nat -> (c < k)%nat -> picks k me (measure me m k n b (nth p ms dfl)) c (mp p c).
Definition one_to_one (k : nat) (ms : list fmodel) (mp : nat -> nat -> nat) : Prop :=
  forall p c c', (p < List.length ms)%nat -> (c < k)%nat -> (c' < k)%nat -> mp p c = mp p c' -> c = c'.
(** A line of the table: base share, mean, difference in percent of the mean of the
    two, spread and range of the shares [v p] over [N] models. *)
Definition line_of (N : nat) (base : R) (v : nat -> R) (r : prow) : Prop :=
  let mu := rsum N v / INR N in
  r_base r = Fin (round10 base) /\ r_mean r = Fin (round10 mu) /\
  r_diff r = Fin (if Rlt_dec mu (/ 1000000) then 0 else round4 (200 * (mu - base) / (mu + base))) /\
  r_std r = Fin (round10 (sqrt (rsum N (fun p => (v p - mu) ^ 2) / INR N))) /\
  exists lo hi, r_min r = Fin (round10 lo) /\ r_max r = Fin (round10 hi) /\
    (exists p, (p < N)%nat /\ lo = v p) /\ (exists p, (p < N)%nat /\ hi = v p) /\ forall p, (p < N)%nat -> lo <= v p <= hi.

Lemma share_H_fin m n k o i j : regular m n k o -> (j < n)%nat -> share_H k o i j = Fin (part_H k o i j).
Proof. intros (_ & _ & _ & H) Hj. unfold share_H, fdiv. destruct (Req_EM_T _ 0) as [E|E]; [specialize (H j Hj); lra|reflexivity]. Qed.
Lemma share_W_fin m n k o t i : regular m n k o -> (t < m)%nat -> share_W k o t i = Fin (part_W k o t i).
Proof. intros (_ & H & _ & _) Ht. unfold share_W, fdiv. destruct (Req_EM_T _ 0) as [E|E]; [specialize (H t Ht); lra|reflexivity]. Qed.
Lemma part_H_range m n k o i j : regular m n k o -> (i < k)%nat -> (j < n)%nat -> 0 <= part_H k o i j <= 1.
Proof.
  intros (_ & _ & H1 & H2) Hi Hj. specialize (H2 j Hj). unfold part_H. split.
  - apply Rmult_le_pos; [apply H1; assumption|left; apply Rinv_0_lt_compat; exact H2].
  - apply (Rmult_le_reg_r (rsum k (fun q => f_H o q j))); [exact H2|]. unfold Rdiv. rewrite Rmult_assoc, Rinv_l, Rmult_1_r, Rmult_1_l by lra.
    apply (rsum_ge_term k (fun q => f_H o q j) i); [intros q Hq; apply H1; assumption|exact Hi].
Qed.
Lemma part_W_total m n k o t : regular m n k o -> (t < m)%nat -> rsum k (fun i => part_W k o t i) = 1.
Proof. intros (_ & H & _) Ht. specialize (H t Ht). unfold part_W, Rdiv. rewrite (rsum_scal_r k (/ rsum k (fun q => f_W o t q)) (fun i => f_W o t i)). apply Rinv_r. lra. Qed.

Lemma round10_grid4 x : round10 (round4 x) = round4 x.
Proof.
  unfold round4, round10. set (z := ZnearestE (x * 10000)). replace (IZR z / 10000 * 10000000000) with (IZR (z * 1000000)) by (rewrite mult_IZR; field).
  assert (G : Valid_rnd ZnearestE) by apply valid_rnd_N. rewrite (@Zrnd_IZR ZnearestE G), mult_IZR. field.
Qed.
Lemma round10_int z : round10 (IZR z) = IZR z.
Proof.
  unfold round10. replace (IZR z * 10000000000) with (IZR (z * 10000000000)) by (rewrite mult_IZR; ring).
  assert (G : Valid_rnd ZnearestE) by apply valid_rnd_N. rewrite (@Zrnd_IZR ZnearestE G), mult_IZR. field.
Qed.
Lemma round10_le x y : x <= y -> round10 x <= round10 y.
Proof. intros H. unfold round10. apply Rmult_le_compat_r; [lra|]. apply IZR_le. assert (G : Valid_rnd ZnearestE) by apply valid_rnd_N. apply G. lra. Qed.
Lemma round10_err x : Rabs (round10 x - x) <= / 20000000000.
Proof.
  unfold round10. pose proof (Znearest_half (fun z => negb (Z.even z)) (x * 10000000000)) as H.
  replace (IZR (ZnearestE (x * 10000000000)) / 10000000000 - x) with ((IZR (ZnearestE (x * 10000000000)) - x * 10000000000) / 10000000000) by field.
  rewrite Rabs_minus_sym in H. unfold Rdiv. rewrite Rabs_mult, (Rabs_pos_eq (/ 10000000000)) by lra. lra.
Qed.
Lemma round4_mono x y : x <= y -> round4 x <= round4 y.
Proof. intros H. unfold round4. apply Rmult_le_compat_r; [lra|]. apply IZR_le. assert (G : Valid_rnd ZnearestE) by apply valid_rnd_N. apply G. lra. Qed.
Lemma round4_int z : round4 (IZR z) = IZR z.
Proof.
  unfold round4. replace (IZR z * 10000) with (IZR (z * 10000)) by (rewrite mult_IZR; ring).
  assert (G : Valid_rnd ZnearestE) by apply valid_rnd_N. rewrite (@Zrnd_IZR ZnearestE G), mult_IZR. field.
Qed.

Lemma table_row_line k b st j N base v : st_count st = N -> (0 < N)%nat -> share_H k b 1 j = Fin base -> 0 <= base ->
  (forall p, (p < N)%nat -> st_at st 1 j p = Fin (v p)) -> line_of N base v (table_row k b st j).
Proof.
  intros HN HN0 Hb Hb0 Hv. unfold line_of, table_row. rewrite HN, Hb. cbv zeta. set (mu := rsum N v / INR N).
  pose proof (fmean_fin N (fun p => st_at st 1 j p) v HN0 Hv) as Em. pose proof (fstd_fin N (fun p => st_at st 1 j p) v HN0 Hv) as Es.
  destruct (fmin_fin (fun p => st_at st 1 j p) v N HN0 Hv) as (lo & El & Al & Bl). destruct (fmax_fin (fun p => st_at st 1 j p) v N HN0 Hv) as (hi & Eh & Ah & Bh).
  rewrite Em, Es, El, Eh. fold mu. cbn [r_base r_mean r_diff r_std r_min r_max fround10]. split; [reflexivity|]. split; [reflexivity|]. split; [|split].
  - cbn [flt]. destruct (Rltb mu (/ 1000000)) eqn:L.
    + apply Rltb_iff in L. destruct (Rlt_dec mu (/ 1000000)) as [L'|L']; [|contradiction]. cbn [fround10]. f_equal. apply (round10_int 0).
    + apply Rltb_false in L. destruct (Rlt_dec mu (/ 1000000)) as [L'|L']; [lra|]. cbn [fsub fopp fadd fmul fdiv]. destruct (Req_EM_T 2 0) as [E2|E2]; [lra|]. cbn [fdiv].
      destruct (Req_EM_T ((mu + base) / 2) 0) as [E|E]; [lra|]. cbn [fround4 fround10]. rewrite round10_grid4. do 2 f_equal. field. lra.
  - f_equal. f_equal. f_equal. f_equal. apply rsum_ext. intros p Hp. fold mu. ring.
  - exists lo, hi. split; [reflexivity|]. split; [reflexivity|]. split; [exact Al|]. split; [exact Ah|]. intros p Hp. split; [apply Bl, Hp|apply Bh, Hp].
Qed.

Lemma forallb_numbers k Ms (f : nat -> nat -> nat) l : forallb (forallb is_number) (map (fun p => numbers k (Ms p) (f p)) l) = true.
Proof.
  apply forallb_forall. intros vs Hvs. apply in_map_iff in Hvs. destruct Hvs as (p & <- & _). apply forallb_forall. intros e He. unfold numbers in He. apply in_map_iff in He. destruct He as (j & <- & _). reflexivity.
Qed.
Lemma measures_ok m n k me b ms orc mp : List.length orc = List.length ms -> mapped m n k me b ms mp -> one_to_one k ms mp ->
  map_all k me (map (measure me m k n b) ms) orc =
  Ok (map (fun p => map (mp p) (seq 0 k)) (seq 0 (List.length ms)), map (fun p => numbers k (measure me m k n b (nth p ms dfl)) (mp p)) (seq 0 (List.length ms))).
Proof.
  intros HL HP HI. assert (E : forall p, (p < List.length ms)%nat -> nth p (map (measure me m k n b) ms) (fun _ _ => NaN) = measure me m k n b (nth p ms dfl)).
  { intros p Hp. rewrite (nth_indep _ _ (measure me m k n b dfl)) by (rewrite map_length; exact Hp). apply map_nth. }
  rewrite (map_all_ok k me _ orc mp).
  - rewrite map_length. do 2 f_equal. apply map_ext_in. intros p Hp. apply in_seq in Hp. rewrite E by lia. reflexivity.
  - rewrite map_length. exact HL.
  - rewrite map_length. intros p Hp c Hc. rewrite E by exact Hp. apply HP; assumption.
  - rewrite map_length. intros p Hp c c' Hc Hc'. apply HI; assumption.
Qed.

(** With one partner for every factor, the comparison succeeds; it stores the
    shares of the perturbed factors in the order of the mapping, the value of every
    pair, and a table about the second factor, whichever method is used. *)
Theorem C128_compare : forall (m n k : nat) (orc : list (res (list nat * list nat))) (arg : option string) (s : pobj) (ms : list fmodel) (mp : nat -> nat -> nat),
  let me := method_of (chosen arg (o_method s)) in
  (2 <= k)%nat -> o_models s = Some ms -> ms <> [] -> List.length orc = List.length ms ->
  regular m n k (o_base s) -> (forall o, In o ms -> regular m n k o) ->
  mapped m n k me (o_base s) ms mp -> one_to_one k ms mp ->
  exists s' W H rows vss, compare m n k orc arg s = (s', None) /\
    o_mapping s' = Some (map (fun p => map (mp p) (seq 0 k)) (seq 0 (List.length ms))) /\
    o_values s' = Some vss /\
    (forall p i, (p < List.length ms)%nat -> (i < k)%nat -> nth_error (nth p vss []) i = Some (Number (fround4 (measure me m k n (o_base s) (nth p ms dfl) i (mp p i))))) /\
    o_W s' = Some W /\ o_H s' = Some H /\ o_table s' = Some rows /\
    st_count W = List.length ms /\ st_count H = List.length ms /\ List.length rows = n /\
    (forall i t p, (i < k)%nat -> (t < m)%nat -> (p < List.length ms)%nat -> st_at W i t p = Fin (part_W k (nth p ms dfl) t (mp p i))) /\
    (forall i j p, (i < k)%nat -> (j < n)%nat -> (p < List.length ms)%nat -> st_at H i j p = Fin (part_H k (nth p ms dfl) (mp p i) j)) /\
    (forall j r, nth_error rows j = Some r -> line_of (List.length ms) (part_H k (o_base s) 1 j) (fun p => part_H k (nth p ms dfl) (mp p 1%nat) j) r) /\
    o_base s' = o_base s /\ o_models s' = o_models s /\ o_mults s' = o_mults s.
Proof.
  intros m n k orc arg s ms mp me Hk Hms Hne HL Rb Rm HP HI. unfold compare. rewrite Hms. fold me. rewrite (measures_ok m n k me (o_base s) ms orc mp HL HP HI).
  set (mps := map (fun p => map (mp p) (seq 0 k)) (seq 0 (List.length ms))). set (vss := map (fun p => numbers k (measure me m k n (o_base s) (nth p ms dfl)) (mp p)) (seq 0 (List.length ms))).
  assert (Hpos : (0 < List.length ms)%nat) by (destruct ms; [contradiction|cbn; lia]).
  assert (Rn : forall p, (p < List.length ms)%nat -> regular m n k (nth p ms dfl)) by (intros p Hp; apply Rm, nth_In, Hp).
  assert (En : forall p i, (p < List.length ms)%nat -> (i < k)%nat -> nth i (nth p mps []) 0%nat = mp p i) by (intros p i Hp Hi; unfold mps; rewrite nth_map_seqA by exact Hp; apply nth_map_seqA, Hi).
  assert (EH : forall i j p, (i < k)%nat -> (j < n)%nat -> (p < List.length ms)%nat -> st_at (stack_H k ms mps) i j p = Fin (part_H k (nth p ms dfl) (mp p i) j)).
  { intros i j p Hi Hj Hp. cbn [stack_H st_at]. rewrite En by assumption. apply (share_H_fin m n); [apply Rn, Hp|exact Hj]. }
  assert (EW : forall i t p, (i < k)%nat -> (t < m)%nat -> (p < List.length ms)%nat -> st_at (stack_W k ms mps) i t p = Fin (part_W k (nth p ms dfl) t (mp p i))).
  { intros i t p Hi Ht Hp. cbn [stack_W st_at]. rewrite En by assumption. apply (share_W_fin m n); [apply Rn, Hp|exact Ht]. }
  assert (NV : forallb (forallb is_number) vss = true) by apply forallb_numbers.
  replace (match ms with [] => _ | _ :: _ => _ end) with
    (mkObj (o_base s) (Some ms) (o_mults s) (chosen arg (o_method s)) (Some mps) (Some vss) (Some (mult_stats m n (o_mults s))) (Some (stack_W k ms mps)) (Some (stack_H k ms mps))
       (Some (map (table_row k (o_base s) (stack_H k ms mps)) (seq 0 n))), @None exn).
  2:{ rewrite NV. cbn [negb]. rewrite (proj2 (Nat.leb_gt k 1)) by lia. destruct ms; [contradiction|reflexivity]. }
  exists (mkObj (o_base s) (Some ms) (o_mults s) (chosen arg (o_method s)) (Some mps) (Some vss) (Some (mult_stats m n (o_mults s))) (Some (stack_W k ms mps)) (Some (stack_H k ms mps))
       (Some (map (table_row k (o_base s) (stack_H k ms mps)) (seq 0 n)))), (stack_W k ms mps), (stack_H k ms mps), (map (table_row k (o_base s) (stack_H k ms mps)) (seq 0 n)), vss.
  cbn [o_mapping o_values o_W o_H o_table o_base o_models o_mults]. split; [reflexivity|]. split; [reflexivity|]. split; [reflexivity|]. split.
  { intros p i Hp Hi. unfold vss. rewrite nth_map_seqA by exact Hp. unfold numbers. rewrite nth_error_map_seq by exact Hi. reflexivity. }
  split; [reflexivity|]. split; [reflexivity|]. split; [reflexivity|]. split; [reflexivity|]. split; [reflexivity|]. split; [rewrite map_length, seq_length; reflexivity|].
  split; [exact EW|]. split; [exact EH|]. split; [|auto].
  intros j r Hr. assert (Hj : (j < n)%nat). { assert (j < List.length (map (table_row k (o_base s) (stack_H k ms mps)) (seq 0 n)))%nat by (apply nth_error_Some; congruence). rewrite map_length, seq_length in H. exact H. }
  rewrite nth_error_map_seq in Hr by exact Hj. injection Hr as <-. apply table_row_line.
  - reflexivity.
  - exact Hpos.
  - apply (share_H_fin m n); assumption.
  - apply (part_H_range m n); [exact Rb|lia|exact Hj].
  - intros p Hp. apply EH; [lia|exact Hj|exact Hp].
Qed.
Print Assumptions C128_compare.

(** The columns of the table are ordered and bounded. *)
Theorem C128_table_ranges : forall (N : nat) (base : R) (v : nat -> R) (r : prow),
  (0 < N)%nat -> 0 <= base <= 1 -> (forall p, (p < N)%nat -> 0 <= v p <= 1) -> line_of N base v r ->
  exists b lo mu hi sd d, r_base r = Fin b /\ r_min r = Fin lo /\ r_mean r = Fin mu /\ r_max r = Fin hi /\ r_std r = Fin sd /\ r_diff r = Fin d /\
    0 <= b <= 1 /\ 0 <= lo <= mu /\ mu <= hi <= 1 /\ 0 <= sd /\ -200 <= d <= 200.
Proof.
  intros N base v r HN Hb Hv (E1 & E2 & E3 & E4 & lo & hi & E5 & E6 & (pl & Hpl & El) & (ph & Hph & Eh) & B). set (mu := rsum N v / INR N) in *.
  pose proof (lt_0_INR N HN) as HI.
  assert (Hmu : lo <= mu <= hi).
  { unfold mu. assert (A : rsum N (fun _ => lo) <= rsum N v) by (apply rsum_le; intros p Hp; apply B, Hp). assert (C : rsum N v <= rsum N (fun _ => hi)) by (apply rsum_le; intros p Hp; apply B, Hp).
    rewrite rsum_const in A, C. split; apply (Rmult_le_reg_r (INR N)); try exact HI; unfold Rdiv; rewrite Rmult_assoc, Rinv_l by lra; lra. }
  pose proof (Hv pl Hpl) as Vl. pose proof (Hv ph Hph) as Vh. rewrite <- El in Vl. rewrite <- Eh in Vh.
  eexists _, _, _, _, _, _. split; [exact E1|]. split; [exact E5|]. split; [exact E2|]. split; [exact E6|]. split; [exact E4|]. split; [exact E3|].
  pose proof (round10_int 0) as Z0. pose proof (round10_int 1) as Z1. split; [|split; [|split; [|split]]].
  - split; [rewrite <- Z0; apply round10_le; lra|rewrite <- Z1; apply round10_le; lra].
  - split; [rewrite <- Z0; apply round10_le; lra|apply round10_le; lra].
  - split; [apply round10_le; lra|rewrite <- Z1; apply round10_le; lra].
  - rewrite <- Z0. apply round10_le, sqrt_pos.
  - destruct (Rlt_dec mu (/ 1000000)) as [L|L]; [lra|]. pose proof (round4_int 200) as W0. pose proof (round4_int (-200)) as W1.
    assert (Hs : 0 < mu + base) by lra. assert (A : -200 <= 200 * (mu - base) / (mu + base) <= 200).
    { split; apply (Rmult_le_reg_r (mu + base)); try exact Hs; unfold Rdiv; rewrite Rmult_assoc, Rinv_l by lra; lra. }
    pose proof (round4_mono _ _ (proj1 A)) as A1. pose proof (round4_mono _ _ (proj2 A)) as A2. rewrite W1 in A1. rewrite W0 in A2. split; assumption.
Qed.
Print Assumptions C128_table_ranges.

(** ** Comparisons that fail *)
(** As soon as two factors of one perturbed model have the same best partner, the
    comparison raises, whatever scipy's matching returns, and nothing computed from
    the models is stored. *)
Theorem C128_ambiguous : forall (m n k : nat) (orc : list (res (list nat * list nat))) (arg : option string) (s : pobj) (ms : list fmodel) (mp : nat -> nat -> nat) (p c c' : nat),
  let me := method_of (chosen arg (o_method s)) in
  o_models s = Some ms -> List.length orc = List.length ms -> (forall o e, In o orc -> o = Raise e -> e = ValueError) ->
  mapped m n k me (o_base s) ms mp -> (p < List.length ms)%nat -> (c < k)%nat -> (c' < k)%nat -> c <> c' -> mp p c = mp p c' ->
  exists s', compare m n k orc arg s = (s', Some ValueError) /\
    o_W s' = o_W s /\ o_H s' = o_H s /\ o_table s' = o_table s /\ o_stats s' = o_stats s.
Proof.
  intros m n k orc arg s ms mp p c c' me Hms HL HO HP Hp Hc Hc' Hne E. unfold compare. rewrite Hms. fold me.
  destruct (map_all_ambiguous k me (map (measure me m k n (o_base s)) ms) orc p c c') as [R|(mps & vss & R & F)].
  - rewrite map_length. exact HL.
  - exact HO.
  - rewrite map_length. exact Hp.
  - exact Hc.
  - exact Hc'.
  - exact Hne.
  - rewrite (nth_indep _ _ (measure me m k n (o_base s) dfl)) by (rewrite map_length; exact Hp). rewrite map_nth.
    rewrite (picks_optimal _ _ _ _ _ (HP p c Hp Hc)), (picks_optimal _ _ _ _ _ (HP p c' Hp Hc')). exact E.
  - rewrite R. eexists. split; [reflexivity|]. cbn. auto.
  - rewrite R. destruct ms as [|o0 ms]; [cbn in Hp; lia|]. rewrite F. eexists. split; [reflexivity|]. cbn. auto.
Qed.
Print Assumptions C128_ambiguous.

(** With one factor the table of the second factor cannot be made: compare raises,
    but what the figures need has been stored. *)
Theorem C128_one_factor : forall (m n : nat) (orc : list (res (list nat * list nat))) (arg : option string) (s : pobj) (ms : list fmodel),
  o_models s = Some ms -> ms <> [] -> List.length orc = List.length ms ->
  exists s' W H, compare m n 1 orc arg s = (s', Some IndexError) /\ o_W s' = Some W /\ o_H s' = Some H /\ o_table s' = o_table s /\
    st_count W = List.length ms /\ st_count H = List.length ms.
Proof.
  intros m n orc arg s ms Hms Hne HL. unfold compare. rewrite Hms. set (me := method_of (chosen arg (o_method s))).
  rewrite (measures_ok m n 1 me (o_base s) ms orc (fun _ _ => 0%nat) HL).
  - rewrite forallb_numbers. destruct ms as [|o0 ms]; [contradiction|]. cbn [negb Nat.leb]. eexists _, _, _. split; [reflexivity|]. cbn [o_W o_H o_table]. split; [reflexivity|]. split; [reflexivity|]. auto.
  - intros p c Hp Hc. assert (c = 0%nat) by lia. subst. pose proof (optimal_picks 1 me (measure me m 1 n (o_base s) (nth p ms dfl)) 0 ltac:(lia)) as P.
    assert (optimal 1 me (measure me m 1 n (o_base s) (nth p ms dfl)) 0 = 0)%nat by (destruct P; lia). rewrite H in P. exact P.
  - intros p c c' Hp Hc Hc' _. lia.
Qed.
Print Assumptions C128_one_factor.

(** Before run there is nothing to compare; and a comparison that raises, with at
    least two factors, leaves table and arrays of the comparison before. *)
Theorem C128_failed_compare : forall (m n k : nat) (orc : list (res (list nat * list nat))) (arg : option string) (s s' : pobj) (e : exn),
  compare m n k orc arg s = (s', Some e) ->
  o_base s' = o_base s /\ o_models s' = o_models s /\ o_mults s' = o_mults s /\ o_table s' = o_table s /\
  ((2 <= k)%nat -> o_W s' = o_W s /\ o_H s' = o_H s /\ o_stats s' = o_stats s /\
     plot_norm m k s' = plot_norm m k s /\ plot_average m k s' = plot_average m k s /\ forall i, plot_factor n k i s' = plot_factor n k i s) /\
  (o_models s = None -> e = TypeError /\ o_mapping s' = o_mapping s /\ o_W s' = o_W s).
Proof.
  intros m n k orc arg s s' e. unfold compare. destruct (o_models s) as [ms|] eqn:Hms.
  2:{ intros H. injection H as <- <-. cbn. repeat split; auto. }
  destruct (map_all _ _ _ orc) as [[mps vss]|e0].
  2:{ intros H. injection H as <- <-. cbn. repeat split; auto; discriminate. }
  destruct ms as [|o0 ms].
  { intros H. injection H as <- <-. cbn. repeat split; auto; discriminate. }
  destruct (negb (forallb (forallb is_number) vss)).
  { intros H. injection H as <- <-. cbn. repeat split; auto; discriminate. }
  destruct (k <=? 1)%nat eqn:K; intros H; [|discriminate]. injection H as <- <-. cbn. split; [reflexivity|]. split; [reflexivity|]. split; [reflexivity|]. split; [reflexivity|].
  split; [intros Hk; apply Nat.leb_le in K; lia|discriminate].
Qed.
Print Assumptions C128_failed_compare.

(** ** The name of the method *)
Lemma lower_names s : In (Cli_Model.lower s) ["raae"; "emc"; "corr"]%string <->
  (String.eqb (Cli_Model.lower s) "raae" || String.eqb (Cli_Model.lower s) "emc" || String.eqb (Cli_Model.lower s) "corr" = true)%bool.
Proof.
  rewrite !orb_true_iff, !String.eqb_eq. cbn. intuition congruence.
Qed.
Theorem C128_method : forall (m n k : nat) (orc : list (res (list nat * list nat))) (arg : option string) (s s' : pobj) (e : option exn),
  compare m n k orc arg s = (s', e) ->
  (forall a, arg = Some a -> In (Cli_Model.lower a) ["raae"; "emc"; "corr"]%string -> o_method s' = Cli_Model.lower a) /\
  ((arg = None \/ exists a, arg = Some a /\ ~ In (Cli_Model.lower a) ["raae"; "emc"; "corr"]%string) -> o_method s' = o_method s).
Proof.
  intros m n k orc arg s s' e H. assert (E : o_method s' = chosen arg (o_method s)).
  { unfold compare in H. destruct (o_models s) as [ms|]; [|injection H as <- <-; reflexivity]. destruct (map_all _ _ _ orc) as [[mps vss]|e0]; [|injection H as <- <-; reflexivity].
    destruct ms as [|o0 ms]; [injection H as <- <-; reflexivity|]. destruct (negb _); [injection H as <- <-; reflexivity|]. destruct (k <=? 1)%nat; injection H as <- <-; reflexivity. }
  rewrite E. split.
  - intros a -> Ha. cbn [chosen]. apply lower_names in Ha. rewrite Ha. reflexivity.
  - intros [->|(a & -> & Ha)]; [reflexivity|]. cbn [chosen]. destruct (_ || _ || _)%bool eqn:B; [|reflexivity]. exfalso. apply Ha, lower_names, B.
Qed.
Print Assumptions C128_method.

(** ** Multipliers *)
(** [y] is the value at [q] percent of the ascending order, interpolated. *)
Definition percentile_of (xs : list R) (q : nat) (y : R) : Prop :=
  forall s, Permutation xs s -> StronglySorted Rle s ->
  exists i fr, (i < List.length s)%nat /\ 0 <= fr < 1 /\ INR i + fr = INR q * INR (List.length s - 1) / 100 /\
    y = nth i s 0 + fr * (nth (S i) s 0 - nth i s 0).

Lemma quantile_percentile xs q : xs <> [] -> (q <= 100)%nat -> percentile_of xs q (Align_Model.quantile xs 100 q).
Proof.
  intros Hx Hq s P S0. assert (Hc : (0 < List.length s)%nat). { rewrite <- (Permutation_length P). destruct xs; [contradiction|cbn; lia]. }
  rewrite (Align_Props.quantile_between xs s 100 q P S0 ltac:(lia) Hq Hx).
  pose proof (Align_Props.above_cases (List.length s) 100 q ltac:(lia)) as A. pose proof (Align_Props.above_top (List.length s) 100 q ltac:(lia) Hq) as T.
  pose proof (Align_Props.below_above (List.length s) 100 q ltac:(lia)) as BA. pose proof (Align_Props.ratio_bounds (q * (List.length s - 1)) 100 ltac:(lia)) as RB.
  exists (Align_Props.below (List.length s) 100 q), (INR ((q * (List.length s - 1)) mod 100) / INR 100). split; [lia|]. split; [exact RB|]. split.
  - unfold Align_Props.below. rewrite <- mult_INR. set (a := (q * (List.length s - 1))%nat). pose proof (Nat.div_mod a 100 ltac:(lia)) as D.
    assert (E : INR a = 100 * INR (a / 100) + INR (a mod 100)). { rewrite D at 1. rewrite plus_INR, mult_INR. f_equal. f_equal. rewrite INR_IZR_INZ. reflexivity. }
    rewrite E. replace (INR 100) with 100 by (rewrite INR_IZR_INZ; reflexivity). field.
  - rewrite A. destruct (Nat.eqb_spec ((q * (List.length s - 1)) mod 100) 0) as [Z|Z].
    + rewrite Z. cbn [INR]. unfold Rdiv. ring.
    + ring.
Qed.
Lemma percentile_mono xs q q' y y' : xs <> [] -> (q <= q' <= 100)%nat -> percentile_of xs q y -> percentile_of xs q' y' -> y <= y'.
Proof.
  intros Hx Hq Hy Hy'. set (s := Align_Model.sorted_copy xs). pose proof (Align_Props.sorted_copy_perm xs) as P. pose proof (Align_Props.sorted_copy_sorted xs) as S0. fold s in P, S0.
  assert (Hc : (0 < List.length s)%nat). { rewrite <- (Permutation_length P). destruct xs; [contradiction|cbn; lia]. }
  destruct (Hy s P S0) as (i & fr & Hi & Hf & E & ->). destruct (Hy' s P S0) as (i' & fr' & Hi' & Hf' & E' & ->).
  assert (L : INR i + fr <= INR i' + fr'). { rewrite E, E'. apply Rmult_le_compat_r; [lra|]. apply Rmult_le_compat_r; [apply pos_INR|]. apply le_INR. lia. }
  assert (Top : forall (q0 : nat) (i0 : nat) (f0 : R), (q0 <= 100)%nat -> (i0 < List.length s)%nat -> 0 < f0 -> INR i0 + f0 = INR q0 * INR (List.length s - 1) / 100 -> (S i0 < List.length s)%nat).
  { intros q0 i0 f0 H1 H2 H3 H4. destruct (Nat.eq_dec i0 (List.length s - 1)) as [Ei|Ei]; [|lia]. exfalso. subst i0.
    assert (INR q0 <= 100) by (change 100 with (INR (Z.to_nat 100)) || idtac; apply le_INR in H1; replace (INR 100) with 100 in H1 by (rewrite INR_IZR_INZ; reflexivity); exact H1).
    pose proof (pos_INR (List.length s - 1)). nra. }
  destruct (Nat.lt_total i i') as [Lt|[Eq|Gt]].
  - assert (A : nth i s 0 + fr * (nth (S i) s 0 - nth i s 0) <= nth (S i) s 0).
    { pose proof (Align_Props.sorted_nth s S0 i (S i) ltac:(lia) ltac:(lia)). nra. }
    assert (B : nth i' s 0 <= nth i' s 0 + fr' * (nth (S i') s 0 - nth i' s 0)).
    { destruct (Req_dec fr' 0) as [->|F]; [lra|]. pose proof (Align_Props.sorted_nth s S0 i' (S i') ltac:(lia) (Top q' i' fr' ltac:(lia) Hi' ltac:(lra) E')). nra. }
    pose proof (Align_Props.sorted_nth s S0 (S i) i' ltac:(lia) Hi'). lra.
  - subst i'. destruct (Req_dec fr' 0) as [->|F]; [replace fr with 0 by lra; lra|].
    pose proof (Align_Props.sorted_nth s S0 i (S i) ltac:(lia) (Top q' i fr' ltac:(lia) Hi' ltac:(lra) E')). nra.
  - exfalso. apply le_INR in Gt. rewrite S_INR in Gt. lra.
Qed.
Lemma percentile_range xs q y lo hi : xs <> [] -> (q <= 100)%nat -> percentile_of xs q y -> (forall x, In x xs -> lo <= x <= hi) -> lo <= y <= hi.
Proof.
  intros Hx Hq Hy Hr. set (s := Align_Model.sorted_copy xs). pose proof (Align_Props.sorted_copy_perm xs) as P. pose proof (Align_Props.sorted_copy_sorted xs) as S0. fold s in P, S0.
  destruct (Hy s P S0) as (i & fr & Hi & Hf & E & ->).
  assert (B : forall j, (j < List.length s)%nat -> lo <= nth j s 0 <= hi) by (intros j Hj; apply Hr, (Permutation_in _ (Permutation_sym P)), nth_In, Hj).
  pose proof (B i Hi) as B1. destruct (Req_dec fr 0) as [->|F]; [lra|].
  assert (Hi2 : (S i < List.length s)%nat).
  { destruct (Nat.eq_dec i (List.length s - 1)) as [Ei|Ei]; [|lia]. exfalso. subst i.
    assert (INR q <= 100) by (apply le_INR in Hq; replace (INR 100) with 100 in Hq by (rewrite INR_IZR_INZ; reflexivity); exact Hq).
    pose proof (pos_INR (List.length s - 1)). nra. }
  pose proof (B (S i) Hi2) as B2. split; nra.
Qed.

Lemma lsum_le_map {A} (f g : A -> R) l : (forall x, In x l -> f x <= g x) -> lsum (map f l) <= lsum (map g l).
Proof. induction l as [|x l IH]; intros H; cbn; [lra|]. pose proof (H x (or_introl eq_refl)). specialize (IH (fun y Hy => H y (or_intror Hy))). lra. Qed.
Lemma lsum_const_map {A} (c : R) (l : list A) : lsum (map (fun _ => c) l) = INR (List.length l) * c.
Proof. induction l as [|x l IH]; [cbn; lra|]. cbn [map lsum List.length]. rewrite S_INR. change (lsum (map (fun _ => c) l)) with (lsum (map (fun _ : A => c) l)). cbn. rewrite IH. ring. Qed.
Lemma flat_in m n A x : In x (flat m n A) -> exists t j, (t < m)%nat /\ (j < n)%nat /\ x = A t j.
Proof. intros H. apply in_flat_map in H. destruct H as (t & Ht & H). apply in_map_iff in H. destruct H as (j & <- & Hj). apply in_seq in Ht. apply in_seq in Hj. exists t, j. repeat split; lia || reflexivity. Qed.
Lemma flat_not_empty m n A : (0 < m)%nat -> (0 < n)%nat -> flat m n A <> [].
Proof. intros Hm Hn E. destruct m as [|m]; [lia|]. destruct n as [|n]; [lia|]. discriminate. Qed.

(** The multiplier statistics are the averages over the models of the percentiles 1,
    25, 50, 75 and 99; they ascend, and stay within the range of the multipliers. *)
Theorem C128_multipliers : forall (m n k : nat) (orc : list (res (list nat * list nat))) (arg : option string) (s s' : pobj),
  compare m n k orc arg s = (s', None) -> (0 < m)%nat -> (0 < n)%nat -> o_mults s <> [] ->
  exists st, o_stats s' = Some st /\
    Forall2 (fun q x => exists ys, Forall2 (fun A y => percentile_of (flat m n A) q y) (o_mults s) ys /\ x = lsum ys / INR (List.length (o_mults s)))
      [1; 25; 50; 75; 99]%nat st /\
    StronglySorted Rle st /\
    forall lo hi, (forall A t j, In A (o_mults s) -> (t < m)%nat -> (j < n)%nat -> lo <= A t j <= hi) -> Forall (fun x => lo <= x <= hi) st.
Proof.
  intros m n k orc arg s s' H Hm Hn Hne.
  assert (E : o_stats s' = Some (mult_stats m n (o_mults s))).
  { unfold compare in H. destruct (o_models s) as [ms|]; [|discriminate]. destruct (map_all _ _ _ orc) as [[mps vss]|e0]; [|discriminate].
    destruct ms as [|o0 ms]; [discriminate|]. destruct (negb _); [discriminate|]. destruct (k <=? 1)%nat; [discriminate|]. injection H as <-. reflexivity. }
  exists (mult_stats m n (o_mults s)). split; [exact E|]. clear E H. set (Ms := o_mults s) in *.
  assert (HI : 0 < INR (List.length Ms)) by (apply lt_0_INR; destruct Ms; [contradiction|cbn; lia]).
  assert (Q : forall q A, (q <= 100)%nat -> percentile_of (flat m n A) q (Align_Model.quantile (flat m n A) 100 q)) by (intros q A Hq; apply quantile_percentile; [apply flat_not_empty; assumption|exact Hq]).
  assert (Mono : forall q q', (q <= q' <= 100)%nat -> lsum (map (fun A => Align_Model.quantile (flat m n A) 100 q) Ms) / INR (List.length Ms) <= lsum (map (fun A => Align_Model.quantile (flat m n A) 100 q') Ms) / INR (List.length Ms)).
  { intros q q' Hq. apply Rmult_le_compat_r; [left; apply Rinv_0_lt_compat, HI|]. apply lsum_le_map. intros A _. apply (percentile_mono (flat m n A) q q'); [apply flat_not_empty; assumption|exact Hq|apply Q; lia|apply Q; lia]. }
  split; [|split].
  - unfold mult_stats, percents. cbn [map].
    assert (G : forall q, (q <= 100)%nat -> exists ys, Forall2 (fun A y => percentile_of (flat m n A) q y) Ms ys /\ lsum (map (fun A => Align_Model.quantile (flat m n A) 100 q) Ms) / INR (List.length Ms) = lsum ys / INR (List.length Ms)).
    { intros q Hq. exists (map (fun A => Align_Model.quantile (flat m n A) 100 q) Ms). split; [|reflexivity]. clear - Q Hq. induction Ms as [|A Ms IH]; cbn; constructor; auto. }
    apply Forall2_cons; [apply G; lia|]. apply Forall2_cons; [apply G; lia|]. apply Forall2_cons; [apply G; lia|]. apply Forall2_cons; [apply G; lia|]. apply Forall2_cons; [apply G; lia|]. apply Forall2_nil.
  - unfold mult_stats, percents. cbn [map]. repeat first [apply SSorted_cons|apply SSorted_nil|apply Forall_cons|apply Forall_nil|apply Mono; lia].
  - intros lo hi Hr. unfold mult_stats. apply Forall_forall. intros x Hx. apply in_map_iff in Hx. destruct Hx as (q & <- & Hq). assert (Hq' : (q <= 100)%nat) by (cbn in Hq; lia).
    assert (B : forall A, In A Ms -> lo <= Align_Model.quantile (flat m n A) 100 q <= hi).
    { intros A HA. apply (percentile_range (flat m n A) q); [apply flat_not_empty; assumption|exact Hq'|apply Q, Hq'|]. intros y Hy. destruct (flat_in _ _ _ _ Hy) as (t & j & Ht & Hj & ->). apply (Hr A t j); assumption. }
    pose proof (lsum_le_map (fun _ => lo) (fun A => Align_Model.quantile (flat m n A) 100 q) Ms (fun A HA => proj1 (B A HA))) as B1.
    pose proof (lsum_le_map (fun A => Align_Model.quantile (flat m n A) 100 q) (fun _ => hi) Ms (fun A HA => proj2 (B A HA))) as B2.
    rewrite lsum_const_map in B1, B2. split; apply (Rmult_le_reg_r (INR (List.length Ms))); try exact HI; unfold Rdiv; rewrite Rmult_assoc, Rinv_l by lra; lra.
Qed.
Print Assumptions C128_multipliers.

(** ** The figures *)
Lemma mapped_bij m n k me b ms mp p : mapped m n k me b ms mp -> one_to_one k ms mp -> (p < List.length ms)%nat -> bij k (mp p).
Proof. intros HP HI Hp. split; [intros c Hc; apply (HP p c Hp Hc)|intros c c' Hc Hc'; apply HI; assumption]. Qed.
Lemma fsum2_fin m N f g : (forall t p, (t < m)%nat -> (p < N)%nat -> f t p = Fin (g t p)) -> fsum m (fun t => fsum N (fun p => f t p)) = Fin (rsum m (fun t => rsum N (fun p => g t p))).
Proof. intros H. rewrite <- fsum_fin. apply fsum_ext. intros t Ht. rewrite <- fsum_fin. apply fsum_ext. intros p Hp. apply H; assumption. Qed.

(** Both series of bars add up to 100 percent; bar [i] of the perturbed series is the
    average share, over samples and models, of the factors paired with factor [i],
    and the mean of the box of factor [i] is that share. *)
Theorem C128_contributions : forall (m n k : nat) (orc : list (res (list nat * list nat))) (arg : option string) (s : pobj) (ms : list fmodel) (mp : nat -> nat -> nat),
  let me := method_of (chosen arg (o_method s)) in
  let N := List.length ms in
  let s' := fst (compare m n k orc arg s) in
  (0 < m)%nat -> (2 <= k)%nat -> o_models s = Some ms -> ms <> [] -> List.length orc = List.length ms ->
  regular m n k (o_base s) -> (forall o, In o ms -> regular m n k o) ->
  mapped m n k me (o_base s) ms mp -> one_to_one k ms mp ->
  exists (bar base : nat -> R) (box : nat -> nat -> R),
    plot_norm m k s' = Figure (map (fun i => Fin (bar i)) (seq 0 k), map (fun i => Fin (base i)) (seq 0 k)) /\
    rsum k bar = 100 /\ rsum k base = 100 /\
    plot_average m k s' = Figure (map (fun i => map (fun p => Fin (box i p)) (seq 0 N)) (seq 0 k), map (fun i => Fin (base i / 100)) (seq 0 k)) /\
    (forall i p, (i < k)%nat -> (p < N)%nat -> box i p = rsum m (fun t => part_W k (nth p ms dfl) t (mp p i)) / INR m) /\
    (forall i, (i < k)%nat -> bar i = 100 * (rsum N (box i) / INR N)) /\
    (forall i, (i < k)%nat -> base i = 100 * (rsum m (fun t => part_W k (o_base s) t i) / INR m)).
Proof.
  intros m n k orc arg s ms mp me N s' Hm Hk Hms Hne HL Rb Rm HP HI.
  destruct (C128_compare m n k orc arg s ms mp Hk Hms Hne HL Rb Rm HP HI) as (s1 & W & H & rows & vss & E & _ & _ & _ & EW & _ & _ & CW & _ & _ & VW & _ & _ & EB & _).
  unfold s'. rewrite E. cbn [fst]. unfold plot_norm, plot_average. rewrite EW, CW, EB. fold N.
  assert (HN : (0 < N)%nat) by (unfold N; destruct ms; [contradiction|cbn; lia]). pose proof (lt_0_INR N HN) as IN. pose proof (lt_0_INR m Hm) as Im.
  exists (fun i => 100 * (rsum N (fun p => rsum m (fun t => part_W k (nth p ms dfl) t (mp p i)) / INR m) / INR N)), (fun i => 100 * (rsum m (fun t => part_W k (o_base s) t i) / INR m)),
    (fun i p => rsum m (fun t => part_W k (nth p ms dfl) t (mp p i)) / INR m).
  assert (BM : forall i, fmean m (fun t => share_W k (o_base s) t i) = Fin (rsum m (fun t => part_W k (o_base s) t i) / INR m)).
  { intros i. apply fmean_fin; [exact Hm|]. intros t Ht. apply (share_W_fin m n); assumption. }
  split; [|split; [|split; [|split; [|auto]]]].
  - f_equal. f_equal.
    + apply map_ext_in. intros i Hi. apply in_seq in Hi. rewrite (fsum2_fin m N (fun t p => st_at W i t p) (fun t p => part_W k (nth p ms dfl) t (mp p i))) by (intros t p Ht Hp; apply VW; [lia|exact Ht|exact Hp]).
      unfold fdiv. destruct (Req_EM_T (INR (m * N)) 0) as [Z|Z]; [rewrite mult_INR in Z; nra|]. cbn [fmul]. f_equal. f_equal. rewrite rsum_swap, mult_INR. unfold Rdiv. rewrite (rsum_scal_r N (/ INR m)). field. split; lra.
    + apply map_ext_in. intros i Hi. rewrite BM. reflexivity.
  - rewrite (rsum_scal_l k 100 (fun i => rsum N (fun p => rsum m (fun t => part_W k (nth p ms dfl) t (mp p i)) / INR m) / INR N)). unfold Rdiv.
    rewrite (rsum_scal_r k (/ INR N) (fun i => rsum N (fun p => rsum m (fun t => part_W k (nth p ms dfl) t (mp p i)) * / INR m))). rewrite rsum_swap.
    rewrite (rsum_ext N _ (fun _ => 1)).
    + rewrite rsum_const, Rmult_1_r, Rinv_r by lra. ring.
    + intros p Hp. rewrite (rsum_scal_r k (/ INR m) (fun i => rsum m (fun t => part_W k (nth p ms dfl) t (mp p i)))). rewrite rsum_swap. rewrite (rsum_ext m _ (fun _ => 1)); [rewrite rsum_const, Rmult_1_r; apply Rinv_r; lra|].
      intros t Ht. rewrite (rsum_reindex k (mp p) (fun i => part_W k (nth p ms dfl) t i)) by (apply (mapped_bij m n k me (o_base s) ms); assumption).
      apply (part_W_total m n); [apply Rm, nth_In, Hp|exact Ht].
  - rewrite (rsum_scal_l k 100 (fun i => rsum m (fun t => part_W k (o_base s) t i) / INR m)). unfold Rdiv. rewrite (rsum_scal_r k (/ INR m) (fun i => rsum m (fun t => part_W k (o_base s) t i))). rewrite rsum_swap.
    rewrite (rsum_ext m _ (fun _ => 1)); [rewrite rsum_const, Rmult_1_r, Rinv_r by lra; ring|]. intros t Ht. apply (part_W_total m n); assumption.
  - f_equal. f_equal.
    + apply map_ext_in. intros i Hi. apply in_seq in Hi. apply map_ext_in. intros p Hp. apply in_seq in Hp. apply fmean_fin; [exact Hm|]. intros t Ht. apply VW; [lia|exact Ht|lia].
    + apply map_ext_in. intros i Hi. rewrite BM. f_equal. field. lra.
Qed.
Print Assumptions C128_contributions.

(** The box of factor [i] in the metric figure holds the values of the base factors
    [mp p i], not of base factor [i]; the line is the mean of all values. *)
Theorem C128_metric_figure : forall (m n k : nat) (orc : list (res (list nat * list nat))) (arg : option string) (s : pobj) (ms : list fmodel) (mp : nat -> nat -> nat) (g : nat -> nat -> R),
  let me := method_of (chosen arg (o_method s)) in
  let N := List.length ms in
  let s' := fst (compare m n k orc arg s) in
  (2 <= k)%nat -> o_models s = Some ms -> ms <> [] -> List.length orc = List.length ms ->
  regular m n k (o_base s) -> (forall o, In o ms -> regular m n k o) ->
  mapped m n k me (o_base s) ms mp -> one_to_one k ms mp ->
  (forall p i, (p < N)%nat -> (i < k)%nat -> measure me m k n (o_base s) (nth p ms dfl) i (mp p i) = Fin (g p i)) ->
  plot_corr k s' = Figure (map (fun i => map (fun p => Fin (round4 (g p (mp p i)))) (seq 0 N)) (seq 0 k),
                           Fin (rsum N (fun p => rsum k (fun i => round4 (g p i))) / INR (N * k)), chosen arg (o_method s)).
Proof.
  intros m n k orc arg s ms mp g me N s' Hk Hms Hne HL Rb Rm HP HI Hg.
  destruct (C128_compare m n k orc arg s ms mp Hk Hms Hne HL Rb Rm HP HI) as (s1 & W & H & rows & vss & E & EM & EV & V & EW & _).
  assert (Emeth : o_method s1 = chosen arg (o_method s)).
  { unfold compare in E. rewrite Hms in E. destruct (map_all _ _ _ orc) as [[mps0 vss0]|e0]; [|discriminate]. destruct ms as [|o0 ms]; [contradiction|]. destruct (negb _); [discriminate|]. destruct (k <=? 1)%nat; [discriminate|]. injection E as <-. reflexivity. }
  unfold s'. rewrite E. cbn [fst]. unfold plot_corr. rewrite EW, EM, EV, Emeth. rewrite map_length, seq_length. fold N.
  assert (NV : forallb (forallb is_number) vss = true).
  { clear - E EV. unfold compare in E. destruct (o_models s) as [ms0|]; [|discriminate]. destruct (map_all _ _ _ orc) as [[mps0 vss0]|e0]; [|discriminate]. destruct ms0 as [|o0 ms0]; [discriminate|].
    destruct (forallb (forallb is_number) vss0) eqn:F; [|discriminate]. cbn [negb] in E. destruct (k <=? 1)%nat; [discriminate|]. injection E as <-. cbn [o_values] in EV. injection EV as <-. exact F. }
  rewrite NV. cbn [negb].
  assert (C : forall p i, (p < N)%nat -> (i < k)%nat -> corr_cell (map (fun p => map (mp p) (seq 0 k)) (seq 0 N)) vss p i = Fin (round4 (g p (mp p i)))).
  { intros p i Hp Hi. unfold corr_cell. rewrite nth_map_seqA by exact Hp. rewrite nth_map_seqA by exact Hi. assert (Hb : (mp p i < k)%nat) by apply (HP p i Hp Hi).
    pose proof (V p (mp p i) Hp Hb) as X. rewrite (nth_error_nth _ _ Unset X). fold me. rewrite (Hg p (mp p i) Hp Hb). reflexivity. }
  assert (HN : (0 < N)%nat) by (unfold N; destruct ms; [contradiction|cbn; lia]).
  do 2 f_equal. f_equal.
  - apply map_ext_in. intros i Hi. apply in_seq in Hi. apply map_ext_in. intros p Hp. apply in_seq in Hp. apply C; lia.
  - rewrite (fsum2_fin N k _ (fun p i => round4 (g p (mp p i)))) by exact C. unfold fdiv. destruct (Req_EM_T (INR (N * k)) 0) as [Z|Z].
    { exfalso. rewrite mult_INR in Z. pose proof (lt_0_INR N HN). pose proof (lt_0_INR k ltac:(lia)). nra. }
    do 2 f_equal. apply rsum_ext. intros p Hp. apply (rsum_reindex k (mp p) (fun i => round4 (g p i))). apply (mapped_bij m n k me (o_base s) ms); assumption.
Qed.
Print Assumptions C128_metric_figure.

(** The profile figure: None from [k] on, python's negative indices below, and the
    shares of all models beside those of the base model. *)
Theorem C128_factor_figure : forall (m n k : nat) (orc : list (res (list nat * list nat))) (arg : option string) (s : pobj) (ms : list fmodel) (mp : nat -> nat -> nat) (idx : Z),
  let me := method_of (chosen arg (o_method s)) in
  let N := List.length ms in
  let s' := fst (compare m n k orc arg s) in
  (2 <= k)%nat -> o_models s = Some ms -> ms <> [] -> List.length orc = List.length ms ->
  regular m n k (o_base s) -> (forall o, In o ms -> regular m n k o) ->
  mapped m n k me (o_base s) ms mp -> one_to_one k ms mp ->
  ((Z.of_nat k <= idx)%Z -> plot_factor n k idx s' = Nothing) /\
  ((idx < - Z.of_nat k)%Z -> plot_factor n k idx s' = Fails IndexError) /\
  (forall i, (i < k)%nat -> idx = Z.of_nat i \/ idx = (Z.of_nat i - Z.of_nat k)%Z ->
     plot_factor n k idx s' = Figure (map (fun j => map (fun p => Fin (part_H k (nth p ms dfl) (mp p i) j)) (seq 0 N)) (seq 0 n), map (fun j => Fin (part_H k (o_base s) i j)) (seq 0 n))).
Proof.
  intros m n k orc arg s ms mp idx me N s' Hk Hms Hne HL Rb Rm HP HI.
  destruct (C128_compare m n k orc arg s ms mp Hk Hms Hne HL Rb Rm HP HI) as (s1 & W & H & rows & vss & E & _ & _ & _ & EW & EH & _ & _ & CH & _ & _ & VH & _ & EB & _).
  unfold s'. rewrite E. cbn [fst]. unfold plot_factor. rewrite EW, EH, CH, EB. fold N. split; [|split].
  - intros L. rewrite (proj2 (Z.leb_le _ _) L). reflexivity.
  - intros L. rewrite (proj2 (Z.leb_gt (Z.of_nat k) idx)) by lia. rewrite (proj2 (Z.ltb_lt idx 0)) by lia. rewrite (proj2 (Z.ltb_lt _ 0)) by lia. reflexivity.
  - intros i Hi Hx. rewrite (proj2 (Z.leb_gt (Z.of_nat k) idx)) by lia. assert (Ep : (if (idx <? 0)%Z then (idx + Z.of_nat k)%Z else idx) = Z.of_nat i).
    { destruct (Z.ltb_spec idx 0); lia. }
    rewrite Ep. rewrite (proj2 (Z.ltb_ge (Z.of_nat i) 0)) by lia. rewrite Nat2Z.id. f_equal. f_equal.
    + apply map_ext_in. intros j Hj. apply in_seq in Hj. apply map_ext_in. intros p Hp. apply in_seq in Hp. apply VH; [exact Hi|lia|unfold N in Hp; lia].
    + apply map_ext_in. intros j Hj. apply in_seq in Hj. apply (share_H_fin m n); [exact Rb|lia].
Qed.
Print Assumptions C128_factor_figure.

(** Without a comparison every figure is None. *)
Theorem C128_before_compare : forall (m n k : nat) (idx : Z) (s : pobj), o_W s = None ->
  plot_norm m k s = Nothing /\ plot_average m k s = Nothing /\ plot_corr k s = Nothing /\ plot_factor n k idx s = Nothing.
Proof. intros m n k idx s E. unfold plot_norm, plot_average, plot_corr, plot_factor. rewrite E. auto. Qed.
Print Assumptions C128_before_compare.

(** ** Perturbed models that are the base model again *)
Lemma reordering_mapped m n k b ms s inv : (0 < m)%nat -> distinct_factors m k b ->
  (forall p, (p < List.length ms)%nat -> is_reordering m n k b (nth p ms dfl) (s p)) ->
  (forall p j, (p < List.length ms)%nat -> (j < k)%nat -> (inv p j < k)%nat /\ s p (inv p j) = j) ->
  mapped m n k RAAE b ms inv /\ one_to_one k ms inv.
Proof.
  intros Hm [Hpos Hdist] Hr Hinv. split.
  - intros p c Hp Hc. destruct (Hr p Hp) as (Hb & HW & HH). destruct (Hinv p c Hp Hc) as [Hi Es]. cbn [measure].
    assert (Z : raae m b (nth p ms dfl) (inv p c) c = Fin 0). { apply raae_same; [exact Hm|apply Hpos, Hi|]. intros t Ht. rewrite <- Es at 1. apply HW; assumption. }
    assert (D : forall j, (j < k)%nat -> j <> inv p c -> exists v, raae m b (nth p ms dfl) j c = Fin v /\ 0 < v).
    { intros j Hj Hne. apply raae_diff; [exact Hm|apply Hpos, Hj|]. destruct (Hdist (inv p c) j Hi Hj) as (t & Ht & Hd); [congruence|]. exists t. split; [exact Ht|]. rewrite <- Es at 1. rewrite HW by assumption. exact Hd. }
    split; [exact Hi|]. right. rewrite Z. split; [|split].
    + intros i Hi'. destruct (Nat.eq_dec i (inv p c)) as [->|Hne]; [rewrite Z; discriminate|]. destruct (D i Hi' Hne) as (v & -> & _). discriminate.
    + intros i Hi'. destruct (Nat.eq_dec i (inv p c)) as [->|Hne]; [rewrite Z; apply flt_irrefl|]. destruct (D i Hi' Hne) as (v & -> & Hv). cbn. apply Rltb_false. lra.
    + intros i Hi'. destruct (D i ltac:(lia) ltac:(lia)) as (v & -> & Hv). cbn. apply Rltb_iff. exact Hv.
  - intros p c c' Hp Hc Hc' E. rewrite <- (proj2 (Hinv p c Hp Hc)), <- (proj2 (Hinv p c' Hp Hc')), E. reflexivity.
Qed.

(** Models that list the factors of the base model in another order ([s p] says where
    each factor went, [inv p] where it came from): the table compares base factor 1
    with base factor [inv p (inv p 1)].  It is right when each order is its own
    inverse, for instance unchanged; then it reports no difference. *)
Theorem C128_reordered : forall (m n k : nat) (orc : list (res (list nat * list nat))) (arg : option string) (st : pobj) (ms : list fmodel) (s inv : nat -> nat -> nat),
  (0 < m)%nat -> (2 <= k)%nat -> method_of (chosen arg (o_method st)) = RAAE -> o_models st = Some ms -> ms <> [] -> List.length orc = List.length ms ->
  regular m n k (o_base st) -> (forall o, In o ms -> regular m n k o) -> distinct_factors m k (o_base st) ->
  (forall p, (p < List.length ms)%nat -> is_reordering m n k (o_base st) (nth p ms dfl) (s p)) ->
  (forall p j, (p < List.length ms)%nat -> (j < k)%nat -> (inv p j < k)%nat /\ s p (inv p j) = j) ->
  exists st' rows, compare m n k orc arg st = (st', None) /\ o_table st' = Some rows /\ List.length rows = n /\
    (forall j r, nth_error rows j = Some r -> line_of (List.length ms) (part_H k (o_base st) 1 j) (fun p => part_H k (o_base st) (inv p (inv p 1%nat)) j) r) /\
    ((forall p, (p < List.length ms)%nat -> s p (s p 1%nat) = 1%nat) ->
     forall j r, nth_error rows j = Some r -> exists x, r = mkRow (Fin x) (Fin x) (Fin 0) (Fin 0) (Fin x) (Fin x)).
Proof.
  intros m n k orc arg st ms s inv Hm Hk Hme Hms Hne HL Rb Rm HD Hr Hinv.
  destruct (reordering_mapped m n k (o_base st) ms s inv Hm HD Hr Hinv) as [HP HI].
  assert (HN : (0 < List.length ms)%nat) by (destruct ms; [contradiction|cbn; lia]).
  pose proof (C128_compare m n k orc arg st ms inv Hk Hms Hne HL Rb Rm) as C. cbv zeta in C. rewrite Hme in C.
  destruct (C HP HI) as (st' & W & H & rows & vss & E & _ & _ & _ & _ & _ & ET & _ & _ & LR & _ & _ & L & _).
  exists st', rows. split; [exact E|]. split; [exact ET|]. split; [exact LR|].
  assert (PH : forall p i j, (p < List.length ms)%nat -> (i < k)%nat -> (j < n)%nat -> part_H k (nth p ms dfl) (inv p i) j = part_H k (o_base st) (inv p (inv p i)) j).
  { intros p i j Hp Hi Hj. destruct (Hr p Hp) as (Hb & HW & HH). destruct (Hinv p i Hp Hi) as [Hi1 E1]. destruct (Hinv p (inv p i) Hp Hi1) as [Hi2 E2]. unfold part_H. f_equal.
    - rewrite <- E2 at 1. apply HH; assumption.
    - rewrite <- (rsum_reindex k (s p) (fun q => f_H (nth p ms dfl) q j) Hb). apply rsum_ext. intros q Hq. apply HH; assumption. }
  assert (Main : forall j r, nth_error rows j = Some r -> line_of (List.length ms) (part_H k (o_base st) 1 j) (fun p => part_H k (o_base st) (inv p (inv p 1%nat)) j) r).
  { intros j r Hj. assert (Hjn : (j < n)%nat) by (rewrite <- LR; apply nth_error_Some; congruence). specialize (L j r Hj).
    assert (X : forall f g, (forall p, (p < List.length ms)%nat -> f p = g p) -> forall b, line_of (List.length ms) b f r -> line_of (List.length ms) b g r).
    { intros f g Hfg b0 (L1 & L2 & L3 & L4 & lo & hi & L5 & L6 & (pl & Hpl & El) & (ph & Hph & Eh) & LB). unfold line_of. rewrite <- (rsum_ext (List.length ms) f g Hfg).
      rewrite <- (rsum_ext (List.length ms) (fun p => (f p - rsum (List.length ms) f / INR (List.length ms)) ^ 2) (fun p => (g p - rsum (List.length ms) f / INR (List.length ms)) ^ 2)) by (intros p Hp; rewrite Hfg by exact Hp; reflexivity).
      split; [exact L1|]. split; [exact L2|]. split; [exact L3|]. split; [exact L4|]. exists lo, hi. split; [exact L5|]. split; [exact L6|]. split; [exists pl; split; [exact Hpl|rewrite <- Hfg by exact Hpl; exact El]|]. split; [exists ph; split; [exact Hph|rewrite <- Hfg by exact Hph; exact Eh]|].
      intros p Hp. rewrite <- Hfg by exact Hp. apply LB, Hp. }
    revert L. apply X. intros p Hp. apply PH; [exact Hp|lia|exact Hjn]. }
  split; [exact Main|]. intros Hinvol j r Hj. destruct (Main j r Hj) as (L1 & L2 & L3 & L4 & lo & hi & L5 & L6 & (pl & Hpl & El) & (ph & Hph & Eh) & LB).
  assert (II : forall p, (p < List.length ms)%nat -> inv p (inv p 1%nat) = 1%nat).
  { intros p Hp. destruct (Hr p Hp) as (Hb & _). destruct (Hinv p 1%nat Hp ltac:(lia)) as [Hi1 E1]. destruct (Hinv p (inv p 1%nat) Hp Hi1) as [Hi2 E2].
    assert (A : inv p 1%nat = s p 1%nat). { apply (proj2 Hb); [exact Hi1|apply (proj1 Hb); lia|]. rewrite E1. symmetry. apply Hinvol, Hp. }
    apply (proj2 Hb); [exact Hi2|lia|]. rewrite E2. exact A. }
  set (x := part_H k (o_base st) 1 j) in *.
  assert (S1 : rsum (List.length ms) (fun p => part_H k (o_base st) (inv p (inv p 1%nat)) j) / INR (List.length ms) = x).
  { rewrite (rsum_ext _ _ (fun _ => x)) by (intros p Hp; rewrite II by exact Hp; reflexivity). rewrite rsum_const. pose proof (lt_0_INR _ HN). field. lra. }
  rewrite S1 in L2, L3, L4. rewrite (rsum_ext _ _ (fun _ => 0)) in L4 by (intros p Hp; rewrite II by exact Hp; fold x; ring). rewrite rsum_0 in L4. unfold Rdiv in L4. rewrite Rmult_0_l, sqrt_0 in L4. rewrite (round10_int 0) in L4.
  rewrite II in El by exact Hpl. rewrite II in Eh by exact Hph. fold x in El, Eh. subst lo hi.
  exists (round10 x). destruct r as [r1 r2 r3 r4 r5 r6]. cbn [r_base r_mean r_diff r_std r_min r_max] in *. subst. f_equal. f_equal.
  destruct (Rlt_dec x (/ 1000000)); [reflexivity|]. replace (200 * (x - x) / (x + x)) with 0 by (field; lra). apply (round4_int 0).
Qed.
Print Assumptions C128_reordered.

(** ** Examples *)
(** One sample, one feature, two factors with contributions 1 and 2 in the base
    model. *)
Definition two (w0 w1 h0 h1 : R) : fmodel := mkF (fun _ q => match q with 0%nat => w0 | _ => w1 end) (fun q _ => match q with 0%nat => h0 | _ => h1 end).
Definition start (me : string) (o : fmodel) : pobj := mkObj (two 1 2 1 1) (Some [o]) [fun _ _ => 2] me None None None None None None.
Lemma two_regular w0 w1 h0 h1 : 0 < w0 -> 0 < w1 -> 0 <= h0 -> 0 <= h1 -> 0 < h0 + h1 -> regular 1 1 2 (two w0 w1 h0 h1).
Proof.
  intros A B C D E. unfold regular, two. cbn [f_W f_H rsum]. split; [intros t [|i] _ _; lra|]. split; [intros; lra|]. split; [intros [|i] j _ _; lra|]. intros; lra.
Qed.
Lemma raae_one b o j q : f_W b 0%nat j <> 0 -> raae 1 b o j q = Fin (Rabs (f_W o 0%nat q - f_W b 0%nat j) / f_W b 0%nat j).
Proof. intros H. unfold raae. cbn [rsum INR]. unfold fdiv. replace (1 / 1) with 1 by field. rewrite !Rplus_0_l, !Rmult_1_r. destruct (Req_EM_T _ 0); [contradiction|reflexivity]. Qed.
Lemma picks_two M c j x y : (j < 2)%nat -> M j c = Fin x -> M (1 - j)%nat c = Fin y -> x < y -> picks 2 RAAE M c j.
Proof.
  intros Hj Ex Ey L. split; [exact Hj|]. right. rewrite Ex.
  assert (A : forall i, (i < 2)%nat -> (i = j /\ M i c = Fin x) \/ (i = (1 - j)%nat /\ M i c = Fin y)) by (intros i Hi; destruct (Nat.eq_dec i j) as [->|Hne]; [left; auto|right; assert (i = (1 - j)%nat) by lia; subst; auto]).
  split; [|split].
  - intros i Hi. destruct (A i Hi) as [[_ ->]|[_ ->]]; discriminate.
  - intros i Hi. destruct (A i Hi) as [[_ ->]|[_ ->]]; cbn; apply Rltb_false; lra.
  - intros i Hi. destruct (A i ltac:(lia)) as [[E _]|[_ ->]]; [lia|]. cbn. apply Rltb_iff. exact L.
Qed.
(** The same contributions: every factor is paired with itself. *)
Lemma same_mapped h0 h1 : mapped 1 1 2 RAAE (two 1 2 1 1) [two 1 2 h0 h1] (fun _ c => c).
Proof.
  intros p c Hp Hc. cbn in Hp. assert (p = 0%nat) by lia. subst. cbn [nth measure]. destruct c as [|[|c]]; [| |lia].
  - apply (picks_two _ _ _ 0 (/ 2)); [lia| | |lra]; rewrite raae_one by (cbn; lra); cbn [f_W two]; f_equal; [replace (1 - 1) with 0 by ring; rewrite Rabs_R0; field|rewrite Rabs_left by (cbn; lra); cbn; lra].
  - apply (picks_two _ _ _ 0 1); [lia| | |lra]; rewrite raae_one by (cbn; lra); cbn [f_W two]; f_equal; [replace (2 - 2) with 0 by ring; rewrite Rabs_R0; field|rewrite Rabs_right by (cbn; lra); cbn; lra].
Qed.
(** Contributions 2 and 1.1: the factors are exchanged. *)
Lemma swapped_mapped : mapped 1 1 2 RAAE (two 1 2 1 1) [two 2 (11 / 10) 1 1] (fun _ c => (1 - c)%nat).
Proof.
  intros p c Hp Hc. cbn in Hp. assert (p = 0%nat) by lia. subst. cbn [nth measure]. destruct c as [|[|c]]; [| |lia].
  - apply (picks_two _ _ _ 0 1); [lia| | |lra]; rewrite raae_one by (cbn; lra); cbn [f_W two Nat.sub]; f_equal; [replace (2 - 2) with 0 by ring; rewrite Rabs_R0; field|rewrite Rabs_right by (cbn; lra); cbn; lra].
  - apply (picks_two _ _ _ (1 / 10) (9 / 20)); [lia| | |lra]; rewrite raae_one by (cbn; lra); cbn [f_W two Nat.sub]; f_equal; [rewrite Rabs_right by (cbn; lra); cbn; lra|rewrite Rabs_left by (cbn; lra); cbn; lra].
Qed.
Lemma inj_two (o : fmodel) f : (forall c c', (c < 2)%nat -> (c' < 2)%nat -> f c = f c' -> c = c') -> one_to_one 2 [o] (fun _ => f).
Proof. intros H p c c' _ Hc Hc'. apply H; assumption. Qed.

Example C128_instance : let s := start "raae" (two 1 2 1 0) in
  regular 1 1 2 (o_base s) /\ regular 1 1 2 (two 1 2 1 0) /\ method_of (chosen None (o_method s)) = RAAE /\
  mapped 1 1 2 RAAE (o_base s) [two 1 2 1 0] (fun _ c => c) /\ one_to_one 2 [two 1 2 1 0] (fun _ c => c).
Proof.
  cbv zeta. split; [apply two_regular; lra|]. split; [apply two_regular; lra|]. split; [reflexivity|]. split; [apply same_mapped|]. apply inj_two. auto.
Qed.
(** A feature that no factor of some perturbed model contains has no shares there:
    its line of the table shows NaN for mean, difference, spread and range. *)
Lemma fsum_nan N f p : (p < N)%nat -> f p = NaN -> fsum N f = NaN.
Proof.
  induction N as [|N IH]; intros Hp E; [lia|]. cbn [fsum]. destruct (Nat.eq_dec p N) as [-> | Hn].
  - rewrite E. destruct (fsum N f); reflexivity.
  - rewrite IH by (try lia; exact E). reflexivity.
Qed.
Lemma freduce_nan less N f p : (p < N)%nat -> f p = NaN -> freduce (np_pick less) f N = NaN.
Proof.
  induction N as [|N IH]; intros Hp E; [lia|]. destruct N as [|N].
  - assert (p = 0%nat) by lia. subst p. exact E.
  - change (np_pick less (freduce (np_pick less) f (S N)) (f (S N)) = NaN). destruct (Nat.eq_dec p (S N)) as [-> | Hn].
    + rewrite E. unfold np_pick at 1. cbn [is_nan]. rewrite orb_true_r. reflexivity.
    + rewrite IH by (try lia; exact E). reflexivity.
Qed.
Lemma fmean_nan N f p : (p < N)%nat -> f p = NaN -> fmean N f = NaN.
Proof. intros Hp E. unfold fmean. rewrite (fsum_nan N f p Hp E). reflexivity. Qed.
Theorem C128_undefined_share : forall (m n k : nat) (orc : list (res (list nat * list nat))) (arg : option string) (s : pobj) (ms : list fmodel) (mp : nat -> nat -> nat) (o : fmodel) (j : nat),
  let me := method_of (chosen arg (o_method s)) in
  (2 <= k)%nat -> o_models s = Some ms -> List.length orc = List.length ms ->
  mapped m n k me (o_base s) ms mp -> one_to_one k ms mp ->
  In o ms -> (j < n)%nat -> (forall i, (i < k)%nat -> f_H o i j = 0) ->
  exists s' rows r, compare m n k orc arg s = (s', None) /\ o_table s' = Some rows /\ nth_error rows j = Some r /\
    r_mean r = NaN /\ r_diff r = NaN /\ r_std r = NaN /\ r_min r = NaN /\ r_max r = NaN.
Proof.
  intros m n k orc arg s ms mp o j me Hk Hms HL HP HI Ho Hj Hz. unfold compare. rewrite Hms. fold me. rewrite (measures_ok m n k me (o_base s) ms orc mp HL HP HI).
  set (mps := map (fun p => map (mp p) (seq 0 k)) (seq 0 (List.length ms))). set (vss := map (fun p => numbers k (measure me m k n (o_base s) (nth p ms dfl)) (mp p)) (seq 0 (List.length ms))).
  assert (NV : forallb (forallb is_number) vss = true) by apply forallb_numbers.
  destruct (In_nth _ _ dfl Ho) as (p & Hp & Ep).
  assert (En : nth 1 (nth p mps []) 0%nat = mp p 1%nat) by (unfold mps; rewrite nth_map_seqA by exact Hp; apply nth_map_seqA; lia).
  assert (Bm : (mp p 1 < k)%nat) by (destruct (HP p 1%nat Hp ltac:(lia)); assumption).
  assert (N1 : st_at (stack_H k ms mps) 1 j p = NaN).
  { cbn [stack_H st_at]. rewrite En, Ep. unfold share_H. rewrite (Hz _ Bm). rewrite (rsum_ext k _ (fun _ => 0)) by exact Hz. rewrite rsum_const, Rmult_0_r.
    unfold fdiv. destruct (Req_EM_T 0 0) as [_|X]; [|contradiction]. unfold inf_of_sign, fsign. destruct (Rlt_dec 0 0) as [X|_]; [lra|]. destruct (Rlt_dec 0 0) as [X|_]; [lra|]. reflexivity. }
  rewrite NV. cbn [negb]. rewrite (proj2 (Nat.leb_gt k 1)) by lia. destruct ms as [|o0 ms']; [destruct Ho|].
  eexists _, _, _. split; [reflexivity|]. cbn [o_table]. split; [reflexivity|]. split; [rewrite nth_error_map_seq by exact Hj; reflexivity|].
  set (st := stack_H k (o0 :: ms') mps) in *. assert (Hc : (p < st_count st)%nat) by exact Hp.
  unfold table_row. set (v := fun q => st_at st 1 j q). cbn [r_mean r_diff r_std r_min r_max].
  assert (M : fmean (st_count st) v = NaN) by (apply (fmean_nan _ _ p Hc N1)).
  rewrite M. split; [reflexivity|]. split; [reflexivity|]. split.
  - unfold fstd. rewrite M. rewrite (fmean_nan _ _ p Hc); [reflexivity|]. unfold v. rewrite N1. reflexivity.
  - unfold fminimum, fmaximum. rewrite !(freduce_nan _ _ _ p Hc N1). split; reflexivity.
Qed.
Print Assumptions C128_undefined_share.
(* one perturbed model of two factors, equal to the base model but for one profile *)
Definition xpc_s := start "raae" (two 1 2 1 0).
Definition xpc_orc : list (res (list nat * list nat)) := [Ok ([0; 1]%nat, [0; 1]%nat)].
Definition xpc_mp (p c : nat) : nat := c.
Lemma xpc_regular : forall o, In o [two 1 2 1 0] -> regular 1 1 2 o.
Proof. intros o [<- | []]. apply C128_instance. Qed.
Lemma xpc_base : regular 1 1 2 (o_base xpc_s).
Proof. apply C128_instance. Qed.
Lemma xpc_mapped : mapped 1 1 2 RAAE (o_base xpc_s) [two 1 2 1 0] xpc_mp.
Proof. apply C128_instance. Qed.
Lemma xpc_one : one_to_one 2 [two 1 2 1 0] xpc_mp.
Proof. apply C128_instance. Qed.
Example C128_compare_example :=
  C128_compare 1 1 2 xpc_orc None xpc_s [two 1 2 1 0] xpc_mp ltac:(lia) eq_refl ltac:(discriminate) eq_refl
    xpc_base xpc_regular xpc_mapped xpc_one.
Example C128_table_ranges_example : exists r mu, line_of 1 (part_H 2 (o_base xpc_s) 1 0) (fun p => part_H 2 (nth p [two 1 2 1 0] dfl) 1 0) r /\
  r_mean r = Fin mu /\ 0 <= mu <= 1.
Proof.
  destruct C128_compare_example as (s' & W & H & rows & vss & _ & _ & _ & _ & _ & _ & _ & _ & _ & Hn & _ & _ & Hr & _).
  destruct rows as [|r rows]; [discriminate |].
  pose proof (Hr 0%nat r eq_refl) as L. exists r.
  destruct (C128_table_ranges 1 (part_H 2 (o_base xpc_s) 1 0) (fun p => part_H 2 (nth p [two 1 2 1 0] dfl) 1 0) r ltac:(lia) ltac:(unfold part_H; cbn; replace (1 / (0 + 1 + 1)) with (1 / 2) by field; lra) ltac:(intros [|p] Hp; cbn in *; [unfold part_H; cbn; replace (0 / (0 + 1 + 0)) with 0 by field; lra | lia]) L)
    as (b & lo & mu & hi & sd & d & _ & _ & Hm & _ & _ & _ & _ & H1 & H2 & _).
  exists mu. split; [exact L |]. split; [exact Hm |]. destruct H1 as [H1 H3], H2 as [H2 H4]. split; [exact (Rle_trans _ _ _ H1 H3) | exact (Rle_trans _ _ _ H2 H4)].
Qed.
Example C128_one_factor_example :=
  C128_one_factor 1 1 xpc_orc None xpc_s [two 1 2 1 0] eq_refl ltac:(discriminate) eq_refl.
Example C128_failed_compare_example : forall s' e, compare 1 1 1 xpc_orc None xpc_s = (s', Some e) -> o_table s' = None.
Proof. intros s' e H. exact (proj1 (proj2 (proj2 (proj2 (C128_failed_compare 1 1 1 xpc_orc None xpc_s s' e H))))). Qed.
Example C128_method_example : o_method (fst (compare 1 1 2 xpc_orc (Some "EMC"%string) xpc_s)) = "emc"%string.
Proof.
  destruct (compare 1 1 2 xpc_orc (Some "EMC"%string) xpc_s) as [s' e] eqn:E.
  exact (proj1 (C128_method _ _ _ _ _ _ _ _ E) "EMC"%string eq_refl ltac:(cbn; tauto)).
Qed.
Example C128_multipliers_example : exists s' st, compare 1 1 2 xpc_orc None xpc_s = (s', None) /\ o_stats s' = Some st /\ Forall (fun x => 2 <= x <= 2) st.
Proof.
  destruct C128_compare_example as (s' & W & H & rows & vss & E & _).
  destruct (C128_multipliers 1 1 2 xpc_orc None xpc_s s' E ltac:(lia) ltac:(lia) ltac:(discriminate)) as (st & Hst & _ & _ & Hb).
  exists s', st. split; [exact E |]. split; [exact Hst |]. apply Hb. intros A t j [<- | []] _ _. lra.
Qed.
Example C128_contributions_example :=
  C128_contributions 1 1 2 xpc_orc None xpc_s [two 1 2 1 0] xpc_mp ltac:(lia) ltac:(lia) eq_refl ltac:(discriminate) eq_refl
    xpc_base xpc_regular xpc_mapped xpc_one.
Example C128_factor_figure_example :=
  C128_factor_figure 1 1 2 xpc_orc None xpc_s [two 1 2 1 0] xpc_mp (-1) ltac:(lia) eq_refl ltac:(discriminate) eq_refl
    xpc_base xpc_regular xpc_mapped xpc_one.
Example C128_before_compare_example := C128_before_compare 1 1 2 0 xpc_s eq_refl.
Example C128_undefined_instance : let s := start "raae" (two 1 2 0 0) in
  method_of (chosen None (o_method s)) = RAAE /\
  mapped 1 1 2 RAAE (o_base s) [two 1 2 0 0] (fun _ c => c) /\ one_to_one 2 [two 1 2 0 0] (fun _ c => c) /\
  forall i, (i < 2)%nat -> f_H (two 1 2 0 0) i 0%nat = 0.
Proof.
  cbv zeta. split; [reflexivity|]. split; [apply same_mapped|]. split; [apply inj_two; auto|]. intros [|[|i]] Hi; try lia; reflexivity.
Qed.

(** A model with the two factors exchanged meets the hypotheses of C128_reordered. *)
Example C128_reordered_instance : let b := two 1 2 1 3 in let o := two 2 1 3 1 in
  regular 1 1 2 b /\ regular 1 1 2 o /\ distinct_factors 1 2 b /\ is_reordering 1 1 2 b o (fun c => (1 - c)%nat) /\ (1 - (1 - 1) = 1)%nat.
Proof.
  cbv zeta. split; [apply two_regular; lra|]. split; [apply two_regular; lra|]. split; [|split; [|reflexivity]].
  - split; [intros [|j] _; cbn; lra|]. intros [|[|j]] [|[|j']] Hj Hj' Hne; try lia; exists 0%nat; (split; [lia|]); cbn; lra.
  - split; [split; [intros; lia|intros; lia]|]. split; intros [|[|j]] i Hj Hi; try lia; reflexivity.
Qed.

(** A share that drops from one half to nothing is reported as no difference. *)
Theorem C128_zero_percent_means_unchanged_refuted : exists (m n k : nat) (orc : list (res (list nat * list nat))) (s s' : pobj) (r : prow),
  compare m n k orc None s = (s', None) /\ o_table s' = Some [r] /\ r_base r = Fin (1 / 2) /\ r_mean r = Fin 0 /\ r_diff r = Fin 0.
Proof.
  set (s := start "raae" (two 1 2 1 0)). set (orc := [Raise ValueError] : list (res (list nat * list nat))).
  destruct (C128_compare 1 1 2 orc None s [two 1 2 1 0] (fun _ c => c)) as (s' & W & H & rows & vss & E & _ & _ & _ & _ & _ & ET & _ & _ & LR & _ & _ & L & _).
  - lia.
  - reflexivity.
  - discriminate.
  - reflexivity.
  - apply two_regular; lra.
  - intros o [<-|[]]. apply two_regular; lra.
  - apply same_mapped.
  - apply inj_two. auto.
  - destruct rows as [|r [|r' rows]]; try discriminate. exists 1%nat, 1%nat, 2%nat, orc, s, s', r. split; [exact E|]. split; [exact ET|].
    destruct (L 0%nat r eq_refl) as (L1 & L2 & L3 & _). cbn [List.length rsum nth] in L1, L2, L3. unfold part_H in L1, L2, L3. cbn [s start o_base two f_H rsum] in L1, L2, L3.
    assert (Z : (0 + 0 / (0 + 1 + 0)) / INR 1 = 0) by (cbn; field). rewrite Z in L2, L3. destruct (Rlt_dec 0 (/ 1000000)) as [_|X]; [|lra]. split; [|split; [|exact L3]].
    + rewrite L1. f_equal. replace (1 / (0 + 1 + 1)) with (1 / 2) by field. unfold round10. replace (1 / 2 * 10000000000) with (IZR 5000000000) by field.
      assert (G : Valid_rnd ZnearestE) by apply valid_rnd_N. rewrite (@Zrnd_IZR ZnearestE G). field.
    + rewrite L2. f_equal. apply (round10_int 0).
Qed.
Print Assumptions C128_zero_percent_means_unchanged_refuted.

(** The box labelled with the first factor shows the value of the second one. *)
Theorem C128_metric_labels_refuted : exists (m n k : nat) (orc : list (res (list nat * list nat))) (s s' : pobj) (line x y : R) (boxes : list (list fl)) (title : string) (vss : list (list entry)),
  compare m n k orc None s = (s', None) /\ o_values s' = Some vss /\ nth_error (nth 0 vss []) 0 = Some (Number (Fin y)) /\
  plot_corr k s' = Figure (boxes, Fin line, title) /\ nth_error boxes 0 = Some [Fin x] /\ x <> y.
Proof.
  set (o := two 2 (11 / 10) 1 1). set (s := start "raae" o). set (orc := [Raise ValueError] : list (res (list nat * list nat))).
  set (g := fun (_ i : nat) => match i with 0%nat => 1 / 10 | _ => 0 end).
  assert (Rb : regular 1 1 2 (o_base s)) by (apply two_regular; lra). assert (Rm : forall o', In o' [o] -> regular 1 1 2 o') by (intros o' [<-|[]]; apply two_regular; lra).
  assert (OI : one_to_one 2 [o] (fun _ c => (1 - c)%nat)) by (apply inj_two; intros; lia).
  assert (G : forall p i, (p < 1)%nat -> (i < 2)%nat -> measure RAAE 1 2 1 (o_base s) (nth p [o] dfl) i (1 - i)%nat = Fin (g p i)).
  { intros p i Hp Hi. assert (p = 0%nat) by lia. subst. cbn [nth measure]. destruct i as [|[|i]]; [| |lia]; rewrite raae_one by (cbn; lra); cbn [Nat.sub o s start o_base two f_W g]; f_equal.
    - rewrite Rabs_right by lra. lra.
    - replace (2 - 2) with 0 by ring. rewrite Rabs_R0. field. }
  destruct (C128_compare 1 1 2 orc None s [o] (fun _ c => (1 - c)%nat)) as (s' & W & H & rows & vss & E & _ & EV & V & _); try assumption; try reflexivity; try lia; try discriminate; [apply swapped_mapped|].
  pose proof (C128_metric_figure 1 1 2 orc None s [o] (fun _ c => (1 - c)%nat) g ltac:(lia) eq_refl ltac:(discriminate) eq_refl Rb Rm swapped_mapped OI G) as F. cbv zeta in F. rewrite E in F. cbn [fst] in F.
  exists 1%nat, 1%nat, 2%nat, orc, s, s'. eexists _, (round4 0), (round4 (1 / 10)), _, _, vss. split; [exact E|]. split; [exact EV|]. split; [|split; [exact F|split; [reflexivity|]]].
  - rewrite (V 0%nat 0%nat) by (cbn; lia). change (method_of (chosen None (o_method s))) with RAAE. rewrite (G 0%nat 0%nat) by lia. reflexivity.
  - pose proof (round4_int 0) as Z. pose proof (round4_err (1 / 10)) as He. unfold Rabs in He. destruct (Rcase_abs _) in He; lra.
Qed.
Print Assumptions C128_metric_labels_refuted.

(** The name of the method is put in lower case in compare only: an object made with
    "RAAE" is compared by correlation. *)
Theorem C128_method_name_any_case_refuted : exists (m n k : nat) (orc : list (res (list nat * list nat))) (o : fmodel) (s1 s2 s3 : pobj),
  compare m n k orc None (start "raae" o) = (s1, None) /\
  compare m n k orc (Some "RAAE"%string) (start "corr" o) = (s2, None) /\
  compare m n k orc None (start "RAAE" o) = (s3, Some ValueError).
Proof.
  set (o := two 1 2 1 0). set (orc := [Raise ValueError] : list (res (list nat * list nat))).
  assert (Rb : regular 1 1 2 (two 1 2 1 1)) by (apply two_regular; lra). assert (Rm : forall o', In o' [o] -> regular 1 1 2 o') by (intros o' [<-|[]]; apply two_regular; lra).
  assert (OI : one_to_one 2 [o] (fun _ c => c)) by (apply inj_two; auto).
  destruct (C128_compare 1 1 2 orc None (start "raae" o) [o] (fun _ c => c)) as (s1 & ? & ? & ? & ? & E1 & _); try assumption; try reflexivity; try lia; try discriminate; [apply same_mapped|].
  destruct (C128_compare 1 1 2 orc (Some "RAAE"%string) (start "corr" o) [o] (fun _ c => c)) as (s2 & ? & ? & ? & ? & E2 & _); try assumption; try reflexivity; try lia; try discriminate; [apply same_mapped|].
  destruct (C128_ambiguous 1 1 2 orc None (start "RAAE" o) [o] (fun _ _ => 0%nat) 0 0 1) as (s3 & E3 & _); try reflexivity; try lia.
  - intros o' e [<-|[]] E. congruence.
  - intros p c Hp Hc. change (method_of (chosen None (o_method (start "RAAE" o)))) with CORR. split; [lia|]. left. split; [|intros; lia]. cbn [measure]. unfold corr_w, r2.
    match goal with |- (if Reqb ?c 0 then _ else _) = _ => assert (Z : c = 0) by (unfold cov, mean; cbn [rsum INR]; field); rewrite Z end. rewrite (proj2 (Reqb_iff 0 0) eq_refl). reflexivity.
  - cbn [List.length]; lia.
  - exists 1%nat, 1%nat, 2%nat, orc, o, s1, s2, s3. auto.
Qed.
Print Assumptions C128_method_name_any_case_refuted.
