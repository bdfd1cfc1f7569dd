From Coq Require Import List Bool ZArith Lia Reals Lra Permutation.
From Verif Require Import Base Fl Boot_Model.
Import ListNotations.
Local Open Scope nat_scope.

(** ** Block counts *)
Lemma ceil_div_bounds N b : (0 < b)%Z -> (2 * b <= Z.of_nat N)%Z ->
  let M := Z.to_nat (ceil_div N b) in
  let c := Z.to_nat b in
  2 <= M /\ (M - 1) * c < N /\ N <= M * c /\ 1 <= c /\ 2 * c <= N.
Proof.
  intros Hb H2 M c. unfold ceil_div in M.
  pose proof (Z.div_mod (- Z.of_nat N) b ltac:(lia)) as Hd.
  pose proof (Z.mod_pos_bound (- Z.of_nat N) b Hb) as Hm.
  set (q := (- (- Z.of_nat N / b))%Z) in *.
  assert (Hq1 : (b * q - b < Z.of_nat N)%Z) by (unfold q; lia).
  assert (Hq2 : (Z.of_nat N <= b * q)%Z) by (unfold q; lia).
  assert (Hq3 : (2 <= q)%Z) by nia.
  assert (Hc : Z.of_nat c = b) by (unfold c; lia).
  assert (HM : Z.of_nat M = q) by (unfold M; lia).
  split; [lia|]. split; [nia|]. split; [nia|]. lia.
Qed.

(** ** Blocks *)
Lemma make_blocks_spec N b M : forall i,
  (i + M - 1) * b <= N ->
  make_blocks N b M i = Ok (map (fun k => firstn (N - k * b) (seq (k * b) b)) (seq i M)).
Proof.
  induction M as [|M IH]; intros i Hi; cbn [make_blocks seq map]; [reflexivity|].
  unfold make_block. destruct (Nat.ltb_spec N (i * b)); [nia|].
  rewrite IH by nia. reflexivity.
Qed.

Lemma nth_seq i n j : j < n -> nth_error (seq i n) j = Some (i + j).
Proof.
  revert i j. induction n as [|n IH]; intros i j Hj; [lia|]. destruct j; cbn; [f_equal; lia|].
  rewrite IH by lia. f_equal. lia.
Qed.

Lemma set_block_same bl k l : nth_error bl k = Some l -> set_block bl k l = bl.
Proof.
  unfold set_block. revert k. induction bl as [|a bl IH]; intros [|k] H; cbn in *; try discriminate.
  - injection H as ->. reflexivity.
  - f_equal. apply IH. exact H.
Qed.

Lemma firstn_app_ge {A} n (l1 l2 : list A) : length l1 <= n ->
  firstn n (l1 ++ l2) = l1 ++ firstn (n - length l1) l2.
Proof. intros H. rewrite firstn_app, firstn_all2 by exact H. reflexivity. Qed.

Lemma pick_nonoverlapping N b M r : 2 <= M -> (M - 1) * b < N -> N <= M * b -> 1 <= b ->
  forall t i blocks acc, i + S t = M ->
  (forall k, k < M - 1 -> nth_error blocks k = Some (seq (k * b) b)) ->
  pick_blocks false N b M r (S t) i blocks (i * b) acc
  = Ok (acc ++ firstn (N - i * b) (flat_map (fun j => seq ((r j mod (M - 1)) * b) b) (seq i (S t)))).
Proof.
  intros HM Hlt Hge Hb. induction t as [|t IH]; intros i blocks acc Hi Hbl.
  - cbn [pick_blocks seq flat_map]. unfold rng_int.
    destruct (Z.leb_spec (Z.of_nat M - 1) 0); [lia|].
    replace (Z.to_nat (Z.of_nat M - 1)) with (M - 1) by lia.
    assert (Hk : r i mod (M - 1) < M - 1) by (apply Nat.mod_upper_bound; lia).
    rewrite (Hbl _ Hk). destruct (Nat.ltb_spec N (i * b)); [nia|].
    rewrite app_nil_r. reflexivity.
  - cbn [seq flat_map]. change (flat_map _ (S i :: seq (S (S i)) t)) with
      (flat_map (fun j => seq ((r j mod (M - 1)) * b) b) (seq (S i) (S t))).
    remember (S t) as t1. cbn [pick_blocks]. unfold rng_int.
    destruct (Z.leb_spec (Z.of_nat M - 1) 0); [lia|].
    replace (Z.to_nat (Z.of_nat M - 1)) with (M - 1) by lia.
    assert (Hk : r i mod (M - 1) < M - 1) by (apply Nat.mod_upper_bound; lia).
    rewrite (Hbl _ Hk).
    assert (Hroom : i * b + b < N) by nia.
    destruct (Nat.ltb_spec N (i * b)); [nia|].
    rewrite firstn_all2 by (rewrite seq_length; lia).
    rewrite seq_length, set_block_same by (apply Hbl; exact Hk).
    replace (i * b + b) with (S i * b) by lia. subst t1.
    rewrite IH by (lia || exact Hbl).
    rewrite firstn_app_ge by (rewrite seq_length; lia). rewrite seq_length, <- app_assoc.
    replace (N - i * b - b) with (N - S i * b) by lia. reflexivity.
Qed.

Lemma pick_overlapping N b M r : 2 <= M -> (M - 1) * b < N -> N <= M * b -> 1 <= b -> b + 1 < N ->
  forall t i blocks acc, i + S t = M ->
  pick_blocks true N b M r (S t) i blocks (i * b) acc
  = Ok (acc ++ firstn (N - i * b) (flat_map (fun j => seq (r j mod (N - b - 1)) b) (seq i (S t)))).
Proof.
  intros HM Hlt Hge Hb HN. induction t as [|t IH]; intros i blocks acc Hi.
  - cbn [pick_blocks seq flat_map]. unfold rng_int.
    destruct (Z.leb_spec (Z.of_nat N - Z.of_nat b - 1) 0); [lia|].
    replace (Z.to_nat (Z.of_nat N - Z.of_nat b - 1)) with (N - b - 1) by lia.
    destruct (Nat.ltb_spec N (i * b)); [nia|].
    rewrite app_nil_r. reflexivity.
  - cbn [seq flat_map]. change (flat_map _ (S i :: seq (S (S i)) t)) with
      (flat_map (fun j => seq (r j mod (N - b - 1)) b) (seq (S i) (S t))).
    remember (S t) as t1. cbn [pick_blocks]. unfold rng_int.
    destruct (Z.leb_spec (Z.of_nat N - Z.of_nat b - 1) 0); [lia|].
    replace (Z.to_nat (Z.of_nat N - Z.of_nat b - 1)) with (N - b - 1) by lia.
    assert (Hroom : i * b + b < N) by nia.
    destruct (Nat.ltb_spec N (i * b)); [nia|].
    rewrite firstn_all2 by (rewrite seq_length; lia).
    rewrite seq_length.
    replace (i * b + b) with (S i * b) by lia. subst t1.
    rewrite IH by lia.
    rewrite firstn_app_ge by (rewrite seq_length; lia). rewrite seq_length, <- app_assoc.
    replace (N - i * b - b) with (N - S i * b) by lia. reflexivity.
Qed.

(** The index lists in closed form. *)
Lemma block_index_nonoverlapping N b r : (0 < b)%Z -> (2 * b <= Z.of_nat N)%Z ->
  let M := Z.to_nat (ceil_div N b) in let c := Z.to_nat b in
  block_index false N (BInt b) r
  = (BInt b, Ok (firstn N (flat_map (fun j => seq ((r j mod (M - 1)) * c) c) (seq 0 M)))).
Proof.
  intros Hb H2 M c. destruct (ceil_div_bounds N b Hb H2) as (H1 & Hlt & Hge & Hc & H2c).
  fold M c in H1, Hlt, Hge, Hc, H2c.
  unfold block_index, too_big. destruct (Z.ltb_spec (Z.of_nat N) (2 * b)); [lia|].
  destruct (Z.eqb_spec b 0); [lia|]. fold M c.
  rewrite make_blocks_spec by lia.
  f_equal. destruct M as [|t] eqn:EM; [lia|].
  match goal with |- pick_blocks _ _ _ _ _ _ _ ?bl _ _ = _ =>
    pose proof (pick_nonoverlapping N c (S t) r ltac:(lia) ltac:(lia) ltac:(lia) ltac:(lia) t 0 bl [] ltac:(lia)) as Hp end.
  rewrite Nat.mul_0_l, Nat.sub_0_r in Hp. apply Hp. intros k Hk.
  rewrite (map_nth_error _ k (seq 0 (S t)) (d := k)) by (rewrite nth_seq by lia; reflexivity).
  rewrite firstn_all2; [reflexivity|rewrite seq_length; nia].
Qed.

Lemma block_index_overlapping N b r : (0 < b)%Z -> (2 * b <= Z.of_nat N)%Z -> 2 < N ->
  let M := Z.to_nat (ceil_div N b) in let c := Z.to_nat b in
  block_index true N (BInt b) r
  = (BInt b, Ok (firstn N (flat_map (fun j => seq (r j mod (N - c - 1)) c) (seq 0 M)))).
Proof.
  intros Hb H2 HN M c. destruct (ceil_div_bounds N b Hb H2) as (H1 & Hlt & Hge & Hc & H2c).
  fold M c in H1, Hlt, Hge, Hc, H2c.
  unfold block_index, too_big. destruct (Z.ltb_spec (Z.of_nat N) (2 * b)); [lia|].
  destruct (Z.eqb_spec b 0); [lia|]. fold M c.
  f_equal. destruct M as [|t] eqn:EM; [lia|].
  pose proof (pick_overlapping N c (S t) r ltac:(lia) ltac:(lia) ltac:(lia) ltac:(lia) ltac:(lia) t 0 [] [] ltac:(lia)) as Hp.
  rewrite Nat.mul_0_l, Nat.sub_0_r in Hp. exact Hp.
Qed.

(** two samples: the overlapping bound is zero *)
Lemma block_index_two r : snd (block_index true 2 (BInt 1) r) = Raise ValueError.
Proof. reflexivity. Qed.

Lemma flat_map_seq_length (s : nat -> nat) c l : length (flat_map (fun j => seq (s j) c) l) = length l * c.
Proof. induction l as [|a l IH]; cbn; [reflexivity|]. rewrite app_length, seq_length, IH. reflexivity. Qed.

(** ** Mapping *)
Definition inv (corr : nat -> fl) (i j bi : nat) (br : fl) : Prop :=
  (corr i = NaN /\ bi = i /\ br = NaN) \/
  (corr i <> NaN /\ br = corr bi /\ br <> NaN /\ (bi = i \/ (bi < j /\ flt (corr i) br = true)) /\
   (forall j', j' < j -> flt br (corr j') = false) /\
   flt br (corr i) = false /\
   (forall j', j' < bi -> bi <> i -> corr j' = NaN \/ flt (corr j') br = true)).

Lemma flt_false_trans x y z : y <> NaN -> flt y x = true -> flt y z = false -> flt x z = false.
Proof.
  intros Hy H1 H2. destruct (flt x z) eqn:E; [|reflexivity].
  pose proof (flt_trans _ _ _ H1 E). congruence.
Qed.

Lemma best_match_inv corr i : forall t j bi br, inv corr i j bi br ->
  let '(bi', br') := best_match corr t j bi br in inv corr i (j + t) bi' br'.
Proof.
  induction t as [|t IH]; intros j bi br H; cbn [best_match].
  - rewrite Nat.add_0_r. exact H.
  - replace (j + S t) with (S j + t) by lia. destruct (flt br (corr j)) eqn:E; apply IH.
    + destruct H as [(_ & _ & ->)|(Hi & Hbr & Hn & Hor & Hall & Hown & Hfst)]; [discriminate|].
      right. split; [exact Hi|]. split; [reflexivity|].
      assert (Hcj : corr j <> NaN) by (intros C; rewrite C, flt_nan_r in E; discriminate).
      split; [exact Hcj|].
      assert (Hbelow : forall x, flt br x = false -> x = NaN \/ flt x (corr j) = true).
      { intros x Hx. destruct (is_nan x) eqn:Ex; [left; destruct x; try discriminate; reflexivity|right].
        assert (x <> NaN) by (intros ->; discriminate).
        destruct (flt_total br x Hn H) as [C|[C|C]]; [congruence|subst x; exact E|exact (flt_trans _ _ _ C E)]. }
      assert (Hasym : forall x, flt x (corr j) = true -> flt (corr j) x = false).
      { intros x Hx. destruct (flt (corr j) x) eqn:Ex; [|reflexivity].
        pose proof (flt_trans _ _ _ Hx Ex) as C. rewrite flt_irrefl in C. discriminate. }
      split. { right. split; [lia|]. destruct (Hbelow _ Hown) as [C|C]; [contradiction|exact C]. }
      split. { intros j' Hj'. destruct (Nat.eq_dec j' j) as [->|Hne]; [apply flt_irrefl|].
        destruct (Hbelow _ (Hall j' ltac:(lia))) as [-> |C]; [apply flt_nan_r|auto]. }
      split. { destruct (Hbelow _ Hown) as [C|C]; [contradiction|auto]. }
      intros j' Hj' _. exact (Hbelow _ (Hall j' Hj')).
    + destruct H as [H|(Hi & Hbr & Hn & Hor & Hall & Hown & Hfst)]; [left; exact H|right].
      repeat split; try assumption.
      * destruct Hor as [->|[? ?]]; [left; reflexivity|right; split; [lia|assumption]].
      * intros j' Hj'. destruct (Nat.eq_dec j' j) as [->|Hne]; [exact E|apply Hall; lia].
Qed.

(** ** Correlations *)
Local Open Scope R_scope.
Lemma mean_scal n c x : mean n (fun i => c * x i) = c * mean n x.
Proof. unfold mean. rewrite rsum_scal_l. unfold Rdiv. ring. Qed.

Lemma cov_scal n a b x y : cov n (fun i => a * x i) (fun i => b * y i) = a * b * cov n x y.
Proof.
  unfold cov. rewrite !mean_scal, <- rsum_scal_l. apply rsum_ext. intros i Hi. ring.
Qed.

Lemma cov_ext n x y x' y' : (forall i, (i < n)%nat -> x i = x' i) -> (forall i, (i < n)%nat -> y i = y' i) ->
  cov n x y = cov n x' y'.
Proof.
  intros Hx Hy. unfold cov, mean.
  rewrite (rsum_ext n x x' Hx), (rsum_ext n y y' Hy).
  apply rsum_ext. intros i Hi. rewrite Hx, Hy by exact Hi. reflexivity.
Qed.

Lemma cov_nonneg n x : 0 <= cov n x x.
Proof. unfold cov. apply rsum_nonneg. intros. apply Rle_0_sqr. Qed.

Lemma cov_sym n x y : cov n x y = cov n y x.
Proof. unfold cov. apply rsum_ext. intros. ring. Qed.

Lemma Reqb_scal a x : a <> 0 -> Reqb (a * a * x) 0 = Reqb x 0.
Proof.
  intros Ha. unfold Reqb. destruct (Req_EM_T (a * a * x) 0) as [E|E], (Req_EM_T x 0) as [F|F]; try reflexivity.
  - apply Rmult_integral in E. destruct E as [E|E]; [|contradiction]. apply Rmult_integral in E. tauto.
  - subst. rewrite Rmult_0_r in E. contradiction.
Qed.

Lemma r2_scal n a b x y : a <> 0 -> b <> 0 -> r2 n (fun i => a * x i) (fun i => b * y i) = r2 n x y.
Proof.
  intros Ha Hb. unfold r2. rewrite !cov_scal, !Reqb_scal by assumption.
  destruct (Reqb (cov n x x) 0) eqn:E; [reflexivity|].
  destruct (Reqb (cov n y y) 0) eqn:F; [reflexivity|].
  assert (cov n x x <> 0) by (intros C; apply Reqb_iff in C; congruence).
  assert (cov n y y <> 0) by (intros C; apply Reqb_iff in C; congruence).
  f_equal. field. auto.
Qed.

Lemma r2_ext n x y x' y' : (forall i, (i < n)%nat -> x i = x' i) -> (forall i, (i < n)%nat -> y i = y' i) ->
  r2 n x y = r2 n x' y'.
Proof. intros Hx Hy. unfold r2. rewrite (cov_ext n x y x' y'), (cov_ext n x x x' x'), (cov_ext n y y y' y') by assumption. reflexivity. Qed.

(** Cauchy-Schwarz for covariances. *)
Lemma cauchy n (f g : nat -> R) :
  rsum n (fun i => f i * g i) * rsum n (fun i => f i * g i)
  <= rsum n (fun i => f i * f i) * rsum n (fun i => g i * g i).
Proof.
  set (A := rsum n (fun i => f i * f i)). set (B := rsum n (fun i => f i * g i)). set (C := rsum n (fun i => g i * g i)).
  assert (HA : 0 <= A) by (apply rsum_nonneg; intros; apply Rle_0_sqr).
  assert (H : 0 <= rsum n (fun i => (A * g i - B * f i) * (A * g i - B * f i)))
    by (apply rsum_nonneg; intros; apply Rle_0_sqr).
  replace (rsum n (fun i => (A * g i - B * f i) * (A * g i - B * f i))) with (A * (A * C - B * B)) in H.
  2:{ transitivity (rsum n (fun i => A * A * (g i * g i) + (- (2 * A * B)) * (f i * g i) + B * B * (f i * f i))).
      - rewrite !rsum_plus, !rsum_scal_l. fold A B C. ring.
      - apply rsum_ext. intros. ring. }
  destruct (Req_dec A 0) as [E|E].
  - assert (Hf : forall i, (i < n)%nat -> f i = 0).
    { intros i Hi. unfold A in E. pose proof (rsum_nonneg_zero n (fun i => f i * f i)) as Hz.
      assert (Hi0 : f i * f i = 0) by (apply Hz; [intros; apply Rle_0_sqr|exact E|exact Hi]).
      apply Rmult_integral in Hi0. tauto. }
    assert (HB : B = 0).
    { unfold B. rewrite (rsum_ext n _ (fun _ => 0)); [apply rsum_0|]. intros i Hi. rewrite Hf by exact Hi. ring. }
    rewrite HB, E. lra.
  - assert (0 < A) by lra. enough (0 <= A * C - B * B) by lra.
    apply Rmult_le_reg_l with A; [assumption|]. lra.
Qed.

Lemma r2_range n x y v : r2 n x y = Fin v -> 0 <= v <= 1.
Proof.
  unfold r2. destruct (Reqb (cov n x x) 0) eqn:E; [discriminate|].
  destruct (Reqb (cov n y y) 0) eqn:F; [discriminate|]. intros [= <-].
  assert (Hx : cov n x x <> 0) by (intros C; apply Reqb_iff in C; congruence).
  assert (Hy : cov n y y <> 0) by (intros C; apply Reqb_iff in C; congruence).
  pose proof (cov_nonneg n x). pose proof (cov_nonneg n y).
  assert (Hp : 0 < cov n x x * cov n y y) by (apply Rmult_lt_0_compat; lra).
  split.
  - apply Rmult_le_pos; [apply Rle_0_sqr|]. left. apply Rinv_0_lt_compat. exact Hp.
  - apply Rmult_le_reg_r with (cov n x x * cov n y y); [exact Hp|]. unfold Rdiv.
    rewrite Rmult_assoc, Rinv_l by lra. rewrite Rmult_1_r, Rmult_1_l.
    exact (cauchy n (fun i => x i - mean n x) (fun i => y i - mean n y)).
Qed.

Lemma r2_self n x : cov n x x <> 0 -> r2 n x x = Fin 1.
Proof.
  intros H. unfold r2. destruct (Reqb (cov n x x) 0) eqn:E; [apply Reqb_iff in E; contradiction|].
  f_equal. field. exact H.
Qed.
