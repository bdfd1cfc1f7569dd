(** Finite sums over the reals and small helpers shared by all areas. *)
From Coq Require Import Reals Lra Lia List Permutation Arith.
Import ListNotations.
Open Scope R_scope.

(** Sum of [f 0 .. f (n-1)]: numpy [sum] over one axis of length [n]
    (exact arithmetic, order of summation irrelevant). *)
Fixpoint rsum (n : nat) (f : nat -> R) : R :=
  match n with
  | O => 0
  | S k => rsum k f + f k
  end.

(** A matrix is a function of row and column; sizes are carried separately. *)
Definition mat := nat -> nat -> R.

(** [np.matmul(A, B)] where the inner dimension is [k]. *)
Definition mmul (k : nat) (A B : mat) : mat :=
  fun i j => rsum k (fun p => A i p * B p j).

(** Entries of two matrices agree inside the given size. *)
Definition meq (m n : nat) (A B : mat) : Prop :=
  forall i j, (i < m)%nat -> (j < n)%nat -> A i j = B i j.

(** Every entry inside the size satisfies [P]. *)
Definition mall (m n : nat) (P : R -> Prop) (A : mat) : Prop :=
  forall i j, (i < m)%nat -> (j < n)%nat -> P (A i j).

(** Double sum over all cells. *)
Definition msum (m n : nat) (A : mat) : R :=
  rsum m (fun i => rsum n (fun j => A i j)).

Lemma rsum_ext n f g : (forall i, (i < n)%nat -> f i = g i) -> rsum n f = rsum n g.
Proof.
  induction n as [|n IH]; intros Hfg; cbn; [reflexivity|].
  rewrite IH by (intros; apply Hfg; lia). rewrite Hfg by lia. reflexivity.
Qed.

Lemma rsum_0 n : rsum n (fun _ => 0) = 0.
Proof. induction n as [|n IH]; cbn; [reflexivity|rewrite IH; lra]. Qed.

Lemma rsum_plus n f g : rsum n (fun i => f i + g i) = rsum n f + rsum n g.
Proof. induction n as [|n IH]; cbn; [lra|rewrite IH; lra]. Qed.

Lemma rsum_minus n f g : rsum n (fun i => f i - g i) = rsum n f - rsum n g.
Proof. induction n as [|n IH]; cbn; [lra|rewrite IH; lra]. Qed.

Lemma rsum_scal_l n c f : rsum n (fun i => c * f i) = c * rsum n f.
Proof. induction n as [|n IH]; cbn; [lra|rewrite IH; lra]. Qed.

Lemma rsum_scal_r n c f : rsum n (fun i => f i * c) = rsum n f * c.
Proof. induction n as [|n IH]; cbn; [lra|rewrite IH; lra]. Qed.

Lemma rsum_const n c : rsum n (fun _ => c) = INR n * c.
Proof.
  induction n as [|n IH]; [cbn; lra|].
  cbn [rsum]. rewrite IH, S_INR. lra.
Qed.

Lemma rsum_nonneg n f : (forall i, (i < n)%nat -> 0 <= f i) -> 0 <= rsum n f.
Proof.
  induction n as [|n IH]; intros Hf; cbn; [lra|].
  assert (0 <= rsum n f) by (apply IH; intros; apply Hf; lia).
  assert (0 <= f n) by (apply Hf; lia). lra.
Qed.

Lemma rsum_le n f g : (forall i, (i < n)%nat -> f i <= g i) -> rsum n f <= rsum n g.
Proof.
  induction n as [|n IH]; intros Hf; cbn; [lra|].
  assert (rsum n f <= rsum n g) by (apply IH; intros; apply Hf; lia).
  assert (f n <= g n) by (apply Hf; lia). lra.
Qed.

Lemma rsum_pos_strict n f i0 :
  (forall i, (i < n)%nat -> 0 <= f i) -> (i0 < n)%nat -> 0 < f i0 -> 0 < rsum n f.
Proof.
  induction n as [|n IH]; intros Hf Hi Hp; [lia|]. cbn.
  assert (Hn : 0 <= f n) by (apply Hf; lia).
  destruct (Nat.eq_dec i0 n) as [->|Hne].
  - assert (0 <= rsum n f) by (apply rsum_nonneg; intros; apply Hf; lia). lra.
  - assert (0 < rsum n f) by (apply IH; [intros; apply Hf; lia|lia|assumption]). lra.
Qed.

Lemma rsum_pos n f : (0 < n)%nat -> (forall i, (i < n)%nat -> 0 < f i) -> 0 < rsum n f.
Proof.
  intros Hn Hf. apply rsum_pos_strict with (i0 := 0%nat); auto.
  intros i Hi. left. auto.
Qed.

Lemma rsum_nonneg_zero n f :
  (forall i, (i < n)%nat -> 0 <= f i) -> rsum n f = 0 ->
  forall i, (i < n)%nat -> f i = 0.
Proof.
  intros Hf Hs i Hi. destruct (Hf i Hi) as [Hp|He]; [|auto].
  assert (0 < rsum n f) by (eapply rsum_pos_strict; eauto). lra.
Qed.

Lemma rsum_le_eq n f g :
  (forall i, (i < n)%nat -> f i <= g i) -> rsum n f = rsum n g ->
  forall i, (i < n)%nat -> f i = g i.
Proof.
  intros Hle He i Hi.
  assert (H0 : rsum n (fun i => g i - f i) = 0) by (rewrite rsum_minus; lra).
  pose proof (rsum_nonneg_zero n (fun i => g i - f i)) as Hz. cbv beta in Hz.
  specialize (Hz ltac:(intros k Hk; specialize (Hle k Hk); lra) H0 i Hi). lra.
Qed.

Lemma rsum_ge_term n f i0 :
  (forall i, (i < n)%nat -> 0 <= f i) -> (i0 < n)%nat -> f i0 <= rsum n f.
Proof.
  induction n as [|n IH]; intros Hf Hi; [lia|]. cbn.
  assert (Hn : 0 <= f n) by (apply Hf; lia).
  destruct (Nat.eq_dec i0 n) as [->|Hne].
  - assert (0 <= rsum n f) by (apply rsum_nonneg; intros; apply Hf; lia). lra.
  - assert (f i0 <= rsum n f) by (apply IH; [intros; apply Hf; lia|lia]). lra.
Qed.

Lemma rsum_swap m n (f : nat -> nat -> R) :
  rsum m (fun i => rsum n (fun j => f i j)) = rsum n (fun j => rsum m (fun i => f i j)).
Proof.
  induction m as [|m IH]; cbn.
  - rewrite rsum_0. reflexivity.
  - rewrite IH, <- rsum_plus. reflexivity.
Qed.

Lemma rsum_single n f i0 :
  (i0 < n)%nat -> (forall i, (i < n)%nat -> i <> i0 -> f i = 0) -> rsum n f = f i0.
Proof.
  induction n as [|n IH]; intros Hi Hz; [lia|]. cbn.
  destruct (Nat.eq_dec i0 n) as [->|Hne].
  - rewrite (rsum_ext n f (fun _ => 0)) by (intros; apply Hz; lia).
    rewrite rsum_0. lra.
  - rewrite IH by (try lia; intros; apply Hz; lia). rewrite (Hz n) by lia. lra.
Qed.

Lemma rsum_split n f i0 :
  (i0 < n)%nat ->
  rsum n f = f i0 + rsum n (fun i => if Nat.eqb i i0 then 0 else f i).
Proof.
  induction n as [|n IH]; intros Hi; [lia|]. cbn [rsum].
  destruct (Nat.eq_dec i0 n) as [->|Hne].
  - rewrite Nat.eqb_refl.
    rewrite (rsum_ext n (fun i => if Nat.eqb i n then 0 else f i) f); [lra|].
    intros i Hin. destruct (Nat.eqb_spec i n); [lia|reflexivity].
  - rewrite IH by lia. destruct (Nat.eqb_spec n i0); [lia|]. lra.
Qed.

(** ** Reindexing a sum along a bijection of [0..n-1]. *)

Fixpoint lsum (l : list R) : R :=
  match l with
  | [] => 0
  | x :: r => x + lsum r
  end.

Lemma lsum_app l1 l2 : lsum (l1 ++ l2) = lsum l1 + lsum l2.
Proof. induction l1 as [|x l IH]; cbn; [lra|rewrite IH; lra]. Qed.

Lemma lsum_perm l1 l2 : Permutation l1 l2 -> lsum l1 = lsum l2.
Proof. induction 1; cbn; lra. Qed.

Lemma rsum_lsum n f : rsum n f = lsum (map f (seq 0 n)).
Proof.
  induction n as [|n IH]; [reflexivity|].
  rewrite seq_S, map_app, lsum_app. cbn. rewrite IH. lra.
Qed.

(** [s] restricted to [0..n-1] is a permutation of it. *)
Definition bij (n : nat) (s : nat -> nat) : Prop :=
  (forall i, (i < n)%nat -> (s i < n)%nat) /\
  (forall i j, (i < n)%nat -> (j < n)%nat -> s i = s j -> i = j).

Lemma bij_perm n s : bij n s -> Permutation (map s (seq 0 n)) (seq 0 n).
Proof.
  intros [Hr Hi]. apply NoDup_Permutation_bis.
  - assert (Hnd : NoDup (seq 0 n)) by apply seq_NoDup.
    assert (Hin : forall x, In x (seq 0 n) -> (x < n)%nat)
      by (intros x Hx; apply in_seq in Hx; lia).
    induction (seq 0 n) as [|x l IH]; cbn; constructor.
    + inversion Hnd as [|? ? Hnx Hnl]; subst. intros Hx. apply in_map_iff in Hx.
      destruct Hx as [y [Hy Hyl]]. apply Hnx.
      assert (y = x) as <-; [|assumption].
      apply Hi; auto; apply Hin; [right; assumption|left; reflexivity].
    + inversion Hnd; subst. apply IH; auto. intros y Hy. apply Hin. right. assumption.
  - rewrite map_length. auto.
  - intros x Hx. apply in_map_iff in Hx. destruct Hx as [y [<- Hy]].
    apply in_seq in Hy. apply in_seq. specialize (Hr y). lia.
Qed.

Lemma rsum_reindex n s f : bij n s -> rsum n (fun i => f (s i)) = rsum n f.
Proof.
  intros Hb. rewrite !rsum_lsum. rewrite <- (map_map s f).
  apply lsum_perm, Permutation_map, bij_perm, Hb.
Qed.

(** ** Simple matrix facts *)

Lemma mmul_ext k A A' B B' i j :
  (forall p, (p < k)%nat -> A i p = A' i p) ->
  (forall p, (p < k)%nat -> B p j = B' p j) ->
  mmul k A B i j = mmul k A' B' i j.
Proof.
  intros HA HB. unfold mmul. apply rsum_ext. intros p Hp.
  rewrite HA, HB by assumption. reflexivity.
Qed.

Lemma mmul_nonneg k A B i j :
  (forall p, (p < k)%nat -> 0 <= A i p) -> (forall p, (p < k)%nat -> 0 <= B p j) ->
  0 <= mmul k A B i j.
Proof.
  intros HA HB. apply rsum_nonneg. intros p Hp. apply Rmult_le_pos; auto.
Qed.

Lemma mmul_pos k A B i j :
  (0 < k)%nat ->
  (forall p, (p < k)%nat -> 0 < A i p) -> (forall p, (p < k)%nat -> 0 < B p j) ->
  0 < mmul k A B i j.
Proof.
  intros Hk HA HB. apply rsum_pos; [assumption|]. intros p Hp. apply Rmult_lt_0_compat; auto.
Qed.

Lemma msum_ext m n A B : meq m n A B -> msum m n A = msum m n B.
Proof.
  intros H. unfold msum. apply rsum_ext. intros i Hi. apply rsum_ext. intros j Hj. auto.
Qed.

Lemma msum_nonneg m n A : mall m n (fun x => 0 <= x) A -> 0 <= msum m n A.
Proof.
  intros H. apply rsum_nonneg. intros i Hi. apply rsum_nonneg. intros j Hj. apply H; auto.
Qed.

Lemma msum_le m n A B :
  (forall i j, (i < m)%nat -> (j < n)%nat -> A i j <= B i j) -> msum m n A <= msum m n B.
Proof.
  intros H. apply rsum_le. intros i Hi. apply rsum_le. intros j Hj. auto.
Qed.

Lemma msum_zero m n A :
  mall m n (fun x => 0 <= x) A -> msum m n A = 0 -> meq m n A (fun _ _ => 0).
Proof.
  intros H Hs i j Hi Hj. unfold msum in Hs.
  assert (Hr := rsum_nonneg_zero m _ (fun i Hi => rsum_nonneg n _ (fun j Hj => H i j Hi Hj)) Hs i Hi).
  exact (rsum_nonneg_zero n _ (fun j Hj => H i j Hi Hj) Hr j Hj).
Qed.

Lemma msum_le_eq m n A B :
  (forall i j, (i < m)%nat -> (j < n)%nat -> A i j <= B i j) ->
  msum m n A = msum m n B -> meq m n A B.
Proof.
  intros H He i j Hi Hj.
  assert (Hr : rsum n (fun j => A i j) = rsum n (fun j => B i j)).
  { apply (rsum_le_eq m (fun i => rsum n (fun j => A i j)) (fun i => rsum n (fun j => B i j))).
    - intros. apply rsum_le. auto.
    - exact He.
    - assumption. }
  exact (rsum_le_eq n (fun j => A i j) (fun j => B i j) (fun j Hj => H i j Hi Hj) Hr j Hj).
Qed.
