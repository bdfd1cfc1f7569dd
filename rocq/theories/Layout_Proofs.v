From Coq Require Import Arith Lia.
From Verif Require Import Layout_Model.

Definition agrees {A} (r c : nat) (M N : nat -> nat -> A) : Prop :=
  forall i j, i < r -> j < c -> M i j = N i j.

Lemma agrees_refl {A} r c (M : nat -> nat -> A) : agrees r c M M.
Proof. intros i j _ _. reflexivity. Qed.

Lemma seen_data_F {A} (a : arr A) : a_order a = FOrder ->
  agrees (a_rows a) (a_cols a) (seen_data a) (aget a).
Proof. intros E i j _ _. unfold seen_data, from_vec, aget. rewrite E. reflexivity. Qed.

Lemma seen_factor_C {A} (a : arr A) : a_order a = COrder ->
  agrees (a_rows a) (a_cols a) (seen_factor a) (aget a).
Proof. intros E i j _ _. unfold seen_factor, from_vec, aget. rewrite E. reflexivity. Qed.

Lemma to_python_get {A} r c (M : nat -> nat -> A) : agrees r c (aget (to_python r c M)) M.
Proof.
  intros i j Hi Hj. unfold aget. cbn.
  rewrite (Nat.add_comm (j * r) i), Nat.mod_add, Nat.div_add by lia.
  rewrite Nat.mod_small, Nat.div_small by lia. reflexivity.
Qed.

(** What the engine sees of a row-major data array. *)
Lemma seen_data_C {A} (a : arr A) i j : a_order a = COrder -> 0 < a_cols a ->
  seen_data a i j = aget a ((j * a_rows a + i) / a_cols a) ((j * a_rows a + i) mod a_cols a).
Proof.
  intros E Hc. unfold seen_data, from_vec, aget. rewrite E.
  f_equal. rewrite (Nat.div_mod (j * a_rows a + i) (a_cols a)) at 1 by lia. lia.
Qed.

(** What the engine sees of a column-major factor array. *)
Lemma seen_factor_F {A} (a : arr A) i j : a_order a = FOrder -> 0 < a_rows a ->
  seen_factor a i j = aget a ((i * a_cols a + j) mod a_rows a) ((i * a_cols a + j) / a_rows a).
Proof.
  intros E Hc. unfold seen_factor, from_vec, aget. rewrite E.
  f_equal. rewrite (Nat.div_mod (i * a_cols a + j) (a_rows a)) at 1 by lia. lia.
Qed.

Lemma rowmajor_ok_iff (r c : nat) :
  (forall buf : nat -> nat, agrees r c (seen_data (mkArr r c COrder buf)) (aget (mkArr r c COrder buf)))
  <-> r <= 1 \/ c <= 1.
Proof.
  split.
  - intros Hall. destruct (le_lt_dec r 1) as [|Hr]; [auto|]. destruct (le_lt_dec c 1) as [|Hc]; [auto|].
    exfalso. specialize (Hall (fun p => p) 0 1 ltac:(lia) ltac:(lia)).
    cbn in Hall. lia.
  - intros Hrc buf i j Hi Hj. cbn. unfold from_vec. f_equal. nia.
Qed.

Lemma colmajor_factor_ok_iff (r c : nat) :
  (forall M : nat -> nat -> nat, agrees r c (seen_factor (to_python r c M)) M) <-> r <= 1 \/ c <= 1.
Proof.
  split.
  - intros Hall. destruct (le_lt_dec r 1) as [|Hr]; [auto|]. destruct (le_lt_dec c 1) as [|Hc]; [auto|].
    exfalso. specialize (Hall (fun i j => j * r + i) 0 1 ltac:(lia) ltac:(lia)).
    cbn in Hall. unfold from_vec in Hall.
    change (1 / r * r + 1 mod r = 1 * r + 0) in Hall.
    rewrite Nat.div_small, Nat.mod_small in Hall by lia. lia.
  - intros Hrc M i j Hi Hj. unfold seen_factor, from_vec. cbn.
    destruct Hrc as [Hr|Hc].
    + assert (r = 1) as -> by lia. assert (i = 0) as -> by lia. cbn [Nat.mul Nat.add].
      rewrite Nat.mod_1_r, Nat.div_1_r. reflexivity.
    + assert (c = 1) as -> by lia. assert (j = 0) as -> by lia. rewrite Nat.mul_1_r, Nat.add_0_r.
      rewrite Nat.mod_small, Nat.div_small by lia. reflexivity.
Qed.

(** An engine whose result only depends on the cells inside the sizes. *)
Definition local_engine {A} (m n k : nat)
  (engine : (nat -> nat -> A) -> (nat -> nat -> A) -> (nat -> nat -> A) ->
            (nat -> nat -> A) -> (nat -> nat -> A) -> (nat -> nat -> A) * (nat -> nat -> A)) : Prop :=
  forall v u e w h v' u' e' w' h',
    agrees m n v v' -> agrees m n u u' -> agrees m n e e' -> agrees m k w w' -> agrees k n h h' ->
    agrees m k (fst (engine v u e w h)) (fst (engine v' u' e' w' h')) /\
    agrees k n (snd (engine v u e w h)) (snd (engine v' u' e' w' h')).

Definition shaped {A} (r c : nat) (o : order) (a : arr A) : Prop :=
  a_rows a = r /\ a_cols a = c /\ a_order a = o.

Lemma entry_get {A} (m n k : nat) engine (v u we w h : arr A) :
  a_rows w = m -> a_cols w = k -> a_rows h = k -> a_cols h = n ->
  let res := engine (seen_data v) (seen_data u) (seen_data we) (seen_factor w) (seen_factor h) in
  let out := entry engine v u we w h in
  shaped m k FOrder (fst out) /\ shaped k n FOrder (snd out) /\
  agrees m k (aget (fst out)) (fst res) /\ agrees k n (aget (snd out)) (snd res).
Proof.
  intros E1 E2 E3 E4 res out. unfold out, entry. fold res. destruct res as [w' h'] eqn:E. cbn [fst snd].
  rewrite E1, E2, E3, E4.
  split; [repeat split|]. split; [repeat split|]. split; apply to_python_get.
Qed.

Lemma entry_faithful {A} (m n k : nat) engine (v u we w h : arr A) :
  local_engine m n k engine ->
  shaped m n FOrder v -> shaped m n FOrder u -> shaped m n FOrder we ->
  shaped m k COrder w -> shaped k n COrder h ->
  let out := entry engine v u we w h in
  let res := engine (aget v) (aget u) (aget we) (aget w) (aget h) in
  agrees m k (aget (fst out)) (fst res) /\ agrees k n (aget (snd out)) (snd res).
Proof.
  intros Hl (Hv1 & Hv2 & Hv3) (Hu1 & Hu2 & Hu3) (He1 & He2 & He3) (Hw1 & Hw2 & Hw3) (Hh1 & Hh2 & Hh3) out res.
  destruct (entry_get m n k engine v u we w h Hw1 Hw2 Hh1 Hh2) as (_ & _ & A1 & A2).
  fold out in A1, A2.
  destruct (Hl (seen_data v) (seen_data u) (seen_data we) (seen_factor w) (seen_factor h)
              (aget v) (aget u) (aget we) (aget w) (aget h)) as [B1 B2].
  - pose proof (seen_data_F v Hv3) as X. rewrite Hv1, Hv2 in X. exact X.
  - pose proof (seen_data_F u Hu3) as X. rewrite Hu1, Hu2 in X. exact X.
  - pose proof (seen_data_F we He3) as X. rewrite He1, He2 in X. exact X.
  - pose proof (seen_factor_C w Hw3) as X. rewrite Hw1, Hw2 in X. exact X.
  - pose proof (seen_factor_C h Hh3) as X. rewrite Hh1, Hh2 in X. exact X.
  - split; intros i j Hi Hj.
    + rewrite A1 by assumption. apply B1; assumption.
    + rewrite A2 by assumption. apply B2; assumption.
Qed.


Lemma retrain_start {A} (m n k : nat) engine (v u we w h : arr A) :
  0 < m -> 0 < k -> 0 < n ->
  a_rows w = m -> a_cols w = k -> a_rows h = k -> a_cols h = n ->
  let out := entry engine v u we w h in
  (forall i j, i < m -> j < k ->
     seen_factor (fst out) i j = aget (fst out) ((i * k + j) mod m) ((i * k + j) / m)) /\
  (forall i j, i < k -> j < n ->
     seen_factor (snd out) i j = aget (snd out) ((i * n + j) mod k) ((i * n + j) / k)).
Proof.
  intros Hm Hk Hn Hw1 Hw2 Hh1 Hh2 out.
  destruct (entry_get m n k engine v u we w h Hw1 Hw2 Hh1 Hh2) as ((S1 & S2 & S3) & (T1 & T2 & T3) & _).
  fold out in S1, S2, S3, T1, T2, T3.
  split; intros i j Hi Hj; rewrite seen_factor_F by (assumption || lia).
  - rewrite S1, S2. reflexivity.
  - rewrite T1, T2. reflexivity.
Qed.
