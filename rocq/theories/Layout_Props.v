(** Properties C18-C19: memory layout at the Python/Rust boundary. *)
From Coq Require Import Arith Lia.
From Verif Require Import Layout_Model Layout_Proofs.

(** C18: with column-major data and row-major factors the compiled engine works
    on the user's matrices and Python reads back exactly its result, for any
    engine that depends only on the cells of its inputs. *)
Theorem C18_faithful_layouts :
  forall (A : Type) (m n k : nat) engine (v u we w h : arr A),
    local_engine m n k engine ->
    shaped m n FOrder v -> shaped m n FOrder u -> shaped m n FOrder we ->
    shaped m k COrder w -> shaped k n COrder h ->
    let out := entry engine v u we w h in
    let res := engine (aget v) (aget u) (aget we) (aget w) (aget h) in
    agrees m k (aget (fst out)) (fst res) /\ agrees k n (aget (snd out)) (snd res).
Proof. exact @entry_faithful. Qed.
Print Assumptions C18_faithful_layouts.

(** C18: which cell of a row-major data array the engine reads for cell (i,j). *)
Theorem C18_rowmajor_data_rearranged :
  forall (A : Type) (a : arr A) (i j : nat),
    a_order a = COrder -> 0 < a_cols a ->
    seen_data a i j = aget a ((j * a_rows a + i) / a_cols a) ((j * a_rows a + i) mod a_cols a).
Proof. exact @seen_data_C. Qed.
Print Assumptions C18_rowmajor_data_rearranged.

(** C18: row-major data is seen correctly for all data exactly when there is one
    row or one column. *)
Theorem C18_rowmajor_ok_iff :
  forall r c : nat,
    (forall buf : nat -> nat,
       agrees r c (seen_data (mkArr r c COrder buf)) (aget (mkArr r c COrder buf)))
    <-> r <= 1 \/ c <= 1.
Proof. exact rowmajor_ok_iff. Qed.
Print Assumptions C18_rowmajor_ok_iff.

(** The naive claim "the engine sees the user's data" fails for 2 x 3. *)
Theorem C18_rowmajor_refuted :
  exists (a : arr nat) (i j : nat),
    a_order a = COrder /\ i < a_rows a /\ j < a_cols a /\ seen_data a i j <> aget a i j.
Proof.
  exists (mkArr 2 3 COrder (fun p => p)), 0, 1. cbn. repeat split; lia.
Qed.
Print Assumptions C18_rowmajor_refuted.

(** A local engine that really uses its inputs. *)
Example C18_instance :
  local_engine 2 3 2 (fun v u e w h : nat -> nat -> nat =>
    (fun i a => w i a + v i a, fun a j => h a j + u a j * e 1 2)) /\
  shaped 2 3 FOrder (mkArr 2 3 FOrder (fun p => p)).
Proof.
  split; [|repeat split].
  intros v u e w h v' u' e' w' h' Hv Hu He Hw Hh. split; intros i j Hi Hj; cbn.
  - rewrite Hw, Hv by lia. reflexivity.
  - rewrite Hh, Hu, He by lia. reflexivity.
Qed.

(** C19: returned arrays are column-major and hold the engine's values; passed
    into another compiled run they are re-read row by row. *)
Theorem C19_feed_back_rearranged :
  forall (A : Type) (m n k : nat) engine (v u we w h : arr A),
    0 < m -> 0 < k -> 0 < n ->
    a_rows w = m -> a_cols w = k -> a_rows h = k -> a_cols h = n ->
    let out := entry engine v u we w h in
    (forall i j, i < m -> j < k ->
       seen_factor (fst out) i j = aget (fst out) ((i * k + j) mod m) ((i * k + j) / m)) /\
    (forall i j, i < k -> j < n ->
       seen_factor (snd out) i j = aget (snd out) ((i * n + j) mod k) ((i * n + j) / k)).
Proof. exact @retrain_start. Qed.
Print Assumptions C19_feed_back_rearranged.

Theorem C19_returned_column_major :
  forall (A : Type) (m n k : nat) engine (v u we w h : arr A),
    a_rows w = m -> a_cols w = k -> a_rows h = k -> a_cols h = n ->
    let res := engine (seen_data v) (seen_data u) (seen_data we) (seen_factor w) (seen_factor h) in
    let out := entry engine v u we w h in
    shaped m k FOrder (fst out) /\ shaped k n FOrder (snd out) /\
    agrees m k (aget (fst out)) (fst res) /\ agrees k n (aget (snd out)) (snd res).
Proof. exact @entry_get. Qed.
Print Assumptions C19_returned_column_major.

Theorem C19_feed_back_ok_iff :
  forall r c : nat,
    (forall M : nat -> nat -> nat, agrees r c (seen_factor (to_python r c M)) M)
    <-> r <= 1 \/ c <= 1.
Proof. exact colmajor_factor_ok_iff. Qed.
Print Assumptions C19_feed_back_ok_iff.

Theorem C19_feed_back_refuted :
  exists (M : nat -> nat -> nat) (r c i j : nat),
    i < r /\ j < c /\ seen_factor (to_python r c M) i j <> M i j.
Proof.
  exists (fun i j => 10 * i + j), 3, 2, 0, 1. split; [lia|]. split; [lia|].
  unfold seen_factor, from_vec. cbn. lia.
Qed.
Print Assumptions C19_feed_back_refuted.
(* data of two rows and three columns, two factors *)
Definition xla_engine (v u e w h : nat -> nat -> nat) : (nat -> nat -> nat) * (nat -> nat -> nat) :=
  (fun i a => w i a + v i a, fun a j => h a j + u a j * e 1 2).
Definition xla (r c : nat) (o : order) : arr nat := mkArr r c o (fun p => p).
Example C18_faithful_layouts_example :=
  C18_faithful_layouts nat 2 3 2 xla_engine (xla 2 3 FOrder) (xla 2 3 FOrder) (xla 2 3 FOrder) (xla 2 2 COrder) (xla 2 3 COrder)
    (proj1 C18_instance) (proj2 C18_instance) (proj2 C18_instance) (proj2 C18_instance) ltac:(repeat split) ltac:(repeat split).
Example C18_rowmajor_data_rearranged_example : seen_data (xla 2 3 COrder) 1 0 = aget (xla 2 3 COrder) 0 1.
Proof. exact (C18_rowmajor_data_rearranged nat (xla 2 3 COrder) 1 0 eq_refl ltac:(cbn; lia)). Qed.
Example C18_rowmajor_ok_iff_example := proj2 (C18_rowmajor_ok_iff 1 5) (or_introl (le_n 1)).
Example C19_feed_back_rearranged_example :=
  C19_feed_back_rearranged nat 2 3 2 xla_engine (xla 2 3 FOrder) (xla 2 3 FOrder) (xla 2 3 FOrder) (xla 2 2 COrder) (xla 2 3 COrder)
    ltac:(lia) ltac:(lia) ltac:(lia) eq_refl eq_refl eq_refl eq_refl.
Example C19_returned_column_major_example :=
  C19_returned_column_major nat 2 3 2 xla_engine (xla 2 3 FOrder) (xla 2 3 FOrder) (xla 2 3 FOrder) (xla 2 2 COrder) (xla 2 3 COrder)
    eq_refl eq_refl eq_refl eq_refl.
Example C19_feed_back_ok_iff_example := proj2 (C19_feed_back_ok_iff 4 1) (or_intror (le_n 1)).

(** The engine's start after feeding back a 3 x 2 matrix [[0,1],[10,11],[20,21]]
    is [[0,10],[20,1],[11,21]]. *)
Example C19_instance :
  let s := seen_factor (to_python 3 2 (fun i j => 10 * i + j)) in
  (s 0 0, s 0 1, s 1 0, s 1 1, s 2 0, s 2 1) = (0, 10, 20, 1, 11, 21).
Proof. reflexivity. Qed.
