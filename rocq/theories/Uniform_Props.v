(** Property C148: what is the same before training is the same, to the last bit,
    afterwards - samples, features and factors - when the engine treats every cell
    alike; and then held profiles make samples independent to the last bit. *)
From Coq Require Import ZArith Lia List Bool Permutation Arith.
From Flocq Require Import Core BinarySingleNaN.
From Verif Require Import RobF_Model WsF_Model Float_Model Float_Spec Float_Proofs Float_Props Uniform_Model LSNMF_Model Train_Model Train_Spec Train_Proofs.
Import ListNotations.
Local Open Scope nat_scope.

(** ** Statements' vocabulary *)
Section Spec.
  Context {prec emax : Z}.
  (** Samples [i] and [i'] of two tables agree in the first [c] columns. *)
  Definition same_row (c : nat) (A : fmat prec emax) (i : nat) (A' : fmat prec emax) (i' : nat) : Prop :=
    forall j, j < c -> A i j = A' i' j.
  Definition same_col (r : nat) (A : fmat prec emax) (j : nat) (A' : fmat prec emax) (j' : nat) : Prop :=
    forall i, i < r -> A i j = A' i j'.
End Spec.

Section Steps.
  Context {prec emax : Z} {Hp : Prec_gt_0 prec} {He : Prec_lt_emax prec emax}.
  Notation F := (binary_float prec emax).
  Notation fmat := (fmat prec emax).

  Lemma map_seq_ext {A} (f g : nat -> A) p : (forall l, l < p -> f l = g l) -> map f (seq 0 p) = map g (seq 0 p).
  Proof. intros H. apply map_ext_in. intros l Hl. apply in_seq in Hl. apply H. lia. Qed.

  (** Two samples, possibly of two tables; the same profiles. *)
  Lemma w_rows (K : kernels prec emax) m m' n k V We V' We' W W' H H' X X' i i' :
    w_update_by K m n k V We W H X -> w_update_by K m' n k V' We' W' H' X' -> i < m -> i' < m' ->
    same_row n V i V' i' -> same_row n We i We' i' -> same_row k W i W' i' ->
    (forall a j, a < k -> j < n -> H a j = H' a j) -> same_row k X i X' i'.
  Proof.
    intros (WH & N & D & PW & PN & PD & E) (WH' & N' & D' & PW' & PN' & PD' & E') Hi Hi' EV EW Ew EH a Ha.
    assert (EWH : same_row n WH i WH' i').
    { intros j Hj. rewrite (PW i j Hi Hj), (PW' i' j Hi' Hj). f_equal. apply map_seq_ext.
      intros l Hl. rewrite (Ew l Hl), (EH l j Hl Hj). reflexivity. }
    rewrite (E i a Hi Ha), (E' i' a Hi' Ha), (PN i a Hi Ha), (PN' i' a Hi' Ha), (PD i a Hi Ha), (PD' i' a Hi' Ha), (Ew a Ha).
    f_equal. f_equal; f_equal; apply map_seq_ext; intros l Hl; unfold emul, transpose;
      rewrite (EW l Hl), (EH a l Ha Hl); [rewrite (EV l Hl)|rewrite (EWH l Hl)]; reflexivity.
  Qed.

  Lemma w_factors (K : kernels prec emax) m n k V We W H X a b :
    w_update_by K m n k V We W H X -> a < k -> b < k ->
    same_col m W a W b -> same_row n H a H b -> same_col m X a X b.
  Proof.
    intros (WH & N & D & _ & PN & PD & E) Ha Hb EW EH i Hi.
    rewrite (E i a Hi Ha), (E i b Hi Hb), (PN i a Hi Ha), (PN i b Hi Hb), (PD i a Hi Ha), (PD i b Hi Hb), (EW i Hi).
    f_equal. f_equal; f_equal; apply map_seq_ext; intros l Hl; unfold transpose; rewrite (EH l Hl); reflexivity.
  Qed.

  Lemma h_factors (K : kernels prec emax) m n k V We W H X a b :
    h_update_by K m n k V We W H X -> a < k -> b < k ->
    same_col m W a W b -> same_row n H a H b -> same_row n X a X b.
  Proof.
    intros (WH & N & D & _ & PN & PD & E) Ha Hb EW EH j Hj.
    rewrite (E a j Ha Hj), (E b j Hb Hj), (PN a j Ha Hj), (PN b j Hb Hj), (PD a j Ha Hj), (PD b j Hb Hj), (EH j Hj).
    f_equal. f_equal; f_equal; apply map_seq_ext; intros l Hl; unfold transpose; rewrite (EW l Hl); reflexivity.
  Qed.

  Lemma h_cols (K : kernels prec emax) m n k V We W H X j j' :
    h_update_by K m n k V We W H X -> j < n -> j' < n ->
    same_col m V j V j' -> same_col m We j We j' -> same_col k H j H j' -> same_col k X j X j'.
  Proof.
    intros (WH & N & D & PW & PN & PD & E) Hj Hj' EV EW EH a Ha.
    assert (EWH : same_col m WH j WH j').
    { intros i Hi. rewrite (PW i j Hi Hj), (PW i j' Hi Hj'). f_equal. apply map_seq_ext.
      intros l Hl. rewrite (EH l Hl). reflexivity. }
    rewrite (E a j Ha Hj), (E a j' Ha Hj'), (PN a j Ha Hj), (PN a j' Ha Hj'), (PD a j Ha Hj), (PD a j' Ha Hj'), (EH a Ha).
    f_equal. f_equal; f_equal; apply map_seq_ext; intros l Hl; unfold emul, transpose;
      rewrite (EW l Hl); [rewrite (EV l Hl)|rewrite (EWH l Hl)]; reflexivity.
  Qed.
End Steps.

Section Inv.
  Context {prec emax : Z} {Hp : Prec_gt_0 prec} {He : Prec_lt_emax prec emax}.
  Notation F := (binary_float prec emax).
  Notation fmat := (fmat prec emax).
  Context (K : kernels prec emax) (m n k : nat) (V We W0 H0 : fmat) (upd : bool -> fmat * fmat -> fmat * fmat).
  Context (HU : uniform K m n k V We upd) (b : nat -> bool).

  Lemma rows_inv i i' N : i < m -> i' < m ->
    same_row n V i V i' -> same_row n We i We i' -> same_row k W0 i W0 i' ->
    let st := state_at upd b (W0, H0) N in same_row k (fst st) i (fst st) i'.
  Proof.
    intros Hi Hi' EV EW E0 st. apply (run_inv (fun st => same_row k (fst st) i (fst st) i') upd b); [exact E0|].
    intros h s Es. destruct (HU h s) as [_ Hw].
    apply (w_rows K m m n k V We V We (fst s) (fst s) _ _ _ _ i i' Hw Hw); auto.
  Qed.
  Lemma cols_inv j j' N : j < n -> j' < n ->
    same_col m V j V j' -> same_col m We j We j' -> same_col k H0 j H0 j' ->
    let st := state_at upd b (W0, H0) N in same_col k (snd st) j (snd st) j'.
  Proof.
    intros Hj Hj' EV EW E0 st. apply (run_inv (fun st => same_col k (snd st) j (snd st) j') upd b); [exact E0|].
    intros h s Es. destruct (HU h s) as [Hh _]. destruct h.
    - intros a Ha. rewrite !Hh by assumption. apply Es, Ha.
    - apply (h_cols K m n k V We (fst s) (snd s) _ j j' Hh); auto.
  Qed.
  Lemma factors_inv a a' N : a < k -> a' < k ->
    same_col m W0 a W0 a' -> same_row n H0 a H0 a' ->
    let st := state_at upd b (W0, H0) N in
    same_col m (fst st) a (fst st) a' /\ same_row n (snd st) a (snd st) a'.
  Proof.
    intros Ha Ha' EW EH st.
    apply (run_inv (fun st => same_col m (fst st) a (fst st) a' /\ same_row n (snd st) a (snd st) a') upd b); [split; assumption|].
    intros h s [Ew Eh]. destruct (HU h s) as [Hh Hw].
    assert (Eh' : same_row n (snd (upd h s)) a (snd (upd h s)) a').
    { destruct h.
      - intros j Hj. rewrite !Hh by assumption. apply Eh, Hj.
      - apply (h_factors K m n k V We (fst s) (snd s) _ a a' Hh); auto. }
    split; [|exact Eh'].
    apply (w_factors K m n k V We (fst s) (snd (upd h s)) _ a a' Hw); auto.
  Qed.
End Inv.

(** ** C148: twins *)

(** Compiled engine, whatever the format, the data (NaN and infinities included), the
    stopping rule and the holding of profiles: samples with the same data, weights and
    starting contributions end with the same contributions to the last bit; features
    with the same data, weights and starting profile entries end with the same profile
    entries; factors that start the same end the same. *)
Theorem C148_twins_to_the_bit :
  forall (prec emax : Z) (Hp : Prec_gt_0 prec) (He : Prec_lt_emax prec emax)
    (K : kernels prec emax) (m n k : nat) (V We W0 H0 : fmat prec emax) upd
    (loss : fmat prec emax * fmat prec emax -> binary_float prec emax) below
    (cn : Z) (hold_h : bool) (delay_h : Z) (tick : nat -> bool) (max_iter : Z),
    uniform K m n k V We upd ->
    let r := rust_train upd loss below cn hold_h delay_h tick max_iter (W0, H0) in
    let W := fst (rr_state r) in let H := snd (rr_state r) in
    (forall i i', i < m -> i' < m -> same_row n V i V i' -> same_row n We i We i' -> same_row k W0 i W0 i' ->
       same_row k W i W i') /\
    (forall j j', j < n -> j' < n -> same_col m V j V j' -> same_col m We j We j' -> same_col k H0 j H0 j' ->
       same_col k H j H j') /\
    (forall a a', a < k -> a' < k -> same_col m W0 a W0 a' -> same_row n H0 a H0 a' ->
       same_col m W a W a' /\ same_row n H a H a').
Proof.
  intros prec emax Hp He K m n k V We W0 H0 upd loss below cn hold_h delay_h tick max_iter HU r W H.
  destruct (rust_summary upd loss below cn hold_h delay_h tick (W0, H0) max_iter _
              (hold_at_held_iff hold_h delay_h)) as (_ & _ & Es & _).
  fold r in Es. unfold W, H. rewrite Es.
  split; [|split]; intros x y Hx Hy; intros.
  - apply (rows_inv K m n k V We W0 H0 upd HU); assumption.
  - apply (cols_inv K m n k V We W0 H0 upd HU); assumption.
  - apply (factors_inv K m n k V We W0 H0 upd HU); assumption.
Qed.
Print Assumptions C148_twins_to_the_bit.

Theorem C148_twins_to_the_bit_python :
  forall (prec emax : Z) (Hp : Prec_gt_0 prec) (He : Prec_lt_emax prec emax)
    (K : kernels prec emax) (m n k : nat) (V We W0 H0 : fmat prec emax) upd
    (loss : fmat prec emax * fmat prec emax -> binary_float prec emax) below nan_stop
    (cn : Z) (hold_h : bool) (delay_h : Z) (max_iter : Z),
    uniform K m n k V We upd -> (1 <= cn)%Z ->
    let r := py_train upd loss below nan_stop cn delay_h hold_h max_iter (W0, H0) in
    let W := fst (pr_state r) in let H := snd (pr_state r) in
    (forall i i', i < m -> i' < m -> same_row n V i V i' -> same_row n We i We i' -> same_row k W0 i W0 i' ->
       same_row k W i W i') /\
    (forall j j', j < n -> j' < n -> same_col m V j V j' -> same_col m We j We j' -> same_col k H0 j H0 j' ->
       same_col k H j H j') /\
    (forall a a', a < k -> a' < k -> same_col m W0 a W0 a' -> same_row n H0 a H0 a' ->
       same_col m W a W a' /\ same_row n H a H a').
Proof.
  intros prec emax Hp He K m n k V We W0 H0 upd loss below nan_stop cn hold_h delay_h max_iter HU Hcn r W H.
  destruct (py_summary upd loss below nan_stop cn hold_h delay_h (W0, H0) max_iter _ Hcn
              (hold_at_held_iff hold_h delay_h)) as (_ & _ & Es & _).
  fold r in Es. unfold W, H. rewrite Es.
  split; [|split]; intros x y Hx Hy; intros.
  - apply (rows_inv K m n k V We W0 H0 upd HU); assumption.
  - apply (cols_inv K m n k V We W0 H0 upd HU); assumption.
  - apply (factors_inv K m n k V We W0 H0 upd HU); assumption.
Qed.
Print Assumptions C148_twins_to_the_bit_python.

(** Profiles held throughout: after the same number of iterations a sample has, to the
    last bit, the contributions it gets in any other table that contains it with the
    same weights, starting contributions and profiles - in particular alone. *)
Theorem C148_held_samples_apart :
  forall (prec emax : Z) (Hp : Prec_gt_0 prec) (He : Prec_lt_emax prec emax)
    (K : kernels prec emax) (m m' n k : nat) (V We V' We' W0 W0' H0 : fmat prec emax) upd upd' i i' N,
    uniform K m n k V We upd -> uniform K m' n k V' We' upd' -> i < m -> i' < m' ->
    same_row n V i V' i' -> same_row n We i We' i' -> same_row k W0 i W0' i' ->
    same_row k (fst (state_at upd (fun _ => true) (W0, H0) N)) i (fst (state_at upd' (fun _ => true) (W0', H0) N)) i'.
Proof.
  intros prec emax Hp He K m m' n k V We V' We' W0 W0' H0 upd upd' i i' N HU HU' Hi Hi' EV EW E0.
  set (s := state_at upd (fun _ => true) (W0, H0)). set (s' := state_at upd' (fun _ => true) (W0', H0)).
  enough (same_row k (fst (s N)) i (fst (s' N)) i' /\ forall a j, a < k -> j < n -> snd (s N) a j = snd (s' N) a j) by tauto.
  induction N as [|N [IH EH]]; [split; [exact E0|reflexivity]|].
  destruct (HU true (s N)) as [Hh Hw]. destruct (HU' true (s' N)) as [Hh' Hw'].
  change (s (S N)) with (upd true (s N)). change (s' (S N)) with (upd' true (s' N)).
  assert (EH' : forall a j, a < k -> j < n -> snd (upd true (s N)) a j = snd (upd' true (s' N)) a j).
  { intros a j Ha Hj. rewrite Hh, Hh' by assumption. apply EH; assumption. }
  split; [|exact EH'].
  apply (w_rows K m m' n k V We V' We' (fst (s N)) (fst (s' N)) _ _ _ _ i i' Hw Hw'); auto.
Qed.
Print Assumptions C148_held_samples_apart.

(** Such engines are among those of C84-C88. *)
Lemma uniform_implements {prec emax} {Hp : Prec_gt_0 prec} {He : Prec_lt_emax prec emax}
  (K : kernels prec emax) m n k V We upd :
  sums K -> uniform K m n k V We upd -> implements m n k V We upd.
Proof.
  intros HK HU hold st. destruct (HU hold st) as [Hh (WH & N & D & P1 & P2 & P3 & E)]. split.
  - destruct hold; [exact Hh|]. destruct Hh as (WH' & N' & D' & P1' & P2' & P3' & E').
    exists WH', N', D'. split; [|split; [|split]]; [| | |exact E'].
    + intros i j Hi Hj. rewrite (P1' i j Hi Hj). apply HK.
    + intros i j Hi Hj. rewrite (P2' i j Hi Hj). apply HK.
    + intros i j Hi Hj. rewrite (P3' i j Hi Hj). apply HK.
  - exists WH, N, D. split; [|split; [|split]]; [| | |exact E].
    + intros i j Hi Hj. rewrite (P1 i j Hi Hj). apply HK.
    + intros i j Hi Hj. rewrite (P2 i j Hi Hj). apply HK.
    + intros i j Hi Hj. rewrite (P3 i j Hi Hj). apply HK.
Qed.

(** ** An engine that sums the cells of the last row backwards *)
Definition ltr {prec emax} {Hp : Prec_gt_0 prec} {He : Prec_lt_emax prec emax} : kernel prec emax := fun l => dot_ltr _ _ _ _ l.
Definition mixed {prec emax} {Hp : Prec_gt_0 prec} {He : Prec_lt_emax prec emax} (last p : nat) (A B : fmat prec emax) : fmat prec emax :=
  fun i j => let l := map (fun q => (A i q, B q j)) (seq 0 p) in ltr (if i =? last then rev l else l).
Definition upd_mixed {prec emax} {Hp : Prec_gt_0 prec} {He : Prec_lt_emax prec emax} (m n k : nat) (V We : fmat prec emax)
  (hold : bool) (st : fmat prec emax * fmat prec emax) : fmat prec emax * fmat prec emax :=
  let (W, H) := st in
  let H' := if hold then H else
    let WH := mixed (m - 1) k W H in
    let Num := mixed (k - 1) m (transpose W) (emul We V) in
    let Den := mixed (k - 1) m (transpose W) (emul We WH) in
    fun a j => fmul (H a j) (fdiv (Num a j) (Den a j)) in
  let WH := mixed (m - 1) k W H' in
  let Num := mixed (m - 1) n (emul We V) (transpose H') in
  let Den := mixed (m - 1) n (emul We WH) (transpose H') in
  (fun i a => fmul (W i a) (fdiv (Num i a) (Den i a)), H').
Lemma mixed_ok {prec emax} {Hp : Prec_gt_0 prec} {He : Prec_lt_emax prec emax} last r p c (A B : fmat prec emax) :
  product r p c A B (mixed last p A B).
Proof.
  intros i j _ _. unfold mixed, ltr. destruct (i =? last); [|apply dot_ltr_ok].
  eapply dot_perm; [|apply dot_ltr_ok]. apply Permutation_sym, Permutation_rev.
Qed.

(** It conforms to the model of C84-C88, and two identical samples come out different
    after one iteration. *)
Theorem C148_any_order_refuted :
  let V := fun (_ j : nat) => if j =? 0 then lit32 1 24 else lit32 1 0 in
  let We := cst (lit32 1 0) in let W := cst (lit32 1 0) in
  let H := cst (lit32 1 0) in
  let upd := upd_mixed 2 3 1 V We in
  implements 2 3 1 V We upd /\
  same_row 3 V 0 V 1 /\ same_row 3 We 0 We 1 /\ same_row 1 W 0 W 1 /\
  fst (rr_state (rust_train upd (fun _ => lit32 0 0) (ieee_below (lit32 1 0)) 5 true (-1) (fun _ => false) 1 (W, H))) 0 0 <>
  fst (rr_state (rust_train upd (fun _ => lit32 0 0) (ieee_below (lit32 1 0)) 5 true (-1) (fun _ => false) 1 (W, H))) 1 0.
Proof.
  cbv zeta. split; [|split; [|split; [|split]]]; try (intros j _; reflexivity).
  - intros hold [W H]. split; cbn [fst snd upd_mixed].
    + destruct hold; [reflexivity|]. eexists _, _, _.
      split; [apply mixed_ok|]. split; [apply mixed_ok|]. split; [apply mixed_ok|]. intros a j _ _. reflexivity.
    + eexists _, _, _. split; [apply mixed_ok|]. split; [apply mixed_ok|]. split; [apply mixed_ok|]. intros a j _ _. reflexivity.
  - intros E. assert (E2 := f_equal (fun x => Bltb x (fdiv (lit32 16777218 0) (lit32 3 0))) E).
    vm_compute in E2. discriminate E2.
Qed.
Print Assumptions C148_any_order_refuted.

Lemma stored_by {prec emax} {Hp : Prec_gt_0 prec} {He : Prec_lt_emax prec emax} r p c (A B : fmat prec emax) :
  product_by ltr r p c A B (stored _ _ r c (prod_ltr _ _ _ _ p A B)).
Proof. intros i j Hi Hj. rewrite stored_ok by assumption. reflexivity. Qed.

Lemma prod_by {prec emax} {Hp : Prec_gt_0 prec} {He : Prec_lt_emax prec emax} r p c (A B : fmat prec emax) :
  product_by ltr r p c A B (prod_ltr _ _ _ _ p A B).
Proof. intros i j _ _. reflexivity. Qed.

(** The plain loops treat every cell alike; a table with two equal samples, two equal
    features and two equal factors. *)
Example C148_instance :
  let V := fun i j => lit32 (Z.of_nat (1 + (i / 2) + 3 * (j / 2))) 0 in
  let We := cst (lit32 3 (-2)) in
  let W := fun i (a : nat) => lit32 (Z.of_nat (1 + i / 2)) 0 in
  let H := fun (a j : nat) => lit32 (Z.of_nat (2 + j / 2)) (-1) in
  let K := mkK ltr ltr ltr ltr ltr ltr in
  let upd := upd_ltr 3 3 2 V We in
  let r := rust_train upd (q_ltr 3 3 2 V We) (ieee_below (lit32 1 (-20))) 2 false (-1) (fun _ => false) 3 (W, H) in
  uniform K 3 3 2 V We upd /\ sums K /\
  same_row 3 V 0 V 1 /\ same_col 3 V 0 V 1 /\ same_row 2 W 0 W 1 /\ same_col 2 H 0 H 1 /\
  same_col 3 W 0 W 1 /\ same_row 3 H 0 H 1 /\
  fst (rr_state r) 0 0 = fst (rr_state r) 1 1 /\ snd (rr_state r) 0 0 = snd (rr_state r) 1 1 /\
  Beqb (fst (rr_state r) 0 0) (W 0 0) = false /\ is_finite (fst (rr_state r) 0 0) = true.
Proof.
  cbv zeta. split; [|split].
  - intros hold [W H]. split.
    + destruct hold; cbn [fst snd upd_ltr].
      * reflexivity.
      * eexists _, _, _. split; [apply stored_by|].
        split; [apply prod_by|]. split; [apply prod_by|].
        intros a j Ha Hj. rewrite stored_ok by assumption. reflexivity.
    + cbn [fst snd upd_ltr]. eexists _, _, _. split; [apply stored_by|].
      split; [apply prod_by|]. split; [apply prod_by|].
      intros a j Ha Hj. rewrite stored_ok by assumption. reflexivity.
  - intros l. repeat split; apply dot_ltr_ok.
  - split; [intros j Hj; reflexivity|]. split; [intros j Hj; reflexivity|].
    split; [intros j Hj; reflexivity|]. split; [intros j Hj; reflexivity|].
    split; [intros j Hj; reflexivity|]. split; [intros j Hj; reflexivity|].
    repeat split; vm_compute; reflexivity.
Qed.

(** ** WS-NMF *)
Section WsSteps.
  Context {prec emax : Z} {Hp : Prec_gt_0 prec} {He : Prec_lt_emax prec emax}.
  Notation F := (binary_float prec emax).
  Notation fmat := (fmat prec emax).
  Context (mm : multiply prec emax) (solve : nat -> fmat -> fmat) (tiny : F).
  Context (RM : repeatable mm) (RS : repeatable_solve solve).

  Lemma agree_refl r c (A : fmat) : agree r c A A.
  Proof. intros i j _ _. reflexivity. Qed.
  Lemma agree_diag r (d d' : nat -> F) : (forall i, i < r -> d i = d' i) -> agree r r (diag d) (diag d').
  Proof. intros E i j Hi _. unfold diag. destruct (i =? j); [apply E, Hi|reflexivity]. Qed.
  Lemma agree_transp r c (A B : fmat) : agree r c A B -> agree c r (transpose A) (transpose B).
  Proof. intros E i j Hi Hj. apply E; assumption. Qed.

  Lemma ws_sample_same n k v v' we we' H H' :
    (forall j, j < n -> v j = v' j) -> (forall j, j < n -> we j = we' j) -> agree k n H H' ->
    forall b, b < k -> ws_sample mm solve n k v we H b = ws_sample mm solve n k v' we' H' b.
  Proof.
    intros Ev Ew EH b Hb. unfold ws_sample. apply RM; [| |lia|exact Hb].
    - apply agree_transp. apply RM; [exact EH|]. intros j l Hj _. rewrite (Ev j Hj), (Ew j Hj). reflexivity.
    - apply RS, RM; [exact EH|]. apply RM; [apply agree_diag, Ew|apply agree_transp, EH].
  Qed.
  Lemma ws_feature_same m k v v' we we' W h h' :
    (forall i, i < m -> v i = v' i) -> (forall i, i < m -> we i = we' i) -> (forall b, b < k -> h b = h' b) ->
    forall a, a < k -> ws_feature mm tiny m k v we W h a = ws_feature mm tiny m k v' we' W h' a.
  Proof.
    intros Ev Ew Eh a Ha. unfold ws_feature. rewrite (Eh a Ha).
    assert (EV : agree 1 m (fun _ i => fmul (we i) (v i)) (fun _ i => fmul (we' i) (v' i))).
    { intros l i _ Hi. rewrite (Ev i Hi), (Ew i Hi). reflexivity. }
    assert (ER : agree 1 k (fun _ b => h b) (fun _ b => h' b)) by (intros l b _ Hb; apply Eh, Hb).
    assert (Q : forall P : fmat, mm 1 k k (fun _ b => h b) (mm k m k (mm k m m (transpose P) (diag we)) P) 0 a =
                         mm 1 k k (fun _ b => h' b) (mm k m k (mm k m m (transpose P) (diag we')) P) 0 a).
    { intros P. apply RM; [exact ER| |lia|exact Ha]. apply RM; [|apply agree_refl].
      apply RM; [apply agree_refl|apply agree_diag, Ew]. }
    rewrite !Q. rewrite (RM 1 m k _ _ _ _ EV (agree_refl m k (fpos_part W)) 0 a) by (lia || exact Ha).
    rewrite (RM 1 m k _ _ _ _ EV (agree_refl m k (fneg_part W)) 0 a) by (lia || exact Ha). reflexivity.
  Qed.
End WsSteps.

(** With repeatable library calls - in whatever order each sums - WS-NMF gives samples
    with the same data and weights bitwise the same contributions from the first iteration
    on, whatever they start with; and features with the same data, weights and starting
    profile entries bitwise the same entries. *)
Theorem C148_ws_twins_to_the_bit :
  forall (prec emax : Z) (Hp : Prec_gt_0 prec) (He : Prec_lt_emax prec emax)
    (mm : multiply prec emax) (solve : nat -> fmat prec emax -> fmat prec emax) tiny (m n k : nat) (V We W0 H0 : fmat prec emax)
    (loss : fmat prec emax * fmat prec emax -> binary_float prec emax) below
    (cn : Z) (hold_h : bool) (delay_h : Z) (tick : nat -> bool) (max_iter : Z),
    repeatable mm -> repeatable_solve solve -> (1 <= max_iter)%Z ->
    let r := rust_train (ws_by mm solve tiny m n k V We) loss below cn hold_h delay_h tick max_iter (W0, H0) in
    let W := fst (rr_state r) in let H := snd (rr_state r) in
    (forall i i', i < m -> i' < m -> same_row n V i V i' -> same_row n We i We i' -> same_row k W i W i') /\
    (forall j j', j < n -> j' < n -> same_col m V j V j' -> same_col m We j We j' -> same_col k H0 j H0 j' ->
       same_col k H j H j').
Proof.
  intros prec emax Hp He mm solve tiny m n k V We W0 H0 loss below cn hold_h delay_h tick max_iter RM RS HN r W H.
  set (upd := ws_by mm solve tiny m n k V We) in *.
  destruct (rust_summary upd loss below cn hold_h delay_h tick (W0, H0) max_iter _
              (hold_at_held_iff hold_h delay_h)) as (_ & _ & Es & _).
  fold r in Es. unfold W, H. rewrite Es. set (N := length (rr_hist r)).
  assert (NP : 1 <= N).
  { destruct (rust_train_spec upd loss below cn hold_h delay_h tick (W0, H0) max_iter) as [(j & _ & _ & _ & _ & _ & _ & Eh)|(_ & _ & _ & Eh & _)];
      fold r in Eh; unfold N; rewrite Eh, map_length, seq_length; lia. }
  set (b := hold_at hold_h delay_h). split.
  - intros i i' Hi Hi' EV EW. destruct N as [|N']; [lia|]. cbn [state_at]. set (s := state_at upd b (W0, H0) N').
    intros a Ha. unfold upd, ws_by. cbn [fst].
    apply (ws_sample_same mm solve RM RS); [exact EV|exact EW|apply agree_refl|exact Ha].
  - intros j j' Hj Hj' EV EW E0. apply (run_inv (fun st => same_col k (snd st) j (snd st) j') upd b); [exact E0|].
    intros h s IHs a Ha. unfold upd, ws_by. cbn [snd]. destruct h; [apply IHs, Ha|].
    apply (ws_feature_same mm tiny RM); [exact EV|exact EW|exact IHs|exact Ha].
Qed.
Print Assumptions C148_ws_twins_to_the_bit.

(** Held profiles: whatever the tables, starting contributions and (positive) numbers of
    iterations, a sample with the same data and weights gets bitwise the same contributions. *)
Theorem C148_ws_held_samples_apart :
  forall (prec emax : Z) (Hp : Prec_gt_0 prec) (He : Prec_lt_emax prec emax)
    (mm : multiply prec emax) (solve : nat -> fmat prec emax -> fmat prec emax) tiny (m m' n k : nat)
    (V We V' We' W0 W0' H0 : fmat prec emax) i i' N N',
    repeatable mm -> repeatable_solve solve -> i < m -> i' < m' ->
    same_row n V i V' i' -> same_row n We i We' i' ->
    same_row k (fst (state_at (ws_by mm solve tiny m n k V We) (fun _ => true) (W0, H0) (S N))) i
               (fst (state_at (ws_by mm solve tiny m' n k V' We') (fun _ => true) (W0', H0) (S N'))) i'.
Proof.
  intros prec emax Hp He mm solve tiny m m' n k V We V' We' W0 W0' H0 i i' N N' RM RS Hi Hi' EV EW a Ha.
  assert (EH : forall M W1 X Y N, snd (state_at (ws_by mm solve tiny M n k X Y) (fun _ => true) (W1, H0) N) = H0).
  { intros M W1 X Y. induction N0 as [|N0 IH]; [reflexivity|]. cbn [state_at]. unfold ws_by at 1. cbn [snd]. exact IH. }
  cbn [state_at]. unfold ws_by at 1 3. cbn [fst]. rewrite !EH.
  apply (ws_sample_same mm solve RM RS); [exact EV|exact EW|apply agree_refl|exact Ha].
Qed.
Print Assumptions C148_ws_held_samples_apart.

(** The plain loops are repeatable; two equal samples that start differently. *)
Definition mm_ltr {prec emax} {Hp : Prec_gt_0 prec} {He : Prec_lt_emax prec emax} : multiply prec emax :=
  fun r p c A B => prod_ltr _ _ _ _ p A B.
Definition diag_inv {prec emax} {Hp : Prec_gt_0 prec} {He : Prec_lt_emax prec emax} : nat -> fmat prec emax -> fmat prec emax :=
  fun k A i j => if i =? j then fdiv (fone _ _ _ _) (A i j) else fzero.
Example C148_ws_instance :
  let V := fun i j => lit32 (Z.of_nat (1 + (i / 2) + 3 * (j / 2))) 0 in
  let We := cst (lit32 3 (-2)) in
  let W := fun i (a : nat) => lit32 (Z.of_nat (1 + i)) 0 in
  let H := fun (a j : nat) => lit32 (Z.of_nat (2 + j / 2)) (-1) in
  let r := rust_train (ws_by mm_ltr diag_inv (lit32 1 (-40)) 3 3 1 V We) (fun _ => lit32 0 0) (ieee_below (lit32 1 (-20))) 2 false (-1) (fun _ => false) 1 (W, H) in
  repeatable (mm_ltr : multiply 24 128) /\ repeatable_solve (diag_inv : nat -> fmat 24 128 -> fmat 24 128) /\
  same_row 3 V 0 V 1 /\ same_col 3 V 0 V 1 /\ same_col 1 H 0 H 1 /\ Beqb (W 0 0) (W 1 0) = false /\
  is_finite (fst (rr_state r) 0 0) = true /\ Beqb (fst (rr_state r) 0 0) (fst (rr_state r) 2 0) = false.
Proof.
  cbv zeta. split; [|split].
  - intros r p c A A' B B' EA EB i j Hi Hj. unfold mm_ltr, prod_ltr. f_equal. apply map_seq_ext.
    intros l Hl. rewrite (EA i l Hi Hl), (EB l j Hl Hj). reflexivity.
  - intros k A A' EA i j Hi Hj. unfold diag_inv. destruct (i =? j); [rewrite (EA i j Hi Hj)|]; reflexivity.
  - split; [intros j Hj; reflexivity|]. split; [intros j Hj; reflexivity|]. split; [intros j Hj; reflexivity|].
    repeat split; vm_compute; reflexivity.
Qed.
(** Such an engine is among those of the IEEE properties of WS-NMF (C122). *)
Lemma ws_by_implements {prec emax} {Hp : Prec_gt_0 prec} {He : Prec_lt_emax prec emax} (mm : multiply prec emax) solve tiny m n k V We :
  (forall r p c A B, product r p c A B (mm r p c A B)) -> ws_implements (solve k) tiny m n k V We (ws_by mm solve tiny m n k V We).
Proof.
  intros HM hold [W H]. unfold ws_by. cbn [fst snd]. split.
  - intros i Hi. eexists _, _, _. split; [apply HM|]. split; [apply HM|]. split; [apply HM|].
    intros b Hb. cbn [fst snd]. unfold ws_sample.
    exact (HM 1 k k (transpose (mm k n 1 H (fun j _ : nat => fmul (We i j) (V i j))))
             (solve k (mm k n k H (mm n n k (diag (We i)) (transpose H)))) 0 b (Nat.lt_0_succ 0) Hb).
  - destruct hold; [reflexivity|]. intros j Hj. eexists _, _, _, _, _, _, _, _.
    split; [apply HM|]. split; [apply HM|]. split; [apply HM|]. split; [apply HM|]. split; [apply HM|].
    split; [apply HM|]. split; [apply HM|]. split; [apply HM|]. intros a Ha. reflexivity.
Qed.

Definition xu_V := fun i j => lit32 (Z.of_nat (1 + (i / 2) + 3 * (j / 2))) 0.
Definition xu_We := cst (lit32 3 (-2)).
Definition xu_W := fun i (a : nat) => lit32 (Z.of_nat (1 + i / 2)) 0.
Definition xu_H := fun (a j : nat) => lit32 (Z.of_nat (2 + j / 2)) (-1).
Example C148_twins_to_the_bit_example :=
  C148_twins_to_the_bit 24 128 _ _ (mkK ltr ltr ltr ltr ltr ltr) 3 3 2 xu_V xu_We xu_W xu_H (upd_ltr 3 3 2 xu_V xu_We)
    (q_ltr 3 3 2 xu_V xu_We) (ieee_below (lit32 1 (-20))) 2 false (-1) (fun _ => false) 3 (proj1 C148_instance).
Example C148_twins_to_the_bit_python_example :=
  C148_twins_to_the_bit_python 24 128 _ _ (mkK ltr ltr ltr ltr ltr ltr) 3 3 2 xu_V xu_We xu_W xu_H (upd_ltr 3 3 2 xu_V xu_We)
    (q_ltr 3 3 2 xu_V xu_We) (ieee_below (lit32 1 (-20))) (fun _ => false) 2 false (-1) 3 (proj1 C148_instance) ltac:(lia).
Example C148_held_samples_apart_example :=
  C148_held_samples_apart 24 128 _ _ (mkK ltr ltr ltr ltr ltr ltr) 3 3 3 2 xu_V xu_We xu_V xu_We xu_W xu_W xu_H
    (upd_ltr 3 3 2 xu_V xu_We) (upd_ltr 3 3 2 xu_V xu_We) 0 1 3 (proj1 C148_instance) (proj1 C148_instance) ltac:(lia) ltac:(lia)
    (fun _ _ => eq_refl) (fun _ _ => eq_refl) (fun _ _ => eq_refl).
Example C148_ws_twins_to_the_bit_example :=
  C148_ws_twins_to_the_bit 24 128 _ _ mm_ltr diag_inv (lit32 1 (-40)) 3 3 1 xu_V xu_We xu_W xu_H
    (fun _ => lit32 0 0) (ieee_below (lit32 1 (-20))) 2 false (-1) (fun _ => false) 1
    (proj1 C148_ws_instance) (proj1 (proj2 C148_ws_instance)) ltac:(lia).
Example C148_ws_held_samples_apart_example :=
  C148_ws_held_samples_apart 24 128 _ _ mm_ltr diag_inv (lit32 1 (-40)) 3 3 3 1 xu_V xu_We xu_V xu_We xu_W xu_W xu_H 0 1 4 2
    (proj1 C148_ws_instance) (proj1 (proj2 C148_ws_instance)) ltac:(lia) ltac:(lia) (fun _ _ => eq_refl) (fun _ _ => eq_refl).
