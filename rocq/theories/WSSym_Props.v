(** C142: WS-NMF and the labelling, the units and the inversion routine. *)
From Coq Require Import Reals Lra Lia List Bool ZArith Arith Psatz.
From Verif Require Import Base Fl Metrics_Model Metrics_Spec Metrics_Proofs LSNMF_Model LSNMF_Proofs
  WSNMF_Model WSNMF_Proofs WSNMF_Props WSLimit_Props.
Import ListNotations.
Open Scope R_scope.

(** ** Specification *)
(** The state [st'] is [st] with samples, features and factors renumbered and the
    contributions of sample [i] in the unit of that sample. *)
Definition relabelled (m n k : nat) (sr sf sk : nat -> nat) (d : nat -> R) (st st' : mat * mat) : Prop :=
  (forall i a, (i < m)%nat -> (a < k)%nat -> fst st' i a = d i * fst st (sr i) (sk a)) /\
  (forall a j, (a < k)%nat -> (j < n)%nat -> snd st' a j = snd st (sk a) (sf j)).
(** Every sample determines its contributions: its weighted normal matrix has an
    inverse. *)
Definition determined (m n k : nat) (U H : mat) : Prop :=
  forall i, (i < m)%nat -> exists B, inverse_of k (fun a b => rsum n (fun j => H a j * (/ (U i j * U i j) * H b j))) B.

(** ** Proofs *)
Lemma inverse_ext k A A' B : meq k k A A' -> inverse_of k A' B -> inverse_of k A B.
Proof.
  intros E [X Y]. split; intros a c Ha Hc.
  - rewrite <- (X a c Ha Hc). unfold mmul. apply rsum_ext. intros p Hp. rewrite E by assumption. reflexivity.
  - rewrite <- (Y a c Ha Hc). unfold mmul. apply rsum_ext. intros p Hp. rewrite E by assumption. reflexivity.
Qed.

Lemma det_wd n k U H i B : inverse_of k (fun a b => rsum n (fun j => H a j * (/ (U i j * U i j) * H b j))) B -> inverse_of k (ws_wd n (weights U) H i) B.
Proof.
  apply inverse_ext. intros a b _ _. unfold ws_wd, weights. apply rsum_ext. intros j Hj. unfold Rdiv. rewrite Rmult_1_l.
  replace (U i j ^ 2) with (U i j * U i j) by ring. reflexivity.
Qed.

(** The contributions of a sample are the one solution of its normal equations. *)
Lemma w_unique solve n k V We H i B (w : nat -> R) : inverts k solve -> inverse_of k (ws_wd n We H i) B ->
  (forall c, (c < k)%nat -> rsum k (fun p => w p * ws_wd n We H i p c) = ws_wn n V We H i c) ->
  forall a, (a < k)%nat -> ws_w_step solve n k V We H i a = w a.
Proof.
  intros Inv HB Eq a Ha. destruct (Inv _ _ HB) as [I1 _]. unfold ws_w_step.
  transitivity (rsum k (fun c => rsum k (fun p => w p * ws_wd n We H i p c) * solve k (ws_wd n We H i) c a)).
  - apply rsum_ext. intros c Hc. rewrite Eq by exact Hc. reflexivity.
  - transitivity (rsum k (fun p => w p * mmul k (ws_wd n We H i) (solve k (ws_wd n We H i)) p a)).
    + transitivity (rsum k (fun c => rsum k (fun p => w p * (ws_wd n We H i p c * solve k (ws_wd n We H i) c a)))).
      * apply rsum_ext. intros c Hc. rewrite <- rsum_scal_r. apply rsum_ext. intros. ring.
      * rewrite rsum_swap. apply rsum_ext. intros p Hp. rewrite rsum_scal_l. reflexivity.
    + rewrite (rsum_single k _ a Ha).
      * rewrite I1 by assumption. rewrite Nat.eqb_refl. ring.
      * intros p Hp Hne. rewrite I1 by assumption. destruct (Nat.eqb_spec p a); [contradiction|ring].
Qed.

Lemma w_solves solve n k V We H i B : inverts k solve -> inverse_of k (ws_wd n We H i) B ->
  forall c, (c < k)%nat -> rsum k (fun p => ws_w_step solve n k V We H i p * ws_wd n We H i p c) = ws_wn n V We H i c.
Proof.
  intros Inv HB c Hc. destruct (Inv _ _ HB) as [_ I2]. unfold ws_w_step.
  transitivity (rsum k (fun a => ws_wn n V We H i a * mmul k (solve k (ws_wd n We H i)) (ws_wd n We H i) a c)).
  - transitivity (rsum k (fun p => rsum k (fun a => ws_wn n V We H i a * (solve k (ws_wd n We H i) a p * ws_wd n We H i p c)))).
    + apply rsum_ext. intros p Hp. rewrite <- rsum_scal_r. apply rsum_ext. intros. ring.
    + rewrite rsum_swap. apply rsum_ext. intros a Ha. rewrite rsum_scal_l. reflexivity.
  - rewrite (rsum_single k _ c Hc).
    + rewrite I2 by assumption. rewrite Nat.eqb_refl. ring.
    + intros p Hp Hne. rewrite I2 by assumption. destruct (Nat.eqb_spec p c); [contradiction|ring].
Qed.

Section Sym.
  Context (solve solve' : nat -> mat -> mat) (m n k : nat) (sr sf sk : nat -> nat) (d : nat -> R) (V U V' U' : mat).
  Context (Inv : inverts k solve) (Inv' : inverts k solve').
  Context (Br : bij m sr) (Bf : bij n sf) (Bk : bij k sk).
  Context (Hd : forall i, (i < m)%nat -> 0 < d i).
  Context (HU : mall m n (fun u => u <> 0) U).
  Context (EV : forall i j, (i < m)%nat -> (j < n)%nat -> V' i j = d i * V (sr i) (sf j)).
  Context (EU : forall i j, (i < m)%nat -> (j < n)%nat -> U' i j = d i * U (sr i) (sf j)).

  Let We := weights U.
  Let We' := weights U'.

  Lemma we_rel i j : (i < m)%nat -> (j < n)%nat -> We' i j = We (sr i) (sf j) / (d i * d i).
  Proof.
    intros Hi Hj. unfold We', We, weights. rewrite EU by assumption. specialize (Hd i Hi).
    pose proof (HU (sr i) (sf j) (proj1 Br i Hi) (proj1 Bf j Hj)) as Hu. cbv beta in Hu. field. split; lra.
  Qed.
  Lemma wev_rel i j : (i < m)%nat -> (j < n)%nat -> wev V' We' i j = wev V We (sr i) (sf j) / d i.
  Proof. intros Hi Hj. unfold wev. rewrite we_rel, EV by assumption. specialize (Hd i Hi). field. lra. Qed.

  Context (H H' : mat) (EH : forall a j, (a < k)%nat -> (j < n)%nat -> H' a j = H (sk a) (sf j)).

  Lemma wd_rel i a b : (i < m)%nat -> (a < k)%nat -> (b < k)%nat -> ws_wd n We' H' i a b = ws_wd n We H (sr i) (sk a) (sk b) / (d i * d i).
  Proof.
    intros Hi Ha Hb. unfold ws_wd. unfold Rdiv at 1. rewrite <- rsum_scal_r, <- (rsum_reindex n sf (fun j => H (sk a) j * (We (sr i) j * H (sk b) j) * / (d i * d i)) Bf). apply rsum_ext. intros j Hj.
    rewrite !EH, we_rel by assumption. unfold Rdiv. ring.
  Qed.
  Lemma wn_rel i a : (i < m)%nat -> (a < k)%nat -> ws_wn n V' We' H' i a = ws_wn n V We H (sr i) (sk a) / d i.
  Proof.
    intros Hi Ha. unfold ws_wn. unfold Rdiv at 1. rewrite <- rsum_scal_r, <- (rsum_reindex n sf (fun j => H (sk a) j * wev V We (sr i) j * / d i) Bf). apply rsum_ext. intros j Hj.
    rewrite EH, wev_rel by assumption. unfold Rdiv. ring.
  Qed.

  Lemma det_rel i B : (i < m)%nat -> inverse_of k (ws_wd n We H (sr i)) B -> exists B', inverse_of k (ws_wd n We' H' i) B'.
  Proof.
    intros Hi [I1 I2]. exists (fun a b => (d i * d i) * B (sk a) (sk b)). pose proof (Hd i Hi) as Hp.
    split; intros a c Ha Hc; unfold mmul.
    - transitivity (mmul k (ws_wd n We H (sr i)) B (sk a) (sk c)).
      + unfold mmul. rewrite <- (rsum_reindex k sk (fun p => ws_wd n We H (sr i) (sk a) p * B p (sk c)) Bk). apply rsum_ext. intros p Hp'. rewrite wd_rel by assumption. field. lra.
      + rewrite I1 by (apply Bk; assumption). destruct (Nat.eqb_spec a c) as [->|Ne]; [rewrite Nat.eqb_refl; reflexivity|].
        destruct (Nat.eqb_spec (sk a) (sk c)) as [E|]; [|reflexivity]. exfalso. apply Ne. apply (proj2 Bk); assumption.
    - transitivity (mmul k B (ws_wd n We H (sr i)) (sk a) (sk c)).
      + unfold mmul. rewrite <- (rsum_reindex k sk (fun p => B (sk a) p * ws_wd n We H (sr i) p (sk c)) Bk). apply rsum_ext. intros p Hp'. rewrite wd_rel by assumption. field. lra.
      + rewrite I2 by (apply Bk; assumption). destruct (Nat.eqb_spec a c) as [->|Ne]; [rewrite Nat.eqb_refl; reflexivity|].
        destruct (Nat.eqb_spec (sk a) (sk c)) as [E|]; [|reflexivity]. exfalso. apply Ne. apply (proj2 Bk); assumption.
  Qed.

  Context (Det : determined m n k U H).

  Lemma w_rel i a : (i < m)%nat -> (a < k)%nat -> ws_w_step solve' n k V' We' H' i a = d i * ws_w_step solve n k V We H (sr i) (sk a).
  Proof.
    intros Hi Ha. destruct (Det (sr i) (proj1 Br i Hi)) as [B HB]. apply det_wd in HB. fold We in HB.
    destruct (det_rel i B Hi HB) as [B' HB'].
    refine (w_unique solve' n k V' We' H' i B' (fun a => d i * ws_w_step solve n k V We H (sr i) (sk a)) Inv' HB' _ a Ha).
    intros c Hc. rewrite wn_rel by assumption. rewrite <- (w_solves solve n k V We H (sr i) B Inv HB (sk c) (proj1 Bk c Hc)).
    unfold Rdiv. rewrite <- rsum_scal_r, <- (rsum_reindex k sk (fun p => ws_w_step solve n k V We H (sr i) p * ws_wd n We H (sr i) p (sk c) * / d i) Bk). apply rsum_ext. intros p Hp. rewrite wd_rel by assumption. specialize (Hd i Hi). field. lra.
  Qed.

  Context (W W' : mat) (EW : forall i a, (i < m)%nat -> (a < k)%nat -> W' i a = d i * W (sr i) (sk a)).

  Lemma pos_rel i a : (i < m)%nat -> (a < k)%nat -> pos_part W' i a = d i * pos_part W (sr i) (sk a).
  Proof. intros Hi Ha. unfold pos_part. rewrite EW by assumption. specialize (Hd i Hi). rewrite Rabs_mult, (Rabs_pos_eq (d i)) by lra. field. Qed.
  Lemma neg_rel i a : (i < m)%nat -> (a < k)%nat -> neg_part W' i a = d i * neg_part W (sr i) (sk a).
  Proof. intros Hi Ha. unfold neg_part. rewrite EW by assumption. specialize (Hd i Hi). rewrite Rabs_mult, (Rabs_pos_eq (d i)) by lra. field. Qed.

  Lemma lin_rel X X' a j : (forall i a, (i < m)%nat -> (a < k)%nat -> X' i a = d i * X (sr i) (sk a)) -> (a < k)%nat -> (j < n)%nat ->
    ws_lin m V' We' X' a j = ws_lin m V We X (sk a) (sf j).
  Proof.
    intros EX Ha Hj. unfold ws_lin. rewrite <- (rsum_reindex m sr (fun i => wev V We i (sf j) * X i (sk a)) Br). apply rsum_ext. intros i Hi. rewrite wev_rel, EX by assumption.
    specialize (Hd i Hi). field. lra.
  Qed.
  Lemma quad_rel X X' a j : (forall i a, (i < m)%nat -> (a < k)%nat -> X' i a = d i * X (sr i) (sk a)) -> (a < k)%nat -> (j < n)%nat ->
    ws_quad m k We' X' H' a j = ws_quad m k We X H (sk a) (sf j).
  Proof.
    intros EX Ha Hj. unfold ws_quad. rewrite <- (rsum_reindex k sk (fun b => H b (sf j) * rsum m (fun i => X i b * We i (sf j) * X i (sk a))) Bk). apply rsum_ext. intros b Hb. rewrite EH by assumption. f_equal.
    rewrite <- (rsum_reindex m sr (fun i => X i (sk b) * We i (sf j) * X i (sk a)) Br). apply rsum_ext. intros i Hi. rewrite we_rel, !EX by assumption. specialize (Hd i Hi). field. lra.
  Qed.
  Lemma n_rel a j : (a < k)%nat -> (j < n)%nat -> ws_n m k V' We' W' H' a j = ws_n m k V We W H (sk a) (sf j).
  Proof. intros Ha Hj. unfold ws_n. rewrite (lin_rel _ _ a j pos_rel Ha Hj), (quad_rel _ _ a j neg_rel Ha Hj). reflexivity. Qed.
  Lemma d_rel a j : (a < k)%nat -> (j < n)%nat -> ws_d m k V' We' W' H' a j = ws_d m k V We W H (sk a) (sf j).
  Proof. intros Ha Hj. unfold ws_d. rewrite (lin_rel _ _ a j neg_rel Ha Hj), (quad_rel _ _ a j pos_rel Ha Hj). reflexivity. Qed.

  Lemma h_rel : match ws_h_step m n k V We W H, ws_h_step m n k V' We' W' H' with
    | Some H1, Some H1' => forall a j, (a < k)%nat -> (j < n)%nat -> H1' a j = H1 (sk a) (sf j)
    | None, None => True
    | _, _ => False
    end.
  Proof.
    unfold ws_h_step.
    assert (E : forallb (fun a => forallb (fun j => sqrt_ok (ws_n m k V We W H a j) (ws_d m k V We W H a j)) (seq 0 n)) (seq 0 k)
      = forallb (fun a => forallb (fun j => sqrt_ok (ws_n m k V' We' W' H' a j) (ws_d m k V' We' W' H' a j)) (seq 0 n)) (seq 0 k)).
    { apply eq_true_iff_eq. rewrite !forallb_forall. split; intros Q a Ha; apply in_seq in Ha; apply forallb_forall; intros j Hj; apply in_seq in Hj.
      - rewrite n_rel, d_rel by lia. specialize (Q (sk a)). rewrite in_seq, forallb_forall in Q.
        assert (sk a < k)%nat by (apply Bk; lia). assert (sf j < n)%nat by (apply Bf; lia). apply Q; [lia|]. apply in_seq. lia.
      - destruct (bij_surj k sk Bk a ltac:(lia)) as (x & Hx & <-). destruct (bij_surj n sf Bf j ltac:(lia)) as (y & Hy & <-).
        specialize (Q x). rewrite in_seq, forallb_forall in Q. specialize (Q ltac:(lia) y). rewrite in_seq in Q. specialize (Q ltac:(lia)).
        rewrite n_rel, d_rel in Q by lia. exact Q. }
    rewrite <- E. destruct (forallb _ _); [|exact I]. intros a j Ha Hj. rewrite n_rel, d_rel, EH by assumption. reflexivity.
  Qed.
End Sym.

Section Run.
  Context (solve solve' : nat -> mat -> mat) (m n k : nat) (sr sf sk : nat -> nat) (d : nat -> R) (V U V' U' : mat).
  Context (Inv : inverts k solve) (Inv' : inverts k solve').
  Context (Br : bij m sr) (Bf : bij n sf) (Bk : bij k sk).
  Context (Hd : forall i, (i < m)%nat -> 0 < d i).
  Context (HU : mall m n (fun u => u <> 0) U).
  Context (EV : forall i j, (i < m)%nat -> (j < n)%nat -> V' i j = d i * V (sr i) (sf j)).
  Context (EU : forall i j, (i < m)%nat -> (j < n)%nat -> U' i j = d i * U (sr i) (sf j)).

  Lemma update_rel hold W W' H H' : (forall a j, (a < k)%nat -> (j < n)%nat -> H' a j = H (sk a) (sf j)) -> determined m n k U H ->
    orel (relabelled m n k sr sf sk d) (ws_update solve m n k V (weights U) hold (W, H)) (ws_update solve' m n k V' (weights U') hold (W', H')).
  Proof.
    intros EH Det. unfold ws_update.
    pose proof (w_rel solve solve' m n k sr sf sk d V U V' U' Inv Inv' Br Bf Bk Hd HU EV EU H H' EH Det) as Ew.
    destruct hold; [split; [exact Ew|exact EH]|].
    pose proof (h_rel m n k sr sf sk d V U V' U' Br Bf Bk Hd HU EV EU H H' EH _ _ Ew) as Eh.
    destruct (ws_h_step m n k V (weights U) _ H) as [H1|], (ws_h_step m n k V' (weights U') _ H') as [H1'|]; try exact Eh.
    split; [exact Ew|exact Eh].
  Qed.

  Lemma iter_rel hold N : forall i0 st st', relabelled m n k sr sf sk d st st' ->
    (forall t A B, (t < N)%nat -> ws_iter solve m n k V (weights U) hold i0 t st = Some (A, B) -> determined m n k U B) ->
    orel (relabelled m n k sr sf sk d) (ws_iter solve m n k V (weights U) hold i0 N st) (ws_iter solve' m n k V' (weights U') hold i0 N st').
  Proof.
    induction N as [|N IH]; intros i0 [W H] [W' H'] Rl Det; cbn [ws_iter]; [exact Rl|].
    pose proof (update_rel (hold i0) W W' H H' (proj2 Rl) (Det 0%nat W H ltac:(lia) eq_refl)) as Ru.
    match goal with |- orel _ (match ?x with _ => _ end) (match ?y with _ => _ end) =>
      change (orel (relabelled m n k sr sf sk d) x y) in Ru; destruct x as [st1|] eqn:E, y as [st1'|] end; try contradiction; try exact I.
    apply IH; [exact Ru|]. intros t A B Ht Et. apply (Det (S t) A B ltac:(lia)). cbn [ws_iter]. rewrite E. exact Et.
  Qed.
End Run.

(** ** C142 *)
(** Renumbering samples, features and factors, and giving each sample a unit of its own,
    renumbers and rescales what every number of iterations returns and leaves Q(true) as
    it is; neither the starting contributions nor the inversion routine matter. *)
Theorem C142_relabel_and_rescale_samples :
  forall (solve solve' : nat -> mat -> mat) (m n k : nat) (sr sf sk : nat -> nat) (d : nat -> R) (V U V' U' : mat)
    (hold : nat -> bool) (i0 N : nat) (W H W' H' : mat),
  inverts k solve -> inverts k solve' -> bij m sr -> bij n sf -> bij k sk -> (forall i, (i < m)%nat -> 0 < d i) ->
  mall m n (fun u => u <> 0) U ->
  (forall i j, (i < m)%nat -> (j < n)%nat -> V' i j = d i * V (sr i) (sf j)) ->
  (forall i j, (i < m)%nat -> (j < n)%nat -> U' i j = d i * U (sr i) (sf j)) ->
  (forall a j, (a < k)%nat -> (j < n)%nat -> H' a j = H (sk a) (sf j)) ->
  (forall t A B, (t < N)%nat -> ws_iter solve m n k V (weights U) hold i0 t (W, H) = Some (A, B) -> determined m n k U B) ->
  (0 < N)%nat ->
  match ws_iter solve m n k V (weights U) hold i0 N (W, H), ws_iter solve' m n k V' (weights U') hold i0 N (W', H') with
  | Some (A, B), Some (A', B') =>
      (forall i a, (i < m)%nat -> (a < k)%nat -> A' i a = d i * A (sr i) (sk a)) /\
      (forall a j, (a < k)%nat -> (j < n)%nat -> B' a j = B (sk a) (sf j)) /\
      q_loss m n k true V' U' A' B' = q_loss m n k true V U A B
  | None, None => True
  | _, _ => False
  end.
Proof.
  intros solve solve' m n k sr sf sk d V U V' U' hold i0 N W H W' H' Inv Inv' Br Bf Bk Hd HU EV EU EH Det HN.
  assert (Rel : orel (relabelled m n k sr sf sk d) (ws_iter solve m n k V (weights U) hold i0 N (W, H)) (ws_iter solve' m n k V' (weights U') hold i0 N (W', H'))).
  { destruct N as [|N]; [lia|]. cbn [ws_iter].
    pose proof (update_rel solve solve' m n k sr sf sk d V U V' U' Inv Inv' Br Bf Bk Hd HU EV EU (hold i0) W W' H H' EH (Det 0%nat W H ltac:(lia) eq_refl)) as Ru.
    match goal with |- orel _ (match ?x with _ => _ end) (match ?y with _ => _ end) =>
      change (orel (relabelled m n k sr sf sk d) x y) in Ru; destruct x as [st1|] eqn:E, y as [st1'|] end; try contradiction; try exact I.
    apply iter_rel; try assumption. intros t A B Ht Et. apply (Det (S t) A B ltac:(lia)). cbn [ws_iter]. rewrite E. exact Et. }
  destruct (ws_iter solve m n k V (weights U) hold i0 N (W, H)) as [[A B]|], (ws_iter solve' m n k V' (weights U') hold i0 N (W', H')) as [[A' B']|];
    try exact Rel.
  destruct Rel as [R1 R2]. cbn [fst snd] in R1, R2. split; [exact R1|]. split; [exact R2|].
  apply (q_loss_sym m n k sr sf sk d (fun _ => 1) V U V' U' A B A' B' Br Bf Bk Hd); try assumption.
  - intros; lra.
  - intros i j Hi Hj. rewrite EV by assumption. ring.
  - intros i j Hi Hj. rewrite EU by assumption. ring.
  - split; cbn; intros; [rewrite R1 by assumption; ring|rewrite R2 by assumption; ring].
Qed.
Print Assumptions C142_relabel_and_rescale_samples.

(** The unit of a feature does matter: the small number added in the profile step is not
    rescaled with it.  One sample, two features, the second in half the unit. *)
Definition un_V (c : R) : mat := fun _ j => match j with O => 1 | _ => c * 2 end.
Definition un_U (c : R) : mat := fun _ j => match j with O => 1 | _ => c end.
Definition inv1 : nat -> mat -> mat := fun _ A a b => / A a b.

Lemma inv1_inverts : inverts 1 inv1.
Proof.
  intros A B [H1 H2]. pose proof (H1 0%nat 0%nat ltac:(lia) ltac:(lia)) as E. unfold mmul in E. cbn [rsum Nat.eqb] in E.
  assert (A 0%nat 0%nat <> 0) by (intros Z; rewrite Z in E; lra).
  split; intros a c Ha Hc; assert (a = 0%nat) as -> by lia; assert (c = 0%nat) as -> by lia; unfold mmul, inv1; cbn [rsum Nat.eqb]; field; assumption.
Qed.

Lemma un_w c a : c <> 0 -> ws_w_step inv1 2 1 (un_V c) (weights (un_U c)) (un_U c) 0%nat a = 3 / 2.
Proof.
  intros Hc. unfold ws_w_step, ws_wn, inv1, ws_wd, wev, weights. cbn [rsum]. unfold un_V, un_U. field. exact Hc.
Qed.

Theorem C142_rescale_features_refuted :
  exists (c : R) (H1 H2 : mat) (W1 W2 : mat), 0 < c /\
    ws_iter inv1 1 2 1 (un_V 1) (weights (un_U 1)) (fun _ => false) 0 1 (un_U 1, un_U 1) = Some (W1, H1) /\
    ws_iter inv1 1 2 1 (un_V c) (weights (un_U c)) (fun _ => false) 0 1 (un_U c, un_U c) = Some (W2, H2) /\
    H2 0%nat 1%nat <> c * H1 0%nat 1%nat.
Proof.
  assert (Go : forall c, 0 < c -> exists W1 H1, ws_iter inv1 1 2 1 (un_V c) (weights (un_U c)) (fun _ => false) 0 1 (un_U c, un_U c) = Some (W1, H1) /\
    H1 0%nat 1%nat = c * sqrt ((3 / c + EPS) / (9 / 4 / c + EPS))).
  { intros c Hc. cbn [ws_iter]. unfold ws_update.
    destruct (ws_h_step_defined 1 2 1 (un_V c) (weights (un_U c)) (ws_w_step inv1 2 1 (un_V c) (weights (un_U c)) (un_U c)) (un_U c)) as (H1 & E & _).
    - intros i j _ _. unfold un_V. destruct j; lra.
    - intros i j _ _. unfold weights, un_U. destruct j as [|j]; [lra|]. unfold Rdiv. rewrite Rmult_1_l. apply Rlt_le, Rinv_0_lt_compat. nra.
    - intros i j _ _. unfold un_U. destruct j; lra.
    - rewrite E. exists (ws_w_step inv1 2 1 (un_V c) (weights (un_U c)) (un_U c)), H1. split; [reflexivity|].
      apply ws_h_step_inv in E. destruct E as [_ ->]. cbv beta.
      assert (A : Rabs (3 / 2) = 3 / 2) by (apply Rabs_pos_eq; lra).
      f_equal. f_equal. unfold ws_n, ws_d, ws_lin, ws_quad, wev, pos_part, neg_part, weights. cbn [rsum].
      rewrite !un_w by lra. rewrite A. unfold un_V, un_U. pose proof EPS_pos. f_equal; field; lra. }
  destruct (Go 1 ltac:(lra)) as (W1 & H1 & I1 & E1). destruct (Go 2 ltac:(lra)) as (W2 & H2 & I2 & E2).
  exists 2, H1, H2, W1, W2. split; [lra|]. split; [exact I1|]. split; [exact I2|]. rewrite E1, E2. pose proof EPS_pos as Ep.
  intros Z. apply Rmult_eq_reg_l in Z; [|lra]. rewrite Rmult_1_l in Z. apply sqrt_inj in Z.
  - assert (Z2 : (3 / 2 + EPS) * (9 / 4 / 1 + EPS) = (3 / 1 + EPS) * (9 / 4 / 2 + EPS)).
    { apply (Rmult_eq_reg_r (/ (9 / 4 / 2 + EPS) * / (9 / 4 / 1 + EPS))).
      - transitivity ((3 / 2 + EPS) / (9 / 4 / 2 + EPS)); [field; split; lra|]. rewrite Z. field. split; lra.
      - apply Rmult_integral_contrapositive. split; apply Rinv_neq_0_compat; lra. }
    nra.
  - apply Rlt_le, Rdiv_lt_0_compat; lra.
  - apply Rlt_le, Rdiv_lt_0_compat; lra.
Qed.
Print Assumptions C142_rescale_features_refuted.

(** Two samples swapped and given units of their own, two species swapped, one factor,
    the profiles held in every other iteration. *)
Lemma in_runs N : exists W1 H1, ws_iter inv1 2 2 1 in_V (weights One) Nat.odd 0 N (One, un_U 3) = Some (W1, H1) /\ mall 1 2 (fun x => 0 < x) H1.
Proof.
  apply ws_iter_defined; intros i j _ _.
  - unfold in_V. destruct (Nat.eqb i j); lra.
  - unfold weights, One. lra.
  - unfold un_U. destruct j; lra.
Qed.

Example C142_instance :
  inverts 1 inv1 /\ bij 2 (fun i => 1 - i)%nat /\ bij 1 (fun a => a) /\ (forall i, (i < 2)%nat -> 0 < INR (i + 5)) /\
  mall 2 2 (fun u => u <> 0) One /\
  (forall t A B, ws_iter inv1 2 2 1 in_V (weights One) Nat.odd 0 t (One, un_U 3) = Some (A, B) -> determined 2 2 1 One B) /\
  exists W1 H1, ws_iter inv1 2 2 1 in_V (weights One) Nat.odd 0 3 (One, un_U 3) = Some (W1, H1).
Proof.
  split; [exact inv1_inverts|]. split; [split; intros; lia|]. split; [split; intros; lia|]. split; [intros; apply lt_0_INR; lia|].
  split; [intros i j _ _; unfold One; apply R1_neq_R0|]. split.
  - intros t A B E. destruct (in_runs t) as (W1 & H1 & E1 & P). rewrite E in E1. injection E1 as _ EB. subst H1.
    pose proof (P 0%nat 0%nat ltac:(lia) ltac:(lia)) as P0. pose proof (P 0%nat 1%nat ltac:(lia) ltac:(lia)) as P1. cbv beta in P0, P1.
    assert (D : B 0%nat 0%nat * B 0%nat 0%nat + B 0%nat 1%nat * B 0%nat 1%nat <> 0) by (intros Z; nra).
    intros i Hi. exists (fun _ _ => / (B 0%nat 0%nat * B 0%nat 0%nat + B 0%nat 1%nat * B 0%nat 1%nat)).
    split; intros a c Ha Hc; assert (a = 0%nat) as -> by lia; assert (c = 0%nat) as -> by lia;
      unfold mmul, One; cbn [rsum Nat.eqb]; field; exact D.
  - destruct (in_runs 3) as (W1 & H1 & E1 & _). exists W1, H1. exact E1.
Qed.
