(** C152: expressions while a constrained model is trained. *)
From Coq Require Import List Bool ZArith Lia Reals Lra.
From Verif Require Import Base Fl Metrics_Model Metrics_Spec Metrics_Proofs LSNMF_Model LSNMF_Proofs Disp_Model Disp_Proofs
  Constr_Model Constr_Proofs Constr_Props ConstrX_Proofs ConstrX_Props ExprStep_Model.
Import ListNotations.
Local Open Scope R_scope.

Definition lsq := nat -> nat -> mat -> (nat -> R) -> R -> R -> nat -> R.
(** The solution is inside the bounds given. *)
Definition respects_bounds (solver : lsq) : Prop :=
  forall rows cols A B lo hi c, lo < hi -> (c < cols)%nat -> lo <= solver rows cols A B lo hi c <= hi.

(** Squared distance of two solutions, over the squared softness. *)
Definition drift (m n k : nat) (s : R) (W W' H H' : mat) : R :=
  (msum m k (fun i a => (W i a - W' i a) ^ 2) + msum k n (fun a j => (H a j - H' a j) ^ 2)) / (s * s).

Lemma shrink_pow j D a b : shrink j D a b = (98 / 100) ^ j * D a b.
Proof.
  induction j as [|j IH]; [cbn; ring|].
  change (shrink (S j) D a b) with (shrink j D a b * (98 / 100)). rewrite IH. cbn [pow]. ring.
Qed.

Lemma rsum_div n f c : rsum n (fun i => f i / c) = rsum n f / c.
Proof. induction n as [|n IH]; cbn [rsum]; [lra|]. rewrite IH. lra. Qed.

Lemma exp_dQ_drift m n k V U bW bH qb s W H Dw Dh :
  exp_dQ m n k V U bW bH qb s W H Dw Dh = q_loss m n k true V U (madd W Dw) (madd H Dh) + drift m n k s bW W bH H - qb.
Proof.
  unfold exp_dQ, q_aux, drift, madd, msum. rewrite !rsum_div.
  replace (rsum m (fun i => rsum k (fun a => (bW i a + Dw i a - (W i a + Dw i a)) * (bW i a + Dw i a - (W i a + Dw i a)))))
    with (rsum m (fun i => rsum k (fun a => (bW i a - W i a) ^ 2))) by (apply rsum_ext; intros; apply rsum_ext; intros; ring).
  replace (rsum k (fun a => rsum n (fun j => (bH a j + Dh a j - (H a j + Dh a j)) * (bH a j + Dh a j - (H a j + Dh a j)))))
    with (rsum k (fun a => rsum n (fun j => (bH a j - H a j) ^ 2))) by (apply rsum_ext; intros; apply rsum_ext; intros; ring).
  lra.
Qed.

(** The differences are those of the solution, times 0.98^j for the least j up to 100 with
    which Q plus the squared distance of the iterate from the base solution stays below the
    summed limits over the Q of the base solution; without one they are zero. *)
Theorem C152_scaled_back :
  forall (solver : lsq) (m n k : nat) (V U bW bH : mat) (qb s : R) (exprs : list (list token * R)) (W H : mat),
  exprs <> [] ->
  let mp := map_expressions exprs 0 [] in
  let B := exp_B W H exprs in
  let total := lsum (map snd exprs) in
  let fits Dw Dh := q_loss m n k true V U (fun i a => W i a + Dw i a) (fun a j => H a j + Dh a j) + drift m n k s bW W bH H - qb < total in
  ((forall i, (i < length exprs)%nat -> B i <= / 100000000) -> apply_expressions solver m n k V U bW bH qb s exprs W H = None) /\
  (forall i0, (i0 < length exprs)%nat -> / 100000000 < B i0 -> (forall i, (i < length exprs)%nat -> B i <= B i0) ->
   let x := solver (length exprs) (length mp) (exp_A mp) B (/ 100000000) (B i0) in
   let scaled j := ((fun i a => (98 / 100) ^ j * exp_diff_W mp x W i a), (fun a i => (98 / 100) ^ j * exp_diff_H mp x H a i)) : mat * mat in
   exists Dw Dh, apply_expressions solver m n k V U bW bH qb s exprs W H = Some (Dw, Dh) /\
     ((exists j, (j <= 100)%nat /\ fits (fst (scaled j)) (snd (scaled j)) /\ (forall i, (i < j)%nat -> ~ fits (fst (scaled i)) (snd (scaled i))) /\
         (forall i a, Dw i a = fst (scaled j) i a) /\ (forall a i, Dh a i = snd (scaled j) a i)) \/
      ((forall j, (j <= 100)%nat -> ~ fits (fst (scaled j)) (snd (scaled j))) /\ (forall i a, Dw i a = 0) /\ (forall a i, Dh a i = 0)))).
Proof.
  intros solver m n k V U bW bH qb s exprs W H Hne mp B total fits.
  assert (HL : forall l, l <> [] -> In (largest l) l /\ forall y, In y l -> y <= largest l).
  { intros [|y l] N; [contradiction|]. unfold largest. cbn [hd tl]. clear N. revert y. induction l as [|z l IH]; intros y; cbn [fold_left].
    - split; [left; reflexivity|]. intros w [->|[]]. lra.
    - destruct (IH (Rmax y z)) as [I1 I2]. split.
      + destruct I1 as [I1|I1]; [|right; right; exact I1]. rewrite <- I1 at 1.
        unfold Rmax in I1 |- *. destruct (Rle_dec y z); [right; left|left]; reflexivity.
      + intros w [<-|[<-|Hw]]; [|..|apply I2; right; exact Hw];
          (eapply Rle_trans; [|apply I2; left; reflexivity]); [apply Rmax_l|apply Rmax_r]. }
  set (l := map B (seq 0 (length exprs))).
  assert (Hl : l <> []) by (unfold l; destruct exprs; [contradiction|discriminate]).
  destruct (HL l Hl) as [L1 L2].
  assert (Inl : forall y, In y l <-> exists i, (i < length exprs)%nat /\ B i = y).
  { intros y. unfold l. rewrite in_map_iff. split; intros (i & A & C); exists i; [apply in_seq in C|rewrite in_seq]; split; auto; lia. }
  assert (Un : apply_expressions solver m n k V U bW bH qb s exprs W H =
    if Rlt_dec (/ 100000000) (largest l) then
      let x := solver (length exprs) (length mp) (exp_A mp) B (/ 100000000) (largest l) in
      match budget (fun j => Fin (exp_dQ m n k V U bW bH qb s W H (shrink j (exp_diff_W mp x W)) (shrink j (exp_diff_H mp x H)))) total 102 with
      | Some (Some j) => Some (shrink j (exp_diff_W mp x W), shrink j (exp_diff_H mp x H))
      | Some None => Some (zero_mat, zero_mat)
      | None => None
      end else None).
  { unfold apply_expressions, l, B, mp, total. destruct exprs; [contradiction|reflexivity]. }
  rewrite Un. split.
  - intros Hs. destruct (Rlt_dec (/ 100000000) (largest l)) as [Y|]; [|reflexivity]. exfalso.
    apply Inl in L1. destruct L1 as (i & Hi & E). specialize (Hs i Hi). lra.
  - intros i0 Hi0 Hb Hmax x scaled.
    assert (EL : largest l = B i0).
    { apply Rle_antisym; [|apply L2, Inl; exists i0; auto]. apply Inl in L1. destruct L1 as (i & Hi & E). rewrite <- E. apply Hmax, Hi. }
    rewrite EL. destruct (Rlt_dec (/ 100000000) (B i0)) as [_|N]; [|contradiction]. cbn zeta. fold x.
    assert (Hf : forall j, flt (Fin (exp_dQ m n k V U bW bH qb s W H (shrink j (exp_diff_W mp x W)) (shrink j (exp_diff_H mp x H)))) (Fin total) = true <->
      fits (fst (scaled j)) (snd (scaled j))).
    { intros j. rewrite flt_fin, exp_dQ_drift. unfold fits, scaled. cbn [fst snd].
      replace (q_loss m n k true V U (madd W (shrink j (exp_diff_W mp x W))) (madd H (shrink j (exp_diff_H mp x H))))
        with (q_loss m n k true V U (fun i a => W i a + (98 / 100) ^ j * exp_diff_W mp x W i a) (fun a i => H a i + (98 / 100) ^ j * exp_diff_H mp x H a i)); [reflexivity|].
      unfold q_loss, msum, resid, mmul, madd. apply rsum_ext; intros; apply rsum_ext; intros.
      f_equal; f_equal; try f_equal; apply rsum_ext; intros; rewrite !shrink_pow; reflexivity. }
    destruct (budget_spec (fun j => Fin (exp_dQ m n k V U bW bH qb s W H (shrink j (exp_diff_W mp x W)) (shrink j (exp_diff_H mp x H)))) total 102 (le_n _)) as (o & Ho & Hs).
    rewrite Ho. destruct o as [j|].
    + destruct Hs as (J1 & J2 & J3). eexists _, _. split; [reflexivity|]. left. exists j. split; [exact J1|]. split; [apply Hf, J2|].
      split; [intros i Hi Y; apply Hf in Y; rewrite (J3 i Hi) in Y; discriminate Y|]. split; intros; apply shrink_pow.
    + eexists _, _. split; [reflexivity|]. right. split; [intros j Hj Y; apply Hf in Y; rewrite (Hs j Hj) in Y; discriminate Y|]. split; reflexivity.
Qed.
Print Assumptions C152_scaled_back.

Lemma index_from_bound mp e : forall c0 c, index_from mp e c0 = Some c -> (c0 <= c < c0 + length mp)%nat.
Proof.
  induction mp as [|[e' o] mp IH]; intros c0 c; cbn [index_from length]; [discriminate|].
  destruct (elem_eqb e' e); [intros E; injection E as <-; lia|]. intros E. apply IH in E. lia.
Qed.

(** Once the iterate is far from the base solution the expressions are switched off. *)
Theorem C152_switched_off :
  forall (solver : lsq) (m n k : nat) (V U bW bH : mat) (qb s : R) (exprs : list (list token * R)) (W H Dw Dh : mat),
  lsum (map snd exprs) + qb <= drift m n k s bW W bH H ->
  apply_expressions solver m n k V U bW bH qb s exprs W H = Some (Dw, Dh) ->
  (forall i a, Dw i a = 0) /\ (forall a j, Dh a j = 0).
Proof.
  intros solver m n k V U bW bH qb s exprs W H Dw Dh Hd E.
  assert (Q : forall A B, 0 <= q_loss m n k true V U A B) by (intros; apply q_loss_nonneg).
  destruct exprs as [|e0 es] eqn:Ee; [cbn in E; injection E as <- <-; split; reflexivity|].
  rewrite <- Ee in *. assert (Hne : exprs <> []) by (rewrite Ee; discriminate).
  destruct (C152_scaled_back solver m n k V U bW bH qb s exprs W H Hne) as [S1 S2].
  destruct (Rlt_dec (/ 100000000) (largest (map (exp_B W H exprs) (seq 0 (length exprs))))) as [Y|N].
  - assert (X : exists i0, (i0 < length exprs)%nat /\ / 100000000 < exp_B W H exprs i0 /\ forall i, (i < length exprs)%nat -> exp_B W H exprs i <= exp_B W H exprs i0).
    { assert (Z : forall n0, (0 < n0)%nat -> exists i0, (i0 < n0)%nat /\ forall i, (i < n0)%nat -> exp_B W H exprs i <= exp_B W H exprs i0).
      { induction n0 as [|n0 IH]; [lia|]. intros _. destruct n0 as [|n0]; [exists 0%nat; split; [lia|]; intros i Hi; replace i with 0%nat by lia; lra|].
        destruct (IH ltac:(lia)) as (i0 & A & B). destruct (Rle_dec (exp_B W H exprs (S n0)) (exp_B W H exprs i0)) as [L|L].
        - exists i0. split; [lia|]. intros i Hi. destruct (Nat.eq_dec i (S n0)) as [-> | ]; [exact L|apply B; lia].
        - exists (S n0). split; [lia|]. intros i Hi. destruct (Nat.eq_dec i (S n0)) as [-> | ]; [lra|]. specialize (B i ltac:(lia)). lra. }
      destruct (Z (length exprs) ltac:(rewrite Ee; cbn; lia)) as (i0 & A & B). exists i0. split; [exact A|]. split; [|exact B].
      destruct (Rlt_dec (/ 100000000) (exp_B W H exprs i0)) as [|L]; [assumption|]. exfalso.
      rewrite S1 in E; [discriminate E|]. intros i Hi. specialize (B i Hi). lra. }
    destruct X as (i0 & A & B & C). destruct (S2 i0 A B C) as (Dw' & Dh' & E' & Z). rewrite E in E'. injection E' as <- <-.
    destruct Z as [(j & _ & F & _)|(_ & Z1 & Z2)]; [|split; assumption]. exfalso. cbn [fst snd] in F.
    match type of F with ?q + _ - _ < _ => assert (0 <= q) by apply Q end. lra.
  - unfold apply_expressions in E. rewrite Ee in E, N. destruct (Rlt_dec _ _) in E; [contradiction|discriminate E].
Qed.
Print Assumptions C152_switched_off.

Lemma pow98 j : 0 < (98 / 100) ^ j <= 1.
Proof. induction j as [|j IH]; cbn [pow]; lra. Qed.

(** Every element of the iterate plus its difference lies between its old value and the
    bounded solution; in particular non-negative iterates stay so. *)
Lemma apply_expressions_form (solver : lsq) m n k V U bW bH qb s exprs W H Dw Dh : respects_bounds solver ->
  apply_expressions solver m n k V U bW bH qb s exprs W H = Some (Dw, Dh) ->
  (forall i a, Dw i a = 0 \/ exists t x, 0 <= t <= 1 /\ 0 < x /\ W i a + Dw i a = (1 - t) * W i a + t * x) /\
  (forall a j, Dh a j = 0 \/ exists t x, 0 <= t <= 1 /\ 0 < x /\ H a j + Dh a j = (1 - t) * H a j + t * x).
Proof.
  intros Hb. unfold apply_expressions. destruct exprs as [|e es]; [intros E; injection E as <- <-; split; left; reflexivity|].
  set (ex := e :: es). destruct (Rlt_dec _ _) as [Y|]; [|discriminate].
  set (hi := largest _) in *. set (mp := map_expressions ex 0 []). set (x := solver _ _ _ _ _ _).
  assert (X : forall c, (c < length mp)%nat -> 0 < x c).
  { intros c Hc. destruct (Hb (length ex) (length mp) (exp_A mp) (exp_B W H ex) (/ 100000000) hi c Y Hc) as [A _]. unfold x. lra. }
  destruct (budget _ _ _) as [[j|]|]; [|intros E; injection E as <- <-; split; left; reflexivity|discriminate].
  intros E; injection E as <- <-. pose proof (pow98 j) as Pj.
  split; intros p q; rewrite shrink_pow; [unfold exp_diff_W|unfold exp_diff_H]; destruct (elem_index mp _) as [c|] eqn:Ec; try (left; ring);
    right; exists ((98 / 100) ^ j), (x c); (split; [lra|]); (split; [|ring]); apply X; apply index_from_bound in Ec; lia.
Qed.

Theorem C152_between :
  forall (solver : lsq) (m n k : nat) (V U bW bH : mat) (qb s : R) (exprs : list (list token * R)) (W H Dw Dh : mat),
  respects_bounds solver -> apply_expressions solver m n k V U bW bH qb s exprs W H = Some (Dw, Dh) ->
  (forall i a, 0 <= W i a -> 0 <= W i a + Dw i a /\ (0 < W i a -> 0 < W i a + Dw i a)) /\
  (forall a j, 0 <= H a j -> 0 <= H a j + Dh a j /\ (0 < H a j -> 0 < H a j + Dh a j)).
Proof.
  intros solver m n k V U bW bH qb s exprs W H Dw Dh Hb E.
  destruct (apply_expressions_form solver m n k V U bW bH qb s exprs W H Dw Dh Hb E) as [A B].
  assert (G : forall w d, (d = 0 \/ exists t x, 0 <= t <= 1 /\ 0 < x /\ w + d = (1 - t) * w + t * x) -> 0 <= w -> 0 <= w + d /\ (0 < w -> 0 < w + d)).
  { intros w d [-> | (t & x & Ht & Hx & ->)] Hw; [lra|]. split; [|intros Hp].
    - assert (0 <= (1 - t) * w) by (apply Rmult_le_pos; lra). assert (0 <= t * x) by (apply Rmult_le_pos; lra). lra.
    - destruct (Req_dec t 0) as [-> | Nt]; [lra|]. assert (0 <= (1 - t) * w) by (apply Rmult_le_pos; lra). assert (0 < t * x) by (apply Rmult_lt_0_compat; lra). lra. }
  split; intros; apply G; auto.
Qed.
Print Assumptions C152_between.

(** Training with expressions and constraints: after every iteration the matrices are
    non-negative and elements set to zero are zero. *)
Theorem C152_training :
  forall (solver : lsq) (m n k : nat) (V U bW bH : mat) (qb s : R) (exprs : list (list token * R)) (r : registry) (M N K : Z) (t : nat) (W H : mat),
  respects_bounds solver -> reachable M N K r -> in_range m n k r -> sane r ->
  mall m n (fun x => 0 <= x) V -> mall m n (fun u => u <> 0) U -> mall m k (fun x => 0 <= x) bW ->
  Nat.iter (S t) (ce_iter solver m n k V U bW bH qb s exprs r) (Some (bW, bH)) = Some (W, H) ->
  mall m k (fun x => 0 <= x) W /\ mall k n (fun x => 0 <= x) H /\
  (forall l c, In (l, c) r -> c_type c = SetZero ->
     match c_tgt c with Feature => H (Z.to_nat (c_i c)) (Z.to_nat (c_j c)) = 0 | _ => W (Z.to_nat (c_i c)) (Z.to_nat (c_j c)) = 0 end).
Proof.
  intros solver m n k V U bW bH qb s exprs r M N K t W H Hb Hre Hr Hs HV HU HbW.
  assert (St : forall W0 H0 W1 H1, mall m k (fun x => 0 <= x) W0 -> ce_iter solver m n k V U bW bH qb s exprs r (Some (W0, H0)) = Some (W1, H1) ->
    mall m k (fun x => 0 <= x) W1 /\ mall k n (fun x => 0 <= x) H1 /\
    (forall l c, In (l, c) r -> c_type c = SetZero ->
     match c_tgt c with Feature => H1 (Z.to_nat (c_i c)) (Z.to_nat (c_j c)) = 0 | _ => W1 (Z.to_nat (c_i c)) (Z.to_nat (c_j c)) = 0 end)).
  { intros W0 H0 W1 H1 HW. cbn [ce_iter]. destruct (apply_expressions _ _ _ _ _ _ _ _ _ _ _ W0 H0) as [[Dw Dh]|] eqn:E; [|discriminate]. intros Hc.
    destruct (C152_between _ _ _ _ _ _ _ _ _ _ _ _ _ _ _ Hb E) as [BW _].
    destruct (C69_nonnegative m n k V U bW bH r (fun _ _ => (Dw, Dh)) W0 H0 W1 H1 M N K Hre Hr Hs HV HU HbW HW) as [A B]; [|exact Hc|].
    - intros i a Hi Ha. cbn [fst]. apply BW. apply HW; assumption.
    - split; [exact A|]. split; [exact B|]. intros l c Hin Hty.
      exact (C69_set_to_zero_stays_zero m n k V U bW bH r (fun _ _ => (Dw, Dh)) W0 H0 W1 H1 M N K l c Hre Hr Hin Hty Hc). }
  revert W H. induction t as [|t IH]; intros W H E.
  - cbn in E. apply (St bW bH W H HbW). exact E.
  - change (ce_iter solver m n k V U bW bH qb s exprs r (Nat.iter (S t) (ce_iter solver m n k V U bW bH qb s exprs r) (Some (bW, bH))) = Some (W, H)) in E.
    destruct (Nat.iter (S t) _ (Some (bW, bH))) as [[W1 H1]|] eqn:E1; [|discriminate E].
    destruct (IH W1 H1 eq_refl) as [A _]. apply (St W1 H1 W H A). exact E.
Qed.
Print Assumptions C152_training.

(** The solution is within the bounds, and for one unknown and one equation it is the
    quotient if that is within the bounds. *)
Definition exact_solver (solver : lsq) : Prop :=
  respects_bounds solver /\
  forall A B lo hi, lo < hi -> A 0%nat 0%nat <> 0 -> lo <= B 0%nat / A 0%nat 0%nat <= hi ->
    solver 1%nat 1%nat A B lo hi 0%nat = B 0%nat / A 0%nat 0%nat.

Definition half_expr (limit : R) : list (list token * R) := [([TTerm 2 (true, 0%nat, 0%nat)], limit)].
Definition one_mat : mat := fun _ _ => 1.

Lemma half_solution solver limit : exact_solver solver ->
  solver 1%nat 1%nat (exp_A (map_expressions (half_expr limit) 0 [])) (exp_B one_mat one_mat (half_expr limit)) (/ 100000000)
    (exp_B one_mat one_mat (half_expr limit) 0%nat) 0%nat = 1 / 2.
Proof.
  intros [_ Ex].
  assert (EB : exp_B one_mat one_mat (half_expr limit) 0%nat = 1) by (cbn; unfold one_mat; lra).
  assert (EA : exp_A (map_expressions (half_expr limit) 0 []) 0%nat 0%nat = 2) by (cbn; lra).
  rewrite Ex; rewrite ?EA, ?EB; lra.
Qed.

Lemma half_q u x : u <> 0 -> q_loss 1 1 1 true one_mat (fun _ _ => u) one_mat (fun a i => one_mat a i + x) = (x / u) * (x / u).
Proof. intros Hu. unfold q_loss, msum, resid, mmul, one_mat. cbn [rsum]. field. exact Hu. Qed.

Lemma pow98_100 j : (j <= 100)%nat -> 1 / 10 <= (98 / 100) ^ j.
Proof.
  intros Hj. apply Rle_trans with ((98 / 100) ^ 100).
  - replace 100%nat with (10 * 10)%nat by reflexivity. rewrite pow_mult.
    apply Rle_trans with ((4 / 5) ^ 10); [cbn [pow]; lra|]. apply pow_incr. cbn [pow]. lra.
  - replace 100%nat with (j + (100 - j))%nat by lia. rewrite pow_add.
    pose proof (pow98 j). pose proof (pow98 (100 - j)). assert (0 <= (98 / 100) ^ j * (1 - (98 / 100) ^ (100 - j))) by (apply Rmult_le_pos; lra). lra.
Qed.

Lemma half_apply solver u limit : exact_solver solver -> u <> 0 ->
  let fits j := ((98 / 100) ^ j * (- 1 / 2) / u) * ((98 / 100) ^ j * (- 1 / 2) / u) < limit in
  exists Dw Dh, apply_expressions solver 1 1 1 one_mat (fun _ _ => u) one_mat one_mat 0 1 (half_expr limit) one_mat one_mat = Some (Dw, Dh) /\
   ((exists j, (j <= 100)%nat /\ fits j /\ (forall i, (i < j)%nat -> ~ fits i) /\ Dh 0%nat 0%nat = (98 / 100) ^ j * (- 1 / 2)) \/
    ((forall j, (j <= 100)%nat -> ~ fits j) /\ forall a i, Dh a i = 0)).
Proof.
  intros Hs Hu fits. pose proof (half_solution solver limit Hs) as X.
  assert (EB : exp_B one_mat one_mat (half_expr limit) 0%nat = 1) by (cbn; unfold one_mat; lra).
  destruct (C152_scaled_back solver 1 1 1 one_mat (fun _ _ => u) one_mat one_mat 0 1 (half_expr limit) one_mat one_mat ltac:(discriminate)) as [_ S2].
  destruct (S2 0%nat) as (Dw & Dh & E & Z); try (rewrite EB; lra); try (cbn; lia).
  { intros i Hi. cbn in Hi. replace i with 0%nat by lia. lra. }
  exists Dw, Dh. split; [exact E|].
  set (x := solver _ _ _ _ _ _) in Z.
  assert (Ex : x 0%nat = 1 / 2) by exact X.
  assert (F : forall j, (q_loss 1 1 1 true one_mat (fun _ _ => u)
      (fun i a => one_mat i a + fst ((fun i a => (98 / 100) ^ j * exp_diff_W (map_expressions (half_expr limit) 0 []) x one_mat i a), (fun a i => (98 / 100) ^ j * exp_diff_H (map_expressions (half_expr limit) 0 []) x one_mat a i)) i a)
      (fun a i => one_mat a i + snd ((fun i a => (98 / 100) ^ j * exp_diff_W (map_expressions (half_expr limit) 0 []) x one_mat i a), (fun a i => (98 / 100) ^ j * exp_diff_H (map_expressions (half_expr limit) 0 []) x one_mat a i)) a i)
      + drift 1 1 1 1 one_mat one_mat one_mat one_mat - 0 < lsum (map snd (half_expr limit))) <-> fits j).
  { intros j. cbn [fst snd]. unfold fits. rewrite <- (half_q u _ Hu). unfold q_loss, drift, msum, resid, mmul, one_mat. cbn [rsum map snd lsum half_expr].
    cbn. rewrite Ex. replace (1 / 2 - 1) with (- 1 / 2) by lra. unfold fits. 
    match goal with |- ?a < ?b <-> ?c < ?d => replace a with c; [replace b with d by lra; reflexivity|] end. field. exact Hu. }
  destruct Z as [(j & J1 & J2 & J3 & _ & J4)|(J & _ & Z)].
  - left. exists j. split; [exact J1|]. split; [apply F, J2|]. split; [intros i Hi Y; apply (J3 i Hi); apply F, Y|].
    rewrite J4. cbn. rewrite Ex. unfold one_mat. lra.
  - right. split; [intros j Hj Y; apply (J j Hj); apply F, Y|exact Z].
Qed.

(** Documented: the limits decrease the amount of change.  The change is dropped altogether
    when a reduction to 13 % is not enough. *)
Theorem C152_limit_only_reduces_refuted : exists (V U W H : mat) (exprs : list (list token * R)),
  lsum (map snd exprs) = 250 /\
  forall solver, exact_solver solver -> exists Dw Dh,
    apply_expressions solver 1 1 1 V U W H (q_loss 1 1 1 true V U W H) 1 exprs W H = Some (Dw, Dh) /\ forall a j, Dh a j = 0.
Proof.
  exists one_mat, (fun _ _ => / 1000), one_mat, one_mat, (half_expr 250). split; [cbn; lra|]. intros solver Hs.
  replace (q_loss 1 1 1 true one_mat (fun _ _ => / 1000) one_mat one_mat) with 0 by (unfold q_loss, msum, resid, mmul, one_mat; cbn [rsum]; lra).
  destruct (half_apply solver (/ 1000) 250 Hs ltac:(lra)) as (Dw & Dh & E & [(j & J1 & J2 & _)|(_ & Z)]); [|exists Dw, Dh; split; assumption].
  exfalso. pose proof (pow98_100 j J1) as P. cbv beta in J2.
  assert ((50 <= (98 / 100) ^ j * (1 / 2) * 1000)) by lra. 
  replace ((98 / 100) ^ j * (-1 / 2) / / 1000 * ((98 / 100) ^ j * (-1 / 2) / / 1000)) with (((98 / 100) ^ j * (1 / 2) * 1000) * ((98 / 100) ^ j * (1 / 2) * 1000)) in J2 by field.
  assert (50 * 50 <= ((98 / 100) ^ j * (1 / 2) * 1000) * ((98 / 100) ^ j * (1 / 2) * 1000)) by (apply Rmult_le_compat; lra). lra.
Qed.
Print Assumptions C152_limit_only_reduces_refuted.

(** A single element with coefficient 2: the solution halves it, within the limit. *)
Example C152_instance : forall solver, exact_solver solver ->
  exists Dw Dh, apply_expressions solver 1 1 1 one_mat one_mat one_mat one_mat 0 1 (half_expr 250) one_mat one_mat = Some (Dw, Dh) /\
    one_mat 0%nat 0%nat + Dh 0%nat 0%nat = 1 / 2.
Proof.
  intros solver Hs.
  destruct (half_apply solver 1 250 Hs ltac:(lra)) as (Dw & Dh & E & [(j & J1 & J2 & J3 & J4)|(J & _)]).
  - exists Dw, Dh. split; [exact E|]. destruct j as [|j]; [rewrite J4; unfold one_mat; cbn [pow]; lra|].
    exfalso. apply (J3 0%nat ltac:(lia)). cbn [pow]. lra.
  - exfalso. apply (J 0%nat ltac:(lia)). cbn [pow]. lra.
Qed.

(** Such a solver exists: the quotient of the first equation, clamped. *)
Example C152_solver_exists : exists solver : lsq, exact_solver solver.
Proof.
  exists (fun _ _ A B lo hi _ => Rmax lo (Rmin hi (B 0%nat / A 0%nat 0%nat))). split.
  - intros rows cols A B lo hi c Hl _. split; [apply Rmax_l|]. apply Rmax_lub; [lra|apply Rmin_l].
  - intros A B lo hi Hl _ Hq. rewrite Rmin_right, Rmax_right; lra.
Qed.

(** A training iteration with an expression and no constraint. *)
Example C152_training_instance : exists (solver : lsq) (W H : mat), respects_bounds solver /\ reachable 1 1 1 [] /\ in_range 1 1 1 [] /\ sane [] /\
  Nat.iter 1 (ce_iter solver 1 1 1 one_mat one_mat one_mat one_mat 0 1 (half_expr 250) []) (Some (one_mat, one_mat)) = Some (W, H) /\ 0 < W 0%nat 0%nat.
Proof.
  destruct C152_solver_exists as [solver Hs].
  destruct (C152_instance solver Hs) as (Dw & Dh & E & _).
  destruct (C152_between _ _ _ _ _ _ _ _ _ _ _ _ _ _ _ (proj1 Hs) E) as [BW BH].
  destruct (ls_update_pos 1 1 1 one_mat (weights one_mat) false (fun i a => Dw i a + one_mat i a) (fun a j => Rabs (Dh a j + one_mat a j))) as (W & H & E2 & PW & PH); try lia.
  - intros i j _ _. unfold one_mat. lra.
  - split; intros i Hi; exists 0%nat; (split; [lia|]); unfold one_mat; lra.
  - apply weights_pos. intros i j _ _. unfold one_mat. lra.
  - intros i a _ _. rewrite Rplus_comm. apply BW; unfold one_mat; lra.
  - intros a j _ _. apply Rabs_pos_lt. rewrite Rplus_comm. assert (0 < one_mat a j + Dh a j) by (apply BH; unfold one_mat; lra). lra.
  - exists solver, W, H. split; [exact (proj1 Hs)|]. split; [exists []; reflexivity|]. split; [intros l c []|]. split; [intros l c []|].
    split; [|apply PW; lia]. change (Nat.iter 1 ?f ?x) with (f x). cbn [ce_iter]. rewrite E. exact E2.
Qed.

Example C152_scaled_back_example solver :=
  C152_scaled_back solver 1 1 1 one_mat one_mat one_mat one_mat 0 1 (half_expr 250) one_mat one_mat ltac:(discriminate).
Example C152_switched_off_example : forall solver Dw Dh,
  apply_expressions solver 1 1 1 one_mat one_mat one_mat one_mat 0 1 (half_expr 3) (fun _ _ => 3) one_mat = Some (Dw, Dh) -> (forall i a, Dw i a = 0) /\ (forall a j, Dh a j = 0).
Proof. intros solver Dw Dh. apply C152_switched_off. unfold drift, half_expr, one_mat, msum. cbn. lra. Qed.
Example C152_between_example : exists solver Dw Dh, respects_bounds solver /\
  apply_expressions solver 1 1 1 one_mat one_mat one_mat one_mat 0 1 (half_expr 250) one_mat one_mat = Some (Dw, Dh) /\ 0 < one_mat 0%nat 0%nat + Dh 0%nat 0%nat.
Proof.
  destruct C152_solver_exists as (solver & E). destruct (C152_instance solver E) as (Dw & Dh & A & _). exists solver, Dw, Dh. split; [apply E |]. split; [exact A |].
  apply (proj2 (C152_between solver 1 1 1 one_mat one_mat one_mat one_mat 0 1 (half_expr 250) one_mat one_mat Dw Dh (proj1 E) A) 0%nat 0%nat); unfold one_mat; lra.
Qed.
Example C152_training_example : exists solver W H, Nat.iter 1 (ce_iter solver 1 1 1 one_mat one_mat one_mat one_mat 0 1 (half_expr 250) []) (Some (one_mat, one_mat)) = Some (W, H) /\
  mall 1 1 (fun x => 0 <= x) W /\ mall 1 1 (fun x => 0 <= x) H.
Proof.
  destruct C152_training_instance as (solver & W & H & RB & RE & IR & SA & E & _). exists solver, W, H. split; [exact E |].
  assert (P : mall 1 1 (fun x => 0 <= x) one_mat) by (intros i j _ _; unfold one_mat; lra).
  assert (N : mall 1 1 (fun x => x <> 0) one_mat) by (intros i j _ _; unfold one_mat; lra).
  destruct (C152_training solver 1 1 1 one_mat one_mat one_mat one_mat 0 1 (half_expr 250) [] 1 1 1 0 W H RB RE IR SA P N P E) as (A & B & _). split; assumption.
Qed.
