(** C143: samples and features that occur several times. *)
From Coq Require Import Reals Lra Lia List Bool ZArith Arith Psatz.
From Verif Require Import Base Fl Metrics_Model Metrics_Spec Metrics_Proofs LSNMF_Model LSNMF_Proofs
  Train_Model Train_Spec Train_Proofs Train_LS WSNMF_Model WSNMF_Proofs WSNMF_Props WSLimit_Props WSSym_Props.
Import ListNotations.
Open Scope R_scope.

(** ** Specification *)
(** How often [i] occurs among the first [m'] values of [s]. *)
Definition times_in (m' : nat) (s : nat -> nat) (i : nat) : nat :=
  List.length (filter (fun t => s t =? i)%nat (seq 0 m')).
(** Every one of the [m'] values of [s] is below [m], and each number below [m] occurs. *)
Definition covers (m' m : nat) (s : nat -> nat) : Prop :=
  (forall t, (t < m')%nat -> (s t < m)%nat) /\ (forall i, (i < m)%nat -> exists t, (t < m')%nat /\ s t = i).
(** Contributions and profiles of the longer table are those of the shorter one,
    repeated. *)
Definition repeated (m' n' k : nat) (s p : nat -> nat) (st st' : mat * mat) : Prop :=
  (forall t a, (t < m')%nat -> (a < k)%nat -> fst st' t a = fst st (s t) a) /\
  (forall a j, (a < k)%nat -> (j < n')%nat -> snd st' a j = snd st a (p j)).

(** ** Two runs in step *)
Section Sim.
  Context {S1 S2 F : Type} (u1 : bool -> S1 -> S1) (u2 : bool -> S2 -> S2) (l1 : S1 -> F) (l2 : S2 -> F) (below : F -> F -> bool)
    (Rel : S1 -> S2 -> Prop).
  Context (Hu : forall h a b, Rel a b -> Rel (u1 h a) (u2 h b)) (Hl : forall a b, Rel a b -> l1 a = l2 b).

  Lemma rust_loop_sim cn hold_h delay_h tick rem : forall i a b w h q ci ev, Rel a b ->
    let r1 := rust_loop u1 l1 below cn hold_h delay_h tick rem i a w h q ci ev in
    let r2 := rust_loop u2 l2 below cn hold_h delay_h tick rem i b w h q ci ev in
    Rel (rr_state r1) (rr_state r2) /\ rr_q r1 = rr_q r2 /\ rr_conv r1 = rr_conv r2 /\ rr_ci r1 = rr_ci r2 /\
    rr_hist r1 = rr_hist r2 /\ rr_events r1 = rr_events r2.
  Proof.
    induction rem as [|rem IH]; intros i a b w h q ci ev Rab; cbn [rust_loop rr_state rr_q rr_conv rr_ci rr_hist rr_events]; [repeat split; auto|].
    pose proof (Hu (hold_at hold_h delay_h i) a b Rab) as Rab'. rewrite (Hl _ _ Rab').
    destruct (_ && _)%bool; cbn [rr_state rr_q rr_conv rr_ci rr_hist rr_events]; [repeat split; auto|]. apply IH, Rab'.
  Qed.
  Lemma rust_sim cn hold_h delay_h tick max_iter a b : Rel a b ->
    let r1 := rust_train u1 l1 below cn hold_h delay_h tick max_iter a in
    let r2 := rust_train u2 l2 below cn hold_h delay_h tick max_iter b in
    Rel (rr_state r1) (rr_state r2) /\ rr_q r1 = rr_q r2 /\ rr_conv r1 = rr_conv r2 /\ rr_ci r1 = rr_ci r2 /\
    rr_hist r1 = rr_hist r2 /\ rr_events r1 = rr_events r2.
  Proof. intros Rab. apply rust_loop_sim, Rab. Qed.

  Lemma py_loop_sim (n1 : S1 -> bool) (n2 : S2 -> bool) cn delay_h rem : (forall a b, Rel a b -> n1 a = n2 b) -> forall i hold a b w h st, Rel a b ->
    let r1 := py_loop u1 l1 below n1 cn delay_h rem i hold a w h st in
    let r2 := py_loop u2 l2 below n2 cn delay_h rem i hold b w h st in
    Rel (pr_state r1) (pr_state r2) /\ pr_stop r1 = pr_stop r2 /\ pr_hist r1 = pr_hist r2 /\ pr_steps r1 = pr_steps r2.
  Proof.
    intros Hn. induction rem as [|rem IH]; intros i hold a b w h st Rab; cbn [py_loop pr_state pr_stop pr_hist pr_steps]; [repeat split; auto|].
    set (x := if (_ && _)%Z then false else hold). pose proof (Hu x a b Rab) as Rab'.
    rewrite (Hl _ _ Rab'), (Hn _ _ Rab'). destruct (n2 _); [repeat split; auto|].
    destruct (cn <? _)%Z; [|apply IH, Rab']. destruct (tl _); [repeat split; auto|].
    destruct (below _ _); [repeat split; auto|]. apply IH, Rab'.
  Qed.
  Lemma py_sim (n1 : S1 -> bool) (n2 : S2 -> bool) cn delay_h hold_h max_iter a b : (forall a b, Rel a b -> n1 a = n2 b) -> Rel a b ->
    let r1 := py_train u1 l1 below n1 cn delay_h hold_h max_iter a in
    let r2 := py_train u2 l2 below n2 cn delay_h hold_h max_iter b in
    Rel (pr_state r1) (pr_state r2) /\ pr_stop r1 = pr_stop r2 /\ pr_hist r1 = pr_hist r2 /\ pr_steps r1 = pr_steps r2.
  Proof. intros Hn Rab. apply py_loop_sim; assumption. Qed.
End Sim.

(** ** Sums over repeated numbers *)
Lemma times_S m s i : times_in (S m) s i = (times_in m s i + if s m =? i then 1 else 0)%nat.
Proof.
  unfold times_in. rewrite seq_S, filter_app, app_length. cbn [filter Nat.add]. destruct (s m =? i)%nat; reflexivity.
Qed.
Lemma rsum_times m' m s f : (forall t, (t < m')%nat -> (s t < m)%nat) ->
  rsum m' (fun t => f (s t)) = rsum m (fun i => INR (times_in m' s i) * f i).
Proof.
  induction m' as [|m' IH]; intros Hs.
  - cbn [rsum]. symmetry. transitivity (rsum m (fun _ => 0)); [apply rsum_ext; intros; unfold times_in; cbn; ring|rewrite rsum_const; ring].
  - cbn [rsum]. rewrite IH by (intros; apply Hs; lia).
    transitivity (rsum m (fun i => INR (times_in m' s i) * f i + (if (s m' =? i)%nat then f i else 0))).
    + rewrite rsum_plus. f_equal. rewrite (rsum_single m _ (s m')); [rewrite Nat.eqb_refl; reflexivity|apply Hs; lia|].
      intros i _ Ne. destruct (Nat.eqb_spec (s m') i); [subst; contradiction|reflexivity].
    + apply rsum_ext. intros i _. rewrite times_S, plus_INR. destruct (s m' =? i)%nat; cbn [INR]; ring.
Qed.
Lemma times_pos m' m s i : covers m' m s -> (i < m)%nat -> 0 < INR (times_in m' s i).
Proof.
  intros [_ Hc] Hi. destruct (Hc i Hi) as (t & Ht & E). apply lt_0_INR. unfold times_in.
  assert (I : In t (filter (fun t => s t =? i)%nat (seq 0 m'))) by (apply filter_In; split; [apply in_seq; lia|apply Nat.eqb_eq, E]).
  destruct (filter _ _); [destruct I|cbn; lia].
Qed.

Section Rep.
  Context (m m' n n' k : nat) (s p : nat -> nat) (V U V' U' Us : mat).
  Context (Cs : covers m' m s) (Cp : covers n' n p).
  Context (EV : forall t j, (t < m')%nat -> (j < n')%nat -> V' t j = V (s t) (p j)).
  Context (EU : forall t j, (t < m')%nat -> (j < n')%nat -> U' t j = U (s t) (p j)).
  Context (HU : mall m n (fun u => u <> 0) U).
  Let c := fun i => INR (times_in m' s i).
  Let d := fun j => INR (times_in n' p j).
  Context (ES : forall i j, (i < m)%nat -> (j < n)%nat -> Us i j = U i j / sqrt (c i * d j)).

  Lemma cpos i : (i < m)%nat -> 0 < c i. Proof. intros Hi. apply (times_pos m' m); assumption. Qed.
  Lemma dpos j : (j < n)%nat -> 0 < d j. Proof. intros Hj. apply (times_pos n' n); assumption. Qed.
  Lemma root_pos i j : (i < m)%nat -> (j < n)%nat -> 0 < sqrt (c i * d j).
  Proof. intros Hi Hj. apply sqrt_lt_R0, Rmult_lt_0_compat; [apply cpos|apply dpos]; assumption. Qed.

  Lemma rwe i j : (i < m)%nat -> (j < n)%nat -> weights Us i j = c i * d j * weights U i j.
  Proof.
    intros Hi Hj. unfold weights. rewrite ES by assumption. pose proof (root_pos i j Hi Hj) as P. pose proof (HU i j Hi Hj) as Hu. cbv beta in Hu.
    pose proof (cpos i Hi). pose proof (dpos j Hj).
    assert (E : sqrt (c i * d j) * sqrt (c i * d j) = c i * d j) by (apply sqrt_sqrt; nra).
    replace ((U i j / sqrt (c i * d j)) ^ 2) with (U i j ^ 2 / (sqrt (c i * d j) * sqrt (c i * d j))) by (field; lra).
    rewrite E. field; repeat split; try lra; exact Hu.
  Qed.
  Lemma rwe' t j : (t < m')%nat -> (j < n')%nat -> weights U' t j = weights U (s t) (p j).
  Proof. intros Ht Hj. unfold weights. rewrite EU by assumption. reflexivity. Qed.
  Lemma rwev i j : (i < m)%nat -> (j < n)%nat -> wev V (weights Us) i j = c i * d j * wev V (weights U) i j.
  Proof. intros Hi Hj. unfold wev. rewrite rwe by assumption. ring. Qed.
  Lemma rwev' t j : (t < m')%nat -> (j < n')%nat -> wev V' (weights U') t j = wev V (weights U) (s t) (p j).
  Proof. intros Ht Hj. unfold wev. rewrite rwe', EV by assumption. reflexivity. Qed.

  Section LS.
  Context (W H W' H' : mat) (Rl : repeated m' n' k s p (W, H) (W', H')).

  Lemma rmm t j : (t < m')%nat -> (j < n')%nat -> mmul k W' H' t j = mmul k W H (s t) (p j).
  Proof. intros Ht Hj. destruct Rl as [R1 R2]. cbn [fst snd] in R1, R2. unfold mmul. apply rsum_ext. intros a Ha. rewrite R1, R2 by assumption. reflexivity. Qed.

  Lemma rhn a j : (a < k)%nat -> (j < n')%nat -> h_num m V (weights Us) W a (p j) = d (p j) * h_num m' V' (weights U') W' a j.
  Proof.
    intros Ha Hj. assert (Hp : (p j < n)%nat) by (apply Cp, Hj). unfold h_num.
    transitivity (d (p j) * rsum m' (fun t => (fun i => W i a * wev V (weights U) i (p j)) (s t))).
    - rewrite (rsum_times m' m s (fun i => W i a * wev V (weights U) i (p j)) (proj1 Cs)), <- rsum_scal_l. apply rsum_ext. intros i Hi. rewrite rwev by assumption. unfold c. ring.
    - f_equal. apply rsum_ext. intros t Ht. rewrite rwev' by assumption. destruct Rl as [R1 _]. cbn [fst] in R1. rewrite R1 by assumption. reflexivity.
  Qed.
  Lemma rhd a j : (a < k)%nat -> (j < n')%nat -> h_den m k (weights Us) W H a (p j) = d (p j) * h_den m' k (weights U') W' H' a j.
  Proof.
    intros Ha Hj. assert (Hp : (p j < n)%nat) by (apply Cp, Hj). unfold h_den.
    transitivity (d (p j) * rsum m' (fun t => (fun i => W i a * (weights U i (p j) * mmul k W H i (p j))) (s t))).
    - rewrite (rsum_times m' m s (fun i => W i a * (weights U i (p j) * mmul k W H i (p j))) (proj1 Cs)), <- rsum_scal_l. apply rsum_ext. intros i Hi. rewrite rwe by assumption. unfold c. ring.
    - f_equal. apply rsum_ext. intros t Ht. rewrite rwe', rmm by assumption. destruct Rl as [R1 _]. cbn [fst] in R1. rewrite R1 by assumption. reflexivity.
  Qed.
  Lemma rwn t a : (t < m')%nat -> (a < k)%nat -> w_num n V (weights Us) H (s t) a = c (s t) * w_num n' V' (weights U') H' t a.
  Proof.
    intros Ht Ha. assert (Hs : (s t < m)%nat) by (apply Cs, Ht). unfold w_num.
    transitivity (c (s t) * rsum n' (fun j => (fun q => wev V (weights U) (s t) q * H a q) (p j))).
    - rewrite (rsum_times n' n p (fun q => wev V (weights U) (s t) q * H a q) (proj1 Cp)), <- rsum_scal_l. apply rsum_ext. intros j Hj. rewrite rwev by assumption. unfold d. ring.
    - f_equal. apply rsum_ext. intros j Hj. rewrite rwev' by assumption. destruct Rl as [_ R2]. cbn [snd] in R2. rewrite R2 by assumption. reflexivity.
  Qed.
  Lemma rwd t a : (t < m')%nat -> (a < k)%nat -> w_den n k (weights Us) W H (s t) a = c (s t) * w_den n' k (weights U') W' H' t a.
  Proof.
    intros Ht Ha. assert (Hs : (s t < m)%nat) by (apply Cs, Ht). unfold w_den.
    transitivity (c (s t) * rsum n' (fun j => (fun q => weights U (s t) q * mmul k W H (s t) q * H a q) (p j))).
    - rewrite (rsum_times n' n p (fun q => weights U (s t) q * mmul k W H (s t) q * H a q) (proj1 Cp)), <- rsum_scal_l. apply rsum_ext. intros j Hj. rewrite rwe by assumption. unfold d. ring.
    - f_equal. apply rsum_ext. intros j Hj. rewrite rwe', rmm by assumption. destruct Rl as [_ R2]. cbn [snd] in R2. rewrite R2 by assumption. reflexivity.
  Qed.

  Lemma rq : q_loss m n k true V Us W H = q_loss m' n' k true V' U' W' H'.
  Proof.
    unfold q_loss, msum. symmetry.
    transitivity (rsum m' (fun t => (fun i => rsum n (fun j => INR (times_in n' p j) * (let ru := resid k V W H i j / U i j in ru * ru))) (s t))).
    - apply rsum_ext. intros t Ht. rewrite <- (rsum_times n' n p (fun j => let ru := resid k V W H (s t) j / U (s t) j in ru * ru) (proj1 Cp)).
      apply rsum_ext. intros j Hj. unfold resid. rewrite rmm, EV, EU by assumption. reflexivity.
    - rewrite (rsum_times m' m s (fun i => rsum n (fun j => INR (times_in n' p j) * (let ru := resid k V W H i j / U i j in ru * ru))) (proj1 Cs)). apply rsum_ext. intros i Hi. rewrite <- rsum_scal_l. apply rsum_ext. intros j Hj. cbv zeta.
      rewrite ES by assumption. fold (c i) (d j). pose proof (root_pos i j Hi Hj) as P. pose proof (HU i j Hi Hj) as Hu. cbv beta in Hu.
      pose proof (cpos i Hi). pose proof (dpos j Hj).
      assert (E : sqrt (c i * d j) * sqrt (c i * d j) = c i * d j) by (apply sqrt_sqrt; nra).
      transitivity (sqrt (c i * d j) * sqrt (c i * d j) * ((resid k V W H i j / U i j) * (resid k V W H i j / U i j))); [rewrite E; ring|field; split; [lra|exact Hu]].
  Qed.
  End LS.

  Lemma nz_scale (x y : R) : 0 < x -> (x * y <> 0 <-> y <> 0).
  Proof. intros Hx. split; [intros A E; apply A; rewrite E; ring|intros A; apply Rmult_integral_contrapositive_currified; lra]. Qed.

  Lemma rep_h W H W' H' : repeated m' n' k s p (W, H) (W', H') ->
    match h_step m n k V (weights Us) W H, h_step m' n' k V' (weights U') W' H' with
    | Some H1, Some H1' => forall a j, (a < k)%nat -> (j < n')%nat -> H1' a j = H1 a (p j)
    | None, None => True
    | _, _ => False
    end.
  Proof.
    intros Rl. unfold h_step.
    assert (E : all_nz k n (h_den m k (weights Us) W H) = all_nz k n' (h_den m' k (weights U') W' H')).
    { apply eq_true_iff_eq. rewrite !all_nz_true. split; intros Q a j Ha Hj.
      - assert (Hp : (p j < n)%nat) by (apply Cp, Hj). pose proof (Q a (p j) Ha Hp) as X. cbv beta in X. rewrite (rhd W H W' H' Rl a j Ha Hj) in X. apply (nz_scale _ _ (dpos (p j) Hp)), X.
      - destruct (proj2 Cp j Hj) as (j' & Hj' & <-). rewrite (rhd W H W' H' Rl a j' Ha Hj'). apply nz_scale; [apply dpos, Hj|]. apply Q; assumption. }
    rewrite E. destruct (all_nz k n' _) eqn:Nz; [|exact I]. intros a j Ha Hj.
    assert (Hp : (p j < n)%nat) by (apply Cp, Hj). rewrite (rhn W H W' H' Rl a j Ha Hj), (rhd W H W' H' Rl a j Ha Hj). pose proof (proj2 Rl a j Ha Hj) as X. cbn [snd] in X. rewrite X.
    pose proof (proj1 (all_nz_true _ _ _) Nz a j Ha Hj) as Nz'. pose proof (dpos _ Hp). field. split; [exact Nz'|lra].
  Qed.
  Lemma rep_w W H W' H' : repeated m' n' k s p (W, H) (W', H') ->
    match w_step m n k V (weights Us) W H, w_step m' n' k V' (weights U') W' H' with
    | Some W1, Some W1' => forall t a, (t < m')%nat -> (a < k)%nat -> W1' t a = W1 (s t) a
    | None, None => True
    | _, _ => False
    end.
  Proof.
    intros Rl. unfold w_step.
    assert (E : all_nz m k (w_den n k (weights Us) W H) = all_nz m' k (w_den n' k (weights U') W' H')).
    { apply eq_true_iff_eq. rewrite !all_nz_true. split; intros Q t a Ht Ha.
      - assert (Hs : (s t < m)%nat) by (apply Cs, Ht). pose proof (Q (s t) a Hs Ha) as X. cbv beta in X. rewrite (rwd W H W' H' Rl t a Ht Ha) in X. apply (nz_scale _ _ (cpos (s t) Hs)), X.
      - destruct (proj2 Cs t Ht) as (t' & Ht' & <-). rewrite (rwd W H W' H' Rl t' a Ht' Ha). apply nz_scale; [apply cpos, Ht|]. apply Q; assumption. }
    rewrite E. destruct (all_nz m' k _) eqn:Nz; [|exact I]. intros t a Ht Ha.
    assert (Hs : (s t < m)%nat) by (apply Cs, Ht). rewrite (rwn W H W' H' Rl t a Ht Ha), (rwd W H W' H' Rl t a Ht Ha). pose proof (proj1 Rl t a Ht Ha) as X. cbn [fst] in X. rewrite X.
    pose proof (proj1 (all_nz_true _ _ _) Nz t a Ht Ha) as Nz'. pose proof (cpos _ Hs). field. split; [exact Nz'|lra].
  Qed.

  Lemma rep_step hold x y : orel (repeated m' n' k s p) x y -> orel (repeated m' n' k s p) (ls_step m n k V Us hold x) (ls_step m' n' k V' U' hold y).
  Proof.
    destruct x as [[W H]|], y as [[W' H']|]; cbn [orel ls_step]; try (intros []; fail); try (intros; exact I). intros Rl.
    unfold ls_update.
    assert (RH : match (if hold then Some H else h_step m n k V (weights Us) W H), (if hold then Some H' else h_step m' n' k V' (weights U') W' H') with
      | Some H1, Some H1' => forall a j, (a < k)%nat -> (j < n')%nat -> H1' a j = H1 a (p j)
      | None, None => True
      | _, _ => False
      end) by (destruct hold; [exact (proj2 Rl)|apply rep_h, Rl]).
    destruct (if hold then Some H else _) as [H1|], (if hold then Some H' else _) as [H1'|]; try contradiction; try exact I.
    assert (Rl' : repeated m' n' k s p (W, H1) (W', H1')) by (split; [exact (proj1 Rl)|exact RH]).
    pose proof (rep_w W H1 W' H1' Rl') as RW.
    destruct (w_step m n k V (weights Us) W H1), (w_step m' n' k V' (weights U') W' H1'); try contradiction; try exact I. split; [exact RW|exact RH].
  Qed.
  Lemma rep_loss x y : orel (repeated m' n' k s p) x y -> ls_loss m n k V Us x = ls_loss m' n' k V' U' y.
  Proof.
    destruct x as [[W H]|], y as [[W' H']|]; cbn [orel ls_loss]; intros Rl; try contradiction; [|reflexivity]. f_equal. apply rq, Rl.
  Qed.
End Rep.

(** ** C143 *)
(** A table in which samples and features occur several times, trained from a start that
    repeats accordingly, gives what the table with every sample and feature once gives
    with uncertainties divided by the root of the number of occurrences. *)
Theorem C143_repetitions_are_weights :
  forall (m m' n n' k : nat) (s p : nat -> nat) (V U W H : mat) (delta : R) (cn : Z) (hold_h : bool) (delay_h : Z) (tick : nat -> bool) (max_iter : Z),
  covers m' m s -> covers n' n p -> mall m n (fun u => u <> 0) U ->
  let Us i j := U i j / sqrt (INR (times_in m' s i) * INR (times_in n' p j)) in
  let once := ls_rust_train m n k V Us delta cn hold_h delay_h tick max_iter W H in
  let many := ls_rust_train m' n' k (fun t j => V (s t) (p j)) (fun t j => U (s t) (p j)) delta cn hold_h delay_h tick max_iter
    (fun t a => W (s t) a) (fun a j => H a (p j)) in
  rr_hist many = rr_hist once /\ rr_conv many = rr_conv once /\ rr_ci many = rr_ci once /\ rr_q many = rr_q once /\ rr_events many = rr_events once /\
  match rr_state once, rr_state many with
  | Some (W1, H1), Some (W2, H2) =>
      (forall t a, (t < m')%nat -> (a < k)%nat -> W2 t a = W1 (s t) a) /\ (forall a j, (a < k)%nat -> (j < n')%nat -> H2 a j = H1 a (p j))
  | None, None => True
  | _, _ => False
  end.
Proof.
  intros m m' n n' k s p V U W H delta cn hold_h delay_h tick max_iter Cs Cp HU Us once many.
  destruct (rust_sim (ls_step m n k V Us) (ls_step m' n' k (fun t j => V (s t) (p j)) (fun t j => U (s t) (p j))) (ls_loss m n k V Us)
    (ls_loss m' n' k (fun t j => V (s t) (p j)) (fun t j => U (s t) (p j))) (fbelow delta) (orel (repeated m' n' k s p))) with
    (cn := cn) (hold_h := hold_h) (delay_h := delay_h) (tick := tick) (max_iter := max_iter)
    (a := Some (W, H)) (b := Some ((fun t a => W (s t) a) : mat, (fun a j => H a (p j)) : mat)) as (A & B & C & D & E & G).
  - intros h a b. apply (rep_step m m' n n' k s p V U); auto.
  - intros a b. apply (rep_loss m m' n n' k s p V U); auto.
  - split; intros; reflexivity.
  - fold (ls_rust_train m n k V Us delta cn hold_h delay_h tick max_iter W H) in A, B, C, D, E, G. fold once in A, B, C, D, E, G.
    match type of E with _ = rr_hist ?x => change x with many in A, B, C, D, E, G end.
    repeat split; auto. destruct (rr_state once) as [[W1 H1]|], (rr_state many) as [[W2 H2]|]; try contradiction; try exact I. exact A.
Qed.
Print Assumptions C143_repetitions_are_weights.

Theorem C143_repetitions_are_weights_python :
  forall (m m' n n' k : nat) (s p : nat -> nat) (V U W H : mat) (delta : R) (cn : Z) (hold_h : bool) (delay_h : Z) (max_iter : Z),
  covers m' m s -> covers n' n p -> mall m n (fun u => u <> 0) U ->
  let Us i j := U i j / sqrt (INR (times_in m' s i) * INR (times_in n' p j)) in
  let once := ls_py_train m n k V Us delta cn delay_h hold_h max_iter W H in
  let many := ls_py_train m' n' k (fun t j => V (s t) (p j)) (fun t j => U (s t) (p j)) delta cn delay_h hold_h max_iter
    (fun t a => W (s t) a) (fun a j => H a (p j)) in
  pr_hist many = pr_hist once /\ pr_stop many = pr_stop once /\ pr_steps many = pr_steps once /\
  match pr_state once, pr_state many with
  | Some (W1, H1), Some (W2, H2) =>
      (forall t a, (t < m')%nat -> (a < k)%nat -> W2 t a = W1 (s t) a) /\ (forall a j, (a < k)%nat -> (j < n')%nat -> H2 a j = H1 a (p j))
  | None, None => True
  | _, _ => False
  end.
Proof.
  intros m m' n n' k s p V U W H delta cn hold_h delay_h max_iter Cs Cp HU Us once many.
  assert (RS : forall h a b, orel (repeated m' n' k s p) a b -> orel (repeated m' n' k s p) (ls_step m n k V Us h a)
      (ls_step m' n' k (fun t j => V (s t) (p j)) (fun t j => U (s t) (p j)) h b)) by (intros h a b; apply (rep_step m m' n n' k s p V U); auto).
  assert (RL : forall a b, orel (repeated m' n' k s p) a b -> ls_loss m n k V Us a = ls_loss m' n' k (fun t j => V (s t) (p j)) (fun t j => U (s t) (p j)) b)
    by (intros a b; apply (rep_loss m m' n n' k s p V U); auto).
  destruct (py_sim _ _ _ _ (fbelow delta) (orel (repeated m' n' k s p)) RS RL
    (fun o => is_nan (ls_loss m n k V Us o)) (fun o => is_nan (ls_loss m' n' k (fun t j => V (s t) (p j)) (fun t j => U (s t) (p j)) o)) cn delay_h hold_h max_iter
    (Some (W, H)) (Some ((fun t a => W (s t) a) : mat, (fun a j => H a (p j)) : mat))) as (A & B & C & D).
  - intros a b Rab. rewrite (RL a b Rab). reflexivity.
  - split; intros; reflexivity.
  - fold (ls_py_train m n k V Us delta cn delay_h hold_h max_iter W H) in A, B, C, D. fold once in A, B, C, D.
    match type of C with _ = pr_hist ?x => change x with many in A, B, C, D end.
    repeat split; auto. destruct (pr_state once) as [[W1 H1]|], (pr_state many) as [[W2 H2]|]; try contradiction; try exact I. exact A.
Qed.
Print Assumptions C143_repetitions_are_weights_python.

(** ** WS-NMF *)
Section WsRep.
  Context (solve solve' : nat -> mat -> mat) (m m' n k : nat) (s : nat -> nat) (V U V' U' Us : mat).
  Context (Inv : inverts k solve) (Inv' : inverts k solve') (Cs : covers m' m s).
  Context (EV : forall t j, (t < m')%nat -> (j < n)%nat -> V' t j = V (s t) j).
  Context (EU : forall t j, (t < m')%nat -> (j < n)%nat -> U' t j = U (s t) j).
  Context (HU : mall m n (fun u => u <> 0) U).
  Let c := fun i => INR (times_in m' s i).
  Context (ES : forall i j, (i < m)%nat -> (j < n)%nat -> Us i j = U i j / sqrt (c i)).

  Lemma scpos i : (i < m)%nat -> 0 < c i. Proof. intros Hi. apply (times_pos m' m); assumption. Qed.
  Lemma swe i j : (i < m)%nat -> (j < n)%nat -> weights Us i j = c i * weights U i j.
  Proof.
    intros Hi Hj. unfold weights. rewrite ES by assumption. pose proof (scpos i Hi) as P. pose proof (HU i j Hi Hj) as Hu. cbv beta in Hu.
    pose proof (sqrt_lt_R0 _ P). assert (E : sqrt (c i) * sqrt (c i) = c i) by (apply sqrt_sqrt; lra).
    replace ((U i j / sqrt (c i)) ^ 2) with (U i j ^ 2 / (sqrt (c i) * sqrt (c i))) by (field; lra).
    rewrite E. field; repeat split; try lra; exact Hu.
  Qed.
  Lemma swe' t j : (t < m')%nat -> (j < n)%nat -> weights U' t j = weights U (s t) j.
  Proof. intros Ht Hj. unfold weights. rewrite EU by assumption. reflexivity. Qed.
  Lemma swev i j : (i < m)%nat -> (j < n)%nat -> wev V (weights Us) i j = c i * wev V (weights U) i j.
  Proof. intros Hi Hj. unfold wev. rewrite swe by assumption. ring. Qed.
  Lemma swev' t j : (t < m')%nat -> (j < n)%nat -> wev V' (weights U') t j = wev V (weights U) (s t) j.
  Proof. intros Ht Hj. unfold wev. rewrite swe', EV by assumption. reflexivity. Qed.

  Context (H H' : mat) (EH : forall a j, (a < k)%nat -> (j < n)%nat -> H' a j = H a j) (Det : determined m n k Us H).

  Lemma swd t a b : (t < m')%nat -> (a < k)%nat -> (b < k)%nat -> ws_wd n (weights Us) H (s t) a b = c (s t) * ws_wd n (weights U') H' t a b.
  Proof.
    intros Ht Ha Hb. assert (Hs : (s t < m)%nat) by (apply Cs, Ht). unfold ws_wd. rewrite <- rsum_scal_l. apply rsum_ext. intros j Hj.
    rewrite swe, swe', !EH by assumption. ring.
  Qed.
  Lemma swn t a : (t < m')%nat -> (a < k)%nat -> ws_wn n V (weights Us) H (s t) a = c (s t) * ws_wn n V' (weights U') H' t a.
  Proof.
    intros Ht Ha. assert (Hs : (s t < m)%nat) by (apply Cs, Ht). unfold ws_wn. rewrite <- rsum_scal_l. apply rsum_ext. intros j Hj.
    rewrite swev, swev', EH by assumption. ring.
  Qed.
  Lemma sw t a : (t < m')%nat -> (a < k)%nat -> ws_w_step solve' n k V' (weights U') H' t a = ws_w_step solve n k V (weights Us) H (s t) a.
  Proof.
    intros Ht Ha. assert (Hs : (s t < m)%nat) by (apply Cs, Ht). pose proof (scpos _ Hs) as P.
    destruct (Det (s t) Hs) as [B HB]. apply det_wd in HB.
    assert (HB' : inverse_of k (ws_wd n (weights U') H' t) (fun x y => c (s t) * B x y)).
    { destruct HB as [I1 I2]. split; intros x y Hx Hy; [rewrite <- (I1 x y Hx Hy)|rewrite <- (I2 x y Hx Hy)]; unfold mmul; apply rsum_ext; intros q Hq; rewrite swd by assumption; ring. }
    refine (w_unique solve' n k V' (weights U') H' t _ (fun a => ws_w_step solve n k V (weights Us) H (s t) a) Inv' HB' _ a Ha).
    intros y Hy. apply (Rmult_eq_reg_l (c (s t))); [|lra]. rewrite <- swn by assumption.
    rewrite <- (w_solves solve n k V (weights Us) H (s t) B Inv HB y Hy), <- rsum_scal_l. apply rsum_ext. intros q Hq. rewrite swd by assumption. ring.
  Qed.

  Context (W W' : mat) (EW : forall t a, (t < m')%nat -> (a < k)%nat -> W' t a = W (s t) a).
  Lemma slin X X' a j : (forall t a, (t < m')%nat -> (a < k)%nat -> X' t a = X (s t) a) -> (a < k)%nat -> (j < n)%nat ->
    ws_lin m' V' (weights U') X' a j = ws_lin m V (weights Us) X a j.
  Proof.
    intros EX Ha Hj. unfold ws_lin. transitivity (rsum m' (fun t => (fun i => wev V (weights U) i j * X i a) (s t))).
    - apply rsum_ext. intros t Ht. rewrite swev', EX by assumption. reflexivity.
    - rewrite (rsum_times m' m s (fun i => wev V (weights U) i j * X i a) (proj1 Cs)). apply rsum_ext. intros i Hi. rewrite swev by assumption. unfold c. ring.
  Qed.
  Lemma squad X X' a j : (forall t a, (t < m')%nat -> (a < k)%nat -> X' t a = X (s t) a) -> (a < k)%nat -> (j < n)%nat ->
    ws_quad m' k (weights U') X' H' a j = ws_quad m k (weights Us) X H a j.
  Proof.
    intros EX Ha Hj. unfold ws_quad. apply rsum_ext. intros b Hb. rewrite EH by assumption. f_equal.
    transitivity (rsum m' (fun t => (fun i => X i b * weights U i j * X i a) (s t))).
    - apply rsum_ext. intros t Ht. rewrite swe', !EX by assumption. reflexivity.
    - rewrite (rsum_times m' m s (fun i => X i b * weights U i j * X i a) (proj1 Cs)). apply rsum_ext. intros i Hi. rewrite swe by assumption. unfold c. ring.
  Qed.
  Lemma spos t a : (t < m')%nat -> (a < k)%nat -> pos_part W' t a = pos_part W (s t) a.
  Proof. intros Ht Ha. unfold pos_part. rewrite EW by assumption. reflexivity. Qed.
  Lemma sneg t a : (t < m')%nat -> (a < k)%nat -> neg_part W' t a = neg_part W (s t) a.
  Proof. intros Ht Ha. unfold neg_part. rewrite EW by assumption. reflexivity. Qed.
  Lemma sn a j : (a < k)%nat -> (j < n)%nat -> ws_n m' k V' (weights U') W' H' a j = ws_n m k V (weights Us) W H a j.
  Proof. intros Ha Hj. unfold ws_n. rewrite (slin _ _ a j spos Ha Hj), (squad _ _ a j sneg Ha Hj). reflexivity. Qed.
  Lemma sd a j : (a < k)%nat -> (j < n)%nat -> ws_d m' k V' (weights U') W' H' a j = ws_d m k V (weights Us) W H a j.
  Proof. intros Ha Hj. unfold ws_d. rewrite (slin _ _ a j sneg Ha Hj), (squad _ _ a j spos Ha Hj). reflexivity. Qed.
  Lemma sh : match ws_h_step m n k V (weights Us) W H, ws_h_step m' n k V' (weights U') W' H' with
    | Some H1, Some H1' => forall a j, (a < k)%nat -> (j < n)%nat -> H1' a j = H1 a j
    | None, None => True
    | _, _ => False
    end.
  Proof.
    unfold ws_h_step.
    assert (E : forallb (fun a => forallb (fun j => sqrt_ok (ws_n m k V (weights Us) W H a j) (ws_d m k V (weights Us) W H a j)) (seq 0 n)) (seq 0 k)
      = forallb (fun a => forallb (fun j => sqrt_ok (ws_n m' k V' (weights U') W' H' a j) (ws_d m' k V' (weights U') W' H' a j)) (seq 0 n)) (seq 0 k)).
    { apply eq_true_iff_eq. rewrite !forallb_forall. split; intros Q a Ha; pose proof (Q a Ha) as Qa; apply in_seq in Ha; rewrite forallb_forall in Qa |- *; intros j Hj; specialize (Qa j Hj); apply in_seq in Hj.
      - rewrite sn, sd by lia. exact Qa.
      - rewrite sn, sd in Qa by lia. exact Qa. }
    rewrite <- E. destruct (forallb _ _); [|exact I]. intros a j Ha Hj. rewrite sn, sd, EH by assumption. reflexivity.
  Qed.
End WsRep.

Section WsRun.
  Context (solve solve' : nat -> mat -> mat) (m m' n k : nat) (s : nat -> nat) (V U V' U' Us : mat).
  Context (Inv : inverts k solve) (Inv' : inverts k solve') (Cs : covers m' m s).
  Context (EV : forall t j, (t < m')%nat -> (j < n)%nat -> V' t j = V (s t) j).
  Context (EU : forall t j, (t < m')%nat -> (j < n)%nat -> U' t j = U (s t) j).
  Context (HU : mall m n (fun u => u <> 0) U).
  Context (ES : forall i j, (i < m)%nat -> (j < n)%nat -> Us i j = U i j / sqrt (INR (times_in m' s i))).
  Let Rep := repeated m' n k s (fun j => j).

  Lemma s_update hold W W' H H' : (forall a j, (a < k)%nat -> (j < n)%nat -> H' a j = H a j) -> determined m n k Us H ->
    orel Rep (ws_update solve m n k V (weights Us) hold (W, H)) (ws_update solve' m' n k V' (weights U') hold (W', H')).
  Proof.
    intros EH Det. unfold ws_update.
    pose proof (sw solve solve' m m' n k s V U V' U' Us Inv Inv' Cs EV EU HU ES H H' EH Det) as Ew.
    destruct hold; [split; [exact Ew|exact EH]|].
    pose proof (sh m m' n k s V U V' U' Us Cs EV EU HU ES H H' EH _ _ Ew) as Eh.
    destruct (ws_h_step m n k V (weights Us) _ H) as [H1|], (ws_h_step m' n k V' (weights U') _ H') as [H1'|]; try exact Eh.
    split; [exact Ew|exact Eh].
  Qed.
  Lemma s_iter hold N : forall i0 st st', (forall a j, (a < k)%nat -> (j < n)%nat -> snd st' a j = snd st a j) ->
    (forall t A B, (t < N)%nat -> ws_iter solve m n k V (weights Us) hold i0 t st = Some (A, B) -> determined m n k Us B) -> (0 < N)%nat ->
    orel Rep (ws_iter solve m n k V (weights Us) hold i0 N st) (ws_iter solve' m' n k V' (weights U') hold i0 N st').
  Proof.
    induction N as [|N IH]; intros i0 [W H] [W' H'] EH Det HN; [lia|]. cbn [ws_iter].
    pose proof (s_update (hold i0) W W' H H' EH (Det 0%nat W H ltac:(lia) eq_refl)) as Ru.
    match goal with |- orel _ (match ?x with _ => _ end) (match ?y with _ => _ end) =>
      change (orel Rep x y) in Ru; destruct x as [st1|] eqn:E, y as [st1'|] end; try contradiction; try exact I.
    destruct N as [|N]; [exact Ru|]. apply IH; [exact (proj2 Ru)| |lia]. intros t A B Ht Et. apply (Det (S t) A B ltac:(lia)). cbn [ws_iter]. rewrite E. exact Et.
  Qed.
End WsRun.

(** WS-NMF with samples that occur several times: the same, and from any starting
    contributions. *)
Theorem C143_ws_repeated_samples :
  forall (solve solve' : nat -> mat -> mat) (m m' n k : nat) (s : nat -> nat) (V U : mat) (hold : nat -> bool) (i0 N : nat) (W W' H : mat),
  inverts k solve -> inverts k solve' -> covers m' m s -> mall m n (fun u => u <> 0) U ->
  let Us i j := U i j / sqrt (INR (times_in m' s i)) in
  let V' t j := V (s t) j in let U' t j := U (s t) j in
  (forall t A B, (t < N)%nat -> ws_iter solve m n k V (weights Us) hold i0 t (W, H) = Some (A, B) -> determined m n k Us B) -> (0 < N)%nat ->
  match ws_iter solve m n k V (weights Us) hold i0 N (W, H), ws_iter solve' m' n k V' (weights U') hold i0 N (W', H) with
  | Some (A, B), Some (A', B') =>
      (forall t a, (t < m')%nat -> (a < k)%nat -> A' t a = A (s t) a) /\ (forall a j, (a < k)%nat -> (j < n)%nat -> B' a j = B a j) /\
      q_loss m' n k true V' U' A' B' = q_loss m n k true V Us A B
  | None, None => True
  | _, _ => False
  end.
Proof.
  intros solve solve' m m' n k s V U hold i0 N W W' H Inv Inv' Cs HU Us V' U' Det HN.
  pose proof (s_iter solve solve' m m' n k s V U V' U' Us Inv Inv' Cs (fun _ _ _ _ => eq_refl) (fun _ _ _ _ => eq_refl) HU (fun _ _ _ _ => eq_refl)
    hold N i0 (W, H) (W', H) (fun _ _ _ _ => eq_refl) Det HN) as Rl.
  destruct (ws_iter solve m n k V (weights Us) hold i0 N (W, H)) as [[A B]|], (ws_iter solve' m' n k V' (weights U') hold i0 N (W', H)) as [[A' B']|]; try exact Rl.
  destruct Rl as [R1 R2]. cbn [fst snd] in R1, R2. split; [exact R1|]. split; [exact R2|]. symmetry.
  apply (rq m m' n n k s (fun j => j) V U V' U' Us Cs); auto.
  - split; [auto|]. intros j Hj. exists j. auto.
  - intros i j Hi Hj. unfold Us. replace (times_in n (fun j => j) j) with 1%nat; [cbn [INR]; rewrite Rmult_1_r; reflexivity|].
    unfold times_in. clear - Hj. induction n as [|n IH]; [lia|]. rewrite seq_S, filter_app, app_length. cbn [filter Nat.add]. destruct (Nat.eqb_spec n j) as [->|Ne].
    + replace (filter (fun t => t =? j)%nat (seq 0 j)) with (@nil nat); [reflexivity|]. symmetry. destruct (filter _ _) as [|x l] eqn:E; [reflexivity|].
      assert (I : In x (x :: l)) by (left; reflexivity). rewrite <- E in I. apply filter_In in I. destruct I as [I1 I2]. apply in_seq in I1. apply Nat.eqb_eq in I2. lia.
    + cbn [length]. rewrite <- IH by lia. lia.
  - split; [exact R1|exact R2].
Qed.
Print Assumptions C143_ws_repeated_samples.

(** WS-NMF with features that occur several times is not exactly the weighted fit: the
    small number added in the profile step is not weighted.  One sample, two features,
    the second of them twice. *)
Lemma two_sq : INR 2 = 2. Proof. cbn [INR]. lra. Qed.
Lemma min1_covers : covers 3 2 (Nat.min 1).
Proof. split; [intros t _; lia|]. intros i Hi. exists i. split; lia. Qed.
Theorem C143_ws_repeated_features_refuted :
  let p := Nat.min 1 in
  let Us (i j : nat) := 1 / sqrt (INR (times_in 3 p j)) in
  covers 3 2 p /\
  exists W1 H1 W2 H2 : mat,
    ws_iter inv1 1 2 1 (un_V 1) (weights Us) (fun _ => false) 0 1 (un_U 1, un_U 1) = Some (W1, H1) /\
    ws_iter inv1 1 3 1 (fun i j => un_V 1 i (p j)) (weights (fun i j => 1)) (fun _ => false) 0 1 (un_U 1, un_U 1) = Some (W2, H2) /\
    H2 0%nat 1%nat <> H1 0%nat 1%nat.
Proof.
  intros p Us. split; [exact min1_covers|].
  assert (S2 : sqrt 2 * sqrt 2 = 2) by (apply sqrt_sqrt; lra). pose proof (sqrt_lt_R0 2 ltac:(lra)) as P2. pose proof EPS_pos as Ep.
  assert (U0 : forall i, weights Us i 0%nat = 1).
  { intros i. unfold weights, Us. change (times_in 3 p 0) with 1%nat. cbn [INR]. rewrite sqrt_1. field. }
  assert (U1 : forall i, weights Us i 1%nat = 2).
  { intros i. unfold weights, Us. change (times_in 3 p 1) with 2%nat. rewrite two_sq.
    replace ((1 / sqrt 2) ^ 2) with (1 / (sqrt 2 * sqrt 2)) by (field; lra). rewrite S2. field. }
  assert (w1 : forall a, ws_w_step inv1 2 1 (un_V 1) (weights Us) (un_U 1) 0%nat a = 5 / 3).
  { intros a. unfold ws_w_step, ws_wn, inv1, ws_wd, wev. cbn [rsum]. rewrite U0, U1. unfold un_V, un_U. field. }
  assert (w2 : forall a, ws_w_step inv1 3 1 (fun i j => un_V 1 i (p j)) (weights (fun i j => 1)) (un_U 1) 0%nat a = 5 / 3).
  { intros a. unfold ws_w_step, ws_wn, inv1, ws_wd, wev, weights. cbn [rsum]. unfold un_V, un_U, p. cbn [Nat.min]. field. }
  assert (A : Rabs (5 / 3) = 5 / 3) by (apply Rabs_pos_eq; lra).
  destruct (ws_h_step_defined 1 2 1 (un_V 1) (weights Us) (ws_w_step inv1 2 1 (un_V 1) (weights Us) (un_U 1)) (un_U 1)) as (H1 & E1 & _).
  { intros i j _ _. unfold un_V. destruct j; lra. }
  { intros i j _ Hj. destruct j as [|[|j]]; [rewrite U0; lra|rewrite U1; lra|lia]. }
  { intros i j _ _. unfold un_U. destruct j; lra. }
  destruct (ws_h_step_defined 1 3 1 (fun i j => un_V 1 i (p j)) (weights (fun i j => 1))
    (ws_w_step inv1 3 1 (fun i j => un_V 1 i (p j)) (weights (fun i j => 1)) (un_U 1)) (un_U 1)) as (H2 & E2 & _).
  { intros i j _ _. unfold un_V. destruct (p j); lra. }
  { intros i j _ _. unfold weights. lra. }
  { intros i j _ _. unfold un_U. destruct j; lra. }
  exists (ws_w_step inv1 2 1 (un_V 1) (weights Us) (un_U 1)), H1, (ws_w_step inv1 3 1 (fun i j => un_V 1 i (p j)) (weights (fun i j => 1)) (un_U 1)), H2.
  split; [cbn [ws_iter]; unfold ws_update; rewrite E1; reflexivity|]. split; [cbn [ws_iter]; unfold ws_update; rewrite E2; reflexivity|].
  apply ws_h_step_inv in E1. apply ws_h_step_inv in E2. destruct E1 as [_ ->], E2 as [_ ->]. cbv beta.
  unfold ws_n, ws_d, ws_lin, ws_quad, wev, pos_part, neg_part. cbn [rsum]. rewrite !w1, !w2, !U1, A.
  unfold weights, un_V, un_U, p. cbn [Nat.min]. rewrite !Rmult_1_l. intros Z. apply sqrt_inj in Z.
  - match type of Z with ?a / ?b = ?c / ?d => replace a with (10 / 3 + EPS) in Z by (field; lra); replace b with (25 / 9 + EPS) in Z by (field; lra);
      replace c with (20 / 3 + EPS) in Z by (field; lra); replace d with (50 / 9 + EPS) in Z by (field; lra) end.
    assert (Z2 : (10 / 3 + EPS) * (50 / 9 + EPS) = (20 / 3 + EPS) * (25 / 9 + EPS)).
    { transitivity ((10 / 3 + EPS) / (25 / 9 + EPS) * (25 / 9 + EPS) * (50 / 9 + EPS)); [field; lra|]. rewrite Z. field; lra. }
    nra.
  - apply Rlt_le, Rdiv_lt_0_compat; lra.
  - apply Rlt_le, Rdiv_lt_0_compat; lra.
Qed.
Print Assumptions C143_ws_repeated_features_refuted.

(** Q(robust) is not that of the weighted fit: the cap applies to each occurrence by itself.
    One cell, three times its uncertainty off, twice. *)
Theorem C143_robust_loss_refuted :
  exists (m m' n k : nat) (s : nat -> nat) (V U W H : mat), covers m' m s /\ posU m n U /\
    let Us i j := U i j / sqrt (INR (times_in m' s i)) in
    q_loss m' n k true (fun t j => V (s t) j) (fun t j => U (s t) j) (fun t a => W (s t) a) H = q_loss m n k true V Us W H /\
    qr_loss m n k 4 V Us W H < qr_loss m' n k 4 (fun t j => V (s t) j) (fun t j => U (s t) j) (fun t a => W (s t) a) H.
Proof.
  exists 1%nat, 2%nat, 1%nat, 1%nat, (fun _ => 0%nat), (fun _ _ => 3), (fun _ _ => 1), (fun _ _ => 0), (fun _ _ => 0).
  assert (S2 : sqrt 2 * sqrt 2 = 2) by (apply sqrt_sqrt; lra). pose proof (sqrt_lt_R0 2 ltac:(lra)) as P2.
  assert (Tm : times_in 2 (fun _ => 0%nat) 0 = 2%nat) by reflexivity.
  assert (C : covers 2 1 (fun _ => 0%nat)) by (split; [intros; lia|intros i Hi; exists 0%nat; split; lia]).
  assert (A : Rabs (3 - (0 + 0 * 0)) = 3) by (rewrite Rabs_pos_eq; lra).
  assert (PU : forall a b, posU a b (fun _ _ => 1)) by (intros a b i j _ _; lra).
  split; [exact C|]. split; [apply PU|]. cbv zeta.
  assert (PUs : posU 1 1 (fun i _ => 1 / sqrt (INR (times_in 2 (fun _ => 0%nat) i)))).
  { intros i j Hi _. assert (i = 0%nat) as -> by lia. rewrite Tm, two_sq. apply Rdiv_lt_0_compat; lra. }
  split.
  - rewrite !q_loss_spec by (apply PU || exact PUs). unfold q_spec, msum, cell_resid. cbn [rsum]. rewrite Tm, two_sq, A.
    replace (3 / (1 / sqrt 2) * (3 / (1 / sqrt 2))) with (9 * (sqrt 2 * sqrt 2)) by (field; lra). rewrite S2. field.
  - rewrite !qr_loss_spec by (apply PU || exact PUs || lra). unfold msum, cell_resid. cbn [rsum]. rewrite Tm, two_sq, A.
    replace (3 / (1 / sqrt 2)) with (3 * sqrt 2) by (field; lra). replace (3 / 1) with 3 by field. unfold robust_cell.
    destruct (Rle_dec (3 * sqrt 2) 4) as [L|L]; [exfalso; nra|]. destruct (Rle_dec 3 4) as [L2|L2]; [|lra]. nra.
Qed.
Print Assumptions C143_robust_loss_refuted.

(** Three samples of which the first occurs twice and the last three times, two features
    of which the second occurs twice. *)
Definition rp_s (t : nat) : nat := nth t [0; 1; 0; 2; 2; 2]%nat 0%nat.
Definition rp_p (j : nat) : nat := nth j [1; 0; 1]%nat 0%nat.
Definition rp_V : mat := fun i j => INR (1 + i + 2 * j).
Definition rp_U : mat := fun i _ => INR (1 + i).
Definition rp_Us : mat := fun i j => rp_U i j / sqrt (INR (times_in 6 rp_s i) * INR (times_in 3 rp_p j)).
Example C143_instance :
  covers 6 3 rp_s /\ covers 3 2 rp_p /\ times_in 6 rp_s 2 = 3%nat /\ times_in 3 rp_p 1 = 2%nat /\
  mall 3 2 (fun u => u <> 0) rp_U /\
  exists (max_iter : Z) (W1 H1 : mat), let r := ls_rust_train 3 2 1 rp_V rp_Us (1 / 10) 2 false (-1) (fun _ => false) max_iter One One in
    rr_conv r = true /\ rr_state r = Some (W1, H1).
Proof.
  assert (C1 : covers 6 3 rp_s).
  { split; [intros t Ht; do 6 (destruct t as [|t]; [cbn; lia|]); lia|]. intros i Hi. destruct i as [|[|[|i]]]; [exists 0%nat|exists 1%nat|exists 3%nat|lia]; cbn; lia. }
  assert (C2 : covers 3 2 rp_p).
  { split; [intros t Ht; do 3 (destruct t as [|t]; [cbn; lia|]); lia|]. intros i Hi. destruct i as [|[|i]]; [exists 1%nat|exists 0%nat|lia]; cbn; lia. }
  assert (PU : mall 3 2 (fun u => 0 < u) rp_Us).
  { intros i j Hi Hj. unfold rp_Us, rp_U. apply Rdiv_lt_0_compat; [apply lt_0_INR; lia|]. apply sqrt_lt_R0, Rmult_lt_0_compat; [apply (times_pos 6 3)|apply (times_pos 3 2)]; assumption. }
  split; [exact C1|]. split; [exact C2|]. split; [reflexivity|]. split; [reflexivity|].
  split; [intros i j _ _; unfold rp_U; apply not_0_INR; lia|].
  assert (exists K, q_loss 3 2 1 true rp_V rp_Us One One * 10 < INR K) as [K HK].
  { set (x := q_loss _ _ _ _ _ _ _ _ * 10). exists (Z.to_nat (up x)). rewrite INR_IZR_INZ. pose proof (archimed x) as [Ax _].
    apply (Rlt_le_trans _ _ _ Ax), IZR_le. lia. }
  exists (Z.of_nat (K * span 2) + 1)%Z.
  assert (HV : mall 3 2 (fun x => 0 <= x) rp_V) by (intros i j _ _; apply pos_INR).
  assert (NE : no_empty 3 2 rp_V) by (split; intros i Hi; exists 0%nat; (split; [lia|unfold rp_V; apply lt_0_INR; lia])).
  assert (HU : mall 3 2 (fun u => u <> 0) rp_Us) by (intros i j Hi Hj; pose proof (PU i j Hi Hj); cbv beta in *; lra).
  assert (P1 : forall a b, mall a b (fun x => 0 < x) One) by (intros a b i j _ _; unfold One; lra).
  assert (D2 : q_loss 3 2 1 true rp_V rp_Us One One < INR K * (1 / 10)) by lra.
  assert (D3 : (Z.of_nat (K * span 2) < Z.of_nat (K * span 2) + 1)%Z) by lia.
  destruct (ls_rust_converges 3 2 1 rp_V rp_Us (1 / 10) 2 false (-1) One One (Nat.lt_0_succ _) (Nat.lt_0_succ _) (Nat.lt_0_succ _) HV NE HU (P1 _ _) (P1 _ _)
    (fun _ => false) (Z.of_nat (K * span 2) + 1)%Z K D2 D3) as (A & _ & W1 & H1 & B & _).
  exists W1, H1. split; assumption.
Qed.

Example C143_repetitions_are_weights_example :=
  match C143_instance with conj a (conj b (conj _ (conj _ (conj c _)))) =>
    C143_repetitions_are_weights 3 6 2 3 1 rp_s rp_p rp_V rp_U One One (1 / 10) 2 false (-1) (fun _ => false) 100 a b c end.
Example C143_repetitions_are_weights_python_example :=
  match C143_instance with conj a (conj b (conj _ (conj _ (conj c _)))) =>
    C143_repetitions_are_weights_python 3 6 2 3 1 rp_s rp_p rp_V rp_U One One (1 / 10) 2 false (-1) 100 a b c end.

(** One iteration on three samples, taken twice, once and three times. *)
Example C143_ws_repeated_samples_example W W' :
  let Us i j := rp_U i j / sqrt (INR (times_in 6 rp_s i)) in
  match ws_iter inv1 3 2 1 rp_V (weights Us) (fun _ => false) 0 1 (W, One),
        ws_iter inv1 6 2 1 (fun t j => rp_V (rp_s t) j) (weights (fun t j => rp_U (rp_s t) j)) (fun _ => false) 0 1 (W', One) with
  | Some (A, B), Some (A', B') => forall t a, (t < 6)%nat -> (a < 1)%nat -> A' t a = A (rp_s t) a
  | None, None => True
  | _, _ => False
  end.
Proof.
  intros Us. destruct C143_instance as (C & _ & _ & _ & HU & _).
  assert (D : forall t A B, (t < 1)%nat -> ws_iter inv1 3 2 1 rp_V (weights Us) (fun _ => false) 0 t (W, One) = Some (A, B) -> determined 3 2 1 Us B).
  { intros [|t] A B Ht E; [|lia]. cbn in E. injection E as _ <-. intros i Hi.
    set (A0 := fun a b : nat => rsum 2 (fun j => One a j * (/ (Us i j * Us i j) * One b j))).
    assert (P : forall j, 0 < / (Us i j * Us i j)).
    { intros j. assert (0 < Us i j) by (unfold Us, rp_U; apply Rdiv_lt_0_compat; [apply lt_0_INR; lia|apply sqrt_lt_R0, (times_pos 6 3); assumption]).
      apply Rinv_0_lt_compat, Rmult_lt_0_compat; assumption. }
    pose proof (P 0%nat). pose proof (P 1%nat). assert (A1 : A0 0%nat 0%nat <> 0) by (unfold A0, One; cbn [rsum]; lra).
    exists (fun _ _ => / A0 0%nat 0%nat).
    split; intros a c Ha Hc; assert (a = 0%nat) as -> by lia; assert (c = 0%nat) as -> by lia; unfold mmul; cbn [rsum Nat.eqb]; field; exact A1. }
  pose proof (C143_ws_repeated_samples inv1 inv1 3 6 2 1 rp_s rp_V rp_U (fun _ => false) 0 1 W W' One inv1_inverts inv1_inverts C HU D ltac:(lia)) as X.
  cbv zeta in X. fold Us in X.
  destruct (ws_iter inv1 3 2 1 rp_V _ _ 0 1 (W, One)) as [[A B]|], (ws_iter inv1 6 2 1 _ _ _ 0 1 (W', One)) as [[A' B']|]; try exact X. exact (proj1 X).
Qed.
