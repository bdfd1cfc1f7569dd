(** C146: multiplying all uncertainties by one number.  C147: held profiles and the
    other samples. *)
From Coq Require Import Reals Lra Lia List Bool ZArith Arith Psatz.
From Verif Require Import Base Fl Metrics_Model Metrics_Spec Metrics_Proofs LSNMF_Model LSNMF_Proofs
  Train_Model Train_Spec Train_Proofs Train_LS WSNMF_Model WSNMF_Proofs WSNMF_Props WSLimit_Props WSSym_Props Repeat_Props.
Import ListNotations.
Open Scope R_scope.

(** ** Two runs in step whose losses are translated *)
Section Trans.
  Context {S1 S2 F1 F2 : Type} (u1 : bool -> S1 -> S1) (u2 : bool -> S2 -> S2) (l1 : S1 -> F1) (l2 : S2 -> F2) (g : F1 -> F2)
    (b1 : F1 -> F1 -> bool) (b2 : F2 -> F2 -> bool) (Rel : S1 -> S2 -> Prop).
  Context (Hu : forall h a b, Rel a b -> Rel (u1 h a) (u2 h b)) (Hl : forall a b, Rel a b -> l2 b = g (l1 a)) (Hb : forall x y, b2 (g x) (g y) = b1 x y).

  Lemma last_map (l : list F1) d : last (map g l) (g d) = g (last l d).
  Proof. induction l as [|x [|y l] IH]; [reflexivity|reflexivity|exact IH]. Qed.

  Lemma hd_map (l : list F1) d : hd (g d) (map g l) = g (hd d l).
  Proof. destruct l; reflexivity. Qed.
  Lemma tl_map (l : list F1) : tl (map g l) = map g (tl l).
  Proof. destruct l; reflexivity. Qed.

  Definition ev_map (e : event F1) : event F2 := mkEvent (ev_i e) (g (ev_q e)) (ev_completed e).
  Lemma rust_loop_trans cn hold_h delay_h tick rem : forall i a b w h q ci ev, Rel a b ->
    let r1 := rust_loop u1 l1 b1 cn hold_h delay_h tick rem i a w h q ci ev in
    let r2 := rust_loop u2 l2 b2 cn hold_h delay_h tick rem i b (map g w) (map g h) (option_map g q) ci (map ev_map ev) in
    Rel (rr_state r1) (rr_state r2) /\ rr_q r2 = option_map g (rr_q r1) /\ rr_conv r2 = rr_conv r1 /\ rr_ci r2 = rr_ci r1 /\
    rr_hist r2 = map g (rr_hist r1) /\ rr_events r2 = map ev_map (rr_events r1).
  Proof.
    induction rem as [|rem IH]; intros i a b w h q ci ev Rab; cbn [rust_loop rr_state rr_q rr_conv rr_ci rr_hist rr_events]; [repeat split; auto|].
    pose proof (Hu (hold_at hold_h delay_h i) a b Rab) as Rab'. rewrite (Hl _ _ Rab').
    set (q' := l1 (u1 (hold_at hold_h delay_h i) a)).
    assert (E1 : forall l, map g l ++ [g q'] = map g (l ++ [q'])) by (intros l; rewrite map_app; reflexivity).
    rewrite !E1, hd_map, Hb, map_length, tl_map.
    set (full := (cn <=? _)%Z). set (conv := (full && _)%bool). set (lst := match rem with O => true | _ => false end).
    assert (Ev : (if (tick i || conv || lst)%bool then map ev_map ev ++ [mkEvent i (g q') (conv || lst)] else map ev_map ev)
      = map ev_map (if (tick i || conv || lst)%bool then ev ++ [mkEvent i q' (conv || lst)] else ev)) by (destruct (tick i || conv || lst)%bool; [rewrite map_app|]; reflexivity).
    rewrite Ev. destruct conv; cbn [rr_state rr_q rr_conv rr_ci rr_hist rr_events option_map]; [repeat split; auto|].
    replace (if full then map g (tl (w ++ [q'])) else map g (w ++ [q'])) with (map g (if full then tl (w ++ [q']) else w ++ [q'])) by (destruct full; reflexivity).
    exact (IH (S i) _ _ _ _ (Some q') i _ Rab').
  Qed.
  Lemma rust_trans cn hold_h delay_h tick max_iter a b : Rel a b ->
    let r1 := rust_train u1 l1 b1 cn hold_h delay_h tick max_iter a in
    let r2 := rust_train u2 l2 b2 cn hold_h delay_h tick max_iter b in
    Rel (rr_state r1) (rr_state r2) /\ rr_q r2 = option_map g (rr_q r1) /\ rr_conv r2 = rr_conv r1 /\ rr_ci r2 = rr_ci r1 /\
    rr_hist r2 = map g (rr_hist r1) /\ rr_events r2 = map ev_map (rr_events r1).
  Proof. intros Rab. exact (rust_loop_trans cn hold_h delay_h tick (Z.to_nat max_iter) 0%nat a b [] [] None 0%nat [] Rab). Qed.

  Lemma py_loop_trans (n1 : S1 -> bool) (n2 : S2 -> bool) cn delay_h rem : (forall a b, Rel a b -> n1 a = n2 b) -> forall i hold a b w h st, Rel a b ->
    let r1 := py_loop u1 l1 b1 n1 cn delay_h rem i hold a w h st in
    let r2 := py_loop u2 l2 b2 n2 cn delay_h rem i hold b (map g w) (map g h) st in
    Rel (pr_state r1) (pr_state r2) /\ pr_stop r1 = pr_stop r2 /\ pr_hist r2 = map g (pr_hist r1) /\ pr_steps r1 = pr_steps r2.
  Proof.
    intros Hn. induction rem as [|rem IH]; intros i hold a b w h st Rab; cbn [py_loop pr_state pr_stop pr_hist pr_steps]; [repeat split; auto|].
    set (x := if (_ && _)%Z then false else hold). pose proof (Hu x a b Rab) as Rab'.
    rewrite (Hl _ _ Rab'), (Hn _ _ Rab'). set (q' := l1 (u1 x a)).
    assert (E1 : forall l, map g l ++ [g q'] = map g (l ++ [q'])) by (intros l; rewrite map_app; reflexivity). rewrite !E1, map_length, tl_map.
    destruct (n2 _); [repeat split; auto|]. destruct (cn <? _)%Z; [|apply IH, Rab'].
    destruct (tl (w ++ [q'])) as [|y l] eqn:T; [cbn [map]; repeat split; auto|]. cbn [map].
    change (g y :: map g l) with (map g (y :: l)). rewrite last_map, Hb. destruct (b1 _ _); [repeat split; auto|]. apply IH, Rab'.
  Qed.
  Lemma py_trans (n1 : S1 -> bool) (n2 : S2 -> bool) cn delay_h hold_h max_iter a b : (forall a b, Rel a b -> n1 a = n2 b) -> Rel a b ->
    let r1 := py_train u1 l1 b1 n1 cn delay_h hold_h max_iter a in
    let r2 := py_train u2 l2 b2 n2 cn delay_h hold_h max_iter b in
    Rel (pr_state r1) (pr_state r2) /\ pr_stop r1 = pr_stop r2 /\ pr_hist r2 = map g (pr_hist r1) /\ pr_steps r1 = pr_steps r2.
  Proof. intros Hn Rab. exact (py_loop_trans n1 n2 cn delay_h (Z.to_nat max_iter) Hn 0%nat hold_h a b [] [] 0%nat Rab). Qed.
End Trans.

(** ** Uncertainties multiplied by [s] *)
(** Losses divided by the square of [s]. *)
Definition over (s : R) (x : fl) : fl := match x with Fin r => Fin (r / (s * s)) | _ => x end.

Section Unc.
  Context (m n k : nat) (V U U' : mat) (s : R) (Hs : 0 < s) (HU : mall m n (fun u => u <> 0) U).
  Context (EU : forall i j, (i < m)%nat -> (j < n)%nat -> U' i j = s * U i j).
  Definition same (st st' : mat * mat) : Prop :=
    (forall i a, (i < m)%nat -> (a < k)%nat -> fst st' i a = fst st i a) /\ (forall a j, (a < k)%nat -> (j < n)%nat -> snd st' a j = snd st a j).

  Lemma uw i j : (i < m)%nat -> (j < n)%nat -> weights U' i j = weights U i j / (s * s).
  Proof. intros Hi Hj. unfold weights. rewrite EU by assumption. pose proof (HU i j Hi Hj) as X. cbv beta in X. field; split; (exact X || lra). Qed.

  Section One.
  Context (W H W' H' : mat) (Rl : same (W, H) (W', H')).
  Lemma umm i j : (i < m)%nat -> (j < n)%nat -> mmul k W' H' i j = mmul k W H i j.
  Proof. intros Hi Hj. destruct Rl as [A B]. cbn [fst snd] in A, B. unfold mmul. apply rsum_ext. intros a Ha. rewrite A, B by assumption. reflexivity. Qed.
  Lemma uhn a j : (a < k)%nat -> (j < n)%nat -> h_num m V (weights U') W' a j = / (s * s) * h_num m V (weights U) W a j.
  Proof.
    intros Ha Hj. destruct Rl as [A _]. cbn [fst] in A. unfold h_num. rewrite <- rsum_scal_l. apply rsum_ext. intros i Hi. unfold wev. rewrite uw, A by assumption. field. lra.
  Qed.
  Lemma uhd a j : (a < k)%nat -> (j < n)%nat -> h_den m k (weights U') W' H' a j = / (s * s) * h_den m k (weights U) W H a j.
  Proof.
    intros Ha Hj. pose proof Rl as [A _]. cbn [fst] in A. unfold h_den. rewrite <- rsum_scal_l. apply rsum_ext. intros i Hi. rewrite uw, umm, A by assumption. field. lra.
  Qed.
  Lemma uwn i a : (i < m)%nat -> (a < k)%nat -> w_num n V (weights U') H' i a = / (s * s) * w_num n V (weights U) H i a.
  Proof.
    intros Hi Ha. destruct Rl as [_ B]. cbn [snd] in B. unfold w_num. rewrite <- rsum_scal_l. apply rsum_ext. intros j Hj. unfold wev. rewrite uw, B by assumption. field. lra.
  Qed.
  Lemma uwd i a : (i < m)%nat -> (a < k)%nat -> w_den n k (weights U') W' H' i a = / (s * s) * w_den n k (weights U) W H i a.
  Proof.
    intros Hi Ha. pose proof Rl as [_ B]. cbn [snd] in B. unfold w_den. rewrite <- rsum_scal_l. apply rsum_ext. intros j Hj. rewrite uw, umm, B by assumption. field. lra.
  Qed.
  Lemma nz_iff x : / (s * s) * x <> 0 <-> x <> 0.
  Proof. split; intros X Z; apply X; [rewrite Z; ring|]. apply (Rmult_eq_reg_l (/ (s * s))); [rewrite Z; ring|]. apply Rinv_neq_0_compat. nra. Qed.
  Lemma uh : match h_step m n k V (weights U) W H, h_step m n k V (weights U') W' H' with
    | Some H1, Some H1' => forall a j, (a < k)%nat -> (j < n)%nat -> H1' a j = H1 a j
    | None, None => True
    | _, _ => False
    end.
  Proof.
    unfold h_step.
    assert (E : all_nz k n (h_den m k (weights U) W H) = all_nz k n (h_den m k (weights U') W' H')).
    { apply eq_true_iff_eq. rewrite !all_nz_true. split; intros Q a j Ha Hj; specialize (Q a j Ha Hj); cbv beta in Q |- *; rewrite uhd in * by assumption; apply nz_iff; exact Q. }
    rewrite E. destruct (all_nz k n (h_den m k (weights U') W' H')) eqn:Nz; [|exact I]. intros a j Ha Hj.
    pose proof (proj1 (all_nz_true _ _ _) E a j Ha Hj) as X. cbv beta in X. rewrite uhn, uhd by assumption. pose proof (proj2 Rl a j Ha Hj) as Y. cbn [snd] in Y. rewrite Y. field; split; (exact X || lra).
  Qed.
  Lemma uws : match w_step m n k V (weights U) W H, w_step m n k V (weights U') W' H' with
    | Some W1, Some W1' => forall i a, (i < m)%nat -> (a < k)%nat -> W1' i a = W1 i a
    | None, None => True
    | _, _ => False
    end.
  Proof.
    unfold w_step.
    assert (E : all_nz m k (w_den n k (weights U) W H) = all_nz m k (w_den n k (weights U') W' H')).
    { apply eq_true_iff_eq. rewrite !all_nz_true. split; intros Q i a Hi Ha; specialize (Q i a Hi Ha); cbv beta in Q |- *; rewrite uwd in * by assumption; apply nz_iff; exact Q. }
    rewrite E. destruct (all_nz m k (w_den n k (weights U') W' H')) eqn:Nz; [|exact I]. intros i a Hi Ha.
    pose proof (proj1 (all_nz_true _ _ _) E i a Hi Ha) as X. cbv beta in X. rewrite uwn, uwd by assumption. pose proof (proj1 Rl i a Hi Ha) as Y. cbn [fst] in Y. rewrite Y. field; split; (exact X || lra).
  Qed.
  Lemma uq : q_loss m n k true V U' W' H' = q_loss m n k true V U W H / (s * s).
  Proof.
    unfold q_loss, msum, Rdiv. rewrite Rmult_comm, <- rsum_scal_l. apply rsum_ext. intros i Hi. rewrite <- rsum_scal_l. apply rsum_ext. intros j Hj. cbv zeta.
    unfold resid. rewrite umm, EU by assumption. pose proof (HU i j Hi Hj) as X. cbv beta in X. field; split; (exact X || lra).
  Qed.
  End One.
  Lemma u_step hold x y : orel same x y -> orel same (ls_step m n k V U hold x) (ls_step m n k V U' hold y).
  Proof.
    destruct x as [[W H]|], y as [[W' H']|]; cbn [orel ls_step]; try (intros []; fail); try (intros; exact I). intros Rl. unfold ls_update.
    assert (RH : match (if hold then Some H else h_step m n k V (weights U) W H), (if hold then Some H' else h_step m n k V (weights U') W' H') with
      | Some H1, Some H1' => forall a j, (a < k)%nat -> (j < n)%nat -> H1' a j = H1 a j
      | None, None => True
      | _, _ => False
      end) by (destruct hold; [exact (proj2 Rl)|apply uh, Rl]).
    destruct (if hold then Some H else _) as [H1|], (if hold then Some H' else _) as [H1'|]; try contradiction; try exact I.
    assert (Rl' : same (W, H1) (W', H1')) by (split; [exact (proj1 Rl)|exact RH]).
    pose proof (uws W H1 W' H1' Rl') as RW.
    destruct (w_step m n k V (weights U) W H1), (w_step m n k V (weights U') W' H1'); try contradiction; try exact I. split; [exact RW|exact RH].
  Qed.
  Lemma u_loss x y : orel same x y -> ls_loss m n k V U' y = over s (ls_loss m n k V U x).
  Proof.
    destruct x as [[W H]|], y as [[W' H']|]; cbn [orel ls_loss over]; intros Rl; try contradiction; [|reflexivity]. f_equal. apply uq, Rl.
  Qed.
End Unc.
Lemma over_below s d x y : 0 < s -> fbelow (d / (s * s)) (over s x) (over s y) = fbelow d x y.
Proof.
  intros Hs. unfold fbelow, fsub. destruct x as [x| | |], y as [y| | |]; try reflexivity. cbn [over fopp fadd]. apply eq_true_iff_eq. rewrite !flt_fin.
  assert (P : 0 < / (s * s)) by (apply Rinv_0_lt_compat; nra). replace (x / (s * s) + - (y / (s * s))) with ((x + - y) * / (s * s)) by (field; lra). unfold Rdiv.
  split; [apply Rmult_lt_reg_r, P|apply Rmult_lt_compat_r, P].
Qed.

(** ** C146 *)
Theorem C146_uncertainty_scale :
  forall (m n k : nat) (V U W H : mat) (s delta : R) (cn : Z) (hold_h : bool) (delay_h : Z) (tick : nat -> bool) (max_iter : Z),
  0 < s -> mall m n (fun u => u <> 0) U ->
  let r := ls_rust_train m n k V U delta cn hold_h delay_h tick max_iter W H in
  let r' := ls_rust_train m n k V (fun i j => s * U i j) (delta / (s * s)) cn hold_h delay_h tick max_iter W H in
  rr_hist r' = map (over s) (rr_hist r) /\ rr_conv r' = rr_conv r /\ rr_ci r' = rr_ci r /\ rr_q r' = option_map (over s) (rr_q r) /\
  match rr_state r, rr_state r' with
  | Some (W1, H1), Some (W2, H2) =>
      (forall i a, (i < m)%nat -> (a < k)%nat -> W2 i a = W1 i a) /\ (forall a j, (a < k)%nat -> (j < n)%nat -> H2 a j = H1 a j)
  | None, None => True
  | _, _ => False
  end.
Proof.
  intros m n k V U W H s delta cn hold_h delay_h tick max_iter Hs HU r r'.
  destruct (rust_trans _ _ _ _ (over s) (fbelow delta) (fbelow (delta / (s * s))) (orel (same m n k))
    (u_step m n k V U (fun i j => s * U i j) s Hs HU (fun _ _ _ _ => eq_refl)) (u_loss m n k V U (fun i j => s * U i j) s Hs HU (fun _ _ _ _ => eq_refl)) (fun x y => over_below s delta x y Hs)
    cn hold_h delay_h tick max_iter (Some (W, H)) (Some (W, H))) as (A & B & C & D & E & _).
  - split; intros; reflexivity.
  - fold (ls_rust_train m n k V U delta cn hold_h delay_h tick max_iter W H) in A, B, C, D, E. fold r in A, B, C, D, E.
    match type of E with rr_hist ?x = _ => change x with r' in A, B, C, D, E end.
    repeat split; auto. destruct (rr_state r) as [[W1 H1]|], (rr_state r') as [[W2 H2]|]; try contradiction; try exact I. exact A.
Qed.
Print Assumptions C146_uncertainty_scale.

Theorem C146_uncertainty_scale_python :
  forall (m n k : nat) (V U W H : mat) (s delta : R) (cn : Z) (hold_h : bool) (delay_h : Z) (max_iter : Z),
  0 < s -> mall m n (fun u => u <> 0) U ->
  let r := ls_py_train m n k V U delta cn delay_h hold_h max_iter W H in
  let r' := ls_py_train m n k V (fun i j => s * U i j) (delta / (s * s)) cn delay_h hold_h max_iter W H in
  pr_hist r' = map (over s) (pr_hist r) /\ pr_stop r' = pr_stop r /\ pr_steps r' = pr_steps r /\
  match pr_state r, pr_state r' with
  | Some (W1, H1), Some (W2, H2) =>
      (forall i a, (i < m)%nat -> (a < k)%nat -> W2 i a = W1 i a) /\ (forall a j, (a < k)%nat -> (j < n)%nat -> H2 a j = H1 a j)
  | None, None => True
  | _, _ => False
  end.
Proof.
  intros m n k V U W H s delta cn hold_h delay_h max_iter Hs HU r r'.
  pose proof (u_loss m n k V U (fun i j => s * U i j) s Hs HU (fun _ _ _ _ => eq_refl)) as RL.
  destruct (py_trans _ _ _ _ (over s) (fbelow delta) (fbelow (delta / (s * s))) (orel (same m n k))
    (u_step m n k V U (fun i j => s * U i j) s Hs HU (fun _ _ _ _ => eq_refl)) RL (fun x y => over_below s delta x y Hs)
    (fun o => is_nan (ls_loss m n k V U o)) (fun o => is_nan (ls_loss m n k V (fun i j => s * U i j) o)) cn delay_h hold_h max_iter (Some (W, H)) (Some (W, H))) as (A & B & C & D).
  - intros a b Rab. rewrite (RL a b Rab). destruct (ls_loss m n k V U a); reflexivity.
  - split; intros; reflexivity.
  - fold (ls_py_train m n k V U delta cn delay_h hold_h max_iter W H) in A, B, C, D. fold r in A, B, C, D.
    match type of C with pr_hist ?x = _ => change x with r' in A, B, C, D end.
    repeat split; auto. destruct (pr_state r) as [[W1 H1]|], (pr_state r') as [[W2 H2]|]; try contradiction; try exact I. exact A.
Qed.
Print Assumptions C146_uncertainty_scale_python.

(** Q(robust) scales in the same way only if alpha is divided by the number as well. *)
Theorem C146_robust_scale :
  forall (m n k : nat) (V U W H : mat) (s alpha : R), 0 < s -> 0 < alpha -> posU m n U ->
  qr_loss m n k (alpha / s) V (fun i j => s * U i j) W H = qr_loss m n k alpha V U W H / (s * s).
Proof.
  intros m n k V U W H s alpha Hs Ha HU.
  assert (HU' : posU m n (fun i j => s * U i j)) by (intros i j Hi Hj; pose proof (HU i j Hi Hj) as X; cbv beta in X |- *; nra).
  rewrite !qr_loss_spec; try assumption; [|apply Rdiv_lt_0_compat; assumption].
  unfold msum, Rdiv at 2. rewrite Rmult_comm, <- rsum_scal_l. apply rsum_ext. intros i Hi. rewrite <- rsum_scal_l. apply rsum_ext. intros j Hj.
  pose proof (HU i j Hi Hj) as X. cbv beta in X. unfold cell_resid. set (x := Rabs _).
  replace (x / (s * U i j)) with (x / U i j / s) by (field; lra). set (y := x / U i j). unfold robust_cell.
  assert (P : 0 < / s) by (apply Rinv_0_lt_compat; lra).
  destruct (Rle_dec (y / s) (alpha / s)) as [L|L], (Rle_dec y alpha) as [L'|L']; try (field; lra); exfalso; unfold Rdiv in L.
  - apply Rmult_le_reg_r in L; [|exact P]. contradiction.
  - apply L. apply Rmult_le_compat_r; lra.
Qed.
Print Assumptions C146_robust_scale.
Theorem C146_same_alpha_refuted :
  exists (V U W H : mat) (s alpha : R), 0 < s /\ 0 < alpha /\ posU 1 1 U /\
  qr_loss 1 1 1 alpha V (fun i j => s * U i j) W H <> qr_loss 1 1 1 alpha V U W H / (s * s).
Proof.
  exists (fun _ _ => 8), (fun _ _ => 1), (fun _ _ => 0), (fun _ _ => 0), 2, 4. split; [lra|]. split; [lra|]. split; [intros i j _ _; lra|].
  rewrite !qr_loss_spec by (try lra; intros i j _ _; lra). unfold msum, cell_resid. cbn [rsum].
  replace (Rabs (8 - (0 + 0 * 0))) with 8 by (rewrite Rabs_pos_eq; lra). unfold robust_cell.
  replace (8 / (2 * 1)) with 4 by field. replace (8 / 1) with 8 by field.
  destruct (Rle_dec 4 4) as [L|L]; [|lra]. destruct (Rle_dec 8 4) as [L'|L']; [lra|]. lra.
Qed.
Print Assumptions C146_same_alpha_refuted.

(** ** C147: with held profiles the samples do not see each other *)
Theorem C147_held_samples_apart :
  forall (m m' n k : nat) (s : nat -> nat) (V We : mat) (N : nat) (W H A B : mat),
  (forall t, (t < m')%nat -> (s t < m)%nat) ->
  ls_iter m n k V We (fun _ => true) 0 N (W, H) = Some (A, B) ->
  exists A', ls_iter m' n k (fun t j => V (s t) j) (fun t j => We (s t) j) (fun _ => true) 0 N (fun t a => W (s t) a, H) = Some (A', H) /\
    B = H /\ forall t a, (t < m')%nat -> (a < k)%nat -> A' t a = A (s t) a.
Proof.
  intros m m' n k s V We N W H A B Hs. generalize 0%nat as i0. 
  assert (G : forall i0 W0 W', (forall t a, (t < m')%nat -> (a < k)%nat -> W' t a = W0 (s t) a) ->
    ls_iter m n k V We (fun _ => true) i0 N (W0, H) = Some (A, B) ->
    exists A', ls_iter m' n k (fun t j => V (s t) j) (fun t j => We (s t) j) (fun _ => true) i0 N (W', H) = Some (A', H) /\
      B = H /\ forall t a, (t < m')%nat -> (a < k)%nat -> A' t a = A (s t) a).
  { induction N as [|N IH]; intros i0 W0 W' EW E; cbn [ls_iter] in E |- *.
    - injection E as <- <-. exists W'. auto.
    - unfold ls_update in E |- *. cbv beta iota in E |- *.
      assert (D : forall t a, (t < m')%nat -> (a < k)%nat -> w_den n k (fun t j => We (s t) j) W' H t a = w_den n k We W0 H (s t) a).
      { intros t a Ht Ha. unfold w_den. apply rsum_ext. intros j Hj. do 2 f_equal. unfold mmul. apply rsum_ext. intros b Hb. rewrite EW by assumption. reflexivity. }
      unfold w_step in E |- *. destruct (all_nz m k _) eqn:Nz; [|discriminate].
      assert (Nz' : all_nz m' k (w_den n k (fun t j => We (s t) j) W' H) = true).
      { apply all_nz_true. intros t a Ht Ha. cbv beta. rewrite D by assumption. apply (proj1 (all_nz_true _ _ _) Nz); auto. }
      rewrite Nz'. apply (IH (S i0) _ _) with (2 := E). intros t a Ht Ha. cbv beta. rewrite EW, D by assumption. reflexivity. }
  intros i0 E. exact (G i0 W (fun t a => W (s t) a) (fun _ _ _ _ => eq_refl) E).
Qed.
Print Assumptions C147_held_samples_apart.

(** The same for WS-NMF, where one iteration already gives the end result. *)
Theorem C147_ws_held_samples_apart :
  forall (solve solve' : nat -> mat -> mat) (m m' n k : nat) (s : nat -> nat) (V U : mat) (N : nat) (W W' H : mat),
  inverts k solve -> inverts k solve' -> (forall t, (t < m')%nat -> (s t < m)%nat) -> determined m n k U H -> (0 < N)%nat ->
  exists A A', ws_iter solve m n k V (weights U) (fun _ => true) 0 N (W, H) = Some (A, H) /\
    ws_iter solve' m' n k (fun t j => V (s t) j) (weights (fun t j => U (s t) j)) (fun _ => true) 0 N (W', H) = Some (A', H) /\
    forall t a, (t < m')%nat -> (a < k)%nat -> A' t a = A (s t) a.
Proof.
  intros solve solve' m m' n k s V U N W W' H Inv Inv' Hs Det HN.
  assert (It : forall sol M V0 We0 N i0 W0, (0 < N)%nat -> ws_iter sol M n k V0 We0 (fun _ => true) i0 N (W0, H) = Some (ws_w_step sol n k V0 We0 H, H)).
  { intros sol M V0 We0 N0. induction N0 as [|N0 IH]; intros i0 W0 P; [lia|]. cbn [ws_iter]. unfold ws_update. cbv beta iota.
    destruct N0 as [|N0]; [reflexivity|]. apply IH. lia. }
  eexists. eexists. split; [apply It, HN|]. split; [apply It, HN|]. intros t a Ht Ha.
  destruct (Det (s t) (Hs t Ht)) as [B HB]. apply det_wd in HB.
  assert (HB' : inverse_of k (ws_wd n (weights (fun t j => U (s t) j)) H t) B) by exact HB.
  refine (w_unique solve' n k _ _ H t B (fun a => ws_w_step solve n k V (weights U) H (s t) a) Inv' HB' _ a Ha).
  intros y Hy. exact (w_solves solve n k V (weights U) H (s t) B Inv HB y Hy).
Qed.
Print Assumptions C147_ws_held_samples_apart.

(** Without held profiles the other samples matter: two samples, and the first alone. *)
Definition ap_V : mat := fun i j => match i, j with 1%nat, 1%nat => 3 | _, _ => 1 end.
Theorem C147_not_held_refuted :
  exists (A B A' B' : mat), mall 2 2 (fun x => 0 < x) ap_V /\
  ls_iter 2 2 1 ap_V One (fun _ => false) 0 1 (One, One) = Some (A, B) /\ ls_iter 1 2 1 ap_V One (fun _ => false) 0 1 (One, One) = Some (A', B') /\
  A' 0%nat 0%nat <> A 0%nat 0%nat.
Proof.
  assert (PV : forall m, mall m 2 (fun x => 0 < x) ap_V) by (intros m i j _ _; unfold ap_V; destruct i as [|[|i]], j as [|[|j]]; lra).
  assert (P1 : forall a b, mall a b (fun x => 0 < x) One) by (intros a b i j _ _; unfold One; lra).
  assert (Go : forall m, (0 < m)%nat -> exists A B, ls_iter m 2 1 ap_V One (fun _ => false) 0 1 (One, One) = Some (A, B)).
  { intros m Hm. destruct (ls_iter_pos m 2 1 ap_V One (fun _ => false) 1 0%nat One One) as (A & B & E & _); try lia; auto.
    - intros i j Hi Hj. apply Rlt_le, (PV m i j Hi Hj).
    - split; intros i Hi; exists 0%nat; (split; [lia|]); [apply (PV m i 0%nat); lia|apply (PV m 0%nat i); lia].
    - exists A, B. exact E. }
  destruct (Go 2%nat ltac:(lia)) as (A & B & E). destruct (Go 1%nat ltac:(lia)) as (A' & B' & E').
  exists A, B, A', B'. split; [apply PV|]. split; [exact E|]. split; [exact E'|].
  cbn [ls_iter] in E, E'. unfold ls_update, h_step, w_step in E, E'.
  destruct (all_nz 1 2 _) eqn:N1 in E; [|discriminate]. destruct (all_nz 2 1 _) eqn:N2 in E; [|discriminate].
  destruct (all_nz 1 2 _) eqn:N3 in E'; [|discriminate]. destruct (all_nz 1 1 _) eqn:N4 in E'; [|discriminate].
  injection E as <- <-. injection E' as <- <-. cbv beta. unfold w_num, w_den, h_num, h_den, wev, mmul, One, ap_V. cbn [rsum]. intros Z. field_simplify in Z. lra.
Qed.
Print Assumptions C147_not_held_refuted.

(** The converging run of C143, with uncertainties doubled. *)
Example C146_instance :
  0 < 2 /\ mall 3 2 (fun u => 0 < u) rp_Us /\
  exists (max_iter : Z) (W1 H1 : mat), let r := ls_rust_train 3 2 1 rp_V rp_Us (1 / 10) 2 false (-1) (fun _ => false) max_iter One One in
    rr_conv r = true /\ rr_state r = Some (W1, H1).
Proof.
  split; [lra|]. destruct C143_instance as (C1 & C2 & _ & _ & _ & X). split; [|exact X].
  intros i j Hi Hj. unfold rp_Us, rp_U. apply Rdiv_lt_0_compat; [apply lt_0_INR; lia|]. apply sqrt_lt_R0, Rmult_lt_0_compat; [apply (times_pos 6 3)|apply (times_pos 3 2)]; assumption.
Qed.
(** The second of two samples alone, after five iterations. *)
Example C147_instance :
  (forall t, (t < 1)%nat -> (1 < 2)%nat) /\ determined 2 2 1 One One /\ inverts 1 inv1 /\
  exists A B, ls_iter 2 2 1 ap_V One (fun _ => true) 0 5 (One, One) = Some (A, B).
Proof.
  split; [intros; lia|]. split.
  { intros i Hi. exists (fun _ _ => / 2). split; intros a c Ha Hc; assert (a = 0%nat) as -> by lia; assert (c = 0%nat) as -> by lia; unfold mmul, One; cbn [rsum Nat.eqb]; field. }
  split; [exact inv1_inverts|].
  assert (PV : forall i j, 0 < ap_V i j) by (intros i j; unfold ap_V; destruct i as [|[|i]], j as [|[|j]]; lra).
  assert (P1 : forall a b, mall a b (fun x => 0 < x) One) by (intros a b i j _ _; unfold One; lra).
  destruct (ls_iter_pos 2 2 1 ap_V One (fun _ => true) 5 0%nat One One) as (A & B & E & _); try lia; auto.
  - intros i j _ _. apply Rlt_le, PV.
  - split; intros i Hi; exists 0%nat; (split; [lia|apply PV]).
  - exists A, B. exact E.
Qed.

Lemma xsc_u : mall 3 2 (fun u => u <> 0) rp_Us.
Proof. intros i j Hi Hj. pose proof (proj1 (proj2 C146_instance) i j Hi Hj). lra. Qed.
Example C146_uncertainty_scale_example :=
  C146_uncertainty_scale 3 2 1 rp_V rp_Us One One 2 (1 / 10) 2 false (-1) (fun _ => false) 50 ltac:(lra) xsc_u.
Example C146_uncertainty_scale_python_example :=
  C146_uncertainty_scale_python 3 2 1 rp_V rp_Us One One 2 (1 / 10) 2 false (-1) 50 ltac:(lra) xsc_u.
Example C146_robust_scale_example := C146_robust_scale 3 2 1 rp_V rp_Us One One 2 4 ltac:(lra) ltac:(lra) (proj1 (proj2 C146_instance)).
Example C147_held_samples_apart_example : exists A B A', ls_iter 2 2 1 ap_V One (fun _ => true) 0 5 (One, One) = Some (A, B) /\
  ls_iter 1 2 1 (fun _ j => ap_V 1%nat j) (fun _ j => One 1%nat j) (fun _ => true) 0 5 (fun _ a => One 1%nat a, One) = Some (A', One) /\ A' 0%nat 0%nat = A 1%nat 0%nat.
Proof.
  destruct C147_instance as (_ & _ & _ & A & B & E).
  destruct (C147_held_samples_apart 2 1 2 1 (fun _ => 1%nat) ap_V One 5 One One A B (fun _ _ => le_n 2) E) as (A' & E' & _ & X).
  exists A, B, A'. split; [exact E |]. split; [exact E' |]. apply X; lia.
Qed.
Example C147_ws_held_samples_apart_example :=
  C147_ws_held_samples_apart inv1 inv1 2 1 2 1 (fun _ => 1%nat) ap_V One 5 One One One (proj1 (proj2 (proj2 C147_instance))) (proj1 (proj2 (proj2 C147_instance))) (fun _ _ => le_n 2) (proj1 (proj2 C147_instance)) ltac:(lia).
