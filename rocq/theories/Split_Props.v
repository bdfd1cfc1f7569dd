(** C144: factors that are copies of each other, and factors that are zero. *)
From Coq Require Import Reals Lra Lia List Bool ZArith Arith Psatz.
From Verif Require Import Base Fl Metrics_Model Metrics_Spec Metrics_Proofs LSNMF_Model LSNMF_Proofs
  Train_Model Train_Spec Train_Proofs Train_LS WSNMF_Model WSNMF_Proofs WSNMF_Props WSSym_Props Repeat_Props.
Import ListNotations.
Open Scope R_scope.

(** ** Specification *)
(** The [k'] factors are the [k] factors split into parts: factor [a] is a part of factor
    [f a], with [c a] of its contributions and [e a] of its profile, and the parts of
    every factor make up the whole. *)
Definition split (k' k : nat) (f : nat -> nat) (c e : nat -> R) : Prop :=
  (forall a, (a < k')%nat -> (f a < k)%nat /\ c a <> 0 /\ e a <> 0) /\
  (forall b, (b < k)%nat -> rsum k' (fun a => if (f a =? b)%nat then c a * e a else 0) = 1).

Lemma rsum_parts k' k f (g x : nat -> R) : (forall a, (a < k')%nat -> (f a < k)%nat) ->
  rsum k' (fun a => g a * x (f a)) = rsum k (fun b => rsum k' (fun a => if (f a =? b)%nat then g a else 0) * x b).
Proof.
  induction k' as [|k' IH]; intros Hf.
  - cbn [rsum]. symmetry. transitivity (rsum k (fun _ => 0)); [apply rsum_ext; intros; ring|rewrite rsum_const; ring].
  - cbn [rsum]. rewrite IH by (intros; apply Hf; lia).
    transitivity (rsum k (fun b => rsum k' (fun a => if (f a =? b)%nat then g a else 0) * x b + (if (f k' =? b)%nat then g k' * x b else 0))).
    + rewrite rsum_plus. f_equal. rewrite (rsum_single k _ (f k')); [rewrite Nat.eqb_refl; reflexivity|apply Hf; lia|].
      intros b _ Ne. destruct (Nat.eqb_spec (f k') b); [subst; contradiction|reflexivity].
    + apply rsum_ext. intros b _. destruct (f k' =? b)%nat; ring.
Qed.
Lemma split_onto k' k f c e b : split k' k f c e -> (b < k)%nat -> exists a, (a < k')%nat /\ f a = b.
Proof.
  intros [_ Hs] Hb. pose proof (Hs b Hb) as E. clear Hs.
  destruct (existsb (fun a => f a =? b)%nat (seq 0 k')) eqn:X.
  - apply existsb_exists in X. destruct X as (a & I & Ea). apply in_seq in I. apply Nat.eqb_eq in Ea. exists a. split; [lia|exact Ea].
  - exfalso. rewrite (rsum_ext k' _ (fun _ => 0)) in E; [rewrite rsum_const in E; lra|].
    intros a Ha. destruct (f a =? b)%nat eqn:Ea; [|reflexivity]. exfalso.
    assert (existsb (fun a => f a =? b)%nat (seq 0 k') = true) by (apply existsb_exists; exists a; split; [apply in_seq; lia|exact Ea]). congruence.
Qed.

Section Split.
  Context (m n k k' : nat) (f : nat -> nat) (c e : nat -> R) (V U : mat) (Sp : split k' k f c e).
  Definition parts (st st' : mat * mat) : Prop :=
    (forall i a, (i < m)%nat -> (a < k')%nat -> fst st' i a = c a * fst st i (f a)) /\
    (forall a j, (a < k')%nat -> (j < n)%nat -> snd st' a j = e a * snd st (f a) j).

  Section One.
  Context (W H W' H' : mat) (We : mat) (Rl : parts (W, H) (W', H')).
  Lemma pmm i j : (i < m)%nat -> (j < n)%nat -> mmul k' W' H' i j = mmul k W H i j.
  Proof.
    intros Hi Hj. destruct Rl as [R1 R2]. cbn [fst snd] in R1, R2. unfold mmul.
    transitivity (rsum k' (fun a => c a * e a * (fun b => W i b * H b j) (f a))).
    - apply rsum_ext. intros a Ha. rewrite R1, R2 by assumption. ring.
    - rewrite (rsum_parts k' k f (fun a => c a * e a) (fun b => W i b * H b j)) by (intros a Ha; apply (proj1 Sp a Ha)).
      apply rsum_ext. intros b Hb. rewrite (proj2 Sp b Hb). ring.
  Qed.
  Lemma phn a j : (a < k')%nat -> (j < n)%nat -> h_num m V We W' a j = c a * h_num m V We W (f a) j.
  Proof. intros Ha Hj. destruct Rl as [R1 _]. cbn [fst] in R1. unfold h_num. rewrite <- rsum_scal_l. apply rsum_ext. intros i Hi. rewrite R1 by assumption. ring. Qed.
  Lemma phd a j : (a < k')%nat -> (j < n)%nat -> h_den m k' We W' H' a j = c a * h_den m k We W H (f a) j.
  Proof.
    intros Ha Hj. pose proof Rl as [R1 _]. cbn [fst] in R1. unfold h_den. rewrite <- rsum_scal_l. apply rsum_ext. intros i Hi. rewrite pmm, R1 by assumption. ring.
  Qed.
  Lemma pwn i a : (i < m)%nat -> (a < k')%nat -> w_num n V We H' i a = e a * w_num n V We H i (f a).
  Proof. intros Hi Ha. destruct Rl as [_ R2]. cbn [snd] in R2. unfold w_num. rewrite <- rsum_scal_l. apply rsum_ext. intros j Hj. rewrite R2 by assumption. ring. Qed.
  Lemma pwd i a : (i < m)%nat -> (a < k')%nat -> w_den n k' We W' H' i a = e a * w_den n k We W H i (f a).
  Proof.
    intros Hi Ha. pose proof Rl as [_ R2]. cbn [snd] in R2. unfold w_den. rewrite <- rsum_scal_l. apply rsum_ext. intros j Hj. rewrite pmm, R2 by assumption. ring.
  Qed.
  Lemma ph : match h_step m n k V We W H, h_step m n k' V We W' H' with
    | Some H1, Some H1' => forall a j, (a < k')%nat -> (j < n)%nat -> H1' a j = e a * H1 (f a) j
    | None, None => True
    | _, _ => False
    end.
  Proof.
    unfold h_step.
    assert (E : all_nz k n (h_den m k We W H) = all_nz k' n (h_den m k' We W' H')).
    { apply eq_true_iff_eq. rewrite !all_nz_true. split; intros Q.
      - intros a j Ha Hj. cbv beta. rewrite phd by assumption. destruct (proj1 Sp a Ha) as (F & C & _). apply Rmult_integral_contrapositive. split; [exact C|]. apply (Q (f a) j F Hj).
      - intros b j Hb Hj. cbv beta. destruct (split_onto _ _ _ _ _ b Sp Hb) as (a & Ha & <-). intros Z. apply (Q a j Ha Hj). rewrite phd, Z by assumption. ring. }
    rewrite E. destruct (all_nz k' n _) eqn:Nz; [|exact I]. intros a j Ha Hj.
    pose proof (proj1 (all_nz_true _ _ _) E (f a) j (proj1 (proj1 Sp a Ha)) Hj) as Nz'. cbv beta in Nz'. destruct (proj1 Sp a Ha) as (_ & C & _).
    rewrite phn, phd by assumption. pose proof (proj2 Rl a j Ha Hj) as X. cbn [snd] in X. rewrite X. field. split; assumption.
  Qed.
  Lemma pw : match w_step m n k V We W H, w_step m n k' V We W' H' with
    | Some W1, Some W1' => forall i a, (i < m)%nat -> (a < k')%nat -> W1' i a = c a * W1 i (f a)
    | None, None => True
    | _, _ => False
    end.
  Proof.
    unfold w_step.
    assert (E : all_nz m k (w_den n k We W H) = all_nz m k' (w_den n k' We W' H')).
    { apply eq_true_iff_eq. rewrite !all_nz_true. split; intros Q.
      - intros i a Hi Ha. cbv beta. rewrite pwd by assumption. destruct (proj1 Sp a Ha) as (F & _ & C). apply Rmult_integral_contrapositive. split; [exact C|]. apply (Q i (f a) Hi F).
      - intros i b Hi Hb. cbv beta. destruct (split_onto _ _ _ _ _ b Sp Hb) as (a & Ha & <-). intros Z. apply (Q i a Hi Ha). rewrite pwd, Z by assumption. ring. }
    rewrite E. destruct (all_nz m k' _) eqn:Nz; [|exact I]. intros i a Hi Ha.
    pose proof (proj1 (all_nz_true _ _ _) E i (f a) Hi (proj1 (proj1 Sp a Ha))) as Nz'. cbv beta in Nz'. destruct (proj1 Sp a Ha) as (_ & _ & C).
    rewrite pwn, pwd by assumption. pose proof (proj1 Rl i a Hi Ha) as X. cbn [fst] in X. rewrite X. field. split; assumption.
  Qed.
  End One.

  Lemma p_step hold x y : orel parts x y -> orel parts (ls_step m n k V U hold x) (ls_step m n k' V U hold y).
  Proof.
    destruct x as [[W H]|], y as [[W' H']|]; cbn [orel ls_step]; try (intros []; fail); try (intros; exact I). intros Rl. unfold ls_update.
    assert (RH : match (if hold then Some H else h_step m n k V (weights U) W H), (if hold then Some H' else h_step m n k' V (weights U) W' H') with
      | Some H1, Some H1' => forall a j, (a < k')%nat -> (j < n)%nat -> H1' a j = e a * H1 (f a) j
      | None, None => True
      | _, _ => False
      end) by (destruct hold; [exact (proj2 Rl)|apply ph, Rl]).
    destruct (if hold then Some H else _) as [H1|], (if hold then Some H' else _) as [H1'|]; try contradiction; try exact I.
    assert (Rl' : parts (W, H1) (W', H1')) by (split; [exact (proj1 Rl)|exact RH]).
    pose proof (pw W H1 W' H1' (weights U) Rl') as RW.
    destruct (w_step m n k V (weights U) W H1), (w_step m n k' V (weights U) W' H1'); try contradiction; try exact I. split; [exact RW|exact RH].
  Qed.
  Lemma p_loss x y : orel parts x y -> ls_loss m n k V U x = ls_loss m n k' V U y.
  Proof.
    destruct x as [[W H]|], y as [[W' H']|]; cbn [orel ls_loss]; intros Rl; try contradiction; [|reflexivity]. f_equal.
    unfold q_loss. apply msum_ext. intros i j Hi Hj. unfold resid. rewrite (pmm W H W' H' Rl i j Hi Hj). reflexivity.
  Qed.
End Split.

(** ** C144 *)
(** A start in which factors are split into parts behaves exactly like the start with
    fewer factors, and the parts stay parts. *)
Theorem C144_split_factors :
  forall (m n k k' : nat) (f : nat -> nat) (c e : nat -> R) (V U W H : mat) (delta : R) (cn : Z) (hold_h : bool) (delay_h : Z) (tick : nat -> bool) (max_iter : Z),
  split k' k f c e ->
  let few := ls_rust_train m n k V U delta cn hold_h delay_h tick max_iter W H in
  let many := ls_rust_train m n k' V U delta cn hold_h delay_h tick max_iter (fun i a => c a * W i (f a)) (fun a j => e a * H (f a) j) in
  rr_hist many = rr_hist few /\ rr_conv many = rr_conv few /\ rr_ci many = rr_ci few /\ rr_q many = rr_q few /\ rr_events many = rr_events few /\
  match rr_state few, rr_state many with
  | Some (W1, H1), Some (W2, H2) =>
      (forall i a, (i < m)%nat -> (a < k')%nat -> W2 i a = c a * W1 i (f a)) /\ (forall a j, (a < k')%nat -> (j < n)%nat -> H2 a j = e a * H1 (f a) j)
  | None, None => True
  | _, _ => False
  end.
Proof.
  intros m n k k' f c e V U W H delta cn hold_h delay_h tick max_iter Sp few many.
  destruct (rust_sim _ _ _ _ (fbelow delta) (orel (parts m n k' f c e))
    (p_step m n k k' f c e V U Sp) (p_loss m n k k' f c e V U Sp) cn hold_h delay_h tick max_iter
    (Some (W, H)) (Some ((fun i a => c a * W i (f a)) : mat, (fun a j => e a * H (f a) j) : mat))) as (A & B & C & D & E & G).
  - split; intros; reflexivity.
  - fold (ls_rust_train m n k V U delta cn hold_h delay_h tick max_iter W H) in A, B, C, D, E, G. fold few in A, B, C, D, E, G.
    match type of E with _ = rr_hist ?x => change x with many in A, B, C, D, E, G end.
    repeat split; auto. destruct (rr_state few) as [[W1 H1]|], (rr_state many) as [[W2 H2]|]; try contradiction; try exact I. exact A.
Qed.
Print Assumptions C144_split_factors.

Theorem C144_split_factors_python :
  forall (m n k k' : nat) (f : nat -> nat) (c e : nat -> R) (V U W H : mat) (delta : R) (cn : Z) (hold_h : bool) (delay_h : Z) (max_iter : Z),
  split k' k f c e ->
  let few := ls_py_train m n k V U delta cn delay_h hold_h max_iter W H in
  let many := ls_py_train m n k' V U delta cn delay_h hold_h max_iter (fun i a => c a * W i (f a)) (fun a j => e a * H (f a) j) in
  pr_hist many = pr_hist few /\ pr_stop many = pr_stop few /\ pr_steps many = pr_steps few /\
  match pr_state few, pr_state many with
  | Some (W1, H1), Some (W2, H2) =>
      (forall i a, (i < m)%nat -> (a < k')%nat -> W2 i a = c a * W1 i (f a)) /\ (forall a j, (a < k')%nat -> (j < n)%nat -> H2 a j = e a * H1 (f a) j)
  | None, None => True
  | _, _ => False
  end.
Proof.
  intros m n k k' f c e V U W H delta cn hold_h delay_h max_iter Sp few many.
  pose proof (p_loss m n k k' f c e V U Sp) as RL.
  destruct (py_sim _ _ _ _ (fbelow delta) (orel (parts m n k' f c e)) (p_step m n k k' f c e V U Sp) RL
    (fun o => is_nan (ls_loss m n k V U o)) (fun o => is_nan (ls_loss m n k' V U o)) cn delay_h hold_h max_iter
    (Some (W, H)) (Some ((fun i a => c a * W i (f a)) : mat, (fun a j => e a * H (f a) j) : mat))) as (A & B & C & D).
  - intros a b Rab. rewrite (RL a b Rab). reflexivity.
  - split; intros; reflexivity.
  - fold (ls_py_train m n k V U delta cn delay_h hold_h max_iter W H) in A, B, C, D. fold few in A, B, C, D.
    match type of C with _ = pr_hist ?x => change x with many in A, B, C, D end.
    repeat split; auto. destruct (pr_state few) as [[W1 H1]|], (pr_state many) as [[W2 H2]|]; try contradiction; try exact I. exact A.
Qed.
Print Assumptions C144_split_factors_python.

(** Two factors with proportional contributions and proportional profiles stay so. *)
Theorem C144_twins_stay_twins :
  forall (m n k : nat) (V We : mat) (a b : nat) (r q : R) (hold : nat -> bool) (N i0 : nat) (W H W' H' : mat),
  (a < k)%nat -> (b < k)%nat ->
  (forall i, (i < m)%nat -> W i b = r * W i a) -> (forall j, (j < n)%nat -> H b j = q * H a j) ->
  ls_iter m n k V We hold i0 N (W, H) = Some (W', H') ->
  (forall i, (i < m)%nat -> W' i b = r * W' i a) /\ (forall j, (j < n)%nat -> H' b j = q * H' a j).
Proof.
  intros m n k V We a b r q hold N. induction N as [|N IH]; intros i0 W H W' H' Ha Hb EW EH E; cbn [ls_iter] in E.
  - injection E as <- <-. split; assumption.
  - destruct (ls_update m n k V We (hold i0) (W, H)) as [[W1 H1]|] eqn:Eu; [|discriminate].
    assert (T : (forall i, (i < m)%nat -> W1 i b = r * W1 i a) /\ (forall j, (j < n)%nat -> H1 b j = q * H1 a j)).
    { unfold ls_update in Eu.
      assert (EHx : forall Hx, (if hold i0 then Some H else h_step m n k V We W H) = Some Hx -> forall j, (j < n)%nat -> Hx b j = q * Hx a j).
      { intros Hx. destruct (hold i0); [intros [= <-]; exact EH|]. unfold h_step. destruct (all_nz k n _) eqn:Nz; [|discriminate]. intros [= <-] j Hj.
        pose proof (proj1 (all_nz_true _ _ _) Nz b j Hb Hj) as Nb. pose proof (proj1 (all_nz_true _ _ _) Nz a j Ha Hj) as Na. cbv beta in Na, Nb.
        assert (E1 : h_num m V We W b j = r * h_num m V We W a j).
        { unfold h_num. rewrite <- rsum_scal_l. apply rsum_ext. intros i Hi. rewrite EW by assumption. ring. }
        assert (E2 : h_den m k We W H b j = r * h_den m k We W H a j).
        { unfold h_den. rewrite <- rsum_scal_l. apply rsum_ext. intros i Hi. rewrite EW by assumption. ring. }
        rewrite E2 in Nb. rewrite E1, E2, EH by assumption. assert (r <> 0) by (intros ->; lra). field. split; assumption. }
      destruct (if hold i0 then Some H else h_step m n k V We W H) as [Hx|]; [|discriminate]. pose proof (EHx Hx eq_refl) as EX.
      unfold w_step in Eu. destruct (all_nz m k _) eqn:Nz; [|discriminate]. injection Eu as <- <-. split; [|exact EX]. intros i Hi.
      pose proof (proj1 (all_nz_true _ _ _) Nz i b Hi Hb) as Nb. pose proof (proj1 (all_nz_true _ _ _) Nz i a Hi Ha) as Na. cbv beta in Na, Nb.
      assert (E1 : w_num n V We Hx i b = q * w_num n V We Hx i a).
      { unfold w_num. rewrite <- rsum_scal_l. apply rsum_ext. intros j Hj. rewrite EX by assumption. ring. }
      assert (E2 : w_den n k We W Hx i b = q * w_den n k We W Hx i a).
      { unfold w_den. rewrite <- rsum_scal_l. apply rsum_ext. intros j Hj. rewrite EX by assumption. ring. }
      rewrite E2 in Nb. rewrite E1, E2, EW by assumption. assert (q <> 0) by (intros ->; lra). field. split; assumption. }
    exact (IH (S i0) W1 H1 W' H' Ha Hb (proj1 T) (proj2 T) E).
Qed.
Print Assumptions C144_twins_stay_twins.

(** A factor whose profile is zero, or whose contributions are zero while profiles are
    updated, breaks the iteration. *)
Theorem C144_zero_factor_breaks :
  forall (m n k : nat) (V We W H : mat) (hold : bool) (a : nat), (0 < m)%nat -> (0 < n)%nat -> (a < k)%nat ->
  (forall j, (j < n)%nat -> H a j = 0) \/ (hold = false /\ forall i, (i < m)%nat -> W i a = 0) ->
  ls_update m n k V We hold (W, H) = None.
Proof.
  intros m n k V We W H hold a Hm Hn Ha Z. unfold ls_update.
  assert (NW : forall Hx, (forall j, (j < n)%nat -> Hx a j = 0) -> w_step m n k V We W Hx = None).
  { intros Hx Zx. unfold w_step. destruct (all_nz m k _) eqn:Nz; [|reflexivity]. exfalso.
    apply (proj1 (all_nz_true _ _ _) Nz 0%nat a Hm Ha). unfold w_den. rewrite (rsum_ext n _ (fun _ => 0)); [rewrite rsum_const; ring|].
    intros j Hj. rewrite Zx by assumption. ring. }
  destruct Z as [Z|[-> Z]].
  - destruct hold; [rewrite NW by exact Z; reflexivity|]. unfold h_step. destruct (all_nz k n _); [|reflexivity].
    rewrite NW; [reflexivity|]. intros j Hj. rewrite Z by assumption. ring.
  - unfold h_step. destruct (all_nz k n _) eqn:Nz; [|reflexivity]. exfalso.
    apply (proj1 (all_nz_true _ _ _) Nz a 0%nat Ha Hn). unfold h_den. rewrite (rsum_ext m _ (fun _ => 0)); [rewrite rsum_const; ring|].
    intros i Hi. rewrite Z by assumption. ring.
Qed.
Print Assumptions C144_zero_factor_breaks.

(** WS-NMF: with two proportional profiles, or one that is zero, no sample's normal matrix
    has an inverse. *)
Theorem C144_ws_singular :
  forall (n k : nat) (U H : mat) (i a b : nat) (q : R), (a < k)%nat -> (b < k)%nat -> a <> b ->
  (forall j, (j < n)%nat -> H b j = q * H a j) ->
  forall B, ~ inverse_of k (ws_wd n (weights U) H i) B.
Proof.
  intros n k U H i a b q Ha Hb Ne EH B [I1 _].
  pose proof (I1 b b Hb Hb) as E1. pose proof (I1 a b Ha Hb) as E2. rewrite Nat.eqb_refl in E1. destruct (Nat.eqb_spec a b) as [X|_]; [contradiction|].
  assert (E : mmul k (ws_wd n (weights U) H i) B b b = q * mmul k (ws_wd n (weights U) H i) B a b).
  { unfold mmul. rewrite <- rsum_scal_l. apply rsum_ext. intros x Hx. rewrite <- Rmult_assoc. f_equal. unfold ws_wd. rewrite <- rsum_scal_l.
    apply rsum_ext. intros j Hj. rewrite EH by assumption. ring. }
  rewrite E1, E2 in E. lra.
Qed.
Print Assumptions C144_ws_singular.

(** One factor of two split into two unequal parts, in a run that converges. *)
Example C144_instance :
  split 3 2 (Nat.min 1) (fun a => match a with O => 1 | 1%nat => 1 / 3 | _ => 4 / 3 end) (fun a => match a with O => 1 | 1%nat => 2 | _ => 1 / 4 end) /\
  exists (max_iter : Z) (W1 H1 : mat), let r := ls_rust_train 3 2 2 rp_V rp_Us (1 / 10) 2 false (-1) (fun _ => false) max_iter One One in
    rr_conv r = true /\ rr_state r = Some (W1, H1).
Proof.
  split.
  - split.
    + intros a Ha. split; [lia|]. destruct a as [|[|a]]; split; lra.
    + intros b Hb. destruct b as [|[|b]]; [cbn; lra|cbn; lra|lia].
  - destruct C143_instance as (C1 & C2 & _ & _ & HU' & _).
    assert (exists K, q_loss 3 2 2 true rp_V rp_Us One One * 10 < INR K) as [K HK].
    { set (x := q_loss _ _ _ _ _ _ _ _ * 10). exists (Z.to_nat (up x)). rewrite INR_IZR_INZ. pose proof (archimed x) as [Ax _].
      apply (Rlt_le_trans _ _ _ Ax), IZR_le. lia. }
    exists (Z.of_nat (K * span 2) + 1)%Z.
    assert (HV : mall 3 2 (fun x => 0 <= x) rp_V) by (intros i j _ _; apply pos_INR).
    assert (NE : no_empty 3 2 rp_V) by (split; intros i Hi; exists 0%nat; (split; [lia|unfold rp_V; apply lt_0_INR; lia])).
    assert (HU : mall 3 2 (fun u => u <> 0) rp_Us).
    { intros i j Hi Hj. unfold rp_Us. assert (P : 0 < sqrt (INR (times_in 6 rp_s i) * INR (times_in 3 rp_p j))).
      { apply sqrt_lt_R0, Rmult_lt_0_compat; [apply (times_pos 6 3)|apply (times_pos 3 2)]; assumption. }
      unfold Rdiv. apply Rmult_integral_contrapositive. split; [apply (HU' i j Hi Hj)|apply Rinv_neq_0_compat; lra]. }
    assert (P1 : forall a b, mall a b (fun x => 0 < x) One) by (intros a b i j _ _; unfold One; lra).
    assert (D2 : q_loss 3 2 2 true rp_V rp_Us One One < INR K * (1 / 10)) by lra.
    assert (D3 : (Z.of_nat (K * span 2) < Z.of_nat (K * span 2) + 1)%Z) by lia.
    destruct (ls_rust_converges 3 2 2 rp_V rp_Us (1 / 10) 2 false (-1) One One (Nat.lt_0_succ _) (Nat.lt_0_succ _) (Nat.lt_0_succ _) HV NE HU (P1 _ _) (P1 _ _)
      (fun _ => false) (Z.of_nat (K * span 2) + 1)%Z K D2 D3) as (A & _ & W1 & H1 & B & _).
    exists W1, H1. split; assumption.
Qed.
(** The start of ones of the run above: both factors proportional. *)
Example C144_twins_instance :
  exists W' H', ls_iter 2 2 2 (fun _ _ => 1) (fun _ _ => 1) (fun _ => false) 0 1 (fun _ a => INR (1 + a), fun a _ => INR (1 + 2 * a)) = Some (W', H').
Proof.
  destruct (ls_iter_pos 2 2 2 (fun _ _ => 1) (fun _ _ => 1) (fun _ => false) 1 0%nat (fun _ a => INR (1 + a)) (fun a _ => INR (1 + 2 * a))) as (W' & H' & E & _).
  all: try lia. all: try (intros i j _ _; first [lra | apply lt_0_INR; lia]).
  - split; intros; exists 0%nat; (split; [lia|lra]).
  - exists W', H'. exact E.
Qed.

Definition xsp_c (a : nat) : R := match a with O => 1 | 1%nat => 1 / 3 | _ => 4 / 3 end.
Definition xsp_e (a : nat) : R := match a with O => 1 | 1%nat => 2 | _ => 1 / 4 end.
Example C144_split_factors_example :=
  C144_split_factors 3 2 2 3 (Nat.min 1) xsp_c xsp_e rp_V rp_Us One One (1 / 10) 2 false (-1) (fun _ => false) 50 (proj1 C144_instance).
Example C144_split_factors_python_example :=
  C144_split_factors_python 3 2 2 3 (Nat.min 1) xsp_c xsp_e rp_V rp_Us One One (1 / 10) 2 false (-1) 50 (proj1 C144_instance).
Example C144_twins_stay_twins_example : exists W' H' : mat,
  ls_iter 2 2 2 (fun _ _ => 1) (fun _ _ => 1) (fun _ => false) 0 1 (fun _ a => INR (1 + a), fun a _ => INR (1 + 2 * a)) = Some (W', H') /\
  forall i, (i < 2)%nat -> W' i 1%nat = 2 * W' i 0%nat.
Proof.
  destruct C144_twins_instance as (W' & H' & E). exists W', H'. split; [exact E |].
  refine (proj1 (C144_twins_stay_twins 2 2 2 (fun _ _ => 1) (fun _ _ => 1) 0 1 2 3 (fun _ => false) 1 0 _ _ W' H' ltac:(lia) ltac:(lia) _ _ E)); intros; cbn; lra.
Qed.
Example C144_zero_factor_breaks_example :=
  C144_zero_factor_breaks 2 2 2 (fun _ _ => 1) (fun _ _ => 1) One (fun a _ => INR a) false 0 ltac:(lia) ltac:(lia) ltac:(lia) (or_introl (fun _ _ => eq_refl)).
Example C144_ws_singular_example :=
  C144_ws_singular 2 2 One (fun a j => INR (1 + a) * INR j) 0 0 1 2 ltac:(lia) ltac:(lia) ltac:(lia) ltac:(intros; cbn; lra).
