(** C127: the simulator's own source apportionment and the arrays it shares. *)
From Coq Require Import List Bool ZArith Reals Lra Lia.
From Verif Require Import Base Fl Metrics_Model Metrics_Spec Metrics_Proofs Boot_Model Constr_Model Sim_Model Sim_Props SimSA_Model.
Import ListNotations.
Local Open Scope R_scope.

(** ** What get_data leaves in syn_sa *)
Theorem C127_truth_sa : forall (m n k : nat) (p : params) (w : world) (d : cell_draws), outliers p = false \/ outlier_mag p <> 0 ->
  let W := w_store w (w_W w) in let H := w_store w (w_H w) in
  exists w' T V U, step m n k p w (GetData d) = Ok w' /\ w_sa w' = Some T /\ w_store w' = w_store w /\ w_W w' = w_W w /\ w_H w' = w_H w /\
    (forall t j, gen_data k p W H d t j = Fin (V t j) /\ gen_unc k p W H d t j = Fin (U t j)) /\
    t_W T = w_W w /\ t_H T = w_H w /\ t_V T = V /\ (forall t j, t_U T t j = Rmax (U t j) (/ 10 ^ 12)) /\
    (forall t j, t_WH T t j = rsum k (fun f => W t f * H f j)) /\
    t_Qt T = msum m n (fun t j => Rsqr ((V t j - rsum k (fun f => W t f * H f j)) / t_U T t j)) /\
    exists q u, t_Qr T = QPair q u /\ q = msum m n (fun t j => let s := Rabs ((V t j - rsum k (fun f => W t f * H f j)) / t_U T t j) in if Rlt_dec 4 s then 4 * s else s * s).
Proof.
  intros m n k p w d Hp W H. set (V := fun t j => num (gen_data k p W H d t j)). set (U := fun t j => num (gen_unc k p W H d t j)).
  set (U' := fun t j => if Rlt_dec (U t j) EPS then EPS else U t j).
  assert (EU : forall t j, U' t j = Rmax (U t j) (/ 10 ^ 12)).
  { intros t j. unfold U', EPS. destruct (Rlt_dec (U t j) (/ 10 ^ 12)); [rewrite Rmax_right by lra; reflexivity|rewrite Rmax_left by lra; reflexivity]. }
  assert (UP : mall m n (fun u => 0 < u) U') by (intros t j _ _; rewrite EU; apply Rlt_le_trans with (/ 10 ^ 12); [apply Rinv_0_lt_compat, pow_lt; lra|apply Rmax_r]).
  eexists _, _, V, U. split; [reflexivity|]. split; [reflexivity|]. split; [reflexivity|]. split; [reflexivity|]. split; [reflexivity|]. split.
  { intros t j. destruct (C54_positive k p W H d t j Hp) as [(v & Ev & _) (u & Eu & _)]. unfold V, U. rewrite Ev, Eu. split; reflexivity. }
  split; [reflexivity|]. split; [reflexivity|]. split; [reflexivity|]. split; [exact EU|]. split; [reflexivity|]. split.
  - cbn [t_Qt t_U]. unfold q_loss. apply msum_ext. intros t j _ _. unfold resid, mmul, Rsqr. reflexivity.
  - eexists _, _. split; [reflexivity|]. transitivity (qr_loss m n k 4 V U' W H); [reflexivity|]. rewrite (qr_loss_spec m n k 4 V U' W H UP) by lra. apply msum_ext. intros t j Ht Hj.
    assert (E : cell_resid k V U' W H t j = Rabs ((V t j - rsum k (fun f => W t f * H f j)) / U' t j)).
    { unfold cell_resid. pose proof (UP t j Ht Hj) as UPt. unfold Rdiv. rewrite Rabs_mult, (Rabs_pos_eq (/ U' t j)) by (left; apply Rinv_0_lt_compat; exact UPt). reflexivity. }
    rewrite E. cbv zeta. cbn [t_U]. fold (U' t j). unfold robust_cell. set (x := Rabs _). change (if Rlt_dec (U t j) EPS then EPS else U t j) with (U' t j).
    fold x. destruct (Rle_dec x 4), (Rlt_dec 4 x); lra.
Qed.
Print Assumptions C127_truth_sa.

(** ** The loss of the truth does not depend on the truth *)
(** What a cell of the product is multiplied by: noise, then an outlier. *)
Definition draw_factor (p : params) (d : cell_draws) (t j : nat) : R :=
  (1 + (if Rlt_dec (cd_sign d t j) (1 / 2) then - cd_noise d t j else cd_noise d t j)) *
  (if outliers p then
     if Rlt_dec (cd_outlier d t j) (outlier_p p / 2) then outlier_mag p
     else if Rlt_dec (1 - outlier_p p / 2) (cd_outlier d t j) then / outlier_mag p else 1
   else 1).

Lemma data_value k p W H d t j : (outliers p = false \/ (0 <= outlier_p p <= 1 /\ outlier_mag p <> 0)) ->
  let v := rsum k (fun f => W t f * H f j) * draw_factor p d t j in 0 < v -> gen_data k p W H d t j = Fin v.
Proof.
  intros Hp v Hv. unfold gen_data, data_cell. fold (mmul k W H t j) in v. set (wh := mmul k W H t j) in *.
  set (c := if Rlt_dec (cd_sign d t j) (1 / 2) then - cd_noise d t j else cd_noise d t j).
  assert (N : with_noise wh (cd_noise d t j) (cd_sign d t j) = wh * (1 + c)).
  { unfold with_noise, Rltb, c. cbv zeta. destruct (Rlt_dec (cd_sign d t j) (1 / 2)); ring. }
  assert (E : with_outliers p (wh * (1 + c)) (cd_outlier d t j) = Fin v).
  { unfold v, draw_factor. fold c. destruct (outliers p) eqn:Eo.
    - destruct Hp as [Hp|[Hp Hm]]; [discriminate|]. destruct (C54_outliers p (wh * (1 + c)) (cd_outlier d t j) Eo Hp Hm) as (A & B & C).
      destruct (Rlt_dec (cd_outlier d t j) (outlier_p p / 2)); [rewrite A by assumption; f_equal; ring|].
      destruct (Rlt_dec (1 - outlier_p p / 2) (cd_outlier d t j)); [rewrite B by assumption; f_equal; unfold Rdiv; ring|]. rewrite C by lra. f_equal. ring.
    - unfold with_outliers. rewrite Eo. f_equal. ring. }
  rewrite N, E. unfold positive. cbn [fle]. rewrite (proj2 (Rleb_false _ 0)) by exact Hv. reflexivity.
Qed.

(** Whenever no cell is clipped, each cell's scaled residual is a function of its draws
    alone, and so are both losses. *)
Theorem C127_Q_of_truth : forall (m n k : nat) (p : params) (w : world) (d : cell_draws), (outliers p = false \/ (0 <= outlier_p p <= 1 /\ outlier_mag p <> 0)) ->
  let W := w_store w (w_W w) in let H := w_store w (w_H w) in let g := draw_factor p d in
  (forall t j, (t < m)%nat -> (j < n)%nat -> 0 < rsum k (fun f => W t f * H f j) /\ 0 < g t j /\ 0 < cd_unc d t j /\ / 10 ^ 12 <= rsum k (fun f => W t f * H f j) * g t j * cd_unc d t j) ->
  exists w' T q u, step m n k p w (GetData d) = Ok w' /\ w_sa w' = Some T /\ t_Qr T = QPair q u /\
    t_Qt T = msum m n (fun t j => Rsqr ((1 - / g t j) / cd_unc d t j)) /\
    q = msum m n (fun t j => let s := Rabs ((1 - / g t j) / cd_unc d t j) in if Rlt_dec 4 s then 4 * s else s * s).
Proof.
  intros m n k p w d Hp W H g Hc. assert (Hp' : outliers p = false \/ outlier_mag p <> 0) by tauto.
  destruct (C127_truth_sa m n k p w d Hp') as (w' & T & V & U & E1 & E2 & _ & _ & _ & E3 & _ & _ & E4 & E5 & _ & E6 & q & u & E7 & E8). fold W H in E3, E6, E8.
  exists w', T, q, u. split; [exact E1|]. split; [exact E2|]. split; [exact E7|].
  assert (Cell : forall t j, (t < m)%nat -> (j < n)%nat -> (V t j - rsum k (fun f => W t f * H f j)) / t_U T t j = (1 - / g t j) / cd_unc d t j).
  { intros t j Ht Hj. destruct (Hc t j Ht Hj) as (A & B & C & D). set (wh := rsum k (fun f => W t f * H f j)) in *.
    assert (P : 0 < wh * g t j) by (apply Rmult_lt_0_compat; assumption). pose proof (data_value k p W H d t j Hp P) as Ev. destruct (E3 t j) as [Ev' Eu']. fold wh g in Ev.
    assert (EV : V t j = wh * g t j) by congruence. destruct (C54_uncertainty k p W H d t j Hp') as (v & Ev2 & Eu2). destruct (Rlt_dec 0 (cd_unc d t j)); [|contradiction].
    assert (EUu : U t j = wh * g t j * cd_unc d t j) by congruence. rewrite E5, EUu, Rmax_left by exact D. rewrite EV. field. repeat split; lra. }
  split.
  - rewrite E6. apply msum_ext. intros t j Ht Hj. rewrite Cell by assumption. reflexivity.
  - rewrite E8. apply msum_ext. intros t j Ht Hj. cbv zeta. rewrite Cell by assumption. reflexivity.
Qed.
Print Assumptions C127_Q_of_truth.

(** ** What the truth's SA becomes while the program goes on *)
Definition is_get_data (o : op) : bool := match o with GetData _ => true | _ => false end.

Lemma step_sa m n k p w o w' : is_get_data o = false -> step m n k p w o = Ok w' -> w_sa w' = w_sa w /\ w_W w' = w_W w.
Proof.
  intros Ho E. destruct o as [d|d r c l|f c sc fr mx mn un z|d|l M]; cbn [step] in E; [| | |discriminate|].
  - destruct (generate_profiles k n d None); [|discriminate]. injection E as <-. split; reflexivity.
  - destruct (generate_profiles k n d _); [|discriminate]. destruct (_ && _)%bool; injection E as <-; split; reflexivity.
  - destruct (update_contribution _ _ _ _ _ _ _ _ _ _ _); [|discriminate]. injection E as <-. split; reflexivity.
  - injection E as <-. split; reflexivity.
Qed.
(** Data, uncertainties, product and losses are those of the last get_data, and the SA
    keeps the same two arrays, whatever else is called. *)
Theorem C127_until_next_data : forall (m n k : nat) (p : params) (w w' : world) (l : list op), (forall o, In o l -> is_get_data o = false) -> run m n k p w l = Ok w' ->
  w_sa w' = w_sa w.
Proof.
  intros m n k p w w' l. revert w. induction l as [|o l IH]; intros w Hl E; cbn [run] in E; [injection E as <-; reflexivity|].
  destruct (step m n k p w o) as [w1|] eqn:S1; [|discriminate]. destruct (step_sa m n k p w o w1) as [A _]; [apply Hl; left; reflexivity|exact S1|].
  rewrite (IH w1); [exact A| |exact E]. intros o' Ho'. apply Hl. right. exact Ho'.
Qed.
Print Assumptions C127_until_next_data.

(** The contributions of the truth's SA are at all times the very array of the simulator,
    so every update_contribution changes both; its profiles are the simulator's until
    generate_profiles is called. *)
Definition is_profiles (o : op) : bool := match o with NewProfiles _ | CustomProfiles _ _ _ _ => true | _ => false end.
Theorem C127_shared_contributions : forall (m n k : nat) (p : params) (W : mat) (d : profile_draws) (h : nat -> mat) (next : nat) (w0 w : world) (l : list op),
  start k n W d h next = Ok w0 -> run m n k p w0 l = Ok w -> forall T, w_sa w = Some T -> t_W T = w_W w.
Proof.
  intros m n k p W d h next w0 w l E0 E. assert (I0 : forall T, w_sa w0 = Some T -> t_W T = w_W w0).
  { unfold start in E0. destruct (generate_profiles k n d None); [|discriminate]. injection E0 as <-. discriminate. }
  clear E0. revert w0 I0 E. induction l as [|o l IH]; intros w0 I0 E; cbn [run] in E; [injection E as <-; exact I0|].
  destruct (step m n k p w0 o) as [w1|] eqn:S1; [|discriminate]. apply (IH w1); [|exact E]. destruct (is_get_data o) eqn:G.
  - destruct o; try discriminate. cbn in S1. injection S1 as <-. intros T [= <-]. reflexivity.
  - destruct (step_sa _ _ _ _ _ _ _ G S1) as [A B]. rewrite A, B. exact I0.
Qed.
Print Assumptions C127_shared_contributions.

Theorem C127_shared_profiles : forall (m n k : nat) (p : params) (w w1 w2 : world) (d : cell_draws) (l : list op), step m n k p w (GetData d) = Ok w1 -> run m n k p w1 l = Ok w2 ->
  (forall o, In o l -> is_profiles o = false) -> forall T, w_sa w2 = Some T -> t_H T = w_H w2 /\ w_H w2 = w_H w.
Proof.
  intros m n k p w w1 w2 d l E1 E2 Hl. assert (I1 : (forall T, w_sa w1 = Some T -> t_H T = w_H w1) /\ w_H w1 = w_H w) by (cbn in E1; injection E1 as <-; split; [intros T [= <-]; reflexivity|reflexivity]).
  clear E1. revert w1 I1 E2 Hl. induction l as [|o l IH]; intros w1 [I1 I2] E2 Hl T ET; cbn [run] in E2.
  - injection E2 as <-. split; [apply I1, ET|exact I2].
  - destruct (step m n k p w1 o) as [w3|] eqn:S3; [|discriminate]. apply (IH w3); [|exact E2| |exact ET]; [|intros o' Ho'; apply Hl; right; exact Ho'].
    specialize (Hl o (or_introl eq_refl)). destruct o as [d'|d' r c l'|f c sc fr mx mn un z|d'|l' M]; try discriminate; cbn [step] in S3.
    + destruct (update_contribution _ _ _ _ _ _ _ _ _ _ _); [|discriminate]. injection S3 as <-. split; [exact I1|exact I2].
    + injection S3 as <-. split; [intros T' [= <-]; reflexivity|exact I2].
    + injection S3 as <-. split; [exact I1|exact I2].
Qed.
Print Assumptions C127_shared_profiles.

(** The SA stays consistent, its product that of its two arrays, as long as no
    contribution is updated and nobody writes into those arrays. *)
Definition leaves_alone (k n : nat) (T : truth_sa) (o : op) : Prop :=
  match o with
  | NewProfiles _ => True
  | CustomProfiles _ rows cols l => (rows = k /\ cols = n) -> l <> t_W T /\ l <> t_H T
  | Contribution _ _ _ _ _ _ _ _ => False
  | GetData _ => False
  | Edit l _ => l <> t_W T /\ l <> t_H T
  end.
Theorem C127_stays_consistent : forall (m n k : nat) (p : params) (w w' : world) (T : truth_sa) (l : list op), w_sa w = Some T -> (t_W T < w_next w)%nat -> (t_H T < w_next w)%nat ->
  (forall t j, t_WH T t j = rsum k (fun f => w_store w (t_W T) t f * w_store w (t_H T) f j)) ->
  (forall o, In o l -> leaves_alone k n T o) -> run m n k p w l = Ok w' ->
  w_sa w' = Some T /\ forall t j, t_WH T t j = rsum k (fun f => w_store w' (t_W T) t f * w_store w' (t_H T) f j).
Proof.
  intros m n k p w w' T l. revert w. induction l as [|o l IH]; intros w ET LW LH C Hl E; cbn [run] in E; [injection E as <-; split; assumption|].
  destruct (step m n k p w o) as [w1|] eqn:S1; [|discriminate].
  assert (G : w_sa w1 = Some T /\ (w_next w <= w_next w1)%nat /\ w_store w1 (t_W T) = w_store w (t_W T) /\ w_store w1 (t_H T) = w_store w (t_H T)).
  { pose proof (Hl o (or_introl eq_refl)) as Ho. destruct o as [d|d r c l'|f c sc fr mx mn un z|d|l' M]; cbn [leaves_alone step] in *; try contradiction.
    - destruct (generate_profiles k n d None); [|discriminate]. injection S1 as <-. cbn [w_sa w_next w_store]. unfold put. rewrite !(proj2 (Nat.eqb_neq _ _)) by lia. repeat split; [exact ET|lia].
    - destruct (generate_profiles k n d _); [|discriminate]. destruct ((r =? k) && (c =? n))%nat eqn:Eq; injection S1 as <-; cbn [w_sa w_next w_store]; unfold put.
      + apply andb_true_iff in Eq. rewrite !Nat.eqb_eq in Eq. destruct (Ho Eq) as [H1 H2]. rewrite !(proj2 (Nat.eqb_neq _ _)) by congruence. repeat split; [exact ET|lia].
      + rewrite !(proj2 (Nat.eqb_neq _ _)) by lia. repeat split; [exact ET|lia].
    - injection S1 as <-. cbn [w_sa w_next w_store]. unfold put. rewrite !(proj2 (Nat.eqb_neq _ _)) by (destruct Ho; congruence). repeat split; [exact ET|lia]. }
  destruct G as (G1 & G2 & G3 & G4). apply (IH w1); [exact G1|lia|lia| |intros o' Ho'; apply Hl; right; exact Ho'|exact E].
  intros t j. rewrite G3, G4. apply C.
Qed.
Print Assumptions C127_stays_consistent.

(** In a program that starts with a new simulator. *)
Lemma in_use m n k p w o w' : (w_W w < w_next w)%nat /\ (w_H w < w_next w)%nat -> step m n k p w o = Ok w' -> (w_W w' < w_next w')%nat /\ (w_H w' < w_next w')%nat.
Proof.
  intros [A B] E. destruct o as [d|d r c l|f c sc fr mx mn un z|d|l M]; cbn [step] in E.
  - destruct (generate_profiles k n d None); [|discriminate]. injection E as <-. cbn. lia.
  - destruct (generate_profiles k n d _); [|discriminate]. destruct (_ && _)%bool; injection E as <-; cbn; lia.
  - destruct (update_contribution _ _ _ _ _ _ _ _ _ _ _); [|discriminate]. injection E as <-. cbn. lia.
  - injection E as <-. cbn. lia.
  - injection E as <-. cbn. lia.
Qed.
Theorem C127_consistent_program : forall (m n k : nat) (p : params) (W : mat) (pd : profile_draws) (h : nat -> mat) (next : nat) (w0 w1 w2 w3 : world) (before after : list op) (d : cell_draws),
  start k n W pd h next = Ok w0 -> run m n k p w0 before = Ok w1 -> step m n k p w1 (GetData d) = Ok w2 -> run m n k p w2 after = Ok w3 ->
  exists T, w_sa w2 = Some T /\ ((forall o, In o after -> leaves_alone k n T o) ->
    w_sa w3 = Some T /\ forall t j, t_WH T t j = rsum k (fun f => w_store w3 (t_W T) t f * w_store w3 (t_H T) f j)).
Proof.
  intros m n k p W pd h next w0 w1 w2 w3 before after d E0 E1 E2 E3.
  assert (B0 : (w_W w0 < w_next w0)%nat /\ (w_H w0 < w_next w0)%nat) by (unfold start in E0; destruct (generate_profiles k n pd None); [|discriminate]; injection E0 as <-; cbn; lia). clear E0.
  assert (B1 : (w_W w1 < w_next w1)%nat /\ (w_H w1 < w_next w1)%nat).
  { clear E2 E3. revert w0 B0 E1. induction before as [|o l IH]; intros w0 B0 E1; cbn [run] in E1; [injection E1 as <-; exact B0|].
    destruct (step m n k p w0 o) as [wx|] eqn:Sx; [|discriminate]. apply (IH wx); [exact (in_use _ _ _ _ _ _ _ B0 Sx)|exact E1]. }
  cbn [step] in E2. injection E2 as <-. eexists. split; [reflexivity|]. intros Ho. apply (C127_stays_consistent m n k p _ w3 _ after) with (6 := E3); cbn; [reflexivity|apply B1|apply B1|reflexivity|exact Ho].
Qed.
Print Assumptions C127_consistent_program.

(** ** Custom profiles of the right shape are not copied *)
Theorem C127_custom_profiles : forall (m n k : nat) (p : params) (w : world) (d : profile_draws) (l : nat),
  exists w1, step m n k p w (CustomProfiles d k n l) = Ok w1 /\ w_H w1 = l /\
    (forall f j, w_store w1 l f j = if Rlt_dec 0 (w_store w l f j) then w_store w l f j else / 1000000000000) /\ (forall q, q <> l -> w_store w1 q = w_store w q) /\
    forall M w2, step m n k p w1 (Edit l M) = Ok w2 -> w_store w2 (w_H w2) = M.
Proof.
  intros m n k p w d l. eexists. cbn [step]. unfold generate_profiles. cbn [cu_rows cu_cols cu_val]. rewrite !Nat.eqb_refl. cbn [andb]. split; [reflexivity|]. cbn [w_H w_store]. split; [reflexivity|]. split; [|split].
  - intros f j. unfold put. rewrite Nat.eqb_refl. unfold clamp_tiny, tiny, Rleb. destruct (Rle_dec (w_store w l f j) 0), (Rlt_dec 0 (w_store w l f j)); try lra; reflexivity.
  - intros q Hq. unfold put. rewrite (proj2 (Nat.eqb_neq _ _)) by exact Hq. reflexivity.
  - intros M w2 [= <-]. cbn [w_H w_store]. unfold put. rewrite Nat.eqb_refl. reflexivity.
Qed.
Print Assumptions C127_custom_profiles.

(** ** A simulator of two factors, one feature and one sample *)
Definition x_draws : profile_draws := mkPD (fun _ => 1%nat) (fun _ => [0%nat]) (fun _ _ => / 2).
Definition x_params := mkParams false 0 1.
Definition x_cells := mkCD (fun _ _ => / 4) (fun _ _ => 1) (fun _ _ => 0) (fun _ _ => / 10).
Definition x_world := mkWorld (fun l => match l with 1%nat => (fun f _ => if (f =? 0)%nat then / 2 else / 1000000000000) | 0%nat => (fun _ _ => 1) | _ => (fun _ _ => 0) end) 3 0 1 None.

Example C127_instance : exists w' T q u, step 1 1 2 x_params x_world (GetData x_cells) = Ok w' /\ w_sa w' = Some T /\ t_Qr T = QPair q u /\ t_Qt T = 4 /\ q = 4.
Proof.
  assert (G : draw_factor x_params x_cells 0 0 = 5 / 4) by (unfold draw_factor; cbn [outliers x_params cd_sign cd_noise x_cells]; destruct (Rlt_dec 1 (1 / 2)); lra).
  destruct (C127_Q_of_truth 1 1 2 x_params x_world x_cells) as (w' & T & q & u & E1 & E2 & E3 & E4 & E5); [left; reflexivity| |].
  - intros t j Ht Hj. replace t with 0%nat by lia. replace j with 0%nat by lia. rewrite G. cbn [x_world w_store w_W w_H rsum Nat.eqb cd_unc x_cells]. repeat split; lra.
  - exists w', T, q, u. unfold msum in E4, E5. cbn [rsum] in E4, E5. rewrite G in E4, E5. cbn [cd_unc x_cells] in E4, E5.
    assert (X : (1 - / (5 / 4)) / / 10 = 2) by field. rewrite X in E4, E5. rewrite Rabs_pos_eq in E5 by lra. repeat split; try assumption; [rewrite E4; unfold Rsqr; ring|].
    rewrite E5. destruct (Rlt_dec 4 2); lra.
Qed.

(** Not so: the truth's SA is consistent at all times. *)
Theorem C127_product_of_truth_refuted : exists (w' : world) (T : truth_sa), run 1 1 2 x_params x_world [GetData x_cells; Contribution 0 Increasing 0 1 6 5 (fun _ => 0) (fun _ => 0)] = Ok w' /\
  w_sa w' = Some T /\ t_WH T 0%nat 0%nat <> rsum 2 (fun f => w_store w' (t_W T) 0%nat f * w_store w' (t_H T) f 0%nat).
Proof.
  assert (U : exists s, update_contribution 1 2 (mkSim (w_store x_world 0%nat) (w_store x_world 1%nat) None) 0 Increasing 0 1 6 5 (fun _ => 0) (fun _ => 0) = Ok s /\ s_W s 0%nat 0%nat = 5 /\ s_W s 0%nat 1%nat = 1).
  { unfold update_contribution, curve_values, curve_bounds. unfold Rltb. destruct (Rlt_dec 6 5); [lra|]. unfold Reqb. destruct (Req_EM_T 5 6); [lra|]. cbn.
    destruct (Rlt_dec 0 0); [lra|]. eexists. split; [reflexivity|]. cbn. unfold noisy. change (Pos.to_nat 1) with 1%nat. cbn. unfold Rleb. match goal with |- context [Rle_dec ?a 0] => replace a with 5 by field end. destruct (Rle_dec 5 0); split; lra. }
  destruct U as (s & U1 & U2 & U3). eexists _, _. split; [cbn [run step]; unfold create_sa; cbn [w_store w_W w_H]; change (w_W x_world) with 0%nat; change (w_H x_world) with 1%nat; rewrite U1; reflexivity|].
  split; [reflexivity|]. cbn [t_WH t_W t_H w_store]. unfold mmul, put. cbn [Nat.eqb rsum]. rewrite U2, U3. cbn. intros X. lra.
Qed.
Print Assumptions C127_product_of_truth_refuted.
Example C127_truth_sa_example := C127_truth_sa 1 1 2 x_params x_world x_cells ltac:(left; reflexivity).
Lemma xss_get : exists w', step 1 1 2 x_params x_world (GetData x_cells) = Ok w'.
Proof. destruct C127_instance as (w' & T & q & u & E & _). exists w'. exact E. Qed.
Example C127_until_next_data_example : forall w', run 1 1 2 x_params x_world [Edit 1 (fun _ _ => 2); NewProfiles x_draws] = Ok w' -> w_sa w' = None.
Proof. intros w' E. refine (C127_until_next_data _ _ _ _ x_world w' _ _ E). intros o [<- | [<- | []]]; reflexivity. Qed.
Lemma xss_start : exists w0, start 2 1 (fun _ _ => 1) x_draws (fun _ _ _ => 0) 0 = Ok w0.
Proof. eexists. reflexivity. Qed.
Example C127_shared_contributions_example : exists w0 w T, start 2 1 (fun _ _ => 1) x_draws (fun _ _ _ => 0) 0 = Ok w0 /\
  run 1 1 2 x_params w0 [GetData x_cells; NewProfiles x_draws] = Ok w /\ w_sa w = Some T /\ t_W T = w_W w.
Proof.
  eexists _, _, _. split; [reflexivity |]. split; [reflexivity |]. split; [reflexivity |].
  eapply (C127_shared_contributions 1 1 2 x_params (fun _ _ => 1) x_draws (fun _ _ _ => 0) 0 _ _ [GetData x_cells; NewProfiles x_draws]); reflexivity.
Qed.
Example C127_shared_profiles_example : exists w1 w2 T, step 1 1 2 x_params x_world (GetData x_cells) = Ok w1 /\
  run 1 1 2 x_params w1 [Edit 1 (fun _ _ => 2)] = Ok w2 /\ w_sa w2 = Some T /\ t_H T = w_H w2.
Proof.
  eexists _, _, _. split; [reflexivity |]. split; [reflexivity |]. split; [reflexivity |].
  refine (proj1 (C127_shared_profiles 1 1 2 x_params x_world _ _ x_cells [Edit 1 (fun _ _ => 2)] eq_refl eq_refl _ _ eq_refl)). intros o [<- | []]. reflexivity.
Qed.
Example C127_consistent_program_example : forall w0 w2 w3, start 2 1 (fun _ _ => 1) x_draws (fun _ _ _ => 0) 0 = Ok w0 ->
  step 1 1 2 x_params w0 (GetData x_cells) = Ok w2 -> run 1 1 2 x_params w2 [NewProfiles x_draws] = Ok w3 -> w_sa w3 = w_sa w2.
Proof.
  intros w0 w2 w3 E0 E2 E3.
  destruct (C127_consistent_program 1 1 2 x_params (fun _ _ => 1) x_draws (fun _ _ _ => 0) 0 w0 w0 w2 w3 [] [NewProfiles x_draws] x_cells E0 eq_refl E2 E3) as (T & E & K).
  rewrite E. apply K. intros o [<- | []]. exact I.
Qed.
Example C127_consistent_program_runs : exists w0 w2 w3, start 2 1 (fun _ _ => 1) x_draws (fun _ _ _ => 0) 0 = Ok w0 /\
  step 1 1 2 x_params w0 (GetData x_cells) = Ok w2 /\ run 1 1 2 x_params w2 [NewProfiles x_draws] = Ok w3.
Proof. eexists _, _, _. split; [reflexivity |]. split; reflexivity. Qed.
Definition xss_w1 : world := match step 1 1 2 x_params x_world (GetData x_cells) with Ok w => w | Raise _ => x_world end.
Definition xss_T : truth_sa := match w_sa xss_w1 with Some T => T | None => mkTSA (fun _ _ => 0) (fun _ _ => 0) 0 0 (fun _ _ => 0) (QNumber 0) 0 end.
Example C127_stays_consistent_example : forall w', run 1 1 2 x_params xss_w1 [NewProfiles x_draws] = Ok w' -> w_sa w' = Some xss_T.
Proof.
  intros w' E. refine (proj1 (C127_stays_consistent 1 1 2 x_params xss_w1 w' xss_T [NewProfiles x_draws] eq_refl _ _ _ _ E)); [cbn; lia | cbn; lia | reflexivity |].
  intros o [<- | []]. exact I.
Qed.
Example C127_custom_profiles_example := C127_custom_profiles 1 1 2 x_params x_world x_draws 2.

(** Not so: generate_profiles leaves the caller's matrix as it was. *)
Theorem C127_custom_profiles_untouched_refuted : exists w1, step 1 1 2 x_params x_world (CustomProfiles x_draws 2 1 2) = Ok w1 /\ w_store x_world 2%nat 0%nat 0%nat = 0 /\ w_store w1 2%nat 0%nat 0%nat <> 0.
Proof.
  destruct (C127_custom_profiles 1 1 2 x_params x_world x_draws 2) as (w1 & E & _ & S1 & _). exists w1. split; [exact E|]. split; [reflexivity|]. rewrite S1. cbn. intros X. destruct (Rlt_dec 0 0); lra.
Qed.
Print Assumptions C127_custom_profiles_untouched_refuted.

(** Not so: the summary of the truth's SA can be printed.  It raises for every simulator. *)
Theorem C127_summary_of_truth_refuted : forall (m n k : nat) (p : params) (w w' : world) (d : cell_draws), step m n k p w (GetData d) = Ok w' -> exists T, w_sa w' = Some T /\ summary_of m n T = TypeErr.
Proof. intros m n k p w w' d E. cbn in E. injection E as <-. eexists. split; reflexivity. Qed.
Print Assumptions C127_summary_of_truth_refuted.

(** For a trained model the two averages printed are those of the cells: the average
    times samples times features is Q, and it lies within any bounds all cells keep. *)
Theorem C127_summary_averages : forall (m n : nat) (e r : mat), (0 < m)%nat -> (0 < n)%nat ->
  exists a b, summary m n (Some (msum m n e, QNumber (msum m n r))) = Printed (msum m n e) (msum m n r) a b /\
    a * INR m * INR n = msum m n e /\ b * INR m * INR n = msum m n r /\
    forall lo hi, (forall i j, (i < m)%nat -> (j < n)%nat -> lo <= e i j <= hi /\ lo <= r i j <= hi) -> lo <= a <= hi /\ lo <= b <= hi.
Proof.
  intros m n e r Hm Hn. eexists _, _. split; [reflexivity|]. rewrite mult_INR.
  assert (A : 0 < INR m) by (apply lt_0_INR, Hm). assert (B : 0 < INR n) by (apply lt_0_INR, Hn).
  assert (K : forall f lo hi, (forall i j, (i < m)%nat -> (j < n)%nat -> lo <= f i j <= hi) -> lo <= msum m n f / (INR m * INR n) <= hi).
  { intros f lo hi Hf. unfold msum.
    assert (L : rsum m (fun _ => rsum n (fun _ => lo)) <= rsum m (fun i => rsum n (fun j => f i j)))
      by (apply rsum_le; intros i Hi; apply rsum_le; intros j Hj; apply Hf; assumption).
    assert (U : rsum m (fun i => rsum n (fun j => f i j)) <= rsum m (fun _ => rsum n (fun _ => hi)))
      by (apply rsum_le; intros i Hi; apply rsum_le; intros j Hj; apply Hf; assumption).
    rewrite !rsum_const in L, U. assert (P : 0 < INR m * INR n) by (apply Rmult_lt_0_compat; assumption).
    split; apply (Rmult_le_reg_r (INR m * INR n)); try exact P; unfold Rdiv; rewrite Rmult_assoc, Rinv_l, Rmult_1_r by lra; lra. }
  split; [field; lra|]. split; [field; lra|]. intros lo hi H. split; apply K; intros i j Hi Hj; apply (H i j Hi Hj).
Qed.
Print Assumptions C127_summary_averages.
Example C127_summary_averages_example : summary 2 1 (Some (msum 2 1 (fun i _ => INR i), QNumber 4)) = Printed 1 4 (1 / 2) 2.
Proof. unfold summary. cbn. f_equal; lra. Qed.
