From Coq Require Import Reals Lra Lia List Bool ZArith Arith FunctionalExtensionality.
From Verif Require Import Base Fl Metrics_Model Metrics_Spec Metrics_Proofs LSNMF_Model LSNMF_Proofs
  Train_Model Train_Spec Train_Proofs Train_LS Layout_Model Layout_Proofs SA_Model SA_Proofs SA_Props
  Pipeline_Model Pipeline_Spec.
Import ListNotations.
Open Scope R_scope.

(** ** Only the cells inside the sizes matter *)
Definition near (m n k : nat) (a b : mat * mat) : Prop := meq m k (fst a) (fst b) /\ meq k n (snd a) (snd b).

Lemma ls_update_local m n k V We V' We' hold st st' :
  meq m n V V' -> meq m n We We' -> near m n k st st' ->
  orel (near m n k) (ls_update m n k V We hold st) (ls_update m n k V' We' hold st').
Proof.
  intros A B [C D]. destruct st as [W H], st' as [W' H']. cbn [fst snd] in C, D. unfold ls_update.
  assert (HS : match (if hold then Some H else h_step m n k V We W H), (if hold then Some H' else h_step m n k V' We' W' H') with
               | Some x, Some y => meq k n x y | None, None => True | _, _ => False end).
  { destruct hold; [exact D|]. unfold h_step.
    rewrite (all_nz_ext _ _ _ _ (h_den_ext m n k We W H We' W' H' B C D)). destruct (all_nz _ _ _); [|exact I].
    intros a j Ha Hj. rewrite (D a j Ha Hj), (h_num_ext m n k V We W V' We' W' A B C a j Ha Hj),
      (h_den_ext m n k We W H We' W' H' B C D a j Ha Hj). reflexivity. }
  destruct (if hold then Some H else _) as [x|], (if hold then Some H' else _) as [y|]; try contradiction; [|exact I].
  unfold w_step. rewrite (all_nz_ext _ _ _ _ (w_den_ext m n k We W x We' W' y B C HS)). destruct (all_nz _ _ _); [|exact I].
  split; [|exact HS]. cbn [fst]. intros i a Hi Ha. rewrite (C i a Hi Ha), (w_num_ext m n k V We x V' We' y A B HS i a Hi Ha),
    (w_den_ext m n k We W x We' W' y B C HS i a Hi Ha). reflexivity.
Qed.

Lemma ls_iter_local m n k V We V' We' hold N i0 st st' :
  meq m n V V' -> meq m n We We' -> near m n k st st' ->
  orel (near m n k) (ls_iter m n k V We hold i0 N st) (ls_iter m n k V' We' hold i0 N st').
Proof. intros A B. apply ls_iter_rel. intros h s s' Hs. apply ls_update_local; assumption. Qed.

Lemma q_loss_local m n k V U W H V' U' W' H' :
  meq m n V V' -> meq m n U U' -> meq m k W W' -> meq k n H H' ->
  q_loss m n k true V U W H = q_loss m n k true V' U' W' H'.
Proof.
  intros A B C D. unfold q_loss. apply msum_ext. intros i j Hi Hj. unfold resid.
  rewrite A, B by assumption. rewrite (mmul_ext k W W' H H' i j); [reflexivity| |]; intros p Hp; [apply C|apply D]; assumption.
Qed.

Lemma qr_loss_local m n k al V U W H W' H' :
  meq m k W W' -> meq k n H H' -> qr_loss m n k al V U W H = qr_loss m n k al V U W' H'.
Proof.
  intros C D. unfold qr_loss. apply msum_ext. intros i j Hi Hj. unfold robust_scaled, robust_unc, scaled_resid, resid.
  rewrite (mmul_ext k W W' H H' i j); [reflexivity| |]; intros p Hp; [apply C|apply D]; assumption.
Qed.

(** ** Memory *)
Lemma seen_data_reread o m n v : meq m n (seen_data (memory o (data m n v))) (reread o m n v).
Proof.
  intros i j Hi Hj. unfold seen_data, from_vec, memory, data, reread, num. destruct o; cbn [a_rows a_cols a_buf rows cols cell]; [reflexivity|].
  rewrite (Nat.add_comm (j * m) i), Nat.mod_add, Nat.div_add by lia.
  rewrite Nat.mod_small, Nat.div_small by lia. reflexivity.
Qed.

Lemma seen_factor_reread o a r c x : rows a = r -> cols a = c -> entries a x ->
  meq r c (seen_factor (memory o a)) (reread_rows o r c x).
Proof.
  intros Hr Hc He i j Hi Hj. unfold seen_factor, from_vec, memory, reread_rows, entries, num in *.
  destruct o; cbn [a_rows a_cols a_buf]; rewrite ?Hr, ?Hc in *.
  - replace ((i * c + j) / c)%nat with i; [replace ((i * c + j) mod c)%nat with j; [rewrite He by assumption; reflexivity|]|];
      rewrite Nat.add_comm; [rewrite Nat.mod_add, Nat.mod_small|rewrite Nat.div_add, Nat.div_small]; lia.
  - rewrite He; [reflexivity| |].
    + apply Nat.mod_upper_bound. lia.
    + apply Nat.div_lt_upper_bound; [lia|]. nia.
Qed.

Lemma num_weight u : u <> 0 -> num (weight_of (Fin u)) = 1 / u ^ 2.
Proof.
  intros Hu. unfold weight_of, fmul, fdiv, num. destruct (Req_EM_T (u * u) 0) as [E|E].
  - exfalso. apply Rmult_integral in E. tauto.
  - field. exact Hu.
Qed.

Lemma seen_weights o m n u : (forall i j, u i j <> 0) ->
  seen_data (memory o (ndmap weight_of (data m n u))) = weights (seen_data (memory o (data m n u))).
Proof.
  intros Hu. extensionality i. extensionality j. unfold weights, seen_data, from_vec, memory, data, ndmap.
  destruct o; cbn [a_rows a_cols a_buf rows cols cell]; rewrite num_weight by apply Hu; reflexivity.
Qed.

Lemma engine_step_ls m n k V U : engine_step m n k V (weights U) = ls_step m n k V U.
Proof. reflexivity. Qed.

Lemma state_at_any m n k V U b W H i :
  state_at (ls_step m n k V U) b (Some (W, H)) i = ls_iter m n k V (weights U) b 0 i (W, H).
Proof.
  induction i as [|i IH]; [reflexivity|]. cbn [state_at]. rewrite IH.
  replace (S i) with (i + 1)%nat by lia. rewrite ls_iter_add. unfold ls_step at 1.
  destruct (ls_iter m n k V (weights U) b 0 i (W, H)) as [st|]; [|reflexivity].
  cbn [ls_iter Nat.add]. destruct (ls_update m n k V (weights U) (b i) st); reflexivity.
Qed.

(** ** What one run does, for any memory order and any finite data *)
Lemma run_engine_spec o m n k v u Wn Hn w h tick p b :
  (forall i j, u i j <> 0) ->
  rows Wn = m -> cols Wn = k -> entries Wn w -> rows Hn = k -> cols Hn = n -> entries Hn h ->
  (forall i, b i = true <-> held (p_hold p) (p_delay p) i) ->
  let f := run_engine o (data m n v) (data m n u) (ndmap weight_of (data m n u)) Wn Hn k tick p in
  let N := length (f_hist f) in
  let v' := reread (oV o) m n v in let u' := reread (oU o) m n u in
  let st := (reread_rows (oW o) m k w, reread_rows (oH o) k n h) in
  let at_ t := ls_iter m n k v' (weights u') b 0 t st in
  (N <= Z.to_nat (p_max_iter p))%nat /\ (f_conv f = false -> N = Z.to_nat (p_max_iter p)) /\ f_steps f = (N - 1)%nat /\
  (f_conv f = true <-> exists t, (t < Z.to_nat (p_max_iter p))%nat /\
     criterion (fbelow (p_delta p)) (p_cn p) (fun i => match at_ (S i) with None => NaN | Some (W, H) => Fin (q_loss m n k true v' u' W H) end) t) /\
  (forall t, (t < N)%nat -> nth_error (f_hist f) t =
     Some (match at_ (S t) with None => NaN | Some (W, H) => Fin (q_loss m n k true v' u' W H) end)) /\
  match at_ N with
  | None => f_WH f = None /\ f_prod f = None /\ f_Qtrue f = NaN /\ f_Qrobust f = NaN
  | Some (W, H) => exists w1 h1 P, f_WH f = Some (w1, h1) /\ f_prod f = Some P /\
      shaped m k FOrder w1 /\ shaped k n FOrder h1 /\
      meq m k (aget w1) W /\ meq k n (aget h1) H /\ meq m n P (mmul k W H) /\
      f_Qtrue f = Fin (q_loss m n k true v u W H) /\ f_Qrobust f = Fin (qr_loss m n k (p_alpha p) v u W H)
  end.
Proof.
  intros Hu Hr Hc Hw Hr' Hc' Hh Hb f N v' u' st at_.
  set (W0 := seen_factor (memory (oW o) Wn) : mat). set (H0 := seen_factor (memory (oH o) Hn) : mat).
  set (Vs := seen_data (memory (oV o) (data m n v)) : mat). set (Us := seen_data (memory (oU o) (data m n u)) : mat).
  set (r := rust_train (ls_step m n k Vs Us) (ls_loss m n k Vs Us) (fbelow (p_delta p)) (p_cn p) (p_hold p) (p_delay p) tick (p_max_iter p) (Some (W0, H0))).
  assert (Ef : f = {| f_WH := match rr_state r with None => None | Some (w, h) => Some (to_python m k w, to_python k n h) end;
                      f_prod := match (match rr_state r with None => None | Some (w, h) => Some (to_python m k w, to_python k n h) end) with
                                None => None | Some (w, h) => Some (mmul k (aget w) (aget h)) end;
                      f_Qtrue := match (match rr_state r with None => None | Some (w, h) => Some (to_python m k w, to_python k n h) end) with
                                None => NaN | Some (w, h) => Fin (q_loss m n k true v u (aget w) (aget h)) end;
                      f_Qrobust := match (match rr_state r with None => None | Some (w, h) => Some (to_python m k w, to_python k n h) end) with
                                None => NaN | Some (w, h) => Fin (qr_loss m n k (p_alpha p) v u (aget w) (aget h)) end;
                      f_hist := rr_hist r; f_conv := rr_conv r; f_steps := rr_ci r |}).
  { unfold f, run_engine. rewrite seen_weights by assumption. reflexivity. }
  assert (EN : N = length (rr_hist r)) by (unfold N; rewrite Ef; reflexivity).
  pose proof (rust_summary (ls_step m n k Vs Us) (ls_loss m n k Vs Us) (fbelow (p_delta p)) (p_cn p) (p_hold p) (p_delay p) tick (Some (W0, H0)) (p_max_iter p) b Hb) as S.
  fold r in S. cbv zeta in S. rewrite <- EN in S. destruct S as (A & B & C & _ & E & G & I & _).
  assert (Loc : forall t, orel (near m n k) (ls_iter m n k Vs (weights Us) b 0 t (W0, H0)) (at_ t)).
  { intros t. unfold at_. apply ls_iter_local.
    - apply seen_data_reread.
    - intros i j Hi Hj. unfold weights, Us, u'. rewrite (seen_data_reread (oU o) m n u i j Hi Hj). reflexivity.
    - split; apply seen_factor_reread; assumption. }
  assert (LQ : forall t, loss_at (ls_step m n k Vs Us) (ls_loss m n k Vs Us) b (Some (W0, H0)) t
                 = match at_ (S t) with None => NaN | Some (W, H) => Fin (q_loss m n k true v' u' W H) end).
  { intros t. unfold loss_at. rewrite state_at_any. specialize (Loc (S t)).
    destruct (ls_iter m n k Vs (weights Us) b 0 (S t) (W0, H0)) as [[Wa Ha]|], (at_ (S t)) as [[Wb Hb']|]; cbn [orel] in Loc; try contradiction; [|reflexivity].
    destruct Loc as [L1 L2]. cbn [ls_loss]. f_equal. apply q_loss_local; auto; apply seen_data_reread. }
  rewrite Ef. cbn [f_WH f_prod f_Qtrue f_Qrobust f_hist f_conv f_steps]. split; [exact A|]. split; [exact G|]. split; [exact E|]. split.
  { rewrite I. split; intros (t & Ht & Hcr); exists t; (split; [exact Ht|]); refine (criterion_ext _ _ _ _ _ _ Hcr); intros; [apply LQ|symmetry; apply LQ]. }
  split.
  { intros t Ht. rewrite B. rewrite (map_nth_error _ t _ (d := t)); [rewrite LQ; reflexivity|].
    rewrite (nth_error_nth' _ 0%nat) by (rewrite seq_length; exact Ht). rewrite seq_nth by exact Ht. reflexivity. }
  rewrite C, state_at_any. specialize (Loc N).
  destruct (ls_iter m n k Vs (weights Us) b 0 N (W0, H0)) as [[Wa Ha]|], (at_ N) as [[Wb Hb']|]; cbn [orel] in Loc; try contradiction.
  - destruct Loc as [L1 L2]. cbn [fst snd] in L1, L2.
    pose proof (to_python_get m k Wa) as T1. pose proof (to_python_get k n Ha) as T2.
    assert (M1 : meq m k (aget (to_python m k Wa)) Wb) by (intros i j Hi Hj; rewrite (T1 i j Hi Hj); apply L1; assumption).
    assert (M2 : meq k n (aget (to_python k n Ha)) Hb') by (intros i j Hi Hj; rewrite (T2 i j Hi Hj); apply L2; assumption).
    do 3 eexists. split; [reflexivity|]. split; [reflexivity|]. split; [split; [|split]; reflexivity|]. split; [split; [|split]; reflexivity|].
    split; [exact M1|]. split; [exact M2|]. split.
    + intros i j Hi Hj. apply mmul_ext; intros q Hq; [apply M1|apply M2]; assumption.
    + split; f_equal; [apply q_loss_local; auto; intros i j _ _; reflexivity|apply qr_loss_local; auto].
  - repeat split; reflexivity.
Qed.

(** ** Reaching the engine *)
Lemma floor_data m n u : ndmap floor_u (data m n u) = data m n (used_unc u).
Proof.
  unfold ndmap, data, used_unc. cbn [rows cols cell]. f_equal. extensionality i. extensionality j.
  rewrite floor_u_cases. reflexivity.
Qed.
Lemma used_unc_pos u i j : 0 < used_unc u i j.
Proof. unfold used_unc. pose proof (Rmax_l (/ 10 ^ 12) (u i j)). assert (0 < / 10 ^ 12) by (apply Rinv_0_lt_compat, pow_lt; lra). lra. Qed.
Lemma used_unc_nz u i j : used_unc u i j <> 0.
Proof. pose proof (used_unc_pos u i j). lra. Qed.
Lemma made_positive_pos x : 0 < made_positive x.
Proof. unfold made_positive. destruct (Rle_dec x 0); [apply Rinv_0_lt_compat, pow_lt; lra|lra]. Qed.

Lemma construct_data m n k v u : (0 < m)%nat -> (0 < n)%nat -> mall m n (fun x => 0 <= x) v ->
  exists s, construct (data m n v) (data m n u) k LSNMF = Some s /\ s_engine s = LSNMF.
Proof.
  intros Hm Hn Hv. unfold construct, validate. rewrite floor_data.
  destruct (min_neg_defined (data m n v)) as [b E]; auto.
  destruct (min_neg_defined (data m n (used_unc u))) as [b' E']; auto.
  rewrite E, E'. eexists. split; [reflexivity|]. cbn [s_engine].
  apply min_neg_some in E. destruct E as (_ & _ & E). destruct b; [|reflexivity].
  exfalso. destruct (proj1 E eq_refl) as [_ (i & j & Hi & Hj & Hx)]. cbn in Hi, Hj, Hx.
  unfold negative, flt, data in Hx. cbn in Hx. rewrite Rltb_iff in Hx. pose proof (Hv i j Hi Hj) as Hp. cbv beta in Hp. lra.
Qed.

Lemma entries_no_nan a x : entries a x -> ~ contains a (fun y => y = NaN).
Proof. intros He (i & j & Hi & Hj & E). rewrite He in E by assumption. discriminate. Qed.
Lemma entries_no_neg a x : entries a x -> (forall i j, 0 <= x i j) -> ~ contains a negative.
Proof.
  intros He Hx (i & j & Hi & Hj & E). rewrite He in E by assumption. unfold negative, flt in E. cbn in E.
  rewrite Rltb_iff in E. pose proof (Hx i j). lra.
Qed.
Lemma entries_data m n v : entries (data m n v) v.
Proof. intros i j _ _. reflexivity. Qed.

Lemma reach m n k v u s0 s H0 W0 kind c o d tick p Wn Hn w h :
  construct (data m n v) (data m n u) k LSNMF = Some s0 -> s_engine s0 = LSNMF ->
  initialize s0 H0 W0 kind = InitOk s c -> s_W s = Some Wn -> s_H s = Some Hn ->
  shape Wn m k -> shape Hn k n -> entries Wn w -> entries Hn h -> (forall a j, 0 <= h a j) ->
  train o s d tick p = Trained (run_engine o (data m n v) (data m n (used_unc u)) (ndmap weight_of (data m n (used_unc u))) Wn Hn k tick p).
Proof.
  intros Ec Ee Ei EW EH SW SH Hw Hh Hp.
  pose proof (construct_inv _ _ _ _ _ Ec) as (EV & EU & EWe & Em & En & Ek & _).
  pose proof (initialize_inv _ _ _ _ _ _ Ei) as (hi & h2 & W & _ & _ & _ & IV & IU & IWe & Im & In & Ik & _ & Ie & _ & _).
  pose proof (C22_decision_table s0 s H0 W0 kind c d Ei) as (H & W1 & E1 & E2 & Good & _).
  rewrite EH in E1. rewrite EW in E2. injection E1 as <-. injection E2 as <-.
  rewrite floor_data in EU, EWe.
  unfold train. rewrite Good.
  - rewrite Ie, Ee, IV, IU, IWe, Ik, Ek, EV, EU, EWe. reflexivity.
  - rewrite IV, IU, Im, In, Ik, EV, EU, Em, En, Ek. cbn [data rows cols].
    split; [apply (entries_no_nan _ v), entries_data|]. split; [apply (entries_no_nan _ (used_unc u)), entries_data|].
    split; [apply (entries_no_neg _ (used_unc u)); [apply entries_data|intros; left; apply used_unc_pos]|].
    split; [split; reflexivity|]. split; [exact SH|]. split; [exact (entries_no_nan _ _ Hh)|]. split; [exact (entries_no_neg _ _ Hh Hp)|].
    split; [exact SW|exact (entries_no_nan _ _ Hw)].
Qed.

(** An array for a matrix given by the caller (floating point). *)
Notation given h w := (Some (Some (HArg h false), Some w, ColumnMean false (fun _ _ => Fin 0) (fun _ _ => Fin 0) (fun x => x))).

Lemma given_states m n k v u w h :
  (0 < m)%nat -> (0 < n)%nat -> (0 < k)%nat -> mall m n (fun x => 0 <= x) v ->
  exists s0 s c, construct (data m n v) (data m n u) k LSNMF = Some s0 /\
    initialize s0 (Some (HArg (data k n h) false)) (Some (data m k w)) (ColumnMean false (fun _ _ => Fin 0) (fun _ _ => Fin 0) (fun x => x)) = InitOk s c /\
    s_engine s = LSNMF /\ s_init s = true /\ s_valid s = true /\ s_k s = k /\
    sV s = data m n v /\ sU s = data m n (used_unc u) /\ sWe s = ndmap weight_of (data m n (used_unc u)) /\
    forall o d tick p, train o s d tick p
    = Trained (run_engine o (data m n v) (data m n (used_unc u)) (ndmap weight_of (data m n (used_unc u)))
                 (data m k w) (data k n (fun a j => made_positive (h a j))) k tick p).
Proof.
  intros Hm Hn Hk Hv. destruct (construct_data m n k v u Hm Hn Hv) as (s & Ec & Ee).
  pose proof (construct_inv _ _ _ _ _ Ec) as (EV & EU & EWe & Em & En & Ek & _).
  assert (SH : shape (h_arr (HArg (data k n h) false)) (s_k s) (s_n s)) by (rewrite Ek, En; split; reflexivity).
  assert (EH : ndmap (floor_h false) (data k n h) = data k n (fun a j => made_positive (h a j))).
  { unfold ndmap, data. cbn [rows cols cell]. f_equal. extensionality a. extensionality j. apply floor_h_fin. }
  pose proof (initialize_user s (HArg (data k n h) false) (data m k w) (fun _ _ => Fin 0) (fun _ _ => Fin 0) (fun x => x) SH) as Ei.
  cbv zeta in Ei. cbn [h_is_int h_arr] in Ei. rewrite EH in Ei.
  destruct (validate_defined (sV s) (sU s) (s_m s) (s_n s) (s_k s) (data k n (fun a j => made_positive (h a j))) (data m k w)) as (ok & neg & Ev);
    try (rewrite ?EV, ?EU; cbn; assumption).
  rewrite Ev in Ei.
  match type of Ei with _ = InitOk ?z ?c => set (s1 := z) in *; set (c1 := c) in * end.
  assert (Tr : forall o d tick p, train o s1 d tick p
    = Trained (run_engine o (data m n v) (data m n (used_unc u)) (ndmap weight_of (data m n (used_unc u)))
                 (data m k w) (data k n (fun a j => made_positive (h a j))) k tick p)).
  { intros o d tick p. refine (reach m n k v u s _ _ _ _ _ o d tick p _ _ w (fun a j => made_positive (h a j)) Ec Ee Ei eq_refl eq_refl _ _ _ _ _).
    - split; reflexivity.
    - split; reflexivity.
    - apply entries_data.
    - apply entries_data.
    - intros. left. apply made_positive_pos. }
  exists s, s1, c1. split; [exact Ec|]. split; [exact Ei|]. split; [exact Ee|]. split; [reflexivity|]. split.
  - specialize (Tr (mkOrd FOrder FOrder FOrder FOrder) (Kmeans (fun _ _ => NaN) (fun _ => 0%nat) (fun _ => NaN)) (fun _ => false) (mkSet 0 0 0 0 false 0)).
    unfold train, train_guard in Tr. cbn [s_init s1] in Tr. unfold s1 in *. cbn [s_valid] in *. destruct ok; [reflexivity|discriminate].
  - split; [exact Ek|]. split; [exact EV|]. rewrite floor_data in EU, EWe. split; [exact EU|]. split; [exact EWe|]. exact Tr.
Qed.

Lemma fit_given o m n k v u w h d tick p :
  (0 < m)%nat -> (0 < n)%nat -> (0 < k)%nat -> mall m n (fun x => 0 <= x) v ->
  fit o (data m n v) (data m n u) k (given (data k n h) (data m k w)) d tick p
  = Trained (run_engine o (data m n v) (data m n (used_unc u)) (ndmap weight_of (data m n (used_unc u)))
               (data m k w) (data k n (fun a j => made_positive (h a j))) k tick p).
Proof.
  intros Hm Hn Hk Hv. destruct (given_states m n k v u w h Hm Hn Hk Hv) as (s0 & s & c & E1 & E2 & _ & _ & _ & _ & _ & _ & _ & Tr).
  unfold fit. rewrite E1, E2. apply Tr.
Qed.

Lemma fit_drawn o m n k v u g c wsW tick p :
  (0 < m)%nat -> (0 < n)%nat -> (0 < k)%nat -> mall m n (fun x => 0 <= x) v ->
  let x a j := made_positive (sqrt (rsum m (fun i => v i j) / INR m / INR k) * g a j) in
  let y i a := made_positive (sqrt (rsum n (v i) / INR n / INR k) * c i a) in
  exists Wn Hn, rows Wn = m /\ cols Wn = k /\ entries Wn y /\ rows Hn = k /\ cols Hn = n /\ entries Hn x /\
  fit o (data m n v) (data m n u) k None (ColumnMean false (fun a j => Fin (g a j)) (fun i a => Fin (c i a)) wsW) tick p
  = Trained (run_engine o (data m n v) (data m n (used_unc u)) (ndmap weight_of (data m n (used_unc u))) Wn Hn k tick p).
Proof.
  intros Hm Hn Hk Hv x y. unfold fit. destruct (construct_data m n k v u Hm Hn Hv) as (s & Ec & Ee). rewrite Ec.
  pose proof (construct_inv _ _ _ _ _ Ec) as (EV & EU & _ & Em & En & Ek & Emth & _ & _ & _ & Einit & _).
  set (kd := ColumnMean false (fun a j => Fin (g a j)) (fun i a => Fin (c i a)) wsW).
  assert (Ex : exists s1 cc, initialize s None None kd = InitOk s1 cc).
  { unfold initialize, kd. cbv iota beta zeta. cbn [option_map].
    set (Hr := random_H _ _ _ _). set (Wr := random_W _ _ _ _ _).
    assert (rows Wr = m /\ cols Wr = k) as [R1 R2] by (unfold Wr, random_W; rewrite Emth, Em, Ek; split; reflexivity).
    destruct (validate_defined (sV s) (sU s) (s_m s) (s_n s) (s_k s) (ndmap (floor_h false) Hr) Wr) as (ok & neg & Ev);
      try (rewrite ?EV, ?EU; cbn; rewrite ?Ek, ?En; cbn; assumption); try (rewrite ?R1, ?R2; assumption).
    rewrite Ev. eauto. }
  destruct Ex as (s1 & cc & Ei).
  pose proof (C21_starting_matrices (data m n v) (data m n u) k LSNMF s s1 v g c false wsW cc Ec Hk (entries_data m n v)) as T.
  cbv zeta in T. cbn [data rows cols] in T.
  assert (Hcol : forall j, (j < n)%nat -> 0 <= rsum m (fun i => v i j)) by (intros; apply rsum_nonneg; intros; apply Hv; assumption).
  assert (Hrow : forall i, (i < m)%nat -> 0 <= rsum n (v i)) by (intros; apply rsum_nonneg; intros; apply Hv; assumption).
  destruct (T Hcol Hrow Ei) as (Hx & Wx & EH & EW & SH & HH & TW & _). destruct (TW eq_refl) as [SW HW].
  exists Wx, Hx. destruct SW as [SW1 SW2], SH as [SH1 SH2].
  split; [exact SW1|]. split; [exact SW2|]. split; [exact HW|]. split; [exact SH1|]. split; [exact SH2|]. split; [exact HH|].
  assert (Et : train o s kd tick p = train o s1 kd tick p).
  { unfold train, train_guard. rewrite Einit, Ei.
    pose proof (initialize_inv _ _ _ _ _ _ Ei) as (hi & h2 & W & _ & _ & _ & _ & _ & _ & _ & _ & _ & _ & _ & I1 & _). rewrite I1. reflexivity. }
  rewrite Et. apply (reach m n k v u s s1 None None kd cc o kd tick p Wx Hx y x Ec Ee Ei EW EH (conj SW1 SW2) (conj SH1 SH2) HW HH).
  intros. left. apply made_positive_pos.
Qed.
