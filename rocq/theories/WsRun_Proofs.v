From Coq Require Import Reals Lra Lia List Bool ZArith Arith FunctionalExtensionality.
From Verif Require Import Base Fl Metrics_Model Metrics_Spec Metrics_Proofs LSNMF_Model LSNMF_Proofs WSNMF_Model WSNMF_Proofs
  Train_Model Train_Spec Train_Proofs Train_LS Layout_Model Layout_Proofs SA_Model SA_Proofs SA_Props
  Pipeline_Model Pipeline_Spec Pipeline_Proofs WsRun_Model WsRun_Spec.
Import ListNotations.
Open Scope R_scope.


Section S.
Context (solve : nat -> mat -> mat) (k : nat) (Hin : inside k solve).

Lemma ws_lin_ext m V We Wx V' We' Wx' a j :
  (forall i, (i < m)%nat -> V i j = V' i j) -> (forall i, (i < m)%nat -> We i j = We' i j) ->
  (forall i, (i < m)%nat -> Wx i a = Wx' i a) -> ws_lin m V We Wx a j = ws_lin m V' We' Wx' a j.
Proof. intros A B C. unfold ws_lin, wev. apply rsum_ext. intros i Hi. rewrite A, B, C by assumption. reflexivity. Qed.
Lemma ws_quad_ext m We Wx H We' Wx' H' a j : (a < k)%nat ->
  (forall i, (i < m)%nat -> We i j = We' i j) -> (forall i b, (i < m)%nat -> (b < k)%nat -> Wx i b = Wx' i b) ->
  (forall b, (b < k)%nat -> H b j = H' b j) -> ws_quad m k We Wx H a j = ws_quad m k We' Wx' H' a j.
Proof.
  intros Ha A B C. unfold ws_quad. apply rsum_ext. intros b Hb. rewrite C by assumption. f_equal. apply rsum_ext.
  intros i Hi. rewrite A, !B by assumption. reflexivity.
Qed.
Lemma forallb_same {A} (f g : A -> bool) l : (forall x, In x l -> f x = g x) -> forallb f l = forallb g l.
Proof. induction l as [|x l IH]; intros E; [reflexivity|]. cbn. rewrite E by (left; reflexivity). f_equal. apply IH. intros y Hy. apply E. right. exact Hy. Qed.

Lemma ws_w_local m n V We H V' We' H' :
  meq m n V V' -> meq m n We We' -> meq k n H H' -> meq m k (ws_w_step solve n k V We H) (ws_w_step solve n k V' We' H').
Proof.
  intros A B C i b Hi Hb. unfold ws_w_step. apply rsum_ext. intros a Ha.
  replace (ws_wn n V' We' H' i a) with (ws_wn n V We H i a).
  - f_equal. apply Hin; [|assumption..]. intros x y Hx Hy. unfold ws_wd. apply rsum_ext. intros j Hj. rewrite B, !C by assumption. reflexivity.
  - unfold ws_wn, wev. apply rsum_ext. intros j Hj. rewrite A, B, C by assumption. reflexivity.
Qed.

(** The old contributions do not matter. *)
Lemma ws_update_local m n V We V' We' hold W H W1 H' :
  meq m n V V' -> meq m n We We' -> meq k n H H' ->
  orel (near m n k) (ws_update solve m n k V We hold (W, H)) (ws_update solve m n k V' We' hold (W1, H')).
Proof.
  intros A B C. unfold ws_update. cbv zeta.
  pose proof (ws_w_local m n V We H V' We' H' A B C) as D.
  set (X := ws_w_step solve n k V We H) in *. set (X' := ws_w_step solve n k V' We' H') in *.
  destruct hold; [split; assumption|]. unfold ws_h_step.
  assert (En : forall a j, (a < k)%nat -> (j < n)%nat -> ws_n m k V We X H a j = ws_n m k V' We' X' H' a j /\ ws_d m k V We X H a j = ws_d m k V' We' X' H' a j).
  { intros a j Ha Hj. unfold ws_n, ws_d.
    assert (E1 : forall i b, (i < m)%nat -> (b < k)%nat -> pos_part X i b = pos_part X' i b) by (intros; unfold pos_part; rewrite D by assumption; reflexivity).
    assert (E2 : forall i b, (i < m)%nat -> (b < k)%nat -> neg_part X i b = neg_part X' i b) by (intros; unfold neg_part; rewrite D by assumption; reflexivity).
    split; f_equal; f_equal; try (apply ws_lin_ext; intros; auto); apply ws_quad_ext; intros; auto. }
  rewrite (forallb_same _ (fun a => forallb (fun j => sqrt_ok (ws_n m k V' We' X' H' a j) (ws_d m k V' We' X' H' a j)) (seq 0 n))).
  - destruct (forallb _ _); [|exact I]. split; [exact D|]. cbn [fst snd]. intros a j Ha Hj. destruct (En a j Ha Hj) as [-> ->]. rewrite C by assumption. reflexivity.
  - intros a Ha%in_seq. apply forallb_same. intros j Hj%in_seq. destruct (En a j) as [-> ->]; [lia..|reflexivity].
Qed.

Lemma ws_iter_local m n V We V' We' hold N : meq m n V V' -> meq m n We We' -> forall i0 st st',
  near m n k st st' ->
  orel (near m n k) (ws_iter solve m n k V We hold i0 N st) (ws_iter solve m n k V' We' hold i0 N st').
Proof.
  intros A B. induction N as [|N IH]; intros i0 [W H] [W' H'] [C D]; [split; assumption|].
  cbn [ws_iter]. pose proof (ws_update_local m n V We V' We' (hold i0) W H W' H' A B D) as E.
  destruct (ws_update solve m n k V We (hold i0) (W, H)) as [s|], (ws_update solve m n k V' We' (hold i0) (W', H')) as [s'|]; cbn [orel] in E; try contradiction; [|exact I].
  apply IH. exact E.
Qed.

Lemma ws_iter_start m n V We hold N i0 W W' H : (0 < N)%nat ->
  ws_iter solve m n k V We hold i0 N (W, H) = ws_iter solve m n k V We hold i0 N (W', H).
Proof. destruct N as [|N]; [lia|reflexivity]. Qed.

Lemma ws_iter_plus m n V We hold N : forall M i0 st,
  ws_iter solve m n k V We hold i0 (N + M) st
  = match ws_iter solve m n k V We hold i0 N st with None => None | Some s => ws_iter solve m n k V We hold (i0 + N) M s end.
Proof.
  induction N as [|N IH]; intros M i0 st; cbn [ws_iter Nat.add]; [rewrite Nat.add_0_r; reflexivity|].
  destruct (ws_update _ _ _ _ _ _ _ st) as [s|]; [|reflexivity]. rewrite IH. replace (S i0 + N)%nat with (i0 + S N)%nat by lia. reflexivity.
Qed.

Lemma ws_state_at m n V We b W H i :
  state_at (ws_engine_step solve m n k V We) b (Some (W, H)) i = ws_iter solve m n k V We b 0 i (W, H).
Proof.
  induction i as [|i IH]; [reflexivity|]. cbn [state_at]. rewrite IH.
  replace (S i) with (i + 1)%nat by lia. rewrite ws_iter_plus.
  destruct (ws_iter solve m n k V We b 0 i (W, H)) as [st|]; [|reflexivity].
  cbn [ws_iter Nat.add ws_engine_step]. destruct (ws_update solve m n k V We (b i) st); reflexivity.
Qed.

Lemma run_ws_spec o m n v u Wn Hn w h tick p b :
  (forall i j, u i j <> 0) ->
  rows Wn = m -> cols Wn = k -> entries Wn w -> rows Hn = k -> cols Hn = n -> entries Hn h ->
  (forall i, b i = true <-> held (p_hold p) (p_delay p) i) ->
  let f := run_ws solve o (data m n v) (data m n u) (ndmap weight_of (data m n u)) Wn Hn k tick p in
  let N := length (f_hist f) in
  let v' := reread (oV o) m n v in let u' := reread (oU o) m n u in
  let st := (reread_rows (oW o) m k w, reread_rows (oH o) k n h) in
  let at_ t := ws_iter solve m n k v' (weights u') b 0 t st in
  (N <= Z.to_nat (p_max_iter p))%nat /\ (f_conv f = false -> N = Z.to_nat (p_max_iter p)) /\ f_steps f = (N - 1)%nat /\
  (f_conv f = true <-> exists t, (t < Z.to_nat (p_max_iter p))%nat /\
     criterion (fbelow (p_delta p)) (p_cn p) (fun i => match at_ (S i) with None => NaN | Some (W, H) => Fin (q_loss m n k true v' u' W H) end) t) /\
  (f_conv f = true -> (1 <= N)%nat /\
     first_such (criterion (fbelow (p_delta p)) (p_cn p) (fun i => match at_ (S i) with None => NaN | Some (W, H) => Fin (q_loss m n k true v' u' W H) end)) (N - 1)) /\
  (forall t, (t < N)%nat -> nth_error (f_hist f) t =
     Some (match at_ (S t) with None => NaN | Some (W, H) => Fin (q_loss m n k true v' u' W H) end)) /\
  match at_ N with
  | None => f_WH f = None /\ f_prod f = None /\ f_Qtrue f = NaN /\ f_Qrobust f = NaN
  | Some (W, H) => exists w1 h1 P, f_WH f = Some (w1, h1) /\ f_prod f = Some P /\
      shaped m k FOrder w1 /\ shaped k n FOrder h1 /\
      meq m k (aget w1) W /\ meq k n (aget h1) H /\ meq m n P (mmul k W H) /\
      f_Qtrue f = Fin (q_loss m n k true v u W H) /\ f_Qrobust f = Fin (qr_loss m n k (p_alpha p) v u W H)
  end.
Proof.
  intros Hu Hr Hc Hw Hr' Hc' Hh Hb f N v' u' st at_.
  set (W0 := seen_factor (memory (oW o) Wn) : mat). set (H0 := seen_factor (memory (oH o) Hn) : mat).
  set (Vs := seen_data (memory (oV o) (data m n v)) : mat). set (Us := seen_data (memory (oU o) (data m n u)) : mat).
  set (r := rust_train (ws_engine_step solve m n k Vs (weights Us)) (ls_loss m n k Vs Us) (fbelow (p_delta p)) (p_cn p) (p_hold p) (p_delay p) tick (p_max_iter p) (Some (W0, H0))).
  assert (Ef : f = {| f_WH := match rr_state r with None => None | Some (w, h) => Some (to_python m k w, to_python k n h) end;
                      f_prod := match (match rr_state r with None => None | Some (w, h) => Some (to_python m k w, to_python k n h) end) with
                                None => None | Some (w, h) => Some (mmul k (aget w) (aget h)) end;
                      f_Qtrue := match (match rr_state r with None => None | Some (w, h) => Some (to_python m k w, to_python k n h) end) with
                                None => NaN | Some (w, h) => Fin (q_loss m n k true v u (aget w) (aget h)) end;
                      f_Qrobust := match (match rr_state r with None => None | Some (w, h) => Some (to_python m k w, to_python k n h) end) with
                                None => NaN | Some (w, h) => Fin (qr_loss m n k (p_alpha p) v u (aget w) (aget h)) end;
                      f_hist := rr_hist r; f_conv := rr_conv r; f_steps := rr_ci r |}).
  { unfold f, run_ws. rewrite seen_weights by assumption. reflexivity. }
  assert (EN : N = length (rr_hist r)) by (unfold N; rewrite Ef; reflexivity).
  pose proof (rust_summary (ws_engine_step solve m n k Vs (weights Us)) (ls_loss m n k Vs Us) (fbelow (p_delta p)) (p_cn p) (p_hold p) (p_delay p) tick (Some (W0, H0)) (p_max_iter p) b Hb) as S.
  fold r in S. cbv zeta in S. rewrite <- EN in S. destruct S as (A & B & C & _ & E & G & I & J).
  assert (Loc : forall t, orel (near m n k) (ws_iter solve m n k Vs (weights Us) b 0 t (W0, H0)) (at_ t)).
  { intros t. unfold at_. apply ws_iter_local.
    - apply seen_data_reread.
    - intros i j Hi Hj. unfold weights, Us, u'. rewrite (seen_data_reread (oU o) m n u i j Hi Hj). reflexivity.
    - split; apply seen_factor_reread; assumption. }
  assert (LQ : forall t, loss_at (ws_engine_step solve m n k Vs (weights Us)) (ls_loss m n k Vs Us) b (Some (W0, H0)) t
                 = match at_ (S t) with None => NaN | Some (W, H) => Fin (q_loss m n k true v' u' W H) end).
  { intros t. unfold loss_at. rewrite ws_state_at. specialize (Loc (S t)).
    destruct (ws_iter solve m n k Vs (weights Us) b 0 (S t) (W0, H0)) as [[Wa Ha]|], (at_ (S t)) as [[Wb Hb']|]; cbn [orel] in Loc; try contradiction; [|reflexivity].
    destruct Loc as [L1 L2]. cbn [ls_loss]. f_equal. apply q_loss_local; auto; apply seen_data_reread. }
  rewrite Ef. cbn [f_WH f_prod f_Qtrue f_Qrobust f_hist f_conv f_steps]. split; [exact A|]. split; [exact G|]. split; [exact E|]. split.
  { rewrite I. split; intros (t & Ht & Hcr); exists t; (split; [exact Ht|]); refine (criterion_ext _ _ _ _ _ _ Hcr); intros; [apply LQ|symmetry; apply LQ]. }
  split.
  { intros Hcv. destruct (J Hcv) as [[J1 J2] J3]. split; [lia|]. split; [refine (criterion_ext _ _ _ _ _ LQ J1)|].
    intros i Hi Hcr. apply (J2 i Hi). refine (criterion_ext _ _ _ _ _ _ Hcr). intros. symmetry. apply LQ. }
  split.
  { intros t Ht. rewrite B. rewrite (map_nth_error _ t _ (d := t)); [rewrite LQ; reflexivity|].
    rewrite (nth_error_nth' _ 0%nat) by (rewrite seq_length; exact Ht). rewrite seq_nth by exact Ht. reflexivity. }
  rewrite C, ws_state_at. specialize (Loc N).
  destruct (ws_iter solve m n k Vs (weights Us) b 0 N (W0, H0)) as [[Wa Ha]|], (at_ N) as [[Wb Hb']|]; cbn [orel] in Loc; try contradiction.
  - destruct Loc as [L1 L2]. cbn [fst snd] in L1, L2.
    pose proof (to_python_get m k Wa) as T1. pose proof (to_python_get k n Ha) as T2.
    assert (M1 : meq m k (aget (to_python m k Wa)) Wb) by (intros i j Hi Hj; rewrite (T1 i j Hi Hj); apply L1; assumption).
    assert (M2 : meq k n (aget (to_python k n Ha)) Hb') by (intros i j Hi Hj; rewrite (T2 i j Hi Hj); apply L2; assumption).
    do 3 eexists. split; [reflexivity|]. split; [reflexivity|]. split; [split; [|split]; reflexivity|]. split; [split; [|split]; reflexivity|].
    split; [exact M1|]. split; [exact M2|]. split.
    + intros i j Hi Hj. apply mmul_ext; intros q Hq; [apply M1|apply M2]; assumption.
    + split; f_equal; [apply q_loss_local; auto; intros i j _ _; reflexivity|apply qr_loss_local; auto].
  - repeat split; reflexivity.
Qed.
End S.

(** ** Reaching the engine *)
Lemma construct_any m n k v u mth : (0 < m)%nat -> (0 < n)%nat ->
  exists s, construct (data m n v) (data m n u) k mth = Some s /\
    (s_engine s = WSNMF <-> mth = WSNMF \/ exists i j, (i < m)%nat /\ (j < n)%nat /\ v i j < 0).
Proof.
  intros Hm Hn. unfold construct, validate. rewrite floor_data.
  destruct (min_neg_defined (data m n v)) as [b E]; auto.
  destruct (min_neg_defined (data m n (used_unc u))) as [b' E']; auto.
  rewrite E, E'. eexists. split; [reflexivity|]. cbn [s_engine].
  apply min_neg_some in E. destruct E as (_ & _ & E).
  assert (Eb : b = true <-> exists i j, (i < m)%nat /\ (j < n)%nat /\ v i j < 0).
  { rewrite E. split.
    - intros [_ (i & j & Hi & Hj & Hx)]. exists i, j. cbn in Hi, Hj. split; [exact Hi|]. split; [exact Hj|].
      unfold negative, flt, data in Hx. cbn in Hx. rewrite Rltb_iff in Hx. exact Hx.
    - intros (i & j & Hi & Hj & Hx). split; [apply (entries_no_nan _ v), entries_data|]. exists i, j. cbn. split; [exact Hi|]. split; [exact Hj|].
      unfold negative, flt. cbn. apply Rltb_iff. exact Hx. }
  destruct mth, b; split; intros Q; try reflexivity; try discriminate; try (left; reflexivity);
    try (right; apply Eb; reflexivity).
  destruct Q as [Q|Q]; [discriminate|]. apply Eb in Q. discriminate.
Qed.

Lemma reach_any solve m n k v u mth s0 s H0 W0 kind c o d tick p Wn Hn w h :
  construct (data m n v) (data m n u) k mth = Some s0 ->
  initialize s0 H0 W0 kind = InitOk s c -> s_W s = Some Wn -> s_H s = Some Hn ->
  shape Wn m k -> shape Hn k n -> entries Wn w -> entries Hn h -> (forall a j, 0 <= h a j) ->
  train_guard s d = TRun (s_engine s0) (data m n v) (data m n (used_unc u)) (ndmap weight_of (data m n (used_unc u))) Wn Hn s /\ s_k s = k /\
  train_any solve o s d tick p = Trained (
    (match s_engine s0 with LSNMF => run_engine | WSNMF => run_ws solve end)
     o (data m n v) (data m n (used_unc u)) (ndmap weight_of (data m n (used_unc u))) Wn Hn k tick p).
Proof.
  intros Ec Ei EW EH SW SH Hw Hh Hp.
  pose proof (construct_inv _ _ _ _ _ Ec) as (EV & EU & EWe & Em & En & Ek & _).
  pose proof (initialize_inv _ _ _ _ _ _ Ei) as (hi & h2 & W & _ & _ & _ & IV & IU & IWe & Im & In & Ik & _ & Ie & _ & _).
  pose proof (C22_decision_table s0 s H0 W0 kind c d Ei) as (H & W1 & E1 & E2 & Good & _).
  rewrite EH in E1. rewrite EW in E2. injection E1 as <-. injection E2 as <-.
  rewrite floor_data in EU, EWe.
  assert (T : train_guard s d = TRun (s_engine s0) (data m n v) (data m n (used_unc u)) (ndmap weight_of (data m n (used_unc u))) Wn Hn s).
  { rewrite Good.
    - rewrite Ie, IV, IU, IWe, EV, EU, EWe. reflexivity.
    - rewrite IV, IU, Im, In, Ik, EV, EU, Em, En, Ek. cbn [data rows cols].
      split; [apply (entries_no_nan _ v), entries_data|]. split; [apply (entries_no_nan _ (used_unc u)), entries_data|].
      split; [apply (entries_no_neg _ (used_unc u)); [apply entries_data|intros; left; apply used_unc_pos]|].
      split; [split; reflexivity|]. split; [exact SH|]. split; [exact (entries_no_nan _ _ Hh)|]. split; [exact (entries_no_neg _ _ Hh Hp)|].
      split; [exact SW|exact (entries_no_nan _ _ Hw)]. }
  split; [exact T|]. split; [rewrite Ik; exact Ek|]. unfold train_any. rewrite T, Ik, Ek. destruct (s_engine s0); reflexivity.
Qed.

Lemma given_any m n k v u w h mth :
  (0 < m)%nat -> (0 < n)%nat -> (0 < k)%nat ->
  exists s0 s c, construct (data m n v) (data m n u) k mth = Some s0 /\
    (s_engine s0 = WSNMF <-> mth = WSNMF \/ exists i j, (i < m)%nat /\ (j < n)%nat /\ v i j < 0) /\
    initialize s0 (Some (HArg (data k n h) false)) (Some (data m k w)) (ColumnMean false (fun _ _ => Fin 0) (fun _ _ => Fin 0) (fun x => x)) = InitOk s c /\
    s_k s = k /\
    (forall d, train_guard s d = TRun (s_engine s0) (data m n v) (data m n (used_unc u)) (ndmap weight_of (data m n (used_unc u)))
                 (data m k w) (data k n (fun a j => made_positive (h a j))) s) /\
    forall solve o d tick p, train_any solve o s d tick p
    = Trained ((match s_engine s0 with LSNMF => run_engine | WSNMF => run_ws solve end)
                 o (data m n v) (data m n (used_unc u)) (ndmap weight_of (data m n (used_unc u)))
                 (data m k w) (data k n (fun a j => made_positive (h a j))) k tick p).
Proof.
  intros Hm Hn Hk. destruct (construct_any m n k v u mth Hm Hn) as (s & Ec & Ee).
  pose proof (construct_inv _ _ _ _ _ Ec) as (EV & EU & EWe & Em & En & Ek & _).
  assert (SH : shape (h_arr (HArg (data k n h) false)) (s_k s) (s_n s)) by (rewrite Ek, En; split; reflexivity).
  assert (EH : ndmap (floor_h false) (data k n h) = data k n (fun a j => made_positive (h a j))).
  { unfold ndmap, data. cbn [rows cols cell]. f_equal. extensionality a. extensionality j. apply floor_h_fin. }
  pose proof (initialize_user s (HArg (data k n h) false) (data m k w) (fun _ _ => Fin 0) (fun _ _ => Fin 0) (fun x => x) SH) as Ei.
  cbv zeta in Ei. cbn [h_is_int h_arr] in Ei. rewrite EH in Ei.
  destruct (validate_defined (sV s) (sU s) (s_m s) (s_n s) (s_k s) (data k n (fun a j => made_positive (h a j))) (data m k w)) as (ok & neg & Ev);
    try (rewrite ?EV, ?EU; cbn; assumption).
  rewrite Ev in Ei.
  match type of Ei with _ = InitOk ?z ?c => set (s1 := z) in *; set (c1 := c) in * end.
  pose proof (fun solve o d tick p => reach_any solve m n k v u mth s s1 _ _ _ c1 o d tick p (data m k w) (data k n (fun a j => made_positive (h a j)))
    w (fun a j => made_positive (h a j)) Ec Ei eq_refl eq_refl (conj eq_refl eq_refl) (conj eq_refl eq_refl) (entries_data _ _ _) (entries_data _ _ _)
    (fun a j => Rlt_le _ _ (made_positive_pos _))) as Tr.
  exists s, s1, c1. split; [exact Ec|]. split; [exact Ee|]. split; [exact Ei|]. split; [exact Ek|]. split.
  - intros d. apply (Tr (fun _ A => A) (mkOrd FOrder FOrder FOrder FOrder) d (fun _ => false) (mkSet 0 0 0 0 false 0)).
  - intros solve o d tick p. apply (Tr solve o d tick p).
Qed.

(** ** The first iteration forgets the starting contributions *)
Lemma rust_train_forget {S F} (upd : bool -> S -> S) loss (below : F -> F -> bool) cn hold delay tick mx st st' :
  (0 < mx)%Z -> (forall b, upd b st = upd b st') ->
  rust_train upd loss below cn hold delay tick mx st = rust_train upd loss below cn hold delay tick mx st'.
Proof.
  intros Hm E. unfold rust_train. destruct (Z.to_nat mx) as [|r] eqn:Er; [lia|]. cbn [rust_loop]. rewrite E. reflexivity.
Qed.

Lemma run_ws_forget solve oV oU oW oW' oH V U We W W' H k tick p : (0 < p_max_iter p)%Z ->
  run_ws solve (mkOrd oV oU oW oH) V U We W H k tick p = run_ws solve (mkOrd oV oU oW' oH) V U We W' H k tick p.
Proof.
  intros Hm. unfold run_ws. cbn [Pipeline_Model.oV Pipeline_Model.oU Pipeline_Model.oW Pipeline_Model.oH].
  rewrite (rust_train_forget _ _ _ _ _ _ _ _ _ (Some (seen_factor (memory oW' W'), seen_factor (memory oH H)))); [reflexivity|exact Hm|reflexivity].
Qed.

(** ** Held profiles *)
Lemma ws_iter_held solve m n k V We b W H t : (forall i, b i = true) -> (0 < t)%nat ->
  ws_iter solve m n k V We b 0 t (W, H) = Some (ws_w_step solve n k V We H, H).
Proof.
  intros Hb Ht. assert (G : forall t i0 W, ws_iter solve m n k V We b i0 (S t) (W, H) = Some (ws_w_step solve n k V We H, H)).
  { clear t Ht W. induction t as [|t IH]; intros i0 W.
    - cbn [ws_iter]. unfold ws_update. rewrite Hb. reflexivity.
    - change (ws_iter solve m n k V We b i0 (S (S t)) (W, H)) with
        (match ws_update solve m n k V We (b i0) (W, H) with None => None | Some st => ws_iter solve m n k V We b (S i0) (S t) st end).
      unfold ws_update. rewrite Hb. apply IH. }
  destruct t as [|t]; [lia|]. apply G.
Qed.

(** ** Default start *)
Lemma totals_refused V k m n rngH rngW mth v :
  entries V v -> rows V = m -> cols V = n -> (0 < m)%nat -> (0 < n)%nat -> (0 < k)%nat ->
  ((exists j, (j < n)%nat /\ rsum m (fun i => v i j) < 0) -> contains (ndmap (floor_h false) (random_H V k n rngH)) (fun x => x = NaN)) /\
  ((exists i, (i < m)%nat /\ rsum n (v i) < 0) -> contains (random_W mth V m k rngW) (fun x => x = NaN)).
Proof.
  intros HV Hr Hc Hm Hn Hk.
  assert (Pm : 0 < INR m) by (apply lt_0_INR; exact Hm). assert (Pn : 0 < INR n) by (apply lt_0_INR; exact Hn).
  assert (Pk : 0 < INR k) by (apply lt_0_INR; exact Hk).
  assert (Neg : forall s x, s < 0 -> 0 < x -> fsqrt (fdiv (fdiv (Fin s) (Fin x)) (Fin (INR k))) = NaN).
  { intros s x Hs Hx. unfold fdiv at 2. destruct (Req_EM_T x 0); [lra|]. unfold fdiv. destruct (Req_EM_T (INR k) 0); [lra|].
    cbn [fsqrt]. destruct (Rlt_dec _ 0) as [|C]; [reflexivity|]. exfalso. apply C. unfold Rdiv.
    assert (0 < / x * / INR k) by (apply Rmult_lt_0_compat; apply Rinv_0_lt_compat; assumption). nra. }
  split.
  - intros (j & Hj & Hs). exists 0%nat, j. cbn [ndmap random_H rows cols cell]. split; [exact Hk|]. split; [exact Hj|].
    unfold col_mean. rewrite Hr. rewrite (fsum_ext m _ (fun i => Fin (v i j))) by (intros i Hi; apply HV; lia).
    rewrite fsum_fin, Neg by assumption. reflexivity.
  - intros (i & Hi & Hs). exists i, 0%nat.
    assert (E : fmul (fsqrt (fdiv (row_mean V i) (Fin (INR k)))) (rngW i 0%nat) = NaN).
    { unfold row_mean. rewrite Hc. rewrite (fsum_ext n _ (fun j => Fin (v i j))) by (intros j Hj; apply HV; lia).
      rewrite fsum_fin, Neg by assumption. reflexivity. }
    unfold random_W. destruct mth; cbn [ndmap rows cols cell]; (split; [exact Hi|]; split; [exact Hk|]); rewrite E; reflexivity.
Qed.

Lemma drawn_states m n k v u g c wsW mth : (0 < m)%nat -> (0 < n)%nat -> (0 < k)%nat ->
  let kd := ColumnMean false g c wsW in
  exists s0 s cc, construct (data m n v) (data m n u) k mth = Some s0 /\
    (s_engine s0 = WSNMF <-> mth = WSNMF \/ exists i j, (i < m)%nat /\ (j < n)%nat /\ v i j < 0) /\
    initialize s0 None None kd = InitOk s cc /\
    s_H s = Some (ndmap (floor_h false) (random_H (data m n v) k n g)) /\
    s_W s = Some (random_W mth (data m n v) m k c) /\
    (forall solve o tick p, train_any solve o s0 kd tick p = train_any solve o s kd tick p).
Proof.
  intros Hm Hn Hk kd. destruct (construct_any m n k v u mth Hm Hn) as (s & Ec & Ee).
  pose proof (construct_inv _ _ _ _ _ Ec) as (EV & EU & _ & Em & En & Ek & Emth & _ & _ & _ & Einit & _).
  assert (Ex : exists s1 cc, initialize s None None kd = InitOk s1 cc /\
    s_H s1 = Some (ndmap (floor_h false) (random_H (data m n v) k n g)) /\ s_W s1 = Some (random_W mth (data m n v) m k c)).
  { unfold initialize, kd. cbv iota beta zeta. cbn [option_map]. rewrite EV, Em, En, Ek, Emth. cbn [data rows cols]. fold (data m n v).
    set (Hr := random_H _ _ _ _). set (Wr := random_W _ _ _ _ _).
    assert (rows Wr = m /\ cols Wr = k) as [R1 R2] by (unfold Wr, random_W; destruct mth; split; reflexivity).
    destruct (validate_defined (data m n v) (sU s) m n k (ndmap (floor_h false) Hr) Wr) as (ok & neg & Ev);
      try (rewrite ?EU; cbn; assumption); try (rewrite ?R1, ?R2; assumption).
    change (ND m n (fun i j => Fin (v i j))) with (data m n v). rewrite Ev. do 2 eexists. split; [reflexivity|]. split; reflexivity. }
  destruct Ex as (s1 & cc & Ei & E1 & E2). exists s, s1, cc. repeat (split; [assumption|]).
  intros solve o tick p. unfold train_any, train_guard. rewrite Einit, Ei.
  pose proof (initialize_inv _ _ _ _ _ _ Ei) as (hi & h2 & W & _ & _ & _ & _ & _ & _ & _ & _ & _ & _ & _ & I1 & _). rewrite I1. reflexivity.
Qed.
