(** C156: which random numbers a model starts from. *)
From Coq Require Import Reals Lra Lia Arith List Bool Psatz.
From Verif Require Import Base Fl Metrics_Model SA_Model SA_Proofs SA_Props Stream_Model.
Import ListNotations.
Open Scope R_scope.

(** Two objects for the same data and settings. *)
Definition alike (s s' : sa) : Prop :=
  sV s' = sV s /\ sU s' = sU s /\ sWe s' = sWe s /\ s_m s' = s_m s /\ s_n s' = s_n s /\ s_k s' = s_k s /\
  s_method s' = s_method s /\ s_engine s' = s_engine s.

Lemma initialize_alike s s' H0 W0 kind : alike s s' -> initialize s' H0 W0 kind = initialize s H0 W0 kind.
Proof.
  intros (E1 & E2 & E3 & E4 & E5 & E6 & E7 & E8). unfold initialize. rewrite E1, E2, E3, E4, E5, E6, E7, E8. reflexivity.
Qed.
Lemma initialize_keeps s H0 W0 kind s' c : initialize s H0 W0 kind = InitOk s' c -> alike s s'.
Proof.
  unfold initialize. cbv zeta.
  match goal with |- match ?x with _ => _ end = _ -> _ => destruct x as [[[Hg hi] fr] W] end.
  match goal with |- match ?x with Some _ => _ | None => _ end = _ -> _ => destruct x as [h2|] end; [|discriminate].
  match goal with |- match ?x with Some _ => _ | None => _ end = _ -> _ => destruct x as [[ok neg]|] end; [|discriminate].
  intros [= <- _]. repeat split.
Qed.
Lemma alike_refl s : alike s s.
Proof. repeat split. Qed.
Lemma alike_trans a b c : alike a b -> alike b c -> alike a c.
Proof. unfold alike. intuition congruence. Qed.
Lemma used_alike s s' c : alike s s' -> used s' c = used s c /\ used_H s' c = used_H s c.
Proof. intros (E1 & E2 & E3 & E4 & E5 & E6 & E7 & E8). unfold used, used_H, draws_H. rewrite E4, E5, E6. split; reflexivity. Qed.
Lemma init_alike g wsW s s' p c : alike s s' -> fst (init_at g wsW (s', p) c) = fst (init_at g wsW (s, p) c).
Proof.
  intros A. unfold init_at. cbn [fst snd]. rewrite (initialize_alike _ _ _ _ _ A). f_equal.
  unfold kind_at. destruct (used_alike s s' c A) as [_ ->]. destruct A as (E1 & E2 & E3 & E4 & E5 & E6 & E7 & E8). rewrite E5, E6. reflexivity.
Qed.

(** Whatever was done before, a call starts the model as it would start a new one whose
    generator has been used as often: so many numbers as the earlier calls have drawn,
    however they ended.  What it draws depends on nothing else. *)
Theorem C156_start_after_history :
  forall (g : nat -> R) (wsW : nd -> nd) (s : sa) (cs : list icall) (c : icall),
    let o := after g wsW s cs in let p := fold_right (fun c t => (used s c + t)%nat) 0%nat cs in
    snd o = p /\ alike s (fst o) /\
    fst (init_at g wsW o c) = initialize s (c_H c) (c_W c) (kind_at g wsW s p c).
Proof.
  intros g wsW s cs c o p.
  assert (G : forall cs o, alike s (fst o) -> alike s (fst (fold_left (fun o c => snd (init_at g wsW o c)) cs o)) /\
    snd (fold_left (fun o c => snd (init_at g wsW o c)) cs o) = (snd o + fold_right (fun c t => (used s c + t)%nat) 0%nat cs)%nat).
  { clear. induction cs as [|c cs IH]; intros [s1 q] A; cbn [fold_left fold_right fst snd] in *; [split; [exact A|lia]|].
    destruct (IH (snd (init_at g wsW (s1, q) c))) as [B C].
    { unfold init_at. cbn [fst snd]. destruct (initialize s1 _ _ _) as [|s2 ca] eqn:E; cbn [fst]; [exact A|]. exact (alike_trans _ _ _ A (initialize_keeps _ _ _ _ _ _ E)). }
    split; [exact B|]. rewrite C. unfold init_at at 1. cbn [fst snd]. destruct (used_alike s s1 c A) as [-> _]. lia. }
  destruct (G cs (s, 0%nat) (alike_refl s)) as [A B]. fold (after g wsW s cs) in A, B. fold o in A, B. cbn [snd Nat.add] in B. fold p in B.
  split; [exact B|]. split; [exact A|].
  rewrite (surjective_pairing o), (init_alike g wsW s (fst o) (snd o) c A), B. reflexivity.
Qed.
Print Assumptions C156_start_after_history.

(** Calls with both matrices given draw nothing. *)
Theorem C156_given_matrices_draw_nothing :
  forall (g : nat -> R) (wsW : nd -> nd) (s : sa) (cs cs' : list icall) (h : harg) (w : nd) (c : icall),
    shape (h_arr h) (s_k s) (s_n s) ->
    fst (init_at g wsW (after g wsW s (cs ++ [Icall (Some h) (Some w) (AskMean false)] ++ cs')) c) = fst (init_at g wsW (after g wsW s (cs ++ cs')) c).
Proof.
  intros g wsW s cs cs' h w c Sh.
  destruct (C156_start_after_history g wsW s (cs ++ [Icall (Some h) (Some w) (AskMean false)] ++ cs') c) as (_ & _ & E1).
  destruct (C156_start_after_history g wsW s (cs ++ cs') c) as (_ & _ & E2).
  rewrite E1, E2. f_equal. f_equal. rewrite !fold_right_app. f_equal. cbn [fold_right]. unfold used, used_H, draws_H, draws_W. cbn [c_ask c_H c_W].
  apply same_shape_iff in Sh. rewrite Sh. reflexivity.
Qed.
Print Assumptions C156_given_matrices_draw_nothing.

(** Both calls go through on data with a row and a column. *)
Lemma default_ok V U k s0 g wsW p H0 : construct V U k LSNMF = Some s0 -> (0 < k)%nat ->
  match H0 with Some h => shape (h_arr h) k (cols V) | None => True end ->
  exists s c, initialize s0 H0 None (kind_at g wsW s0 p (Icall H0 None (AskMean false))) = InitOk s c.
Proof.
  intros Ec Hk Sh. pose proof (construct_inv _ _ _ _ _ Ec) as (EV & EU & _ & Em & En & Ek & Emth & _ & _ & _ & _ & Hm & Hn & Hm' & Hn' & _).
  unfold initialize, kind_at. cbn [c_ask]. rewrite EV, Em, En, Ek, Emth. destruct H0 as [h|].
  - assert (Sh' := Sh). apply same_shape_iff in Sh'. rewrite Sh'. cbv zeta. destruct Sh as [S1 S2].
    match goal with |- context [validate ?v ?u ?m ?n ?k (Some ?h) (Some ?w)] =>
      destruct (validate_defined v u m n k h w) as (ok & neg & Ev) end; try (rewrite ?EU; cbn; lia).
    rewrite Ev. eauto.
  - cbv zeta. cbn [option_map].
    match goal with |- context [validate ?v ?u ?m ?n ?k (Some ?h) (Some ?w)] =>
      destruct (validate_defined v u m n k h w) as (ok & neg & Ev) end; try (rewrite ?EU; cbn; lia).
    rewrite Ev. eauto.
Qed.

(** The default start after [p] numbers have been drawn: profiles first, by rows, then
    contributions.  With profiles given, the contributions take the numbers the profiles
    would have taken. *)
Theorem C156_default_start :
  forall (V U : nd) (k : nat) (s0 : sa) v (g : nat -> R) wsW cs,
    construct V U k LSNMF = Some s0 -> (0 < k)%nat -> entries V v ->
    let m := rows V in let n := cols V in
    (forall j, (j < n)%nat -> 0 <= rsum m (fun i => v i j)) -> (forall i, (i < m)%nat -> 0 <= rsum n (v i)) ->
    let p := fold_right (fun c t => (used s0 c + t)%nat) 0%nat cs in
    (exists s c H W, fst (init_at g wsW (after g wsW s0 cs) (Icall None None (AskMean false))) = InitOk s c /\ s_H s = Some H /\ s_W s = Some W /\ shape H k n /\ shape W m k /\
         entries H (fun a j => made_positive (sqrt (rsum m (fun i => v i j) / INR m / INR k) * g (p + (a * n + j))%nat)) /\
         entries W (fun i a => made_positive (sqrt (rsum n (v i) / INR n / INR k) * g (p + k * n + (i * k + a))%nat))) /\
    (forall h, shape (h_arr h) k n ->
       exists s c W, fst (init_at g wsW (after g wsW s0 cs) (Icall (Some h) None (AskMean false))) = InitOk s c /\ s_W s = Some W /\ shape W m k /\
         entries W (fun i a => made_positive (sqrt (rsum n (v i) / INR n / INR k) * g (p + (i * k + a))%nat))).
Proof.
  intros V U k s0 v g wsW cs Ec Hk HV m n Hcol Hrow p.
  pose proof (construct_inv _ _ _ _ _ Ec) as (EV & _ & _ & Em & En & Ek & Emth & _ & _ & _ & _ & Hm & Hn & _).
  split.
  - destruct (C156_start_after_history g wsW s0 cs (Icall None None (AskMean false))) as (_ & _ & E1). fold p in E1. cbn [c_H c_W] in E1.
    destruct (default_ok V U k s0 g wsW p None Ec Hk I) as (s & c & E). rewrite E in E1. exists s, c.
    cbn [c_H c_W] in E. unfold kind_at in E. cbn [c_ask] in E.
    destruct (C21_starting_matrices V U k LSNMF s0 s v (fun a j => g (p + (a * s_n s0 + j))%nat) (fun i a => g (p + used_H s0 (Icall None None (AskMean false)) + (i * s_k s0 + a))%nat) false wsW c Ec Hk HV Hcol Hrow E)
      as (H & W & EH & EW & SH & XH & XW & _).
    destruct (XW eq_refl) as [SW YW]. exists H, W. split; [exact E1|]. split; [exact EH|]. split; [exact EW|]. split; [exact SH|]. split; [exact SW|].
    cbn [used_H draws_H c_ask c_H] in YW. unfold used_H, draws_H in YW. cbn [c_ask c_H] in YW. rewrite En, Ek in *. split; [exact XH|exact YW].
  - intros h Sh. destruct (C156_start_after_history g wsW s0 cs (Icall (Some h) None (AskMean false))) as (_ & _ & E1). fold p in E1. cbn [c_H c_W] in E1.
    destruct (default_ok V U k s0 g wsW p (Some h) Ec Hk Sh) as (s & c & E). rewrite E in E1. exists s, c.
    cbn [c_H c_W] in E. unfold kind_at in E. cbn [c_ask] in E.
    assert (U0 : used_H s0 (Icall (Some h) None (AskMean false)) = 0%nat).
    { unfold used_H, draws_H. cbn [c_ask c_H]. rewrite Ek, En. apply same_shape_iff in Sh. fold n. rewrite Sh. reflexivity. }
    rewrite U0 in E. unfold initialize in E. rewrite EV, Em, En, Ek, Emth in E. assert (Sh' := Sh). apply same_shape_iff in Sh'. fold n m in E. rewrite Sh' in E. cbn [option_map] in E.
    match type of E with match ?x with Some _ => _ | None => _ end = _ => destruct x as [[ok neg]|] end; [|discriminate]. injection E as <- _. cbn [s_W].
    eexists. split; [exact E1|]. split; [reflexivity|]. split; [split; reflexivity|].
    pose proof (random_W_fin LSNMF V k v (fun i a => g (p + 0 + (i * k + a))%nat) HV Hn Hk Hrow) as X. cbv beta iota zeta in X.
    intros i a Hi Ha. rewrite X by assumption. rewrite Nat.add_0_r. reflexivity.
Qed.
Print Assumptions C156_default_start.

(** Initializing an object again and again: the start number q (from 0) takes its numbers
    from position q k (m + n) of the generator on, so all starts use different ones. *)
Theorem C156_repeated_starts :
  forall (V U : nd) (k : nat) (s0 : sa) v (g : nat -> R) wsW q,
    construct V U k LSNMF = Some s0 -> (0 < k)%nat -> entries V v ->
    let m := rows V in let n := cols V in
    (forall j, (j < n)%nat -> 0 <= rsum m (fun i => v i j)) -> (forall i, (i < m)%nat -> 0 <= rsum n (v i)) ->
    exists s c H W, fst (init_at g wsW (after g wsW s0 (repeat (Icall None None (AskMean false)) q)) (Icall None None (AskMean false))) = InitOk s c /\
      s_H s = Some H /\ s_W s = Some W /\ shape H k n /\ shape W m k /\
      entries H (fun a j => made_positive (sqrt (rsum m (fun i => v i j) / INR m / INR k) * g (q * k * (m + n) + (a * n + j))%nat)) /\
      entries W (fun i a => made_positive (sqrt (rsum n (v i) / INR n / INR k) * g (q * k * (m + n) + k * n + (i * k + a))%nat)).
Proof.
  intros V U k s0 v g wsW q Ec Hk HV m n Hcol Hrow.
  pose proof (construct_inv _ _ _ _ _ Ec) as (_ & _ & _ & Em & En & Ek & _).
  assert (P : fold_right (fun c t => (used s0 c + t)%nat) 0%nat (repeat (Icall None None (AskMean false)) q) = (q * k * (m + n))%nat).
  { induction q as [|q IH]; [reflexivity|]. cbn [repeat fold_right]. rewrite IH. unfold used, used_H, draws_H, draws_W. cbn [c_ask c_H c_W].
    rewrite Em, En, Ek. fold m n. ring. }
  pose proof (proj1 (C156_default_start V U k s0 v g wsW (repeat (Icall None None (AskMean false)) q) Ec Hk HV Hcol Hrow)) as X.
  cbv zeta in X. rewrite P in X. exact X.
Qed.
Print Assumptions C156_repeated_starts.

(** The same seed with another number of factors: the profiles both models have start
    proportional, the more factors the smaller. *)
Theorem C156_same_seed_more_factors :
  forall (V U : nd) (k k' : nat) (s0 s0' : sa) v (g : nat -> R) wsW,
    construct V U k LSNMF = Some s0 -> construct V U k' LSNMF = Some s0' -> (0 < k)%nat -> (k <= k')%nat -> entries V v ->
    (forall i j, (i < rows V)%nat -> (j < cols V)%nat -> 0 <= v i j) ->
    exists s s' c c' H H',
      fst (init_at g wsW (s0, 0%nat) (Icall None None (AskMean false))) = InitOk s c /\ s_H s = Some H /\
      fst (init_at g wsW (s0', 0%nat) (Icall None None (AskMean false))) = InitOk s' c' /\ s_H s' = Some H' /\
      forall a j, (a < k)%nat -> (j < cols V)%nat -> exists x x', cell H a j = Fin x /\ cell H' a j = Fin x' /\
        (0 < rsum (rows V) (fun i => v i j) -> 0 < g (a * cols V + j)%nat -> sqrt (INR k') * x' = sqrt (INR k) * x) /\
        (rsum (rows V) (fun i => v i j) = 0 \/ g (a * cols V + j)%nat <= 0 -> x = / 10 ^ 12 /\ x' = / 10 ^ 12).
Proof.
  intros V U k k' s0 s0' v g wsW Ec Ec' Hk Hkk HV Hv.
  pose proof (construct_inv _ _ _ _ _ Ec) as (_ & _ & _ & _ & _ & _ & _ & _ & _ & _ & _ & Hm & Hn & _).
  assert (Hcol : forall j, (j < cols V)%nat -> 0 <= rsum (rows V) (fun i => v i j)) by (intros; apply rsum_nonneg; intros; apply Hv; assumption).
  assert (Hrow : forall i, (i < rows V)%nat -> 0 <= rsum (cols V) (v i)) by (intros; apply rsum_nonneg; intros; apply Hv; assumption).
  destruct (proj1 (C156_default_start V U k s0 v g wsW [] Ec Hk HV Hcol Hrow)) as (s & c & H & W & E & EH & _ & [S1 S2] & _ & XH & _).
  destruct (proj1 (C156_default_start V U k' s0' v g wsW [] Ec' ltac:(lia) HV Hcol Hrow)) as (s' & c' & H' & W' & E' & EH' & _ & [S1' S2'] & _ & XH' & _).
  exists s, s', c, c', H, H'. split; [exact E|]. split; [exact EH|]. split; [exact E'|]. split; [exact EH'|].
  intros a j Ha Hj. do 2 eexists. split; [apply XH; lia|]. split; [apply XH'; lia|]. cbn [fold_right Nat.add].
  set (t := rsum (rows V) (fun i => v i j)) in *. set (y := g (a * cols V + j)%nat).
  assert (Pm : 0 < INR (rows V)) by (apply lt_0_INR; exact Hm).
  assert (P : 0 < INR k) by (apply lt_0_INR; exact Hk). assert (P' : 0 < INR k') by (apply lt_0_INR; lia).
  assert (T0 : 0 <= t / INR (rows V)).
  { unfold Rdiv. apply Rmult_le_pos; [apply Hcol, Hj|]. left. apply Rinv_0_lt_compat, Pm. }
  assert (Q : forall l, 0 < INR l -> sqrt (t / INR (rows V) / INR l) = sqrt (t / INR (rows V)) / sqrt (INR l)) by (intros l Hl; apply sqrt_div; assumption).
  rewrite (Q k P), (Q k' P'). pose proof (sqrt_lt_R0 _ P) as R1. pose proof (sqrt_lt_R0 _ P') as R2. split.
  - intros Ht Hy. assert (T : 0 < sqrt (t / INR (rows V))) by (apply sqrt_lt_R0; apply Rdiv_lt_0_compat; assumption).
    assert (A : forall l, 0 < l -> made_positive (sqrt (t / INR (rows V)) / l * y) = sqrt (t / INR (rows V)) / l * y).
    { intros l Hl. unfold made_positive. destruct (Rle_dec _ 0) as [B|]; [|reflexivity]. exfalso.
      assert (0 < sqrt (t / INR (rows V)) / l * y) by (apply Rmult_lt_0_compat; [apply Rdiv_lt_0_compat; assumption|assumption]). lra. }
    rewrite (A _ R1), (A _ R2). field. split; lra.
  - intros D. assert (A : forall l, 0 < l -> made_positive (sqrt (t / INR (rows V)) / l * y) = / 10 ^ 12).
    { intros l Hl. unfold made_positive. destruct (Rle_dec _ 0) as [B|B]; [reflexivity|]. exfalso. apply B.
      pose proof (sqrt_pos (t / INR (rows V))) as Z. assert (Z' : 0 <= sqrt (t / INR (rows V)) / l) by (unfold Rdiv; apply Rmult_le_pos; [exact Z|left; apply Rinv_0_lt_compat, Hl]).
      destruct D as [D|D].
      - rewrite D. unfold Rdiv at 2. rewrite Rmult_0_l, sqrt_0. unfold Rdiv. rewrite Rmult_0_l, Rmult_0_l. lra.
      - nra. }
    split; apply A; assumption.
Qed.
Print Assumptions C156_same_seed_more_factors.

(** One cell, one factor, and the draws 1, 2, 3, ... *)
Lemma one_cell_start cs s0 : construct (arr11 (Fin 1)) (arr11 (Fin 1)) 1 LSNMF = Some s0 ->
  let g := fun i => INR (S i) in let p := fold_right (fun c t => (used s0 c + t)%nat) 0%nat cs in
  (exists s c H W, fst (init_at g (fun x => x) (after g (fun x => x) s0 cs) (Icall None None (AskMean false))) = InitOk s c /\
     s_H s = Some H /\ s_W s = Some W /\ cell H 0 0 = Fin (INR (S p)) /\ cell W 0 0 = Fin (INR (S (S p)))) /\
  (forall h, shape (h_arr h) 1 1 -> exists s c W, fst (init_at g (fun x => x) (after g (fun x => x) s0 cs) (Icall (Some h) None (AskMean false))) = InitOk s c /\
     s_W s = Some W /\ cell W 0 0 = Fin (INR (S p))).
Proof.
  intros Ec g p.
  assert (HV : entries (arr11 (Fin 1)) (fun _ _ => 1)) by (intros i j _ _; reflexivity).
  assert (Q : sqrt (rsum 1 (fun _ => 1) / INR 1 / INR 1) = 1) by (cbn [rsum]; replace ((0 + 1) / INR 1 / INR 1) with 1 by (cbn; field); apply sqrt_1).
  assert (M : forall i, made_positive (1 * INR (S i)) = INR (S i)).
  { intros i. unfold made_positive. pose proof (lt_0_INR (S i) ltac:(lia)). destruct (Rle_dec _ 0); lra. }
  destruct (C156_default_start (arr11 (Fin 1)) (arr11 (Fin 1)) 1 s0 (fun _ _ => 1) g (fun x => x) cs Ec ltac:(lia) HV) as [A B];
    [intros j _; cbn; lra|intros i _; cbn; lra|]. fold p in A, B. split.
  - destruct A as (s & c & H & W & E & EH & EW & [S1 S2] & [T1 T2] & XH & XW). exists s, c, H, W.
    split; [exact E|]. split; [exact EH|]. split; [exact EW|]. split.
    + rewrite XH by (rewrite ?S1, ?S2; cbn; lia). cbn [arr11 rows cols]. cbv beta. rewrite Q. unfold g. rewrite M. f_equal. f_equal. lia.
    + rewrite XW by (rewrite ?T1, ?T2; cbn; lia). cbn [arr11 rows cols]. cbv beta. rewrite Q. unfold g. rewrite M. f_equal. f_equal. lia.
  - intros h Sh. destruct (B h Sh) as (s & c & W & E & EW & [T1 T2] & XW). exists s, c, W. split; [exact E|]. split; [exact EW|].
    rewrite XW by (rewrite ?T1, ?T2; cbn; lia). cbn [arr11 rows cols]. cbv beta. rewrite Q. unfold g. rewrite M. f_equal. f_equal. lia.
Qed.

(** The documentation's "seed" does not fix the start of a call: initializing again gives
    other matrices, and giving the profiles changes the contributions that are drawn. *)
Theorem C156_initialize_again_refuted :
  ~ (forall V U k s0 g wsW s c s' c',
       construct V U k LSNMF = Some s0 -> (0 < k)%nat ->
       fst (init_at g wsW (after g wsW s0 []) (Icall None None (AskMean false))) = InitOk s c ->
       fst (init_at g wsW (after g wsW s0 [Icall None None (AskMean false)]) (Icall None None (AskMean false))) = InitOk s' c' ->
       s_H s' = s_H s).
Proof.
  intros F. destruct (one_cell_construct 1 LSNMF) as (s0 & Ec & _).
  pose proof (construct_inv _ _ _ _ _ Ec) as (_ & _ & _ & Em & En & Ek & _). cbn in Em, En.
  destruct (proj1 (one_cell_start [] s0 Ec)) as (s & c & H & W & E & EH & _ & X & _).
  destruct (proj1 (one_cell_start [Icall None None (AskMean false)] s0 Ec)) as (s' & c' & H' & W' & E' & EH' & _ & X' & _).
  specialize (F _ _ _ _ _ _ _ _ _ _ Ec ltac:(lia) E E'). rewrite EH, EH' in F. injection F as ->. rewrite X in X'. injection X' as X'.
  unfold used, used_H, draws_H, draws_W in X'. cbn [fold_right c_ask c_H c_W] in X'. rewrite Em, En, Ek in X'. cbn in X'. lra.
Qed.
Print Assumptions C156_initialize_again_refuted.

Theorem C156_given_profiles_same_contributions_refuted :
  ~ (forall V U k s0 g wsW h s c s' c',
       construct V U k LSNMF = Some s0 -> (0 < k)%nat -> shape (h_arr h) k (cols V) ->
       fst (init_at g wsW (s0, 0%nat) (Icall None None (AskMean false))) = InitOk s c ->
       fst (init_at g wsW (s0, 0%nat) (Icall (Some h) None (AskMean false))) = InitOk s' c' ->
       s_W s' = s_W s).
Proof.
  intros F. destruct (one_cell_construct 1 LSNMF) as (s0 & Ec & _).
  destruct (one_cell_start [] s0 Ec) as [(s & c & H & W & E & _ & EW & _ & X) B].
  destruct (B (HArg (arr11 (Fin 1)) false)) as (s' & c' & W' & E' & EW' & X'); [split; reflexivity|].
  specialize (F _ _ _ _ _ _ (HArg (arr11 (Fin 1)) false) _ _ _ _ Ec ltac:(lia) ltac:(split; reflexivity) E E'). rewrite EW, EW' in F. injection F as ->. rewrite X in X'. injection X' as X'. cbn in X'. lra.
Qed.
Print Assumptions C156_given_profiles_same_contributions_refuted.

(** A default call, a call with profiles and contributions given, a k-means call, and
    then a default call: on one cell with one factor 2 + 0 + 1 numbers are gone. *)
Definition three_calls : list icall :=
  [Icall None None (AskMean false); Icall (Some (HArg (arr11 (Fin 1)) false)) (Some (arr11 (Fin 1))) (AskMean false);
   Icall None None (AskKmeans (fun _ _ => Fin 1) (fun _ => 0%nat))].
Example C156_start_after_history_example : exists s0, construct (arr11 (Fin 1)) (arr11 (Fin 1)) 1 LSNMF = Some s0 /\
  snd (after (fun i => INR (S i)) (fun x => x) s0 three_calls) = 3%nat.
Proof.
  destruct (one_cell_construct 1 LSNMF) as (s0 & Ec & _). exists s0. split; [exact Ec|].
  pose proof (construct_inv _ _ _ _ _ Ec) as (_ & _ & _ & Em & En & Ek & _). cbn in Em, En.
  rewrite (proj1 (C156_start_after_history (fun i => INR (S i)) (fun x => x) s0 three_calls (Icall None None (AskMean false)))).
  unfold three_calls, used, used_H, draws_H, draws_W. cbn [fold_right c_ask c_H c_W]. rewrite Em, En, Ek. reflexivity.
Qed.
Example C156_default_start_example : exists s0 s c H W, construct (arr11 (Fin 1)) (arr11 (Fin 1)) 1 LSNMF = Some s0 /\
  fst (init_at (fun i => INR (S i)) (fun x => x) (after (fun i => INR (S i)) (fun x => x) s0 three_calls) (Icall None None (AskMean false))) = InitOk s c /\
  s_H s = Some H /\ s_W s = Some W /\ cell H 0 0 = Fin 4 /\ cell W 0 0 = Fin 5.
Proof.
  destruct C156_start_after_history_example as (s0 & Ec & P).
  pose proof (proj1 (C156_start_after_history (fun i => INR (S i)) (fun x => x) s0 three_calls (Icall None None (AskMean false)))) as P'. cbv zeta in P'. rewrite P in P'.
  destruct (proj1 (one_cell_start three_calls s0 Ec)) as (s & c & H & W & E & EH & EW & X & Y). rewrite <- P' in X, Y.
  exists s0, s, c, H, W. repeat (split; [assumption|]). split; [rewrite X|rewrite Y]; f_equal; cbn; lra.
Qed.
Example C156_given_matrices_draw_nothing_example : exists s0, construct (arr11 (Fin 1)) (arr11 (Fin 1)) 1 LSNMF = Some s0 /\
  shape (h_arr (HArg (arr11 (Fin 1)) false)) (s_k s0) (s_n s0) /\
  used s0 (Icall (Some (HArg (arr11 (Fin 1)) false)) (Some (arr11 (Fin 1))) (AskMean false)) = 0%nat.
Proof.
  destruct (one_cell_construct 1 LSNMF) as (s0 & Ec & _). exists s0. split; [exact Ec|].
  pose proof (construct_inv _ _ _ _ _ Ec) as (_ & _ & _ & Em & En & Ek & _). cbn in Em, En.
  split; [rewrite Ek, En; split; reflexivity|]. unfold used, used_H, draws_H, draws_W. cbn [c_ask c_H c_W]. rewrite En, Ek. reflexivity.
Qed.
(** Two rows (1, 4): with one factor and with four. *)
Example C156_same_seed_more_factors_example : let V := ND 2 1 (fun i _ => Fin (if (i =? 0)%nat then 1 else 4)) in
  (exists s0, construct V V 1 LSNMF = Some s0) /\ (exists s0, construct V V 4 LSNMF = Some s0) /\
  entries V (fun i _ => if (i =? 0)%nat then 1 else 4) /\ 0 < rsum 2 (fun i => if (i =? 0)%nat then 1 else 4).
Proof.
  intros V.
  assert (A : forall k, exists s0, construct V V k LSNMF = Some s0).
  { intros k. unfold construct, validate. destruct (min_neg_defined V) as [? ->]; try (cbn; lia). destruct (min_neg_defined (ndmap floor_u V)) as [? ->]; try (cbn; lia). eauto. }
  split; [apply A|]. split; [apply A|]. split; [intros i j _ _; reflexivity|cbn; lra].
Qed.
(** The third start (q = 2) on one cell takes the numbers 5 and 6. *)
Example C156_repeated_starts_example : exists s0 s c H W, construct (arr11 (Fin 1)) (arr11 (Fin 1)) 1 LSNMF = Some s0 /\
  fst (init_at (fun i => INR (S i)) (fun x => x) (after (fun i => INR (S i)) (fun x => x) s0 (repeat (Icall None None (AskMean false)) 2)) (Icall None None (AskMean false))) = InitOk s c /\
  s_H s = Some H /\ s_W s = Some W /\ cell H 0 0 = Fin 5 /\ cell W 0 0 = Fin 6.
Proof.
  destruct (one_cell_construct 1 LSNMF) as (s0 & Ec & _).
  pose proof (construct_inv _ _ _ _ _ Ec) as (_ & _ & _ & Em & En & Ek & _). cbn in Em, En.
  destruct (proj1 (one_cell_start (repeat (Icall None None (AskMean false)) 2) s0 Ec)) as (s & c & H & W & E & EH & EW & X & Y).
  unfold used, used_H, draws_H, draws_W in X, Y. cbn [repeat fold_right c_ask c_H c_W] in X, Y. rewrite Em, En, Ek in X, Y.
  exists s0, s, c, H, W. repeat (split; [assumption|]). split; [rewrite X|rewrite Y]; f_equal; cbn; lra.
Qed.

(** How many numbers a call takes: m with k-means; otherwise k n unless profiles of the
    right shape are given, and m k unless contributions are given or computed. *)
Theorem C156_numbers_drawn :
  forall (g : nat -> R) (wsW : nd -> nd) (s : sa) (p : nat) (H0 : option harg) (W0 : option nd) (a : ask),
    let q := snd (snd (init_at g wsW (s, p) (Icall H0 W0 a))) in
    let given := exists h, H0 = Some h /\ shape (h_arr h) (s_k s) (s_n s) in
    (forall ce cl, a = AskKmeans ce cl -> q = p + s_m s)%nat /\
    (forall upd, a = AskMean upd -> given -> upd = true \/ W0 <> None -> q = p) /\
    (forall upd, a = AskMean upd -> ~ given -> upd = true \/ W0 <> None -> q = p + s_k s * s_n s)%nat /\
    (a = AskMean false -> given -> W0 = None -> q = p + s_m s * s_k s)%nat /\
    (a = AskMean false -> ~ given -> W0 = None -> q = p + s_k s * s_n s + s_m s * s_k s)%nat.
Proof.
  intros g wsW s p H0 W0 a q given.
  assert (G1 : given -> draws_H s (Icall H0 W0 (AskMean true)) = false).
  { intros (h & -> & Sh). apply same_shape_iff in Sh. unfold draws_H. cbn [c_ask c_H]. rewrite Sh. reflexivity. }
  assert (G2 : ~ given -> draws_H s (Icall H0 W0 (AskMean true)) = true).
  { intros N. unfold draws_H. cbn [c_ask c_H]. destruct H0 as [h|]; [|reflexivity].
    destruct (same_shape (h_arr h) (s_k s) (s_n s)) eqn:E; [|reflexivity]. exfalso. apply N. exists h. split; [reflexivity|]. apply same_shape_iff, E. }
  unfold q, init_at. cbn [fst snd]. split; [intros ce cl ->; reflexivity|].
  split; [|split; [|split]].
  - intros upd -> Gv D. unfold used, used_H. cbn [c_ask]. change (draws_H s (Icall H0 W0 (AskMean upd))) with (draws_H s (Icall H0 W0 (AskMean true))). rewrite (G1 Gv).
    unfold draws_W. cbn [c_ask c_W]. destruct upd; [lia|]. destruct W0; [lia|]. destruct D; [discriminate|congruence].
  - intros upd -> Gv D. unfold used, used_H. cbn [c_ask]. change (draws_H s (Icall H0 W0 (AskMean upd))) with (draws_H s (Icall H0 W0 (AskMean true))). rewrite (G2 Gv).
    unfold draws_W. cbn [c_ask c_W]. destruct upd; [lia|]. destruct W0; [lia|]. destruct D; [discriminate|congruence].
  - intros -> Gv ->. unfold used, used_H. cbn [c_ask]. change (draws_H s (Icall H0 None (AskMean false))) with (draws_H s (Icall H0 None (AskMean true))). rewrite (G1 Gv).
    unfold draws_W. cbn [c_ask c_W]. lia.
  - intros -> Gv ->. unfold used, used_H. cbn [c_ask]. change (draws_H s (Icall H0 None (AskMean false))) with (draws_H s (Icall H0 None (AskMean true))). rewrite (G2 Gv).
    unfold draws_W. cbn [c_ask c_W]. lia.
Qed.
Print Assumptions C156_numbers_drawn.
Example C156_numbers_drawn_example : exists s0, construct (arr11 (Fin 1)) (arr11 (Fin 1)) 1 LSNMF = Some s0 /\
  (snd (snd (init_at INR (fun x => x) (s0, 4) (Icall None (Some (arr11 (Fin 1))) (AskMean false)))) = 5)%nat.
Proof.
  destruct (one_cell_construct 1 LSNMF) as (s0 & Ec & _). exists s0. split; [exact Ec|].
  pose proof (construct_inv _ _ _ _ _ Ec) as (_ & _ & _ & Em & En & Ek & _). cbn in Em, En.
  destruct (C156_numbers_drawn INR (fun x => x) s0 4 None (Some (arr11 (Fin 1))) (AskMean false)) as (_ & _ & X & _).
  rewrite (X false eq_refl); [rewrite Ek, En; reflexivity|intros (h & E & _); discriminate E|right; discriminate].
Qed.

(** A k-means start: the contribution of sample i to the factor of its cluster is one
    tenth of number i above 1. *)
Theorem C156_kmeans_draws :
  forall (V U : nd) (k : nat) (mth : method) (s0 s : sa) (g : nat -> R) wsW p H0 W0 (ce : nat -> nat -> R) cl c,
    construct V U k mth = Some s0 -> (forall h, H0 = Some h -> shape (h_arr h) k (cols V)) ->
    fst (init_at g wsW (s0, p) (Icall H0 W0 (AskKmeans (fun a j => Fin (ce a j)) cl))) = InitOk s c ->
    exists W, s_W s = Some W /\ shape W (rows V) k /\
      forall i a, (i < rows V)%nat -> (a < k)%nat -> cell W i a = Fin (if (a =? cl i)%nat then 1 + g (p + i)%nat / 10 else / INR k).
Proof.
  intros V U k mth s0 s g wsW p H0 W0 ce cl c Ec Sh E. unfold init_at, kind_at in E. cbn [fst snd c_H c_W c_ask] in E.
  destruct (C21_kmeans_start V U k mth s0 s H0 W0 ce cl (fun i => 1 + g (p + i)%nat / 10) c Ec Sh E) as (H & W & _ & EW & _ & SW & _ & X).
  exists W. split; [exact EW|]. split; [exact SW|]. intros i a Hi Ha. destruct (X i a Hi Ha) as [X1 X2].
  destruct (Nat.eqb_spec a (cl i)) as [Q|Q]; [apply X1, Q|apply X2, Q].
Qed.
Print Assumptions C156_kmeans_draws.
Example C156_kmeans_draws_example : exists s0 s c W, construct (arr11 (Fin 1)) (arr11 (Fin 1)) 1 LSNMF = Some s0 /\
  fst (init_at INR (fun x => x) (s0, 4%nat) (Icall None None (AskKmeans (fun _ _ => Fin 2) (fun _ => 0%nat)))) = InitOk s c /\
  s_W s = Some W /\ cell W 0 0 = Fin (14 / 10).
Proof.
  destruct (one_cell_construct 1 LSNMF) as (s0 & Es & _).
  pose proof (construct_inv _ _ _ _ _ Es) as (EV & EU & _ & Em & En & Ek & Emth & _).
  assert (E : exists s c, fst (init_at INR (fun x => x) (s0, 4%nat) (Icall None None (AskKmeans (fun _ _ => Fin 2) (fun _ => 0%nat)))) = InitOk s c).
  { unfold init_at, kind_at. cbn [fst snd c_H c_W c_ask]. unfold initialize. cbv zeta. cbn [option_map].
    match goal with |- context [validate ?v ?u ?m ?n ?k (Some ?h) (Some ?w)] =>
      destruct (validate_defined v u m n k h w) as (ok & neg & Ev) end;
      try (rewrite ?EV, ?EU; cbn; rewrite ?Em, ?Ek, ?En; cbn; lia).
    rewrite Ev. eauto. }
  destruct E as (s & c & E).
  destruct (C156_kmeans_draws _ _ _ _ s0 s INR (fun x => x) 4 None None (fun _ _ => 2) (fun _ => 0%nat) c Es ltac:(discriminate) E) as (W & EW & _ & X).
  exists s0, s, c, W. repeat (split; [assumption|]). rewrite X by (cbn; lia). cbn. f_equal. lra.
Qed.
