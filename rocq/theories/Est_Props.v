(** C44-C45: factor estimation. *)
From Coq Require Import List Bool ZArith Lia Reals Lra Permutation.
From Verif Require Import Base Fl Metrics_Model Constr_Model ConstrX_Proofs Est_Model.
Import ListNotations.
Local Open Scope R_scope.

(** ** C44 *)
Lemma msum_const m n c : msum m n (fun _ _ => c) = INR m * INR n * c.
Proof. unfold msum. rewrite (rsum_ext m _ (fun _ => INR n * c)) by (intros; apply rsum_const). rewrite rsum_const. ring. Qed.

Lemma test_mask_one u thr i j : test_mask (get_mask u thr) i j = 1%Z.
Proof. unfold test_mask, get_mask. destruct (Rltb thr (u i j)); reflexivity. Qed.

(** The test error is the mean squared residual over every cell, whatever the
    random hold-out. *)
Theorem C44_test_error_covers_all_cells :
  forall (m n : nat) round5 fit q (V u : mat) (thr : R) (seed k : nat), (0 < m)%nat -> (0 < n)%nat ->
    let W := fst (fit seed k) in let H := snd (fit seed k) in
    s_test (random_sample m n round5 fit q V (get_mask u thr) seed k) =
    round5 (Fin (msum m n (fun i j => (V i j - mmul k W H i j) ^ 2) / (INR m * INR n))).
Proof.
  intros m n round5 fit q V u thr seed k Hm Hn W H. unfold random_sample. unfold W, H. destruct (fit seed k) as [W0 H0].
  cbn [s_test fst snd]. f_equal. unfold masked_mse, count_nonzero.
  rewrite (msum_ext m n _ (fun i j => (V i j - mmul k W0 H0 i j) ^ 2)).
  2:{ intros i j Hi Hj. rewrite test_mask_one. unfold resid. ring. }
  rewrite (msum_ext m n (fun i j => if (test_mask (get_mask u thr) i j =? 0)%Z then 0 else 1) (fun _ _ => 1)).
  2:{ intros i j _ _. rewrite test_mask_one. reflexivity. }
  rewrite msum_const, Rmult_1_r. cbn [fdiv].
  destruct (Req_EM_T (INR m * INR n) 0) as [E|]; [|reflexivity].
  exfalso. apply Rmult_integral in E. destruct E as [E|E]; [apply (INR_eq m 0) in E|apply (INR_eq n 0) in E]; lia.
Qed.
Print Assumptions C44_test_error_covers_all_cells.

(** The train error averages the squared residuals of the cells not held out. *)
Theorem C44_train_error :
  forall (m n : nat) round5 fit q (V u : mat) (thr : R) (seed k : nat),
    let W := fst (fit seed k) in let H := snd (fit seed k) in
    let kept i j := if Rlt_dec thr (u i j) then 1 else 0 in
    s_train (random_sample m n round5 fit q V (get_mask u thr) seed k) =
    round5 (if Req_EM_T (msum m n kept) 0 then NaN
            else Fin (msum m n (fun i j => kept i j * (V i j - mmul k W H i j) ^ 2) / msum m n kept)).
Proof.
  intros m n round5 fit q V u thr seed k W H kept. unfold random_sample. unfold W, H. destruct (fit seed k) as [W0 H0].
  cbn [s_train fst snd]. f_equal. unfold masked_mse, count_nonzero.
  assert (Hk : forall i j, IZR (get_mask u thr i j) = kept i j).
  { intros. unfold get_mask, kept, Rltb. destruct (Rlt_dec thr (u i j)); reflexivity. }
  rewrite (msum_ext m n (fun i j => IZR (get_mask u thr i j) * resid k V W0 H0 i j ^ 2) (fun i j => kept i j * (V i j - mmul k W0 H0 i j) ^ 2)) by (intros i j _ _; rewrite Hk; reflexivity).
  rewrite (msum_ext m n (fun i j => if (get_mask u thr i j =? 0)%Z then 0 else 1) kept).
  2:{ intros i j _ _. unfold get_mask, kept, Rltb. destruct (Rlt_dec thr (u i j)); reflexivity. }
  cbn [fdiv]. destruct (Req_EM_T (msum m n kept) 0) as [E|E]; [|reflexivity].
  assert (Hz : forall i j, (i < m)%nat -> (j < n)%nat -> kept i j = 0).
  { apply (msum_zero m n kept); [|exact E]. intros i j _ _. unfold kept. destruct (Rlt_dec thr (u i j)); lra. }
  rewrite (msum_ext m n (fun i j => kept i j * (V i j - mmul k W0 H0 i j) ^ 2) (fun _ _ => 0)) by (intros i j Hi Hj; rewrite (Hz i j Hi Hj); ring).
  rewrite msum_const, Rmult_0_r. unfold fsign, inf_of_sign.
  repeat (destruct (Rlt_dec _ _); try lra). reflexivity.
Qed.
Print Assumptions C44_train_error.
(* one sample of two features, the second held out *)
Definition xe_V : mat := fun _ j => match j with O => 3 | _ => 1 end.
Definition xe_u : mat := fun _ j => match j with O => 1 | _ => 0 end.
Definition xe_fit (seed k : nat) : mat * mat := ((fun _ _ => 1), (fun _ _ => 1)).
Example C44_test_error_covers_all_cells_example :=
  C44_test_error_covers_all_cells 1 2 (fun x => x) xe_fit (fun _ => (NaN, NaN)) xe_V xe_u (1 / 10) 0 1 ltac:(lia) ltac:(lia).
Example C44_train_error_example :=
  C44_train_error 1 2 (fun x => x) xe_fit (fun _ => (NaN, NaN)) xe_V xe_u (1 / 10) 0 1.

Example C44_instance :
  let V := (fun _ j => match j with O => 3 | _ => 1 end) : mat in
  let fit := (fun _ _ : nat => ((fun _ _ => 1) : mat, (fun _ _ => 1) : mat)) in
  let u := (fun _ j => match j with O => 1 | _ => 0 end) : mat in   (* first cell kept, second held out *)
  s_test (random_sample 1 2 (fun x => x) fit (fun _ => (NaN, NaN)) V (get_mask u (1 / 10)) 0 1) = Fin 2 /\
  s_train (random_sample 1 2 (fun x => x) fit (fun _ => (NaN, NaN)) V (get_mask u (1 / 10)) 0 1) = Fin 4.
Proof.
  intros V fit u. rewrite C44_test_error_covers_all_cells, C44_train_error by lia. split.
  - f_equal. unfold msum, mmul, V, fit. cbn. field.
  - unfold msum, mmul, V, fit, u. cbn. destruct (Rlt_dec (1 / 10) 1); [|lra]. destruct (Rlt_dec (1 / 10) 0); [lra|].
    destruct (Req_EM_T _ 0) as [E|]; [exfalso; lra|]. f_equal. field.
Qed.

(** The test error measures the held-out cells only: refuted (the held-out cell is
    fitted exactly, the test error is 2). *)
Theorem C44_test_error_is_held_out_error_refuted :
  exists (V u W H : mat) thr,
    (forall i j, (i < 1)%nat -> (j < 2)%nat -> ~ thr < u i j -> V i j - mmul 1 W H i j = 0) /\
    (exists i j, (i < 1)%nat /\ (j < 2)%nat /\ ~ thr < u i j) /\
    s_test (random_sample 1 2 (fun x => x) (fun _ _ => (W, H)) (fun _ => (NaN, NaN)) V (get_mask u thr) 0 1) = Fin 2.
Proof.
  exists (fun _ j => match j with O => 3 | _ => 1 end), (fun _ j => match j with O => 1 | _ => 0 end), (fun _ _ => 1), (fun _ _ => 1), (1 / 10).
  split; [|split].
  - intros i [|j] Hi Hj Hn; [exfalso; apply Hn; lra|]. unfold mmul. cbn. ring.
  - exists 0%nat, 1%nat. repeat split; try lia. lra.
  - apply C44_instance.
Qed.
Print Assumptions C44_test_error_is_held_out_error_refuted.

(** ** C45 *)
Lemma fadd_comm x y : fadd x y = fadd y x.
Proof. destruct x, y; cbn; try reflexivity. f_equal. ring. Qed.
Lemma fadd_0_l x : fadd (Fin 0) x = x.
Proof. destruct x; cbn; try reflexivity. f_equal. ring. Qed.
Lemma fadd_assoc x y z : fadd (fadd x y) z = fadd x (fadd y z).
Proof. destruct x, y, z; cbn; try reflexivity. f_equal. ring. Qed.
Lemma lfsum_acc l : forall a, fold_left fadd l a = fadd a (lfsum l).
Proof.
  unfold lfsum. induction l as [|x l IH]; intros a; cbn [fold_left].
  - rewrite fadd_comm, fadd_0_l. reflexivity.
  - rewrite IH, (IH (fadd (Fin 0) x)), fadd_0_l, fadd_assoc. reflexivity.
Qed.
Lemma lfsum_perm l l' : Permutation l l' -> lfsum l = lfsum l'.
Proof.
  intros P. unfold lfsum. generalize (Fin 0). induction P; intros a; cbn [fold_left]; auto.
  - f_equal. rewrite !fadd_assoc. f_equal. apply fadd_comm.
  - rewrite IHP1. apply IHP2.
Qed.
Lemma filter_perm {A} (f : A -> bool) l l' : Permutation l l' -> Permutation (filter f l) (filter f l').
Proof.
  induction 1; cbn; auto.
  - destruct (f x); auto.
  - destruct (f x), (f y); auto. apply perm_swap.
  - etransitivity; eassumption.
Qed.

(** Every column, and hence the estimate, is independent of the completion order. *)
Theorem C45_completion_order_irrelevant :
  forall (f : sample -> fl) (kc : R) (lo hi : nat) (a a' : list sample), Permutation a a' ->
    column f a lo hi = column f a' lo hi /\ run kc lo hi a = run kc lo hi a'.
Proof.
  intros f kc lo hi a a' P.
  assert (Hc : forall g, column g a lo hi = column g a' lo hi).
  { intros g. unfold column. apply map_ext. intros k. unfold lmean, grouped.
    assert (P' : Permutation (map g (filter (fun s => (s_k s =? k)%nat) a)) (map g (filter (fun s => (s_k s =? k)%nat) a')))
      by (apply Permutation_map, filter_perm, P).
    rewrite (lfsum_perm _ _ P'), (Permutation_length P'). reflexivity. }
  split; [apply Hc|]. unfold run. rewrite Hc. reflexivity.
Qed.
Print Assumptions C45_completion_order_irrelevant.

(** Column entries: mean over the samples with that factor count, NaN without. *)
Theorem C45_column_entries :
  forall (f : sample -> fl) (a : list sample) (lo hi i : nat), (i <= hi - lo)%nat -> (lo <= hi)%nat ->
    let l := map f (filter (fun s => (s_k s =? lo + i)%nat) a) in
    nth_error (column f a lo hi) i = Some (lmean l) /\ (l = [] -> lmean l = NaN) /\
    (forall xs, l = map Fin xs -> l <> [] -> lmean l = Fin (lsum xs / INR (length xs))).
Proof.
  intros f a lo hi i Hi Hle l. repeat split.
  - unfold column. change (Some (lmean l)) with (Some ((fun k => lmean (grouped f a k)) (lo + i)%nat)). apply map_nth_error.
    rewrite (nth_error_nth' _ 0%nat) by (rewrite seq_length; lia). rewrite seq_nth by lia. reflexivity.
  - intros ->. unfold lmean, lfsum. cbn. destruct (Req_EM_T 0 0); [|congruence]. unfold inf_of_sign.
    repeat (destruct (Rlt_dec _ _); try lra). reflexivity.
  - intros xs E Hne. unfold lmean. rewrite E in *. rewrite map_length.
    assert (Hs : forall xs a, fold_left fadd (map Fin xs) (Fin a) = Fin (a + lsum xs)).
    { clear. induction xs as [|x xs IH]; intros a; cbn; [f_equal; ring|]. rewrite IH. f_equal. ring. }
    unfold lfsum. rewrite Hs, Rplus_0_l. cbn [fdiv]. destruct (Req_EM_T (INR (length xs)) 0) as [E0|]; [|reflexivity].
    exfalso. apply (INR_eq _ 0) in E0. destruct xs; [apply Hne; reflexivity|discriminate].
Qed.
Print Assumptions C45_column_entries.

(** Columns Q(true) and Q(robust): means of the two values of the models trained
    with that factor count; no mask plays a part. *)
Theorem C45_q_columns :
  forall (m n : nat) (round5 : fl -> fl) (fit : nat -> nat -> mat * mat) (qt qr : mat * mat -> R) (V : mat)
    (jobs : list ((nat -> nat -> Z) * nat * nat)) (lo hi i : nat), (i <= hi - lo)%nat -> (lo <= hi)%nat ->
    let arrivals := map (fun j => random_sample m n round5 fit (fun M => (Fin (qt M), Fin (qr M))) V (fst (fst j)) (snd (fst j)) (snd j)) jobs in
    let mine := filter (fun j => (snd j =? lo + i)%nat) jobs in
    mine <> [] ->
    nth_error (column s_qt arrivals lo hi) i = Some (Fin (lsum (map (fun j => qt (fit (snd (fst j)) (lo + i)%nat)) mine) / INR (length mine))) /\
    nth_error (column s_qr arrivals lo hi) i = Some (Fin (lsum (map (fun j => qr (fit (snd (fst j)) (lo + i)%nat)) mine) / INR (length mine))).
Proof.
  intros m n round5 fit qt qr V jobs lo hi i Hi Hle arrivals mine Hne.
  assert (G : forall (g : sample -> fl) (v : mat * mat -> R),
    (forall mask seed k, g (random_sample m n round5 fit (fun M => (Fin (qt M), Fin (qr M))) V mask seed k) = Fin (v (fit seed k))) ->
    nth_error (column g arrivals lo hi) i = Some (Fin (lsum (map (fun j => v (fit (snd (fst j)) (lo + i)%nat)) mine) / INR (length mine)))).
  { intros g v Hg. destruct (C45_column_entries g arrivals lo hi i Hi Hle) as (E & _ & F). rewrite E.
    assert (L : map g (filter (fun s => (s_k s =? lo + i)%nat) arrivals) = map Fin (map (fun j => v (fit (snd (fst j)) (lo + i)%nat)) mine)).
    { unfold arrivals, mine. clear - Hg. induction jobs as [|[[mask seed] k] t IH]; [reflexivity|]. cbn [map filter].
      assert (K : s_k (random_sample m n round5 fit (fun M => (Fin (qt M), Fin (qr M))) V mask seed k) = k)
        by (unfold random_sample; destruct (fit seed k); reflexivity).
      cbn [fst snd]. rewrite K. destruct (Nat.eqb_spec k (lo + i)) as [->|_]; [|exact IH]. cbn [map fst snd]. rewrite Hg, IH. reflexivity. }
    rewrite (F _ L), map_length; [reflexivity|]. rewrite L. destruct mine; [congruence|discriminate]. }
  split; apply G; intros mask seed k; unfold random_sample; destruct (fit seed k); reflexivity.
Qed.
Print Assumptions C45_q_columns.
Example C45_q_columns_example :
  nth_error (column s_qr (map (fun j => random_sample 1 1 (fun x => x) (fun seed k => ((fun _ _ => INR seed), (fun _ _ => 1)))
     (fun M => (Fin (fst M 0%nat 0%nat), Fin (2 * fst M 0%nat 0%nat))) (fun _ _ => 0) (fst (fst j)) (snd (fst j)) (snd j))
     [((fun _ _ => 0%Z), 3, 2); ((fun _ _ => 1%Z), 5, 2); ((fun _ _ => 1%Z), 4, 3)]%nat) 2 3) 0 = Some (Fin 8).
Proof.
  rewrite (proj2 (C45_q_columns 1 1 (fun x => x) (fun seed k => ((fun _ _ => INR seed), (fun _ _ => 1)))
     (fun M => fst M 0%nat 0%nat) (fun M => 2 * fst M 0%nat 0%nat) (fun _ _ => 0)
     [((fun _ _ => 0%Z), 3, 2); ((fun _ _ => 1%Z), 5, 2); ((fun _ _ => 1%Z), 4, 3)]%nat 2 3 0 ltac:(lia) ltac:(lia) ltac:(discriminate))).
  cbn. do 2 f_equal. lra.
Qed.

(** nanargmax *)
Lemma nanargmax_spec l : forall i0 best,
  match best with Some (b, j) => b <> NaN /\ (j < i0)%nat | None => True end ->
  match nanargmax l i0 best with
  | None => best = None /\ Forall (fun x => x = NaN) l
  | Some j => exists b, b <> NaN /\
      (best = Some (b, j) \/ exists p, j = (i0 + p)%nat /\ nth_error l p = Some b) /\
      (forall p x, nth_error l p = Some x -> x <> NaN -> flt b x = false /\ ((i0 + p < j)%nat -> flt x b = true)) /\
      (match best with Some (b0, j0) => flt b b0 = false /\ (j0 <> j -> flt b0 b = true) | None => True end)
  end.
Proof.
  induction l as [|x l IH]; intros i0 best Hb; cbn [nanargmax].
  - destruct best as [[b j]|]; [|auto]. exists b. split; [tauto|]. split; [auto|]. split; [intros [|p]; discriminate|].
    split; [apply flt_irrefl|congruence].
  - destruct (is_nan x) eqn:En.
    + assert (x = NaN) by (destruct x; try discriminate; reflexivity). subst x.
      specialize (IH (S i0) best). destruct (nanargmax l (S i0) best) as [j|].
      * destruct IH as (b & Hbn & Hor & Hall & Hbest); [destruct best as [[b0 j0]|]; [split; [tauto|destruct Hb; lia]|exact I]|].
        exists b. split; [exact Hbn|]. split; [|split].
        { destruct Hor as [H|(p & -> & Hp)]; [auto|right; exists (S p); split; [lia|exact Hp]]. }
        { intros [|p] y; cbn [nth_error]; [intros [= <-] H; congruence|]. intros Hp Hy.
          destruct (Hall p y Hp Hy) as [H1 H2]. split; [exact H1|]. intros H. apply H2. lia. }
        { exact Hbest. }
      * destruct IH as [H1 H2]; [destruct best as [[b0 j0]|]; [split; [tauto|destruct Hb; lia]|exact I]|]. auto.
    + assert (Hx : x <> NaN) by (intros ->; discriminate).
      set (best' := match best with None => Some (x, i0) | Some (b, j) => if flt b x then Some (x, i0) else best end).
      assert (Hb' : match best' with Some (b, j) => b <> NaN /\ (j < S i0)%nat | None => True end).
      { unfold best'. destruct best as [[b j]|]; [|split; [exact Hx|lia]]. destruct (flt b x); [split; [exact Hx|lia]|]. destruct Hb; split; [assumption|lia]. }
      specialize (IH (S i0) best' Hb'). destruct (nanargmax l (S i0) best') as [j|].
      * destruct IH as (b & Hbn & Hor & Hall & Hbest). exists b. split; [exact Hbn|].
        assert (Hbx : flt b x = false /\ ((i0 < j)%nat -> flt x b = true)).
        { unfold best' in *. destruct best as [[b0 j0]|]; [|destruct Hbest as [H1 H2]; split; [exact H1|intros; apply H2; lia]].
          destruct (flt b0 x) eqn:E; [destruct Hbest as [H1 H2]; split; [exact H1|intros; apply H2; lia]|].
          destruct Hbest as [H1 H2]. split; [eapply nflt_trans; [|exact H1|exact E]; tauto|].
          intros Hj. destruct Hb as [Hb0 Hj0]. specialize (H2 ltac:(lia)).
          destruct (flt x b) eqn:E'; [reflexivity|]. exfalso.
          assert (flt b0 b = false) by (eapply nflt_trans; [exact Hx|exact E|exact E']). congruence. }
        split; [|split].
        { destruct Hor as [H|(p & -> & Hp)].
          - unfold best' in H. destruct best as [[b0 j0]|].
            + destruct (flt b0 x); [|auto]. injection H as <- <-. right. exists 0%nat. split; [lia|reflexivity].
            + injection H as <- <-. right. exists 0%nat. split; [lia|reflexivity].
          - right. exists (S p). split; [lia|exact Hp]. }
        { intros [|p] y; cbn [nth_error].
          - intros [= <-] _. rewrite Nat.add_0_r. exact Hbx.
          - intros Hp Hy. destruct (Hall p y Hp Hy) as [H1 H2]. split; [exact H1|]. intros H. apply H2. lia. }
        { unfold best' in *. destruct best as [[b0 j0]|]; [|exact I].
          destruct (flt b0 x) eqn:E; [|exact Hbest]. destruct Hbest as [H1 H2].
          assert (Hlt : flt b0 b = true).
          { destruct (flt b0 b) eqn:E'; [reflexivity|]. exfalso.
            assert (flt b0 x = false) by (eapply nflt_trans; [exact Hbn|exact E'|exact H1]). congruence. }
          split; [|intros _; exact Hlt]. destruct (flt b b0) eqn:E'; [|reflexivity].
          pose proof (flt_trans _ _ _ E' Hlt) as Hc. rewrite flt_irrefl in Hc. discriminate. }
      * destruct IH as [H1 _]. exfalso. unfold best' in H1. destruct best as [[b0 j0]|]; [destruct (flt b0 x)|]; discriminate.
Qed.

Lemma scores_nth kc mn l : forall k i e, nth_error l i = Some e ->
  nth_error (scores kc k mn l) i = Some (fdiv mn (fmul e (Fin (Rpower (INR (k + i)) kc)))).
Proof.
  induction l as [|a l IH]; intros k [|i] e; cbn [nth_error scores]; try discriminate.
  - intros [= ->]. rewrite Nat.add_0_r. reflexivity.
  - intros H. rewrite (IH (S k) i e H). do 5 f_equal. f_equal. lia.
Qed.
Lemma scores_length kc mn l : forall k, length (scores kc k mn l) = length l.
Proof. induction l as [|a l IH]; intros k; cbn; auto. Qed.

(** All factor counts sampled and positive errors: the estimate is the first
    factor count minimising error * count^k_coef. *)
Theorem C45_estimate_minimises :
  forall (kc : R) (lo hi : nat) (e : list R), (1 <= lo)%nat -> (2 <= length e)%nat -> (forall x, In x e -> 0 < x) ->
    let score i := nth i e 0 * Rpower (INR (lo + i)) kc in
    exists i, estimate kc lo hi (map Fin e) = Some (Z.of_nat (lo + i)) /\ (i < length e)%nat /\
      (forall j, (j < length e)%nat -> score i <= score j) /\ (forall j, (j < i)%nat -> score i < score j).
Proof.
  intros kc lo hi e Hlo Hlen Hpos score. unfold estimate. rewrite map_length.
  destruct (Nat.leb_spec (length e) 1); [lia|].
  assert (Hm : exists mn, fmin_list (map Fin e) = Fin mn /\ 0 < mn).
  { destruct e as [|a e]; [cbn in Hlen; lia|]. unfold fmin_list. cbn [map].
    destruct (fmin_spec (map Fin e) (Fin a)) as [H1 _].
    { change (Fin a :: map Fin e) with (map Fin (a :: e)). rewrite in_map_iff. intros (y & [=] & _). }
    change (Fin a :: map Fin e) with (map Fin (a :: e)) in H1. apply in_map_iff in H1. destruct H1 as (y & Hy & Hi).
    exists y. split; [symmetry; exact Hy|apply Hpos, Hi]. }
  destruct Hm as (mn & -> & Hmn).
  assert (Hscore : forall i, (i < length e)%nat -> 0 < score i).
  { intros i Hi. apply Rmult_lt_0_compat; [apply Hpos, nth_In, Hi|apply exp_pos]. }
  assert (Hs : forall i, (i < length e)%nat -> nth_error (scores kc lo (Fin mn) (map Fin e)) i = Some (Fin (mn / score i))).
  { intros i Hi. rewrite (scores_nth kc (Fin mn) (map Fin e) lo i (Fin (nth i e 0))).
    - cbn [fmul fdiv]. fold (score i). destruct (Req_EM_T (score i) 0) as [E|]; [specialize (Hscore i Hi); lra|reflexivity].
    - apply map_nth_error. apply nth_error_nth'. exact Hi. }
  pose proof (nanargmax_spec (scores kc lo (Fin mn) (map Fin e)) 0 None I) as Hn.
  destruct (nanargmax _ 0 None) as [j|].
  - destruct Hn as (b & Hb & [H0|(p & -> & Hp)] & Hall & _); [discriminate|]. cbn [Nat.add] in *.
    assert (Hj : (p < length e)%nat) by (rewrite <- (map_length Fin e), <- (scores_length kc (Fin mn) _ lo); apply nth_error_Some; congruence).
    rewrite (Hs p Hj) in Hp. injection Hp as <-.
    exists p. split; [do 2 f_equal; lia|]. split; [exact Hj|].
    assert (Hcmp : forall i j, (i < length e)%nat -> (j < length e)%nat -> (mn / score i <= mn / score j <-> score j <= score i)).
    { intros i j Hi Hj'. pose proof (Hscore i Hi). pose proof (Hscore j Hj'). split; intros Hc.
      - apply Rmult_le_reg_r with (mn / score i * / score j).
        + apply Rmult_lt_0_compat; [apply Rdiv_lt_0_compat; assumption|apply Rinv_0_lt_compat; assumption].
        + replace (score j * (mn / score i * / score j)) with (mn / score i) by (field; lra).
          replace (score i * (mn / score i * / score j)) with (mn / score j) by (field; lra). exact Hc.
      - unfold Rdiv. apply Rmult_le_compat_l; [lra|]. apply Rinv_le_contravar; assumption. }
    split.
    + intros i Hi. destruct (Hall i _ (Hs i Hi) ltac:(discriminate)) as [H1 _]. cbn [flt] in H1. apply Rltb_false in H1.
      apply Hcmp in H1; assumption.
    + intros i Hi. destruct (Hall i _ (Hs i ltac:(lia)) ltac:(discriminate)) as [_ H2]. specialize (H2 Hi). cbn [flt] in H2.
      apply Rltb_iff in H2. destruct (Rlt_le_dec (score p) (score i)) as [|Hle]; [assumption|].
      apply Hcmp in Hle; try lia. lra.
  - destruct Hn as [_ Hf]. exfalso. rewrite Forall_forall in Hf.
    pose proof (Hf _ (nth_error_In _ _ (Hs 0%nat ltac:(lia)))). discriminate.
Qed.
Print Assumptions C45_estimate_minimises.

(** A factor count without samples (or with a NaN error) makes the estimate -1. *)
Theorem C45_missing_factor_count :
  forall (kc : R) (lo hi : nat) (mse : list fl), (2 <= length mse)%nat -> In NaN mse ->
    estimate kc lo hi mse = Some (-1)%Z.
Proof.
  intros kc lo hi mse Hlen Hn. unfold estimate. destruct (Nat.leb_spec (length mse) 1); [lia|].
  assert (Hm : fmin_list mse = NaN) by (destruct mse as [|x t]; [reflexivity|apply fmin_nan, Hn]). rewrite Hm.
  assert (Hall : forall l k i, nanargmax (scores kc k NaN l) i None = None).
  { induction l as [|a l IH]; intros k i; cbn; [reflexivity|apply IH]. }
  rewrite Hall. reflexivity.
Qed.
Print Assumptions C45_missing_factor_count.

Theorem C45_unsampled_count_in_run :
  forall (kc : R) (lo hi k : nat) (a : list sample), (lo <= k <= hi)%nat -> (lo < hi)%nat ->
    (forall s, In s a -> s_k s <> k) -> run kc lo hi a = Some (-1)%Z.
Proof.
  intros kc lo hi k a Hk Hlt Hno. unfold run. apply C45_missing_factor_count.
  - unfold column. rewrite map_length, seq_length. lia.
  - destruct (C45_column_entries s_test a lo hi (k - lo) ltac:(lia) ltac:(lia)) as (H1 & H2 & _).
    replace (lo + (k - lo))%nat with k in * by lia.
    assert (E : filter (fun s => (s_k s =? k)%nat) a = []).
    { clear -Hno. induction a as [|s a IH]; [reflexivity|]. cbn. destruct (Nat.eqb_spec (s_k s) k) as [E|E].
      - exfalso. apply (Hno s); [left; reflexivity|exact E].
      - apply IH. intros s' Hs'. apply Hno. right. exact Hs'. }
    rewrite E in *. cbn [map] in *. rewrite (H2 eq_refl) in H1. apply (nth_error_In _ _ H1).
Qed.
Print Assumptions C45_unsampled_count_in_run.

(** A factor count that fits exactly is never chosen: the estimate is the first
    count with a non-zero error. *)
Theorem C45_exact_fit_is_skipped :
  forall (kc : R) (lo hi : nat) (e : list R), (1 <= lo)%nat -> (2 <= length e)%nat -> (forall x, In x e -> 0 <= x) -> In 0 e ->
    (exists x, In x e /\ 0 < x) ->
    exists i, estimate kc lo hi (map Fin e) = Some (Z.of_nat (lo + i)) /\ (i < length e)%nat /\
      0 < nth i e 0 /\ (forall j, (j < i)%nat -> nth j e 0 = 0).
Proof.
  intros kc lo hi e Hlo Hlen Hnn H0 (x & Hx & Hxp). unfold estimate. rewrite map_length.
  destruct (Nat.leb_spec (length e) 1); [lia|].
  assert (Hm : fmin_list (map Fin e) = Fin 0).
  { destruct e as [|a e]; [cbn in Hlen; lia|]. unfold fmin_list. cbn [map].
    destruct (fmin_spec (map Fin e) (Fin a)) as [H1 H2].
    { change (Fin a :: map Fin e) with (map Fin (a :: e)). rewrite in_map_iff. intros (y & [=] & _). }
    change (Fin a :: map Fin e) with (map Fin (a :: e)) in H1, H2. apply in_map_iff in H1. destruct H1 as (y & Hy & Hi).
    rewrite <- Hy in *. specialize (H2 (Fin 0) (in_map Fin _ _ H0)). cbn in H2. apply Rltb_false in H2.
    f_equal. specialize (Hnn y Hi). lra. }
  rewrite Hm.
  assert (Hs : forall i, (i < length e)%nat -> nth_error (scores kc lo (Fin 0) (map Fin e)) i =
     Some (if Req_EM_T (nth i e 0) 0 then NaN else Fin 0)).
  { intros i Hi. rewrite (scores_nth kc (Fin 0) (map Fin e) lo i (Fin (nth i e 0))) by (apply map_nth_error, nth_error_nth', Hi).
    pose proof (exp_pos (kc * ln (INR (lo + i)))) as He. fold (Rpower (INR (lo + i)) kc) in He.
    cbn [fmul fdiv]. destruct (Req_EM_T (nth i e 0) 0) as [E|E].
    - rewrite E, Rmult_0_l. destruct (Req_EM_T 0 0); [|congruence]. unfold fsign, inf_of_sign.
      repeat (destruct (Rlt_dec _ _); try lra). reflexivity.
    - destruct (Req_EM_T (nth i e 0 * Rpower (INR (lo + i)) kc) 0) as [E'|]; [apply Rmult_integral in E'; destruct E'; lra|].
      do 2 f_equal. unfold Rdiv. ring. }
  pose proof (nanargmax_spec (scores kc lo (Fin 0) (map Fin e)) 0 None I) as Hn.
  destruct (nanargmax _ 0 None) as [j|].
  - destruct Hn as (b & Hb & [Hc|(p & -> & Hp)] & Hall & _); [discriminate|]. cbn [Nat.add] in *.
    assert (Hj : (p < length e)%nat) by (rewrite <- (map_length Fin e), <- (scores_length kc (Fin 0) _ lo); apply nth_error_Some; congruence).
    rewrite (Hs p Hj) in Hp. exists p. split; [do 2 f_equal; lia|]. split; [exact Hj|].
    destruct (Req_EM_T (nth p e 0) 0) as [E|E]; [injection Hp as <-; congruence|]. injection Hp as <-.
    split; [specialize (Hnn _ (nth_In e 0 Hj)); lra|].
    intros i Hi. destruct (Req_EM_T (nth i e 0) 0) as [E'|E'] eqn:Eq; [exact E'|].
    destruct (Hall i (Fin 0)) as [_ H2]; [rewrite (Hs i) by lia; rewrite Eq; reflexivity|discriminate|].
    specialize (H2 Hi). rewrite flt_irrefl in H2. discriminate.
  - destruct Hn as [_ Hf]. exfalso. rewrite Forall_forall in Hf. destruct (In_nth e x 0 Hx) as (i & Hi & Hxi).
    specialize (Hf _ (nth_error_In _ _ (Hs i Hi))). rewrite Hxi in Hf. destruct (Req_EM_T x 0); [lra|discriminate].
Qed.
Print Assumptions C45_exact_fit_is_skipped.

Theorem C45_best_fit_chosen_refuted :
  exists (lo hi : nat) (e : list R), estimate 1 lo hi (map Fin e) = Some 3%Z /\ nth 0 e 0 = 0 /\ 0 < nth 1 e 0.
Proof.
  exists 2%nat, 3%nat, [0; 5].
  destruct (C45_exact_fit_is_skipped 1 2 3 [0; 5]) as (i & Hi & Hl & Hp & _).
  - lia.
  - cbn. lia.
  - intros x [<-|[<-|[]]]; lra.
  - left. reflexivity.
  - exists 5. split; [cbn; auto|lra].
  - destruct i as [|[|i]]; cbn in *; try lra; try lia. repeat split; [exact Hi|lra].
Qed.
Print Assumptions C45_best_fit_chosen_refuted.

(** A range of a single factor count raises. *)
Theorem C45_single_candidate_raises :
  forall (kc : R) (k : nat) (a : list sample), run kc k k a = None.
Proof. intros kc k a. unfold run, estimate, column. rewrite map_length, seq_length. replace (S k - k)%nat with 1%nat by lia. reflexivity. Qed.
Print Assumptions C45_single_candidate_raises.
(* samples of two, three and four factors *)
Definition xe_s (k : nat) (x : R) : sample := random_sample 1 1 (fun x => x) (fun _ _ => ((fun _ _ => x), (fun _ _ => 1)))
  (fun _ => (Fin 1, Fin 1)) (fun _ _ => 0) (get_mask (fun _ _ => 1) (1 / 10)) 0 k.
Example C45_completion_order_irrelevant_example :=
  C45_completion_order_irrelevant s_test 1 2 4 [xe_s 2 1; xe_s 3 2; xe_s 4 1] [xe_s 3 2; xe_s 2 1; xe_s 4 1]
    (perm_swap _ _ _).
Example C45_column_entries_example :=
  C45_column_entries s_test [xe_s 2 1; xe_s 3 2; xe_s 4 1] 2 4 1 ltac:(lia) ltac:(lia).
Example C45_estimate_minimises_example :=
  C45_estimate_minimises 1 2 4 [4; 2; 2] ltac:(lia) ltac:(cbn; lia) ltac:(intros x [<- | [<- | [<- | []]]]; lra).
Example C45_missing_factor_count_example : estimate 1 2 4 [Fin 4; NaN; Fin 2] = Some (-1)%Z :=
  C45_missing_factor_count 1 2 4 [Fin 4; NaN; Fin 2] ltac:(cbn; lia) ltac:(cbn; tauto).
Lemma xe_k : forall k x, s_k (xe_s k x) = k.
Proof. reflexivity. Qed.
Example C45_unsampled_count_in_run_example : run 1 2 4 [xe_s 2 1; xe_s 4 1] = Some (-1)%Z :=
  C45_unsampled_count_in_run 1 2 4 3 [xe_s 2 1; xe_s 4 1] ltac:(lia) ltac:(lia)
    ltac:(intros s [<- | [<- | []]]; rewrite xe_k; lia).
Example C45_exact_fit_is_skipped_example :=
  C45_exact_fit_is_skipped 1 2 4 [0; 2; 1] ltac:(lia) ltac:(cbn; lia)
    ltac:(intros x [<- | [<- | [<- | []]]]; lra) (or_introl eq_refl)
    ltac:(exists 2; cbn; split; [tauto | lra]).
Example C45_single_candidate_raises_example := C45_single_candidate_raises 1 3 [xe_s 3 1; xe_s 3 2].

Example C45_instance :
  exists i, estimate 1 2 4 (map Fin [4; 2; 2]) = Some (Z.of_nat (2 + i)) /\ i = 1%nat.
Proof.
  destruct (C45_estimate_minimises 1 2 4 [4; 2; 2]) as (i & Hi & Hl & Hmin & Hfirst).
  - lia.
  - cbn. lia.
  - intros x [<-|[<-|[<-|[]]]]; lra.
  - exists i. split; [exact Hi|]. cbn [length] in *.
    assert (Hp : forall k, (0 < k)%nat -> Rpower (INR k) 1 = INR k) by (intros k Hk; apply Rpower_1, lt_0_INR, Hk).
    destruct i as [|[|[|i]]]; try lia.
    + specialize (Hmin 1%nat ltac:(lia)). rewrite !Hp in Hmin by lia. cbn in Hmin. lra.
    + specialize (Hmin 1%nat ltac:(lia)). rewrite !Hp in Hmin by lia. cbn in Hmin. lra.
Qed.

(** All errors zero (or rounded to zero): the estimate is -1. *)
Theorem C45_all_exact_fits :
  forall (kc : R) (lo hi n : nat), (1 <= lo)%nat -> (2 <= n)%nat ->
    estimate kc lo hi (repeat (Fin 0) n) = Some (-1)%Z.
Proof.
  intros kc lo hi n Hlo Hn. unfold estimate. rewrite repeat_length. destruct (Nat.leb_spec n 1); [lia|].
  assert (Hm : fmin_list (repeat (Fin 0) n) = Fin 0).
  { destruct n as [|n]; [lia|]. cbn [repeat fmin_list]. clear. induction n as [|n IH]; [reflexivity|]. cbn [repeat fold_left].
    replace (fminn (Fin 0) (Fin 0)) with (Fin 0); [exact IH|]. unfold fminn. destruct (flt _ _); reflexivity. }
  rewrite Hm.
  assert (Ha : forall n k i, nanargmax (scores kc k (Fin 0) (repeat (Fin 0) n)) i None = None).
  { clear. induction n as [|n IH]; intros k i; [reflexivity|]. cbn [repeat scores nanargmax].
    replace (fdiv (Fin 0) (fmul (Fin 0) (Fin (Rpower (INR k) kc)))) with NaN; [cbn [is_nan]; apply IH|].
    cbn [fmul fdiv]. rewrite Rmult_0_l. destruct (Req_EM_T 0 0); [|congruence]. unfold fsign, inf_of_sign.
    repeat (destruct (Rlt_dec _ _); try lra). reflexivity. }
  rewrite Ha. reflexivity.
Qed.
Print Assumptions C45_all_exact_fits.
Example C45_all_exact_fits_example : estimate 1 2 4 [Fin 0; Fin 0; Fin 0] = Some (-1)%Z :=
  C45_all_exact_fits 1 2 4 3 ltac:(lia) ltac:(lia).

(** ** C71: the other columns of the result table *)
Lemma deltas_length l : length (deltas l) = (length l - 1)%nat.
Proof. induction l as [|a [|b l] IH]; [reflexivity..|]. cbn [deltas length] in *. rewrite IH. lia. Qed.
Lemma deltas_nth l : forall i a b, nth_error l i = Some a -> nth_error l (S i) = Some b -> nth_error (deltas l) i = Some (fsub a b).
Proof.
  induction l as [|x [|y l] IH]; intros i a b; [destruct i; discriminate|destruct i as [|[|i]]; discriminate|].
  destruct i as [|i]; cbn [nth_error deltas].
  - intros [= ->] [= ->]. reflexivity.
  - apply IH.
Qed.
Lemma ratios_length c l : length (ratios c l) = (length l - 1)%nat.
Proof. induction l as [|a [|b l] IH]; [reflexivity..|]. cbn [ratios length] in *. rewrite IH. lia. Qed.
Lemma ratios_nth c l : forall i a b, nth_error l i = Some a -> nth_error l (S i) = Some b -> nth_error (ratios c l) i = Some (fmul c (fdiv a b)).
Proof.
  induction l as [|x [|y l] IH]; intros i a b; [destruct i; discriminate|destruct i as [|[|i]]; discriminate|].
  destruct i as [|i]; cbn [nth_error ratios].
  - intros [= ->] [= ->]. reflexivity.
  - apply IH.
Qed.

(** Delta of a factor count: error of the previous count minus its own. *)
Theorem C71_delta_column :
  forall (l : list fl), (1 <= length l)%nat ->
    length (delta_column l) = length l /\ nth_error (delta_column l) 0 = Some NaN /\
    (forall i a b, nth_error l i = Some a -> nth_error l (S i) = Some b -> nth_error (delta_column l) (S i) = Some (fsub a b)).
Proof.
  intros l Hl. unfold delta_column. cbn [length nth_error]. rewrite deltas_length. repeat split; [lia|]. apply deltas_nth.
Qed.
Print Assumptions C71_delta_column.

(** Ratio of an interior factor count: its delta over that of the next count,
    times 1.01 times the largest delta; NaN at both ends. *)
Theorem C71_ratio_column :
  forall (e : list R) (mx : R), (2 <= length e)%nat ->
    (forall i, (S i < length e)%nat -> nth i e 0 - nth (S i) e 0 <= mx) ->
    (exists i, (S i < length e)%nat /\ nth i e 0 - nth (S i) e 0 = mx) ->
    let col := ratio_column (map Fin e) in
    length col = length e /\ nth_error col 0 = Some NaN /\ nth_error col (length e - 1) = Some NaN /\
    (forall i, (S (S i) < length e)%nat -> nth (S i) e 0 <> nth (S (S i)) e 0 ->
       nth_error col (S i) = Some (Fin (101 / 100 * mx * ((nth i e 0 - nth (S i) e 0) / (nth (S i) e 0 - nth (S (S i)) e 0))))).
Proof.
  intros e mx Hl Hub (i0 & Hi0 & Emx) col.
  assert (Hd : forall i, (S i < length e)%nat -> nth_error (deltas (map Fin e)) i = Some (Fin (nth i e 0 - nth (S i) e 0))).
  { intros i Hi. rewrite (deltas_nth _ i (Fin (nth i e 0)) (Fin (nth (S i) e 0))); [reflexivity| |]; apply map_nth_error, nth_error_nth'; lia. }
  assert (Hlen : length (deltas (map Fin e)) = (length e - 1)%nat) by (rewrite deltas_length, map_length; reflexivity).
  assert (Hfin : forall x, In x (deltas (map Fin e)) -> exists i, (S i < length e)%nat /\ x = Fin (nth i e 0 - nth (S i) e 0)).
  { intros x Hx. apply In_nth_error in Hx. destruct Hx as (i & Hi). exists i.
    assert (S i < length e)%nat by (assert (i < length (deltas (map Fin e)))%nat by (apply nth_error_Some; congruence); lia).
    split; [assumption|]. rewrite Hd in Hi by assumption. congruence. }
  assert (Hmx : fmax_list (deltas (map Fin e)) = Fin mx).
  { destruct (deltas (map Fin e)) as [|d0 ds] eqn:Ed; [cbn in Hlen; lia|]. unfold fmax_list.
    destruct (fmax_spec ds d0) as [H1 H2].
    { intros Hn. destruct (Hfin _ Hn) as (i & _ & [=]). }
    destruct (Hfin _ H1) as (i & Hi & E). rewrite E in *. f_equal. apply Rle_antisym; [apply Hub, Hi|].
    specialize (H2 (Fin mx)). assert (Hin : In (Fin mx) (d0 :: ds)).
    { rewrite <- Emx. apply (nth_error_In _ i0), Hd, Hi0. }
    specialize (H2 Hin). cbn in H2. apply Rltb_false in H2. exact H2. }
  assert (Hrl : forall c, length (ratios c (deltas (map Fin e))) = (length e - 2)%nat) by (intros c; rewrite ratios_length, Hlen; lia).
  unfold col, ratio_column. rewrite Hmx. cbn [fmul length]. rewrite app_length, Hrl. cbn [length].
  split; [lia|]. split; [reflexivity|]. split.
  - replace (length e - 1)%nat with (S (length e - 2)) by lia. cbn [nth_error].
    rewrite nth_error_app2 by (rewrite Hrl; lia). rewrite Hrl, Nat.sub_diag. reflexivity.
  - intros i Hi Hne. cbn [nth_error]. rewrite nth_error_app1 by (rewrite Hrl; lia).
    rewrite (ratios_nth _ _ i _ _ (Hd i ltac:(lia)) (Hd (S i) ltac:(lia))).
    cbn [fdiv]. destruct (Req_EM_T _ 0) as [E|]; [exfalso; apply Hne; lra|]. reflexivity.
Qed.
Print Assumptions C71_ratio_column.
Example C71_delta_column_example := C71_delta_column (map Fin [9; 4; 2]) ltac:(cbn; lia).
Example C71_ratio_column_example : nth_error (ratio_column (map Fin [9; 4; 2])) 1 = Some (Fin (101 / 100 * 5 * ((9 - 4) / (4 - 2)))).
Proof.
  apply (C71_ratio_column [9; 4; 2] 5); [cbn; lia | | | cbn; lia | cbn; lra].
  - intros i Hi. cbn in Hi. destruct i as [|[|i]]; [cbn; lra | cbn; lra | exfalso; cbn in Hi; lia].
  - exists 0%nat. cbn. split; [lia | lra].
Qed.

Example C71_instance :
  nth_error (delta_column (map Fin [9; 4; 2])) 1 = Some (Fin 5) /\
  nth_error (ratio_column (map Fin [9; 4; 2])) 1 = Some (Fin (101 / 100 * 5 * (5 / 2))).
Proof.
  split.
  - destruct (C71_delta_column (map Fin [9; 4; 2]) ltac:(cbn; lia)) as (_ & _ & H). rewrite (H 0%nat (Fin 9) (Fin 4)) by reflexivity.
    cbn. do 2 f_equal. lra.
  - destruct (C71_ratio_column [9; 4; 2] 5 ltac:(cbn; lia)) as (_ & _ & _ & H).
    + intros [|[|i]] Hi; cbn in *; try lra; lia.
    + exists 0%nat. cbn. split; [lia|lra].
    + rewrite (H 0%nat) by (cbn; lia || lra). cbn. do 2 f_equal. lra.
Qed.
