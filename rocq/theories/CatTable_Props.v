(** C56: the table of a catalog. *)
From Coq Require Import List Bool Reals Arith Lra Lia Permutation Sorting.Sorted.
From Verif Require Import Base Fl Boot_Model Boot_Proofs Est_Model Catalog_Model Catalog_Props CatTable_Model.
Import ListNotations.
Local Open Scope R_scope.

(** ** Values *)
Lemma fdiv_not_ninf a b : 0 <= a -> fdiv (Fin a) (Fin b) <> NInf.
Proof.
  intros Ha. unfold fdiv. destruct (Req_EM_T b 0); [|discriminate]. unfold fsign, inf_of_sign. destruct (Rlt_dec 0 a); destruct (Rlt_dec a 0);
  repeat match goal with |- context [Rlt_dec ?x ?y] => destruct (Rlt_dec x y) end; try discriminate; exfalso; lra.
Qed.
Definition finite (x : fl) : Prop := exists v, x = Fin v.
Lemma r2_shape N x y : r2 N x y = NaN \/ finite (r2 N x y).
Proof. unfold r2. repeat match goal with |- context [if ?b then _ else _] => destruct b end; try (left; reflexivity); right; eexists; reflexivity. Qed.
Lemma lfsum_shape (P : fl -> Prop) (l : list fl) : (forall x, In x l -> P x) ->
  ((forall x, P x -> x <> NInf) -> lmean l <> NInf) /\ ((forall x, P x -> x = NaN \/ finite x) -> l <> [] -> lmean l = NaN \/ finite (lmean l)).
Proof.
  intros H. split; intros HP.
  - assert (G : forall l a, (forall x, In x l -> x <> NInf) -> a <> NInf -> fold_left fadd l a <> NInf).
    { clear. induction l as [|x l IH]; intros a H Ha; [exact Ha|]. cbn [fold_left]. apply IH; [intros y Hy; apply H; right; exact Hy|].
      specialize (H x (or_introl eq_refl)). destruct a, x; cbn; congruence. }
    unfold lmean, lfsum. specialize (G l (Fin 0) (fun x Hx => HP x (H x Hx)) ltac:(discriminate)). destruct (List.length l) as [|k] eqn:El.
    + destruct l; [|discriminate]. cbn [fold_left INR]. apply fdiv_not_ninf. lra.
    + assert (0 < INR (S k)) by (apply lt_0_INR; lia). destruct (fold_left fadd l (Fin 0)) as [v| | |]; try congruence.
      * unfold fdiv. destruct (Req_EM_T (INR (S k)) 0); [lra|discriminate].
      * unfold fdiv, fsign, inf_of_sign. destruct (Req_EM_T (INR (S k)) 0); [lra|]. destruct (Rlt_dec 0 (INR (S k))); destruct (Rlt_dec (INR (S k)) 0);
        repeat match goal with |- context [Rlt_dec ?x ?y] => destruct (Rlt_dec x y) end; try discriminate; exfalso; lra.
      * cbn. discriminate.
  - intros Ne. assert (G : forall l a, (forall x, In x l -> x = NaN \/ finite x) -> a = NaN \/ finite a -> fold_left fadd l a = NaN \/ finite (fold_left fadd l a)).
    { clear. induction l as [|x l IH]; intros a H Ha; [exact Ha|]. cbn [fold_left]. apply IH; [intros y Hy; apply H; right; exact Hy|].
      destruct (H x (or_introl eq_refl)) as [-> |[v ->]], Ha as [-> |[w ->]]; try (left; reflexivity). right. eexists. reflexivity. }
    unfold lmean, lfsum. assert (0 < INR (List.length l)) by (apply lt_0_INR; destruct l; [contradiction|cbn; lia]).
    destruct (G l (Fin 0) (fun x Hx => HP x (H x Hx)) (or_intror (ex_intro _ 0 eq_refl))) as [-> |[v ->]]; [left; reflexivity|]. right. unfold fdiv.
    destruct (Req_EM_T (INR (List.length l)) 0); [lra|eexists; reflexivity].
Qed.
Lemma within_finite m n me thr po e H W : e <> [] -> within me thr (check m n me po e H W) = true -> finite (check m n me po e H W).
Proof.
  intros Ne Hw. unfold check in *. set (l := map _ e) in *.
  assert (Nl : l <> []) by (unfold l; destruct e; [contradiction|discriminate]).
  assert (Mix : (forall x, In x l -> x <> NInf) /\ (me <> KRAAE -> forall x, In x l -> x = NaN \/ finite x)).
  { split.
    - intros x Hx. unfold l in Hx. apply in_map_iff in Hx as (f & <- & _). unfold compare_member. destruct po.
      + destruct (r2_shape n H (mb_H f)) as [-> |[v ->]]; discriminate.
      + destruct me.
        * apply fdiv_not_ninf. apply Rmult_le_pos; [apply rsum_nonneg; intros; apply Rabs_pos|]. unfold Rdiv. destruct m; [cbn; rewrite Rinv_0; lra|].
          apply Rmult_le_pos; [lra|]. left. apply Rinv_0_lt_compat. apply lt_0_INR. lia.
        * destruct (_ || _); [discriminate|]. destruct (r2_shape n (mass_of m n H W) (mass_of m n (mb_H f) (mb_W f))) as [-> |[v ->]]; discriminate.
        * destruct (r2_shape m W (mb_W f)) as [-> |[v ->]]; discriminate.
    - intros Nr x Hx. unfold l in Hx. apply in_map_iff in Hx as (f & <- & _). unfold compare_member. destruct po; [apply r2_shape|]. destruct me; [contradiction| |apply r2_shape].
      destruct (_ || _); [left; reflexivity|apply r2_shape]. }
  destruct Mix as [Mx1 Mx2]. unfold within in Hw. destruct me.
  - pose proof (proj1 (lfsum_shape _ l Mx1) (fun x Hx => Hx)) as G. destruct (lmean l) as [v| | |]; cbn in Hw; try discriminate; [exists v; reflexivity|congruence].
  - destruct (proj2 (lfsum_shape _ l (Mx2 ltac:(discriminate))) (fun x Hx => Hx) Nl) as [E|E]; [rewrite E in Hw; discriminate|exact E].
  - destruct (proj2 (lfsum_shape _ l (Mx2 ltac:(discriminate))) (fun x Hx => Hx) Nl) as [E|E]; [rewrite E in Hw; discriminate|exact E].
Qed.

(** The value stored with every member meets the threshold. *)
Definition meets (me : kmethod) (thr : R) (v : R) : Prop := match me with KRAAE => v <= thr | _ => thr <= v end.
Definition good (me : kmethod) (thr : R) (e : entry) : Prop := e <> [] /\ forall f, In f e -> exists v, mb_corr f = Fin v /\ meets me thr v.
Definition fair_threshold (me : kmethod) (thr : R) : Prop := match me with KRAAE => 0 <= thr < 1 | _ => 0 < thr <= 1 end.

Lemma add_all_good m n me thr po items : fair_threshold me thr -> forall c c' k, Forall (good me thr) (ct_entries c) ->
  add_all m n me thr po c items = Some (k, c') -> Forall (good me thr) (ct_entries c').
Proof.
  intros Ft. assert (Se : sensible me thr) by (destruct me; cbn in *; lra).
  assert (New : forall H W i, good me thr [mkMember H W i (Fin (match me with KRAAE => 0 | _ => 1 end))]).
  { intros H W i. split; [discriminate|]. intros f [<-|[]]. eexists. split; [reflexivity|]. destruct me; cbn in *; lra. }
  induction items as [|[[H W] i] t IH]; intros c c' k G E; cbn [add_all] in E; [injection E as <- <-; exact G|].
  destruct (add_factor m n me thr po c H W i) as [[b c1]|] eqn:E1; [|discriminate].
  destruct (add_all m n me thr po c1 t) as [[k1 c2]|] eqn:E2; [|discriminate]. injection E as <- <-. apply (IH c1 c2 k1); [|exact E2].
  destruct (ct_entries c) as [|e0 es] eqn:Ec.
  - destruct (C56_first m n me thr po (ct_count c) H W i) as (c' & A & B). replace (mkCat [] (ct_count c)) with c in A by (destruct c; cbn in Ec; subst; reflexivity).
    rewrite A in E1. injection E1 as <- <-. rewrite B. constructor; [apply New|constructor].
  - pose proof (C56_add m n me thr po c H W i Se ltac:(rewrite Ec; discriminate)) as A. cbv zeta in A. rewrite E1 in A. rewrite <- Ec in G. destruct b.
    + destruct A as [_ ->]. apply Forall_app. split; [exact G|]. constructor; [apply New|constructor].
    + destruct A as (j & e & A1 & A2 & _ & _ & _ & A6). apply Forall_forall. intros e' He'. apply In_nth_error in He' as [q Hq]. rewrite A6 in Hq.
      rewrite Forall_forall in G. destruct (q =? j)%nat; [|apply G; exact (nth_error_In _ _ Hq)]. injection Hq as <-.
      destruct (G e (nth_error_In _ _ A1)) as [Ne Ge]. split; [destruct e; discriminate|]. intros f Hf. apply in_app_or in Hf as [Hf|[<-|[]]]; [apply Ge, Hf|].
      destruct (within_finite m n me thr po e H W Ne A2) as [v Ev]. cbn [mb_corr]. rewrite Ev in A2 |- *. exists v. split; [reflexivity|].
      destruct me; cbn in A2 |- *; apply Rleb_iff in A2; lra.
Qed.

Lemma lmean_meets me thr l : l <> [] -> (forall x, In x l -> exists v, x = Fin v /\ meets me thr v) -> exists v, lmean l = Fin v /\ meets me thr v.
Proof.
  intros Ne H. assert (G : forall l a b, (forall x, In x l -> exists v, x = Fin v /\ meets me thr v) ->
    (match me with KRAAE => a <= b | _ => b <= a end) -> exists v, fold_left fadd l (Fin a) = Fin v /\ match me with KRAAE => v <= b + INR (List.length l) * thr | _ => b + INR (List.length l) * thr <= v end).
  { clear. induction l as [|x l IH]; intros a b H Hab; [exists a; split; [reflexivity|]; cbn [List.length INR]; destruct me; lra|].
    destruct (H x (or_introl eq_refl)) as (v & -> & Hv). cbn [fold_left fadd]. destruct (IH (a + v) (b + thr) (fun y Hy => H y (or_intror Hy))) as (w & E & Hw).
    { unfold meets in Hv. destruct me; lra. }
    exists w. split; [exact E|]. change (List.length (Fin v :: l)) with (S (List.length l)). rewrite S_INR. destruct me; lra. }
  destruct (G l 0 0 H ltac:(destruct me; lra)) as (w & E & Hw). unfold lmean, lfsum. rewrite E.
  assert (P : 0 < INR (List.length l)) by (apply lt_0_INR; destruct l; [contradiction|cbn; lia]).
  unfold fdiv. destruct (Req_EM_T (INR (List.length l)) 0); [lra|]. eexists. split; [reflexivity|].
  unfold meets. destruct me.
  - apply (Rmult_le_reg_r (INR (List.length l))); [exact P|]. unfold Rdiv. rewrite Rmult_assoc, Rinv_l by assumption. lra.
  - apply (Rmult_le_reg_r (INR (List.length l))); [exact P|]. unfold Rdiv. rewrite Rmult_assoc, Rinv_l by assumption. lra.
  - apply (Rmult_le_reg_r (INR (List.length l))); [exact P|]. unfold Rdiv. rewrite Rmult_assoc, Rinv_l by assumption. lra.
Qed.

Lemma sorted_pos {A} (le : A -> A -> Prop) l : StronglySorted le l -> forall i j a b, (i < j)%nat -> nth_error l i = Some a -> nth_error l j = Some b -> le a b.
Proof.
  induction 1 as [|x l _ IH F]; intros i j a b Hij Ha Hb; [destruct i; discriminate|]. destruct j as [|j]; [lia|]. cbn in Hb. destruct i as [|i]; cbn in Ha.
  - injection Ha as <-. rewrite Forall_forall in F. apply F. exact (nth_error_In _ _ Hb).
  - apply (IH i j a b); [lia|assumption|assumption].
Qed.

(** C56: the table of a catalog filled from nothing, one row per entry. *)
Theorem C56_table : forall (m n : nat) (me : kmethod) (thr : R) (po : bool) (items : list item) (c : catalog) (k : nat) (rnd : R -> R),
  fair_threshold me thr -> (forall x y, x <= y -> rnd x <= rnd y) -> add_all m n me thr po empty_catalog items = Some (k, c) ->
  (rows c = None <-> items <> [] /\ ct_count c = 0%nat) /\
  forall t, table rnd c t ->
    Permutation (map rw_key t) (seq 0 k) /\ fold_right Nat.add 0%nat (map rw_count t) = List.length items /\
    (forall r, In r t -> exists e, nth_error (ct_entries c) (rw_key r) = Some e /\ rw_count r = List.length e /\ (1 <= rw_count r)%nat /\
       rw_pct r = 100 * INR (rw_count r) / INR (ct_count c) /\ exists v, rw_mean r = Fin v /\ meets me thr v) /\
    (forall i j a b, (i < j)%nat -> nth_error t i = Some a -> nth_error t j = Some b -> (rw_count b <= rw_count a)%nat \/ rnd (rw_pct a) = rnd (rw_pct b)).
Proof.
  intros m n me thr po items c k rnd Ft Mono E.
  destruct (C56_partition m n me thr po items empty_catalog c k E) as (P & L & _). cbn in L. rewrite Nat.add_0_r in L.
  assert (G : Forall (good me thr) (ct_entries c)) by (apply (add_all_good m n me thr po items Ft empty_catalog c k); [constructor|exact E]).
  assert (Len : fold_right Nat.add 0%nat (map (@List.length member) (ct_entries c)) = List.length items).
  { apply Permutation_length in P. cbn [contents empty_catalog ct_entries flat_map app] in P. rewrite <- P. unfold contents. clear. induction (ct_entries c) as [|e es IH]; [reflexivity|].
    cbn [map fold_right flat_map]. rewrite app_length, map_length, IH. reflexivity. }
  split.
  - unfold rows. destruct (ct_entries c) as [|e es] eqn:Ec.
    + split; [discriminate|]. intros [Ni _]. exfalso. cbn in Len. destruct items; [contradiction|discriminate].
    + assert (Ni : items <> []).
      { rewrite Forall_forall in G. destruct (G e (or_introl eq_refl)) as [Ne _]. intros ->. cbn in Len. destruct e; [contradiction|cbn in Len; lia]. }
      destruct (Nat.eqb_spec (ct_count c) 0); split; try discriminate; auto; intros [_ B]; contradiction.
  - intros t (r & Er & Pt & St).
    assert (R0 : r = map (fun p => row_of c (fst p) (snd p)) (combine (seq 0 (List.length (ct_entries c))) (ct_entries c)) /\ (r <> [] -> ct_count c <> 0%nat)).
    { unfold rows in Er. destruct (ct_entries c) as [|e es]; [injection Er as <-; split; [reflexivity|contradiction]|].
      destruct (Nat.eqb_spec (ct_count c) 0) as [|Nc]; [discriminate|]. injection Er as <-. split; [reflexivity|intros _; exact Nc]. }
    destruct R0 as [-> Pos].
    assert (Rows : forall r, In r (map (fun p => row_of c (fst p) (snd p)) (combine (seq 0 (List.length (ct_entries c))) (ct_entries c))) ->
      exists q e, nth_error (ct_entries c) q = Some e /\ r = row_of c q e).
    { intros r Hr. apply in_map_iff in Hr as ([q e] & <- & Hq). exists q, e. split; [|reflexivity]. apply In_nth_error in Hq as [z Hz].
      assert (K : forall (l : list entry) s z, nth_error (combine (seq s (List.length l)) l) z = Some (q, e) -> q = (s + z)%nat /\ nth_error l z = Some e).
      { clear. induction l as [|x l IH]; intros s z H; cbn [List.length seq combine] in H; [destruct z; discriminate|]. destruct z as [|z]; cbn in H |- *.
        - injection H as -> ->. split; [lia|reflexivity].
        - destruct (IH (S s) z H) as [-> K]. split; [lia|exact K]. }
      destruct (K _ _ _ Hz) as [-> K2]. exact K2. }
    split; [|split; [|split]].
    + rewrite Pt, map_map. cbn [rw_key row_of]. rewrite <- L.
      assert (K : forall (l : list entry) s, map (fun p : nat * entry => fst p) (combine (seq s (List.length l)) l) = seq s (List.length l)).
      { clear. induction l as [|x l IH]; intros s; [reflexivity|]. cbn. rewrite IH. reflexivity. }
      rewrite K. reflexivity.
    + assert (Sum : forall l l' : list nat, Permutation l l' -> fold_right Nat.add 0%nat l = fold_right Nat.add 0%nat l') by (induction 1; cbn; lia).
      rewrite (Sum _ _ (Permutation_map rw_count Pt)), map_map. cbn [rw_count row_of]. rewrite <- Len. f_equal.
      assert (K : forall (l : list entry) s, map (fun p : nat * entry => List.length (snd p)) (combine (seq s (List.length l)) l) = map (@List.length member) l).
      { clear. induction l as [|x l IH]; intros s; [reflexivity|]. cbn. rewrite IH. reflexivity. }
      apply K.
    + intros r Hr. apply (Permutation_in _ Pt) in Hr. destruct (Rows r Hr) as (q & e & Hq & ->). rewrite Forall_forall in G. destruct (G e (nth_error_In _ _ Hq)) as [Ne Ge].
      exists e. cbn [row_of rw_key rw_count rw_pct rw_mean]. split; [exact Hq|]. split; [reflexivity|]. split; [destruct e; [contradiction|cbn; lia]|]. split; [reflexivity|].
      apply lmean_meets; [destruct e; [contradiction|discriminate]|]. intros x Hx. apply in_map_iff in Hx as (f & <- & Hf). apply Ge, Hf.
    + intros i j a b Hij Ha Hb. pose proof (sorted_pos _ t St i j a b Hij Ha Hb) as S1. cbn beta in S1.
      destruct (Nat.le_gt_cases (rw_count b) (rw_count a)) as [C|C]; [left; exact C|right]. apply Rle_antisym; [|exact S1]. apply Mono.
      pose proof (nth_error_In _ _ Ha) as Ia. pose proof (nth_error_In _ _ Hb) as Ib. apply (Permutation_in _ Pt) in Ia. apply (Permutation_in _ Pt) in Ib.
      destruct (Rows a Ia) as (qa & ea & _ & ->). destruct (Rows b Ib) as (qb & eb & _ & ->). cbn [row_of rw_pct rw_count] in *. unfold Rdiv.
      apply Rmult_le_compat_r.
      * assert (Nc : ct_count c <> 0%nat) by (apply Pos; intros N; rewrite N in Ia; destruct Ia). left. apply Rinv_0_lt_compat. apply lt_0_INR. lia.
      * apply Rmult_le_compat_l; [lra|]. apply le_INR. lia.
Qed.
Print Assumptions C56_table.

(** There is a table whenever there are rows. *)
Lemma table_exists rnd c r : rows c = Some r -> exists t, table rnd c t.
Proof.
  intros E. assert (G : forall l, exists t, Permutation t l /\ StronglySorted (fun a b => rnd (rw_pct b) <= rnd (rw_pct a)) t).
  { clear. induction l as [|x l (t & P & St)]; [exists []; split; constructor|].
    assert (I : exists t', Permutation t' (x :: t) /\ StronglySorted (fun a b => rnd (rw_pct b) <= rnd (rw_pct a)) t').
    { clear P l. induction St as [|y t St (t' & P & S') F]; [exists [x]; split; [constructor; constructor|repeat constructor]|].
      destruct (Rle_dec (rnd (rw_pct y)) (rnd (rw_pct x))) as [L|L].
      - exists (x :: y :: t). split; [reflexivity|]. constructor; [constructor; assumption|]. constructor; [exact L|]. apply Forall_impl with (2 := F). intros z Hz. lra.
      - exists (y :: t'). split; [rewrite P; apply perm_swap|]. constructor; [exact S'|]. rewrite Forall_forall in F |- *. intros z Hz. apply (Permutation_in _ P) in Hz. destruct Hz as [<-|Hz]; [lra|apply F, Hz]. }
    destruct I as (t' & P' & S'). exists t'. split; [rewrite P', P; reflexivity|exact S']. }
  destruct (G r) as (t & P & St). exists t, r. auto.
Qed.

(** Three models of one factor, the third unlike the others. *)
Example C56_table_instance :
  let H := fun _ : nat => 1 in
  exists k c t, add_all 1 1 KRAAE (9 / 10) false empty_catalog [(H, fun _ => 10, 0%nat); (H, fun _ => 11, 1%nat); (H, fun _ => 90, 2%nat)] = Some (k, c) /\
    fair_threshold KRAAE (9 / 10) /\ table (fun x => x) c t /\ map rw_count t = [2; 1]%nat /\ map rw_pct t = [100; 50].
Proof.
  set (H := fun _ : nat => 1). set (w := fun (x : R) (_ : nat) => x). cbv zeta.
  set (f0 := mkMember H (w 10) 0 (Fin 0)). set (f1 := mkMember H (w 11) 1 (Fin (1 / 10))). set (f2 := mkMember H (w 90) 2 (Fin 0)).
  assert (R1 : forall a b, 0 < a -> fdiv (Fin (rsum 1 (fun t => Rabs (w a t - w b t)) * (1 / INR 1))) (Fin (rsum 1 (w a) * (1 / INR 1))) = Fin (Rabs (a - b) / a)).
  { intros a b Ha. cbn [rsum INR]. unfold w. rewrite fdiv_fin by lra. f_equal. field. lra. }
  assert (C1 : check 1 1 KRAAE false [f0] H (w 11) = Fin (1 / 10)).
  { unfold check. cbn [map]. unfold compare_member. cbn [mb_W f0]. rewrite R1 by lra. replace (Rabs (10 - 11)) with 1 by (rewrite Rabs_left; lra).
    unfold lmean, lfsum. cbn [fold_left fadd List.length INR]. rewrite fdiv_fin by lra. f_equal. field. }
  assert (C2 : check 1 1 KRAAE false [f0; f1] H (w 90) = Fin (837 / 110 - 1 / 55 )).
  { unfold check. cbn [map]. unfold compare_member. cbn [mb_W f0 f1]. rewrite !R1 by lra. replace (Rabs (10 - 90)) with 80 by (rewrite Rabs_left; lra). replace (Rabs (11 - 90)) with 79 by (rewrite Rabs_left; lra).
    unfold lmean, lfsum. cbn [fold_left fadd List.length INR]. rewrite fdiv_fin by lra. f_equal. field. }
  assert (A1 : add_factor 1 1 KRAAE (9 / 10) false empty_catalog H (w 10) 0 = Some (true, mkCat [[f0]] 0)) by reflexivity.
  assert (A2 : add_factor 1 1 KRAAE (9 / 10) false (mkCat [[f0]] 0) H (w 11) 1 = Some (false, mkCat [[f0; f1]] 2)).
  { unfold add_factor, check_factor. cbn [ct_entries map List.length Nat.eqb orb is_raae search snd]. rewrite C1. unfold better. cbn [is_raae]. rewrite (proj2 (flt_fin (1 / 10) 1)) by lra. cbn [flt]. rewrite (proj2 (Rltb_false (9 / 10) (1 / 10))) by lra. reflexivity. }
  assert (A3 : add_factor 1 1 KRAAE (9 / 10) false (mkCat [[f0; f1]] 2) H (w 90) 2 = Some (true, mkCat [[f0; f1]; [f2]] 2)).
  { unfold add_factor, check_factor. cbn [ct_entries map List.length Nat.eqb orb is_raae search snd]. rewrite C2. unfold better. cbn [is_raae flt]. rewrite (proj2 (Rltb_false _ 1)) by lra.
    rewrite (proj2 (Rltb_iff (9 / 10) 1)) by lra. reflexivity. }
  exists 2%nat, (mkCat [[f0; f1]; [f2]] 2), [row_of (mkCat [[f0; f1]; [f2]] 2) 0 [f0; f1]; row_of (mkCat [[f0; f1]; [f2]] 2) 1 [f2]].
  split; [|split; [cbn; lra|split; [|split]]].
  - cbn [add_all]. fold (w 10). fold (w 11). fold (w 90). rewrite A1, A2, A3. reflexivity.
  - eexists. split; [reflexivity|]. split; [reflexivity|]. repeat constructor. cbn. lra.
  - reflexivity.
  - cbn. f_equal; [field|f_equal; field].
Qed.
