(** C126: comparing a batch with the simulated truth, and the comparison plots. *)
From Coq Require Import List Bool ZArith Reals String Arith Lra Lia.
From Flocq Require Import Core.
From Verif Require Import Base Fl Boot_Model Boot_Proofs Est_Model Compare_Model Compare_Props SimCmp_Model.
Import ListNotations.
Local Open Scope R_scope.

(** ** The mapping recorded for the best model is the best mapping *)
Lemma firstmax_start {A} (f : A -> fl) l : forall o1 v1 o2 v2, v1 <> NaN -> v2 <> NaN -> flt v2 v1 = false ->
  firstmax f l (o2, v2) = (o2, v2) \/ firstmax f l (o2, v2) = firstmax f l (o1, v1).
Proof.
  induction l as [|x l IH]; intros o1 v1 o2 v2 N1 N2 L; [left; reflexivity|]. cbn [firstmax snd]. destruct (flt v2 (f x)) eqn:E2.
  - right. assert (E1 : flt v1 (f x) = true).
    { destruct v1, v2, (f x); cbn in *; try congruence. apply Rltb_iff in E2. apply Rltb_false in L. apply Rltb_iff. lra. }
    rewrite E1. reflexivity.
  - destruct (flt v1 (f x)) eqn:E1; [|apply IH; assumption]. apply IH; [|exact N2|exact E2]. intros E. rewrite E in E1. destruct v1; discriminate.
Qed.
Lemma firstmax_tag (f : combo -> fl) m l : firstmax (fun q : nat * combo => f (snd q)) (map (fun c => (m, c)) l) (None, Fin 0) = (option_map (fun c => (m, c)) (fst (firstmax f l (None, Fin 0))), snd (firstmax f l (None, Fin 0))).
Proof.
  assert (G : forall l o v, firstmax (fun q : nat * combo => f (snd q)) (map (fun c => (m, c)) l) (option_map (fun c => (m, c)) o, v) = (option_map (fun c => (m, c)) (fst (firstmax f l (o, v))), snd (firstmax f l (o, v)))).
  { clear l. induction l as [|x l IH]; intros o v; [reflexivity|]. cbn [map firstmax snd]. destruct (flt v (f x)); [apply (IH (Some x))|apply IH]. }
  apply (G l None).
Qed.
Lemma firstmax_in {A} (f : A -> fl) l o v c : fst (firstmax f l (o, v)) = Some c -> o = Some c \/ In c l.
Proof.
  revert o v. induction l as [|x l IH]; intros o v H; [left; exact H|]. cbn [firstmax snd] in H. destruct (flt v (f x)); destruct (IH _ _ H) as [E|E]; auto; [injection E as ->; right; left; reflexivity|right; right; exact E|right; right; exact E].
Qed.
Lemma firstmax_value {A} (f : A -> fl) l o v : v <> NaN -> flt v (Fin 0) = false -> snd (firstmax f l (o, v)) <> NaN /\ flt (snd (firstmax f l (o, v))) (Fin 0) = false.
Proof.
  revert o v. induction l as [|x l IH]; intros o v N L; [split; assumption|]. cbn [firstmax snd]. destruct (flt v (f x)) eqn:E; [|apply IH; assumption].
  apply IH; [intros F; rewrite F in E; destruct v; discriminate|]. destruct v, (f x); cbn in *; try congruence. apply Rltb_iff in E. apply Rltb_false in L. apply Rltb_false. lra.
Qed.

Lemma own_best (f : combo -> fl) combos : forall m o v i c, v <> NaN -> flt v (Fin 0) = false -> (forall i' c', o = Some (i', c') -> (i' < m)%nat) ->
  fst (firstmax (fun q : nat * combo => f (snd q)) (candidates combos m) (o, v)) = Some (i, c) -> (m <= i)%nat ->
  exists l, nth_error combos (i - m) = Some l /\ fst (firstmax f l (None, Fin 0)) = Some c.
Proof.
  induction combos as [|l t IH]; intros m o v i c N L Tag H Hi.
  - cbn in H. specialize (Tag _ _ H). lia.
  - cbn [candidates] in H. rewrite firstmax_app in H. set (g := fun q : nat * combo => f (snd q)) in *.
    destruct (firstmax_value g (map (fun c => (m, c)) l) o v N L) as [N' L'].
    destruct (firstmax_start g (map (fun c => (m, c)) l) None (Fin 0) o v) as [E|E]; try assumption; [discriminate| |].
    + rewrite E in H. assert (Hm : (S m <= i)%nat).
      { destruct (firstmax_in _ _ _ _ _ H) as [F|F]; [specialize (Tag _ _ F); lia|]. apply candidates_in in F. destruct F as (? & F & _). exact F. }
      destruct (IH (S m) o v i c N L) as (l' & A & B); [intros i' c' F; specialize (Tag _ _ F); lia|exact H|exact Hm|].
      exists l'. split; [|exact B]. replace (i - m)%nat with (S (i - S m)) by lia. exact A.
    + rewrite E in H. unfold g in H at 2. rewrite firstmax_tag in H. fold g in H.
      assert (E' : snd (firstmax g (map (fun c => (m, c)) l) (o, v)) = snd (firstmax f l (None, Fin 0))) by (rewrite E; unfold g; rewrite firstmax_tag; reflexivity).
      rewrite E' in N', L'. destruct (Nat.eq_dec i m) as [->|Ne].
      * exists l. rewrite Nat.sub_diag. split; [reflexivity|]. destruct (firstmax_in _ _ _ _ _ H) as [F|F].
        -- destruct (fst (firstmax f l (None, Fin 0))) as [x|]; [|discriminate]. cbn in F. injection F as ->. reflexivity.
        -- apply candidates_in in F. destruct F as (? & F & _). lia.
      * destruct (IH (S m) (option_map (fun c => (m, c)) (fst (firstmax f l (None, Fin 0)))) (snd (firstmax f l (None, Fin 0))) i c N' L') as (l' & A & B); [|exact H|lia|].
        -- intros i' c' F. destruct (fst (firstmax f l (None, Fin 0))); [|discriminate]. cbn in F. injection F as <- _. lia.
        -- exists l'. split; [|exact B]. replace (i - m)%nat with (S (i - S m)) by lia. exact A.
Qed.

Lemma compare_detail cpus m n kb ks method b sols r : (1 < cpus)%nat -> compare cpus m n kb ks (method_of method) b (map Some sols) = Done r ->
  cmp_base_k r = (ks <=? kb)%nat /\ nth (cmp_model r) (cmp_models r) None = Some (cmp_best r) /\
  (forall i c, nth i (cmp_models r) None = Some c -> exists o, nth_error sols i = Some o /\ c = combine_factors m n b o (ks <=? kb)%nat (co_map c) /\ tried kb ks (co_map c) /\
     flt (Fin 0) (score method m n b o (pairs_of (ks <=? kb)%nat (co_map c))) = true).
Proof.
  intros Hc H. unfold compare in H.
  assert (L0 : exists x, lookup_all (map Some sols) (if (kb =? 0)%nat then 0%nat else parsed_count (map Some sols)) = Some x).
  { destruct (kb =? 0)%nat; [exists []; reflexivity|exists sols; apply lookup_good]. }
  destruct L0 as [x0 E0]. rewrite E0 in H. clear E0. rewrite (proj2 (Nat.leb_gt cpus 1)) in H by lia. rewrite lookup_good in H.
  set (arr := if (ks <=? kb)%nat then perms ks (seq 0 kb) else perms kb (seq 0 ks)) in *.
  set (combos := map (fun o => map (combine_factors m n b o (ks <=? kb)%nat) arr) sols) in *. set (me := method_of method) in *.
  destruct (scan_models_spec me combos 0 (None, Fin 0)) as [S1 S2]. destruct (scan_models me combos 0 (None, Fin 0)) as [best models]. cbn [fst snd] in S1, S2.
  destruct best as [[[i c]|] a]; [|discriminate]. injection H as <-. cbn [cmp_base_k cmp_model cmp_best cmp_models]. split; [reflexivity|]. split.
  - destruct (own_best (model_avg me) combos 0 None (Fin 0) i c) as (l & A & B); [discriminate|apply flt_irrefl|discriminate|rewrite <- S1; reflexivity|lia|].
    rewrite Nat.sub_0_r in A. rewrite S2. apply nth_error_nth. rewrite nth_error_map, A. cbn. rewrite B. reflexivity.
  - intros i' c' E. rewrite S2 in E. destruct (nth_error sols i') as [o|] eqn:Eo.
    + exists o. split; [reflexivity|].
      assert (En : nth i' (map (fun l => fst (firstmax (model_avg me) l (None, Fin 0))) combos) None = fst (firstmax (model_avg me) (map (combine_factors m n b o (ks <=? kb)%nat) arr) (None, Fin 0))).
      { apply nth_error_nth. unfold combos. rewrite map_map, nth_error_map, Eo. reflexivity. }
      rewrite En in E. destruct (firstmax_spec (model_avg me) (map (combine_factors m n b o (ks <=? kb)%nat) arr)) as [(F1 & _)|(k' & c'' & (G1 & G2 & _) & E')]; [congruence|].
      rewrite E' in E. cbn in E. injection E as ->. apply nth_error_In in G1. apply in_map_iff in G1. destruct G1 as (p & <- & Hp). cbn [co_map combine_factors].
      split; [reflexivity|]. split; [apply tried_arr; exact Hp|]. rewrite <- model_avg_score. exact G2.
    + exfalso. rewrite nth_overflow in E; [discriminate|]. unfold combos. rewrite !map_length. apply nth_error_None, Eo.
Qed.

(** ** Positive averages have no NaN, averages of one have only ones *)
Lemma nan_fold l : forall a, (a = NaN \/ In NaN l) -> fold_left fadd l a = NaN.
Proof.
  induction l as [|x l IH]; intros a [->|H]; [reflexivity|destruct H| |]; cbn [fold_left]; apply IH.
  - left. reflexivity.
  - destruct H as [->|H]; [left; destruct a; reflexivity|right; exact H].
Qed.
Lemma lmean_nan l : In NaN l -> lmean l = NaN.
Proof. intros H. unfold lmean, lfsum. rewrite nan_fold by (right; exact H). reflexivity. Qed.
Lemma unit_list l : Forall unit_or_nan l -> ~ In NaN l -> exists vs, l = map Fin vs /\ Forall (fun v => 0 <= v <= 1) vs.
Proof.
  induction 1 as [|x l [->|(v & -> & Hv)] _ IH]; intros N; [exists []; split; [reflexivity|constructor]|exfalso; apply N; left; reflexivity|].
  destruct IH as (vs & -> & Hvs); [intros H; apply N; right; exact H|]. exists (v :: vs). split; [reflexivity|constructor; assumption].
Qed.
Lemma fin_fold vs : forall a, fold_left fadd (map Fin vs) (Fin a) = Fin (a + lsum vs).
Proof. induction vs as [|v vs IH]; intros a; cbn [map fold_left lsum fold_right]; [f_equal; cbn; lra|]. cbn [fadd]. rewrite IH. f_equal. cbn. lra. Qed.
Lemma ones_of_sum vs : Forall (fun v => 0 <= v <= 1) vs -> lsum vs = INR (List.length vs) -> Forall (fun v => v = 1) vs.
Proof.
  induction 1 as [|v vs Hv F IH]; intros E; [constructor|]. cbn [lsum fold_right List.length] in E. rewrite S_INR in E.
  assert (L : lsum vs <= INR (List.length vs)). { clear -F. induction F as [|v vs Hv _ IH]; cbn [lsum fold_right List.length]; [cbn; lra|]. rewrite S_INR. change (fold_right Rplus 0 vs) with (lsum vs). lra. }
  change (fold_right Rplus 0 vs) with (lsum vs) in E. constructor; [lra|]. apply IH. lra.
Qed.
Lemma lmean_one l : Forall unit_or_nan l -> lmean l = Fin 1 -> Forall (fun x => x = Fin 1) l.
Proof.
  intros F E. destruct (unit_list l F) as (vs & -> & Hv); [intros H; rewrite (lmean_nan _ H) in E; discriminate|].
  unfold lmean, lfsum in E. rewrite fin_fold, map_length in E. unfold fdiv in E. destruct (Req_EM_T (INR (List.length vs)) 0) as [Z|Z].
  - destruct vs as [|v vs]; [constructor|]. exfalso. cbn [List.length] in Z. rewrite S_INR in Z. pose proof (pos_INR (List.length vs)). lra.
  - injection E as E. assert (O : Forall (fun v => v = 1) vs) by (apply ones_of_sum; [exact Hv|]; apply Rmult_eq_reg_r with (/ INR (List.length vs)); [|apply Rinv_neq_0_compat, Z]; rewrite Rinv_r by exact Z; rewrite <- E; field; exact Z).
    clear -O. induction O as [|v vs -> _ IH]; constructor; [reflexivity|exact IH].
Qed.

Lemma nth_error_ext {A} (l : list A) : forall l', (forall q, nth_error l q = nth_error l' q) -> l = l'.
Proof.
  induction l as [|x l IH]; intros [|y l'] H; [reflexivity|specialize (H 0%nat); discriminate|specialize (H 0%nat); discriminate|].
  pose proof (H 0%nat) as E. cbn in E. injection E as ->. f_equal. apply IH. intros q. exact (H (S q)).
Qed.

(** Specification of a figure: percentages of the pair (syn, mod) and its correlations. *)
Definition shows (m n kb ks : nat) (truth o : solution) (g : figure) : Prop :=
  (fg_syn g < kb)%nat /\ (fg_mod g < ks)%nat /\
  fg_rH g = r2 n (s_H o (fg_mod g)) (s_H truth (fg_syn g)) /\
  fg_rW g = r2 m (fun t => s_W o t (fg_mod g)) (fun t => s_W truth t (fg_syn g)) /\
  (forall j, rsum kb (fun a => s_H truth a j) <> 0 -> fg_syn_H g j = Fin (100 * s_H truth (fg_syn g) j / rsum kb (fun a => s_H truth a j))) /\
  (forall j, rsum ks (fun a => s_H o a j) <> 0 -> fg_mod_H g j = Fin (100 * s_H o (fg_mod g) j / rsum ks (fun a => s_H o a j))) /\
  (forall t, rsum m (fun u => s_W truth u (fg_syn g)) <> 0 -> fg_syn_W g t = Fin (100 * s_W truth t (fg_syn g) / rsum m (fun u => s_W truth u (fg_syn g)))) /\
  (forall t, rsum m (fun u => s_W o u (fg_mod g)) <> 0 -> fg_mod_W g t = Fin (100 * s_W o t (fg_mod g) / rsum m (fun u => s_W o u (fg_mod g)))).
(** Every factor of the smaller side in turn, no factor of the larger one twice. *)
Definition one_to_one (kb ks : nat) (figs : list figure) : Prop :=
  List.length figs = Nat.min ks kb /\ NoDup (map fg_syn figs) /\ NoDup (map fg_mod figs) /\
  (if (ks <=? kb)%nat then map fg_mod figs = seq 0 ks else map fg_syn figs = seq 0 kb).

Lemma percent_fin a s : s <> 0 -> fmul (Fin 100) (fdiv (Fin a) (Fin s)) = Fin (100 * a / s).
Proof. intros H. unfold fdiv. destruct (Req_EM_T s 0); [contradiction|]. cbn. f_equal. field. exact H. Qed.

Lemma draw_all fig : forall todo i, (forall q, (i <= q < i + todo)%nat -> fig q <> None) ->
  exists figs, draw fig (fun _ => None) todo i = (figs, None) /\ List.length figs = todo /\ forall q g, nth_error figs q = Some g -> fig (i + q)%nat = Some g.
Proof.
  induction todo as [|t IH]; intros i H; [exists []; split; [reflexivity|split; [reflexivity|intros [|] ? E; discriminate]]|]. cbn [draw].
  destruct (fig i) as [g|] eqn:E; [|exfalso; apply (H i); [lia|exact E]]. destruct (IH (S i)) as (figs & D & L & N); [intros q Hq; apply H; lia|].
  rewrite D. exists (g :: figs). split; [reflexivity|]. split; [cbn; lia|]. intros [|q] g' Eg; cbn in Eg; [injection Eg as <-; rewrite Nat.add_0_r; exact E|].
  replace (i + S q)%nat with (S i + q)%nat by lia. apply N, Eg.
Qed.
Lemma draw_check fig check : forall todo i figs, draw fig (fun _ => None) todo i = (figs, None) ->
  exists q, (q <= List.length figs)%nat /\ (forall g, In g (firstn q figs) -> check g = None) /\
    ((q = List.length figs /\ draw fig check todo i = (figs, None)) \/ exists g e, nth_error figs q = Some g /\ check g = Some e /\ draw fig check todo i = (firstn q figs, Some e)).
Proof.
  induction todo as [|t IH]; intros i figs D; cbn [draw] in *.
  - injection D as <-. exists 0%nat. split; [lia|]. split; [intros g []|]. left. split; reflexivity.
  - destruct (fig i) as [g|]; [|discriminate]. destruct (draw fig (fun _ => None) t (S i)) as [r e] eqn:E. injection D as <- ->.
    destruct (check g) as [e|] eqn:Ec.
    + exists 0%nat. split; [lia|]. split; [intros g' []|]. right. exists g, e. repeat split; assumption.
    + destruct (IH (S i) r E) as (q & Q1 & Q2 & Q3). exists (S q). split; [cbn; lia|]. split; [intros g' [<-|Hg]; [exact Ec|apply Q2, Hg]|].
      destruct Q3 as [[-> ->]|(g' & e & A & B & C)]; [left; split; reflexivity|right]. exists g', e. rewrite C. repeat split; assumption.
Qed.

(** The figures of a recorded mapping. *)
Lemma figures m n kb ks truth o c : c = combine_factors m n truth o (ks <=? kb)%nat (co_map c) -> tried kb ks (co_map c) ->
  exists figs, draw (figure_of m (mkFC kb ks None [] (ks <=? kb)%nat) truth o ks c) (fun _ => None) (Nat.min ks kb) 0 = (figs, None) /\
    one_to_one kb ks figs /\ (forall g, In g figs -> shows m n kb ks truth o g) /\ map fg_rH figs = co_H c.
Proof.
  intros Ec Ht. set (p := co_map c) in *. set (f := mkFC kb ks None [] (ks <=? kb)%nat).
  assert (Lp : List.length p = Nat.min ks kb /\ NoDup p /\ (forall x, In x p -> (x < Nat.max kb ks)%nat)).
  { unfold tried in Ht. destruct (Nat.leb_spec ks kb); destruct Ht as (A & B & C); (split; [lia|]); (split; [exact B|]); intros x Hx; specialize (C x Hx); lia. }
  destruct Lp as (Lp & Np & Bp).
  assert (Pi : forall i, (i < Nat.min ks kb)%nat -> (fst (pair_at (ks <=? kb)%nat i (nth i p 0)) < kb)%nat /\ (snd (pair_at (ks <=? kb)%nat i (nth i p 0)) < ks)%nat).
  { intros i Hi. assert (Hx : In (nth i p 0%nat) p) by (apply nth_In; lia). unfold tried in Ht. destruct (Nat.leb_spec ks kb); destruct Ht as (A & B & C); specialize (C _ Hx); cbn; lia. }
  assert (FO : forall i, (i < Nat.min ks kb)%nat -> exists g, figure_of m f truth o ks c i = Some g /\ fg_syn g = fst (pair_at (ks <=? kb)%nat i (nth i p 0%nat)) /\ fg_mod g = snd (pair_at (ks <=? kb)%nat i (nth i p 0%nat)) /\ shows m n kb ks truth o g /\ fg_rH g = nth i (co_H c) NaN).
  { intros i Hi. destruct (Pi i Hi) as [P1 P2]. unfold figure_of. fold p. cbn [fc_base_k fc_kb f]. destruct (pair_at (ks <=? kb)%nat i (nth i p 0%nat)) as [sy md] eqn:Ep. cbn [fst snd] in *.
    rewrite (proj2 (Nat.leb_gt ks md)) by exact P2. eexists. split; [reflexivity|]. cbn [fg_syn fg_mod fg_rH]. split; [reflexivity|]. split; [reflexivity|]. split; [|reflexivity].
    assert (Ev : forall (h : nat -> nat -> fl), nth i (map (fun q : nat * nat => h (fst q) (snd q)) (pairs_of (ks <=? kb)%nat p)) NaN = h sy md).
    { intros h. apply nth_error_nth. unfold pairs_of. rewrite !nth_error_map, (nth_error_nth' _ 0%nat) by (rewrite seq_length; lia). rewrite seq_nth by lia. cbn [option_map Nat.add].
      unfold pair_at in Ep. destruct (ks <=? kb)%nat; injection Ep as <- <-; reflexivity. }
    unfold shows. cbn [fg_syn fg_mod fg_rH fg_rW fg_syn_H fg_mod_H fg_syn_W fg_mod_W]. split; [exact P1|]. split; [exact P2|].
    split; [rewrite Ec; cbn [co_H combine_factors]; rewrite combine_vals, Ev; reflexivity|].
    split; [rewrite Ec; cbn [co_W combine_factors]; rewrite combine_vals, Ev; reflexivity|].
    repeat split; intros; apply percent_fin; assumption. }
  destruct (draw_all (figure_of m f truth o ks c) (Nat.min ks kb) 0) as (figs & D & L & N).
  { intros q Hq. destruct (FO q) as (g & E & _); [lia|]. rewrite E. discriminate. }
  assert (NG : forall q g, nth_error figs q = Some g -> (q < Nat.min ks kb)%nat /\ figure_of m f truth o ks c q = Some g) by (intros q g E; split; [rewrite <- L; apply nth_error_Some; congruence|apply (N q g E)]).
  assert (MapS : forall (h : figure -> nat) (v : nat -> nat), (forall i g, (i < Nat.min ks kb)%nat -> figure_of m f truth o ks c i = Some g -> h g = v i) -> map h figs = map v (seq 0 (Nat.min ks kb))).
  { intros h v Hh. apply nth_error_ext. intros q. rewrite !nth_error_map. destruct (nth_error figs q) as [g|] eqn:E.
    - destruct (NG q g E) as [Hq Fg]. rewrite (nth_error_nth' _ 0%nat) by (rewrite seq_length; exact Hq). rewrite seq_nth by exact Hq. cbn. f_equal. apply Hh; assumption.
    - apply nth_error_None in E. rewrite (proj2 (nth_error_None _ _)) by (rewrite seq_length; lia). reflexivity. }
  assert (Syn : map fg_syn figs = map (fun i => fst (pair_at (ks <=? kb)%nat i (nth i p 0%nat))) (seq 0 (Nat.min ks kb))) by (apply MapS; intros i g Hi E; destruct (FO i Hi) as (g' & E' & A & _); congruence).
  assert (Mod : map fg_mod figs = map (fun i => snd (pair_at (ks <=? kb)%nat i (nth i p 0%nat))) (seq 0 (Nat.min ks kb))) by (apply MapS; intros i g Hi E; destruct (FO i Hi) as (g' & E' & _ & A & _); congruence).
  assert (Ip : map (fun i => nth i p 0%nat) (seq 0 (Nat.min ks kb)) = p).
  { apply nth_error_ext. intros q. rewrite nth_error_map. destruct (Nat.lt_ge_cases q (Nat.min ks kb)) as [Hq|Hq].
    - rewrite (nth_error_nth' (seq _ _) 0%nat) by (rewrite seq_length; exact Hq). rewrite seq_nth by exact Hq. cbn. symmetry. apply nth_error_nth'. lia.
    - rewrite !(proj2 (nth_error_None _ _)) by (rewrite ?seq_length; lia). reflexivity. }
  exists figs. split; [exact D|]. split; [|split].
  - split; [exact L|]. rewrite Syn, Mod. unfold pair_at. destruct (Nat.leb_spec ks kb) as [Hk|Hk]; cbn [fst snd]; rewrite Ip, map_id; (split; [first [exact Np|apply seq_NoDup]|]); (split; [first [exact Np|apply seq_NoDup]|]); f_equal; lia.
  - intros g Hg. apply In_nth_error in Hg. destruct Hg as [q E]. destruct (NG q g E) as [Hq Fg]. destruct (FO q Hq) as (g' & E' & _ & _ & A & _). congruence.
  - apply nth_error_ext. intros q. rewrite nth_error_map. destruct (nth_error figs q) as [g|] eqn:E.
    + destruct (NG q g E) as [Hq Fg]. destruct (FO q Hq) as (g' & E' & _ & _ & _ & A). assert (g' = g) by congruence. subst g'. cbn [option_map]. rewrite A. symmetry. apply nth_error_nth'.
      rewrite Ec. cbn [co_H combine_factors]. rewrite map_length, enumerate_seq, map_length, seq_length. lia.
    + apply nth_error_None in E. symmetry. apply nth_error_None. rewrite Ec. cbn [co_H combine_factors]. rewrite map_length, enumerate_seq, map_length, seq_length. lia.
Qed.

(** ** Specification *)
(** The best of a model's own mappings, by the score of C55. *)
Definition best_mapping (sc : nat -> list nat -> fl) (kb ks i : nat) (p : list nat) : Prop :=
  tried kb ks p /\ flt (Fin 0) (sc i p) = true /\ forall p', tried kb ks p' -> flt (sc i p) (sc i p') = false.
(** No mapping of the model scores above zero. *)
Definition no_mapping (sc : nat -> list nat -> fl) (kb ks i : nat) : Prop := forall p, tried kb ks p -> flt (Fin 0) (sc i p) = false.
(** The model with the best mapping of all. *)
Definition best_of_all (sc : nat -> list nat -> fl) (kb ks count i : nat) : Prop :=
  (i < count)%nat /\ exists p, best_mapping sc kb ks i p /\ forall i' p', (i' < count)%nat -> tried kb ks p' -> flt (sc i p) (sc i' p') = false.
(** A printed mapping: a model's best mapping, with the correlations of its pairs. *)
Definition reports (m n kb ks : nat) (truth : solution) (sols : list solution) (sc : nat -> list nat -> fl) (i : nat) (c : combo) : Prop :=
  best_mapping sc kb ks i (co_map c) /\ exists o, nth_error sols i = Some o /\
    let pairs := pairs_of (ks <=? kb)%nat (co_map c) in
    co_H c = map (fun q => r2 n (s_H o (snd q)) (s_H truth (fst q))) pairs /\
    co_W c = map (fun q => r2 m (fun t => s_W o t (snd q)) (fun t => s_W truth t (fst q))) pairs /\
    co_WH c = map (fun q => r2 (m * n) (fun t => s_W o (t / n)%nat (snd q) * s_H o (snd q) (t mod n)%nat) (fun t => s_W truth (t / n)%nat (fst q) * s_H truth (fst q) (t mod n)%nat)) pairs.

Lemma combine_reports m n kb ks truth sols sc i c o : nth_error sols i = Some o -> c = combine_factors m n truth o (ks <=? kb)%nat (co_map c) -> best_mapping sc kb ks i (co_map c) ->
  reports m n kb ks truth sols sc i c.
Proof.
  intros Ho Ec Hb. split; [exact Hb|]. exists o. split; [exact Ho|]. cbv zeta. rewrite Ec. cbn [co_H co_W co_WH co_map combine_factors]. rewrite !combine_vals. repeat split.
Qed.

(** What compare leaves behind. *)
Lemma after_compare cpus m n s ks sols best : (1 < cpus)%nat -> si_ready s = true ->
  let kb := si_k s in let truth := si_truth s in let sc := score_of "all" m n kb ks truth sols in let b := mkBatch ks (map Some sols) best in
  ((forall i, (i < List.length sols)%nat -> no_mapping sc kb ks i) /\
     exists f, sim_compare cpus m n s b None = (mkSimu kb truth true (Some b) (Some f), [], Some TypeError)) \/
  exists top models, let f := mkFC kb ks (Some top) models (ks <=? kb)%nat in
    best_of_all sc kb ks (List.length sols) top /\ nth top models None <> None /\
    (forall i, match nth i models None with
       | Some c => exists o, nth_error sols i = Some o /\ c = combine_factors m n truth o (ks <=? kb)%nat (co_map c) /\ best_mapping sc kb ks i (co_map c)
       | None => no_mapping sc kb ks i end) /\
    sim_compare cpus m n s b None =
      (let '(out, e1) := print_results f None in
       let s2 := mkSimu kb truth true (Some b) (Some f) in
       match e1 with Some e => (s2, out, Some e) | None =>
         if (match best with Some y => (top =? y)%nat | None => false end) then (s2, out, None)
         else let '(out2, e2) := print_results f (option_map Z.of_nat best) in (s2, out ++ out2, e2) end).
Proof.
  intros Hc Hr kb truth sc b. unfold sim_compare. rewrite Hr. cbn [negb]. unfold run_compare. cbn [bt_k bt_results bt_best b].
  pose proof (C55_best cpus m n kb ks "all" truth sols Hc) as B. cbv zeta in B. fold sc in B. pose proof (compare_detail cpus m n kb ks "all" truth sols) as D.
  fold kb truth. destruct (compare cpus m n kb ks (method_of "all") truth (map Some sols)) as [r| | |]; [|contradiction|contradiction|].
  - right. specialize (D r Hc eq_refl). destruct D as (D1 & D2 & D3). destruct B as (B1 & B2 & B3 & B4 & B5 & B6 & B7 & B8).
    assert (Rec : forall i, match nth i (cmp_models r) None with
       | Some c => exists o, nth_error sols i = Some o /\ c = combine_factors m n truth o (ks <=? kb)%nat (co_map c) /\ best_mapping sc kb ks i (co_map c)
       | None => no_mapping sc kb ks i end).
    { intros i. destruct (Nat.lt_ge_cases i (List.length sols)) as [Hi|Hi].
      - specialize (B8 i Hi). destruct (nth i (cmp_models r) None) as [c|] eqn:E; [|exact B8]. destruct (D3 i c E) as (o & O1 & O2 & _). exists o. split; [exact O1|]. split; [exact O2|exact B8].
      - rewrite nth_overflow by lia. intros p _. unfold sc, score_of. rewrite (proj2 (nth_error_None _ _)) by lia. reflexivity. }
    exists (cmp_model r), (cmp_models r). cbv zeta. split; [|split; [rewrite D2; discriminate|split; [exact Rec|]]].
    + split; [exact B1|]. exists (co_map (cmp_best r)). rewrite B3 in B4, B5. split; [|exact B5]. split; [exact B2|]. split; [exact B4|]. intros p' Hp. apply B5; assumption.
    + rewrite D1. cbn [fc_best]. destruct (print_results (mkFC kb ks (Some (cmp_model r)) (cmp_models r) (ks <=? kb)%nat) None) as [out [e|]]; [reflexivity|]. destruct best as [y|]; reflexivity.
  - left. split; [intros i Hi p Hp; apply B; assumption|]. eexists. reflexivity.
Qed.

(** A mapping printed for [z]. *)
Lemma recorded_nat f i : recorded f (Z.of_nat i) = nth i (fc_models f) None.
Proof. unfold recorded. rewrite (proj2 (Z.ltb_ge _ _)) by lia. rewrite Nat2Z.id. reflexivity. Qed.

(** ** Simulator.compare *)
Theorem C126_compare : forall (cpus m n : nat) (s : simulator) (ks : nat) (sols : list solution) (best : option nat), (1 < cpus)%nat -> si_ready s = true ->
  let kb := si_k s in let truth := si_truth s in let sc := score_of "all" m n kb ks truth sols in let b := mkBatch ks (map Some sols) best in
  let '(s', out, e) := sim_compare cpus m n s b None in
  si_batch s' = Some b /\ si_fc s' <> None /\ si_truth s' = truth /\ si_k s' = kb /\ si_ready s' = true /\
  (((forall i, (i < List.length sols)%nat -> no_mapping sc kb ks i) /\ out = [] /\ e = Some TypeError) \/
   exists top c rest, best_of_all sc kb ks (List.length sols) top /\ reports m n kb ks truth sols sc top c /\ out = (Z.of_nat top, c) :: rest /\
     match best with
     | None => rest = [(Z.of_nat top, c)] /\ e = None
     | Some j => (j = top /\ rest = [] /\ e = None) \/
                 (j <> top /\ ((exists c', reports m n kb ks truth sols sc j c' /\ rest = [(Z.of_nat j, c')] /\ e = None) \/ (no_mapping sc kb ks j /\ rest = [] /\ e = Some KeyError)))
     end).
Proof.
  intros cpus m n s ks sols best Hc Hr kb truth sc b. pose proof (after_compare cpus m n s ks sols best Hc Hr) as A. cbv zeta in A. fold kb truth sc b in A.
  destruct A as [[A [f ->]]|(top & models & A1 & A2 & A3 & ->)].
  - cbn. repeat (split; [reflexivity || discriminate|]). left. split; [exact A|]. split; reflexivity.
  - unfold print_results at 1. cbn [fc_best option_map]. rewrite recorded_nat. cbn [fc_models]. pose proof (A3 top) as At. destruct (nth top models None) as [c|] eqn:Et; [|contradiction].
    destruct At as (o & O1 & O2 & O3). pose proof (combine_reports m n kb ks truth sols sc top c o O1 O2 O3) as Rt.
    destruct best as [j|].
    + destruct (Nat.eqb_spec top j) as [->|Nj].
      * cbn. repeat (split; [reflexivity || discriminate|]). right. exists j, c, []. repeat (split; [assumption || reflexivity|]). left. repeat split.
      * unfold print_results. cbn [option_map]. rewrite recorded_nat. cbn [fc_models]. pose proof (A3 j) as Aj. destruct (nth j models None) as [c'|]; cbn.
        -- repeat (split; [reflexivity || discriminate|]). right. exists top, c, [(Z.of_nat j, c')]. repeat (split; [assumption || reflexivity|]). right. split; [congruence|]. left. exists c'. destruct Aj as (o' & P1 & P2 & P3).
           split; [apply (combine_reports _ _ _ _ _ _ _ _ _ o'); assumption|]. split; reflexivity.
        -- repeat (split; [reflexivity || discriminate|]). right. exists top, c, []. repeat (split; [assumption || reflexivity|]). right. split; [congruence|]. right. repeat split. exact Aj.
    + unfold print_results. cbn [option_map fc_best]. rewrite recorded_nat. cbn [fc_models]. rewrite Et. cbn. repeat (split; [reflexivity || discriminate|]). right. exists top, c, [(Z.of_nat top, c)]. repeat (split; [assumption || reflexivity|]). split; reflexivity.
Qed.
Print Assumptions C126_compare.

(** Before get_data there is nothing to compare with; the batch is kept all the same. *)
Theorem C126_no_data : forall (cpus m n : nat) (s : simulator) (b : batch), si_ready s = false ->
  sim_compare cpus m n s b None = (mkSimu (si_k s) (si_truth s) false (Some b) (si_fc s), [], Some AttributeError).
Proof. intros cpus m n s b H. unfold sim_compare. rewrite H. reflexivity. Qed.
Print Assumptions C126_no_data.

(** ** A selected model is looked up in the earlier comparison *)
Theorem C126_selected : forall (cpus m n : nat) (s : simulator) (ks : nat) (sols : list solution) (best : option nat) (b2 : batch) (z : Z), (1 < cpus)%nat -> si_ready s = true ->
  let kb := si_k s in let truth := si_truth s in let sc := score_of "all" m n kb ks truth sols in
  let '(s1, _, e1) := sim_compare cpus m n s (mkBatch ks (map Some sols) best) None in
  let '(s2, out, e2) := sim_compare cpus m n s1 b2 (Some z) in
  si_batch s2 = Some b2 /\ si_fc s2 = si_fc s1 /\
  (e1 <> Some TypeError ->
   ((0 <= z)%Z /\ exists c, reports m n kb ks truth sols sc (Z.to_nat z) c /\ out = [(z, c)] /\ e2 = None) \/
   ((z < 0)%Z \/ no_mapping sc kb ks (Z.to_nat z)) /\ out = [] /\ e2 = Some KeyError).
Proof.
  intros cpus m n s ks sols best b2 z Hc Hr kb truth sc. pose proof (after_compare cpus m n s ks sols best Hc Hr) as A. cbv zeta in A. fold kb truth sc in A.
  destruct A as [[A [f ->]]|(top & models & A1 & A2 & A3 & ->)].
  - unfold sim_compare. cbn [si_fc]. destruct (print_results f (Some z)) as [out e2]. cbn. repeat split. intros H. congruence.
  - set (f := mkFC kb ks (Some top) models (ks <=? kb)%nat). cbv zeta.
    assert (G : forall s1 e1, si_fc s1 = Some f -> let '(s2, out, e2) := sim_compare cpus m n s1 b2 (Some z) in si_batch s2 = Some b2 /\ si_fc s2 = si_fc s1 /\ (e1 <> Some TypeError ->
       ((0 <= z)%Z /\ exists c, reports m n kb ks truth sols sc (Z.to_nat z) c /\ out = [(z, c)] /\ e2 = None) \/ ((z < 0)%Z \/ no_mapping sc kb ks (Z.to_nat z)) /\ out = [] /\ e2 = Some KeyError)).
    { intros s1 e1 E. unfold sim_compare. rewrite E. unfold print_results, recorded. cbn [fc_models f]. destruct (Z.ltb_spec z 0) as [Hz|Hz].
      - cbn. repeat (split; [congruence|]). intros _. right. repeat split. left. exact Hz.
      - pose proof (A3 (Z.to_nat z)) as Az. destruct (nth (Z.to_nat z) models None) as [c|]; cbn; repeat (split; [congruence|]); intros _.
        + left. split; [exact Hz|]. exists c. destruct Az as (o & O1 & O2 & O3). split; [apply (combine_reports _ _ _ _ _ _ _ _ _ o); assumption|]. split; reflexivity.
        + right. repeat split. right. exact Az. }
    destruct (print_results f None) as [out0 [e0|]]; [apply (G _ (Some e0)); reflexivity|].
    destruct (match best with Some y => (top =? y)%nat | None => false end); [apply (G _ None); reflexivity|].
    destruct (print_results f (option_map Z.of_nat best)) as [o2 e2]. apply (G _ e2). reflexivity.
Qed.
Print Assumptions C126_selected.

Theorem C126_selected_before_comparing : forall (cpus m n : nat) (s : simulator) (b : batch) (z : Z), si_fc s = None ->
  sim_compare cpus m n s b (Some z) = (mkSimu (si_k s) (si_truth s) (si_ready s) (Some b) None, [], Some AttributeError).
Proof. intros cpus m n s b z H. unfold sim_compare. rewrite H. reflexivity. Qed.
Print Assumptions C126_selected_before_comparing.

(** ** The plots after a comparison *)
Lemma state_after cpus m n s ks sols best s' : (1 < cpus)%nat -> si_ready s = true ->
  let kb := si_k s in let truth := si_truth s in let sc := score_of "all" m n kb ks truth sols in let b := mkBatch ks (map Some sols) best in
  fst (fst (sim_compare cpus m n s b None)) = s' -> (exists i p, (i < List.length sols)%nat /\ tried kb ks p /\ flt (Fin 0) (sc i p) = true) ->
  exists top models, s' = mkSimu kb truth true (Some b) (Some (mkFC kb ks (Some top) models (ks <=? kb)%nat)) /\
    best_of_all sc kb ks (List.length sols) top /\ nth top models None <> None /\
    (forall i, match nth i models None with
       | Some c => exists o, nth_error sols i = Some o /\ c = combine_factors m n truth o (ks <=? kb)%nat (co_map c) /\ best_mapping sc kb ks i (co_map c)
       | None => no_mapping sc kb ks i end).
Proof.
  intros Hc Hr kb truth sc b E (i & p & Hi & Hp & Pos). pose proof (after_compare cpus m n s ks sols best Hc Hr) as A. cbv zeta in A. fold kb truth sc b in A.
  destruct A as [[A _]|(top & models & A1 & A2 & A3 & A4)]; [rewrite (A i Hi p Hp) in Pos; discriminate|].
  exists top, models. split; [|split; [exact A1|split; [exact A2|exact A3]]]. rewrite <- E, A4. set (f := mkFC kb ks (Some top) models (ks <=? kb)%nat).
  destruct (print_results f None) as [out0 [e0|]]; [reflexivity|]. destruct (match best with Some y => (top =? y)%nat | None => false end); [reflexivity|].
  destruct (print_results f (option_map Z.of_nat best)) as [o2 e2]. reflexivity.
Qed.

(** The model a plot call shows: the best-correlated one when none is given, and also
    when model 0 is given. *)
Definition shown_model (top : nat) (model_i : option Z) : Z := match model_i with None | Some 0%Z => Z.of_nat top | Some z => z end.
Lemma chosen_shown kb ks top models bk model_i : chosen_model (mkFC kb ks (Some top) models bk) model_i = Some (shown_model top model_i).
Proof. destruct model_i as [[|q|q]|]; reflexivity. Qed.

Lemma figure_f m kb ks top models bk truth o c i : figure_of m (mkFC kb ks (Some top) models bk) truth o ks c i = figure_of m (mkFC kb ks None [] bk) truth o ks c i.
Proof. reflexivity. Qed.
Lemma draw_ext f g check : (forall i, f i = g i) -> forall todo i, draw f check todo i = draw g check todo i.
Proof. intros H. induction todo as [|t IH]; intros i; [reflexivity|]. cbn [draw]. rewrite H. destruct (g i) as [x|]; [|reflexivity]. rewrite IH. reflexivity. Qed.

Lemma pairs_figs kb ks truth o m n c figs : c = combine_factors m n truth o (ks <=? kb)%nat (co_map c) -> tried kb ks (co_map c) ->
  draw (figure_of m (mkFC kb ks None [] (ks <=? kb)%nat) truth o ks c) (fun _ => None) (Nat.min ks kb) 0 = (figs, None) ->
  map (fun g => (fg_syn g, fg_mod g)) figs = pairs_of (ks <=? kb)%nat (co_map c).
Proof.
  intros Ec Ht D. assert (L : List.length (co_map c) = Nat.min ks kb) by (unfold tried in Ht; destruct (Nat.leb_spec ks kb); destruct Ht as (A & _); lia).
  unfold pairs_of. rewrite L. clear L Ht Ec. revert D.
  enough (G : forall todo i figs, draw (figure_of m (mkFC kb ks None [] (ks <=? kb)%nat) truth o ks c) (fun _ => None) todo i = (figs, None) ->
    map (fun g => (fg_syn g, fg_mod g)) figs = map (fun i => if (ks <=? kb)%nat then (nth i (co_map c) 0%nat, i) else (i, nth i (co_map c) 0%nat)) (seq i todo)) by apply G. clear figs. induction todo as [|t IH]; intros i figs D; cbn [draw] in D.
  - injection D as <-. reflexivity.
  - cbn [seq map]. destruct (figure_of m _ truth o ks c i) as [g|] eqn:Eg; [|discriminate]. destruct (draw _ _ t (S i)) as [r e] eqn:E. injection D as <- ->. cbn [map]. f_equal; [|apply IH, E].
    unfold figure_of in Eg. cbn [fc_base_k] in Eg. unfold pair_at in Eg. destruct (ks <=? kb)%nat; destruct (ks <=? _)%nat; try discriminate; injection Eg as <-; reflexivity.
Qed.

Theorem C126_plot : forall (cpus m n : nat) (s : simulator) (ks : nat) (sols : list solution) (best : option nat), (1 < cpus)%nat -> si_ready s = true ->
  let kb := si_k s in let truth := si_truth s in let sc := score_of "all" m n kb ks truth sols in
  let s' := fst (fst (sim_compare cpus m n s (mkBatch ks (map Some sols) best) None)) in
  (exists i p, (i < List.length sols)%nat /\ tried kb ks p /\ flt (Fin 0) (sc i p) = true) ->
  exists top, best_of_all sc kb ks (List.length sols) top /\ forall model_i : option Z,
    let z := shown_model top model_i in
    match plot_comparison m s' model_i with
    | (figs, None) => (0 <= z)%Z /\ exists o p, nth_error sols (Z.to_nat z) = Some o /\ best_mapping sc kb ks (Z.to_nat z) p /\
        map (fun g => (fg_syn g, fg_mod g)) figs = pairs_of (ks <=? kb)%nat p /\ one_to_one kb ks figs /\ forall g, In g figs -> shows m n kb ks truth o g
    | (figs, Some e) => figs = [] /\ e = KeyError /\ ((z < 0)%Z \/ no_mapping sc kb ks (Z.to_nat z))
    end.
Proof.
  intros cpus m n s ks sols best Hc Hr kb truth sc s' Pos.
  destruct (state_after cpus m n s ks sols best s' Hc Hr eq_refl Pos) as (top & models & -> & A1 & A2 & A3). fold kb truth sc in A1, A2, A3.
  exists top. split; [exact A1|]. intros model_i z. unfold plot_comparison, plot_with. cbn [si_batch si_fc]. rewrite chosen_shown. fold z. unfold recorded. cbn [fc_models].
  destruct (Z.ltb_spec z 0) as [Hz|Hz]; [repeat split; left; exact Hz|]. pose proof (A3 (Z.to_nat z)) as Az. destruct (nth (Z.to_nat z) models None) as [c|]; [|repeat split; right; exact Az].
  destruct Az as (o & O1 & O2 & O3). cbn [bt_results bt_k]. rewrite nth_error_map, O1. cbn [option_map si_truth fc_ks fc_kb]. fold kb truth.
  rewrite (draw_ext _ (figure_of m (mkFC kb ks None [] (ks <=? kb)%nat) truth o ks c)) by (intros i; apply figure_f).
  destruct (figures m n kb ks truth o c O2 (proj1 O3)) as (figs & D & F1 & F2 & F3). rewrite D. split; [exact Hz|]. exists o, (co_map c). split; [reflexivity|]. split; [exact O3|].
  split; [apply (pairs_figs kb ks truth o m n c); [exact O2|exact (proj1 O3)|exact D]|]. split; [exact F1|exact F2].
Qed.
Print Assumptions C126_plot.

(** Entries of a positively scored mapping are numbers from 0 to 1. *)
Lemma positive_entries m n b o pairs : flt (Fin 0) (score "all" m n b o pairs) = true -> forall q, In q pairs -> exists r, r2 n (s_H o (snd q)) (s_H b (fst q)) = Fin r /\ 0 <= r <= 1.
Proof.
  intros P q Hq. destruct (r2_unit n (s_H o (snd q)) (s_H b (fst q))) as [E|(v & E & Hv)]; [|exists v; split; assumption]. exfalso.
  assert (N : avg_over pairs (fun i j => r2 n (s_H o j) (s_H b i)) = NaN). { unfold avg_over. apply lmean_nan. apply in_map_iff. exists q. split; [exact E|exact Hq]. }
  unfold score in P. rewrite N in P. destruct (string_dec "all" "H"); [discriminate|]. destruct (string_dec "all" "W"); [discriminate|]. destruct (string_dec "all" "WH"); [discriminate|]. discriminate.
Qed.
Lemma one_entries m n b o pairs : score "all" m n b o pairs = Fin 1 -> forall q, In q pairs -> r2 n (s_H o (snd q)) (s_H b (fst q)) = Fin 1.
Proof.
  intros P q Hq. unfold score in P. destruct (string_dec "all" "H"); [discriminate|]. destruct (string_dec "all" "W"); [discriminate|]. destruct (string_dec "all" "WH"); [discriminate|].
  set (h := avg_over pairs (fun i j => r2 n (s_H o j) (s_H b i))) in P.
  assert (Uh : unit_or_nan h) by (apply avg_unit; intros; apply r2_unit). match type of P with fdiv (fadd (fadd _ ?w) ?wh) _ = _ => assert (Uw : unit_or_nan w) by (apply avg_unit; intros; apply r2_unit); assert (Ux : unit_or_nan wh) by (apply avg_unit; intros; apply r2_unit) end.
  destruct Uh as [E|(v & E & Hv)]; [rewrite E in P; discriminate|]. destruct Uw as [E2|(v2 & E2 & Hv2)]; rewrite E, E2 in P; [discriminate|]. destruct Ux as [E3|(v3 & E3 & Hv3)]; rewrite E3 in P; [discriminate|].
  cbn [fadd] in P. unfold fdiv in P. destruct (Req_EM_T 3 0); [lra|]. injection P as P. assert (v = 1) by lra. subst v. unfold h, avg_over in E.
  apply lmean_one in E; [|apply Forall_forall; intros x Hx; apply in_map_iff in Hx; destruct Hx as (q' & <- & _); apply r2_unit].
  rewrite Forall_forall in E. apply E. apply in_map_iff. exists q. split; [reflexivity|exact Hq].
Qed.

Lemma colour_cases g r : fg_rH g = Fin r -> 0 <= r <= 1 -> (colour g = None /\ r < 1) \/ (colour g = Some IndexErr /\ r = 1).
Proof.
  intros E Hr. unfold colour. rewrite E. rewrite Ztrunc_floor by lra. destruct (Z.leb_spec 100 (Zfloor (100 * r))) as [H|H].
  - right. split; [reflexivity|]. apply IZR_le in H. pose proof (Zfloor_lb (100 * r)). lra.
  - left. split; [reflexivity|]. destruct (Rlt_le_dec r 1) as [|H1]; [assumption|]. exfalso. assert (r = 1) by lra. subst r. replace (100 * 1) with (IZR 100) in H by (cbn; lra). rewrite Zfloor_IZR in H. lia.
Qed.

(** The profile plot draws the same figures up to the first pair that correlates
    perfectly; there it raises.  A single factor cannot be plotted at all. *)
Theorem C126_profile_plot : forall (cpus m n : nat) (s : simulator) (ks : nat) (sols : list solution) (best : option nat) (model_i : option Z) (figs : list figure), (1 < cpus)%nat -> si_ready s = true ->
  let kb := si_k s in let truth := si_truth s in let sc := score_of "all" m n kb ks truth sols in
  let s' := fst (fst (sim_compare cpus m n s (mkBatch ks (map Some sols) best) None)) in
  (exists i p, (i < List.length sols)%nat /\ tried kb ks p /\ flt (Fin 0) (sc i p) = true) ->
  plot_comparison m s' model_i = (figs, None) ->
  if (kb =? 1)%nat then plot_profile_comparison m s' model_i = ([], Some ZeroDivision)
  else exists q, (q <= List.length figs)%nat /\ (forall g, In g (firstn q figs) -> exists r, fg_rH g = Fin r /\ 0 <= r < 1) /\
    ((q = List.length figs /\ plot_profile_comparison m s' model_i = (figs, None)) \/
     exists g, nth_error figs q = Some g /\ fg_rH g = Fin 1 /\ plot_profile_comparison m s' model_i = (firstn q figs, Some IndexErr)).
Proof.
  intros cpus m n s ks sols best model_i figs Hc Hr kb truth sc s' Pos.
  destruct (state_after cpus m n s ks sols best s' Hc Hr eq_refl Pos) as (top & models & -> & A1 & A2 & A3). fold kb truth sc in A1, A2, A3.
  unfold plot_profile_comparison, plot_comparison, plot_with. cbn [si_batch si_fc si_k]. rewrite chosen_shown. set (z := shown_model top model_i). unfold recorded. cbn [fc_models].
  destruct (z <? 0)%Z; [discriminate|]. pose proof (A3 (Z.to_nat z)) as Az. destruct (nth (Z.to_nat z) models None) as [c|]; [|discriminate].
  destruct Az as (o & O1 & O2 & O3). cbn [bt_results bt_k]. rewrite nth_error_map, O1. cbn [option_map si_truth fc_ks fc_kb]. fold kb truth.
  rewrite (draw_ext (figure_of m (mkFC kb ks (Some top) models (ks <=? kb)%nat) truth o ks c) (figure_of m (mkFC kb ks None [] (ks <=? kb)%nat) truth o ks c) (fun _ => None)) by (intros i; apply figure_f).
  rewrite (draw_ext (figure_of m (mkFC kb ks (Some top) models (ks <=? kb)%nat) truth o ks c) (figure_of m (mkFC kb ks None [] (ks <=? kb)%nat) truth o ks c) colour) by (intros i; apply figure_f).
  intros D. destruct (kb =? 1)%nat; [reflexivity|]. destruct (draw_check _ colour _ _ _ D) as (q & Q1 & Q2 & Q3).
  destruct (figures m n kb ks truth o c O2 (proj1 O3)) as (figs' & D' & F1 & F2 & F3). rewrite D in D'. injection D' as <-.
  assert (U : forall g, In g figs -> exists r, fg_rH g = Fin r /\ 0 <= r <= 1).
  { intros g Hg. pose proof (in_map (fun g => (fg_syn g, fg_mod g)) _ _ Hg) as Hp. rewrite (pairs_figs kb ks truth o m n c figs O2 (proj1 O3) D) in Hp.
    destruct O3 as (_ & O3 & _). unfold sc, score_of in O3. rewrite O1 in O3. destruct (positive_entries m n truth o _ O3 _ Hp) as (r & E & Hr'). exists r. split; [|exact Hr']. destruct (F2 g Hg) as (_ & _ & E' & _). rewrite E'. exact E. }
  exists q. split; [exact Q1|]. split.
  - intros g Hg. specialize (Q2 g Hg). assert (Hg' : In g figs) by (rewrite <- (firstn_skipn q figs); apply in_or_app; left; exact Hg). destruct (U g Hg') as (r & E & Hr'). exists r. split; [exact E|].
    destruct (colour_cases g r E Hr') as [[_ H]|[H _]]; [lra|congruence].
  - destruct Q3 as [[-> ->]|(g & e & G1 & G2 & G3)]; [left; split; reflexivity|right]. exists g. split; [exact G1|]. destruct (U g (nth_error_In _ _ G1)) as (r & E & Hr').
    destruct (colour_cases g r E Hr') as [[H _]|[H ->]]; [congruence|]. split; [exact E|]. rewrite G3. congruence.
Qed.
Print Assumptions C126_profile_plot.

(** A batch that found the truth, up to the scale and order of the factors: the
    comparison reports a perfect mapping and the profile plot raises at once. *)
Theorem C126_recovered_truth : forall (cpus m n : nat) (s : simulator) (sols : list solution) (best : option nat) (o : solution) (perm : nat -> nat),
  (1 < cpus)%nat -> si_ready s = true -> (0 < m)%nat -> (0 < n)%nat -> (1 < si_k s)%nat ->
  varies m n (si_k s) (si_truth s) -> In o sols -> same_up_to_scale m n (si_k s) (si_truth s) o perm ->
  let s' := fst (fst (sim_compare cpus m n s (mkBatch (si_k s) (map Some sols) best) None)) in
  (exists figs, plot_comparison m s' None = (figs, None) /\ List.length figs = si_k s /\ forall g, In g figs -> fg_rH g = Fin 1) /\
  plot_profile_comparison m s' None = ([], Some IndexErr).
Proof.
  intros cpus m n s sols best o perm Hc Hr Hm Hn Hk Hv Ho Hs s'. set (kb := si_k s) in *. set (truth := si_truth s) in *. set (sc := score_of "all" m n kb kb truth sols).
  destruct (C55_recovers_base cpus m n kb "all" truth sols o perm Hc Hm Hn ltac:(lia) Hv Ho Hs) as (r & C1 & C2 & C3).
  pose proof (C55_best cpus m n kb kb "all" truth sols Hc) as B. cbv zeta in B. fold sc in B. rewrite C1 in B. destruct B as (B1 & B2 & B3 & B4 & B5 & _).
  assert (Pos : exists i p, (i < List.length sols)%nat /\ tried kb kb p /\ flt (Fin 0) (sc i p) = true) by (exists (cmp_model r), (co_map (cmp_best r)); rewrite <- B3; auto).
  pose proof (fun figs => C126_profile_plot cpus m n s kb sols best None figs Hc Hr Pos) as PP. pose proof (C126_plot cpus m n s kb sols best Hc Hr Pos) as P. fold kb truth sc s' in P, PP.
  destruct P as (top & (T1 & pt & T2 & T3) & P). specialize (P None). cbv zeta in P. cbn [shown_model] in P. rewrite Nat2Z.id in P.
  destruct (plot_comparison m s' None) as [figs [e|]].
  { destruct P as (_ & _ & [P|P]); [lia|]. destruct T2 as (T2 & T4 & _). rewrite (P pt T2) in T4. discriminate. }
  destruct P as (_ & o' & p & P1 & P2 & P3 & P4 & P5).
  assert (S1 : score "all" m n truth o' (pairs_of (kb <=? kb)%nat p) = Fin 1).
  { assert (E : sc top p = score "all" m n truth o' (pairs_of (kb <=? kb)%nat p)) by (unfold sc, score_of; rewrite P1; reflexivity). rewrite <- E.
    assert (U : unit_or_nan (sc top p)) by (rewrite E; apply score_unit). destruct P2 as (Q1 & Q2 & Q3). destruct U as [U|(v & U & Hv')]; [rewrite U in Q2; discriminate|]. rewrite U. f_equal.
    destruct (Req_dec v 1) as [|Nv]; [assumption|exfalso]. assert (Et : flt (sc top pt) (sc (cmp_model r) (co_map (cmp_best r))) = false) by (apply T3; assumption). rewrite <- B3, C2 in Et.
    assert (Ep : flt (sc top p) (sc top pt) = false) by (apply Q3; exact (proj1 T2)). rewrite U in Ep.
    destruct T2 as (T2 & T4 & _). destruct (sc top pt) as [w| | |] eqn:Ew; try discriminate. cbn in Et, Ep. apply Rltb_false in Et. apply Rltb_false in Ep. lra. }
  assert (One : forall g, In g figs -> fg_rH g = Fin 1).
  { intros g Hg. pose proof (in_map (fun g => (fg_syn g, fg_mod g)) _ _ Hg) as Hp. rewrite P3 in Hp. destruct (P5 g Hg) as (_ & _ & E & _). rewrite E. apply (one_entries m n truth o' _ S1 _ Hp). }
  destruct P4 as (L & _). rewrite Nat.min_id in L. split; [exists figs; split; [reflexivity|]; split; [exact L|exact One]|].
  specialize (PP figs eq_refl). cbv zeta in PP. rewrite (proj2 (Nat.eqb_neq kb 1)) in PP by lia. destruct PP as (q & Q1 & Q2 & Q3).
  destruct q as [|q].
  - destruct Q3 as [[Q _]|(g & _ & _ & Q)]; [lia|exact Q].
  - exfalso. destruct figs as [|g figs]; [cbn in L; lia|]. destruct (Q2 g) as (r' & E & Hr'); [left; reflexivity|]. rewrite (One g) in E by (left; reflexivity). injection E as <-. lra.
Qed.
Print Assumptions C126_recovered_truth.

(** ** Two factors, found swapped and rescaled by the second of two models; the first
    model found nothing. *)
Definition ex_truth := mkSol (fun t i => if (t =? i)%nat then 1 else 0) (fun i j => if (i =? j)%nat then 1 else 0).
Definition ex_found := mkSol (fun t i => if (t =? 1 - i)%nat then 3 else 0) (fun i j => if (1 - i =? j)%nat then 2 else 0).
Definition ex_nothing := mkSol (fun _ _ => 0) (fun _ _ => 0).
Definition ex_sim := mkSimu 2 ex_truth true None None.
Definition ex_batch := mkBatch 2 (map Some [ex_nothing; ex_found]) (Some 1%nat).

Lemma ex_pos : exists i p, (i < 2)%nat /\ tried 2 2 p /\ flt (Fin 0) (score_of "all" 2 2 2 2 ex_truth [ex_nothing; ex_found] i p) = true.
Proof.
  destruct C55_recovers_instance as [V E]. destruct (C55_recovers_base 2 2 2 2 "all" ex_truth [ex_nothing; ex_found] ex_found (fun i => (1 - i)%nat)) as (r & C1 & C2 & C3); try lia; [exact V|right; left; reflexivity|exact E|].
  pose proof (C55_best 2 2 2 2 2 "all" ex_truth [ex_nothing; ex_found] ltac:(lia)) as B. cbv zeta in B. rewrite C1 in B. destruct B as (B1 & B2 & B3 & B4 & _). exists (cmp_model r), (co_map (cmp_best r)). rewrite <- B3. auto.
Qed.
Lemma ex_none : no_mapping (score_of "all" 2 2 2 2 ex_truth [ex_nothing; ex_found]) 2 2 0.
Proof.
  intros p Hp. destruct (flt _ _) eqn:E; [|reflexivity]. exfalso. unfold score_of in E. cbn [nth_error] in E.
  assert (Hq : exists q, In q (pairs_of (2 <=? 2)%nat p)).
  { destruct Hp as (L & _). destruct p as [|x p]; [discriminate|]. eexists. left. reflexivity. }
  destruct Hq as [q Hq]. destruct (positive_entries 2 2 ex_truth ex_nothing _ E q Hq) as (r & Er & _).
  assert (Z : r2 2 (s_H ex_nothing (snd q)) (s_H ex_truth (fst q)) = NaN).
  { unfold r2. rewrite (proj2 (Reqb_iff _ 0)); [reflexivity|]. unfold cov, mean. cbn. lra. }
  congruence.
Qed.
Lemma ex_top top : best_of_all (score_of "all" 2 2 2 2 ex_truth [ex_nothing; ex_found]) 2 2 2 top -> top = 1%nat.
Proof.
  intros (T1 & p & (T2 & T3 & _) & _). destruct top as [|[|top]]; [|reflexivity|lia]. rewrite (ex_none p T2) in T3. discriminate.
Qed.

(** The hypotheses are met; the comparison prints one mapping and ends normally. *)
Example C126_instance : (1 < 2)%nat /\ si_ready ex_sim = true /\ varies 2 2 (si_k ex_sim) (si_truth ex_sim) /\ same_up_to_scale 2 2 (si_k ex_sim) (si_truth ex_sim) ex_found (fun i => (1 - i)%nat) /\
  exists c, snd (fst (sim_compare 2 2 2 ex_sim ex_batch None)) = [(1%Z, c)] /\ snd (sim_compare 2 2 2 ex_sim ex_batch None) = None.
Proof.
  split; [lia|]. split; [reflexivity|]. destruct C55_recovers_instance as [V E]. split; [exact V|]. split; [exact E|].
  pose proof (C126_compare 2 2 2 ex_sim 2 [ex_nothing; ex_found] (Some 1%nat) ltac:(lia) eq_refl) as H. cbv zeta in H. fold ex_batch in H. destruct (sim_compare 2 2 2 ex_sim ex_batch None) as [[s' out] e]. cbn [fst snd].
  destruct H as (_ & _ & _ & _ & _ & [[N _]|(top & c & rest & T & _ & -> & R)]).
  - destruct ex_pos as (i & p & Hi & Hp & P). pose proof (N i Hi p Hp) as F. cbn [si_k si_truth ex_sim] in F. congruence.
  - apply ex_top in T. subst top. destruct R as [(_ & -> & ->)|(F & _)]; [|congruence]. exists c. split; reflexivity.
Qed.

(** Not so: the profile plot can be drawn for every comparison that can be plotted. *)
Theorem C126_profile_plot_possible_refuted : exists (m : nat) (s : simulator) (figs : list figure),
  plot_comparison m s None = (figs, None) /\ List.length figs = 2%nat /\ plot_profile_comparison m s None = ([], Some IndexErr).
Proof.
  destruct C55_recovers_instance as [V E].
  destruct (C126_recovered_truth 2 2 2 ex_sim [ex_nothing; ex_found] (Some 1%nat) ex_found (fun i => (1 - i)%nat)) as [(figs & F1 & F2 & _) P]; try (cbn; lia); [exact V|right; left; reflexivity|exact E|].
  eexists 2%nat, _, figs. split; [exact F1|]. split; [exact F2|exact P].
Qed.
Print Assumptions C126_profile_plot_possible_refuted.

(** Not so: plotting model 0 shows model 0.  Here model 0 has no mapping at all and the
    figures are those of model 1. *)
Theorem C126_plot_of_model_zero_refuted : exists (figs : list figure), let s' := fst (fst (sim_compare 2 2 2 ex_sim ex_batch None)) in
  plot_comparison 2 s' (Some 0%Z) = (figs, None) /\ List.length figs = 2%nat /\ (forall g, In g figs -> shows 2 2 2 2 ex_truth ex_found g) /\
  no_mapping (score_of "all" 2 2 2 2 ex_truth [ex_nothing; ex_found]) 2 2 0.
Proof.
  destruct (C126_plot 2 2 2 ex_sim 2 [ex_nothing; ex_found] (Some 1%nat) ltac:(lia) eq_refl ex_pos) as (top & T & P). pose proof (ex_top top T) as ->. fold ex_batch in P. specialize (P (Some 0%Z)).
  cbv zeta in P |- *. cbn [shown_model si_k si_truth ex_sim] in P. change (Z.to_nat (Z.of_nat 1)) with 1%nat in P. cbn [si_k si_truth ex_sim] in T. destruct (plot_comparison 2 _ (Some 0%Z)) as [figs [e|]].
  - destruct P as (_ & _ & [P|P]); [lia|]. destruct T as (_ & p & (T1 & T2 & _) & _). rewrite (P p T1) in T2. discriminate.
  - destruct P as (_ & o & p & P1 & _ & _ & (L & _) & P5). injection P1 as <-. exists figs. split; [reflexivity|]. split; [exact L|]. split; [exact P5|exact ex_none].
Qed.
Print Assumptions C126_plot_of_model_zero_refuted.

(** Not so: the mapping printed for a selected model is one of the given batch.  Here
    that batch has no models. *)
Theorem C126_selected_of_given_batch_refuted : exists (s1 : simulator) (b2 : batch) (c : combo), bt_results b2 = [] /\
  snd (fst (sim_compare 2 2 2 s1 b2 (Some 1%Z))) = [(1%Z, c)] /\ snd (sim_compare 2 2 2 s1 b2 (Some 1%Z)) = None.
Proof.
  pose proof (C126_selected 2 2 2 ex_sim 2 [ex_nothing; ex_found] (Some 1%nat) (mkBatch 2 [] None) 1%Z ltac:(lia) eq_refl) as H. cbv zeta in H. fold ex_batch in H.
  destruct C126_instance as (_ & _ & _ & _ & c0 & I1 & I2). destruct (sim_compare 2 2 2 ex_sim ex_batch None) as [[s1 out1] e1]. cbn [fst snd] in I1, I2. subst e1.
  exists s1, (mkBatch 2 [] None). destruct (sim_compare 2 2 2 s1 (mkBatch 2 [] None) (Some 1%Z)) as [[s2 out] e2]. cbn [fst snd].
  destruct H as (_ & _ & H). destruct (H ltac:(discriminate)) as [(_ & c & _ & -> & ->)|([F|F] & _)].
  - exists c. repeat split.
  - lia.
  - exfalso. destruct ex_pos as (i & p & Hi & Hp & P). change (Z.to_nat 1) with 1%nat in F. cbn [si_k si_truth ex_sim] in F. destruct i as [|[|i]]; [rewrite (ex_none p Hp) in P; discriminate|rewrite (F p Hp) in P; discriminate|lia].
Qed.
Print Assumptions C126_selected_of_given_batch_refuted.

Example C126_compare_example := C126_compare 2 2 2 ex_sim 2 [ex_nothing; ex_found] (Some 1%nat) ltac:(lia) eq_refl.
Example C126_no_data_example := C126_no_data 2 2 2 (mkSimu 2 ex_truth false None None) ex_batch eq_refl.
Example C126_selected_example := C126_selected 2 2 2 ex_sim 2 [ex_nothing; ex_found] (Some 1%nat) (mkBatch 2 [] None) 1 ltac:(lia) eq_refl.
Example C126_selected_before_comparing_example := C126_selected_before_comparing 2 2 2 ex_sim ex_batch 1 eq_refl.
Example C126_plot_example := C126_plot 2 2 2 ex_sim 2 [ex_nothing; ex_found] (Some 1%nat) ltac:(lia) eq_refl ex_pos.
Example C126_profile_plot_example : forall figs, plot_comparison 2 (fst (fst (sim_compare 2 2 2 ex_sim ex_batch None))) None = (figs, None) ->
  exists q, (q <= List.length figs)%nat /\ forall g, In g (firstn q figs) -> exists r, fg_rH g = Fin r /\ 0 <= r < 1.
Proof.
  intros figs E. destruct (C126_profile_plot 2 2 2 ex_sim 2 [ex_nothing; ex_found] (Some 1%nat) None figs ltac:(lia) eq_refl ex_pos E) as (q & Q & F & _).
  exists q. split; [exact Q | exact F].
Qed.
Example C126_recovered_truth_example :=
  C126_recovered_truth 2 2 2 ex_sim [ex_nothing; ex_found] (Some 1%nat) ex_found (fun i => (1 - i)%nat) ltac:(lia) eq_refl ltac:(lia) ltac:(lia) ltac:(cbn; lia)
    (proj1 (proj2 (proj2 C126_instance))) ltac:(right; left; reflexivity) (proj1 (proj2 (proj2 (proj2 C126_instance)))).
