(** C66-C70: expressions and training of the constrained model. *)
From Coq Require Import List Bool ZArith Lia Reals Lra Permutation.
From Verif Require Import Base Fl Metrics_Model LSNMF_Model LSNMF_Proofs Disp_Model Disp_Proofs Constr_Model Constr_Proofs Constr_Props ConstrX_Proofs.
Import ListNotations.
Local Open Scope R_scope.

(** ** C66: the linear system of the expressions *)
(** Value of an expression: the signed sum its text denotes. *)
Fixpoint denote (value : elem -> R) (minus : bool) (toks : list token) : R :=
  match toks with
  | [] => 0
  | TTerm c e :: t => (if minus then - (c * value e) else c * value e) + denote value false t
  | TMinus :: t => denote value true t
  | TSep :: t => denote value false t
  end.
(** Elements of an expression, in order. *)
Fixpoint elements (toks : list token) : list elem :=
  match toks with
  | [] => []
  | TTerm _ e :: t => e :: elements t
  | _ :: t => elements t
  end.

Lemma denote_terms value toks : forall minus,
  denote value minus toks = lsum (map (fun ec => snd ec * value (fst ec)) (signed_terms minus toks)).
Proof.
  induction toks as [|[c e| |] t IH]; intros minus; cbn [denote signed_terms map lsum fst snd]; auto.
  rewrite IH. destruct minus; ring.
Qed.
Lemma elements_terms toks : forall minus, map fst (signed_terms minus toks) = elements toks.
Proof. induction toks as [|[c e| |] t IH]; intros minus; cbn; auto. rewrite IH. reflexivity. Qed.

(** Row [i] of the system is expression [i] (elements not repeated in it), and
    the right-hand side is the plain sum of the current values of its elements. *)
Theorem C66_system :
  forall (exprs : list (list token * R)) (i : nat) toks d (W H : mat) (x : nat -> R),
    nth_error exprs i = Some (toks, d) -> NoDup (elements toks) ->
    let mp := map_expressions exprs 0 [] in
    let Wt := fun a b => W a b + exp_diff_W mp x W a b in
    let Ht := fun a b => H a b + exp_diff_H mp x H a b in
    rsum (length mp) (fun c => exp_A mp i c * x c) = denote (elem_value Wt Ht) false toks /\
    exp_B W H exprs i = lsum (map (elem_value W H) (elements toks)).
Proof.
  intros exprs i toks d W H x E Hnd mp Wt Ht. split.
  - assert (Ht' : terms_of exprs i = signed_terms false toks) by (unfold terms_of; rewrite E; reflexivity).
    unfold mp. rewrite row_sum by (rewrite Ht', elements_terms; exact Hnd). fold mp.
    rewrite denote_terms, Ht'. f_equal. apply map_ext_in. intros [e c] Hi. cbn [fst snd]. f_equal.
    assert (Hin : In e (map fst mp)).
    { apply map_expr_keys. right. exists i. rewrite Ht'. apply (in_map fst) in Hi. exact Hi. }
    unfold target. destruct e as [[kd a] b]. unfold elem_value, Wt, Ht, exp_diff_W, exp_diff_H.
    assert (Hx : exists c0, elem_index mp (kd, a, b) = Some c0).
    { apply in_map_iff in Hin. destruct Hin as ([e0 occ] & He & Hin). cbn in He. subst e0.
      destruct (In_nth_error _ _ Hin) as [c0 Hc0]. exists (0 + c0)%nat. rewrite elem_index_from.
      apply (index_from_nth mp 0 c0 _ occ); [apply map_expr_nodup; constructor|exact Hc0]. }
    destruct Hx as [c0 Hc0]. destruct kd; rewrite Hc0; ring.
  - unfold exp_B. rewrite E, <- (elements_terms toks false), map_map. reflexivity.
Qed.
Print Assumptions C66_system.

Lemma map_expr_only exprs : forall i0 mp e, In e (map fst (map_expressions exprs i0 mp)) ->
  In e (map fst mp) \/ exists toks d, In (toks, d) exprs /\ In e (elements toks).
Proof.
  induction exprs as [|[toks d] t IH]; intros i0 mp e H; cbn [map_expressions] in H; [left; exact H|].
  destruct (IH _ _ _ H) as [K|(u & d' & A & B)]; [|right; exists u, d'; split; [right; exact A|exact B]].
  fold (add_terms i0 (signed_terms false toks) mp) in K. rewrite keys_terms, elements_terms in K.
  destruct K as [K|K]; [left; exact K|right; exists toks, d; split; [left; reflexivity|exact K]].
Qed.
(** What no expression names is not moved. *)
Theorem C66_other_elements_keep : forall (exprs : list (list token * R)) (W H : mat) (x : nat -> R) (a b : nat),
  let mp := map_expressions exprs 0 [] in
  ((forall toks d, In (toks, d) exprs -> ~ In (true, a, b) (elements toks)) -> exp_diff_H mp x H a b = 0) /\
  ((forall toks d, In (toks, d) exprs -> ~ In (false, b, a) (elements toks)) -> exp_diff_W mp x W a b = 0).
Proof.
  intros exprs W H x a b mp.
  assert (G : forall e, (forall toks d, In (toks, d) exprs -> ~ In e (elements toks)) -> elem_index mp e = None).
  { intros e N. unfold elem_index. assert (K : ~ In e (map fst mp)).
    { intros Hi. apply map_expr_only in Hi. destruct Hi as [[]|(toks & d & A & B)]. exact (N toks d A B). }
    generalize 0%nat. induction mp as [|[e' o] t IH]; intros c; [reflexivity|]. cbn [index_from].
    destruct (elem_eqb e' e) eqn:E; [exfalso; apply K; left; apply elem_eqb_iff; exact E|]. apply IH. intros Hi. apply K. right. exact Hi. }
  split; intros N; [unfold exp_diff_H|unfold exp_diff_W]; rewrite G by exact N; reflexivity.
Qed.
Print Assumptions C66_other_elements_keep.

(** Solving the system exactly makes the expression equal to the sum of the
    current values, so with positive values it is never 0. *)
Theorem C66_exact_solution_misses_the_equation :
  forall (exprs : list (list token * R)) (i : nat) toks d (W H : mat) (x : nat -> R),
    nth_error exprs i = Some (toks, d) -> NoDup (elements toks) -> elements toks <> [] ->
    (forall e, In e (elements toks) -> 0 < elem_value W H e) ->
    let mp := map_expressions exprs 0 [] in
    rsum (length mp) (fun c => exp_A mp i c * x c) = exp_B W H exprs i ->
    0 < denote (elem_value (fun a b => W a b + exp_diff_W mp x W a b) (fun a b => H a b + exp_diff_H mp x H a b)) false toks.
Proof.
  intros exprs i toks d W H x E Hnd Hne Hpos mp Hs.
  destruct (C66_system exprs i toks d W H x E Hnd) as [H1 H2]. fold mp in H1. rewrite <- H1, Hs, H2.
  assert (Hg : forall l, (forall e, In e l -> 0 < elem_value W H e) -> l <> [] -> 0 < lsum (map (elem_value W H) l)).
  { induction l as [|e l IH]; intros Hp Hn; [congruence|]. cbn [map lsum].
    specialize (Hp e (or_introl eq_refl)) as He. destruct l as [|e' l]; [cbn; lra|].
    assert (0 < lsum (map (elem_value W H) (e' :: l))) by (apply IH; [intros z Hz; apply Hp; right; exact Hz|discriminate]). lra. }
  apply Hg; assumption.
Qed.
Print Assumptions C66_exact_solution_misses_the_equation.

Example C66_instance :
  let toks := [TTerm 1 (true, 0%nat, 0%nat); TMinus; TTerm 1 (true, 0%nat, 1%nat)] in
  let One := (fun _ _ => 1) : mat in
  let x := fun c => match c with O => 3 | _ => 1 end in
  let exprs := [(toks, 250)] in let mp := map_expressions exprs 0 [] in
  NoDup (elements toks) /\ (forall e, In e (elements toks) -> 0 < elem_value One One e) /\
  denote (elem_value One One) false toks = 0 /\
  rsum (length mp) (fun c => exp_A mp 0 c * x c) = exp_B One One exprs 0 /\
  denote (elem_value (fun a b => One a b + exp_diff_W mp x One a b) (fun a b => One a b + exp_diff_H mp x One a b)) false toks = 2.
Proof.
  cbn. split; [repeat constructor; cbn; intros H; [destruct H as [[=]|[]]|exact H]|]. split.
  - intros e [<-|[<-|[]]]; cbn; lra.
  - repeat split; ring.
Qed.

(** The system aims at the equation: refuted, already for an equation the
    solution satisfies. *)
Theorem C66_equation_is_the_target_refuted :
  exists (toks : list token) (W H : mat) (x : nat -> R),
    let exprs := [(toks, 250)] in let mp := map_expressions exprs 0 [] in
    NoDup (elements toks) /\ denote (elem_value W H) false toks = 0 /\
    rsum (length mp) (fun c => exp_A mp 0 c * x c) = exp_B W H exprs 0 /\
    denote (elem_value (fun a b => W a b + exp_diff_W mp x W a b) (fun a b => H a b + exp_diff_H mp x H a b)) false toks <> 0.
Proof.
  exists [TTerm 1 (true, 0%nat, 0%nat); TMinus; TTerm 1 (true, 0%nat, 1%nat)], (fun _ _ => 1), (fun _ _ => 1),
    (fun c => match c with O => 3 | _ => 1 end). intros exprs mp.
  destruct C66_instance as (H1 & _ & H3 & H4 & H5). repeat split; [exact H1|exact H3|exact H4|].
  unfold mp, exprs. rewrite H5. lra.
Qed.
Print Assumptions C66_equation_is_the_target_refuted.
(* one expression, the difference of two elements of a profile *)
Definition xcx_toks : list token := [TTerm 1 (true, 0%nat, 0%nat); TMinus; TTerm 1 (true, 0%nat, 1%nat)].
Definition xcx_one : mat := fun _ _ => 1.
Definition xcx_x (c : nat) : R := match c with O => 3 | _ => 1 end.
Lemma xcx_nodup : NoDup (elements xcx_toks).
Proof. exact (proj1 C66_instance). Qed.
Example C66_system_example :=
  C66_system [(xcx_toks, 250)] 0 xcx_toks 250 xcx_one xcx_one xcx_x eq_refl xcx_nodup.
Example C66_other_elements_keep_example : exp_diff_H (map_expressions [(xcx_toks, 250)] 0 []) xcx_x xcx_one 1%nat 1%nat = 0.
Proof.
  apply (proj1 (C66_other_elements_keep [(xcx_toks, 250)] xcx_one xcx_one xcx_x 1 1)).
  intros toks d [H | []]. inversion H; subst. cbn. intros [E | [E | []]]; discriminate.
Qed.
Example C66_exact_solution_misses_the_equation_example :=
  C66_exact_solution_misses_the_equation [(xcx_toks, 250)] 0 xcx_toks 250 xcx_one xcx_one xcx_x eq_refl xcx_nodup
    ltac:(discriminate) (proj1 (proj2 C66_instance)) (proj1 (proj2 (proj2 (proj2 C66_instance)))).

(** An element written twice in an expression counts with its first coefficient
    only. *)
Theorem C66_repeated_element_refuted :
  exists (toks : list token) (x : nat -> R) (v : R),
    let mp := map_expressions [(toks, 250)] 0 [] in
    (forall e, elem_index mp e <> None -> match elem_index mp e with Some c => x c = v | None => True end) /\
    rsum (length mp) (fun c => exp_A mp 0 c * x c) <> denote (fun _ => v) false toks.
Proof.
  exists [TTerm 2 (true, 0%nat, 0%nat); TSep; TTerm 3 (true, 0%nat, 0%nat)], (fun _ => 1), 1.
  split.
  - intros e _. destruct (elem_index _ e); [reflexivity|exact I].
  - cbn. lra.
Qed.
Print Assumptions C66_repeated_element_refuted.

(** The reported evaluation: signed sum over the stated elements, with sample
    elements read at transposed position. *)
Theorem C66_reported_evaluation :
  forall (exprs : list (list token * R)) (i : nat) toks d (W H : mat),
    nth_error exprs i = Some (toks, d) -> NoDup (elements toks) ->
    eval_expr W H (map_expressions exprs 0 []) exprs i = denote (elem_value (fun a b => W b a) H) false toks.
Proof.
  intros exprs i toks d W H E Hnd. unfold eval_expr. rewrite E, denote_terms. f_equal. apply map_ext_in.
  intros [e c] Hi. cbn [fst snd].
  rewrite map_expr_coef by (intros p []). cbn [Nat.ltb Nat.leb]. rewrite Nat.sub_0_r. unfold terms_of. rewrite E.
  rewrite (term_coef_in _ e c); [|rewrite elements_terms; exact Hnd|exact Hi].
  destruct e as [[kd a] b]. cbn. destruct kd; ring.
Qed.
Print Assumptions C66_reported_evaluation.
Example C66_reported_evaluation_example :=
  C66_reported_evaluation [(xcx_toks, 250)] 0 xcx_toks 250 xcx_one xcx_one eq_refl xcx_nodup.

Theorem C66_reported_sample_element_refuted :
  exists (exprs : list (list token * R)) toks (W H : mat),
    nth_error exprs 0 = Some (toks, 1) /\ NoDup (elements toks) /\
    eval_expr W H (map_expressions exprs 0 []) exprs 0 <> denote (elem_value W H) false toks.
Proof.
  exists [([TTerm 1 (false, 0%nat, 1%nat)], 1)], [TTerm 1 (false, 0%nat, 1%nat)], (fun a _ => INR a), (fun _ _ => 0).
  split; [reflexivity|]. split; [repeat constructor; intros []|]. cbn. lra.
Qed.
Print Assumptions C66_reported_sample_element_refuted.

(** ** C67: dQ budget of the expressions *)
(** [dq j]: change of the main loss with the differences scaled by 0.98^j.  The
    first of at most 101 scales below the summed limit is used, else zero. *)
Theorem C67_expression_budget :
  forall (dq : nat -> fl) (total : R), exists o, (forall f, (102 <= f)%nat -> budget dq total f = Some o) /\
    match o with
    | Some j => (j <= 100)%nat /\ flt (dq j) (Fin total) = true /\ (forall i, (i < j)%nat -> flt (dq i) (Fin total) = false)
    | None => forall i, (i <= 100)%nat -> flt (dq i) (Fin total) = false
    end.
Proof.
  intros dq total. destruct (budget_spec dq total 102 (le_n _)) as (o & Ho & Hs). exists o. split; [|exact Hs].
  intros f Hf. unfold budget in *. apply (loop_mono _ 102 f Hf _ _ Ho).
Qed.
Print Assumptions C67_expression_budget.

(** If some scale among the first 101 is below the limit, the limit is met. *)
Theorem C67_limit_met :
  forall (dq : nat -> fl) (total : R) (i f : nat), (i <= 100)%nat -> (102 <= f)%nat -> flt (dq i) (Fin total) = true ->
    exists j, (j <= i)%nat /\ budget dq total f = Some (Some j) /\ flt (dq j) (Fin total) = true.
Proof.
  intros dq total i f Hi Hf H. destruct (C67_expression_budget dq total) as ([j|] & Hb & Hs).
  - destruct Hs as (H1 & H2 & H3). exists j. split; [|auto].
    destruct (Nat.le_gt_cases j i) as [|Hlt]; [assumption|]. rewrite (H3 i Hlt) in H. discriminate.
  - rewrite (Hs i Hi) in H. discriminate.
Qed.
Print Assumptions C67_limit_met.
Example C67_expression_budget_example := C67_expression_budget (fun j => Fin (100 - INR j)) 45.
Lemma xcx_below : flt (Fin (100 - INR 60)) (Fin 45) = true.
Proof. cbn -[INR]. apply Rltb_iff. replace (INR 60) with 60 by (rewrite INR_IZR_INZ; reflexivity). lra. Qed.
Example C67_limit_met_example := C67_limit_met (fun j => Fin (100 - INR j)) 45 60 102 ltac:(lia) ltac:(lia) xcx_below.

Example C67_instance :
  let dq := fun j => Fin (100 - INR j) in
  flt (dq 60%nat) (Fin 45) = true /\ budget dq 45 102 = Some (Some 56%nat).
Proof.
  intros dq. split; [cbn; apply Rltb_iff; lra|].
  destruct (C67_expression_budget dq 45) as ([j|] & Hb & Hs).
  - rewrite (Hb 102%nat (le_n _)). do 2 f_equal. destruct Hs as (H1 & H2 & H3). unfold dq in *.
    apply flt_fin in H2. assert (55 < INR j) by lra. apply (INR_lt 55 j) in H || (replace 55 with (INR 55) in H by (cbn; lra); apply INR_lt in H).
    destruct (Nat.le_gt_cases j 56) as [|Hlt]; [lia|]. specialize (H3 56%nat Hlt). cbn [flt] in H3. apply Rltb_false in H3.
    replace (INR 56) with 56 in H3 by (cbn; lra). lra.
  - exfalso. specialize (Hs 60%nat ltac:(lia)). unfold dq in Hs. cbn [flt] in Hs. apply Rltb_false in Hs.
    replace (INR 60) with 60 in Hs by (cbn; lra). lra.
Qed.

(** ** C68: the training loop *)
(** Training runs until the first iteration [j >= converge_n] at which the last
    [converge_n] values of Q(main) are finite and within the tolerance of each
    other, or for [max_iterations]; the histories have one entry per iteration. *)
Theorem C68_training_loop :
  forall {St : Type} (step : St -> St) (losses : St -> fl * fl * fl) (st0 : St) (nc cn max_iter : nat) (delta : R),
    (0 < cn)%nat -> (0 < nc)%nat -> (0 < max_iter)%nat ->
    let state j := Nat.iter j step st0 in
    let qmain j := let '(t, _, a) := losses (state (S j)) in fadd t a in
    let stops j := (cn <= j)%nat /\ exists xs : nat -> R, (forall i, (j < i + cn)%nat -> (i <= j)%nat -> qmain i = Fin (xs i)) /\
      (forall i i', (j < i + cn)%nat -> (i <= j)%nat -> (j < i' + cn)%nat -> (i' <= j)%nat -> xs i - xs i' <= delta) in
    exists r, c_train step losses nc cn delta max_iter st0 = Some (Some r) /\
      exists j, cr_steps r = j /\ (j < max_iter)%nat /\ cr_state r = state (S j) /\ length (cr_hist r) = S j /\
        (forall i, (i <= j)%nat -> nth_error (cr_hist r) i = Some (losses (state (S i)))) /\
        (forall i, (i < j)%nat -> ~ stops i) /\
        (cr_conv r = true <-> stops j) /\ (cr_conv r = false -> j = (max_iter - 1)%nat).
Proof.
  intros St step losses st0 nc cn max_iter delta Hcn Hnc Hmax state qmain stops.
  destruct (c_loop_spec step losses st0 cn delta Hcn max_iter 0 [] []) as (r & Hr & Hc); [reflexivity|reflexivity|intros; lia|].
  assert (Hst : forall j, stops j <-> ((cn <= j)%nat /\ settled delta (window step losses st0 cn j))).
  { intros j. unfold stops, settled, window. split; (intros [H1 H2]; split; [exact H1|]).
    - destruct H2 as (xs & Ha & Hb). exists (map xs (seq (S j - cn) cn)). split.
      + rewrite map_map. apply map_ext_in. intros i Hi. apply in_seq in Hi. apply Ha; lia.
      + intros x y Hx Hy. apply in_map_iff in Hx, Hy. destruct Hx as (i & <- & Hi), Hy as (i' & <- & Hi').
        apply in_seq in Hi, Hi'. apply Hb; lia.
    - destruct H2 as (ys & Ha & Hb). exists (fun i => nth (i - (S j - cn)) ys 0).
      assert (Hlen : length ys = cn) by (rewrite <- (map_length Fin), <- Ha, map_length, seq_length; reflexivity).
      assert (Hin : forall i, (j < i + cn)%nat -> (i <= j)%nat -> In (nth (i - (S j - cn)) ys 0) ys) by (intros; apply nth_In; lia).
      split; [|intros; apply Hb; apply Hin; assumption].
      intros i Hi1 Hi2. change (qmain i) with (qm_at step losses st0 i).
      assert (E : nth (i - (S j - cn)) (map (qm_at step losses st0) (seq (S j - cn) cn)) (qm_at step losses st0 0) =
                  nth (i - (S j - cn)) (map Fin ys) (qm_at step losses st0 0)) by (rewrite Ha; reflexivity).
      rewrite (map_nth (qm_at step losses st0)), seq_nth in E by lia.
      replace (S j - cn + (i - (S j - cn)))%nat with i in E by lia. rewrite E.
      rewrite (nth_indep _ _ (Fin 0)) by (rewrite map_length; lia). apply (map_nth Fin). }
  exists r. split.
  { unfold c_train. destruct (Nat.eqb_spec nc 0); [lia|]. destruct (Nat.eqb_spec max_iter 0); [lia|].
    change (nth_state step st0 0) with st0 in Hr. rewrite Hr. reflexivity. }
  assert (Hhist : forall j i, (i <= j)%nat -> nth_error (map (fun j => losses (nth_state step st0 (S j))) (seq 0 (S j))) i = Some (losses (state (S i)))).
  { intros j i Hi. change (Some (losses (state (S i)))) with (Some ((fun j => losses (nth_state step st0 (S j))) i)). apply map_nth_error.
    rewrite (nth_error_nth' _ 0%nat) by (rewrite seq_length; lia). rewrite seq_nth by lia. reflexivity. }
  destruct Hc as [(j & H1 & H2 & H3 & H4 & H5 & H6 & H7 & H8)|(H1 & H2 & H3 & H4 & H5)].
  - exists j. rewrite H5, H6, H7, H8. split; [reflexivity|]. split; [lia|]. split; [reflexivity|].
    split; [rewrite map_length, seq_length; reflexivity|]. split; [intros i Hi; apply Hhist; exact Hi|].
    split; [intros i Hi Hs; apply (H4 i Hi), Hst, Hs|]. split; [|discriminate].
    split; [intros _; apply Hst; auto|reflexivity].
  - cbn [Nat.add] in *. exists (max_iter - 1)%nat. rewrite H2, H3, H4, H5.
    assert (Em : max_iter = S (max_iter - 1)) by lia.
    split; [reflexivity|]. split; [lia|]. split; [rewrite Em at 1; reflexivity|].
    split; [rewrite map_length, seq_length; exact Em|].
    split; [intros i Hi; rewrite Em at 1; apply Hhist; exact Hi|].
    split; [intros i Hi Hs; apply (H1 i ltac:(lia)), Hst, Hs|]. split; [|reflexivity].
    split; [discriminate|]. intros Hs. exfalso. apply (H1 (max_iter - 1)%nat ltac:(lia)), Hst, Hs.
Qed.
Print Assumptions C68_training_loop.

(** Without constraints and expressions nothing is trained. *)
Theorem C68_nothing_to_train :
  forall {St : Type} (step : St -> St) (losses : St -> fl * fl * fl) (st0 : St) (cn max_iter : nat) (delta : R),
    c_train step losses 0 cn delta max_iter st0 = Some None.
Proof. reflexivity. Qed.
Print Assumptions C68_nothing_to_train.

(** A NaN in Q(main) prevents convergence for [converge_n] iterations; with a
    NaN in every value training never converges. *)
Theorem C68_nan_never_converges :
  forall {St : Type} (step : St -> St) (losses : St -> fl * fl * fl) (st0 : St) (nc cn max_iter : nat) (delta : R),
    (0 < cn)%nat -> (0 < nc)%nat -> (0 < max_iter)%nat ->
    (forall s, let '(t, _, a) := losses s in t = NaN \/ a = NaN) ->
    exists r, c_train step losses nc cn delta max_iter st0 = Some (Some r) /\ cr_conv r = false /\
      cr_steps r = (max_iter - 1)%nat /\ length (cr_hist r) = max_iter.
Proof.
  intros St step losses st0 nc cn max_iter delta Hcn Hnc Hm Hnan.
  destruct (C68_training_loop step losses st0 nc cn max_iter delta Hcn Hnc Hm) as (r & Hr & j & H1 & H2 & H3 & H4 & _ & _ & H6 & H7).
  exists r. split; [exact Hr|].
  assert (Hf : cr_conv r = false).
  { destruct (cr_conv r) eqn:E; [|reflexivity]. exfalso. destruct (proj1 H6 eq_refl) as (_ & xs & Hx & _).
    specialize (Hx j ltac:(lia) ltac:(lia)). specialize (Hnan (Nat.iter (S j) step st0)).
    destruct (losses (Nat.iter (S j) step st0)) as [[t rb] a]. destruct Hnan as [->| ->]; [discriminate|].
    destruct t; discriminate. }
  specialize (H7 Hf). repeat split; [exact Hf|lia|lia].
Qed.
Print Assumptions C68_nan_never_converges.

(** A window of size 0 raises in the first iteration. *)
Theorem C68_zero_window_raises :
  forall {St : Type} (step : St -> St) (losses : St -> fl * fl * fl) (st0 : St) (nc max_iter : nat) (delta : R),
    (0 < nc)%nat -> c_train step losses nc 0 delta max_iter st0 = None.
Proof.
  intros St step losses st0 nc max_iter delta Hnc. unfold c_train. destruct (Nat.eqb_spec nc 0); [lia|].
  destruct max_iter; [reflexivity|]. cbn. reflexivity.
Qed.
Print Assumptions C68_zero_window_raises.
(* three decreasing losses followed by a constant one *)
Definition xcx_losses (n : nat) : fl * fl * fl := (Fin (INR (3 - n)), Fin 0, Fin 1).
Example C68_training_loop_example :=
  C68_training_loop (fun n => S n) xcx_losses 0%nat 1 2 10 (1 / 2) ltac:(lia) ltac:(lia) ltac:(lia).
Example C68_nothing_to_train_example := C68_nothing_to_train (fun n => S n) xcx_losses 0%nat 2 10 (1 / 2).
Example C68_nan_never_converges_example :=
  C68_nan_never_converges (fun n => S n) (fun n => (NaN, Fin 0, Fin 1)) 0%nat 1 2 10 (1 / 2)
    ltac:(lia) ltac:(lia) ltac:(lia) (fun _ => or_introl eq_refl).
Example C68_zero_window_raises_example := C68_zero_window_raises (fun n => S n) xcx_losses 0%nat 1 10 (1 / 2) ltac:(lia).

Example C68_instance :
  exists r, c_train (fun n => S n) (fun n => (Fin (INR (3 - n)), Fin 0, Fin 1)) 1 2 (1 / 2) 10 0%nat = Some (Some r) /\
    cr_conv r = true.
Proof.
  destruct (C68_training_loop (fun n => S n) (fun n => (Fin (INR (3 - n)), Fin 0, Fin 1)) 0%nat 1 2 10 (1 / 2) ltac:(lia) ltac:(lia) ltac:(lia))
    as (r & Hr & j & H1 & H2 & H3 & H4 & H5 & H6 & H7 & H8).
  exists r. split; [exact Hr|]. destruct (cr_conv r) eqn:E; [reflexivity|]. exfalso. specialize (H8 eq_refl). subst j.
  apply (H6 4%nat); [lia|]. split; [lia|]. exists (fun _ => 1). split.
  - intros i Hi1 Hi2. assert (E4 : i = 3%nat \/ i = 4%nat) by lia. destruct E4 as [->| ->]; cbn; f_equal; lra.
  - intros. lra.
Qed.

(** Plot of Q(main): the plotted values are those of Q(true); there are twice
    as many as iterations. *)
Theorem C68_plot_main :
  forall (hist : list (fl * fl * fl)) (i : nat), (i < length hist)%nat ->
    length (snd (plot_main hist)) = (2 * length (fst (plot_main hist)))%nat /\
    nth_error (fst (plot_main hist)) i = Some i /\
    nth_error (snd (plot_main hist)) i = option_map (fun q => fst (fst q)) (nth_error hist i).
Proof.
  intros hist i Hi. unfold plot_main. cbn [fst snd]. rewrite app_length, !map_length, seq_length. split; [lia|]. split.
  - rewrite (nth_error_nth' _ 0%nat) by (rewrite seq_length; exact Hi). rewrite seq_nth by exact Hi. reflexivity.
  - rewrite nth_error_app1 by (rewrite map_length; exact Hi). apply nth_error_map.
Qed.
Print Assumptions C68_plot_main.
Example C68_plot_main_example := C68_plot_main [xcx_losses 0; xcx_losses 1; xcx_losses 2] 1 ltac:(cbn; lia).

Theorem C68_plot_main_shows_the_sum_refuted :
  exists hist t r a, nth_error hist 0 = Some (t, r, a) /\ nth_error (snd (plot_main hist)) 0 <> Some (fadd t a).
Proof.
  exists [(Fin 1, Fin 0, Fin 1)], (Fin 1), (Fin 0), (Fin 1). split; [reflexivity|]. cbn. intros [= H]. lra.
Qed.
Print Assumptions C68_plot_main_shows_the_sum_refuted.

(** ** C69: what survives an iteration *)
Theorem C69_set_to_zero_stays_zero :
  forall (m n k : nat) (V U bW bH : mat) (r : registry) (E : mat -> mat -> mat * mat) (W H W' H' : mat) M N K l c,
    reachable M N K r -> in_range m n k r -> In (l, c) r -> c_type c = SetZero ->
    c_iter m n k V U bW bH r E (W, H) = Some (W', H') ->
    match c_tgt c with
    | Feature => H' (Z.to_nat (c_i c)) (Z.to_nat (c_j c)) = 0
    | _ => W' (Z.to_nat (c_i c)) (Z.to_nat (c_j c)) = 0
    end.
Proof.
  intros m n k V U bW bH r E W H W' H' M N K l c Hre Hr Hin Ht. unfold c_iter.
  destruct (E W H) as [Ew Eh].
  destruct (C42_constrained_cells m n k V U bW bH W H Ew Eh r M N K Hre Hr) as (Dw & Dh & HD & Hc & _).
  rewrite HD. intros Hs. apply ls_update_zero in Hs. destruct Hs as [Hw Hh].
  specialize (Hc l c Hin). cbn zeta in Hc. rewrite Ht in Hc. cbn [effect] in Hc.
  destruct (c_tgt c).
  - apply Hh. rewrite Rplus_comm, Hc. apply Rabs_R0.
  - apply Hw. lra.
  - apply Hw. lra.
Qed.
Print Assumptions C69_set_to_zero_stays_zero.

(** Constraints with sensible parameters. *)
Definition sane (r : registry) : Prop :=
  forall l c, In (l, c) r -> match c_type c with PullUp d => 0 <= d | PullTo t _ => 0 <= t | _ => True end.

Theorem C69_nonnegative :
  forall (m n k : nat) (V U bW bH : mat) (r : registry) (E : mat -> mat -> mat * mat) (W H W' H' : mat) M N K,
    reachable M N K r -> in_range m n k r -> sane r ->
    mall m n (fun x => 0 <= x) V -> mall m n (fun u => u <> 0) U ->
    mall m k (fun x => 0 <= x) bW -> mall m k (fun x => 0 <= x) W ->
    mall m k (fun x => 0 <= x) (fun i a => W i a + fst (E W H) i a) ->
    c_iter m n k V U bW bH r E (W, H) = Some (W', H') ->
    mall m k (fun x => 0 <= x) W' /\ mall k n (fun x => 0 <= x) H'.
Proof.
  intros m n k V U bW bH r E W H W' H' M N K Hre Hr Hsa HV HU HbW HW HE. unfold c_iter.
  destruct (E W H) as [Ew Eh]. cbn [fst] in HE.
  destruct (C42_constrained_cells m n k V U bW bH W H Ew Eh r M N K Hre Hr) as (Dw & Dh & HD & Hc & _ & Hu).
  rewrite HD. intros Hs.
  apply ls_update_nonneg in Hs; [exact Hs|exact HV| | |].
  - intros i j Hi Hj. left. apply (weights_pos m n U HU i j Hi Hj).
  - intros i a Hi Ha. cbv beta.
    assert (Hdec : (exists l c, In (l, c) r /\ c_tgt c = Sample /\ c_i c = Z.of_nat i /\ c_j c = Z.of_nat a) \/ untouched_sample r i a).
    { unfold untouched_sample. clear. induction r as [|[l c] r [(l' & c' & H1 & H2)|IH]].
      - right. intros l c [].
      - left. exists l', c'. split; [right; exact H1|exact H2].
      - destruct (Z.eq_dec (c_i c) (Z.of_nat i)), (Z.eq_dec (c_j c) (Z.of_nat a)), (c_tgt c) eqn:Et;
          try (left; exists l, c; split; [left; reflexivity|auto]; fail);
          right; intros l' c' [[= <- <-]|Hi] Ht; try congruence; try (left; assumption); try (right; assumption); apply (IH l' c' Hi Ht). }
    specialize (HW i a Hi Ha). specialize (HbW i a Hi Ha). specialize (HE i a Hi Ha). cbv beta in *.
    destruct Hdec as [(l & c & Hin & Ht & Hci & Hcj)|Hun].
    + specialize (Hc l c Hin). cbn zeta in Hc. rewrite Ht, Hci, Hcj, !Nat2Z.id in Hc.
      specialize (Hsa l c Hin). rewrite (Rplus_comm (Dw i a)).
      destruct (c_type c) as [d|d|t d| | |lo hi|]; cbn [effect] in Hc.
      * destruct Hc as [H1 H2]. destruct HW as [HW|HW]; [specialize (H1 HW); lra|]. rewrite (H2 (eq_sym HW)).
        left. apply Rinv_0_lt_compat. lra.
      * specialize (Hc Hsa HW). lra.
      * pose proof (Rmin_glb (W i a) t 0 HW Hsa). lra.
      * lra.
      * lra.
      * destruct Hc as (H1 & H2 & H3). destruct (Rlt_le_dec (W i a) lo) as [Hl|Hl]; [rewrite H1; lra|].
        destruct (Rlt_le_dec hi (W i a)) as [Hh|Hh]; [rewrite H2; lra|rewrite H3; lra].
      * lra.
    + rewrite (Hu i a Hun). lra.
  - intros a j _ _. apply Rabs_pos.
Qed.
Print Assumptions C69_nonnegative.

Ltac nz_all :=
  replace (Rabs (0 + 1)) with 1 by (rewrite Rplus_0_l; symmetry; apply Rabs_R1);
  repeat match goal with |- context [nzb ?x] => replace (nzb x) with true
    by (symmetry; unfold nzb; destruct (Req_EM_T x 0) as [Hx|]; [exfalso; field_simplify in Hx; lra|reflexivity]) end.

Example C69_instance :
  let One := (fun _ _ => 1) : mat in let Zero := (fun _ _ => 0) : mat in
  let r := [(LSample 0 0, mkC SetZero 0 0 Sample)] in
  reachable 2 1 2 r /\ in_range 2 1 2 r /\ sane r /\
  exists W' H', c_iter 2 1 2 One One One One r (fun _ _ => (Zero, Zero)) (One, One) = Some (W', H') /\
    W' 0%nat 0%nat = 0 /\ W' 0%nat 1%nat <> 0.
Proof.
  intros One Zero r.
  assert (Hre : reachable 2 1 2 r) by (exists [Add (mkC SetZero 0 0 Sample)]; reflexivity).
  assert (Hr : in_range 2 1 2 r) by (intros l c [[= <- <-]|[]]; cbn; lia).
  split; [exact Hre|]. split; [exact Hr|]. split; [intros l c [[= <- <-]|[]]; exact I|].
  unfold c_iter, One, Zero, r. cbn [apply_constraints apply_one c_tgt c_i c_j c_type]. cbn.
  unfold h_step, w_step, all_nz, h_den, w_den, h_num, w_num, wev, mmul, weights. cbn.
  nz_all. cbn. nz_all. cbn.
  eexists _, _. split; [reflexivity|]. split; [cbn; ring|].
  cbn. replace (Rabs (0 + 1)) with 1 by (rewrite Rplus_0_l; symmetry; apply Rabs_R1).
  intros Hx. field_simplify in Hx; lra.
Qed.

(** With a single factor, setting a sample's contribution to zero makes the next
    update divide by zero, for all data. *)
Theorem C69_zeroing_only_contribution_breaks :
  forall (m n : nat) (V U bW bH : mat) (r : registry) (E : mat -> mat -> mat * mat) (W H : mat) M N K l c,
    reachable M N K r -> in_range m n 1 r -> In (l, c) r -> c_type c = SetZero -> c_tgt c = Sample ->
    c_iter m n 1 V U bW bH r E (W, H) = None.
Proof.
  intros m n V U bW bH r E W H M N K l c Hre Hr Hin Ht Hg. unfold c_iter. destruct (E W H) as [Ew Eh].
  destruct (C42_constrained_cells m n 1 V U bW bH W H Ew Eh r M N K Hre Hr) as (Dw & Dh & HD & Hc & _).
  rewrite HD. specialize (Hc l c Hin). cbn zeta in Hc. rewrite Ht, Hg in Hc. cbn [effect] in Hc.
  specialize (Hr l c Hin). rewrite Hg in Hr.
  set (i := Z.to_nat (c_i c)) in *. assert (Hj : Z.to_nat (c_j c) = 0%nat) by lia. rewrite Hj in Hc.
  assert (Hi : (i < m)%nat) by lia. clearbody i.
  unfold ls_update. destruct (h_step _ _ _ _ _ _ _) as [H1|]; [|reflexivity].
  unfold w_step. destruct (all_nz m 1 _) eqn:Ez; [|reflexivity]. exfalso.
  rewrite all_nz_true in Ez. specialize (Ez i 0%nat Hi ltac:(lia)). cbv beta in Ez. apply Ez.
  unfold w_den. rewrite <- (rsum_0 n). apply rsum_ext. intros j _. unfold mmul. cbn [rsum].
  rewrite (Rplus_comm (Dw i 0%nat)), Hc. ring.
Qed.
Print Assumptions C69_zeroing_only_contribution_breaks.
(* two factors, one contribution held at zero *)
Definition xcx_zero : mat := fun _ _ => 0.
Definition xcx_r : registry := [(LSample 0 0, mkC SetZero 0 0 Sample)].
Example C69_set_to_zero_stays_zero_example : exists W' H',
  c_iter 2 1 2 xcx_one xcx_one xcx_one xcx_one xcx_r (fun _ _ => (xcx_zero, xcx_zero)) (xcx_one, xcx_one) = Some (W', H') /\
  W' 0%nat 0%nat = 0 /\ mall 2 2 (fun x => 0 <= x) W' /\ mall 2 1 (fun x => 0 <= x) H'.
Proof.
  destruct C69_instance as (Hr & Hi & Hs & W' & H' & E & _ & _).
  exists W', H'. split; [exact E |]. split.
  - exact (C69_set_to_zero_stays_zero 2 1 2 xcx_one xcx_one xcx_one xcx_one xcx_r (fun _ _ => (xcx_zero, xcx_zero))
      xcx_one xcx_one W' H' 2 1 2 (LSample 0 0) (mkC SetZero 0 0 Sample) Hr Hi (or_introl eq_refl) eq_refl E).
  - refine (C69_nonnegative 2 1 2 xcx_one xcx_one xcx_one xcx_one xcx_r (fun _ _ => (xcx_zero, xcx_zero))
      xcx_one xcx_one W' H' 2 1 2 Hr Hi Hs _ _ _ _ _ E); intros i j _ _; unfold xcx_one, xcx_zero; cbn; lra.
Qed.
Lemma xcx_in_range : in_range 2 1 1 xcx_r.
Proof. intros l c [H | []]; inversion H; cbn; lia. Qed.
Example C69_zeroing_only_contribution_breaks_example :=
  C69_zeroing_only_contribution_breaks 2 1 xcx_one xcx_one xcx_one xcx_one xcx_r (fun _ _ => (xcx_zero, xcx_zero))
    xcx_one xcx_one 2 1 2 (LSample 0 0) (mkC SetZero 0 0 Sample) (ex_intro _ [Add (mkC SetZero 0 0 Sample)] eq_refl)
    xcx_in_range (or_introl eq_refl) eq_refl eq_refl.

(** A cell set to its base value does not keep it through the update. *)
Theorem C69_base_value_kept_refuted :
  exists (V U bW bH : mat) W' H', let r := [(LFeature 0 0, mkC SetBase 0 0 Feature)] in
    reachable 1 1 1 r /\ in_range 1 1 1 r /\
    c_iter 1 1 1 V U bW bH r (fun _ _ => ((fun _ _ => 0), (fun _ _ => 0))) (bW, bH) = Some (W', H') /\
    H' 0%nat 0%nat <> bH 0%nat 0%nat.
Proof.
  exists (fun _ _ => 4), (fun _ _ => 1), (fun _ _ => 1), (fun _ _ => 1).
  unfold c_iter. cbn [apply_constraints apply_one c_tgt c_i c_j c_type]. cbn.
  unfold h_step, w_step, all_nz, h_den, w_den, h_num, w_num, wev, mmul, weights. cbn.
  replace (Rabs (1 - 1 + 1)) with 1 by (replace (1 - 1 + 1) with 1 by ring; symmetry; apply Rabs_R1).
  nz_all. cbn.
  replace (Rabs (1 - 1 + 1)) with 1 by (replace (1 - 1 + 1) with 1 by ring; symmetry; apply Rabs_R1).
  nz_all.
  cbn. eexists _, _. split; [exists [Add (mkC SetBase 0 0 Feature)]; reflexivity|].
  split; [intros l c [[= <- <-]|[]]; cbn; lia|]. split; [reflexivity|].
  cbn.
  replace (Rabs (1 - 1 + 1)) with 1 by (replace (1 - 1 + 1) with 1 by ring; symmetry; apply Rabs_R1).
  intros Hx. field_simplify in Hx; lra.
Qed.
Print Assumptions C69_base_value_kept_refuted.

(** ** C70: Q(aux) *)
Theorem C70_qaux_nonnegative_zero_iff :
  forall (m n k : nat) (s : R) (W Wp Dw H Hp Dh : mat), s <> 0 ->
    0 <= q_aux m n k s W Wp Dw H Hp Dh /\
    (q_aux m n k s W Wp Dw H Hp Dh = 0 <->
       meq m k Wp (fun i a => W i a + Dw i a) /\ meq k n Hp (fun a j => H a j + Dh a j)).
Proof.
  intros m n k s W Wp Dw H Hp Dh Hs.
  assert (Hs2 : 0 < s * s) by (apply Rsqr_pos_lt; exact Hs).
  assert (Hrow : forall p q (A B : mat), let row i := rsum q (fun a => (A i a - B i a) * (A i a - B i a)) / (s * s) in
    (forall i, 0 <= row i) /\ (rsum p row = 0 <-> meq p q B A)).
  { intros p q A B row.
    assert (Hin : forall i, 0 <= rsum q (fun a => (A i a - B i a) * (A i a - B i a))) by (intros; apply rsum_nonneg; intros; apply Rle_0_sqr).
    assert (Hp0 : forall i, 0 <= row i).
    { intros i. unfold row, Rdiv. apply Rmult_le_pos; [apply Hin|left; apply Rinv_0_lt_compat; exact Hs2]. }
    split; [exact Hp0|]. split.
    - intros H0 i a Hi Ha. pose proof (rsum_nonneg_zero p row (fun i _ => Hp0 i) H0 i Hi) as Hz. unfold row in Hz.
      assert (Hz' : rsum q (fun a => (A i a - B i a) * (A i a - B i a)) = 0).
      { apply (Rmult_eq_reg_r (/ (s * s))); [rewrite Rmult_0_l; exact Hz|]. apply Rinv_neq_0_compat. lra. }
      pose proof (rsum_nonneg_zero q _ (fun a _ => Rle_0_sqr _) Hz' a Ha) as Hc. cbv beta in Hc.
      apply Rmult_integral in Hc. lra.
    - intros Heq. rewrite <- (rsum_0 p). apply rsum_ext. intros i Hi. unfold row.
      replace (rsum q (fun a => (A i a - B i a) * (A i a - B i a))) with 0; [lra|].
      rewrite <- (rsum_0 q). apply rsum_ext. intros a Ha. rewrite (Heq i a Hi Ha). ring. }
  destruct (Hrow m k (fun i a => W i a + Dw i a) Wp) as [HA HA'].
  destruct (Hrow k n (fun a j => H a j + Dh a j) Hp) as [HB HB']. cbn zeta in *.
  assert (H1 : 0 <= rsum m (fun i => rsum k (fun a => (W i a + Dw i a - Wp i a) * (W i a + Dw i a - Wp i a)) / (s * s)))
    by (apply rsum_nonneg; intros; apply HA).
  assert (H2 : 0 <= rsum k (fun a => rsum n (fun j => (H a j + Dh a j - Hp a j) * (H a j + Dh a j - Hp a j)) / (s * s)))
    by (apply rsum_nonneg; intros; apply HB).
  unfold q_aux. split; [lra|]. split.
  - intros H0. split; [apply HA'; lra|apply HB'; lra].
  - intros [E1 E2]. apply HA' in E1. apply HB' in E2. lra.
Qed.
Print Assumptions C70_qaux_nonnegative_zero_iff.

(** When an iteration lands exactly on its target, Q(aux) is the squared
    distance of the previous iterate from the base solution. *)
Theorem C70_target_reached :
  forall (m n k : nat) (s : R) (W Wi Dw H Hi Dh : mat),
    q_aux m n k s W (fun i a => Wi i a + Dw i a) Dw H (fun a j => Hi a j + Dh a j) Dh =
    rsum m (fun i => rsum k (fun a => (W i a - Wi i a) ^ 2) / (s * s)) + rsum k (fun a => rsum n (fun j => (H a j - Hi a j) ^ 2) / (s * s)).
Proof.
  intros. unfold q_aux. f_equal; apply rsum_ext; intros; f_equal; apply rsum_ext; intros; ring.
Qed.
Print Assumptions C70_target_reached.
Example C70_qaux_nonnegative_zero_iff_example :=
  C70_qaux_nonnegative_zero_iff 2 3 2 2 xcx_one (fun _ _ => 3) (fun _ _ => 2) xcx_one xcx_one xcx_zero ltac:(lra).
Example C70_target_reached_example :=
  C70_target_reached 2 3 2 2 xcx_one (fun _ _ => 3) (fun _ _ => 2) xcx_one xcx_one xcx_zero.

Theorem C70_target_reached_means_zero_refuted :
  exists (W Wi Dw H Hi Dh : mat), 0 < q_aux 1 1 1 1 W (fun i a => Wi i a + Dw i a) Dw H (fun a j => Hi a j + Dh a j) Dh.
Proof.
  exists (fun _ _ => 0), (fun _ _ => 1), (fun _ _ => 0), (fun _ _ => 0), (fun _ _ => 0), (fun _ _ => 0).
  rewrite C70_target_reached. cbn. lra.
Qed.
Print Assumptions C70_target_reached_means_zero_refuted.

Example C70_instance :
  q_aux 1 2 1 2 (fun _ _ => 1) (fun _ _ => 3) (fun _ _ => 2) (fun _ _ => 1) (fun _ _ => 1) (fun _ _ => 0) = 0 /\ 2 <> 0.
Proof. split; [|lra]. unfold q_aux. cbn. lra. Qed.
