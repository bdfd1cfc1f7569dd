(** C57, C80: perturbation of uncertainties, mapping of perturbed factors. *)
From Coq Require Import List Bool ZArith Reals Lra Lia.
From Verif Require Import Base Fl Boot_Model Boot_Proofs Analysis_Model Analysis_Props Perturb_Model.
Import ListNotations.
Local Open Scope R_scope.

(** ** C57 *)
(** Settings that work: a float, or a non-empty list. *)
Definition usable (s : setting) : Prop := match s with AsFloat _ => True | AsList l => l <> [] | _ => False end.
(** The value meant for column [i]: a list of another length than the number of
    columns counts with its first element only. *)
Definition value_for (n : nat) (s : setting) (i : nat) : R :=
  match s with AsFloat r => r | AsList l => if Nat.eq_dec (List.length l) n then nth i l 0 else hd 0 l | _ => 0 end.

Lemma expand_usable n s : usable s -> exists l, expand n s = Ok (Some l) /\ List.length l = n /\ forall i, (i < n)%nat -> nth_error l i = Some (value_for n s i).
Proof.
  destruct s as [r|l|l|]; cbn [usable]; intros H; try contradiction.
  - exists (repeat r n). split; [reflexivity|]. rewrite repeat_length. split; [reflexivity|]. intros i Hi. cbn [value_for].
    rewrite (nth_error_nth' _ r) by (rewrite repeat_length; exact Hi). f_equal. apply nth_repeat.
  - cbn [expand value_for]. destruct (Nat.eqb_spec (List.length l) n) as [E|E].
    + exists l. split; [reflexivity|]. split; [exact E|]. intros i Hi. destruct (Nat.eq_dec (List.length l) n); [|contradiction]. apply nth_error_nth'. lia.
    + destruct (Nat.eqb_spec n 0) as [->|Hn]; [exists []; split; [reflexivity|]; split; [reflexivity|intros i Hi; lia]|].
      destruct l as [|x l]; [contradiction|]. exists (repeat x n). split; [reflexivity|]. rewrite repeat_length. split; [reflexivity|]. intros i Hi.
      destruct (Nat.eq_dec (List.length (x :: l)) n); [contradiction|]. rewrite (nth_error_nth' _ x) by (rewrite repeat_length; exact Hi). f_equal. apply nth_repeat.
Qed.

Definition new_u (u m : R) : R := if Rlt_dec 0 u then u * m else / 1000000000000.
Lemma perturb_col_spec d i p s st t j :
  let st' := perturb_col d i p s st in
  snd st' t j = (if (j =? i)%nat then exp (s * pu_norm d i t) else snd st t j) /\
  fst st' t j = (if (j =? i)%nat then new_u (fst st t i) (exp (s * pu_norm d i t)) else fst st t j).
Proof.
  cbv zeta. unfold perturb_col, upd_col. cbn [fst snd]. destruct (j =? i)%nat; [|split; reflexivity]. split; [destruct (Rltb _ _); reflexivity|].
  set (e := exp (s * pu_norm d i t)). assert (He : 0 < e) by apply exp_pos.
  replace (if Rltb p (pu_unif d i t) then fst st t i * e else fst st t i * e) with (fst st t i * e) by (destruct (Rltb _ _); reflexivity).
  unfold new_u. destruct (Rlt_dec 0 (fst st t i)).
  - rewrite (proj2 (Rleb_false _ 0)) by (apply Rmult_lt_0_compat; assumption). reflexivity.
  - rewrite (proj2 (Rleb_iff _ 0)); [reflexivity|]. rewrite <- (Rmult_0_l e). apply Rmult_le_compat_r; lra.
Qed.

Lemma perturb_loop_spec n d l v : (forall i, (i < n)%nat -> nth_error l i = Some (v i) /\ 0 <= v i) ->
  forall ps i st, (i + List.length ps <= n)%nat ->
  exists st', perturb_loop n d (Some l) i ps st = Ok st' /\ forall t j,
    snd st' t j = (if ((i <=? j) && (j <? i + List.length ps))%nat then exp (v j * pu_norm d j t) else snd st t j) /\
    fst st' t j = (if ((i <=? j) && (j <? i + List.length ps))%nat then new_u (fst st t j) (exp (v j * pu_norm d j t)) else fst st t j).
Proof.
  intros Hv. induction ps as [|p ps IH]; intros i st Hi; cbn [perturb_loop List.length] in *.
  - exists st. split; [reflexivity|]. intros t j. replace ((i <=? j) && (j <? i + 0))%nat with false; [split; reflexivity|]. symmetry. apply andb_false_iff. rewrite Nat.leb_gt, Nat.ltb_ge. lia.
  - rewrite (proj2 (Nat.leb_gt n i)) by lia. destruct (Hv i ltac:(lia)) as [-> Hs]. rewrite (proj2 (Rltb_false _ 0)) by exact Hs.
    destruct (IH (S i) (perturb_col d i p (v i) st) ltac:(lia)) as (st' & E & P). exists st'. split; [exact E|]. intros t j. specialize (P t j).
    destruct (perturb_col_spec d i p (v i) st t j) as [Q1 Q2]. cbv zeta in Q1, Q2. rewrite Q1, Q2 in P.
    destruct (Nat.eqb_spec j i) as [Ej|Hne]; [subst j|].
    + replace ((S i <=? i) && (i <? S i + List.length ps))%nat with false in P by (symmetry; apply andb_false_iff; left; apply Nat.leb_gt; lia).
      replace ((i <=? i) && (i <? i + S (List.length ps)))%nat with true by (symmetry; apply andb_true_iff; rewrite Nat.leb_le, Nat.ltb_lt; lia). exact P.
    + replace ((S i <=? j) && (j <? S i + List.length ps))%nat with ((i <=? j) && (j <? i + S (List.length ps)))%nat in P; [exact P|].
      apply eq_true_iff_eq. rewrite !andb_true_iff, !Nat.leb_le, !Nat.ltb_lt. lia.
Qed.

(** Every cell of every column is multiplied by its draw, whatever percentage was
    asked for; the result is positive, non-positive uncertainties become 1e-12. *)
Theorem C57_perturb : forall (n : nat) (U : mat) (percent sigma : setting) (d : pdraws),
  usable percent -> usable sigma -> (forall i, (i < n)%nat -> 0 <= value_for n sigma i) ->
  exists U' M', perturb n U percent sigma d = Ok (U', M') /\
    forall t i, (i < n)%nat ->
      M' t i = exp (value_for n sigma i * pu_norm d i t) /\
      U' t i = (if Rlt_dec 0 (U t i) then U t i * M' t i else / 1000000000000) /\
      0 < M' t i /\ 0 < U' t i.
Proof.
  intros n U percent sigma d Hp Hs Hv. destruct (expand_usable n percent Hp) as (ps & Ep & Lp & _). destruct (expand_usable n sigma Hs) as (l & El & Ll & Nl).
  unfold perturb. rewrite Ep, El. destruct (perturb_loop_spec n d l (value_for n sigma)) with (ps := ps) (i := 0%nat) (st := (U, fun _ _ : nat => 0)) as ([U' M'] & E & P).
  { intros i Hi. split; [apply Nl, Hi|apply Hv, Hi]. } { lia. }
  exists U', M'. split; [exact E|]. intros t i Hi. destruct (P t i) as [P1 P2]. cbn [fst snd Nat.leb Nat.add andb] in P1, P2. rewrite Lp in P1, P2.
  rewrite (proj2 (Nat.ltb_lt i n) Hi) in P1, P2. rewrite P1, P2. unfold new_u. pose proof (exp_pos (value_for n sigma i * pu_norm d i t)) as He.
  split; [reflexivity|]. split; [reflexivity|]. split; [exact He|]. destruct (Rlt_dec 0 (U t i)); [apply Rmult_lt_0_compat; assumption|lra].
Qed.
Print Assumptions C57_perturb.
Example C57_instance : usable (AsFloat 1) /\ usable (AsList [1; 2]) /\ value_for 3 (AsList [1; 2]) 2 = 1.
Proof. cbn. repeat split; try discriminate. Qed.

Theorem C57_percent_has_no_effect : forall (n : nat) (U : mat) (percent percent' sigma : setting) (d : pdraws),
  usable percent -> usable percent' -> usable sigma -> (forall i, (i < n)%nat -> 0 <= value_for n sigma i) ->
  exists U1 M1 U2 M2, perturb n U percent sigma d = Ok (U1, M1) /\ perturb n U percent' sigma d = Ok (U2, M2) /\
    forall t i, (i < n)%nat -> U1 t i = U2 t i /\ M1 t i = M2 t i.
Proof.
  intros n U p p' s d Hp Hp' Hs Hv. destruct (C57_perturb n U p s d Hp Hs Hv) as (U1 & M1 & E1 & P1). destruct (C57_perturb n U p' s d Hp' Hs Hv) as (U2 & M2 & E2 & P2).
  exists U1, M1, U2, M2. split; [exact E1|]. split; [exact E2|]. intros t i Hi. destruct (P1 t i Hi) as (A1 & B1 & _). destruct (P2 t i Hi) as (A2 & B2 & _).
  rewrite B1, B2, A1, A2. split; reflexivity.
Qed.
Print Assumptions C57_percent_has_no_effect.
(** Asking for zero percent perturbs every cell. *)
Theorem C57_percentage_respected_refuted : exists (U : mat) (d : pdraws) (U' M' : mat), (forall i t, 0 <= pu_unif d i t < 1) /\
  perturb 3 U (AsFloat 0) (AsFloat (33 / 100)) d = Ok (U', M') /\ forall t i, (i < 3)%nat -> U' t i <> U t i.
Proof.
  set (d := mkPDraws (fun _ _ => 1 / 2) (fun _ _ => 1)).
  destruct (C57_perturb 3 (fun _ _ => 1) (AsFloat 0) (AsFloat (33 / 100)) d I I) as (U' & M' & E & P); [intros; cbn; lra|].
  exists (fun _ _ => 1), d, U', M'. split; [intros; cbn; lra|]. split; [exact E|]. intros t i Hi. destruct (P t i Hi) as (A & B & _).
  rewrite B, A. destruct (Rlt_dec 0 1); [|lra]. cbn. rewrite Rmult_1_l, Rmult_1_r. intros H. rewrite <- exp_0 in H. apply exp_inv in H. lra.
Qed.
Print Assumptions C57_percentage_respected_refuted.
Example C57_perturb_example :=
  C57_perturb 3 (fun t i => INR (t + i)) (AsFloat 10) (AsList [1; 2]) (mkPDraws (fun _ _ => / 2) (fun i t => INR i - INR t)) I ltac:(discriminate) ltac:(intros i _; cbn; lra).
Example C57_percent_has_no_effect_example :=
  C57_percent_has_no_effect 3 (fun t i => INR (t + i)) (AsFloat 10) (AsFloat 90) (AsFloat (/ 2)) (mkPDraws (fun _ _ => / 2) (fun i t => INR i - INR t)) I I I ltac:(intros i _; cbn; lra).

(** Without spread nothing changes; an integer setting raises; a shorter tuple or
    array of percentages leaves the remaining columns alone, with multiplier 0. *)
Theorem C57_edge_cases : forall (n : nat) (U : mat) (d : pdraws), (0 < n)%nat ->
  (forall percent, usable percent -> exists U' M', perturb n U percent (AsFloat 0) d = Ok (U', M') /\
     forall t i, (i < n)%nat -> M' t i = 1 /\ (0 < U t i -> U' t i = U t i)) /\
  (forall sigma, usable sigma -> perturb n U AsInt sigma d = Raise TypeError) /\
  (forall percent, usable percent -> perturb n U percent AsInt d = Raise TypeError) /\
  (forall ps sigma, (List.length ps < n)%nat -> usable sigma -> (forall i, (i < n)%nat -> 0 <= value_for n sigma i) ->
     exists U' M', perturb n U (AsSeq ps) sigma d = Ok (U', M') /\
       forall t i, (List.length ps <= i)%nat -> U' t i = U t i /\ M' t i = 0).
Proof.
  intros n U d Hn. split; [|split; [|split]].
  - intros p Hp. destruct (C57_perturb n U p (AsFloat 0) d Hp I) as (U' & M' & E & P); [intros; cbn; lra|]. exists U', M'. split; [exact E|].
    intros t i Hi. destruct (P t i Hi) as (A & B & _). cbn in A. rewrite Rmult_0_l, exp_0 in A. split; [exact A|]. intros Hu. rewrite B, A. destruct (Rlt_dec 0 (U t i)); [ring|lra].
  - intros s Hs. destruct (expand_usable n s Hs) as (l & E & _). unfold perturb. cbn [expand]. rewrite E. reflexivity.
  - intros p Hp. destruct (expand_usable n p Hp) as (l & E & L & _). unfold perturb. rewrite E. cbn [expand]. destruct l as [|x l]; [cbn in L; lia|]. cbn [perturb_loop].
    rewrite (proj2 (Nat.leb_gt n 0)) by lia. reflexivity.
  - intros ps s Hl Hs Hv. destruct (expand_usable n s Hs) as (l & El & Ll & Nl). unfold perturb. cbn [expand]. rewrite El.
    destruct (perturb_loop_spec n d l (value_for n s)) with (ps := ps) (i := 0%nat) (st := (U, fun _ _ : nat => 0)) as ([U' M'] & E & P).
    { intros i Hi. split; [apply Nl, Hi|apply Hv, Hi]. } { lia. }
    exists U', M'. split; [exact E|]. intros t i Hi. destruct (P t i) as [P1 P2]. cbn [fst snd Nat.leb Nat.add andb] in P1, P2.
    rewrite (proj2 (Nat.ltb_ge i _) Hi) in P1, P2. split; assumption.
Qed.
Print Assumptions C57_edge_cases.
Example C57_edge_cases_example := C57_edge_cases 3 (fun t i => INR (t + i)) (mkPDraws (fun _ _ => / 2) (fun i t => INR i - INR t)) ltac:(lia).

(** ** C80: factor mapping between a base and another model *)
Lemma first_nan_none l : forall i, first_nan l i = None -> forall x, In x l -> x <> NaN.
Proof. induction l as [|y l IH]; intros i H x Hx; [destruct Hx|]. cbn in H. destruct (is_nan y) eqn:E; [discriminate|]. destruct Hx as [<-|Hx]; [intros ->; discriminate|]. exact (IH _ H x Hx). Qed.
Lemma first_nan_some l : forall i, (forall x, In x l -> x <> NaN) -> first_nan l i = None.
Proof. induction l as [|y l IH]; intros i H; [reflexivity|]. cbn. destruct (is_nan y) eqn:E; [destruct y; try discriminate; exfalso; apply (H NaN); [left; reflexivity|reflexivity]|]. apply IH. intros x Hx. apply H. right. exact Hx. Qed.
(** If one element is strictly better than all others, the search finds it. *)
Lemma best_at_unique better l : (forall x y, better x y = true -> better y x = false) ->
  forall i bi bx q,
  forall y, nth_error l q = Some y -> better y bx = true -> (forall p x, nth_error l p = Some x -> p <> q -> better y x = true) -> best_at better l i bi bx = (i + q)%nat.
Proof.
  intros Asym. induction l as [|x l IH]; intros i bi bx q y Hq Hb Hu; [destruct q; discriminate|]. cbn [best_at]. destruct q as [|q].
  - cbn in Hq. injection Hq as ->. rewrite Hb. clear IH. assert (G : forall l i, (forall x, In x l -> better x y = false) -> forall b, best_at better l i b y = b).
    { clear. induction l as [|x l IH]; intros i H b; [reflexivity|]. cbn. rewrite (H x) by (left; reflexivity). apply IH. intros z Hz. apply H. right. exact Hz. }
    rewrite G; [lia|]. intros x Hx. apply In_nth_error in Hx. destruct Hx as [p Hp]. apply Asym. apply (Hu (S p)); [exact Hp|lia].
  - cbn in Hq. assert (Hx : better y x = true) by (apply (Hu 0%nat); [reflexivity|lia]).
    assert (Hu' : forall p z, nth_error l p = Some z -> p <> q -> better y z = true) by (intros p z Hp Hne; apply (Hu (S p)); [exact Hp|lia]).
    replace (i + S q)%nat with (S i + q)%nat by lia.
    destruct (better x bx).
    + apply (IH (S i) i x q) with (y := y); auto.
    + apply (IH (S i) bi bx q) with (y := y); auto.
Qed.
Lemma better_asym me x y : better_of me x y = true -> better_of me y x = false.
Proof. destruct me; cbn; intros H; [destruct (flt y x) eqn:E|destruct (flt x y) eqn:E|destruct (flt x y) eqn:E]; try reflexivity; exfalso; pose proof (flt_trans _ _ _ E H) as G; rewrite flt_irrefl in G; discriminate. Qed.
Lemma better_not_nan me x y : better_of me x y = true -> x <> NaN /\ y <> NaN.
Proof. destruct me; cbn; intros H; split; intros ->; rewrite ?flt_nan_l, ?flt_nan_r in H; discriminate. Qed.

Lemma np_arg_unique me l q y : nth_error l q = Some y -> y <> NaN -> (forall p x, nth_error l p = Some x -> p <> q -> better_of me y x = true) -> np_arg (better_of me) l = q.
Proof.
  intros Hq Hy Hu. unfold np_arg. rewrite first_nan_some.
  2:{ intros x Hx. apply In_nth_error in Hx. destruct Hx as [p Hp]. destruct (Nat.eq_dec p q) as [->|Hne]; [congruence|]. apply (better_not_nan me y x), (Hu p); assumption. }
  destruct l as [|x l]; [destruct q; discriminate|]. destruct q as [|q].
  - cbn in Hq. injection Hq as ->. assert (G : forall l i, (forall x, In x l -> better_of me x y = false) -> forall b, best_at (better_of me) l i b y = b).
    { clear. induction l as [|x l IH]; intros i H b; [reflexivity|]. cbn. rewrite (H x) by (left; reflexivity). apply IH. intros z Hz. apply H. right. exact Hz. }
    apply G. intros x Hx. apply In_nth_error in Hx. destruct Hx as [p Hp]. apply better_asym, (Hu (S p)); [exact Hp|lia].
  - cbn in Hq. rewrite (best_at_unique (better_of me) l (better_asym me) 1 0 x q) with (y := y).
    + lia.
    + exact Hq.
    + apply (Hu 0%nat); [reflexivity|lia].
    + intros p z Hp Hne. apply (Hu (S p)); [exact Hp|lia].
Qed.

(** If base factor [s c] is strictly the best partner of the other model's factor
    [c], for every [c], the mapping is [s], i.e. it goes from the other model to
    the base model. *)
Theorem C80_mapping_direction : forall (k : nat) (me : method) (M : nat -> nat -> fl) (s : nat -> nat) (rows cols : list nat),
  (forall c, (c < k)%nat -> (s c < k)%nat /\ M (s c) c <> NaN /\ forall j, (j < k)%nat -> j <> s c -> better_of me (M (s c) c) (M j c) = true) ->
  fst (determine_map k me M rows cols) = map s (seq 0 k).
Proof.
  intros k me M s rows cols H. unfold determine_map, optimal_indices. cbn [fst]. apply map_ext_in. intros c Hc. apply in_seq in Hc. destruct (H c ltac:(lia)) as (H1 & H2 & H3).
  assert (N : forall j, (j < k)%nat -> nth_error (map (fun j => M j c) (seq 0 k)) j = Some (M j c)).
  { intros j Hj. rewrite nth_error_map. rewrite (nth_error_nth' _ 0%nat) by (rewrite seq_length; exact Hj). rewrite seq_nth by exact Hj. reflexivity. }
  unfold optimal. apply np_arg_unique with (y := M (s c) c); [apply N, H1|exact H2|]. intros p x Hp Hne.
  assert (Hk : (p < k)%nat). { assert (p < List.length (map (fun j => M j c) (seq 0 k)))%nat by (apply nth_error_Some; congruence). rewrite map_length, seq_length in H0. exact H0. }
  rewrite N in Hp by exact Hk. injection Hp as <-. apply H3; assumption.
Qed.
Print Assumptions C80_mapping_direction.
Example C80_mapping_direction_example : fst (determine_map 2 RAAE (fun j c => Fin (if (j + c =? 1)%nat then 0 else 1)) [] []) = [1; 0]%nat.
Proof.
  refine (C80_mapping_direction 2 RAAE _ (fun c => (1 - c)%nat) [] [] _).
  intros [|[|c]] Hc; try lia; (split; [lia |]); (split; [discriminate |]); intros [|[|j]] Hj Hn; try lia; cbn; apply Rltb_iff; lra.
Qed.

(** A model that only lists the base model's factors in another order: factor [s j]
    of it is factor [j] of the base model. *)
Definition is_reordering (m n k : nat) (b o : fmodel) (s : nat -> nat) : Prop :=
  bij k s /\ (forall j t, (j < k)%nat -> (t < m)%nat -> f_W o t (s j) = f_W b t j) /\ (forall j i, (j < k)%nat -> (i < n)%nat -> f_H o (s j) i = f_H b j i).
Definition distinct_factors (m k : nat) (b : fmodel) : Prop :=
  (forall j, (j < k)%nat -> 0 < rsum m (fun t => f_W b t j)) /\
  (forall j j', (j < k)%nat -> (j' < k)%nat -> j <> j' -> exists t, (t < m)%nat /\ f_W b t j <> f_W b t j').

(** If one of the values for factor [c] is NaN, the mapping takes the first such
    base factor, whatever the others are. *)
Lemma first_nan_at l : forall i q, nth_error l q = Some NaN -> (forall p, (p < q)%nat -> exists x, nth_error l p = Some x /\ x <> NaN) -> first_nan l i = Some (i + q)%nat.
Proof.
  induction l as [|y l IH]; intros i [|q] Hq Hl; try discriminate.
  - cbn in Hq. injection Hq as ->. cbn. f_equal. lia.
  - cbn [first_nan]. destruct (Hl 0%nat ltac:(lia)) as (x & E & Hx). cbn in E. injection E as E. subst x.
    replace (is_nan y) with false by (destruct y; try reflexivity; congruence). rewrite (IH (S i) q); [f_equal; lia|exact Hq|].
    intros p Hp. exact (Hl (S p) ltac:(lia)).
Qed.
Theorem C80_nan_wins : forall (k : nat) (me : method) (M : nat -> nat -> fl) (rows cols : list nat) (c j : nat),
  (c < k)%nat -> (j < k)%nat -> M j c = NaN -> (forall i, (i < j)%nat -> M i c <> NaN) ->
  nth_error (fst (determine_map k me M rows cols)) c = Some j.
Proof.
  intros k me M rows cols c j Hc Hj E Hf. unfold determine_map, optimal_indices. cbn [fst].
  rewrite nth_error_map, (nth_error_nth' _ 0%nat) by (rewrite seq_length; exact Hc). rewrite seq_nth by exact Hc. cbn [option_map Nat.add].
  assert (N : forall i, (i < k)%nat -> nth_error (map (fun j => M j c) (seq 0 k)) i = Some (M i c)).
  { intros i Hi. rewrite nth_error_map. rewrite (nth_error_nth' _ 0%nat) by (rewrite seq_length; exact Hi). rewrite seq_nth by exact Hi. reflexivity. }
  unfold optimal, np_arg. rewrite (first_nan_at _ 0 j); [reflexivity|rewrite N, E by exact Hj; reflexivity|].
  intros p Hp. exists (M p c). split; [apply N; lia|apply Hf, Hp].
Qed.
Print Assumptions C80_nan_wins.
Example C80_nan_instance : let M := fun j _ : nat => match j with 1%nat => NaN | _ => Fin (INR j) end in
  M 1%nat 0%nat = NaN /\ (forall i, (i < 1)%nat -> M i 0%nat <> NaN) /\ fst (determine_map 2 RAAE M [] []) = [1; 1]%nat.
Proof. cbv zeta. split; [reflexivity|]. split; [intros [|i] Hi; [discriminate|lia]|reflexivity]. Qed.

Lemma raae_same m b o j q : (0 < m)%nat -> 0 < rsum m (fun t => f_W b t j) -> (forall t, (t < m)%nat -> f_W o t q = f_W b t j) -> raae m b o j q = Fin 0.
Proof.
  intros Hm Hs He. assert (0 < INR m) by (apply lt_0_INR; exact Hm). unfold raae. rewrite (rsum_ext m (fun t => Rabs (f_W o t q - f_W b t j)) (fun _ => 0)).
  2:{ intros t Ht. rewrite He by exact Ht. rewrite Rminus_diag_eq by reflexivity. apply Rabs_R0. }
  rewrite rsum_0, Rmult_0_l. unfold fdiv. destruct (Req_EM_T _ 0) as [E|E]; [exfalso|f_equal; unfold Rdiv; ring].
  apply Rmult_integral in E. destruct E as [E|E]; [lra|]. unfold Rdiv in E. rewrite Rmult_1_l in E. apply (Rinv_neq_0_compat (INR m)) in E; [exact E|lra].
Qed.
Lemma raae_diff m b o j q : (0 < m)%nat -> 0 < rsum m (fun t => f_W b t j) -> (exists t, (t < m)%nat /\ f_W o t q <> f_W b t j) -> exists v, raae m b o j q = Fin v /\ 0 < v.
Proof.
  intros Hm Hs (t & Ht & Hd). assert (Hi : 0 < 1 / INR m) by (unfold Rdiv; rewrite Rmult_1_l; apply Rinv_0_lt_compat, lt_0_INR, Hm). unfold raae, fdiv. destruct (Req_EM_T _ 0) as [E|E].
  - exfalso. apply Rmult_integral in E. lra.
  - eexists. split; [reflexivity|]. apply Rmult_lt_0_compat; [|apply Rinv_0_lt_compat, Rmult_lt_0_compat; assumption]. apply Rmult_lt_0_compat; [|exact Hi].
    apply (rsum_pos_strict m _ t); [intros; apply Rabs_pos|exact Ht|]. apply Rabs_pos_lt. lra.
Qed.

(** For such a model every base factor [j] has error 0 with factor [s j]; the
    reported mapping is the inverse of [s], and the reported value of factor [j]
    is the error with factor [inverse j].  All values are zero, and the reordered
    profiles are those of the base model, exactly when [s] is its own inverse. *)
Theorem C80_reordered_model : forall (m n k : nat) (b o : fmodel) (s inv : nat -> nat) (rows cols : list nat),
  (0 < m)%nat -> distinct_factors m k b -> is_reordering m n k b o s -> (forall j, (j < k)%nat -> (inv j < k)%nat /\ s (inv j) = j) ->
  let '(mapping, values) := determine_map k RAAE (raae m b o) rows cols in
  (forall j, (j < k)%nat -> raae m b o j (s j) = Fin 0) /\
  mapping = map inv (seq 0 k) /\
  values = map (fun j => Number (fround4 (raae m b o j (inv j)))) (seq 0 k) /\
  ((forall j, (j < k)%nat -> raae m b o j (inv j) = Fin 0) <-> (forall j, (j < k)%nat -> s (s j) = j)) /\
  (forall j i, (j < k)%nat -> (i < n)%nat -> reordered_profile k o mapping j i = fdiv (Fin (f_H b (inv (inv j)) i)) (Fin (rsum k (fun q => f_H b q i)))).
Proof.
  intros m n k b o s inv rows cols Hm [Hpos Hdist] (Hb & HW & HH) Hinv. unfold determine_map.
  assert (Hbnd : forall j, (j < k)%nat -> (s j < k)%nat) by (intros j Hj; apply Hb, Hj).
  assert (Hinj : forall i j, (i < k)%nat -> (j < k)%nat -> s i = s j -> i = j) by (intros; apply (proj2 Hb); assumption).
  assert (Zs : forall j, (j < k)%nat -> raae m b o j (s j) = Fin 0) by (intros j Hj; apply raae_same; [exact Hm|apply Hpos, Hj|intros t Ht; apply HW; assumption]).
  assert (Dist : forall j c, (j < k)%nat -> (c < k)%nat -> s j <> c -> exists v, raae m b o j c = Fin v /\ 0 < v).
  { intros j c Hj Hc Hne. destruct (Hinv c Hc) as [Hi Es]. apply raae_diff; [exact Hm|apply Hpos, Hj|].
    destruct (Hdist (inv c) j Hi Hj) as (t & Ht & Hd); [intros E; apply Hne; rewrite <- E; exact Es|]. exists t. split; [exact Ht|]. rewrite <- Es. rewrite HW by assumption. exact Hd. }
  assert (EM : optimal_indices k RAAE (raae m b o) = map inv (seq 0 k)).
  { change (optimal_indices k RAAE (raae m b o)) with (fst (determine_map k RAAE (raae m b o) rows cols)). apply C80_mapping_direction.
    intros c Hc. destruct (Hinv c Hc) as [Hi Es]. split; [exact Hi|]. assert (E0 : raae m b o (inv c) c = Fin 0) by (rewrite <- Es at 2; apply Zs, Hi). rewrite E0. split; [discriminate|].
    intros j Hj Hne. destruct (Dist j c Hj Hc) as (v & -> & Hv); [intros E; apply Hne; apply Hinj; [exact Hj|exact Hi|congruence]|]. cbn [better_of]. apply flt_fin. exact Hv. }
  assert (NI : forall j, (j < k)%nat -> nth j (map inv (seq 0 k)) 0%nat = inv j).
  { intros j Hj. rewrite (nth_indep _ 0%nat (inv 0%nat)) by (rewrite map_length, seq_length; exact Hj). rewrite map_nth, seq_nth by exact Hj. reflexivity. }
  rewrite EM. split; [exact Zs|]. split; [reflexivity|]. split; [|split].
  - unfold map_values. replace (nodupb (map inv (seq 0 k))) with true.
    + apply map_ext_in. intros j Hj. apply in_seq in Hj. rewrite NI by lia. reflexivity.
    + symmetry. assert (ND : forall l, NoDup l -> nodupb l = true).
      { clear. induction l as [|x l IH]; intros H; [reflexivity|]. inversion H; subst. cbn. rewrite (IH H3), andb_true_r. apply negb_true_iff.
        destruct (existsb (Nat.eqb x) l) eqn:E; [|reflexivity]. exfalso. apply existsb_exists in E. destruct E as (y & Hy & E). apply Nat.eqb_eq in E. subst. contradiction. }
      apply ND. assert (NM : forall l, NoDup l -> (forall x, In x l -> (x < k)%nat) -> NoDup (map inv l)).
      { clear - Hinv. induction l as [|x l IH]; intros H B; [constructor|]. inversion H; subst. cbn. constructor.
        - intros Hin. apply in_map_iff in Hin. destruct Hin as (y & Ey & Hy). apply H2. assert (x = y); [|congruence].
          rewrite <- (proj2 (Hinv x (B x (or_introl eq_refl)))), <- (proj2 (Hinv y (B y (or_intror Hy)))). congruence.
        - apply IH; [exact H3|]. intros y Hy. apply B. right. exact Hy. }
      apply NM; [apply seq_NoDup|]. intros x Hx. apply in_seq in Hx. lia.
  - split.
    + intros H j Hj. destruct (Hinv j Hj) as [Hi Es]. destruct (Nat.eq_dec (s j) (inv j)) as [E|E]; [rewrite E; exact Es|]. exfalso.
      destruct (Dist j (inv j) Hj Hi E) as (v & Ev & Hv). rewrite (H j Hj) in Ev. injection Ev as <-. lra.
    + intros H j Hj. destruct (Hinv j Hj) as [Hi Es]. assert (E : inv j = s j). { apply Hinj; [exact Hi|apply Hbnd, Hj|]. rewrite Es. symmetry. apply H, Hj. }
      rewrite E. apply Zs, Hj.
  - intros j i Hj Hin. unfold reordered_profile. rewrite NI by exact Hj. destruct (Hinv j Hj) as [Hi _]. destruct (Hinv (inv j) Hi) as [Hii E2]. f_equal; f_equal.
    + rewrite <- E2 at 1. apply HH; assumption.
    + rewrite <- (rsum_reindex k s (fun q => f_H o q i) Hb). apply rsum_ext. intros q Hq. apply HH; assumption.
Qed.
Print Assumptions C80_reordered_model.

(** Three factors in rotated order: the two models are the same, but the reported
    errors are not zero and the profiles compared belong to different factors. *)
Theorem C80_same_factors_match_refuted : exists (b o : fmodel) (s : nat -> nat), distinct_factors 1 3 b /\ is_reordering 1 1 3 b o s /\
  forall rows cols, exists x, nth 0 (snd (determine_map 3 RAAE (raae 1 b o) rows cols)) Unset = Number (Fin x) /\ x <> 0.
Proof.
  set (b := mkF (fun _ j => INR (S j)) (fun j _ => INR (S j))).
  set (s := fun j => match j with 0%nat => 1%nat | 1%nat => 2%nat | _ => 0%nat end).
  set (inv := fun j => match j with 0%nat => 2%nat | 1%nat => 0%nat | _ => 1%nat end).
  set (o := mkF (fun _ j => INR (S (inv j))) (fun j _ => INR (S (inv j)))).
  assert (D : distinct_factors 1 3 b).
  { split.
    - intros j _. unfold b. cbn [f_W rsum]. pose proof (pos_INR j). rewrite S_INR. lra.
    - intros j j' _ _ Hne. exists 0%nat. split; [lia|]. unfold b. cbn [f_W]. intros H. apply INR_eq in H. lia. }
  assert (I3 : forall j, (j < 3)%nat -> inv (s j) = j) by (intros [|[|[|j]]] Hj; try reflexivity; lia).
  assert (S3 : forall j, (j < 3)%nat -> (inv j < 3)%nat /\ s (inv j) = j) by (intros [|[|[|j]]] Hj; cbn; split; lia).
  assert (Rr : is_reordering 1 1 3 b o s).
  { split; [split|split].
    - intros [|[|[|j]]] Hj; cbn; lia.
    - intros i j Hi Hj E. rewrite <- (I3 i Hi), <- (I3 j Hj), E. reflexivity.
    - intros j t Hj _. unfold o, b. cbn [f_W]. rewrite I3 by exact Hj. reflexivity.
    - intros j i Hj _. unfold o, b. cbn [f_H]. rewrite I3 by exact Hj. reflexivity. }
  exists b, o, s. split; [exact D|]. split; [exact Rr|]. intros rows cols.
  pose proof (C80_reordered_model 1 1 3 b o s inv rows cols ltac:(lia) D Rr S3) as H. destruct (determine_map 3 RAAE (raae 1 b o) rows cols) as [mp vs].
  destruct H as (_ & _ & Ev & _). rewrite Ev. cbn [map seq nth snd]. change (inv 0%nat) with 2%nat.
  assert (Ex : raae 1 b o 0%nat 2%nat = Fin 1).
  { unfold raae, b, o. cbn [f_W rsum inv INR]. unfold fdiv. replace (1 / 1) with 1 by field. rewrite !Rplus_0_l, !Rmult_1_r. destruct (Req_EM_T 1 0); [lra|]. f_equal. rewrite Rabs_right; lra. }
  rewrite Ex. cbn [fround4]. exists (round4 1). split; [reflexivity|]. pose proof (round4_err 1) as He. unfold Rabs in He. destruct (Rcase_abs _) in He; lra.
Qed.
Print Assumptions C80_same_factors_match_refuted.

Lemma nth_map_seqA {A} (f : nat -> A) n t d : (t < n)%nat -> nth t (map f (seq 0 n)) d = f t.
Proof. intros Ht. rewrite (nth_indep _ d (f 0%nat)) by (rewrite map_length, seq_length; exact Ht). rewrite map_nth, seq_nth by exact Ht. reflexivity. Qed.

(** When two factors of the other model prefer the same base factor, the mapping
    returned is not one-to-one, the matching computed is not returned, and from
    the third factor on the value reported is the placeholder -1. *)
Theorem C80_ambiguous : forall (k : nat) (me : method) (M : nat -> nat -> fl) (rows cols : list nat) (c c' : nat),
  (c < k)%nat -> (c' < k)%nat -> c <> c' ->
  nth c (fst (determine_map k me M rows cols)) 0%nat = nth c' (fst (determine_map k me M rows cols)) 0%nat ->
  (forall rows' cols', fst (determine_map k me M rows' cols') = fst (determine_map k me M rows cols)) /\
  (forall j, (2 <= j < k)%nat -> nth j (snd (determine_map k me M rows cols)) (Number NaN) = Unset) /\
  (forall j x, (j < k)%nat -> nth j (snd (determine_map k me M rows cols)) Unset <> Number x).
Proof.
  intros k me M rows cols c c' Hc Hc' Hne E. unfold determine_map in *. cbn [fst snd] in *. split; [reflexivity|].
  assert (NB : nodupb (optimal_indices k me M) = false).
  { destruct (nodupb (optimal_indices k me M)) eqn:En; [|reflexivity]. exfalso.
    assert (G : forall l, nodupb l = true -> NoDup l).
    { clear. induction l as [|x l IH]; intros H; [constructor|]. cbn in H. apply andb_true_iff in H. destruct H as [H1 H2]. constructor; [|apply IH, H2].
      intros Hin. apply negb_true_iff in H1. assert (existsb (Nat.eqb x) l = true) by (apply existsb_exists; exists x; split; [exact Hin|apply Nat.eqb_refl]). congruence. }
    apply G in En. apply Hne. apply (proj1 (NoDup_nth _ 0%nat) En); unfold optimal_indices; rewrite ?map_length, ?seq_length; assumption. }
  unfold map_values. rewrite NB. split.
  - intros j Hj. rewrite nth_map_seqA by lia. destruct j as [|[|j]]; [lia|lia|reflexivity].
  - intros j x Hj H. assert (Hin : In (Number x) (map (fun j => match j with 0%nat => Array (map (fun c => fround4 (M 0%nat c)) rows) | 1%nat => Array (map (fun c => fround4 (M 1%nat c)) cols) | _ => Unset end) (seq 0 k))).
    { rewrite <- H. apply nth_In. rewrite map_length, seq_length. exact Hj. }
    apply in_map_iff in Hin. destruct Hin as ([|[|q]] & Hq & _); discriminate.
Qed.
Print Assumptions C80_ambiguous.
Example C80_ambiguous_instance : fst (determine_map 2 RAAE (fun j _ => Fin (INR j)) [] []) = [0; 0]%nat.
Proof.
  unfold determine_map, optimal_indices, optimal, np_arg. cbn -[flt INR].
  replace (flt (Fin (INR 1)) (Fin (INR 0))) with false; [reflexivity|]. symmetry. cbn. apply Rltb_false. lra.
Qed.

(** The mass comparison only looks at profiles: as long as the first factor
    contributes, it is the squared correlation of the two profiles. *)
Theorem C80_emc_is_profile_correlation : forall (m k n : nat) (b o : fmodel) (j q : nat),
  mean m (fun t => f_W b t 0%nat) <> 0 -> mean m (fun t => f_W o t 0%nat) <> 0 -> msum k n (f_H b) <> 0 -> msum k n (f_H o) <> 0 ->
  emc m k n b o j q = r2 n (f_H o q) (f_H b j).
Proof.
  intros m k n b o j q Hb Ho HbS HoS.
  assert (MT : forall o', mass_total m k n o' = mean m (fun t => f_W o' t 0%nat) * msum k n (f_H o')).
  { intros o'. unfold mass_total, msum. rewrite <- rsum_scal_l. apply rsum_ext. intros i _. apply rsum_scal_l. }
  assert (Nb : mass_total m k n b <> 0) by (rewrite MT; apply Rmult_integral_contrapositive_currified; assumption).
  assert (No : mass_total m k n o <> 0) by (rewrite MT; apply Rmult_integral_contrapositive_currified; assumption).
  unfold emc. destruct (Reqb (mass_total m k n b) 0) eqn:E1; [apply Reqb_iff in E1; contradiction|]. destruct (Reqb (mass_total m k n o) 0) eqn:E2; [apply Reqb_iff in E2; contradiction|]. cbn [orb].
  rewrite <- (r2_scal n (mean m (fun t => f_W o t 0%nat) / mass_total m k n o) (mean m (fun t => f_W b t 0%nat) / mass_total m k n b) (f_H o q) (f_H b j)).
  - apply r2_ext; intros i _; unfold mass; field; assumption.
  - apply Rmult_integral_contrapositive_currified; [exact Ho|apply Rinv_neq_0_compat, No].
  - apply Rmult_integral_contrapositive_currified; [exact Hb|apply Rinv_neq_0_compat, Nb].
Qed.
Print Assumptions C80_emc_is_profile_correlation.
(** Otherwise it is NaN. *)
Theorem C80_emc_undefined : forall (m k n : nat) (b o : fmodel) (j q : nat),
  mean m (fun t => f_W b t 0%nat) = 0 \/ mean m (fun t => f_W o t 0%nat) = 0 \/ msum k n (f_H b) = 0 \/ msum k n (f_H o) = 0 ->
  emc m k n b o j q = NaN.
Proof.
  intros m k n b o j q H.
  assert (MT : forall o', mass_total m k n o' = mean m (fun t => f_W o' t 0%nat) * msum k n (f_H o')).
  { intros o'. unfold mass_total, msum. rewrite <- rsum_scal_l. apply rsum_ext. intros i _. apply rsum_scal_l. }
  unfold emc. rewrite !MT.
  destruct (Reqb (mean m (fun t => f_W b t 0%nat) * msum k n (f_H b)) 0) eqn:E1; [reflexivity|].
  destruct (Reqb (mean m (fun t => f_W o t 0%nat) * msum k n (f_H o)) 0) eqn:E2; [reflexivity|]. exfalso.
  assert (N1 : mean m (fun t => f_W b t 0%nat) * msum k n (f_H b) <> 0) by (intros E; apply Reqb_iff in E; congruence).
  assert (N2 : mean m (fun t => f_W o t 0%nat) * msum k n (f_H o) <> 0) by (intros E; apply Reqb_iff in E; congruence).
  destruct H as [H|[H|[H|H]]]; rewrite H in *; lra.
Qed.
Print Assumptions C80_emc_undefined.
Example C80_emc_instance : let b := mkF (fun _ _ => 1) (fun _ _ => 1) in mean 1 (fun t => f_W b t 0%nat) <> 0 /\ msum 1 1 (f_H b) <> 0.
Proof. cbn. unfold mean, msum. cbn. split; [|lra]. intros H. assert ((0 + 1) / 1 = 1) by field. lra. Qed.

(** With the method "corr" a model whose factors are those of the base model in
    another order and other scales is recognised, provided no two of the base
    model's contributions are affine images of each other (their squared
    correlation is below 1). *)
Theorem C80_corr_reordered_rescaled : forall (m k : nat) (b o : fmodel) (s inv : nat -> nat) (a : nat -> R) (rows cols : list nat),
  bij k s -> (forall j, (j < k)%nat -> (inv j < k)%nat /\ s (inv j) = j) -> (forall j, (j < k)%nat -> a j <> 0) ->
  (forall j t, (j < k)%nat -> (t < m)%nat -> f_W o t (s j) = a j * f_W b t j) ->
  (forall j, (j < k)%nat -> exists t t', (t < m)%nat /\ (t' < m)%nat /\ f_W b t j <> f_W b t' j) ->
  (forall j j', (j < k)%nat -> (j' < k)%nat -> j <> j' -> forall c d, exists t, (t < m)%nat /\ f_W b t j <> c * f_W b t j' + d) ->
  fst (determine_map k CORR (corr_w m b o) rows cols) = map inv (seq 0 k) /\
  forall j, (j < k)%nat -> corr_w m b o j (s j) = Fin 1.
Proof.
  intros m k b o s inv a rows cols Hb Hinv Ha HW Hvar Haff.
  assert (CN : forall j, (j < k)%nat -> cov m (fun t => f_W b t j) (fun t => f_W b t j) <> 0).
  { intros j Hj E. destruct (Hvar j Hj) as (t & t' & Ht & Ht' & Hne). apply Hne.
    assert (Z : forall u, (u < m)%nat -> f_W b u j = mean m (fun t => f_W b t j)).
    { intros u Hu. pose proof (rsum_nonneg_zero m (fun i => (f_W b i j - mean m (fun t => f_W b t j)) * (f_W b i j - mean m (fun t => f_W b t j)))) as Hz.
      assert (Hi0 : (f_W b u j - mean m (fun t => f_W b t j)) * (f_W b u j - mean m (fun t => f_W b t j)) = 0) by (apply Hz; [intros; apply Rle_0_sqr|exact E|exact Hu]).
      apply Rmult_integral in Hi0. lra. }
    rewrite (Z t), (Z t') by assumption. reflexivity. }
  assert (CW : forall j j', (j < k)%nat -> (j' < k)%nat -> corr_w m b o j (s j') = r2 m (fun t => f_W b t j') (fun t => f_W b t j)).
  { intros j j' Hj Hj'. unfold corr_w. rewrite <- (r2_scal m (a j') 1 (fun t => f_W b t j') (fun t => f_W b t j)) by (auto; lra).
    apply r2_ext; intros t Ht; [apply HW; assumption|ring]. }
  assert (LT : forall j j', (j < k)%nat -> (j' < k)%nat -> j <> j' -> exists v, r2 m (fun t => f_W b t j') (fun t => f_W b t j) = Fin v /\ v < 1).
  { intros j j' Hj Hj' Hne. unfold r2. set (x := fun t => f_W b t j'). set (y := fun t => f_W b t j).
    destruct (Reqb (cov m x x) 0) eqn:E1; [exfalso; apply Reqb_iff in E1; exact (CN j' Hj' E1)|].
    destruct (Reqb (cov m y y) 0) eqn:E2; [exfalso; apply Reqb_iff in E2; exact (CN j Hj E2)|].
    eexists. split; [reflexivity|]. assert (RE : r2 m x y = Fin (cov m x y * cov m x y / (cov m x x * cov m y y))) by (unfold r2; rewrite E1, E2; reflexivity).
    destruct (r2_range m x y _ RE) as [_ [Hlt|Heq]]; [exact Hlt|]. exfalso.
    pose proof (CN j' Hj') as Nx. pose proof (CN j Hj) as Ny. fold x in Nx. fold y in Ny.
    destruct (Haff j j' Hj Hj' Hne (cov m x y / cov m x x) (mean m y - cov m x y / cov m x x * mean m x)) as (t & Ht & Hd). apply Hd.
    set (c := cov m x y / cov m x x).
    assert (S0 : rsum m (fun i => ((y i - mean m y) - c * (x i - mean m x)) * ((y i - mean m y) - c * (x i - mean m x))) = 0).
    { transitivity (cov m y y - 2 * c * cov m x y + c * c * cov m x x).
      - unfold cov. rewrite <- !rsum_scal_l, <- rsum_minus, <- rsum_plus. apply rsum_ext. intros i _. ring.
      - assert (Q : cov m x y * cov m x y = cov m x x * cov m y y).
        { apply (f_equal (fun z => z * (cov m x x * cov m y y))) in Heq. rewrite Rmult_1_l in Heq. rewrite <- Heq. field. auto. }
        unfold c. replace (cov m y y - 2 * (cov m x y / cov m x x) * cov m x y + cov m x y / cov m x x * (cov m x y / cov m x x) * cov m x x) with (cov m y y - (cov m x y * cov m x y) / cov m x x) by (field; exact Nx).
        rewrite Q. field. exact Nx. }
    assert (Z : ((y t - mean m y) - c * (x t - mean m x)) * ((y t - mean m y) - c * (x t - mean m x)) = 0).
    { apply (rsum_nonneg_zero m (fun i => ((y i - mean m y) - c * (x i - mean m x)) * ((y i - mean m y) - c * (x i - mean m x)))); [intros; apply Rle_0_sqr|exact S0|exact Ht]. }
    change (y t = c * x t + (mean m y - c * mean m x)). apply Rmult_integral in Z. destruct Z; lra. }
  assert (One : forall j, (j < k)%nat -> corr_w m b o j (s j) = Fin 1) by (intros j Hj; rewrite CW by assumption; apply r2_self, CN, Hj).
  split; [|exact One]. apply C80_mapping_direction. intros c Hc. destruct (Hinv c Hc) as [Hi Es]. split; [exact Hi|].
  assert (E1 : corr_w m b o (inv c) c = Fin 1) by (rewrite <- Es at 2; apply One, Hi). rewrite E1. split; [discriminate|].
  intros j Hj Hne. destruct (LT j (inv c) Hj Hi Hne) as (v & Ev & Hv). rewrite <- Es, CW, Ev by assumption. cbn [better_of]. apply flt_fin. exact Hv.
Qed.
Print Assumptions C80_corr_reordered_rescaled.
(** Contributions 0, 1, 0 and 0, 0, 1 satisfy the hypotheses; the other model has
    them swapped, doubled and tripled. *)
Example C80_corr_instance :
  let b := mkF (fun t j => if (t =? S j)%nat then 1 else 0) (fun _ _ => 1) in
  let o := mkF (fun t j => if (t =? 2 - j)%nat then INR (3 - j) else 0) (fun _ _ => 1) in
  let s := fun j => (1 - j)%nat in
  bij 2 s /\ (forall j t, (j < 2)%nat -> (t < 3)%nat -> f_W o t (s j) = INR (2 + j) * f_W b t j) /\
  (forall j, (j < 2)%nat -> exists t t', (t < 3)%nat /\ (t' < 3)%nat /\ f_W b t j <> f_W b t' j) /\
  (forall j j', (j < 2)%nat -> (j' < 2)%nat -> j <> j' -> forall c d, exists t, (t < 3)%nat /\ f_W b t j <> c * f_W b t j' + d).
Proof.
  cbv zeta. repeat split.
  - intros j Hj. lia.
  - intros i j Hi Hj E. lia.
  - intros [|[|j]] [|[|[|t]]] Hj Ht; try lia; cbn; lra.
  - intros [|[|j]] Hj; try lia; [exists 0%nat, 1%nat|exists 0%nat, 2%nat]; cbn; (split; [lia|split; [lia|lra]]).
  - intros [|[|j]] [|[|j']] Hj Hj' Hne c d; try lia; cbn [f_W Nat.eqb].
    + destruct (Req_dec d 0) as [->|]; [exists 1%nat|exists 0%nat]; cbn; (split; [lia|lra]).
    + destruct (Req_dec d 0) as [->|]; [exists 2%nat|exists 0%nat]; cbn; (split; [lia|lra]).
Qed.

Example C80_emc_undefined_example :=
  C80_emc_undefined 1 1 1 (mkF (fun _ _ => 0) (fun _ _ => 1)) (mkF (fun _ _ => 1) (fun _ _ => 1)) 0 0 ltac:(left; unfold mean; cbn; field).

(** Two factors swapped. *)
Example C80_reordered_model_example :
  let b := mkF (fun _ j => INR (S j)) (fun j _ => INR (S j)) in let o := mkF (fun _ j => INR (2 - j)) (fun j _ => INR (2 - j)) in
  distinct_factors 1 2 b /\ is_reordering 1 1 2 b o (fun j => 1 - j)%nat /\ fst (determine_map 2 RAAE (raae 1 b o) [] []) = [1; 0]%nat.
Proof.
  intros b o. assert (D : distinct_factors 1 2 b).
  { split.
    - intros j _. unfold b. cbn [f_W rsum]. pose proof (pos_INR j). rewrite S_INR. lra.
    - intros j j' _ _ Hne. exists 0%nat. split; [lia|]. unfold b. cbn [f_W]. intros H. apply INR_eq in H. lia. }
  assert (Q : is_reordering 1 1 2 b o (fun j => 1 - j)%nat).
  { split; [split; [intros j Hj; lia|intros i j Hi Hj E; lia]|]. split; intros j t Hj _; unfold b, o; cbn [f_W f_H]; f_equal; lia. }
  split; [exact D|]. split; [exact Q|].
  pose proof (C80_reordered_model 1 1 2 b o (fun j => 1 - j)%nat (fun j => 1 - j)%nat [] [] ltac:(lia) D Q ltac:(intros j Hj; split; lia)) as X.
  destruct (determine_map 2 RAAE (raae 1 b o) [] []) as [mp vs]. destruct X as (_ & -> & _). reflexivity.
Qed.
