(** C113: what a constrained model keeps and tabulates. *)
From Coq Require Import List Bool ZArith Ascii String Reals Lia Lra.
From Flocq Require Import Core.
From Verif Require Import Base Fl Constr_Model Constr_Proofs Expr_Model Expr_Props Report_Model Report_Spec.
Import ListNotations.
Local Open Scope R_scope.

(** ** Rounding *)
Lemma rnd_err d x : Rabs (rnd d x - x) <= / (2 * 10 ^ d).
Proof.
  unfold rnd. assert (P : 0 < 10 ^ d) by (apply pow_lt; lra).
  pose proof (Znearest_half (fun z => negb (Z.even z)) (x * 10 ^ d)) as H.
  replace (IZR (ZnearestE (x * 10 ^ d)) / 10 ^ d - x) with ((IZR (ZnearestE (x * 10 ^ d)) - x * 10 ^ d) / 10 ^ d) by (field; lra).
  unfold Rdiv. rewrite Rabs_mult, (Rabs_pos_eq (/ 10 ^ d)) by (left; apply Rinv_0_lt_compat; exact P).
  rewrite Rabs_minus_sym in H. rewrite Rinv_mult. apply Rmult_le_compat_r; [left; apply Rinv_0_lt_compat; exact P|exact H].
Qed.
Lemma rnd4_shows x : shows (rnd 4 x) x.
Proof.
  split; [pose proof (rnd_err 4 x) as H; replace (2 * 10 ^ 4) with 20000 in H by (cbn; lra); exact H|].
  eexists. unfold rnd. replace (10 ^ 4) with 10000 by (cbn; lra). reflexivity.
Qed.
Lemma rnd3_near x : Rabs (rnd 3 x - x) <= / 2000.
Proof. pose proof (rnd_err 3 x) as H. replace (2 * 10 ^ 3) with 2000 in H by (cbn; lra). exact H. Qed.

(** ** Lists of constraints and expressions *)
Lemma delete_at {A} (a : list A) x b : delete (List.length a) (a ++ x :: b) = (a ++ b)%list.
Proof. induction a; cbn; congruence. Qed.

(** Every text is accepted as an expression; an expression is removed by its position,
    and a position outside the list removes nothing.  Neither changes anything else. *)
Theorem C113_expression_list :
  forall (to_float : string -> option R) (m n k : nat) (s : cmodel),
    let same s' := m_reg s' = m_reg s /\ m_labeled s' = m_labeled s /\ m_mapped s' = m_mapped s /\ m_sol s' = m_sol s in
    (forall e, let (s', r) := step to_float m n k (AddE e) s in same s' /\ m_exprs s' = (m_exprs s ++ [e])%list /\ r = Gives (Some true)) /\
    (forall a e b, m_exprs s = (a ++ e :: b)%list ->
       let (s', r) := step to_float m n k (DelE (Z.of_nat (List.length a))) s in same s' /\ m_exprs s' = (a ++ b)%list /\ r = Gives None) /\
    (forall i, (i < 0)%Z \/ (Z.of_nat (List.length (m_exprs s)) <= i)%Z -> step to_float m n k (DelE i) s = (s, Gives None)).
Proof.
  intros tf m n k s same. split; [|split].
  - intros e. cbn. repeat split.
  - intros a e b E. cbn [step]. rewrite E, app_length. cbn [List.length].
    replace ((0 <=? Z.of_nat (List.length a)) && (Z.of_nat (List.length a) <? Z.of_nat (List.length a + S (List.length b))))%Z with true
      by (symmetry; apply andb_true_iff; split; [apply Z.leb_le; lia|apply Z.ltb_lt; lia]).
    rewrite Nat2Z.id, delete_at. repeat split.
  - intros i H. cbn [step]. replace ((0 <=? i) && (i <? Z.of_nat (List.length (m_exprs s))))%Z with false; [reflexivity|].
    symmetry. apply andb_false_iff. destruct H; [left; apply Z.leb_gt; lia|right; apply Z.ltb_ge; lia].
Qed.
Print Assumptions C113_expression_list.

(** ** Histories *)
Lemma run_app tf m n k a b s : run tf m n k (a ++ b) s = run tf m n k b (run tf m n k a s).
Proof. revert s; induction a; intros s; [reflexivity|apply IHa]. Qed.
Lemma snoc_split {A} (l : list A) x pre y post : (l ++ [x] = pre ++ y :: post)%list ->
  (post = [] /\ pre = l /\ y = x) \/ exists post', post = (post' ++ [x])%list /\ l = (pre ++ y :: post')%list.
Proof.
  intros E. destruct (exists_last (l := y :: post)) as (q & z & Q); [discriminate|].
  assert (E' : (l ++ [x] = (pre ++ q) ++ [z])%list) by (rewrite <- app_assoc, <- Q; exact E).
  apply app_inj_tail in E' as [E1 <-]. destruct post as [|p post].
  - left. destruct q as [|a [|]]; cbn in Q; try discriminate. injection Q as ->. rewrite app_nil_r in E1. auto.
  - right. destruct q as [|a q]; [cbn in Q; discriminate|]. cbn in Q. injection Q as <- Q. exists q. auto.
Qed.
Section Hist.
  Context (tf : string -> option R) (m n k : nat).
  Notation st := (state tf m n k).
  Lemma latest_here {X} (E : cmodel -> training -> X -> Prop) ops t x : E (st ops) t x -> latest tf m n k E (ops ++ [Train t]) x.
  Proof.
    intros H. exists ops, t, []. repeat split; auto. intros pre' t' post' Q L.
    apply (f_equal (@List.length op)) in Q. rewrite !app_length in Q. cbn in Q. lia.
  Qed.
  Lemma latest_keep {X} (E : cmodel -> training -> X -> Prop) ops o x : (forall t y, o = Train t -> ~ E (st ops) t y) ->
    latest tf m n k E ops x -> latest tf m n k E (ops ++ [o]) x.
  Proof.
    intros N (pre & t & post & -> & H & L). exists pre, t, (post ++ [o])%list. split; [rewrite <- app_assoc; reflexivity|]. split; [exact H|].
    intros pre' t' post' Q Lt y. apply snoc_split in Q as [(-> & -> & Q)|(post'' & -> & Q)]; [apply N; auto|apply (L _ _ _ Q Lt)].
  Qed.
  Lemma never_keep {X} (E : cmodel -> training -> X -> Prop) ops o : (forall t y, o = Train t -> ~ E (st ops) t y) ->
    never tf m n k E ops -> never tf m n k E (ops ++ [o]).
  Proof.
    intros N H pre t post Q y. apply snoc_split in Q as [(-> & -> & Q)|(post'' & -> & Q)]; [apply N; auto|apply (H _ _ _ Q)].
  Qed.
  Lemma state_snoc ops o : st (ops ++ [o]) = fst (step tf m n k o (st ops)).
  Proof. unfold state. rewrite run_app. reflexivity. Qed.
  Lemma nothing_iff (p : cmodel) : ((List.length (m_reg p) =? 0) && (List.length (m_exprs p) =? 0))%nat = true <-> ~ (m_reg p <> [] \/ m_exprs p <> []).
  Proof.
    rewrite andb_true_iff, !Nat.eqb_eq. destruct (m_reg p), (m_exprs p); cbn; split; intros H.
    - intros [X|X]; congruence.
    - auto.
    - destruct H; discriminate.
    - exfalso. apply H. right. discriminate.
    - destruct H; discriminate.
    - exfalso. apply H. left. discriminate.
    - destruct H; discriminate.
    - exfalso. apply H. left. discriminate.
  Qed.
  (** The parsed expressions are those present at the latest call of train that could
      read them, the solution is that of the latest call that completed; calls that
      fail in between, and changes of the lists, leave them. *)
  Theorem C113_which_run :
    forall (ops : list op),
      (match m_labeled (st ops) with
       | None => m_mapped (st ops) = None /\ never tf m n k (parses tf) ops
       | Some lab => exists es, latest tf m n k (parses tf) ops es /\
                       lab = map (fun e => (map t_label (fst e), snd e)) es /\ m_mapped (st ops) = Some (map_all es 0 [])
       end) /\
      (match m_sol (st ops) with
       | None => never tf m n k (completes tf) ops
       | Some o => latest tf m n k (completes tf) ops o
       end).
  Proof.
    induction ops as [|o ops [IH1 IH2]] using rev_ind.
    - split; [split; [reflexivity|]|]; intros pre t post Q; destruct pre; discriminate.
    - rewrite state_snoc. set (p := st ops) in *.
      assert (K : (forall t, o <> Train t) -> m_labeled (fst (step tf m n k o p)) = m_labeled p /\ m_mapped (fst (step tf m n k o p)) = m_mapped p /\ m_sol (fst (step tf m n k o p)) = m_sol p).
      { intros N. destruct o as [c|l|e|i|t]; cbn [step]; [destruct (add_constraint _ _ _ _ _)|destruct (remove_constraint _ _)| |destruct (_ && _)|destruct (N t eq_refl)]; cbn; auto. }
      assert (keep : (forall t y, o = Train t -> ~ parses tf p t y) ->
                m_labeled (fst (step tf m n k o p)) = m_labeled p -> m_mapped (fst (step tf m n k o p)) = m_mapped p -> m_sol (fst (step tf m n k o p)) = m_sol p ->
                (match m_labeled (fst (step tf m n k o p)) with
       | None => m_mapped (fst (step tf m n k o p)) = None /\ never tf m n k (parses tf) (ops ++ [o])
       | Some lab => exists es, latest tf m n k (parses tf) (ops ++ [o]) es /\
                       lab = map (fun e => (map t_label (fst e), snd e)) es /\ m_mapped (fst (step tf m n k o p)) = Some (map_all es 0 [])
       end) /\
      (match m_sol (fst (step tf m n k o p)) with
       | None => never tf m n k (completes tf) (ops ++ [o])
       | Some o' => latest tf m n k (completes tf) (ops ++ [o]) o'
       end)).
      { intros N -> -> ->. split.
        - destruct (m_labeled p).
          + destruct IH1 as (es & L & Q). exists es. split; [apply latest_keep; auto|exact Q].
          + destruct IH1 as [Q L]. split; [exact Q|apply never_keep; auto].
        - assert (N' : forall t y, o = Train t -> ~ completes tf p t y) by (intros t y -> (es & P & _); exact (N t es eq_refl P)).
          destruct (m_sol p); [apply latest_keep; auto|apply never_keep; auto]. }
      destruct o as [c|l|e|i|t]; try (destruct K as (K1 & K2 & K3); [intros; discriminate|]; apply keep; [intros; discriminate|exact K1|exact K2|exact K3]).
      cbn [step]. cbn [step] in keep. unfold train in *.
      destruct (_ && _)%bool eqn:B.
      { cbn [fst] in *. apply keep; auto. apply nothing_iff in B. intros t' y E' [X _]. contradiction. }
      destruct (read_all tf (m_exprs p)) as [e|es] eqn:Re.
      { cbn [fst] in *. apply keep; auto. intros t' y E' [_ X]. congruence. }
      assert (P : parses tf p t es).
      { split; [|exact Re]. destruct (m_reg p) eqn:E1; [|left; discriminate]. destruct (m_exprs p) eqn:E2; [|right; discriminate]. discriminate. }
      clear keep K. destruct (t (m_reg p) es) as [e|o] eqn:T; cbn [fst m_labeled m_mapped m_sol].
      + split; [exists es; split; [apply latest_here; exact P|auto]|].
        assert (N' : forall t' y, Train t = Train t' -> ~ completes tf p t' y) by (intros t' y E' (es' & [_ P'] & T'); injection E' as <-; congruence).
        destruct (m_sol p); [apply latest_keep; auto|apply never_keep; auto].
      + split; [exists es; split; [apply latest_here; exact P|auto]|]. apply latest_here. exists es. auto.
  Qed.
End Hist.
Print Assumptions C113_which_run.

(** ** Table of constraints *)
Lemma collect_ok {A B} (f : A -> exn + B) (P : A -> B -> Prop) l : (forall x, In x l -> exists y, f x = inr y /\ P x y) ->
  exists ys, collect f l = inr ys /\ Forall2 P l ys.
Proof.
  induction l as [|x l IH]; intros H; [exists []; split; [reflexivity|constructor]|].
  destruct (H x (or_introl eq_refl)) as (y & E & Py). destruct IH as (ys & E' & F); [intros; apply H; right; auto|].
  exists (y :: ys). cbn. rewrite E, E'. split; [reflexivity|constructor; auto].
Qed.
Lemma collect_err {A B} (f : A -> exn + B) e l : (forall x, In x l -> f x = inl e \/ exists y, f x = inr y) -> (exists x, In x l /\ f x = inl e) -> collect f l = inl e.
Proof.
  induction l as [|x l IH]; intros H (z & I & E); [destruct I|]. cbn. destruct (H x (or_introl eq_refl)) as [->|(y & Ey)]; [reflexivity|].
  rewrite Ey. destruct I as [->|I]; [congruence|]. rewrite IH; [reflexivity|intros; apply H; right; auto|eauto].
Qed.
Lemma at_in m n k (feature : bool) (W H : mat) i j :
  (if feature then (0 <= i < Z.of_nat k)%Z /\ (0 <= j < Z.of_nat n)%Z else (0 <= i < Z.of_nat m)%Z /\ (0 <= j < Z.of_nat k)%Z) ->
  at_index m n k feature W H i j = Some ((if feature then H else W) (Z.to_nat i) (Z.to_nat j)).
Proof. unfold at_index. destruct feature; intros [A B]; rewrite (py_index_ok _ _ A), (py_index_ok _ _ B); reflexivity. Qed.

Lemma row_in m n k bW bH s o c : m_sol s = Some o -> in_matrix m n k c -> exists r, constraint_row m n k bW bH s c = inr r /\ row_ok bW bH o c r.
Proof.
  intros So I. unfold constraint_row. rewrite So.
  rewrite !at_in by (unfold in_matrix, is_feature in *; destruct (c_tgt c); exact I). 
  assert (V : forall W H : mat, (if is_feature c then H else W) (Z.to_nat (c_i c)) (Z.to_nat (c_j c)) = value_of W H c) by (intros W H; unfold is_feature, value_of; destruct (c_tgt c); reflexivity).
  rewrite !V. unfold row_ok. destruct (c_type c); eexists; (split; [reflexivity|]); cbn [r_of r_base r_target r_sol r_dQ];
    repeat split; try apply rnd4_shows; try (eexists; split; [reflexivity|apply rnd4_shows]).
  - do 2 eexists. split; [reflexivity|split; apply rnd3_near].
Qed.

(** With a solution the table has one row per constraint present now, in the order
    they were added, with base and solution value to four decimals.  A sample
    constraint whose second index is not that of a factor makes it raise. *)
Theorem C113_constraint_table :
  forall (to_float : string -> option R) (m n k : nat) (bW bH : mat) (ops : list op),
    let s := state to_float m n k ops in
    (forall p, In p (m_reg s) -> c_tgt (snd p) <> Other) ->
    match m_sol s with
    | None => (m_reg s = [] /\ evaluate_constraints m n k bW bH s = inr []) \/ (m_reg s <> [] /\ evaluate_constraints m n k bW bH s = inl AttrErr)
    | Some o =>
        if forallb (fun p => match c_tgt (snd p) with Sample => (c_j (snd p) <? Z.of_nat k)%Z | _ => true end) (m_reg s)
        then exists rows, evaluate_constraints m n k bW bH s = inr rows /\ Forall2 (fun p r => row_ok bW bH o (snd p) r) (m_reg s) rows
        else evaluate_constraints m n k bW bH s = inl IndexErr
    end.
Proof.
  intros tf m n k bW bH ops s HT.
  assert (Inv : forall p, In p (m_reg s) -> index_ok (Z.of_nat m) (Z.of_nat n) (Z.of_nat k) (snd p) = true).
  { clear HT. subst s. induction ops as [|o ops IH] using rev_ind; [intros p []|]. rewrite state_snoc. intros p.
    destruct o as [c|l|e|i|t]; cbn [step].
    - unfold add_constraint. destruct (index_ok _ _ _ c) eqn:Ic; cbn; [|apply IH]. destruct (existsb _ _); cbn; [apply IH|].
      intros I. apply in_app_or in I as [I|[<-|[]]]; [apply IH; exact I|exact Ic].
    - assert (R : forall r r', remove_constraint r l = Some r' -> forall q, In q r' -> In q r).
      { induction r as [|q r IHr]; cbn; [discriminate|]. intros r'. destruct (clabel_eqb (fst q) l); [intros E; injection E as <-; auto|].
        destruct (remove_constraint r l) as [r1|]; [|discriminate]. intros E. injection E as <-. intros x [<-|X]; [auto|right; eapply IHr; eauto]. }
      destruct (remove_constraint _ l) eqn:E; cbn; [|apply IH]. intros I. apply IH. eapply R; eauto.
    - apply IH.
    - destruct (_ && _); apply IH.
    - unfold train. destruct (_ && _)%bool; [apply IH|]. destruct (read_all _ _); [apply IH|]. destruct (t _ _); apply IH. }
  assert (Rng : forall p, In p (m_reg s) -> match c_tgt (snd p) with Sample => (c_j (snd p) < Z.of_nat k)%Z | _ => True end -> in_matrix m n k (snd p)).
  { intros p I J. specialize (Inv p I). specialize (HT p I). unfold index_ok, in_matrix in *. destruct (c_tgt (snd p)); [| |congruence];
      rewrite andb_true_iff, !negb_true_iff, !orb_false_iff, !Z.leb_gt, !Z.ltb_ge in Inv; lia. }
  destruct (m_sol s) as [o|] eqn:So.
  - destruct (forallb _ _) eqn:F.
    + unfold evaluate_constraints. destruct (collect_ok (fun p => constraint_row m n k bW bH s (snd p)) (fun p r => row_ok bW bH o (snd p) r) (m_reg s)) as (rows & E & Fr).
      * intros p I. rewrite forallb_forall in F. specialize (F p I). apply row_in; [exact So|]. apply Rng; [exact I|]. destruct (c_tgt (snd p)); auto. apply Z.ltb_lt. exact F.
      * exists rows. auto.
    + assert (X : exists p, In p (m_reg s) /\ c_tgt (snd p) = Sample /\ (Z.of_nat k <= c_j (snd p))%Z).
      { clear Rng Inv HT. induction (m_reg s) as [|q r IH]; [discriminate|]. cbn in F. apply andb_false_iff in F as [F|F].
        - exists q. split; [left; reflexivity|]. destruct (c_tgt (snd q)); try discriminate. apply Z.ltb_ge in F. auto.
        - destruct (IH F) as (p & I & Q). exists p. split; [right; exact I|exact Q]. }
      assert (Bad : forall p, In p (m_reg s) -> c_tgt (snd p) = Sample -> (Z.of_nat k <= c_j (snd p))%Z -> constraint_row m n k bW bH s (snd p) = inl IndexErr).
      { intros p I T G. unfold constraint_row. rewrite So. unfold is_feature, at_index. rewrite T. rewrite (py_index_high k _ G).
        destruct (py_index m (c_i (snd p))); reflexivity. }
      apply collect_err.
      * intros p I. destruct (c_tgt (snd p)) eqn:T.
        -- right. destruct (row_in m n k bW bH s o (snd p) So) as (r & Er & _); [apply Rng; [exact I|rewrite T; exact Logic.I]|]. eauto.
        -- destruct (Z_lt_le_dec (c_j (snd p)) (Z.of_nat k)) as [G|G]; [|left; apply Bad; auto].
           right. destruct (row_in m n k bW bH s o (snd p) So) as (r & Er & _); [apply Rng; [exact I|rewrite T; exact G]|]. eauto.
        -- destruct (HT p I T).
      * destruct X as (p & I & T & G). exists p. split; [exact I|apply Bad; auto].
  - destruct (m_reg s) eqn:E; [left; split; [reflexivity|unfold evaluate_constraints; rewrite E; reflexivity]|].
    right. split; [discriminate|]. unfold evaluate_constraints. rewrite E. cbn. unfold constraint_row. rewrite So. reflexivity.
Qed.
Print Assumptions C113_constraint_table.

(** ** Table of expressions *)
Lemma latest_unique tf m n k {X} (E : cmodel -> training -> X -> Prop) ops x y :
  (forall p t a b, E p t a -> E p t b -> a = b) -> latest tf m n k E ops x -> latest tf m n k E ops y -> x = y.
Proof.
  intros Fn (p & t & q & E1 & H1 & L1) (p' & t' & q' & E2 & H2 & L2).
  destruct (Nat.lt_trichotomy (List.length p) (List.length p')) as [L|[L|L]].
  - destruct (L1 _ _ _ E2 L y H2).
  - assert (Q : p = p' /\ Train t :: q = Train t' :: q').
    { rewrite E1 in E2. clear -E2 L. revert p' L E2. induction p as [|a p IH]; intros [|b p'] L E; try discriminate; [auto|].
      cbn in *. injection E as <- E. destruct (IH p') as [-> Q]; auto. }
    destruct Q as [<- Q]. injection Q as <- <-. eapply Fn; eauto.
  - destruct (L2 _ _ _ E1 L x H1).
Qed.
Lemma parses_fun tf p t a b : parses tf p t a -> parses tf p t b -> a = b.
Proof. intros [_ A] [_ B]. congruence. Qed.

(** Factor, element and kind of a term are read from its label. *)
Definition of_label (t : term) : Prop :=
  let parts := re_split colon_bar (t_label t) in
  py_int (nth 1 parts ""%string) = Some (t_i t) /\ py_int (nth 3 parts ""%string) = Some (t_j t) /\ t_kind t = nth 2 parts ""%string.
Lemma read_term_label tf neg e t : read_term tf neg e = inr t -> of_label t.
Proof.
  unfold read_term, of_label. destruct (first_bracket e) as [lab|]; [|discriminate]. cbv zeta.
  destruct (nth_error _ 1) as [p1|] eqn:E1; [|discriminate]. destruct (py_int p1) as [i|] eqn:I; [|discriminate].
  destruct (nth_error _ 3) as [p3|] eqn:E3; [|discriminate]. destruct (py_int p3) as [j|] eqn:J; [|discriminate].
  destruct (tf _); [|discriminate]. intros Q. injection Q as <-. cbn [t_label t_i t_j t_kind].
  rewrite (nth_error_nth _ _ _ E1), (nth_error_nth _ _ _ E3). auto.
Qed.
Lemma read_terms_label tf : forall l neg ts, read_terms tf neg l = inr ts -> forall t, In t ts -> of_label t.
Proof.
  induction l as [|e l IH]; intros neg ts; cbn [read_terms]; [intros Q; injection Q as <-; intros t []|].
  destruct (1 <? String.length e)%nat; [|apply IH]. destruct (read_term tf neg e) as [x|t0] eqn:E; [discriminate|].
  destruct (read_terms tf _ l) as [x|ts'] eqn:E'; [discriminate|]. intros Q. injection Q as <-. intros t [<-|I]; [eapply read_term_label; eauto|eapply IH; eauto].
Qed.
Lemma read_all_label tf : forall l es, read_all tf l = inr es -> forall e t, In e es -> In t (fst e) -> of_label t.
Proof.
  induction l as [|s l IH]; intros es; cbn [read_all]; [intros Q; injection Q as <-; intros e t []|].
  destruct (read tf s) as [x|e0] eqn:E; [discriminate|]. destruct (read_all tf l) as [x|es'] eqn:E'; [discriminate|]. intros Q. injection Q as <-.
  intros e t [<-|I] It; [|eapply IH; eauto]. unfold read in E. cbv zeta in E.
  destruct (nth_error _ 1) as [rhs|]; [|discriminate]. destruct (nth_error (split "," rhs) 1) as [q|]; [|discriminate]. destruct (tf q); [|discriminate].
  destruct (read_terms tf false _) as [x|ts] eqn:Et; [discriminate|]. injection E as <-. eapply read_terms_label; eauto.
Qed.
Lemma label_fun a b : of_label a -> of_label b -> t_label a = t_label b -> t_i a = t_i b /\ t_j a = t_j b /\ t_kind a = t_kind b.
Proof. unfold of_label. intros (A1 & A2 & A3) (B1 & B2 & B3) E. rewrite E in *. repeat split; congruence. Qed.

Lemma numbered_in t i : forall es j, In (t, i) (Expr_Spec.numbered es j) <-> exists e, (j <= i)%nat /\ nth_error es (i - j) = Some e /\ In t (fst e).
Proof.
  induction es as [|[ts d] es IH]; intros j; cbn [Expr_Spec.numbered].
  - split; [intros []|intros (e & _ & H & _); destruct (i - j)%nat; discriminate].
  - rewrite in_app_iff, IH, in_map_iff. split.
    + intros [(t' & Q & I)|(e & L & N & I)].
      * injection Q as -> ->. exists (ts, d). rewrite Nat.sub_diag. auto.
      * exists e. replace (i - j)%nat with (S (i - S j)) by lia. repeat split; auto. lia.
    + intros (e & L & N & I). destruct (i - j)%nat as [|q] eqn:Q.
      * left. cbn in N. injection N as <-. exists t. split; [f_equal; lia|exact I].
      * right. exists e. cbn in N. replace (i - S j)%nat with q by lia. repeat split; auto. lia.
Qed.
Lemma find_map_filter {A B} (P : B -> bool) (g : A -> B) (Q : A -> bool) l :
  find P (map g (filter Q l)) = option_map g (find (fun x => Q x && P (g x)) l).
Proof. induction l as [|x l IH]; [reflexivity|]. cbn. destruct (Q x); cbn; [destruct (P (g x)); [reflexivity|exact IH]|exact IH]. Qed.
Lemma nodup_label_inj (ts : list term) a b : NoDup (map t_label ts) -> In a ts -> In b ts -> t_label a = t_label b -> a = b.
Proof.
  induction ts as [|x ts IH]; intros N A B E; [destruct A|]. cbn in N. apply NoDup_cons_iff in N as [N1 N2].
  destruct A as [->|A], B as [->|B]; auto.
  - exfalso. apply N1. rewrite E. apply in_map. exact B.
  - exfalso. apply N1. rewrite <- E. apply in_map. exact A.
Qed.

Lemma entry_of_in mp en : NoDup (map e_label mp) -> In en mp -> entry_of mp (e_label en) = Some en.
Proof.
  unfold entry_of. induction mp as [|x q IH]; intros ND I; [destruct I|]. cbn in *. apply NoDup_cons_iff in ND as [N1 N2].
  destruct (String.eqb_spec (e_label x) (e_label en)) as [Q|Q]; destruct I as [->|I]; auto; [|congruence].
  exfalso. apply N1. rewrite Q. apply in_map. exact I.
Qed.
Section Table.
  Context (m n k : nat) (bW bH : mat) (s : cmodel) (o : sol) (es : list (list term * R)).
  Context (So : m_sol s = Some o) (Lab : forall e t, In e es -> In t (fst e) -> of_label t).
  Notation mp := (map_all es 0 []) (only parsing).
  Lemma entry_found i e t : nth_error es i = Some e -> In t (fst e) ->
    exists en c, entry_of mp (t_label t) = Some en /\ e_i en = t_i t /\ e_j en = t_j t /\ e_kind en = t_kind t /\
      find (fun p => (snd p =? i)%nat) (e_coefs en) = Some (c, i) /\ (NoDup (map t_label (fst e)) -> c = t_coef t).
  Proof.
    intros N I. destruct (C112_one_unknown_per_label es) as (ND & All & Ent).
    assert (I' : In (t, i) (Expr_Spec.numbered es 0)) by (apply numbered_in; exists e; rewrite Nat.sub_0_r; repeat split; auto; lia).
    pose proof (All _ I') as L. cbn [fst] in L. apply in_map_iff in L as (en & El & Ien).
    assert (F : entry_of mp (t_label t) = Some en).
    { rewrite <- El. apply entry_of_in; auto. }
    destruct (Ent en Ien) as (Ec & [t' i'] & Ip & Lp & Hi & Hj & Hk). cbn [fst] in *.
    assert (Ot : of_label t) by (apply (Lab e); auto; eapply nth_error_In; eauto).
    assert (Ot' : of_label t').
    { apply numbered_in in Ip as (e' & _ & N' & I''). apply (Lab e'); auto. eapply nth_error_In; eauto. }
    destruct (label_fun t' t Ot' Ot) as (Q1 & Q2 & Q3); [congruence|].
    assert (Fd : exists u, find (fun p => (snd p =? i)%nat) (e_coefs en) = Some (t_coef u, i) /\ In (u, i) (Expr_Spec.numbered es 0) /\ t_label u = t_label t).
    { rewrite Ec. unfold Expr_Spec.occurrences. rewrite find_map_filter, El. destruct (find _ _) as [[u j]|] eqn:Fd.
      - apply find_some in Fd as [Iu Hu]. cbn [fst snd] in Hu. apply andb_true_iff in Hu as [Hl Hj']. apply String.eqb_eq in Hl. apply Nat.eqb_eq in Hj' as ->.
        exists u. cbn [option_map fst snd]. auto.
      - exfalso. pose proof (find_none _ _ Fd _ I') as X. cbn [fst snd] in X. rewrite String.eqb_refl, Nat.eqb_refl in X. discriminate. }
    destruct Fd as (u & Fd & Iu & Lu). exists en, (t_coef u). repeat split; auto; try congruence. intros ND'.
    apply numbered_in in Iu as (e' & _ & N' & I''). rewrite Nat.sub_0_r, N in N'. injection N' as <-.
    f_equal. eapply nodup_label_inj; eauto.
  Qed.
  Definition cf (i : nat) (lab : string) : R :=
    match entry_of mp lab with Some en => match find (fun p => (snd p =? i)%nat) (e_coefs en) with Some (c, _) => c | None => 0 end | None => 0 end.
  Definition cell_of (i : nat) (t : term) : cell := mkCell (cf i (t_label t)) (t_label t) (term_value bW bH t) (term_value (o_W o) (o_H o) t).
  Definition erow_of (t : term) : erow := mkE (t_i t) (t_j t) (t_kind t) (rnd 4 (term_value bW bH t)) (rnd 4 (term_value (o_W o) (o_H o) t)).
  Lemma term_cell_in i e t : nth_error es i = Some e -> In t (fst e) -> term_in_matrix m n k t ->
    term_cell m n k bW bH s mp i (t_label t) = inr (cell_of i t, erow_of t).
  Proof.
    intros N I M. destruct (entry_found i e t N I) as (en & c & F & Ei & Ej & Ek & Fc & _). unfold term_cell, cell_of, erow_of, cf. rewrite F, Fc, So.
    rewrite Ei, Ej, Ek. cbv zeta. unfold term_in_matrix in M. unfold term_value. rewrite !at_in by (destruct (String.eqb (t_kind t) "feature"); exact M). reflexivity.
  Qed.
  Lemma collect_map {A B} (f : string -> exn + B) (l : A -> string) (g : A -> B) ts : (forall t, In t ts -> f (l t) = inr (g t)) -> collect f (map l ts) = inr (map g ts).
  Proof. induction ts as [|t ts IH]; intros H; [reflexivity|]. cbn. rewrite H by (left; reflexivity). rewrite IH by (intros; apply H; right; auto). reflexivity. Qed.
  Fixpoint rows_from (w i : nat) (l : list (list term * R)) : list xrow :=
    match l with [] => [] | e :: t => xrow_of w (snd e) (map (cell_of i) (fst e)) :: rows_from w (S i) t end.
  Lemma fold_put_map ts : forall (d : list (string * erow)) i, fold_left (fun d p => put d (ce_label (fst p)) (snd p)) (map (fun t => (cell_of i t, erow_of t)) ts) d =
    fold_left (fun d t => put d (t_label t) (erow_of t)) ts d.
  Proof. induction ts as [|t ts IH]; intros d i; [reflexivity|]. cbn. apply IH. Qed.
  Lemma rows_eq w : forall l pre d, es = (pre ++ l)%list -> (forall e t, In e l -> In t (fst e) -> term_in_matrix m n k t) ->
    expression_rows m n k bW bH s mp w (List.length pre) (map (fun e => (map t_label (fst e), snd e)) l) d =
    inr (fold_left (fun d t => put d (t_label t) (erow_of t)) (List.concat (map fst l)) d, rows_from w (List.length pre) l).
  Proof.
    induction l as [|e l IH]; intros pre d E M; [reflexivity|]. cbn [map expression_rows].
    assert (Ne : nth_error es (List.length pre) = Some e) by (rewrite E, nth_error_app2 by lia; rewrite Nat.sub_diag; reflexivity).
    rewrite (collect_map _ t_label (fun t => (cell_of (List.length pre) t, erow_of t))) by (intros t I; apply (term_cell_in _ e); auto; apply (M e); [left; reflexivity|exact I]).
    rewrite fold_put_map. specialize (IH (pre ++ [e])%list). rewrite app_length in IH. cbn [List.length] in IH. rewrite Nat.add_1_r in IH.
    rewrite IH; [|rewrite <- app_assoc; exact E|intros; eapply M; eauto; right; auto].
    cbn [List.concat map rows_from]. rewrite fold_left_app. rewrite map_map. reflexivity.
  Qed.
  Lemma put_seen (r : erow) lab : forall L, (exists t, In t L /\ t_label t = lab) -> (forall t, In t L -> t_label t = lab -> erow_of t = r) ->
    put (map (fun t => (t_label t, erow_of t)) L) lab r = map (fun t => (t_label t, erow_of t)) L.
  Proof.
    induction L as [|x L IH]; intros (t & I & E) H; [destruct I|]. cbn. destruct (String.eqb_spec (t_label x) lab) as [Q|Q].
    - rewrite (H x (or_introl eq_refl) Q). reflexivity.
    - rewrite IH; [reflexivity| |intros; apply H; [right|]; auto]. destruct I as [->|I]; [congruence|eauto].
  Qed.
  Lemma put_new (r : erow) lab : forall L, (forall t, In t L -> t_label t <> lab) ->
    put (map (fun t => (t_label t, erow_of t)) L) lab r = (map (fun t => (t_label t, erow_of t)) L ++ [(lab, r)])%list.
  Proof.
    induction L as [|x L IH]; intros H; [reflexivity|]. cbn. destruct (String.eqb_spec (t_label x) lab) as [Q|Q]; [destruct (H x (or_introl eq_refl) Q)|].
    rewrite IH; [reflexivity|intros; apply H; right; auto].
  Qed.
  Lemma fold_puts : forall ts L seen, (forall t, In t ts \/ In t L -> of_label t) -> (forall l, In l seen <-> In l (map t_label L)) ->
    fold_left (fun d t => put d (t_label t) (erow_of t)) ts (map (fun t => (t_label t, erow_of t)) L) =
    map (fun t => (t_label t, erow_of t)) (L ++ firsts seen ts).
  Proof.
    induction ts as [|t ts IH]; intros L seen HL Hs; cbn [fold_left firsts]; [rewrite app_nil_r; reflexivity|].
    assert (Ex : existsb (String.eqb (t_label t)) seen = true <-> In (t_label t) (map t_label L)).
    { rewrite <- Hs, existsb_exists. split; [intros (x & I & Q); apply String.eqb_eq in Q as ->; exact I|intros I; exists (t_label t); split; [exact I|apply String.eqb_refl]]. }
    destruct (existsb _ _) eqn:B.
    - rewrite put_seen; [apply IH; auto; intros t' [I|I]; apply HL; [left; right|right]; auto| |].
      + pose proof (proj1 Ex eq_refl) as B'. apply in_map_iff in B' as (t' & Q & I). eauto.
      + intros t' I Q. destruct (label_fun t' t) as (Q1 & Q2 & Q3); [apply HL; right; auto|apply HL; left; left; reflexivity|exact Q|].
        unfold erow_of, term_value. rewrite Q1, Q2, Q3. reflexivity.
    - rewrite put_new.
      + replace (map (fun t0 => (t_label t0, erow_of t0)) L ++ [(t_label t, erow_of t)])%list with (map (fun t0 => (t_label t0, erow_of t0)) (L ++ [t])) by (rewrite map_app; reflexivity).
        rewrite (IH _ (t_label t :: seen)).
        * rewrite <- app_assoc. reflexivity.
        * intros t' [I|I]; [apply HL; left; right; auto|]. apply in_app_or in I as [I|[<-|[]]]; [apply HL; right; auto|apply HL; left; left; reflexivity].
        * intros l. rewrite map_app, in_app_iff, <- Hs. cbn. tauto.
      + intros t' I Q. assert (X : In (t_label t) (map t_label L)) by (rewrite <- Q; apply in_map; exact I). apply Ex in X. discriminate.
  Qed.
End Table.

Lemma rows_from_nth bW bH o es w : forall l i j e, nth_error l j = Some e ->
  nth_error (rows_from bW bH o es w i l) j = Some (xrow_of w (snd e) (map (cell_of bW bH o es (i + j)) (fst e))).
Proof.
  induction l as [|x l IH]; intros i [|j] e N; try discriminate; cbn in *.
  - injection N as <-. rewrite Nat.add_0_r. reflexivity.
  - rewrite (IH (S i) j e N). replace (S i + j)%nat with (i + S j)%nat by lia. reflexivity.
Qed.
Lemma rows_from_len bW bH o es w : forall l i, List.length (rows_from bW bH o es w i l) = List.length l.
Proof. induction l; intros; cbn; auto. Qed.
Lemma labeled_of tf m n k ops es : latest tf m n k (parses tf) ops es ->
  m_labeled (state tf m n k ops) = Some (map (fun e => (map t_label (fst e), snd e)) es) /\ m_mapped (state tf m n k ops) = Some (map_all es 0 []).
Proof.
  intros L. destruct (C113_which_run tf m n k ops) as [H _]. destruct (m_labeled _).
  - destruct H as (es' & L' & -> & ->). rewrite (latest_unique tf m n k _ ops es es' (parses_fun tf) L L'). auto.
  - destruct H as [_ N]. destruct L as (pre & t & post & E & P & _). destruct (N _ _ _ E _ P).
Qed.
Lemma latest_label tf m n k ops es : latest tf m n k (parses tf) ops es -> forall e t, In e es -> In t (fst e) -> of_label t.
Proof. intros (pre & t & post & E & [_ P] & _). eapply read_all_label; eauto. Qed.

(** With a solution and at least one expression read, the table has one row per
    expression of the latest call of train that could read them (not of the list as it
    is now), and lists every element once.  An expression that names no element twice
    shows its coefficients and its value in both solutions. *)
Theorem C113_expression_table :
  forall (to_float : string -> option R) (m n k : nat) (bW bH : mat) (ops : list op) (es : list (list term * R)) (o : sol),
    let s := state to_float m n k ops in
    latest to_float m n k (parses to_float) ops es -> m_sol s = Some o -> es <> [] ->
    (forall e t, In e es -> In t (fst e) -> term_in_matrix m n k t) ->
    exists els rows width,
      evaluate_expressions m n k bW bH s = inr (els, rows) /\
      Forall2 (erow_ok bW bH o) (firsts [] (List.concat (map fst es))) els /\
      List.length rows = List.length es /\
      (forall e, In e es -> (List.length (fst e) <= width)%nat) /\ (exists e, In e es /\ List.length (fst e) = width) /\
      (forall i e r, nth_error es i = Some e -> nth_error rows i = Some r -> List.length (x_terms r) = width /\
         (NoDup (map t_label (fst e)) -> xrow_ok bW bH o width e r)).
Proof.
  intros tf m n k bW bH ops es o s L So Ne M. destruct (labeled_of tf m n k ops es L) as [E1 E2]. pose proof (latest_label tf m n k ops es L) as Lab.
  set (lab := map (fun e => (map t_label (fst e), snd e)) es) in *. unfold evaluate_expressions. fold s in E1, E2. rewrite E1, E2.
  assert (W : forall e, In e es -> (List.length (fst e) <= max_terms lab)%nat).
  { unfold max_terms, lab. rewrite map_map. clear. induction es as [|x l IH]; intros e I; [destruct I|]. destruct I as [<-|I]; cbn.
    - rewrite map_length. lia.
    - eapply Nat.le_trans; [apply IH; exact I|apply Nat.le_max_r]. }
  assert (W' : exists e, In e es /\ List.length (fst e) = max_terms lab).
  { unfold max_terms, lab. rewrite map_map. clear - Ne. induction es as [|x l IH]; [congruence|]. cbn in *. rewrite map_length.
    match goal with |- context [Nat.max ?a ?b] => destruct (Nat.max_spec a b) as [[Lt ->]|[_ ->]] end; [|exists x; auto].
    destruct l as [|y l']; [cbn in Lt; lia|]. destruct IH as (e & I & E); [discriminate|]. exists e. auto. }
  pose proof (rows_eq m n k bW bH s o es So Lab (max_terms lab) es [] [] eq_refl M) as Rw. cbn [List.length] in Rw. fold lab in Rw.
  pose proof (fold_puts bW bH o (List.concat (map fst es)) [] []) as Fp. cbn [map app] in Fp. rewrite Fp in Rw.
  2: { intros t [I|[]]. apply in_concat in I as (ts & I1 & I2). apply in_map_iff in I1 as (e & <- & Ie). eapply Lab; eauto. }
  2: { intros l. reflexivity. }
  exists (map (erow_of bW bH o) (firsts [] (List.concat (map fst es)))), (rows_from bW bH o es (max_terms lab) 0 es), (max_terms lab).
  split; [|split; [|split; [|split; [|split]]]].
  - destruct lab eqn:El; [unfold lab in El; destruct es; [congruence|discriminate]|]. rewrite Rw, map_map. reflexivity.
  - clear. induction (firsts [] (List.concat (map fst es))) as [|t ts IH]; constructor; [|exact IH]. unfold erow_ok, erow_of. cbn. repeat split; try apply rnd4_shows.
  - apply rows_from_len.
  - exact W.
  - exact W'.
  - intros i e r Ni Nr. rewrite (rows_from_nth bW bH o es (max_terms lab) es 0 i e Ni) in Nr. injection Nr as <-. cbn [x_terms xrow_of].
    assert (Le : (List.length (fst e) <= max_terms lab)%nat) by (apply W; eapply nth_error_In; eauto).
    unfold xrow_of. cbn [x_terms]. split; [rewrite app_length, repeat_length, !map_length; lia|].
    intros ND. unfold xrow_ok. cbn [x_dQ x_terms x_base x_sol]. rewrite !map_map, map_length. cbn [ce_coef ce_label ce_base ce_sol cell_of].
    assert (C : forall t, In t (fst e) -> cf es i (t_label t) = t_coef t).
    { intros t I. destruct (entry_found es Lab i e t Ni I) as (en & c & F & _ & _ & _ & Fc & Q). unfold cf. rewrite F, Fc. apply Q. exact ND. }
    cbn [Nat.add].
    assert (X1 : map (fun x => Some (cf es i (t_label x), t_label x)) (fst e) = map (fun t => Some (t_coef t, t_label t)) (fst e)) by (apply map_ext_in; intros t I; rewrite C by exact I; reflexivity).
    assert (X2 : forall v : term -> R, map (fun x => v x * cf es i (t_label x)) (fst e) = map (fun t => v t * t_coef t) (fst e)) by (intros v; apply map_ext_in; intros t I; rewrite C by exact I; reflexivity).
    rewrite X1, (X2 (term_value bW bH)), (X2 (term_value (o_W o) (o_H o))). repeat split; try apply rnd4_shows.
Qed.
Print Assumptions C113_expression_table.

(** Otherwise it raises: before any call of train that read the expressions, after one
    that read none, and, as long as no training completed, if there is an element. *)
Theorem C113_expression_table_raises :
  forall (to_float : string -> option R) (m n k : nat) (bW bH : mat) (ops : list op),
    let s := state to_float m n k ops in
    (never to_float m n k (parses to_float) ops -> evaluate_expressions m n k bW bH s = inl TypeErr) /\
    (latest to_float m n k (parses to_float) ops [] -> evaluate_expressions m n k bW bH s = inl ValueErr) /\
    (forall es, latest to_float m n k (parses to_float) ops es -> m_sol s = None -> (exists e, In e es /\ fst e <> []) ->
       evaluate_expressions m n k bW bH s = inl AttrErr) /\
    (forall es o, latest to_float m n k (parses to_float) ops es -> m_sol s = Some o ->
       (exists e t, In e es /\ In t (fst e) /\
          ~ (if String.eqb (t_kind t) "feature"
             then (- Z.of_nat k <= t_i t < Z.of_nat k)%Z /\ (- Z.of_nat n <= t_j t < Z.of_nat n)%Z
             else (- Z.of_nat m <= t_i t < Z.of_nat m)%Z /\ (- Z.of_nat k <= t_j t < Z.of_nat k)%Z)) ->
       evaluate_expressions m n k bW bH s = inl IndexErr).
Proof.
  intros tf m n k bW bH ops s. split; [|split; [|split]].
  - intros N. destruct (C113_which_run tf m n k ops) as [H _]. unfold evaluate_expressions. fold s in H. destruct (m_labeled s) as [lab|]; [|reflexivity].
    destruct H as (es & (pre & t & post & E & P & _) & _). destruct (N _ _ _ E _ P).
  - intros L. destruct (labeled_of tf m n k ops [] L) as [E1 _]. unfold evaluate_expressions. fold s in E1. rewrite E1. reflexivity.
  - intros es L Sn X. destruct (labeled_of tf m n k ops es L) as [E1 E2]. pose proof (latest_label tf m n k ops es L) as Lab. unfold evaluate_expressions. fold s in E1, E2. rewrite E1, E2.
    assert (G : forall w l pre d, es = (pre ++ l)%list -> (exists e, In e l /\ fst e <> []) -> expression_rows m n k bW bH s (map_all es 0 []) w (List.length pre) (map (fun e => (map t_label (fst e), snd e)) l) d = inl AttrErr).
    { intros w. induction l as [|e l IH]; intros pre d E (x & I & Nx); [destruct I|]. cbn [map expression_rows].
      assert (Ne : nth_error es (List.length pre) = Some e) by (rewrite E, nth_error_app2 by lia; rewrite Nat.sub_diag; reflexivity).
      destruct (fst e) as [|t ts] eqn:Ee.
      - cbn [map collect fold_left]. specialize (IH (pre ++ [e])%list d). rewrite app_length in IH. cbn [List.length] in IH. rewrite Nat.add_1_r in IH.
        rewrite IH; [reflexivity|rewrite <- app_assoc; exact E|]. destruct I as [->|I]; [congruence|eauto].
      - cbn [map collect]. assert (It : In t (fst e)) by (rewrite Ee; left; reflexivity).
        destruct (entry_found es Lab (List.length pre) e t Ne It) as (en & c & F & _ & _ & _ & Fc & _). unfold term_cell at 1. rewrite F, Fc, Sn. reflexivity. }
    specialize (G (max_terms (map (fun e => (map t_label (fst e), snd e)) es)) es [] [] eq_refl X). cbn [List.length] in G.
    destruct es as [|e es']; [destruct X as (x & [] & _)|]. cbn [map] in *. rewrite G. reflexivity.
  - intros es o L So X. destruct (labeled_of tf m n k ops es L) as [E1 E2]. pose proof (latest_label tf m n k ops es L) as Lab. unfold evaluate_expressions. fold s in E1, E2. rewrite E1, E2.
    set (out := fun t : term => ~ (if String.eqb (t_kind t) "feature"
             then (- Z.of_nat k <= t_i t < Z.of_nat k)%Z /\ (- Z.of_nat n <= t_j t < Z.of_nat n)%Z
             else (- Z.of_nat m <= t_i t < Z.of_nat m)%Z /\ (- Z.of_nat k <= t_j t < Z.of_nat k)%Z)) in *.
    assert (Tc : forall i e t, nth_error es i = Some e -> In t (fst e) ->
       (term_cell m n k bW bH s (map_all es 0 []) i (t_label t) = inl IndexErr \/ exists y, term_cell m n k bW bH s (map_all es 0 []) i (t_label t) = inr y) /\
       (out t -> term_cell m n k bW bH s (map_all es 0 []) i (t_label t) = inl IndexErr)).
    { intros i e t Ne It. destruct (entry_found es Lab i e t Ne It) as (en & c & F & Ei & Ej & Ek & Fc & _). unfold term_cell. rewrite F, Fc, So, Ei, Ej, Ek. cbv zeta.
      split.
      - destruct (at_index _ _ _ _ _ _ _ _); [|left; reflexivity]. destruct (at_index _ _ _ _ _ _ _ _); [right; eauto|left; reflexivity].
      - intros O. assert (N : forall W H : mat, at_index m n k (String.eqb (t_kind t) "feature") W H (t_i t) (t_j t) = None).
        { intros W H. unfold out in O. unfold at_index, py_index. destruct (String.eqb (t_kind t) "feature").
          - destruct (Z.leb_spec 0 (t_i t)), (Z.leb_spec 0 (t_j t)); cbn [andb];
              repeat (match goal with |- context [(?a <? ?b)%Z] => destruct (Z.ltb_spec a b) | |- context [(?a <=? ?b)%Z] => destruct (Z.leb_spec a b) end; cbn [andb]); try reflexivity; exfalso; apply O; lia.
          - destruct (Z.leb_spec 0 (t_i t)), (Z.leb_spec 0 (t_j t)); cbn [andb];
              repeat (match goal with |- context [(?a <? ?b)%Z] => destruct (Z.ltb_spec a b) | |- context [(?a <=? ?b)%Z] => destruct (Z.leb_spec a b) end; cbn [andb]); try reflexivity; exfalso; apply O; lia. }
        rewrite N. reflexivity. }
    assert (G : forall w l pre d, es = (pre ++ l)%list -> (exists e t, In e l /\ In t (fst e) /\ out t) -> expression_rows m n k bW bH s (map_all es 0 []) w (List.length pre) (map (fun e => (map t_label (fst e), snd e)) l) d = inl IndexErr).
    { intros w. induction l as [|e l IH]; intros pre d E (x & t & I & It & O); [destruct I|]. cbn [map expression_rows].
      assert (Ne : nth_error es (List.length pre) = Some e) by (rewrite E, nth_error_app2 by lia; rewrite Nat.sub_diag; reflexivity).
      assert (All : forall q, In q (map t_label (fst e)) -> term_cell m n k bW bH s (map_all es 0 []) (List.length pre) q = inl IndexErr \/ exists y, term_cell m n k bW bH s (map_all es 0 []) (List.length pre) q = inr y).
      { intros q Iq. apply in_map_iff in Iq as (t' & <- & It'). apply (Tc _ e t' Ne It'). }
      destruct I as [->|I].
      - rewrite (collect_err _ IndexErr); [reflexivity|exact All|]. exists (t_label t). split; [apply in_map; exact It|]. apply (Tc _ x t Ne It), O.
      - assert (Dec : collect (term_cell m n k bW bH s (map_all es 0 []) (List.length pre)) (map t_label (fst e)) = inl IndexErr \/ exists y, collect (term_cell m n k bW bH s (map_all es 0 []) (List.length pre)) (map t_label (fst e)) = inr y).
        { clear -All. induction (map t_label (fst e)) as [|q l IH]; cbn [collect]; [right; eauto|]. destruct (All q (or_introl eq_refl)) as [->|[y ->]]; [left; reflexivity|].
          destruct IH as [->|[ys ->]]; [intros; apply All; right; assumption|left; reflexivity|right; eauto]. }
        destruct Dec as [->|[cs ->]]; [reflexivity|]. 
        match goal with |- context [expression_rows _ _ _ _ _ _ _ _ _ _ ?d'] => specialize (IH (pre ++ [e])%list d') end.
        rewrite app_length in IH. cbn [List.length] in IH. rewrite Nat.add_1_r in IH.
        rewrite IH; [reflexivity|rewrite <- app_assoc; exact E|]. eauto. }
    specialize (G (max_terms (map (fun e => (map t_label (fst e), snd e)) es)) es [] [] eq_refl X). cbn [List.length] in G.
    destruct es as [|e es']; [destruct X as (x & t & [] & _)|]. cbn [map] in *. rewrite G. reflexivity.
Qed.
Print Assumptions C113_expression_table_raises.

(** ** Concrete histories *)
Definition ones : mat := fun _ _ => 1.
Definition done : training := fun _ _ => inr (mkSol ones ones).
Definition broken : training := fun _ _ => inl IndexErr.
Definition text1 : string := "(0.66*[factor:1|feature:2])-(4.2*[factor:2|feature:4])=0,250".
Definition text2 : string := "(4.2*[factor:0|feature:1])=0,250".
Definition terms1 : list term := [mkTerm "factor:1|feature:2" 1 2 "feature" (66 / 100 * 1); mkTerm "factor:2|feature:4" 2 4 "feature" (42 / 10 * -1)].
Definition terms2 : list term := [mkTerm "factor:0|feature:1" 0 1 "feature" (42 / 10 * 1)].
Definition zero_first : constr := mkC SetZero 0 0 Feature.
Definition zero_second : constr := mkC SetZero 1 1 Feature.

(** The hypotheses are met. *)
Example C113_instance :
  let ops := [AddE text1; Train done; AddE text2] in
  latest some_float 6 5 3 (parses some_float) ops [(terms1, 250)] /\ m_sol (state some_float 6 5 3 ops) = Some (mkSol ones ones) /\
  (forall e t, In e [(terms1, 250)] -> In t (fst e) -> term_in_matrix 6 5 3 t) /\ NoDup (map t_label terms1) /\
  exists els row, evaluate_expressions 6 5 3 ones ones (state some_float 6 5 3 ops) = inr (els, [row]) /\ shows (x_sol row) (66 / 100 - 42 / 10).
Proof.
  cbv zeta.
  assert (L : latest some_float 6 5 3 (parses some_float) [AddE text1; Train done; AddE text2] [(terms1, 250)]).
  { exists [AddE text1], done, [AddE text2]. split; [reflexivity|]. split; [split; [right; discriminate|reflexivity]|].
    intros pre t post E Lt. apply (f_equal (@List.length op)) in E as El. rewrite app_length in El. cbn in El, Lt.
    destruct pre as [|a [|b [|c pre]]]; cbn in E, Lt, El; try lia; discriminate. }
  assert (M : forall e t, In e [(terms1, 250)] -> In t (fst e) -> term_in_matrix 6 5 3 t).
  { intros e t [<-|[]] [<-|[<-|[]]]; unfold term_in_matrix; cbn; lia. }
  assert (N : NoDup (map t_label terms1)) by (cbn; repeat constructor; cbn; intuition discriminate).
  split; [exact L|]. split; [reflexivity|]. split; [exact M|]. split; [exact N|].
  destruct (C113_expression_table some_float 6 5 3 ones ones _ _ (mkSol ones ones) L eq_refl ltac:(discriminate) M) as (els & rows & w & E & _ & Ln & _ & _ & Rw).
  destruct rows as [|r [|]]; try discriminate. exists els, r. split; [exact E|].
  destruct (Rw 0%nat (terms1, 250) r eq_refl eq_refl) as [_ X]. destruct (X N) as (_ & _ & _ & Sh).
  replace (66 / 100 - 42 / 10) with (lsum (map (fun t => term_value (o_W (mkSol ones ones)) (o_H (mkSol ones ones)) t * t_coef t) (fst (terms1, 250)))); [exact Sh|].
  cbn. unfold ones, term_value. cbn. lra.
Qed.

(** The constraint table also lists constraints that played no part in the solution. *)
Theorem C113_constraints_of_the_run_refuted :
  ~ (forall (to_float : string -> option R) (m n k : nat) (bW bH : mat) (pre : list op) (t : training) (post : list op) (o : sol) rows,
       let s := state to_float m n k (pre ++ Train t :: post) in
       completes to_float (state to_float m n k pre) t o -> m_sol s = Some o -> evaluate_constraints m n k bW bH s = inr rows ->
       forall r, In r rows -> In (r_of r) (map snd (m_reg (state to_float m n k pre)))).
Proof.
  intros H.
  specialize (H some_float 6%nat 5%nat 3%nat ones ones [AddC zero_first] done [AddC zero_second] (mkSol ones ones)
    [mkRow zero_first (rnd 4 1) (Value 0) (rnd 4 1) None; mkRow zero_second (rnd 4 1) (Value 0) (rnd 4 1) None]).
  cbv zeta in H. assert (X : In zero_second [zero_first]); [|destruct X as [X|[]]; discriminate].
  refine (H _ eq_refl eq_refl (mkRow zero_second (rnd 4 1) (Value 0) (rnd 4 1) None) (or_intror (or_introl eq_refl))).
  exists []. split; [split; [left; discriminate|reflexivity]|reflexivity].
Qed.
Print Assumptions C113_constraints_of_the_run_refuted.

(** The expression table does not follow the list of expressions. *)
Theorem C113_expression_table_current_refuted :
  ~ (forall (to_float : string -> option R) (m n k : nat) (bW bH : mat) (ops : list op) els rows,
       evaluate_expressions m n k bW bH (state to_float m n k ops) = inr (els, rows) ->
       List.length rows = List.length (m_exprs (state to_float m n k ops))).
Proof.
  intros H. destruct C113_instance as (_ & _ & _ & _ & els & row & E & _). apply H in E. discriminate.
Qed.
Print Assumptions C113_expression_table_current_refuted.

(** After a call of train that fails, the expressions shown are those of the failed
    call and the solution is that of the call before. *)
Theorem C113_one_run_refuted :
  ~ (forall (to_float : string -> option R) (m n k : nat) (ops : list op) (es : list (list term * R)) (o : sol),
       latest to_float m n k (parses to_float) ops es -> latest to_float m n k (completes to_float) ops o ->
       exists pre t post, ops = (pre ++ Train t :: post)%list /\ parses to_float (state to_float m n k pre) t es /\ completes to_float (state to_float m n k pre) t o).
Proof.
  intros H. specialize (H some_float 6%nat 5%nat 3%nat [AddE text1; Train done; AddE text2; Train broken] [(terms1, 250); (terms2, 250)] (mkSol ones ones)).
  destruct H as (pre & t & post & E & P & C).
  - exists [AddE text1; Train done; AddE text2], broken, []. split; [reflexivity|]. split; [split; [right; discriminate|reflexivity]|].
    intros pre t post E Lt. apply (f_equal (@List.length op)) in E. rewrite app_length in E. cbn in E, Lt. lia.
  - exists [AddE text1], done, [AddE text2; Train broken]. split; [reflexivity|]. split; [exists [(terms1, 250)]; split; [split; [right; discriminate|reflexivity]|reflexivity]|].
    intros pre t post E Lt y (es & _ & T). destruct pre as [|a [|b [|c [|d pre]]]]; cbn in E, Lt; try lia; try discriminate.
    + injection E as _ _ _ <- _. discriminate.
    + destruct pre; discriminate.
  - destruct pre as [|a [|b [|c [|d pre]]]]; try discriminate.
    + injection E as Ea Et _. subst a t. destruct P as [_ P]. discriminate.
    + injection E as _ _ _ <- _. destruct C as (es & _ & C). discriminate.
    + destruct pre; discriminate.
Qed.
Print Assumptions C113_one_run_refuted.

Example C113_expression_list_example :=
  C113_expression_list some_float 6 5 3 (state some_float 6 5 3 [AddE text1; Train done; AddE text2]).
Example C113_which_run_example :=
  C113_which_run some_float 6 5 3 [AddE text1; Train done; AddE text2; Train broken].
Example C113_expression_table_example :=
  match C113_instance with conj a (conj b (conj c _)) =>
    C113_expression_table some_float 6 5 3 ones ones [AddE text1; Train done; AddE text2] [(terms1, 250)] (mkSol ones ones)
      a b ltac:(discriminate) c end.
Example C113_expression_table_raises_example : evaluate_expressions 6 5 3 ones ones (state some_float 6 5 3 [AddE text1]) = inl TypeErr.
Proof.
  apply C113_expression_table_raises. intros [|a [|b pre]] t post E; discriminate E.
Qed.
Example C113_constraint_table_example :=
  C113_constraint_table some_float 6 5 3 ones ones [AddC zero_first; Train done; AddC zero_second]
    ltac:(intros p [<- | [<- | []]]; discriminate).
