(** C117: progress reports of a batch run. *)
From Coq Require Import List Bool ZArith Arith Lia Permutation.
From Verif Require Import Train_Model Train_Props Progress_Model Progress_Spec.
Import ListNotations.

Section P.
  Context {F : Type} (n cores : nat) (msgs : nat -> list (msg F)) (fails : nat -> bool) (raises : msg F -> bool).
  Context (L : labelled msgs).
  Notation st := (state F).
  Notation step := (step n cores fails raises).
  Notation steps := (steps n cores fails raises).
  Definition puts (q : list (item F)) : list (msg F) := flat_map (fun y => match y with Put x => [x] | DONE => [] end) q.
  Lemma puts_app a b : puts (a ++ b) = puts a ++ puts b.
  Proof. apply flat_map_app. Qed.
  Lemma own_app i (a b : list (msg F)) : own i (a ++ b) = own i a ++ own i b.
  Proof. apply filter_app. Qed.

  Record inv (s : st) : Prop := {
    i_sent : forall i, (1 <= i <= n)%nat -> own i (shown s) ++ own i (puts (queue s)) ++ todo s i = msgs i;
    i_lab : forall x, In x (shown s) \/ In x (puts (queue s)) -> (1 <= g_model x <= n)%nat;
    i_todo : forall i, (1 <= i <= n)%nat -> over_with (work s i) = true -> todo s i = [];
    i_end : forall i, (1 <= i <= n)%nat -> over_with (work s i) = true -> work s i = if fails i then Failed else Finished;
    i_train : main s = Training -> queue s = map Put (puts (queue s)) /\ lis s <> Stopped;
    i_join : main s = Joining \/ main s = Returned true ->
      (forall i, (1 <= i <= n)%nat -> work s i = Finished) /\
      ((lis s = Stopped /\ queue s = []) \/ (lis s <> Stopped /\ queue s = map Put (puts (queue s)) ++ [DONE]));
    i_ret : main s = Returned true -> lis s <> Listening;
    i_fail : main s = Returned false -> (exists i, (1 <= i <= n)%nat /\ work s i = Failed) /\
      (forall i, (1 <= i <= n)%nat -> over_with (work s i) = true) /\ queue s = map Put (puts (queue s));
    i_died : (lis s = Died -> exists l x, shown s = l ++ [x] /\ raises x = true) /\
      (forall l x r, shown s = l ++ x :: r -> raises x = true -> r = [] /\ lis s = Died) }.

  Lemma inv_start : inv (start msgs).
  Proof.
    constructor; cbn; try discriminate; auto.
    - intros x [[]|[]].
    - intros _. split; [reflexivity|discriminate].
    - intros [H|H]; discriminate.
    - split; [discriminate|]. intros l x r H. now destruct l.
  Qed.
  Lemma upd_eq {A} (f : nat -> A) i x : upd f i x i = x.
  Proof. unfold upd. now rewrite Nat.eqb_refl. Qed.
  Lemma upd_ne {A} (f : nat -> A) i j x : j <> i -> upd f i x j = f j.
  Proof. intros H. unfold upd. apply Nat.eqb_neq in H. now rewrite H. Qed.
  Lemma own_one i (x : msg F) : own i [x] = if g_model x =? i then [x] else [].
  Proof. reflexivity. Qed.
  Lemma todo_lab s i x : inv s -> (1 <= i <= n)%nat -> In x (todo s i) -> g_model x = i.
  Proof. intros I Hi H. apply L. rewrite <- (i_sent _ I i Hi). apply in_or_app. right. apply in_or_app. now right. Qed.

  Lemma inv_step s s' : inv s -> step s s' -> inv s'.
  Proof.
    intros I St. destruct St as [i s Hi Hm Hw Hb|i x r s Hi Hw Ht|i s Hi Hw Ht|x q s Hl Hq|q s Hl Hq|s Hm Hw|i s Hm Hw Hi Hf|s Hm Hl].
    - constructor; cbn [work todo queue shown main lis]; try apply I.
      + intros j Hj. destruct (Nat.eq_dec j i) as [->|N]; [rewrite upd_eq; discriminate|rewrite upd_ne by exact N; now apply (i_todo _ I)].
      + intros j Hj. destruct (Nat.eq_dec j i) as [->|N]; [rewrite upd_eq; discriminate|rewrite upd_ne by exact N; now apply (i_end _ I)].
      + rewrite Hm. intros [H|H]; discriminate.
      + rewrite Hm. discriminate.
    - assert (Gx : g_model x = i) by (apply (todo_lab s i x I Hi); rewrite Ht; now left).
      assert (P : puts (queue s ++ [Put x]) = puts (queue s) ++ [x]) by (rewrite puts_app; reflexivity).
      assert (NM : main s <> Joining /\ main s <> Returned true /\ main s <> Returned false).
      { split; [|split]; intros H.
        - destruct (i_join _ I (or_introl H)) as [W _]. rewrite W in Hw by exact Hi. discriminate.
        - destruct (i_join _ I (or_intror H)) as [W _]. rewrite W in Hw by exact Hi. discriminate.
        - destruct (i_fail _ I H) as [_ [W _]]. specialize (W i Hi). rewrite Hw in W. discriminate. }
      constructor; cbn [work todo queue shown main lis]; try apply I.
      + intros j Hj. rewrite P, own_app, own_one, Gx.
        destruct (Nat.eq_dec j i) as [->|N].
        * rewrite upd_eq, Nat.eqb_refl. rewrite <- (i_sent _ I i Hi), Ht. now rewrite <- !app_assoc.
        * rewrite upd_ne by exact N. assert (E : (i =? j) = false) by (apply Nat.eqb_neq; auto). rewrite E, app_nil_r. now apply (i_sent _ I).
      + intros y Hy. rewrite P in Hy. destruct Hy as [Hy|Hy]; [apply (i_lab _ I); now left|].
        apply in_app_or in Hy as [Hy|[<-|[]]]; [apply (i_lab _ I); now right|lia].
      + intros j Hj Ho. destruct (Nat.eq_dec j i) as [->|N]; [rewrite Hw in Ho; discriminate|rewrite upd_ne by exact N; now apply (i_todo _ I)].
      + intros Hm. destruct (i_train _ I Hm) as [Q Z]. split; [|exact Z]. rewrite P, map_app. rewrite Q at 1. reflexivity.
      + intros [H|H]; tauto.
      + intros H; tauto.
    - constructor; cbn [work todo queue shown main lis]; try apply I.
      + intros j Hj. destruct (Nat.eq_dec j i) as [->|N]; [auto|rewrite upd_ne by exact N; now apply (i_todo _ I)].
      + intros j Hj. destruct (Nat.eq_dec j i) as [->|N]; [rewrite upd_eq; reflexivity|rewrite upd_ne by exact N; now apply (i_end _ I)].
      + intros H. destruct (i_join _ I H) as [W _]. rewrite W in Hw by exact Hi. discriminate.
      + intros H. destruct (i_fail _ I H) as [_ [W _]]. specialize (W i Hi). rewrite Hw in W. discriminate.
    - assert (P : puts (queue s) = x :: puts q) by (rewrite Hq; reflexivity).
      constructor; cbn [work todo queue shown main lis]; try apply I.
      + intros j Hj. rewrite <- (i_sent _ I j Hj), P, own_app. change (x :: puts q) with ([x] ++ puts q). rewrite own_app. now rewrite <- !app_assoc.
      + intros y Hy. apply (i_lab _ I). rewrite P. destruct Hy as [Hy|Hy]; [apply in_app_or in Hy as [Hy|[<-|[]]]; [now left|right; now left]|right; now right].
      + intros Hm. destruct (i_train _ I Hm) as [Q Z]. rewrite P, Hq in Q. cbn in Q. injection Q as Q. split; [exact Q|]. destruct (raises x); discriminate.
      + intros Hm. destruct (i_join _ I Hm) as [W [[Z _]|[_ Q]]]; [congruence|]. split; [exact W|right].
        rewrite P, Hq in Q. cbn in Q. injection Q as Q. split; [destruct (raises x); discriminate|exact Q].
      + intros Hm. exfalso. now apply (i_ret _ I Hm).
      + intros Hm. destruct (i_fail _ I Hm) as [E [W Q]]. split; [exact E|split; [exact W|]]. rewrite P, Hq in Q. cbn in Q. now injection Q as Q.
      + destruct (i_died _ I) as [D1 D2]. split.
        * destruct (raises x) eqn:Rx; [|discriminate]. intros _. now exists (shown s), x.
        * intros l y r E Ry. destruct r as [|z r].
          -- apply app_inj_tail in E as [_ ->]. rewrite Ry. auto.
          -- exfalso. destruct (@exists_last _ (z :: r) ltac:(discriminate)) as [r' [w W]]. rewrite W in E.
             assert (E2 : shown s ++ [x] = (l ++ y :: r') ++ [w]) by (rewrite E; now rewrite <- app_assoc).
             apply app_inj_tail in E2 as [E2 _]. destruct (D2 _ _ _ E2 Ry). congruence.
    - assert (P : puts (queue s) = puts q) by (rewrite Hq; reflexivity).
      assert (NT : main s <> Training).
      { intros Hm. destruct (i_train _ I Hm) as [Q _]. rewrite P, Hq in Q. destruct (puts q); discriminate. }
      constructor; cbn [work todo queue shown main lis]; try apply I.
      + intros j Hj. rewrite <- P. now apply (i_sent _ I).
      + intros y. rewrite <- P. apply (i_lab _ I).
      + intros Hm. contradiction.
      + intros Hm. destruct (i_join _ I Hm) as [W [[Z _]|[_ Q]]]; [congruence|]. split; [exact W|left]. split; [reflexivity|].
        rewrite P, Hq in Q. cbn in Q. destruct (puts q); [cbn in Q; now injection Q as Q|discriminate].
      + discriminate.
      + intros Hm. destruct (i_fail _ I Hm) as [_ [_ Q]]. rewrite P, Hq in Q. destruct (puts q); discriminate.
      + destruct (i_died _ I) as [D1 D2]. split; [discriminate|]. intros l x r E Rx. destruct (D2 _ _ _ E Rx). congruence.
    - assert (P : puts (queue s ++ [DONE]) = puts (queue s)) by (rewrite puts_app; cbn; apply app_nil_r).
      constructor; cbn [work todo queue shown main lis]; try rewrite P; try apply I; try discriminate.
      + intros _. split; [exact Hw|right]. destruct (i_train _ I Hm) as [Q Z]. split; [exact Z|]. now rewrite <- Q.
    - constructor; cbn [work todo queue shown main lis]; try apply I; try discriminate.
      + intros [H|H]; discriminate.
      + intros _. split; [eauto|split; [exact Hw|]]. now apply (i_train _ I).
    - constructor; cbn [work todo queue shown main lis]; try apply I; try discriminate.
      + intros _. apply (i_join _ I). now left.
      + intros _. exact Hl.
  Qed.
  Lemma inv_steps k s s' : inv s -> steps k s s' -> inv s'.
  Proof. intros I H. induction H as [s|k s s1 s2 H IH St]; [exact I|]. exact (inv_step _ _ (IH I) St). Qed.
  Lemma inv_reach k s : steps k (start msgs) s -> inv s.
  Proof. apply inv_steps, inv_start. Qed.

  (** ** Length of executions *)
  Fixpoint nsum (f : nat -> nat) (l : list nat) : nat := match l with [] => 0 | i :: t => f i + nsum f t end.
  Definition wlev (w : wstate) : nat := match w with Waiting => 2 | Running => 1 | _ => 0 end.
  Definition mlev (m : mstate) : nat := match m with Training => 3 | Joining => 1 | Returned _ => 0 end.
  Definition level (s : st) : nat :=
    (nsum (fun i => 2 * length (todo s i) + wlev (work s i)) (seq 1 n) + length (queue s) + mlev (main s))%nat.
  Lemma nsum_ext f g l : (forall i, In i l -> f i = g i) -> nsum f l = nsum g l.
  Proof. induction l as [|a l IH]; cbn; intros H; [reflexivity|]. rewrite H by auto. rewrite IH by auto. reflexivity. Qed.
  Lemma nsum_less f g l i d : NoDup l -> In i l -> (forall j, In j l -> j <> i -> f j = g j) -> (f i + d <= g i)%nat -> (nsum f l + d <= nsum g l)%nat.
  Proof.
    induction l as [|a l IH]; intros N H E Hi; [easy|]. inversion N as [|? ? Na Nl]; subst. cbn. destruct H as [->|H].
    - rewrite (nsum_ext f g l); [lia|]. intros j Hj. apply E; [now right|]. intros ->. contradiction.
    - rewrite (E a) by (try (now left); intros ->; contradiction). specialize (IH Nl H (fun j Hj => E j (or_intror Hj)) Hi). lia.
  Qed.
  Lemma level_step s s' : step s s' -> (level s' < level s)%nat.
  Proof.
    intros St. unfold level. destruct St as [i s Hi Hm Hw Hb|i x r s Hi Hw Ht|i s Hi Hw Ht|x q s Hl Hq|q s Hl Hq|s Hm Hw|i s Hm Hw Hi Hf|s Hm Hl];
      cbn [work todo queue shown main lis].
    - enough (nsum (fun j => 2 * length (todo s j) + wlev (upd (work s) i Running j)) (seq 1 n) + 1 <= nsum (fun j => 2 * length (todo s j) + wlev (work s j)) (seq 1 n))%nat by lia.
      apply nsum_less with (i := i); [apply seq_NoDup|apply in_seq; lia|intros j _ N; now rewrite upd_ne|]. rewrite upd_eq, Hw. cbn. lia.
    - rewrite app_length. cbn [length].
      enough (nsum (fun j => 2 * length (upd (todo s) i r j) + wlev (work s j)) (seq 1 n) + 2 <= nsum (fun j => 2 * length (todo s j) + wlev (work s j)) (seq 1 n))%nat by lia.
      apply nsum_less with (i := i); [apply seq_NoDup|apply in_seq; lia|intros j _ N; now rewrite upd_ne|]. rewrite upd_eq, Ht. cbn [length]. lia.
    - enough (nsum (fun j => 2 * length (todo s j) + wlev (upd (work s) i (if fails i then Failed else Finished) j)) (seq 1 n) + 1 <= nsum (fun j => 2 * length (todo s j) + wlev (work s j)) (seq 1 n))%nat by lia.
      apply nsum_less with (i := i); [apply seq_NoDup|apply in_seq; lia|intros j _ N; now rewrite upd_ne|]. rewrite upd_eq, Hw. destruct (fails i); cbn; lia.
    - rewrite Hq. cbn. lia.
    - rewrite Hq. cbn. lia.
    - rewrite app_length, Hm. cbn. lia.
    - rewrite Hm. cbn. lia.
    - rewrite Hm. cbn. lia.
  Qed.
  Lemma level_steps k s s' : steps k s s' -> (level s' + k <= level s)%nat.
  Proof. induction 1 as [s|k s s' s'' H IH St]; [lia|]. apply level_step in St. lia. Qed.

  (** ** Progress *)
  Lemma decide_all (p : wstate -> bool) (s : st) : (forall i, (1 <= i <= n)%nat -> p (work s i) = true) \/ exists i, (1 <= i <= n)%nat /\ p (work s i) = false.
  Proof.
    destruct (forallb (fun i => p (work s i)) (seq 1 n)) eqn:E.
    - left. intros i Hi. rewrite forallb_forall in E. apply E, in_seq. lia.
    - right. assert (H : exists i, In i (seq 1 n) /\ p (work s i) = false).
      { clear -E. induction (seq 1 n) as [|a l IH]; cbn in E; [discriminate|]. destruct (p (work s a)) eqn:Ea; [destruct IH as [i [? ?]]; [exact E|exists i; split; [now right|auto]]|exists a; split; [now left|auto]]. }
      destruct H as [i [H1 H2]]. apply in_seq in H1. exists i. split; [lia|exact H2].
  Qed.
  Lemma busy_zero (s : st) : (forall i, (1 <= i <= n)%nat -> negb (runs (work s i)) = true) -> busy n s = 0%nat.
  Proof.
    intros H. unfold busy. assert (E : forall l, (forall i, In i l -> (1 <= i <= n)%nat) -> filter (fun i => runs (work s i)) l = []).
    { induction l as [|a l IH]; intros Hl; [reflexivity|]. cbn. specialize (H a (Hl a (or_introl eq_refl))). apply negb_true_iff in H. rewrite H. apply IH. intros i Hi. apply Hl. now right. }
    rewrite E; [reflexivity|]. intros i Hi. apply in_seq in Hi. lia.
  Qed.
  Lemma can_step s : (1 <= cores)%nat -> inv s -> (main s = Training \/ main s = Joining) -> exists s', step s s'.
  Proof.
    intros C I [Hm|Hm].
    - destruct (decide_all (fun w => negb (runs w)) s) as [NR|[i [Hi Hr]]].
      + destruct (decide_all over_with s) as [O|[i [Hi Ho]]].
        * destruct (decide_all (fun w => match w with Failed => false | _ => true end) s) as [NF|[i [Hi Hf]]].
          -- eexists. apply Post; [exact Hm|]. intros i Hi. specialize (O i Hi). specialize (NF i Hi). destruct (work s i); try discriminate; reflexivity.
          -- eexists. apply (Raise _ _ _ _ i); auto. destruct (work s i); try discriminate; reflexivity.
        * eexists. apply (Start _ _ _ _ i); auto.
          -- specialize (NR i Hi). destruct (work s i); try discriminate; reflexivity.
          -- rewrite busy_zero by exact NR. lia.
      + assert (W : work s i = Running) by (destruct (work s i); try discriminate; reflexivity).
        destruct (todo s i) as [|x r] eqn:T.
        * eexists. apply (End _ _ _ _ i); auto.
        * eexists. apply (Send _ _ _ _ i x r); auto.
    - destruct (i_join _ I (or_introl Hm)) as [W [[Z Q]|[Z Q]]].
      + eexists. apply Join; [exact Hm|congruence].
      + destruct (lis s) eqn:Ls; [|contradiction|eexists; apply Join; [exact Hm|congruence]].
        destruct (queue s) as [|[x|] q] eqn:Qs.
        * destruct (map Put (puts [])); discriminate.
        * eexists. apply (Show _ _ _ _ x q); auto.
        * eexists. apply (Stop _ _ _ _ q); auto.
  Qed.
  Lemma returned_ok s ok : inv s -> main s = Returned ok -> ok = forallb (fun i => negb (fails i)) (seq 1 n).
  Proof.
    intros I Hm. symmetry. destruct ok.
    - apply forallb_forall. intros i Hi. apply in_seq in Hi. destruct (i_join _ I (or_intror Hm)) as [W _].
      assert (E : work s i = if fails i then Failed else Finished) by (apply (i_end _ I); [lia|rewrite W by lia; reflexivity]).
      rewrite W in E by lia. destruct (fails i); [discriminate|reflexivity].
    - destruct (i_fail _ I Hm) as [[i [Hi Hf]] _]. destruct (forallb _ _) eqn:E; [|reflexivity]. exfalso.
      rewrite forallb_forall in E. specialize (E i ltac:(apply in_seq; lia)).
      assert (E2 : work s i = if fails i then Failed else Finished) by (apply (i_end _ I); [exact Hi|rewrite Hf; reflexivity]).
      rewrite Hf in E2. destruct (fails i); [discriminate E|discriminate E2].
  Qed.
  Lemma after_return s : inv s -> main s = Returned true -> (forall s', step s s' -> False).
  Proof.
    intros I Hm s' St. destruct (i_join _ I (or_intror Hm)) as [W _]. pose proof (i_ret _ I Hm) as Z.
    destruct St as [i s Hi Hm' Hw Hb|i x r s Hi Hw Ht|i s Hi Hw Ht|x q s Hl Hq|q s Hl Hq|s Hm' Hw|i s Hm' Hw Hi Hf|s Hm' Hl]; try congruence; rewrite W in Hw by exact Hi; discriminate.
  Qed.
  Lemma died_never s : inv s -> (forall x, raises x = false) -> lis s <> Died.
  Proof. intros I NR H. destruct (i_died _ I) as [D _]. destruct (D H) as [l [x [_ E]]]. rewrite NR in E. discriminate. Qed.

  Lemma split_own (l : list (msg F)) : forall d a, (forall x, In x l -> (a <= g_model x < a + d)%nat) ->
    Permutation l (concat (map (fun i => own i l) (seq a d))).
  Proof.
    intros d. revert l. induction d as [|d IH]; intros l a H; cbn [seq map concat].
    - destruct l as [|x l]; [constructor|]. specialize (H x (or_introl eq_refl)). lia.
    - set (l' := filter (fun x => negb (g_model x =? a)) l).
      assert (P : Permutation l (own a l ++ l')).
      { unfold own, l'. clear. induction l as [|x l IH]; cbn; [constructor|]. destruct (g_model x =? a); cbn; [now constructor|]. eapply perm_trans; [apply perm_skip, IH|]. apply Permutation_middle. }
      eapply perm_trans; [exact P|]. apply Permutation_app_head.
      rewrite (map_ext_in (fun i => own i l) (fun i => own i l')).
      + apply IH. intros x Hx. unfold l' in Hx. apply filter_In in Hx as [Hx Hn]. specialize (H x Hx). apply negb_true_iff, Nat.eqb_neq in Hn. lia.
      + intros i Hi. apply in_seq in Hi. unfold own, l'. clear -Hi. induction l as [|x l IH]; cbn; [reflexivity|].
        destruct (Nat.eqb_spec (g_model x) a) as [E|E]; cbn.
        * destruct (Nat.eqb_spec (g_model x) i); [lia|exact IH].
        * destruct (g_model x =? i); [now rewrite IH|exact IH].
  Qed.
  Lemma sequential_all is : (forall i, In i is -> fails i = false) -> sequential msgs fails is = (concat (map msgs is), true).
  Proof. induction is as [|i t IH]; intros H; [reflexivity|]. cbn. rewrite H by now left. rewrite IH by (intros; apply H; now right). reflexivity. Qed.
End P.

(** C117: when [train] returns with success and the callback does not raise, every
    call the engine made for a model has reached the callback, each once and in
    its order, no other call was made, and none comes later; they are the calls
    of sequential mode in some order. *)
Theorem C117_every_report_delivered :
  forall (F : Type) (n cores : nat) (msgs : nat -> list (msg F)) (fails : nat -> bool) (raises : msg F -> bool) k s,
    labelled msgs -> (forall x, raises x = false) ->
    steps n cores fails raises k (start msgs) s -> main s = Returned true ->
    (forall i, (1 <= i <= n)%nat -> own i (shown s) = msgs i) /\
    Permutation (shown s) (fst (sequential msgs fails (seq 1 n))) /\ snd (sequential msgs fails (seq 1 n)) = true /\
    (forall s', step n cores fails raises s s' -> False).
Proof.
  intros F n cores msgs fails raises k s L NR St Hm.
  pose proof (inv_reach n cores msgs fails raises L k s St) as I.
  destruct (i_join _ _ _ _ _ I (or_intror Hm)) as [W [[_ Q]|[Z _]]].
  2:{ exfalso. pose proof (i_ret _ _ _ _ _ I Hm). pose proof (died_never _ _ _ _ s I NR). destruct (lis s); auto. }
  assert (O : forall i, (1 <= i <= n)%nat -> own i (shown s) = msgs i).
  { intros i Hi. rewrite <- (i_sent _ _ _ _ _ I i Hi), Q. rewrite (i_todo _ _ _ _ _ I i Hi) by (rewrite W by exact Hi; reflexivity). cbn. now rewrite app_nil_r. }
  assert (NF : forall i, In i (seq 1 n) -> fails i = false).
  { intros i Hi. pose proof (returned_ok _ _ _ _ s true I Hm) as E. symmetry in E. rewrite forallb_forall in E. apply negb_true_iff. auto. }
  rewrite sequential_all by exact NF. cbn [fst snd]. split; [exact O|split; [|split; [reflexivity|]]].
  - eapply perm_trans; [apply (split_own (shown s) n 1)|].
    + intros x Hx. pose proof (i_lab _ _ _ _ _ I x (or_introl Hx)). lia.
    + rewrite (map_ext_in _ msgs); [apply Permutation_refl|]. intros i Hi. apply in_seq in Hi. apply O. lia.
  - apply (after_return n cores msgs fails raises s I Hm).
Qed.
Print Assumptions C117_every_report_delivered.

(** C117: at every moment, whatever fails or raises, the callback has been called
    with a beginning of each model's reports, in their order, and was not called
    again after it raised. *)
Theorem C117_order_at_any_time :
  forall (F : Type) (n cores : nat) (msgs : nat -> list (msg F)) (fails : nat -> bool) (raises : msg F -> bool) k s,
    labelled msgs -> steps n cores fails raises k (start msgs) s ->
    (forall i, (1 <= i <= n)%nat -> exists rest, msgs i = own i (shown s) ++ rest) /\
    (forall x, In x (shown s) -> (1 <= g_model x <= n)%nat) /\
    (forall l x r, shown s = l ++ x :: r -> raises x = true -> r = []).
Proof.
  intros F n cores msgs fails raises k s L St. pose proof (inv_reach n cores msgs fails raises L k s St) as I.
  split; [|split].
  - intros i Hi. eexists. symmetry. apply (i_sent _ _ _ _ _ I i Hi).
  - intros x Hx. apply (i_lab _ _ _ _ _ I). now left.
  - intros l x r E Rx. destruct (i_died _ _ _ _ _ I) as [_ D]. now apply (D l x r).
Qed.
Print Assumptions C117_order_at_any_time.

(** C117: [train] always returns: no execution goes on for ever, and one that
    cannot go on has returned; whether with success depends on the models alone,
    not on the callback, the cores or the order of events. *)
Theorem C117_train_returns :
  forall (F : Type) (n cores : nat) (msgs : nat -> list (msg F)) (fails : nat -> bool) (raises : msg F -> bool) k s,
    labelled msgs -> (1 <= cores)%nat -> steps n cores fails raises k (start msgs) s ->
    (k <= 2 * length (concat (map msgs (seq 1 n))) + 2 * n + 3)%nat /\
    ((forall s', ~ step n cores fails raises s s') ->
     main s = Returned (forallb (fun i => negb (fails i)) (seq 1 n))) /\
    (forall ok, main s = Returned ok -> ok = forallb (fun i => negb (fails i)) (seq 1 n)).
Proof.
  intros F n cores msgs fails raises k s L C St. pose proof (inv_reach n cores msgs fails raises L k s St) as I.
  assert (Rk : forall ok, main s = Returned ok -> ok = forallb (fun i => negb (fails i)) (seq 1 n)) by (intros ok; now apply returned_ok with (msgs := msgs) (raises := raises)).
  split; [|split; [|exact Rk]].
  - apply level_steps in St. unfold level in St at 2. cbn [start todo work queue main length mlev wlev] in St.
    assert (E : forall l, nsum (fun i => 2 * length (msgs i) + 2) l = (2 * length (concat (map msgs l)) + 2 * length l)%nat).
    { induction l as [|a l IH]; [reflexivity|]. cbn [nsum map concat length]. rewrite IH, app_length. lia. }
    rewrite E, seq_length in St. lia.
  - intros NS. destruct (main s) as [| |ok] eqn:Hm.
    + destruct (can_step n cores msgs fails raises s C I (or_introl Hm)) as [s' H]. now apply NS in H.
    + destruct (can_step n cores msgs fails raises s C I (or_intror Hm)) as [s' H]. now apply NS in H.
    + f_equal. now apply Rk.
Qed.
Print Assumptions C117_train_returns.

(** C117: with the reports of the engine, each model's last report, and only that
    one, says "completed"; it carries the model's final iteration and loss. *)
Theorem C117_completed_once_per_model :
  forall (S F : Type) (up : bool -> S -> S) (loss : S -> F) (below : F -> F -> bool) (over : F -> F)
    (cn : Z) (hold_h : bool) (delay_h : Z) (tick : nat -> nat -> bool) (st0 : nat -> S) (max_iter : Z)
    (n cores : nat) (fails : nat -> bool) (raises : msg F -> bool) k s,
    (0 < max_iter)%Z -> (forall x, raises x = false) ->
    let r i := rust_train up loss below cn hold_h delay_h (tick i) max_iter (st0 i) in
    steps n cores fails raises k (start (fun i => map (message over max_iter i) (rr_events (r i)))) s -> main s = Returned true ->
    forall i, (1 <= i <= n)%nat ->
    exists es e, own i (shown s) = es ++ [e] /\ g_completed e = true /\ (forall x, In x es -> g_completed x = false) /\
      g_model e = i /\ g_i e = rr_ci (r i) /\ rr_q (r i) = Some (g_q e) /\ g_mse e = over (g_q e) /\ g_max e = max_iter.
Proof.
  intros S F up loss below over cn hold_h delay_h tick st0 max_iter n cores fails raises k s Hmax NR r St Hm i Hi.
  assert (L : labelled (fun i => map (message over max_iter i) (rr_events (r i)))).
  { intros j x H. apply in_map_iff in H as [e [<- _]]. reflexivity. }
  destruct (C117_every_report_delivered _ _ _ _ _ _ _ _ L NR St Hm) as [O _]. rewrite (O i Hi).
  destruct (C61_completed_event_once_last S F up loss below cn hold_h delay_h (tick i) (st0 i) max_iter Hmax) as [es [e [E [Ec [En [Ei Eq]]]]]].
  fold (r i) in E, Ei, Eq. rewrite E, map_app. cbn [map].
  exists (map (message over max_iter i) es), (message over max_iter i e). repeat split; auto.
  intros x Hx. apply in_map_iff in Hx as [y [<- Hy]]. now apply En.
Qed.
Print Assumptions C117_completed_once_per_model.

(** Two models of two reports each. *)
Definition two (i : nat) : list (msg nat) := [mkMsg i 4 20%Z 9 3 false; mkMsg i 7 20%Z 6 2 true].
Lemma two_labelled : labelled two.
Proof. intros i x [<-|[<-|[]]]; reflexivity. Qed.
Lemma steps_left {F} n cores fails (raises : msg F -> bool) k s s' s'' :
  step n cores fails raises s s' -> steps n cores fails raises k s' s'' -> steps n cores fails raises (S k) s s''.
Proof.
  intros St H. induction H as [s'|k s' s1 s2 H IH St']; [eapply Go; [apply Stay|exact St]|]. eapply Go; [apply IH, St|exact St'].
Qed.
Ltac side := cbn; try reflexivity; try lia; try discriminate;
  try (let j := fresh in let H := fresh in intros j H; destruct j as [|[|[|j]]]; try reflexivity; lia).
Ltac go1 c := eapply steps_left; [eapply c; side|cbn [start work todo queue shown main lis app]].

(** C117: sequential mode shows every report up to and including those of the first
    model that raises, and nothing after it. *)
Theorem C117_sequential_failure : forall (F : Type) (msgs : nat -> list (msg F)) fails before i after,
  (forall j, In j before -> fails j = false) -> fails i = true ->
  sequential msgs fails (before ++ i :: after) = (concat (map msgs before) ++ msgs i, false).
Proof.
  intros F msgs fails before i after Hb Hi. induction before as [|a l IH]; cbn [app sequential map concat].
  - rewrite Hi. reflexivity.
  - rewrite (Hb a) by (left; reflexivity). rewrite IH by (intros j Hj; apply Hb; right; exact Hj). rewrite app_assoc. reflexivity.
Qed.
Print Assumptions C117_sequential_failure.

(** C117: a model whose reports were all made may never be seen to complete when
    another one raises, although sequential mode shows it. *)
Theorem C117_failing_batch_refuted :
  exists (msgs : nat -> list (msg nat)) (fails : nat -> bool) k s,
    labelled msgs /\ steps 2 2 fails (fun _ => false) k (start msgs) s /\ main s = Returned false /\
    work s 1 = Finished /\ shown s = [] /\ msgs 1 = two 1 /\ fst (sequential msgs fails [1; 2]) = two 1.
Proof.
  exists (fun i => if i =? 1 then two 1 else []), (fun i => i =? 2), 7. eexists. split; [|split].
  - intros i x H. destruct (Nat.eqb_spec i 1) as [->|]; [now apply two_labelled|destruct H].
  - go1 (Start 2 2 (fun i => i =? 2) (fun _ : msg nat => false) 1).
    go1 (Start 2 2 (fun i => i =? 2) (fun _ : msg nat => false) 2).
    go1 (End 2 2 (fun i => i =? 2) (fun _ : msg nat => false) 2).
    go1 (Send 2 2 (fun i => i =? 2) (fun _ : msg nat => false) 1).
    go1 (Send 2 2 (fun i => i =? 2) (fun _ : msg nat => false) 1).
    go1 (End 2 2 (fun i => i =? 2) (fun _ : msg nat => false) 1).
    go1 (Raise 2 2 (fun i => i =? 2) (fun _ : msg nat => false) 2).
    apply Stay.
  - repeat split; reflexivity.
Qed.
Print Assumptions C117_failing_batch_refuted.

(** C117: if the callback raises once, the reports after that are lost although
    [train] succeeds: here no model is seen to complete.  In sequential mode the
    exception is dropped and every report is shown. *)
Theorem C117_callback_exception_refuted :
  exists (raises : msg nat -> bool) k s,
    (forall x, g_completed x = true -> raises x = false) /\
    steps 2 1 (fun _ => false) raises k (start two) s /\ main s = Returned true /\ (forall x, In x (shown s) -> g_completed x = false) /\
    sequential two (fun _ => false) [1; 2] = (two 1 ++ two 2, true).
Proof.
  exists (fun x => negb (g_completed x)), 11. eexists. split; [|split].
  - intros x H. now rewrite H.
  - go1 (Start 2 1 (fun _ => false) (fun x : msg nat => negb (g_completed x)) 1).
    go1 (Send 2 1 (fun _ => false) (fun x : msg nat => negb (g_completed x)) 1).
    go1 (Show 2 1 (fun _ => false) (fun x : msg nat => negb (g_completed x))).
    go1 (Send 2 1 (fun _ => false) (fun x : msg nat => negb (g_completed x)) 1).
    go1 (End 2 1 (fun _ => false) (fun x : msg nat => negb (g_completed x)) 1).
    go1 (Start 2 1 (fun _ => false) (fun x : msg nat => negb (g_completed x)) 2).
    go1 (Send 2 1 (fun _ => false) (fun x : msg nat => negb (g_completed x)) 2).
    go1 (Send 2 1 (fun _ => false) (fun x : msg nat => negb (g_completed x)) 2).
    go1 (End 2 1 (fun _ => false) (fun x : msg nat => negb (g_completed x)) 2).
    go1 (Post 2 1 (fun _ => false) (fun x : msg nat => negb (g_completed x))).
    go1 (Join 2 1 (fun _ => false) (fun x : msg nat => negb (g_completed x))).
    apply Stay.
  - split; [reflexivity|split; [|reflexivity]]. cbn. intros x [<-|[]]. reflexivity.
Qed.
Print Assumptions C117_callback_exception_refuted.

(** C117: a callback that cannot be pickled (a lambda, a local function) makes the
    same batch fail in parallel mode without a single report. *)
Theorem C117_unpicklable_callback_refuted :
  forall (F : Type) (n cores : nat) (msgs : nat -> list (msg F)) (fails : nat -> bool) (raises : msg F -> bool) sh ok,
    labelled msgs -> (1 <= n)%nat -> (1 <= cores)%nat -> (forall i, fails i = false) -> (forall x, raises x = false) ->
    (train_parallel n cores msgs fails raises true sh ok -> ok = true /\ Permutation sh (fst (sequential msgs fails (seq 1 n)))) /\
    (train_parallel n cores msgs fails raises false sh ok -> ok = false /\ sh = []) /\
    snd (sequential msgs fails (seq 1 n)) = true.
Proof.
  intros F n cores msgs fails raises sh ok L N C NF NR. split; [|split].
  - intros [k [s [St [Hm <-]]]].
    destruct (C117_train_returns F n cores msgs fails raises k s L C St) as [_ [_ E]]. specialize (E ok Hm).
    assert (ok = true) as ->. { rewrite E. apply forallb_forall. intros i _. now rewrite NF. }
    split; [reflexivity|]. now apply (C117_every_report_delivered F n cores msgs fails raises k s L NR St Hm).
  - unfold train_parallel. assert (E : (n =? 0) = false) by (apply Nat.eqb_neq; lia). rewrite E. cbn. tauto.
  - rewrite sequential_all by auto. reflexivity.
Qed.
Print Assumptions C117_unpicklable_callback_refuted.

(** Two models in one process: the reports in the order of the models; in two
    processes they may be mixed. *)
Example C117_instance :
  exists k s, steps 2 2 (fun _ => false) (fun _ => false) k (start two) s /\ main s = Returned true /\
    shown s = [mkMsg 2 4 20%Z 9 3 false; mkMsg 1 4 20%Z 9 3 false; mkMsg 1 7 20%Z 6 2 true; mkMsg 2 7 20%Z 6 2 true].
Proof.
  exists 15. eexists. split.
  - go1 (Start 2 2 (fun _ => false) (fun _ : msg nat => false) 1).
    go1 (Start 2 2 (fun _ => false) (fun _ : msg nat => false) 2).
    go1 (Send 2 2 (fun _ => false) (fun _ : msg nat => false) 2).
    go1 (Send 2 2 (fun _ => false) (fun _ : msg nat => false) 1).
    go1 (Show 2 2 (fun _ => false) (fun _ : msg nat => false)).
    go1 (Send 2 2 (fun _ => false) (fun _ : msg nat => false) 1).
    go1 (Send 2 2 (fun _ => false) (fun _ : msg nat => false) 2).
    go1 (End 2 2 (fun _ => false) (fun _ : msg nat => false) 2).
    go1 (End 2 2 (fun _ => false) (fun _ : msg nat => false) 1).
    go1 (Post 2 2 (fun _ => false) (fun _ : msg nat => false)).
    go1 (Show 2 2 (fun _ => false) (fun _ : msg nat => false)).
    go1 (Show 2 2 (fun _ => false) (fun _ : msg nat => false)).
    go1 (Show 2 2 (fun _ => false) (fun _ : msg nat => false)).
    go1 (Stop 2 2 (fun _ => false) (fun _ : msg nat => false)).
    go1 (Join 2 2 (fun _ => false) (fun _ : msg nat => false)).
    apply Stay.
  - split; reflexivity.
Qed.

Lemma xpr_lab : labelled two.
Proof. intros i x [<- | [<- | []]]; reflexivity. Qed.
Example C117_every_report_delivered_example : exists k s, steps 2 2 (fun _ => false) (fun _ => false) k (start two) s /\
  (forall i, (1 <= i <= 2)%nat -> own i (shown s) = two i).
Proof.
  destruct C117_instance as (k & s & H & M & _). exists k, s. split; [exact H |].
  exact (proj1 (C117_every_report_delivered nat 2 2 two (fun _ => false) (fun _ => false) k s xpr_lab ltac:(reflexivity) H M)).
Qed.
Example C117_order_at_any_time_example : forall k s, steps 2 2 (fun _ => false) (fun x => g_completed x) k (start two) s ->
  forall l x r, shown s = l ++ x :: r -> g_completed x = true -> r = [].
Proof. intros k s H. exact (proj2 (proj2 (C117_order_at_any_time nat 2 2 two (fun _ => false) (fun x => g_completed x) k s xpr_lab H))). Qed.
Example C117_train_returns_example : forall k s, steps 2 1 (fun i => i =? 2)%nat (fun _ => false) k (start two) s -> (k <= 15)%nat.
Proof. intros k s H. exact (proj1 (C117_train_returns nat 2 1 two (fun i => i =? 2)%nat (fun _ => false) k s xpr_lab ltac:(lia) H)). Qed.
Example C117_sequential_failure_example :=
  C117_sequential_failure nat two (fun i => i =? 3)%nat [1; 2]%nat 3 [4]%nat ltac:(intros j [<- | [<- | []]]; reflexivity) eq_refl.
