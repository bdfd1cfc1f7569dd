(** Theorems C153: a batch object over several calls of train, and what its report
    says (esat/model/batch_sa.py 142-352). *)
From Coq Require Import List Bool ZArith Lia Permutation Reals Lra.
From Verif Require Import Fl Batch_Model Batch_Proofs Batch_Props BatchHist_Model.
Import ListNotations.
Local Open Scope Z_scope.

Section Props.
  Context {M X : Type}.
  Context (qr qt : M -> option fl).
  Context (fit : Z -> mats X -> mats X -> Z -> nat -> option M).
  Implicit Types (c : call X) (o : bobj M) (stream : nat -> Z).

  (** At least one model, and in parallel mode every worker finishes. *)
  Definition proper c : Prop := (1 <= c_n c)%nat /\ (c_parallel c = true -> forall i, (1 <= i <= c_n c)%nat -> In i (c_sched c)).
  (** What model [i] (from 0) of a call is trained from. *)
  Definition member stream c (pos i : nat) (x : M) : Prop :=
    exists h w, fit (stream (pos + i)%nat) h w (if c_parallel c then c_delay c else -1) (S i) = Some x /\
      if c_parallel c then seed_matrix (c_H c) (S i) h /\ seed_matrix (c_W c) (S i) w else h = c_H c /\ w = c_W c.
  Definition loss_of c : M -> option fl := if c_robust c then qr else qt.

  Lemma loop_results robust draw Hm Wm limit dur n : forall i results bq bm,
    (1 <= i)%nat ->
    exists ms, fst (seq_loop qr qt fit robust draw Hm Wm limit dur n i results bq bm) = results ++ map Some ms /\ (List.length ms <= n)%nat /\
      (forall j x, nth_error ms j = Some x -> fit (draw (i - 1 + j)%nat) Hm Wm (-1) (i + j)%nat = Some x /\ sel_q qr qt robust x <> None).
  Proof.
    induction n as [|n IH]; intros i results bq bm Hi; cbn [seq_loop].
    { exists []. cbn. rewrite app_nil_r. split; [reflexivity|]. split; [lia|]. intros [|j] x E; discriminate E. }
    assert (Stop : exists ms, results = results ++ map Some ms /\ (List.length ms <= S n)%nat /\
      (forall j x, nth_error ms j = Some x -> fit (draw (i - 1 + j)%nat) Hm Wm (-1) (i + j)%nat = Some x /\ sel_q qr qt robust x <> None)).
    { exists []. cbn. rewrite app_nil_r. split; [reflexivity|]. split; [lia|]. intros [|j] x E; discriminate E. }
    destruct (fit (draw (i - 1)%nat) Hm Wm (-1) i) as [m|] eqn:Ef; [|exact Stop].
    destruct (over_limit limit (dur i)); [exact Stop|]. destruct (sel_q qr qt robust m) as [q|] eqn:Eq; [|exact Stop]. clear Stop.
    assert (G : forall bq bm, exists ms, fst (seq_loop qr qt fit robust draw Hm Wm limit dur n (S i) (results ++ [Some m]) bq bm) = results ++ map Some ms /\ (List.length ms <= S n)%nat /\
      (forall j x, nth_error ms j = Some x -> fit (draw (i - 1 + j)%nat) Hm Wm (-1) (i + j)%nat = Some x /\ sel_q qr qt robust x <> None)).
    { intros bq' bm'. destruct (IH (S i) (results ++ [Some m]) bq' bm' ltac:(lia)) as (ms & E & L & N). exists (m :: ms). split; [|split; [cbn; lia|]].
      - rewrite E, <- app_assoc. reflexivity.
      - intros [|j] x; cbn [nth_error].
        + intros [= <-]. rewrite !Nat.add_0_r. split; [exact Ef|congruence].
        + intros Ex. destruct (N j x Ex) as [A B]. split; [|exact B]. replace (i - 1 + S j)%nat with (S i - 1 + j)%nat by lia.
          replace (i + S j)%nat with (S i + j)%nat by lia. exact A. }
    destruct (flt q bq); apply G.
  Qed.

  Lemma sel_loss c x : sel_q qr qt (c_robust c) x = loss_of c x.
  Proof. unfold sel_q, loss_of. destruct (c_robust c); reflexivity. Qed.
  Lemma all_some_len {A} (l : list (option A)) r : all_some l = Some r -> List.length r = List.length l.
  Proof. apply all_some_length. Qed.
  Lemma scan_range (qs : list fl) : forall i bq bm, (-1 <= bm < Z.of_nat i)%Z -> (1 <= i)%nat -> bm <> 0 ->
    let b := scan qs i bq bm in (-1 <= b < Z.of_nat (i + List.length qs))%Z /\ b <> 0.
  Proof.
    induction qs as [|q qs IH]; intros i bq bm H Hi Hn; cbn [scan]; cbv zeta; [cbn; split; [lia|exact Hn]|].
    change (List.length (q :: qs)) with (S (List.length qs)).
    destruct (flt q bq); [specialize (IH (S i) q (Z.of_nat i) ltac:(lia) ltac:(lia) ltac:(lia))|specialize (IH (S i) bq bm ltac:(lia) ltac:(lia) Hn)];
      cbv zeta in IH; split; try lia; tauto.
  Qed.

  (** One call: what it leaves when it succeeds and when it does not. *)
  Lemma one_call stream c o : proper c ->
    let r := train qr qt fit stream c o in
    (fst r = true -> exists ms qs, List.length ms = c_n c /\ b_results (o_state (snd r)) = map Some ms /\ all_some (map (loss_of c) ms) = Some qs /\
       b_best (o_state (snd r)) = Some (scan qs 1 PInf (-1) - 1) /\ o_pos (snd r) = (o_pos o + c_n c)%nat /\
       forall i x, nth_error ms i = Some x -> member stream c (o_pos o) i x) /\
    (fst r = false -> b_best (o_state (snd r)) = b_best (o_state o) /\
       if c_parallel c then b_results (o_state (snd r)) = b_results (o_state o)
       else exists ms, b_results (o_state (snd r)) = map Some ms /\ (List.length ms <= c_n c)%nat /\
              forall i x, nth_error ms i = Some x -> member stream c (o_pos o) i x /\ loss_of c x <> None).
  Proof.
    intros [Hn Hs]. unfold train. cbv zeta. cbn [fst snd o_state o_pos]. set (draw := fun i => stream (o_pos o + i)%nat).
    assert (Sel : forall ms, map (sel_q qr qt (c_robust c)) ms = map (loss_of c) ms) by (intros ms; apply map_ext; intros x; apply sel_loss).
    destruct (c_parallel c) eqn:Ep.
    - rewrite par_train_spec by (apply Hs; reflexivity).
      destruct (all_some (map (trained fit draw (c_H c) (c_W c) (c_delay c)) (seq 1 (c_n c)))) as [ms|] eqn:Em;
        [|cbn [fst snd]; split; [discriminate|intros _; split; reflexivity]].
      rewrite Sel. destruct (all_some (map (loss_of c) ms)) as [qs|] eqn:Eq; [|cbn [fst snd]; split; [discriminate|intros _; split; reflexivity]].
      assert (Lm : List.length ms = c_n c) by (apply all_some_length in Em; rewrite map_length, seq_length in Em; exact Em).
      assert (Lq : List.length qs = c_n c) by (apply all_some_length in Eq; rewrite map_length in Eq; congruence).
      rewrite finish_par by (intros ->; cbn in Lm; lia).
      assert (P : py_index_ok (map Some ms ++ [None]) (scan qs 1 PInf (-1) - 1) = true).
      { destruct (scan_range qs 1 PInf (-1) ltac:(lia) ltac:(lia) ltac:(lia)) as [B1 B2]. unfold py_index_ok. rewrite app_length, map_length. cbn [List.length].
        apply andb_true_intro. split; [apply Z.leb_le|apply Z.ltb_lt]; lia. }
      rewrite P, andb_false_r. cbn [fst snd]. split; [intros _|discriminate]. exists ms, qs. repeat split; try assumption.
      intros i x Ex. assert (Hi : (i < c_n c)%nat) by (rewrite <- Lm; apply nth_error_Some; congruence).
      pose proof (all_some_nth _ _ i Em) as Q. rewrite (map_nth_error (trained fit draw (c_H c) (c_W c) (c_delay c)) i (seq 1 (c_n c)) (d := S i)) in Q
        by (rewrite nth_seq by exact Hi; reflexivity).
      rewrite Ex in Q. injection Q as Q. unfold trained in Q. unfold member. rewrite Ep. replace (S i - 1)%nat with i in Q by lia.
      destruct (par_sel (c_H c) (S i)) as [h|] eqn:Eh; [|discriminate]. destruct (par_sel (c_W c) (S i)) as [w|] eqn:Ew; [|discriminate].
      exists h, w. split; [exact Q|].
      assert (Hsel : forall mm (h : mats X), par_sel mm (S i) = Some h -> seed_matrix mm (S i) h).
      { intros mm h0. destruct mm as [|y|l]; cbn; try (intros [= <-]; constructor). replace (i - 0)%nat with i by lia.
        destruct (nth_error l i) eqn:E; [|discriminate]. intros [= <-]. constructor. exact E. }
      split; apply Hsel; assumption.
    - destruct (seq_cases qr qt fit (c_robust c) draw (c_H c) (c_W c) (c_limit c) (c_dur c) (c_n c)) as [(ms & qs & H1 & H2 & H3)|Bad].
      + rewrite (seq_train_ok qr qt fit _ _ _ _ _ _ _ _ _ ms qs _ H1 H2 H3). rewrite Sel in H2.
        assert (Lm : List.length ms = c_n c) by (apply all_some_length in H1; rewrite map_length, seq_length in H1; exact H1).
        assert (Mem : forall i x, nth_error ms i = Some x -> member stream c (o_pos o) i x).
        { intros i x Ex. assert (Hi : (i < c_n c)%nat) by (rewrite <- Lm; apply nth_error_Some; congruence).
          pose proof (all_some_nth _ _ i H1) as Q. rewrite (map_nth_error _ i (seq 1 (c_n c)) (d := S i)) in Q by (rewrite nth_seq by exact Hi; reflexivity).
          rewrite Ex in Q. injection Q as Q. unfold member. rewrite Ep. replace (i - 0)%nat with i in Q by lia. eauto. }
        rewrite finish_seq by (intros ->; cbn in Lm; lia).
        destruct (c_verbose c && negb (py_index_ok (map Some ms) (scan qs 1 PInf (-1) - 1))) eqn:Ev; cbn [fst snd b_results b_best].
        * split; [discriminate|]. intros _. split; [reflexivity|]. exists ms. split; [reflexivity|]. split; [lia|]. intros i x Ex. split; [apply Mem, Ex|].
          pose proof (all_some_nth _ _ i H2) as Q. rewrite (map_nth_error (loss_of c) i ms Ex) in Q. destruct (nth_error qs i); congruence.
        * split; [intros _|discriminate]. exists ms, qs. repeat split; assumption.
      + pose proof (seq_train_bad qr qt fit (c_robust c) (c_verbose c) draw (c_H c) (c_W c) (c_delay c) (c_limit c) (c_dur c) (c_n c) (o_state o) Bad) as F.
        rewrite F. split; [discriminate|]. intros _. unfold seq_train in *.
        pose proof (loop_results (c_robust c) draw (c_H c) (c_W c) (c_limit c) (c_dur c) (c_n c) 1 [] PInf (-1) ltac:(lia)) as (ms & E & L & N).
        destruct (seq_loop_fail qr qt fit (c_robust c) draw (c_H c) (c_W c) (c_limit c) (c_dur c) (c_n c) 1 [] PInf (-1) Bad) as [r Er].
        rewrite Er in *. cbn [fst snd b_results b_best] in *. split; [reflexivity|]. exists ms. split; [exact E|]. split; [exact L|].
        intros i x Ex. destruct (N i x Ex) as [A B]. rewrite sel_loss in B. split; [|exact B]. unfold member. rewrite Ep. cbn in A. eauto.
  Qed.

  Lemma train_all_app stream l1 l2 o : train_all qr qt fit stream (l1 ++ l2) o = train_all qr qt fit stream l2 (train_all qr qt fit stream l1 o).
  Proof. revert o. induction l1 as [|c l IH]; intros o; [reflexivity|]. apply IH. Qed.

  (** C153: over any history of calls, best_model is that of the latest call that
      succeeded, and results those of the latest call that succeeded or was
      sequential. *)
  Theorem C153_attributes : forall stream o (cs : list (call X)), Forall proper cs ->
    let after l := o_state (train_all qr qt fit stream l o) in
    let ok pre c := fst (train qr qt fit stream c (train_all qr qt fit stream pre o)) = true in
    ((forall pre c post, cs = pre ++ c :: post -> ~ ok pre c) -> b_best (after cs) = b_best (o_state o)) /\
    (forall pre c post, cs = pre ++ c :: post -> (forall p d q, post = p ++ d :: q -> ~ ok (pre ++ c :: p) d) ->
       b_best (after cs) = b_best (after (pre ++ [c]))) /\
    (forall pre c post, cs = pre ++ c :: post -> (forall p d q, post = p ++ d :: q -> ~ ok (pre ++ c :: p) d /\ c_parallel d = true) ->
       b_results (after cs) = b_results (after (pre ++ [c]))).
  Proof.
    intros stream o cs P after ok.
    assert (G : forall l o1, Forall proper l ->
      ((forall p d q, l = p ++ d :: q -> fst (train qr qt fit stream d (train_all qr qt fit stream p o1)) <> true) ->
        b_best (o_state (train_all qr qt fit stream l o1)) = b_best (o_state o1)) /\
      ((forall p d q, l = p ++ d :: q -> fst (train qr qt fit stream d (train_all qr qt fit stream p o1)) <> true /\ c_parallel d = true) ->
        b_results (o_state (train_all qr qt fit stream l o1)) = b_results (o_state o1))).
    { induction l as [|d l IH]; intros o1 F; [split; reflexivity|]. inversion F as [|? ? F1 F2]; subst. cbn [train_all].
      destruct (IH (snd (train qr qt fit stream d o1)) F2) as [I1 I2]. destruct (one_call stream d o1 F1) as [_ O].
      split; intros H.
      - rewrite I1; [|intros p e q E; apply (H (d :: p) e q); rewrite E; reflexivity].
        apply O. specialize (H [] d l eq_refl). cbn [train_all] in H. destruct (fst _); congruence.
      - rewrite I2; [|intros p e q E; apply (H (d :: p) e q); rewrite E; reflexivity].
        destruct (H [] d l eq_refl) as [H1 H2]. cbn [train_all] in H1. rewrite H2 in O. apply O. destruct (fst _); congruence. }
    split; [|split].
    - intros H. apply (proj1 (G cs o P)). intros p d q E. apply (H p d q E).
    - intros pre c post E H. unfold after. rewrite E. replace (pre ++ c :: post) with ((pre ++ [c]) ++ post) by (rewrite <- app_assoc; reflexivity).
      rewrite train_all_app. apply (proj1 (G post _ ltac:(rewrite E in P; apply Forall_app in P as [_ P]; inversion P; assumption))).
      intros p d q E2 K. apply (H p d q E2). unfold ok. replace (pre ++ c :: p) with ((pre ++ [c]) ++ p) by (rewrite <- app_assoc; reflexivity). rewrite train_all_app. exact K.
    - intros pre c post E H. unfold after. rewrite E. replace (pre ++ c :: post) with ((pre ++ [c]) ++ post) by (rewrite <- app_assoc; reflexivity).
      rewrite train_all_app. apply (proj2 (G post _ ltac:(rewrite E in P; apply Forall_app in P as [_ P]; inversion P; assumption))).
      intros p d q E2. destruct (H p d q E2) as [H1 H2]. split; [|exact H2]. intros K. apply H1. unfold ok.
      replace (pre ++ c :: p) with ((pre ++ [c]) ++ p) by (rewrite <- app_assoc; reflexivity). rewrite train_all_app. exact K.
  Qed.

  (** C153: the generator is never started again, so calling train again trains the
      models of the following seeds, as if the batch had been larger. *)
  Theorem C153_seeds_continue : forall stream o (cs : list (call X)) c, Forall proper (cs ++ [c]) ->
    (forall pre d post, cs ++ [c] = pre ++ d :: post -> fst (train qr qt fit stream d (train_all qr qt fit stream pre o)) = true) ->
    let rs := b_results (o_state (train_all qr qt fit stream (cs ++ [c]) o)) in
    let before := (o_pos o + fold_right Nat.add 0%nat (map c_n cs))%nat in
    List.length rs = c_n c /\
    forall i, (i < c_n c)%nat -> exists x, nth_error rs i = Some (Some x) /\ member stream c before i x.
  Proof.
    intros stream o cs. revert o. induction cs as [|d cs IH]; intros o c P H rs before.
    - subst rs before. cbn [app train_all map fold_right]. rewrite Nat.add_0_r. inversion P as [|? ? Pc _]; subst.
      destruct (proj1 (one_call stream c o Pc) (H [] c [] eq_refl)) as (ms & qs & Lm & Er & _ & _ & _ & Mem).
      rewrite Er, map_length. split; [exact Lm|]. intros i Hi.
      destruct (nth_error ms i) as [x|] eqn:Ex; [|apply nth_error_None in Ex; lia]. exists x. split; [apply map_nth_error, Ex|apply Mem, Ex].
    - inversion P as [|? ? Pd Pr]; subst.
      destruct (proj1 (one_call stream d o Pd) (H [] d (cs ++ [c]) eq_refl)) as (ms & qs & _ & _ & _ & _ & Po & _).
      specialize (IH (snd (train qr qt fit stream d o)) c Pr). cbv zeta in IH. subst rs before. cbn [app train_all map fold_right].
      rewrite Po, <- Nat.add_assoc in IH. apply IH. intros pre e post E. apply (H (d :: pre) e post). cbn [app]. rewrite E. reflexivity.
  Qed.

  (** ** The report *)
  Lemma lines_ok size (paired : forall x, qr x = None <-> qt x = None) ms : (forall x, In x ms -> qt x <> None) -> forall i,
    exists ls, model_lines qr qt size i (map Some ms) = inr ls /\ List.length ls = List.length ms /\
      forall j x, nth_error ms j = Some x -> exists a b, qt x = Some a /\ qr x = Some b /\
        nth_error ls j = Some (mkLine (Z.of_nat (i + j) + 1) x a (fdiv a (Fin size)) b (fdiv b (Fin size))).
  Proof.
    induction ms as [|y ms IH]; intros H i; cbn [map model_lines].
    { exists []. split; [reflexivity|]. split; [reflexivity|]. intros [|j] x E; discriminate E. }
    destruct (qt y) as [a|] eqn:Ea; [|destruct (H y (or_introl eq_refl) Ea)].
    destruct (qr y) as [b|] eqn:Eb; [|apply paired in Eb; congruence].
    destruct (IH (fun x Hx => H x (or_intror Hx)) (S i)) as (ls & E & L & N). unfold line_of. rewrite Ea, Eb, E.
    exists (mkLine (Z.of_nat i + 1) y a (fdiv a (Fin size)) b (fdiv b (Fin size)) :: ls). split; [reflexivity|]. split; [cbn; congruence|].
    intros [|j] x; cbn [nth_error].
    - intros [= <-]. exists a, b. rewrite Nat.add_0_r. auto.
    - intros Ex. destruct (N j x Ex) as (a' & b' & A & B & C). exists a', b'. rewrite C. replace (S i + j)%nat with (i + S j)%nat by lia. auto.
  Qed.

  (** Line [l] shows model number [number] with its losses and these per data cell. *)
  Definition shows size (number : Z) (x : M) (l : line M) : Prop :=
    l_number l = number /\ l_model l = x /\ qt x = Some (l_qtrue l) /\ qr x = Some (l_qrobust l) /\
    (forall a, l_qtrue l = Fin a -> l_msetrue l = Fin (a / size)%R) /\ (forall a, l_qrobust l = Fin a -> l_mserobust l = Fin (a / size)%R).
  Lemma mk_shows size number x a b : (0 < size)%R -> qt x = Some a -> qr x = Some b ->
    shows size number x (mkLine number x a (fdiv a (Fin size)) b (fdiv b (Fin size))).
  Proof.
    intros Hz A B. repeat split; try assumption; cbn; intros y ->; cbn; (destruct (Req_EM_T size 0) as [E|_]; [lra|reflexivity]).
  Qed.

  (** C153: after a successful call, whatever came before, the report has one line
      per model, in order and numbered from 1, and ends with the line of the first
      model with the smallest selected loss, if any loss is below infinity; otherwise
      with the last but one model as number -1, or IndexError if there is only one. *)
  Theorem C153_report_after_success : forall stream o c size, proper c -> (0 < size)%R -> (forall x, qr x = None <-> qt x = None) ->
    fst (train qr qt fit stream c o) = true ->
    let s := o_state (snd (train qr qt fit stream c o)) in
    exists ms qs, List.length ms = c_n c /\ b_results s = map Some ms /\ losses_of (loss_of c) (b_results s) qs /\
      ((exists k q x ls l, nth_error qs k = Some q /\ ~ unusable q /\ (forall j q', nth_error qs j = Some q' -> flt q' q = false) /\
          (forall j q', (j < k)%nat -> nth_error qs j = Some q' -> q' = NaN \/ flt q q' = true) /\
          details qr qt size s = inr (ls, Some l) /\ nth_error ms k = Some x /\ nth_error ls k = Some l /\ shows size (Z.of_nat k + 1) x l /\
          List.length ls = c_n c /\ forall j y, nth_error ms j = Some y -> exists l', nth_error ls j = Some l' /\ shows size (Z.of_nat j + 1) y l') \/
       ((forall j q, nth_error qs j = Some q -> unusable q) /\
        (c_n c = 1%nat -> details qr qt size s = inl IndexErr) /\
        ((2 <= c_n c)%nat -> exists ls l x, details qr qt size s = inr (ls, Some l) /\ nth_error ms (c_n c - 2) = Some x /\ shows size (-1) x l))).
  Proof.
    intros stream o c size P Hz Pa Ok s. destruct (proj1 (one_call stream c o P) Ok) as (ms & qs & Lm & Er & Eq & Eb & _ & _). fold s in Er, Eb.
    exists ms, qs. split; [exact Lm|]. split; [exact Er|]. split; [rewrite Er; apply losses_of_all_some, Eq|].
    assert (Lq : List.length qs = c_n c) by (apply all_some_length in Eq; rewrite map_length in Eq; congruence).
    assert (D : forall x, In x ms -> qt x <> None).
    { intros x Hx. apply In_nth_error in Hx as [i Hi]. pose proof (all_some_nth _ _ i Eq) as Q. rewrite (map_nth_error (loss_of c) i ms Hi) in Q.
      unfold loss_of in Q. destruct (c_robust c); [|destruct (nth_error qs i); congruence]. intros N. apply Pa in N. rewrite N in Q. destruct (nth_error qs i); congruence. }
    destruct (lines_ok size Pa ms D 0) as (ls & El & Ll & Nl).
    assert (Ne : exists y ys, map (@Some M) ms = y :: ys).
    { destruct ms as [|y ys]; [cbn in Lm; destruct P; lia|]. eexists _, _. reflexivity. }
    assert (De : details qr qt size s = match py_get (map Some ms) (scan qs 1 PInf (-1) - 1) with None => inl IndexErr | Some None => inl AttrErr
        | Some (Some x) => match line_of qr qt size (scan qs 1 PInf (-1) - 1 + 1) x with inl e => inl e | inr l => inr (ls, Some l) end end).
    { unfold details. rewrite Er, Eb. destruct Ne as (y & ys & Ey). rewrite Ey in *. rewrite El. reflexivity. }
    assert (Ln : forall j y, nth_error ms j = Some y -> exists l', nth_error ls j = Some l' /\ shows size (Z.of_nat j + 1) y l').
    { intros j y Ey. destruct (Nl j y Ey) as (a & b & A & B & C). eexists. split; [exact C|]. apply mk_shows; assumption. }
    destruct (scan_best qs) as [(k & q & Ek & Nk & U & Min & First)|[E2 U]].
    - left. assert (Hk : (k < c_n c)%nat) by (rewrite <- Lq; apply nth_error_Some; congruence).
      destruct (nth_error ms k) as [x|] eqn:Ex; [|apply nth_error_None in Ex; lia].
      destruct (Nl k x Ex) as (a & b & A & B & C). exists k, q, x, ls. eexists. split; [exact Nk|]. split; [exact U|]. split; [exact Min|]. split; [exact First|].
      split; [|split; [exact Ex|split; [exact C|split; [apply mk_shows; assumption|split; [congruence|exact Ln]]]]].
      rewrite De, Ek. unfold py_get. destruct (Z.leb_spec 0 (Z.of_nat k)); [|lia]. rewrite Nat2Z.id, (map_nth_error Some k ms Ex).
      unfold line_of. rewrite A, B. reflexivity.
    - right. split; [exact U|]. rewrite De, E2. unfold py_get. change (0 <=? -2)%Z with false. cbv iota. rewrite map_length, Lm. split; intros Hc.
      + rewrite Hc. reflexivity.
      + destruct (Z.leb_spec (- Z.of_nat (c_n c)) (-2)); [|lia]. replace (Z.to_nat (Z.of_nat (c_n c) + -2)) with (c_n c - 2)%nat by lia.
        destruct (nth_error ms (c_n c - 2)) as [x|] eqn:Ex; [|apply nth_error_None in Ex; lia]. rewrite (map_nth_error Some _ ms Ex).
        destruct (Nl _ x Ex) as (a & b & A & B & C). unfold line_of. rewrite A, B. exists ls. eexists. exists x. split; [reflexivity|]. split; [reflexivity|]. apply mk_shows; assumption.
  Qed.

  (** C153: after a sequential call that fails (an error or the time limit) the report
      raises TypeError if no call ever succeeded, and otherwise goes by the number of
      the earlier best model in the new, shorter list. *)
  Theorem C153_report_after_failure : forall stream o c size, proper c -> (0 < size)%R -> (forall x, qr x = None <-> qt x = None) ->
    c_parallel c = false -> fst (train qr qt fit stream c o) = false ->
    let s := o_state (snd (train qr qt fit stream c o)) in
    exists ms, b_results s = map Some ms /\ (List.length ms <= c_n c)%nat /\ (forall i x, nth_error ms i = Some x -> member stream c (o_pos o) i x) /\
      (ms = [] -> details qr qt size s = inr ([], None)) /\
      (ms <> [] ->
        (b_best (o_state o) = None -> details qr qt size s = inl TypeErr) /\
        (forall b, b_best (o_state o) = Some b -> (Z.of_nat (List.length ms) <= b)%Z -> details qr qt size s = inl IndexErr) /\
        (forall k x, b_best (o_state o) = Some (Z.of_nat k) -> nth_error ms k = Some x ->
           exists ls l, details qr qt size s = inr (ls, Some l) /\ shows size (Z.of_nat k + 1) x l)).
  Proof.
    intros stream o c size P Hz Pa Sq Bad s. destruct (proj2 (one_call stream c o P) Bad) as [Eb R0]. rewrite Sq in R0.
    destruct R0 as (ms & Er & Lm & Mem). fold s in Eb, Er. exists ms. split; [exact Er|]. split; [exact Lm|]. split; [intros i x Ex; apply Mem, Ex|].
    split; [intros ->; unfold details; rewrite Er; reflexivity|]. intros Ne.
    assert (D : forall x, In x ms -> qt x <> None).
    { intros x Hx. apply In_nth_error in Hx as [i Hi]. destruct (Mem i x Hi) as [_ Q]. unfold loss_of in Q. destruct (c_robust c); [|exact Q].
      intros N. apply Q. apply Pa, N. }
    destruct (lines_ok size Pa ms D 0) as (ls & El & Ll & Nl).
    assert (De : details qr qt size s = match b_best (o_state o) with None => inl TypeErr | Some b => match py_get (map Some ms) b with None => inl IndexErr | Some None => inl AttrErr
        | Some (Some x) => match line_of qr qt size (b + 1) x with inl e => inl e | inr l => inr (ls, Some l) end end end).
    { unfold details. rewrite Er, Eb. destruct ms as [|y ys]; [contradiction|]. cbn [map] in *. rewrite El. reflexivity. }
    rewrite De. split; [intros ->; reflexivity|]. split.
    - intros b -> Hb. unfold py_get. destruct (Z.leb_spec 0 b); [|lia]. destruct (nth_error (map Some ms) (Z.to_nat b)) eqn:E; [|reflexivity].
      assert (Z.to_nat b < List.length (map Some ms))%nat by (apply nth_error_Some; congruence). rewrite map_length in *. lia.
    - intros k x -> Ex. unfold py_get. destruct (Z.leb_spec 0 (Z.of_nat k)); [|lia]. rewrite Nat2Z.id, (map_nth_error Some k ms Ex).
      destruct (Nl k x Ex) as (a & b & A & B & _). unfold line_of. rewrite A, B. exists ls. eexists. split; [reflexivity|]. apply mk_shows; assumption.
  Qed.
End Props.
Print Assumptions C153_attributes.
Print Assumptions C153_seeds_continue.
Print Assumptions C153_report_after_success.
Print Assumptions C153_report_after_failure.

(** Models are seeds here; the loss of a model is its seed, and negative seeds make
    training fail. *)
Definition xq (x : Z) : option fl := Some (Fin (IZR x)).
Definition xfit (s : Z) (_ _ : mats unit) (_ : Z) (_ : nat) : option Z := if (s <? 0)%Z then None else Some s.
Definition xcall (par : bool) (n : nat) (sched : list nat) : call unit :=
  mkCall par true false n MNone MNone 10 None sched (fun _ => 1) n.
Definition xstream (i : nat) : Z := nth i [5; 3; 8; 2; 7; -1; 4] 9.
Lemma xflt a b : flt (Fin (IZR a)) (Fin (IZR b)) = (a <? b)%Z.
Proof.
  unfold flt, Rltb. destruct (Rlt_dec (IZR a) (IZR b)) as [L|L]; destruct (Z.ltb_spec a b) as [K|K]; try reflexivity.
  - apply lt_IZR in L. lia.
  - apply IZR_lt in K. contradiction.
Qed.

Lemma xinf a : flt (Fin a) PInf = true.
Proof. reflexivity. Qed.
Ltac xrun := do 5 (cbv -[flt IZR]; rewrite ?xflt, ?xinf); reflexivity.

Definition x1 := train xq xq xfit xstream (xcall false 3 []) new_object.
Lemma x1_val : x1 = (true, mkObj 3 (mkB [Some 5; Some 3; Some 8] (Some 1))).
Proof.
  unfold x1, train. xrun.
Qed.
Definition x2 := train xq xq xfit xstream (xcall false 3 []) (snd x1).
Lemma x2_val : x2 = (false, mkObj 6 (mkB [Some 2; Some 7] (Some 1))).
Proof.
  unfold x2. rewrite x1_val. unfold train. xrun.
Qed.

(** Claimed: the report names the best of the models it lists.  After a successful
    call and a sequential one that fails at its third model, it names the second
    model (loss 7) although the first has loss 2. *)
Theorem C153_names_best_refuted :
  ~ (forall stream (cs : list (call unit)) size, Forall proper cs -> (0 < size)%R ->
       forall ls l, details xq xq size (o_state (train_all xq xq xfit stream cs new_object)) = inr (ls, Some l) ->
       forall l', In l' ls -> flt (l_qrobust l') (l_qrobust l) = false).
Proof.
  intros H. assert (P : Forall proper [xcall false 3 []; xcall false 3 []]).
  { repeat constructor; cbn; try lia; discriminate. }
  specialize (H xstream _ 4%R P ltac:(lra)). cbn [train_all] in H. fold x1 in H. fold x2 in H. rewrite x2_val in H.
  specialize (H _ _ eq_refl _ (or_introl eq_refl)). cbn [l_qrobust] in H. rewrite xflt in H. discriminate H.
Qed.
Print Assumptions C153_names_best_refuted.

(** Claimed: once a call has succeeded the report can be made.  A later sequential call
    that fails at its second model leaves an index outside the list: IndexError. *)
Theorem C153_report_possible_refuted :
  ~ (forall stream c d size, proper c -> proper d -> (0 < size)%R -> fst (train xq xq xfit stream c new_object) = true ->
       exists r, details xq xq size (o_state (train_all xq xq xfit stream [c; d] new_object)) = inr r).
Proof.
  intros H. set (st := fun i => nth i [5; 3; 8; 2; -1] 9).
  assert (P : proper (xcall false 3 [])) by (split; cbn; [lia|discriminate]).
  assert (A : train xq xq xfit st (xcall false 3 []) new_object = (true, mkObj 3 (mkB [Some 5; Some 3; Some 8] (Some 1)))).
  { unfold train. xrun. }
  assert (B : train xq xq xfit st (xcall false 3 []) (mkObj 3 (mkB [Some 5; Some 3; Some 8] (Some 1))) = (false, mkObj 6 (mkB [Some 2] (Some 1)))).
  { unfold train. xrun. }
  destruct (H st _ _ 4%R P P ltac:(lra) ltac:(rewrite A; reflexivity)) as [r E]. cbn [train_all] in E. rewrite A in E. cbn [snd] in E. rewrite B in E.
  cbn in E. discriminate E.
Qed.
Print Assumptions C153_report_possible_refuted.

(** Two calls of two parallel models, finished in reverse order: the second call
    trains seeds three and four of the stream. *)
Example C153_instance :
  let cs := [xcall true 2 [2; 1]%nat] in let c := xcall true 2 [2; 1]%nat in
  Forall proper (cs ++ [c]) /\
  (forall pre d post, cs ++ [c] = pre ++ d :: post -> fst (train xq xq xfit xstream d (train_all xq xq xfit xstream pre new_object)) = true) /\
  b_results (o_state (train_all xq xq xfit xstream (cs ++ [c]) new_object)) = [Some 8; Some 2] /\
  b_best (o_state (train_all xq xq xfit xstream (cs ++ [c]) new_object)) = Some 1.
Proof.
  set (c := xcall true 2 [2; 1]%nat).
  assert (P : proper c) by (split; cbn; [lia|intros _ i Hi; lia]).
  assert (A : train xq xq xfit xstream c new_object = (true, mkObj 2 (mkB [Some 5; Some 3] (Some 1)))).
  { unfold train, c. xrun. }
  assert (B : train xq xq xfit xstream c (mkObj 2 (mkB [Some 5; Some 3] (Some 1))) = (true, mkObj 4 (mkB [Some 8; Some 2] (Some 1)))).
  { unfold train, c. xrun. }
  cbv zeta. cbn [app]. split; [exact (Forall_cons c P (Forall_cons c P (Forall_nil proper)))|]. split.
  - intros [|a [|b [|z pre]]] d post E; cbn in E; injection E; intros; subst; cbn [train_all].
    + rewrite A. reflexivity.
    + rewrite A. cbn [snd]. rewrite B. reflexivity.
    + discriminate.
    + discriminate.
  - cbn [train_all]. rewrite A. cbn [snd]. rewrite B. split; reflexivity.
Qed.

(** A failing call after a successful one: hypotheses of [C153_report_after_failure]. *)
Example C153_failure_instance :
  proper (xcall false 3 []) /\ (forall x, xq x = None <-> xq x = None) /\ fst x2 = false /\ b_best (o_state (snd x1)) = Some 1 /\ b_results (o_state (snd x2)) = [Some 2; Some 7].
Proof. rewrite x2_val, x1_val. split; [split; cbn; [lia|discriminate]|]. repeat split; auto. Qed.

Example C153_attributes_example :=
  C153_attributes xq xq xfit xstream new_object [xcall false 3 []; xcall false 3 []]
    (Forall_cons _ (proj1 C153_failure_instance) (Forall_cons _ (proj1 C153_failure_instance) (Forall_nil _))).
Example C153_seeds_continue_example :=
  C153_seeds_continue xq xq xfit xstream new_object [xcall true 2 [2; 1]%nat] (xcall true 2 [2; 1]%nat) (proj1 C153_instance) (proj1 (proj2 C153_instance)).
Example C153_report_after_success_example :=
  C153_report_after_success xq xq xfit xstream new_object (xcall false 3 []) 10 (proj1 C153_failure_instance) ltac:(lra) (proj1 (proj2 C153_failure_instance)) (f_equal fst x1_val).
Example C153_report_after_failure_example :=
  C153_report_after_failure xq xq xfit xstream (snd x1) (xcall false 3 []) 10 (proj1 C153_failure_instance) ltac:(lra) (proj1 (proj2 C153_failure_instance)) eq_refl (proj1 (proj2 (proj2 C153_failure_instance))).
