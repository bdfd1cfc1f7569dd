From Coq Require Import List Bool ZArith Lia Arith.
From Verif Require Import LSNMF_Model Train_Model Train_Spec.
Import ListNotations.

Lemma hold_at_held_iff hold_h delay i :
  hold_at hold_h delay i = true <-> held hold_h delay i.
Proof.
  unfold hold_at, held. destruct hold_h; cbn [negb orb].
  - rewrite negb_true_iff, andb_false_iff, Z.ltb_ge, Z.ltb_ge. tauto.
  - split; [discriminate|intros [? _]; discriminate].
Qed.

Section P.
  Context {S F : Type}.
  Context (upd : bool -> S -> S) (loss : S -> F) (below : F -> F -> bool).

  Section Fixed.
  Context (cn : Z) (hold_h : bool) (delay_h : Z) (tick : nat -> bool) (st0 : S).

  Let holds := hold_at hold_h delay_h.
  Let st := state_at upd holds st0.
  Let q := loss_at upd loss holds st0.
  Let hist i := map q (seq 0 i).
  Let w := span cn.

  (** Window content after [i] iterations: the last [min i w] losses. *)
  Definition win_at (i : nat) : list F := map q (seq (i - w) (Nat.min i w)).

  Lemma hist_snoc i : hist i ++ [q i] = hist (Datatypes.S i).
  Proof. unfold hist. rewrite seq_S, map_app. reflexivity. Qed.

  Lemma win_snoc i : win_at i ++ [q i] = map q (seq (i - w) (Datatypes.S (Nat.min i w))).
  Proof.
    unfold win_at. rewrite seq_S, map_app. cbn. f_equal. f_equal.
    destruct (Nat.le_ge_cases i w); [rewrite Nat.min_l by lia|rewrite Nat.min_r by lia]; f_equal; lia.
  Qed.

  Lemma full_iff i :
    (cn <=? Z.of_nat (length (win_at i ++ [q i])))%Z = true <-> w <= i.
  Proof.
    rewrite win_snoc, map_length, seq_length, Z.leb_le. unfold w, span.
    destruct (Nat.le_ge_cases i (Z.to_nat (cn - 1)));
      [rewrite Nat.min_l by lia|rewrite Nat.min_r by lia]; lia.
  Qed.

  Lemma win_hd i d : w <= i -> hd d (win_at i ++ [q i]) = q (i - w).
  Proof. intros Hw. rewrite win_snoc. reflexivity. Qed.

  Lemma win_next i :
    (if (cn <=? Z.of_nat (length (win_at i ++ [q i])))%Z
     then tl (win_at i ++ [q i]) else win_at i ++ [q i]) = win_at (Datatypes.S i).
  Proof.
    destruct (cn <=? _)%Z eqn:E.
    - apply full_iff in E. rewrite win_snoc. cbn [seq map tl]. unfold win_at.
      rewrite !Nat.min_r by lia. f_equal. f_equal. lia.
    - assert (~ w <= i) by (rewrite <- full_iff; congruence).
      rewrite win_snoc. unfold win_at. rewrite !Nat.min_l by lia. f_equal. f_equal. lia.
  Qed.

  (** Boolean form of the criterion. *)
  Definition stopb (i : nat) : bool := (w <=? i) && below (q (i - w)) (q i).

  Lemma stopb_iff i : stopb i = true <-> criterion below cn q i.
  Proof. unfold stopb, criterion. rewrite andb_true_iff, Nat.leb_le. reflexivity. Qed.

  Lemma conv_eq i :
    (cn <=? Z.of_nat (length (win_at i ++ [q i])))%Z && below (hd (q i) (win_at i ++ [q i])) (q i)
    = stopb i.
  Proof.
    unfold stopb. destruct (Nat.leb_spec w i) as [Hw|Hw].
    - rewrite (proj2 (full_iff i)) by lia. rewrite win_hd by lia. reflexivity.
    - destruct (cn <=? _)%Z eqn:E; [|reflexivity]. apply full_iff in E. lia.
  Qed.

  (** The loop from iteration [i] with the right bookkeeping. *)
  Lemma rust_loop_spec rem : forall i ci evs qq,
    let r := rust_loop upd loss below cn hold_h delay_h tick rem i (st i) (win_at i) (hist i) qq ci evs in
    (exists j, i <= j < i + rem /\ stopb j = true /\ (forall l, i <= l < j -> stopb l = false) /\
       rr_state r = st (Datatypes.S j) /\ rr_q r = Some (q j) /\ rr_conv r = true /\ rr_ci r = j /\
       rr_hist r = hist (Datatypes.S j)) \/
    ((forall l, i <= l < i + rem -> stopb l = false) /\
       rr_state r = st (i + rem) /\ rr_conv r = false /\
       rr_hist r = hist (i + rem) /\
       rr_ci r = (if rem =? 0 then ci else i + rem - 1) /\
       rr_q r = (if rem =? 0 then qq else Some (q (i + rem - 1)))).
  Proof.
    induction rem as [|rem IH]; intros i ci evs qq r.
    - right. subst r. cbn. rewrite Nat.add_0_r. repeat split; intros; lia.
    - subst r. cbn [rust_loop]. cbv zeta.
      change (upd (hold_at hold_h delay_h i) (st i)) with (st (Datatypes.S i)).
      change (loss (st (Datatypes.S i))) with (q i).
      rewrite conv_eq, hist_snoc, win_next.
      destruct (stopb i) eqn:E.
      + left. exists i. cbn. repeat split; try lia; auto; intros; lia.
      + match goal with |- context [rust_loop _ _ _ _ _ _ _ _ _ _ _ _ _ _ ?e] => set (ev := e) end.
        destruct (IH (Datatypes.S i) i ev (Some (q i))) as [(j & Hj & Hs & Hb & R)|(Hb & R1 & R2 & R3 & R4 & R5)].
        * left. exists j. repeat split; try lia; try tauto.
          intros l Hl. destruct (Nat.eq_dec l i) as [->|]; [assumption|]. apply Hb. lia.
        * right. repeat split.
          -- intros l Hl. destruct (Nat.eq_dec l i) as [->|]; [assumption|]. apply Hb. lia.
          -- rewrite R1. f_equal. lia.
          -- exact R2.
          -- rewrite R3. f_equal. lia.
          -- rewrite R4. cbn [Nat.eqb]. destruct (Nat.eqb_spec rem 0); lia.
          -- rewrite R5. cbn [Nat.eqb]. destruct (Nat.eqb_spec rem 0); f_equal; f_equal; lia.
  Qed.

  Lemma win_at_0 : win_at 0 = [].
  Proof. reflexivity. Qed.

  Lemma rust_train_spec max_iter :
    let r := rust_train upd loss below cn hold_h delay_h tick max_iter st0 in
    let N := Z.to_nat max_iter in
    (exists j, j < N /\ first_such (criterion below cn q) j /\
       rr_state r = st (Datatypes.S j) /\ rr_q r = Some (q j) /\ rr_conv r = true /\ rr_ci r = j /\
       rr_hist r = map q (seq 0 (Datatypes.S j))) \/
    ((forall l, l < N -> ~ criterion below cn q l) /\
       rr_state r = st N /\ rr_conv r = false /\
       rr_hist r = map q (seq 0 N) /\
       rr_ci r = N - 1 /\
       rr_q r = (if N =? 0 then None else Some (q (N - 1)))).
  Proof.
    intros r N. destruct (rust_loop_spec N 0 0 [] None) as [(j & Hj & Hs & Hb & R)|(Hb & R1 & R2 & R3 & R4 & R5)].
    - left. exists j. split; [lia|]. split.
      + split; [apply stopb_iff; assumption|]. intros i Hi Hc. apply stopb_iff in Hc.
        rewrite Hb in Hc by lia. discriminate.
      + tauto.
    - right. split.
      + intros l Hl Hc. apply stopb_iff in Hc. rewrite Hb in Hc by lia. discriminate.
      + repeat split; auto.
        change (rr_ci r = N - 1). transitivity (if N =? 0 then 0 else 0 + N - 1); [exact R4|].
        destruct (Nat.eqb_spec N 0); lia.
  Qed.

  (** Events: exactly one "completed" event, and it is the last one. *)
  Lemma rust_loop_events rem : forall i s win h qq ci evs,
    0 < rem ->
    (forall e, In e evs -> ev_completed e = false) ->
    let r := rust_loop upd loss below cn hold_h delay_h tick rem i s win h qq ci evs in
    exists es e, rr_events r = es ++ [e] /\ ev_completed e = true /\
      (forall x, In x es -> ev_completed x = false) /\
      ev_i e = rr_ci r /\ rr_q r = Some (ev_q e).
  Proof.
    induction rem as [|rem IH]; intros i s win h qq ci evs Hr Hev r; [lia|].
    subst r. cbn [rust_loop]. cbv zeta.
    set (s' := upd (hold_at hold_h delay_h i) s).
    set (conv := (_ && below _ _)%bool).
    destruct conv eqn:Ec.
    - cbn. rewrite orb_true_r. cbn. eexists evs, _. repeat split; auto.
    - destruct rem as [|rem'].
      + cbn. rewrite orb_true_r. eexists evs, _. repeat split; auto.
      + apply (IH (Datatypes.S i) s'); [lia|].
        intros e. rewrite orb_false_r.
        destruct (tick i || false); [|apply Hev].
        intros He. apply in_app_or in He. destruct He as [He|[<-|[]]]; [apply Hev; assumption|reflexivity].
  Qed.
  End Fixed.

  (** ** The Python loop *)
  Section Py.
  Context (isnan : S -> bool) (cn delay_h : Z) (hold_h : bool) (st0 : S).

  Let holds := hold_at hold_h delay_h.
  Let st := state_at upd holds st0.
  Let q := loss_at upd loss holds st0.
  Let hist i := map q (seq 0 i).
  Let n := Z.to_nat cn.

  (** value of the local variable hold_h before iteration [i] *)
  Definition hold_var (i : nat) : bool :=
    match i with O => hold_h | Datatypes.S j => holds j end.

  Lemma hold_var_step i :
    (if ((0 <? delay_h) && (delay_h <? Z.of_nat i))%Z then false else hold_var i) = holds i.
  Proof.
    unfold holds, hold_at.
    destruct (Z.ltb_spec 0 delay_h) as [H0|H0]; cbn [andb].
    - destruct (Z.ltb_spec delay_h (Z.of_nat i)) as [H1|H1].
      + rewrite orb_true_r. reflexivity.
      + rewrite orb_false_r, negb_involutive. destruct i as [|j]; cbn [hold_var]; [reflexivity|].
        unfold holds, hold_at. destruct (Z.ltb_spec delay_h (Z.of_nat j)); [lia|].
        rewrite andb_false_r, orb_false_r, negb_involutive. reflexivity.
    - rewrite orb_false_r, negb_involutive. destruct i as [|j]; cbn [hold_var]; [reflexivity|].
      unfold holds, hold_at. destruct (Z.ltb_spec 0 delay_h); [lia|].
      cbn [andb]. rewrite orb_false_r, negb_involutive. reflexivity.
  Qed.

  Definition prior_at (i : nat) : list F := map q (seq (i - n) (Nat.min i n)).

  Lemma prior_snoc i : prior_at i ++ [q i] = map q (seq (i - n) (Datatypes.S (Nat.min i n))).
  Proof.
    unfold prior_at. rewrite seq_S, map_app. cbn. f_equal. f_equal.
    destruct (Nat.le_ge_cases i n); [rewrite Nat.min_l by lia|rewrite Nat.min_r by lia]; f_equal; lia.
  Qed.

  Definition stopb_py (i : nat) : bool := (n <=? i) && below (q (i - (n - 1))) (q i).

  Lemma last_map_seq a b d : last (map q (seq a (Datatypes.S b))) d = q (a + b).
  Proof. rewrite seq_S, map_app. cbn. rewrite last_last. reflexivity. Qed.

  Lemma py_loop_spec (Hcn : (1 <= cn)%Z) rem : forall i steps,
    let r := py_loop upd loss below isnan cn delay_h rem i (hold_var i) (st i) (prior_at i) (hist i) steps in
    (exists j, i <= j < i + rem /\
       (forall l, i <= l < j -> isnan (st (Datatypes.S l)) = false /\ stopb_py l = false) /\
       pr_state r = st (Datatypes.S j) /\ pr_hist r = hist (Datatypes.S j) /\ pr_steps r = steps + (j - i) /\
       ((isnan (st (Datatypes.S j)) = true /\ pr_stop r = PNaN) \/
        (isnan (st (Datatypes.S j)) = false /\ stopb_py j = true /\ pr_stop r = PConverged))) \/
    ((forall l, i <= l < i + rem -> isnan (st (Datatypes.S l)) = false /\ stopb_py l = false) /\
       pr_state r = st (i + rem) /\ pr_hist r = hist (i + rem) /\ pr_steps r = steps + rem /\ pr_stop r = PDone).
  Proof.
    induction rem as [|rem IH]; intros i steps r.
    - right. subst r. cbn. rewrite !Nat.add_0_r. repeat split; intros; lia.
    - subst r. cbn [py_loop]. rewrite hold_var_step. cbv zeta.
      change (upd (holds i) (st i)) with (st (Datatypes.S i)).
      change (loss (st (Datatypes.S i))) with (q i).
      replace (hist i ++ [q i]) with (hist (Datatypes.S i))
        by (unfold hist; rewrite seq_S, map_app; reflexivity).
      destruct (isnan (st (Datatypes.S i))) eqn:En.
      { left. exists i. cbn. repeat split; try lia; auto; intros; lia. }
      assert (Hrec : forall steps', 
         (stopb_py i = false) ->
         let r := py_loop upd loss below isnan cn delay_h rem (Datatypes.S i) (hold_var (Datatypes.S i)) (st (Datatypes.S i))
                    (prior_at (Datatypes.S i)) (hist (Datatypes.S i)) (Datatypes.S steps') in
         (exists j, i <= j < i + Datatypes.S rem /\
           (forall l, i <= l < j -> isnan (st (Datatypes.S l)) = false /\ stopb_py l = false) /\
           pr_state r = st (Datatypes.S j) /\ pr_hist r = hist (Datatypes.S j) /\ pr_steps r = steps' + (j - i) /\
           ((isnan (st (Datatypes.S j)) = true /\ pr_stop r = PNaN) \/
            (isnan (st (Datatypes.S j)) = false /\ stopb_py j = true /\ pr_stop r = PConverged))) \/
         ((forall l, i <= l < i + Datatypes.S rem -> isnan (st (Datatypes.S l)) = false /\ stopb_py l = false) /\
           pr_state r = st (i + Datatypes.S rem) /\ pr_hist r = hist (i + Datatypes.S rem) /\
           pr_steps r = steps' + Datatypes.S rem /\ pr_stop r = PDone)).
      { intros steps' Hs r. destruct (IH (Datatypes.S i) (Datatypes.S steps')) as [(j & Hj & Hb & A & B & C & D)|(Hb & A & B & C & D)].
        - left. exists j. repeat split; try lia; auto.
          + destruct (Nat.eq_dec l i) as [->|]; [assumption|]. apply Hb. lia.
          + destruct (Nat.eq_dec l i) as [->|]; [assumption|]. apply Hb. lia.
          + change (pr_steps r = steps' + (j - i)). unfold r. rewrite C. lia.
        - right. repeat split; auto.
          + destruct (Nat.eq_dec l i) as [->|]; [assumption|]. apply Hb. lia.
          + destruct (Nat.eq_dec l i) as [->|]; [assumption|]. apply Hb. lia.
          + unfold r. rewrite A. f_equal. lia.
          + unfold r. rewrite B. f_equal. lia.
          + unfold r. rewrite C. lia. }
      rewrite prior_snoc, map_length, seq_length.
      destruct (Z.ltb_spec cn (Z.of_nat (Datatypes.S (Nat.min i n)))) as [Hl|Hl].
      + assert (Hni : n <= i) by lia. rewrite Nat.min_r by lia. cbn [seq map tl].
        destruct n as [|n'] eqn:En'; [lia|]. cbn [seq map].
        assert (Ela : last (q (Datatypes.S (i - Datatypes.S n')) :: map q (seq (Datatypes.S (Datatypes.S (i - Datatypes.S n'))) n'))
                  (q (Datatypes.S (i - Datatypes.S n'))) = q i).
        { change (q (Datatypes.S (i - Datatypes.S n')) :: map q (seq (Datatypes.S (Datatypes.S (i - Datatypes.S n'))) n'))
            with (map q (seq (Datatypes.S (i - Datatypes.S n')) (Datatypes.S n'))).
          rewrite last_map_seq. f_equal. lia. }
        rewrite Ela.
        assert (Es : stopb_py i = below (q (Datatypes.S (i - Datatypes.S n'))) (q i)).
        { unfold stopb_py. rewrite En'. replace (Datatypes.S n' <=? i) with true by (symmetry; apply Nat.leb_le; lia).
          cbn [andb]. f_equal. f_equal. lia. }
        destruct (below (q (Datatypes.S (i - Datatypes.S n'))) (q i)) eqn:Eb.
        * left. exists i. cbn. repeat split; try lia; auto; intros; lia.
        * replace (q (Datatypes.S (i - Datatypes.S n')) :: map q (seq (Datatypes.S (Datatypes.S (i - Datatypes.S n'))) n'))
            with (prior_at (Datatypes.S i)).
          -- apply (Hrec steps). assumption.
          -- unfold prior_at. rewrite En'. rewrite Nat.min_r by lia.
             replace (Datatypes.S i - Datatypes.S n') with (Datatypes.S (i - Datatypes.S n')) by lia. reflexivity.
      + assert (Hni : i < n) by lia. rewrite Nat.min_l by lia.
        replace (map q (seq (i - n) (Datatypes.S i))) with (prior_at (Datatypes.S i)).
        * apply (Hrec steps). unfold stopb_py. destruct (Nat.leb_spec n i); [lia|reflexivity].
        * unfold prior_at. rewrite Nat.min_l by lia. f_equal. f_equal. lia.
  Qed.

  Lemma py_train_spec max_iter :
    (1 <= cn)%Z ->
    let r := py_train upd loss below isnan cn delay_h hold_h max_iter st0 in
    let N := Z.to_nat max_iter in
    (exists j, j < N /\
       (forall l, l < j -> isnan (st (Datatypes.S l)) = false /\ stopb_py l = false) /\
       pr_state r = st (Datatypes.S j) /\ pr_hist r = map q (seq 0 (Datatypes.S j)) /\ pr_steps r = j /\
       ((isnan (st (Datatypes.S j)) = true /\ pr_stop r = PNaN) \/
        (isnan (st (Datatypes.S j)) = false /\ stopb_py j = true /\ pr_stop r = PConverged))) \/
    ((forall l, l < N -> isnan (st (Datatypes.S l)) = false /\ stopb_py l = false) /\
       pr_state r = st N /\ pr_hist r = map q (seq 0 N) /\ pr_steps r = N /\ pr_stop r = PDone).
  Proof.
    intros Hcn r N. destruct (py_loop_spec Hcn N 0 0) as [(j & Hj & Hb & A & B & C & D)|(Hb & A & B & C & D)].
    - left. exists j. split; [lia|]. split; [intros l Hl; apply Hb; lia|].
      split; [exact A|]. split; [exact B|]. split; [|exact D]. transitivity (0 + (j - 0)); [exact C|lia].
    - right. split; [intros l Hl; apply Hb; lia|]. auto.
  Qed.

  (** With [converge_n <= 0] the first finite loss raises IndexError. *)
  Lemma py_train_nonpos max_iter :
    (cn <= 0)%Z -> (0 < max_iter)%Z -> isnan (st 1) = false ->
    pr_stop (py_train upd loss below isnan cn delay_h hold_h max_iter st0) = PIndexError.
  Proof.
    intros Hcn Hm Hn. unfold py_train. destruct (Z.to_nat max_iter) as [|N] eqn:EN; [lia|].
    cbn [py_loop]. pose proof (hold_var_step 0) as Hh. cbn [hold_var] in Hh. rewrite Hh. cbv zeta.
    change (upd (holds 0) st0) with (st 1). rewrite Hn. cbn [app length].
    destruct (Z.ltb_spec cn (Z.of_nat 1)); [|lia]. reflexivity.
  Qed.
  End Py.

  (** ** Comparing the engines *)
  Section Compare.
  Context (isnan : S -> bool) (cn delay_h : Z) (hold_h : bool) (tick : nat -> bool) (st0 : S).
  Let holds := hold_at hold_h delay_h.
  Let q := loss_at upd loss holds st0.

  Lemma stop_py_rust i :
    (1 <= cn)%Z ->
    stopb_py cn delay_h hold_h st0 i = stopb cn hold_h delay_h st0 i && negb (i =? span cn).
  Proof.
    intros Hcn. unfold stopb_py, stopb, span.
    replace (Z.to_nat cn - 1) with (Z.to_nat (cn - 1)) by lia.
    destruct (Nat.leb_spec (Z.to_nat cn) i), (Nat.leb_spec (Z.to_nat (cn - 1)) i),
      (Nat.eqb_spec i (Z.to_nat (cn - 1))); cbn [andb negb]; try lia;
      rewrite ?andb_true_r, ?andb_false_r; reflexivity.
  Qed.

  Lemma engines_agree max_iter :
    (1 <= cn)%Z ->
    (forall i, isnan (state_at upd holds st0 (Datatypes.S i)) = false) ->
    ~ first_such (criterion below cn q) (span cn) ->
    let r := rust_train upd loss below cn hold_h delay_h tick max_iter st0 in
    let p := py_train upd loss below isnan cn delay_h hold_h max_iter st0 in
    pr_state p = rr_state r /\ pr_hist p = rr_hist r /\
    (pr_stop p = PConverged <-> rr_conv r = true) /\
    (pr_stop p = PConverged \/ pr_stop p = PDone) /\
    (rr_conv r = true -> pr_steps p = rr_ci r) /\
    (rr_conv r = false -> pr_steps p = Z.to_nat max_iter /\ rr_ci r = Z.to_nat max_iter - 1).
  Proof.
    intros Hcn Hnan Hfirst r p.
    (* before the window is complete neither engine stops *)
    assert (Hsame : forall j, first_such (criterion below cn q) j -> j <> span cn).
    { intros j Hj ->. contradiction. }
    assert (Hspan : stopb cn hold_h delay_h st0 (span cn) = false).
    { destruct (stopb cn hold_h delay_h st0 (span cn)) eqn:E; [|reflexivity].
      exfalso. apply Hfirst. split; [apply stopb_iff; exact E|].
      intros i Hi [Hw _]. lia. }
    assert (Heq : forall i, stopb_py cn delay_h hold_h st0 i = stopb cn hold_h delay_h st0 i).
    { intros i. rewrite stop_py_rust by assumption.
      destruct (Nat.eqb_spec i (span cn)) as [->|]; [rewrite Hspan; reflexivity|].
      rewrite andb_true_r. reflexivity. }
    destruct (rust_train_spec cn hold_h delay_h tick st0 max_iter)
      as [(j & Hj & Hf & R1 & R2 & R3 & R4 & R5)|(Hb & R1 & R2 & R3 & R4 & R5)];
    destruct (py_train_spec isnan cn delay_h hold_h st0 max_iter Hcn)
      as [(j' & Hj' & Hb' & A & B & C & D)|(Hb' & A & B & C & D)].
    - destruct D as [[D _]|(D1 & D2 & D3)]; [rewrite Hnan in D; discriminate|].
      assert (j' = j) as ->.
      { destruct Hf as [Hf1 Hf2]. rewrite Heq in D2.
        destruct (Nat.lt_trichotomy j' j) as [Hl|[He|Hl]]; [|assumption|].
        - exfalso. apply (Hf2 j' Hl). apply stopb_iff. exact D2.
        - exfalso. destruct (Hb' j Hl) as [_ Hx]. rewrite Heq in Hx.
          apply stopb_iff in Hf1. fold q in Hf1. unfold q in Hf1. congruence. }
      fold r in R1, R2, R3, R4, R5. fold p in A, B, C, D3.
      rewrite A, B, C, R1, R5, R4, R3, D3. repeat split; auto; try congruence.
    - exfalso. destruct Hf as [Hf1 _]. destruct (Hb' j Hj) as [_ Hx]. rewrite Heq in Hx.
      apply stopb_iff in Hf1. congruence.
    - exfalso. destruct D as [[D _]|(D1 & D2 & D3)]; [rewrite Hnan in D; discriminate|].
      rewrite Heq in D2. apply (Hb j' Hj'). apply stopb_iff. exact D2.
    - fold r in R1, R2, R3, R4, R5. fold p in A, B, C, D.
      rewrite A, B, C, R1, R2, R3, R4, D. repeat split; auto; congruence.
  Qed.

  (** If the compiled engine stops at the first eligible iteration, the Python
      engine goes on (if it may). *)
  Lemma engines_differ max_iter :
    (1 <= cn)%Z ->
    (forall i, isnan (state_at upd holds st0 (Datatypes.S i)) = false) ->
    criterion below cn q (span cn) -> (cn < max_iter)%Z ->
    let r := rust_train upd loss below cn hold_h delay_h tick max_iter st0 in
    let p := py_train upd loss below isnan cn delay_h hold_h max_iter st0 in
    length (rr_hist r) = Z.to_nat cn /\ length (rr_hist r) < length (pr_hist p).
  Proof.
    intros Hcn Hnan Hc Hm r p.
    assert (Hr : length (rr_hist r) = Z.to_nat cn).
    { destruct (rust_train_spec cn hold_h delay_h tick st0 max_iter)
        as [(j & Hj & [Hf1 Hf2] & R1 & R2 & R3 & R4 & R5)|(Hb & R)].
      - fold r in R5. rewrite R5, map_length, seq_length.
        assert (Ej : j = span cn).
        { destruct (Nat.lt_trichotomy j (span cn)) as [Hl|[He|Hl]]; [|assumption|].
          - destruct Hf1 as [Hw _]. lia.
          - exfalso. exact (Hf2 (span cn) Hl Hc). }
        rewrite Ej. unfold span. lia.
      - exfalso. apply (Hb (span cn)); [unfold span; lia|exact Hc]. }
    split; [exact Hr|]. rewrite Hr.
    destruct (py_train_spec isnan cn delay_h hold_h st0 max_iter Hcn)
      as [(j' & Hj' & Hb' & A & B & C & D)|(Hb' & A & B & C & D)].
    - fold p in B. rewrite B, map_length, seq_length.
      destruct D as [[D _]|(D1 & D2 & D3)]; [rewrite Hnan in D; discriminate|].
      unfold stopb_py in D2. apply andb_true_iff in D2. destruct D2 as [D2 _].
      apply Nat.leb_le in D2. lia.
    - fold p in B. rewrite B, map_length, seq_length. lia.
  Qed.
  End Compare.
End P.

(** ** Status over a history of calls *)

Lemma py_status_history {S F} (rs : list (presult S F)) s :
  let s' := fold_left (fun s r => py_status r s) rs s in
  s_converged s' = s_converged s || existsb (fun r => match pr_stop r with PConverged => true | _ => false end) rs /\
  s_steps s' = (s_steps s + fold_right Z.add 0 (map (fun r => Z.of_nat (pr_steps r)) rs))%Z.
Proof.
  revert s. induction rs as [|r rs IH]; intros s; cbn [fold_left existsb map fold_right].
  - rewrite orb_false_r. split; [reflexivity|lia].
  - destruct (IH (py_status r s)) as [A B]. cbv zeta in *. rewrite A, B. cbn [py_status s_converged s_steps].
    split; [|lia]. destruct (pr_stop r), (s_converged s); reflexivity.
Qed.

Lemma rust_status_history {S F} (rs : list (rresult S F)) (r : rresult S F) s :
  fold_left (fun s r => rust_status r s) (rs ++ [r]) s = mkStatus (rr_conv r) (Z.of_nat (rr_ci r)).
Proof. rewrite fold_left_app. reflexivity. Qed.

(** ** Restatements for any schedule [b] that decides [held] *)
Section B.
  Context {S F : Type}.
  Context (upd : bool -> S -> S) (loss : S -> F) (below : F -> F -> bool).

  Lemma state_at_ext b b' (st0 : S) i :
    (forall j, b j = b' j) -> state_at upd b st0 i = state_at upd b' st0 i.
  Proof. intros E. induction i as [|i IH]; cbn; [reflexivity|]. rewrite IH, E. reflexivity. Qed.

  Lemma loss_at_ext b b' (st0 : S) i :
    (forall j, b j = b' j) -> loss_at upd loss b st0 i = loss_at upd loss b' st0 i.
  Proof. intros E. unfold loss_at. rewrite (state_at_ext b b') by exact E. reflexivity. Qed.

  Lemma decides_eq b hold_h delay_h :
    (forall i, b i = true <-> held hold_h delay_h i) -> forall i, hold_at hold_h delay_h i = b i.
  Proof.
    intros Hb i. specialize (Hb i). pose proof (hold_at_held_iff hold_h delay_h i) as Hh.
    destruct (hold_at hold_h delay_h i), (b i); try reflexivity.
    - symmetry. apply Hb, Hh. reflexivity.
    - apply Hh, Hb. reflexivity.
  Qed.

  Lemma criterion_ext cn (q q' : nat -> F) i :
    (forall j, q j = q' j) -> criterion below cn q i -> criterion below cn q' i.
  Proof. intros E [A B]. split; [exact A|]. rewrite <- !E. exact B. Qed.

  Lemma rust_summary cn hold_h delay_h tick st0 max_iter b :
    (forall i, b i = true <-> held hold_h delay_h i) ->
    let r := rust_train upd loss below cn hold_h delay_h tick max_iter st0 in
    let N := Z.to_nat max_iter in
    let n := length (rr_hist r) in
    let q := loss_at upd loss b st0 in
    n <= N /\
    rr_hist r = map q (seq 0 n) /\
    rr_state r = state_at upd b st0 n /\
    rr_q r = (if n =? 0 then None else Some (q (n - 1))) /\
    rr_ci r = n - 1 /\
    (rr_conv r = false -> n = N) /\
    (rr_conv r = true <-> exists j, j < N /\ criterion below cn q j) /\
    (rr_conv r = true -> first_such (criterion below cn q) (n - 1) /\ 0 < n).
  Proof.
    intros Hb r N n q.
    pose proof (decides_eq b hold_h delay_h Hb) as Eb.
    assert (Eq : forall j, loss_at upd loss (hold_at hold_h delay_h) st0 j = q j)
      by (intros j; apply loss_at_ext; exact Eb).
    assert (Em : forall l, map (loss_at upd loss (hold_at hold_h delay_h) st0) l = map q l)
      by (intros l; apply map_ext; exact Eq).
    destruct (rust_train_spec upd loss below cn hold_h delay_h tick st0 max_iter)
      as [(j & Hj & [Hf1 Hf2] & R1 & R2 & R3 & R4 & R5)|(Hno & R1 & R2 & R3 & R4 & R5)].
    - fold r N in Hj, R1, R2, R3, R4, R5.
      assert (En : n = Datatypes.S j) by (unfold n; rewrite R5, map_length, seq_length; reflexivity).
      assert (Hfs : first_such (criterion below cn q) j).
      { split; [exact (criterion_ext _ _ _ _ Eq Hf1)|].
        intros i Hi Hc. apply (Hf2 i Hi). exact (criterion_ext _ _ _ _ (fun j => eq_sym (Eq j)) Hc). }
      rewrite En. cbn [Nat.eqb]. replace (Datatypes.S j - 1) with j by lia.
      rewrite R5, R1, R2, R3, R4, Em, Eq, (state_at_ext _ _ _ _ Eb).
      repeat split; try lia; auto; try discriminate.
      all: try (intros _; exists j; split; [exact Hj|exact (proj1 Hfs)]).
      all: apply Hfs.
    - fold r N in Hno, R1, R2, R3, R4, R5.
      assert (En : n = N) by (unfold n; rewrite R3, map_length, seq_length; reflexivity).
      rewrite En, R1, R2, R3, R4, R5, Em, Eq, (state_at_ext _ _ _ _ Eb).
      repeat split; auto; try discriminate.
      intros (j & Hj & Hc). exfalso. apply (Hno j Hj).
      exact (criterion_ext _ _ _ _ (fun j => eq_sym (Eq j)) Hc).
  Qed.

  Lemma py_summary isnan cn hold_h delay_h st0 max_iter b :
    (1 <= cn)%Z ->
    (forall i, b i = true <-> held hold_h delay_h i) ->
    let r := py_train upd loss below isnan cn delay_h hold_h max_iter st0 in
    let n := length (pr_hist r) in
    n <= Z.to_nat max_iter /\
    pr_hist r = map (loss_at upd loss b st0) (seq 0 n) /\
    pr_state r = state_at upd b st0 n /\
    (pr_stop r = PDone -> n = Z.to_nat max_iter /\ pr_steps r = n) /\
    (pr_stop r <> PDone -> 0 < n /\ pr_steps r = n - 1) /\
    (pr_stop r = PNaN <-> 0 < n /\ isnan (pr_state r) = true) /\
    (pr_stop r = PConverged -> criterion below cn (loss_at upd loss b st0) (n - 1)).
  Proof.
    intros Hcn Hb r n.
    pose proof (decides_eq b hold_h delay_h Hb) as Eb.
    set (q := loss_at upd loss b st0).
    assert (Eq : forall j, loss_at upd loss (hold_at hold_h delay_h) st0 j = q j)
      by (intros j; apply loss_at_ext; exact Eb).
    assert (Em : forall l, map (loss_at upd loss (hold_at hold_h delay_h) st0) l = map q l)
      by (intros l; apply map_ext; exact Eq).
    destruct (py_train_spec upd loss below isnan cn delay_h hold_h st0 max_iter Hcn)
      as [(j & Hj & Hno & A & B & C & D)|(Hno & A & B & C & D)].
    - fold r in A, B, C, D.
      assert (En : n = Datatypes.S j) by (unfold n; rewrite B, map_length, seq_length; reflexivity).
      rewrite En. replace (Datatypes.S j - 1) with j by lia.
      rewrite A, B, C, Em. rewrite (state_at_ext _ _ _ _ Eb).
      rewrite (state_at_ext _ _ _ _ Eb) in D.
      destruct D as [[D1 D2]|(D1 & D2 & D3)].
      + rewrite D2. repeat split; try lia; auto; try discriminate.
      + rewrite D3. repeat split; try lia; auto; try discriminate.
        * intros [_ Hx]. congruence.
        * unfold span. unfold stopb_py in D2. apply andb_true_iff in D2. destruct D2 as [D2 _].
          apply Nat.leb_le in D2. lia.
        * unfold stopb_py in D2. apply andb_true_iff in D2. destruct D2 as [D2 D4].
          rewrite !Eq in D4. replace (span cn) with (Z.to_nat cn - 1) by (unfold span; lia). exact D4.
    - fold r in A, B, C, D.
      assert (En : n = Z.to_nat max_iter) by (unfold n; rewrite B, map_length, seq_length; reflexivity).
      rewrite En, A, B, C, D, Em, (state_at_ext _ _ _ _ Eb).
      repeat split; auto; try congruence.
      intros [Hpos Hx]. exfalso.
      destruct (Hno (Z.to_nat max_iter - 1)) as [Hn _]; [lia|].
      replace (Datatypes.S (Z.to_nat max_iter - 1)) with (Z.to_nat max_iter) in Hn by lia.
      rewrite (state_at_ext _ _ _ _ Eb) in Hn. congruence.
  Qed.
End B.

Section D.
  Context {S F : Type}.
  Context (upd : bool -> S -> S) (loss : S -> F) (below : F -> F -> bool).

  Lemma rust_loop_delay cn d d' tick rem : forall i st win h q ci evs,
    rust_loop upd loss below cn false d tick rem i st win h q ci evs
    = rust_loop upd loss below cn false d' tick rem i st win h q ci evs.
  Proof.
    induction rem as [|rem IH]; intros i st win h q ci evs; [reflexivity|].
    cbn [rust_loop]. change (hold_at false d i) with false. change (hold_at false d' i) with false.
    cbv zeta. destruct (_ && _); [reflexivity|]. apply IH.
  Qed.

  Lemma py_loop_delay isnan cn d d' rem : forall i st win h steps,
    py_loop upd loss below isnan cn d rem i false st win h steps
    = py_loop upd loss below isnan cn d' rem i false st win h steps.
  Proof.
    induction rem as [|rem IH]; intros i st win h steps; [reflexivity|].
    cbn [py_loop].
    replace (if (0 <? d) && (d <? Z.of_nat i) then false else false)%Z with false
      by (destruct (_ && _)%Z; reflexivity).
    replace (if (0 <? d') && (d' <? Z.of_nat i) then false else false)%Z with false
      by (destruct (_ && _)%Z; reflexivity).
    cbv zeta. destruct (isnan _); [reflexivity|].
    destruct (cn <? _)%Z; [|apply IH].
    destruct (tl _) as [|f l]; [reflexivity|]. destruct (below _ _); [reflexivity|]. apply IH.
  Qed.
End D.
