From Coq Require Import List Bool ZArith Lia Reals Lra Permutation Sorted.
From Verif Require Import Base Fl Metrics_Model Disp_Model.
Import ListNotations.
Local Open Scope R_scope.

Lemma F2_impl {A B} (P Q : A -> B -> Prop) l l' : (forall a b, P a b -> Q a b) -> Forall2 P l l' -> Forall2 Q l l'.
Proof. intros H. induction 1; constructor; auto. Qed.

(** ** Loops *)
Lemma loop_mono {S A} (body : S -> S + A) f f' : (f <= f')%nat ->
  forall s a, loop body f s = Some a -> loop body f' s = Some a.
Proof.
  intros Hle. revert f' Hle. induction f as [|f IH]; intros f' Hle s a; cbn; [discriminate|].
  destruct f' as [|f']; [lia|]. cbn. destruct (body s); [|auto]. apply IH. lia.
Qed.

(** A body that counts its steps and stops at [B] terminates. *)
Lemma loop_terminates {S A} (body : S -> S + A) (cnt : S -> nat) (B : nat) (P : S -> Prop) :
  (forall s, P s -> match body s with inl s' => P s' /\ cnt s' = Datatypes.S (cnt s) /\ (cnt s' < B)%nat | inr _ => True end) ->
  forall f s, P s -> (cnt s < B)%nat -> (B <= cnt s + f)%nat -> exists a, loop body f s = Some a.
Proof.
  intros Hb. induction f as [|f IH]; intros s HP Hc Hf; [lia|]. cbn.
  specialize (Hb s HP). destruct (body s) as [s'|a]; [|eauto].
  destruct Hb as (HP' & Hs & Hlt). apply IH; [exact HP'|exact Hlt|lia].
Qed.

(** Invariants. *)
Lemma loop_inv {S A} (body : S -> S + A) (I : S -> Prop) (Q : A -> Prop) :
  (forall s, I s -> match body s with inl s' => I s' | inr a => Q a end) ->
  forall f s a, I s -> loop body f s = Some a -> Q a.
Proof.
  intros Hb. induction f as [|f IH]; intros s a HI; cbn; [discriminate|].
  specialize (Hb s HI). destruct (body s) as [s'|a']; [apply IH; exact Hb|].
  intros [= <-]. exact Hb.
Qed.

Lemma flt_cases (T lo : R) (d : fl) :
  flt (Fin T) d = false -> flt d (Fin lo) = false -> d = NaN \/ exists x, d = Fin x /\ lo <= x <= T.
Proof.
  destruct d as [x| | |]; cbn; try discriminate; auto.
  intros H1 H2. right. exists x. apply Rltb_false in H1, H2. auto.
Qed.

Section Search.
  Context (dq : R -> fl) (targets : list R) (thr : R).

  (** ** Upper bound *)
  Lemma high_terminates f : (100 <= f)%nat -> exists a, loop (high_body dq targets) f (2, 0%nat) = Some a.
  Proof.
    intros Hf. apply (loop_terminates (high_body dq targets) snd 100 (fun _ => True)); cbn; try lia; auto.
    intros [h n] _. unfold high_body. destruct (flt (dq h) (Fin (hd 0 targets))); cbn [negb]; [|exact I].
    destruct (Nat.leb_spec 100 (Datatypes.S n)); [exact I|]. cbn [snd]. repeat split; lia.
  Qed.

  (** [high] is a power of two; every smaller power from 2 on was below 32. *)
  Lemma high_spec f h n : loop (high_body dq targets) f (2, 0%nat) = Some (h, n) ->
    (1 <= n <= 100)%nat /\
    (forall i, (1 <= i < n)%nat -> flt (dq (2 ^ i)) (Fin (hd 0 targets)) = true) /\
    ((h = 2 ^ n /\ flt (dq h) (Fin (hd 0 targets)) = false) \/
     (n = 100%nat /\ h = 2 ^ 101 /\ flt (dq (2 ^ 100)) (Fin (hd 0 targets)) = true)).
  Proof.
    set (I := fun s : R * nat => fst s = 2 ^ (Datatypes.S (snd s)) /\ (snd s < 100)%nat /\
              forall i, (1 <= i <= snd s)%nat -> flt (dq (2 ^ i)) (Fin (hd 0 targets)) = true).
    set (Q := fun s : R * nat => let (h, n) := s in (1 <= n <= 100)%nat /\
      (forall i, (1 <= i < n)%nat -> flt (dq (2 ^ i)) (Fin (hd 0 targets)) = true) /\
      ((h = 2 ^ n /\ flt (dq h) (Fin (hd 0 targets)) = false) \/
       (n = 100%nat /\ h = 2 ^ 101 /\ flt (dq (2 ^ 100)) (Fin (hd 0 targets)) = true))).
    intros H. change (Q (h, n)). revert H. apply (loop_inv (high_body dq targets) I Q).
    2:{ unfold I. cbn [fst snd]. split; [cbn; ring|]. split; [lia|]. intros; lia. }
    intros [h' n'] (Hh & Hn & Hi). cbn [fst snd] in *. unfold high_body.
    destruct (flt (dq h') (Fin (hd 0 targets))) eqn:E; cbn [negb].
    - destruct (Nat.leb_spec 100 (Datatypes.S n')) as [Hl|Hl].
      + unfold Q. assert (n' = 99%nat) by lia. subst n'. split; [lia|]. split.
        * intros i Hi'. apply Hi. lia.
        * right. split; [reflexivity|]. split.
          { rewrite Hh. change (101%nat) with (Datatypes.S 100). cbn [pow]. ring. }
          rewrite Hh in E. exact E.
      + unfold I. cbn [fst snd]. split; [rewrite Hh; cbn [pow]; ring|]. split; [lia|].
        intros i Hi'. destruct (Nat.eq_dec i (Datatypes.S n')) as [->|]; [rewrite <- Hh; exact E|apply Hi; lia].
    - unfold Q. split; [lia|]. split; [intros i Hi'; apply Hi; lia|]. left. split; [exact Hh|exact E].
  Qed.

  Lemma high_range f h n : loop (high_body dq targets) f (2, 0%nat) = Some (h, n) -> 2 <= h <= 2 ^ 101.
  Proof.
    intros H. apply high_spec in H. destruct H as (Hn & _ & [[-> _]|(_ & -> & _)]).
    - split; [replace 2 with (2 ^ 1) at 1 by ring|]; apply Rle_pow; try lra; lia.
    - split; [replace 2 with (2 ^ 1) at 1 by ring|]; apply Rle_pow; try lra; lia.
  Qed.

  (** ** Bisection upwards *)
  Lemma inc_terminates T f h : (100 <= f)%nat -> exists a, loop (inc_body dq thr T) f (mkBis 1 h ((h + 1) / 2) 0) = Some a.
  Proof.
    intros Hf. apply (loop_terminates (inc_body dq thr T) b_n 100 (fun _ => True)); cbn [b_n]; try lia; auto.
    intros s _. unfold inc_body. destruct (flt (Fin T) (dq (b_mod s))).
    - destruct (Nat.leb_spec 100 (Datatypes.S (b_n s))); [exact I|]. cbn [b_n]. repeat split; lia.
    - destruct (flt (dq (b_mod s)) (Fin (T - thr))); [|exact I].
      destruct (Nat.leb_spec 100 (Datatypes.S (b_n s))); [exact I|]. cbn [b_n]. repeat split; lia.
  Qed.

  Definition bis_ok (h : R) (s : bis) : Prop :=
    1 <= b_low s /\ b_low s < b_high s /\ b_high s <= h /\ b_mod s = (b_low s + b_high s) / 2 /\ (b_n s < 100)%nat.

  Definition found_ok (T h : R) (a : found) : Prop :=
    f_dq a = dq (f_mod a) /\ 1 < f_mod a < h /\ 1 < f_high a <= h /\ f_mod a <= f_high a /\ (1 <= f_n a <= 100)%nat /\
    ((f_n a < 100)%nat -> f_dq a = NaN \/ exists x, f_dq a = Fin x /\ T - thr <= x <= T).

  Lemma inc_spec T f h a : 1 < h -> loop (inc_body dq thr T) f (mkBis 1 h ((h + 1) / 2) 0) = Some a -> found_ok T h a.
  Proof.
    intros Hh. apply (loop_inv (inc_body dq thr T) (bis_ok h) (found_ok T h)).
    2:{ unfold bis_ok. cbn [b_low b_high b_mod b_n]. repeat split; try lra; lia. }
    intros s (H1 & H2 & H3 & H4 & H5). unfold inc_body.
    assert (Hm : b_low s < b_mod s < b_high s) by lra.
    destruct (flt (Fin T) (dq (b_mod s))) eqn:E1.
    - destruct (Nat.leb_spec 100 (Datatypes.S (b_n s))).
      + unfold found_ok. cbn [f_dq f_mod f_n f_high b_high]. repeat split; try lra; try lia.
      + unfold bis_ok. cbn [b_low b_high b_mod b_n]. repeat split; try lra; lia.
    - destruct (flt (dq (b_mod s)) (Fin (T - thr))) eqn:E2.
      + destruct (Nat.leb_spec 100 (Datatypes.S (b_n s))).
        * unfold found_ok. cbn [f_dq f_mod f_n f_high b_high]. repeat split; try lra; try lia.
        * unfold bis_ok. cbn [b_low b_high b_mod b_n]. repeat split; try lra; lia.
      + unfold found_ok. cbn [f_dq f_mod f_n f_high]. repeat split; try lra; try lia.
        intros _. apply flt_cases; assumption.
  Qed.

  Lemma inc_targets_total f ts : (100 <= f)%nat -> forall h, exists l, inc_targets dq thr f ts h = Some l /\ length l = length ts.
  Proof.
    intros Hf. induction ts as [|t ts IH]; intros h; cbn; [eauto|].
    destruct (inc_terminates t f h Hf) as [a ->]. destruct (IH (f_high a)) as (l & -> & Hl).
    exists (a :: l). split; [reflexivity|]. cbn. f_equal. exact Hl.
  Qed.

  Lemma inc_targets_spec f ts : forall h l, 1 < h -> inc_targets dq thr f ts h = Some l ->
    Forall2 (fun T a => found_ok T h a) ts l.
  Proof.
    assert (Hweak : forall T h h' a, h' <= h -> found_ok T h' a -> found_ok T h a).
    { intros T h h' a Hle (H1 & H2 & H3 & H4 & H5 & H6). unfold found_ok. repeat split; try assumption; try lra; lia. }
    induction ts as [|t ts IH]; intros h l Hh; cbn; [intros [= <-]; constructor|].
    destruct (loop (inc_body dq thr t) f (mkBis 1 h ((h + 1) / 2) 0)) as [a|] eqn:E; [|discriminate].
    destruct (inc_targets dq thr f ts (f_high a)) as [l'|] eqn:E'; [|discriminate]. intros [= <-].
    pose proof (inc_spec t f h a Hh E) as Ha. constructor; [exact Ha|].
    destruct Ha as (_ & _ & H3 & _). apply IH in E'; [|lra].
    eapply F2_impl; [|exact E']. intros T b Hb. exact (Hweak T h (f_high a) b ltac:(lra) Hb).
  Qed.

  Lemma inc_targets_mono f f' ts : (f <= f')%nat -> forall h l,
    inc_targets dq thr f ts h = Some l -> inc_targets dq thr f' ts h = Some l.
  Proof.
    intros Hle. induction ts as [|t ts IH]; intros h l; cbn; [auto|].
    destruct (loop (inc_body dq thr t) f (mkBis 1 h ((h + 1) / 2) 0)) as [a|] eqn:E; [|discriminate].
    rewrite (loop_mono _ f f' Hle _ _ E).
    destruct (inc_targets dq thr f ts (f_high a)) as [l'|] eqn:E'; [|discriminate].
    rewrite (IH _ _ E'). auto.
  Qed.

  (** ** Bisection downwards *)
  Definition dec_ok (s : dec) : Prop :=
    0 <= d_low s /\ d_high s <= 1 /\ d_mod s = (d_low s + d_high s) / 2 /\
    d_high s - d_low s = / 2 ^ d_n s /\
    ((d_n s = 0%nat /\ d_prev s = 0) \/ d_prev s = d_mod s) /\ (d_n s < 26)%nat.

  Lemma small_step n : (n <= 25)%nat -> Rleb (/ 2 ^ n / 4) (/ 100000000) = true -> n = 25%nat.
  Proof.
    intros Hn H. apply Rleb_iff in H. destruct (Nat.eq_dec n 25) as [|Hne]; [assumption|exfalso].
    assert (Hp : 2 ^ n <= 2 ^ 24) by (apply Rle_pow; [lra|lia]).
    assert (0 < 2 ^ n) by (apply pow_lt; lra).
    assert (/ 2 ^ 24 <= / 2 ^ n) by (apply Rinv_le_contravar; assumption).
    assert (/ 2 ^ 24 / 4 > / 100000000) by (cbn [pow]; lra). lra.
  Qed.

  Lemma abs_half x y d : x - y = d -> 0 <= d -> Rabs ((x + y) / 2 - ((x + y) / 2 + x) / 2) = d / 4 /\
     Rabs ((x + y) / 2 - (y + (x + y) / 2) / 2) = d / 4.
  Proof.
    intros H Hd. split.
    - replace ((x + y) / 2 - ((x + y) / 2 + x) / 2) with (- ((x - y) / 4)) by field.
      rewrite Rabs_Ropp, H. apply Rabs_right. lra.
    - replace ((x + y) / 2 - (y + (x + y) / 2) / 2) with ((x - y) / 4) by field.
      rewrite H. apply Rabs_right. lra.
  Qed.

  Definition dec_found (T : R) (a : found) : Prop :=
    f_dq a = fabs (dq (f_mod a)) /\ 0 < f_mod a < 1 /\ (1 <= f_n a <= 26)%nat /\
    ((f_n a < 26)%nat -> f_dq a = NaN \/ exists x, f_dq a = Fin x /\ T - thr <= x <= T).

  Lemma dec_step T s : dec_ok s ->
    match dec_body dq thr T s with
    | inl s' => dec_ok s' /\ d_n s' = Datatypes.S (d_n s) /\ (d_n s' < 26)%nat
    | inr a => dec_found T a
    end.
  Proof.
    intros (H1 & H2 & H3 & H4 & H5 & H6).
    assert (Hp : 0 < / 2 ^ d_n s) by (apply Rinv_0_lt_compat, pow_lt; lra).
    assert (Hhalf : / 2 ^ Datatypes.S (d_n s) = / 2 ^ d_n s / 2).
    { cbn [pow]. rewrite Rinv_mult. lra. }
    assert (Hm : 0 < d_mod s < 1) by lra.
    destruct (abs_half (d_high s) (d_low s) _ H4 ltac:(lra)) as [Ha1 Ha2].
    replace ((d_high s + d_low s) / 2) with (d_mod s) in Ha1, Ha2 by lra.
    assert (Hstop : forall m', (m' = (d_mod s + d_high s) / 2 \/ m' = (d_low s + d_mod s) / 2) ->
       (Rleb (Rabs (d_prev s - m')) (/ 100000000) = true <-> d_n s = 25%nat)).
    { intros m' Hm'. destruct H5 as [[Hn0 Hp0]|Hprev].
      - split; [|rewrite Hn0; discriminate]. intros C. apply Rleb_iff in C. exfalso.
        rewrite Hn0 in H4. cbn [pow] in H4. rewrite Hp0 in C. rewrite Rabs_left1 in C by lra. lra.
      - assert (E : Rabs (d_prev s - m') = / 2 ^ d_n s / 4) by (rewrite Hprev; destruct Hm' as [->| ->]; assumption).
        rewrite E. split; [apply small_step; lia|]. intros ->. apply Rleb_iff. cbn [pow]. lra. }
    unfold dec_body. set (d := fabs (dq (d_mod s))).
    destruct (flt (Fin T) d) eqn:E1; [|destruct (flt d (Fin (T - thr))) eqn:E2].
    3:{ cbn [negb andb orb]. unfold dec_found. cbn [f_dq f_mod f_n]. repeat split; try lra; try lia.
        intros _. apply flt_cases; assumption. }
    - cbn [negb andb orb]. specialize (Hstop _ (or_introl eq_refl)).
      destruct (Rleb (Rabs (d_prev s - (d_mod s + d_high s) / 2)) (/ 100000000)) eqn:Es.
      + assert (d_n s = 25%nat) by (apply Hstop; reflexivity). cbn [orb]. unfold dec_found. cbn [f_dq f_mod f_n].
        repeat split; try lra; try lia.
      + assert (d_n s <> 25%nat) by (intros C; apply Hstop in C; discriminate).
        destruct (Nat.leb_spec 50 (Datatypes.S (d_n s))); [lia|]. cbn [orb]. unfold dec_ok. cbn [d_low d_high d_mod d_prev d_n].
        repeat split; try lra; try lia.
    - cbn [negb andb orb]. specialize (Hstop _ (or_intror eq_refl)).
      destruct (Rleb (Rabs (d_prev s - (d_low s + d_mod s) / 2)) (/ 100000000)) eqn:Es.
      + assert (d_n s = 25%nat) by (apply Hstop; reflexivity). cbn [orb]. unfold dec_found. cbn [f_dq f_mod f_n].
        repeat split; try lra; try lia.
      + assert (d_n s <> 25%nat) by (intros C; apply Hstop in C; discriminate).
        destruct (Nat.leb_spec 50 (Datatypes.S (d_n s))); [lia|]. cbn [orb]. unfold dec_ok. cbn [d_low d_high d_mod d_prev d_n].
        repeat split; try lra; try lia.
  Qed.

  Lemma dec_init_ok : dec_ok (mkDec 0 1 (1 / 2) 0 0).
  Proof. unfold dec_ok. cbn [d_low d_high d_mod d_prev d_n pow]. repeat split; try lra; try lia; left; split; [reflexivity|lra]. Qed.

  Lemma dec_terminates T f : (26 <= f)%nat -> exists a, loop (dec_body dq thr T) f (mkDec 0 1 (1 / 2) 0 0) = Some a.
  Proof.
    intros Hf. apply (loop_terminates (dec_body dq thr T) d_n 26 dec_ok); cbn [d_n]; try lia; [|apply dec_init_ok].
    intros s Hs. pose proof (dec_step T s Hs) as H. destruct (dec_body dq thr T s); [|exact I].
    destruct H as (H1 & H2 & H3). auto.
  Qed.

  Lemma dec_spec T f a : loop (dec_body dq thr T) f (mkDec 0 1 (1 / 2) 0 0) = Some a -> dec_found T a.
  Proof.
    apply (loop_inv (dec_body dq thr T) dec_ok (dec_found T)); [|apply dec_init_ok].
    intros s Hs. pose proof (dec_step T s Hs) as H. destruct (dec_body dq thr T s); [apply H|exact H].
  Qed.

  Lemma dec_targets_total f ts : (26 <= f)%nat -> exists l, dec_targets dq thr f ts = Some l /\ length l = length ts.
  Proof.
    intros Hf. induction ts as [|t ts IH]; cbn; [eauto|].
    destruct (dec_terminates t f Hf) as [a ->]. destruct IH as (l & -> & Hl).
    exists (a :: l). split; [reflexivity|]. cbn. f_equal. exact Hl.
  Qed.

  Lemma dec_targets_spec f ts : forall l, dec_targets dq thr f ts = Some l -> Forall2 dec_found ts l.
  Proof.
    induction ts as [|t ts IH]; intros l; cbn; [intros [= <-]; constructor|].
    destruct (loop (dec_body dq thr t) f (mkDec 0 1 (1 / 2) 0 0)) as [a|] eqn:E; [|discriminate].
    destruct (dec_targets dq thr f ts) as [l'|] eqn:E'; [|discriminate]. intros [= <-].
    constructor; [exact (dec_spec t f a E)|auto].
  Qed.

  Lemma dec_targets_mono f f' ts : (f <= f')%nat -> forall l,
    dec_targets dq thr f ts = Some l -> dec_targets dq thr f' ts = Some l.
  Proof.
    intros Hle. induction ts as [|t ts IH]; intros l; cbn; [auto|].
    destruct (loop (dec_body dq thr t) f (mkDec 0 1 (1 / 2) 0 0)) as [a|] eqn:E; [|discriminate].
    rewrite (loop_mono _ f f' Hle _ _ E).
    destruct (dec_targets dq thr f ts) as [l'|] eqn:E'; [|discriminate].
    rewrite (IH _ eq_refl). auto.
  Qed.
End Search.

(** ** Convergence of the bisection *)
Section Converge.
  Context (F : R -> R) (thr : R) (Hthr : 0 < thr).
  Let dq := fun m => Fin (F m).

  Lemma inc_finds T h L f a :
    1 < h -> F 1 <= T - thr -> T <= F h ->
    (forall x y, 1 <= x -> x <= y -> y <= h -> Rabs (F y - F x) <= L * (y - x)) ->
    L * (h - 1) <= thr * 2 ^ 100 ->
    loop (inc_body dq thr T) f (mkBis 1 h ((h + 1) / 2) 0) = Some a ->
    (exists x, f_dq a = Fin x /\ T - thr <= x <= T) /\ T <= F (f_high a) /\ 1 < f_high a <= h.
  Proof.
    intros Hh Hlo Hhi HL HLb.
    apply (loop_inv (inc_body dq thr T)
      (fun s => bis_ok h s /\ F (b_low s) <= T - thr /\ T <= F (b_high s) /\ b_high s - b_low s = (h - 1) / 2 ^ b_n s)
      (fun a => (exists x, f_dq a = Fin x /\ T - thr <= x <= T) /\ T <= F (f_high a) /\ 1 < f_high a <= h)).
    2:{ unfold bis_ok. cbn [b_low b_high b_mod b_n pow]. repeat split; try lra; try lia. }
    intros s ((H1 & H2 & H3 & H4 & H5) & H6 & H7 & H8). unfold inc_body, dq. cbn [flt].
    assert (Hm : b_low s < b_mod s < b_high s) by lra.
    assert (Hw : (h - 1) / 2 ^ Datatypes.S (b_n s) = (h - 1) / 2 ^ b_n s / 2).
    { cbn [pow]. unfold Rdiv. rewrite Rinv_mult. ring. }
    assert (Hlast : forall lo hi, 1 <= lo -> lo <= hi -> hi <= h -> hi - lo = (h - 1) / 2 ^ 100 -> F hi - F lo > thr -> False).
    { intros lo hi Ha Hb Hc Hd He. specialize (HL lo hi Ha Hb Hc). rewrite Rabs_right in HL by lra.
      rewrite Hd in HL.
      assert (L * ((h - 1) / 2 ^ 100) <= thr).
      { unfold Rdiv. rewrite <- Rmult_assoc. apply Rmult_le_reg_r with (2 ^ 100); [apply pow_lt; lra|].
        rewrite Rmult_assoc, Rinv_l by (apply pow_nonzero; lra). lra. }
      lra. }
    destruct (Rltb T (F (b_mod s))) eqn:E1; [|destruct (Rltb (F (b_mod s)) (T - thr)) eqn:E2].
    - apply Rltb_iff in E1. destruct (Nat.leb_spec 100 (Datatypes.S (b_n s))).
      + exfalso. assert (Hn : Datatypes.S (b_n s) = 100%nat) by lia. rewrite Hn in Hw.
        apply (Hlast (b_low s) (b_mod s)); try lra.
      + unfold bis_ok. cbn [b_low b_high b_mod b_n]. rewrite Hw. repeat split; try lra; try lia.
    - apply Rltb_iff in E2. apply Rltb_false in E1. destruct (Nat.leb_spec 100 (Datatypes.S (b_n s))).
      + exfalso. assert (Hn : Datatypes.S (b_n s) = 100%nat) by lia. rewrite Hn in Hw.
        apply (Hlast (b_mod s) (b_high s)); try lra.
      + unfold bis_ok. cbn [b_low b_high b_mod b_n]. rewrite Hw. repeat split; try lra; try lia.
    - apply Rltb_false in E1, E2. cbn [f_dq f_high]. repeat split; try lra. eexists; split; [reflexivity|lra].
  Qed.

  (** [ts] decreasing. *)
  Lemma inc_targets_find f L ts : forall h l,
    1 < h -> (forall T, In T ts -> F 1 <= T - thr /\ T <= F h) ->
    StronglySorted (fun a b => b <= a) ts ->
    (forall x y, 1 <= x -> x <= y -> y <= h -> Rabs (F y - F x) <= L * (y - x)) ->
    0 <= L -> L * (h - 1) <= thr * 2 ^ 100 ->
    inc_targets dq thr f ts h = Some l ->
    Forall2 (fun T a => exists x, f_dq a = Fin x /\ T - thr <= x <= T) ts l.
  Proof.
    induction ts as [|t ts IH]; intros h l Hh Hts Hs HL HL0 HLb; cbn; [intros [= <-]; constructor|].
    destruct (loop (inc_body dq thr t) f (mkBis 1 h ((h + 1) / 2) 0)) as [a|] eqn:E; [|discriminate].
    destruct (inc_targets dq thr f ts (f_high a)) as [l'|] eqn:E'; [|discriminate]. intros [= <-].
    destruct (Hts t (or_introl eq_refl)) as [Ha Hb].
    destruct (inc_finds t h L f a Hh Ha Hb HL HLb E) as (Hx & Hhi & Hr).
    inversion Hs as [|? ? Hs' Hall]; subst. rewrite Forall_forall in Hall.
    constructor; [exact Hx|]. apply (IH (f_high a)); try assumption; try lra.
    - intros T HT. split; [apply Hts; right; exact HT|]. specialize (Hall T HT). cbn in Hall. lra.
    - intros x y Hx' Hxy Hy. apply HL; lra.
    - apply Rle_trans with (L * (h - 1)); [|exact HLb]. apply Rmult_le_compat_l; lra.
  Qed.
End Converge.

(** ** Dictionaries *)
Local Open Scope nat_scope.

Definition tab {V} (g : nat -> V) (L : list nat) : list (nat * V) := map (fun i => (i, g i)) L.

Lemma dset_fresh {V} (d : list (nat * V)) i v : ~ In i (map fst d) -> dset d i v = d ++ [(i, v)].
Proof.
  induction d as [|[i' v'] d IH]; cbn; [reflexivity|]. intros H.
  destruct (Nat.eqb_spec i' i) as [->|Hne]; [exfalso; auto|]. rewrite IH by auto. reflexivity.
Qed.
Lemma dget_fresh {V} (d : list (nat * V)) i : ~ In i (map fst d) -> dget d i = None.
Proof.
  induction d as [|[i' v'] d IH]; cbn; [reflexivity|]. intros H.
  destruct (Nat.eqb_spec i' i) as [->|Hne]; [exfalso; auto|]. apply IH. auto.
Qed.
Lemma dget_app_fresh {V} (d : list (nat * V)) i v : ~ In i (map fst d) -> dget (d ++ [(i, v)]) i = Some v.
Proof.
  induction d as [|[i' v'] d IH]; cbn; intros H.
  - rewrite Nat.eqb_refl. reflexivity.
  - destruct (Nat.eqb_spec i' i) as [->|Hne]; [exfalso; auto|]. apply IH. auto.
Qed.
Lemma dset_app_fresh {V} (d : list (nat * V)) i v w : ~ In i (map fst d) -> dset (d ++ [(i, v)]) i w = d ++ [(i, w)].
Proof.
  induction d as [|[i' v'] d IH]; cbn; intros H.
  - rewrite Nat.eqb_refl. reflexivity.
  - destruct (Nat.eqb_spec i' i) as [->|Hne]; [exfalso; auto|]. rewrite IH by auto. reflexivity.
Qed.
Lemma tab_fst {V} (g : nat -> V) L : map fst (tab g L) = L.
Proof. unfold tab. rewrite map_map. cbn. apply map_id. Qed.
Lemma dget_tab {V} (g : nat -> V) L i : In i L -> dget (tab g L) i = Some (g i).
Proof.
  induction L as [|a L IH]; cbn; [tauto|]. destruct (Nat.eqb_spec a i) as [->|Hne]; [reflexivity|].
  intros [|H]; [congruence|]. apply IH, H.
Qed.
Lemma tab_ext {V} (g g' : nat -> V) L : (forall i, In i L -> g i = g' i) -> tab g L = tab g' L.
Proof. intros H. apply map_ext_in. intros i Hi. rewrite H; auto. Qed.
Lemma dset_tab {V} (g : nat -> V) L i v : NoDup L -> In i L ->
  dset (tab g L) i v = tab (fun a => if a =? i then v else g a) L.
Proof.
  induction L as [|a L IH]; cbn; [tauto|]. intros Hnd Hin. inversion Hnd as [|? ? Hni Hnd']; subst.
  destruct (Nat.eqb_spec a i) as [->|Hne].
  - f_equal. apply tab_ext. intros b Hb. destruct (Nat.eqb_spec b i) as [->|]; [contradiction|reflexivity].
  - f_equal. apply IH; [exact Hnd'|]. destruct Hin; [contradiction|assumption].
Qed.

Lemma fold_dset_tab {V} (g : nat -> V) L : forall pre, NoDup (pre ++ L) ->
  fold_left (fun e j => dset e j (g j)) L (tab g pre) = tab g (pre ++ L).
Proof.
  induction L as [|a L IH]; intros pre Hnd; cbn; [rewrite app_nil_r; reflexivity|].
  rewrite dset_fresh.
  - replace (tab g pre ++ [(a, g a)]) with (tab g (pre ++ [a])) by (unfold tab; rewrite map_app; reflexivity).
    rewrite IH; rewrite <- app_assoc; [reflexivity|exact Hnd].
  - rewrite tab_fst. apply NoDup_remove_2 in Hnd. rewrite in_app_iff in Hnd. tauto.
Qed.

(** Reassigning every key of a complete dictionary replaces it. *)
Lemma fold_dset_replace {V} (g h : nat -> V) L : NoDup L ->
  fold_left (fun e j => dset e j (g j)) L (tab h L) = tab g L.
Proof.
  intros Hnd.
  assert (G : forall todo done, L = done ++ todo ->
    fold_left (fun e j => dset e j (g j)) todo (tab (fun a => if existsb (Nat.eqb a) done then g a else h a) L) = tab g L).
  { induction todo as [|a todo IH]; intros dn ->; cbn.
    - rewrite app_nil_r. apply tab_ext. intros i Hi. replace (existsb (Nat.eqb i) dn) with true; [reflexivity|].
      symmetry. apply existsb_exists. exists i. split; [exact Hi|apply Nat.eqb_refl].
    - rewrite dset_tab; [|exact Hnd|rewrite in_app_iff; cbn; auto].
      rewrite <- (IH (dn ++ [a])); [|rewrite <- app_assoc; reflexivity].
      f_equal. apply tab_ext. intros i _. rewrite existsb_app. cbn. rewrite orb_false_r.
      destruct (existsb (Nat.eqb i) dn) eqn:E1; cbn; destruct (Nat.eqb_spec i a) as [->|]; reflexivity. }
  specialize (G L [] eq_refl). cbn in G. exact G.
Qed.

Lemma seq_results_tab k features (swap : nat -> nat -> cell) : NoDup features ->
  seq_results k features swap [] = tab (fun i => tab (swap i) features) (seq 0 k).
Proof.
  intros Hf. unfold seq_results.
  change (seq 0 k) with ([] ++ seq 0 k) at 2.
  rewrite <- (fold_dset_tab (fun i => tab (swap i) features) (seq 0 k) []); [|apply seq_NoDup].
  change (tab (fun i => tab (swap i) features) []) with (@nil (nat * list (nat * cell))).
  generalize (@nil (nat * list (nat * cell))). induction (seq 0 k) as [|a l IH]; intros d; cbn; [reflexivity|].
  rewrite IH. f_equal. f_equal. exact (fold_dset_tab (swap a) features [] Hf).
Qed.

Lemma seq_results_again k features (s1 s2 : nat -> nat -> cell) : NoDup features ->
  seq_results k features s2 (seq_results k features s1 []) = seq_results k features s2 [].
Proof.
  intros Hf. rewrite !seq_results_tab by exact Hf. unfold seq_results.
  rewrite <- (fold_dset_replace (fun i => tab (s2 i) features) (fun i => tab (s1 i) features) (seq 0 k) (seq_NoDup k 0)).
  generalize (tab (fun i => tab (s1 i) features) (seq 0 k)). induction (seq 0 k) as [|a l IH]; intros d; cbn; [reflexivity|].
  rewrite IH. f_equal. f_equal. exact (fold_dset_tab (s2 a) features [] Hf).
Qed.

(** ** Parallel results *)
(** the factors in the order in which they first occur *)
Definition firsts (l : list nat) : list nat :=
  fold_left (fun acc x => if existsb (Nat.eqb x) acc then acc else acc ++ [x]) l [].
Definition proj (i : nat) (s : list (nat * nat)) : list nat := map snd (filter (fun p => fst p =? i) s).

Lemma firsts_snoc l x : firsts (l ++ [x]) = if existsb (Nat.eqb x) (firsts l) then firsts l else firsts l ++ [x].
Proof. unfold firsts. rewrite fold_left_app. reflexivity. Qed.
Lemma existsb_in x l : existsb (Nat.eqb x) l = true <-> In x l.
Proof.
  rewrite existsb_exists. split.
  - intros (y & Hy & E). apply Nat.eqb_eq in E. subst. exact Hy.
  - intros H. exists x. split; [exact H|apply Nat.eqb_refl].
Qed.
Lemma firsts_in l x : In x (firsts l) <-> In x l.
Proof.
  induction l as [|a l IH] using rev_ind; [cbn; tauto|]. rewrite firsts_snoc, in_app_iff. cbn.
  destruct (existsb (Nat.eqb a) (firsts l)) eqn:E.
  - apply existsb_in in E. rewrite IH. split; [auto|]. intros [H|[<-|[]]]; [exact H|]. apply IH, E.
  - rewrite in_app_iff, IH. cbn. tauto.
Qed.
Lemma firsts_nodup l : NoDup (firsts l).
Proof.
  induction l as [|a l IH] using rev_ind; [constructor|]. rewrite firsts_snoc.
  destruct (existsb (Nat.eqb a) (firsts l)) eqn:E; [exact IH|].
  rewrite <- (rev_involutive (firsts l ++ [a])), rev_app_distr. apply NoDup_rev. cbn [rev app]. constructor.
  - rewrite <- in_rev. intros C. apply existsb_in in C. congruence.
  - apply NoDup_rev, IH.
Qed.
Lemma proj_snoc i s a b : proj i (s ++ [(a, b)]) = proj i s ++ (if a =? i then [b] else []).
Proof. unfold proj. rewrite filter_app, map_app. cbn. destruct (a =? i); reflexivity. Qed.
Lemma proj_in i s j : In j (proj i s) <-> In (i, j) s.
Proof.
  unfold proj. rewrite in_map_iff. split.
  - intros ([a b] & E & H). apply filter_In in H. cbn in *. destruct H as [H Ha]. apply Nat.eqb_eq in Ha. subst. exact H.
  - intros H. exists (i, j). split; [reflexivity|]. apply filter_In. split; [exact H|apply Nat.eqb_refl].
Qed.
Lemma proj_none i s : ~ In i (map fst s) -> proj i s = [].
Proof.
  intros H. destruct (proj i s) as [|j l] eqn:E; [reflexivity|]. exfalso. apply H.
  assert (In j (proj i s)) by (rewrite E; left; reflexivity). apply proj_in in H0.
  apply in_map_iff. exists (i, j). auto.
Qed.

Lemma par_results_tab (swap : nat -> nat -> cell) s : NoDup s ->
  par_results s swap [] = tab (fun i => tab (swap i) (proj i s)) (firsts (map fst s)).
Proof.
  induction s as [|[i j] s IH] using rev_ind; intros Hnd; [reflexivity|].
  assert (Hnd' : NoDup s) by (apply NoDup_remove_1 in Hnd; rewrite app_nil_r in Hnd; exact Hnd).
  assert (Hni : ~ In (i, j) s) by (apply NoDup_remove_2 in Hnd; rewrite app_nil_r in Hnd; exact Hnd).
  unfold par_results. rewrite fold_left_app. cbn [fold_left].
  change (fold_left (add_result swap) s []) with (par_results s swap []). rewrite IH by exact Hnd'.
  rewrite map_app. cbn [map fst]. rewrite firsts_snoc. unfold add_result.
  destruct (existsb (Nat.eqb i) (firsts (map fst s))) eqn:E.
  - apply existsb_in in E. rewrite dget_tab by exact E. cbv iota. rewrite dget_tab by exact E.
    rewrite dset_tab; [|apply firsts_nodup|exact E]. apply tab_ext. intros a Ha. rewrite proj_snoc.
    destruct (Nat.eqb_spec a i) as [->|Hne].
    + rewrite Nat.eqb_refl. rewrite dset_fresh; [unfold tab; rewrite map_app; reflexivity|].
      rewrite tab_fst, proj_in. exact Hni.
    + destruct (Nat.eqb_spec i a); [congruence|]. rewrite app_nil_r. reflexivity.
  - assert (Hn : ~ In i (firsts (map fst s))) by (intros C; apply existsb_in in C; congruence).
    set (d := tab (fun a => tab (swap a) (proj a s)) (firsts (map fst s))).
    assert (Hd : ~ In i (map fst d)) by (unfold d; rewrite tab_fst; exact Hn).
    rewrite (dget_fresh d i Hd), (dset_fresh d i [] Hd), (dget_app_fresh d i [] Hd), (dset_app_fresh d i [] _ Hd).
    unfold tab at 1. rewrite map_app. cbn [map]. f_equal.
    + unfold d. apply tab_ext. intros a Ha. rewrite proj_snoc. destruct (Nat.eqb_spec i a) as [<-|]; [contradiction|].
      rewrite app_nil_r. reflexivity.
    + rewrite proj_snoc, Nat.eqb_refl. rewrite (proj_none i s); [reflexivity|]. intros C. apply Hn, firsts_in, C.
Qed.

(** ** Counting *)
Definition sw (r : nat) (e : list (nat * cell)) : nat := length (filter (fun p => nth r (snd p) false) e).

Lemma count_cell_spec l : forall t r0 c0 r c, count_cell t r0 c0 l r c =
  if (c =? c0) && (r0 <=? r) && (r <? r0 + length l)
  then (fst (t r c) + 1, snd (t r c) + (if nth (r - r0) l false then 1 else 0)) else t r c.
Proof.
  induction l as [|b l IH]; intros t r0 c0 r c; cbn [count_cell length].
  - replace (r <? r0 + 0) with (r <? r0) by (f_equal; lia).
    destruct (Nat.leb_spec r0 r), (Nat.ltb_spec r r0); try lia; rewrite ?andb_false_r; reflexivity.
  - rewrite IH. unfold bump.
    destruct (Nat.eqb_spec c c0) as [->|Hc]; cbn [andb]; [|rewrite andb_false_r; reflexivity].
    destruct (Nat.eqb_spec r r0) as [->|Hr].
    + cbn [andb]. destruct (Nat.leb_spec (S r0) r0); [lia|]. destruct (Nat.leb_spec r0 r0); [|lia].
      destruct (Nat.ltb_spec r0 (r0 + S (length l))); [|lia]. cbn [andb]. rewrite Nat.sub_diag. cbn [nth].
      destruct (t r0 c0) as [n s]. cbn [fst snd]. destruct b; f_equal; lia.
    + cbn [andb]. destruct (Nat.leb_spec (S r0) r), (Nat.leb_spec r0 r); try lia; cbn [andb]; [|reflexivity].
      replace (S r0 + length l) with (r0 + S (length l)) by lia.
      replace (r - r0) with (S (r - S r0)) by lia. reflexivity.
Qed.

Lemma count_entries e : forall t c0 r c, (forall p, In p e -> length (snd p) = 4) -> r < 4 ->
  fold_left (fun t p => count_cell t 0 c0 (snd p)) e t r c =
  if c =? c0 then (fst (t r c) + length e, snd (t r c) + sw r e) else t r c.
Proof.
  induction e as [|p e IH]; intros t c0 r c He Hr; cbn [fold_left].
  - unfold sw. cbn [length filter]. rewrite !Nat.add_0_r. destruct (t r c). destruct (c =? c0); reflexivity.
  - rewrite IH; [|intros q Hq; apply He; right; exact Hq|exact Hr]. rewrite count_cell_spec.
    pose proof (He p (or_introl eq_refl)) as Hl. destruct p as [x l]. cbn [snd] in *.
    replace (length l) with 4 by (symmetry; exact Hl). destruct (Nat.eqb_spec c c0); [|reflexivity].
    destruct (Nat.leb_spec 0 r); [|lia]. destruct (Nat.ltb_spec r (0 + 4)); [|lia]. cbn [andb fst snd].
    rewrite Nat.sub_0_r. unfold sw. cbn [filter length snd]. destruct (nth r l false); cbn [length]; f_equal; lia.
Qed.

Lemma count_factors_spec d : forall t c0 r c, (forall i e p, In (i, e) d -> In p e -> length (snd p) = 4) -> r < 4 ->
  count_factors t c0 d r c =
  if c0 <=? c then match nth_error d (c - c0) with
                   | Some (_, e) => (fst (t r c) + length e, snd (t r c) + sw r e)
                   | None => t r c
                   end else t r c.
Proof.
  induction d as [|[i e] d IH]; intros t c0 r c Hd Hr; cbn [count_factors].
  - destruct (c0 <=? c); [|reflexivity]. destruct (c - c0); reflexivity.
  - rewrite IH; [|intros i' e' p Hi; apply (Hd i' e' p); right; exact Hi|exact Hr].
    rewrite !count_entries; [|intros p Hp; apply (Hd i e p); [left; reflexivity|exact Hp]|exact Hr].
    destruct (Nat.eqb_spec c c0) as [->|Hne].
    + destruct (Nat.leb_spec (S c0) c0); [lia|]. rewrite Nat.leb_refl, Nat.sub_diag. reflexivity.
    + destruct (Nat.leb_spec (S c0) c), (Nat.leb_spec c0 c); try lia; [|reflexivity].
      replace (c - c0) with (S (c - S c0)) by lia. reflexivity.
Qed.

Lemma sw_tab r g L : sw r (tab g L) = length (filter (fun j => nth r (g j) false) L).
Proof.
  unfold sw, tab. induction L as [|a L IH]; cbn; [reflexivity|]. destruct (nth r (g a) false); cbn; rewrite IH; reflexivity.
Qed.
Lemma tab_length {V} (g : nat -> V) L : length (tab g L) = length L.
Proof. apply map_length. Qed.
Lemma tab_in {V} (g : nat -> V) L i v : In (i, v) (tab g L) -> v = g i /\ In i L.
Proof. unfold tab. rewrite in_map_iff. intros (a & E & H). injection E as <- <-. auto. Qed.
Lemma filter_perm_length {A} (f : A -> bool) l l' : Permutation l l' -> length (filter f l) = length (filter f l').
Proof.
  induction 1; cbn; auto; try congruence.
  - destruct (f x); cbn; congruence.
  - destruct (f x), (f y); reflexivity.
Qed.
Lemma filter_perm {A} (f : A -> bool) l l' : Permutation l l' -> Permutation (filter f l) (filter f l').
Proof.
  induction 1; cbn.
  - constructor.
  - destruct (f x); [constructor|]; assumption.
  - destruct (f x), (f y); try constructor; try reflexivity.
  - etransitivity; eassumption.
Qed.
Lemma proj_perm i s s' : Permutation s s' -> Permutation (proj i s) (proj i s').
Proof. intros H. unfold proj. apply Permutation_map, filter_perm, H. Qed.

Lemma proj_prod i ks F : NoDup ks -> In i ks -> proj i (list_prod ks F) = F.
Proof.
  assert (Hone : forall a L, proj i (map (fun y => (a, y)) L) = if a =? i then L else []).
  { intros a L. unfold proj. induction L as [|b L IH]; cbn; [destruct (a =? i); reflexivity|].
    destruct (a =? i) eqn:E; cbn; [f_equal; exact IH|exact IH]. }
  assert (Happ : forall a b, proj i (a ++ b) = proj i a ++ proj i b).
  { intros a b. unfold proj. rewrite filter_app, map_app. reflexivity. }
  induction ks as [|a ks IH]; cbn [list_prod]; [intros _ []|]. intros Hnd Hin. inversion Hnd; subst.
  rewrite Happ, Hone. destruct (Nat.eqb_spec a i) as [->|Hne].
  - rewrite (proj_none i (list_prod ks F)); [apply app_nil_r|].
    intros C. apply in_map_iff in C. destruct C as ([x y] & E & C). cbn in E. subst x. apply in_prod_iff in C. tauto.
  - cbn. apply IH; [assumption|]. destruct Hin; [contradiction|assumption].
Qed.

(** ** The displaced loss *)
Local Open Scope R_scope.

Lemma disp_mmul k W H i j x t b : (i < k)%nat ->
  mmul k W (displaced H i j x) t b = mmul k W H t b + (if (b =? j)%nat then W t i * H i j * (x - 1) else 0).
Proof.
  intros Hi. unfold mmul. rewrite (rsum_split k _ i Hi). symmetry. rewrite (rsum_split k _ i Hi). symmetry.
  unfold displaced at 1. rewrite Nat.eqb_refl. cbn [andb].
  rewrite (rsum_ext k (fun a => if (a =? i)%nat then 0 else W t a * displaced H i j x a b)
                      (fun a => if (a =? i)%nat then 0 else W t a * H a b)).
  - destruct (Nat.eqb_spec b j) as [->|]; ring.
  - intros a Ha. unfold displaced. destruct (Nat.eqb_spec a i); [reflexivity|]. reflexivity.
Qed.

Lemma disp_quadratic m n k V U W H i j x : (i < k)%nat -> (j < n)%nat ->
  q_loss m n k true V U W (displaced H i j x) - q_loss m n k true V U W H =
  rsum m (fun t => (W t i * H i j / U t j) * (W t i * H i j / U t j)) * ((x - 1) * (x - 1)) +
  rsum m (fun t => -2 * (W t i * H i j / U t j) * ((V t j - mmul k W H t j) / U t j)) * (x - 1).
Proof.
  intros Hi Hj. unfold q_loss, msum, resid.
  rewrite <- rsum_minus, <- !rsum_scal_r, <- rsum_plus. apply rsum_ext. intros t Ht.
  rewrite <- rsum_minus. rewrite (rsum_split n _ j Hj).
  rewrite (rsum_ext n _ (fun _ => 0)).
  - rewrite rsum_0. cbv zeta. rewrite disp_mmul by exact Hi. rewrite Nat.eqb_refl. unfold Rdiv. ring.
  - intros b Hb. destruct (Nat.eqb_spec b j); [reflexivity|]. cbv zeta. rewrite disp_mmul by exact Hi.
    destruct (Nat.eqb_spec b j); [contradiction|]. rewrite Rplus_0_r. ring.
Qed.

(** A quadratic is Lipschitz on a bounded interval. *)
Lemma quad_lip (A B C h : R) : 0 <= A -> 1 <= h -> forall x y, 1 <= x -> x <= y -> y <= h ->
  Rabs ((A * ((y - 1) * (y - 1)) + B * (y - 1) + C) - (A * ((x - 1) * (x - 1)) + B * (x - 1) + C))
  <= (2 * A * (h - 1) + Rabs B) * (y - x).
Proof.
  intros HA Hh x y Hx Hxy Hy.
  replace (A * ((y - 1) * (y - 1)) + B * (y - 1) + C - (A * ((x - 1) * (x - 1)) + B * (x - 1) + C))
    with ((A * ((y - 1) + (x - 1)) + B) * (y - x)) by ring.
  rewrite Rabs_mult, (Rabs_right (y - x)) by lra.
  apply Rmult_le_compat_r; [lra|]. eapply Rle_trans; [apply Rabs_triang|]. apply Rplus_le_compat_r.
  rewrite Rabs_right; [|apply Rle_ge, Rmult_le_pos; lra].
  replace (2 * A * (h - 1)) with (A * (2 * (h - 1))) by ring. apply Rmult_le_compat_l; lra.
Qed.

Lemma percent_displaced k H i j x : (i < k)%nat ->
  percent k (displaced H i j x) i j = H i j * x / (rsum k (fun a => H a j) + H i j * (x - 1)).
Proof.
  intros Hi. unfold percent. rewrite (rsum_split k (fun a => displaced H i j x a j) i Hi).
  rewrite (rsum_split k (fun a => H a j) i Hi).
  unfold displaced at 1 2. rewrite !Nat.eqb_refl. cbn [andb].
  rewrite (rsum_ext k (fun a => if (a =? i)%nat then 0 else displaced H i j x a j)
                      (fun a => if (a =? i)%nat then 0 else H a j)).
  - f_equal. ring.
  - intros a Ha. unfold displaced. destruct (Nat.eqb_spec a i); reflexivity.
Qed.

Lemma frac_le a b r : 0 <= r -> 0 <= a -> a <= b -> 0 < a + r -> a / (a + r) <= b / (b + r).
Proof.
  intros Hr Ha Hab Hp.
  apply Rmult_le_reg_r with ((a + r) * (b + r)); [apply Rmult_lt_0_compat; lra|].
  replace (a / (a + r) * ((a + r) * (b + r))) with (a * (b + r)) by (field; lra).
  replace (b / (b + r) * ((a + r) * (b + r))) with (b * (a + r)) by (field; lra). nra.
Qed.

Lemma percent_mono k H i j x y : (i < k)%nat -> (forall a, (a < k)%nat -> 0 < H a j) -> 0 < x -> x <= y ->
  percent k (displaced H i j x) i j <= percent k (displaced H i j y) i j.
Proof.
  intros Hi HH Hx Hxy. rewrite !percent_displaced by exact Hi.
  set (r := rsum k (fun a => if (a =? i)%nat then 0 else H a j)).
  assert (Hr : 0 <= r). { apply rsum_nonneg. intros a Ha. destruct (a =? i)%nat; [lra|]. specialize (HH a Ha). lra. }
  rewrite (rsum_split k (fun a => H a j) i Hi). fold r. specialize (HH i Hi).
  replace (H i j + r + H i j * (x - 1)) with (H i j * x + r) by ring.
  replace (H i j + r + H i j * (y - 1)) with (H i j * y + r) by ring.
  assert (0 < H i j * x) by (apply Rmult_lt_0_compat; lra).
  apply frac_le; try lra. apply Rmult_le_compat_l; lra.
Qed.

(** ** Convergence of the downward bisection *)
Lemma dec_finds (F : R -> R) thr T L f a :
  0 < thr -> Rabs (F 1) <= T - thr -> T <= Rabs (F 0) ->
  (forall x y, 0 <= x -> x <= y -> y <= 1 -> Rabs (F y - F x) <= L * (y - x)) ->
  L <= thr * 2 ^ 26 ->
  loop (dec_body (fun m => Fin (F m)) thr T) f (mkDec 0 1 (1 / 2) 0 0) = Some a ->
  exists x, f_dq a = Fin x /\ T - thr <= x <= T.
Proof.
  intros Hthr Hlo Hhi HL HLb.
  set (dq := fun m => Fin (F m)).
  apply (loop_inv (dec_body dq thr T)
     (fun s => dec_ok s /\ Rabs (F (d_high s)) <= T - thr /\ T <= Rabs (F (d_low s)))
     (fun a => exists x, f_dq a = Fin x /\ T - thr <= x <= T)).
  2:{ split; [apply dec_init_ok|]. cbn [d_low d_high]. split; assumption. }
  intros s (Hs & H6 & H7). pose proof (dec_step dq thr T s Hs) as Hstep.
  destruct (dec_body dq thr T s) as [s'|b] eqn:E.
  - destruct Hstep as (Hok & _). split; [exact Hok|]. revert E. unfold dec_body, dq. cbn [fabs flt].
    destruct (Rltb T (Rabs (F (d_mod s)))) eqn:E1.
    + destruct (_ || _); [discriminate|]. intros [= <-]. cbn [d_low d_high]. apply Rltb_iff in E1. split; [exact H6|lra].
    + destruct (Rltb (Rabs (F (d_mod s))) (T - thr)) eqn:E2; [|discriminate].
      destruct (_ || _); [discriminate|]. intros [= <-]. cbn [d_low d_high]. apply Rltb_iff in E2. split; [lra|exact H7].
  - destruct Hstep as (Hdq & Hm & Hn & Hr).
    assert (Hfin : f_dq b = Fin (Rabs (F (f_mod b)))) by (rewrite Hdq; reflexivity).
    destruct (Nat.eq_dec (f_n b) 26) as [Hn26|Hne].
    2:{ destruct (Hr ltac:(lia)) as [C|C]; [rewrite Hfin in C; discriminate|exact C]. }
    destruct Hs as (H1 & H2 & H3 & H4 & H5 & H8).
    assert (HL' : forall lo hi, 0 <= lo -> lo <= hi -> hi <= 1 -> hi - lo = / 2 ^ 26 -> thr < Rabs (F lo) - Rabs (F hi) -> False).
    { intros lo hi Ha Hb Hc Hd He. specialize (HL lo hi Ha Hb Hc). rewrite Hd in HL.
      pose proof (Rabs_triang_inv (F lo) (F hi)) as Ht. rewrite Rabs_minus_sym in Ht.
      assert (L * / 2 ^ 26 <= thr).
      { apply Rmult_le_reg_r with (2 ^ 26); [apply pow_lt; lra|].
        rewrite Rmult_assoc, Rinv_l by (apply pow_nonzero; lra). lra. }
      lra. }
    revert E. unfold dec_body, dq. cbn [fabs flt].
    destruct (Rltb T (Rabs (F (d_mod s)))) eqn:E1; [|destruct (Rltb (Rabs (F (d_mod s))) (T - thr)) eqn:E2].
    + destruct (_ || _); [|discriminate]. intros [= <-]. cbn [f_n] in Hn26. exfalso.
      apply Rltb_iff in E1. assert (Hd25 : d_n s = 25%nat) by lia. rewrite Hd25 in H4.
      assert (Hw : / 2 ^ 26 = / 2 ^ 25 / 2) by (change 26%nat with (S 25); cbn [pow]; field).
      assert (0 < / 2 ^ 25) by (apply Rinv_0_lt_compat, pow_lt; lra).
      apply (HL' (d_mod s) (d_high s)); lra.
    + destruct (_ || _); [|discriminate]. intros [= <-]. cbn [f_n] in Hn26. exfalso.
      apply Rltb_iff in E2. assert (Hd25 : d_n s = 25%nat) by lia. rewrite Hd25 in H4.
      assert (Hw : / 2 ^ 26 = / 2 ^ 25 / 2) by (change 26%nat with (S 25); cbn [pow]; field).
      assert (0 < / 2 ^ 25) by (apply Rinv_0_lt_compat, pow_lt; lra).
      apply (HL' (d_low s) (d_mod s)); lra.
    + cbn [negb andb orb]. intros [= <-]. cbn [f_dq]. eexists; split; [reflexivity|].
      apply Rltb_false in E1, E2. lra.
Qed.

Lemma dec_targets_find (F : R -> R) thr L f ts : forall l,
  0 < thr -> (forall T, In T ts -> Rabs (F 1) <= T - thr /\ T <= Rabs (F 0)) ->
  (forall x y, 0 <= x -> x <= y -> y <= 1 -> Rabs (F y - F x) <= L * (y - x)) ->
  L <= thr * 2 ^ 26 ->
  dec_targets (fun m => Fin (F m)) thr f ts = Some l ->
  Forall2 (fun T a => exists x, f_dq a = Fin x /\ T - thr <= x <= T) ts l.
Proof.
  intros l Hthr Hts HL HLb. revert l. induction ts as [|t ts IH]; intros l; cbn; [intros [= <-]; constructor|].
  destruct (loop _ f (mkDec 0 1 (1 / 2) 0 0)) as [a|] eqn:E; [|discriminate].
  destruct (dec_targets _ thr f ts) as [l'|] eqn:E'; [|discriminate]. intros [= <-].
  destruct (Hts t (or_introl eq_refl)) as [Ha Hb]. constructor.
  - exact (dec_finds F thr t L f a Hthr Ha Hb HL HLb E).
  - apply IH; [intros; apply Hts; right; assumption|reflexivity].
Qed.
