(** Lemmas about WS-NMF in IEEE arithmetic for C125. *)
From Coq Require Import ZArith Reals Lra Lia List Bool Arith.
From Flocq Require Import Core BinarySingleNaN.
From Verif Require Import Base Float_Model Float_Spec Float_Proofs Acc_Spec Acc_Proofs RobF_Model RobF_Spec RobF_Acc WsF_Model WsF_Spec.
Import ListNotations.
Local Open Scope nat_scope.

Section P.
  Context {prec emax : Z} {Hprec : Prec_gt_0 prec} {Hmax : Prec_lt_emax prec emax}.
  Notation F := (binary_float prec emax).
  Notation fmat := (fmat prec emax).

  (** ** Signs *)
  Lemma two_val : is_finite (ftwo : F) = true /\ B2R (ftwo : F) = 2%R /\ Bsign (ftwo : F) = false.
  Proof.
    pose proof (binary_normalize_correct prec emax Hprec Hmax mode_NE 1 1 false) as C. cbv zeta in C.
    assert (E : F2R (Float radix2 1 1) = 2%R) by (unfold F2R; cbn; lra). rewrite E in C.
    assert (G : generic_format radix2 (SpecFloat.fexp prec emax) 2).
    { change 2%R with (bpow radix2 1). apply generic_format_bpow. unfold SpecFloat.fexp, SpecFloat.emin, Prec_gt_0, Prec_lt_emax in *. lia. }
    rewrite round_generic in C by (try typeclasses eauto; exact G).
    rewrite Rlt_bool_true in C.
    - destruct C as (C1 & C2 & C3). rewrite Rcompare_Gt in C3 by lra. repeat split; assumption.
    - rewrite Rabs_pos_eq by lra. change 2%R with (bpow radix2 1). apply bpow_lt. unfold Prec_gt_0, Prec_lt_emax in *. lia.
  Qed.

  Lemma abs_sign (x : F) : nonneg (fabs x).
  Proof. destruct x; [right|right|left|right]; reflexivity. Qed.

  Lemma neg_part_nn (W : fmat) i a : nonneg (fneg_part W i a).
  Proof.
    unfold fneg_part. apply nn_div; [|right; apply two_val]. set (w := W i a). clearbody w.
    assert (D : (exists s, w = B754_infinity s) \/ w = B754_nan \/ is_finite w = true) by (destruct w; eauto).
    destruct D as [[[|] ->]|[->|Ff]]; [right; reflexivity|left; reflexivity|left; reflexivity|]. right.
    assert (Fa : is_finite (fabs w) = true) by (destruct w; cbn in *; congruence).
    assert (Sa : Bsign (fabs w) = false) by (destruct w; cbn in *; congruence).
    pose proof (Bminus_correct prec emax _ _ mode_NE (fabs w) w Fa Ff) as C. unfold fsub.
    assert (Ea : B2R (fabs w) = Rabs (B2R w)) by apply B2R_Babs. rewrite Ea in C.
    destruct (Rlt_bool _ _).
    - destruct C as (_ & _ & ->). destruct (Rcompare_spec (Rabs (B2R w) - B2R w) 0) as [L|L|L]; [exfalso|rewrite Sa; reflexivity|reflexivity].
      pose proof (Rle_abs (B2R w)). lra.
    - destruct C as [C _]. rewrite Sa in C. apply sf_inf_sign, C.
  Qed.

  Lemma pos_part_nn (W : fmat) i a : nonneg (fpos_part W i a).
  Proof.
    unfold fpos_part. apply nn_div; [|right; apply two_val]. set (w := W i a). clearbody w.
    assert (D : (exists s, w = B754_infinity s) \/ w = B754_nan \/ is_finite w = true) by (destruct w; eauto).
    destruct D as [[[|] ->]|[->|Ff]]; [left; reflexivity|right; reflexivity|left; reflexivity|]. right.
    assert (Fa : is_finite (fabs w) = true) by (destruct w; cbn in *; congruence).
    assert (Sa : Bsign (fabs w) = false) by (destruct w; cbn in *; congruence).
    pose proof (Bplus_correct prec emax _ _ mode_NE (fabs w) w Fa Ff) as C. unfold fadd.
    assert (Ea : B2R (fabs w) = Rabs (B2R w)) by apply B2R_Babs. rewrite Ea in C.
    destruct (Rlt_bool _ _).
    - destruct C as (_ & _ & ->). destruct (Rcompare_spec (Rabs (B2R w) + B2R w) 0) as [L|L|L]; [exfalso|rewrite Sa; reflexivity|reflexivity].
      pose proof (Rle_abs (- B2R w)) as A. rewrite Rabs_Ropp in A. lra.
    - destruct C as [C _]. rewrite Sa in C. apply sf_inf_sign, C.
  Qed.

  Lemma sqrt_cases (x : F) : nonneg (fsqrt x) \/ iszero (fsqrt x).
  Proof.
    destruct x as [s|s| |s m e He]; [right; exists s; reflexivity|destruct s; left; [left|right]; reflexivity|left; left; reflexivity|].
    left. destruct s; [left; reflexivity|]. pose proof (Bsqrt_correct prec emax _ _ mode_NE (B754_finite false m e He)) as (_ & _ & C).
    destruct (nn_cases (fsqrt (B754_finite false m e He))) as [N|N]; [left; exact N|right]. exact (C N).
  Qed.

  Lemma sqrt_nn (x : F) : nonneg x -> nonneg (fsqrt x).
  Proof.
    intros [N|S]; [left; rewrite (nan_eq x N); reflexivity|]. destruct (sqrt_cases x) as [A|[s E]]; [exact A|].
    destruct (nn_cases (fsqrt x)) as [N|N]; [left; exact N|right].
    pose proof (Bsqrt_correct prec emax _ _ mode_NE x) as (_ & _ & C). unfold fsqrt. rewrite (C N). exact S.
  Qed.

  (** Not less than zero: NaN, sign bit clear, or a zero of either sign. *)
  Lemma lt0 (x : F) : Bltb x fzero = false <-> nonneg x \/ iszero x.
  Proof.
    unfold nonneg, iszero, fzero. destruct x as [s|s| |s m e He]; cbn.
    - split; [right; exists s; reflexivity|reflexivity].
    - destruct s; cbn; (split; [intros E|intros [[E|E]|[s E]]]); try discriminate; auto.
    - split; auto.
    - destruct s; cbn; (split; [intros E|intros [[E|E]|[s E]]]); try discriminate; auto.
  Qed.

  Lemma mul_lt0 (x y : F) : Bltb x fzero = false -> nonneg y \/ iszero y -> Bltb (fmul x y) fzero = false.
  Proof.
    intros A B. apply lt0 in A. apply lt0. destruct A as [A|A].
    - destruct B as [B|B]; [left; apply nn_mul; assumption|].
      destruct (void_mul_r x y (or_intror B)) as [N|Z]; [left; left; exact N|right; exact Z].
    - destruct (void_mul_l x y (or_intror A)) as [N|Z]; [left; left; exact N|right; exact Z].
  Qed.

  Context (solve : fmat -> fmat) (tiny : F) (m n k : nat) (V We : fmat).

  Lemma ws_h_lt0 W H H' : every k n (fun x => Bltb x fzero = false) H -> ws_h_update tiny m n k V We W H H' ->
    every k n (fun x => Bltb x fzero = false) H'.
  Proof.
    intros HH E a j Ha Hj. destruct (E j Hj) as (N1 & D1 & N2a & N2b & D2a & D2b & N2 & D2 & _ & _ & _ & _ & _ & _ & _ & _ & E').
    rewrite E' by exact Ha. apply mul_lt0; [apply HH; assumption|apply sqrt_cases].
  Qed.

  Lemma every_diag r (d : nat -> F) : (forall i, i < r -> nonneg (d i)) -> every r r nonneg (diag d).
  Proof. intros Hd p q Hp' _. unfold diag. destruct (p =? q); [apply Hd, Hp'|right; reflexivity]. Qed.

  Lemma ws_h_nn W H H' : every m n nonneg V -> every m n nonneg We -> nonneg tiny -> every k n nonneg H ->
    ws_h_update tiny m n k V We W H H' -> every k n nonneg H'.
  Proof.
    intros HV HW Ht HH E a j Ha Hj. destruct (E j Hj) as (N1 & D1 & N2a & N2b & D2a & D2b & N2 & D2 & P1 & P2 & P3 & P4 & P5 & P6 & P7 & P8 & E').
    rewrite E' by exact Ha.
    assert (Q : forall (P : fmat) A B C, (forall i b, nonneg (P i b)) -> product k m m (transpose P) (diag (fun i => We i j)) A -> product k m k A P B -> product 1 k k (fun _ b => H b j) B C -> nonneg (C 0 a)).
    { intros P A B C HP E1 E2 E3.
      assert (NA : every k m nonneg A).
      { apply (product_nn k m m (transpose P) (diag (fun i => We i j)) A); [intros ? ? _ _; apply HP|apply every_diag; intros; apply HW; assumption|exact E1]. }
      assert (NB : every k k nonneg B) by (apply (product_nn k m k A P B); [exact NA|intros ? ? _ _; apply HP|exact E2]).
      apply (product_nn 1 k k (fun _ b => H b j) B C); [intros ? b _ Hb; apply HH; assumption|exact NB|exact E3|lia|exact Ha]. }
    assert (L : forall (P C : fmat), (forall i b, nonneg (P i b)) -> product 1 m k (fun _ i => fmul (We i j) (V i j)) P C -> nonneg (C 0 a)).
    { intros P C HP E1. apply (product_nn 1 m k (fun _ i => fmul (We i j) (V i j)) P C); [intros ? i _ Hi; apply nn_mul; [apply HW|apply HV]; assumption|intros ? ? _ _; apply HP|exact E1|lia|exact Ha]. }
    apply nn_mul; [apply HH; assumption|]. apply sqrt_nn, nn_div; apply nn_add; try exact Ht; apply nn_add.
    - exact (L _ _ (pos_part_nn W) P1).
    - exact (Q _ _ _ _ (neg_part_nn W) P3 P4 P7).
    - exact (L _ _ (neg_part_nn W) P2).
    - exact (Q _ _ _ _ (pos_part_nn W) P5 P6 P8).
  Qed.

  (** ** NaN *)
  Lemma ws_w_nan H W' : somewhere k n isnan H -> ws_w_update solve m n k V We H W' -> every m k isnan W'.
  Proof.
    intros (a & j & Ha & Hj & N) E i b Hi Hb. destruct (E i Hi) as (Wn & Uh & Wd & P1 & _ & _ & D).
    apply (dot_nan _ _ (D b Hb)). exists (Wn a 0, solve Wd a b). split; [exact (row_in k (fun a => Wn a 0) (fun a => solve Wd a b) a Ha)|].
    left. apply (product_nan k n 1 H (fun j _ => fmul (We i j) (V i j)) Wn a j 0 Ha Hj); [lia|exact P1|left; exact N].
  Qed.

  (** A NaN in the data or the weights of a sample. *)
  Lemma ws_w_nan_row H W' i j : i < m -> j < n -> is_nan (We i j) = true \/ is_nan (V i j) = true -> ws_w_update solve m n k V We H W' ->
    forall b, b < k -> isnan (W' i b).
  Proof.
    intros Hi Hj N E b Hb. destruct (E i Hi) as (Wn & Uh & Wd & P1 & _ & _ & D).
    apply (dot_nan _ _ (D b Hb)). exists (Wn b 0, solve Wd b b). split; [exact (row_in k (fun a => Wn a 0) (fun a => solve Wd a b) b Hb)|].
    left. apply (product_nan k n 1 H (fun j _ => fmul (We i j) (V i j)) Wn b j 0 Hb Hj); [lia|exact P1|right].
    destruct N as [N|N]; [apply mul_nan_l|apply mul_nan_r]; exact N.
  Qed.

  Lemma quad_nan (P A B C : fmat) H i a j c : i < m -> a < k -> c < k -> is_nan (P i a) = true ->
    product k m m (transpose P) (diag (fun i => We i j)) A -> product k m k A P B -> product 1 k k (fun _ b => H b j) B C -> is_nan (C 0 c) = true.
  Proof.
    intros Hi Ha Hc N E1 E2 E3.
    apply (product_nan 1 k k (fun _ b => H b j) B C 0 a c); [lia|exact Ha|exact Hc|exact E3|right].
    apply (product_nan k m k A P B a i c Ha Hi Hc E2). left.
    apply (product_nan k m m (transpose P) (diag (fun i => We i j)) A a i i Ha Hi Hi E1). left. exact N.
  Qed.

  Lemma ws_h_nan W H H' i a : i < m -> a < k -> is_finite (W i a) = false -> ws_h_update tiny m n k V We W H H' -> every k n isnan H'.
  Proof.
    intros Hi Ha N E c j Hc Hj. destruct (E j Hj) as (N1 & D1 & N2a & N2b & D2a & D2b & N2 & D2 & P1 & P2 & P3 & P4 & P5 & P6 & P7 & P8 & E').
    unfold isnan. rewrite E' by exact Hc. apply mul_nan_r.
    assert (S : forall x : F, is_nan x = true -> is_nan (fsqrt x) = true) by (intros x Nx; rewrite (nan_eq x Nx); reflexivity).
    apply S. assert (K : is_nan (fneg_part W i a) = true \/ is_nan (fpos_part W i a) = true).
    { unfold fneg_part, fpos_part. destruct (W i a) as [s|s| |s me e He]; try discriminate; [destruct s|]; [right|left|left]; apply div_nan_l; reflexivity. }
    destruct K as [K|K].
    - apply div_nan_l, add_nan_l, add_nan_r. exact (quad_nan _ _ _ _ H i a j c Hi Ha Hc K P3 P4 P7).
    - apply div_nan_r, add_nan_l, add_nan_r. exact (quad_nan _ _ _ _ H i a j c Hi Ha Hc K P5 P6 P8).
  Qed.

  Lemma ws_step_nan hold st st' : 0 < m -> ws_fstep solve tiny m n k V We hold st st' -> somewhere k n isnan (snd st) ->
    every m k isnan (fst st') /\ somewhere k n isnan (snd st') /\ (hold = false -> every k n isnan (snd st')).
  Proof.
    intros Hm [E1 E2] N. pose proof (ws_w_nan _ _ N E1) as A. split; [exact A|].
    destruct N as (a & j & Ha & Hj & N). destruct hold.
    - split; [|discriminate]. exists a, j. repeat split; try assumption. rewrite E2 by assumption. exact N.
    - assert (B : every k n isnan (snd st')).
      { apply (ws_h_nan _ _ _ 0 a Hm Ha) with (2 := E2). pose proof (A 0 a Hm Ha) as X. unfold isnan in X. destruct (fst st' 0 a); cbn in *; congruence. }
      split; [|intros _; exact B]. exists a, j. repeat split; try assumption. apply B; assumption.
  Qed.

  Lemma ws_h_void W H H' a j : a < k -> j < n -> void (H a j) -> ws_h_update tiny m n k V We W H H' -> void (H' a j).
  Proof.
    intros Ha Hj Z E. destruct (E j Hj) as (N1 & D1 & N2a & N2b & D2a & D2b & N2 & D2 & _ & _ & _ & _ & _ & _ & _ & _ & E').
    rewrite E' by exact Ha. apply void_mul_l, Z.
  Qed.

  (** ** Plain loops are an engine *)
  Lemma ws_upd_ltr_ok : ws_implements solve tiny m n k V We (ws_upd_ltr solve tiny m n k V We).
  Proof.
    intros hold st. unfold ws_upd_ltr, ws_fstep. cbn [fst snd]. split.
    - intros i Hi. eexists. eexists. eexists. split; [apply prod_ltr_ok|]. split; [apply prod_ltr_ok|]. split; [apply stored_prod_ok|].
      intros b Hb. rewrite stored_ok by assumption. apply dot_ltr_ok.
    - destruct hold; [reflexivity|]. intros j Hj. do 8 eexists.
      split; [apply prod_ltr_ok|]. split; [apply prod_ltr_ok|]. split; [apply prod_ltr_ok|]. split; [apply prod_ltr_ok|].
      split; [apply prod_ltr_ok|]. split; [apply prod_ltr_ok|]. split; [apply prod_ltr_ok|]. split; [apply prod_ltr_ok|].
      intros a Ha. rewrite stored_ok by assumption. reflexivity.
  Qed.
End P.

(** ** Accuracy *)
Local Open Scope R_scope.
Section A.
  Context {prec emax : Z} {Hprec : Prec_gt_0 prec} {Hmax : Prec_lt_emax prec emax}.
  Notation F := (binary_float prec emax).
  Notation fmat := (fmat prec emax).
  Notation fexp := (SpecFloat.fexp prec emax).
  Notation rnd := (round radix2 fexp (round_mode mode_NE)).
  Notation g := (growth prec).
  Notation near := (within prec).
  Notation ok := (in_range (emax := emax)).

  (** x + x and x - x are exact for half of the range, and so is halving. *)
  Lemma double_format (x : F) : generic_format radix2 fexp (2 * B2R x).
  Proof.
    replace (2 * B2R x) with (B2R x * bpow radix2 1) by (cbn; lra). destruct (Req_dec (B2R x) 0) as [->|NZ]; [rewrite Rmult_0_l; apply generic_format_0|].
    pose proof (generic_format_B2R prec emax x) as G. unfold generic_format in G. rewrite G.
    apply generic_format_F2R' with (f := Float radix2 (Ztrunc (scaled_mantissa radix2 fexp (B2R x))) (cexp radix2 fexp (B2R x) + 1)).
    - unfold F2R. cbn [Fnum Fexp]. rewrite bpow_plus. ring.
    - intros _. cbn [Fexp]. rewrite <- G. unfold cexp. rewrite mag_mult_bpow by exact NZ. unfold SpecFloat.fexp, SpecFloat.emin. lia.
  Qed.

  Lemma half_val (x : F) y : is_finite x = true -> Bsign x = false -> B2R x = 2 * y -> generic_format radix2 fexp y -> Rabs y < bpow radix2 emax ->
    proper (fdiv x ftwo) /\ B2R (fdiv x ftwo) = y.
  Proof.
    intros Fx Sx Ex Gy Ly. destruct (two_val (prec := prec) (emax := emax)) as (F2 & E2 & S2).
    pose proof (Bdiv_correct prec emax _ _ mode_NE x ftwo ltac:(rewrite E2; lra)) as C. rewrite E2, Ex in C.
    replace (2 * y / 2) with y in C by field. rewrite round_generic in C by (try typeclasses eauto; exact Gy).
    rewrite Rlt_bool_true in C by exact Ly. destruct C as (C1 & C2 & C3). unfold fdiv, proper.
    assert (Ff : is_finite (Bdiv mode_NE x ftwo) = true) by (rewrite C2; exact Fx).
    split; [split; [|exact Ff]|exact C1]. rewrite C3 by (destruct (Bdiv mode_NE x ftwo); cbn in *; congruence). rewrite Sx, S2. reflexivity.
  Qed.

  Lemma pos_exact (W : fmat) i a : is_finite (W i a) = true -> Rabs (B2R (W i a)) < bpow radix2 (emax - 1) ->
    proper (fpos_part W i a) /\ B2R (fpos_part W i a) = up (value W i a).
  Proof.
    unfold fpos_part, value, up. set (w := W i a). clearbody w. intros Ff L.
    assert (Fa : is_finite (fabs w) = true) by (destruct w; cbn in *; congruence).
    assert (Sa : Bsign (fabs w) = false) by (destruct w; cbn in *; congruence).
    pose proof (Bplus_correct prec emax _ _ mode_NE (fabs w) w Fa Ff) as C.
    assert (Ea : B2R (fabs w) = Rabs (B2R w)) by apply B2R_Babs. rewrite Ea in C.
    assert (Ev : Rabs (B2R w) + B2R w = 2 * Rmax (B2R w) 0).
    { destruct (Rle_dec 0 (B2R w)) as [P|P]; [rewrite Rabs_pos_eq, Rmax_left by lra; lra|rewrite Rabs_left, Rmax_right by lra; lra]. }
    assert (Gf : generic_format radix2 fexp (2 * Rmax (B2R w) 0)).
    { destruct (Rle_dec 0 (B2R w)); [rewrite Rmax_left by lra; apply double_format|rewrite Rmax_right by lra; rewrite Rmult_0_r; apply generic_format_0]. }
    assert (Lm : Rabs (Rmax (B2R w) 0) < bpow radix2 (emax - 1)).
    { destruct (Rle_dec 0 (B2R w)); [rewrite Rmax_left by lra; exact L|rewrite Rmax_right by lra; rewrite Rabs_R0; apply bpow_gt_0]. }
    assert (Eb : bpow radix2 emax = 2 * bpow radix2 (emax - 1)) by (replace emax with (1 + (emax - 1))%Z at 1 by lia; rewrite bpow_plus; cbn; lra).
    rewrite Ev, round_generic in C by (try typeclasses eauto; exact Gf). rewrite Rlt_bool_true in C by (rewrite Rabs_mult, (Rabs_pos_eq 2) by lra; lra).
    destruct C as (C1 & C2 & C3). apply half_val; try assumption.
    - unfold fadd. rewrite C3. destruct (Rcompare_spec (2 * Rmax (B2R w) 0) 0) as [X|X|X]; [pose proof (Rmax_r (B2R w) 0); lra|rewrite Sa; reflexivity|reflexivity].
    - destruct (Rle_dec 0 (B2R w)); [rewrite Rmax_left by lra; apply generic_format_B2R|rewrite Rmax_right by lra; apply generic_format_0].
    - pose proof (bpow_gt_0 radix2 (emax - 1)). lra.
  Qed.

  Lemma neg_exact (W : fmat) i a : is_finite (W i a) = true -> Rabs (B2R (W i a)) < bpow radix2 (emax - 1) ->
    proper (fneg_part W i a) /\ B2R (fneg_part W i a) = down (value W i a).
  Proof.
    unfold fneg_part, value, down. set (w := W i a). clearbody w. intros Ff L.
    assert (Fa : is_finite (fabs w) = true) by (destruct w; cbn in *; congruence).
    assert (Sa : Bsign (fabs w) = false) by (destruct w; cbn in *; congruence).
    pose proof (Bminus_correct prec emax _ _ mode_NE (fabs w) w Fa Ff) as C.
    assert (Ea : B2R (fabs w) = Rabs (B2R w)) by apply B2R_Babs. rewrite Ea in C.
    assert (Ev : Rabs (B2R w) - B2R w = 2 * Rmax (- B2R w) 0).
    { destruct (Rle_dec 0 (B2R w)) as [P|P]; [rewrite Rabs_pos_eq, Rmax_right by lra; lra|rewrite Rabs_left, Rmax_left by lra; lra]. }
    assert (Gf : generic_format radix2 fexp (2 * Rmax (- B2R w) 0)).
    { destruct (Rle_dec 0 (B2R w)); [rewrite Rmax_right by lra; rewrite Rmult_0_r; apply generic_format_0|rewrite Rmax_left by lra].
      replace (2 * - B2R w) with (- (2 * B2R w)) by ring. apply generic_format_opp, double_format. }
    assert (Lm : Rabs (Rmax (- B2R w) 0) < bpow radix2 (emax - 1)).
    { destruct (Rle_dec 0 (B2R w)); [rewrite Rmax_right by lra; rewrite Rabs_R0; apply bpow_gt_0|rewrite Rmax_left by lra; rewrite Rabs_Ropp; exact L]. }
    assert (Eb : bpow radix2 emax = 2 * bpow radix2 (emax - 1)) by (replace emax with (1 + (emax - 1))%Z at 1 by lia; rewrite bpow_plus; cbn; lra).
    rewrite Ev, round_generic in C by (try typeclasses eauto; exact Gf). rewrite Rlt_bool_true in C by (rewrite Rabs_mult, (Rabs_pos_eq 2) by lra; lra).
    destruct C as (C1 & C2 & C3). apply half_val; try assumption.
    - unfold fsub. rewrite C3. destruct (Rcompare_spec (2 * Rmax (- B2R w) 0) 0) as [X|X|X]; [pose proof (Rmax_r (- B2R w) 0); lra|rewrite Sa; reflexivity|reflexivity].
    - destruct (Rle_dec 0 (B2R w)); [rewrite Rmax_right by lra; apply generic_format_0|rewrite Rmax_left by lra; apply generic_format_opp, generic_format_B2R].
    - pose proof (bpow_gt_0 radix2 (emax - 1)). lra.
  Qed.

  Lemma root_near (x : F) t q : proper x -> ok t -> near q (B2R x) t -> g ^ q <= 2 ->
    proper (fsqrt x) /\ near (q + 1) (B2R (fsqrt x)) (sqrt t).
  Proof.
    intros Px Tt N G. pose proof (ok_nonneg _ Tt) as Ht. pose proof (proper_nonneg _ Px) as Hx. destruct (ok_room _ _ _ Tt Hx N G) as [Lo _].
    destruct Px as [Sx Ff]. pose proof (Bsqrt_correct prec emax _ _ mode_NE x) as (C1 & C2 & C3). fold (fsqrt x) in *.
    assert (Fs : is_finite (fsqrt x) = true).
    { rewrite C2. destruct x as [sx|sx| |sx m e He]; cbn in *; try discriminate; try reflexivity. subst. reflexivity. }
    assert (Nn : is_nan (fsqrt x) = false) by (destruct (fsqrt x); cbn in *; congruence).
    split; [split; [rewrite (C3 Nn); exact Sx|exact Fs]|]. rewrite C1. rewrite Nat.add_comm.
    apply near_trans with (sqrt (B2R x)); [apply rnd_nonneg, sqrt_pos|apply sqrt_pos| |apply near_sqrt; [lra|exact Ht|exact N]].
    apply rnd_near. destruct Lo as [->|Lo]; [left; apply sqrt_0|right]. destruct (Rle_dec 1 (B2R x)) as [L1|L1].
    - apply Rle_trans with 1.
      + change 1 with (bpow radix2 0). apply bpow_le. unfold Prec_gt_0, Prec_lt_emax in *. lia.
      + rewrite <- sqrt_1. apply sqrt_le_1_alt, L1.
    - apply Rle_trans with (B2R x); [exact Lo|]. assert (0 < B2R x) by (pose proof (bpow_gt_0 radix2 (2 - emax)); lra).
      rewrite <- (sqrt_def (B2R x)) at 1 by lra. pose proof (sqrt_pos (B2R x)). assert (sqrt (B2R x) <= 1) by (rewrite <- sqrt_1; apply sqrt_le_1_alt; lra). nra.
  Qed.

  Lemma rsum_delta N (f : nat -> R) i : (i < N)%nat -> rsum N (fun l => if (l =? i)%nat then f l else 0) = f i.
  Proof.
    intros Hi. induction N as [|N IH]; [lia|]. cbn [rsum]. destruct (Nat.eq_dec i N) as [->|Ne].
    - rewrite Nat.eqb_refl. enough (E : rsum N (fun l => if (l =? N)%nat then f l else 0) = 0) by lra.
      clear IH Hi. assert (Z : forall M, (M <= N)%nat -> rsum M (fun l => if (l =? N)%nat then f l else 0) = 0); [|apply Z; lia].
      induction M as [|M IH]; intros HM; [reflexivity|]. cbn [rsum]. rewrite IH by lia. destruct (Nat.eqb_spec M N); [lia|lra].
    - rewrite IH by lia. destruct (Nat.eqb_spec N i); [lia|lra].
  Qed.

  Context (m n k : nat) (V We W H : fmat) (tiny : F) (j : nat).
  Hypotheses (HV : every m n proper V) (HE : every m n proper We) (HH : every k n proper H) (Hj : (j < n)%nat).

  (** Linear and quadratic term for one part. *)
  Lemma lin_near (p : R -> R) (P C : fmat) : (forall x, 0 <= p x) -> (forall i a, (i < m)%nat -> (a < k)%nat -> proper (P i a) /\ B2R (P i a) = p (value W i a)) ->
    part_range emax m k (value V) (value We) (value W) (value H) j p -> g ^ (1 + m) <= 2 ->
    product 1 m k (fun _ i => fmul (We i j) (V i j)) P C -> forall a, (a < k)%nat ->
    proper (C 0%nat a) /\ near (1 + m) (B2R (C 0%nat a)) (lin m (value V) (value We) (value W) p a j).
  Proof.
    intros Pp HP (R1 & _ & R3 & _) G E a Ha. assert (G1 : g ^ 0 <= 2) by (eapply Rle_trans; [apply g_mono|exact G]; lia).
    apply (product_near 1 m (fun i => fmul (We i j) (V i j)) (fun i => P i a)).
    - apply (E 0%nat a); [lia|exact Ha].
    - intros i Hi. destruct (R1 i a Hi Ha) as (T1 & T2 & _). destruct (HP i a Hi Ha) as [Q1 Q2].
      destruct (mul_near (We i j) (V i j) _ 0 (HE i j Hi Hj) (HV i j Hi Hj) (near_refl _) T1 G1) as [M1 M2].
      split; [exact M1|]. split; [exact Q1|]. split; [|exact T2]. rewrite Q2.
      apply (near_mul 1 0); [apply proper_nonneg, M1|apply Pp|exact (ok_nonneg _ T1)|apply Pp|exact M2|apply near_refl].
    - exact (ok_hi _ (proj1 (R3 a Ha))).
    - exact G.
  Qed.

  Lemma quad_near (p : R -> R) (P A B C : fmat) : (forall x, 0 <= p x) -> (forall i a, (i < m)%nat -> (a < k)%nat -> proper (P i a) /\ B2R (P i a) = p (value W i a)) ->
    part_range emax m k (value V) (value We) (value W) (value H) j p -> g ^ (2 * m + k) <= 2 ->
    product k m m (transpose P) (diag (fun i => We i j)) A -> product k m k A P B -> product 1 k k (fun _ b => H b j) B C -> forall a, (a < k)%nat ->
    proper (C 0%nat a) /\ near (2 * m + k) (B2R (C 0%nat a)) (quad m k (value We) (value W) (value H) p a j).
  Proof.
    intros Pp HP (R1 & R2 & R3 & R4) G E1 E2 E3 a Ha.
    assert (Gk : forall q, (q <= 2 * m + k)%nat -> g ^ q <= 2) by (intros q Hq; eapply Rle_trans; [apply g_mono, Hq|exact G]).
    assert (Wp : forall i, (i < m)%nat -> 0 <= value We i j) by (intros; apply proper_nonneg, HE; assumption).
    assert (NA : forall b i, (b < k)%nat -> (i < m)%nat -> proper (A b i) /\ near m (B2R (A b i)) (p (value W i b) * value We i j)).
    { intros b i Hb Hi. destruct (R1 i b Hi Hb) as (_ & _ & T).
      rewrite <- (rsum_delta m (fun l => p (value W l b) * value We l j) i Hi).
      apply (product_near 0 m (fun l => transpose P b l) (fun l => diag (fun i => We i j) l i)).
      - apply (E1 b i Hb Hi).
      - intros l Hl. destruct (HP l b Hl Hb) as [Q1 Q2]. split; [exact Q1|]. unfold transpose, diag. destruct (Nat.eqb_spec l i) as [->|Ne].
        + split; [apply HE; assumption|]. rewrite Q2. split; [apply near_refl|exact T].
        + split; [split; reflexivity|]. split; [|left; reflexivity]. cbn. rewrite Rmult_0_r. apply near_refl.
      - rewrite (rsum_delta m (fun l => p (value W l b) * value We l j) i Hi). exact (ok_hi _ T).
      - apply Gk. lia. }
    assert (NB : forall b, (b < k)%nat -> proper (B b a) /\ near (m + m) (B2R (B b a)) (gram m (value We) (value W) p b a j)).
    { intros b Hb. apply (product_near m m (fun i => A b i) (fun i => P i a)).
      - apply (E2 b a Hb Ha).
      - intros i Hi. destruct (NA b i Hb Hi) as [M1 M2]. destruct (HP i a Hi Ha) as [Q1 Q2]. split; [exact M1|]. split; [exact Q1|]. split; [|apply R2; assumption].
        rewrite Q2. rewrite <- (Nat.add_0_r m) at 1.
        apply (near_mul m 0); [apply proper_nonneg, M1|apply Pp|apply Rmult_le_pos; [apply Pp|apply Wp, Hi]|apply Pp|exact M2|apply near_refl].
      - exact (ok_hi _ (proj1 (R4 a b Ha Hb))).
      - apply Gk. lia. }
    replace (2 * m + k)%nat with (m + m + k)%nat by lia.
    apply (product_near (m + m) k (fun b => H b j) (fun b => B b a)).
    - apply (E3 0%nat a); [lia|exact Ha].
    - intros b Hb. destruct (NB b Hb) as [M1 M2]. destruct (R4 a b Ha Hb) as [T1 T2]. split; [apply HH; assumption|]. split; [exact M1|]. split; [|exact T2].
      apply (near_mul 0 (m + m)); [apply proper_nonneg, HH; assumption|apply proper_nonneg, M1|apply proper_nonneg, HH; assumption|exact (ok_nonneg _ T1)|apply near_refl|exact M2].
    - exact (ok_hi _ (proj2 (R3 a Ha))).
    - apply Gk. lia.
  Qed.

  Lemma up_pos x : 0 <= up x. Proof. apply Rmax_r. Qed.
  Lemma down_pos x : 0 <= down x. Proof. apply Rmax_r. Qed.

  Lemma ws_profile_near (H' : fmat) : proper tiny -> 0 < B2R tiny ->
    (forall i a, (i < m)%nat -> (a < k)%nat -> is_finite (W i a) = true /\ Rabs (B2R (W i a)) < bpow radix2 (emax - 1)) ->
    column_range emax m k (value V) (value We) (value W) (value H) (B2R tiny) j -> g ^ (4 * m + 2 * k + 7) <= 2 ->
    ws_h_update tiny m n k V We W H H' -> forall a, (a < k)%nat ->
    proper (H' a j) /\ near (4 * m + 2 * k + 7) (B2R (H' a j)) (exact_profile m k (value V) (value We) (value W) (value H) (B2R tiny) a j).
  Proof.
    intros Pt Lt HW (Ru & Rd & Rc) G E a Ha. destruct (E j Hj) as (N1 & D1 & N2a & N2b & D2a & D2b & N2 & D2 & P1 & P2 & P3 & P4 & P5 & P6 & P7 & P8 & E').
    rewrite E' by exact Ha. destruct (Rc a Ha) as (T1 & T2 & T3 & T4).
    assert (Gk : forall q, (q <= 4 * m + 2 * k + 7)%nat -> g ^ q <= 2) by (intros q Hq; eapply Rle_trans; [apply g_mono, Hq|exact G]).
    assert (Xu : forall i a, (i < m)%nat -> (a < k)%nat -> proper (fpos_part W i a) /\ B2R (fpos_part W i a) = up (value W i a)) by (intros i b Hi Hb; destruct (HW i b Hi Hb); apply pos_exact; assumption).
    assert (Xd : forall i a, (i < m)%nat -> (a < k)%nat -> proper (fneg_part W i a) /\ B2R (fneg_part W i a) = down (value W i a)) by (intros i b Hi Hb; destruct (HW i b Hi Hb); apply neg_exact; assumption).
    destruct (lin_near up _ _ up_pos Xu Ru (Gk (1 + m)%nat ltac:(lia)) P1 a Ha) as [L1 L2].
    destruct (lin_near down _ _ down_pos Xd Rd (Gk (1 + m)%nat ltac:(lia)) P2 a Ha) as [L3 L4].
    destruct (quad_near down _ _ _ _ down_pos Xd Rd (Gk (2 * m + k)%nat ltac:(lia)) P3 P4 P7 a Ha) as [Q1 Q2].
    destruct (quad_near up _ _ _ _ up_pos Xu Ru (Gk (2 * m + k)%nat ltac:(lia)) P5 P6 P8 a Ha) as [Q3 Q4].
    destruct (proj1 (proj2 (proj2 Ru)) a Ha) as [O1 O2]. destruct (proj1 (proj2 (proj2 Rd)) a Ha) as [O3 O4].
    assert (Sum : forall (x y : F) s t, proper x -> proper y -> 0 <= s -> 0 <= t -> near (1 + m) (B2R x) s -> near (2 * m + k) (B2R y) t -> s + t + B2R tiny <= bpow radix2 (emax - 2) ->
      proper (fadd (fadd x y) tiny) /\ near (2 * m + k + 2) (B2R (fadd (fadd x y) tiny)) (s + t + B2R tiny)).
    { intros x y s t Px Py Hs Ht Nx Ny U.
      destruct (add_near x y s t (2 * m + k) Px Py Hs Ht) as [A1 A2]; [apply near_mono with (1 + m)%nat; try assumption; [lia|apply proper_nonneg, Px]|exact Ny|lra|apply Gk; lia|].
      replace (2 * m + k + 2)%nat with (2 * m + k + 1 + 1)%nat by lia.
      apply add_near; try assumption; [lra|lra|apply near_mono with 0%nat; [lia|lra|lra|apply near_refl]|apply Gk; lia]. }
    destruct (Sum _ _ _ _ L1 Q1 (ok_nonneg _ O1) (ok_nonneg _ O4) L2 Q2 (ok_hi _ T1)) as [S1 S2].
    destruct (Sum _ _ _ _ L3 Q3 (ok_nonneg _ O3) (ok_nonneg _ O2) L4 Q4 (ok_hi _ T2)) as [S3 S4].
    set (nu := fadd (fadd (N1 0%nat a) (N2 0%nat a)) tiny) in *. set (de := fadd (fadd (D1 0%nat a) (D2 0%nat a)) tiny) in *.
    set (tn := lin m (value V) (value We) (value W) up a j + quad m k (value We) (value W) (value H) down a j + B2R tiny) in *.
    set (td := lin m (value V) (value We) (value W) down a j + quad m k (value We) (value W) (value H) up a j + B2R tiny) in *.
    pose proof (ok_nonneg _ O1). pose proof (ok_nonneg _ O2). pose proof (ok_nonneg _ O3). pose proof (ok_nonneg _ O4).
    assert (Htn : 0 < tn) by (unfold tn; lra). assert (Htd : 0 < td) by (unfold td; lra).
    assert (Dp : 0 < B2R de).
    { destruct S4 as [B _]. pose proof (proper_nonneg _ S3) as [L|L]; [exact L|]. rewrite <- L in B. lra. }
    destruct (div_near nu de (tn / td) (2 * m + k + 2 + (2 * m + k + 2)) S1 S3 Dp) as [V1 V2].
    { apply near_div; try assumption; [apply proper_nonneg, S1|lra]. } { exact T3. } { apply Gk. lia. }
    destruct (root_near _ _ _ V1 T3 V2 (Gk (2 * m + k + 2 + (2 * m + k + 2) + 1)%nat ltac:(lia))) as [W1 W2].
    replace (4 * m + 2 * k + 7)%nat with (2 * m + k + 2 + (2 * m + k + 2) + 1 + 1 + 1)%nat by lia.
    apply mul_near; [apply HH; assumption|exact W1| |exact T4|apply Gk; lia].
    unfold exact_profile. fold tn td. apply (near_mul 0); [apply proper_nonneg, HH; assumption|apply proper_nonneg, W1|apply proper_nonneg, HH; assumption|apply sqrt_pos|apply near_refl|exact W2].
  Qed.
End A.
