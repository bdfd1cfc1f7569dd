(** Lemmas about the robust loss in floating point. *)
From Coq Require Import ZArith Reals Lra Lia List Bool Permutation Arith.
From Flocq Require Import Core BinarySingleNaN.
From Verif Require Import Float_Model Float_Spec Float_Proofs RobF_Model.
Import ListNotations.
Local Open Scope R_scope.

Section P.
  Context {prec emax : Z} {Hprec : Prec_gt_0 prec} {Hmax : Prec_lt_emax prec emax}.
  Notation F := (binary_float prec emax).
  Notation fexp := (SpecFloat.fexp prec emax).
  Notation rnd := (round radix2 fexp (round_mode mode_NE)).
  Let top : R := bpow radix2 emax.

  (** Value with infinity as 2^emax. *)
  Definition val (x : F) : R :=
    match x with B754_infinity s => if s then - top else top | _ => B2R x end.
  (** non-negative and not NaN *)
  Definition nn (x : F) : Prop := Bsign x = false /\ is_nan x = false.

  Lemma top_pos : 0 < top. Proof. apply bpow_gt_0. Qed.
  Lemma val_fin (x : F) : is_finite x = true -> val x = B2R x.
  Proof. destruct x; cbn; congruence. Qed.
  Lemma fin_lt (x : F) : is_finite x = true -> Rabs (B2R x) < top.
  Proof. intros _. apply abs_B2R_lt_emax. Qed.
  Lemma nn_val (x : F) : nn x -> 0 <= val x <= top.
  Proof.
    intros [S N]. destruct (is_finite x) eqn:E.
    - rewrite val_fin by exact E. pose proof (B2R_nonneg _ S). pose proof (fin_lt _ E) as H0. rewrite Rabs_pos_eq in H0 by assumption. lra.
    - destruct x; cbn in *; try discriminate. subst. pose proof top_pos. lra.
  Qed.
  Lemma nn_inf (x : F) : nn x -> is_finite x = false -> x = B754_infinity false.
  Proof. intros [S N] E. destruct x; cbn in *; try discriminate. subst. reflexivity. Qed.
  Lemma leb_val (x y : F) : nn x -> nn y -> (Bleb x y = true <-> val x <= val y).
  Proof.
    intros Hx Hy. destruct (is_finite x) eqn:Ex, (is_finite y) eqn:Ey.
    - rewrite Bleb_correct by assumption. rewrite !val_fin by assumption.
      destruct (Rle_bool_spec (B2R x) (B2R y)); split; intros; try discriminate; try lra; reflexivity.
    - rewrite (nn_inf _ Hy Ey). pose proof (nn_val _ Hx). cbn. split; intros _; [lra|].
      destruct x; cbn in *; try discriminate; try reflexivity; destruct Hx; destruct s; reflexivity || discriminate.
    - rewrite (nn_inf _ Hx Ex). rewrite (val_fin y Ey). pose proof (fin_lt _ Ey) as L. rewrite Rabs_pos_eq in L by (apply B2R_nonneg, Hy).
      cbn. split; intros C; [|lra]. destruct Hy as [Sy _]. destruct y; cbn in *; try discriminate; destruct s; discriminate.
    - rewrite (nn_inf _ Hx Ex), (nn_inf _ Hy Ey). cbn. split; intros; [lra|reflexivity].
  Qed.

  Definition clamp (z : R) : R := Rmin z top.
  Lemma clamp_mono a b : a <= b -> clamp a <= clamp b.
  Proof. intros. unfold clamp. apply Rle_min_compat_r. assumption. Qed.
  Lemma clamp_small z : z < top -> clamp z = z.
  Proof. intros. unfold clamp. apply Rmin_left. lra. Qed.
  Lemma clamp_big z : top <= z -> clamp z = top.
  Proof. intros. unfold clamp. apply Rmin_right. lra. Qed.
  Lemma rnd_mono a b : a <= b -> rnd a <= rnd b.
  Proof. intros. apply round_le; try typeclasses eauto. assumption. Qed.
  Lemma format_pow e : (3 - emax - prec <= e)%Z -> generic_format radix2 fexp (bpow radix2 e).
  Proof. intros. apply generic_format_bpow. unfold SpecFloat.fexp, SpecFloat.emin. unfold Prec_gt_0, Prec_lt_emax in *. lia. Qed.
  Lemma rnd_top z : top <= z -> top <= rnd z.
  Proof.
    intros. apply round_ge_generic; try typeclasses eauto; [|assumption]. apply format_pow. unfold Prec_gt_0, Prec_lt_emax in *. lia.
  Qed.
  Lemma rnd_pos z : 0 <= z -> 0 <= rnd z.
  Proof. intros. rewrite <- (round_0 radix2 fexp (round_mode mode_NE)). apply rnd_mono. assumption. Qed.
  Lemma rnd_id (x : F) : rnd (B2R x) = B2R x.
  Proof. apply round_generic; [typeclasses eauto|apply generic_format_B2R]. Qed.

  Lemma overflow_inf (x : F) s : B2SF x = binary_overflow prec emax mode_NE s -> x = B754_infinity s.
  Proof. cbn. destruct x; cbn; intros E; try discriminate. injection E as ->. reflexivity. Qed.

  Lemma add_val (a b : F) : nn a -> nn b -> nn (fadd a b) /\ val (fadd a b) = clamp (rnd (val a + val b)).
  Proof.
    intros Ha Hb. pose proof (nn_val _ Ha) as Va. pose proof (nn_val _ Hb) as Vb. pose proof top_pos as Tp.
    destruct (is_finite a) eqn:Ea, (is_finite b) eqn:Eb.
    - rewrite (val_fin a Ea), (val_fin b Eb) in *. pose proof (Bplus_correct prec emax _ _ mode_NE a b Ea Eb) as C.
      assert (P : 0 <= rnd (B2R a + B2R b)) by (apply rnd_pos; lra).
      rewrite Rabs_pos_eq in C by exact P. fold (fadd a b) in C.
      destruct (Rlt_bool_spec (rnd (B2R a + B2R b)) (bpow radix2 emax)) as [L|L].
      + destruct C as (C1 & C2 & C3). split.
        * split; [|destruct (fadd a b); cbn in *; congruence]. rewrite C3, (proj1 Ha), (proj1 Hb).
          destruct (Rcompare_spec (B2R a + B2R b) 0); try reflexivity. lra.
        * rewrite val_fin by exact C2. rewrite C1. symmetry. apply clamp_small. exact L.
      + destruct C as [C _]. rewrite (proj1 Ha) in C. rewrite (overflow_inf _ _ C). split; [split; reflexivity|].
        cbn. symmetry. apply clamp_big. exact L.
    - rewrite (nn_inf _ Hb Eb) in *. assert (E : fadd a (B754_infinity false) = B754_infinity false).
      { destruct a; cbn in *; try discriminate; reflexivity. }
      rewrite E. split; [split; reflexivity|]. cbn [val]. symmetry. apply clamp_big, rnd_top. cbn in Vb. lra.
    - rewrite (nn_inf _ Ha Ea) in *. assert (E : fadd (B754_infinity false) b = B754_infinity false).
      { destruct b; cbn in *; try discriminate; reflexivity. }
      rewrite E. split; [split; reflexivity|]. cbn [val]. symmetry. apply clamp_big, rnd_top. cbn in Va. lra.
    - rewrite (nn_inf _ Ha Ea), (nn_inf _ Hb Eb) in *. split; [split; reflexivity|].
      cbn. symmetry. apply clamp_big, rnd_top. lra.
  Qed.

  Lemma add_mono (a b c d : F) : nn a -> nn b -> nn c -> nn d -> val a <= val c -> val b <= val d -> val (fadd a b) <= val (fadd c d).
  Proof.
    intros Ha Hb Hc Hd L1 L2. rewrite (proj2 (add_val _ _ Ha Hb)), (proj2 (add_val _ _ Hc Hd)).
    apply clamp_mono, rnd_mono. lra.
  Qed.

  Lemma top_ge1 : 1 <= top.
  Proof. unfold top. change 1 with (bpow radix2 0). apply bpow_le. unfold Prec_gt_0, Prec_lt_emax in *. lia. Qed.

  (** product of non-negative finite numbers *)
  Lemma mul_val (x y : F) : nn x -> nn y -> is_finite x = true -> is_finite y = true ->
    nn (fmul x y) /\ val (fmul x y) = clamp (rnd (B2R x * B2R y)).
  Proof.
    intros Hx Hy Ex Ey. pose proof (Bmult_correct prec emax _ _ mode_NE x y) as C.
    assert (P : 0 <= rnd (B2R x * B2R y)) by (apply rnd_pos, Rmult_le_pos; apply B2R_nonneg; [apply Hx|apply Hy]).
    rewrite Rabs_pos_eq in C by exact P. fold (fmul x y) in C.
    destruct (Rlt_bool_spec (rnd (B2R x * B2R y)) (bpow radix2 emax)) as [L|L].
    - destruct C as (C1 & C2 & C3). rewrite Ex, Ey in C2. cbn in C2.
      assert (N : is_nan (fmul x y) = false) by (destruct (fmul x y); cbn in *; congruence).
      split; [split; [rewrite (C3 N), (proj1 Hx), (proj1 Hy); reflexivity|exact N]|].
      rewrite val_fin by exact C2. rewrite C1. symmetry. apply clamp_small, L.
    - rewrite (proj1 Hx), (proj1 Hy) in C. rewrite (overflow_inf _ _ C). split; [split; reflexivity|].
      cbn. symmetry. apply clamp_big, L.
  Qed.
  Lemma sqr_val (x : F) : nn x -> nn (fmul x x) /\ val (fmul x x) = clamp (rnd (val x * val x)).
  Proof.
    intros Hx. destruct (is_finite x) eqn:E.
    - rewrite (val_fin x E). apply mul_val; assumption.
    - rewrite (nn_inf _ Hx E). split; [split; reflexivity|]. cbn. symmetry. apply clamp_big, rnd_top.
      pose proof top_ge1. nra.
  Qed.
  Lemma sqr_mono (x y : F) : nn x -> nn y -> val x <= val y -> val (fmul x x) <= val (fmul y y).
  Proof.
    intros Hx Hy L. rewrite (proj2 (sqr_val _ Hx)), (proj2 (sqr_val _ Hy)). apply clamp_mono, rnd_mono.
    pose proof (nn_val _ Hx). nra.
  Qed.
  Lemma sqr_abs (x : F) : fmul (fabs x) (fabs x) = fmul x x.
  Proof.
    unfold fabs, fmul. destruct x as [s|s| |s m e He]; try (destruct s; reflexivity); try reflexivity.
    destruct s; [|reflexivity]. cbn [Babs]. apply B2SF_inj. unfold Bmult. rewrite !B2SF_SF2B. reflexivity.
  Qed.

  (** absolute value of a quotient *)
  Lemma absdiv_val (r u : F) : is_finite r = true -> is_finite u = true -> 0 < B2R u ->
    nn (fabs (fdiv r u)) /\ val (fabs (fdiv r u)) = clamp (rnd (Rabs (B2R r) / B2R u)).
  Proof.
    intros Fr Fu Pu. pose proof (Bdiv_correct prec emax _ _ mode_NE r u ltac:(lra)) as C. fold (fdiv r u) in C.
    assert (E : Rabs (rnd (B2R r / B2R u)) = rnd (Rabs (B2R r) / B2R u)).
    { rewrite <- round_NE_abs by typeclasses eauto. f_equal. unfold Rdiv. rewrite Rabs_mult, (Rabs_pos_eq (/ B2R u)); [reflexivity|].
      left. apply Rinv_0_lt_compat, Pu. }
    rewrite E in C. destruct (Rlt_bool_spec (rnd (Rabs (B2R r) / B2R u)) (bpow radix2 emax)) as [L|L].
    - destruct C as (C1 & C2 & C3). rewrite Fr in C2. split.
      + split; [apply Bsign_Babs|]. unfold fabs. rewrite is_nan_Babs. destruct (fdiv r u); cbn in *; congruence.
      + rewrite val_fin by (unfold fabs; rewrite is_finite_Babs; exact C2). unfold fabs. rewrite B2R_Babs, C1, E. symmetry. apply clamp_small, L.
    - rewrite (overflow_inf _ _ C). split; [split; reflexivity|]. cbn. symmetry. apply clamp_big, L.
  Qed.
  Lemma div_inf (r : F) : is_finite r = true -> val (fabs (fdiv r (B754_infinity false))) = 0 /\ nn (fabs (fdiv r (B754_infinity false))).
  Proof. intros Fr. destruct r; cbn in *; try discriminate; split; try split; reflexivity. Qed.

  Lemma format1 : generic_format radix2 fexp 1.
  Proof. change 1 with (bpow radix2 0). apply format_pow. unfold Prec_gt_0, Prec_lt_emax in *. lia. Qed.

  Lemma pos_sign (x : F) : 0 < B2R x -> Bsign x = false.
  Proof.
    intros H. destruct (Bsign x) eqn:E; [|reflexivity]. exfalso. destruct x as [s|s| |s m e He]; cbn [Bsign] in E; subst; try (cbn in H; lra); try discriminate.
    revert H. apply Rle_not_lt. cbn [B2R]. apply F2R_le_0. cbn. lia.
  Qed.

  (** The inflated uncertainty is at least the uncertainty. *)
  Lemma inflated (alpha s u : F) : is_finite alpha = true -> 0 < B2R alpha -> nn s -> Bltb alpha s = true ->
    is_finite u = true -> 0 < B2R u ->
    let rho := fmul (fsqrt (fdiv s alpha)) u in nn rho /\ B2R u <= val rho.
  Proof.
    intros Fa Pa Hs L Fu Pu rho.
    pose proof (pos_sign u Pu) as Su.
    assert (Hu : nn u) by (split; [exact Su|destruct u; cbn in *; congruence]).
    pose proof (pos_sign alpha Pa) as Ea.
    (* quotient *)
    assert (Q : nn (fdiv s alpha) /\ 1 <= val (fdiv s alpha)).
    { destruct (is_finite s) eqn:Es.
      - destruct (absdiv_val s alpha Es Fa Pa) as [N V].
        assert (E : fabs (fdiv s alpha) = fdiv s alpha).
        { assert (Sg : is_nan (fdiv s alpha) = false) by (destruct N as [_ N]; unfold fabs in N; rewrite is_nan_Babs in N; exact N).
          pose proof (div_sign s alpha Sg) as Sd. rewrite (proj1 Hs), Ea in Sd. cbn in Sd. unfold fabs.
          destruct (fdiv s alpha); cbn in *; subst; reflexivity. }
        rewrite E in *. split; [exact N|]. rewrite V. rewrite Bltb_correct in L by assumption.
        destruct (Rlt_bool_spec (B2R alpha) (B2R s)) as [L'|L']; [|discriminate].
        rewrite Rabs_pos_eq by (apply B2R_nonneg, Hs). pose proof top_ge1. unfold clamp. apply Rmin_glb; [|assumption].
        apply round_ge_generic; try typeclasses eauto; [apply format1|]. apply Rmult_le_reg_r with (B2R alpha); [exact Pa|].
        unfold Rdiv. rewrite Rmult_assoc, Rinv_l by lra. lra.
      - rewrite (nn_inf _ Hs Es). assert (E : fdiv (B754_infinity false) alpha = B754_infinity false).
        { destruct alpha as [[]|[]| |[] m e He]; cbn in *; try discriminate; try reflexivity; lra. }
        rewrite E. split; [split; reflexivity|]. cbn. apply top_ge1. }
    destruct Q as [Nq Vq].
    assert (S : nn (fsqrt (fdiv s alpha)) /\ 1 <= val (fsqrt (fdiv s alpha))).
    { set (q := fdiv s alpha) in *. destruct (is_finite q) eqn:Eq.
      - rewrite (val_fin q Eq) in Vq. pose proof (Bsqrt_correct prec emax _ _ mode_NE q) as (C1 & C2 & C3). fold (fsqrt q) in *.
        assert (Fs : is_finite (fsqrt q) = true).
        { rewrite C2. destruct q as [sq|sq| |sq m e He]; cbn in *; try discriminate; try reflexivity. destruct Nq as [Nq _]. cbn in Nq. subst. reflexivity. }
        assert (Nn : is_nan (fsqrt q) = false) by (destruct (fsqrt q); cbn in *; congruence).
        split; [split; [rewrite (C3 Nn); apply Nq|exact Nn]|]. rewrite val_fin by exact Fs. rewrite C1.
        apply round_ge_generic; try typeclasses eauto; [apply format1|]. rewrite <- sqrt_1. apply sqrt_le_1_alt. exact Vq.
      - rewrite (nn_inf _ Nq Eq). split; [split; reflexivity|]. cbn. apply top_ge1. }
    destruct S as [Ns Vs]. unfold rho. set (t := fsqrt (fdiv s alpha)) in *. clearbody t.
    destruct (is_finite t) eqn:Et.
    - rewrite (val_fin t Et) in Vs. destruct (mul_val t u Ns Hu Et Fu) as [N V]. split; [exact N|]. rewrite V.
      pose proof (fin_lt u Fu) as Lt. rewrite Rabs_pos_eq in Lt by lra. unfold clamp. apply Rmin_glb; [|lra].
      apply round_ge_generic; try typeclasses eauto; [apply generic_format_B2R|]. nra.
    - rewrite (nn_inf _ Ns Et). assert (E : fmul (B754_infinity false) u = B754_infinity false).
      { destruct u as [[]|[]| |[] m e He]; cbn in *; try discriminate; try reflexivity; lra. }
      rewrite E. split; [split; reflexivity|]. cbn. pose proof (fin_lt u Fu) as Lt. rewrite Rabs_pos_eq in Lt by lra. lra.
  Qed.

  (** ... so the robust residual is at most the scaled residual. *)
  Lemma shrunk (r u rho : F) : is_finite r = true -> is_finite u = true -> 0 < B2R u -> nn rho -> B2R u <= val rho ->
    nn (fabs (fdiv r rho)) /\ val (fabs (fdiv r rho)) <= val (fabs (fdiv r u)).
  Proof.
    intros Fr Fu Pu Hr L. destruct (absdiv_val r u Fr Fu Pu) as [N V]. destruct (is_finite rho) eqn:E.
    - rewrite (val_fin rho E) in L. destruct (absdiv_val r rho Fr E ltac:(lra)) as [N2 V2]. split; [exact N2|].
      rewrite V, V2. apply clamp_mono, rnd_mono. apply Rmult_le_compat_l; [apply Rabs_pos|]. apply Rinv_le; lra.
    - rewrite (nn_inf _ Hr E). destruct (div_inf r Fr) as [V2 N2]. split; [exact N2|]. rewrite V2. apply (nn_val _ N).
  Qed.

  Lemma summing_total {A} (l : list A) s f : summing l s -> total (map f l) (s f).
  Proof.
    induction 1 as [|x|l1 l2 s1 s2 H1 IH1 H2 IH2|l l' s Hp H IH]; cbn.
    - apply total_nil.
    - apply total_one.
    - rewrite map_app. apply total_app; assumption.
    - eapply total_perm; [apply Permutation_map, Hp|exact IH].
  Qed.

  Lemma summing_mono {A} (l : list A) s (f h : A -> F) : summing l s ->
    (forall x, In x l -> nn (f x) /\ nn (h x) /\ val (f x) <= val (h x)) -> nn (s f) /\ nn (s h) /\ val (s f) <= val (s h).
  Proof.
    induction 1 as [|x|l1 l2 s1 s2 H1 IH1 H2 IH2|l l' s Hp H IH]; intros Hc.
    - cbn. repeat split; lra.
    - apply Hc. left. reflexivity.
    - destruct IH1 as (A1 & A2 & A3); [intros x Hx; apply Hc, in_or_app; left; exact Hx|].
      destruct IH2 as (B1 & B2 & B3); [intros x Hx; apply Hc, in_or_app; right; exact Hx|].
      split; [apply add_val; assumption|]. split; [apply add_val; assumption|]. apply add_mono; assumption.
    - apply IH. intros x Hx. apply Hc. eapply Permutation_in; eassumption.
  Qed.
End P.
