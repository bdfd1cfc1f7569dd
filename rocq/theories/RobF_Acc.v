(** Lemmas about the accuracy of the robust loss. *)
From Coq Require Import ZArith Reals Lra Lia List Bool Permutation Arith.
From Flocq Require Import Core BinarySingleNaN.
From Verif Require Import Base Boot_Proofs Float_Model Float_Spec Float_Proofs Acc_Spec Acc_Proofs RobF_Model RobF_Spec RobF_Proofs.
Import ListNotations.
Local Open Scope R_scope.

Section A.
  Context {prec emax : Z} {Hprec : Prec_gt_0 prec} {Hmax : Prec_lt_emax prec emax}.
  Notation F := (binary_float prec emax).
  Notation fexp := (SpecFloat.fexp prec emax).
  Notation rnd := (round radix2 fexp (round_mode mode_NE)).
  Notation g := (growth prec).
  Notation near := (within prec).
  Notation ok := (in_range (emax := emax)).
  Let hi : R := bpow radix2 (emax - 2).

  Lemma proper_nn (x : F) : proper x -> nn x.
  Proof. intros [S Ff]. split; [exact S|]. destruct x; cbn in *; congruence. Qed.
  Lemma positive_proper (x : F) : positive x -> proper x.
  Proof. intros [Ff P]. split; [apply pos_sign, P|exact Ff]. Qed.

  Lemma absdiv_near (r y : F) t q : is_finite r = true -> is_finite y = true -> 0 < B2R y -> near q (Rabs (B2R r) / B2R y) t -> ok t -> g ^ q <= 2 ->
    proper (fabs (fdiv r y)) /\ near (q + 1) (B2R (fabs (fdiv r y))) t.
  Proof.
    intros Fr Fy Py N T G. assert (Z : 0 <= Rabs (B2R r) / B2R y) by (apply Rmult_le_pos; [apply Rabs_pos|left; apply Rinv_0_lt_compat, Py]).
    destruct (ok_room _ _ _ T Z N G) as [Lo Up]. destruct (absdiv_val r y Fr Fy Py) as [[S Nn] V].
    pose proof (rnd_small _ Up) as L. rewrite (clamp_small _ L) in V.
    assert (Ff : is_finite (fabs (fdiv r y)) = true).
    { destruct (is_finite (fabs (fdiv r y))) eqn:E; [reflexivity|]. exfalso. rewrite (nn_inf _ (conj S Nn) E) in V. unfold val in V. rewrite <- V in L. exact (Rlt_irrefl _ L). }
    split; [split; assumption|]. rewrite (val_fin _ Ff) in V. rewrite V. rewrite Nat.add_comm.
    apply near_trans with (Rabs (B2R r) / B2R y); [apply rnd_nonneg, Z|exact (ok_nonneg _ T)|apply rnd_near, Lo|exact N].
  Qed.

  Lemma near_sqrt p x r : 0 <= x -> 0 <= r -> near p x r -> near p (sqrt x) (sqrt r).
  Proof.
    intros Hx Hr [A B]. pose proof (g_pow (prec := prec) p) as G.
    assert (K : forall a b, 0 <= a -> 0 <= b -> a <= b * g ^ p -> sqrt a <= sqrt b * g ^ p).
    { intros a b Ha Hb L. apply Rle_trans with (sqrt (b * g ^ p)); [apply sqrt_le_1_alt, L|].
      rewrite sqrt_mult by lra. apply Rmult_le_compat_l; [apply sqrt_pos|].
      apply Rle_trans with (sqrt (g ^ p * g ^ p)); [apply sqrt_le_1_alt; nra|]. rewrite sqrt_square by lra. lra. }
    split; apply K; assumption.
  Qed.

  Lemma sqrt_near (x : F) t q : proper x -> 1 <= B2R x -> 0 <= t -> near q (B2R x) t ->
    proper (fsqrt x) /\ near (q + 1) (B2R (fsqrt x)) (sqrt t).
  Proof.
    intros [S Ff] L1 Ht N. pose proof (Bsqrt_correct prec emax _ _ mode_NE x) as (C1 & C2 & C3). fold (fsqrt x) in *.
    assert (Fs : is_finite (fsqrt x) = true).
    { rewrite C2. destruct x as [sx|sx| |sx m e He]; cbn in *; try discriminate; try reflexivity. subst. reflexivity. }
    assert (Nn : is_nan (fsqrt x) = false) by (destruct (fsqrt x); cbn in *; congruence).
    split; [split; [rewrite (C3 Nn); exact S|exact Fs]|]. rewrite C1. rewrite Nat.add_comm.
    apply near_trans with (sqrt (B2R x)); [apply rnd_nonneg, sqrt_pos|apply sqrt_pos| |apply near_sqrt; [lra|exact Ht|exact N]].
    apply rnd_near. right. apply Rle_trans with 1.
    - change 1 with (bpow radix2 0). apply bpow_le. unfold Prec_gt_0, Prec_lt_emax in *. lia.
    - rewrite <- sqrt_1. apply sqrt_le_1_alt, L1.
  Qed.

  (** One cell: within eleven roundings of the bounded loss. *)
  Lemma cell_near (alpha tiny : F) (V U WH : fmat prec emax) i j : positive alpha -> positive (U i j) -> is_finite (res V WH i j) = true ->
    cell_range emax (B2R alpha) (B2R (res V WH i j)) (B2R (U i j)) -> g ^ 11 <= 2 ->
    let t := fmul (merged_rs alpha V U WH i j) (merged_rs alpha V U WH i j) in
    proper t /\ near 11 (B2R t) (bounded_loss (B2R alpha) (B2R (res V WH i j) / B2R (U i j))).
  Proof.
    intros [Fa Pa] [Fu Pu] Fr (R1 & R2 & R3) G t. unfold t, merged_rs, runc, sres. clear t.
    set (r := res V WH i j) in *. set (u := U i j) in *. set (x := Rabs (B2R r / B2R u)) in *.
    assert (Ex : x = Rabs (B2R r) / B2R u).
    { unfold x, Rdiv. rewrite Rabs_mult, (Rabs_pos_eq (/ B2R u)); [reflexivity|]. left. apply Rinv_0_lt_compat, Pu. }
    assert (Gs : forall q, (q <= 11)%nat -> g ^ q <= 2) by (intros q Hq; eapply Rle_trans; [apply g_mono, Hq|exact G]).
    assert (Zx : 0 <= x) by apply Rabs_pos.
    assert (B : bounded_loss (B2R alpha) (B2R r / B2R u) = if Rle_dec x (B2R alpha) then x * x else B2R alpha * x).
    { unfold bounded_loss. fold x. destruct (Rle_dec x (B2R alpha)); [|reflexivity]. unfold x. rewrite <- Rabs_mult. rewrite Rabs_pos_eq; [reflexivity|apply Rle_0_sqr]. }
    destruct (absdiv_near r u x 0 Fr Fu Pu) as [Ps Ns]; [rewrite <- Ex; apply near_refl|exact R1|apply Gs; lia|].
    set (s := fabs (fdiv r u)) in *. cbn [Nat.add] in Ns. pose proof (proper_nonneg _ Ps) as Zs.
    assert (Es : B2R s = rnd x).
    { destruct (absdiv_val r u Fr Fu Pu) as [_ Vs]. fold s in Vs. rewrite (val_fin _ (proj2 Ps)) in Vs. rewrite Vs, <- Ex.
      apply clamp_small. destruct (ok_room 0 x x R1 Zx (near_refl x) (Gs 0%nat ltac:(lia))) as [_ Up]. exact (rnd_small _ Up). }
    rewrite Bltb_correct by (exact Fa || apply Ps). rewrite B.
    destruct (Rlt_bool_spec (B2R alpha) (B2R s)) as [L|L].
    - (* the outlier branch *)
      assert (Lx : B2R alpha < x).
      { apply Rnot_le_lt. intros C. apply Rlt_not_le in L. apply L. rewrite Es.
        rewrite <- (rnd_id alpha). apply rnd_mono, C. }
      destruct (Rle_dec x (B2R alpha)) as [C|_]; [lra|]. destruct (R3 Lx) as (K1 & K2 & K3 & K4).
      assert (N1 : near 1 (B2R s / B2R alpha) (x / B2R alpha)) by (apply (near_div 1 0); try assumption; apply near_refl).
      destruct (div_near s alpha (x / B2R alpha) 1 Ps (conj (pos_sign _ Pa) Fa) Pa N1 K1 (Gs 1%nat ltac:(lia))) as [Pq Nq].
      cbn [Nat.add] in Nq. set (q := fdiv s alpha) in *.
      assert (L1 : 1 <= B2R q).
      { destruct (absdiv_val s alpha (proj2 Ps) Fa Pa) as [_ Vq].
        assert (Eq : fabs (fdiv s alpha) = q).
        { fold q. destruct Pq as [Sq Fq]. unfold fabs. destruct q; cbn in *; subst; reflexivity. }
        rewrite Eq, (val_fin _ (proj2 Pq)) in Vq. rewrite Vq. unfold clamp. apply Rmin_glb; [|apply top_ge1].
        rewrite Rabs_pos_eq by exact Zs. apply round_ge_generic; try typeclasses eauto; [apply format1|].
        apply Rmult_le_reg_r with (B2R alpha); [exact Pa|]. unfold Rdiv. rewrite Rmult_assoc, Rinv_l by lra. lra. }
      destruct (sqrt_near q (x / B2R alpha) 2 Pq L1 (ok_nonneg _ K1) Nq) as [Pt Nt]. cbn [Nat.add] in Nt.
      set (st := fsqrt q) in *.
      assert (Pu' : proper u) by (split; [apply pos_sign, Pu|exact Fu]).
      assert (N2 : near 3 (B2R st * B2R u) (sqrt (x / B2R alpha) * B2R u)).
      { apply (near_mul 3 0); try apply near_refl; try assumption; try apply sqrt_pos; try lra. apply proper_nonneg, Pt. }
      destruct (mul_near st u _ 3 Pt Pu' N2 K2 (Gs 3%nat ltac:(lia))) as [Pr Nr]. cbn [Nat.add] in Nr.
      set (rho := fmul st u) in *.
      assert (Pxa : 0 < x / B2R alpha) by (apply Rmult_lt_0_compat; [lra|apply Rinv_0_lt_compat, Pa]).
      assert (Pex : 0 < sqrt (x / B2R alpha) * B2R u) by (apply Rmult_lt_0_compat; [apply sqrt_lt_R0, Pxa|exact Pu]).
      assert (Prho : 0 < B2R rho).
      { destruct Nr as [Nr _]. apply Rnot_le_lt. intros C. pose proof (g_pow (prec := prec) 4). nra. }
      assert (Esq : Rabs (B2R r) / (sqrt (x / B2R alpha) * B2R u) = sqrt (B2R alpha * x)).
      { assert (Hs : sqrt (x / B2R alpha) <> 0) by (apply Rgt_not_eq, sqrt_lt_R0, Pxa).
        assert (Er : Rabs (B2R r) = x * B2R u) by (rewrite Ex; field; lra). rewrite Er.
        replace (x * B2R u / (sqrt (x / B2R alpha) * B2R u)) with (x / sqrt (x / B2R alpha)) by (field; split; lra).
        replace (B2R alpha * x) with (x / B2R alpha * (B2R alpha * B2R alpha)) by (field; lra).
        rewrite sqrt_mult, sqrt_square by (lra || nra). apply Rmult_eq_reg_r with (sqrt (x / B2R alpha)); [|exact Hs].
        replace (x / sqrt (x / B2R alpha) * sqrt (x / B2R alpha)) with x by (field; exact Hs).
        replace (sqrt (x / B2R alpha) * B2R alpha * sqrt (x / B2R alpha)) with (sqrt (x / B2R alpha) * sqrt (x / B2R alpha) * B2R alpha) by ring.
        rewrite sqrt_sqrt by lra. field. lra. }
      assert (N3 : near 4 (Rabs (B2R r) / B2R rho) (sqrt (B2R alpha * x))).
      { rewrite <- Esq. apply (near_div 0 4); try apply near_refl; try assumption; apply Rabs_pos. }
      destruct (absdiv_near r rho _ 4 Fr (proj2 Pr) Prho N3 K3 (Gs 4%nat ltac:(lia))) as [Pm Nm]. cbn [Nat.add] in Nm.
      set (mm := fabs (fdiv r rho)) in *.
      assert (N4 : near 10 (B2R mm * B2R mm) (B2R alpha * x)).
      { rewrite <- (sqrt_sqrt (B2R alpha * x)) by (apply Rmult_le_pos; lra).
        apply (near_mul 5 5); try assumption; try apply sqrt_pos; apply proper_nonneg, Pm. }
      exact (mul_near mm mm _ 10 Pm Pm N4 K4 (Gs 10%nat ltac:(lia))).
    - destruct (Rle_dec x (B2R alpha)) as [C|C].
      + assert (N2 : near 2 (B2R s * B2R s) (x * x)) by (apply (near_mul 1 1); assumption).
        destruct (mul_near s s _ 2 Ps Ps N2 (R2 C) (Gs 2%nat ltac:(lia))) as [Pt Nt]. split; [exact Pt|].
        apply near_mono with 3%nat; [lia|apply proper_nonneg, Pt|nra|exact Nt].
      + apply Rnot_le_lt in C. destruct (R3 C) as (_ & _ & _ & K4).
        assert (E : B2R s = B2R alpha).
        { apply Rle_antisym; [exact L|]. rewrite Es, <- (rnd_id alpha). apply rnd_mono. lra. }
        assert (N2 : near 1 (B2R s * B2R s) (B2R alpha * x)).
        { rewrite E at 1. apply (near_mul 0 1); try assumption; try apply near_refl; lra. }
        destruct (mul_near s s _ 1 Ps Ps N2 K4 (Gs 1%nat ltac:(lia))) as [Pt Nt]. split; [exact Pt|].
        apply near_mono with 2%nat; [lia|apply proper_nonneg, Pt|apply Rmult_le_pos; lra|exact Nt].
  Qed.

  Definition one_ok (q : nat) (x : F) (t : R) : Prop := proper x /\ near q (B2R x) t /\ 0 <= t.
  Lemma ones_nonneg q l e : Forall2 (one_ok q) l e -> 0 <= lsum e.
  Proof. induction 1 as [|p t l e (_ & _ & H) _ IH]; cbn; lra. Qed.
  Lemma total_near q (l : list F) s : total l s -> forall e, Forall2 (one_ok q) l e -> lsum e <= hi -> g ^ (q + List.length l) <= 2 ->
    proper s /\ near (q + List.length l) (B2R s) (lsum e).
  Proof.
    induction 1 as [|x|l1 l2 a b D1 IH1 D2 IH2|l l' a Hp _ IH]; intros e He Hh Hg.
    - inversion He; subst. split; [split; reflexivity|]. unfold within. cbn. lra.
    - inversion He as [|? t ? e' (P1 & N & T) He']; subst. inversion He'; subst. cbn [lsum List.length] in *. rewrite Rplus_0_r.
      split; [exact P1|]. apply near_mono with q; [lia|apply proper_nonneg, P1|exact T|exact N].
    - apply Forall2_app_inv_l in He. destruct He as (e1 & e2 & He1 & He2 & ->). rewrite lsum_app in *. rewrite app_length in *.
      pose proof (ones_nonneg _ _ _ He1) as Z1. pose proof (ones_nonneg _ _ _ He2) as Z2.
      assert (G1 : g ^ (q + List.length l1) <= 2) by (eapply Rle_trans; [apply g_mono|exact Hg]; lia).
      assert (G2 : g ^ (q + List.length l2) <= 2) by (eapply Rle_trans; [apply g_mono|exact Hg]; lia).
      destruct (IH1 e1 He1 ltac:(lra) G1) as [Pa Na]. destruct (IH2 e2 He2 ltac:(lra) G2) as [Pb Nb].
      destruct l1 as [|p1 l1].
      { inversion He1; subst. rewrite (total_empty _ _ D1 eq_refl) in *. destruct (add_zero_l b Pb) as [E P]. split; [exact P|]. rewrite E. cbn [lsum List.length Nat.add]. rewrite Rplus_0_l. exact Nb. }
      destruct l2 as [|p2 l2].
      { inversion He2; subst. rewrite (total_empty _ _ D2 eq_refl) in *. destruct (add_zero_r a Pa) as [E P]. split; [exact P|]. rewrite E. cbn [lsum List.length Nat.add]. rewrite Rplus_0_r, Nat.add_0_r. exact Na. }
      set (N := (q + (List.length (p1 :: l1) + List.length (p2 :: l2)))%nat) in *.
      assert (EN : N = (N - 1 + 1)%nat) by (unfold N; cbn [List.length]; lia). rewrite EN.
      apply add_near; try assumption.
      + apply near_mono with (q + List.length (p1 :: l1))%nat; [unfold N; cbn [List.length]; lia|apply proper_nonneg, Pa|exact Z1|exact Na].
      + apply near_mono with (q + List.length (p2 :: l2))%nat; [unfold N; cbn [List.length]; lia|apply proper_nonneg, Pb|exact Z2|exact Nb].
      + eapply Rle_trans; [apply g_mono|exact Hg]. lia.
    - destruct (Permutation_Forall2 (Permutation_sym Hp) He) as (e' & Pe & He').
      rewrite (lsum_perm _ _ Pe) in *. rewrite <- (Permutation_length Hp) in *. apply IH; assumption.
  Qed.
End A.
