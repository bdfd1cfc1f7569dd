(** Lemmas about rounding errors of LS-NMF steps. *)
From Coq Require Import ZArith Reals Lra Lia List Bool Permutation Arith.
From Flocq Require Import Core BinarySingleNaN Plus_error Relative.
From Verif Require Import Base LSNMF_Model Boot_Proofs Float_Model Float_Spec Float_Proofs Acc_Spec.
From Verif Require LSNMF_Proofs.
Import ListNotations.
Local Open Scope R_scope.

(** [x] and [r] differ at most by the factor (1/(1-2^-prec))^p. *)
Definition growth (prec : Z) : R := / (1 - bpow radix2 (- prec)).
Definition within (prec : Z) (p : nat) (x r : R) : Prop := r <= x * growth prec ^ p /\ x <= r * growth prec ^ p.

Section A.
  Context {prec emax : Z} {Hprec : Prec_gt_0 prec} {Hmax : Prec_lt_emax prec emax}.
  Notation F := (binary_float prec emax).
  Notation fexp := (SpecFloat.fexp prec emax).
  Notation rnd := (round radix2 fexp (round_mode mode_NE)).
  Notation g := (growth prec).
  Notation near := (within prec).
  Notation ok := (in_range (emax := emax)).
  Let u : R := bpow radix2 (- prec).
  Let hi : R := bpow radix2 (emax - 2).
  Let lo : R := bpow radix2 (3 - emax).

  Lemma u_half : 0 < u <= / 2.
  Proof.
    unfold u. split; [apply bpow_gt_0|]. change (/ 2) with (bpow radix2 (-1)). apply bpow_le. unfold Prec_gt_0 in Hprec. lia.
  Qed.
  Lemma g_ge1 : 1 < g.
  Proof.
    pose proof u_half. unfold growth. fold u. rewrite <- Rinv_1 at 1. apply Rinv_lt_contravar; lra.
  Qed.
  Lemma g_pow p : 1 <= g ^ p.
  Proof. apply pow_R1_Rle. pose proof g_ge1. lra. Qed.
  Lemma g_mono p q : (p <= q)%nat -> g ^ p <= g ^ q.
  Proof. intros H. apply Rle_pow; [pose proof g_ge1; lra|exact H]. Qed.
  Lemma near_mono p q x r : (p <= q)%nat -> 0 <= x -> 0 <= r -> near p x r -> near q x r.
  Proof.
    intros Hpq Hx Hr [A B]. pose proof (g_mono p q Hpq). split; (eapply Rle_trans; [eassumption|]); apply Rmult_le_compat_l; assumption.
  Qed.
  Lemma near_refl x : near 0 x x.
  Proof. unfold within. cbn. lra. Qed.
  Lemma near_trans p q x y z : 0 <= x -> 0 <= z -> near p x y -> near q y z -> near (p + q) x z.
  Proof.
    intros Hx Hz [A B] [C D]. unfold within. rewrite pow_add. pose proof (g_pow p). pose proof (g_pow q). split.
    - apply Rle_trans with (y * g ^ q); [exact C|]. rewrite <- Rmult_assoc. apply Rmult_le_compat_r; lra.
    - apply Rle_trans with (y * g ^ p); [exact B|]. rewrite (Rmult_comm (g ^ p)), <- Rmult_assoc. apply Rmult_le_compat_r; lra.
  Qed.
  Lemma near_mul p q x y r s : 0 <= x -> 0 <= y -> 0 <= r -> 0 <= s -> near p x r -> near q y s -> near (p + q) (x * y) (r * s).
  Proof.
    intros Hx Hy Hr Hs [A B] [C D]. unfold within. rewrite pow_add. pose proof (g_pow p). pose proof (g_pow q).
    split; [replace (x * y * (g ^ p * g ^ q)) with (x * g ^ p * (y * g ^ q)) by ring|replace (r * s * (g ^ p * g ^ q)) with (r * g ^ p * (s * g ^ q)) by ring];
      apply Rmult_le_compat; assumption.
  Qed.
  Lemma near_div p q x y r s : 0 <= x -> 0 < y -> 0 <= r -> 0 < s -> near p x r -> near q y s -> near (p + q) (x / y) (r / s).
  Proof.
    intros Hx Hy Hr Hs Hx' [C D]. unfold Rdiv. apply near_mul; try assumption; try (left; apply Rinv_0_lt_compat; assumption).
    pose proof (g_pow q). split.
    - apply Rmult_le_reg_r with (s * y); [apply Rmult_lt_0_compat; assumption|].
      replace (/ s * (s * y)) with y by (field; lra). replace (/ y * g ^ q * (s * y)) with (s * g ^ q) by (field; lra). exact D.
    - apply Rmult_le_reg_r with (s * y); [apply Rmult_lt_0_compat; assumption|].
      replace (/ y * (s * y)) with s by (field; lra). replace (/ s * g ^ q * (s * y)) with (y * g ^ q) by (field; lra). exact C.
  Qed.
  Lemma near_add p x y r s : near p x r -> near p y s -> near p (x + y) (r + s).
  Proof. intros [A B] [C D]. split; rewrite Rmult_plus_distr_r; lra. Qed.
  Lemma near_rsum n p f h : (forall i, (i < n)%nat -> near p (f i) (h i)) -> near p (rsum n f) (rsum n h).
  Proof.
    induction n as [|n IH]; intros H; cbn [rsum]; [unfold within; lra|]. apply near_add; [apply IH; intros; apply H; lia|apply H; lia].
  Qed.

  (** ** Rounding *)
  Lemma rnd_eps z e : - u <= e <= u -> 0 <= z -> rnd z = z * (1 + e) -> near 1 (rnd z) z.
  Proof.
    intros He Hz E. pose proof u_half. pose proof g_ge1. assert (Eg : (1 - u) * g = 1) by (unfold growth; fold u; field; lra).
    unfold within. rewrite pow_1, E. split.
    - apply Rle_trans with (z * ((1 - u) * g)); [rewrite Eg; lra|]. rewrite Rmult_assoc. apply Rmult_le_compat_l; [exact Hz|]. apply Rmult_le_compat_r; lra.
    - apply Rmult_le_compat_l; [exact Hz|]. apply Rle_trans with (1 + u); [lra|]. apply Rmult_le_reg_l with (1 - u); [lra|]. rewrite Eg. nra.
  Qed.
  Lemma rnd_nonneg z : 0 <= z -> 0 <= rnd z.
  Proof.
    intros H. rewrite <- (round_0 radix2 fexp (round_mode mode_NE)). apply round_le; try typeclasses eauto. exact H.
  Qed.
  Lemma rnd_near z : z = 0 \/ bpow radix2 (2 - emax) <= z -> near 1 (rnd z) z.
  Proof.
    intros [-> | Hz].
    - rewrite round_0 by typeclasses eauto. unfold within. lra.
    - assert (P : 0 <= z) by (pose proof (bpow_gt_0 radix2 (2 - emax)); lra).
      destruct (relative_error_N_FLT_ex radix2 (SpecFloat.emin prec emax) prec Hprec (fun x => negb (Z.even x)) z) as (e & He & E).
      { rewrite Rabs_pos_eq by exact P. replace (SpecFloat.emin prec emax + prec - 1)%Z with (2 - emax)%Z by (unfold SpecFloat.emin; lia). exact Hz. }
      apply rnd_eps with e; [|exact P|exact E].
      assert (Eu : / 2 * bpow radix2 (- prec + 1) = u) by (unfold u; rewrite bpow_plus; change (bpow radix2 1) with 2; field).
      rewrite Eu in He. pose proof (Rle_abs e). pose proof (Rle_abs (- e)) as Hn. rewrite Rabs_Ropp in Hn. lra.
  Qed.
  Lemma rnd_small z : z <= bpow radix2 (emax - 1) -> rnd z < bpow radix2 emax.
  Proof.
    intros Hz. apply Rle_lt_trans with (bpow radix2 (emax - 1)); [|apply bpow_lt; lia].
    apply round_le_generic; try typeclasses eauto; [|exact Hz].
    apply generic_format_bpow. unfold SpecFloat.fexp, SpecFloat.emin. unfold Prec_gt_0, Prec_lt_emax in *. lia.
  Qed.
  Lemma hi2 : bpow radix2 (emax - 1) = hi * 2.
  Proof. unfold hi. replace (emax - 1)%Z with (emax - 2 + 1)%Z by lia. rewrite bpow_plus. reflexivity. Qed.
  Lemma lo2 : lo = bpow radix2 (2 - emax) * 2.
  Proof. unfold lo. replace (3 - emax)%Z with (2 - emax + 1)%Z by lia. rewrite bpow_plus. reflexivity. Qed.

  (** An approximation of a number in range can be rounded. *)
  Lemma ok_room p z t : ok t -> 0 <= z -> near p z t -> g ^ p <= 2 -> (z = 0 \/ bpow radix2 (2 - emax) <= z) /\ z <= bpow radix2 (emax - 1).
  Proof.
    intros Ht Hz [A B] Hp. pose proof (g_pow p). rewrite hi2. destruct Ht as [-> |[Hl Hu]].
    - assert (z = 0) by lra. split; [left; assumption|]. assert (0 < hi) by apply bpow_gt_0. lra.
    - fold lo in Hl. fold hi in Hu. rewrite lo2 in Hl. assert (0 < lo) by apply bpow_gt_0. rewrite lo2 in H0. split; [right|]; nra.
  Qed.

  Lemma proper_nonneg (x : F) : proper x -> 0 <= B2R x.
  Proof. intros [H _]. apply B2R_nonneg, H. Qed.
  Lemma finite_not_nan (x : F) : is_finite x = true -> is_nan x = false.
  Proof. destruct x; cbn; congruence. Qed.

  Lemma mul_near (x y : F) t q : proper x -> proper y -> near q (B2R x * B2R y) t -> ok t -> g ^ q <= 2 ->
    proper (fmul x y) /\ near (q + 1) (B2R (fmul x y)) t.
  Proof.
    intros Px Py Hq Ht Hg. assert (Z : 0 <= B2R x * B2R y) by (apply Rmult_le_pos; apply proper_nonneg; assumption).
    destruct (ok_room _ _ _ Ht Z Hq Hg) as [Hlow Hup].
    pose proof (Bmult_correct prec emax _ _ mode_NE x y) as C. rewrite Rabs_pos_eq in C by (apply rnd_nonneg, Z).
    rewrite Rlt_bool_true in C by (apply rnd_small, Hup). destruct C as (C1 & C2 & C3).
    assert (Ff : is_finite (fmul x y) = true) by (unfold fmul; rewrite C2, (proj2 Px), (proj2 Py); reflexivity).
    split; [split; [|exact Ff]|].
    - rewrite mul_sign by apply finite_not_nan, Ff. rewrite (proj1 Px), (proj1 Py). reflexivity.
    - unfold fmul. rewrite C1. rewrite Nat.add_comm. assert (0 <= t) by (destruct Ht as [-> |[Hl _]]; [lra|pose proof (bpow_gt_0 radix2 (3 - emax)); lra]).
      apply near_trans with (B2R x * B2R y); [apply rnd_nonneg, Z|assumption|apply rnd_near, Hlow|exact Hq].
  Qed.
  Lemma div_near (x y : F) t q : proper x -> proper y -> 0 < B2R y -> near q (B2R x / B2R y) t -> ok t -> g ^ q <= 2 ->
    proper (fdiv x y) /\ near (q + 1) (B2R (fdiv x y)) t.
  Proof.
    intros Px Py Hy Hq Ht Hg. pose proof (proper_nonneg _ Px) as Hx.
    assert (Z : 0 <= B2R x / B2R y) by (apply Rmult_le_pos; [exact Hx|left; apply Rinv_0_lt_compat, Hy]).
    destruct (ok_room _ _ _ Ht Z Hq Hg) as [Hlow Hup].
    pose proof (Bdiv_correct prec emax _ _ mode_NE x y ltac:(lra)) as C. rewrite Rabs_pos_eq in C by (apply rnd_nonneg, Z).
    rewrite Rlt_bool_true in C by (apply rnd_small, Hup). destruct C as (C1 & C2 & C3).
    assert (Ff : is_finite (fdiv x y) = true) by (unfold fdiv; rewrite C2; exact (proj2 Px)).
    split; [split; [|exact Ff]|].
    - rewrite div_sign by apply finite_not_nan, Ff. rewrite (proj1 Px), (proj1 Py). reflexivity.
    - unfold fdiv. rewrite C1. rewrite Nat.add_comm. assert (0 <= t) by (destruct Ht as [-> |[Hl _]]; [lra|pose proof (bpow_gt_0 radix2 (3 - emax)); lra]).
      apply near_trans with (B2R x / B2R y); [apply rnd_nonneg, Z|assumption|apply rnd_near, Hlow|exact Hq].
  Qed.
  Lemma add_near (a b : F) s t p : proper a -> proper b -> 0 <= s -> 0 <= t -> near p (B2R a) s -> near p (B2R b) t -> s + t <= hi -> g ^ p <= 2 ->
    proper (fadd a b) /\ near (p + 1) (B2R (fadd a b)) (s + t).
  Proof.
    intros Pa Pb Hs Ht Na Nb Hh Hg. pose proof (proper_nonneg _ Pa) as Ha. pose proof (proper_nonneg _ Pb) as Hb.
    pose proof (near_add _ _ _ _ _ Na Nb) as N. destruct N as [N1 N2]. pose proof (g_pow p).
    assert (Up : B2R a + B2R b <= bpow radix2 (emax - 1)) by (rewrite hi2; nra).
    destruct (add_good a b Pa Pb) as [E1 E2]. specialize (E2 (rnd_small _ Up)). specialize (E1 E2).
    split.
    - split; [|exact E2]. apply nn_sign; [|apply finite_not_nan, E2]. apply nn_add; right; [apply Pa|apply Pb].
    - rewrite E1. destruct (add_rel a b) as (e & He & Ee). rewrite Nat.add_comm.
      apply near_trans with (B2R a + B2R b); [apply rnd_nonneg; lra|lra| |split; assumption].
      apply rnd_eps with e; [exact He|lra|exact Ee].
  Qed.
  Lemma add_zero_l (b : F) : proper b -> B2R (fadd fzero b) = B2R b /\ proper (fadd fzero b).
  Proof.
    intros Pb. pose proof (proper_nonneg _ Pb) as Hb. assert (P0 : proper (fzero : F)) by (split; reflexivity).
    assert (E : rnd (B2R (fzero : F) + B2R b) = B2R b).
    { change (B2R (fzero : F)) with 0. rewrite Rplus_0_l. apply round_generic; [typeclasses eauto|apply generic_format_B2R]. }
    destruct (add_good fzero b P0 Pb) as [E1 E2]. rewrite E in *.
    assert (Hf : is_finite (fadd fzero b) = true).
    { apply E2. pose proof (abs_B2R_lt_emax prec emax b) as L. rewrite Rabs_pos_eq in L by exact Hb. exact L. }
    split; [apply E1, Hf|]. split; [|exact Hf]. apply nn_sign; [|apply finite_not_nan, Hf]. apply nn_add; right; [reflexivity|apply Pb].
  Qed.
  Lemma add_zero_r (b : F) : proper b -> B2R (fadd b fzero) = B2R b /\ proper (fadd b fzero).
  Proof.
    intros Pb. pose proof (proper_nonneg _ Pb) as Hb. assert (P0 : proper (fzero : F)) by (split; reflexivity).
    assert (E : rnd (B2R b + B2R (fzero : F)) = B2R b).
    { change (B2R (fzero : F)) with 0. rewrite Rplus_0_r. apply round_generic; [typeclasses eauto|apply generic_format_B2R]. }
    destruct (add_good b fzero Pb P0) as [E1 E2]. rewrite E in *.
    assert (Hf : is_finite (fadd b fzero) = true).
    { apply E2. pose proof (abs_B2R_lt_emax prec emax b) as L. rewrite Rabs_pos_eq in L by exact Hb. exact L. }
    split; [apply E1, Hf|]. split; [|exact Hf]. apply nn_sign; [|apply finite_not_nan, Hf]. apply nn_add; right; [apply Pb|reflexivity].
  Qed.
  Lemma fma_near (x y a : F) t s p : proper x -> proper y -> proper a -> near p (B2R x * B2R y) t -> ok t -> 0 <= s -> near p (B2R a) s -> t + s <= hi -> g ^ p <= 2 ->
    proper (ffma x y a) /\ near (p + 1) (B2R (ffma x y a)) (t + s).
  Proof.
    intros Px Py Pa Nt Ht Hs Ns Hh Hg. pose proof (proper_nonneg _ Pa) as Ha.
    assert (Z : 0 <= B2R x * B2R y) by (apply Rmult_le_pos; apply proper_nonneg; assumption).
    assert (T0 : 0 <= t) by (destruct Ht as [-> |[Hl _]]; [lra|pose proof (bpow_gt_0 radix2 (3 - emax)); lra]).
    destruct (ok_room _ _ _ Ht Z Nt Hg) as [Hlow _]. pose proof (near_add _ _ _ _ _ Nt Ns) as N. pose proof N as [N1 N2]. pose proof (g_pow p).
    assert (Up : B2R x * B2R y + B2R a <= bpow radix2 (emax - 1)) by (rewrite hi2; nra).
    pose proof (Bfma_correct prec emax _ _ mode_NE x y a (proj2 Px) (proj2 Py) (proj2 Pa)) as C. cbv zeta in C.
    rewrite Rabs_pos_eq in C by (apply rnd_nonneg; lra). rewrite Rlt_bool_true in C by (apply rnd_small, Up). destruct C as (C1 & C2 & C3).
    split.
    - split; [|exact C2]. apply nn_sign; [|apply finite_not_nan, C2]. apply nn_fma; right; [apply Px|apply Py|apply Pa].
    - unfold ffma. rewrite C1. rewrite Nat.add_comm. destruct Hlow as [E0|Hlow].
      + assert (Er : rnd (B2R x * B2R y + B2R a) = B2R x * B2R y + B2R a).
        { rewrite E0, Rplus_0_l. apply round_generic; [typeclasses eauto|apply generic_format_B2R]. }
        rewrite Er. apply near_mono with p; [lia|lra|lra|exact N].
      + apply near_trans with (B2R x * B2R y + B2R a); [apply rnd_nonneg; lra|lra| |exact N]. apply rnd_near. right. lra.
  Qed.

  (** ** Sums of products *)
  Definition pair_ok (q : nat) (p : F * F) (t : R) : Prop := proper (fst p) /\ proper (snd p) /\ near q (B2R (fst p) * B2R (snd p)) t /\ ok t.
  Lemma ok_nonneg t : ok t -> 0 <= t.
  Proof. intros [-> |[Hl _]]; [lra|pose proof (bpow_gt_0 radix2 (3 - emax)); lra]. Qed.
  Lemma pairs_nonneg q l e : Forall2 (pair_ok q) l e -> 0 <= lsum e.
  Proof. induction 1 as [|p t l e (_ & _ & _ & H) _ IH]; cbn; [lra|]. apply ok_nonneg in H. lra. Qed.
  Lemma dot_empty (l : list (F * F)) s : dot l s -> l = [] -> s = fzero.
  Proof.
    induction 1 as [|x y|l1 l2 a b _ IH1 _ IH2|l x y a _ _|l l' a Hp _ IH]; intros E; try reflexivity; try discriminate.
    - apply app_eq_nil in E. destruct E as [E1 E2]. rewrite (IH1 E1), (IH2 E2). reflexivity.
    - subst. apply IH. apply Permutation_nil. symmetry. exact Hp.
  Qed.
  Lemma dot_near q (l : list (F * F)) s : dot l s -> forall e, Forall2 (pair_ok q) l e -> lsum e <= hi -> g ^ (q + List.length l) <= 2 ->
    proper s /\ near (q + List.length l) (B2R s) (lsum e).
  Proof.
    induction 1 as [|x y|l1 l2 a b D1 IH1 D2 IH2|l x y a _ IH|l l' a Hp _ IH]; intros e He Hh Hg.
    - inversion He; subst. split; [split; reflexivity|]. unfold within. cbn. lra.
    - inversion He as [|? t ? e' (P1 & P2 & N & T) He']; subst. inversion He'; subst. cbn [lsum List.length] in *. rewrite Rplus_0_r.
      apply mul_near; [exact P1|exact P2|exact N|exact T|]. apply Rle_trans with (g ^ (q + 1)); [apply g_mono; lia|exact Hg].
    - apply Forall2_app_inv_l in He. destruct He as (e1 & e2 & He1 & He2 & ->). rewrite lsum_app in *. rewrite app_length in *.
      pose proof (pairs_nonneg _ _ _ He1) as Z1. pose proof (pairs_nonneg _ _ _ He2) as Z2.
      assert (G1 : g ^ (q + List.length l1) <= 2) by (eapply Rle_trans; [apply g_mono|exact Hg]; lia).
      assert (G2 : g ^ (q + List.length l2) <= 2) by (eapply Rle_trans; [apply g_mono|exact Hg]; lia).
      destruct (IH1 e1 He1 ltac:(lra) G1) as [Pa Na]. destruct (IH2 e2 He2 ltac:(lra) G2) as [Pb Nb].
      destruct l1 as [|p1 l1].
      { inversion He1; subst. rewrite (dot_empty _ _ D1 eq_refl) in *. destruct (add_zero_l b Pb) as [E P]. split; [exact P|]. rewrite E. cbn [lsum List.length Nat.add]. rewrite Rplus_0_l. exact Nb. }
      destruct l2 as [|p2 l2].
      { inversion He2; subst. rewrite (dot_empty _ _ D2 eq_refl) in *. destruct (add_zero_r a Pa) as [E P]. split; [exact P|]. rewrite E. cbn [lsum List.length Nat.add]. rewrite Rplus_0_r, Nat.add_0_r. exact Na. }
      set (N := (q + (List.length (p1 :: l1) + List.length (p2 :: l2)))%nat) in *.
      assert (EN : N = (N - 1 + 1)%nat) by (unfold N; cbn [List.length]; lia). rewrite EN.
      apply add_near; try assumption.
      + apply near_mono with (q + List.length (p1 :: l1))%nat; [unfold N; cbn [List.length]; lia|apply proper_nonneg, Pa|exact Z1|exact Na].
      + apply near_mono with (q + List.length (p2 :: l2))%nat; [unfold N; cbn [List.length]; lia|apply proper_nonneg, Pb|exact Z2|exact Nb].
      + eapply Rle_trans; [apply g_mono|exact Hg]. lia.
    - inversion He as [|? t ? e' (P1 & P2 & Nt & T) He']; subst. cbn [lsum List.length fst snd] in *.
      pose proof (pairs_nonneg _ _ _ He') as Z. pose proof (ok_nonneg _ T) as Zt.
      assert (G : g ^ (q + List.length l) <= 2) by (eapply Rle_trans; [apply g_mono|exact Hg]; lia).
      destruct (IH e' He' ltac:(lra) G) as [Pa Na]. replace (q + S (List.length l))%nat with (q + List.length l + 1)%nat by lia.
      apply fma_near; try assumption. apply near_mono with q; [lia|apply Rmult_le_pos; apply proper_nonneg; assumption|exact Zt|exact Nt].
    - destruct (Permutation_Forall2 (Permutation_sym Hp) He) as (e' & Pe & He').
      rewrite (lsum_perm _ _ Pe) in *. rewrite <- (Permutation_length Hp) in *. apply IH; assumption.
  Qed.
  Lemma product_near q N (A B : nat -> F) (t : nat -> R) s : dot (map (fun l => (A l, B l)) (seq 0 N)) s ->
    (forall l, (l < N)%nat -> proper (A l) /\ proper (B l) /\ near q (B2R (A l) * B2R (B l)) (t l) /\ ok (t l)) ->
    rsum N t <= hi -> g ^ (q + N) <= 2 -> proper s /\ near (q + N) (B2R s) (rsum N t).
  Proof.
    intros D Hl Hh Hg. rewrite rsum_lsum in *.
    pose proof (dot_near q _ _ D (map t (seq 0 N))) as R. rewrite map_length, seq_length in R. apply R; [|exact Hh|exact Hg].
    clear -Hl. assert (Hin : forall l, In l (seq 0 N) -> (l < N)%nat) by (intros l H; apply in_seq in H; lia).
    induction (seq 0 N) as [|x xs IH]; cbn [map]; constructor; [apply Hl, Hin; left; reflexivity|apply IH; intros l H; apply Hin; right; exact H].
  Qed.

  (** ** From powers to units of rounding *)
  Lemma g_bound p : (2 * Z.of_nat p <= 2 ^ prec)%Z -> g ^ p <= 1 + 2 * INR p * u /\ g ^ p <= 2.
  Proof.
    intros Hp. pose proof u_half. assert (Eu : u * IZR (2 ^ prec) = 1).
    { unfold u. replace (IZR (2 ^ prec)) with (bpow radix2 prec); [rewrite <- bpow_plus; replace (- prec + prec)%Z with 0%Z by lia; reflexivity|].
      unfold Prec_gt_0 in Hprec. rewrite <- IZR_Zpower by lia. reflexivity. }
    apply IZR_le in Hp. rewrite mult_IZR, <- INR_IZR_INZ in Hp.
    assert (Hpu : INR p * u <= / 2) by (apply Rmult_le_reg_r with 2; [lra|]; nra).
    pose proof (pos_INR p) as P0. assert (0 <= INR p * u) by nra.
    assert (B : 1 - INR p * u <= (1 - u) ^ p).
    { clear -H. induction p as [|p IH]; [cbn; lra|]. rewrite S_INR. cbn [pow]. pose proof (pos_INR p). assert (0 <= INR p * u * u) by nra. nra. }
    assert (G : g ^ p <= / (1 - INR p * u)).
    { unfold growth. fold u. rewrite <- Rinv_pow by lra. apply Rinv_le_contravar; lra. }
    split; (eapply Rle_trans; [exact G|]).
    - apply Rmult_le_reg_l with (1 - INR p * u); [lra|]. rewrite Rinv_r by lra. nra.
    - apply Rmult_le_reg_l with (1 - INR p * u); [lra|]. rewrite Rinv_r by lra. lra.
  Qed.
  Lemma near_abs p x r : 0 <= r -> near p x r -> Rabs (x - r) <= (g ^ p - 1) * r.
  Proof.
    intros Hr [A B]. pose proof (g_pow p). apply Rabs_le. split; [|lra].
    assert (Hx' : r * (2 - g ^ p) <= x).
    { apply Rmult_le_reg_r with (g ^ p); [lra|]. eapply Rle_trans; [|exact A]. assert (0 <= r * ((g ^ p - 1) * (g ^ p - 1))) by (apply Rmult_le_pos; [exact Hr|apply Rle_0_sqr]).
      replace (r * (2 - g ^ p) * g ^ p) with (r - r * ((g ^ p - 1) * (g ^ p - 1))) by ring. lra. }
    lra.
  Qed.
  Lemma near_close p x r : (2 * Z.of_nat p <= 2 ^ prec)%Z -> 0 <= r -> near p x r -> close prec p x r.
  Proof.
    intros Hp Hr N. destruct (g_bound p Hp) as [G _]. eapply Rle_trans; [apply near_abs; [exact Hr|exact N]|]. fold u. apply Rmult_le_compat_r; [exact Hr|]. lra.
  Qed.

  (** ** Half iterations *)
  Lemma emul_near m n (A B : fmat prec emax) p (t : mat) i j : every m n proper A -> (i < m)%nat -> (j < n)%nat -> proper (B i j) ->
    0 <= t i j -> near p (B2R (B i j)) (t i j) -> ok (B2R (A i j) * t i j) -> g ^ p <= 2 ->
    proper (emul A B i j) /\ near (p + 1) (B2R (emul A B i j)) (B2R (A i j) * t i j).
  Proof.
    intros HA Hi Hj HB Ht N T G. unfold emul. apply mul_near; try assumption; [apply HA; assumption|].
    apply (near_mul 0 p); try assumption; [apply proper_nonneg, HA; assumption|apply proper_nonneg, HB|apply proper_nonneg, HA; assumption|apply near_refl].
  Qed.
  Lemma wh_near m n k (W H WH : fmat prec emax) : every m k proper W -> every k n proper H -> product m k n W H WH ->
    (forall i j, (i < m)%nat -> (j < n)%nat -> ok (model k (value W) (value H) i j) /\ forall a, (a < k)%nat -> ok (value W i a * value H a j)) ->
    g ^ k <= 2 -> forall i j, (i < m)%nat -> (j < n)%nat -> proper (WH i j) /\ near k (B2R (WH i j)) (model k (value W) (value H) i j).
  Proof.
    intros HW HH P T G i j Hi Hj. destruct (T i j Hi Hj) as [T1 T2].
    apply (product_near 0 k (fun l => W i l) (fun l => H l j) (fun l => value W i l * value H l j)); [apply P; assumption| |destruct T1 as [E|[_ E]]|exact G].
    - intros l Hl. split; [apply HW; assumption|]. split; [apply HH; assumption|]. split; [apply near_refl|apply T2, Hl].
    - unfold model in E. rewrite E. apply bpow_ge_0.
    - exact E.
  Qed.
  Lemma ok_hi t : ok t -> t <= hi.
  Proof. intros [-> |[_ E]]; [apply bpow_ge_0|exact E]. Qed.

  Lemma quotient_near (h nu de : F) tn td p q P : proper h -> proper nu -> proper de -> 0 <= tn -> 0 < td -> near p (B2R nu) tn -> near q (B2R de) td ->
    ok (tn / td) -> ok (B2R h * (tn / td)) -> P = (p + q + 2)%nat -> g ^ P <= 2 ->
    proper (fmul h (fdiv nu de)) /\ near P (B2R (fmul h (fdiv nu de))) (B2R h * (tn / td)).
  Proof.
    intros Ph Pn Pd Hn Hd Nn Nd Tq Th -> G. pose proof (g_pow q).
    assert (Dp : 0 < B2R de) by (destruct Nd as [A _]; pose proof (proper_nonneg _ Pd) as [L|L]; [exact L|rewrite <- L in A; lra]).
    assert (Q0 : 0 <= tn / td) by (apply ok_nonneg, Tq).
    destruct (div_near nu de (tn / td) (p + q) Pn Pd Dp) as [P1 N1]; try assumption.
    { apply near_div; try assumption. apply proper_nonneg, Pn. }
    { eapply Rle_trans; [apply g_mono|exact G]; lia. }
    replace (p + q + 2)%nat with (p + q + 1 + 1)%nat by lia. apply mul_near; try assumption.
    - apply (near_mul 0 (p + q + 1)); try assumption; try (apply proper_nonneg; assumption). apply near_refl.
    - eapply Rle_trans; [apply g_mono|exact G]; lia.
  Qed.

  Lemma h_update_near m n k (V We W H H' : fmat prec emax) : every m n proper V -> every m n proper We -> every m k proper W -> every k n proper H ->
    profile_range emax m n k (value V) (value We) (value W) (value H) -> g ^ (2 * m + k + 4) <= 2 -> h_update m n k V We W H H' ->
    forall a j, (a < k)%nat -> (j < n)%nat -> proper (H' a j) /\
      near (2 * m + k + 4) (B2R (H' a j)) (value H a j * (h_num m (value V) (value We) (value W) a j / h_den m k (value We) (value W) (value H) a j)).
  Proof.
    intros HV He HW HH [RC RP] G (WH & Num & Den & Pwh & Pn & Pd & Eq) a j Ha Hj. destruct (RP a j Ha Hj) as (Tn & Td & Dp & Tq & Th & Tt).
    assert (Gk : forall p, (p <= 2 * m + k + 4)%nat -> g ^ p <= 2) by (intros p Hp; eapply Rle_trans; [apply g_mono, Hp|exact G]).
    pose proof (wh_near m n k W H WH HW HH Pwh (fun i j Hi Hj => conj (proj1 (proj2 (RC i j Hi Hj))) (proj2 (proj2 (proj2 (RC i j Hi Hj))))) (Gk k ltac:(lia))) as Nwh.
    assert (WP : forall i b, (i < m)%nat -> (b < k)%nat -> 0 <= value W i b) by (intros; apply proper_nonneg, HW; assumption).
    destruct (product_near 1 m (fun i => W i a) (fun i => emul We V i j) (fun i => value W i a * (value We i j * value V i j)) (Num a j)) as [PN NN].
    { apply Pn; assumption. }
    { intros i Hi. destruct (emul_near m n We V 0 (value V) i j He Hi Hj (HV i j Hi Hj) (proper_nonneg _ (HV i j Hi Hj)) (near_refl _) (proj1 (RC i j Hi Hj)) (Gk 0%nat ltac:(lia))) as [P1 N1].
      split; [apply HW; assumption|]. split; [exact P1|]. split; [|apply Tt, Hi].
      apply (near_mul 0 1); try apply WP; try assumption; [apply proper_nonneg, P1|apply ok_nonneg, (proj1 (RC i j Hi Hj))|apply near_refl]. }
    { apply ok_hi, Tn. } { apply Gk. lia. }
    destruct (product_near (k + 1) m (fun i => W i a) (fun i => emul We WH i j) (fun i => value W i a * (value We i j * model k (value W) (value H) i j)) (Den a j)) as [PD ND].
    { apply Pd; assumption. }
    { intros i Hi. destruct (RC i j Hi Hj) as (_ & Tm & Tw & _). destruct (Nwh i j Hi Hj) as [Pw Nw].
      destruct (emul_near m n We WH k (model k (value W) (value H)) i j He Hi Hj Pw (ok_nonneg _ Tm) Nw Tw (Gk k ltac:(lia))) as [P1 N1].
      split; [apply HW; assumption|]. split; [exact P1|]. split; [|apply Tt, Hi].
      apply (near_mul 0 (k + 1)); try apply WP; try assumption; [apply proper_nonneg, P1|apply ok_nonneg, Tw|apply near_refl]. }
    { apply ok_hi, Td. } { apply Gk. lia. }
    rewrite Eq by assumption. apply quotient_near with (1 + m)%nat (k + 1 + m)%nat; try assumption; [apply HH; assumption|apply ok_nonneg, Tn|lia].
  Qed.

  Lemma w_update_near m n k (V We W H W' : fmat prec emax) : every m n proper V -> every m n proper We -> every m k proper W -> every k n proper H ->
    contribution_range emax m n k (value V) (value We) (value W) (value H) -> g ^ (2 * n + k + 4) <= 2 -> w_update m n k V We W H W' ->
    forall i a, (i < m)%nat -> (a < k)%nat -> proper (W' i a) /\
      near (2 * n + k + 4) (B2R (W' i a)) (value W i a * (w_num n (value V) (value We) (value H) i a / w_den n k (value We) (value W) (value H) i a)).
  Proof.
    intros HV He HW HH [RC RP] G (WH & Num & Den & Pwh & Pn & Pd & Eq) i a Hi Ha. destruct (RP i a Hi Ha) as (Tn & Td & Dp & Tq & Th & Tt).
    assert (Gk : forall p, (p <= 2 * n + k + 4)%nat -> g ^ p <= 2) by (intros p Hp; eapply Rle_trans; [apply g_mono, Hp|exact G]).
    pose proof (wh_near m n k W H WH HW HH Pwh (fun i j Hi Hj => conj (proj1 (proj2 (RC i j Hi Hj))) (proj2 (proj2 (proj2 (RC i j Hi Hj))))) (Gk k ltac:(lia))) as Nwh.
    assert (HP : forall b j, (b < k)%nat -> (j < n)%nat -> 0 <= value H b j) by (intros; apply proper_nonneg, HH; assumption).
    destruct (product_near 1 n (fun j => emul We V i j) (fun j => H a j) (fun j => value We i j * value V i j * value H a j) (Num i a)) as [PN NN].
    { apply Pn; assumption. }
    { intros j Hj. destruct (emul_near m n We V 0 (value V) i j He Hi Hj (HV i j Hi Hj) (proper_nonneg _ (HV i j Hi Hj)) (near_refl _) (proj1 (RC i j Hi Hj)) (Gk 0%nat ltac:(lia))) as [P1 N1].
      split; [exact P1|]. split; [apply HH; assumption|]. split; [|apply Tt, Hj].
      apply (near_mul 1 0); try apply HP; try assumption; [apply proper_nonneg, P1|apply ok_nonneg, (proj1 (RC i j Hi Hj))|apply near_refl]. }
    { apply ok_hi, Tn. } { apply Gk. lia. }
    destruct (product_near (k + 1) n (fun j => emul We WH i j) (fun j => H a j) (fun j => value We i j * model k (value W) (value H) i j * value H a j) (Den i a)) as [PD ND].
    { apply Pd; assumption. }
    { intros j Hj. destruct (RC i j Hi Hj) as (_ & Tm & Tw & _). destruct (Nwh i j Hi Hj) as [Pw Nw].
      destruct (emul_near m n We WH k (model k (value W) (value H)) i j He Hi Hj Pw (ok_nonneg _ Tm) Nw Tw (Gk k ltac:(lia))) as [P1 N1].
      split; [exact P1|]. split; [apply HH; assumption|]. split; [|apply Tt, Hj].
      replace (k + 1)%nat with (k + 1 + 0)%nat by lia.
      apply (near_mul (k + 1) 0); try apply HP; try assumption; [apply proper_nonneg, P1|apply ok_nonneg, Tw|apply near_refl]. }
    { apply ok_hi, Td. } { apply Gk. lia. }
    rewrite Eq by assumption. apply quotient_near with (1 + n)%nat (k + 1 + n)%nat; try assumption; [apply HW; assumption|apply ok_nonneg, Tn|lia].
  Qed.
End A.

(** ** The weighted norm *)
Lemma norm_ext m n We A B : meq m n A B -> norm m n We A = norm m n We B.
Proof. intros E. unfold norm. f_equal. apply msum_ext. intros i j Hi Hj. rewrite E by assumption. reflexivity. Qed.
Lemma norm_nonneg m n We A : 0 <= norm m n We A.
Proof. apply sqrt_pos. Qed.
Lemma msum_wnonneg m n We (A : mat) : mall m n (fun x => 0 <= x) We -> 0 <= msum m n (fun i j => We i j * (A i j * A i j)).
Proof. intros H. apply msum_nonneg. intros i j Hi Hj. apply Rmult_le_pos; [apply H; assumption|apply Rle_0_sqr]. Qed.
Lemma norm_le m n We A B : mall m n (fun x => 0 <= x) We -> (forall i j, (i < m)%nat -> (j < n)%nat -> Rabs (A i j) <= Rabs (B i j)) -> norm m n We A <= norm m n We B.
Proof.
  intros HW H. apply sqrt_le_1_alt. apply rsum_le. intros i Hi. apply rsum_le. intros j Hj. apply Rmult_le_compat_l; [apply HW; assumption|].
  apply Rsqr_le_abs_1, H; assumption.
Qed.

Lemma mink1 n (f h : nat -> R) : sqrt (rsum n (fun i => (f i + h i) * (f i + h i))) <= sqrt (rsum n (fun i => f i * f i)) + sqrt (rsum n (fun i => h i * h i)).
Proof.
  set (A := rsum n (fun i => f i * f i)). set (C := rsum n (fun i => h i * h i)). set (B := rsum n (fun i => f i * h i)).
  assert (HA : 0 <= A) by (apply rsum_nonneg; intros; apply Rle_0_sqr). assert (HC : 0 <= C) by (apply rsum_nonneg; intros; apply Rle_0_sqr).
  pose proof (sqrt_pos A) as SA. pose proof (sqrt_pos C) as SC.
  assert (E : rsum n (fun i => (f i + h i) * (f i + h i)) = A + 2 * B + C).
  { unfold A, B, C. rewrite <- rsum_scal_l, <- !rsum_plus. apply rsum_ext. intros. ring. }
  assert (HB : B <= sqrt A * sqrt C).
  { rewrite <- sqrt_mult by assumption. apply Rle_trans with (sqrt (B * B)); [|apply sqrt_le_1_alt, cauchy].
    change (B * B) with (Rsqr B). rewrite sqrt_Rsqr_abs. apply Rle_abs. }
  rewrite E. replace (sqrt A + sqrt C) with (sqrt (Rsqr (sqrt A + sqrt C))) by (apply sqrt_Rsqr; lra).
  apply sqrt_le_1_alt. unfold Rsqr. pose proof (sqrt_sqrt A HA). pose proof (sqrt_sqrt C HC). nra.
Qed.
Lemma norm_triangle m n We A B : mall m n (fun x => 0 <= x) We -> norm m n We (fun i j => A i j + B i j) <= norm m n We A + norm m n We B.
Proof.
  intros HW. unfold norm, msum.
  set (row := fun (X : mat) i => sqrt (rsum n (fun j => We i j * (X i j * X i j)))).
  assert (Er : forall X i, (i < m)%nat -> rsum n (fun j => We i j * (X i j * X i j)) = row X i * row X i).
  { intros X i Hi. unfold row. rewrite sqrt_sqrt; [reflexivity|]. apply rsum_nonneg. intros j Hj. apply Rmult_le_pos; [apply HW; assumption|apply Rle_0_sqr]. }
  rewrite (rsum_ext m _ (fun i => row (fun i j => A i j + B i j) i * row (fun i j => A i j + B i j) i)) by (intros; apply (Er (fun i j => A i j + B i j)); assumption).
  rewrite (rsum_ext m (fun i => rsum n (fun j => We i j * (A i j * A i j))) (fun i => row A i * row A i)) by (intros; apply Er; assumption).
  rewrite (rsum_ext m (fun i => rsum n (fun j => We i j * (B i j * B i j))) (fun i => row B i * row B i)) by (intros; apply Er; assumption).
  eapply Rle_trans; [|apply mink1]. apply sqrt_le_1_alt. apply rsum_le. intros i Hi.
  assert (T : row (fun i j => A i j + B i j) i <= row A i + row B i).
  { unfold row.
    assert (Ew : forall X : mat, rsum n (fun j => We i j * (X i j * X i j)) = rsum n (fun j => sqrt (We i j) * X i j * (sqrt (We i j) * X i j))).
    { intros X. apply rsum_ext. intros j Hj. rewrite <- (sqrt_sqrt (We i j)) at 1 by (apply HW; assumption). ring. }
    rewrite (Ew A), (Ew B), (Ew (fun i j => A i j + B i j)).
    rewrite (rsum_ext n _ (fun j => (sqrt (We i j) * A i j + sqrt (We i j) * B i j) * (sqrt (We i j) * A i j + sqrt (We i j) * B i j))) by (intros; ring).
    apply mink1. }
  assert (0 <= row (fun i j => A i j + B i j) i) by apply sqrt_pos. apply Rmult_le_compat; assumption.
Qed.
Lemma norm_scal m n We A c : 0 <= c -> norm m n We (fun i j => c * A i j) = c * norm m n We A.
Proof.
  intros Hc. unfold norm. replace (msum m n (fun i j => We i j * (c * A i j * (c * A i j)))) with (Rsqr c * msum m n (fun i j => We i j * (A i j * A i j))).
  - rewrite sqrt_mult_alt by apply Rle_0_sqr. rewrite sqrt_Rsqr by exact Hc. reflexivity.
  - unfold msum. rewrite <- rsum_scal_l. apply rsum_ext. intros i Hi. rewrite <- rsum_scal_l. apply rsum_ext. intros j Hj. unfold Rsqr. ring.
Qed.

(** Perturbing a fit by a relative error [c]. *)
Lemma perturbed m n We V X Y c : 0 <= c -> mall m n (fun x => 0 <= x) We ->
  (forall i j, (i < m)%nat -> (j < n)%nat -> Rabs (Y i j - X i j) <= c * X i j) ->
  norm m n We (fun i j => V i j - Y i j) + norm m n We V <= (1 + c) * (norm m n We (fun i j => V i j - X i j) + norm m n We V).
Proof.
  intros Hc HW HY.
  assert (A : norm m n We (fun i j => V i j - Y i j) <= norm m n We (fun i j => V i j - X i j) + norm m n We (fun i j => X i j - Y i j)).
  { rewrite (norm_ext m n We (fun i j => V i j - Y i j) (fun i j => (V i j - X i j) + (X i j - Y i j))) by (intros i j _ _; ring).
    apply (norm_triangle m n We (fun i j => V i j - X i j)). exact HW. }
  assert (B : norm m n We (fun i j => X i j - Y i j) <= c * norm m n We X).
  { rewrite <- norm_scal by exact Hc. apply norm_le; [exact HW|]. intros i j Hi Hj. rewrite Rabs_minus_sym. eapply Rle_trans; [apply HY; assumption|apply Rle_abs]. }
  assert (C : norm m n We X <= norm m n We V + norm m n We (fun i j => V i j - X i j)).
  { rewrite (norm_ext m n We X (fun i j => V i j + (-1) * (V i j - X i j))) by (intros i j _ _; ring).
    eapply Rle_trans; [apply (norm_triangle m n We V (fun i j => (-1) * (V i j - X i j))); exact HW|]. apply Rplus_le_compat_l.
    apply norm_le; [exact HW|]. intros i j _ _. rewrite <- (Rabs_Ropp (V i j - X i j)). right. f_equal. ring. }
  pose proof (norm_nonneg m n We V). pose proof (norm_nonneg m n We (fun i j => V i j - X i j)). nra.
Qed.
Lemma rsum_close k (w x y : nat -> R) c : (forall a, (a < k)%nat -> 0 <= w a /\ Rabs (y a - x a) <= c * x a) ->
  Rabs (rsum k (fun a => w a * y a) - rsum k (fun a => w a * x a)) <= c * rsum k (fun a => w a * x a).
Proof.
  intros H. assert (B : forall a, (a < k)%nat -> - (c * (w a * x a)) <= w a * y a - w a * x a <= c * (w a * x a)).
  { intros a Ha. destruct (H a Ha) as [Hw Hy]. apply Rabs_le_inv in Hy. destruct Hy as [Y1 Y2]. split; nra. }
  rewrite <- rsum_minus. rewrite <- rsum_scal_l. apply Rabs_le. split.
  - apply Ropp_le_cancel. rewrite Ropp_involutive. rewrite <- (Rmult_1_l (rsum k (fun i => w i * y i - _))), Ropp_mult_distr_l, <- rsum_scal_l.
    apply rsum_le. intros a Ha. specialize (B a Ha). lra.
  - apply rsum_le. intros a Ha. apply B, Ha.
Qed.
Lemma root_q_wloss m n k V We W H : root_q m n k V We W H = sqrt (LSNMF_Proofs.wloss m n k V We W H).
Proof. reflexivity. Qed.

Section B.
  Context {prec emax : Z} {Hprec : Prec_gt_0 prec} {Hmax : Prec_lt_emax prec emax}.
  Context (m n k : nat) (V We : fmat prec emax).
  Context (HV : every m n proper V) (He : every m n proper We).
  Notation size W H := (root_q m n k (value V) (value We) (value W) (value H) + norm m n (value We) (value V)).
  Lemma value_nonneg r s (A : fmat prec emax) : every r s proper A -> mall r s (fun x => 0 <= x) (value A).
  Proof. intros H i j Hi Hj. apply proper_nonneg, H; assumption. Qed.
  Lemma h_exact_some W H : profile_range emax m n k (value V) (value We) W H -> exists H1, h_step m n k (value V) (value We) W H = Some H1.
  Proof.
    intros [_ R0]. unfold h_step. replace (all_nz k n (h_den m k (value We) W H)) with true; [eexists; reflexivity|]. symmetry. apply LSNMF_Proofs.all_nz_true.
    intros a j Ha Hj. destruct (R0 a j Ha Hj) as (_ & _ & D & _). intros E. unfold h_den, mmul in E. unfold model in D. lra.
  Qed.
  Lemma w_exact_some W H : contribution_range emax m n k (value V) (value We) W H -> exists W1, w_step m n k (value V) (value We) W H = Some W1.
  Proof.
    intros [_ R0]. unfold w_step. replace (all_nz m k (w_den n k (value We) W H)) with true; [eexists; reflexivity|]. symmetry. apply LSNMF_Proofs.all_nz_true.
    intros i a Hi Ha. destruct (R0 i a Hi Ha) as (_ & _ & D & _). intros E. unfold w_den, mmul in E. unfold model in D. lra.
  Qed.
  Lemma slack_pos r s (t x : nat -> nat -> R) : (forall i j, (i < r)%nat -> (j < s)%nat -> 0 <= x i j) -> 0 <= rsum r (fun i => rsum s (fun j => t i j * t i j * x i j)).
  Proof. intros H. apply rsum_nonneg. intros i Hi. apply rsum_nonneg. intros j Hj. apply Rmult_le_pos; [apply Rle_0_sqr|apply H; assumption]. Qed.

  Lemma h_update_size W H H' : every m k proper W -> every k n proper H ->
    profile_range emax m n k (value V) (value We) (value W) (value H) -> (2 * Z.of_nat (2 * m + k + 4) <= 2 ^ prec)%Z -> h_update m n k V We W H H' ->
    every k n proper H' /\ size W H' <= growth prec ^ (2 * m + k + 4) * size W H.
  Proof.
    intros HW HH R0 Hp U0. pose proof (proj2 (g_bound _ Hp)) as G.
    pose proof (h_update_near m n k V We W H H' HV He HW HH R0 G U0) as N. split; [intros a j Ha Hj; apply N; assumption|].
    destruct (h_exact_some _ _ R0) as [H1 E1]. pose proof (LSNMF_Proofs.h_step_inv _ _ _ _ _ _ _ _ E1) as [_ E2].
    pose proof (value_nonneg _ _ _ HW) as W0. pose proof (value_nonneg _ _ _ HH) as H0. pose proof (value_nonneg _ _ _ He) as We0. pose proof (value_nonneg _ _ _ HV) as V0.
    pose proof (LSNMF_Proofs.h_step_loss m n k (value V) (value We) (value W) (value H) H1 We0 W0 H0 E1) as L. cbv zeta in L.
    assert (S0 := slack_pos n k (fun j a => h_num m (value V) (value We) (value W) a j / h_den m k (value We) (value W) (value H) a j - 1)
      (fun j a => value H a j * h_den m k (value We) (value W) (value H) a j)). cbv beta in S0.
    assert (S1 : forall i j, (i < n)%nat -> (j < k)%nat -> 0 <= value H j i * h_den m k (value We) (value W) (value H) j i).
    { intros j a Hj Ha. apply Rmult_le_pos; [apply H0; assumption|]. apply (LSNMF_Proofs.h_den_nonneg m n k); assumption. }
    specialize (S0 S1).
    apply Rle_trans with (growth prec ^ (2 * m + k + 4) * (root_q m n k (value V) (value We) (value W) H1 + norm m n (value We) (value V))).
    - replace (growth prec ^ (2 * m + k + 4)) with (1 + (growth prec ^ (2 * m + k + 4) - 1)) by ring.
      apply perturbed; [pose proof (g_pow (prec := prec) (2 * m + k + 4)); lra|exact We0|]. intros i j Hi Hj. apply rsum_close. intros a Ha. split; [apply W0; assumption|].
      destruct (N a j Ha Hj) as [P1 N1]. apply near_abs in N1.
      + rewrite E2. exact N1.
      + destruct R0 as [_ R0]. destruct (R0 a j Ha Hj) as (_ & _ & _ & _ & T & _). apply ok_nonneg in T. exact T.
    - apply Rmult_le_compat_l; [pose proof (g_pow (prec := prec) (2 * m + k + 4)); lra|]. apply Rplus_le_compat_r. rewrite !root_q_wloss. apply sqrt_le_1_alt. lra.
  Qed.
  Lemma w_update_size W H W' : every m k proper W -> every k n proper H ->
    contribution_range emax m n k (value V) (value We) (value W) (value H) -> (2 * Z.of_nat (2 * n + k + 4) <= 2 ^ prec)%Z -> w_update m n k V We W H W' ->
    every m k proper W' /\ size W' H <= growth prec ^ (2 * n + k + 4) * size W H.
  Proof.
    intros HW HH R0 Hp U0. pose proof (proj2 (g_bound _ Hp)) as G.
    pose proof (w_update_near m n k V We W H W' HV He HW HH R0 G U0) as N. split; [intros i a Hi Ha; apply N; assumption|].
    destruct (w_exact_some _ _ R0) as [W1 E1]. pose proof (LSNMF_Proofs.w_step_inv _ _ _ _ _ _ _ _ E1) as [_ E2].
    pose proof (value_nonneg _ _ _ HW) as W0. pose proof (value_nonneg _ _ _ HH) as H0. pose proof (value_nonneg _ _ _ He) as We0. pose proof (value_nonneg _ _ _ HV) as V0.
    pose proof (LSNMF_Proofs.w_step_loss m n k (value V) (value We) (value W) (value H) W1 We0 W0 H0 E1) as L. cbv zeta in L.
    assert (S0 := slack_pos m k (fun i a => w_num n (value V) (value We) (value H) i a / w_den n k (value We) (value W) (value H) i a - 1)
      (fun i a => value W i a * w_den n k (value We) (value W) (value H) i a)). cbv beta in S0.
    assert (S1 : forall i j, (i < m)%nat -> (j < k)%nat -> 0 <= value W i j * w_den n k (value We) (value W) (value H) i j).
    { intros i a Hi Ha. apply Rmult_le_pos; [apply W0; assumption|]. apply (LSNMF_Proofs.w_den_nonneg m n k); assumption. }
    specialize (S0 S1).
    apply Rle_trans with (growth prec ^ (2 * n + k + 4) * (root_q m n k (value V) (value We) W1 (value H) + norm m n (value We) (value V))).
    - replace (growth prec ^ (2 * n + k + 4)) with (1 + (growth prec ^ (2 * n + k + 4) - 1)) by ring.
      apply perturbed; [pose proof (g_pow (prec := prec) (2 * n + k + 4)); lra|exact We0|]. intros i j Hi Hj.
      rewrite (rsum_ext k (fun a => value W' i a * value H a j) (fun a => value H a j * value W' i a)) by (intros; ring).
      rewrite (rsum_ext k (fun a => W1 i a * value H a j) (fun a => value H a j * W1 i a)) by (intros; ring).
      apply rsum_close. intros a Ha. split; [apply H0; assumption|].
      destruct (N i a Hi Ha) as [P1 N1]. apply near_abs in N1.
      + rewrite E2. exact N1.
      + destruct R0 as [_ R0]. destruct (R0 i a Hi Ha) as (_ & _ & _ & _ & T & _). apply ok_nonneg in T. exact T.
    - apply Rmult_le_compat_l; [pose proof (g_pow (prec := prec) (2 * n + k + 4)); lra|]. apply Rplus_le_compat_r. rewrite !root_q_wloss. apply sqrt_le_1_alt. lra.
  Qed.
End B.
