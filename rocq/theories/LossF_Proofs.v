(** Lemmas about the accuracy of the reported loss. *)
From Coq Require Import ZArith Reals Lra Lia List Bool Permutation Arith.
From Flocq Require Import Core BinarySingleNaN Plus_error Relative.
From Verif Require Import Base Boot_Proofs Float_Model Float_Spec Float_Proofs Acc_Spec Acc_Proofs RobF_Model RobF_Spec RobF_Proofs RobF_Acc.
Import ListNotations.
Local Open Scope R_scope.

Definition one : mat := fun _ _ => 1.

(** ** Real numbers *)
Lemma norm_const m n h : 0 <= h -> norm m n one (fun _ _ => h) = sqrt (INR (m * n)) * h.
Proof.
  intros Hh. unfold norm, msum, one. rewrite (rsum_ext m _ (fun _ => INR n * (h * h))) by (intros; rewrite (rsum_ext n _ (fun _ => h * h)) by (intros; ring); apply rsum_const).
  rewrite rsum_const, mult_INR. replace (INR m * (INR n * (h * h))) with (INR m * INR n * Rsqr h) by (unfold Rsqr; ring).
  rewrite sqrt_mult_alt by (apply Rmult_le_pos; apply pos_INR). rewrite sqrt_Rsqr by exact Hh. reflexivity.
Qed.
Lemma one_nonneg m n : mall m n (fun x => 0 <= x) one.
Proof. intros i j _ _. unfold one. lra. Qed.
Lemma sqrt_sum a b : 0 <= a -> 0 <= b -> sqrt (a + b) <= sqrt a + sqrt b.
Proof.
  intros Ha Hb. pose proof (sqrt_pos a). pose proof (sqrt_pos b). pose proof (sqrt_sqrt a Ha). pose proof (sqrt_sqrt b Hb).
  rewrite <- (sqrt_Rsqr (sqrt a + sqrt b)) by lra. apply sqrt_le_1_alt. unfold Rsqr. nra.
Qed.
Lemma sqrt_scale c a : 1 <= c -> 0 <= a -> sqrt (c * a) <= c * sqrt a.
Proof.
  intros Hc Ha. rewrite sqrt_mult_alt by lra. apply Rmult_le_compat_r; [apply sqrt_pos|]. rewrite <- (sqrt_Rsqr c) at 2 by lra. apply sqrt_le_1_alt. unfold Rsqr. nra.
Qed.

Section R.
  Context (m n : nat) (v mo mf d e : mat) (u gam h : R).
  Context (Hu : 0 <= u) (Hg : 0 <= gam) (Hh : 0 <= h).
  Context (Hmf : forall i j, (i < m)%nat -> (j < n)%nat -> 0 <= mo i j /\ Rabs (mf i j - mo i j) <= gam * mo i j).
  Context (Hd : forall i j, (i < m)%nat -> (j < n)%nat -> Rabs (d i j - (v i j - mf i j)) <= u * Rabs (v i j - mf i j)).
  Context (He : forall i j, (i < m)%nat -> (j < n)%nat -> Rabs (e i j - d i j) <= u * Rabs (d i j) + h).
  Notation N := (norm m n one).

  Lemma residual_error : N (fun i j => e i j - (v i j - mo i j)) <= ((1 + u) * (1 + u) * (1 + gam) - 1) * (N (fun i j => v i j - mo i j) + N v) + sqrt (INR (m * n)) * h.
  Proof.
    set (X := fun i j => v i j - mo i j).
    assert (P1 : N mo <= N X + N v).
    { rewrite (norm_ext m n one mo (fun i j => v i j + (-1) * X i j)) by (intros i j _ _; unfold X; ring).
      eapply Rle_trans; [apply (norm_triangle m n one v (fun i j => (-1) * X i j)), one_nonneg|]. rewrite Rplus_comm. apply Rplus_le_compat_r.
      apply norm_le; [apply one_nonneg|]. intros i j _ _. rewrite <- (Rabs_Ropp (X i j)). right. f_equal. ring. }
    assert (P2 : N (fun i j => v i j - mf i j) <= N X + gam * N mo).
    { rewrite (norm_ext m n one (fun i j => v i j - mf i j) (fun i j => X i j + (mo i j - mf i j))) by (intros i j _ _; unfold X; ring).
      eapply Rle_trans; [apply (norm_triangle m n one X), one_nonneg|]. apply Rplus_le_compat_l. rewrite <- norm_scal by exact Hg. apply norm_le; [apply one_nonneg|].
      intros i j Hi Hj. rewrite Rabs_minus_sym. eapply Rle_trans; [apply Hmf; assumption|apply Rle_abs]. }
    assert (P3 : N (fun i j => e i j - X i j) <= N (fun i j => (2 * u + u * u) * Rabs (v i j - mf i j) + (gam * mo i j + h))).
    { apply norm_le; [apply one_nonneg|]. intros i j Hi Hj. destruct (Hmf i j Hi Hj) as [M0 M1]. specialize (Hd i j Hi Hj). specialize (He i j Hi Hj).
      rewrite (Rabs_pos_eq (_ + _)) by (apply Rplus_le_le_0_compat; [apply Rmult_le_pos; [nra|apply Rabs_pos]|nra]).
      replace (e i j - X i j) with ((e i j - d i j) + ((d i j - (v i j - mf i j)) + (mo i j - mf i j))) by (unfold X; ring).
      eapply Rle_trans; [apply Rabs_triang|]. pose proof (Rabs_triang (d i j - (v i j - mf i j)) (mo i j - mf i j)) as T. rewrite (Rabs_minus_sym (mo i j)) in T.
      assert (D : Rabs (d i j) <= (1 + u) * Rabs (v i j - mf i j)).
      { replace (d i j) with ((d i j - (v i j - mf i j)) + (v i j - mf i j)) by ring. eapply Rle_trans; [apply Rabs_triang|]. lra. }
      assert (u * Rabs (d i j) <= u * ((1 + u) * Rabs (v i j - mf i j))) by (apply Rmult_le_compat_l; assumption). lra. }
    eapply Rle_trans; [exact P3|].
    eapply Rle_trans; [apply (norm_triangle m n one (fun i j => (2 * u + u * u) * Rabs (v i j - mf i j))), one_nonneg|].
    assert (P4 : N (fun i j => (2 * u + u * u) * Rabs (v i j - mf i j)) <= (2 * u + u * u) * N (fun i j => v i j - mf i j)).
    { rewrite norm_scal by nra. apply Rmult_le_compat_l; [nra|]. apply norm_le; [apply one_nonneg|]. intros. rewrite Rabs_Rabsolu. lra. }
    assert (P5 : N (fun i j => gam * mo i j + h) <= gam * N mo + sqrt (INR (m * n)) * h).
    { eapply Rle_trans; [apply (norm_triangle m n one (fun i j => gam * mo i j) (fun _ _ => h)), one_nonneg|]. rewrite norm_scal by exact Hg. rewrite norm_const by exact Hh. lra. }
    pose proof (norm_nonneg m n one X). pose proof (norm_nonneg m n one v). pose proof (norm_nonneg m n one mo).
    assert (P6 : (2 * u + u * u) * N (fun i j => v i j - mf i j) <= (2 * u + u * u) * (N X + gam * N mo)) by (apply Rmult_le_compat_l; [nra|exact P2]).
    assert (P7 : gam * N mo <= gam * (N X + N v)) by (apply Rmult_le_compat_l; assumption).
    assert (P8 : (2 * u + u * u) * (gam * N mo) <= (2 * u + u * u) * (gam * (N X + N v))) by (apply Rmult_le_compat_l; [nra|exact P7]).
    assert (P9 : 0 <= (2 * u + u * u) * N v) by (apply Rmult_le_pos; [nra|assumption]).
    replace (((1 + u) * (1 + u) * (1 + gam) - 1) * (N X + N v)) with ((2 * u + u * u) * N X + (2 * u + u * u) * N v + (2 * u + u * u) * (gam * (N X + N v)) + gam * (N X + N v)) by ring. lra.
  Qed.
End R.

(** The sum of the rounded squares against the root of the exact sum. *)
Lemma roots_close (a s q X e T g gq : R) : 1 <= g -> 1 <= gq -> 0 <= a -> 0 <= s -> 0 <= q -> 0 <= e -> 0 <= X -> 0 <= T ->
  s <= g * a + e -> a <= g * (s + e) -> s <= q * gq -> q <= s * gq ->
  sqrt a <= X + T -> X <= sqrt a + T ->
  Rabs (sqrt q - X) <= (gq * g - 1) * X + gq * g * (T + sqrt e).
Proof.
  intros Hg Hgq Ha Hs Hq He HX HT S1 S2 Q1 Q2 A1 A2.
  pose proof (sqrt_pos a) as Ra. pose proof (sqrt_pos s) as Rs. pose proof (sqrt_pos q) as Rq. pose proof (sqrt_pos e) as Re.
  assert (E1 : sqrt s <= g * sqrt a + sqrt e).
  { eapply Rle_trans; [apply sqrt_le_1_alt, S1|]. eapply Rle_trans; [apply sqrt_sum; [nra|exact He]|]. apply Rplus_le_compat_r, sqrt_scale; assumption. }
  assert (E2 : sqrt a <= g * (sqrt s + sqrt e)).
  { eapply Rle_trans; [apply sqrt_le_1_alt, S2|]. eapply Rle_trans; [apply sqrt_scale; lra|]. apply Rmult_le_compat_l; [lra|]. apply sqrt_sum; assumption. }
  assert (E3 : sqrt s <= gq * sqrt q) by (eapply Rle_trans; [apply sqrt_le_1_alt, Q1|]; rewrite Rmult_comm; apply sqrt_scale; assumption).
  assert (E4 : sqrt q <= gq * sqrt s) by (eapply Rle_trans; [apply sqrt_le_1_alt, Q2|]; rewrite Rmult_comm; apply sqrt_scale; assumption).
  set (G := gq * g). assert (HG : 1 <= G) by (unfold G; nra). assert (Hgg : gq <= G) by (unfold G; nra). assert (Hg' : g <= G) by (unfold G; nra).
  assert (Up : sqrt q <= G * (X + T + sqrt e)).
  { apply Rle_trans with (gq * (g * (X + T + sqrt e))); [|unfold G; lra]. eapply Rle_trans; [exact E4|]. apply Rmult_le_compat_l; [lra|].
    eapply Rle_trans; [exact E1|]. assert (g * sqrt a <= g * (X + T)) by (apply Rmult_le_compat_l; lra). nra. }
  assert (Lo : X <= G * sqrt q + g * sqrt e + T).
  { eapply Rle_trans; [exact A2|]. apply Rplus_le_compat_r. eapply Rle_trans; [exact E2|]. unfold G. assert (g * sqrt s <= g * (gq * sqrt q)) by (apply Rmult_le_compat_l; lra). lra. }
  apply Rabs_le. split; [|lra].
  (* X - sqrt q <= (G-1) X + ... : if sqrt q >= X there is nothing to show *)
  destruct (Rle_dec X (sqrt q)) as [C|C]; [assert (0 <= (G - 1) * X) by nra; assert (0 <= G * (T + sqrt e)) by nra; lra|].
  assert ((G - 1) * sqrt q <= (G - 1) * X) by (apply Rmult_le_compat_l; lra).
  assert (g * sqrt e <= G * sqrt e) by (apply Rmult_le_compat_r; lra). assert (1 * T <= G * T) by (apply Rmult_le_compat_r; lra). lra.
Qed.

(** ** Floating point *)
Section A.
  Context {prec emax : Z} {Hprec : Prec_gt_0 prec} {Hmax : Prec_lt_emax prec emax}.
  Notation F := (binary_float prec emax).
  Notation fexp := (SpecFloat.fexp prec emax).
  Notation rnd := (round radix2 fexp (round_mode mode_NE)).
  Notation g := (growth prec).
  Notation near := (within prec).
  Notation ok := (in_range (emax := emax)).
  Let u : R := bpow radix2 (- prec).
  Let eta : R := bpow radix2 (2 - emax - prec).

  Lemma rnd_error z : Rabs (rnd z - z) <= u * Rabs z + eta.
  Proof.
    destruct (error_N_FLT radix2 (SpecFloat.emin prec emax) prec Hprec (fun x => negb (Z.even x)) z) as (e & t & He & Ht & _ & E).
    change (Rabs (round radix2 (FLT_exp (SpecFloat.emin prec emax) prec) ZnearestE z - z) <= u * Rabs z + eta).
    rewrite E. replace (z * (1 + e) + t - z) with (z * e + t) by ring. eapply Rle_trans; [apply Rabs_triang|]. rewrite Rabs_mult.
    assert (Eu : / 2 * bpow radix2 (- prec + 1) = u) by (unfold u; rewrite bpow_plus; change (bpow radix2 1) with 2; field).
    assert (Et : / 2 * bpow radix2 (SpecFloat.emin prec emax) = eta).
    { unfold eta, SpecFloat.emin. replace (3 - emax - prec)%Z with (2 - emax - prec + 1)%Z by lia. rewrite bpow_plus. change (bpow radix2 1) with 2. field. }
    rewrite Eu in He. rewrite Et in Ht. apply Rplus_le_compat; [|exact Ht]. rewrite Rmult_comm. apply Rmult_le_compat_r; [apply Rabs_pos|exact He].
  Qed.
  Lemma sub_error (x y : F) : is_finite x = true -> is_finite y = true -> is_finite (fsub x y) = true ->
    Rabs (B2R (fsub x y) - (B2R x - B2R y)) <= u * Rabs (B2R x - B2R y).
  Proof.
    intros Fx Fy Fs. pose proof (Bminus_correct prec emax _ _ mode_NE x y Fx Fy) as C. fold (fsub x y) in C.
    destruct (Rlt_bool _ _).
    - destruct C as (C & _). rewrite C. destruct (add_rel x (Bopp y)) as (e & He & E). rewrite B2R_Bopp in E.
      replace (B2R x - B2R y) with (B2R x + - B2R y) by ring. rewrite E.
      replace ((B2R x + - B2R y) * (1 + e) - (B2R x + - B2R y)) with (e * (B2R x + - B2R y)) by ring. rewrite Rabs_mult.
      apply Rmult_le_compat_r; [apply Rabs_pos|]. apply Rabs_le. exact He.
    - destruct C as [C _]. rewrite (overflow_inf _ _ C) in Fs. discriminate.
  Qed.
  Lemma div_error (x y : F) : 0 < B2R y -> is_finite (fdiv x y) = true -> Rabs (B2R (fdiv x y) - B2R x / B2R y) <= u * Rabs (B2R x / B2R y) + eta.
  Proof.
    intros Py Fs. pose proof (Bdiv_correct prec emax _ _ mode_NE x y ltac:(lra)) as C. fold (fdiv x y) in C.
    destruct (Rlt_bool _ _).
    - destruct C as (C & _). rewrite C. apply rnd_error.
    - rewrite (overflow_inf _ _ C) in Fs. discriminate.
  Qed.
  Lemma sqr_error (x : F) : is_finite (fmul x x) = true -> Rabs (B2R (fmul x x) - B2R x * B2R x) <= u * (B2R x * B2R x) + eta.
  Proof.
    intros Fs. pose proof (Bmult_correct prec emax _ _ mode_NE x x) as C. fold (fmul x x) in C.
    destruct (Rlt_bool _ _).
    - destruct C as (C & _). rewrite C. pose proof (rnd_error (B2R x * B2R x)) as E. rewrite (Rabs_pos_eq (B2R x * B2R x)) in E by nra. exact E.
    - rewrite (overflow_inf _ _ C) in Fs. discriminate.
  Qed.
  Lemma sqr_finite_inv (x : F) : is_finite (fmul x x) = true -> is_finite x = true.
  Proof. unfold fmul. destruct x; cbn; intros; try discriminate; reflexivity. Qed.
  Lemma div_finite_inv (x y : F) : is_finite y = true -> is_finite (fdiv x y) = true -> is_finite x = true.
  Proof. unfold fdiv. destruct x, y; cbn; intros; try discriminate; reflexivity. Qed.
  Lemma finite_nn (x : F) : is_finite x = true -> nonneg x -> good x.
  Proof. intros Ff [N|N]; [destruct x; discriminate|split; assumption]. Qed.
  Lemma total_finite_inv (l : list F) s : total l s -> (forall x, In x l -> nonneg x) -> is_finite s = true -> Forall good l.
  Proof.
    induction 1 as [|x|l1 l2 a b H1 IH1 H2 IH2|l l' a Hp _ IH]; intros Hl Hf.
    - constructor.
    - constructor; [apply finite_nn; [exact Hf|apply Hl; left; reflexivity]|constructor].
    - assert (L1 : forall x, In x l1 -> nonneg x) by (intros x Hx; apply Hl, in_or_app; left; exact Hx).
      assert (L2 : forall x, In x l2 -> nonneg x) by (intros x Hx; apply Hl, in_or_app; right; exact Hx).
      pose proof (total_nn _ _ H1 L1) as Na. pose proof (total_nn _ _ H2 L2) as Nb.
      assert (Xa : is_nan a = false) by (destruct (is_nan a) eqn:E; [pose proof (add_nan_l a b E) as X; destruct (fadd a b); discriminate|reflexivity]).
      assert (Xb : is_nan b = false) by (destruct (is_nan b) eqn:E; [pose proof (add_nan_r a b E) as X; destruct (fadd a b); discriminate|reflexivity]).
      destruct (add_finite_inv a b Hf (nn_sign _ Na Xa) (nn_sign _ Nb Xb)) as [Fa Fb]. apply Forall_app. split; [apply IH1|apply IH2]; assumption.
    - apply (Permutation_Forall Hp). apply IH; [|exact Hf]. intros x Hx. apply Hl. apply (Permutation_in x Hp Hx).
  Qed.
  Lemma u_g : 1 + u <= g /\ (1 - u) * g = 1.
  Proof.
    pose proof (u_half (prec := prec)) as U. fold u in U. assert (E : (1 - u) * g = 1) by (unfold growth; fold u; field; lra). split; [|exact E].
    apply Rmult_le_reg_l with (1 - u); [lra|]. rewrite E. nra.
  Qed.
  Lemma total_near_all (l : list F) s : total l s -> Forall good l -> is_finite s = true -> near (List.length l) (B2R s) (exact_sum l).
  Proof.
    intros Ht Hl Hf. destruct (total_accuracy l s Ht Hl Hf) as [A B]. fold u in A, B. pose proof (exact_sum_nonneg l Hl) as P.
    destruct u_g as [G1 G2]. pose proof (u_half (prec := prec)) as U. fold u in U. pose proof (g_ge1 (prec := prec)) as Gg.
    assert (M : g ^ (List.length l - 1) <= g ^ List.length l) by (apply g_mono; lia).
    assert (P' : 0 <= B2R s) by (eapply Rle_trans; [|exact A]; apply Rmult_le_pos; [exact P|apply pow_le; lra]).
    split.
    - apply Rle_trans with (B2R s * g ^ (List.length l - 1)); [|apply Rmult_le_compat_l; assumption].
      apply Rle_trans with (exact_sum l * (1 - u) ^ (List.length l - 1) * g ^ (List.length l - 1)); [|apply Rmult_le_compat_r; [apply pow_le; lra|exact A]].
      rewrite Rmult_assoc, <- Rpow_mult_distr, G2, pow1. lra.
    - eapply Rle_trans; [exact B|]. apply Rmult_le_compat_l; [exact P|]. eapply Rle_trans; [|exact M]. apply pow_incr. lra.
  Qed.
  Lemma exact_sum_cells m n (f : nat -> nat -> F) : exact_sum (map (fun p => f (fst p) (snd p)) (list_prod (seq 0 m) (seq 0 n))) = msum m n (fun i j => B2R (f i j)).
  Proof.
    unfold msum. assert (Row : forall i k, exact_sum (map (fun p => f (fst p) (snd p)) (map (fun y => (i, y)) (seq 0 k))) = rsum k (fun j => B2R (f i j))).
    { intros i k. induction k as [|k IH]; [reflexivity|]. rewrite seq_S, !map_app, exact_sum_app, IH. cbn [rsum map]. unfold exact_sum at 1. cbn. lra. }
    assert (App : forall (l1 l2 : list nat) (l : list nat), list_prod (l1 ++ l2) l = list_prod l1 l ++ list_prod l2 l).
    { intros l1 l2 l. induction l1 as [|x l1 IH]; [reflexivity|]. cbn. rewrite IH, app_assoc. reflexivity. }
    induction m as [|m IH]; [reflexivity|]. rewrite seq_S, App, map_app, exact_sum_app, IH. cbn [rsum list_prod]. rewrite app_nil_r. f_equal. apply Row.
  Qed.
End A.

(** Sums over cells of numbers each within [u x + h] of non-negative numbers. *)
Lemma msum_below m n (A B : mat) : (forall i j, (i < m)%nat -> (j < n)%nat -> A i j <= B i j) -> msum m n A <= msum m n B.
Proof. intros H. unfold msum. apply rsum_le. intros i Hi. apply rsum_le. intros j Hj. apply H; assumption. Qed.
Lemma msum_affine m n (A : mat) c h : msum m n (fun i j => c * A i j + h) = c * msum m n A + INR (m * n) * h.
Proof.
  unfold msum. rewrite (rsum_ext m _ (fun i => c * rsum n (fun j => A i j) + INR n * h)).
  - rewrite rsum_plus, rsum_scal_l, rsum_const, mult_INR. ring.
  - intros i _. rewrite rsum_plus, rsum_scal_l, rsum_const. reflexivity.
Qed.

Section L.
  Context {prec emax : Z} {Hprec : Prec_gt_0 prec} {Hmax : Prec_lt_emax prec emax}.
  Notation F := (binary_float prec emax).
  Notation fexp := (SpecFloat.fexp prec emax).
  Notation rnd := (round radix2 fexp (round_mode mode_NE)).
  Notation g := (growth prec).
  Notation ok := (in_range (emax := emax)).
  Let u : R := bpow radix2 (- prec).
  Let eta : R := bpow radix2 (2 - emax - prec).
  Context (m n k : nat) (V U W H WH : fmat prec emax).
  Context (HV : every m n (fun x => is_finite x = true) V) (HU : every m n positive U) (HW : every m k proper W) (HH : every k n proper H) (HP : product m k n W H WH).
  Context (HR : forall i j, (i < m)%nat -> (j < n)%nat -> ok (model k (value W) (value H) i j) /\ forall a, (a < k)%nat -> ok (value W i a * value H a j)).
  Context (HB : (2 * Z.of_nat (m * n + k + 3) <= 2 ^ prec)%Z).

  Definition vs : mat := fun i j => value V i j / value U i j.
  Definition ms : mat := fun i j => model k (value W) (value H) i j / value U i j.
  Definition X : R := norm m n one (fun i j => vs i j - ms i j).
  Definition N : R := norm m n one vs.

  Lemma HBp p : (p <= m * n + k + 3)%nat -> g ^ p <= 2.
  Proof. intros L. eapply Rle_trans; [apply g_mono, L|]. apply (g_bound (prec := prec)), HB. Qed.
  Lemma eta_small : 0 < eta <= 1 /\ INR (m * n) * eta <= bpow radix2 (1 - emax).
  Proof.
    split; [unfold eta; split; [apply bpow_gt_0|change 1 with (bpow radix2 0); apply bpow_le; unfold Prec_gt_0, Prec_lt_emax in *; lia]|].
    assert (B : INR (m * n) <= bpow radix2 (prec - 1)).
    { apply Rmult_le_reg_l with 2; [lra|]. replace (2 * bpow radix2 (prec - 1)) with (bpow radix2 prec) by (replace prec with (prec - 1 + 1)%Z at 1 by lia; rewrite bpow_plus; change (bpow radix2 1) with 2; ring).
      rewrite <- IZR_Zpower by (unfold Prec_gt_0 in Hprec; lia). rewrite INR_IZR_INZ, <- mult_IZR. apply IZR_le. change (Z.pow (radix_val radix2) prec) with (2 ^ prec)%Z. lia. }
    apply Rle_trans with (bpow radix2 (prec - 1) * eta); [apply Rmult_le_compat_r; [unfold eta; apply bpow_ge_0|exact B]|].
    unfold eta. rewrite <- bpow_plus. apply bpow_le. lia.
  Qed.
  Lemma U_pos i j : (i < m)%nat -> (j < n)%nat -> 0 < value U i j.
  Proof. intros Hi Hj. exact (proj2 (HU i j Hi Hj)). Qed.

  (** real numbers within the rounding errors of the computed ones *)
  Context (d e s : mat).
  Context (Hd : forall i j, (i < m)%nat -> (j < n)%nat -> Rabs (d i j - (value V i j - value WH i j)) <= u * Rabs (value V i j - value WH i j)).
  Context (He : forall i j, (i < m)%nat -> (j < n)%nat -> Rabs (e i j - d i j / value U i j) <= u * Rabs (d i j / value U i j) + eta).
  Context (Hs : forall i j, (i < m)%nat -> (j < n)%nat -> 0 <= s i j /\ Rabs (s i j - e i j * e i j) <= u * (e i j * e i j) + eta).
  Notation err := ((g ^ (k + 2) - 1) * (X + N) + sqrt (INR (m * n)) * eta).

  Lemma scaled_error : norm m n one (fun i j => e i j - (vs i j - ms i j)) <= err.
  Proof.
    pose proof (u_half (prec := prec)) as Uh. fold u in Uh. destruct (u_g (prec := prec)) as [G1 G2]. fold u in G1, G2.
    assert (Gk : 1 <= g ^ k) by apply g_pow. destruct eta_small as [Et _].
    pose proof (wh_near m n k W H WH HW HH HP HR (HBp k ltac:(lia))) as Wn.
    eapply Rle_trans; [apply (residual_error m n vs ms (fun i j => value WH i j / value U i j) (fun i j => d i j / value U i j) e u (g ^ k - 1) eta); try lra|].
    - intros i j Hi Hj. pose proof (U_pos i j Hi Hj) as Up. destruct (Wn i j Hi Hj) as [_ Nr]. destruct (HR i j Hi Hj) as [T _].
      pose proof (ok_nonneg _ T) as Mp. assert (Ip : 0 < / value U i j) by (apply Rinv_0_lt_compat, Up). unfold ms, Rdiv. split; [apply Rmult_le_pos; lra|].
      replace (value WH i j * / value U i j - model k (value W) (value H) i j * / value U i j) with ((value WH i j - model k (value W) (value H) i j) * / value U i j) by ring.
      rewrite Rabs_mult, (Rabs_pos_eq (/ value U i j)) by lra. rewrite <- Rmult_assoc. apply Rmult_le_compat_r; [lra|]. apply near_abs; assumption.
    - intros i j Hi Hj. pose proof (U_pos i j Hi Hj) as Up. assert (Ip : 0 < / value U i j) by (apply Rinv_0_lt_compat, Up). unfold vs, Rdiv.
      replace (value V i j * / value U i j - value WH i j * / value U i j) with ((value V i j - value WH i j) * / value U i j) by ring.
      replace (d i j * / value U i j - (value V i j - value WH i j) * / value U i j) with ((d i j - (value V i j - value WH i j)) * / value U i j) by ring.
      rewrite !Rabs_mult, (Rabs_pos_eq (/ value U i j)) by lra. rewrite <- Rmult_assoc. apply Rmult_le_compat_r; [lra|]. apply Hd; assumption.
    - exact He.
    - fold X. fold N. apply Rplus_le_compat_r. pose proof (norm_nonneg m n one (fun i j => vs i j - ms i j)) as X0. fold X in X0. pose proof (norm_nonneg m n one vs) as N0. fold N in N0.
      apply Rmult_le_compat_r; [lra|]. rewrite pow_add. replace (1 + (g ^ k - 1)) with (g ^ k) by ring.
      assert ((1 + u) * (1 + u) <= g ^ 2) by (cbn [pow]; nra). nra.
  Qed.
  Notation A := (msum m n (fun i j => e i j * e i j)).
  Lemma root_A : sqrt A = norm m n one e.
  Proof. unfold norm. f_equal. unfold msum. apply rsum_ext; intros; apply rsum_ext; intros. unfold one. ring. Qed.
  Lemma A_near : sqrt A <= X + err /\ X <= sqrt A + err.
  Proof.
    pose proof scaled_error as S. rewrite root_A. split.
    - rewrite (norm_ext m n one e (fun i j => (vs i j - ms i j) + (e i j - (vs i j - ms i j)))) by (intros i j _ _; ring).
      eapply Rle_trans; [apply (norm_triangle m n one (fun i j => vs i j - ms i j)), one_nonneg|]. fold X. lra.
    - unfold X at 1. rewrite (norm_ext m n one (fun i j => vs i j - ms i j) (fun i j => e i j + (-1) * (e i j - (vs i j - ms i j)))) by (intros i j _ _; ring).
      eapply Rle_trans; [apply (norm_triangle m n one e (fun i j => (-1) * (e i j - (vs i j - ms i j)))), one_nonneg|]. apply Rplus_le_compat_l.
      eapply Rle_trans; [|exact S]. apply norm_le; [apply one_nonneg|]. intros i j _ _. rewrite <- (Rabs_Ropp (e i j - _)). right. f_equal. ring.
  Qed.
  Lemma squares_sum : msum m n s <= g * A + INR (m * n) * eta /\ A <= g * (msum m n s + INR (m * n) * eta).
  Proof.
    destruct (u_g (prec := prec)) as [G1 G2]. fold u in G1, G2. pose proof (u_half (prec := prec)) as Uh. fold u in Uh. split.
    - rewrite <- msum_affine. apply msum_below. intros i j Hi Hj. destruct (Hs i j Hi Hj) as [_ E]. apply Rabs_le_inv in E. nra.
    - assert (E : (1 - u) * A + INR (m * n) * - eta <= msum m n s).
      { rewrite <- msum_affine. apply msum_below. intros i j Hi Hj. destruct (Hs i j Hi Hj) as [_ E]. apply Rabs_le_inv in E. lra. }
      replace A with (g * ((1 - u) * A)) by (rewrite <- Rmult_assoc, (Rmult_comm g), G2; ring). apply Rmult_le_compat_l; [lra|]. lra.
  Qed.
  Lemma sqrt_eta : sqrt (INR (m * n)) * eta <= sqrt (INR (m * n) * eta).
  Proof.
    destruct eta_small as [Et _]. rewrite sqrt_mult_alt by apply pos_INR. apply Rmult_le_compat_l; [apply sqrt_pos|].
    rewrite <- (sqrt_square eta) at 1 by lra. apply sqrt_le_1_alt. nra.
  Qed.
  Lemma reported q : 0 <= q -> within prec (m * n) q (msum m n s) ->
    Rabs (sqrt q - X) <= 2 * INR (m * n + k + 3) * u * (X + N) + 4 * sqrt (INR (m * n) * eta).
  Proof.
    intros Hq [Q1 Q2]. destruct (u_g (prec := prec)) as [G1 G2]. fold u in G1, G2. pose proof (u_half (prec := prec)) as Uh. fold u in Uh.
    destruct eta_small as [Et _]. pose proof (norm_nonneg m n one (fun i j => vs i j - ms i j)) as X0. fold X in X0. pose proof (norm_nonneg m n one vs) as N0. fold N in N0.
    pose proof (g_pow (prec := prec) (k + 2)) as Gk. pose proof (g_pow (prec := prec) (m * n)) as Gm. pose proof (pos_INR (m * n)) as I0. pose proof (sqrt_pos (INR (m * n))) as Sq0.
    assert (E0 : 0 <= err) by (apply Rplus_le_le_0_compat; apply Rmult_le_pos; lra).
    destruct A_near as [A1 A2]. destruct squares_sum as [S1 S2].
    assert (A0 : 0 <= A) by (unfold msum; apply rsum_nonneg; intros; apply rsum_nonneg; intros; nra).
    assert (S0 : 0 <= msum m n s) by (unfold msum; apply rsum_nonneg; intros; apply rsum_nonneg; intros; apply Hs; assumption).
    pose proof (roots_close A (msum m n s) q X (INR (m * n) * eta) err g (g ^ (m * n)) ltac:(lra) Gm A0 S0 Hq ltac:(nra) X0 E0 S1 S2 Q1 Q2 A1 A2) as E.
    assert (Eg : g ^ (m * n) * g = g ^ (m * n + 1)) by (rewrite pow_add, pow_1; reflexivity). rewrite Eg in E.
    pose proof (HBp (m * n + 1) ltac:(lia)) as G3. pose proof (g_pow (prec := prec) (m * n + 1)) as G4.
    destruct (g_bound (prec := prec) (m * n + k + 3) HB) as [G5 _]. fold u in G5. pose proof sqrt_eta as Se. pose proof (sqrt_pos (INR (m * n) * eta)) as Se0.
    eapply Rle_trans; [exact E|].
    assert (P : g ^ (m * n + 1) * g ^ (k + 2) = g ^ (m * n + k + 3)) by (rewrite <- pow_add; f_equal; lia).
    assert (Y1 : (g ^ (m * n + 1) - 1) * X <= (g ^ (m * n + 1) - 1) * (X + N)) by (apply Rmult_le_compat_l; lra).
    assert (Y2 : g ^ (m * n + 1) * (sqrt (INR (m * n)) * eta + sqrt (INR (m * n) * eta)) <= 2 * (2 * sqrt (INR (m * n) * eta))) by (apply Rmult_le_compat; try lra; nra).
    assert (Y3 : (g ^ (m * n + k + 3) - 1) * (X + N) <= 2 * INR (m * n + k + 3) * u * (X + N)) by (apply Rmult_le_compat_r; lra).
    rewrite <- P in Y3. set (G := g ^ (m * n + 1)) in *. set (K := g ^ (k + 2)) in *.
    replace (G * ((K - 1) * (X + N) + sqrt (INR (m * n)) * eta + sqrt (INR (m * n) * eta))) with (G * K * (X + N) - G * (X + N) + G * (sqrt (INR (m * n)) * eta + sqrt (INR (m * n) * eta))) by ring.
    lra.
  Qed.
End L.
