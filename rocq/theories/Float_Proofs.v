(** Lemmas about IEEE arithmetic for C84-C88. *)
From Coq Require Import ZArith Reals Lra Lia List Bool Permutation Arith.
From Flocq Require Import Core BinarySingleNaN Plus_error Relative.
From Verif Require Import Float_Model Float_Spec Train_Model Train_Spec Train_Proofs.
Import ListNotations.

Section P.
  Context {prec emax : Z} {Hprec : Prec_gt_0 prec} {Hmax : Prec_lt_emax prec emax}.
  Notation F := (binary_float prec emax).

  (** ** Signs *)
  Lemma sf_inf_sign (x : F) s : B2SF x = SpecFloat.S754_infinity s -> Bsign x = s.
  Proof. destruct x; cbn; congruence. Qed.

  Lemma mul_sign (x y : F) : is_nan (fmul x y) = false -> Bsign (fmul x y) = xorb (Bsign x) (Bsign y).
  Proof.
    intros Hn. unfold fmul in *. pose proof (Bmult_correct prec emax _ _ mode_NE x y) as H.
    destruct (Rlt_bool _ _).
    - apply H, Hn.
    - apply sf_inf_sign. exact H.
  Qed.

  Lemma div_sign (x y : F) : is_nan (fdiv x y) = false -> Bsign (fdiv x y) = xorb (Bsign x) (Bsign y).
  Proof.
    intros Hn. unfold fdiv in *.
    destruct (Req_dec (B2R y) 0) as [E|E].
    - destruct x, y; cbn in *; try reflexivity; try discriminate.
      exfalso. apply (F2R_neq_0 radix2 (Float radix2 (cond_Zopp s0 (Z.pos m0)) e1)); [|exact E].
      cbn. destruct s0; discriminate.
    - pose proof (Bdiv_correct prec emax _ _ mode_NE x y E) as H.
      destruct (Rlt_bool _ _).
      + apply H, Hn.
      + apply sf_inf_sign. exact H.
  Qed.

  Lemma B2R_nonneg (x : F) : Bsign x = false -> (0 <= B2R x)%R.
  Proof.
    destruct x; cbn; try lra. intros ->. apply F2R_ge_0. cbn. lia.
  Qed.

  Lemma nn_cases (x : F) : {is_nan x = true} + {is_nan x = false}.
  Proof. destruct (is_nan x); auto. Qed.

  Lemma nn_sign (x : F) : nonneg x -> is_nan x = false -> Bsign x = false.
  Proof. intros [H|H] Hn; congruence. Qed.

  Lemma nan_eq (x : F) : is_nan x = true -> x = B754_nan.
  Proof. destruct x; cbn; congruence. Qed.

  Lemma mul_nan_l (x y : F) : is_nan x = true -> is_nan (fmul x y) = true.
  Proof. intros H. rewrite (nan_eq x H). destruct y; reflexivity. Qed.
  Lemma mul_nan_r (x y : F) : is_nan y = true -> is_nan (fmul x y) = true.
  Proof. intros H. rewrite (nan_eq y H). destruct x; reflexivity. Qed.
  Lemma add_nan_l (x y : F) : is_nan x = true -> is_nan (fadd x y) = true.
  Proof. intros H. rewrite (nan_eq x H). destruct y; reflexivity. Qed.
  Lemma add_nan_r (x y : F) : is_nan y = true -> is_nan (fadd x y) = true.
  Proof. intros H. rewrite (nan_eq y H). destruct x; reflexivity. Qed.
  Lemma sub_nan_l (x y : F) : is_nan x = true -> is_nan (fsub x y) = true.
  Proof. intros H. rewrite (nan_eq x H). destruct y; reflexivity. Qed.
  Lemma sub_nan_r (x y : F) : is_nan y = true -> is_nan (fsub x y) = true.
  Proof. intros H. rewrite (nan_eq y H). destruct x; reflexivity. Qed.
  Lemma div_nan_l (x y : F) : is_nan x = true -> is_nan (fdiv x y) = true.
  Proof. intros H. rewrite (nan_eq x H). destruct y; reflexivity. Qed.
  Lemma div_nan_r (x y : F) : is_nan y = true -> is_nan (fdiv x y) = true.
  Proof. intros H. rewrite (nan_eq y H). destruct x; reflexivity. Qed.
  Lemma fma_nan_1 (x y z : F) : is_nan x = true -> is_nan (ffma x y z) = true.
  Proof. intros H. rewrite (nan_eq x H). destruct y, z; reflexivity. Qed.
  Lemma fma_nan_2 (x y z : F) : is_nan y = true -> is_nan (ffma x y z) = true.
  Proof. intros H. rewrite (nan_eq y H). destruct x, z; reflexivity. Qed.
  Lemma fma_nan_3 (x y z : F) : is_nan z = true -> is_nan (ffma x y z) = true.
  Proof. intros H. rewrite (nan_eq z H). destruct x, y; reflexivity. Qed.

  Lemma nn_mul (x y : F) : nonneg x -> nonneg y -> nonneg (fmul x y).
  Proof.
    intros Hx Hy. destruct (nn_cases (fmul x y)) as [H|H]; [left; exact H|right].
    rewrite mul_sign by exact H.
    destruct (nn_cases x) as [E|E]; [rewrite mul_nan_l in H by exact E; discriminate|].
    destruct (nn_cases y) as [E'|E']; [rewrite mul_nan_r in H by exact E'; discriminate|].
    rewrite (nn_sign x), (nn_sign y) by assumption. reflexivity.
  Qed.

  Lemma nn_sqr (x : F) : nonneg (fmul x x).
  Proof.
    destruct (nn_cases (fmul x x)) as [H|H]; [left; exact H|right].
    rewrite mul_sign by exact H. apply xorb_nilpotent.
  Qed.

  Lemma nn_div (x y : F) : nonneg x -> nonneg y -> nonneg (fdiv x y).
  Proof.
    intros Hx Hy. destruct (nn_cases (fdiv x y)) as [H|H]; [left; exact H|right].
    rewrite div_sign by exact H.
    destruct (nn_cases x) as [E|E]; [rewrite div_nan_l in H by exact E; discriminate|].
    destruct (nn_cases y) as [E'|E']; [rewrite div_nan_r in H by exact E'; discriminate|].
    rewrite (nn_sign x), (nn_sign y) by assumption. reflexivity.
  Qed.

  Lemma nn_add (x y : F) : nonneg x -> nonneg y -> nonneg (fadd x y).
  Proof.
    intros Hx Hy.
    destruct (nn_cases x) as [E|E]; [left; apply add_nan_l; exact E|].
    destruct (nn_cases y) as [E'|E']; [left; apply add_nan_r; exact E'|].
    pose proof (nn_sign _ Hx E) as Sx. pose proof (nn_sign _ Hy E') as Sy. right.
    destruct (is_finite x) eqn:Fx, (is_finite y) eqn:Fy.
    - unfold fadd. pose proof (Bplus_correct prec emax _ _ mode_NE x y Fx Fy) as H.
      destruct (Rlt_bool _ _).
      + destruct H as (_ & _ & ->). rewrite Sx, Sy.
        pose proof (B2R_nonneg _ Sx). pose proof (B2R_nonneg _ Sy).
        destruct (Rcompare_spec (B2R x + B2R y) 0); auto. lra.
      + destruct H as [H _]. rewrite Sx in H. apply sf_inf_sign. exact H.
    - destruct x, y; cbn in *; try discriminate; auto.
    - destruct x, y; cbn in *; try discriminate; auto.
    - destruct x, y; cbn in *; try discriminate; auto. subst. reflexivity.
  Qed.

  Lemma nn_fma (x y z : F) : nonneg x -> nonneg y -> nonneg z -> nonneg (ffma x y z).
  Proof.
    intros Hx Hy Hz.
    destruct (nn_cases x) as [E|E]; [left; apply fma_nan_1; exact E|].
    destruct (nn_cases y) as [E'|E']; [left; apply fma_nan_2; exact E'|].
    destruct (nn_cases z) as [E2|E2]; [left; apply fma_nan_3; exact E2|].
    pose proof (nn_sign _ Hx E) as Sx. pose proof (nn_sign _ Hy E') as Sy.
    pose proof (nn_sign _ Hz E2) as Sz.
    destruct (is_finite x) eqn:Fx, (is_finite y) eqn:Fy, (is_finite z) eqn:Fz.
    - right. unfold ffma. pose proof (Bfma_correct prec emax _ _ mode_NE x y z Fx Fy Fz) as H.
      cbv zeta in H.
      pose proof (B2R_nonneg _ Sx). pose proof (B2R_nonneg _ Sy). pose proof (B2R_nonneg _ Sz).
      assert (0 <= B2R x * B2R y + B2R z)%R by nra.
      destruct (Rlt_bool _ (bpow radix2 emax)).
      + destruct H as (_ & _ & ->). unfold Bfma_szero. rewrite Sx, Sy, Sz. cbn.
        destruct (Rcompare_spec (B2R x * B2R y + B2R z) 0); auto. lra.
      + rewrite Rlt_bool_false in H by assumption. apply sf_inf_sign. exact H.
    - destruct x, y, z; cbn in *; try discriminate; subst; unfold nonneg; cbn; auto.
    - destruct x, y, z; cbn in *; try discriminate; subst; unfold nonneg; cbn; auto.
    - destruct x, y, z; cbn in *; try discriminate; subst; unfold nonneg; cbn; auto.
    - destruct x, y, z; cbn in *; try discriminate; subst; unfold nonneg; cbn; auto.
    - destruct x, y, z; cbn in *; try discriminate; subst; unfold nonneg; cbn; auto.
    - destruct x, y, z; cbn in *; try discriminate; subst; unfold nonneg; cbn; auto.
    - destruct x, y, z; cbn in *; try discriminate; subst; unfold nonneg; cbn; auto.
  Qed.

  (** ** Sums *)
  Lemma dot_nn l s : dot l s ->
    (forall p, In p l -> nonneg (fst p) /\ nonneg (snd p)) -> nonneg (s : F).
  Proof.
    induction 1 as [|x y|l1 l2 a b _ IH1 _ IH2|l x y a _ IH|l l' a Hp _ IH]; intros Hl.
    - right; reflexivity.
    - destruct (Hl (x, y)); [left; reflexivity|]. apply nn_mul; assumption.
    - apply nn_add; [apply IH1|apply IH2]; intros p Hp; apply Hl, in_or_app; auto.
    - destruct (Hl (x, y)); [left; reflexivity|].
      apply nn_fma; try assumption. apply IH. intros p Hp. apply Hl. right; exact Hp.
    - apply IH. intros p Hi. apply Hl. eapply Permutation_in; eassumption.
  Qed.

  Lemma dot_nan l s : dot l s ->
    (exists p, In p l /\ (is_nan (fst p) = true \/ is_nan (snd p) = true)) -> is_nan (s : F) = true.
  Proof.
    induction 1 as [|x y|l1 l2 a b _ IH1 _ IH2|l x y a _ IH|l l' a Hp _ IH]; intros (p & Hi & Hn).
    - destruct Hi.
    - destruct Hi as [<-|[]]. cbn in Hn. destruct Hn; [apply mul_nan_l|apply mul_nan_r]; assumption.
    - apply in_app_or in Hi. destruct Hi as [Hi|Hi].
      + apply add_nan_l, IH1. exists p; auto.
      + apply add_nan_r, IH2. exists p; auto.
    - destruct Hi as [<-|Hi].
      + cbn in Hn. destruct Hn; [apply fma_nan_1|apply fma_nan_2]; assumption.
      + apply fma_nan_3, IH. exists p; auto.
    - apply IH. exists p. split; [|exact Hn]. eapply Permutation_in; [|exact Hi]. symmetry; exact Hp.
  Qed.

  (** Zero or NaN. *)
  Definition void (x : F) : Prop := is_nan x = true \/ exists s, x = B754_zero s.

  Lemma void_mul_l (x y : F) : void x -> void (fmul x y).
  Proof.
    intros [H|[s ->]]; [left; apply mul_nan_l; exact H|].
    destruct y; cbn; unfold void; cbn; eauto.
  Qed.
  Lemma void_mul_r (x y : F) : void y -> void (fmul x y).
  Proof.
    intros [H|[s ->]]; [left; apply mul_nan_r; exact H|].
    destruct x; cbn; unfold void; cbn; eauto.
  Qed.
  Lemma void_add (x y : F) : void x -> void y -> void (fadd x y).
  Proof.
    intros [H|[s ->]]; [left; apply add_nan_l; exact H|].
    intros [H|[s' ->]]; [left; apply add_nan_r; exact H|].
    unfold fadd. cbn. destruct (Bool.eqb s s'); right; eexists; reflexivity.
  Qed.
  Lemma void_fma (x y z : F) : void x \/ void y -> void z -> void (ffma x y z).
  Proof.
    intros Hxy [Hz|[s ->]]; [left; apply fma_nan_3; exact Hz|].
    destruct Hxy as [[H|[s' ->]]|[H|[s' ->]]].
    - left; apply fma_nan_1; exact H.
    - destruct y; unfold ffma, void; cbn; eauto.
    - left; apply fma_nan_2; exact H.
    - destruct x; unfold ffma, void; cbn; eauto.
  Qed.
  Lemma void_div_void (x y : F) : void x -> void y -> is_nan (fdiv x y) = true.
  Proof.
    intros [H|[s ->]] [H'|[s' ->]]; try (apply div_nan_l; assumption); try (apply div_nan_r; assumption).
    reflexivity.
  Qed.

  Lemma dot_void l s : dot l s ->
    (forall p, In p l -> void (fst p) \/ void (snd p)) -> void (s : F).
  Proof.
    induction 1 as [|x y|l1 l2 a b _ IH1 _ IH2|l x y a _ IH|l l' a Hp _ IH]; intros Hl.
    - right; eexists; reflexivity.
    - destruct (Hl (x, y)) as [H|H]; [left; reflexivity| |]; cbn in H;
        [apply void_mul_l|apply void_mul_r]; exact H.
    - apply void_add; [apply IH1|apply IH2]; intros p Hp; apply Hl, in_or_app; auto.
    - apply void_fma.
      + apply (Hl (x, y)). left; reflexivity.
      + apply IH. intros p Hp. apply Hl. right; exact Hp.
    - apply IH. intros p Hi. apply Hl. eapply Permutation_in; eassumption.
  Qed.

  Lemma total_nn l s : total l s -> (forall x, In x l -> nonneg x) -> nonneg (s : F).
  Proof.
    induction 1 as [|x|l1 l2 a b _ IH1 _ IH2|l l' a Hp _ IH]; intros Hl.
    - right; reflexivity.
    - apply Hl. left; reflexivity.
    - apply nn_add; [apply IH1|apply IH2]; intros p Hp; apply Hl, in_or_app; auto.
    - apply IH. intros p Hi. apply Hl. eapply Permutation_in; eassumption.
  Qed.

  Lemma total_nan l s : total l s -> (exists x, In x l /\ is_nan x = true) -> is_nan (s : F) = true.
  Proof.
    induction 1 as [|x|l1 l2 a b _ IH1 _ IH2|l l' a Hp _ IH]; intros (y & Hi & Hn).
    - destruct Hi.
    - destruct Hi as [<-|[]]. exact Hn.
    - apply in_app_or in Hi. destruct Hi as [Hi|Hi]; [apply add_nan_l, IH1|apply add_nan_r, IH2]; exists y; auto.
    - apply IH. exists y. split; [|exact Hn]. eapply Permutation_in; [|exact Hi]. symmetry; exact Hp.
  Qed.

  (** ** Matrices *)
  Context (m n k : nat).

  Lemma in_row (p : nat) (A B : nat -> F) x :
    In x (map (fun l => (A l, B l)) (seq 0 p)) -> exists l, l < p /\ x = (A l, B l).
  Proof.
    intros H. apply in_map_iff in H. destruct H as (l & <- & Hl). apply in_seq in Hl.
    exists l. split; [lia|reflexivity].
  Qed.

  Lemma product_nn r p c (A B C : fmat prec emax) :
    every r p nonneg A -> every p c nonneg B -> product r p c A B C -> every r c nonneg C.
  Proof.
    intros HA HB HC i j Hi Hj. apply (dot_nn _ _ (HC i j Hi Hj)).
    intros x Hx. apply in_row in Hx. destruct Hx as (l & Hl & ->). cbn. split; [apply HA|apply HB]; assumption.
  Qed.

  Lemma every_emul r c (A B : fmat prec emax) :
    every r c nonneg A -> every r c nonneg B -> every r c nonneg (emul A B).
  Proof. intros HA HB i j Hi Hj. apply nn_mul; [apply HA|apply HB]; assumption. Qed.

  Lemma every_transpose r c P (A : fmat prec emax) : every r c P A -> every c r P (transpose A).
  Proof. intros HA i j Hi Hj. apply HA; assumption. Qed.

  Context (V We : fmat prec emax).
  Context (HV : every m n nonneg V) (HWe : every m n nonneg We).

  Lemma h_update_nn W H H' : every m k nonneg W -> every k n nonneg H ->
    h_update m n k V We W H H' -> every k n nonneg H'.
  Proof.
    intros HW HH (WH & Num & Den & E1 & E2 & E3 & E4) a j Ha Hj. rewrite E4 by assumption.
    pose proof (product_nn _ _ _ _ _ _ HW HH E1) as N1.
    apply nn_mul; [apply HH; assumption|]. apply nn_div.
    - exact (product_nn _ _ _ _ _ _ (every_transpose _ _ _ _ HW) (every_emul _ _ _ _ HWe HV) E2 a j Ha Hj).
    - exact (product_nn _ _ _ _ _ _ (every_transpose _ _ _ _ HW) (every_emul _ _ _ _ HWe N1) E3 a j Ha Hj).
  Qed.

  Lemma w_update_nn W H W' : every m k nonneg W -> every k n nonneg H ->
    w_update m n k V We W H W' -> every m k nonneg W'.
  Proof.
    intros HW HH (WH & Num & Den & E1 & E2 & E3 & E4) i a Hi Ha. rewrite E4 by assumption.
    pose proof (product_nn _ _ _ _ _ _ HW HH E1) as N1.
    apply nn_mul; [apply HW; assumption|]. apply nn_div.
    - exact (product_nn _ _ _ _ _ _ (every_emul _ _ _ _ HWe HV) (every_transpose _ _ _ _ HH) E2 i a Hi Ha).
    - exact (product_nn _ _ _ _ _ _ (every_emul _ _ _ _ HWe N1) (every_transpose _ _ _ _ HH) E3 i a Hi Ha).
  Qed.

  Lemma fstep_nn hold st st' : every m k nonneg (fst st) -> every k n nonneg (snd st) ->
    fstep m n k V We hold st st' -> every m k nonneg (fst st') /\ every k n nonneg (snd st').
  Proof.
    intros HW HH [E1 E2].
    assert (HH' : every k n nonneg (snd st')).
    { destruct hold.
      - intros a j Ha Hj. rewrite E1 by assumption. apply HH; assumption.
      - exact (h_update_nn _ _ _ HW HH E1). }
    split; [|exact HH']. exact (w_update_nn _ _ _ HW HH' E2).
  Qed.

  Lemma fq_nn U st q : fq m n k V U st q -> nonneg q.
  Proof.
    intros (WH & _ & E). apply (total_nn _ _ E). intros x Hx.
    apply in_map_iff in Hx. destruct Hx as (p & <- & _). apply nn_sqr.
  Qed.
End P.

(** ** NaN and zero entries through one iteration *)
Section N.
  Context {prec emax : Z} {Hprec : Prec_gt_0 prec} {Hmax : Prec_lt_emax prec emax}.
  Notation F := (binary_float prec emax).
  Context (m n k : nat) (V We : fmat prec emax).

  Lemma row_in (p : nat) (A B : nat -> F) l : l < p -> In (A l, B l) (map (fun l => (A l, B l)) (seq 0 p)).
  Proof. intros Hl. apply (in_map (fun l => (A l, B l))). apply in_seq. lia. Qed.

  Lemma fstep_w_nan hold st st' i a : i < m -> a < k ->
    fstep m n k V We hold st st' -> is_nan (fst st i a) = true -> is_nan (fst st' i a) = true.
  Proof.
    intros Hi Ha [_ (WH & Num & Den & _ & _ & _ & E)] Hn. rewrite E by assumption.
    apply mul_nan_l. exact Hn.
  Qed.

  Lemma fstep_h_nan hold st st' a j : a < k -> j < n ->
    fstep m n k V We hold st st' -> is_nan (snd st a j) = true -> is_nan (snd st' a j) = true.
  Proof.
    intros Ha Hj [E1 _] Hn. destruct hold.
    - rewrite E1 by assumption. exact Hn.
    - destruct E1 as (WH & Num & Den & _ & _ & _ & E). rewrite E by assumption.
      apply mul_nan_l. exact Hn.
  Qed.

  Lemma fstep_w_void hold st st' i a : i < m -> a < k ->
    fstep m n k V We hold st st' -> void (fst st i a) -> void (fst st' i a).
  Proof.
    intros Hi Ha [_ (WH & Num & Den & _ & _ & _ & E)] Hn. rewrite E by assumption.
    apply void_mul_l. exact Hn.
  Qed.

  Lemma fstep_h_void hold st st' a j : a < k -> j < n ->
    fstep m n k V We hold st st' -> void (snd st a j) -> void (snd st' a j).
  Proof.
    intros Ha Hj [E1 _] Hn. destruct hold.
    - rewrite E1 by assumption. exact Hn.
    - destruct E1 as (WH & Num & Den & _ & _ & _ & E). rewrite E by assumption.
      apply void_mul_l. exact Hn.
  Qed.

  Lemma fstep_poisoned hold st st' :
    fstep m n k V We hold st st' -> poisoned m n k st -> poisoned m n k st'.
  Proof.
    intros E [(i & a & Hi & Ha & Hn)|(a & j & Ha & Hj & Hn)].
    - left. exists i, a. repeat split; try assumption. exact (fstep_w_nan _ _ _ i a Hi Ha E Hn).
    - right. exists a, j. repeat split; try assumption. exact (fstep_h_nan _ _ _ a j Ha Hj E Hn).
  Qed.

  Lemma product_nan r p c (A B C : fmat prec emax) i l j :
    i < r -> l < p -> j < c -> product r p c A B C ->
    is_nan (A i l) = true \/ is_nan (B l j) = true -> is_nan (C i j) = true.
  Proof.
    intros Hi Hl Hj E Hn. apply (dot_nan _ _ (E i j Hi Hj)).
    exists (A i l, B l j). split; [exact (row_in p (A i) (fun l => B l j) l Hl)|exact Hn].
  Qed.

  Lemma fq_poisoned U st q : 0 < m -> 0 < n -> poisoned m n k st -> fq m n k V U st q -> is_nan q = true.
  Proof.
    intros Hm Hn Hp (WH & E1 & E2).
    assert (HWH : exists i j, i < m /\ j < n /\ is_nan (WH i j) = true).
    { destruct Hp as [(i & a & Hi & Ha & Hx)|(a & j & Ha & Hj & Hx)].
      - exists i, 0. repeat split; try assumption.
        apply (product_nan _ _ _ _ _ _ i a 0 Hi Ha Hn E1). left; exact Hx.
      - exists 0, j. repeat split; try assumption.
        apply (product_nan _ _ _ _ _ _ 0 a j Hm Ha Hj E1). right; exact Hx. }
    destruct HWH as (i & j & Hi & Hj & Hx).
    apply (total_nan _ _ E2).
    exists (let r := scaled V U WH i j in fmul r r). split.
    - apply (in_map (fun p => let r := scaled V U WH (fst p) (snd p) in fmul r r) _ (i, j)).
      apply in_prod; apply in_seq; lia.
    - cbv zeta. apply mul_nan_l. unfold scaled. apply div_nan_l, sub_nan_r. exact Hx.
  Qed.

  (** a sample with all weights zero *)
  Lemma fstep_dead_row hold st st' i a : i < m -> a < k ->
    (forall j, j < n -> void (We i j)) ->
    fstep m n k V We hold st st' -> is_nan (fst st' i a) = true.
  Proof.
    intros Hi Ha Hw [_ (WH & Num & Den & _ & E2 & E3 & E)]. rewrite E by assumption.
    apply mul_nan_r. apply void_div_void.
    - apply (dot_void _ _ (E2 i a Hi Ha)). intros p Hp. apply in_row in Hp. destruct Hp as (j & Hj & ->).
      left. cbn. apply void_mul_l, Hw, Hj.
    - apply (dot_void _ _ (E3 i a Hi Ha)). intros p Hp. apply in_row in Hp. destruct Hp as (j & Hj & ->).
      left. cbn. apply void_mul_l, Hw, Hj.
  Qed.

  (** a feature with all weights zero *)
  Lemma fstep_dead_col st st' a j : a < k -> j < n ->
    (forall i, i < m -> void (We i j)) ->
    fstep m n k V We false st st' -> is_nan (snd st' a j) = true.
  Proof.
    intros Ha Hj Hw [(WH & Num & Den & _ & E2 & E3 & E) _]. rewrite E by assumption.
    apply mul_nan_r. apply void_div_void.
    - apply (dot_void _ _ (E2 a j Ha Hj)). intros p Hp. apply in_row in Hp. destruct Hp as (i & Hi & ->).
      right. cbn. apply void_mul_l, Hw, Hi.
    - apply (dot_void _ _ (E3 a j Ha Hj)). intros p Hp. apply in_row in Hp. destruct Hp as (i & Hi & ->).
      right. cbn. apply void_mul_l, Hw, Hi.
  Qed.

  (** the left-to-right engine is an engine *)
  Lemma dot_ltr_ok (l : list (F * F)) : dot l (dot_ltr _ _ _ _ l).
  Proof.
    unfold dot_ltr.
    enough (G : forall l l0 a, dot l0 a ->
      dot (l0 ++ l) (fold_left (fun s p => fadd s (fmul (fst p) (snd p))) l a))
      by (apply (G l [] fzero), dot_nil).
    clear l. induction l as [|[x y] l IH]; intros l0 a Ha; cbn [fold_left].
    - rewrite app_nil_r. exact Ha.
    - replace (l0 ++ (x, y) :: l) with ((l0 ++ [(x, y)]) ++ l) by (rewrite <- app_assoc; reflexivity).
      apply IH. apply dot_app; [exact Ha|]. apply dot_one.
  Qed.

  Lemma total_ltr_ok (l : list F) : total l (total_ltr _ _ _ _ l).
  Proof.
    unfold total_ltr.
    enough (G : forall l l0 a, total l0 a -> total (l0 ++ l) (fold_left fadd l a))
      by (apply (G l [] fzero), total_nil).
    clear l. induction l as [|x l IH]; intros l0 a Ha; cbn [fold_left].
    - rewrite app_nil_r. exact Ha.
    - replace (l0 ++ x :: l) with ((l0 ++ [x]) ++ l) by (rewrite <- app_assoc; reflexivity).
      apply IH. apply total_app; [exact Ha|]. apply total_one.
  Qed.

  Lemma prod_ltr_ok r p c (A B : fmat prec emax) : product r p c A B (prod_ltr _ _ _ _ p A B).
  Proof. intros i j _ _. apply dot_ltr_ok. Qed.

  Lemma stored_ok r c (A : fmat prec emax) i j : i < r -> j < c -> stored _ _ r c A i j = A i j.
  Proof.
    intros Hi Hj. unfold stored.
    rewrite (nth_indep _ [] (map (fun j => A 0 j) (seq 0 c))) by (rewrite map_length, seq_length; exact Hi).
    rewrite (map_nth (fun i => map (fun j => A i j) (seq 0 c))), seq_nth by exact Hi.
    rewrite (nth_indep _ fzero (A (0 + i) 0)) by (rewrite map_length, seq_length; exact Hj).
    rewrite (map_nth (fun j => A (0 + i) j)), seq_nth by exact Hj. reflexivity.
  Qed.

  Lemma stored_prod_ok r p c (A B : fmat prec emax) : product r p c A B (stored _ _ r c (prod_ltr _ _ _ _ p A B)).
  Proof. intros i j Hi Hj. rewrite stored_ok by assumption. apply dot_ltr_ok. Qed.

  Lemma upd_ltr_ok : implements m n k V We (upd_ltr m n k V We).
  Proof.
    intros hold [W H]. split.
    - destruct hold; cbn [fst snd upd_ltr].
      + reflexivity.
      + eexists _, _, _. split; [apply stored_prod_ok|]. split; [apply prod_ltr_ok|].
        split; [apply prod_ltr_ok|]. intros a j Ha Hj. apply stored_ok; assumption.
    - cbn [fst snd upd_ltr]. eexists _, _, _. split; [apply stored_prod_ok|]. split; [apply prod_ltr_ok|].
      split; [apply prod_ltr_ok|]. intros a j Ha Hj. apply stored_ok; assumption.
  Qed.

  Lemma q_ltr_ok U : measures m n k V U (q_ltr m n k V U).
  Proof. intros st. eexists. split; [apply prod_ltr_ok|apply total_ltr_ok]. Qed.
End N.

(** ** The convergence test *)
Section T.
  Context {prec emax : Z} {Hprec : Prec_gt_0 prec} {Hmax : Prec_lt_emax prec emax}.
  Notation F := (binary_float prec emax).
  Notation fexp := (SpecFloat.fexp prec emax).
  Notation rnd := (round radix2 fexp (round_mode mode_NE)).

  Lemma sub_finite (x y : F) : is_finite x = true -> is_finite y = true ->
    Bsign x = false -> Bsign y = false ->
    B2R (fsub x y) = rnd (B2R x - B2R y) /\ is_finite (fsub x y) = true.
  Proof.
    intros Fx Fy Sx Sy. pose proof (Bminus_correct prec emax _ _ mode_NE x y Fx Fy) as H.
    rewrite Rlt_bool_true in H; [destruct H as (A & B & _); split; assumption|].
    pose proof (B2R_nonneg _ Sx). pose proof (B2R_nonneg _ Sy).
    destruct (Rle_dec (B2R x) (B2R y)) as [Hle|Hle].
    - apply Rle_lt_trans with (B2R y).
      + apply abs_round_le_generic; [typeclasses eauto|typeclasses eauto|apply generic_format_B2R|].
        apply Rabs_le. lra.
      + pose proof (abs_B2R_lt_emax prec emax y) as Hy. rewrite Rabs_pos_eq in Hy by assumption. exact Hy.
    - apply Rle_lt_trans with (B2R x).
      + apply abs_round_le_generic; [typeclasses eauto|typeclasses eauto|apply generic_format_B2R|].
        apply Rabs_le. lra.
      + pose proof (abs_B2R_lt_emax prec emax x) as Hx. rewrite Rabs_pos_eq in Hx by assumption. exact Hx.
  Qed.

  Lemma below_real (d x y : F) : is_finite x = true -> is_finite y = true -> is_finite d = true ->
    Bsign x = false -> Bsign y = false ->
    (ieee_below d x y = true <-> (rnd (B2R x - B2R y) < B2R d)%R).
  Proof.
    intros Fx Fy Fd Sx Sy. unfold ieee_below.
    destruct (sub_finite x y Fx Fy Sx Sy) as [E1 E2].
    rewrite Bltb_correct by assumption. rewrite E1.
    destruct (Rlt_bool_spec (rnd (B2R x - B2R y)) (B2R d)); split; intros; try discriminate; try lra; reflexivity.
  Qed.

  (** a computed decrease of at least d means a real one of at least d/2 *)
  Lemma round_sub_half (x y : F) d : (0 < d)%R -> (d <= rnd (B2R x - B2R y))%R -> (d / 2 <= B2R x - B2R y)%R.
  Proof.
    intros Hd Hr.
    destruct (FLT_plus_error_N_ex radix2 (SpecFloat.emin prec emax) prec (fun x => negb (Z.even x))
                (B2R x) (- B2R y)%R) as (eps & He & E).
    - apply generic_format_B2R.
    - apply generic_format_opp, generic_format_B2R.
    - change (rnd (B2R x - B2R y) = ((B2R x + - B2R y) * (1 + eps))%R) in E.
      rewrite E in Hr.
      assert (Hu : (0 < u_ro radix2 prec <= / 2)%R).
      { unfold u_ro. split; [apply Rmult_lt_0_compat; [lra|apply bpow_gt_0]|].
        assert (bpow radix2 (- prec + 1) <= 1)%R.
        { change 1%R with (bpow radix2 0). apply bpow_le. unfold Prec_gt_0 in Hprec. lia. }
        lra. }
      assert (Hu2 : (u_ro radix2 prec / (1 + u_ro radix2 prec) <= / 2)%R).
      { apply Rmult_le_reg_r with (1 + u_ro radix2 prec)%R; [lra|].
        unfold Rdiv. rewrite Rmult_assoc, Rinv_l by lra. lra. }
      assert (He2 : (- / 2 <= eps <= / 2)%R).
      { split; [|apply Rle_trans with (Rabs eps); [apply Rle_abs|lra]].
        pose proof (Rle_abs (- eps)) as Ha. rewrite Rabs_Ropp in Ha. lra. }
      unfold Rminus. nra.
  Qed.

  (** granularity *)
  Lemma sub_granular (x y : F) e : is_finite x = true -> is_finite y = true ->
    (bpow radix2 (e + prec - 1) <= B2R y)%R -> (B2R y < B2R x)%R -> (bpow radix2 e <= B2R x - B2R y)%R.
  Proof.
    intros Fx Fy Hy Hlt.
    assert (Py : (0 < B2R y)%R) by (pose proof (bpow_gt_0 radix2 (e + prec - 1)); lra).
    pose proof (generic_format_B2R prec emax x) as Gx.
    pose proof (generic_format_B2R prec emax y) as Gy.
    assert (Hs : (succ radix2 fexp (B2R y) <= B2R x)%R)
      by (apply succ_le_lt; [typeclasses eauto|assumption|assumption|assumption]).
    rewrite succ_eq_pos in Hs by lra.
    assert (Hu : (bpow radix2 e <= ulp radix2 fexp (B2R y))%R).
    { rewrite ulp_neq_0 by lra. apply bpow_le. unfold cexp, SpecFloat.fexp.
      apply Z.le_trans with (mag radix2 (B2R y) - prec)%Z; [|lia].
      assert (e + prec <= mag radix2 (B2R y))%Z; [|lia].
      replace (e + prec)%Z with ((e + prec - 1) + 1)%Z by lia.
      apply mag_ge_bpow. replace (e + prec - 1 + 1 - 1)%Z with (e + prec - 1)%Z by lia.
      rewrite Rabs_pos_eq by lra. exact Hy. }
    lra.
  Qed.

  Lemma round_nonpos x : (x <= 0)%R -> (rnd x <= 0)%R.
  Proof.
    intros H. rewrite <- (round_0 radix2 fexp (round_mode mode_NE)). apply round_le; try typeclasses eauto. exact H.
  Qed.

  Lemma below_granular (d x y : F) e :
    is_finite x = true -> is_finite y = true -> is_finite d = true ->
    Bsign x = false -> Bsign y = false ->
    (0 < B2R d <= bpow radix2 e)%R ->
    (bpow radix2 (e + prec - 1) <= B2R y)%R ->
    (ieee_below d x y = true <-> (B2R x <= B2R y)%R).
  Proof.
    intros Fx Fy Fd Sx Sy Hd Hy. rewrite below_real by assumption. split.
    - intros Hr. apply Rnot_lt_le. intros Hlt.
      pose proof (sub_granular x y e Fx Fy Hy Hlt) as Hg.
      apply (Rlt_not_le _ _ Hr). apply round_ge_generic; try typeclasses eauto; [apply generic_format_B2R|lra].
    - intros Hle. apply Rle_lt_trans with 0%R; [apply round_nonpos; lra|lra].
  Qed.

  (** over K windows *)
  Lemma windows (q : nat -> F) (d : F) (w K s : nat) :
    (forall i, nonneg (q i)) -> is_finite (q s) = true ->
    is_finite d = true -> (0 < B2R d)%R ->
    (2 * B2R (q s) < INR K * B2R d)%R ->
    (forall t, t <= K -> is_nan (q (s + t * w)) = false) ->
    exists t, 1 <= t <= K /\ ieee_below d (q (s + (t - 1) * w)) (q (s + t * w)) = true.
  Proof.
    intros Hnn Hf Fd Hd HK Hn.
    assert (Hdec : (exists t, 1 <= t <= K /\ ieee_below d (q (s + (t - 1) * w)) (q (s + t * w)) = true) \/
      (is_finite (q (s + K * w)) = true /\ (B2R (q (s + K * w)%nat) <= B2R (q s) - INR K * (B2R d / 2))%R)).
    { clear HK. induction K as [|K IH].
      - right. cbn [Nat.mul]. rewrite Nat.add_0_r. split; [exact Hf|cbn; lra].
      - destruct IH as [(t & Ht & Hb)|[Hfin Hle]].
        + intros t Ht. apply Hn. lia.
        + left. exists t. split; [lia|exact Hb].
        + destruct (ieee_below d (q (s + K * w)) (q (s + S K * w))) eqn:Eb.
          * left. exists (S K). replace (S K - 1) with K by lia. split; [lia|exact Eb].
          * right.
            pose proof (nn_sign _ (Hnn (s + S K * w)) (Hn (S K) (le_n _))) as Sy.
            pose proof (nn_sign _ (Hnn (s + K * w)) (Hn K (le_S _ _ (le_n _)))) as Sx.
            assert (Fy : is_finite (q (s + S K * w)) = true).
            { pose proof (Hn (S K) (le_n _)) as N1. unfold ieee_below, fsub in Eb.
              destruct (q (s + S K * w)) as [| [] | |]; cbn in *; try reflexivity; try discriminate.
              destruct (q (s + K * w)), d; cbn in *; discriminate. }
            split; [exact Fy|].
            assert (Hr : ~ (rnd (B2R (q (s + K * w)%nat) - B2R (q (s + S K * w)%nat)) < B2R d)%R)
              by (intros Hr; apply below_real in Hr; try assumption; congruence).
            apply Rnot_lt_le in Hr. apply (round_sub_half _ _ _ Hd) in Hr.
            rewrite S_INR. lra. }
    destruct Hdec as [Hex|[_ Hle]]; [exact Hex|].
    exfalso. pose proof (B2R_nonneg (q (s + K * w)) (nn_sign _ (Hnn _) (Hn K (le_n _)))). lra.
  Qed.
End T.

(** ** Accuracy of a sum of non-negative numbers *)
Section A.
  Context {prec emax : Z} {Hprec : Prec_gt_0 prec} {Hmax : Prec_lt_emax prec emax}.
  Notation F := (binary_float prec emax).
  Notation fexp := (SpecFloat.fexp prec emax).
  Notation rnd := (round radix2 fexp (round_mode mode_NE)).
  Let u : R := bpow radix2 (- prec).

  Lemma u_bounds : (0 < u < 1)%R.
  Proof.
    unfold u. split; [apply bpow_gt_0|]. change 1%R with (bpow radix2 0). apply bpow_lt.
    unfold Prec_gt_0 in Hprec. lia.
  Qed.

  Lemma add_rel (x y : F) : exists eps, (- u <= eps <= u)%R /\
    rnd (B2R x + B2R y) = ((B2R x + B2R y) * (1 + eps))%R.
  Proof.
    destruct (FLT_plus_error_N_ex radix2 (SpecFloat.emin prec emax) prec (fun x => negb (Z.even x))
                (B2R x) (B2R y)) as (eps & He & E); [apply generic_format_B2R|apply generic_format_B2R|].
    exists eps. split; [|exact E].
    pose proof u_bounds as Hu.
    assert (Eu : u_ro radix2 prec = u).
    { unfold u_ro, u. rewrite bpow_plus. change (bpow radix2 1) with 2%R. field. }
    rewrite Eu in He.
    assert (Hu2 : (u / (1 + u) <= u)%R).
    { apply Rmult_le_reg_r with (1 + u)%R; [lra|]. unfold Rdiv. rewrite Rmult_assoc, Rinv_l by lra. nra. }
    split; [|apply Rle_trans with (Rabs eps); [apply Rle_abs|lra]].
    pose proof (Rle_abs (- eps)) as Ha. rewrite Rabs_Ropp in Ha. lra.
  Qed.

  Lemma exact_sum_app (l1 l2 : list F) : (exact_sum (l1 ++ l2) = exact_sum l1 + exact_sum l2)%R.
  Proof. unfold exact_sum. induction l1 as [|x l1 IH]; cbn; [lra|]. rewrite IH. lra. Qed.

  Lemma exact_sum_perm (l1 l2 : list F) : Permutation l1 l2 -> exact_sum l1 = exact_sum l2.
  Proof. unfold exact_sum. induction 1; cbn; lra. Qed.

  Definition good (x : F) : Prop := Bsign x = false /\ is_finite x = true.

  Lemma exact_sum_nonneg (l : list F) : Forall good l -> (0 <= exact_sum l)%R.
  Proof.
    unfold exact_sum. induction 1 as [|x l [Hx _] _ IH]; cbn; [lra|]. pose proof (B2R_nonneg _ Hx). lra.
  Qed.

  Lemma total_empty (l : list F) s : total l s -> l = [] -> s = fzero.
  Proof.
    induction 1 as [|x|l1 l2 a b _ IH1 _ IH2|l l' a Hp _ IH]; intros E; try reflexivity; try discriminate.
    - apply app_eq_nil in E. destruct E as [E1 E2]. rewrite (IH1 E1), (IH2 E2). reflexivity.
    - subst. apply IH. apply Permutation_nil. symmetry. exact Hp.
  Qed.

  Lemma pow_le_one x i : (0 < x < 1)%R -> (0 < x ^ i <= 1)%R.
  Proof. intros Hx. induction i as [|i IH]; cbn; [lra|]. nra. Qed.
  Lemma pow_dec x i j : (0 < x < 1)%R -> i <= j -> (x ^ j <= x ^ i)%R.
  Proof.
    intros Hx. induction 1 as [|j Hij IH]; [lra|]. cbn. pose proof (pow_le_one x j Hx). nra.
  Qed.

  (** Result of one addition of two finite non-negative numbers. *)
  Lemma add_good (a b : F) : good a -> good b ->
    (is_finite (fadd a b) = true -> B2R (fadd a b) = rnd (B2R a + B2R b)) /\
    ((rnd (B2R a + B2R b) < bpow radix2 emax)%R -> is_finite (fadd a b) = true).
  Proof.
    intros [Sa Fa] [Sb Fb]. unfold fadd.
    pose proof (Bplus_correct prec emax _ _ mode_NE a b Fa Fb) as H.
    assert (H0 : (0 <= rnd (B2R a + B2R b))%R).
    { rewrite <- (round_0 radix2 fexp (round_mode mode_NE)). apply round_le; try typeclasses eauto.
      pose proof (B2R_nonneg _ Sa). pose proof (B2R_nonneg _ Sb). lra. }
    rewrite Rabs_pos_eq in H by exact H0.
    destruct (Rlt_bool_spec (rnd (B2R a + B2R b)) (bpow radix2 emax)).
    - destruct H as (A & B & _). auto.
    - destruct H as [H _]. split; [|intros; lra]. intros Hf. exfalso.
      rewrite Sa in H. destruct (Bplus mode_NE a b); cbn in *; try discriminate.
  Qed.

  Lemma total_good (l : list F) s : total l s -> Forall good l -> Bsign s = false.
  Proof.
    intros Ht Hl.
    assert (Hn : is_nan s = false).
    { revert Hl. induction Ht as [|x|l1 l2 a b H1 IH1 H2 IH2|l l' a Hp _ IH]; intros Hl.
      - reflexivity.
      - inversion Hl as [|? ? [Hs Hf] _]; subst. destruct x; cbn in *; congruence.
      - apply Forall_app in Hl. destruct Hl as [L1 L2].
        assert (Sa : Bsign a = false).
        { apply nn_sign; [|apply IH1; exact L1]. apply (total_nn _ _ H1).
          intros x Hx. right. apply (proj1 (Forall_forall good l1) L1 x Hx). }
        assert (Sb : Bsign b = false).
        { apply nn_sign; [|apply IH2; exact L2]. apply (total_nn _ _ H2).
          intros x Hx. right. apply (proj1 (Forall_forall good l2) L2 x Hx). }
        specialize (IH1 L1). specialize (IH2 L2).
        destruct (is_finite a) eqn:Fa, (is_finite b) eqn:Fb.
        + pose proof (Bplus_correct prec emax _ _ mode_NE a b Fa Fb) as H. unfold fadd.
          destruct (Rlt_bool _ _).
          * destruct H as (_ & H & _). destruct (Bplus mode_NE a b); cbn in *; congruence.
          * destruct H as [H _]. destruct (Bplus mode_NE a b); cbn in *; try reflexivity; discriminate.
        + destruct a, b; cbn in *; try discriminate; reflexivity.
        + destruct a, b; cbn in *; try discriminate; reflexivity.
        + destruct a, b; cbn in *; try discriminate. subst. reflexivity.
      - apply IH. apply (Permutation_Forall (Permutation_sym Hp)). exact Hl. }
    apply nn_sign; [|exact Hn]. apply (total_nn _ _ Ht).
    intros x Hx. right. apply (proj1 (Forall_forall good l) Hl x Hx).
  Qed.

  Lemma add_finite_inv (a b : F) : is_finite (fadd a b) = true -> Bsign a = false -> Bsign b = false ->
    is_finite a = true /\ is_finite b = true.
  Proof. unfold fadd. destruct a, b; cbn; intros; subst; try discriminate; auto. Qed.

  Lemma total_accuracy (l : list F) s : total l s -> Forall good l -> is_finite s = true ->
    (exact_sum l * (1 - u) ^ (length l - 1) <= B2R s <= exact_sum l * (1 + u) ^ (length l - 1))%R.
  Proof.
    pose proof u_bounds as Hu.
    induction 1 as [|x|l1 l2 a b H1 IH1 H2 IH2|l l' a Hp _ IH]; intros Hl Hf.
    - cbn. lra.
    - unfold exact_sum. cbn. lra.
    - apply Forall_app in Hl. destruct Hl as [L1 L2].
      pose proof (total_good _ _ H1 L1) as Sa. pose proof (total_good _ _ H2 L2) as Sb.
      destruct (add_finite_inv a b Hf Sa Sb) as [Fa Fb].
      specialize (IH1 L1 Fa). specialize (IH2 L2 Fb).
      destruct (add_good a b (conj Sa Fa) (conj Sb Fb)) as [E _]. rewrite (E Hf).
      rewrite exact_sum_app, app_length.
      pose proof (exact_sum_nonneg _ L1) as P1. pose proof (exact_sum_nonneg _ L2) as P2.
      pose proof (B2R_nonneg _ Sa) as Pa. pose proof (B2R_nonneg _ Sb) as Pb.
      destruct l1 as [|x1 l1].
      { rewrite (total_empty _ _ H1 eq_refl) in *.
        change (exact_sum []) with 0%R. change (B2R (fzero : F)) with 0%R. rewrite !Rplus_0_l.
        rewrite round_generic; [|typeclasses eauto|apply generic_format_B2R]. exact IH2. }
      destruct l2 as [|x2 l2].
      { rewrite (total_empty _ _ H2 eq_refl) in *.
        change (exact_sum []) with 0%R. change (B2R (fzero : F)) with 0%R. rewrite !Rplus_0_r, Nat.add_0_r.
        rewrite round_generic; [|typeclasses eauto|apply generic_format_B2R]. exact IH1. }
      destruct (add_rel a b) as (eps & He & ->).
      set (L1' := length (x1 :: l1)) in *. set (L2' := length (x2 :: l2)) in *.
      set (N := L1' + L2' - 1).
      assert (HN : L1' - 1 <= N - 1 /\ L2' - 1 <= N - 1 /\ N = S (N - 1))
        by (unfold N, L1', L2'; cbn; lia).
      destruct HN as (N1 & N2 & N3). rewrite N3. cbn [pow].
      set (S1 := exact_sum (x1 :: l1)) in *. set (S2 := exact_sum (x2 :: l2)) in *.
      assert (Hd : (0 < 1 - u < 1)%R) by lra.
      pose proof (pow_dec (1 - u) _ _ Hd N1) as D1. pose proof (pow_dec (1 - u) _ _ Hd N2) as D2.
      assert (U1 : ((1 + u) ^ (L1' - 1) <= (1 + u) ^ (N - 1))%R) by (apply Rle_pow; [lra|exact N1]).
      assert (U2 : ((1 + u) ^ (L2' - 1) <= (1 + u) ^ (N - 1))%R) by (apply Rle_pow; [lra|exact N2]).
      set (dn := ((1 - u) ^ (N - 1))%R) in *. set (up := ((1 + u) ^ (N - 1))%R) in *.
      assert (Pd : (0 <= dn)%R) by (unfold dn; apply pow_le; lra).
      assert (Pu : (0 <= up)%R) by (unfold up; apply pow_le; lra).
      assert (A1 : (S1 * dn <= B2R a <= S1 * up)%R).
      { split; [apply Rle_trans with (S1 * (1 - u) ^ (L1' - 1))%R|apply Rle_trans with (S1 * (1 + u) ^ (L1' - 1))%R];
          try apply Rmult_le_compat_l; try assumption; apply IH1. }
      assert (A2 : (S2 * dn <= B2R b <= S2 * up)%R).
      { split; [apply Rle_trans with (S2 * (1 - u) ^ (L2' - 1))%R|apply Rle_trans with (S2 * (1 + u) ^ (L2' - 1))%R];
          try apply Rmult_le_compat_l; try assumption; apply IH2. }
      split.
      + apply Rle_trans with ((B2R a + B2R b) * (1 - u))%R; [|apply Rmult_le_compat_l; lra].
        replace ((S1 + S2) * ((1 - u) * dn))%R with ((S1 * dn + S2 * dn) * (1 - u))%R by ring.
        apply Rmult_le_compat_r; lra.
      + apply Rle_trans with ((B2R a + B2R b) * (1 + u))%R; [apply Rmult_le_compat_l; lra|].
        replace ((S1 + S2) * ((1 + u) * up))%R with ((S1 * up + S2 * up) * (1 + u))%R by ring.
        apply Rmult_le_compat_r; lra.
    - rewrite <- (exact_sum_perm _ _ Hp), <- (Permutation_length Hp). apply IH; [|exact Hf].
      apply (Permutation_Forall (Permutation_sym Hp)). exact Hl.
  Qed.

  Lemma total_no_overflow (l : list F) s : total l s -> Forall good l ->
    (exact_sum l * (1 + u) ^ (length l - 1) < bpow radix2 emax)%R -> is_finite s = true.
  Proof.
    pose proof u_bounds as Hu.
    induction 1 as [|x|l1 l2 a b H1 IH1 H2 IH2|l l' a Hp _ IH]; intros Hl Hb.
    - reflexivity.
    - inversion Hl as [|? ? [_ Hf] _]; subst. exact Hf.
    - apply Forall_app in Hl. destruct Hl as [L1 L2].
      pose proof (exact_sum_nonneg _ L1) as P1. pose proof (exact_sum_nonneg _ L2) as P2.
      rewrite exact_sum_app, app_length in Hb.
      assert (U1 : ((1 + u) ^ (length l1 - 1) <= (1 + u) ^ (length l1 + length l2 - 1))%R) by (apply Rle_pow; [lra|lia]).
      assert (U2 : ((1 + u) ^ (length l2 - 1) <= (1 + u) ^ (length l1 + length l2 - 1))%R) by (apply Rle_pow; [lra|lia]).
      assert (Q1 : (1 <= (1 + u) ^ (length l1 - 1))%R) by (apply pow_R1_Rle; lra).
      assert (Q2 : (1 <= (1 + u) ^ (length l2 - 1))%R) by (apply pow_R1_Rle; lra).
      assert (Fa : is_finite a = true) by (apply IH1; [exact L1|]; nra).
      assert (Fb : is_finite b = true) by (apply IH2; [exact L2|]; nra).
      pose proof (total_good _ _ H1 L1) as Sa. pose proof (total_good _ _ H2 L2) as Sb.
      apply (add_good a b (conj Sa Fa) (conj Sb Fb)).
      pose proof (total_accuracy _ _ H1 L1 Fa) as A1. pose proof (total_accuracy _ _ H2 L2 Fb) as A2.
      apply Rle_lt_trans with ((exact_sum l1 + exact_sum l2) * (1 + u) ^ (length l1 + length l2 - 1))%R; [|exact Hb].
      destruct l1 as [|x1 l1].
      { rewrite (total_empty _ _ H1 eq_refl).
        change (exact_sum []) with 0%R. change (B2R (fzero : F)) with 0%R. rewrite !Rplus_0_l.
        rewrite round_generic; [|typeclasses eauto|apply generic_format_B2R]. apply A2. }
      destruct l2 as [|x2 l2].
      { rewrite (total_empty _ _ H2 eq_refl).
        change (exact_sum []) with 0%R. change (B2R (fzero : F)) with 0%R. rewrite !Rplus_0_r, Nat.add_0_r.
        rewrite round_generic; [|typeclasses eauto|apply generic_format_B2R]. apply A1. }
      destruct (add_rel a b) as (eps & He & ->).
      set (L1' := length (x1 :: l1)) in *. set (L2' := length (x2 :: l2)) in *.
      set (N := L1' + L2' - 1) in *.
      assert (HN : L1' - 1 <= N - 1 /\ L2' - 1 <= N - 1 /\ N = S (N - 1))
        by (unfold N, L1', L2'; cbn; lia).
      destruct HN as (N1 & N2 & N3). rewrite N3. cbn [pow].
      assert (V1 : ((1 + u) ^ (L1' - 1) <= (1 + u) ^ (N - 1))%R) by (apply Rle_pow; [lra|exact N1]).
      assert (V2 : ((1 + u) ^ (L2' - 1) <= (1 + u) ^ (N - 1))%R) by (apply Rle_pow; [lra|exact N2]).
      set (S1 := exact_sum (x1 :: l1)) in *. set (S2 := exact_sum (x2 :: l2)) in *.
      set (up := ((1 + u) ^ (N - 1))%R) in *.
      pose proof (B2R_nonneg _ Sa) as Pa. pose proof (B2R_nonneg _ Sb) as Pb.
      assert (B1 : (B2R a <= S1 * up)%R)
        by (apply Rle_trans with (S1 * (1 + u) ^ (L1' - 1))%R; [apply A1|apply Rmult_le_compat_l; assumption]).
      assert (B2 : (B2R b <= S2 * up)%R)
        by (apply Rle_trans with (S2 * (1 + u) ^ (L2' - 1))%R; [apply A2|apply Rmult_le_compat_l; assumption]).
      apply Rle_trans with ((B2R a + B2R b) * (1 + u))%R; [apply Rmult_le_compat_l; lra|].
      replace ((S1 + S2) * ((1 + u) * up))%R with ((S1 * up + S2 * up) * (1 + u))%R by ring.
      apply Rmult_le_compat_r; lra.
    - apply IH.
      + apply (Permutation_Forall (Permutation_sym Hp)). exact Hl.
      + rewrite (exact_sum_perm _ _ Hp), (Permutation_length Hp). exact Hb.
  Qed.
End A.
