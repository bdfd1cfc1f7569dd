(** Properties C122 and C123: the refits of the displacement method and the perturbed models. *)
From Coq Require Import Reals Lra Lia List Bool ZArith Arith FunctionalExtensionality.
From Verif Require Import Base Fl Metrics_Model Metrics_Spec Metrics_Proofs LSNMF_Model LSNMF_Proofs
  Train_Model Train_Spec Train_Proofs Train_LS Layout_Model Layout_Proofs SA_Model SA_Proofs SA_Props
  Boot_Model Utils_Model Utils_Props
  Pipeline_Model Pipeline_Spec Pipeline_Proofs Pipeline_Props Refit_Model Refit_Spec Refit_Proofs Refit_Props.
Import ListNotations.
Open Scope R_scope.

(** ** Displacement *)
Lemma disp_base_shape B k n : shaped k n FOrder (b_H B) -> shaped k n FOrder (disp_base B).
Proof. intros H. exact H. Qed.
Lemma disp_base_get B a b : aget (disp_base B) a b = aget (b_H B) a b + / 10 ^ 12.
Proof. unfold aget, disp_base, DISP_EPS. cbn [a_order a_rows a_cols a_buf]. destruct (a_order (b_H B)); reflexivity. Qed.

Lemma put_cell_get B k n f j x a b : shaped k n FOrder (b_H B) -> (f < k)%nat -> (a < k)%nat ->
  aget (put_cell (disp_base B) f j x) a b = displaced f j x (aget (b_H B)) a b.
Proof.
  intros (S1 & S2 & S3) Hf Ha. unfold displaced. rewrite <- disp_base_get. unfold aget, put_cell.
  change (a_order (disp_base B)) with (a_order (b_H B)). change (a_rows (disp_base B)) with (a_rows (b_H B)).
  cbn [a_order a_rows a_cols a_buf]. rewrite S3, S1. change (a_order (disp_base B)) with (a_order (b_H B)). rewrite ?S3, ?S1.
  destruct (Nat.eqb_spec (b * k + a) (j * k + f)) as [E|E].
  - assert (b = j) by nia. assert (a = f) by nia. subst. rewrite !Nat.eqb_refl. reflexivity.
  - destruct (Nat.eqb_spec a f), (Nat.eqb_spec b j); subst; cbn [andb]; try reflexivity. exfalso. apply E. reflexivity.
Qed.

Lemma rearranged_put B k n f j x : (0 < k)%nat -> shaped k n FOrder (b_H B) -> (f < k)%nat ->
  rearranged k n (aget (put_cell (disp_base B) f j x)) = rearranged k n (displaced f j x (aget (b_H B))).
Proof.
  intros Hk HS Hf. extensionality a. extensionality b. unfold rearranged.
  apply (put_cell_get B k n); try assumption. apply Nat.mod_upper_bound. lia.
Qed.

(** C122: a refit of the displacement method.  It always completes (for model numbers the
    compiled function takes), with the settings of the base model.  Contributions start
    from fresh draws.  The profiles start from the base profiles raised by 1e-12, with cell
    (f, j) displaced, re-read row by row.  The swap flag compares the refitted profiles
    with the raised base profiles. *)
Theorem C122_displaced_refit :
  forall B m n k v u f j x g c wsW tick i,
    (0 < m)%nat -> (0 < n)%nat -> (0 < k)%nat -> mall m n (fun x => 0 <= x) v ->
    b_V B = data m n v -> b_U B = data m n u -> shaped k n FOrder (b_H B) -> (f < k)%nat -> (j < n)%nat ->
    let run := disp_refit B f j x (draws g c wsW) tick i in
    (~ i8 i -> run = Raised) /\
    (i8 i -> exists ft, run = Trained ft /\
       reports m n k v (used_unc u) (reread (b_oV B) m n v) (reread (b_oU B) m n (used_unc u))
         (drawn_W n k v c) (fun a b => lifted (rearranged k n (displaced f j x (aget (b_H B))) a b))
         4 (fun _ => false) (b_max_iter B) (b_cn B) (b_delta B) ft /\
       (f_WH ft = None -> disp_swap B ft = None) /\
       (forall w1 h1, f_WH ft = Some (w1, h1) -> exists s, disp_swap B ft = Some s /\
          let base_ a b := aget (b_H B) a b + / 10 ^ 12 in
          (s = true <-> exists a a', (a < k)%nat /\ (a' < k)%nat /\
             flt (r2 n (aget h1 a) (base_ a)) (r2 n (aget h1 a) (base_ a')) = true))).
Proof.
  intros B m n k v u f j x g c wsW tick i Hm Hn Hk Hv EV EU HS Hf Hj run.
  destruct (refit_spec B (b_oV B) (b_oU B) m n k v u (Some (put_cell (disp_base B) f j x)) g c wsW tick i Hm Hn Hk Hv) as (ft & Ef & Hr & _).
  { exact (proj1 HS). }
  { intros h E. injection E as <-. exact HS. }
  rewrite rearranged_put in Hr by assumption. unfold run, disp_refit. rewrite EV, EU, Ef. split.
  - intros Hi. destruct ((127 <? i)%Z || (i <? -128)%Z) eqn:E; [reflexivity|]. exfalso. apply Hi, i8_test, E.
  - intros Hi. apply i8_test in Hi. rewrite Hi. exists ft. split; [reflexivity|]. split; [exact Hr|].
    split; [unfold disp_swap; intros ->; reflexivity|]. intros w1 h1 E. unfold disp_swap. rewrite E.
    eexists. split; [reflexivity|]. rewrite C50_swap_reported. destruct HS as (S1 & S2 & S3). rewrite S1, S2.
    assert (Eb : aget (disp_base B) = fun a b => aget (b_H B) a b + / 10 ^ 12) by (extensionality a; extensionality b; apply disp_base_get).
    rewrite Eb. reflexivity.
Qed.
Print Assumptions C122_displaced_refit.

(** C122: where the displaced value lands.  The value set in cell (f, j) is the starting
    value of cell ((j k + f) / n, (j k + f) mod n), and of no other; this is cell (f, j)
    itself only if j (k-1) = f (n-1): the first and the last cell for one, all cells for
    one factor. *)
Theorem C122_where_the_displacement_lands :
  forall k n f j x h, (f < k)%nat -> (j < n)%nat ->
    let a := ((j * k + f) / n)%nat in let b := ((j * k + f) mod n)%nat in
    (a < k)%nat /\ (b < n)%nat /\ rearranged k n (displaced f j x h) a b = x /\
    (forall a' b', (a' < k)%nat -> (b' < n)%nat -> (a', b') <> (a, b) ->
       rearranged k n (displaced f j x h) a' b' = rearranged k n h a' b' + / 10 ^ 12) /\
    ((a, b) = (f, j) <-> (j * (k - 1) = f * (n - 1))%nat).
Proof.
  intros k n f j x h Hf Hj a b.
  assert (Ej : (j * k + f = a * n + b)%nat) by (unfold a, b; rewrite (Nat.mul_comm _ n); apply Nat.div_mod; lia).
  assert (Hb : (b < n)%nat) by (apply Nat.mod_upper_bound; lia).
  assert (Ha : (a < k)%nat) by (apply Nat.div_lt_upper_bound; nia).
  assert (M : forall q r : nat, (r < k)%nat -> ((q * k + r) mod k = r /\ (q * k + r) / k = q)%nat).
  { intros q r Hr. rewrite (Nat.add_comm (q * k)), Nat.mod_add, Nat.div_add, Nat.mod_small, Nat.div_small by lia. lia. }
  split; [exact Ha|]. split; [exact Hb|]. split.
  { unfold rearranged. rewrite <- Ej. destruct (M j f Hf) as [-> ->]. unfold displaced. rewrite !Nat.eqb_refl. reflexivity. }
  split.
  { intros a' b' Ha' Hb' Hne. unfold rearranged, displaced.
    destruct (Nat.eqb_spec ((a' * n + b') mod k) f) as [E1|], (Nat.eqb_spec ((a' * n + b') / k) j) as [E2|]; cbn [andb]; try reflexivity.
    exfalso. apply Hne. assert (E : (a' * n + b' = j * k + f)%nat).
    { rewrite (Nat.div_mod (a' * n + b') k) by lia. rewrite E1, E2. lia. }
    rewrite Ej in E. assert (a' = a) by nia. subst a'. f_equal. lia. }
  split.
  - intros E. injection E as E1 E2. rewrite E1, E2 in Ej. nia.
  - intros E. assert (E' : (j * k + f = f * n + j)%nat) by nia. rewrite E' in Ej. assert (a = f) by nia. subst a.
    assert (b = j) by nia. f_equal; assumption.
Qed.
Print Assumptions C122_where_the_displacement_lands.

(** C122: with data stored by columns and no empty sample or feature the refit gives
    positive matrices that fit at least as well as its start. *)
Theorem C122_refit_improves :
  forall B m n k v u f j x g c wsW tick i ft,
    (0 < m)%nat -> (0 < n)%nat -> (0 < k)%nat -> mall m n (fun x => 0 <= x) v -> no_empty m n v ->
    b_V B = data m n v -> b_U B = data m n u -> shaped k n FOrder (b_H B) -> (f < k)%nat -> (j < n)%nat ->
    b_oV B = FOrder -> b_oU B = FOrder -> disp_refit B f j x (draws g c wsW) tick i = Trained ft ->
    improves m n k v (used_unc u) (drawn_W n k v c) (fun a b => lifted (rearranged k n (displaced f j x (aget (b_H B))) a b))
      4 (b_max_iter B) (b_cn B) (b_delta B) ft.
Proof.
  intros B m n k v u f j x g c wsW tick i ft Hm Hn Hk Hv Hne EV EU HS Hf Hj OV OU Erun.
  destruct (refit_spec B (b_oV B) (b_oU B) m n k v u (Some (put_cell (disp_base B) f j x)) g c wsW tick i Hm Hn Hk Hv) as (ft' & Ef & Hr & HN & _).
  { exact (proj1 HS). }
  { intros h E. injection E as <-. exact HS. }
  unfold disp_refit in Erun. rewrite EV, EU, Ef in Erun. destruct ((127 <? i)%Z || (i <? -128)%Z); [discriminate|]. injection Erun as ->.
  rewrite OV, OU in Hr.
  pose proof (refit_improves B m n k v u (Some (put_cell (disp_base B) f j x)) g c ft Hm Hn Hk Hv Hne Hr HN) as T.
  cbv beta iota zeta in T. rewrite rearranged_put in T by assumption. exact T.
Qed.
Print Assumptions C122_refit_improves.

(** A base model with profiles (1,3,1) and (2,3,4). *)
Definition wide_base : base :=
  mkBase (data 1 3 (fun _ _ => 1)) (data 1 3 (fun _ _ => 1)) FOrder FOrder
    (mkArr 1 2 FOrder (fun q => 1)) (mkArr 2 3 FOrder (fun q => nth q [1; 2; 3; 3; 1; 4] 0)) 0 1 10.

Lemma cov_shift n x y s t : (0 < n)%nat -> cov n (fun i => x i + s) (fun i => y i + t) = cov n x y.
Proof.
  intros Hn. apply lt_0_INR in Hn.
  assert (E : forall z r, mean n (fun i => z i + r) = mean n z + r).
  { intros z r. unfold mean. rewrite rsum_plus, rsum_const. field. lra. }
  unfold cov. rewrite !E. apply rsum_ext. intros i _. ring.
Qed.
Lemma r2_shift n x y t : (0 < n)%nat -> r2 n x (fun i => y i + t) = r2 n x y.
Proof.
  intros Hn. unfold r2. rewrite (cov_shift n y y t t Hn).
  assert (E : cov n x (fun i => y i + t) = cov n x y).
  { pose proof (cov_shift n x y 0 t Hn) as E. rewrite <- E. unfold cov, mean. apply rsum_ext. intros i _.
    rewrite (rsum_ext n (fun i => x i + 0) x) by (intros; ring). ring. }
  rewrite E. reflexivity.
Qed.

(** A displacement of nothing is reported as a swap of factors, before any iteration. *)
Theorem C122_undisplaced_is_not_a_swap_refuted :
  exists B ft, (forall a b, (a < 2)%nat -> (b < 3)%nat -> aget (b_H B) a b = cells [[1; 3; 1]; [2; 3; 4]] a b) /\
    disp_refit B 0 0 (aget (b_H B) 0%nat 0%nat + / 10 ^ 12) (draws (fun _ _ : nat => 1) (fun _ _ : nat => 1) (fun x => x)) (fun _ => false) 1 = Trained ft /\
    f_hist ft = [] /\ disp_swap B ft = Some true.
Proof.
  exists wide_base.
  destruct (C122_displaced_refit wide_base 1 3 2 (fun _ _ => 1) (fun _ _ => 1) 0 0 (1 + / 10 ^ 12) (fun _ _ => 1) (fun _ _ => 1) (fun x => x) (fun _ => false) 1)
    as [_ D]; try lia; try reflexivity.
  { intros i j _ _. lra. }
  { repeat split. }
  destruct D as (ft & E & Hr & _ & Sw); [unfold i8; lia|]. exists ft. split.
  { intros a b Ha Hb. destruct a as [|[|a]]; try lia; destruct b as [|[|[|b]]]; try lia; reflexivity. }
  split; [exact E|]. split.
  { destruct Hr as (A & _). destruct (f_hist ft); [reflexivity|cbn in A; lia]. }
  apply no_iterations in Hr. destruct Hr as (w1 & h1 & F1 & Fh & _ & _). destruct (Sw w1 h1 F1) as (s & -> & Hs). f_equal.
  apply Hs. exists 0%nat, 1%nat. split; [lia|]. split; [lia|].
  assert (P0 : 0 < / 10 ^ 12) by (apply Rinv_0_lt_compat, pow_lt; lra).
  assert (X0 : aget h1 0%nat 0%nat = 1 + / 10 ^ 12) by (rewrite Fh by lia; unfold rearranged, displaced; cbn [Nat.modulo Nat.divmod Nat.div Nat.mul Nat.add Nat.eqb andb fst snd Nat.sub]; apply lifted_pos; lra).
  assert (X1 : aget h1 0%nat 1%nat = 2 + / 10 ^ 12) by (rewrite Fh by lia; change (lifted (2 + / 10 ^ 12) = 2 + / 10 ^ 12); apply lifted_pos; lra).
  assert (X2 : aget h1 0%nat 2%nat = 3 + / 10 ^ 12) by (rewrite Fh by lia; change (lifted (3 + / 10 ^ 12) = 3 + / 10 ^ 12); apply lifted_pos; lra).
  rewrite !r2_shift by lia.
  assert (Ex : cov 3 (aget h1 0%nat) (aget h1 0%nat) = 2) by (unfold cov, mean; cbn [rsum INR]; rewrite X0, X1, X2; field).
  assert (Ey0 : cov 3 (aget (b_H wide_base) 0%nat) (aget (b_H wide_base) 0%nat) = 8 / 3) by (unfold cov, mean; cbn; field).
  assert (Ey1 : cov 3 (aget (b_H wide_base) 1%nat) (aget (b_H wide_base) 1%nat) = 2) by (unfold cov, mean; cbn; field).
  assert (E0 : cov 3 (aget h1 0%nat) (aget (b_H wide_base) 0%nat) = 0) by (unfold cov, mean; cbn [rsum INR]; rewrite X0, X1, X2; cbn; field).
  assert (E1 : cov 3 (aget h1 0%nat) (aget (b_H wide_base) 1%nat) = 2) by (unfold cov, mean; cbn [rsum INR]; rewrite X0, X1, X2; cbn; field).
  unfold r2. rewrite Ex, Ey0, Ey1, E0, E1. unfold Reqb.
  destruct (Req_EM_T 2 0); [lra|]. destruct (Req_EM_T (8 / 3) 0); [lra|]. cbn [flt]. apply Rltb_iff. lra.
Qed.
Print Assumptions C122_undisplaced_is_not_a_swap_refuted.

Example C122_instance :
  shaped 2 3 FOrder (b_H wide_base) /\ mall 1 3 (fun x => 0 <= x) (fun _ _ => 1) /\ no_empty 1 3 (fun _ _ => 1) /\ i8 1 /\
  ((1 * 2 + 0) / 3 = 0 /\ (1 * 2 + 0) mod 3 = 2)%nat.   (* cell (0, 1) of two factors, three features lands in (0, 2) *)
Proof.
  split; [repeat split|]. split; [intros i j _ _; lra|]. split.
  - split; [intros i Hi|intros j Hj]; exists 0%nat; (split; [lia|lra]).
  - split; [unfold i8; lia|]. split; reflexivity.
Qed.

(** ** Perturbation *)
(** C123: a perturbed model.  It completes for model numbers up to 127 and trains with the
    settings of the analysis on the same data and other uncertainties; both starting
    matrices are those of the base model re-read row by row. *)
Theorem C123_perturbed_run :
  forall B m n k v u oU tick maxit delta cn i,
    (0 < m)%nat -> (0 < n)%nat -> (0 < k)%nat -> mall m n (fun x => 0 <= x) v ->
    b_V B = data m n v -> shaped m k FOrder (b_W B) -> shaped k n FOrder (b_H B) ->
    let run := perturbed B oU (data m n u) tick maxit delta cn i in
    let w := rearranged m k (aget (b_W B)) in let h := (fun a j => lifted (rearranged k n (aget (b_H B)) a j)) : mat in
    (~ i8 i -> run = Raised) /\
    (i8 i -> exists f, run = Trained f /\
       reports m n k v (used_unc u) (reread (b_oV B) m n v) (reread oU m n (used_unc u)) w h 4 (fun _ => false) maxit cn delta f /\
       (b_oV B = FOrder -> oU = FOrder -> no_empty m n v -> mall m k (fun x => 0 < x) (aget (b_W B)) ->
          improves m n k v (used_unc u) w h 4 maxit cn delta f)).
Proof.
  intros B m n k v u oU tick maxit delta cn i Hm Hn Hk Hv EV (SW1 & SW2 & SW3) (SH1 & SH2 & SH3) run w h.
  set (p := mkSet maxit delta cn 4 false (-1)).
  destruct (fit_both (mkOrd (b_oV B) oU FOrder FOrder) m n k v u (as_nd (b_H B)) (as_nd (b_W B)) (aget (b_H B)) (aget (b_W B))
    (ColumnMean false (fun _ _ => Fin 0) (fun _ _ => Fin 0) (fun x => x)) tick p Hm Hn Hk Hv) as (Hx & R3 & R4 & HH & Ef);
    try assumption; try (intros a j _ _; reflexivity).
  unfold run, perturbed. rewrite EV, SH1, SW3, SH3. fold p. rewrite Ef. split.
  - intros Hi. destruct ((127 <? i)%Z || (i <? -128)%Z) eqn:E; [reflexivity|]. exfalso. apply Hi, i8_test, E.
  - intros Hi. apply i8_test in Hi. rewrite Hi. eexists. split; [reflexivity|].
    pose proof (run_engine_spec (mkOrd (b_oV B) oU FOrder FOrder) m n k v (used_unc u) (as_nd (b_W B)) Hx (aget (b_W B)) _ tick p (fun _ => false)
             (used_unc_nz u) SW1 SW2 (fun a j _ _ => eq_refl) R3 R4 HH never_held) as Hr.
    split; [exact Hr|]. intros OV -> Hne HW. rewrite OV in Hr |- *.
    apply (positive_run m n k v (used_unc u) w h p); try assumption.
    + apply used_unc_pos.
    + cbn [p p_alpha]. lra.
    + intros a b Ha Hb. apply HW; [apply Nat.mod_upper_bound; lia|apply Nat.div_lt_upper_bound; nia].
    + intros a b _ _. apply lifted_gt.
    + intros Hit. eapply (engine_length _ m n); try reflexivity; assumption.
Qed.
Print Assumptions C123_perturbed_run.

(** An exact base model: W = [[1,2],[1,1]], H = [[1,2],[3,1]]. *)
Definition exact_base : base :=
  mkBase (data 2 2 (cells [[7; 4]; [4; 3]])) (data 2 2 (fun _ _ => 1)) FOrder FOrder
    (mkArr 2 2 FOrder (fun q => nth q [1; 1; 2; 1] 0)) (mkArr 2 2 FOrder (fun q => nth q [1; 3; 2; 1] 0)) 1 1 10.

Lemma one_free m n k V We W H H1 :
  (forall a j, (a < k)%nat -> (j < n)%nat -> h_den m k We W H a j <> 0) ->
  H1 = (fun a j => H a j * (h_num m V We W a j / h_den m k We W H a j)) ->
  (forall i a, (i < m)%nat -> (a < k)%nat -> w_den n k We W H1 i a <> 0) ->
  ls_iter m n k V We (fun _ => false) 0 1 (W, H) = Some (fun i a => W i a * (w_num n V We H1 i a / w_den n k We W H1 i a), H1).
Proof.
  intros Hd E Hd'. cbn [ls_iter]. unfold ls_update, h_step. apply all_nz_true in Hd. rewrite Hd. rewrite <- E.
  unfold w_step. apply all_nz_true in Hd'. rewrite Hd'. reflexivity.
Qed.

(** Nothing perturbed: the uncertainties of the base model.  An exact base model is not
    returned: after one iteration the profiles differ and the fit is no longer exact. *)
Theorem C123_unperturbed_model_unchanged_refuted :
  let B := exact_base in
  misfit 2 2 2 (cells [[7; 4]; [4; 3]]) (fun _ _ => 1) (aget (b_W B)) (aget (b_H B)) = 0 /\
  exists f w1 h1 q, perturbed B FOrder (b_U B) (fun _ => false) 1 1 10 0 = Trained f /\
    f_WH f = Some (w1, h1) /\ aget (b_H B) 0%nat 0%nat = 1 /\ aget h1 0%nat 0%nat = 15 / 11 /\ f_Qtrue f = Fin q /\ / 10 < q.
Proof.
  intros B. split; [unfold misfit, msum, Rsqr, B; cbn; lra|].
  destruct (C123_perturbed_run B 2 2 2 (cells [[7; 4]; [4; 3]]) (fun _ _ => 1) FOrder (fun _ => false) 1 1 10 0) as [_ D];
    try lia; try reflexivity; try (repeat split; fail).
  { intros i j Hi Hj. small i j Hi Hj; cbn; lra. }
  destruct D as (f & E & Hr & _); [unfold i8; lia|]. rewrite unit_unc in Hr.
  destruct Hr as (A & C & _ & Cv & _ & F).
  assert (N1 : length (f_hist f) = 1%nat).
  { destruct (f_conv f); [|rewrite C by reflexivity; reflexivity]. exfalso.
    destruct (proj1 Cv eq_refl) as (t & Ht & Ht' & _). unfold span in Ht'. change (Z.to_nat (10 - 1)) with 9%nat in Ht'. change (Z.to_nat 1) with 1%nat in Ht. lia. }
  rewrite N1 in F. change (reread (b_oV B) 2 2 (cells [[7; 4]; [4; 3]])) with (cells [[7; 4]; [4; 3]]) in F.
  change (reread FOrder 2 2 (fun _ _ : nat => 1)) with (fun _ _ : nat => 1) in F.
  set (V := cells [[7; 4]; [4; 3]]) in *. set (We := weights (fun _ _ => 1)) in *.
  set (W := rearranged 2 2 (aget (b_W B))) in *. set (H := (fun a j => lifted (rearranged 2 2 (aget (b_H B)) a j)) : mat) in *.
  assert (EWe : forall i j, We i j = 1) by (intros; unfold We, weights; field).
  assert (EH : H 0%nat 0%nat = 1 /\ H 0%nat 1%nat = 3 /\ H 1%nat 0%nat = 2 /\ H 1%nat 1%nat = 1) by (unfold H; repeat split; apply lifted_pos; cbn; lra).
  destruct EH as (H00 & H01 & H10 & H11).
  assert (EW : W 0%nat 0%nat = 1 /\ W 0%nat 1%nat = 1 /\ W 1%nat 0%nat = 2 /\ W 1%nat 1%nat = 1) by (unfold W; repeat split; reflexivity).
  destruct EW as (W00 & W01 & W10 & W11).
  set (H1 := (fun a j => H a j * (h_num 2 V We W a j / h_den 2 2 We W H a j)) : mat).
  assert (G : H1 0%nat 0%nat = 15 / 11 /\ H1 0%nat 1%nat = 5 / 3 /\ H1 1%nat 0%nat = 22 / 7 /\ H1 1%nat 1%nat = 7 / 11).
  { unfold H1, h_num, h_den, wev, mmul. cbn [rsum]. rewrite !EWe, H00, H01, H10, H11, W00, W01, W10, W11. unfold V, cells. cbn [nth].
    repeat split; field. }
  destruct G as (G00 & G01 & G10 & G11).
  rewrite (one_free 2 2 2 V We W H H1) in F; [| |reflexivity|].
  - destruct F as (w1 & h1 & P & F1 & _ & _ & _ & _ & F6 & _ & F8 & _). exists f, w1, h1. eexists. split; [exact E|]. split; [exact F1|].
    split; [reflexivity|]. split; [rewrite F6 by lia; exact G00|]. split; [exact F8|].
    unfold misfit, msum, Rsqr. cbn [rsum]. unfold w_num, w_den, wev, mmul. cbn [rsum]. rewrite !EWe, G00, G01, G10, G11, W00, W01, W10, W11. unfold V, cells. cbn [nth].
    lra.
  - intros a j Ha Hj. unfold h_den, wev, mmul. cbn [rsum]. rewrite !EWe, W00, W01, W10, W11.
    small a j Ha Hj; rewrite ?H00, ?H01, ?H10, ?H11, ?W00, ?W01, ?W10, ?W11; lra.
  - intros i a Hi Ha. unfold w_den, wev, mmul. cbn [rsum]. rewrite !EWe, G00, G01, G10, G11.
    small i a Hi Ha; rewrite ?W00, ?W01, ?W10, ?W11, ?G00, ?G01, ?G10, ?G11; lra.
Qed.
Print Assumptions C123_unperturbed_model_unchanged_refuted.

Example C123_instance :
  let B := exact_base in
  mall 2 2 (fun x => 0 <= x) (cells [[7; 4]; [4; 3]]) /\ no_empty 2 2 (cells [[7; 4]; [4; 3]]) /\ b_V B = data 2 2 (cells [[7; 4]; [4; 3]]) /\
  shaped 2 2 FOrder (b_W B) /\ shaped 2 2 FOrder (b_H B) /\ mall 2 2 (fun x => 0 < x) (aget (b_W B)) /\ i8 0 /\ ~ i8 128.
Proof.
  cbv zeta. split; [intros i j Hi Hj; small i j Hi Hj; cbn; lra|].
  split; [split; [intros i Hi|intros j Hj]; exists 0%nat; (split; [lia|]); [destruct i as [|[|i]]|destruct j as [|[|j]]]; try lia; cbn; lra|].
  split; [reflexivity|]. split; [repeat split|]. split; [repeat split|]. split; [intros i j Hi Hj; small i j Hi Hj; cbn; lra|].
  unfold i8. lia.
Qed.

Example C122_displaced_refit_example :=
  C122_displaced_refit wide_base 1 3 2 (fun _ _ => 1) (fun _ _ => 1) 0 1 7 (fun _ _ : nat => 1) (fun _ _ : nat => 1) (fun x => x) (fun _ => false) 1
    ltac:(lia) ltac:(lia) ltac:(lia) (proj1 (proj2 C122_instance)) eq_refl eq_refl (proj1 C122_instance) ltac:(lia) ltac:(lia).
Example C122_where_the_displacement_lands_example :=
  C122_where_the_displacement_lands 2 3 0 1 7 (aget (b_H wide_base)) ltac:(lia) ltac:(lia).
Example C122_refit_improves_example := fun ft =>
  C122_refit_improves wide_base 1 3 2 (fun _ _ => 1) (fun _ _ => 1) 0 1 7 (fun _ _ : nat => 1) (fun _ _ : nat => 1) (fun x => x) (fun _ => false) 1 ft
    ltac:(lia) ltac:(lia) ltac:(lia) (proj1 (proj2 C122_instance)) (proj1 (proj2 (proj2 C122_instance))) eq_refl eq_refl (proj1 C122_instance)
    ltac:(lia) ltac:(lia) eq_refl eq_refl.
Example C123_perturbed_run_example :=
  match C123_instance with conj a (conj _ (conj b (conj c (conj d _)))) =>
    C123_perturbed_run exact_base 2 2 2 (cells [[7; 4]; [4; 3]]) (fun _ _ => 2) FOrder (fun _ => false) 1 1 10 0
      ltac:(lia) ltac:(lia) ltac:(lia) a b c d end.
