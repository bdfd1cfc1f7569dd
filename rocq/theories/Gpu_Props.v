(** Theorems C89-C90 about the CUDA branch of the compiled engine
    (rust/lib.rs 218-258, 410-526, 550-590, 774-908, 944-978) and SA.train and
    BatchSA.train around it. *)
From Coq Require Import Reals List Bool ZArith Arith Lia Lra.
From Verif Require Import Base Fl Layout_Model Layout_Proofs Gpu_Model Batch_Model Batch_Proofs.
Import ListNotations.

Lemma binop_dt f a b c : binop f a b = Some c -> t_dt c = t_dt a.
Proof. unfold binop. destruct (_ && _); [|discriminate]. intros [= <-]. reflexivity. Qed.

Lemma q_gpu_f64 v u w h : t_dt v = F64 -> calculate_q_gpu v u w h = None.
Proof.
  intros Hv. unfold calculate_q_gpu.
  destruct (matmul w h) as [wh|]; [|reflexivity].
  destruct (tsub v wh) as [r|] eqn:Er; [|reflexivity].
  destruct (tdiv r u) as [x|] eqn:Ex; [|reflexivity].
  destruct (tmul x x) as [y|] eqn:Ey; [|reflexivity].
  apply binop_dt in Er, Ex, Ey. cbn. rewrite Ey, Ex, Er, Hv. reflexivity.
Qed.

Lemma loop_f64 upd v u delta cn alpha tick max_iter fuel i w h q ci ql full :
  t_dt v = F64 ->
  gpu_loop upd v u delta cn alpha tick max_iter (S fuel) i w h q ci ql full = None.
Proof.
  intros Hv. cbn [gpu_loop]. destruct (upd i w h) as [wh|]; [|reflexivity].
  rewrite q_gpu_f64 by exact Hv. reflexivity.
Qed.

Lemma gpu_none alg cpu v u we w h o :
  (0 < o_max_iter o)%Z -> entry_point alg true true cpu v u we w h o = None.
Proof.
  intros Hm. destruct (Z.to_nat (o_max_iter o)) as [|f] eqn:Ef; [lia|].
  destruct alg; cbn [entry_point andb]; unfold ls_gpu, ws_gpu, ls_nmf_update_gpu, ws_nmf_update_gpu;
    rewrite Ef; destruct (tmul _ _); try reflexivity; rewrite loop_f64; reflexivity.
Qed.

(** C89: both losses fail on whatever tensors the engine builds: the tensors are f64 and
    the scalar is read as f32. *)
Theorem C89_loss_always_fails : forall v u w h alpha, t_dt v = F64 ->
  calculate_q_gpu v u w h = None /\ calculate_q_robust_gpu v u w h alpha = None.
Proof.
  intros v u w h alpha Hv. split; [apply q_gpu_f64, Hv|]. unfold calculate_q_robust_gpu.
  destruct (matmul w h) as [wh|]; [|reflexivity]. destruct (tsub v wh) as [res|] eqn:E1; [|reflexivity].
  destruct (tdiv res u) as [sr|] eqn:E2; [|reflexivity]. cbv zeta.
  destruct (tdiv (tabs sr) _) as [ru0|]; [|reflexivity]. destruct (tmul (tsqrt ru0) u) as [ru|]; [|reflexivity].
  destruct (tdiv res ru) as [rr|]; [|reflexivity]. destruct (binop _ (tabs sr) _) as [mask|]; [|reflexivity].
  destruct (tmul (mkT _ _ _) _) as [x|] eqn:E3; [|reflexivity].
  apply binop_dt in E1, E2, E3. cbn in E3. cbn. rewrite E3, E2, E1, Hv. reflexivity.
Qed.
Print Assumptions C89_loss_always_fails.

(** C89: with a CUDA device and use_gpu, every run of at least one iteration
    fails: train returns False and the object is as it was, so an earlier
    result stays and a new object has no loss. *)
Theorem C89_gpu_training_always_fails :
  forall alg cpu qt qr v u we o s,
    (0 < o_max_iter o)%Z ->
    sa_train alg true true cpu qt qr v u we o s = (RFalse, s).
Proof. intros. unfold sa_train. rewrite gpu_none by assumption. reflexivity. Qed.
Print Assumptions C89_gpu_training_always_fails.

(** The same object on the same machine trains when use_gpu is off and the CPU
    engine succeeds: the failure is the GPU branch's alone. *)
Theorem C89_only_with_the_gpu :
  forall alg cpu qt qr v u we o s r cuda use_gpu,
    cuda = false \/ use_gpu = false ->
    cpu v u we (s_w s) (s_h s) o = Some r ->
    let res := sa_train alg cuda use_gpu cpu qt qr v u we o s in
    fst res = RNone /\ s_w (snd res) = rs_w r /\ s_h (snd res) = rs_h r /\
    s_qtrue (snd res) = Some (qt (rs_w r) (rs_h r)) /\
    s_qrobust (snd res) = Some (qr (rs_w r) (rs_h r)) /\
    s_conv (snd res) = rs_conv r /\ s_steps (snd res) = rs_ci r /\
    exists WH, s_wh (snd res) = Some WH /\
      forall i j, WH i j = mmul (a_cols (rs_w r)) (aget (rs_w r)) (aget (rs_h r)) i j.
Proof.
  intros alg cpu qt qr v u we o s r cuda use_gpu Hc Hr. unfold sa_train, entry_point.
  replace (use_gpu && cuda) with false by (destruct Hc as [-> | ->]; [symmetry; apply andb_false_r|reflexivity]).
  rewrite Hr. cbn. repeat split. eexists. split; reflexivity.
Qed.
Print Assumptions C89_only_with_the_gpu.

(** The LS-NMF update itself fails by its shapes unless samples, features and
    factors are equally many (rust/lib.rs:238-247 pass W and H transposed). *)
Definition f64_shaped (r c : nat) (t : tensor) : Prop := t_dt t = F64 /\ t_dims t = [r; c].

Lemma dims_eqb_refl d : dims_eqb d d = true.
Proof. unfold dims_eqb. destruct list_eq_dec; congruence. Qed.

Lemma dims2_eqb r c r' c' : dims_eqb [r; c] [r'; c'] = ((r =? r') && (c =? c'))%nat.
Proof.
  unfold dims_eqb. destruct list_eq_dec as [E|E].
  - injection E as -> ->. rewrite !Nat.eqb_refl. reflexivity.
  - symmetry. apply andb_false_iff. destruct (Nat.eqb_spec r r'), (Nat.eqb_spec c c'); auto; subst; congruence.
Qed.

Lemma binop_shape f r c r' c' a b : f64_shaped r c a -> f64_shaped r' c' b ->
  (r = r' /\ c = c' -> exists x, binop f a b = Some x /\ f64_shaped r c x) /\
  (~ (r = r' /\ c = c') -> binop f a b = None).
Proof.
  intros [Ha Ha'] [Hb Hb']. unfold binop. rewrite Ha, Hb, Ha', Hb', dims2_eqb. split.
  - intros [-> ->]. rewrite !Nat.eqb_refl. cbn. eexists. split; [reflexivity|]. split; reflexivity.
  - intros Hn. destruct (Nat.eqb_spec r r'), (Nat.eqb_spec c c'); cbn; auto. tauto.
Qed.

Lemma matmul_shape r c c' s a b : f64_shaped r c a -> f64_shaped c' s b ->
  (c = c' -> exists x, matmul a b = Some x /\ f64_shaped r s x) /\ (c <> c' -> matmul a b = None).
Proof.
  intros [Ha Ha'] [Hb Hb']. unfold matmul. rewrite Ha', Hb', Ha, Hb. split.
  - intros ->. rewrite Nat.eqb_refl. cbn. eexists. split; [reflexivity|]. split; reflexivity.
  - intros Hn. apply Nat.eqb_neq in Hn. rewrite Hn. reflexivity.
Qed.

Lemma transp_shape r c a : f64_shaped r c a -> exists x, transp a = Some x /\ f64_shaped c r x.
Proof.
  intros [Ha Ha']. unfold transp. rewrite Ha'. eexists. split; [reflexivity|]. split; [exact Ha|reflexivity].
Qed.

Lemma gpu_w_ok m n k we wev w h :
  f64_shaped m n we -> f64_shaped m n wev -> f64_shaped m k w -> f64_shaped k n h ->
  exists w', gpu_w we wev w h = Some w' /\ f64_shaped m k w'.
Proof.
  intros Hwe Hwev Hw Hh. unfold gpu_w.
  destruct (proj1 (matmul_shape _ _ _ _ _ _ Hw Hh) eq_refl) as [wh [-> Hwh]].
  destruct (transp_shape _ _ _ Hh) as [ht [-> Hht]].
  destruct (proj1 (matmul_shape _ _ _ _ _ _ Hwev Hht) eq_refl) as [num [-> Hnum]].
  destruct (proj1 (binop_shape Rmult _ _ _ _ _ _ Hwe Hwh) (conj eq_refl eq_refl)) as [x [E Hx]].
  unfold tmul at 1. rewrite E. clear E.
  destruct (proj1 (matmul_shape _ _ _ _ _ _ Hx Hht) eq_refl) as [den [-> Hden]].
  destruct (proj1 (binop_shape Rdiv _ _ _ _ _ _ Hnum Hden) (conj eq_refl eq_refl)) as [d [E Hd]].
  unfold tdiv. rewrite E.
  exact (proj1 (binop_shape Rmult _ _ _ _ _ _ Hw Hd) (conj eq_refl eq_refl)).
Qed.

Lemma ls_gpu_h_ok m n k we wev w h :
  f64_shaped m n we -> f64_shaped m n wev -> f64_shaped m k w -> f64_shaped k n h ->
  exists h', ls_gpu_h we wev w h = Some h' /\ f64_shaped k n h'.
Proof.
  intros Hwe Hwev Hw Hh. unfold ls_gpu_h.
  destruct (proj1 (matmul_shape _ _ _ _ _ _ Hw Hh) eq_refl) as [wh [-> Hwh]].
  destruct (transp_shape _ _ _ Hw) as [wt [-> Hwt]].
  destruct (proj1 (matmul_shape _ _ _ _ _ _ Hwt Hwev) eq_refl) as [num [-> Hnum]].
  destruct (proj1 (binop_shape Rmult _ _ _ _ _ _ Hwe Hwh) (conj eq_refl eq_refl)) as [x [E Hx]].
  unfold tmul at 1. rewrite E. clear E.
  destruct (proj1 (matmul_shape _ _ _ _ _ _ Hwt Hx) eq_refl) as [den [-> Hden]].
  destruct (proj1 (binop_shape Rdiv _ _ _ _ _ _ Hnum Hden) (conj eq_refl eq_refl)) as [d [E Hd]].
  unfold tdiv. rewrite E.
  exact (proj1 (binop_shape Rmult _ _ _ _ _ _ Hh Hd) (conj eq_refl eq_refl)).
Qed.

Theorem C89_ls_update_shapes :
  forall m n k we wev w h hold_h delay_h i,
    f64_shaped m n we -> f64_shaped m n wev -> f64_shaped k m w -> f64_shaped n k h ->
    (ls_gpu_update we wev hold_h delay_h i w h <> None <-> m = n /\ n = k).
Proof.
  intros m n k we wev w h hold delay i Hwe Hwev Hw Hh. split.
  - intros Hs. destruct (Nat.eq_dec m n) as [->|Hmn].
    + split; [reflexivity|]. destruct (Nat.eq_dec n k) as [|Hnk]; [assumption|]. exfalso. apply Hs.
      unfold ls_gpu_update.
      destruct (h_moves hold delay i).
      * unfold ls_gpu_h.
        destruct (proj1 (matmul_shape _ _ _ _ _ _ Hw Hh) eq_refl) as [wh [-> Hwh]].
        destruct (transp_shape _ _ _ Hw) as [wt [-> Hwt]].
        rewrite (proj2 (matmul_shape _ _ _ _ _ _ Hwt Hwev)) by auto. reflexivity.
      * unfold gpu_w.
        destruct (proj1 (matmul_shape _ _ _ _ _ _ Hw Hh) eq_refl) as [wh [-> Hwh]].
        destruct (transp_shape _ _ _ Hh) as [ht [-> Hht]].
        rewrite (proj2 (matmul_shape _ _ _ _ _ _ Hwev Hht)) by auto. reflexivity.
    + exfalso. apply Hs. unfold ls_gpu_update, ls_gpu_h, gpu_w.
      rewrite (proj2 (matmul_shape _ _ _ _ _ _ Hw Hh)) by auto. destruct (h_moves hold delay i); [reflexivity|].
      rewrite (proj2 (matmul_shape _ _ _ _ _ _ Hw Hh)) by auto. reflexivity.
  - intros [-> ->]. unfold ls_gpu_update.
    destruct (ls_gpu_h_ok _ _ _ _ _ _ _ Hwe Hwev Hw Hh) as [h' [E Hh']].
    destruct (h_moves hold delay i); [rewrite E|].
    + destruct (gpu_w_ok _ _ _ _ _ _ _ Hwe Hwev Hw Hh') as [w' [-> _]]. discriminate.
    + destruct (gpu_w_ok _ _ _ _ _ _ _ Hwe Hwev Hw Hh) as [w' [-> _]]. discriminate.
Qed.
Print Assumptions C89_ls_update_shapes.

(** The WS-NMF update succeeds exactly in the iterations that leave H alone:
    its H part multiplies a matrix by a one-element tensor (lines 849-850). *)
Theorem C89_ws_update_shapes :
  forall m n k we wev w h hold_h delay_h i,
    f64_shaped m n we -> f64_shaped m n wev -> f64_shaped m k w -> f64_shaped k n h ->
    (ws_gpu_update we wev hold_h delay_h i w h <> None <->
     hold_h = true /\ ~ (0 < delay_h < i)%Z).
Proof.
  intros m n k we wev w h hold delay i Hwe Hwev Hw Hh. unfold ws_gpu_update.
  destruct (gpu_w_ok _ _ _ _ _ _ _ Hwe Hwev Hw Hh) as [w' [-> Hw']].
  assert (Hn : ws_gpu_h we wev w' h = None).
  { unfold ws_gpu_h.
    assert (Ha : f64_shaped m k (tabs w')) by (destruct Hw'; split; assumption).
    destruct (proj1 (binop_shape Rminus _ _ _ _ _ _ Ha Hw') (conj eq_refl eq_refl)) as [x [E Hx]].
    unfold tsub. rewrite E. destruct Hx as [Hd Hs].
    unfold tmul, binop. rewrite Hd, Hs. cbn [from_f64 t_dt t_dims dtype_eqb andb].
    unfold dims_eqb. destruct list_eq_dec as [Hc|]; [discriminate|reflexivity]. }
  unfold h_moves. rewrite Hn.
  destruct hold; cbn [negb orb].
  - destruct (0 <? delay)%Z eqn:E1, (delay <? i)%Z eqn:E2; cbn [andb];
      (split; [intros Hs|intros [_ Hs]]); try discriminate; try congruence;
      try (split; [reflexivity|]); try (apply Z.ltb_lt in E1, E2; lia);
      try (apply Z.ltb_ge in E1; lia); try (apply Z.ltb_ge in E2; lia).
  - split; [intros Hs; congruence|intros [Hs _]; discriminate].
Qed.
Print Assumptions C89_ws_update_shapes.

(** C89: a batch of GPU models reports failure and has no results. *)
Definition gpu_fit {X} alg cpu qt qr v u we (opt : Z -> opts) (init : Z -> mats X -> mats X -> sa_state)
  : Z -> mats X -> mats X -> Z -> nat -> option sa_state :=
  fun seed Hm Wm delay _ => Some (snd (sa_train alg true true cpu qt qr v u we (opt delay) (init seed Hm Wm))).
Definition qr_attr (m : sa_state) : option fl := option_map Fin (s_qrobust m).
Definition qt_attr (m : sa_state) : option fl := option_map Fin (s_qtrue m).

Theorem C89_gpu_batch_fails :
  forall {X} alg cpu qt qr v u we opt (init : Z -> mats X -> mats X -> sa_state)
         robust verbose n draw Hm Wm delay limit dur sched s,
    (forall d, (0 < o_max_iter (opt d))%Z) ->
    (forall x y z, s_qtrue (init x y z) = None /\ s_qrobust (init x y z) = None) ->
    (1 <= n)%nat -> (forall i, (1 <= i <= n)%nat -> In i sched) ->
    let fit := gpu_fit alg cpu qt qr v u we opt init in
    seq_train qr_attr qt_attr fit robust verbose n draw Hm Wm delay limit dur s = (false, mkB [] (b_best s)) /\
    par_train qr_attr qt_attr fit robust verbose n draw Hm Wm delay sched s = (false, s).
Proof.
  intros X alg cpu qt qr v u we opt init robust verbose n draw Hm Wm delay limit dur sched s Hm0 Hi Hn Hs fit.
  assert (Hfit : forall seed a b d i, exists sa, fit seed a b d i = Some sa /\
                   sel_q qr_attr qt_attr robust sa = None).
  { intros seed a b d i. exists (init seed a b). split.
    - unfold fit, gpu_fit. rewrite C89_gpu_training_always_fails by apply Hm0. reflexivity.
    - destruct (Hi seed a b) as [H1 H2]. unfold sel_q, qr_attr, qt_attr. rewrite H1, H2.
      destruct robust; reflexivity. }
  destruct n as [|n]; [lia|]. split.
  - unfold seq_train. cbn [seq_loop]. destruct (Hfit (draw (1 - 1)%nat) Hm Wm (-1)%Z 1%nat) as [sa [-> Hq]].
    destruct (over_limit limit (dur 1%nat)); [reflexivity|]. rewrite Hq. reflexivity.
  - rewrite par_train_spec by exact Hs.
    destruct (all_some (map (trained fit draw Hm Wm delay) (seq 1 (S n)))) as [ms|] eqn:Em; [|reflexivity].
    cbn [seq map all_some] in Em.
    destruct (trained fit draw Hm Wm delay 1) as [m1|] eqn:E1; [|discriminate].
    destruct (all_some (map (trained fit draw Hm Wm delay) (seq 2 n))) as [ms'|]; [|discriminate].
    injection Em as <-. cbn [map all_some].
    unfold trained in E1. destruct (par_sel Hm 1); [|discriminate]. destruct (par_sel Wm 1); [|discriminate].
    destruct (Hfit (draw (1 - 1)%nat) m m0 delay 1%nat) as [sa [Ef Hq]].
    rewrite E1 in Ef. injection Ef as ->. rewrite Hq. reflexivity.
Qed.
Print Assumptions C89_gpu_batch_fails.

(** A square case in which every update succeeds and only the loss fails, and
    the same run on the CPU branch with an engine returning its inputs. *)
Definition ex_arr (r c : nat) : arr R := mkArr r c COrder (fun p => INR (S p)).
Definition ex_opts : opts := mkOpts 5 (/ 10) 2 4 false (-1) (fun _ => false).
Definition ex_cpu : engine := fun _ _ _ w h _ => Some (mkRes w h 0 true 1 [3; 2]%R).
Definition ex_sa : sa_state := mkSA (ex_arr 2 2) (ex_arr 2 2) None None None false 0 None.
Example C89_instance :
  sa_train LS true true ex_cpu (fun _ _ => 1%R) (fun _ _ => 1%R) (ex_arr 2 2) (ex_arr 2 2) (ex_arr 2 2) ex_opts ex_sa
    = (RFalse, ex_sa) /\
  ls_gpu_update (tensor_of (ex_arr 2 2)) (tensor_of (ex_arr 2 2)) false (-1) 0
    (tensor_of_t (ex_arr 2 2)) (tensor_of_t (ex_arr 2 2)) <> None /\
  fst (sa_train LS false true ex_cpu (fun _ _ => 1%R) (fun _ _ => 1%R) (ex_arr 2 2) (ex_arr 2 2) (ex_arr 2 2)
         ex_opts ex_sa) = RNone.
Proof.
  split; [|split].
  - apply C89_gpu_training_always_fails. reflexivity.
  - apply (C89_ls_update_shapes 2 2 2); try (split; reflexivity).
  - reflexivity.
Qed.

(** C90: a GPU run of no iterations returns Q = 0, not converged.  LS-NMF gives
    back W and H; WS-NMF gives them back re-read column by column. *)
Lemma zero_iter_ls v u we w h o :
  a_rows v = a_rows we -> a_cols v = a_cols we -> (o_max_iter o <= 0)%Z ->
  ls_gpu v u we w h o =
    Some (mkRes (mkArr (a_rows w) (a_cols w) FOrder (fun p => aget w (p mod a_rows w) (p / a_rows w)))
                (mkArr (a_rows h) (a_cols h) FOrder (fun p => aget h (p mod a_rows h) (p / a_rows h)))
                0 false 0 []).
Proof.
  intros Hr Hc Hm. unfold ls_gpu, ls_nmf_update_gpu.
  unfold tmul, binop. cbn [tensor_of from_f64 t_dt t_dims dtype_eqb].
  rewrite Hr, Hc, dims_eqb_refl. cbn [andb].
  replace (Z.to_nat (o_max_iter o)) with 0%nat by lia. cbn [gpu_loop].
  unfold to_results. cbn. unfold back. cbn. rewrite !(Nat.mul_comm (a_cols _)), !Nat.eqb_refl. reflexivity.
Qed.

Lemma zero_iter_ws v u we w h o :
  a_rows v = a_rows we -> a_cols v = a_cols we -> (o_max_iter o <= 0)%Z ->
  ws_gpu v u we w h o =
    Some (mkRes (mkArr (a_rows w) (a_cols w) FOrder (fun p => aget w (p / a_cols w) (p mod a_cols w)))
                (mkArr (a_rows h) (a_cols h) FOrder (fun p => aget h (p / a_cols h) (p mod a_cols h)))
                0 false 0 []).
Proof.
  intros Hr Hc Hm. unfold ws_gpu, ws_nmf_update_gpu.
  unfold tmul, binop. cbn [tensor_of from_f64 t_dt t_dims dtype_eqb].
  rewrite Hr, Hc, dims_eqb_refl. cbn [andb].
  replace (Z.to_nat (o_max_iter o)) with 0%nat by lia. cbn [gpu_loop].
  unfold to_results. cbn. unfold back. cbn. rewrite !Nat.eqb_refl. reflexivity.
Qed.

Theorem C90_ls_zero_iterations :
  forall cpu qt qr v u we o s,
    a_rows v = a_rows we -> a_cols v = a_cols we -> (o_max_iter o <= 0)%Z ->
    let res := sa_train LS true true cpu qt qr v u we o s in
    let s' := snd res in
    fst res = RNone /\ s_conv s' = false /\ s_steps s' = 0%Z /\ s_ql s' = Some [] /\
    a_rows (s_w s') = a_rows (s_w s) /\ a_cols (s_w s') = a_cols (s_w s) /\
    a_rows (s_h s') = a_rows (s_h s) /\ a_cols (s_h s') = a_cols (s_h s) /\
    (forall i j, (i < a_rows (s_w s))%nat -> aget (s_w s') i j = aget (s_w s) i j) /\
    (forall i j, (i < a_rows (s_h s))%nat -> aget (s_h s') i j = aget (s_h s) i j).
Proof.
  intros cpu qt qr v u we o s Hr Hc Hm res s'. subst res s'.
  unfold sa_train. cbn [entry_point andb]. rewrite zero_iter_ls by assumption. cbn.
  repeat split; intros i j Hi; cbn [aget a_order a_rows a_cols a_buf];
    rewrite Nat.add_comm, Nat.mod_add, Nat.mod_small, Nat.div_add, Nat.div_small by lia; reflexivity.
Qed.
Print Assumptions C90_ls_zero_iterations.

Theorem C90_ws_zero_iterations :
  forall cpu qt qr v u we o s,
    a_rows v = a_rows we -> a_cols v = a_cols we -> (o_max_iter o <= 0)%Z ->
    let res := sa_train WS true true cpu qt qr v u we o s in
    let s' := snd res in
    fst res = RNone /\ s_conv s' = false /\ s_steps s' = 0%Z /\ s_ql s' = Some [] /\
    a_rows (s_w s') = a_rows (s_w s) /\ a_cols (s_w s') = a_cols (s_w s) /\
    a_rows (s_h s') = a_rows (s_h s) /\ a_cols (s_h s') = a_cols (s_h s) /\
    (forall i j, aget (s_w s') i j =
       aget (s_w s) ((j * a_rows (s_w s) + i) / a_cols (s_w s)) ((j * a_rows (s_w s) + i) mod a_cols (s_w s))) /\
    (forall i j, aget (s_h s') i j =
       aget (s_h s) ((j * a_rows (s_h s) + i) / a_cols (s_h s)) ((j * a_rows (s_h s) + i) mod a_cols (s_h s))).
Proof.
  intros cpu qt qr v u we o s Hr Hc Hm res s'. subst res s'.
  unfold sa_train. cbn [entry_point andb]. rewrite zero_iter_ws by assumption. cbn. repeat split.
Qed.
Print Assumptions C90_ws_zero_iterations.

(** "A run of no iterations leaves the model as it was" fails for WS-NMF. *)
Theorem C90_ws_unchanged_refuted :
  exists cpu qt qr v u we o s i j,
    (o_max_iter o <= 0)%Z /\ (i < a_rows (s_w s))%nat /\ (j < a_cols (s_w s))%nat /\
    aget (s_w (snd (sa_train WS true true cpu qt qr v u we o s))) i j <> aget (s_w s) i j.
Proof.
  exists ex_cpu, (fun _ _ => 1%R), (fun _ _ => 1%R), (ex_arr 2 2), (ex_arr 2 2), (ex_arr 2 2),
    (mkOpts 0 (/ 10) 2 4 false (-1) (fun _ => false)), ex_sa, 0%nat, 1%nat.
  split; [cbn; lia|]. split; [cbn; lia|]. split; [cbn; lia|].
  destruct (C90_ws_zero_iterations ex_cpu (fun _ _ => 1%R) (fun _ _ => 1%R) (ex_arr 2 2) (ex_arr 2 2) (ex_arr 2 2)
    (mkOpts 0 (/ 10) 2 4 false (-1) (fun _ => false)) ex_sa eq_refl eq_refl ltac:(cbn; lia))
    as (_ & _ & _ & _ & _ & _ & _ & _ & Hw & _).
  rewrite Hw. cbn. lra.
Qed.
Print Assumptions C90_ws_unchanged_refuted.
Example C90_ls_zero_iterations_example :=
  C90_ls_zero_iterations ex_cpu (fun _ _ => 1%R) (fun _ _ => 1%R) (ex_arr 2 2) (ex_arr 2 2) (ex_arr 2 2) (mkOpts 0 (/ 10) 2 4 false (-1) (fun _ => false)) ex_sa eq_refl eq_refl ltac:(cbn; lia).
Example C90_ws_zero_iterations_example :=
  C90_ws_zero_iterations ex_cpu (fun _ _ => 1%R) (fun _ _ => 1%R) (ex_arr 2 2) (ex_arr 2 2) (ex_arr 2 2) (mkOpts 0 (/ 10) 2 4 false (-1) (fun _ => false)) ex_sa eq_refl eq_refl ltac:(cbn; lia).
Example C89_loss_always_fails_example :=
  C89_loss_always_fails (tensor_of (ex_arr 2 2)) (tensor_of (ex_arr 2 2)) (tensor_of (ex_arr 2 2)) (tensor_of (ex_arr 2 2)) 4 eq_refl.
Example C89_gpu_training_always_fails_example :=
  C89_gpu_training_always_fails WS ex_cpu (fun _ _ => 1%R) (fun _ _ => 1%R) (ex_arr 2 3) (ex_arr 2 3) (ex_arr 2 3) ex_opts ex_sa ltac:(cbn; lia).
Example C89_only_with_the_gpu_example :=
  C89_only_with_the_gpu LS ex_cpu (fun _ _ => 1%R) (fun _ _ => 1%R) (ex_arr 2 2) (ex_arr 2 2) (ex_arr 2 2) ex_opts ex_sa _ false true (or_introl eq_refl) eq_refl.
Example C89_ls_update_shapes_example :=
  C89_ls_update_shapes 3 3 2 (tensor_of (ex_arr 3 3)) (tensor_of (ex_arr 3 3)) (tensor_of (ex_arr 2 3)) (tensor_of (ex_arr 3 2)) false (-1) 0
    (conj eq_refl eq_refl) (conj eq_refl eq_refl) (conj eq_refl eq_refl) (conj eq_refl eq_refl).
Example C89_ws_update_shapes_example :=
  C89_ws_update_shapes 3 4 2 (tensor_of (ex_arr 3 4)) (tensor_of (ex_arr 3 4)) (tensor_of (ex_arr 3 2)) (tensor_of (ex_arr 2 4)) true (-1) 0
    (conj eq_refl eq_refl) (conj eq_refl eq_refl) (conj eq_refl eq_refl) (conj eq_refl eq_refl).
Example C89_gpu_batch_fails_example :=
  C89_gpu_batch_fails (X := unit) LS ex_cpu (fun _ _ => 1%R) (fun _ _ => 1%R) (ex_arr 2 2) (ex_arr 2 2) (ex_arr 2 2) (fun _ => ex_opts) (fun _ _ _ => ex_sa)
    true false 2.

Example C90_instance :
  let s := snd (sa_train WS true true ex_cpu (fun _ _ => 1%R) (fun _ _ => 1%R) (ex_arr 2 2) (ex_arr 2 2)
             (ex_arr 2 2) (mkOpts 0 (/ 10) 2 4 false (-1) (fun _ => false)) ex_sa) in
  (aget (s_w s) 0 0, aget (s_w s) 0 1, aget (s_w s) 1 0, aget (s_w s) 1 1) = (INR 1, INR 3, INR 2, INR 4).
Proof.
  destruct (C90_ws_zero_iterations ex_cpu (fun _ _ => 1%R) (fun _ _ => 1%R) (ex_arr 2 2) (ex_arr 2 2) (ex_arr 2 2)
    (mkOpts 0 (/ 10) 2 4 false (-1) (fun _ => false)) ex_sa eq_refl eq_refl ltac:(cbn; lia))
    as (_ & _ & _ & _ & _ & _ & _ & _ & Hw & _).
  cbv zeta. rewrite !Hw. reflexivity.
Qed.
