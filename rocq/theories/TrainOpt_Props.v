(** Property C150: which arguments of [SA.train] matter. *)
From Coq Require Import Reals ZArith Lra Lia List Bool.
From Verif Require Import Base Fl Metrics_Model LSNMF_Model Train_Model Train_Spec Train_Proofs TrainOpt_Model.
Import ListNotations.
Local Open Scope nat_scope.

(** ** Vocabulary *)
(** Equal but for robust_mode and robust_n. *)
Definition same_but_robust {T} (o o' : opts T) : Prop :=
  max_iter o = max_iter o' /\ delta o = delta o' /\ cn o = cn o' /\ model_i o = model_i o' /\
  hold_h o = hold_h o' /\ delay_h o = delay_h o' /\ update_step o = update_step o'.
(** The recorded settings, without the flag robust_mode. *)
Definition recorded (me : meta) : Z * R * Z * Z := (me_max_iter me, me_delta me, me_cn me, me_model_i me).
(** Two models with the same factors and everything else but Q(robust) and the recorded flag. *)
Definition same_fit {T F} (s s' : model T F) : Prop :=
  fac s = fac s' /\ step s = step s' /\ optimized s = optimized s' /\ validated s = validated s' /\
  converged s = converged s' /\ steps s = steps s' /\ number s = number s' /\ q_t s = q_t s' /\ hist s = hist s' /\
  option_map recorded (metadata s) = option_map recorded (metadata s').
Definition same_kind {T F} (a b : outcome T F) : Prop :=
  match a, b with Done _, Done _ | Refused _, Refused _ | Raises _, Raises _ => True | _, _ => False end.
(** ... or with another update function installed. *)
Definition same_result {T F} (s s' : model T F) : Prop :=
  fac s = fac s' /\ optimized s = optimized s' /\ validated s = validated s' /\ converged s = converged s' /\
  steps s = steps s' /\ number s = number s' /\ q_t s = q_t s' /\ hist s = hist s' /\
  option_map recorded (metadata s) = option_map recorded (metadata s').
(** Equal but for robust_mode, robust_n, robust_alpha and update_step. *)
Definition same_but_unused {T} (o o' : opts T) : Prop :=
  max_iter o = max_iter o' /\ delta o = delta o' /\ cn o = cn o' /\ model_i o = model_i o' /\
  hold_h o = hold_h o' /\ delay_h o = delay_h o'.

Lemma py_isnan_ext {T F} (upd : bool -> T -> T) (loss : T -> F) below isnan isnan' cn delay :
  (forall st, isnan st = isnan' st) ->
  forall rem i hold st prior h n,
  py_loop upd loss below isnan cn delay rem i hold st prior h n = py_loop upd loss below isnan' cn delay rem i hold st prior h n.
Proof.
  intros E rem. induction rem as [|rem IH]; intros; [reflexivity|]. cbn [py_loop]. rewrite E.
  destruct (isnan' _); [reflexivity|]. destruct (cn <? _)%Z; [|apply IH].
  destruct (tl _); [reflexivity|]. destruct (below _ _); [reflexivity|apply IH].
Qed.

Section S.
  Context {T F : Type} (qtrue : T -> F) (qrob : R -> T -> F) (isnan : F -> bool) (below : R -> F -> F -> bool).
  Context (read : T -> T) (native : bool -> T -> T) (nloss : T -> F) (back : T -> T).
  Notation train := (train qtrue qrob isnan below read native nloss back).
  Notation session := (session qtrue qrob isnan below read native nloss back).

  Lemma same_fit_refl (s : model T F) : same_fit s s.
  Proof. repeat split. Qed.

  Lemma one_call tick (s s' : model T F) (o o' : opts T) :
    same_fit s s' -> same_but_robust o o' ->
    (optimized s = true \/ forall st, isnan (qtrue st) || isnan (qrob (robust_alpha o) st) = isnan (qtrue st) || isnan (qrob (robust_alpha o') st)) ->
    same_kind (train tick s o) (train tick s' o') /\ same_fit (left_by (train tick s o)) (left_by (train tick s' o')).
  Proof.
    intros (E1 & E2 & E3 & E4 & E5 & E6 & E7 & E8 & E9 & E10) (P1 & P2 & P3 & P4 & P5 & P6 & P7) Hn.
    destruct s as [f1 st1 op1 va1 co1 sp1 nu1 qt1 qr1 hi1 me1], s' as [f2 st2 op2 va2 co2 sp2 nu2 qt2 qr2 hi2 me2].
    destruct o as [a1 a2 a3 a4 a5 a6 a7 a8 a9 a10], o' as [b1 b2 b3 b4 b5 b6 b7 b8 b9 b10].
    cbn in *. subst. unfold TrainOpt_Model.train, install, accepted, finish. cbn.
    destruct va2; [|split; [exact I|repeat split; assumption]]. cbn.
    assert (Q : forall stp : bool -> T -> T, let pp := fun al => py_train stp qtrue (below b2) (fun st => isnan (qtrue st) || isnan (qrob al st)) b3 b9 b8 b1 f2 in
              op2 = false -> pp a7 = pp b7).
    { intros stp pp Hop. unfold pp, py_train. apply py_isnan_ext. destruct Hn as [Hn|Hn]; [congruence|exact Hn]. }
    destruct b10; cbn; (destruct op2; [destruct (_ && _ && _ && _)%bool; cbn; (split; [exact I|repeat split; assumption])|]);
      rewrite Q by reflexivity; destruct (pr_stop _); cbn; (split; [exact I|repeat split; assumption]).
  Qed.

  Lemma optimized_kept tick (s : model T F) (o : opts T) :
    optimized (left_by (train tick s o)) = optimized s /\ validated (left_by (train tick s o)) = validated s.
  Proof.
    unfold TrainOpt_Model.train, install, finish. destruct (validated s) eqn:V; cbn; [|split; [reflexivity|exact V]].
    destruct (update_step o); cbn; destruct (optimized s) eqn:E; cbn; try (destruct (accepted o); cbn; auto);
      destruct (pr_stop _); cbn; auto.
  Qed.

  Lemma calls (s s' : model T F) : forall (os os' : list (opts T)) tick,
    same_fit s s' -> Forall2 same_but_robust os os' ->
    (optimized s = true \/
     Forall2 (fun o o' => forall st, isnan (qtrue st) || isnan (qrob (robust_alpha o) st) = isnan (qtrue st) || isnan (qrob (robust_alpha o') st)) os os') ->
    same_fit (session tick s os) (session tick s' os').
  Proof.
    intros os. revert s s'. induction os as [|o os IH]; intros s s' os' tick E HF Hn; inversion HF as [|? o' ? os2 Ho HF']; subst.
    - exact E.
    - cbn [TrainOpt_Model.session].
      assert (Hn1 : optimized s = true \/ forall st, isnan (qtrue st) || isnan (qrob (robust_alpha o) st) = isnan (qtrue st) || isnan (qrob (robust_alpha o') st)).
      { destruct Hn as [Hn|Hn]; [left; exact Hn|right]. inversion Hn; assumption. }
      apply IH; [|exact HF'|].
      + apply (one_call (tick 0) s s' o o' E Ho Hn1).
      + rewrite (proj1 (optimized_kept (tick 0) s o)). destruct Hn as [Hn|Hn]; [left; exact Hn|right]. inversion Hn; assumption.
  Qed.
End S.

(** robust_mode and robust_n have no effect on any call of a session, with either engine,
    except for the flag recorded in the metadata; Q(robust) is the same as well. *)
Theorem C150_robust_mode_ignored :
  forall (T F : Type) (qtrue : T -> F) (qrob : R -> T -> F) (isnan : F -> bool) (below : R -> F -> F -> bool)
    (read : T -> T) (native : bool -> T -> T) (nloss : T -> F) (back : T -> T)
    (tick : nat -> nat -> bool) (s : model T F) (os os' : list (opts T)),
  Forall2 (fun o o' => same_but_robust o o' /\ robust_alpha o = robust_alpha o') os os' ->
  let a := session qtrue qrob isnan below read native nloss back tick s os in
  let b := session qtrue qrob isnan below read native nloss back tick s os' in
  same_fit a b /\ q_r a = q_r b.
Proof.
  intros T F qtrue qrob isnan below read native nloss back tick s os os' HF a b.
  assert (G : forall os os' tick s s', Forall2 (fun o o' => same_but_robust o o' /\ robust_alpha o = robust_alpha o') os os' ->
            same_fit s s' -> q_r s = q_r s' ->
            same_fit (session qtrue qrob isnan below read native nloss back tick s os) (session qtrue qrob isnan below read native nloss back tick s' os') /\
            q_r (session qtrue qrob isnan below read native nloss back tick s os) = q_r (session qtrue qrob isnan below read native nloss back tick s' os')).
  { clear. intros os. induction os as [|o os IH]; intros os' tick s s' HF E Q; inversion HF as [|? o' ? os2 [Ho Ha] HF']; subst; [split; assumption|].
    cbn [session].
    destruct (one_call qtrue qrob isnan below read native nloss back (tick 0) s s' o o' E Ho) as [K1 K2].
    { right. rewrite Ha. reflexivity. }
    apply IH; [exact HF'|exact K2|].
    destruct E as (E1 & E2 & E3 & E4 & E5 & E6 & E7 & E8 & E9 & E10), Ho as (P1 & P2 & P3 & P4 & P5 & P6 & P7).
    destruct s as [f1 st1 op1 va1 co1 sp1 nu1 qt1 qr1 hi1 me1], s' as [f2 st2 op2 va2 co2 sp2 nu2 qt2 qr2 hi2 me2].
    destruct o as [a1 a2 a3 a4 a5 a6 a7 a8 a9 a10], o' as [b1 b2 b3 b4 b5 b6 b7 b8 b9 b10]. cbn in *. subst.
    unfold train, install, accepted, finish. cbn. destruct va2; [|reflexivity]. cbn.
    destruct b10; cbn; (destruct op2; [destruct (_ && _ && _ && _)%bool; reflexivity|]); destruct (pr_stop _); reflexivity. }
  apply G; [exact HF|apply same_fit_refl|reflexivity].
Qed.
Print Assumptions C150_robust_mode_ignored.

(** robust_alpha does not matter for the fit either: with the compiled engine never; with the
    Python engine unless one cut-off makes Q(robust) undefined where the other does not.
    Each call that completes reports Q(true) and Q(robust) of its factors, the latter with
    its own cut-off. *)
Theorem C150_cutoff_only_reported :
  forall (T F : Type) (qtrue : T -> F) (qrob : R -> T -> F) (isnan : F -> bool) (below : R -> F -> F -> bool)
    (read : T -> T) (native : bool -> T -> T) (nloss : T -> F) (back : T -> T)
    (tick : nat -> nat -> bool) (s : model T F) (os os' : list (opts T)),
  Forall2 same_but_robust os os' ->
  (optimized s = true \/
   Forall2 (fun o o' => forall st, isnan (qrob (robust_alpha o) st) = isnan (qrob (robust_alpha o') st)) os os') ->
  same_fit (session qtrue qrob isnan below read native nloss back tick s os)
           (session qtrue qrob isnan below read native nloss back tick s os') /\
  forall tk o s', train qtrue qrob isnan below read native nloss back tk s o = Done s' ->
    q_t s' = Some (qtrue (fac s')) /\ q_r s' = Some (qrob (robust_alpha o) (fac s')).
Proof.
  intros T F qtrue qrob isnan below read native nloss back tick s os os' HF Hn. split.
  - apply calls; [apply same_fit_refl|exact HF|]. destruct Hn as [Hn|Hn]; [left; exact Hn|right].
    clear -Hn. induction Hn as [|o o' os os' H HF IH]; constructor; [|exact IH]. intros st. rewrite H. reflexivity.
  - intros tk o s' E. unfold train in E. destruct (validated s); cbn [negb] in E; [|discriminate E].
    destruct (optimized (install s o)).
    + destruct (accepted o); cbn [negb] in E; [|discriminate E]. injection E as <-. split; reflexivity.
    + destruct (pr_stop _); try discriminate E; injection E as <-; split; reflexivity.
Qed.
Print Assumptions C150_cutoff_only_reported.

(** A replacement update given to a model with the compiled engine changes nothing in any
    call of a session; it is only stored.  So are all robust settings. *)
Theorem C150_replacement_compiled :
  forall (T F : Type) (qtrue : T -> F) (qrob : R -> T -> F) (isnan : F -> bool) (below : R -> F -> F -> bool)
    (read : T -> T) (native : bool -> T -> T) (nloss : T -> F) (back : T -> T)
    (tick : nat -> nat -> bool) (os os' : list (opts T)) (s : model T F),
  optimized s = true -> Forall2 same_but_unused os os' ->
  same_result (session qtrue qrob isnan below read native nloss back tick s os)
              (session qtrue qrob isnan below read native nloss back tick s os').
Proof.
  intros T F qtrue qrob isnan below read native nloss back tick os os' s Hop HF.
  assert (G : forall os os', Forall2 same_but_unused os os' -> forall tick s s', optimized s = true -> same_result s s' ->
            same_result (session qtrue qrob isnan below read native nloss back tick s os) (session qtrue qrob isnan below read native nloss back tick s' os')).
  { clear. intros os os' HF. induction HF as [|o o' os os' Ho HF IH]; intros tick s s' Hop E; [exact E|].
    cbn [session]. apply IH; [rewrite (proj1 (optimized_kept qtrue qrob isnan below read native nloss back (tick 0) s o)); exact Hop|].
    destruct E as (E1 & E3 & E4 & E5 & E6 & E7 & E8 & E9 & E10), Ho as (P1 & P2 & P3 & P4 & P5 & P6).
    destruct s as [f1 st1 op1 va1 co1 sp1 nu1 qt1 qr1 hi1 me1], s' as [f2 st2 op2 va2 co2 sp2 nu2 qt2 qr2 hi2 me2].
    destruct o as [a1 a2 a3 a4 a5 a6 a7 a8 a9 a10], o' as [b1 b2 b3 b4 b5 b6 b7 b8 b9 b10]. cbn in *. subst.
    unfold train, install, accepted, finish. cbn. destruct va2; [|repeat split; assumption]. cbn.
    destruct a10, b10; cbn; destruct (_ && _ && _ && _)%bool; cbn; repeat split; assumption. }
  apply G; [exact HF|exact Hop|repeat split].
Qed.
Print Assumptions C150_replacement_compiled.

(** The replacement given last (in this call or an earlier one) is the one in force. *)
Definition last_replacement {T} (deflt : bool -> T -> T) (os : list (opts T)) : bool -> T -> T :=
  fold_left (fun f o => match update_step o with Some g => g | None => f end) os deflt.

(** It stays installed, so that with the Python engine every later call uses it too. *)
Theorem C150_replacement_stays :
  forall (T F : Type) (qtrue : T -> F) (qrob : R -> T -> F) (isnan : F -> bool) (below : R -> F -> F -> bool)
    (read : T -> T) (native : bool -> T -> T) (nloss : T -> F) (back : T -> T)
    (tick : nat -> nat -> bool) (tk : nat -> bool) (os : list (opts T)) (o : opts T) (s : model T F),
  validated s = true ->
  let before := session qtrue qrob isnan below read native nloss back tick s os in
  let after := train qtrue qrob isnan below read native nloss back tk before o in
  step (left_by after) = last_replacement (step s) (os ++ [o]) /\
  (optimized s = false ->
   fac (left_by after) =
   pr_state (py_train (last_replacement (step s) (os ++ [o])) qtrue (below (delta o))
               (fun st => isnan (qtrue st) || isnan (qrob (robust_alpha o) st))
               (cn o) (delay_h o) (hold_h o) (max_iter o) (fac before))).
Proof.
  intros T F qtrue qrob isnan below read native nloss back tick tk os o s Hv before after.
  assert (ST : forall tk s o, validated s = true ->
            step (left_by (train qtrue qrob isnan below read native nloss back tk s o)) = match update_step o with Some g => g | None => step s end).
  { clear. intros tk s o V. unfold train, install, finish. rewrite V. cbn.
    destruct (update_step o); cbn; destruct (optimized s); cbn; try (destruct (accepted o); reflexivity); destruct (pr_stop _); reflexivity. }
  assert (B : validated before = true /\ optimized before = optimized s /\ step before = last_replacement (step s) os).
  { unfold before, last_replacement. clear o after before. revert tick s Hv. induction os as [|o os IH]; intros tick s Hv; [repeat split; exact Hv|].
    cbn [session fold_left]. destruct (optimized_kept qtrue qrob isnan below read native nloss back (tick 0) s o) as [K1 K2].
    destruct (IH (fun c => tick (S c)) (left_by (train qtrue qrob isnan below read native nloss back (tick 0) s o)) ltac:(congruence)) as (A & C & D).
    split; [exact A|]. split; [congruence|]. rewrite D, ST by exact Hv. reflexivity. }
  destruct B as (B1 & B2 & B3).
  assert (L : last_replacement (step s) (os ++ [o]) = match update_step o with Some g => g | None => last_replacement (step s) os end).
  { unfold last_replacement. rewrite fold_left_app. reflexivity. }
  split.
  - unfold after. rewrite ST by exact B1. rewrite L, B3. reflexivity.
  - intros Hop. rewrite L, <- B3. unfold after, train. rewrite B1. cbn [negb].
    unfold install. destruct (update_step o) as [g|]; cbn [optimized step fac]; rewrite B2, Hop; cbn [step fac];
      destruct (pr_stop _); reflexivity.
Qed.
Print Assumptions C150_replacement_stays.

(** The documented robust mode (sa.py:348-354, 366-375): the weights come from the
    uncertainties enlarged by the square root of scaled residual over cut-off. *)
Definition documented_unc (k : nat) (alpha : R) (V U W H : mat) : mat :=
  fun i j => let s := Rabs ((V i j - mmul k W H i j) / U i j) in
             if Rlt_dec alpha s then (U i j * sqrt (s / alpha))%R else U i j.
Definition documented_step (m n k : nat) (alpha : R) (V U : mat) (hold : bool) (o : option (mat * mat)) : option (mat * mat) :=
  match o with
  | None => None
  | Some (W, H) => ls_update m n k V (weights (documented_unc k alpha V U W H)) hold (W, H)
  end.

(** Neither engine runs it: one sample with the values 1 and 100, profile 1, 1, held. *)
Theorem C150_robust_updates_refuted :
  exists (V U W H : mat) (o : opts (option (mat * mat))),
    robust_mode o = true /\ robust_n o = 0%Z /\ robust_alpha o = 4%R /\ max_iter o = 1%Z /\ hold_h o = true /\
    forall (optimize : bool) (tick : nat -> bool),
    let s := mkModel (Some (W, H)) (ls_step 1 2 1 V U) optimize true false 0 1 None None None None in
    let out := train (ls_loss 1 2 1 V U)
                 (fun alpha x => match x with None => NaN | Some (w, h) => Fin (qr_loss 1 2 1 alpha V U w h) end)
                 is_nan fbelow (fun x => x) (ls_step 1 2 1 V U) (ls_loss 1 2 1 V U) (fun x => x) tick s o in
    (exists s', out = Done s') /\
    option_map (fun st => fst st 0 0) (fac (left_by out)) = Some (101 / 2)%R /\
    option_map (fun st => fst st 0 0) (documented_step 1 2 1 4 V U true (Some (W, H))) = Some (499 / 103)%R.
Proof.
  exists (fun _ j => match j with 0 => 1 | _ => 100 end)%R, (fun _ _ => 1)%R, (fun _ _ => 1)%R, (fun _ _ => 1)%R,
    (mkOpts 1 (1 / 10) 5 1 true 0 4 true (-1) None).
  repeat (split; [reflexivity|]). intros optimize tick s out.
  set (V := (fun _ j => match j with 0 => 1 | _ => 100 end)%R : mat) in *.
  set (one := (fun _ _ => 1)%R : mat) in *.
  assert (Wt : forall u : mat, w_step 1 2 1 V u one one = if all_nz 1 1 (w_den 2 1 u one one)
     then Some (fun i a => one i a * (w_num 2 V u one i a / w_den 2 1 u one one i a))%R else None) by reflexivity.
  assert (N0 : forall (D : mat), D 0 0 <> 0%R -> all_nz 1 1 D = true).
  { intros D HD. unfold all_nz, nzb. cbn. destruct (Req_EM_T _ _); [contradiction|reflexivity]. }
  assert (Num : forall u : mat, w_num 2 V u one 0 0 = (u 0%nat 0%nat + 100 * u 0%nat 1%nat)%R).
  { intros u. unfold w_num, wev, one, V. cbn. lra. }
  assert (Den : forall u : mat, w_den 2 1 u one one 0 0 = (u 0%nat 0%nat + u 0%nat 1%nat)%R).
  { intros u. unfold w_den, one, mmul. cbn. lra. }
  assert (Up : forall u : mat, (u 0%nat 0%nat + u 0%nat 1%nat <> 0)%R ->
            option_map (fun st => fst st 0 0) (ls_update 1 2 1 V u true (one, one)) = Some ((u 0%nat 0%nat + 100 * u 0%nat 1%nat) / (u 0%nat 0%nat + u 0%nat 1%nat))%R).
  { intros u Hu. unfold ls_update. rewrite Wt, N0 by (rewrite Den; exact Hu). cbn [option_map fst]. rewrite Num, Den. unfold one. f_equal. lra. }
  assert (Rb : pr_state (py_train (ls_step 1 2 1 V one) (ls_loss 1 2 1 V one) (fbelow (1 / 10))
              (fun st => is_nan (ls_loss 1 2 1 V one st) || is_nan (match st with None => NaN | Some (w, h) => Fin (qr_loss 1 2 1 4 V one w h) end))
              5 (-1) true 1 (Some (one, one))) = ls_update 1 2 1 V (weights one) true (one, one) /\
            pr_stop (py_train (ls_step 1 2 1 V one) (ls_loss 1 2 1 V one) (fbelow (1 / 10))
              (fun st => is_nan (ls_loss 1 2 1 V one st) || is_nan (match st with None => NaN | Some (w, h) => Fin (qr_loss 1 2 1 4 V one w h) end))
              5 (-1) true 1 (Some (one, one))) <> PIndexError).
  { unfold py_train. change (Z.to_nat 1) with 1. cbn [py_loop]. cbn [Z.of_nat Z.ltb Z.compare andb app length ls_step].
    destruct (is_nan _ || is_nan _); cbn; split; try reflexivity; discriminate. }
  assert (Ra : rr_state (rust_train (ls_step 1 2 1 V one) (ls_loss 1 2 1 V one) (fbelow (1 / 10)) 5 true (-1) tick 1 (Some (one, one))) =
               ls_update 1 2 1 V (weights one) true (one, one)).
  { unfold rust_train. change (Z.to_nat 1) with 1. cbn. reflexivity. }
  assert (Pl : option_map (fun st => fst st 0 0) (ls_update 1 2 1 V (weights one) true (one, one)) = Some (101 / 2)%R).
  { rewrite Up; unfold weights, one; [f_equal|]; lra. }
  split; [|split].
  - unfold out, train, s. cbn [validated negb install update_step optimized].
    destruct optimize.
    + cbn [negb accepted]. eexists. reflexivity.
    + cbn [robust_alpha step fac delta cn delay_h hold_h max_iter]. destruct Rb as [_ Rb].
      destruct (pr_stop _); [eexists; reflexivity|eexists; reflexivity|eexists; reflexivity|contradiction].
  - assert (E : fac (left_by out) = ls_update 1 2 1 V (weights one) true (one, one)).
    { unfold out, train, s. cbn [validated negb install update_step optimized]. destruct optimize.
      - cbn [negb accepted left_by finish fac delta cn delay_h hold_h max_iter]. exact Ra.
      - cbn [robust_alpha step fac delta cn delay_h hold_h max_iter]. destruct Rb as [Rb _].
        destruct (pr_stop _); cbn [left_by finish fac]; exact Rb. }
    rewrite E. exact Pl.
  - unfold documented_step.
    assert (D0 : documented_unc 1 4 V one one one 0 0 = 1%R).
    { unfold documented_unc, V, one, mmul. cbn. destruct (Rlt_dec _ _) as [L|L]; [exfalso|reflexivity].
      replace ((1 - (0 + 1 * 1)) / 1)%R with 0%R in L by lra. rewrite Rabs_R0 in L. lra. }
    assert (D1 : documented_unc 1 4 V one one one 0 1 = sqrt (99 / 4)).
    { unfold documented_unc, V, one, mmul. cbn. replace ((100 - (0 + 1 * 1)) / 1)%R with 99%R by lra. rewrite Rabs_pos_eq by lra.
      destruct (Rlt_dec _ _) as [L|L]; [lra|exfalso; lra]. }
    assert (S2 : (sqrt (99 / 4) ^ 2 = 99 / 4)%R) by (rewrite <- Rsqr_pow2; apply Rsqr_sqrt; lra).
    assert (E0 : weights (documented_unc 1 4 V one one one) 0 0 = 1%R) by (unfold weights; rewrite D0; lra).
    assert (E1 : weights (documented_unc 1 4 V one one one) 0 1 = (4 / 99)%R) by (unfold weights; rewrite D1, S2; lra).
    rewrite Up; rewrite E0, E1; [f_equal|]; lra.
Qed.
Print Assumptions C150_robust_updates_refuted.

(** A session of three calls on a model with the Python engine: a replacement given in the
    second call is still used by the third; with the compiled engine it is not used. *)
Example C150_instance :
  let o f rm al := mkOpts 2 (0 : R) 5 1 rm 200 al false (-1) f in
  let s opt := mkModel 0 (fun (_ : bool) x => x + 1) opt true false 0%Z 1%Z None None (None : option (list nat)) None in
  let run opt os := fac (session (fun x => x) (fun (_ : R) x => x) (fun _ => false) (fun (_ : R) _ _ => false)
                           (fun x => x) (fun (_ : bool) x => x + 1) (fun x => x) (fun x => x) (fun _ _ => false) (s opt) os) in
  let plain := [o None false 4%R; o None false 4%R; o None false 4%R] in
  let mixed := [o None true 4%R; o (Some (fun _ x => x * 3)) false 2%R; o None true 1%R] in
  Forall2 same_but_unused plain mixed /\
  run true plain = 6 /\ run true mixed = 6 /\ run false plain = 6 /\ run false mixed = 162.
Proof.
  cbv zeta. split; [repeat constructor|]. repeat split; reflexivity.
Qed.

Definition xto_o (f : option (bool -> nat -> nat)) (rm : bool) (al : R) : opts nat := mkOpts 2 0%R 5 1 rm 200 al false (-1) f.
Definition xto_s (opt : bool) : model nat nat := mkModel 0 (fun _ x => x + 1) opt true false 0%Z 1%Z None None None None.
Example C150_robust_mode_ignored_example :=
  C150_robust_mode_ignored nat nat (fun x => x) (fun _ x => x) (fun _ => false) (fun _ _ _ => false) (fun x => x) (fun _ x => x + 1) (fun x => x) (fun x => x) (fun _ _ => false)
    (xto_s false) [xto_o None false 4%R] [xto_o None true 4%R] ltac:(repeat constructor).
Example C150_cutoff_only_reported_example :=
  C150_cutoff_only_reported nat nat (fun x => x) (fun _ x => x) (fun _ => false) (fun _ _ _ => false) (fun x => x) (fun _ x => x + 1) (fun x => x) (fun x => x) (fun _ _ => false)
    (xto_s true) [xto_o None false 4%R] [xto_o None true 2%R] ltac:(repeat constructor) (or_introl eq_refl).
Example C150_replacement_compiled_example :=
  C150_replacement_compiled nat nat (fun x => x) (fun _ x => x) (fun _ => false) (fun _ _ _ => false) (fun x => x) (fun _ x => x + 1) (fun x => x) (fun x => x) (fun _ _ => false)
    [xto_o None false 4%R; xto_o None false 4%R] [xto_o (Some (fun _ x => x * 3)) true 2%R; xto_o None false 4%R] (xto_s true) eq_refl ltac:(repeat constructor).
Example C150_replacement_stays_example :=
  C150_replacement_stays nat nat (fun x => x) (fun _ x => x) (fun _ => false) (fun _ _ _ => false) (fun x => x) (fun _ x => x + 1) (fun x => x) (fun x => x) (fun _ _ => false) (fun _ => false)
    [xto_o (Some (fun _ x => x * 3)) false 4%R] (xto_o None false 4%R) (xto_s false) eq_refl.
