(** Property C145 in IEEE arithmetic: a smaller tolerance never stops earlier, whatever the
    update (LS-NMF, WS-NMF or a replacement) and however the losses are summed. *)
From Coq Require Import ZArith Reals Lra Lia List Bool.
From Flocq Require Import Core BinarySingleNaN.
From Verif Require Import Float_Model Float_Spec Float_Proofs Float_Props LSNMF_Model Train_Model Train_Spec Train_Proofs Strict_Props.
Import ListNotations.
Local Open Scope nat_scope.

Lemma Bltb_Bleb_trans {prec emax} (x y z : binary_float prec emax) :
  Bltb x y = true -> Bleb y z = true -> Bltb x z = true.
Proof.
  intros A B.
  destruct (is_finite x) eqn:Fx, (is_finite y) eqn:Fy, (is_finite z) eqn:Fz.
  1:{ rewrite Bltb_correct in * by assumption. rewrite Bleb_correct in B by assumption.
      destruct (Raux.Rlt_bool_spec (B2R x) (B2R y)) as [A'|]; [|discriminate].
      destruct (Raux.Rle_bool_spec (B2R y) (B2R z)) as [B'|]; [|discriminate].
      apply Raux.Rlt_bool_true. lra. }
  all: destruct x as [sx|sx| |sx mx ex Hx], y as [sy|sy| |sy my ey Hy], z as [sz|sz| |sz mz ez Hz];
    try discriminate; try destruct sx; try destruct sy; try destruct sz; try discriminate; try reflexivity.
Qed.

(** Compiled engine.  The tolerances are floats of the engine's format (any but NaN). *)
Theorem C145_looser_stops_earlier_ieee :
  forall (prec emax : Z) (Hp : Prec_gt_0 prec) (He : Prec_lt_emax prec emax) (T : Type)
    (upd : bool -> T -> T) (loss : T -> binary_float prec emax) (delta1 delta2 : binary_float prec emax)
    (cn : Z) (hold_h : bool) (delay_h : Z) (tick1 tick2 tick3 : nat -> bool) (N1 N2 : Z) (st0 : T),
  Bleb delta1 delta2 = true -> (N2 <= N1)%Z ->
  let strict := rust_train upd loss (ieee_below delta1) cn hold_h delay_h tick1 N1 st0 in
  let loose := rust_train upd loss (ieee_below delta2) cn hold_h delay_h tick2 N2 st0 in
  let n := List.length (rr_hist loose) in
  n <= List.length (rr_hist strict) /\ rr_hist loose = firstn n (rr_hist strict) /\
  rr_state (rust_train upd loss (ieee_below delta1) cn hold_h delay_h tick3 (Z.of_nat n) st0) = rr_state loose /\
  ((N1 = N2) -> rr_conv strict = true -> rr_conv loose = true).
Proof.
  intros prec emax Hp He T upd loss d1 d2 cn hold_h delay_h t1 t2 t3 N1 N2 st0 Hd HN strict loose n.
  assert (Imp : forall x y, ieee_below d1 x y = true -> ieee_below d2 x y = true) by (intros x y A; exact (Bltb_Bleb_trans _ _ _ A Hd)).
  destruct (C145_looser_stops_earlier T _ upd loss (ieee_below d1) (ieee_below d2) cn hold_h delay_h t1 t2 t3 N1 N2 st0 Imp HN) as (A & B & C).
  split; [exact A|]. split; [exact B|]. split; [exact C|]. intros -> Hc.
  destruct (rust_train_spec upd loss (ieee_below d1) cn hold_h delay_h t1 st0 N2) as [(j & Hj & [[Hs Hb] _] & _)|(_ & _ & E & _)].
  2:{ change (rr_conv strict = false) in E. congruence. }
  destruct (rust_train_spec upd loss (ieee_below d2) cn hold_h delay_h t2 st0 N2) as [(j' & _ & _ & _ & _ & E & _)|(Hno & _)]; [exact E|].
  exfalso. apply (Hno j Hj). split; [exact Hs|]. apply Imp, Hb.
Qed.
Print Assumptions C145_looser_stops_earlier_ieee.

Theorem C145_looser_stops_earlier_ieee_python :
  forall (prec emax : Z) (Hp : Prec_gt_0 prec) (He : Prec_lt_emax prec emax) (T : Type)
    (upd : bool -> T -> T) (loss : T -> binary_float prec emax) (isnan : T -> bool) (delta1 delta2 : binary_float prec emax)
    (cn : Z) (hold_h : bool) (delay_h : Z) (N1 N2 : Z) (st0 : T),
  (1 <= cn)%Z -> Bleb delta1 delta2 = true -> (N2 <= N1)%Z ->
  let strict := py_train upd loss (ieee_below delta1) isnan cn delay_h hold_h N1 st0 in
  let loose := py_train upd loss (ieee_below delta2) isnan cn delay_h hold_h N2 st0 in
  let n := List.length (pr_hist loose) in
  n <= List.length (pr_hist strict) /\ pr_hist loose = firstn n (pr_hist strict) /\
  pr_state (py_train upd loss (ieee_below delta1) isnan cn delay_h hold_h (Z.of_nat n) st0) = pr_state loose.
Proof.
  intros prec emax Hp He T upd loss isnan d1 d2 cn hold_h delay_h N1 N2 st0 Hcn Hd HN.
  apply C145_looser_stops_earlier_python; [exact Hcn| |exact HN].
  intros x y A. exact (Bltb_Bleb_trans _ _ _ A Hd).
Qed.
Print Assumptions C145_looser_stops_earlier_ieee_python.

(** Losses 8, 4, 3, 3, ...: tolerance 1/2 stops after four iterations, tolerance 2 after three. *)
Example C145_ieee_instance :
  let q := fun s : nat => match s with 0 | 1 => lit32 8 0 | 2 => lit32 4 0 | _ => lit32 3 0 end in
  let run d := rust_train (fun (_ : bool) s => S s) q (ieee_below d) 2 false (-1) (fun _ => false) 10 0 in
  Bleb (lit32 1 (-1)) (lit32 2 0) = true /\
  rr_hist (run (lit32 1 (-1))) = [lit32 8 0; lit32 4 0; lit32 3 0; lit32 3 0] /\
  rr_hist (run (lit32 2 0)) = [lit32 8 0; lit32 4 0; lit32 3 0].
Proof. cbv zeta. repeat split; vm_compute; reflexivity. Qed.

Definition xs_q := fun s : nat => match s with 0 | 1 => lit32 8 0 | 2 => lit32 4 0 | _ => lit32 3 0 end.
Example C145_looser_stops_earlier_ieee_example :=
  C145_looser_stops_earlier_ieee 24 128 _ _ nat (fun _ s => S s) xs_q (lit32 1 (-1)) (lit32 2 0) 2 false (-1)
    (fun _ => false) (fun _ => true) (fun _ => false) 10 8 0 (proj1 C145_ieee_instance) ltac:(lia).
Example C145_looser_stops_earlier_ieee_python_example :=
  C145_looser_stops_earlier_ieee_python 24 128 _ _ nat (fun _ s => S s) xs_q (fun _ => false) (lit32 1 (-1)) (lit32 2 0) 2 false (-1)
    10 8 0 ltac:(lia) (proj1 C145_ieee_instance) ltac:(lia).
