(** C89: what an update on the device computes where its shapes allow it. *)
From Coq Require Import Reals Lra Lia List Bool ZArith Arith.
From Verif Require Import Base Layout_Model LSNMF_Model WSNMF_Model Gpu_Model Gpu_Props.
Import ListNotations.
Local Open Scope R_scope.

(** The tensor holds the matrix, row by row. *)
Definition holds (r c : nat) (t : tensor) (A : mat) : Prop :=
  f64_shaped r c t /\ forall i j, (i < r)%nat -> (j < c)%nat -> t_dat t (i * c + j)%nat = A i j.

Lemma pos_div s i j : (j < s)%nat -> ((i * s + j) / s)%nat = i.
Proof. intros H. rewrite Nat.div_add_l by lia. rewrite Nat.div_small by exact H. lia. Qed.
Lemma pos_mod s i j : (j < s)%nat -> ((i * s + j) mod s)%nat = j.
Proof. intros H. rewrite Nat.add_comm, Nat.mod_add by lia. apply Nat.mod_small, H. Qed.
Lemma binop_val f r c a b A B : holds r c a A -> holds r c b B -> exists x, binop f a b = Some x /\ holds r c x (fun i j => f (A i j) (B i j)).
Proof.
  intros [[Ha Ha'] HA] [[Hb Hb'] HB]. unfold binop. rewrite Ha, Hb, Ha', Hb', dims_eqb_refl. cbn [dtype_eqb andb].
  eexists. split; [reflexivity|]. split; [split; reflexivity|]. intros i j Hi Hj. cbn [t_dat]. rewrite HA, HB by assumption. reflexivity.
Qed.
Lemma matmul_val r c s a b A B : holds r c a A -> holds c s b B -> exists x, matmul a b = Some x /\ holds r s x (mmul c A B).
Proof.
  intros [[Ha Ha'] HA] [[Hb Hb'] HB]. unfold matmul. rewrite Ha', Hb', Ha, Hb, Nat.eqb_refl. cbn [dtype_eqb andb].
  eexists. split; [reflexivity|]. split; [split; reflexivity|]. intros i j Hi Hj. cbn [t_dat]. unfold mmul. apply rsum_ext. intros l Hl.
  rewrite pos_div, pos_mod by exact Hj. rewrite HA, HB by assumption. reflexivity.
Qed.
Lemma transp_val r c a A : holds r c a A -> exists x, transp a = Some x /\ holds c r x (fun j i => A i j).
Proof.
  intros [[Ha Ha'] HA]. unfold transp. rewrite Ha'. eexists. split; [reflexivity|]. split; [split; [exact Ha|reflexivity]|].
  intros j i Hj Hi. cbn [t_dat]. rewrite pos_div, pos_mod by exact Hi. apply HA; assumption.
Qed.
Lemma holds_ext r c t A B : holds r c t A -> (forall i j, (i < r)%nat -> (j < c)%nat -> A i j = B i j) -> holds r c t B.
Proof. intros [Hs H] E. split; [exact Hs|]. intros i j Hi Hj. rewrite H by assumption. apply E; assumption. Qed.

(** Samples [m], features [n], factors [k]; data [V], weights [We]; the tensors
    hold matrices of these shapes.  [wev] is the product formed before the loop. *)
Lemma gpu_w_val m n k we wv w h V We W H : holds m n we We -> holds m n wv (fun i j => We i j * V i j) -> holds m k w W -> holds k n h H ->
  exists w', gpu_w we wv w h = Some w' /\ holds m k w' (fun i a => W i a * (w_num n V We H i a / w_den n k We W H i a)).
Proof.
  intros Hwe Hwv Hw Hh. unfold gpu_w.
  destruct (matmul_val _ _ _ _ _ _ _ Hw Hh) as [wh [-> Hwh]]. destruct (transp_val _ _ _ _ Hh) as [ht [-> Hht]].
  destruct (matmul_val _ _ _ _ _ _ _ Hwv Hht) as [num [-> Hnum]].
  destruct (binop_val Rmult _ _ _ _ _ _ Hwe Hwh) as [x [E Hx]]. unfold tmul at 1. rewrite E. clear E.
  destruct (matmul_val _ _ _ _ _ _ _ Hx Hht) as [den [-> Hden]].
  destruct (binop_val Rdiv _ _ _ _ _ _ Hnum Hden) as [d [E Hd]]. unfold tdiv. rewrite E. clear E.
  destruct (binop_val Rmult _ _ _ _ _ _ Hw Hd) as [y [E Hy]]. exists y. split; [exact E|exact Hy].
Qed.
Lemma ls_gpu_h_val m n k we wv w h V We W H : holds m n we We -> holds m n wv (fun i j => We i j * V i j) -> holds m k w W -> holds k n h H ->
  exists h', ls_gpu_h we wv w h = Some h' /\ holds k n h' (fun a j => H a j * (h_num m V We W a j / h_den m k We W H a j)).
Proof.
  intros Hwe Hwv Hw Hh. unfold ls_gpu_h.
  destruct (matmul_val _ _ _ _ _ _ _ Hw Hh) as [wh [-> Hwh]]. destruct (transp_val _ _ _ _ Hw) as [wt [-> Hwt]].
  destruct (matmul_val _ _ _ _ _ _ _ Hwt Hwv) as [num [-> Hnum]].
  destruct (binop_val Rmult _ _ _ _ _ _ Hwe Hwh) as [x [E Hx]]. unfold tmul at 1. rewrite E. clear E.
  destruct (matmul_val _ _ _ _ _ _ _ Hwt Hx) as [den [-> Hden]].
  destruct (binop_val Rdiv _ _ _ _ _ _ Hnum Hden) as [d [E Hd]]. unfold tdiv. rewrite E. clear E.
  destruct (binop_val Rmult _ _ _ _ _ _ Hh Hd) as [y [E Hy]]. exists y. split; [exact E|exact Hy].
Qed.

(** C89: given matrices in the right orientation, the LS-NMF update of the device
    is the update of the CPU engines (C05-C09); the WS-NMF update, where it succeeds,
    applies the multiplicative rule of LS-NMF to W and leaves H. *)
Theorem C89_update_values :
  forall m n k we wv w h V We W H hold_h delay_h (i : nat),
    holds m n we We -> holds m n wv (fun i j => We i j * V i j) -> holds m k w W -> holds k n h H ->
    (forall W' H', ls_update m n k V We (hold_at hold_h delay_h i) (W, H) = Some (W', H') ->
       exists w' h', ls_gpu_update we wv hold_h delay_h (Z.of_nat i) w h = Some (w', h') /\ holds m k w' W' /\ holds k n h' H') /\
    (forall w' h', ws_gpu_update we wv hold_h delay_h (Z.of_nat i) w h = Some (w', h') ->
       h' = h /\
       holds m k w' (fun i a => W i a * (rsum n (fun j => We i j * V i j * H a j) /
                                         rsum n (fun j => We i j * rsum k (fun b => W i b * H b j) * H a j)))).
Proof.
  intros m n k we wv w h V We W H hold delay i Hwe Hwv Hw Hh. split.
  - intros W' H' E. unfold ls_gpu_update. unfold ls_update, hold_at in E. unfold h_moves.
    destruct (negb hold || ((0 <? delay)%Z && (delay <? Z.of_nat i)%Z)) eqn:Em; cbn [negb] in E.
    + unfold h_step in E. destruct (all_nz k n _); [|discriminate].
      set (H1 := fun a j => _) in E. unfold w_step in E. destruct (all_nz m k _); [|discriminate]. injection E as <- <-.
      destruct (ls_gpu_h_val _ _ _ _ _ _ _ _ _ _ _ Hwe Hwv Hw Hh) as [h' [-> Hh']]. fold H1 in Hh'.
      destruct (gpu_w_val _ _ _ _ _ _ _ _ _ _ _ Hwe Hwv Hw Hh') as [w' [-> Hw']]. exists w', h'. auto.
    + unfold w_step in E. destruct (all_nz m k _); [|discriminate]. injection E as <- <-.
      destruct (gpu_w_val _ _ _ _ _ _ _ _ _ _ _ Hwe Hwv Hw Hh) as [w' [-> Hw']]. exists w', h. auto.
  - intros w' h' E. pose proof (proj1 (C89_ws_update_shapes m n k we wv w h hold delay (Z.of_nat i) (proj1 Hwe) (proj1 Hwv) (proj1 Hw) (proj1 Hh))) as S.
    destruct S as [-> Hd]; [rewrite E; discriminate|]. unfold ws_gpu_update, h_moves in E.
    replace (negb true || ((0 <? delay)%Z && (delay <? Z.of_nat i)%Z)) with false in E.
    2:{ destruct (0 <? delay)%Z eqn:E1, (delay <? Z.of_nat i)%Z eqn:E2; try reflexivity. apply Z.ltb_lt in E1, E2. lia. }
    destruct (gpu_w_val _ _ _ _ _ _ _ _ _ _ _ Hwe Hwv Hw Hh) as [x [Ex Hx]]. rewrite Ex in E. injection E as <- <-.
    split; [reflexivity|]. exact Hx.
Qed.
Print Assumptions C89_update_values.

(** "The WS-NMF of the device takes the step of the WS-NMF engines (W becomes the
    weighted least-squares solution for the present H, C10)" fails, also where the
    update succeeds: one sample, two features and two factors. *)
Definition two (x y : R) (l : nat) : R := match l with O => x | _ => y end.
Theorem C89_ws_step_refuted :
  exists m n k V We W H we wv w h w' h' X,
    holds m n we We /\ holds m n wv (fun i j => We i j * V i j) /\ holds m k w W /\ holds k n h H /\
    (forall i j, 0 < We i j) /\ (forall i a, 0 < W i a) /\
    ws_gpu_update we wv true (-1) 0 w h = Some (w', h') /\
    (forall i j, (i < m)%nat -> (j < n)%nat -> V i j = rsum k (fun a => X i a * H a j)) /\
    forall W', holds m k w' W' -> exists i j, (i < m)%nat /\ (j < n)%nat /\ V i j <> rsum k (fun a => W' i a * H a j).
Proof.
  set (V := fun (i j : nat) => two 1 3 j). set (W := fun (i a : nat) => 1). set (We := fun (i j : nat) => 1).
  set (H := fun (a j : nat) => match a with O => 1 | _ => two 0 1 j end).
  assert (HV : holds 1 2 (from_f64 [1%nat; 2%nat] (two 1 3)) (fun i j => We i j * V i j)).
  { split; [split; reflexivity|]. intros [|i] j Hi Hj; [|lia]. unfold We, V. cbn [Nat.mul Nat.add from_f64 t_dat]. lra. }
  assert (HWe : holds 1 2 (from_f64 [1%nat; 2%nat] (two 1 1)) We).
  { split; [split; reflexivity|]. intros [|i] [|j] Hi Hj; [| |lia|lia]; reflexivity. }
  assert (HW : holds 1 2 (from_f64 [1%nat; 2%nat] (two 1 1)) W).
  { split; [split; reflexivity|]. intros [|i] [|j] Hi Hj; [| |lia|lia]; reflexivity. }
  assert (HH : holds 2 2 (from_f64 [2%nat; 2%nat] (fun l => match l with 2%nat => 0 | _ => 1 end)) H).
  { split; [split; reflexivity|]. intros [|[|i]] [|[|j]] Hi Hj; try lia; reflexivity. }
  destruct (ws_gpu_update (from_f64 [1%nat; 2%nat] (two 1 1)) (from_f64 [1%nat; 2%nat] (two 1 3)) true (-1) 0 (from_f64 [1%nat; 2%nat] (two 1 1))
              (from_f64 [2%nat; 2%nat] (fun l => match l with 2%nat => 0 | _ => 1 end))) as [[w' h']|] eqn:E.
  2:{ exfalso. revert E. apply (proj2 (C89_ws_update_shapes 1 2 2 _ _ _ _ true (-1) 0 (proj1 HWe) (proj1 HV) (proj1 HW) (proj1 HH))). split; [reflexivity|lia]. }
  exists 1%nat, 2%nat, 2%nat, V, We, W, H. do 4 eexists. exists w', h', (fun _ a => two 1 2 a).
  split; [exact HWe|]. split; [exact HV|]. split; [exact HW|]. split; [exact HH|].
  split; [intros; unfold We; lra|]. split; [intros; unfold W; lra|]. split; [exact E|]. split.
  - intros i [|[|j]] Hi Hj; try lia; unfold V, H; cbn [two rsum]; lra.
  - intros W' HW'. exists 0%nat, 0%nat. split; [lia|]. split; [lia|].
    destruct (proj2 (C89_update_values 1 2 2 _ _ _ _ V We W H true (-1) 0 HWe HV HW HH) w' h' E) as [_ HX].
    assert (EW : W' 0%nat 0%nat = 4 / 3).
    { rewrite <- (proj2 HW' 0%nat 0%nat) by lia. rewrite (proj2 HX 0%nat 0%nat) by lia. unfold W, We, V, H. cbn [two rsum]. field. }
    unfold V, H. cbn [two rsum]. rewrite EW. lra.
Qed.
Print Assumptions C89_ws_step_refuted.

Example C89_values_instance :
  exists W' H', ls_update 1 1 1 (fun _ _ => 6) (fun _ _ => 1) (hold_at false (-1) 0) (fun _ _ => 2, fun _ _ => 2) = Some (W', H') /\
    H' 0%nat 0%nat = 3 /\ W' 0%nat 0%nat = 2 /\
    holds 1 1 (from_f64 [1%nat; 1%nat] (fun _ => 2)) (fun _ _ => 2).
Proof.
  assert (T : forall D : mat, D 0%nat 0%nat <> 0 -> all_nz 1 1 D = true).
  { intros D HD. unfold all_nz, nzb. cbn [seq forallb]. destruct (Req_EM_T (D 0%nat 0%nat) 0); [contradiction|reflexivity]. }
  cbn [hold_at negb orb ls_update]. unfold h_step. rewrite T by (unfold h_den, mmul; cbn [rsum]; lra).
  unfold w_step. rewrite T.
  2:{ unfold w_den, mmul, h_num, h_den, wev, mmul. cbn [rsum]. lra. }
  do 2 eexists. split; [reflexivity|].
  split; [unfold h_num, h_den, wev, mmul; cbn [rsum]; field|].
  split; [unfold w_num, w_den, h_num, h_den, wev, mmul; cbn [rsum]; field|].
  split; [split; reflexivity|]. intros; reflexivity.
Qed.
