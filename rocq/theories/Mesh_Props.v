(** Property C149: the 3d bars of plot_all_factors_3d. *)
From Coq Require Import Reals List Lra Lia Arith.
From Verif Require Import Mesh_Model.
Import ListNotations.
Local Open Scope R_scope.

(** ** Statements' vocabulary: what a renderer shows for a mesh, and what a bar is. *)
Definition vertex_at (m : mesh) (q : nat) : point := (nth q (m_x m) 0, nth q (m_y m) 0, nth q (m_z m) 0).
Definition px (p : point) := fst (fst p).
Definition py (p : point) := snd (fst p).
Definition pz (p : point) := snd p.
Definition in_triangle (p a b c : point) : Prop :=
  exists s t u, 0 <= s /\ 0 <= t /\ 0 <= u /\ s + t + u = 1 /\
    px p = s * px a + t * px b + u * px c /\ py p = s * py a + t * py b + u * py c /\ pz p = s * pz a + t * pz b + u * pz c.
(** Some triangle of the mesh contains [p]. *)
Definition drawn (m : mesh) (p : point) : Prop :=
  exists t, (t < length (m_i m))%nat /\
    in_triangle p (vertex_at m (nth t (m_i m) 0%nat)) (vertex_at m (nth t (m_j m) 0%nat)) (vertex_at m (nth t (m_k m) 0%nat)).
(** Box of the given height (downwards if negative) over the rectangle of width 0.85
    and depth 0.35 around (column j, row i), and its surface. *)
Definition in_bar (i j : nat) (z : R) (p : point) : Prop :=
  Rabs (px p - INR j) <= 425 / 1000 /\ Rabs (py p - INR i) <= 175 / 1000 /\ Rmin 0 z <= pz p <= Rmax 0 z.
Definition on_bar (i j : nat) (z : R) (p : point) : Prop :=
  in_bar i j z p /\
  (Rabs (px p - INR j) = 425 / 1000 \/ Rabs (py p - INR i) = 175 / 1000 \/ pz p = 0 \/ pz p = z).

(** ** Lists *)
Lemma nth_blocks {A B} (g : A -> list B) c (l : list A) (b q : nat) da db :
  (forall a, length (g a) = c) -> (b < length l)%nat -> (q < c)%nat ->
  nth (b * c + q) (flat_map g l) db = nth q (g (nth b l da)) db.
Proof.
  intros Hg. revert b. induction l as [|a l IH]; intros b Hb Hq; cbn in Hb; [lia|].
  cbn [flat_map]. destruct b as [|b].
  - cbn [Nat.mul Nat.add nth]. apply app_nth1. rewrite Hg. exact Hq.
  - rewrite app_nth2 by (rewrite Hg; cbn; lia). rewrite Hg. replace (S b * c + q - c)%nat with (b * c + q)%nat by (cbn; lia).
    cbn [nth]. apply IH; lia.
Qed.
Lemma length_blocks {A B} (g : A -> list B) c (l : list A) : (forall a, length (g a) = c) -> length (flat_map g l) = (length l * c)%nat.
Proof. intros Hg. induction l as [|a l IH]; [reflexivity|]. cbn. rewrite app_length, Hg, IH. reflexivity. Qed.

Definition bv (z : nat -> nat -> R) (ij : nat * nat) : list point := vertices (fst ij) (snd ij) (z (fst ij) (snd ij)).
Definition tris (b : nat) : list (nat * nat * nat) :=
  flat_map (fun b => map (fun f => (b * 8 + fst (fst f), b * 8 + snd (fst f), b * 8 + snd f)%nat) faces) (seq 0 b).

Lemma mesh_lists z l : let '(m, idx) := fold_left (add_bar z) l (mkMesh [] [] [] [] [] [] [] [], 0%nat) in
  idx = length l /\
  m_x m = flat_map (fun b => map px (bv z b)) l /\ m_y m = flat_map (fun b => map py (bv z b)) l /\
  m_z m = flat_map (fun b => map pz (bv z b)) l /\
  m_i m = map (fun f => fst (fst f)) (tris (length l)) /\ m_j m = map (fun f => snd (fst f)) (tris (length l)) /\
  m_k m = map snd (tris (length l)) /\
  m_color m = flat_map (fun b => repeat (z (fst b) (snd b)) 8) l /\
  m_hover m = flat_map (fun b => repeat (S (fst b), snd b, z (fst b) (snd b)) 8) l.
Proof.
  induction l as [|[i j] l IH] using rev_ind; [cbn; repeat split; reflexivity|].
  rewrite fold_left_app. destruct (fold_left _ l _) as [m idx]. cbn [fold_left].
  destruct IH as (-> & Ex & Ey & Ez & Ei & Ej & Ek & Ec & Eh). unfold add_bar. cbn beta iota.
  rewrite app_length. cbn [length]. split; [lia|]. cbn [m_x m_y m_z m_i m_j m_k m_color m_hover].
  rewrite Ex, Ey, Ez, Ei, Ej, Ek, Ec, Eh. rewrite !flat_map_app.
  assert (ET : tris (length l + 1) = tris (length l) ++ map (fun f => (length l * 8 + fst (fst f), length l * 8 + snd (fst f), length l * 8 + snd f)%nat) faces).
  { unfold tris. rewrite Nat.add_1_r, seq_S, flat_map_app. cbn [flat_map Nat.add]. rewrite app_nil_r. reflexivity. }
  rewrite ET, !map_app, !map_map. cbn [flat_map fst snd]. rewrite !app_nil_r.
  repeat split; reflexivity.
Qed.

(** ** Geometry *)
Lemma Rabs_le_inv a b : Rabs a <= b -> - b <= a <= b.
Proof. unfold Rabs. destruct (Rcase_abs a); lra. Qed.
(** Two triangles make a rectangle. *)
Lemma two_triangles (A B D : point) (p : point) (C : point) :
  px C = px B + px D - px A -> py C = py B + py D - py A -> pz C = pz B + pz D - pz A ->
  (in_triangle p A B C \/ in_triangle p A C D) <->
  exists s t, 0 <= s <= 1 /\ 0 <= t <= 1 /\ px p = px A + s * (px B - px A) + t * (px D - px A) /\
    py p = py A + s * (py B - py A) + t * (py D - py A) /\ pz p = pz A + s * (pz B - pz A) + t * (pz D - pz A).
Proof.
  intros Cx Cy Cz. split.
  - intros [(a & b & c & Ha & Hb & Hc & E & X & Y & Z)|(a & b & c & Ha & Hb & Hc & E & X & Y & Z)].
    + exists (b + c), c. rewrite X, Y, Z, Cx, Cy, Cz. assert (a = 1 - b - c) as -> by lra. repeat split; try lra; ring.
    + exists b, (b + c). rewrite X, Y, Z, Cx, Cy, Cz. assert (a = 1 - b - c) as -> by lra. repeat split; try lra; ring.
  - intros (s & t & [Hs Hs1] & [Ht Ht1] & X & Y & Z). destruct (Rle_lt_dec t s) as [L|L].
    + left. exists (1 - s), (s - t), t. rewrite X, Y, Z, Cx, Cy, Cz. repeat split; try lra; ring.
    + right. exists (1 - t), s, (t - s). rewrite X, Y, Z, Cx, Cy, Cz. repeat split; try lra; ring.
Qed.

Lemma part (lo w x : R) : 0 < w -> (exists s, 0 <= s <= 1 /\ x = lo + s * w) <-> lo <= x <= lo + w.
Proof.
  intros Hw. split.
  - intros (s & [H0 H1] & ->). nra.
  - intros [H0 H1]. exists ((x - lo) / w). split; [split|field; lra].
    + apply Rmult_le_reg_r with w; [exact Hw|]. unfold Rdiv. rewrite Rmult_assoc, Rinv_l by lra. lra.
    + apply Rmult_le_reg_r with w; [exact Hw|]. unfold Rdiv. rewrite Rmult_assoc, Rinv_l by lra. lra.
Qed.
Lemma part_z (z x : R) : (exists s, 0 <= s <= 1 /\ x = s * z) <-> Rmin 0 z <= x <= Rmax 0 z.
Proof.
  unfold Rmin, Rmax. destruct (Rle_dec 0 z) as [L|L].
  - destruct (Req_dec z 0) as [-> | Hz].
    + split; [intros (s & _ & ->); lra|]. intros H. exists 0. lra.
    + destruct (part 0 z x ltac:(lra)) as [P1 P2]. split.
      * intros (s & Hs & ->). assert (H : 0 <= s * z <= 0 + z) by (apply P1; exists s; split; [exact Hs|ring]). lra.
      * intros H. destruct (P2 ltac:(lra)) as (s & Hs & ->). exists s. split; [exact Hs|ring].
  - destruct (part 0 (- z) (- x) ltac:(lra)) as [P1 P2]. split.
    + intros (s & Hs & ->). assert (H : 0 <= - (s * z) <= 0 + - z) by (apply P1; exists s; split; [exact Hs|ring]). lra.
    + intros H. destruct (P2 ltac:(lra)) as (s & Hs & E). exists s. split; [exact Hs|lra].
Qed.

(** The twelve triangles of one bar. *)
Definition face_of (vs : list point) (p : point) (f : nat * nat * nat) : Prop :=
  in_triangle p (nth (fst (fst f)) vs (0, 0, 0)) (nth (snd (fst f)) vs (0, 0, 0)) (nth (snd f) vs (0, 0, 0)).

Lemma bar_surface i j z p : Exists (face_of (vertices i j z) p) faces <-> on_bar i j z p.
Proof.
  set (x0 := INR j - bar_width / 2). set (x1 := INR j + bar_width / 2).
  set (y0 := INR i - bar_depth / 2). set (y1 := INR i + bar_depth / 2).
  assert (Wx : x1 = x0 + bar_width) by (unfold x0, x1; lra). assert (Wy : y1 = y0 + bar_depth) by (unfold y0, y1; lra).
  assert (Hw : 0 < bar_width) by (unfold bar_width; lra). assert (Hd : 0 < bar_depth) by (unfold bar_depth; lra).
  assert (Bx : Rabs (px p - INR j) <= 425 / 1000 <-> x0 <= px p <= x0 + bar_width).
  { unfold x0, bar_width. split; [intros H; apply Rabs_le_inv in H; lra|intros H; apply Rabs_le; lra]. }
  assert (By : Rabs (py p - INR i) <= 175 / 1000 <-> y0 <= py p <= y0 + bar_depth).
  { unfold y0, bar_depth. split; [intros H; apply Rabs_le_inv in H; lra|intros H; apply Rabs_le; lra]. }
  assert (Ex : Rabs (px p - INR j) = 425 / 1000 <-> px p = x0 \/ px p = x1).
  { unfold x0, x1, bar_width. split; [intros H; unfold Rabs in H; destruct (Rcase_abs _); lra|].
    intros [H|H]; [rewrite Rabs_left by lra|rewrite Rabs_right by lra]; lra. }
  assert (Ey : Rabs (py p - INR i) = 175 / 1000 <-> py p = y0 \/ py p = y1).
  { unfold y0, y1, bar_depth. split; [intros H; unfold Rabs in H; destruct (Rcase_abs _); lra|].
    intros [H|H]; [rewrite Rabs_left by lra|rewrite Rabs_right by lra]; lra. }
  unfold on_bar, in_bar. rewrite Bx, By, Ex, Ey, <- (part x0 bar_width _ Hw), <- (part y0 bar_depth _ Hd), <- (part_z z (pz p)).
  unfold faces. rewrite !Exists_cons, Exists_nil. unfold face_of, vertices. fold x0 x1 y0 y1. cbn [fst snd nth].
  set (tri := in_triangle p).
  assert (T : forall (A B C D : point), px C = px B + px D - px A -> py C = py B + py D - py A -> pz C = pz B + pz D - pz A ->
     (tri A B C \/ tri A C D) <-> exists s t, 0 <= s <= 1 /\ 0 <= t <= 1 /\ px p = px A + s * (px B - px A) + t * (px D - px A) /\
    py p = py A + s * (py B - py A) + t * (py D - py A) /\ pz p = pz A + s * (pz B - pz A) + t * (pz D - pz A)).
  { intros A B C D H1 H2 H3. exact (two_triangles A B D p C H1 H2 H3). }
  pose proof (T (x0, y0, 0) (x1, y0, 0) (x1, y1, 0) (x0, y1, 0) ltac:(cbn; lra) ltac:(cbn; lra) ltac:(cbn; lra)) as T1.
  pose proof (T (x0, y0, z) (x1, y0, z) (x1, y1, z) (x0, y1, z) ltac:(cbn; lra) ltac:(cbn; lra) ltac:(cbn; lra)) as T2.
  pose proof (T (x0, y0, 0) (x1, y0, 0) (x1, y0, z) (x0, y0, z) ltac:(cbn; lra) ltac:(cbn; lra) ltac:(cbn; lra)) as T3.
  pose proof (T (x1, y0, 0) (x1, y1, 0) (x1, y1, z) (x1, y0, z) ltac:(cbn; lra) ltac:(cbn; lra) ltac:(cbn; lra)) as T4.
  pose proof (T (x1, y1, 0) (x0, y1, 0) (x0, y1, z) (x1, y1, z) ltac:(cbn; lra) ltac:(cbn; lra) ltac:(cbn; lra)) as T5.
  pose proof (T (x0, y1, 0) (x0, y0, 0) (x0, y0, z) (x0, y1, z) ltac:(cbn; lra) ltac:(cbn; lra) ltac:(cbn; lra)) as T6.
  clear T. unfold px, py, pz in *. cbn [fst snd] in *.
  transitivity (((tri (x0, y0, 0) (x1, y0, 0) (x1, y1, 0) \/ tri (x0, y0, 0) (x1, y1, 0) (x0, y1, 0)) \/
    (tri (x0, y0, z) (x1, y0, z) (x1, y1, z) \/ tri (x0, y0, z) (x1, y1, z) (x0, y1, z))) \/
    (tri (x0, y0, 0) (x1, y0, 0) (x1, y0, z) \/ tri (x0, y0, 0) (x1, y0, z) (x0, y0, z)) \/
    (tri (x1, y0, 0) (x1, y1, 0) (x1, y1, z) \/ tri (x1, y0, 0) (x1, y1, z) (x1, y0, z)) \/
    (tri (x1, y1, 0) (x0, y1, 0) (x0, y1, z) \/ tri (x1, y1, 0) (x0, y1, z) (x1, y1, z)) \/
    (tri (x0, y1, 0) (x0, y0, 0) (x0, y0, z) \/ tri (x0, y1, 0) (x0, y0, z) (x0, y1, z))); [tauto|].
  rewrite T1, T2, T3, T4, T5, T6. clear T1 T2 T3 T4 T5 T6. rewrite Wx, Wy. clearbody x0 y0. clear Bx By Ex Ey Wx Wy x1 y1 tri.
  destruct p as [[x y] c]. cbn [fst snd]. split.
  - intros [[H|H]|[H|[H|[H|H]]]]; destruct H as (s & t & [Hs Hs1] & [Ht Ht1] & X & Y & Z).
    + split; [split; [|split]|].
      * exists s. lra. * exists t. lra. * exists 0. lra. * lra.
    + split; [split; [|split]|].
      * exists s. lra. * exists t. lra. * exists 1. lra. * lra.
    + split; [split; [|split]|].
      * exists s. lra. * exists 0. lra. * exists t. lra. * lra.
    + split; [split; [|split]|].
      * exists 1. lra. * exists s. lra. * exists t. lra. * lra.
    + split; [split; [|split]|].
      * exists (1 - s). lra. * exists 1. lra. * exists t. lra. * lra.
    + split; [split; [|split]|].
      * exists 0. lra. * exists (1 - s). lra. * exists t. lra. * lra.
  - intros [((s & Hs & Ex) & (t & Ht & Ey) & (u & Hu & Ez)) D].
    destruct D as [[D|D]|[[D|D]|[D|D]]].
    + right. right. right. right. exists (1 - t), u. lra.
    + right. right. left. exists t, u. lra.
    + right. left. exists s, u. lra.
    + right. right. right. left. exists (1 - s), u. lra.
    + left. left. exists s, t. lra.
    + left. right. exists s, t. lra.
Qed.

(** ** C149: the bars *)

(** Exactly the surfaces of the bars are drawn, one per factor (row) and feature
    (column), from 0 to the value; every triangle refers to existing vertices. *)
Theorem C149_bars_drawn : forall factors features z,
  let m := create_mesh3d factors features z in
  (forall p, drawn m p <-> exists i j, (i < factors)%nat /\ (j < features)%nat /\ on_bar i j (z i j) p) /\
  length (m_j m) = length (m_i m) /\ length (m_k m) = length (m_i m) /\
  length (m_y m) = length (m_x m) /\ length (m_z m) = length (m_x m) /\
  (forall q, In q (m_i m) \/ In q (m_j m) \/ In q (m_k m) -> (q < length (m_x m))%nat).
Proof.
  intros factors features z m. set (l := list_prod (seq 0 factors) (seq 0 features)).
  pose proof (mesh_lists z l) as M. unfold m, create_mesh3d. fold l.
  destruct (fold_left _ l _) as [m0 idx]. cbn [fst]. clear m.
  destruct M as (_ & Ex & Ey & Ez & Ei & Ej & Ek & _).
  assert (L8 : forall {B} (f : point -> B) b, length (map f (bv z b)) = 8%nat) by (intros; rewrite map_length; reflexivity).
  assert (Lx : length (m_x m0) = (length l * 8)%nat) by (rewrite Ex; apply length_blocks; intros; apply L8).
  assert (Ly : length (m_y m0) = (length l * 8)%nat) by (rewrite Ey; apply length_blocks; intros; apply L8).
  assert (Lz : length (m_z m0) = (length l * 8)%nat) by (rewrite Ez; apply length_blocks; intros; apply L8).
  assert (InT : forall f, In f (tris (length l)) <-> exists b g, (b < length l)%nat /\ In g faces /\
     f = (b * 8 + fst (fst g), b * 8 + snd (fst g), b * 8 + snd g)%nat).
  { intros f. unfold tris. rewrite in_flat_map. split.
    - intros (b & Hb & Hf). apply in_seq in Hb. apply in_map_iff in Hf. destruct Hf as (g & <- & Hg).
      exists b, g. split; [lia|]. split; [exact Hg|reflexivity].
    - intros (b & g & Hb & Hg & ->). exists b. split; [apply in_seq; lia|]. apply in_map_iff. exists g. split; [reflexivity|exact Hg]. }
  assert (F8 : forall g, In g faces -> (fst (fst g) < 8 /\ snd (fst g) < 8 /\ snd g < 8)%nat).
  { intros g Hg. unfold faces in Hg. cbn in Hg. repeat destruct Hg as [<- | Hg]; cbn; try lia; contradiction. }
  assert (VX : forall b q, (b < length l)%nat -> (q < 8)%nat -> vertex_at m0 (b * 8 + q) = nth q (bv z (nth b l (0, 0)%nat)) (0, 0, 0)).
  { intros b q Hb Hq. unfold vertex_at. rewrite Ex, Ey, Ez.
    rewrite (nth_blocks (fun b => map px (bv z b)) 8 l b q (0, 0)%nat) by (try assumption; intros; apply L8).
    rewrite (nth_blocks (fun b => map py (bv z b)) 8 l b q (0, 0)%nat) by (try assumption; intros; apply L8).
    rewrite (nth_blocks (fun b => map pz (bv z b)) 8 l b q (0, 0)%nat) by (try assumption; intros; apply L8).
    set (v := bv z (nth b l (0, 0)%nat)).
    assert (N1 : nth q (map px v) 0 = px (nth q v (0, 0, 0))) by exact (map_nth px v (0, 0, 0) q).
    assert (N2 : nth q (map py v) 0 = py (nth q v (0, 0, 0))) by exact (map_nth py v (0, 0, 0) q).
    assert (N3 : nth q (map pz v) 0 = pz (nth q v (0, 0, 0))) by exact (map_nth pz v (0, 0, 0) q).
    rewrite N1, N2, N3. destruct (nth q v (0, 0, 0)) as [[? ?] ?]. reflexivity. }
  split; [|rewrite Ei, Ej, Ek, !map_length, Lx, Ly, Lz; split; [reflexivity|]; split; [reflexivity|]; split; [reflexivity|]; split; [reflexivity|]].
  - intros p.
    assert (DT : drawn m0 p <-> exists f, In f (tris (length l)) /\
      in_triangle p (vertex_at m0 (fst (fst f))) (vertex_at m0 (snd (fst f))) (vertex_at m0 (snd f))).
    { unfold drawn. rewrite Ei, Ej, Ek, map_length. split.
      - intros (t & Ht & H). exists (nth t (tris (length l)) (0, 0, 0)%nat). split; [apply nth_In, Ht|].
        rewrite (nth_indep _ 0%nat (fst (fst (0, 0, 0)))%nat) in H by (rewrite map_length; exact Ht).
        rewrite (nth_indep (map (fun f => snd (fst f)) _) 0%nat (snd (fst (0, 0, 0)))%nat) in H by (rewrite map_length; exact Ht).
        rewrite (nth_indep (map snd _) 0%nat (snd (0, 0, 0))%nat) in H by (rewrite map_length; exact Ht).
        rewrite (map_nth (fun f : nat * nat * nat => fst (fst f))), (map_nth (fun f : nat * nat * nat => snd (fst f))), (map_nth (@snd (nat * nat) nat)) in H. exact H.
      - intros (f & Hf & H). destruct (In_nth _ _ (0, 0, 0)%nat Hf) as (t & Ht & E). exists t. split; [exact Ht|].
        rewrite (nth_indep (map (fun f => fst (fst f)) _) 0%nat (fst (fst (0, 0, 0)))%nat) by (rewrite map_length; exact Ht).
        rewrite (nth_indep (map (fun f => snd (fst f)) _) 0%nat (snd (fst (0, 0, 0)))%nat) by (rewrite map_length; exact Ht).
        rewrite (nth_indep (map snd _) 0%nat (snd (0, 0, 0))%nat) by (rewrite map_length; exact Ht).
        rewrite (map_nth (fun f : nat * nat * nat => fst (fst f))), (map_nth (fun f : nat * nat * nat => snd (fst f))), (map_nth (@snd (nat * nat) nat)), E. exact H. }
    rewrite DT. split.
    + intros (f & Hf & H). apply InT in Hf. destruct Hf as (b & g & Hb & Hg & ->). cbn [fst snd] in H.
      destruct (F8 g Hg) as (G1 & G2 & G3). rewrite !VX in H by assumption.
      destruct (nth b l (0, 0)%nat) as [i j] eqn:E.
      assert (Hij : In (i, j) l) by (rewrite <- E; apply nth_In, Hb). unfold l in Hij. apply in_prod_iff in Hij.
      destruct Hij as [Hi Hj]. apply in_seq in Hi, Hj. exists i, j. split; [lia|]. split; [lia|].
      apply bar_surface. apply Exists_exists. exists g. split; [exact Hg|exact H].
    + intros (i & j & Hi & Hj & H). apply bar_surface in H. apply Exists_exists in H. destruct H as (g & Hg & H).
      assert (Hij : In (i, j) l) by (apply in_prod; apply in_seq; lia).
      destruct (In_nth _ _ (0, 0)%nat Hij) as (b & Hb & E).
      exists (b * 8 + fst (fst g), b * 8 + snd (fst g), b * 8 + snd g)%nat. split; [apply InT; exists b, g; auto|].
      destruct (F8 g Hg) as (G1 & G2 & G3). cbn [fst snd]. rewrite !VX by assumption. rewrite E. exact H.
  - intros q Hq.
    assert (exists f, In f (tris (length l)) /\ (q = fst (fst f) \/ q = snd (fst f) \/ q = snd f)) as (f & Hf & E).
    { destruct Hq as [H|[H|H]]; apply in_map_iff in H; destruct H as (f & <- & Hf); exists f; auto. }
    apply InT in Hf. destruct Hf as (b & g & Hb & Hg & ->). destruct (F8 g Hg) as (G1 & G2 & G3). cbn [fst snd] in E.
    destruct E as [-> | [-> | ->]]; nia.
Qed.
Print Assumptions C149_bars_drawn.

(** Bars do not touch each other. *)
Theorem C149_bars_apart : forall i j i' j' z z' p,
  in_bar i j z p -> in_bar i' j' z' p -> i = i' /\ j = j'.
Proof.
  intros i j i' j' z z' p (X & Y & _) (X' & Y' & _).
  apply Rabs_le_inv in X, Y, X', Y'. split.
  - destruct (Nat.lt_trichotomy i i') as [L|[E|L]]; [|exact E|]; exfalso; apply le_INR in L; rewrite S_INR in L; lra.
  - destruct (Nat.lt_trichotomy j j') as [L|[E|L]]; [|exact E|]; exfalso; apply le_INR in L; rewrite S_INR in L; lra.
Qed.
Print Assumptions C149_bars_apart.

(** Every vertex carries the colour and the hover text (factor counted from 1, feature,
    value) of the bar on which it lies. *)
Theorem C149_labels : forall factors features z q,
  let m := create_mesh3d factors features z in
  (q < length (m_x m))%nat ->
  exists i j, (i < factors)%nat /\ (j < features)%nat /\ on_bar i j (z i j) (vertex_at m q) /\
    nth_error (m_color m) q = Some (z i j) /\ nth_error (m_hover m) q = Some (S i, j, z i j).
Proof.
  intros factors features z q m. set (l := list_prod (seq 0 factors) (seq 0 features)).
  pose proof (mesh_lists z l) as M. unfold m, create_mesh3d. fold l.
  destruct (fold_left _ l _) as [m0 idx]. cbn [fst]. clear m.
  destruct M as (_ & Ex & Ey & Ez & _ & _ & _ & Ec & Eh). intros Hq.
  assert (L8 : forall {B} (f : point -> B) b, length (map f (bv z b)) = 8%nat) by (intros; rewrite map_length; reflexivity).
  rewrite Ex, (length_blocks _ 8) in Hq by (intros; apply L8).
  assert (D := Nat.div_mod q 8 ltac:(lia)). assert (Q8 := Nat.mod_upper_bound q 8 ltac:(lia)).
  set (b := (q / 8)%nat) in *. set (r := (q mod 8)%nat) in *. assert (Hb : (b < length l)%nat) by nia.
  assert (Eq : q = (b * 8 + r)%nat) by lia. clearbody b r. clear D. subst q.
  destruct (nth b l (0, 0)%nat) as [i j] eqn:E.
  assert (Hij : In (i, j) l) by (rewrite <- E; apply nth_In, Hb). unfold l in Hij. apply in_prod_iff in Hij.
  destruct Hij as [Hi Hj]. apply in_seq in Hi, Hj. exists i, j. split; [lia|]. split; [lia|]. split; [|split].
  - unfold vertex_at. rewrite Ex, Ey, Ez.
    rewrite (nth_blocks (fun b => map px (bv z b)) 8 l b r (0, 0)%nat) by (try assumption; intros; apply L8).
    rewrite (nth_blocks (fun b => map py (bv z b)) 8 l b r (0, 0)%nat) by (try assumption; intros; apply L8).
    rewrite (nth_blocks (fun b => map pz (bv z b)) 8 l b r (0, 0)%nat) by (try assumption; intros; apply L8).
    rewrite E. clear - Q8. unfold on_bar, in_bar, bv. cbn [fst snd].
    assert (Ax : Rabs (INR j - bar_width / 2 - INR j) = 425 / 1000) by (unfold bar_width; rewrite Rabs_left; lra).
    assert (Bx : Rabs (INR j + bar_width / 2 - INR j) = 425 / 1000) by (unfold bar_width; rewrite Rabs_right; lra).
    assert (Ay : Rabs (INR i - bar_depth / 2 - INR i) = 175 / 1000) by (unfold bar_depth; rewrite Rabs_left; lra).
    assert (By : Rabs (INR i + bar_depth / 2 - INR i) = 175 / 1000) by (unfold bar_depth; rewrite Rabs_right; lra).
    assert (Z0 : Rmin 0 (z i j) <= 0 <= Rmax 0 (z i j)) by (split; [apply Rmin_l|apply Rmax_l]).
    assert (Z1 : Rmin 0 (z i j) <= z i j <= Rmax 0 (z i j)) by (split; [apply Rmin_r|apply Rmax_r]).
    do 8 (destruct r as [|r]; [split; [split; [apply Req_le; first [exact Ax|exact Bx]|split; [apply Req_le; first [exact Ay|exact By]|first [exact Z0|exact Z1]]]|left; first [exact Ax|exact Bx]]|]). lia.
  - rewrite Ec. rewrite (nth_error_nth' _ (z i j)) by (rewrite (length_blocks _ 8) by (intros; reflexivity); lia).
    rewrite (nth_blocks _ 8 l b r (0, 0)%nat) by (try assumption; intros; reflexivity). rewrite E. cbn [fst snd].
    f_equal. apply nth_repeat.
  - rewrite Eh. rewrite (nth_error_nth' _ (S i, j, z i j)) by (rewrite (length_blocks _ 8) by (intros; reflexivity); lia).
    rewrite (nth_blocks _ 8 l b r (0, 0)%nat) by (try assumption; intros; reflexivity). rewrite E. cbn [fst snd].
    f_equal. apply nth_repeat.
Qed.
Print Assumptions C149_labels.

(** Two factors and two features; the top of the bar of factor 2, feature 1. *)
Example C149_instance :
  let m := create_mesh3d 2 2 (fun i j => INR (i + 2 * j)) in
  length (m_x m) = 32%nat /\ length (m_i m) = 48%nat /\
  drawn m (INR 0, INR 1, 1) /\ ~ drawn m (INR 0, INR 1, 2).
Proof.
  cbv zeta. split; [reflexivity|]. split; [reflexivity|].
  destruct (C149_bars_drawn 2 2 (fun i j => INR (i + 2 * j))) as [D _]. split.
  - apply D. exists 1%nat, 0%nat. split; [lia|]. split; [lia|].
    assert (A0 : Rabs 0 = 0) by apply Rabs_R0.
    unfold on_bar, in_bar, px, py, pz. cbn [fst snd]. rewrite !Rminus_diag_eq by reflexivity. rewrite A0.
    replace (INR (1 + 2 * 0)) with 1 by (cbn; lra). unfold Rmin, Rmax. destruct (Rle_dec 0 1); [|lra]. repeat split; lra.
  - intros H. apply D in H. destruct H as (i & j & Hi & Hj & (X & Y & Z) & S).
    unfold px, py, pz in *. cbn [fst snd] in *. apply Rabs_le_inv in X, Y.
    destruct i as [|[|i]], j as [|[|j]]; try lia; cbn [INR Nat.add Nat.mul] in *; try lra.
    unfold Rmin, Rmax in Z. destruct (Rle_dec 0 1); lra.
Qed.

Example C149_labels_example := C149_labels 2 3 (fun i j => INR (i + j)) 17 ltac:(cbn; lia).

(** A point of bar (1, 2), right of its middle: not in the bar on its left. *)
Example C149_bars_apart_example : in_bar 1 2 3 (21 / 10, 11 / 10, 1) /\ ~ in_bar 1 1 3 (21 / 10, 11 / 10, 1).
Proof.
  assert (P : in_bar 1 2 3 (21 / 10, 11 / 10, 1)).
  { unfold in_bar, px, py, pz. cbn [fst snd INR]. unfold Rmin, Rmax. destruct (Rle_dec 0 3); [|lra]. repeat split; try lra; apply Rabs_le; lra. }
  split; [exact P|]. intros Q. destruct (C149_bars_apart _ _ _ _ _ _ _ P Q) as [_ E]. discriminate E.
Qed.
