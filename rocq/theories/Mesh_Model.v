(** Model of _create_mesh3d inside ModelAnalysis.plot_all_factors_3d
    (esat/data/analysis.py 582-635): the vertices, triangles, colours and hover texts
    of the 3d bars.  Coordinates are exact reals.  The hover text is the factor number,
    the feature's position and the value (rounding to two digits and names left out).
    Heights come from [Show_Model]; NaN heights are not modelled here. *)
From Coq Require Import Reals List.
Import ListNotations.
Local Open Scope R_scope.

Definition point := (R * R * R)%type.
(** The arguments of go.Mesh3d (626-635). *)
Record mesh := mkMesh { m_x : list R; m_y : list R; m_z : list R; m_i : list nat; m_j : list nat; m_k : list nat;
                        m_color : list R; m_hover : list (nat * nat * R) }.

(** lines 583-584 *)
Definition bar_width : R := 85 / 100.
Definition bar_depth : R := 35 / 100.

(** lines 591-602 *)
Definition vertices (i j : nat) (z1 : R) : list point :=
  let x0 := INR j - bar_width / 2 in let x1 := INR j + bar_width / 2 in
  let y0 := INR i - bar_depth / 2 in let y1 := INR i + bar_depth / 2 in
  let z0 := 0 in
  [(x0, y0, z0); (x1, y0, z0); (x1, y1, z0); (x0, y1, z0);
   (x0, y0, z1); (x1, y0, z1); (x1, y1, z1); (x0, y1, z1)].

(** lines 613-620 *)
Definition faces : list (nat * nat * nat) :=
  [(0, 1, 2); (0, 2, 3); (4, 5, 6); (4, 6, 7); (0, 1, 5); (0, 5, 4);
   (1, 2, 6); (1, 6, 5); (2, 3, 7); (2, 7, 6); (3, 0, 4); (3, 4, 7)]%nat.

(** lines 590-625: one bar; the second component is idx. *)
Definition add_bar (z_data : nat -> nat -> R) (st : mesh * nat) (ij : nat * nat) : mesh * nat :=
  let (m, idx) := st in let (i, j) := ij in
  let z1 := z_data i j in
  let vs := vertices i j z1 in
  let v := (idx * 8)%nat in
  (mkMesh (m_x m ++ map (fun q => fst (fst q)) vs) (m_y m ++ map (fun q => snd (fst q)) vs) (m_z m ++ map snd vs)
          (m_i m ++ map (fun f => v + fst (fst f))%nat faces) (m_j m ++ map (fun f => v + snd (fst f))%nat faces)
          (m_k m ++ map (fun f => v + snd f)%nat faces)
          (m_color m ++ repeat z1 8) (m_hover m ++ repeat (S i, j, z1) 8),
   S idx).

(** lines 586-635 *)
Definition create_mesh3d (factors features : nat) (z_data : nat -> nat -> R) : mesh :=
  fst (fold_left (add_bar z_data) (list_prod (seq 0 factors) (seq 0 features))
         (mkMesh [] [] [] [] [] [] [] [], 0%nat)).
