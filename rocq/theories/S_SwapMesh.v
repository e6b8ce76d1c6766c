(** Specification vocabulary: the cavity of an edge in a tetrahedral mesh. *)
From Coq Require Import Ring_theory.
From Verif Require Import Prelude M_Align M_Template S_Swap3d.
Local Open Scope Z_scope.

(** In the mesh given by edge-to-tet adjacency (offsets, tets, codes) and vertices of edges and tets,
    the tets at [edge] = (e0,e1) are [tets], their alignment codes are right, and they form a closed
    ring around the edge through the vertices [l] (3 to 7 of them). *)
Definition cavity (e2et et2t codes ev2v tv2v : list Z) (edge e0 e1 : Z) (l : list Z) (tets : list (list Z)) : Prop :=
  exists b e, zget e2et edge = Ok b /\ zget e2et (edge + 1) = Ok e /\
  zget ev2v (edge * 2 + 0) = Ok e0 /\ zget ev2v (edge * 2 + 1) = Ok e1 /\
  mapM (fun u => t <- zget et2t u ;; verts_of 4 tv2v t) (zfromto b e) = Ok tets /\
  (forall i t, zget tets i = Ok t -> exists code, zget codes (b + i) = Ok code /\
     code_aligns e0 e1 t (code_which_down code) (code_rotation code) (simplex_down_template 3 1)) /\
  ring_of_tets e0 e1 l tets /\ 3 <= zlen l <= 7.

(** [es], [fs] and [rs], the edges, triangles and tets made in place of [edge], refill its cavity: the
    same total signed volume whatever the coordinates, the same boundary faces; the triangles are the
    interior faces; the edges are the pairs of vertices newly joined; the old edge is gone *)
Definition swapped (e2et et2t codes ev2v tv2v : list Z) (edge : Z) (p : list (list Z) * list (list Z) * list (list Z)) : Prop :=
  let '(es, fs, rs) := p in
  forall e0 e1 l tets, cavity e2et et2t codes ev2v tv2v edge e0 e1 l tets ->
  (forall (R : Type) (rO rI : R) radd rmul rsub ropp, ring_theory rO rI radd rmul rsub ropp eq -> forall c,
     sum_over rO radd (volume rO radd rmul rsub c) rs = sum_over rO radd (volume rO radd rmul rsub c) tets) /\
  (forall x y z, boundary_face rs x y z <-> boundary_face tets x y z) /\
  NoDup fs /\ (forall x y z, NoDup [x; y; z] -> (lists3 fs x y z <-> interior_face rs x y z)) /\
  NoDup es /\ (forall x y, x <> y -> (lists2 es x y <-> share rs x y /\ ~ share tets x y)) /\ ~ share rs e0 e1.
