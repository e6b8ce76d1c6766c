(** Specification vocabulary for the 2D swap. *)
From Coq Require Import Ring_theory.
From Verif Require Import Prelude M_Align M_Template S_Swap3d.
Local Open Scope Z_scope.

(** the rotations of a triangle, which keep its orientation *)
Definition same_turn (t u : list Z) : Prop :=
  match t with [a; b; c] => In u [[a; b; c]; [b; c; a]; [c; a; b]] | _ => False end.
(** twice the signed area *)
Section area.
Context {R : Type} (rO : R) (radd rmul rsub : R -> R -> R).
Definition area (coords : Z -> R * R) (t : list Z) : R :=
  match t with
  | [a; b; c] => let '(ax, ay) := coords a in let '(bx, by_) := coords b in let '(cx, cy) := coords c in
    rsub (rmul (rsub bx ax) (rsub cy ay)) (rmul (rsub by_ ay) (rsub cx ax))
  | _ => rO
  end.
End area.
(** triangles that have both [x] and [y]; an edge is on the boundary when exactly one has *)
Definition edge_users (tris : list (list Z)) (x y : Z) : Z := zlen (filter (fun t => has t x && has t y) tris).
Definition boundary_edge (tris : list (list Z)) (x y : Z) : Prop := x <> y /\ edge_users tris x y = 1.
Definition interior_edge (tris : list (list Z)) (x y : Z) : Prop := x <> y /\ edge_users tris x y = 2.

(** In the mesh given by edge-to-triangle adjacency, edge (e0,e1) has exactly the two triangles [tris],
    one on each side, listed in either order, their vertices starting anywhere, and right codes. *)
Definition two_sides (e2et et2t codes tv2v ev2v : list Z) (edge e0 e1 x y : Z) (tris : list (list Z)) : Prop :=
  exists b, zget e2et edge = Ok b /\
  zget ev2v (edge * 2 + 0) = Ok e0 /\ zget ev2v (edge * 2 + 1) = Ok e1 /\
  mapM (fun u => t <- zget et2t u ;; verts_of 3 tv2v t) [b; b + 1] = Ok tris /\
  (forall i t, zget tris i = Ok t -> exists code, zget codes (b + i) = Ok code /\
     0 <= code_which_down code < 3 /\ 0 <= code_rotation code < 2 /\
     zget t (simplex_down_template 2 1 (code_which_down code) (Z.lxor (code_rotation code) 0)) = Ok e0 /\
     zget t (simplex_down_template 2 1 (code_which_down code) (Z.lxor (code_rotation code) 1)) = Ok e1) /\
  NoDup [e0; e1; x; y] /\
  exists t u, (tris = [t; u] \/ tris = [u; t]) /\ same_turn [e0; e1; x] t /\ same_turn [e1; e0; y] u.
