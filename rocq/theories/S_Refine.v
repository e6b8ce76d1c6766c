(** Specification vocabulary for edge splits. *)
From Coq Require Import Ring_theory Permutation.
From Verif Require Import Prelude M_Align M_Template M_Adj S_Map S_Graph S_Adj S_Swap3d S_Swap2d S_Coarsen.
Local Open Scope Z_scope.

(** the vertices in the new numbering, with [gone] replaced by the new vertex [mid] *)
Definition replaced (old2new : list Z) (gone mid x : Z) : res Z := if x =? gone then Ok mid else zget old2new x.
(** the same simplex with the same orientation *)
Definition oriented_as (dim : Z) (t u : list Z) : Prop := if dim =? 3 then same_orientation t u else if dim =? 2 then same_turn t u else t = u.

(** the two children of the entity with vertices [vs] when edge (a,b) is split by [mid]: it with [a]
    replaced, and it with [b] replaced *)
Definition children (dim : Z) (old2new vs : list Z) (a b mid : Z) (p : list Z * list Z) : Prop :=
  exists ca cb, mapM (replaced old2new a mid) vs = Ok ca /\ mapM (replaced old2new b mid) vs = Ok cb /\
  oriented_as dim ca (fst p) /\ oriented_as dim cb (snd p).
(** the entity that separates them: [mid] and the vertices other than [a] and [b], in any order *)
Definition separator (old2new vs : list Z) (a b mid : Z) (c : list Z) : Prop :=
  exists others, mapM (zget old2new) (filter (fun x => negb (x =? a) && negb (x =? b)) vs) = Ok others /\ Permutation c (mid :: others).

(** adjacencies of a simplex mesh, as far as splits use them *)
Definition split_mesh (mesh_dim : Z) (nents : Z -> Z) (verts : Z -> list Z) (edge_up : Z -> adj) : Prop :=
  1 <= mesh_dim <= 3 /\ (forall d, 1 <= d <= mesh_dim -> zlen (verts d) = nents d * (d + 1)) /\
  forall d, 2 <= d <= mesh_dim ->
    edge_up_ok d (nents d) (verts 1) (verts d) (edge_up d) /\ zlen (adj_a2ab (edge_up d)) = nents 1 + 1 /\
    forall c, 0 <= c < nents d -> distinct_verts d (verts d) c.

(** pairs listed one after the other *)
Definition unpair {A} (l : list (A * A)) : list A := concat (map (fun p => [fst p; snd p]) l).

(** signed measure of a triangle or tet in coordinates of a commutative ring, and the point at
    parameter [t] between two points *)
Section geometry.
Context {R : Type} (rO rI : R) (radd rmul rsub : R -> R -> R).
Definition between2 (t : R) (p q : R * R) : R * R :=
  let '(p0, p1) := p in let '(q0, q1) := q in
  (radd (rmul (rsub rI t) p0) (rmul t q0), radd (rmul (rsub rI t) p1) (rmul t q1)).
Definition between3 (t : R) (p q : R * R * R) : R * R * R :=
  let '(p0, p1, p2) := p in let '(q0, q1, q2) := q in
  (radd (rmul (rsub rI t) p0) (rmul t q0), radd (rmul (rsub rI t) p1) (rmul t q1), radd (rmul (rsub rI t) p2) (rmul t q2)).
End geometry.
