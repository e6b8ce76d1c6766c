(** Specification vocabulary for splitting quadrilaterals and hexahedra into simplices. *)
From Verif Require Import Prelude M_Template S_Template S_Align S_Scan.
Local Open Scope Z_scope.

(** where the corners of the reference square and cube are *)
Definition corner (p : Z) : Z * Z * Z :=
  nth (Z.to_nat p) [(0, 0, 0); (1, 0, 0); (1, 1, 0); (0, 1, 0); (0, 0, 1); (1, 0, 1); (1, 1, 1); (0, 1, 1)] (0, 0, 0).
Definition minus (a b : Z * Z * Z) : Z * Z * Z := let '(x, y, z) := a in let '(x', y', z') := b in (x - x', y - y', z - z').
Definition det3 (a b c : Z * Z * Z) : Z :=
  let '(a1, a2, a3) := a in let '(b1, b2, b3) := b in let '(c1, c2, c3) := c in
  a1 * (b2 * c3 - b3 * c2) - a2 * (b1 * c3 - b3 * c1) + a3 * (b1 * c2 - b2 * c1).
(** six times the signed volume of a tetrahedron given by points; by corners of the cube *)
Definition volume6 (t : list (Z * Z * Z)) : Z := match t with [a; b; c; d] => det3 (minus b a) (minus c a) (minus d a) | _ => 0 end.
Definition corner_volume6 (t : list Z) : Z := volume6 (map corner t).

(** [x p] is the vertex at corner [p].  A quadrilateral is cut along the diagonal that contains its smallest vertex. *)
Definition first_diagonal (x : Z -> Z) (q : list Z) : bool :=
  match q with [a; b; c; d] => Z.min (x a) (x c) <? Z.min (x b) (x d) | _ => false end.
Definition halves_by (first : bool) (q : list Z) : list (list Z) :=
  match q with [a; b; c; d] => if first then [[a; b; c]; [c; d; a]] else [[b; c; d]; [d; a; b]] | _ => [] end.
Definition halves (x : Z -> Z) (q : list Z) : list (list Z) := halves_by (first_diagonal x q) q.

(** two triangles that split a quadrilateral: each half is one of them, read in the same direction *)
Definition splits_quad (x : Z -> Z) (tris : list (list Z)) : Prop :=
  zlen tris = 2 /\ forall half, In half (halves x [0; 1; 2; 3]) -> exists t, In t tris /\ forwards half t.

(** the faces of the cube and of a tetrahedron, by corners *)
Definition hex_faces : list (list Z) := map (side_verts OMEGA_H_HYPERCUBE 3 2) (zrange 6).
Definition tet_sides (t : list Z) : list (list Z) := match t with [a; b; c; d] => [[a; c; b]; [a; b; d]; [b; c; d]; [c; a; d]] | _ => [] end.
Definition same_corners (s t : list Z) : bool := forallb (fun a => existsb (Z.eqb a) t) s && forallb (fun a => existsb (Z.eqb a) s) t.
(** in how many tetrahedra the triangle is a side *)
Definition times_used (tri : list Z) (tets : list (list Z)) : Z := zlen (filter (same_corners tri) (flat_map tet_sides tets)).

(** Tetrahedra, by corners, that split the cube: they have positive volume, together that of the cube; the
    halves of the faces of the cube are sides of one of them, and all their other sides are shared by two. *)
Definition splits_hex (x : Z -> Z) (tets : list (list Z)) : Prop :=
  let surface := flat_map (halves x) hex_faces in
  (forall t, In t tets -> 0 < corner_volume6 t) /\ zsum (map corner_volume6 tets) = 6 /\
  (forall tri, In tri surface -> times_used tri tets = 1) /\
  (forall t s, In t tets -> In s (tet_sides t) -> (exists tri, In tri surface /\ same_corners tri s = true) \/ times_used s tets = 2).

(** [m] is the corner with the smallest vertex *)
Definition smallest_at (x : Z -> Z) (m : Z) : Prop := 0 <= m < 8 /\ forall p, 0 <= p < 8 -> p <> m -> x m < x p.

(** The corners in the order in which the cube is looked at when corner [m] has the smallest vertex: [m]
    is in front, low and left. *)
Definition seen_from (m : Z) : list Z :=
  nth (Z.to_nat m) [[0; 1; 2; 3; 4; 5; 6; 7]; [1; 2; 3; 0; 5; 6; 7; 4]; [2; 3; 0; 1; 6; 7; 4; 5]; [3; 0; 1; 2; 7; 4; 5; 6];
                    [4; 7; 6; 5; 0; 3; 2; 1]; [5; 4; 7; 6; 1; 0; 3; 2]; [6; 5; 4; 7; 2; 1; 0; 3]; [7; 6; 5; 4; 3; 2; 1; 0]] [].
(** the faces at the far corner, that corner first: the right one, the one at the back, the one on top *)
Definition far_faces (m : Z) : list (list Z) := map (map (fun p => nth (Z.to_nat p) (seen_from m) 0)) [[6; 5; 1; 2]; [6; 2; 3; 7]; [6; 7; 4; 5]].
(** is the face at the back cut through the far corner exactly if the face on top is *)
Definition back_and_top_agree (x : Z -> Z) (m : Z) : Prop :=
  match far_faces m with [_; back; top] => first_diagonal x back = first_diagonal x top | _ => False end.

(** the corners have distinct vertices; a simplex of [k] distinct corners among [n] *)
Definition distinct_corners (n : Z) (x : Z -> Z) : Prop := forall p q, 0 <= p < n -> 0 <= q < n -> x p = x q -> p = q.
Definition well_cornered (k n : Z) (t : list Z) : Prop := zlen t = k /\ NoDup t /\ Forall (fun p => 0 <= p < n) t.
