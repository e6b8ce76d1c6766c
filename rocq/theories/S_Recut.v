(** Specification vocabulary for swapping edges of a whole 3D mesh. *)
From Coq Require Import String.
From Verif Require Import Prelude S_Unique M_SwapTables M_Swap3d S_Swap3d M_Tags M_MeshAdj S_MeshAdj S_RefineMesh.
Local Open Scope Z_scope.

(** the tets of edge [k], from [e0] to [e1], are those through [e0], [e1] and two successive vertices of the closed loop [l], turned
    in this order; the loop starts at the tet with the least number *)
Definition ring_around (T : topology) (k e0 e1 : Z) (l : list Z) : Prop :=
  ent_verts T 1 k [e0; e1] /\ NoDup (e0 :: e1 :: l) /\ 3 <= zlen l <= 7 /\
  (forall t, has_edge T 3 t k -> exists x y tv, In (x, y) (cycle l) /\ ent_verts T 3 t tv /\ same_orientation [e0; e1; x; y] tv) /\
  (forall x y, In (x, y) (cycle l) -> exists t tv, ent_verts T 3 t tv /\ same_orientation [e0; e1; x; y] tv) /\
  exists t tv x y l', l = x :: y :: l' /\ ent_verts T 3 t tv /\ same_orientation [e0; e1; x; y] tv /\ forall t', has_edge T 3 t' k -> t <= t'.
(** configuration [m] of the polygon with [n] vertices: it is cut along the diagonals [D] (which [m] is which cut: C36) *)
Definition cut_along (n m : Z) (D : list (Z * Z)) : Prop :=
  (exists count, zget swap_mesh_counts n = Ok count /\ 0 <= m < count) /\ triangulation n D /\ exists E, config_edges n m = Ok E /\ names E D.
(** edge [k] has the loop [l] around it, which is to be cut along [D] *)
Definition recut (T : topology) (configs : list Z) (k e0 e1 : Z) (l : list Z) (D : list (Z * Z)) : Prop :=
  ring_around T k e0 e1 l /\ exists m, zget configs k = Ok m /\ cut_along (zlen l) m D.
(** a new edge, between the vertices at positions [a] and [b] of the loop *)
Definition new_edge (T : topology) (configs : list Z) (k x y : Z) : Prop :=
  exists e0 e1 l D a b, recut T configs k e0 e1 l D /\ In (a, b) D /\ zget l a = Ok x /\ zget l b = Ok y.

(** edges that can be swapped together: each is inside a loop of 3 to 7 tets; no tet has two of them; none of the new edges exists
    already, except as one that goes, and none is made twice; and the same for the triangle that replaces an edge of three tets *)
Record recuttable (T : topology) (keys configs : list Z) : Prop := {
  x_dim : t_dim T = 3;
  x_apart : splittable T keys;
  x_inside : forall k, In k keys -> exists e0 e1 l D, recut T configs k e0 e1 l D;
  x_new : forall k x y e row, In k keys -> new_edge T configs k x y -> ent_verts T 1 e row -> Permutation row [x; y] -> In e keys;
  x_once : forall k x y k' x' y', In k keys -> In k' keys -> new_edge T configs k x y -> new_edge T configs k' x' y' -> Permutation [x; y] [x'; y'] -> k = k';
  x_face : forall k e0 e1 x y z e row, In k keys -> ring_around T k e0 e1 [x; y; z] -> ent_verts T 2 e row -> ~ Permutation row [x; y; z];
  x_face_once : forall k e0 e1 x y z k' e0' e1' x' y' z', In k keys -> In k' keys -> ring_around T k e0 e1 [x; y; z] -> ring_around T k' e0' e1' [x'; y'; z'] ->
    Permutation [x; y; z] [x'; y'; z'] -> k = k' }.

(** where an entity of the new mesh comes from: an entity that stays; a diagonal of the loop of edge [k]; a diagonal and end [s] of
    the edge; a triangle of the loop; a triangle and end [s] of the edge *)
Inductive recut_origin := Stands (e : Z) | Diag (k a b : Z) | Wall (k a b s : Z) | Plane (k a b c : Z) | Wedge (k a b c s : Z).
Definition recut_makes (T : topology) (keys configs : list Z) (d : Z) (o : recut_origin) : Prop :=
  match o with
  | Stands e => 0 <= e < t_nents T d /\ forall k, In k keys -> ~ has_edge T d e k
  | Diag k a b => d = 1 /\ In k keys /\ exists e0 e1 l D, recut T configs k e0 e1 l D /\ In (a, b) D
  | Wall k a b s => d = 2 /\ In k keys /\ (s = 0 \/ s = 1) /\ exists e0 e1 l D, recut T configs k e0 e1 l D /\ In (a, b) D
  | Plane k a b c => d = 2 /\ In k keys /\ exists e0 e1 l D, recut T configs k e0 e1 l D /\ triangle (zlen l) D a b c
  | Wedge k a b c s => d = 3 /\ In k keys /\ (s = 0 \/ s = 1) /\ exists e0 e1 l D, recut T configs k e0 e1 l D /\ triangle (zlen l) D a b c
  end.
(** its vertices.  Vertices keep their numbers.  The old tets turn e0, e1, l_i, l_i+1. *)
Definition recut_verts (T : topology) (configs : list Z) (d : Z) (o : recut_origin) (row' : list Z) : Prop :=
  match o with
  | Stands e => ent_verts T d e row'
  | Diag k a b => exists e0 e1 l D x y, recut T configs k e0 e1 l D /\ zget l a = Ok x /\ zget l b = Ok y /\ Permutation row' [x; y]
  | Wall k a b s => exists e0 e1 l D x y, recut T configs k e0 e1 l D /\ zget l a = Ok x /\ zget l b = Ok y /\ Permutation row' [x; y; if s =? 0 then e0 else e1]
  | Plane k a b c => exists e0 e1 l D x y z, recut T configs k e0 e1 l D /\ zget l a = Ok x /\ zget l b = Ok y /\ zget l c = Ok z /\ row' = [x; y; z]
  | Wedge k a b c s => exists e0 e1 l D x y z, recut T configs k e0 e1 l D /\ zget l a = Ok x /\ zget l b = Ok y /\ zget l c = Ok z /\ row' = if s =? 0 then [x; z; y; e0] else [x; y; z; e1]
  end.
(** whose values it gets *)
Definition recut_source (d : Z) (o : recut_origin) : Z * Z :=
  match o with Stands e => (d, e) | Diag k _ _ => (1, k) | Wall k _ _ _ => (1, k) | Plane k _ _ _ => (1, k) | Wedge k _ _ _ _ => (1, k) end.
