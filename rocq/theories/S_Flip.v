(** Specification vocabulary for swapping edges of a whole 2D mesh. *)
From Coq Require Import String.
From Verif Require Import Prelude S_Unique S_Swap2d M_Tags M_MeshAdj S_MeshAdj S_RefineMesh.
Local Open Scope Z_scope.

(** triangle [t] is [row], turned *)
Definition triangle (T : topology) (t : Z) (row : list Z) : Prop := exists tv, ent_verts T 2 t tv /\ same_turn row tv.
(** edge [k] from [a] to [b] lies between triangle [t], with corner [x], and triangle [u], with corner [y], on its other side;
    no other triangle has it *)
Definition diamond (T : topology) (k a b x y t u : Z) : Prop :=
  ent_verts T 1 k [a; b] /\ triangle T t [a; b; x] /\ triangle T u [b; a; y] /\ forall e, has_edge T 2 e k -> e = t \/ e = u.

(** edges that can be swapped together: each lies between two triangles; no triangle has two of them; none of the new edges
    exists already, except as one that goes; none is made twice *)
Record swappable (T : topology) (keys : list Z) : Prop := {
  w_dim : t_dim T = 2;
  w_apart : splittable T keys;
  w_between : forall k, In k keys -> exists a b x y t u, diamond T k a b x y t u;
  w_new : forall k a b x y t u e row, In k keys -> diamond T k a b x y t u -> ent_verts T 1 e row -> Permutation row [x; y] -> In e keys;
  w_once : forall k a b x y t u k' a' b' x' y' t' u', In k keys -> In k' keys -> diamond T k a b x y t u -> diamond T k' a' b' x' y' t' u' -> Permutation [x; y] [x'; y'] -> k = k' }.

(** where an entity of the new mesh comes from: an entity that stays; edge [k], which is replaced by an edge (part 0) and by
    two triangles (parts 0 and 1) *)
Inductive swap_origin := Stays (e : Z) | Swapped (k part : Z).
Definition swap_makes (T : topology) (keys : list Z) (d : Z) (o : swap_origin) : Prop :=
  match o with
  | Stays e => 0 <= e < t_nents T d /\ forall k, In k keys -> ~ has_edge T d e k
  | Swapped k p => In k keys /\ (d = 1 /\ p = 0 \/ d = 2 /\ (p = 0 \/ p = 1))
  end.
(** its vertices.  Vertices keep their numbers.  The old triangles of the edge turn a, b, x and b, a, y. *)
Definition swap_verts (T : topology) (d : Z) (o : swap_origin) (row' : list Z) : Prop :=
  match o with
  | Stays e => ent_verts T d e row'
  | Swapped k p => exists a b x y t u, diamond T k a b x y t u /\ row' = if d =? 1 then [x; y] else if p =? 0 then [b; x; y] else [a; y; x]
  end.
(** whose values it gets *)
Definition swap_source (d : Z) (o : swap_origin) : Z * Z := match o with Stays e => (d, e) | Swapped k _ => (1, k) end.
