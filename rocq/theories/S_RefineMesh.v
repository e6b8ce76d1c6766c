(** Specification vocabulary for splitting edges of a whole mesh. *)
From Coq Require Import String.
From Verif Require Import Prelude M_Template S_Align S_Unique S_Swap3d S_Swap2d S_Refine M_Tags M_MeshAdj S_MeshAdj.
Local Open Scope Z_scope.

(** the vertices of an entity of a simplex mesh; those of a vertex are itself *)
Definition ent_verts (T : topology) (d e : Z) (row : list Z) : Prop :=
  if d =? 0 then 0 <= e < t_nents T 0 /\ row = [e] else row_is (d + 1) (t_verts T d) e row.

(** a mesh of simplices in which no two entities of one dimension have the same vertices, and edges and faces are parts of elements *)
Record simplicial (T : topology) : Prop := {
  s_family : t_family T = OMEGA_H_SIMPLEX;
  s_once : forall d e e' row row', 1 <= d <= t_dim T -> ent_verts T d e row -> ent_verts T d e' row' -> Permutation row row' -> e = e';
  s_pure : forall d e row, 1 <= d < t_dim T -> ent_verts T d e row -> exists e' row', ent_verts T (d + 1) e' row' /\ incl row row' }.

(** entity [e] of dimension [d] has both ends of edge [k] *)
Definition has_edge (T : topology) (d e k : Z) : Prop :=
  exists row a b, ent_verts T d e row /\ ent_verts T 1 k [a; b] /\ In a row /\ In b row.

(** edges that can be split together: no element has two of them *)
Record splittable (T : topology) (keys : list Z) : Prop := {
  k_once : NoDup keys;
  k_edges : forall k, In k keys -> 0 <= k < t_nents T 1;
  k_apart : forall e k k', In k keys -> In k' keys -> has_edge T (t_dim T) e k -> has_edge T (t_dim T) e k' -> k = k' }.

(** where an entity of the new mesh comes from: an entity that stays; an entity with edge [k], of which [side] 0 has the
    first end of [k] replaced by the new vertex, and [side] 1 the second; an entity of one dimension more with edge [k],
    of which it separates the halves *)
Inductive origin := Kept (e : Z) | Half (e k side : Z) | Cut (e k : Z).
Definition makes (T : topology) (keys : list Z) (d : Z) (o : origin) : Prop :=
  match o with
  | Kept e => 0 <= e < t_nents T d /\ forall k, In k keys -> ~ has_edge T d e k
  | Half e k s => 1 <= d /\ In k keys /\ has_edge T d e k /\ (s = 0 \/ s = 1)
  | Cut e k => d < t_dim T /\ In k keys /\ has_edge T (d + 1) e k
  end.
(** its vertices, when [ov] are the new numbers of the old vertices and [mid k] is the vertex on edge [k]: those of the entity
    it comes from, in the same order; or with one end replaced, in the same orientation; or the new vertex and the vertices off the edge *)
Definition made_of (T : topology) (ov mid : Z -> Z) (d : Z) (o : origin) (row' : list Z) : Prop :=
  match o with
  | Kept e => exists row, ent_verts T d e row /\ row' = map ov row
  | Half e k s => exists row a b, ent_verts T d e row /\ ent_verts T 1 k [a; b] /\
      oriented_as d (map (fun x => if x =? (if s =? 0 then a else b) then mid k else ov x) row) row'
  | Cut e k => exists row a b, ent_verts T (d + 1) e row /\ ent_verts T 1 k [a; b] /\
      Permutation row' (mid k :: map ov (filter (fun x => negb (x =? a) && negb (x =? b)) row))
  end.
(** the old entity it lies in *)
Definition source (d : Z) (o : origin) : Z * Z := match o with Kept e => (d, e) | Half e _ _ => (d, e) | Cut e _ => (d + 1, e) end.

(** [T'] is [T] with the edges [keys] split: its entities are exactly those made by the splits, one of each *)
Record refined (T : topology) (keys : list Z) (ov mid : Z -> Z) (from : Z -> Z -> origin) (T' : topology) : Prop := {
  r_family : t_family T' = t_family T;
  r_dim : t_dim T' = t_dim T;
  r_made : forall d e', 0 <= d <= t_dim T -> 0 <= e' < t_nents T' d ->
    makes T keys d (from d e') /\ exists row', ent_verts T' d e' row' /\ made_of T ov mid d (from d e') row';
  r_once : forall d o, 0 <= d <= t_dim T -> makes T keys d o ->
    exists e', 0 <= e' < t_nents T' d /\ from d e' = o /\ forall e'', 0 <= e'' < t_nents T' d -> from d e'' = o -> e'' = e' }.

(** values: those of the old entity each new one lies in *)
Definition inherited {A} (nents' : Z) (ncomps : Z) (data : Z -> list A) (d : Z) (from : Z -> origin) (l : list A) : Prop :=
  zlen l = nents' * ncomps /\ forall e' j, 0 <= e' < nents' -> 0 <= j < ncomps ->
  zget l (e' * ncomps + j) = zget (data (fst (source d (from e')))) (snd (source d (from e')) * ncomps + j).
