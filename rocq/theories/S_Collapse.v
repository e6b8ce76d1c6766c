(** Specification vocabulary for collapsing edges of a whole mesh. *)
From Coq Require Import String.
From Verif Require Import Prelude M_Template S_Unique M_Tags M_MeshAdj S_MeshAdj S_RefineMesh.
Local Open Scope Z_scope.

Section collapse.
(** the mesh, the global numbers of its edges, the vertices that go, and for each vertex the global number of the edge along
    which it goes *)
Context (T : topology) (globals keys rails : list Z).

(** vertex [v] goes onto vertex [w] *)
Definition goes (v w : Z) : Prop :=
  In v keys /\ exists g k row, zget rails v = Ok g /\ zget globals k = Ok g /\ ent_verts T 1 k row /\ Permutation row [v; w].
(** [v] becomes [w]: it goes there, or is there and stays *)
Definition becomes (v w : Z) : Prop := goes v w \/ ~ In v keys /\ w = v.
(** an entity with these vertices has both ends of a collapse: it shrinks to something of lower dimension *)
Definition shrinks (row : list Z) : Prop := exists v w, goes v w /\ In v row /\ In w row.
(** an entity of dimension [d] with these vertices does not stay on its own: it shrinks, or it has a vertex that goes and is part
    of an entity of one dimension more that shrinks, so that the part of it at the other end takes its place *)
Definition falls (d : Z) (row : list Z) : Prop :=
  exists v w, goes v w /\ In v row /\ (In w row \/ d < t_dim T /\ exists e row', ent_verts T (d + 1) e row' /\ incl row row' /\ In w row').

(** collapses that can be done together: each vertex that goes has an edge to go along; no edge has two vertices that go; entities
    that do not fall do not become the same; each entity that does not shrink ends up in one of more dimensions that does not
    shrink either *)
Record collapsible : Prop := {
  c_once : NoDup keys;
  c_globals : zlen globals = t_nents T 1 /\ NoDup globals;
  c_goes : forall v, In v keys -> exists w, goes v w;
  c_apart : forall k a b, ent_verts T 1 k [a; b] -> In a keys -> In b keys -> False;
  c_link : forall d e e' row row' to to', 1 <= d <= t_dim T -> ent_verts T d e row -> ent_verts T d e' row' -> ~ falls d row -> ~ falls d row' ->
    Forall2 becomes row to -> Forall2 becomes row' to' -> Permutation to to' -> e = e';
  c_left : forall d e row to, 1 <= d < t_dim T -> ent_verts T d e row -> ~ shrinks row -> Forall2 becomes row to ->
    exists h hrow hto, ent_verts T (d + 1) h hrow /\ ~ shrinks hrow /\ Forall2 becomes hrow hto /\ incl to hto }.

(** what makes up the new mesh: the old entities that do not fall *)
Definition collapse_makes (d e : Z) : Prop := exists row, ent_verts T d e row /\ ~ falls d row.
(** its vertices: those, in the same order, that the old ones become; [from] tells which old vertices the new ones are *)
Definition collapse_verts (from : Z -> Z) (d e : Z) (row' : list Z) : Prop := exists row, ent_verts T d e row /\ Forall2 becomes row (map from row').
(** each old entity that does not shrink is there in the new mesh *)
Definition covered (from : Z -> Z) (T' : topology) : Prop := forall d e row to, 1 <= d <= t_dim T -> ent_verts T d e row -> ~ shrinks row -> Forall2 becomes row to ->
  exists e' row', ent_verts T' d e' row' /\ Permutation (map from row') to.
End collapse.
