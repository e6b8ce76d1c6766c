(** Specification vocabulary for meshes built from their elements. *)
From Verif Require Import Prelude M_Template S_Align S_Unique S_Match M_MeshAdj S_MeshAdj.
Local Open Scope Z_scope.

(** [sides] lists, by vertices, the sides of dimension [d] of the elements: each entry is a side of an
    element, and each side of an element is the polygon of exactly one entry *)
Definition sides_once (f : family) (dim d : Z) (ev2v sides : list Z) : Prop :=
  (forall e row, row_is (element_degree f d 0) sides e row -> exists h u, is_side f dim d ev2v h u row) /\
  (forall h u row, is_side f dim d ev2v h u row -> exists e, matches (element_degree f d 0) sides row e /\ forall e', matches (element_degree f d 0) sides row e' -> e' = e).

(** the topology of the mesh with these elements and all their sides *)
Definition topology_of (f : family) (dim : Z) (ev2v : list Z) (nverts : Z) (T : topology) : Prop :=
  valid_topology T /\ t_family T = f /\ t_dim T = dim /\ t_nents T 0 = nverts /\ t_verts T dim = ev2v /\
  forall d, 1 <= d < dim -> sides_once f dim d ev2v (t_verts T d).

(** [m] holds the entities of [T], all of them, and whatever was derived from them *)
Definition mesh_of (T : topology) (m : amesh) : Prop :=
  exists m0 es, new_mesh (t_family T) (t_dim T) (t_nents T 0) = Ok m0 /\ builds T es /\ run_aevents m0 es = Ok (Some m) /\ complete T m.

(** elements of [dim] dimensions on [nverts] vertices: whole rows of distinct vertices that exist *)
Definition proper_elements (f : family) (dim : Z) (ev2v : list Z) (nverts : Z) : Prop :=
  1 <= dim <= 3 /\ 0 <= nverts /\ (exists ne, zlen ev2v = ne * element_degree f dim 0) /\
  rows_distinct (element_degree f dim 0) ev2v /\ forall v, In v ev2v -> 0 <= v < nverts.
