(** Specification vocabulary for renumbering meshes. *)
From Coq Require Import String.
From Verif Require Import Prelude S_Map M_Template M_Adj M_Tags M_MeshAdj S_MeshAdj M_Build S_Build M_Box S_Box M_BoxClass S_BoxClass M_Unmap S_Unmap.
Local Open Scope Z_scope.

(** the vertices are in the order [order]; the other entities follow their first vertices, and those with the same first
    vertex stay in the order they had *)
Definition follows_verts (T T' : topology) (maps : Z -> list Z) (order : list Z) : Prop :=
  maps 0 = order /\
  forall d i j a b v w, 1 <= d <= t_dim T -> i < j -> zget (maps d) i = Ok a -> zget (maps d) j = Ok b ->
    let deg := element_degree (t_family T) d 0 in zget (t_verts T' d) (i * deg) = Ok v -> zget (t_verts T' d) (j * deg) = Ok w -> v < w \/ (v = w /\ a < b).

Definition global_of (values : list Z) : tag := mk_tag (name_of "global") OMEGA_H_I64 1 (Some values).
Definition not_global (t : tag) : bool := negb (same_name (tag_name t) (name_of "global")).
(** every dimension has global numbers *)
Definition has_globals (dim : Z) (m : tmesh) : Prop :=
  forall d, 0 <= d <= dim -> exists tags values, zget (t_tags m) d = Ok tags /\ In (global_of values) tags.
(** the tags of [m'] are those of [m], with the values of the listed entities, and the entities are numbered in order *)
Definition tags_renumbered (T : topology) (maps : Z -> list Z) (m m' : tmesh) : Prop :=
  forall d, 0 <= d <= t_dim T -> exists tags kept, zget (t_tags m) d = Ok tags /\ Forall2 (carries (maps d)) (filter not_global tags) kept /\
    zget (t_tags m') d = Ok (kept ++ [global_of (zrange (t_nents T d))]).
(** the global numbers are [g] *)
Definition globals_are (dim : Z) (m : tmesh) (g : Z -> list Z) : Prop :=
  forall d, 0 <= d <= dim -> exists tags, zget (t_tags m) d = Ok tags /\ In (global_of (g d)) tags.

(** there is a key for any coordinates: one integer per dimension of each point *)
Definition gives_keys (keys : list Z -> Z -> res (list Z)) : Prop :=
  forall coords dim n, 1 <= dim <= 3 -> zlen coords = n * dim -> exists k, keys coords dim = Ok k /\ zlen k = n * dim.
(** the mesh [m] has the box as its "coordinates" say; its entities are numbered in order and know the part of the box they are on *)
Definition is_whole_box (f : family) (nx ny nz : Z) (r : tagged_mesh * list (list Z * list Z) * list (string * list (Z * Z))) : Prop :=
  let '(m, classes, sets) := r in let dim := box_dim ny nz in
  exists ev2v T place coords tags0, topology_of f dim ev2v (t_nents T 0) T /\ mesh_of T (m_adj m) /\ well_tagged T (m_tags m) /\
    zget (t_tags (m_tags m)) 0 = Ok tags0 /\ In (mk_tag (name_of "coordinates") OMEGA_H_F64 dim (Some coords)) tags0 /\
    places dim (t_nents T 0) coords place /\ fills_box (cells_along nx ny nz) T place /\
    globals_are dim (m_tags m) (fun d => zrange (t_nents T d)) /\
    classified (cells_along nx ny nz) T place classes /\ class_fits T classes /\ sets = get_box_class_sets dim.
