(** Specification vocabulary for edge collapses: meshes of simplices seen through their vertices. *)
From Verif Require Import Prelude M_Align M_Template M_Graph M_Adj S_Graph S_Adj.
Local Open Scope Z_scope.

(** [v] is a vertex of entity [c] of dimension [dim] *)
Definition has_vert (dim : Z) (cv2v : list Z) (c v : Z) : Prop := exists j, 0 <= j <= dim /\ zget cv2v (c * (dim + 1) + j) = Ok v.
(** the vertices of an entity differ *)
Definition distinct_verts (dim : Z) (cv2v : list Z) (c : Z) : Prop :=
  forall i j v, 0 <= i <= dim -> 0 <= j <= dim -> zget cv2v (c * (dim + 1) + i) = Ok v -> zget cv2v (c * (dim + 1) + j) = Ok v -> i = j.

(** the entities of dimension [dim] listed at each edge are those that have both its vertices, with
    codes that tell where *)
Definition edge_up_ok (dim nc : Z) (ev2v cv2v : list Z) (e2c : adj) : Prop :=
  wf_adj e2c /\ exists codes, adj_codes e2c = Some codes /\
  forall e v0 v1, 0 <= e < zlen (adj_a2ab e2c) - 1 -> zget ev2v (e * 2 + 0) = Ok v0 -> zget ev2v (e * 2 + 1) = Ok v1 ->
  (forall cs, adj_targets e2c e = Ok cs -> forall c, In c cs <-> 0 <= c < nc /\ has_vert dim cv2v c v0 /\ has_vert dim cv2v c v1) /\
  (forall ec, S_Map.in_group (adj_a2ab e2c) e ec -> exists c code, zget (adj_ab2b e2c) ec = Ok c /\ zget codes ec = Ok code /\
     0 <= code_which_down code < simplex_degree dim 1 /\ 0 <= code_rotation code < 2 /\
     zget cv2v (c * (dim + 1) + simplex_down_template dim 1 (code_which_down code) (Z.lxor (code_rotation code) 0)) = Ok v0 /\
     zget cv2v (c * (dim + 1) + simplex_down_template dim 1 (code_which_down code) (Z.lxor (code_rotation code) 1)) = Ok v1).

(** the sides listed for each entity have the vertices that the template says *)
Definition sides_ok (dim nc ns : Z) (cv2v sv2v cs2s : list Z) : Prop :=
  forall c k, 0 <= c < nc -> 0 <= k <= dim -> exists s, zget cs2s (c * (dim + 1) + k) = Ok s /\ 0 <= s < ns /\
  forall v, has_vert (dim - 1) sv2v s v <-> exists j, 0 <= j < dim /\ zget cv2v (c * (dim + 1) + simplex_down_template dim (dim - 1) k j) = Ok v.

(** [s] is one of the sides of [c] *)
Definition side_of (dim : Z) (cs2s : list Z) (c s : Z) : Prop := exists k, 0 <= k <= dim /\ zget cs2s (c * (dim + 1) + k) = Ok s.

(** some collapse moves vertex [col] along edge [e] onto vertex [onto] *)
Definition collapses (ev2v rails2edges rail_col_dirs : list Z) (col onto : Z) : Prop :=
  exists rail e dir, zget rails2edges rail = Ok e /\ zget rail_col_dirs rail = Ok dir /\ (dir = 0 \/ dir = 1) /\
  zget ev2v (e * 2 + dir) = Ok col /\ zget ev2v (e * 2 + (1 - dir)) = Ok onto.

(** the entities listed at each vertex, with codes telling which of their vertices it is *)
Definition vert_up_ok (dim : Z) (cv2v : list Z) (v2c : adj) : Prop :=
  wf_adj v2c /\ exists codes, adj_codes v2c = Some codes /\
  forall v p c code, S_Map.in_group (adj_a2ab v2c) v p -> zget (adj_ab2b v2c) p = Ok c -> zget codes p = Ok code ->
  0 <= code_which_down code <= dim /\ zget cv2v (c * (dim + 1) + code_which_down code) = Ok v /\ distinct_verts dim cv2v c.

(** the vertex [v] with [col] replaced by [onto] *)
Definition retarget (col onto v : Z) : Z := if v =? col then onto else v.

(** each collapse goes along an existing edge towards one of its ends *)
Definition rails_ok (ne : Z) (ev2v rails2edges rail_col_dirs : list Z) : Prop :=
  zlen ev2v = ne * 2 /\ zlen rail_col_dirs = zlen rails2edges /\
  (forall e, In e rails2edges -> 0 <= e < ne) /\ (forall d, In d rail_col_dirs -> d = 0 \/ d = 1).

(** adjacencies of a simplex mesh, as far as collapses use them *)
Definition simplex_mesh (mesh_dim : Z) (nents : Z -> Z) (verts : Z -> list Z) (edge_up : Z -> adj) (down : Z -> list Z) : Prop :=
  1 <= mesh_dim <= 3 /\ (forall d, 0 <= nents d) /\
  forall d, 2 <= d <= mesh_dim ->
    edge_up_ok d (nents d) (verts 1) (verts d) (edge_up d) /\ zlen (adj_a2ab (edge_up d)) = nents 1 + 1 /\
    sides_ok d (nents d) (nents (d - 1)) (verts d) (verts (d - 1)) (down d) /\
    forall c, 0 <= c < nents d -> distinct_verts d (verts d) c.

(** [c] has both ends of a collapse *)
Definition spans (dim : Z) (cv2v ev2v rails2edges rail_col_dirs : list Z) (c : Z) : Prop :=
  exists col onto, collapses ev2v rails2edges rail_col_dirs col onto /\ has_vert dim cv2v c col /\ has_vert dim cv2v c onto.
(** [s] is the side without the target vertex of an entity that has both ends of a collapse *)
Definition merges (dim nc : Z) (cv2v sv2v cs2s ev2v rails2edges rail_col_dirs : list Z) (s : Z) : Prop :=
  exists c col onto, 0 <= c < nc /\ collapses ev2v rails2edges rail_col_dirs col onto /\ has_vert dim cv2v c col /\ has_vert dim cv2v c onto /\
  side_of dim cs2s c s /\ ~ has_vert (dim - 1) sv2v s onto.

(** an entity that is not marked dead *)
Definition live (dead : list Z) (e : Z) : bool := match zget dead e with Ok m => m =? 0 | _ => false end.

(** what a set of collapses removes in dimension [d]: the collapsed edges, the entities that have both
    ends of a collapse, and, below the top dimension, the sides that coincide with another side afterwards *)
Definition dead_spec (mesh_dim : Z) (nents : Z -> Z) (verts down : Z -> list Z) (rails dirs : list Z) (d x : Z) : Prop :=
  (if d =? 1 then In x rails else 0 <= x < nents d /\ spans d (verts d) (verts 1) rails dirs x) \/
  d < mesh_dim /\ merges (d + 1) (nents (d + 1)) (verts (d + 1)) (verts d) (down (d + 1)) (verts 1) rails dirs x.
