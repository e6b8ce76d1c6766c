(** Specification vocabulary: what the adjacencies of a mesh mean, from the vertices of its entities. *)
From Verif Require Import Prelude M_Graph S_Graph M_Template S_Align S_Unique M_Align M_Adj S_Adj S_Transit S_Across M_MeshAdj.
Local Open Scope Z_scope.

(** [t_verts T d]: the vertices of the entities of dimension [d], row by row;
    [t_down T d]: the entities of dimension [d - 1] on the sides of those of dimension [d], and codes *)
Record topology := mk_topology { t_family : family; t_dim : Z; t_nents : Z -> Z; t_verts : Z -> list Z; t_down : Z -> adj }.

Record valid_topology (T : topology) : Prop := {
  v_dim : 1 <= t_dim T <= 3;
  v_nents : forall d, 0 <= d <= t_dim T -> 0 <= t_nents T d;
  v_verts : forall d, 1 <= d <= t_dim T -> zlen (t_verts T d) = t_nents T d * element_degree (t_family T) d 0 /\
    rows_distinct (element_degree (t_family T) d 0) (t_verts T d) /\ forall v, In v (t_verts T d) -> 0 <= v < t_nents T 0;
  v_edges : t_down T 1 = mk_adj [] (t_verts T 1) None;
  v_down : forall d, 2 <= d <= t_dim T -> exists ab codes, t_down T d = mk_adj [] ab (Some codes) /\
    zlen ab = t_nents T d * element_degree (t_family T) d (d - 1) /\ zlen codes = zlen ab /\
    reflects (t_family T) d (d - 1) (t_verts T d) (t_verts T (d - 1)) ab codes }.

(** no side has more than two elements *)
Definition manifold (T : topology) : Prop :=
  forall s, 0 <= s < t_nents T (t_dim T - 1) -> zlen (uses_of (adj_ab2b (t_down T (t_dim T))) s) <= 2.

(** downward: the vertices of an entity in order; or its sides, with codes that align them *)
Definition means_down (T : topology) (from to : Z) (a : adj) : Prop :=
  if to =? 0 then a = mk_adj [] (t_verts T from) None
  else exists ab codes, a = mk_adj [] ab (Some codes) /\ zlen ab = t_nents T from * element_degree (t_family T) from to /\
    zlen codes = zlen ab /\ reflects (t_family T) from to (t_verts T from) (t_verts T to) ab codes.

(** upward: for each entity the places where it is used, in increasing order *)
Definition means_up (T : topology) (from to : Z) (a : adj) : Prop :=
  exists d, means_down T to from d /\ lists_uses (element_degree (t_family T) to from) (t_nents T from) (adj_ab2b d) (adj_codes d) a.

(** within a dimension: elements through sides, vertices through edges, edges through triangles and,
    in three dimensions, then edges opposite in tetrahedra *)
Definition means_across (T : topology) (d : Z) (a : adj) : Prop :=
  adj_codes a = None /\ wf_graph (to_graph a) /\ nnodes (to_graph a) = t_nents T d /\
  if d =? t_dim T then
    forall e, 0 <= e < t_nents T d -> adj_targets a e = Ok (across_sides (t_dim T + 1) (adj_ab2b (t_down T d)) e)
  else if d =? 0 then
    forall v, 0 <= v < t_nents T 0 -> adj_targets a v = mapM (fun u => zget (t_verts T 1) (u / 2 * 2 + (1 - u mod 2))) (uses_of (t_verts T 1) v)
  else forall e, 0 <= e < t_nents T 1 -> exists rs,
    mapM (next_edges (adj_ab2b (t_down T 2))) (uses_of (adj_ab2b (t_down T 2)) e) = Ok rs /\
    if t_dim T =? 2 then adj_targets a e = Ok (concat rs)
    else exists r2e ts, means_down T 3 1 r2e /\
      mapM (fun u => zget (adj_ab2b r2e) (u / 6 * 6 + simplex_opposite_template 3 1 (u mod 6))) (uses_of (adj_ab2b r2e) e) = Ok ts /\
      adj_targets a e = Ok (concat rs ++ ts).

Definition means (T : topology) (from to : Z) (a : adj) : Prop :=
  if to <? from then means_down T from to a else if from <? to then means_up T from to a else means_across T from a.

(** the graph from the entities of one dimension to those of another: the parts of an entity in order; the entities
    it is part of; itself *)
Definition means_graph (T : topology) (from to : Z) (g : graph) : Prop :=
  wf_graph g /\ nnodes g = t_nents T from /\
  forall e, 0 <= e < t_nents T from ->
  if to <? from then exists d, means_down T from to d /\ let n := element_degree (t_family T) from to in
    targets g e = mapM (zget (adj_ab2b d)) (zfromto (e * n) ((e + 1) * n))
  else if from <? to then exists d, means_down T to from d /\
    targets g e = Ok (map (fun u => u / element_degree (t_family T) to from) (uses_of (adj_ab2b d) e))
  else targets g e = Ok [e].

(** the requests that have an answer: different dimensions; in simplex meshes also elements, vertices
    and edges among themselves *)
Definition answerable (T : topology) (from to : Z) : Prop :=
  0 <= from <= t_dim T /\ 0 <= to <= t_dim T /\
  (from <> to \/ (t_family T = OMEGA_H_SIMPLEX /\ manifold T /\ (from = t_dim T \/ from <= 1))).

(** the entities given to set_ents in this history are those of [T] *)
Definition builds (T : topology) (es : list aevent) : Prop :=
  forall d a, In (SetEnts d a) es -> a = t_down T d.

(** all dimensions have been set *)
Definition complete (T : topology) (m : amesh) : Prop := forall d, 0 <= d <= t_dim T -> 0 <= a_nents m d.
