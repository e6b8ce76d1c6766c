(** C70: renumbering meshes along a curve or by global numbers; building boxes. *)
From Coq Require Import String Sorted.
From Verif Require Import Prelude S_Sort S_Map M_Tags M_Array M_Par M_Scan M_Template M_Adj M_ArrayOps S_ArrayOps M_MeshAdj S_MeshAdj X_MeshAdj M_Build S_Build M_Box S_Box M_BoxClass S_BoxClass M_Unmap S_Unmap X_Unmap M_Reorder S_Reorder P_Reorder P_Reorder2 X_Reorder.
Local Open Scope Z_scope.

(** Given any order of the vertices, the other entities are put in the order of their first vertices, and ties stay as they were.
    The result is the same mesh with other numbers. *)
Theorem entities_follow_their_vertices : forall c c' T m order, valid_topology T -> mesh_of T (m_adj m) -> well_tagged T (m_tags m) -> zlen order = t_nents T 0 -> is_perm order ->
  exists m' T' maps, reorder_mesh_by_verts c c' m order = Ok (Some m') /\ reorders T maps /\ listed T maps T' /\ follows_verts T T' maps order /\
    valid_topology T' /\ mesh_of T' (m_adj m') /\ well_tagged T' (m_tags m') /\ tags_carried (t_dim T) maps (m_tags m) (m_tags m').
Proof. exact vert_reordered. Qed.
(** Along a curve: the vertices are sorted by their keys, ties stay as they were, and afterwards all entities are numbered in order. *)
Theorem vertices_follow_the_curve : forall keys c c' T m tags0 nc coords k, valid_topology T -> mesh_of T (m_adj m) -> well_tagged T (m_tags m) -> has_globals (t_dim T) (m_tags m) ->
  zget (t_tags (m_tags m)) 0 = Ok tags0 -> In (mk_tag (name_of "coordinates") OMEGA_H_F64 nc (Some coords)) tags0 -> keys coords (t_dim T) = Ok k -> zlen k = t_nents T 0 * t_dim T ->
  exists m' T' maps order, reorder_by_hilbert keys c c' m = Ok (Some m') /\ StronglySorted (stably_before k (t_dim T)) order /\ reorders T maps /\ listed T maps T' /\ follows_verts T T' maps order /\
    valid_topology T' /\ mesh_of T' (m_adj m') /\ well_tagged T' (m_tags m') /\ tags_renumbered T maps (m_tags m) (m_tags m').
Proof. exact curve_ordered. Qed.
(** By global numbers: in every dimension the entities are sorted by them. *)
Theorem entities_follow_globals : forall c T m g, valid_topology T -> mesh_of T (m_adj m) -> well_tagged T (m_tags m) -> globals_are (t_dim T) (m_tags m) g ->
  exists m' T' maps, reorder_by_globals c m = Ok (Some m') /\ reorders T maps /\ listed T maps T' /\ (forall d, 0 <= d <= t_dim T -> StronglySorted (stably_before (g d) 1) (maps d)) /\
    valid_topology T' /\ mesh_of T' (m_adj m') /\ well_tagged T' (m_tags m') /\ tags_carried (t_dim T) maps (m_tags m) (m_tags m').
Proof. exact globally_ordered. Qed.
(** build_box: whatever the curve, the number of cells and the interleavings, what is built is a complete, filled, numbered
    and classified box; and there are interleavings in which the building ends. *)
Theorem boxes_are_whole : forall nx ny nz, 0 < nx -> 0 <= ny -> 0 <= nz -> forall keys, gives_keys keys -> forall c c' c1 c2 c3 be f symmetric, loops_covered be ->
  exists o, build_box keys c c' c1 c2 c3 be f nx ny nz symmetric = Ok o /\ forall r, o = Some r -> is_whole_box f nx ny nz r.
Proof. exact whole_box. Qed.
Theorem boxes_get_built : forall nx ny nz, 0 < nx -> 0 <= ny -> 0 <= nz -> forall keys, gives_keys keys -> forall c1 c2 c3 be f symmetric mem mem', loops_covered be ->
  exists first second first' second' r, build_box keys (mk_chance mem first second (fun _ _ => false)) (mk_chance mem' first' second' (fun _ _ => false)) c1 c2 c3 be f nx ny nz symmetric = Ok (Some r).
Proof. exact whole_box_finishes. Qed.
Print Assumptions entities_follow_their_vertices.
Print Assumptions vertices_follow_the_curve.
Print Assumptions entities_follow_globals.
Print Assumptions boxes_are_whole.
Print Assumptions boxes_get_built.

Example numbered_tets : valid_topology tets /\ (exists m, tets_adj = Ok (Some m) /\ mesh_of tets m) /\ well_tagged tets numbered_tags /\ has_globals 3 numbered_tags /\ globals_are 3 numbered_tags tet_globals /\ gives_keys by_axes.
Proof. exact (conj tets_valid (conj tets_mesh (conj numbered_well_tagged (conj (proj1 numbered_globals) (conj (proj2 numbered_globals) axes_give_keys))))). Qed.
Example tets_by_axes : match with_tets (reorder_by_hilbert by_axes in_turn in_turn) with
  | Ok (Some m) => a_adjs (m_adj m) 3 2 = Some (mk_adj [] [3; 4; 2; 0; 5; 6; 2; 1] (Some [0; 0; 0; 0; 0; 0; 5; 0])) /\
      a_adjs (m_adj m) 1 0 = Some (mk_adj [] [0; 1; 0; 3; 1; 2; 1; 3; 2; 4; 2; 0; 3; 2; 4; 1; 4; 0] None) /\
      map (map tag_array) (t_tags (m_tags m)) = [[Some [0; 5; 5; 1; 0; 0; 1; 2; 0; 2; 2; 2; 3; 0; 0]; Some [0; 1; 2; 3; 4]]; [Some (zrange 9)]; [Some (zrange 7)]; [Some [8; 7]; Some [0; 1]]]
  | _ => False end.
Proof. vm_compute. repeat split; reflexivity. Qed.
Example tets_by_globals : match with_tets (reorder_by_globals in_turn) with
  | Ok (Some m) => a_adjs (m_adj m) 1 0 = Some (mk_adj [] [1; 0; 2; 1; 0; 2; 1; 3; 3; 0; 4; 1; 3; 2; 4; 3; 2; 4] None) /\
      map (map tag_array) (t_tags (m_tags m)) = [[Some [0; 10; 20; 30; 40]; Some [2; 2; 2; 0; 5; 5; 1; 2; 0; 1; 0; 0; 3; 0; 0]]; [Some [4; 5; 5; 6; 6; 7; 7; 8; 8]]; [Some [1; 2; 3; 4; 5; 6; 7]]; [Some [3; 9]; Some [8; 7]]]
  | _ => False end.
Proof. vm_compute. repeat split; reflexivity. Qed.
(** two cells of four triangles in all *)
Example small_box : match build_box by_axes in_turn in_turn in_turn in_turn in_turn (fun _ => Serial) OMEGA_H_SIMPLEX 1 2 0 false with
  | Ok (Some (m, classes, sets)) => map (a_nents (m_adj m)) (zrange 3) = [6; 9; 4] /\ zget classes 0 = Ok ([0; 3; 6; 2; 5; 8], [0; 1; 0; 0; 1; 0]) /\ zget classes 2 = Ok ([4; 4; 4; 4], [2; 2; 2; 2]) /\
      map tag_array (match zget (t_tags (m_tags m)) 0 with Ok l => l | _ => [] end) = [Some [0; 0; 0; 2; 0; 4; 2; 0; 2; 2; 2; 4]; Some (zrange 6)] /\ In ("y+"%string, [(1, 7)]) sets
  | _ => False end.
Proof. vm_compute. repeat split; try reflexivity. intuition. Qed.
