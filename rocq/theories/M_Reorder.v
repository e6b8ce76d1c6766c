(** Model of renumbering the entities of a mesh on one rank: src/Omega_h_reorder.cpp; and of building a box: src/Omega_h_build.cpp:136-153 *)
From Coq Require Import String.
From Verif Require Import Prelude M_Array M_Par M_Scan M_Sort M_Map M_Graph M_Template M_Align M_Adj M_ArrayOps M_Build M_Box M_BoxClass M_Tags M_MeshAdj M_Unmap.
Local Open Scope Z_scope.

(** src/Omega_h_reorder.cpp:19-25 find_entities_of_first_vertices.  ask_verts_of (src/Omega_h_mesh.cpp:246) is ask_adj(ent_dim, VERT).ab2b. *)
Definition find_entities_of_first_vertices (c : chance) (m : amesh) (ent_dim : Z) : res (option (amesh * graph)) :=
  r <~ ask_adj c m ent_dim 0 ;;
  let deg := element_degree (a_family m) ent_dim 0 in
  e2fv <- component (adj_ab2b (snd r)) deg 0 ;;
  _ <- check_dim2 (fst r) 0 ;;
  fv2e <- invert_map_by_sorting e2fv (a_nents (fst r) 0) ;;
  Ok (Some (fst r, mk_graph (fst fv2e) (snd fv2e))).

(** src/Omega_h_reorder.cpp:27-43 ent_order_from_vert_order *)
Definition ent_order_from_vert_order (c : chance) (m : amesh) (ent_dim : Z) (new_verts2old_verts : list Z) : res (option (amesh * list Z)) :=
  _ <- check_dim2 m 0 ;;
  _ <- check (zlen new_verts2old_verts =? a_nents m 0) ;;
  r <~ find_entities_of_first_vertices c m ent_dim ;;
  let m := fst r in let old_verts2old_ents := snd r in
  _ <- check (zlen (a2ab old_verts2old_ents) =? a_nents m 0 + 1) ;;
  last <- last_of (a2ab old_verts2old_ents) ;;
  _ <- check_dim2 m ent_dim ;;
  _ <- check (last =? a_nents m ent_dim) ;;
  _ <- check (zlen (ab2b old_verts2old_ents) =? a_nents m ent_dim) ;;
  new_verts2old_ents <- unmap_graph new_verts2old_verts old_verts2old_ents ;;
  _ <- check (zlen (a2ab new_verts2old_ents) =? a_nents m 0 + 1) ;;
  last <- last_of (a2ab new_verts2old_ents) ;;
  _ <- check (last =? a_nents m ent_dim) ;;
  _ <- check (zlen (ab2b new_verts2old_ents) =? a_nents m ent_dim) ;;
  Ok (Some (m, ab2b new_verts2old_ents)).

(** the loop of src/Omega_h_reorder.cpp:48-51 *)
Fixpoint ent_orders (c : chance) (m : amesh) (new_verts2old_verts : list Z) (new_ents2old_ents : Z -> list Z) (dims : list Z) : res (option (amesh * (Z -> list Z))) :=
  match dims with
  | [] => Ok (Some (m, new_ents2old_ents))
  | ent_dim :: dims =>
    r <~ ent_order_from_vert_order c m ent_dim new_verts2old_verts ;;
    ent_orders c (fst r) new_verts2old_verts (fun d => if d =? ent_dim then snd r else new_ents2old_ents d) dims
  end.
(** src/Omega_h_reorder.cpp:45-53 reorder_mesh_by_verts; [c'] is the chance of the requests of unmap_mesh *)
Definition reorder_mesh_by_verts (c c' : chance) (m : tagged_mesh) (new_verts2old_verts : list Z) : res (option tagged_mesh) :=
  r <~ ent_orders c (m_adj m) new_verts2old_verts (fun d => if d =? 0 then new_verts2old_verts else []) (zfromto 1 (a_dim (m_adj m) + 1)) ;;
  unmap_mesh c' (mk_tagged (fst r) (m_tags m)) (snd r).

(** the loop of src/Omega_h_reorder.cpp:61-64 *)
Definition number_entities (m : tmesh) (ent_dim : Z) : res tmesh :=
  m <- remove_tag m ent_dim (name_of "global") ;;
  n <- M_Tags.nents m ent_dim ;;
  add_tag m OMEGA_H_I64 ent_dim (name_of "global") 1 (Some (zrange n)) false.
(** src/Omega_h_reorder.cpp:55-65 reorder_by_hilbert, on one rank.  [keys] is what dists_from_coords (src/Omega_h_hilbert.cpp:49-54) makes of
    the coordinates: as many integers as the mesh has dimensions per vertex.  M_Hilbert models how they are made. *)
Definition reorder_by_hilbert (keys : list Z -> Z -> res (list Z)) (c c' : chance) (m : tagged_mesh) : res (option tagged_mesh) :=
  coords <- get_array (m_tags m) OMEGA_H_F64 0 (name_of "coordinates") ;;
  k <- keys (match coords with Some a => a | None => [] end) (a_dim (m_adj m)) ;;
  new_verts2old_verts <- sort_by_keys k (a_dim (m_adj m)) ;;
  m <~ reorder_mesh_by_verts c c' m new_verts2old_verts ;;
  tags <- foldM number_entities (zrange (a_dim (m_adj m) + 1)) (m_tags m) ;;
  Ok (Some (mk_tagged (m_adj m) tags)).

(** src/Omega_h_reorder.cpp:67-73 reorder_by_globals *)
Definition global_order (m : tmesh) (ent_dim : Z) : res (list Z) :=
  globals <- get_array m OMEGA_H_I64 ent_dim (name_of "global") ;; sort_by_keys (match globals with Some a => a | None => [] end) 1.
Definition reorder_by_globals (c : chance) (m : tagged_mesh) : res (option tagged_mesh) :=
  orders <- mapM (global_order (m_tags m)) (zrange (a_dim (m_adj m) + 1)) ;;
  unmap_mesh c m (fun d => match zget orders d with Ok l => l | _ => [] end).

(** A placed mesh (M_Box) with its tags: "global" in every dimension and then, on the vertices, "coordinates". *)
Definition global_tag (globals : list Z) : tag := mk_tag (name_of "global") OMEGA_H_I64 1 (Some globals).
Definition with_tags_of (p : placed) : tagged_mesh :=
  let m := b_mesh (p_built p) in
  let globals d := if d <=? a_dim m then match b_globals (p_built p) d with Some g => [global_tag g] | None => [] end else [] in
  mk_tagged m (mk_tmesh (a_dim m) (map (a_nents m) (zrange 4))
    [globals 0 ++ [mk_tag (name_of "coordinates") OMEGA_H_F64 (a_dim m) (Some (p_coords p))]; globals 1; globals 2; globals 3]).

(** src/Omega_h_build.cpp:136-153 build_box on one rank, where set_comm and balance change nothing.  Lengths are in units of half a
    cell, as in M_Box and M_BoxClass; [keys] is applied to coordinates in these units.  The result is the mesh, the class_id
    and class_dim of the entities, and the class sets. *)
Definition build_box (keys : list Z -> Z -> res (list Z)) (c c' c1 c2 c3 : chance) (be : Z -> backend) (f : family) (nx ny nz : Z) (symmetric : bool) :
  res (option (tagged_mesh * list (list Z * list Z) * list (string * list (Z * Z)))) :=
  p <~ build_box_internal c c' be f nx ny nz symmetric ;;
  m <~ reorder_by_hilbert keys c1 c2 (with_tags_of p) ;;
  coords <- get_array (m_tags m) OMEGA_H_F64 0 (name_of "coordinates") ;;
  r <~ classify_box c3 (m_adj m) (match coords with Some a => a | None => [] end) nx ny nz ;;
  Ok (Some (mk_tagged (fst r) (m_tags m), snd r, get_box_class_sets (a_dim (m_adj m)))).
