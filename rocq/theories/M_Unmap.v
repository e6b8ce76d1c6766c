(** Model of picking and renumbering the entities of a mesh on one rank: src/Omega_h_unmap_mesh.cpp *)
From Coq Require Import String.
From Verif Require Import Prelude M_Array M_Par M_Scan M_Sort M_Map M_Template M_Align M_Adj M_MeshAdj M_Tags.
Local Open Scope Z_scope.

(** A mesh with both its adjacencies and its tags.  The dimension and the numbers of entities are members that both halves
    read; they are kept in both here.  Parents are not modelled here: unmap_mesh touches them only in meshes that have some
    (src/Omega_h_unmap_mesh.cpp:137-141). *)
Record tagged_mesh := mk_tagged { m_adj : amesh; m_tags : tmesh }.

(** src/Omega_h_mesh.cpp:722-732 copy_meta, then set_verts (:85): no tags, and no entities but the vertices.  What else copy_meta
    copies (the communicator, parting, layers of ghosts, hints for partitioning and class sets) nothing here depends on. *)
Definition copy_meta (m : tagged_mesh) (nverts : Z) : res tagged_mesh :=
  a <- new_mesh (a_family (m_adj m)) (a_dim (m_adj m)) nverts ;;
  Ok (mk_tagged a (mk_tmesh (a_dim (m_adj m)) [nverts; -1; -1; -1] [[]; []; []; []])).

(** src/Omega_h_mesh.cpp:87-95 set_ents *)
Definition mesh_set_ents (m : tagged_mesh) (d : Z) (down : adj) : res tagged_mesh :=
  a <- set_ents (m_adj m) d down ;;
  ns <- zset (t_nents (m_tags m)) d (a_nents a d) ;;
  Ok (mk_tagged a (mk_tmesh (t_dim (m_tags m)) ns (t_tags (m_tags m)))).

(** src/Omega_h_unmap_mesh.cpp:12-31 unmap_tags.  Reading from an array that does not exist is undefined; it is empty here. *)
Definition unmap_tag (old new : tmesh) (ent_dim : Z) (new_ents2old_ents : list Z) (i : Z) : res tmesh :=
  t <- get_tag_i old ent_dim i ;;
  if (tag_type t =? OMEGA_H_I8) || (tag_type t =? OMEGA_H_I32) || (tag_type t =? OMEGA_H_I64) || (tag_type t =? OMEGA_H_F64) then
    a <- unmap new_ents2old_ents (match tag_array t with Some a => a | None => [] end) (tag_ncomps t) ;;
    add_tag new (tag_type t) ent_dim (tag_name t) (tag_ncomps t) (Some a) false
  else Ok new.
Definition unmap_tags (old new : tmesh) (ent_dim : Z) (new_ents2old_ents : list Z) : res tmesh :=
  n <- ntags old ent_dim ;;
  foldM (fun new i => unmap_tag old new ent_dim new_ents2old_ents i) (zrange n) new.

(** src/Omega_h_unmap_mesh.cpp:33-48 unmap_down; the adjacency that set_ents is given *)
Definition unmap_adj (new_ents2old_ents : list Z) (down : adj) (deg : Z) (old_lows2new_lows : list Z) : res adj :=
  nel2ol <- unmap new_ents2old_ents (adj_ab2b down) deg ;;
  nel2nl <- compound_maps nel2ol old_lows2new_lows ;;
  codes <- match adj_codes down with
           | Some oe2l_codes => ne2l_codes <- unmap new_ents2old_ents oe2l_codes deg ;; Ok (Some ne2l_codes)
           | None => Ok None
           end ;;
  Ok (mk_adj [] nel2nl codes).
Definition unmap_down (c : chance) (old : amesh) (new : tagged_mesh) (ent_dim : Z) (new_ents2old_ents old_lows2new_lows : list Z) : res (option (amesh * tagged_mesh)) :=
  let deg := element_degree (a_family old) ent_dim (ent_dim - 1) in
  r <~ ask_down c old ent_dim (ent_dim - 1) ;;
  down <- unmap_adj new_ents2old_ents (snd r) deg old_lows2new_lows ;;
  new <- mesh_set_ents new ent_dim down ;;
  Ok (Some (fst r, new)).

(** the loop of src/Omega_h_unmap_mesh.cpp:124-136.  unmap_owners (:62-68) returns at once when there is one rank.  [old] is
    the mesh being read, whose cache may grow. *)
Fixpoint unmap_dims (c : chance) (old : amesh) (old_tags : tmesh) (new : tagged_mesh) (old_lows2new_lows : list Z) (new_ents2old_ents : Z -> list Z) (dims : list Z) : res (option tagged_mesh) :=
  match dims with
  | [] => Ok (Some new)
  | ent_dim :: dims =>
    r <~ (if 0 <? ent_dim then unmap_down c old new ent_dim (new_ents2old_ents ent_dim) old_lows2new_lows else Ok (Some (old, new))) ;;
    tags <- unmap_tags old_tags (m_tags (snd r)) ent_dim (new_ents2old_ents ent_dim) ;;
    _ <- M_MeshAdj.check_dim2 (fst r) ent_dim ;;
    old_ents2new_ents <- invert_injective_map (new_ents2old_ents ent_dim) (a_nents (fst r) ent_dim) ;;
    unmap_dims c (fst r) old_tags (mk_tagged (m_adj (snd r)) tags) old_ents2new_ents new_ents2old_ents dims
  end.
(** src/Omega_h_unmap_mesh.cpp:115-143 unmap_mesh, given an array for every dimension *)
Definition unmap_mesh (c : chance) (m : tagged_mesh) (new_ents2old_ents : Z -> list Z) : res (option tagged_mesh) :=
  new <- copy_meta m (zlen (new_ents2old_ents 0)) ;;
  unmap_dims c (m_adj m) (m_tags m) new [] new_ents2old_ents (zrange (a_dim (m_adj m) + 1)).
