(** Model of edge swaps of a 3D mesh on one rank: src/Omega_h_swap3d.cpp:39-78 swap3d_element_based.  The loop over keys is in
    M_Swap3d, the loop over dimensions and transfer_inherit_swap in M_Flip. *)
From Verif Require Import Prelude M_Array M_Par M_Map M_Template M_Align M_Adj M_Match M_Graph M_SwapTables M_Swap3d M_MeshAdj M_Modify M_RefineMesh M_Flip.
Local Open Scope Z_scope.

(** src/Omega_h_swap3d.cpp:39-78 swap3d_element_based with the requests src/Omega_h_swap3d_topology.cpp:11-17 and :41-54 make.
    The vertices stay as they are (:53-56, :60).  [keys2edges] are the marked edges (:42-46), [edges_configs] is the tag
    "config" (:44).  [c] is what requests to the old mesh do not control, [c'] for the new mesh. *)
Definition swap3d_element_based (c c' : chance) (m : amesh) (keys2edges edges_configs : list Z) : res (option (amesh * amesh * list (numbering * list Z))) :=
  old <~ ask_each c m (dim_pairs (a_dim m)) ;;
  new <- new_mesh (a_family m) (a_dim m) (a_nents m 0) ;;
  let e2t := kept_adj old 1 3 in
  et_codes <- match adj_codes e2t with Some codes => Ok codes | None => UB end ;;
  keys2prods <- swap3d_keys_to_prods (adj_a2ab e2t) keys2edges ;;
  verts <- swap3d_topology (adj_a2ab e2t) (adj_ab2b e2t) et_codes (adj_ab2b (kept_adj old 1 0)) (adj_ab2b (kept_adj old 3 0)) keys2edges edges_configs keys2prods ;;
  let '(keys2edge_prods, keys2tri_prods, keys2tet_prods) := keys2prods in
  let '(edge_verts, tri_verts, tet_verts) := verts in
  let prods d := if d =? 1 then (keys2edge_prods, edge_verts) else if d =? 2 then (keys2tri_prods, tri_verts) else (keys2tet_prods, tet_verts) in
  rest <~ adapt_dims c' old 1 keys2edges prods new (zrange (a_nents m 0)) (zfromto 1 (a_dim m + 1)) ;;
  Ok (Some (old, fst rest, snd rest)).
