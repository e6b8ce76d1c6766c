(** Model of edge swaps of a 2D mesh on one rank: src/Omega_h_swap2d.cpp:35-70 swap2d_element_based,
    src/Omega_h_transfer.cpp:655-667 transfer_inherit_swap. *)
From Verif Require Import Prelude M_Array M_Par M_Map M_Template M_Align M_Adj M_Match M_Graph M_Swap2d M_MeshAdj M_Modify M_RefineMesh.
Local Open Scope Z_scope.

(** the loop over dimensions (src/Omega_h_swap2d.cpp:55-68, src/Omega_h_swap3d.cpp:61-75), [prods d] the offsets of products
    and their vertices, [old_lows2new_lows] that of the dimension below the first.  What is returned beside the mesh: the new
    numbers in each dimension, with the offsets of products. *)
Fixpoint adapt_dims (c : chance) (old : amesh) (key_dim : Z) (keys : list Z) (prods : Z -> list Z * list Z) (new : amesh) (old_lows2new_lows : list Z) (dims : list Z) : res (option (amesh * list (numbering * list Z))) :=
  match dims with
  | [] => Ok (Some (new, []))
  | ent_dim :: dims =>
    r <- modify_ents_adapt (view old) ent_dim key_dim keys (fst (prods ent_dim)) ;;
    new <~ modify_conn c (kept_adj old ent_dim (ent_dim - 1)) new ent_dim (snd (prods ent_dim)) r old_lows2new_lows ;;
    rest <~ adapt_dims c old key_dim keys prods new (old2new r) dims ;;
    Ok (Some (fst rest, (r, fst (prods ent_dim)) :: snd rest))
  end.

(** src/Omega_h_swap2d.cpp:35-70 swap2d_element_based with src/Omega_h_swap2d_topology.cpp:62-69.  The vertices stay as they are
    (:48-50, :54).  [c] is what requests to the old mesh do not control, [c'] for the new mesh. *)
Definition swap2d_element_based (c c' : chance) (m : amesh) (keys2edges : list Z) : res (option (amesh * amesh * list (numbering * list Z))) :=
  old <~ ask_each c m (dim_pairs (a_dim m)) ;;
  new <- new_mesh (a_family m) (a_dim m) (a_nents m 0) ;;
  let e2t := kept_adj old 1 2 in
  et_codes <- match adj_codes e2t with Some codes => Ok codes | None => UB end ;;
  t <- swap2d_topology (adj_a2ab e2t) (adj_ab2b e2t) et_codes (adj_ab2b (kept_adj old 2 0)) (adj_ab2b (kept_adj old 1 0)) keys2edges ;;
  let '((keys2edge_prods, keys2tri_prods), (edge_verts, tri_verts)) := t in
  let prods d := if d =? 1 then (keys2edge_prods, edge_verts) else (keys2tri_prods, tri_verts) in
  rest <~ adapt_dims c' old 1 keys2edges prods new (zrange (a_nents m 0)) [1; 2] ;;
  Ok (Some (old, fst rest, snd rest)).

(** src/Omega_h_transfer.cpp:655-667 transfer_inherit_swap_tmpl, :158-180 transfer_common.  [data d]: the values of the tag in
    dimension [d]; those of the key edges are given to the products. *)
Definition inherit_swap {A} (keys2edges : list Z) (ncomps : Z) (data : Z -> list A) (prod_dim : Z) (keys2prods : list Z) (r : numbering) : res (list A) :=
  key_data <- unmap keys2edges (data 1) ncomps ;;
  prod_data <- expand key_data keys2prods ncomps ;;
  new_data <- blank (nnew r * ncomps) ;;
  new_data <- map_into prod_data (prods2new r) new_data ncomps ;;
  same_data <- unmap (same2old r) (data prod_dim) ncomps ;;
  new_data <- map_into same_data (same2new r) new_data ncomps ;;
  freeze new_data.
