(** Model of edge collapses of a whole mesh on one rank: src/Omega_h_coarsen.cpp:106-155 coarsen_element_based2,
    src/Omega_h_collapse_rail.cpp:79-108 find_rails, src/Omega_h_transfer.cpp:430-442 transfer_inherit_coarsen_tmpl and :476-485
    transfer_no_products_tmpl. *)
From Verif Require Import Prelude M_Array M_Par M_Map M_Template M_Align M_Adj M_Match M_Graph M_Coarsen M_MeshAdj M_Modify M_RefineMesh.
Local Open Scope Z_scope.

(** src/Omega_h_collapse_rail.cpp:92-102: the first of the positions [ves] whose edge has the global number [rail_global], with
    which end of it the vertex is *)
Fixpoint find_rail (ve2e ve_codes edge_globals : list Z) (rail_global : Z) (ves : list Z) : res (Z * Z) :=
  match ves with
  | [] => Abort
  | ve :: ves =>
    e <- zget ve2e ve ;; edge_global <- zget edge_globals e ;;
    if edge_global =? rail_global then ve_code <- zget ve_codes ve ;; Ok (e, code_which_down ve_code)
    else find_rail ve2e ve_codes edge_globals rail_global ves
  end.
(** src/Omega_h_collapse_rail.cpp:79-108 find_rails; [v2e] is mesh->ask_up(VERT, EDGE).  OMEGA_H_NORETURN is a failed check. *)
Definition find_rails (v2e : adj) (edge_globals keys2verts verts2rail : list Z) : res (list Z * list Z) :=
  ve_codes <- match adj_codes v2e with Some codes => Ok codes | None => UB end ;;
  l <- tabulate (zlen keys2verts) (fun key =>
    v <- zget keys2verts key ;; rail_global <- zget verts2rail v ;;
    lo <- zget (adj_a2ab v2e) v ;; hi <- zget (adj_a2ab v2e) (v + 1) ;;
    find_rail (adj_ab2b v2e) ve_codes edge_globals rail_global (zfromto lo hi)) ;;
  Ok (map fst l, map snd l).

(** src/Omega_h_coarsen.cpp:130-152, the loop from edges on.  [r0]: the new numbers of vertices.  What is returned beside the
    mesh: the new numbers in each dimension, with the domains. *)
Fixpoint coarsen_dims (c : chance) (old : amesh) (keys2verts ontos : list Z) (dead : list (list Z)) (r0 : numbering) (new : amesh) (old_lows2new_lows : list Z) (dims : list Z) : res (option (amesh * list (numbering * adj))) :=
  match dims with
  | [] => Ok (Some (new, []))
  | ent_dim :: dims =>
    dead_ents <- zget dead ent_dim ;;
    keys2doms <- find_coarsen_domains (kept_adj old 0 ent_dim) keys2verts dead_ents ;;
    prod_verts <- coarsen_topology (adj_ab2b (kept_adj old ent_dim 0)) ontos ent_dim keys2doms (old2new r0) ;;
    r <- modify_ents_adapt (view old) ent_dim 0 keys2verts (adj_a2ab keys2doms) ;;
    new <~ modify_conn c (kept_adj old ent_dim (ent_dim - 1)) new ent_dim prod_verts r old_lows2new_lows ;;
    rest <~ coarsen_dims c old keys2verts ontos dead r0 new (old2new r) dims ;;
    Ok (Some (fst rest, (r, keys2doms) :: snd rest))
  end.
(** src/Omega_h_coarsen.cpp:106-155 coarsen_element_based2 from the choice of keys on: [edge_globals] are the global numbers of
    edges, [verts2rail] says for each key vertex the global number of the edge along which it goes.  [c] is what requests to the
    old mesh do not control, [c'] for the new mesh. *)
Definition coarsen_element_based (c c' : chance) (m : amesh) (edge_globals keys2verts verts2rail : list Z) : res (option (amesh * amesh * (numbering * list (numbering * adj)))) :=
  old <~ ask_each c m (dim_pairs (a_dim m)) ;;
  rails <- find_rails (kept_adj old 0 1) edge_globals keys2verts verts2rail ;;
  dead <- mark_dead_ents (a_dim m) (a_nents old) (fun d => kept_adj old 1 d) (fun d => adj_ab2b (kept_adj old d (d - 1))) (fst rails) (snd rails) ;;
  ontos <- get_verts_onto (adj_ab2b (kept_adj old 1 0)) (fst rails) (snd rails) ;;
  keys2prods <- filled (zlen keys2verts + 1) 0 ;;
  r0 <- modify_ents_adapt (view old) 0 0 keys2verts keys2prods ;;
  new <- new_mesh (a_family m) (a_dim m) (nnew r0) ;;
  rest <~ coarsen_dims c' old keys2verts ontos dead r0 new (old2new r0) (zfromto 1 (a_dim m + 1)) ;;
  Ok (Some (old, fst rest, (r0, snd rest))).

(** src/Omega_h_transfer.cpp:170-180 transfer_common, :158-168 transfer_common2; [data] are the old values *)
Definition transfer_common {A} (ncomps : Z) (data : list A) (r : numbering) (prods2new_ents : list Z) (prod_data : list A) : res (list A) :=
  new_data <- blank (nnew r * ncomps) ;;
  new_data <- map_into prod_data prods2new_ents new_data ncomps ;;
  same_data <- unmap (same2old r) data ncomps ;;
  new_data <- map_into same_data (same2new r) new_data ncomps ;;
  freeze new_data.
(** src/Omega_h_transfer.cpp:430-442 *)
Definition inherit_coarsen {A} (ncomps : Z) (data : list A) (keys2doms : adj) (r : numbering) : res (list A) :=
  prod_data <- unmap (adj_ab2b keys2doms) data ncomps ;; transfer_common ncomps data r (prods2new r) prod_data.
(** src/Omega_h_transfer.cpp:476-485, which is what is done for vertices *)
Definition no_products {A} (ncomps : Z) (data : list A) (r : numbering) : res (list A) := transfer_common ncomps data r [] [].
