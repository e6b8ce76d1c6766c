(** Model of the refinement of a mesh of simplices on one rank: src/Omega_h_refine.cpp:43-82 refine_element_based,
    src/Omega_h_modify.cpp:20-72 modify_conn, src/Omega_h_transfer.cpp:151-180,213-270. *)
From Verif Require Import Prelude M_Array M_Par M_Scan M_Sort M_Map M_Template M_Align M_Adj M_Match M_Graph M_Refine M_MeshAdj M_Modify.
Local Open Scope Z_scope.

(** ** what is asked of the old mesh *)

(** all pairs of different dimensions, each both ways *)
Definition dim_pairs (dim : Z) : list (Z * Z) := flat_map (fun b => flat_map (fun a => [(b, a); (a, b)]) (zrange b)) (zrange (dim + 1)).
(** The old mesh is asked for adjacencies all along; answers are kept and do not depend on what was asked before, so they are
    asked here in front. *)
Fixpoint ask_each (c : chance) (m : amesh) (l : list (Z * Z)) : res (option amesh) :=
  match l with
  | [] => Ok (Some m)
  | p :: l => r <~ ask_adj c m (fst p) (snd p) ;; ask_each c (fst r) l
  end.
(** an answer that was kept *)
Definition kept_adj (m : amesh) (from to : Z) : adj := match a_adjs m from to with Some a => a | None => mk_adj [] [] None end.
(** the mesh as modify_ents sees it; on one rank everything is owned (src/Omega_h_mesh.cpp:465-468 owned) *)
Definition view (m : amesh) : mesh_view :=
  mk_mesh (a_dim m) (a_nents m) (fun a b => kept_adj m a b) (fun b a => adj_ab2b (kept_adj m b a)) (element_degree (a_family m)) (fun d => map (fun _ => 1) (zrange (a_nents m d))).

(** ** src/Omega_h_modify.cpp:20-72 modify_conn *)

(** the adjacency of the entities that stay and of the products, at their new numbers *)
Definition join {A} (deg : Z) (r : numbering) (prods_first : bool) (prods same : list A) : res (list A) :=
  w <- blank ((zlen (same2old r) + zlen (prods2new r)) * deg) ;;
  w <- (if prods_first then w <- map_into prods (prods2new r) w deg ;; map_into same (same2new r) w deg
        else w <- map_into same (same2new r) w deg ;; map_into prods (prods2new r) w deg) ;;
  freeze w.
(** [old_down] is old_mesh->ask_down(ent_dim, ent_dim - 1).  The family of the new mesh is that of the old one (copy_meta). *)
Definition modify_conn (c : chance) (old_down : adj) (new : amesh) (ent_dim : Z) (prod_verts : list Z) (r : numbering) (old_lows2new_lows : list Z) : res (option amesh) :=
  let low := ent_dim - 1 in
  let f := a_family new in
  let deg := element_degree f ent_dim low in
  same_old <- unmap (same2old r) (adj_ab2b old_down) deg ;;
  same_lows <- compound_maps same_old old_lows2new_lows ;;
  if 0 <? low then
    lv <~ ask_adj c new low 0 ;;
    v2l <~ M_MeshAdj.ask_up c (fst lv) 0 low ;;
    p <- reflect_down_v2l prod_verts (adj_ab2b (snd lv)) (snd v2l) f ent_dim low ;;
    ab <- join deg r true (fst p) same_lows ;;
    _ <- check (zlen (same2old r) =? zlen (same2new r)) ;;
    old_codes <- match adj_codes old_down with Some c => Ok c | None => UB end ;;
    same_codes <- unmap (same2old r) old_codes deg ;;
    codes <- join deg r false (snd p) same_codes ;;
    new <- set_ents (fst v2l) ent_dim (mk_adj [] ab (Some codes)) ;; Ok (Some new)
  else
    ab <- join deg r true prod_verts same_lows ;;
    new <- set_ents new ent_dim (mk_adj [] ab None) ;; Ok (Some new).

(** The loops of refinement, coarsening and swapping rebuild the mesh dimension after dimension (src/Omega_h_refine.cpp:56-80,
    src/Omega_h_coarsen.cpp:128-155, src/Omega_h_swap2d.cpp:55-68, src/Omega_h_swap3d.cpp:61-74) with what was found for each
    dimension: the new numbers [r] and the vertices of the products [prod_verts]. *)
Fixpoint rebuild_dims (c : chance) (old : amesh) (new : amesh) (r : Z -> numbering) (prod_verts : Z -> list Z) (dims : list Z) : res (option amesh) :=
  match dims with
  | [] => Ok (Some new)
  | d :: dims =>
    new <~ modify_conn c (kept_adj old d (d - 1)) new d (prod_verts d) (r d) (old2new (r (d - 1))) ;;
    rebuild_dims c old new r prod_verts dims
  end.
Definition rebuild (c : chance) (old : amesh) (r : Z -> numbering) (prod_verts : Z -> list Z) : res (option amesh) :=
  new <- new_mesh (a_family old) (a_dim old) (nnew (r 0)) ;;
  rebuild_dims c old new r prod_verts (zfromto 1 (a_dim old + 1)).

(** ** src/Omega_h_refine.cpp:56-80, the loop from edges on.  [old] is the old mesh; [r0] the new numbers of vertices.  What
    is returned beside the mesh: the new numbers in each dimension, with the offsets of products. *)
Fixpoint refine_dims (c : chance) (old : amesh) (keys2edges : list Z) (r0 : numbering) (new : amesh) (old_lows2new_lows : list Z) (dims : list Z) : res (option (amesh * list (numbering * list Z))) :=
  match dims with
  | [] => Ok (Some (new, []))
  | ent_dim :: dims =>
    p <- refine_products (a_dim old) ent_dim (fun d => adj_ab2b (kept_adj old d 0)) (fun d => kept_adj old 1 d) keys2edges (prods2new r0) (old2new r0) ;;
    r <- modify_ents_adapt (view old) ent_dim 1 keys2edges (fst p) ;;
    new <~ modify_conn c (kept_adj old ent_dim (ent_dim - 1)) new ent_dim (snd p) r old_lows2new_lows ;;
    rest <~ refine_dims c old keys2edges r0 new (old2new r) dims ;;
    Ok (Some (fst rest, (r, fst p) :: snd rest))
  end.
(** src/Omega_h_refine.cpp:43-82 refine_element_based; tags are transferred by [inherit] below.  [c] is what requests to the
    old mesh do not control, [c'] for the new mesh.  Returned: the old mesh with what was asked of it, the new one, and the
    numbers and offsets of each dimension. *)
Definition refine_element_based (c c' : chance) (m : amesh) (keys2edges : list Z) : res (option (amesh * amesh * list (numbering * list Z))) :=
  old <~ ask_each c m (dim_pairs (a_dim m)) ;;
  let keys2prods := zrange (zlen keys2edges + 1) in
  r0 <- modify_ents_adapt (view old) 0 1 keys2edges keys2prods ;;
  new <- new_mesh (a_family m) (a_dim m) (nnew r0) ;;
  rest <~ refine_dims c' old keys2edges r0 new (old2new r0) (zfromto 1 (a_dim m + 1)) ;;
  Ok (Some (old, fst rest, (r0, keys2prods) :: snd rest)).

(** ** src/Omega_h_transfer.cpp:213-270 transfer_inherit_refine *)
Section inherit.
Context {A : Type}.
(** the data of the domains [edge_dom] = lo .. hi-1, each [times] times, from product [prod] on *)
Definition inherit_domains (times ncomps : Z) (edge_doms2doms : list Z) (dom_data : list A) (lo hi prod : Z) (w : list (option A)) : res (list (option A)) :=
  s <- foldM (fun s edge_dom =>
    dom <- zget edge_doms2doms edge_dom ;;
    foldM (fun s _ => w <- copy_block ncomps dom_data dom (fst s) (snd s) ;; Ok (w, snd s + 1)) (zrange times) s) (zfromto lo hi) (w, prod) ;;
  Ok (fst s).
Definition inherit_pairs (e2d : graph) (ncomps : Z) (dom_data : list A) (keys2edges keys2prods : list Z) (w : list (option A)) : res (list (option A)) :=
  forM (zlen keys2edges) w (fun w key =>
    edge <- zget keys2edges key ;; prod <- zget keys2prods key ;;
    lo <- zget (a2ab e2d) edge ;; hi <- zget (a2ab e2d) (edge + 1) ;;
    inherit_domains 2 ncomps (ab2b e2d) dom_data lo hi prod w).
Definition inherit_cuts (e2d : graph) (ncomps : Z) (dom_data : list A) (keys2edges keys2prods : list Z) (w : list (option A)) : res (list (option A)) :=
  forM (zlen keys2edges) w (fun w key =>
    edge <- zget keys2edges key ;;
    lo <- zget (a2ab e2d) edge ;; hi <- zget (a2ab e2d) (edge + 1) ;;
    next <- zget keys2prods (key + 1) ;;
    inherit_domains 1 ncomps (ab2b e2d) dom_data lo hi (next - (hi - lo)) w).
(** src/Omega_h_mesh.cpp:570-582 ask_graph(EDGE, dom_dim) *)
Definition edge_graph (old : amesh) (dom_dim : Z) : res graph :=
  if dom_dim =? 1 then identity_graph (a_nents old 1) else Ok (to_graph (kept_adj old 1 dom_dim)).
(** [data d]: the values of the tag in dimension [d].  transfer_common (:170-180), transfer_common2 (:158-168). *)
Definition inherit (old : amesh) (keys2edges : list Z) (ncomps : Z) (data : Z -> list A) (prod_dim : Z) (keys2prods : list Z) (r : numbering) : res (list A) :=
  nprods <- last_of keys2prods ;;
  w <- blank (nprods * ncomps) ;;
  w <- (if 0 <? prod_dim then g <- edge_graph old prod_dim ;; inherit_pairs g ncomps (data prod_dim) keys2edges keys2prods w else Ok w) ;;
  w <- (if prod_dim <? a_dim old then g <- edge_graph old (prod_dim + 1) ;; inherit_cuts g ncomps (data (prod_dim + 1)) keys2edges keys2prods w else Ok w) ;;
  prod_data <- freeze w ;;
  new_data <- blank (nnew r * ncomps) ;;
  new_data <- map_into prod_data (prods2new r) new_data ncomps ;;
  same_data <- unmap (same2old r) (data prod_dim) ncomps ;;
  new_data <- map_into same_data (same2new r) new_data ncomps ;;
  freeze new_data.
End inherit.
