(** Model of src/Omega_h_coarsen_topology.cpp. *)
From Verif Require Import Prelude M_Array M_Scan M_Map M_Align M_Template M_Graph M_Adj M_Swap3d.
Local Open Scope Z_scope.

(** src/Omega_h_coarsen_topology.cpp:15-26 get_verts_onto *)
Definition get_verts_onto (ev2v rails2edges rail_col_dirs : list Z) : res (list Z) :=
  tabulate (zlen rails2edges) (fun key =>
    e <- zget rails2edges key ;; eev <- zget rail_col_dirs key ;; zget ev2v (e * 2 + (1 - eev))).

(** src/Omega_h_coarsen_topology.cpp:38-52: the cell and the side marked by one adjacency of a rail *)
Definition dead_pair (cell_dim : Z) (ec2c ec_codes cs2s : list Z) (eev_onto ec : Z) : res (Z * Z) :=
  c <- zget ec2c ec ;;
  ec_code <- zget ec_codes ec ;;
  let cce := code_which_down ec_code in
  let rot := code_rotation ec_code in
  let cev_onto := Z.lxor rot eev_onto in
  let ccv_onto := simplex_down_template cell_dim 1 cce cev_onto in
  let ccs_opp := simplex_opposite_template cell_dim 0 ccv_onto in
  s_opp <- zget cs2s (c * simplex_degree cell_dim (cell_dim - 1) + ccs_opp) ;;
  Ok (c, s_opp).

(** src/Omega_h_coarsen_topology.cpp:28-55 mark_dead_ents at one dimension. Iterations only ever write 1;
    the order in which they run is immaterial, and they are run in order. *)
Definition mark_dead_dim (e2c : adj) (cs2s rails2edges rail_col_dirs : list Z) (cell_dim : Z) (dead : list Z * list Z) : res (list Z * list Z) :=
  codes <- match adj_codes e2c with Some c => Ok c | None => UB end ;;
  forM (zlen rails2edges) dead (fun d rail =>
    e <- zget rails2edges rail ;;
    eev_col <- zget rail_col_dirs rail ;;
    let eev_onto := 1 - eev_col in
    lo <- zget (adj_a2ab e2c) e ;; hi <- zget (adj_a2ab e2c) (e + 1) ;;
    foldM (fun d ec =>
      p <- dead_pair cell_dim (adj_ab2b e2c) codes cs2s eev_onto ec ;;
      dc <- zset (fst d) (fst p) 1 ;; ds <- zset (snd d) (snd p) 1 ;; Ok (dc, ds)) (zfromto lo hi) d).

(** src/Omega_h_coarsen_topology.cpp:57-69 mark_dead_ents: the marks by dimension. [edge_up] and [down]
    stand for mesh->ask_up(EDGE, dim) and mesh->ask_down(dim, dim - 1).ab2b. *)
Definition mark_dead_ents (mesh_dim : Z) (nents : Z -> Z) (edge_up : Z -> adj) (down : Z -> list Z) (rails2edges rail_col_dirs : list Z) : res (list (list Z)) :=
  w1 <- mark_image rails2edges (nents 1) ;;
  ws <- mapM (fun dim => if dim <=? mesh_dim then filled (nents dim) 0 else Ok []) [2; 3] ;;
  foldM (fun writes dim =>
    dc <- zget writes dim ;; ds <- zget writes (dim - 1) ;;
    r <- mark_dead_dim (edge_up dim) (down dim) rails2edges rail_col_dirs dim (dc, ds) ;;
    writes <- zset writes dim (fst r) ;; zset writes (dim - 1) (snd r))
    (rev (zfromto 2 (mesh_dim + 1))) ([] :: w1 :: ws).

(** src/Omega_h_coarsen_topology.cpp:71-88 find_coarsen_domains; [v2e] is mesh->ask_up(VERT, ent_dim) *)
Definition find_coarsen_domains (v2e : adj) (keys2verts ents_are_dead : list Z) : res adj :=
  let nkeys := zlen keys2verts in
  k2e <- unmap_adjacency keys2verts v2e ;;
  let k2ke := adj_a2ab k2e in
  let ke2e := adj_ab2b k2e in
  ke_codes <- match adj_codes k2e with Some c => Ok c | None => UB end ;;
  ke2k <- invert_fan k2ke ;;
  let ents_are_live := invert_marks ents_are_dead in
  kes_are_live <- unmap ke2e ents_are_live 1 ;;
  lke2ke <- collect_marked kes_are_live ;;
  lke2k <- unmap lke2ke ke2k 1 ;;
  lke_codes <- unmap lke2ke ke_codes 1 ;;
  lke2e <- unmap lke2ke ke2e 1 ;;
  k2lke <- invert_funnel lke2k nkeys ;;
  Ok (mk_adj k2lke lke2e (Some lke_codes)).

(** src/Omega_h_coarsen_topology.cpp:104-117: the vertices of one product *)
Definition coarsen_prod (nccv : Z) (cv2v old_verts2new_verts : list Z) (v_onto c kc_code : Z) : res (list Z) :=
  let ccv_col := code_which_down kc_code in
  tabulate nccv (fun ccv =>
    old_v <- (if ccv =? ccv_col then Ok v_onto else zget cv2v (c * nccv + ccv)) ;;
    zget old_verts2new_verts old_v).

(** src/Omega_h_coarsen_topology.cpp:90-122 coarsen_topology. The products are numbered like the
    adjacencies, so that each key writes its own rows; they are listed in that order. *)
Definition coarsen_topology (cv2v keys2verts_onto : list Z) (dom_dim : Z) (keys2doms : adj) (old_verts2new_verts : list Z) : res (list Z) :=
  let nccv := simplex_degree dom_dim 0 in
  kc_codes <- match adj_codes keys2doms with Some c => Ok c | None => UB end ;;
  ndoms <- last_of (adj_a2ab keys2doms) ;;
  out <- blank (ndoms * nccv) ;;
  out <- forM (zlen keys2verts_onto) out (fun out key =>
    v_onto <- zget keys2verts_onto key ;;
    lo <- zget (adj_a2ab keys2doms) key ;; hi <- zget (adj_a2ab keys2doms) (key + 1) ;;
    foldM (fun out kc =>
      c <- zget (adj_ab2b keys2doms) kc ;; kc_code <- zget kc_codes kc ;;
      row <- coarsen_prod nccv cv2v old_verts2new_verts v_onto c kc_code ;;
      write_block out (kc * nccv) row) (zfromto lo hi) out) ;;
  freeze out.
