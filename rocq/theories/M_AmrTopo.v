(** Model of the topology of refined hypercubes: src/Omega_h_amr_topology.cpp:78-139.  Arrays indexed by dimensions (Few) are functions of
    the dimension. *)
From Verif Require Import Prelude M_Array M_ArrayOps M_Graph M_Template.
Local Open Scope Z_scope.

(** src/Omega_h_amr_topology.cpp:78-90 count_refined, in 32-bit integers; [refine] are the tags of dimensions 1 to [dim] *)
Definition count_refined (b : backend) (dim : Z) (refine : Z -> list Z) : res (list Z) :=
  foldM (fun num_ents i =>
    foldM (fun num_ents j =>
      let deg := hypercube_split_degree i j in
      nsplit <- get_sum b (2 ^ 31 - 1) (refine i) ;;
      old <- zget num_ents j ;;
      new <- add_ck (2 ^ 31 - 1) old (deg * nsplit) ;;
      zset num_ents j new) (zfromto 0 (i + 1)) num_ents) (zfromto 1 (dim + 1)) [0; 0; 0; 0].

(** What get_refined_topology gets and asks the mesh for: ask_graph(d, lowd).ab2b and ask_children(lowd, 0) *)
Record refining := {
  r_dim : Z;
  r_mods2mds : Z -> list Z;
  r_mds2mods : Z -> list Z;
  r_mods2midverts : Z -> list Z;
  r_lows : Z -> Z -> list Z;
  r_child_verts : Z -> graph;
  r_old_verts2new_verts : list Z }.

(** src/Omega_h_amr_topology.cpp:111-127: one vertex of one child.  For vertices old_parents2child_verts is not set (:100-102). *)
Definition refined_vert (r : refining) (d child_dim mod_ child vert : Z) : res Z :=
  md <- zget (r_mods2mds r d) mod_ ;;
  let low := hypercube_split_template d child_dim child vert in
  let num_lows_per_mod := hypercube_degree d (fst low) in
  low_id <- zget (r_lows r d (fst low)) (md * num_lows_per_mod + snd low) ;;
  low_adj_mod <- zget (r_mds2mods r (fst low)) low_id ;;
  if low_adj_mod =? -1 then
    if fst low =? 0 then UB else
    begin <- zget (a2ab (r_child_verts r (fst low))) low_id ;;
    end_ <- zget (a2ab (r_child_verts r (fst low))) (low_id + 1) ;;
    _ <- check (end_ - begin =? 1) ;;
    old_midvert <- zget (ab2b (r_child_verts r (fst low))) begin ;;
    zget (r_old_verts2new_verts r) old_midvert
  else zget (r_mods2midverts r (fst low)) low_adj_mod.

(** src/Omega_h_amr_topology.cpp:92-139 get_refined_topology; each iteration of the parallel loop writes its own entries *)
Definition get_refined_topology (r : refining) (child_dim num_children : Z) : res (list Z) :=
  let num_verts_per_child := hypercube_degree child_dim 0 in
  child_verts <- blank (num_children * num_verts_per_child) ;;
  out <- foldM (fun (s : list (option Z) * Z) d =>
    let num_mods := zlen (r_mods2midverts r d) in
    let num_child_per_mod := hypercube_split_degree d child_dim in
    let offset := snd s in
    w <- forM num_mods (fst s) (fun w mod_ =>
      forM num_child_per_mod w (fun w child =>
        forM num_verts_per_child w (fun w vert =>
          midvert <- refined_vert r d child_dim mod_ child vert ;;
          zset w (offset + (mod_ * num_child_per_mod + child) * num_verts_per_child + vert) (Some midvert)))) ;;
    Ok (w, offset + num_mods * num_child_per_mod * num_verts_per_child)) (zfromto child_dim (r_dim r + 1)) (child_verts, 0) ;;
  freeze (fst out).
