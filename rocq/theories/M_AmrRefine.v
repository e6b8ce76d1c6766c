(** Model of refining a mesh of hypercubes as a whole, on one rank: src/Omega_h_amr.cpp:108-180.  Left out are the global numbers, linear
    interpolation and the new mesh's downward adjacencies from vertices (set_ents). *)
From Verif Require Import Prelude M_Array M_Scan M_ArrayOps M_Map M_Align M_Graph M_Adj M_Mark M_Parents M_Template M_Modify M_AmrTopo M_AmrTransfer.
Local Open Scope Z_scope.

(** src/Omega_h_array.cpp:59-66 fill_linear *)
Definition linear (size offset stride : Z) : list Z := map (fun i => offset + stride * i) (zrange size).

(** src/Omega_h_amr.cpp:133-144: mods2prods *)
Definition refine_mods2prods (dim prod_dim : Z) (mods : Z -> list Z) : res few :=
  r <- foldM (fun (s : few * Z) mod_dim =>
    let nprods_per_mod := hypercube_split_degree mod_dim prod_dim in
    let nmods_of_dim := zlen (mods mod_dim) in
    f <- zset (fst s) mod_dim (Some (linear (nmods_of_dim + 1) (snd s) nprods_per_mod)) ;;
    Ok (f, snd s + nprods_per_mod * nmods_of_dim)) (zfromto (Z.max 1 prod_dim) (dim + 1)) ([None; None; None; None], 0) ;;
  Ok (fst r).

(** Few<LOs, 4>: arrays of the dimensions of the mesh *)
Definition as_few (dim : Z) (f : Z -> list Z) : few := map (fun d => if d <=? dim then Some (f d) else None) (zrange 4).

(** src/Omega_h_amr.cpp:145-149: modify_ents with keep_mods *)
Definition refine_numbers (ms : mesh_view) (prod_dim : Z) (mods marks : Z -> list Z) : res numbering :=
  mods2prods <- refine_mods2prods (mesh_dim ms) prod_dim mods ;;
  modify_ents ms prod_dim (as_few (mesh_dim ms) mods) (as_few (mesh_dim ms) marks) mods2prods true.

(** src/Omega_h_amr.cpp:150-162: mods2midverts *)
Definition refine_midverts (dim : Z) (mods : Z -> list Z) (old_verts2new prods2new_verts : list Z) : res few :=
  v <- unmap (mods 0) old_verts2new 1 ;;
  r <- foldM (fun (s : few * Z) mod_dim =>
    _ <- check (hypercube_split_degree mod_dim 0 =? 1) ;;
    let begin := snd s in
    let end_ := begin + zlen (mods mod_dim) in
    l <- unmap_range begin end_ prods2new_verts 1 ;;
    f <- zset (fst s) mod_dim (Some l) ;;
    Ok (f, end_)) (zfromto 1 (dim + 1)) ([Some v; None; None; None], 0) ;;
  Ok (fst r).

(** What is asked of the old mesh: adjacencies, the "refine" tags (get_array, :116), ask_children(d, VERT), ask_levels, ask_leaves, ask_parents
    and one inherited tag of one component.  All of them are functions of the dimension. *)
Record old_mesh := { o_ms : mesh_view; o_marks : Z -> list Z; o_kids : Z -> graph; o_levels : Z -> list Z; o_leaves : Z -> list Z; o_parents : Z -> parents; o_data : Z -> list Z }.
(** The new mesh: numbers, vertices of the products by dimension (from dimension 1), levels, leaves (from dimension 1), parents and the
    inherited tag. *)
Record new_mesh := { n_numbers : list numbering; n_verts : list (list Z); n_levels : list (list Z); n_leaves : list (list Z); n_parents : list parents; n_data : list (list Z) }.

(** Few<LOs, 4> as a function of the dimension.  Other dimensions than those of the mesh are not asked for. *)
Definition by_dim {A B} (f : A -> list B) (l : list A) (d : Z) : list B := match zget l d with Ok x => f x | _ => [] end.
Definition some_of (o : option (list Z)) : list Z := match o with Some l => l | None => [] end.
Definition parents_by_dim (l : list parents) (d : Z) : parents := match zget l d with Ok p => p | _ => ([], []) end.

(** ask_graph(d, low_dim).ab2b: of equal dimensions it is the identity (src/Omega_h_mesh.cpp:570-581) *)
Definition lows (ms : mesh_view) (d low_dim : Z) : list Z := if d =? low_dim then zrange (nents ms d) else ask_down ms d low_dim.

(** src/Omega_h_amr.cpp:108-180 refine_elem_based.  The round of the loop for vertices is written out; products of higher dimension follow. *)
Definition refine_elem_based (b : backend) (o : old_mesh) : res new_mesh :=
  let ms := o_ms o in
  let dim := mesh_dim ms in
  prod_counts <- count_refined b dim (o_marks o) ;;
  mods_l <- mapM (fun d => collect_marked (o_marks o d)) (zrange (dim + 1)) ;;
  inv_l <- mapM (fun d => mods2mds <- zget mods_l d ;; invert_injective_map mods2mds (nents ms d)) (zrange (dim + 1)) ;;
  let mods := by_dim (fun l => l) mods_l in
  vnum <- refine_numbers ms 0 mods (o_marks o) ;;
  mids <- refine_midverts dim mods (old2new vnum) (prods2new vnum) ;;
  vlevels <- transfer_levels dim 0 mods (prods2new vnum) (same2old vnum) (same2new vnum) (o_levels o) (nnew vnum) ;;
  let r := {| r_dim := dim; r_mods2mds := mods; r_mds2mods := by_dim (fun l => l) inv_l; r_mods2midverts := by_dim some_of mids; r_lows := lows ms;
              r_child_verts := o_kids o; r_old_verts2new_verts := old2new vnum |} in
  higher <- mapM (fun prod_dim =>
    n <- zget prod_counts prod_dim ;;
    prods2verts <- get_refined_topology r prod_dim n ;;
    num <- refine_numbers ms prod_dim mods (o_marks o) ;;
    levels <- transfer_levels dim prod_dim mods (prods2new num) (same2old num) (same2new num) (o_levels o) (nnew num) ;;
    leaves <- transfer_leaves dim prod_dim mods (prods2new num) (same2old num) (same2new num) (old2new num) (o_leaves o prod_dim) (nnew num) ;;
    Ok (num, prods2verts, levels, leaves)) (zfromto 1 (dim + 1)) ;;
  let nums := vnum :: map (fun h => fst (fst (fst h))) higher in
  new_parents <- mapM (fun prod_dim =>
    num <- zget nums prod_dim ;;
    transfer_parents dim prod_dim mods (prods2new num) (same2old num) (same2new num) (by_dim old2new nums) (o_parents o prod_dim) (nnew num)) (zrange (dim + 1)) ;;
  nnews <- mapM (fun num => Ok (nnew num)) nums ;;
  data <- transfer_inherit dim 1 (by_dim prods2new nums) (by_dim same2old nums) (by_dim same2new nums) (o_data o) (parents_by_dim new_parents)
    (fun d => match zget nnews d with Ok n => n | _ => 0 end) ;;
  Ok {| n_numbers := nums; n_verts := map (fun h => snd (fst (fst h))) higher; n_levels := vlevels :: map (fun h => snd (fst h)) higher;
        n_leaves := map snd higher; n_parents := new_parents; n_data := data |}.
