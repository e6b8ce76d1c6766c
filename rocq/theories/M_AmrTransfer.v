(** Model of what refined hypercube meshes inherit: src/Omega_h_amr_transfer.cpp:32-162.  Arrays indexed by dimensions (Few) are functions of
    the dimension. *)
From Verif Require Import Prelude M_Array M_Par M_Scan M_Sort M_Map M_Align M_Adj M_Parents M_Template.
Local Open Scope Z_scope.

(** The loops of src/Omega_h_amr_transfer.cpp:38-53, :69-81 and :113-129 over the products of dimension [prod_dim]: products of edges first,
    then of squares, then of cubes, each at the next place. *)
Definition for_prods {S} (dim prod_dim : Z) (nmods : Z -> Z) (body : S -> Z -> Z -> Z -> Z -> res S) (s : S) : res S :=
  r <- foldM (fun (st : S * Z) mod_dim =>
    let nprods_per_mod := hypercube_split_degree mod_dim prod_dim in
    let offset := snd st in
    s <- forM (nmods mod_dim) (fst st) (fun s mod_ => forM nprods_per_mod s (fun s prod => body s mod_dim mod_ prod (offset + (mod_ * nprods_per_mod + prod)))) ;;
    Ok (s, offset + nprods_per_mod * nmods mod_dim)) (zfromto (Z.max 1 prod_dim) (dim + 1)) (s, 0) ;;
  Ok (fst r).

(** transfer_levels, src/Omega_h_amr_transfer.cpp:32-57, with transfer_common2 (src/Omega_h_transfer.cpp:159-168) *)
Definition transfer_levels (dim prod_dim : Z) (mods2mds : Z -> list Z) (prods2new same2old same2new : list Z) (old_levels : Z -> list Z) (nnew : Z) : res (list Z) :=
  new_data <- filled nnew (Some (-1)) ;;
  new_data <- for_prods dim prod_dim (fun d => zlen (mods2mds d)) (fun w mod_dim mod_ prod idx =>
    new_level <- (old_idx <- zget (mods2mds mod_dim) mod_ ;; old_level <- zget (old_levels mod_dim) old_idx ;; Ok (to_i8 (old_level + 1))) ;;
    new_idx <- zget prods2new idx ;;
    zset w new_idx (Some new_level)) new_data ;;
  same_data <- unmap same2old (old_levels prod_dim) 1 ;;
  new_data <- map_into same_data same2new new_data 1 ;;
  freeze new_data.

(** transfer_leaves, src/Omega_h_amr_transfer.cpp:59-89, for dimensions other than that of vertices (:62) *)
Definition transfer_leaves (dim prod_dim : Z) (mods2mds : Z -> list Z) (prods2new same2old same2new old2new : list Z) (old_leaves : list Z) (nnew : Z) : res (list Z) :=
  new_data <- filled nnew (Some (-1)) ;;
  same_data <- unmap same2old old_leaves 1 ;;
  new_data <- map_into same_data same2new new_data 1 ;;
  new_data <- for_prods dim prod_dim (fun d => zlen (mods2mds d)) (fun w mod_dim mod_ prod idx =>
    v <- Ok 1 ;;
    new_idx <- zget prods2new idx ;;
    zset w new_idx (Some v)) new_data ;;
  mods2new_ents <- unmap (mods2mds prod_dim) old2new 1 ;;
  new_data <- forM (zlen (mods2mds prod_dim)) new_data (fun w mod_ => mod_idx <- zget mods2new_ents mod_ ;; zset w mod_idx (Some 0)) ;;
  freeze new_data.

(** src/Omega_h_amr.hpp:17-19 amr::make_code *)
Definition amr_make_code (which_child parent_dim : Z) : Z := to_i8 (Z.lor (Z.shiftl which_child 2) parent_dim).

(** transfer_parents, src/Omega_h_amr_transfer.cpp:91-133, for one dimension.  The two arrays are filled one after the other: no
    iteration reads them.  mods2new_ents[mod] is old_ents2new_ents[mods2mds[mod]] (:115-116). *)
Definition transfer_parents (dim prod_dim : Z) (mods2mds : Z -> list Z) (prods2new same2old same2new : list Z) (old2new : Z -> list Z) (old_parents : parents) (nnew : Z) : res parents :=
  new_p <- filled nnew (Some (-1)) ;;
  new_c <- filled nnew (Some 0) ;;
  same_p <- unmap same2old (fst old_parents) 1 ;;
  same_c <- unmap same2old (snd old_parents) 1 ;;
  same_p <- tabulate (zlen same_p) (fun same_ent =>
    old_parent <- zget same_p same_ent ;;
    if old_parent <? 0 then Ok old_parent else
    code <- zget same_c same_ent ;;
    zget (old2new (code_parent_dim code)) old_parent) ;;
  new_p <- map_into same_p same2new new_p 1 ;;
  new_c <- map_into same_c same2new new_c 1 ;;
  new_p <- for_prods dim prod_dim (fun d => zlen (mods2mds d)) (fun w mod_dim mod_ prod idx =>
    parent <- (md <- zget (mods2mds mod_dim) mod_ ;; zget (old2new mod_dim) md) ;;
    prod_idx <- zget prods2new idx ;;
    zset w prod_idx (Some parent)) new_p ;;
  new_c <- for_prods dim prod_dim (fun d => zlen (mods2mds d)) (fun w mod_dim mod_ prod idx =>
    code <- Ok (amr_make_code prod mod_dim) ;;
    prod_idx <- zget prods2new idx ;;
    zset w prod_idx (Some code)) new_c ;;
  p <- freeze new_p ;;
  c <- freeze new_c ;;
  Ok (p, c).

(** transfer_inherit, src/Omega_h_amr_transfer.cpp:135-162.  The arrays have one entry per entity, whatever ncomps is (:142). *)
Definition inherit_same (ncomps : Z) (same2old same2new : list Z) (old_data : list Z) (nnew : Z) : res (list (option Z)) :=
  new_data <- filled nnew (Some (-1)) ;;
  same_data <- unmap same2old old_data ncomps ;;
  map_into same_data same2new new_data ncomps.
Definition inherit_prod (prods2new : Z -> list Z) (new_parents : Z -> parents) (prod_dim : Z) (new_data : list (list (option Z))) (prod : Z) : res (list (list (option Z))) :=
  prod_ent <- zget (prods2new prod_dim) prod ;;
  parent_ent <- zget (fst (new_parents prod_dim)) prod_ent ;;
  code <- zget (snd (new_parents prod_dim)) prod_ent ;;
  from <- zget new_data (code_parent_dim code) ;;
  v <- zget from parent_ent ;;
  to <- zget new_data prod_dim ;;
  to <- zset to prod_ent v ;;
  zset new_data prod_dim to.
Definition transfer_inherit (dim ncomps : Z) (prods2new same2old same2new : Z -> list Z) (old_data : Z -> list Z) (new_parents : Z -> parents) (nnew : Z -> Z) : res (list (list Z)) :=
  new_data <- mapM (fun d => inherit_same ncomps (same2old d) (same2new d) (old_data d) (nnew d)) (zrange (dim + 1)) ;;
  new_data <- foldM (fun new_data prod_dim => forM (zlen (prods2new prod_dim)) new_data (inherit_prod prods2new new_parents prod_dim)) (zrange (dim + 1)) new_data ;;
  mapM freeze new_data.
