(** Model of what becomes of parents, children and leaf flags when entities are picked and renumbered, on one rank:
    src/Omega_h_unmap_mesh.cpp:68-141.  Everything else unmap_mesh does is in M_Unmap. *)
From Verif Require Import Prelude M_Array M_Par M_Scan M_Sort M_Map M_Adj M_Parents.
Local Open Scope Z_scope.

(** src/Omega_h_unmap_mesh.cpp:71-88: the body of unmap_parents for one dimension.  Each iteration writes its own entries, which are filled
    with -1 and 0 before. *)
Definition remap_parent (old_ents2new_ents : Z -> list Z) (old_parents : parents) (old_ent : Z) : res (Z * Z) :=
  old_parent_idx <- zget (fst old_parents) old_ent ;;
  old_parent_code <- zget (snd old_parents) old_ent ;;
  if -1 <? old_parent_idx then
    let old_parent_dim := code_parent_dim old_parent_code in
    new_parent_idx <- zget (old_ents2new_ents old_parent_dim) old_parent_idx ;;
    Ok (new_parent_idx, if -1 <? new_parent_idx then old_parent_code else 0)
  else Ok (-1, 0).
Definition remap_parents (new_ents2old_ents : list Z) (old_ents2new_ents : Z -> list Z) (old_parents : parents) : res parents :=
  ps <- tabulate (zlen new_ents2old_ents) (fun new_ent => old_ent <- zget new_ents2old_ents new_ent ;; remap_parent old_ents2new_ents old_parents old_ent) ;;
  Ok (map fst ps, map snd ps).
(** src/Omega_h_unmap_mesh.cpp:68-91 unmap_parents.  Asking for parents may add them to the old mesh. *)
Definition unmap_parents (old_mesh new_mesh : fmesh) (new_ents2old_ents old_ents2new_ents : Z -> list Z) : res (fmesh * fmesh) :=
  foldM (fun (s : fmesh * fmesh) ent_dim =>
    r <- ask_parents (fst s) ent_dim ;;
    p <- remap_parents (new_ents2old_ents ent_dim) old_ents2new_ents (snd r) ;;
    new_mesh <- set_parents (snd s) ent_dim p ;;
    Ok (fst r, new_mesh)) (zfromto 1 (f_dim new_mesh + 1)) (old_mesh, new_mesh).

(** src/Omega_h_mesh.cpp:407-414 ask_leaves: what it returns *)
Definition ask_leaves (nents : Z) (tag : option (list Z)) : res (list Z) := match tag with Some l => Ok l | None => filled nents 1 end.
(** src/Omega_h_unmap_mesh.cpp:98-102: the body of unmap_leaves *)
Definition new_leaf (is_ent_leaf : list Z) (children : adj) (ent : Z) : res Z :=
  leaf <- zget is_ent_leaf ent ;;
  hi <- zget (adj_a2ab children) (ent + 1) ;;
  lo <- zget (adj_a2ab children) ent ;;
  let nchild := hi - lo in
  Ok (if (nchild =? 0) && (leaf =? 0) then 1 else leaf).
(** src/Omega_h_unmap_mesh.cpp:93-107 unmap_leaves.  [c d]: memory before and schedules of the kernels that invert parents of dimension [d];
    [Ok None]: they stop before the kernels have finished. *)
Fixpoint unmap_leaves (c : Z -> mem Z * list nat * list nat) (new_mesh : fmesh) (tags : Z -> option (list Z)) (dims : list Z) : res (option (fmesh * list (list Z))) :=
  match dims with
  | [] => Ok (Some (new_mesh, []))
  | ent_dim :: dims =>
    let '(m0, s1, s2) := c ent_dim in
    is_ent_leaf <- ask_leaves (f_nents new_mesh ent_dim) (tags ent_dim) ;;
    o <- ask_children new_mesh ent_dim ent_dim m0 s1 s2 ;;
    match o with
    | None => Ok None
    | Some (new_mesh, children) =>
      leaf <- tabulate (f_nents new_mesh ent_dim) (new_leaf is_ent_leaf children) ;;
      o <- unmap_leaves c new_mesh tags dims ;;
      Ok (match o with None => None | Some (new_mesh, rest) => Some (new_mesh, leaf :: rest) end)
    end
  end.

(** src/Omega_h_mesh.cpp:438-446 has_any_parents *)
Definition has_any_parents (m : fmesh) : bool := existsb (fun d => match f_parents m d with Some _ => true | None => false end) (zrange (f_dim m + 1)).
(** src/Omega_h_unmap_mesh.cpp:115-141 unmap_mesh, the part on parents and the tag "leaf".  unmap_tags (:12-31) copies the tag if it is there. *)
Definition unmap_family (c : Z -> mem Z * list nat * list nat) (mesh : fmesh) (leaves : Z -> option (list Z)) (new_ents2old_ents : Z -> list Z) : res (option (fmesh * list (option (list Z)))) :=
  let dim := f_dim mesh in
  inv <- mapM (fun d => invert_injective_map (new_ents2old_ents d) (f_nents mesh d)) (zrange (dim + 1)) ;;
  tags <- mapM (fun d => match leaves d with Some l => l' <- unmap (new_ents2old_ents d) l 1 ;; Ok (Some l') | None => Ok None end) (zrange (dim + 1)) ;;
  let new_mesh := mk_fmesh dim (fun d => zlen (new_ents2old_ents d)) (fun _ => None) (fun _ _ => None) in
  if has_any_parents mesh then
    s <- unmap_parents mesh new_mesh new_ents2old_ents (fun d => match zget inv d with Ok l => l | _ => [] end) ;;
    o <- unmap_leaves c (snd s) (fun d => match zget tags d with Ok t => t | _ => None end) (zfromto 1 (dim + 1)) ;;
    vertex_tag <- zget tags 0 ;;
    Ok (match o with None => None | Some (m, ls) => Some (m, vertex_tag :: map Some ls) end)
  else Ok (Some (new_mesh, tags)).
