(** Model of src/Omega_h_ghost.cpp: which elements the ranks of a distributed mesh get copies of.  Every function is called by all
    ranks of the communicator together; an array on each rank is a list with one entry per rank. *)
From Verif Require Import Prelude M_Array M_Par M_Scan M_Sort M_Map M_Tags M_Template M_Dist M_Owners M_Migrate.
Local Open Scope Z_scope.

(** What the functions ask of the mesh of each rank: ask_down(dim, VERT).ab2b, and a2ab and ab2b of ask_up(VERT, dim) (their model is
    M_MeshAdj.v; they need no other rank). *)
Record asked := Asked { elems2verts : list (list Z); verts2uses : list (list Z); uses2elems : list (list Z) }.
(** the elements with the vertices in place of the sides *)
Definition with_verts (elems : dents) (ev : list (list Z)) : dents :=
  DEnts (de_nents elems) ev None (de_ranks elems) (de_idxs elems) (de_tags elems).

(** the vertices and the elements of a mesh *)
Definition verts_of (m : dmesh) : res dents := zget (dm_ents m) VERT.
Definition elems_of (m : dmesh) : res dents := zget (dm_ents m) (dm_dim m).

(** src/Omega_h_ghost.cpp:10-16 get_local_elem_uses2own_verts, with src/Omega_h_remotes.cpp:7-9 expand *)
Definition get_local_elem_uses2own_verts (inv : Z -> list Z -> Z -> res (list Z * list Z)) (verts : dents) (a : asked) : res (list dist) :=
  ranks <- on_ranks (de_ranks verts) (fun r x => f <- zget (verts2uses a) r ;; expand x f 1) ;;
  idxs <- on_ranks (de_idxs verts) (fun r x => f <- zget (verts2uses a) r ;; expand x f 1) ;;
  make_dist inv ranks idxs (de_nents verts).
(** src/Omega_h_ghost.cpp:18-23 get_local_elem_uses2own_elems, with src/Omega_h_remotes.cpp:11-13 unmap *)
Definition get_local_elem_uses2own_elems (elems : dents) (a : asked) : res (list (list Z) * list (list Z)) :=
  ranks <- on_ranks (uses2elems a) (fun r uses => x <- zget (de_ranks elems) r ;; unmap uses x 1) ;;
  idxs <- on_ranks (uses2elems a) (fun r uses => x <- zget (de_idxs elems) r ;; unmap uses x 1) ;;
  Ok (ranks, idxs).
(** src/Omega_h_dist.cpp:208-212 exch of Remotes *)
Definition exch_remotes (ds : list dist) (x : list (list Z) * list (list Z)) (width : Z) : res (list (list Z) * list (list Z)) :=
  ranks <- exch ds (fst x) width ;; idxs <- exch ds (snd x) width ;; Ok (ranks, idxs).
(** src/Omega_h_dist.cpp:171 roots2items, where it exists *)
Definition roots2items (ds : list dist) : res (list (list Z)) := mapM (fun d => match roots2items_F d with Some f => Ok f | None => UB end) ds.

(** src/Omega_h_remotes.hpp:16-22 RemoteGraph *)
Record remote_graph := RemoteGraph { locals2edges : list (list Z); edge_ranks : list (list Z); edge_idxs : list (list Z) }.
(** src/Omega_h_ghost.cpp:28-35 get_own_verts2own_elems *)
Definition get_own_verts2own_elems (inv : Z -> list Z -> Z -> res (list Z * list Z)) (m : dmesh) (a : asked) : res remote_graph :=
  verts <- verts_of m ;; elems <- elems_of m ;;
  local_uses2own_elems <- get_local_elem_uses2own_elems elems a ;;
  local_uses2own_verts <- get_local_elem_uses2own_verts inv verts a ;;
  '(ranks, idxs) <- exch_remotes local_uses2own_verts local_uses2own_elems 1 ;;
  f <- roots2items (invert local_uses2own_verts) ;;
  Ok (RemoteGraph f ranks idxs).

(** src/Omega_h_ghost.cpp:56-73 the kernel of push_elem_uses on one rank.  The four arrays it fills, elem_ranks, elem_idxs, vert_ranks and
    vert_idxs, are one array of quadruples here. *)
Definition push_elem_uses1 (own_verts2serv_uses ranks idxs own_verts2serv_verts vranks vidxs : list Z) : res (list (Z * Z * (Z * Z))) :=
  own_verts2items <- multiply_fans own_verts2serv_uses own_verts2serv_verts ;;
  nitems <- last_of own_verts2items ;;
  w <- blank nitems ;;
  w <- forM (zlen own_verts2serv_verts - 1) w (fun w ov =>
    item <- zget own_verts2items ov ;;
    vb <- zget own_verts2serv_verts ov ;; ve <- zget own_verts2serv_verts (ov + 1) ;;
    '(w, item) <- foldM (fun st sv =>
      ub <- zget own_verts2serv_uses ov ;; ue <- zget own_verts2serv_uses (ov + 1) ;;
      foldM (fun st su =>
        let '(w, item) := st in
        er <- zget ranks su ;; ei <- zget idxs su ;; vr <- zget vranks sv ;; vi <- zget vidxs sv ;;
        w <- zset w item (Some (er, ei, (vr, vi))) ;; Ok (w, item + 1)) (zfromto ub ue) st) (zfromto vb ve) (w, item) ;;
    e <- zget own_verts2items (ov + 1) ;;
    _ <- check (item =? e) ;; Ok w) ;;
  freeze w.
(** src/Omega_h_ghost.cpp:43-80 push_elem_uses *)
Definition push_elem_uses (inv : Z -> list Z -> Z -> res (list Z * list Z)) (g : remote_graph) (own_verts2verts : list dist) : res (list (list Z) * list (list Z)) :=
  own_verts2serv_verts <- roots2items own_verts2verts ;;
  '(vranks, vidxs) <- items2dests own_verts2verts ;;
  items <- on_ranks own_verts2serv_verts (fun r f =>
    u <- zget (locals2edges g) r ;; er <- zget (edge_ranks g) r ;; ei <- zget (edge_idxs g) r ;; vr <- zget vranks r ;; vi <- zget vidxs r ;;
    push_elem_uses1 u er ei f vr vi) ;;
  nverts <- mapM nitems (invert own_verts2verts) ;;
  items2verts <- make_dist inv (map (map (fun x => fst (snd x))) items) (map (map (fun x => snd (snd x))) items) nverts ;;
  exch_remotes items2verts (map (map (fun x => fst (fst x))) items, map (map (fun x => snd (fst x))) items) 1.

(** src/Omega_h_ghost.cpp:82-91 close_up *)
Definition close_up (inv : Z -> list Z -> Z -> res (list Z * list Z)) (m : dmesh) (g : remote_graph) (verts2owners : list dist) : res (list dist) :=
  elems <- elems_of m ;;
  '(ranks, idxs) <- push_elem_uses inv g (invert verts2owners) ;;
  uses2old_owners <- make_dist inv ranks idxs (de_nents elems) ;;
  old_owner_globals <- globals elems ;;
  get_new_copies2old_owners uses2old_owners old_owner_globals.
(** src/Omega_h_ghost.cpp:93-102 close_down *)
Definition close_down (inv : Z -> list Z -> Z -> res (list Z * list Z)) (m : dmesh) (old_use_owners : list (list Z) * list (list Z)) (elems2owners : list dist) : res (list dist) :=
  verts <- verts_of m ;;
  let nverts_per_elem := dm_dim m + 1 in
  '(ranks, idxs) <- exch_remotes (invert elems2owners) old_use_owners nverts_per_elem ;;
  uses2old_owners <- make_dist inv ranks idxs (de_nents verts) ;;
  old_owner_globals <- globals verts ;;
  get_new_copies2old_owners uses2old_owners old_owner_globals.

(** src/Omega_h_ghost.cpp:114-117 the further layers *)
Fixpoint add_layers (inv : Z -> list Z -> Z -> res (list Z * list Z)) (m : dmesh) (g : remote_graph) (vert_use_owners : list (list Z) * list (list Z)) (n : nat) (elems2owners : list dist) : res (list dist) :=
  match n with
  | O => Ok elems2owners
  | S n => verts2owners <- close_down inv m vert_use_owners elems2owners ;; elems2owners <- close_up inv m g verts2owners ;; add_layers inv m g vert_use_owners n elems2owners
  end.
(** src/Omega_h_ghost.cpp:104-119 ghost_mesh of a mesh that has [nghost_layers] layers; ask_dist(VERT) is src/Omega_h_mesh.cpp:470-478 *)
Definition ghost_mesh (inv : Z -> list Z -> Z -> res (list Z * list Z)) (m : dmesh) (a : asked) (nghost_layers nlayers : Z) : res dmesh :=
  _ <- check (0 <=? nghost_layers) ;; _ <- check (nghost_layers <? nlayers) ;;
  let nnew_layers := nlayers - nghost_layers in
  verts <- verts_of m ;; elems <- elems_of m ;;
  own_verts2own_elems <- get_own_verts2own_elems inv m a ;;
  verts2owners <- make_dist inv (de_ranks verts) (de_idxs verts) (de_nents verts) ;;
  elems2owners <- close_up inv m own_verts2own_elems verts2owners ;;
  vert_use_owners <- (if 1 <? nnew_layers then form_down_use_owners (with_verts elems (elems2verts a)) verts else Ok ([], [])) ;;
  elems2owners <- add_layers inv m own_verts2own_elems vert_use_owners (Z.to_nat (nnew_layers - 1)) elems2owners ;;
  migrate_mesh inv m elems2owners OMEGA_H_GHOSTED.

(** src/Omega_h_ghost.cpp:121-132 partition_by_verts *)
Definition partition_by_verts (inv : Z -> list Z -> Z -> res (list Z * list Z)) (m : dmesh) (a : asked) : res dmesh :=
  g <- get_own_verts2own_elems inv m a ;;
  elems <- elems_of m ;;
  uses2old_owners <- make_dist inv (edge_ranks g) (edge_idxs g) (de_nents elems) ;;
  old_owner_globals <- globals elems ;;
  elems2owners <- get_new_copies2old_owners uses2old_owners old_owner_globals ;;
  migrate_mesh inv m elems2owners OMEGA_H_VERT_BASED.

(** src/Omega_h_ghost.cpp:134-142 partition_by_elems, with src/Omega_h_mesh.cpp:465-468 owned *)
Definition partition_by_elems (inv : Z -> list Z -> Z -> res (list Z * list Z)) (m : dmesh) : res dmesh :=
  elems <- elems_of m ;;
  owned2all <- on_ranks (de_ranks elems) (fun r ranks => collect_marked (map (fun x => if x =? r then 1 else 0) ranks)) ;;
  ranks <- on_ranks owned2all (fun r o => x <- zget (de_ranks elems) r ;; unmap o x 1) ;;
  idxs <- on_ranks owned2all (fun r o => x <- zget (de_idxs elems) r ;; unmap o x 1) ;;
  ds <- make_dist inv ranks idxs (de_nents elems) ;;
  migrate_mesh inv m ds OMEGA_H_ELEM_BASED.
