(** Model of src/Omega_h_migrate.cpp: moving the entities of a distributed mesh between ranks.  Every function is called by all
    ranks of the communicator together; an array on each rank is a list with one entry per rank. *)
From Coq Require Import String.
From Verif Require Import Prelude M_Array M_Par M_Scan M_Sort M_Map M_Tags M_Template M_Dist M_Owners.
Local Open Scope Z_scope.

(** src/Omega_h_tag.hpp:12-37 a tag and its arrays on all ranks.  Every rank has the same tags in the same order: where they differ,
    the exchanges of push_tags do not match.  Values are integers, as in M_Tags.v *)
Record dtag := DTag { dt_name : list Z; dt_type : Z; dt_ncomps : Z; dt_data : list (list Z) }.

(** the part of src/Omega_h_mesh.hpp:114-117 that belongs to one dimension: nents_, adjs_[d][d-1] (ab2b, and codes where they
    exist; both empty for vertices), owners_ and tags_.  The one-level adjacency and the owners are taken as stored, so ask_down and
    ask_owners only read them; they do so on every mesh of more than one rank. *)
Record dents := DEnts {
  de_nents : list Z; de_down : list (list Z); de_codes : option (list (list Z));
  de_ranks : list (list Z); de_idxs : list (list Z); de_tags : list dtag
}.
(** a mesh; entry [d] of [dm_ents] is dimension [d] *)
Record dmesh := DMesh { dm_family : family; dm_dim : Z; dm_ents : list dents }.

(** src/Omega_h_defines.hpp:39-43 Omega_h_Parting *)
Inductive parting := OMEGA_H_ELEM_BASED | OMEGA_H_GHOSTED | OMEGA_H_VERT_BASED.

Definition global_name := name_of "global"%string.

(** src/Omega_h_mesh.cpp:205-209 has_tag, with :262-271 tag_iter *)
Definition find_dtag (tags : list dtag) (name : list Z) : option dtag := find (fun t => same_name (dt_name t) name) tags.
Definition has_dtag (tags : list dtag) (name : list Z) : bool := match find_dtag tags name with Some _ => true | None => false end.

(** src/Omega_h_mesh.cpp:370-372 globals: get_array<GO>(ent_dim, "global"); a tag of another type does not cast (src/Omega_h_tag.cpp:21-25) *)
Definition globals (e : dents) : res (list (list Z)) :=
  match find_dtag (de_tags e) global_name with
  | Some t => if dt_type t =? OMEGA_H_I64 then Ok (dt_data t) else Abort
  | None => Abort
  end.

(** an array on each rank, mapped over all ranks *)
Definition on_ranks {A B} (x : list A) (f : Z -> A -> res B) : res (list B) := tabulate (zlen x) (fun r => a <- zget x r ;; f r a).

(** src/Omega_h_migrate.cpp:15-19 form_down_use_owners, with src/Omega_h_remotes.cpp:11-13 unmap *)
Definition form_down_use_owners (high low : dents) : res (list (list Z) * list (list Z)) :=
  ranks <- on_ranks (de_down high) (fun r uses2lows => x <- zget (de_ranks low) r ;; unmap uses2lows x 1) ;;
  idxs <- on_ranks (de_down high) (fun r uses2lows => x <- zget (de_idxs low) r ;; unmap uses2lows x 1) ;;
  Ok (ranks, idxs).

(** src/Omega_h_migrate.cpp:29-44 the kernel of get_old_owners2uniq_uses for one old owner: the uses [lo, hi); the state is
    (keep_w, degree).  Iterations touch disjoint entries of keep_w, so they are run in order. *)
Definition uniq_kernel (serv_uses2ranks : list Z) (lo hi : Z) (keep : list Z) : res (list Z * Z) :=
  foldM (fun st serv_use =>
    let '(keep, degree) := st in
    k <- zget keep serv_use ;;
    if k =? 0 then Ok (keep, degree) else
    rank <- zget serv_uses2ranks serv_use ;;
    keep <- foldM (fun keep serv_use2 =>
      rank2 <- zget serv_uses2ranks serv_use2 ;;
      if rank2 =? rank then zset keep serv_use2 0 else Ok keep) (zfromto (serv_use + 1) hi) keep ;;
    Ok (keep, degree + 1)) (zfromto lo hi) (keep, 0).
(** src/Omega_h_migrate.cpp:27-47 *)
Definition uniq_marks (old_owners2serv_uses serv_uses2ranks : list Z) (nserv_uses : Z) : res (list Z * list Z) :=
  forM (zlen old_owners2serv_uses - 1) (repeat 1 (Z.to_nat nserv_uses), []) (fun st old_owner =>
    let '(keep, degrees) := st in
    lo <- zget old_owners2serv_uses old_owner ;; hi <- zget old_owners2serv_uses (old_owner + 1) ;;
    '(keep, degree) <- uniq_kernel serv_uses2ranks lo hi keep ;;
    Ok (keep, degrees ++ [degree])).
(** src/Omega_h_migrate.cpp:21-57 get_old_owners2uniq_uses *)
Definition get_old_owners2uniq_uses (uses2old_owners : list dist) : res (list dist) :=
  let old_owners2uses := invert uses2old_owners in
  parts <- on_ranks old_owners2uses (fun r d =>
    match roots2items_F d with
    | None => UB
    | Some old_owners2serv_uses =>
      nserv_uses <- nitems d ;;
      serv_uses2ranks <- items2ranks d ;;
      '(keep, degrees) <- uniq_marks old_owners2serv_uses serv_uses2ranks nserv_uses ;;
      uniq_serv_uses2serv_uses <- collect_marked keep ;;
      uniq_serv_uses2ranks <- unmap uniq_serv_uses2serv_uses serv_uses2ranks 1 ;;
      Ok (uniq_serv_uses2ranks, offset_scan degrees)
    end) ;;
  ds <- set_dest_ranks (map fst parts) ;;
  set_roots2items ds (map snd parts).

(** src/Omega_h_migrate.cpp:59-65 get_new_copies2old_owners *)
Definition get_new_copies2old_owners (uses2old_owners : list dist) (old_owner_globals : list (list Z)) : res (list dist) :=
  old_owners2uniq_uses <- get_old_owners2uniq_uses uses2old_owners ;;
  old_owners2uniq_uses <- set_dest_globals old_owners2uniq_uses old_owner_globals ;;
  Ok (invert old_owners2uniq_uses).

(** src/Omega_h_migrate.cpp:84-91 the search of the loop in form_new_conn *)
Fixpoint find_copy (serv_ents2ranks serv_ents2new_idxs : list Z) (rank : Z) (es : list Z) : res Z :=
  match es with
  | [] => Ok (-1)
  | e :: es => er <- zget serv_ents2ranks e ;; if er =? rank then zget serv_ents2new_idxs e else find_copy serv_ents2ranks serv_ents2new_idxs rank es
  end.
(** src/Omega_h_migrate.cpp:97 set_roots2items(LOs()): the array does not exist any more *)
Definition clear_roots1 (d : dist) : dist :=
  Dist None (items2content_F d) (msgs2content_F d) (comm_F d) (roots2items_R d) (items2content_R d) (msgs2content_R d) (comm_R d).
(** src/Omega_h_migrate.cpp:67-99 form_new_conn *)
Definition form_new_conn (new_ents2old_owners old_owners2new_uses : list dist) : res (list (list Z)) :=
  nnew_ents <- mapM nitems new_ents2old_owners ;;
  serv_ents2new_idxs <- exch new_ents2old_owners (map zrange nnew_ents) 1 ;;
  let old_owners2new_ents := invert new_ents2old_owners in
  serv_uses2new_idxs <- on_ranks old_owners2new_ents (fun r d =>
    du <- zget old_owners2new_uses r ;;
    new_idxs <- zget serv_ents2new_idxs r ;;
    serv_ents2ranks <- items2ranks d ;;
    serv_uses2ranks <- items2ranks du ;;
    nserv_uses <- nitems du ;;
    match roots2items_F du, roots2items_F d with
    | Some old_owners2serv_uses, Some old_owners2serv_ents =>
      w <- blank nserv_uses ;;
      w <- forM (zlen old_owners2serv_ents - 1) w (fun w old_owner =>
        ebegin <- zget old_owners2serv_ents old_owner ;; eend <- zget old_owners2serv_ents (old_owner + 1) ;;
        ubegin <- zget old_owners2serv_uses old_owner ;; uend <- zget old_owners2serv_uses (old_owner + 1) ;;
        foldM (fun w serv_use =>
          rank <- zget serv_uses2ranks serv_use ;;
          idx <- find_copy serv_ents2ranks new_idxs rank (zfromto ebegin eend) ;;
          zset w serv_use (Some idx)) (zfromto ubegin uend) w) ;;
      freeze w
    | _, _ => UB
    end) ;;
  exch (map clear_roots1 old_owners2new_uses) serv_uses2new_idxs 1.

(** src/Omega_h_migrate.cpp:101-123 push_down, with src/Omega_h_dist.cpp:208-212 exch of Remotes: the new downward adjacency, its codes,
    and old_low_owners2new_lows *)
Definition push_down (inv : Z -> list Z -> Z -> res (list Z * list Z)) (nlows_per_high : Z) (high low : dents) (old_owners2new_ents : list dist)
  : res (list (list Z) * option (list (list Z)) * list dist) :=
  '(use_ranks, use_idxs) <- form_down_use_owners high low ;;
  new_use_ranks <- exch old_owners2new_ents use_ranks nlows_per_high ;;
  new_use_idxs <- exch old_owners2new_ents use_idxs nlows_per_high ;;
  low_uses2old_owners <- make_dist inv new_use_ranks new_use_idxs (de_nents low) ;;
  old_owner_globals <- globals low ;;
  new_lows2old_owners <- get_new_copies2old_owners low_uses2old_owners old_owner_globals ;;
  new_conn <- form_new_conn new_lows2old_owners (invert low_uses2old_owners) ;;
  new_codes <- match de_codes high with
    | Some old_codes => c <- exch old_owners2new_ents old_codes nlows_per_high ;; Ok (Some c)
    | None => Ok None
    end ;;
  Ok (new_conn, new_codes, invert new_lows2old_owners).

(** src/Omega_h_mesh.cpp:132-159 add_tag of an array to a mesh with [nents] entities of the dimension on each rank *)
Definition add_dtag (nents : list Z) (tags : list dtag) (t : dtag) : res (list dtag) :=
  _ <- (if has_dtag tags (dt_name t) then Ok tt else
    _ <- check (negb (zlen (dt_name t) =? 0)) ;; _ <- check (0 <=? dt_ncomps t) ;; _ <- check (dt_ncomps t <=? 127) ;; check (zlen tags <? 127)) ;;
  _ <- mapM (fun r => n <- zget nents r ;; x <- zget (dt_data t) r ;; check (zlen x =? n * dt_ncomps t)) (zrange (zlen nents)) ;;
  if has_dtag tags (dt_name t) then Ok (map (fun u => if same_name (dt_name u) (dt_name t) then t else u) tags) else Ok (tags ++ [t]).

(** src/Omega_h_migrate.cpp:125-149 push_tags *)
Definition push_tags (old_nents new_nents : list Z) (tags : list dtag) (old_owners2new_ents : list dist) : res (list dtag) :=
  _ <- on_ranks old_owners2new_ents (fun r d =>
    n <- zget old_nents r ;; match roots2items_F d with Some f => check (zlen f - 1 =? n) | None => UB end) ;;
  foldM (fun new_tags t =>
    array <- exch old_owners2new_ents (dt_data t) (dt_ncomps t) ;;
    add_dtag new_nents new_tags (DTag (dt_name t) (dt_type t) (dt_ncomps t) array)) tags [].

(** src/Omega_h_mesh.cpp:448-454 set_owners: the checks *)
Definition check_owners (nents : list Z) (ranks idxs : list (list Z)) : res unit :=
  _ <- mapM (fun r => n <- zget nents r ;; a <- zget ranks r ;; b <- zget idxs r ;;
    _ <- check (n =? zlen a) ;; check (n =? zlen b)) (zrange (zlen nents)) ;; Ok tt.

(** src/Omega_h_migrate.cpp:151-169 push_ents *)
Definition push_ents (mode : parting) (ent_dim : Z) (old : dents) (new_nents : list Z) (down : list (list Z)) (codes : option (list (list Z)))
    (new_ents2old_owners old_owners2new_ents : list dist) : res dents :=
  tags <- push_tags (de_nents old) new_nents (de_tags old) old_owners2new_ents ;;
  own_ranks <- match mode, ent_dim =? VERT with
    | OMEGA_H_GHOSTED, _ | OMEGA_H_VERT_BASED, true => x <- exch old_owners2new_ents (de_ranks old) 1 ;; Ok (Some x)
    | _, _ => Ok None
    end ;;
  '(ranks, idxs) <- update_ownership new_ents2old_owners own_ranks ;;
  _ <- check_owners new_nents ranks idxs ;;
  Ok (DEnts new_nents down codes ranks idxs tags).

(** src/Omega_h_mesh.cpp:87-95 set_ents: the number of entities from the size of the adjacency *)
Definition count_ents (deg : Z) (down : list (list Z)) : res (list Z) :=
  mapM (fun x => divide_no_remainder (zlen x) deg) down.

(** src/Omega_h_migrate.cpp:205-215 the loop of migrate_mesh from dimension [d] down to 1, then :216-220 the vertices; the result lists
    the dimensions from [d] down to 0 *)
Fixpoint push_dims (inv : Z -> list Z -> Z -> res (list Z * list Z)) (f : family) (mode : parting) (m : dmesh) (d : nat) (old_owners2new_ents : list dist) : res (list dents) :=
  match d with
  | O =>
    old <- zget (dm_ents m) VERT ;;
    let new_verts2old_owners := invert old_owners2new_ents in
    nnew_verts <- mapM nitems new_verts2old_owners ;;
    verts <- push_ents mode VERT old nnew_verts [] None new_verts2old_owners old_owners2new_ents ;;
    Ok [verts]
  | S low =>
    let d := Z.of_nat (S low) in
    let deg := element_degree f d (d - 1) in
    old <- zget (dm_ents m) d ;; old_low <- zget (dm_ents m) (d - 1) ;;
    '(down, codes, old_low_owners2new_lows) <- push_down inv deg old old_low old_owners2new_ents ;;
    nents <- count_ents deg down ;;
    ents <- push_ents mode d old nents down codes (invert old_owners2new_ents) old_owners2new_ents ;;
    rest <- push_dims inv f mode m low old_low_owners2new_lows ;;
    Ok (ents :: rest)
  end.

(** src/Omega_h_migrate.cpp:196-198 and :222-224: each dimension has global numbers *)
Definition check_globals (m : dmesh) : res unit :=
  _ <- mapM (fun d => e <- zget (dm_ents m) d ;; check (has_dtag (de_tags e) global_name)) (zrange (dm_dim m + 1)) ;; Ok tt.
(** src/Omega_h_migrate.cpp:193-225 migrate_mesh.  copy_meta (src/Omega_h_mesh.cpp:722-732) keeps family and dimension; the partitioning
    mode, the hints of the bisection and the class sets it copies, and the printed statistics, are not in the model. *)
Definition migrate_mesh (inv : Z -> list Z -> Z -> res (list Z * list Z)) (m : dmesh) (new_elems2old_owners : list dist) (mode : parting) : res dmesh :=
  _ <- check_globals m ;;
  ents <- push_dims inv (dm_family m) mode m (Z.to_nat (dm_dim m)) (invert new_elems2old_owners) ;;
  let m' := DMesh (dm_family m) (dm_dim m) (rev ents) in
  _ <- check_globals m' ;;
  Ok m'.
