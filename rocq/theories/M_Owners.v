(** Ownership of shared entities and their global numbers.  Every argument and result is the list over all ranks. *)
From Verif Require Import Prelude M_Array M_Scan M_Map M_Dist M_Comm M_Linpart.
Local Open Scope Z_scope.

(** src/Omega_h_owners.cpp:26-35 the loop over the copies of one old owner when the owning ranks are given; [scs] are the
    values that serv_copy takes *)
Fixpoint owner_by_rank (clients2ranks clients own_ranks idxs : list Z) (scs : list Z) : res Z :=
  match scs with
  | [] => Ok (-1)
  | sc :: scs =>
    client <- zget clients sc ;; client_rank <- zget clients2ranks client ;; own_rank <- zget own_ranks sc ;;
    if own_rank =? client_rank then zget idxs sc else owner_by_rank clients2ranks clients own_ranks idxs scs
  end.
(** src/Omega_h_owners.cpp:44-61 the loop when they are not; the state is (own_rank, nown_client_copies, own_idx) *)
Definition owner_by_size (clients2ranks clients clients2ncopies idxs : list Z) (scs : list Z) : res (Z * Z) :=
  '(own_rank, _, own_idx) <- foldM (fun st sc =>
    let '(own_rank, nown, own_idx) := st in
    client <- zget clients sc ;; nclient <- zget clients2ncopies client ;; client_rank <- zget clients2ranks client ;;
    if ((own_rank =? -1) || (nclient <? nown) || ((nclient =? nown) && (client_rank <? own_rank)))%bool then
      copy_idx <- zget idxs sc ;; Ok (client_rank, nclient, copy_idx)
    else Ok st) scs (-1, -1, -1) ;;
  Ok (own_rank, own_idx).

(** src/Omega_h_owners.cpp:11-71 update_ownership; [own_ranks] is [None] when the array does not exist.  The two arrays
    filled at :62-63 are kept together. *)
Definition update_ownership (ds : list dist) (own_ranks : option (list (list Z))) : res (list (list Z) * list (list Z)) :=
  ncopies <- mapM nitems ds ;;
  serv_idxs <- exch ds (map zrange ncopies) 1 ;;
  match own_ranks with
  | Some own_ranks =>
    serv_ranks <- exch ds own_ranks 1 ;;
    own_idxs <- tabulate (zlen ds) (fun r =>
      d <- zget ds r ;; idxs <- zget serv_idxs r ;; rs <- zget serv_ranks r ;; clients <- items2msgs (invert1 d) ;;
      match roots2items_R d with
      | None => UB
      | Some f => tabulate (zlen f - 1) (fun o => lo <- zget f o ;; hi <- zget f (o + 1) ;;
          owner_by_rank (msgs2ranks (invert1 d)) clients rs idxs (zfromto lo hi))
      end) ;;
    copies2own_idxs <- exch (invert ds) own_idxs 1 ;;
    Ok (own_ranks, copies2own_idxs)
  | None =>
    clients2ncopies <- allgather (map comm_F ds) ncopies ;;
    owns <- tabulate (zlen ds) (fun r =>
      d <- zget ds r ;; idxs <- zget serv_idxs r ;; ns <- zget clients2ncopies r ;; clients <- items2msgs (invert1 d) ;;
      match roots2items_R d with
      | None => UB
      | Some f => tabulate (zlen f - 1) (fun o => lo <- zget f o ;; hi <- zget f (o + 1) ;;
          owner_by_size (msgs2ranks (invert1 d)) clients ns idxs (zfromto lo hi))
      end) ;;
    copies2own_ranks <- exch (invert ds) (map (map fst) owns) 1 ;;
    copies2own_idxs <- exch (invert ds) (map (map snd) owns) 1 ;;
    Ok (copies2own_ranks, copies2own_idxs)
  end.

(** src/Omega_h_linpart.cpp:53-60 copies_to_linear_owners *)
Definition copies_to_linear_owners (inv : Z -> list Z -> Z -> res (list Z * list Z)) (globals : list (list Z)) : res (list dist) :=
  let total := find_total_globals globals in
  nlins <- mapM (linear_partition_size total (zlen globals)) (zrange (zlen globals)) ;;
  owners <- mapM (fun g => globals_to_linear_owners g total (zlen globals)) globals ;;
  make_dist inv (map (map fst) owners) (map (map snd) owners) nlins.
(** src/Omega_h_owners.cpp:79-83 owners_from_globals *)
Definition owners_from_globals (inv : Z -> list Z -> Z -> res (list Z * list Z)) (globals : list (list Z)) (own_ranks : option (list (list Z)))
  : res (list (list Z) * list (list Z)) :=
  ds <- copies_to_linear_owners inv globals ;; update_ownership ds own_ranks.

(** src/Omega_h_owners.cpp:85-102 reduce_data_to_owners *)
Definition reduce_data_to_owners {A} (ds : list dist) (copy_data : list (list A)) (ncomps : Z) : res (list (list A)) :=
  serv_copy_data <- exch ds copy_data ncomps ;;
  tabulate (zlen ds) (fun r => d <- zget ds r ;; x <- zget serv_copy_data r ;;
    match roots2items_R d with
    | None => UB
    | Some f => rows <- tabulate (zlen f - 1) (fun owner => b <- zget f owner ;; tabulate ncomps (fun c => zget x (b * ncomps + c))) ;;
      Ok (concat rows)
    end).

(** src/Omega_h_globals.cpp:9-22 rescan_globals.  Sums stay below 2^63 (exscan) and 2^31 (offset_scan). *)
Definition rescan_globals (counts : list (list Z)) : res (list (list Z)) :=
  nnew <- mapM (fun c => last_of (offset_scan c)) counts ;;
  let starts := exscan_sum nnew in
  tabulate (zlen counts) (fun r => c <- zget counts r ;; start <- zget starts r ;;
    tabulate (zlen c) (fun i => o <- zget (offset_scan c) i ;; Ok (o + start))).

(** src/Omega_h_mesh.cpp:465-468 owned: which entities of a rank it owns itself *)
Definition owned1 (rank : Z) (ranks : list Z) : list Z := map (fun r => if r =? rank then 1 else 0) ranks.
(** src/Omega_h_mesh.cpp:584-588 sync_array for entities that could be shared; ask_dist (:470-478) builds the distributor from
    the owners *)
Definition sync_array {A} (inv : Z -> list Z -> Z -> res (list Z * list Z)) (ranks idxs : list (list Z)) (a : list (list A)) (width : Z) : res (list (list A)) :=
  ds <- make_dist inv ranks idxs (map zlen ranks) ;; exch (invert ds) a width.
(** src/Omega_h_mesh.cpp:608-611 reduce_array for entities that could be shared *)
Definition reduce_array {A} (init : A) (join : A -> A -> A) (inv : Z -> list Z -> Z -> res (list Z * list Z)) (ranks idxs : list (list Z)) (a : list (list A)) (width : Z)
  : res (list (list A)) :=
  ds <- make_dist inv ranks idxs (map zlen ranks) ;; exch_reduce init join ds a width.
(** src/Omega_h_mesh.cpp:118-125 nglobal_ents: one entry per rank *)
Definition nglobal_ents (shared : bool) (ranks : list (list Z)) : list Z :=
  if shared then allreduce_sum (map (fun r => match zget ranks r with Ok a => fold_left Z.add (owned1 r a) 0 | _ => 0 end) (zrange (zlen ranks)))
  else allreduce_sum (map zlen ranks).
(** src/Omega_h_owners.cpp:104-113 globals_from_owners; [shared] is could_be_shared *)
Definition globals_from_owners (inv : Z -> list Z -> Z -> res (list Z * list Z)) (shared : bool) (ranks idxs : list (list Z)) : res (list (list Z)) :=
  if negb shared then
    let starts := exscan_sum (map zlen ranks) in
    tabulate (zlen ranks) (fun r => a <- zget ranks r ;; start <- zget starts r ;; Ok (map (fun i => start + i) (zrange (zlen a))))
  else
    owned <- tabulate (zlen ranks) (fun r => a <- zget ranks r ;; Ok (owned1 r a)) ;;
    new_globals <- rescan_globals owned ;;
    sync_array inv ranks idxs new_globals 1.
