(** Model of src/Omega_h_dist.cpp, and of the neighbourhood collectives of src/Omega_h_comm.cpp it calls.  Every
    function is called by all ranks of the communicator together: an argument that is an array on each rank is a list
    with one entry per rank, and so is the result. *)
From Verif Require Import Prelude M_Array M_Scan M_Sort M_Map.
Local Open Scope Z_scope.

(** the neighbours a graph communicator stores on one rank, src/Omega_h_comm.hpp srcs_, dsts_ *)
Record graph_comm := GraphComm { sources : list Z; destinations : list Z }.

(** src/Omega_h_comm.cpp:193-195 graph_inverse, with graph_adjacent :182-191 *)
Definition graph_inverse (g : graph_comm) : graph_comm := GraphComm (destinations g) (sources g).

Definition occurrences (x : Z) (l : list Z) : Z := zlen (filter (Z.eqb x) l).

(** src/Omega_h_comm.cpp:167-180 graph.  Rank p's sources are, in increasing order, the ranks that name it as a
    destination, as often as they do: this is what sources_from_destinations returns in every execution (theorem
    senders_discovered about M_Nbx.v).  A destination outside the communicator is erroneous. *)
Definition graph (dsts : list (list Z)) : res (list graph_comm) :=
  let n := zlen dsts in
  if forallb (fun ds => forallb (fun d => (0 <=? d) && (d <? n)) ds) dsts then
    tabulate n (fun p =>
      srcs <- mapM (fun s => ds <- zget dsts s ;; Ok (repeat s (Z.to_nat (occurrences p ds)))) (zrange n) ;;
      ds <- zget dsts p ;; Ok (GraphComm (concat srcs) ds))
  else UB.

(** MPI matches the messages between two ranks in the order in which they are sent and received.  The k-th
    occurrence of [x] in [l], counting indices from [i] *)
Fixpoint find_msg (l : list Z) (x : Z) (k : Z) (i : Z) : res Z :=
  match l with
  | [] => UB
  | y :: l => if y =? x then (if k =? 0 then Ok i else find_msg l x (k - 1) (i + 1)) else find_msg l x k (i + 1)
  end.
(** the sender of the [j]-th message that rank [r] receives, and the number of the message at the sender; a message
    that is expected but not sent would make the ranks wait for ever: [UB] *)
Definition match_msg (gs : list graph_comm) (r j : Z) : res (Z * Z) :=
  gr <- zget gs r ;; s <- zget (sources gr) j ;; g <- zget gs s ;;
  i <- find_msg (destinations g) r (occurrences s (firstn (Z.to_nat j) (sources gr))) 0 ;;
  Ok (s, i).
(** every message that is sent is expected *)
Definition all_expected (gs : list graph_comm) : res unit :=
  _ <- mapM (fun s => g <- zget gs s ;;
    mapM (fun r => gr <- zget gs r ;;
      if occurrences s (sources gr) =? occurrences r (destinations g) then Ok tt else UB) (destinations g)) (zrange (zlen gs)) ;;
  Ok tt.

(** src/Omega_h_comm.cpp:304-324 Neighbor_alltoall and :386-398 alltoall, with one value per message *)
Definition alltoall {A} (gs : list graph_comm) (x : list (list A)) : res (list (list A)) :=
  _ <- all_expected gs ;;
  tabulate (zlen gs) (fun r => gr <- zget gs r ;;
    tabulate (zlen (sources gr)) (fun j => '(s, i) <- match_msg gs r j ;; xs <- zget x s ;; zget xs i)).
(** src/Omega_h_comm.cpp:281-302 Neighbor_allgather and :372-384 allgather *)
Definition allgather {A} (gs : list graph_comm) (x : list A) : res (list (list A)) :=
  _ <- all_expected gs ;;
  tabulate (zlen gs) (fun r => gr <- zget gs r ;;
    tabulate (zlen (sources gr)) (fun j => '(s, i) <- match_msg gs r j ;; zget x s)).

(** the size checks of one rank in Neighbor_ialltoallv, src/Omega_h_comm.cpp:342-349 and :357-363: each message is
    non-empty and inside the buffer *)
Definition check_msgs (displs : list Z) (nmsgs width size : Z) : res unit :=
  _ <- mapM (fun i =>
    lo <- zget displs i ;; hi <- zget displs (i + 1) ;;
    _ <- check (0 <=? lo * width) ;; _ <- check (0 <? (hi - lo) * width) ;; check (lo * width + (hi - lo) * width <=? size)) (zrange nmsgs) ;;
  Ok tt.
(** src/Omega_h_comm.cpp:326-368 Neighbor_ialltoallv and :525-567 alltoallv, with MPI and without CUDA (the byte offsets of
    :340 and :355 are computed in int and overflow for buffers of 2 GB; not in the model).  The
    message must have the size the receiver expects. *)
Definition alltoallv {A} (gs : list graph_comm) (sendbuf : list (list A)) (sdispls rdispls : list (list Z)) (width : Z) : res (list (list A)) :=
  _ <- mapM (fun s => g <- zget gs s ;; buf <- zget sendbuf s ;; sd <- zget sdispls s ;;
    l <- last_of sd ;; _ <- check (zlen buf =? l * width) ;;
    check_msgs sd (zlen (destinations g)) width (zlen buf)) (zrange (zlen gs)) ;;
  _ <- all_expected gs ;;
  tabulate (zlen gs) (fun r => gr <- zget gs r ;; rd <- zget rdispls r ;;
    l <- last_of rd ;; recvbuf <- blank (l * width) ;;
    _ <- check_msgs rd (zlen (sources gr)) width (l * width) ;;
    recvbuf <- forM (zlen (sources gr)) recvbuf (fun recvbuf j =>
      '(s, i) <- match_msg gs r j ;;
      buf <- zget sendbuf s ;; sd <- zget sdispls s ;;
      slo <- zget sd i ;; shi <- zget sd (i + 1) ;; rlo <- zget rd j ;; rhi <- zget rd (j + 1) ;;
      if (shi - slo) * width =? (rhi - rlo) * width then
        forM (rhi - rlo) recvbuf (fun recvbuf k => copy_block width buf (slo + k) recvbuf (rlo + k))
      else UB) ;;
    freeze recvbuf).

(** src/Omega_h_dist.hpp class Dist, on one rank; [None] is an array that does not exist *)
Record dist := Dist {
  roots2items_F : option (list Z); items2content_F : option (list Z); msgs2content_F : list Z; comm_F : graph_comm;
  roots2items_R : option (list Z); items2content_R : option (list Z); msgs2content_R : list Z; comm_R : graph_comm
}.

(** src/Omega_h_dist.cpp:96-106 invert *)
Definition invert1 (d : dist) : dist :=
  Dist (roots2items_R d) (items2content_R d) (msgs2content_R d) (comm_R d)
       (roots2items_F d) (items2content_F d) (msgs2content_F d) (comm_F d).
Definition invert (ds : list dist) : list dist := map invert1 ds.

(** src/Omega_h_dist.cpp:30-74 set_dest_ranks (the branch in use) on distributors for which nothing else is set *)
Definition set_dest_ranks (items2ranks : list (list Z)) : res (list dist) :=
  sorts <- mapM sort_small_range items2ranks ;;
  comms <- graph (map snd sorts) ;;
  fdegrees <- mapM (fun x => get_degrees (snd (fst x))) sorts ;;
  rdegrees <- alltoall comms fdegrees ;;
  tabulate (zlen items2ranks) (fun r =>
    '(perm, fan, _) <- zget sorts r ;; g <- zget comms r ;; rd <- zget rdegrees r ;;
    Ok (Dist None (Some perm) fan g None None (offset_scan rd) (graph_inverse g))).

(** src/Omega_h_dist.cpp:92-94 set_roots2items *)
Definition set_roots2items1 (d : dist) (froots2fitems : list Z) : dist :=
  Dist (Some froots2fitems) (items2content_F d) (msgs2content_F d) (comm_F d)
       (roots2items_R d) (items2content_R d) (msgs2content_R d) (comm_R d).
Definition set_roots2items (ds : list dist) (froots2fitems : list (list Z)) : res (list dist) :=
  tabulate (zlen ds) (fun r => d <- zget ds r ;; f <- zget froots2fitems r ;; Ok (set_roots2items1 d f)).

(** src/Omega_h_dist.cpp:108-124 exch *)
Definition pack1 {A} (d : dist) (data : list A) (width : Z) : res (list A) :=
  data <- match roots2items_F d with Some f => expand data f width | None => Ok data end ;;
  match items2content_F d with Some p => permute data p width | None => Ok data end.
Definition unpack1 {A} (d : dist) (data : list A) (width : Z) : res (list A) :=
  match items2content_R d with Some p => unmap p data width | None => Ok data end.
Definition exch {A} (ds : list dist) (data : list (list A)) (width : Z) : res (list (list A)) :=
  content <- tabulate (zlen ds) (fun r => d <- zget ds r ;; x <- zget data r ;; pack1 d x width) ;;
  content <- alltoallv (map comm_F ds) content (map msgs2content_F ds) (map msgs2content_R ds) width ;;
  tabulate (zlen ds) (fun r => d <- zget ds r ;; x <- zget content r ;; unpack1 d x width).

(** src/Omega_h_dist.cpp:76-82 set_dest_idxs.  [inv r] is the call of invert_map_by_atomics on rank [r], whose result
    depends on the schedule of its kernels. *)
Definition set_dest_idxs (inv : Z -> list Z -> Z -> res (list Z * list Z)) (ds : list dist) (fitems2rroots : list (list Z)) (nrroots : list Z)
  : res (list dist) :=
  rcontent2rroots <- exch ds fitems2rroots 1 ;;
  tabulate (zlen ds) (fun r =>
    d <- zget ds r ;; c <- zget rcontent2rroots r ;; nr <- zget nrroots r ;;
    '(a2ab, ab2b) <- inv r c nr ;;
    Ok (Dist (roots2items_F d) (items2content_F d) (msgs2content_F d) (comm_F d)
             (Some a2ab) (Some ab2b) (msgs2content_R d) (comm_R d))).
(** src/Omega_h_dist.cpp:84-90 set_dest_globals *)
Definition set_dest_globals (ds : list dist) (fitems2ritem_globals : list (list Z)) : res (list dist) :=
  rcontent2ritem_globals <- exch ds fitems2ritem_globals 1 ;;
  tabulate (zlen ds) (fun r =>
    d <- zget ds r ;; c <- zget rcontent2ritem_globals r ;;
    p <- sort_by_keys c 1 ;;
    Ok (Dist (roots2items_F d) (items2content_F d) (msgs2content_F d) (comm_F d)
             None (Some p) (msgs2content_R d) (comm_R d))).

(** src/Omega_h_dist.cpp:20-24 Dist(comm, fitems2rroots, nrroots) *)
Definition make_dist (inv : Z -> list Z -> Z -> res (list Z * list Z)) (ranks idxs : list (list Z)) (nrroots : list Z) : res (list dist) :=
  ds <- set_dest_ranks ranks ;; set_dest_idxs inv ds idxs nrroots.

(** src/Omega_h_dist.cpp:145-149 exch_reduce, for an operation given by its initial value and join (fan_reduce_tmpl of M_Map.v) *)
Definition exch_reduce {A} (init : A) (join : A -> A -> A) (ds : list dist) (data : list (list A)) (width : Z) : res (list (list A)) :=
  item_data <- exch ds data width ;;
  tabulate (zlen ds) (fun r => d <- zget ds r ;; x <- zget item_data r ;;
    match roots2items_R d with Some f => fan_reduce_tmpl init join f x width | None => UB end).

(** src/Omega_h_dist.cpp:155-191 queries on one rank *)
Definition nitems (d : dist) : res Z := last_of (msgs2content_F d).
Definition nsrcs (d : dist) : res Z := match roots2items_F d with Some f => Ok (zlen f - 1) | None => nitems d end.
Definition ndests (d : dist) : res Z := nsrcs (invert1 d).
Definition content2msgs (d : dist) : res (list Z) := invert_fan (msgs2content_F d).
Definition items2msgs (d : dist) : res (list Z) :=
  match items2content_F d with Some p => c <- content2msgs d ;; unmap p c 1 | None => UB end.
Definition msgs2ranks (d : dist) : list Z := destinations (comm_F d).
Definition items2ranks (d : dist) : res (list Z) := m <- items2msgs d ;; compound_maps m (msgs2ranks d).
(** src/Omega_h_dist.cpp:173-176 items2dest_idxs: LOs(ndests(), 0, 1) is 0, 1, 2, ... *)
Definition items2dest_idxs (ds : list dist) : res (list (list Z)) :=
  iota <- mapM (fun d => n <- ndests d ;; Ok (zrange n)) ds ;; exch (invert ds) iota 1.
(** src/Omega_h_dist.cpp:178-180 items2dests *)
Definition items2dests (ds : list dist) : res (list (list Z) * list (list Z)) :=
  ranks <- mapM items2ranks ds ;; idxs <- items2dest_idxs ds ;; Ok (ranks, idxs).
