(** Model of src/Omega_h_graph.cpp: compressed graphs.  LO arithmetic does not overflow in the model;
    kernels run in index order (their iterations write disjoint segments, see C48). *)
From Verif Require Import Prelude M_Array M_Scan M_Map.
Local Open Scope Z_scope.

(** src/Omega_h_graph.hpp Graph: a2ab (offsets), ab2b (targets) *)
Record graph := mk_graph { a2ab : list Z; ab2b : list Z }.

(** src/Omega_h_graph.cpp:10 *)
Definition nnodes (g : graph) : Z := zlen (a2ab g) - 1.

(** src/Omega_h_array_ops.cpp:180-187 add_each *)
Definition add_each (a b : list Z) : res (list Z) :=
  _ <- check (zlen a =? zlen b) ;;
  tabulate (zlen a) (fun i => x <- zget a i ;; y <- zget b i ;; Ok (x + y)).

(** one step of a copying loop [dst[k++] = src[j]] *)
Definition copy_next (src : list Z) (s : list (option Z) * Z) (j : Z) : res (list (option Z) * Z) :=
  let '(d, k) := s in x <- zget src j ;; d <- zset d k (Some x) ;; Ok (d, k + 1).

(** src/Omega_h_graph.cpp:14-40 add_edges *)
Definition add_edges (g1 g2 : graph) : res graph :=
  let v2e1 := a2ab g1 in let e2v1 := ab2b g1 in
  let v2e2 := a2ab g2 in let e2v2 := ab2b g2 in
  let nv := zlen v2e1 - 1 in
  deg1 <- get_degrees v2e1 ;; deg2 <- get_degrees v2e2 ;;
  deg <- add_each deg1 deg2 ;;
  let v2e := offset_scan deg in
  ne <- last_of v2e ;;
  e2v <- blank ne ;;
  e2v <- forM nv e2v (fun d v =>
    begin1 <- zget v2e1 v ;; end1 <- zget v2e1 (v + 1) ;;
    begin2 <- zget v2e2 v ;; end2 <- zget v2e2 (v + 1) ;;
    begin <- zget v2e v ;; end_ <- zget v2e (v + 1) ;;
    s <- foldM (copy_next e2v1) (zfromto begin1 end1) (d, begin) ;;
    s <- foldM (copy_next e2v2) (zfromto begin2 end2) s ;;
    _ <- check (snd s =? end_) ;; Ok (fst s)) ;;
  e2v <- freeze e2v ;;
  Ok (mk_graph v2e e2v).

(** src/Omega_h_graph.cpp:42-59 unmap_graph.  The inner loop counts ac up from a2ac[a] and bc up from
    b2bc[b] together. *)
Definition unmap_graph (a2b : list Z) (b2c : graph) : res graph :=
  let b2bc := a2ab b2c in let bc2c := ab2b b2c in
  b_degrees <- get_degrees b2bc ;;
  a_degrees <- unmap a2b b_degrees 1 ;;
  let a2ac := offset_scan a_degrees in
  nac <- last_of a2ac ;;
  ac2c <- blank nac ;;
  ac2c <- forM (zlen a2b) ac2c (fun d a =>
    b <- zget a2b a ;; bc <- zget b2bc b ;;
    lo <- zget a2ac a ;; hi <- zget a2ac (a + 1) ;;
    foldM (fun d ac => x <- zget bc2c (bc + (ac - lo)) ;; zset d ac (Some x)) (zfromto lo hi) d) ;;
  ac2c <- freeze ac2c ;;
  Ok (mk_graph a2ac ac2c).

(** src/Omega_h_graph.cpp:94-100 filter_graph_edges; fan_reduce is used at T = I8 *)
Definition filter_graph_edges (g : graph) (keep_edge : list Z) : res graph :=
  degrees <- fan_reduce (-128) 127 (a2ab g) keep_edge 1 OMEGA_H_SUM ;;
  let offsets := offset_scan degrees in
  kept2old <- collect_marked keep_edge ;;
  edges <- unmap kept2old (ab2b g) 1 ;;
  Ok (mk_graph offsets edges).

(** src/Omega_h_graph.cpp:102-140 filter_graph_nodes *)
Definition filter_graph_nodes (g : graph) (keep_node : list Z) : res graph :=
  let nold := nnodes g in
  let on2oe := a2ab g in let oe2on := ab2b g in
  new2old <- collect_marked keep_node ;;
  let nnew := zlen new2old in
  degs <- tabulate nold (fun old =>
    lo <- zget on2oe old ;; hi <- zget on2oe (old + 1) ;;
    foldM (fun n e => o <- zget oe2on e ;; k <- zget keep_node o ;; Ok (if k =? 0 then n else n + 1)) (zfromto lo hi) 0) ;;
  newdegs <- unmap new2old degs 1 ;;
  let nn2ne := offset_scan newdegs in
  nne <- last_of nn2ne ;;
  old2new <- invert_injective_map new2old nold ;;
  ne2nn <- blank nne ;;
  ne2nn <- forM nnew ne2nn (fun d nw =>
    old <- zget new2old nw ;; ne0 <- zget nn2ne nw ;;
    lo <- zget on2oe old ;; hi <- zget on2oe (old + 1) ;;
    s <- foldM (fun s e =>
      let '(d, ne) := s in
      o <- zget oe2on e ;; k <- zget keep_node o ;;
      if k =? 0 then Ok (d, ne)
      else (on <- zget old2new o ;; d <- zset d ne (Some on) ;; Ok (d, ne + 1)))
      (zfromto lo hi) (d, ne0) ;;
    Ok (fst s)) ;;
  ne2nn <- freeze ne2nn ;;
  Ok (mk_graph nn2ne ne2nn).

(** src/Omega_h_graph.cpp:146-148 identity_graph; LOs(n, 0, 1) is 0, 1, ..., n-1
    (src/Omega_h_array.cpp:59-66 fill_linear) *)
Definition identity_graph (n : Z) : res graph :=
  if n <? 0 then UB else Ok (mk_graph (zrange (n + 1)) (zrange n)).

(** src/Omega_h_graph.cpp:150-152 add_self_edges *)
Definition add_self_edges (g : graph) : res graph :=
  i <- identity_graph (nnodes g) ;; add_edges i g.
