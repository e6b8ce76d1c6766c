(** Model of the 3D edge swap: src/Omega_h_swap3d_loop.hpp, src/Omega_h_swap3d_choice.hpp and
    src/Omega_h_swap3d_topology.cpp. *)
From Verif Require Import Prelude M_Array M_Scan M_Map M_Align M_Template M_SwapTables.
Local Open Scope Z_scope.

(** src/Omega_h_swap3d_loop.hpp:18-22 Loop. Only the first [size] entries of loop_verts2verts are ever
    written; the list holds those. A Loop whose Few's were never written holds empty lists, so that
    reading them is undefined. *)
Record loop := mk_loop { loop_size : Z; eev2v : list Z; loop_verts2verts : list Z }.

(** src/Omega_h_swap3d_loop.hpp:44-58: the end points of the edge opposite to the edge in one of its tets *)
Definition opposite_ends (edge_tets2tets edge_tet_codes tet_verts2verts : list Z) (edge_tet : Z) : res (Z * Z) :=
  tet <- zget edge_tets2tets edge_tet ;;
  code <- zget edge_tet_codes edge_tet ;;
  let rre := code_which_down code in
  let rot := code_rotation code in
  let rre_opp := simplex_opposite_template 3 1 rre in
  v0 <- zget tet_verts2verts (tet * 4 + simplex_down_template 3 1 rre_opp (Z.lxor rot 0)) ;;
  v1 <- zget tet_verts2verts (tet * 4 + simplex_down_template 3 1 rre_opp (Z.lxor rot 1)) ;;
  Ok (v0, v1).

(** src/Omega_h_swap3d_loop.hpp:67-71: the least j in [js] with tmp_edges[j][0] == v; none: OMEGA_H_CHECK fails *)
Fixpoint find_start (tmp : list (Z * Z)) (v : Z) (js : list Z) : res Z :=
  match js with
  | [] => Abort
  | j :: js => t <- zget tmp j ;; if fst t =? v then Ok j else find_start tmp v js
  end.

(** src/Omega_h_swap3d_loop.hpp:66-73: one step of the insertion sort *)
Definition order_step (size : Z) (tmp : list (Z * Z)) (i : Z) : res (list (Z * Z)) :=
  ti <- zget tmp i ;;
  j <- find_start tmp (snd ti) (zfromto (i + 1) size) ;;
  a <- zget tmp (i + 1) ;; b <- zget tmp j ;;
  tmp <- zset tmp (i + 1) b ;; zset tmp j a.

(** src/Omega_h_swap3d_loop.hpp:24-78 find_loop *)
Definition find_loop (edges2edge_tets edge_tets2tets edge_tet_codes edge_verts2verts tet_verts2verts : list Z) (edge : Z) : res loop :=
  begin_use <- zget edges2edge_tets edge ;;
  end_use <- zget edges2edge_tets (edge + 1) ;;
  let size := end_use - begin_use in
  if size >? MAX_EDGE_SWAP then Ok (mk_loop size [] []) else
  if size <? 3 then Abort else
  ev <- mapM (fun eev => zget edge_verts2verts (edge * 2 + eev)) [0; 1] ;;
  tmp <- tabulate size (fun loop_edge => opposite_ends edge_tets2tets edge_tet_codes tet_verts2verts (begin_use + loop_edge)) ;;
  tmp <- foldM (order_step size) (zrange (size - 1)) tmp ;;
  Ok (mk_loop size ev (map fst tmp)).

(** swap3d::edges2unique, swap3d::unique_edges (src/Omega_h_swap3d_tables.hpp:119-294): the loop
    vertices at the ends of interior edge [plane_edge] of configuration [config] *)
Definition plane_edge (size config plane_edge : Z) : res (list Z) :=
  e2u <- zget edges2unique size ;; cu <- zget e2u config ;; unique_edge <- zget cu plane_edge ;;
  u2v <- zget unique_edges size ;; zget u2v unique_edge.
(** swap3d::swap_meshes, swap3d::swap_triangles (src/Omega_h_swap3d_tables.hpp:63-115): the loop
    vertices of triangle [plane_tri] of configuration [config] *)
Definition plane_tri (size config plane_tri : Z) : res (list Z) :=
  n <- zget swap_mesh_sizes size ;; ms <- zget swap_meshes size ;;
  uniq_tri <- zget ms (config * n + plane_tri) ;;
  u2v <- zget swap_triangles size ;; zget u2v uniq_tri.
Definition config_edges (size config : Z) : res (list (list Z)) :=
  n <- zget nedges size ;; tabulate n (plane_edge size config).
Definition config_tris (size config : Z) : res (list (list Z)) :=
  n <- zget swap_mesh_sizes size ;; tabulate n (plane_tri size config).

(** ** src/Omega_h_swap3d_topology.cpp *)

(** the writes of one key go to consecutive entries *)
Fixpoint write_block {A} (out : list (option A)) (p : Z) (l : list A) : res (list (option A)) :=
  match l with [] => Ok out | x :: l => out <- zset out p (Some x) ;; write_block out (p + 1) l end.

(** src/Omega_h_swap3d_topology.cpp:11-39 swap3d_keys_to_prods: offsets of edges, triangles, tets *)
Definition swap3d_keys_to_prods (edges2edge_tets keys2edges : list Z) : res (list Z * list Z * list Z) :=
  edges2ntets <- get_degrees edges2edge_tets ;;
  ns <- mapM (fun edge =>
    loop_size <- zget edges2ntets edge ;;
    nplane_tris <- zget swap_mesh_sizes loop_size ;;
    nplane_edges <- zget nedges loop_size ;;
    Ok (nplane_edges, nplane_tris + 2 * nplane_edges, 2 * nplane_tris)) keys2edges ;;
  Ok (offset_scan (map (fun n => fst (fst n)) ns), offset_scan (map (fun n => snd (fst n)) ns), offset_scan (map snd ns)).

(** src/Omega_h_swap3d_topology.cpp:66-75 plane_edge_verts for every plane_edge, in order *)
Definition prod_edges (l : loop) (config : Z) : res (list (list Z)) :=
  es <- config_edges (loop_size l) config ;; mapM (mapM (zget (loop_verts2verts l))) es.
(** src/Omega_h_swap3d_topology.cpp:92-100 plane_tri_verts for every plane_tri, in order *)
Definition plane_tris (l : loop) (config : Z) : res (list (list Z)) :=
  ts <- config_tris (loop_size l) config ;; mapM (mapM (zget (loop_verts2verts l))) ts.
(** src/Omega_h_swap3d_topology.cpp:79-90, triangles 2*plane_edge+eev: the ends of a plane edge and end eev *)
Definition edge_tris (ev : list Z) (e : list Z) : list (list Z) := map (fun v => e ++ [v]) ev.
(** src/Omega_h_swap3d_topology.cpp:105-116, tets 2*plane_tri+eev; the first has vertices 1 and 2 swapped *)
Definition tri_tets (ev : list Z) (t : list Z) : res (list (list Z)) :=
  v0 <- zget t 0 ;; v1 <- zget t 1 ;; v2 <- zget t 2 ;;
  e0 <- zget ev 0 ;; e1 <- zget ev 1 ;;
  Ok [[v0; v2; v1; e0]; [v0; v1; v2; e1]].

(** src/Omega_h_swap3d_topology.cpp:56-119: the edges, triangles and tets made by one key, in order of
    their product number *)
Definition key_prods (l : loop) (config : Z) : res (list (list Z) * list (list Z) * list (list Z)) :=
  es <- prod_edges l config ;; ts <- plane_tris l config ;;
  tets <- mapM (tri_tets (eev2v l)) ts ;;
  Ok (es, flat_map (edge_tris (eev2v l)) es ++ ts, concat tets).

(** src/Omega_h_swap3d_topology.cpp:41-126 swap3d_topology. Each iteration stores its edges, triangles
    and tets at its own offsets; the model makes the stores of one iteration in increasing order of
    position. *)
Definition swap3d_topology (e2et et2t et_codes ev2v tv2v keys2edges edge_configs : list Z) (keys2prods : list Z * list Z * list Z)
  : res (list Z * list Z * list Z) :=
  let '(k2e, k2f, k2r) := keys2prods in
  ne <- last_of k2e ;; nf <- last_of k2f ;; nr <- last_of k2r ;;
  we <- blank (ne * 2) ;; wf <- blank (nf * 3) ;; wr <- blank (nr * 4) ;;
  w <- forM (zlen keys2edges) (we, wf, wr) (fun '(we, wf, wr) key =>
    edge <- zget keys2edges key ;; config <- zget edge_configs edge ;;
    l <- find_loop e2et et2t et_codes ev2v tv2v edge ;;
    '(es, fs, rs) <- key_prods l config ;;
    pe <- zget k2e key ;; pf <- zget k2f key ;; pr <- zget k2r key ;;
    we <- write_block we (pe * 2) (concat es) ;;
    wf <- write_block wf (pf * 3) (concat fs) ;;
    wr <- write_block wr (pr * 4) (concat rs) ;;
    Ok (we, wf, wr)) ;;
  let '(we, wf, wr) := w in
  e <- freeze we ;; f <- freeze wf ;; r <- freeze wr ;; Ok (e, f, r).

(** ** src/Omega_h_swap3d_choice.hpp.  Qualities and lengths are finite floating point numbers; every
    such number is an integer multiple of the least positive one, and the code only compares them, so
    they are integers here, [one] being the quality 1.0. A flag and the value it guards are one
    optional value. *)
Definition cache := list (option Z).
Definition min2 (x y : Z) : Z := if y <? x then y else x.

(** src/Omega_h_swap3d_choice.hpp:34-57: the worse of the tets above and below a triangle *)
Definition tri_quality (one : Z) (quality : list Z -> Z) (l : loop) (uniq_tri : Z) : res Z :=
  u2v <- zget swap_triangles (loop_size l) ;; lv <- zget u2v uniq_tri ;;
  t <- mapM (zget (loop_verts2verts l)) lv ;;
  v0 <- zget t 0 ;; v1 <- zget t 1 ;; v2 <- zget t 2 ;;
  e1 <- zget (eev2v l) (1 - 0) ;; e0 <- zget (eev2v l) (1 - 1) ;;
  Ok (min2 (min2 one (quality [v0; v1; v2; e1])) (quality [v0; v2; v1; e0])).

(** a cached value, or the computed one, which is then remembered *)
Definition recall (c : cache) (i : Z) (compute : res Z) : res (Z * cache) :=
  o <- zget c i ;;
  match o with
  | Some q => Ok (q, c)
  | None => q <- compute ;; c <- zset c i (Some q) ;; Ok (q, c)
  end.

(** src/Omega_h_swap3d_choice.hpp:31-66: the triangles of one configuration; stops when a quality is negative *)
Fixpoint mesh_quality (one : Z) (quality : list Z -> Z) (l : loop) (uniq_tris : list Z) (minqual : Z) (c : cache) : res (Z * cache) :=
  match uniq_tris with
  | [] => Ok (minqual, c)
  | u :: us =>
    '(q, c) <- recall c u (tri_quality one quality l u) ;;
    let minqual := min2 minqual q in
    if minqual <? 0 then Ok (minqual, c) else mesh_quality one quality l us minqual c
  end.

(** src/Omega_h_swap3d_choice.hpp:77-83 the length of one interior edge *)
Definition edge_len (length : list Z -> Z) (l : loop) (uniq_edge : Z) : res Z :=
  u2v <- zget unique_edges (loop_size l) ;; lv <- zget u2v uniq_edge ;;
  e <- mapM (zget (loop_verts2verts l)) lv ;; Ok (length e).

(** src/Omega_h_swap3d_choice.hpp:73-92: is some interior edge too long? *)
Fixpoint overshoots (length : list Z -> Z) (max_length : Z) (l : loop) (uniq_edges : list Z) (c : cache) : res (bool * cache) :=
  match uniq_edges with
  | [] => Ok (false, c)
  | u :: us =>
    '(len, c) <- recall c u (edge_len length l u) ;;
    if len >? max_length then Ok (true, c) else overshoots length max_length l us c
  end.

(** src/Omega_h_swap3d_choice.hpp:28-98 one configuration; the state is the choice and the two caches *)
Definition try_mesh (one : Z) (quality length : list Z -> Z) (max_length : Z) (l : loop) (s : Z * Z * cache * cache) (mesh : Z) : res (Z * Z * cache * cache) :=
  let '(best, best_quality, tc, ec) := s in
  n <- zget swap_mesh_sizes (loop_size l) ;; ms <- zget swap_meshes (loop_size l) ;;
  us <- tabulate n (fun mesh_tri => zget ms (mesh * n + mesh_tri)) ;;
  '(q, tc) <- mesh_quality one quality l us one tc ;;
  if q >? best_quality then
    ne <- zget nedges (loop_size l) ;;
    ues <- tabulate ne (fun mesh_edge => e2u <- zget edges2unique (loop_size l) ;; cu <- zget e2u mesh ;; zget cu mesh_edge) ;;
    '(over, ec) <- overshoots length max_length l ues ec ;;
    if over then Ok (best, best_quality, tc, ec) else Ok (mesh, q, tc, ec)
  else Ok (best, best_quality, tc, ec).

(** src/Omega_h_swap3d_choice.hpp:15-100 choose: the configuration and its quality *)
Definition choose (one : Z) (quality length : list Z -> Z) (max_length : Z) (l : loop) : res (Z * Z) :=
  nmeshes <- zget swap_mesh_counts (loop_size l) ;;
  s <- forM nmeshes (-1, 0, repeat None (Z.to_nat MAX_UNIQUE_TRIS), repeat None (Z.to_nat MAX_UNIQUE_EDGES))
    (try_mesh one quality length max_length l) ;;
  let '(best, q, _, _) := s in Ok (best, q).
