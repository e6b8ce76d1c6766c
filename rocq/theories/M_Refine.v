(** Model of src/Omega_h_refine_topology.cpp. *)
From Verif Require Import Prelude M_Array M_Scan M_Map M_Align M_Template M_Graph M_Adj M_Swap3d.
Local Open Scope Z_scope.

(** src/Omega_h_refine_topology.cpp:13-33 refine_edges_to_pairs. Each key writes its own four entries. *)
Definition refine_edges_to_pairs (ev2v keys2edges keys2midverts old2new : list Z) : res (list Z * list Z) :=
  rows <- tabulate (zlen keys2edges) (fun key =>
    edge <- zget keys2edges key ;;
    midvert <- zget keys2midverts key ;;
    v0 <- zget ev2v (edge * 2 + 0) ;; n0 <- zget old2new v0 ;;
    v1 <- zget ev2v (edge * 2 + 1) ;; n1 <- zget old2new v1 ;;
    Ok [n0; midvert; midvert; n1]) ;;
  Ok (map (fun i => 0 + i * 2) (zrange (zlen keys2edges + 1)), concat rows).

(** src/Omega_h_refine_topology.hpp flip_new_elem(dim, ev): swap2(ev[1], ev[2]) when dim == 3 *)
Definition flip_new_elem (dim : Z) (ev : list Z) : res (list Z) :=
  if dim =? 3 then a <- zget ev 1 ;; b <- zget ev 2 ;; ev <- zset ev 1 b ;; zset ev 2 a else Ok ev.

(** src/Omega_h_refine_topology.cpp:80-96: the pair of one domain that is opposite to end [eev] of the edge *)
Definition pair_row (dim : Z) (dv2v old2new : list Z) (dom dde rot midvert eev : Z) : res (list Z) :=
  let dev := Z.lxor eev rot in
  let ddv := simplex_down_template dim 1 dde dev in
  let dds := simplex_opposite_template dim 0 ddv in
  side <- tabulate dim (fun dsv =>
    let ddv2 := simplex_down_template dim (dim - 1) dds dsv in
    ov <- zget dv2v (dom * (dim + 1) + ddv2) ;; zget old2new ov) ;;
  flip_new_elem dim (side ++ [midvert]).

(** src/Omega_h_refine_topology.cpp:60-70: the domains of the keys, as offsets *)
Definition key_domains (e2d : adj) (keys2edges : list Z) : res (list Z) :=
  degs <- get_degrees (adj_a2ab e2d) ;;
  key_degs <- unmap keys2edges degs 1 ;;
  Ok (offset_scan key_degs).

(** src/Omega_h_refine_topology.cpp:48-103 refine_domains_to_pairs; [e2d] is ask_up(EDGE, dim) *)
Definition refine_domains_to_pairs (dim : Z) (ev2v dv2v : list Z) (e2d : adj) (keys2edges keys2midverts old2new : list Z) : res (list Z * list Z) :=
  if negb (0 <? dim) then Abort else
  if dim =? 1 then refine_edges_to_pairs ev2v keys2edges keys2midverts old2new else
  codes <- match adj_codes e2d with Some c => Ok c | None => UB end ;;
  keys2doms <- key_domains e2d keys2edges ;;
  ndoms <- last_of keys2doms ;;
  let keys2pairs := map (fun x => x * 2) keys2doms in
  out <- blank (ndoms * 2 * (dim + 1)) ;;
  out <- forM (zlen keys2edges) out (fun out key =>
    edge <- zget keys2edges key ;;
    midvert <- zget keys2midverts key ;;
    pair <- zget keys2pairs key ;;
    lo <- zget (adj_a2ab e2d) edge ;; hi <- zget (adj_a2ab e2d) (edge + 1) ;;
    s <- foldM (fun s edge_dom =>
      dom <- zget (adj_ab2b e2d) edge_dom ;;
      code <- zget codes edge_dom ;;
      foldM (fun s eev =>
        row <- pair_row dim dv2v old2new dom (code_which_down code) (code_rotation code) midvert eev ;;
        out <- write_block (fst s) (snd s * (dim + 1)) row ;;
        Ok (out, snd s + 1)) (zrange 2) s) (zfromto lo hi) (out, pair) ;;
    Ok (fst s)) ;;
  r <- freeze out ;;
  Ok (keys2pairs, r).

(** src/Omega_h_refine_topology.cpp:134-143: the cut of one domain *)
Definition cut_row (dim : Z) (dv2v old2new : list Z) (dom dde midvert : Z) : res (list Z) :=
  let ddt := simplex_opposite_template dim 1 dde in
  tip <- tabulate (dim - 1) (fun dtv =>
    let ddv2 := simplex_down_template dim (dim - 2) ddt dtv in
    ov <- zget dv2v (dom * (dim + 1) + ddv2) ;; zget old2new ov) ;;
  Ok (tip ++ [midvert]).

(** src/Omega_h_refine_topology.cpp:105-151 refine_domains_to_cuts *)
Definition refine_domains_to_cuts (dim : Z) (dv2v : list Z) (e2d : adj) (keys2edges keys2midverts old2new : list Z) : res (list Z * list Z) :=
  if negb (1 <? dim) then Abort else
  codes <- match adj_codes e2d with Some c => Ok c | None => UB end ;;
  keys2cuts <- key_domains e2d keys2edges ;;
  ncuts <- last_of keys2cuts ;;
  out <- blank (ncuts * dim) ;;
  out <- forM (zlen keys2edges) out (fun out key =>
    edge <- zget keys2edges key ;;
    midvert <- zget keys2midverts key ;;
    cut <- zget keys2cuts key ;;
    lo <- zget (adj_a2ab e2d) edge ;; hi <- zget (adj_a2ab e2d) (edge + 1) ;;
    s <- foldM (fun s edge_dom =>
      dom <- zget (adj_ab2b e2d) edge_dom ;;
      code <- zget codes edge_dom ;;
      row <- cut_row dim dv2v old2new dom (code_which_down code) midvert ;;
      out <- write_block (fst s) (snd s * dim) row ;;
      Ok (out, snd s + 1)) (zfromto lo hi) (out, cut) ;;
    Ok (fst s)) ;;
  r <- freeze out ;;
  Ok (keys2cuts, r).

(** src/Omega_h_refine_topology.cpp:167-172, 174-180: copy the entities from [lo] to [hi] of [src] *)
Definition copy_rows (nppv : Z) (src : list Z) (lo hi : Z) (s : list (option Z) * Z) : res (list (option Z) * Z) :=
  foldM (fun s ent =>
    row <- tabulate nppv (fun ppv => zget src (ent * nppv + ppv)) ;;
    out <- write_block (fst s) (snd s * nppv) row ;;
    Ok (out, snd s + 1)) (zfromto lo hi) s.

(** src/Omega_h_refine_topology.cpp:153-184 combine_pairs_and_cuts *)
Definition combine_pairs_and_cuts (ent_dim : Z) (keys2cuts keys2pairs cut_verts pair_verts : list Z) : res (list Z * list Z) :=
  let nkeys := zlen keys2cuts - 1 in
  if negb (nkeys =? zlen keys2pairs - 1) then Abort else
  ncuts <- get_degrees keys2cuts ;;
  npairs <- get_degrees keys2pairs ;;
  nprods <- add_each ncuts npairs ;;
  let keys2prods := offset_scan nprods in
  total <- last_of keys2prods ;;
  let nppv := simplex_degree ent_dim 0 in
  out <- blank (total * nppv) ;;
  out <- forM nkeys out (fun out key =>
    prod <- zget keys2prods key ;;
    plo <- zget keys2pairs key ;; phi <- zget keys2pairs (key + 1) ;;
    s <- copy_rows nppv pair_verts plo phi (out, prod) ;;
    clo <- zget keys2cuts key ;; chi <- zget keys2cuts (key + 1) ;;
    s <- copy_rows nppv cut_verts clo chi s ;;
    Ok (fst s)) ;;
  r <- freeze out ;;
  Ok (keys2prods, r).

(** src/Omega_h_refine_topology.cpp:186-203 refine_products; [verts] and [edge_up] stand for
    ask_verts_of(d) and ask_up(EDGE, d) *)
Definition refine_products (mesh_dim ent_dim : Z) (verts : Z -> list Z) (edge_up : Z -> adj) (keys2edges keys2midverts old2new : list Z) : res (list Z * list Z) :=
  pairs <- refine_domains_to_pairs ent_dim (verts 1) (verts ent_dim) (edge_up ent_dim) keys2edges keys2midverts old2new ;;
  if ent_dim =? mesh_dim then Ok pairs else
  cuts <- refine_domains_to_cuts (ent_dim + 1) (verts (ent_dim + 1)) (edge_up (ent_dim + 1)) keys2edges keys2midverts old2new ;;
  combine_pairs_and_cuts ent_dim (fst cuts) (fst pairs) (snd cuts) (snd pairs).
