(** Model of src/Omega_h_adj.cpp:512-657: graphs between entities of the same dimension. *)
From Verif Require Import Prelude M_Array M_Scan M_Sort M_Map M_Graph M_Align M_Adj M_Template M_Mark.
Local Open Scope Z_scope.

(** v2e.codes must exist *)
Definition codes_of (a : adj) : res (list Z) := match adj_codes a with Some c => Ok c | None => UB end.

(** src/Omega_h_adj.cpp:512-530 verts_across_edges: iteration ve sets entry ve *)
Definition verts_across_edges (e2v v2e : adj) : res graph :=
  codes <- codes_of v2e ;;
  vv2v <- tabulate (zlen (adj_ab2b v2e)) (fun ve =>
    e <- zget (adj_ab2b v2e) ve ;; code <- zget codes ve ;;
    zget (adj_ab2b e2v) (e * 2 + (1 - code_which_down code))) ;;
  Ok (mk_graph (adj_a2ab v2e) vv2v).

(** src/Omega_h_adj.cpp:532-562 edges_across_tris *)
Definition edges_across_tris (f2e e2f : adj) : res graph :=
  let e2ef := adj_a2ab e2f in
  codes <- codes_of e2f ;;
  e2ef_degrees <- get_degrees e2ef ;;
  let e2ee := offset_scan (map (fun d => d * 2) e2ef_degrees) in
  nee <- last_of e2ee ;;
  ee2e <- blank nee ;;
  ee2e <- forM (zlen e2ef - 1) ee2e (fun ee2e e =>
    ef_begin <- zget e2ef e ;; ef_end <- zget e2ef (e + 1) ;; ee_begin <- zget e2ee e ;;
    forM (ef_end - ef_begin) ee2e (fun ee2e eef =>
      f <- zget (adj_ab2b e2f) (ef_begin + eef) ;; code <- zget codes (ef_begin + eef) ;;
      let ffe := code_which_down code in
      e1 <- zget (adj_ab2b f2e) (f * 3 + Z.rem (ffe + 1) 3) ;;
      e2 <- zget (adj_ab2b f2e) (f * 3 + Z.rem (ffe + 2) 3) ;;
      ee2e <- zset ee2e (ee_begin + eef * 2 + 0) (Some e1) ;;
      zset ee2e (ee_begin + eef * 2 + 1) (Some e2))) ;;
  ee2e <- freeze ee2e ;;
  Ok (mk_graph e2ee ee2e).

(** src/Omega_h_adj.cpp:564-589 edges_across_tets: each entry er belongs to one edge and is set once *)
Definition edges_across_tets (r2e e2r : adj) : res graph :=
  codes <- codes_of e2r ;;
  ee2e <- blank (zlen (adj_ab2b e2r)) ;;
  ee2e <- forM (zlen (adj_a2ab e2r) - 1) ee2e (fun ee2e e =>
    er_begin <- zget (adj_a2ab e2r) e ;; er_end <- zget (adj_a2ab e2r) (e + 1) ;;
    foldM (fun ee2e er =>
      r <- zget (adj_ab2b e2r) er ;; code <- zget codes er ;;
      let rre_opp := simplex_opposite_template 3 1 (code_which_down code) in
      e_opp <- zget (adj_ab2b r2e) (r * 6 + rre_opp) ;;
      zset ee2e er (Some e_opp)) (zfromto er_begin er_end) ee2e) ;;
  ee2e <- freeze ee2e ;;
  Ok (mk_graph (adj_a2ab e2r) ee2e).

(** src/Omega_h_adj.cpp:591-657 elements_across_sides *)
Definition elements_across_sides (dim : Z) (elems2sides sides2elems : adj) (side_is_exposed : list Z) : res graph :=
  let elem_side2side := adj_ab2b elems2sides in
  let nsides_per_elem := dim + 1 in
  nelems <- divide_no_remainder (zlen elem_side2side) nsides_per_elem ;;
  degrees <- tabulate nelems (fun elem =>
    foldM (fun n elem_side =>
      side <- zget elem_side2side elem_side ;; x <- zget side_is_exposed side ;;
      Ok (if negb (truth x) then n + 1 else n))
      (zfromto (elem * nsides_per_elem) (elem * nsides_per_elem + nsides_per_elem)) 0) ;;
  let elem2elem_elems := offset_scan degrees in
  nelem_elems <- last_of elem2elem_elems ;;
  out <- blank nelem_elems ;;
  out <- forM nelems out (fun out elem =>
    elem_elem <- zget elem2elem_elems elem ;;
    r <- foldM (fun s elem_side =>
      side <- zget elem_side2side elem_side ;; x <- zget side_is_exposed side ;;
      if negb (truth x) then
        side_elem <- zget (adj_a2ab sides2elems) side ;;
        first <- zget (adj_ab2b sides2elems) side_elem ;;
        other <- zget (adj_ab2b sides2elems) (if first =? elem then side_elem + 1 else side_elem) ;;
        out <- zset (fst s) (snd s) (Some other) ;;
        Ok (out, snd s + 1)
      else Ok s)
      (zfromto (elem * nsides_per_elem) (elem * nsides_per_elem + nsides_per_elem)) (out, elem_elem) ;;
    Ok (fst r)) ;;
  out <- freeze out ;;
  Ok (mk_graph elem2elem_elems out).
