(** Model of box meshes: src/Omega_h_box.cpp:10-137, src/Omega_h_build.cpp:101-134, src/Omega_h_simplify.cpp:230-300 and
    average_field, src/Omega_h_mesh.cpp:822-849.

    Coordinates are modelled as exact numbers, counted along each axis in halves of the width of a cell: x / nx / 2,
    y / ny / 2 and z / nz / 2.  Rounding is not modelled.  LO is modelled as Z: boxes with 2^31 entries or more are outside. *)
From Verif Require Import Prelude M_Array M_Sort M_Template M_Align M_Adj M_ArrayOps M_MeshAdj M_Build M_Simplify.
Local Open Scope Z_scope.

(** src/Omega_h_box.cpp:10-29 make_1d_box: connectivity and coordinates *)
Definition make_1d_box (nx : Z) : list Z * list Z :=
  let ne := nx in let nv := nx + 1 in
  let coords := flat_map (fun v => let i := Z.rem v nv in [i * 2]) (zrange nv) in
  let ev2v := flat_map (fun q => let i := Z.rem q ne in [i + 0; i + 1]) (zrange ne) in
  (ev2v, coords).

(** src/Omega_h_box.cpp:31-59 make_2d_box *)
Definition make_2d_box (nx ny : Z) : list Z * list Z :=
  let nq := nx * ny in let nvx := nx + 1 in let nvy := ny + 1 in let nv := nvx * nvy in
  let coords := flat_map (fun v => let i := Z.rem v nvx in let j := Z.quot v nvx in [i * 2; j * 2]) (zrange nv) in
  let qv2v := flat_map (fun q => let i := Z.rem q nx in let j := Z.quot q nx in
    [(j + 0) * nvx + (i + 0); (j + 0) * nvx + (i + 1); (j + 1) * nvx + (i + 1); (j + 1) * nvx + (i + 0)]) (zrange nq) in
  (qv2v, coords).

(** src/Omega_h_box.cpp:61-102 make_3d_box *)
Definition make_3d_box (nx ny nz : Z) : list Z * list Z :=
  let nxy := nx * ny in let nh := nx * ny * nz in
  let nvx := nx + 1 in let nvy := ny + 1 in let nvz := nz + 1 in let nvxy := nvx * nvy in let nv := nvx * nvy * nvz in
  let coords := flat_map (fun v => let ij := Z.rem v nvxy in let k := Z.quot v nvxy in let i := Z.rem ij nvx in let j := Z.quot ij nvx in
    [i * 2; j * 2; k * 2]) (zrange nv) in
  let hv2v := flat_map (fun h => let ij := Z.rem h nxy in let k := Z.quot h nxy in let i := Z.rem ij nx in let j := Z.quot ij nx in
    [(k + 0) * nvxy + (j + 0) * nvx + (i + 0); (k + 0) * nvxy + (j + 0) * nvx + (i + 1);
     (k + 0) * nvxy + (j + 1) * nvx + (i + 1); (k + 0) * nvxy + (j + 1) * nvx + (i + 0);
     (k + 1) * nvxy + (j + 0) * nvx + (i + 0); (k + 1) * nvxy + (j + 0) * nvx + (i + 1);
     (k + 1) * nvxy + (j + 1) * nvx + (i + 1); (k + 1) * nvxy + (j + 1) * nvx + (i + 0)]) (zrange nh) in
  (hv2v, coords).

(** a mesh with the values of the tag "coordinates" *)
Record placed := mk_placed { p_built : built; p_coords : list Z }.

(** src/Omega_h_build.cpp:101-105 build_from_elems_and_coords; add_coords, src/Omega_h_mesh.cpp:359-361, adds a tag of dim values per vertex.
    [be n]: how a loop of [n] iterations is run *)
Definition build_from_elems_and_coords (c : chance) (be : Z -> backend) (f : family) (edim : Z) (ev2v coords : list Z) : res (option placed) :=
  let nverts := Z.quot (zlen coords) edim in
  b <~ build_from_elems2verts c (be (nverts - 1)) f edim ev2v nverts ;;
  _ <- check (zlen coords =? a_nents (b_mesh b) 0 * edim) ;;
  Ok (Some (mk_placed b coords)).

(** src/Omega_h_mesh.cpp:822-849 average_field of all entities of a dimension other than 0.  In the model a mean that is not a
    whole number of halves of cells is undefined. *)
Definition average_field (c : chance) (m : amesh) (ent_dim ncomps : Z) (v2x : list Z) : res (option (amesh * list Z)) :=
  _ <- check (Z.rem (zlen v2x) ncomps =? 0) ;;
  ev2v <~ ask_adj c m ent_dim 0 ;;
  let degree := element_degree (a_family m) ent_dim 0 in
  out <- tabulate (a_nents m ent_dim) (fun e =>
    mapM (fun j =>
      comp <- foldM (fun comp k => v <- zget (adj_ab2b (snd ev2v)) (e * degree + k) ;; x <- zget v2x (v * ncomps + j) ;; Ok (comp + x)) (zrange degree) 0 ;;
      if Z.rem comp degree =? 0 then Ok (Z.quot comp degree) else UB) (zrange ncomps)) ;;
  Ok (Some (fst ev2v, concat out)).

(** src/Omega_h_simplify.cpp:232-261 tris_from_quads_symmetric; ask_elem_verts, src/Omega_h_mesh.cpp:248, is
    ask_verts_of(dim()).  The two calls of map_into_range fill the front and the back of the new coordinates. *)
Definition tris_from_quads_symmetric (c c' : chance) (be : Z -> backend) (p : placed) : res (option placed) :=
  let m := b_mesh (p_built p) in
  let nold_verts := a_nents m 0 in
  let nquads := a_nents m 2 in
  quad_center_coords <~ average_field c m 2 2 (p_coords p) ;;
  qv2v <~ ask_adj c (fst quad_center_coords) 2 0 ;;
  tv2v <- tabulate nquads (fun q =>
    qqv2v <- mapM (fun i => zget (adj_ab2b (snd qv2v)) (q * 4 + i)) (zrange 4) ;;
    rows <- mapM (fun qqt => v0 <- zget qqv2v qqt ;; v1 <- zget qqv2v (Z.rem (qqt + 1) 4) ;; Ok [nold_verts + q; v0; v1]) (zrange 4) ;;
    Ok (concat rows)) ;;
  build_from_elems_and_coords c' be OMEGA_H_SIMPLEX 2 (concat tv2v) (p_coords p ++ snd quad_center_coords).

(** src/Omega_h_simplify.cpp:263-300 tets_from_hexes_symmetric *)
Definition tets_from_hexes_symmetric (c c' : chance) (be : Z -> backend) (p : placed) : res (option placed) :=
  let m := b_mesh (p_built p) in
  let nold_verts := a_nents m 0 in
  let nquads := a_nents m 2 in
  let nhexes := a_nents m 3 in
  quad_center_coords <~ average_field c m 2 3 (p_coords p) ;;
  hex_center_coords <~ average_field c (fst quad_center_coords) 3 3 (p_coords p) ;;
  hv2v <~ ask_adj c (fst hex_center_coords) 3 0 ;;
  hq2q <~ ask_down c (fst hv2v) 3 2 ;;
  tv2v <- tabulate nhexes (fun h =>
    hhv2v <- mapM (fun i => zget (adj_ab2b (snd hv2v)) (h * 8 + i)) (zrange 8) ;;
    hhq2q <- mapM (fun i => zget (adj_ab2b (snd hq2q)) (h * 6 + i)) (zrange 6) ;;
    rows <- mapM (fun hhq =>
      q <- zget hhq2q hhq ;;
      rows <- mapM (fun hhqt =>
        v0 <- zget hhv2v (hypercube_down_template 3 2 hhq hhqt) ;;
        v1 <- zget hhv2v (hypercube_down_template 3 2 hhq (Z.rem (hhqt + 1) 4)) ;;
        Ok [nold_verts + q; v1; v0; nold_verts + nquads + h]) (zrange 4) ;;
      Ok (concat rows)) (zrange 6) ;;
    Ok (concat rows)) ;;
  build_from_elems_and_coords c' be OMEGA_H_SIMPLEX 3 (concat tv2v) (p_coords p ++ snd quad_center_coords ++ snd hex_center_coords).

(** family == OMEGA_H_SIMPLEX *)
Definition is_simplex (f : family) : bool := match f with OMEGA_H_SIMPLEX => true | _ => false end.

(** src/Omega_h_build.cpp:107-134 build_box_internal; [c'] is the schedule of the second mesh of a symmetric split *)
Definition build_box_internal (c c' : chance) (be : Z -> backend) (f : family) (nx ny nz : Z) (symmetric : bool) : res (option placed) :=
  _ <- check (0 <? nx) ;;
  _ <- check (0 <=? ny) ;;
  _ <- check (0 <=? nz) ;;
  if ny =? 0 then
    let '(ev2v, coords) := make_1d_box nx in
    build_from_elems_and_coords c be f 1 ev2v coords
  else if nz =? 0 then
    let '(fv2v, coords) := make_2d_box nx ny in
    fv2v <- (if is_simplex f && negb symmetric then tris_from_quads fv2v else Ok fv2v) ;;
    let fam2 := if symmetric then OMEGA_H_HYPERCUBE else f in
    p <~ build_from_elems_and_coords c be fam2 2 fv2v coords ;;
    if is_simplex f && symmetric then tris_from_quads_symmetric c c' be p else Ok (Some p)
  else
    let '(rv2v, coords) := make_3d_box nx ny nz in
    rv2v <- (if is_simplex f && negb symmetric then tets_from_hexes rv2v else Ok rv2v) ;;
    let fam2 := if symmetric then OMEGA_H_HYPERCUBE else f in
    p <~ build_from_elems_and_coords c be fam2 3 rv2v coords ;;
    if is_simplex f && symmetric then tets_from_hexes_symmetric c c' be p else Ok (Some p).
