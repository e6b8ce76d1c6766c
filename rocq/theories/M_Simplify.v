(** Model of the splitting of quadrilaterals and hexahedra into simplices: src/Omega_h_simplify.cpp:22-228 *)
From Verif Require Import Prelude M_Array M_Scan M_Sort M_Swap3d.
Local Open Scope Z_scope.

(** src/Omega_h_simplify.cpp:22-32 find_min; [v] is not empty *)
Definition find_min (v : list Z) : res Z :=
  v0 <- zget v 0 ;;
  r <- foldM (fun '(min_i, min_v) i => vi <- zget v i ;; Ok (if vi <? min_v then (i, vi) else (min_i, min_v))) (zfromto 1 (zlen v)) (0, v0) ;;
  Ok (fst r).

(** src/Omega_h_simplify.cpp:34-36 lt *)
Definition lt (v_i v_j v_k v_l : Z) : bool := Z.min v_i v_j <? Z.min v_k v_l.

Section turning.
Context {A : Type}.
(** src/Omega_h_simplify.cpp:38-42 rot: the last entry becomes the first, the others move up *)
Definition rot (v : list A) : list A :=
  match rev v with
  | [] => []
  | tmp :: r => tmp :: rev r
  end.
(** src/Omega_h_simplify.cpp:44-46 rot_ntimes, :48-50 rot_to_first *)
Definition rot_ntimes (v : list A) (ntimes : Z) : list A := Nat.iter (Z.to_nat ntimes) rot v.
Definition rot_to_first (v : list A) (nv first : Z) : list A := rot_ntimes v (Z.rem (nv - first) nv).

(** v[i] and v[j] exchanged; entries named by one of the constant tables below *)
Definition swap_at (v : list A) (i j : Z) : res (list A) :=
  x <- zget v i ;; y <- zget v j ;; v <- zset v i y ;; zset v j x.
(** the entries of [v] named by a row of a constant table *)
Definition entries (v : list A) (row : list Z) : res (list A) := mapM (zget v) row.
End turning.

(** src/Omega_h_simplify.cpp:53 qtv2qqv *)
Definition qtv2qqv : list (list Z) := [[0; 1; 2]; [2; 3; 0]].
(** src/Omega_h_simplify.cpp:62-80 htv2hhv_0 to htv2hhv_3 *)
Definition htv2hhv_0 : list (list Z) := [[0; 1; 2; 5]; [0; 2; 7; 5]; [0; 2; 3; 7]; [0; 5; 7; 4]; [2; 7; 5; 6]].
Definition htv2hhv_1 : list (list Z) := [[0; 5; 7; 4]; [0; 1; 7; 5]; [1; 6; 7; 5]; [0; 7; 2; 3]; [0; 7; 1; 2]; [1; 7; 6; 2]].
Definition htv2hhv_2 : list (list Z) := [[0; 4; 5; 6]; [0; 3; 7; 6]; [0; 7; 4; 6]; [0; 1; 2; 5]; [0; 3; 6; 2]; [0; 6; 5; 2]].
Definition htv2hhv_3 : list (list Z) := [[0; 2; 3; 6]; [0; 3; 7; 6]; [0; 7; 4; 6]; [0; 5; 6; 4]; [1; 5; 6; 0]; [1; 6; 2; 0]].
(** src/Omega_h_simplify.cpp:82-83 hex_flip_pairs, :94-95 hex_bur_faces, :101 hex_bur_ring *)
Definition hex_flip_pairs : list (Z * Z) := [(0, 4); (3, 5); (1, 7); (2, 6)].
Definition hex_bur_faces : list (list Z) := [[6; 5; 1; 2]; [6; 2; 3; 7]; [6; 7; 4; 5]].
Definition hex_bur_ring : list Z := [1; 2; 3; 7; 5; 4].

Section hexes.
Context {A : Type}.
(** src/Omega_h_simplify.cpp:85-88 flip_hex *)
Definition flip_hex (hhv2v : list A) : res (list A) := foldM (fun v '(i, j) => swap_at v i j) hex_flip_pairs hhv2v.
(** src/Omega_h_simplify.cpp:103-112 hex_bur_rot_ntimes *)
Definition hex_bur_rot_ntimes (hhv2v : list A) (ntimes : Z) : res (list A) :=
  tmp <- entries hhv2v hex_bur_ring ;;
  let tmp := rot_ntimes tmp (ntimes * 2) in
  foldM (fun v i => x <- zget tmp i ;; r <- zget hex_bur_ring i ;; zset v r x) (zrange 6) hhv2v.
(** src/Omega_h_simplify.cpp:117-119 hex_bur_rot_to_right *)
Definition hex_bur_rot_to_right (hhv2v : list A) (new_right : Z) : res (list A) := hex_bur_rot_ntimes hhv2v (Z.rem (3 - new_right) 3).

(** src/Omega_h_simplify.cpp:152-161, the turning in tets_from_hex_1 for the minimum at [min_i]: the two
    calls of rot_to_first work on the first and the last four entries in place *)
Definition turn_hex (hhv2v : list A) (min_i : Z) : res (list A) :=
  let v := rot_to_first (firstn 4 hhv2v) 4 (Z.rem min_i 4) ++ rot_to_first (skipn 4 hhv2v) 4 (Z.rem min_i 4) in
  if 4 <=? min_i then flip_hex v else Ok v.

(** src/Omega_h_simplify.cpp:202-224 the choice of the template in the second kernel of tets_from_hexes,
    for the turned hex and its diags_into; the tets by their vertices.  The search for diag_face
    keeps the last of the faces found. *)
Definition last_face (diags_into : list bool) (b : bool) : Z :=
  fold_left (fun diag_face '(i, d) => if Bool.eqb d b then i else diag_face) (combine (zrange 3) diags_into) (-1).
Definition template_tets (hhv2v : list A) (diags_into : list bool) : res (list (list A)) :=
  let ndiags_into := zlen (filter (fun d => d) diags_into) in
  if ndiags_into =? 0 then mapM (entries hhv2v) htv2hhv_0
  else if ndiags_into =? 1 then v <- hex_bur_rot_to_right hhv2v (last_face diags_into true) ;; mapM (entries v) htv2hhv_1
  else if ndiags_into =? 2 then v <- hex_bur_rot_to_right hhv2v (last_face diags_into false) ;; mapM (entries v) htv2hhv_2
  else mapM (entries hhv2v) htv2hhv_3.
End hexes.

(** src/Omega_h_simplify.cpp:122-142 tris_from_quads *)
Definition quad_tris (qv2v : list Z) (q : Z) : res (list (list Z)) :=
  qqv2v <- mapM (fun i => zget qv2v (q * 4 + i)) (zrange 4) ;;
  min_i <- find_min qqv2v ;;
  let qqv2v := rot_to_first qqv2v 4 min_i in
  mapM (entries qqv2v) qtv2qqv.
Definition tris_from_quads (qv2v : list Z) : res (list Z) :=
  nq <- divide_no_remainder (zlen qv2v) 4 ;;
  rows <- tabulate nq (quad_tris qv2v) ;;
  Ok (concat (map (@concat Z) rows)).

(** src/Omega_h_simplify.cpp:144-171 tets_from_hex_1: the turned hex and diags_into *)
Definition tets_from_hex_1 (h : Z) (hv2v : list Z) : res (list Z * list bool) :=
  hhv2v <- mapM (fun i => zget hv2v (h * 8 + i)) (zrange 8) ;;
  min_i <- find_min hhv2v ;;
  hhv2v <- turn_hex hhv2v min_i ;;
  diags_into <- mapM (fun face => f <- entries hhv2v face ;;
    match f with [f0; f1; f2; f3] => Ok (lt f0 f2 f1 f3) | _ => UB end) hex_bur_faces ;;
  Ok (hhv2v, diags_into).

(** src/Omega_h_simplify.cpp:173-228 fill_tets_from_hex, tets_from_hexes.  The two loops of fill_tets_from_hex
    write one entry after the other from t * 4 on. *)
Definition tets_from_hexes (hv2v : list Z) : res (list Z) :=
  nh <- divide_no_remainder (zlen hv2v) 8 ;;
  degrees <- tabulate nh (fun h => r <- tets_from_hex_1 h hv2v ;; Ok (if zlen (filter (fun d => d) (snd r)) =? 0 then 5 else 6)) ;;
  let h2ht := offset_scan degrees in
  nt <- last_of h2ht ;;
  tv2v <- blank (nt * 4) ;;
  tv2v <- forM nh tv2v (fun tv2v h =>
    r <- tets_from_hex_1 h hv2v ;;
    tets <- template_tets (fst r) (snd r) ;;
    t <- zget h2ht h ;;
    write_block tv2v (t * 4) (concat tets)) ;;
  freeze tv2v.
