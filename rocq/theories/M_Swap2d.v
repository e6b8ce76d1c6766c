(** Model of src/Omega_h_swap2d_topology.cpp. *)
From Verif Require Import Prelude M_Array M_Align M_Template.
Local Open Scope Z_scope.

(** src/Omega_h_swap2d_topology.cpp:42-50: one of the two triangles at the edge; its vertex opposite to
    the edge goes to slot rot of [ov] *)
Definition put_opposite (et2t et_codes tv2v : list Z) (et : Z) (ov : list Z) : res (list Z) :=
  code <- zget et_codes et ;;
  let tte := code_which_down code in
  let rot := code_rotation code in
  t <- zget et2t et ;;
  let ttv := simplex_opposite_template 2 1 tte in
  v <- zget tv2v (t * 3 + ttv) ;;
  zset ov rot v.

(** src/Omega_h_swap2d_topology.cpp:38-59 operator(): the edge and the two triangles of one key. [ov]
    points into an array filled with -42. The local t[rot] is only read back right after it is set. *)
Definition swap2d_key (e2et et2t et_codes tv2v ev2v : list Z) (e : Z) : res (list Z * list (list Z)) :=
  b <- zget e2et e ;;
  ov <- put_opposite et2t et_codes tv2v (b + 0) [-42; -42] ;;
  ov <- put_opposite et2t et_codes tv2v (b + 1) ov ;;
  ev0 <- zget ev2v (e * 2 + 0) ;; ev1 <- zget ev2v (e * 2 + 1) ;;
  ov0 <- zget ov 0 ;; ov1 <- zget ov 1 ;;
  Ok (ov, [[ev1; ov0; ov1]; [ev0; ov1; ov0]]).

(** src/Omega_h_swap2d_topology.cpp:62-93 swap2d_topology: ((offsets of edges, of triangles), (vertices
    of edges, of triangles)). Each key writes only its own rows: key * 2 and (key * 2 + i) * 3. *)
Definition swap2d_topology (e2et et2t et_codes tv2v ev2v keys2edges : list Z) : res ((list Z * list Z) * (list Z * list Z)) :=
  rows <- tabulate (zlen keys2edges) (fun key => e <- zget keys2edges key ;; swap2d_key e2et et2t et_codes tv2v ev2v e) ;;
  let n := zlen keys2edges in
  Ok ((map (fun i => 0 + i * 1) (zrange (n + 1)), map (fun i => 0 + i * 2) (zrange (n + 1))),
      (concat (map fst rows), concat (map (fun r => concat (snd r)) rows))).
