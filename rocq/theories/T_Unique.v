(** C18: find_unique. *)
From Verif Require Import Prelude M_Template S_Template M_Align S_Align M_Unique S_Unique P_Unique.
Local Open Scope Z_scope.

(** For elements without repeated vertices find_unique succeeds.  Every returned row is literally a
    side of an element, namely the last use of that side; every side is a reading (rotation, flip) of
    a returned row; no two returned rows are readings of each other. *)
Theorem find_unique_finds_each_side_once : forall hv2v f high low nh,
  1 <= low < high -> high <= 3 -> zlen hv2v = nh * element_degree f high 0 ->
  rows_distinct (element_degree f high 0) hv2v ->
  exists out m, find_unique hv2v f high low = Ok out /\ zlen out = m * element_degree f low 0 /\
  (forall e row, row_is (element_degree f low 0) out e row -> exists h u, is_side f high low hv2v h u row /\
     forall h' u' row', is_side f high low hv2v h' u' row' -> same_polygon row row' -> h' < h \/ (h' = h /\ u' <= u)) /\
  (forall h u row, is_side f high low hv2v h u row -> exists e row', row_is (element_degree f low 0) out e row' /\ same_polygon row row') /\
  (forall e e' row row', row_is (element_degree f low 0) out e row -> row_is (element_degree f low 0) out e' row' -> same_polygon row row' -> e = e').
Proof. exact find_unique_spec. Qed.
(** For edges and triangles being readings of each other means having the same vertex set. *)
Theorem same_polygon_is_same_set : forall l m : list Z, 2 <= zlen l <= 3 -> NoDup l -> NoDup m ->
  (same_polygon l m <-> zlen m = zlen l /\ same_set l m).
Proof. exact small_polygon_set. Qed.
(** the same for any array of rows of 2, 3 or 4 vertices *)
Theorem find_unique_rows : forall deg uv2v n, 2 <= deg <= 4 -> zlen uv2v = n * deg -> rows_distinct deg uv2v ->
  exists out m, find_unique_deg deg uv2v = Ok out /\ zlen out = m * deg /\
  (forall e row, row_is deg out e row -> exists u, row_is deg uv2v u row /\ forall u' row', row_is deg uv2v u' row' -> same_polygon row row' -> u' <= u) /\
  (forall u row, row_is deg uv2v u row -> exists e row', row_is deg out e row' /\ same_polygon row row') /\
  (forall e e' row row', row_is deg out e row -> row_is deg out e' row' -> same_polygon row row' -> e = e').
Proof. exact find_unique_deg_spec. Qed.
Print Assumptions find_unique_finds_each_side_once.
Print Assumptions same_polygon_is_same_set.
Print Assumptions find_unique_rows.

(** two tetrahedra glued along a face: 7 distinct faces, 9 distinct edges *)
Example two_tets_faces : find_unique [0; 1; 2; 3; 4; 2; 1; 3] OMEGA_H_SIMPLEX 3 2 = Ok [0; 2; 1; 0; 1; 3; 2; 0; 3; 2; 1; 3; 4; 1; 2; 1; 4; 3; 4; 2; 3].
Proof. vm_compute. reflexivity. Qed.
Example two_hexes_faces : match find_unique [0; 1; 2; 3; 4; 5; 6; 7; 4; 5; 6; 7; 8; 9; 10; 11] OMEGA_H_HYPERCUBE 3 2 with Ok l => zlen l = 44 | _ => False end.
Proof. vm_compute. reflexivity. Qed.
Example two_tets_distinct : rows_distinct (element_degree OMEGA_H_SIMPLEX 3 0) [0; 1; 2; 3; 4; 2; 1; 3].
Proof. apply rows_distinct_check with (n := 2); reflexivity. Qed.
