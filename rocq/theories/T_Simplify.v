(** C66: splitting quadrilaterals and hexahedra into simplices. *)
From Verif Require Import Prelude M_Template S_Template S_Align M_Simplify S_Simplify P_Simplify X_Simplify.
Local Open Scope Z_scope.

(** Every quadrilateral becomes two triangles, in its place among the results: those on either side of the
    diagonal through its smallest vertex, read in the direction of the quadrilateral. *)
Theorem quads_become_triangles : forall nq qv2v x, 0 <= nq -> zlen qv2v = nq * 4 ->
  (forall q p, 0 <= q < nq -> 0 <= p < 4 -> zget qv2v (q * 4 + p) = Ok (x q p)) ->
  exists ps, tris_from_quads qv2v = Ok (concat (flat_map (fun q => map (map (x q)) (ps q)) (zrange nq))) /\
    forall q, 0 <= q < nq -> distinct_corners 4 (x q) -> splits_quad (x q) (ps q) /\ Forall (well_cornered 3 4) (ps q).
Proof. exact quads_split. Qed.
(** Every hexahedron becomes five or six tetrahedra, in its place among the results.  They split it, with
    every face cut at the diagonal through its smallest vertex, exactly if the two faces that are, seen from
    the smallest vertex, at the back and on top are both cut through the far corner or both not. *)
Theorem hexes_become_tetrahedra : forall nh hv2v x, 0 <= nh -> zlen hv2v = nh * 8 ->
  (forall h p, 0 <= h < nh -> 0 <= p < 8 -> zget hv2v (h * 8 + p) = Ok (x h p)) ->
  exists ps, tets_from_hexes hv2v = Ok (concat (flat_map (fun h => map (map (x h)) (ps h)) (zrange nh))) /\
    forall h, 0 <= h < nh -> (zlen (ps h) = 5 \/ zlen (ps h) = 6) /\ Forall (well_cornered 4 8) (ps h) /\
      forall m, distinct_corners 8 (x h) -> smallest_at (x h) m -> (splits_hex (x h) (ps h) <-> back_and_top_agree (x h) m).
Proof. exact hexes_split. Qed.
(** Elements that share a face agree on how it is cut, whichever corner each has it start from and
    whichever way round each has it. *)
Theorem shared_faces_are_cut_alike : forall x x' q q', zlen q = 4 -> NoDup (map x q) -> same_polygon (map x q) (map x' q') ->
  forall half, In half (halves x q) -> exists half', In half' (halves x' q') /\ same_set (map x half) (map x' half').
Proof. exact shared_halves. Qed.
(** It is not so that every hexahedron with distinct vertices is split. *)
Theorem hexes_split_refuted : ~ forall hv2v x ps, zlen hv2v = 8 -> (forall p, 0 <= p < 8 -> zget hv2v p = Ok (x p)) -> distinct_corners 8 x ->
  Forall (well_cornered 4 8) ps -> tets_from_hexes hv2v = Ok (concat (map (map x) ps)) -> splits_hex x ps.
Proof. exact not_split. Qed.
(** Vertices that do not fill whole elements are refused. *)
Theorem split_refuses_partial_rows : forall v2v, (zlen v2v mod 4 <> 0 -> tris_from_quads v2v = Abort) /\ (zlen v2v mod 8 <> 0 -> tets_from_hexes v2v = Abort).
Proof. exact (fun v => conj (partial_quads v) (partial_hexes v)). Qed.
Print Assumptions quads_become_triangles.
Print Assumptions hexes_become_tetrahedra.
Print Assumptions shared_faces_are_cut_alike.
Print Assumptions hexes_split_refuted.
Print Assumptions split_refuses_partial_rows.

Example two_hexes_ex : (forall h p, 0 <= h < 2 -> 0 <= p < 8 -> zget two_hexes (h * 8 + p) = Ok (hex_vertex h p)) /\
  (forall h, 0 <= h < 2 -> distinct_corners 8 (hex_vertex h) /\ smallest_at (hex_vertex h) 0 /\ back_and_top_agree (hex_vertex h) 0).
Proof. exact (conj two_hexes_corners (fun h Hh => conj (hex_vertex_distinct h Hh) (hex_vertex_smallest h Hh))). Qed.
Example two_hexes_tets : tets_from_hexes two_hexes = Ok
  [0; 4; 3; 10; 0; 3; 9; 10; 0; 9; 6; 10; 0; 7; 10; 6; 1; 7; 10; 0; 1; 10; 4; 0;
   1; 5; 4; 11; 1; 4; 10; 11; 1; 10; 7; 11; 1; 8; 11; 7; 2; 8; 11; 1; 2; 11; 5; 1].
Proof. vm_compute. reflexivity. Qed.
Example shared_face_ex : same_polygon (map (hex_vertex 0) [1; 2; 6; 5]) (map (hex_vertex 1) [3; 0; 4; 7]).
Proof. right. exists [7; 10], [4; 1]. split; reflexivity. Qed.
(** the vertices of a hexahedron in order: two tetrahedra come out inside out and two flat *)
Example in_order_ex : tets_from_hexes (zrange 8) = Ok (concat in_order_tets) /\ map corner_volume6 in_order_tets = [-1; -1; 0; 1; 1; 0].
Proof. vm_compute. auto. Qed.
Example quads_ex : tris_from_quads [0; 1; 4; 3; 5; 4; 1; 2] = Ok [0; 1; 4; 4; 3; 0; 1; 2; 5; 5; 4; 1].
Proof. vm_compute. reflexivity. Qed.
