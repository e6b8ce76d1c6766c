(** C22: element templates. *)
From Verif Require Import Prelude M_Template S_Template P_Template.
Local Open Scope Z_scope.

(** Every side has distinct vertices, all of them vertices of the element; different sides have
    different vertex sets. *)
Theorem down_template_in_range : forall f high low w v, 0 <= low < high -> high <= 3 -> 0 <= w < element_degree f high low -> 0 <= v < nverts f low ->
  0 <= element_down_template f high low w v < element_degree f high 0.
Proof. exact down_range. Qed.
Theorem side_vertices_distinct : forall f high low w, 0 <= low < high -> high <= 3 -> 0 <= w < element_degree f high low -> NoDup (side_verts f high low w).
Proof. exact side_nodup. Qed.
Theorem sides_differ : forall f high low w w', 0 <= low < high -> high <= 3 -> 0 <= w < element_degree f high low -> 0 <= w' < element_degree f high low ->
  same_set (side_verts f high low w) (side_verts f high low w') -> w = w'.
Proof. exact sides_distinct. Qed.
(** A side of a side is a side of the element. *)
Theorem side_of_side_is_side : forall f high mid low m l, 0 <= low < mid -> mid < high <= 3 ->
  0 <= m < element_degree f high mid -> 0 <= l < element_degree f mid low ->
  exists w, 0 <= w < element_degree f high low /\ same_set (sub_side_verts f high mid low m l) (side_verts f high low w).
Proof. exact side_of_side. Qed.
(** The up template lists each use of a low entity by a middle entity, with the right position and flip ... *)
Theorem up_template_sound : forall f high low w u m l fl, 0 <= low -> low + 2 <= high <= 3 -> 0 <= w < element_degree f high low -> 0 <= u < high - low ->
  element_up_template f high low w u = (m, l, fl) ->
  0 <= m < element_degree f high (low + 1) /\ 0 <= l < element_degree f (low + 1) low /\
  sub_side_verts f high (low + 1) low m l = (if fl then rev (side_verts f high low w) else side_verts f high low w).
Proof. exact up_sound. Qed.
(** ... and lists all of them, once. *)
Theorem up_template_complete : forall f high low w m l, 0 <= low -> low + 2 <= high <= 3 -> 0 <= w < element_degree f high low ->
  0 <= m < element_degree f high (low + 1) -> 0 <= l < element_degree f (low + 1) low ->
  same_set (sub_side_verts f high (low + 1) low m l) (side_verts f high low w) ->
  exists u fl, 0 <= u < high - low /\ element_up_template f high low w u = (m, l, fl) /\
  forall u' fl', 0 <= u' < high - low -> element_up_template f high low w u' = (m, l, fl') -> u' = u.
Proof. exact up_complete. Qed.
(** The faces of a region are oriented coherently: its two faces run along an edge in opposite directions. *)
Theorem faces_oriented_coherently : forall f w, 0 <= w < element_degree f 3 1 ->
  exists m l m' l' b, element_up_template f 3 1 w 0 = (m, l, b) /\ element_up_template f 3 1 w 1 = (m', l', negb b) /\ m <> m'.
Proof. exact edge_between_two_faces. Qed.
(** Opposite entities of a simplex share no vertex, together have all of them, and opposite is an involution. *)
Theorem opposite_is_complement : forall high low w, 0 <= low < high -> high <= 3 -> 0 <= w < simplex_degree high low ->
  0 <= simplex_opposite_template high low w < simplex_degree high (high - 1 - low) /\
  simplex_opposite_template high (high - 1 - low) (simplex_opposite_template high low w) = w /\
  forall v, 0 <= v <= high -> (In v (side_verts OMEGA_H_SIMPLEX high low w) <->
    ~ In v (side_verts OMEGA_H_SIMPLEX high (high - 1 - low) (simplex_opposite_template high low w))).
Proof. exact opposite_complement. Qed.
Print Assumptions down_template_in_range.
Print Assumptions side_vertices_distinct.
Print Assumptions sides_differ.
Print Assumptions side_of_side_is_side.
Print Assumptions up_template_sound.
Print Assumptions up_template_complete.
Print Assumptions faces_oriented_coherently.
Print Assumptions opposite_is_complement.

(** C51: refinement of a hypercube.  Vertex [j] of child [c] is the midpoint of corners [c] and [j] of
    the parent: child [c] is the parent shrunk by a half towards its corner [c], in the same orientation. *)
Theorem split_children_are_subcubes : forall d c j dd w, 1 <= d <= 3 -> 0 <= c < hypercube_degree d 0 -> 0 <= j < hypercube_degree d 0 ->
  hypercube_split_template d d c j = (dd, w) ->
  exists p, is_centre d dd w p /\ scale3 2 p = add3 (hyper_coord c) (hyper_coord j).
Proof. exact split_child. Qed.
(** An interior child touches the centre of the parent and the centre of the boundary entity it is dual to. *)
Theorem split_interior_child_is_dual : forall d cd c, 1 <= cd < d -> d <= 3 -> 0 <= c < hypercube_split_degree d cd ->
  (exists j, 0 <= j < hypercube_degree cd 0 /\ hypercube_split_template d cd c j = (d, 0)) /\
  (exists j, 0 <= j < hypercube_degree cd 0 /\ hypercube_split_template d cd c j = (d - cd, c)).
Proof. exact split_interior. Qed.
Print Assumptions split_children_are_subcubes.
Print Assumptions split_interior_child_is_dual.

Example tet_face_1 : side_verts OMEGA_H_SIMPLEX 3 2 1 = [0; 1; 3]. Proof. reflexivity. Qed.
Example hex_face_0 : side_verts OMEGA_H_HYPERCUBE 3 2 0 = [1; 0; 3; 2]. Proof. reflexivity. Qed.
Example hex_edge_8_up : element_up_template OMEGA_H_HYPERCUBE 3 1 8 1 = (1, 2, true). Proof. reflexivity. Qed.
Example child_centre : is_centre 3 2 1 (1, 0, 1). Proof. split; [discriminate|reflexivity]. Qed.
