(** C68: the classification of meshes of boxes. *)
From Coq Require Import String.
From Verif Require Import Prelude M_Template M_ArrayOps S_ArrayOps M_MeshAdj S_MeshAdj X_MeshAdj M_Build S_Build M_Box S_Box M_BoxClass S_BoxClass P_BoxClass.
Local Open Scope Z_scope.

(** Any mesh whose vertices are in the box, at multiples of half the width of a cell, gets for every entity the part of the
    box that the entity is on. *)
Theorem mesh_in_box_is_classified : forall c T m coords place nx ny nz, valid_topology T -> mesh_of T m -> (forall a, 0 <= a < t_dim T -> 0 < cells_along nx ny nz a) ->
  places (t_dim T) (t_nents T 0) coords place -> (forall v a, 0 <= v < t_nents T 0 -> 0 <= a < t_dim T -> 0 <= axis a (place v) <= 2 * cells_along nx ny nz a) ->
  exists m' tags, classify_box c m coords nx ny nz = Ok (Some (m', tags)) /\ classified (cells_along nx ny nz) T place tags.
Proof. exact mesh_classified. Qed.
(** For a mesh that fills the box, such as those of C67 in whatever order, the classes are consistent with the mesh. *)
Theorem box_mesh_is_classified : forall c f nx ny nz T m ev2v coords place, 0 < nx -> 0 <= ny -> 0 <= nz -> topology_of f (box_dim ny nz) ev2v (t_nents T 0) T -> mesh_of T m ->
  places (box_dim ny nz) (t_nents T 0) coords place -> fills_box (cells_along nx ny nz) T place ->
  exists m' tags, classify_box c m coords nx ny nz = Ok (Some (m', tags)) /\ classified (cells_along nx ny nz) T place tags /\ class_fits T tags.
Proof. exact box_classified. Qed.
(** The named sets are what their names say: the body and the sides of the box, and there are no others. *)
Theorem box_body_is_named : forall dim, 1 <= dim <= 3 -> exists id, In ("body"%string, [(dim, id)]) (get_box_class_sets dim) /\
  forall n pts, (forall a, 0 <= a < dim -> 0 < n a) -> pts <> [] -> (on_part dim n pts id dim <-> in_body dim n pts).
Proof. exact body_named. Qed.
Theorem box_sides_are_named : forall dim a upper, 1 <= dim <= 3 -> 0 <= a < dim -> exists id, In (side_name a upper, [(dim - 1, id)]) (get_box_class_sets dim) /\
  forall n pts, (forall a, 0 <= a < dim -> 0 < n a) -> pts <> [] -> (on_part dim n pts id (dim - 1) <-> on_side dim n a upper pts).
Proof. exact side_named. Qed.
Theorem box_names_only : forall dim name pairs, 1 <= dim <= 3 -> In (name, pairs) (get_box_class_sets dim) -> name = "body"%string \/ exists a upper, 0 <= a < dim /\ name = side_name a upper.
Proof. exact sets_only. Qed.
Print Assumptions mesh_in_box_is_classified.
Print Assumptions box_mesh_is_classified.
Print Assumptions box_body_is_named.
Print Assumptions box_sides_are_named.
Print Assumptions box_names_only.

(** two cells in a row: the classes of the 6 vertices, 7 edges and 2 quadrilaterals *)
Example two_cells_classes : match build_box_internal in_turn in_turn (fun _ => Serial) OMEGA_H_HYPERCUBE 2 1 0 false with
  | Ok (Some p) => match classify_box in_turn (b_mesh (p_built p)) (p_coords p) 2 1 0 with
    | Ok (Some (_, tags)) => zget tags 0 = Ok ([0; 1; 2; 6; 7; 8], [0; 1; 0; 0; 1; 0]) /\ zget tags 2 = Ok ([4; 4], [2; 2]) /\ (exists ids, zget tags 1 = Ok (ids, [1; 1; 1; 2; 1; 1; 1]))
    | _ => False end
  | _ => False end.
Proof. vm_compute. split; [reflexivity|]. split; [reflexivity|]. eexists. reflexivity. Qed.
