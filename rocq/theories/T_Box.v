(** C67: meshes of boxes. *)
From Verif Require Import Prelude M_Template M_ArrayOps S_ArrayOps M_MeshAdj S_MeshAdj X_MeshAdj M_Build S_Build M_Box S_Box P_Box4.
Local Open Scope Z_scope.

(** A box with at least one cell along its first axis is always built, whatever the interleaving of the kernels ... *)
Theorem box_is_accepted : forall nx ny nz c c' be f symmetric, 0 < nx -> 0 <= ny -> 0 <= nz -> loops_covered be -> exists o, build_box_internal c c' be f nx ny nz symmetric = Ok o.
Proof. exact (fun nx ny nz c c' be f s Hx Hy Hz HB => match box_outcome nx ny nz Hx Hy Hz c c' be f s HB with ex_intro _ o K => ex_intro _ o (proj1 K) end). Qed.
(** ... and there are interleavings that finish. *)
Theorem box_can_finish : forall nx ny nz be f symmetric mem mem', 0 < nx -> 0 <= ny -> 0 <= nz -> loops_covered be ->
  exists first second first' second' p, build_box_internal (mk_chance mem first second (fun _ _ => false)) (mk_chance mem' first' second' (fun _ _ => false)) be f nx ny nz symmetric = Ok (Some p).
Proof. exact (fun nx ny nz be f s mem mem' Hx Hy Hz HB => box_finishes nx ny nz Hx Hy Hz be f s mem mem' HB). Qed.
(** The mesh fills the box: its vertices are in the box, no two at one place; its elements are right side out and
    together as large as the box; and every side has two elements, those on the surface one. *)
Theorem box_is_filled : forall nx ny nz c c' be f symmetric p, 0 < nx -> 0 <= ny -> 0 <= nz -> loops_covered be ->
  build_box_internal c c' be f nx ny nz symmetric = Ok (Some p) -> is_box_mesh f nx ny nz p.
Proof. exact box_right. Qed.
(** It has a vertex at every corner of a cell, and every cell is an element or, unless the split is to be symmetric, 1, 2 or 6 simplices. *)
Theorem box_has_its_counts : forall nx ny nz c c' be f symmetric p, 0 < nx -> 0 <= ny -> 0 <= nz -> loops_covered be ->
  (symmetric = false \/ f = OMEGA_H_HYPERCUBE \/ ny = 0) -> build_box_internal c c' be f nx ny nz symmetric = Ok (Some p) ->
  a_nents (b_mesh (p_built p)) 0 = volume (box_dim ny nz) (fun a => cells_along nx ny nz a + 1) /\
  a_nents (b_mesh (p_built p)) (box_dim ny nz) = match f with OMEGA_H_SIMPLEX => factorial (box_dim ny nz) | OMEGA_H_HYPERCUBE => 1 end * volume (box_dim ny nz) (cells_along nx ny nz).
Proof. exact box_count. Qed.
(** Other numbers of cells are refused. *)
Theorem box_refuses_counts : forall nx ny nz c c' be f symmetric, ~ (0 < nx /\ 0 <= ny /\ 0 <= nz) -> build_box_internal c c' be f nx ny nz symmetric = Abort.
Proof. exact (fun nx ny nz c c' be f s => box_refused c c' be f nx ny nz s). Qed.
Print Assumptions box_is_accepted.
Print Assumptions box_can_finish.
Print Assumptions box_is_filled.
Print Assumptions box_has_its_counts.
Print Assumptions box_refuses_counts.

Example serial_covered : loops_covered (fun _ => Serial).
Proof. exact serial_covers. Qed.
(** two cells: 4 triangles, 9 edges and 6 vertices *)
Example two_cells_box : match build_box_internal in_turn in_turn (fun _ => Serial) OMEGA_H_SIMPLEX 2 1 0 false with
  | Ok (Some p) => map (a_nents (b_mesh (p_built p))) (zrange 3) = [6; 9; 4] /\ p_coords p = [0; 0; 2; 0; 4; 0; 0; 2; 2; 2; 4; 2]
  | _ => False end.
Proof. vm_compute. repeat split; reflexivity. Qed.
(** one cell, split symmetrically into 4 triangles around its middle *)
Example symmetric_cell : match build_box_internal in_turn in_turn (fun _ => Serial) OMEGA_H_SIMPLEX 1 1 0 true with
  | Ok (Some p) => map (a_nents (b_mesh (p_built p))) (zrange 3) = [5; 8; 4] /\ p_coords p = [0; 0; 2; 0; 0; 2; 2; 2; 1; 1]
  | _ => False end.
Proof. vm_compute. repeat split; reflexivity. Qed.
(** a cube of one cell as a hexahedron *)
Example one_hexahedron : match build_box_internal in_turn in_turn (fun _ => Serial) OMEGA_H_HYPERCUBE 1 1 1 false with
  | Ok (Some p) => map (a_nents (b_mesh (p_built p))) (zrange 4) = [8; 12; 6; 1]
  | _ => False end.
Proof. vm_compute. repeat split; reflexivity. Qed.
