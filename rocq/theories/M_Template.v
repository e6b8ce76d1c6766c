(** Element templates: src/Omega_h_simplex.hpp, src/Omega_h_hypercube.hpp, src/Omega_h_element.hpp.
    A nest of switch statements (or of conditional expressions) over literals is modelled by a table
    with one row per which_bdry and one column per which_vert (which_up); a combination that has no
    case returns -1 in the code, and -1 here. *)
From Verif Require Import Prelude.
Local Open Scope Z_scope.

(** src/Omega_h_template_up.hpp:16-26 TemplateUp: up, which_down, is_flipped *)
Definition template_up : Type := Z * Z * bool.
Definition no_up : template_up := (-1, -1, false).
(** src/Omega_h_template_up.hpp:28-31 SplitVertex: dim, which_down *)
Definition no_split : Z * Z := (-1, -1).

Definition row {A} (t : list A) (i : Z) (d : A) : A := match zget t i with Ok x => x | _ => d end.
Definition cell {A} (t : list (list A)) (i j : Z) (d : A) : A := row (row t i []) j d.

(** src/Omega_h_simplex.hpp:26-43 faces of a tetrahedron *)
Definition simplex_down_3_2 : list (list Z) := [[0; 2; 1]; [0; 1; 3]; [1; 2; 3]; [2; 0; 3]].
(** src/Omega_h_simplex.hpp:44-62 edges of a tetrahedron *)
Definition simplex_down_3_1 : list (list Z) := [[0; 1]; [1; 2]; [2; 0]; [0; 3]; [1; 3]; [2; 3]].
(** src/Omega_h_simplex.hpp:69-78 edges of a triangle *)
Definition simplex_down_2_1 : list (list Z) := [[0; 1]; [1; 2]; [2; 0]].

(** src/Omega_h_simplex.hpp:23-88 simplex_down_template *)
Definition simplex_down_template (elem_dim bdry_dim which_bdry which_vert : Z) : Z :=
  match elem_dim, bdry_dim with
  | 3, 2 => cell simplex_down_3_2 which_bdry which_vert (-1)
  | 3, 1 => cell simplex_down_3_1 which_bdry which_vert (-1)
  | 3, 0 => row [0; 1; 2; 3] which_bdry (-1)
  | 2, 1 => cell simplex_down_2_1 which_bdry which_vert (-1)
  | 2, 0 => row [0; 1; 2] which_bdry (-1)
  | 1, 0 => row [0; 1] which_bdry (-1)
  | _, _ => -1
  end.

(** src/Omega_h_simplex.hpp simplex_up_template, case elem_dim 3, bdry_dim 0 *)
Definition simplex_up_3_0 : list (list template_up) :=
  [ [(0, 0, false); (2, 1, false); (3, 0, false)];
    [(1, 0, false); (0, 1, false); (4, 0, false)];
    [(2, 0, false); (1, 1, false); (5, 0, false)];
    [(5, 1, false); (4, 1, false); (3, 1, false)] ].
(** src/Omega_h_simplex.hpp simplex_up_template, case elem_dim 3, bdry_dim 1 *)
Definition simplex_up_3_1 : list (list template_up) :=
  [ [(0, 2, true); (1, 0, false)];
    [(0, 1, true); (2, 0, false)];
    [(0, 0, true); (3, 0, false)];
    [(1, 2, true); (3, 1, false)];
    [(2, 2, true); (1, 1, false)];
    [(3, 2, true); (2, 1, false)] ].
(** src/Omega_h_simplex.hpp simplex_up_template, case elem_dim 2, bdry_dim 0 *)
Definition simplex_up_2_0 : list (list template_up) :=
  [ [(0, 0, false); (2, 1, false)];
    [(1, 0, false); (0, 1, false)];
    [(2, 0, false); (1, 1, false)] ].
(** src/Omega_h_hypercube.hpp hypercube_up_template, case elem_dim 3, bdry_dim 0 *)
Definition hypercube_up_3_0 : list (list template_up) :=
  [ [(0, 0, false); (3, 1, false); (4, 0, false)];
    [(1, 0, false); (0, 1, false); (5, 0, false)];
    [(2, 0, false); (1, 1, false); (6, 0, false)];
    [(3, 0, false); (2, 1, false); (7, 0, false)];
    [(8, 0, false); (11, 1, false); (4, 1, false)];
    [(9, 0, false); (8, 1, false); (5, 1, false)];
    [(10, 0, false); (9, 1, false); (6, 1, false)];
    [(11, 0, false); (10, 1, false); (7, 1, false)] ].
(** src/Omega_h_hypercube.hpp hypercube_up_template, case elem_dim 3, bdry_dim 1 *)
Definition hypercube_up_3_1 : list (list template_up) :=
  [ [(0, 0, true); (1, 0, false)];
    [(0, 3, true); (2, 0, false)];
    [(0, 2, true); (3, 0, false)];
    [(0, 1, true); (4, 0, false)];
    [(1, 3, true); (4, 1, false)];
    [(2, 3, true); (1, 1, false)];
    [(3, 3, true); (2, 1, false)];
    [(4, 3, true); (3, 1, false)];
    [(5, 0, false); (1, 2, true)];
    [(5, 1, false); (2, 2, true)];
    [(5, 2, false); (3, 2, true)];
    [(5, 3, false); (4, 2, true)] ].
(** src/Omega_h_hypercube.hpp hypercube_up_template, case elem_dim 2, bdry_dim 0 *)
Definition hypercube_up_2_0 : list (list template_up) :=
  [ [(3, 1, false); (0, 0, false)];
    [(0, 1, false); (1, 0, false)];
    [(1, 1, false); (2, 0, false)];
    [(2, 1, false); (3, 0, false)] ].
(** src/Omega_h_hypercube.hpp hypercube_down_template, case elem_dim 2, bdry_dim 1 *)
Definition hypercube_down_2_1 : list (list Z) :=
  [ [0; 1];
    [1; 2];
    [2; 3];
    [3; 0] ].
(** src/Omega_h_hypercube.hpp hypercube_down_template, case elem_dim 3, bdry_dim 1 *)
Definition hypercube_down_3_1 : list (list Z) :=
  [ [0; 1];
    [1; 2];
    [2; 3];
    [3; 0];
    [0; 4];
    [1; 5];
    [2; 6];
    [3; 7];
    [4; 5];
    [5; 6];
    [6; 7];
    [7; 4] ].
(** src/Omega_h_hypercube.hpp hypercube_down_template, case elem_dim 3, bdry_dim 2 *)
Definition hypercube_down_3_2 : list (list Z) :=
  [ [1; 0; 3; 2];
    [0; 1; 5; 4];
    [1; 2; 6; 5];
    [2; 3; 7; 6];
    [3; 0; 4; 7];
    [4; 5; 6; 7] ].
(** src/Omega_h_hypercube.hpp hypercube_split_template, case parent_dim 1, child_dim 1 *)
Definition hypercube_split_1_1 : list (list (Z * Z)) :=
  [ [(0, 0); (1, 0)];
    [(1, 0); (0, 1)] ].
(** src/Omega_h_hypercube.hpp hypercube_split_template, case parent_dim 2, child_dim 2 *)
Definition hypercube_split_2_2 : list (list (Z * Z)) :=
  [ [(0, 0); (1, 0); (2, 0); (1, 3)];
    [(1, 0); (0, 1); (1, 1); (2, 0)];
    [(2, 0); (1, 1); (0, 2); (1, 2)];
    [(1, 3); (2, 0); (1, 2); (0, 3)] ].
(** src/Omega_h_hypercube.hpp hypercube_split_template, case parent_dim 3, child_dim 2 *)
Definition hypercube_split_3_2 : list (list (Z * Z)) :=
  [ [(1, 0); (2, 0); (3, 0); (2, 1)];
    [(2, 0); (1, 1); (2, 2); (3, 0)];
    [(2, 0); (1, 2); (2, 3); (3, 0)];
    [(1, 3); (2, 0); (3, 0); (2, 4)];
    [(1, 4); (2, 1); (3, 0); (2, 4)];
    [(2, 1); (1, 5); (2, 2); (3, 0)];
    [(3, 0); (2, 2); (1, 6); (2, 3)];
    [(2, 4); (3, 0); (2, 3); (1, 7)];
    [(2, 1); (3, 0); (2, 5); (1, 8)];
    [(3, 0); (2, 2); (1, 9); (2, 5)];
    [(3, 0); (2, 3); (1, 10); (2, 5)];
    [(2, 4); (3, 0); (2, 5); (1, 11)] ].
(** src/Omega_h_hypercube.hpp hypercube_split_template, case parent_dim 3, child_dim 3 *)
Definition hypercube_split_3_3 : list (list (Z * Z)) :=
  [ [(0, 0); (1, 0); (2, 0); (1, 3); (1, 4); (2, 1); (3, 0); (2, 4)];
    [(1, 0); (0, 1); (1, 1); (2, 0); (2, 1); (1, 5); (2, 2); (3, 0)];
    [(2, 0); (1, 1); (0, 2); (1, 2); (3, 0); (2, 2); (1, 6); (2, 3)];
    [(1, 3); (2, 0); (1, 2); (0, 3); (2, 4); (3, 0); (2, 3); (1, 7)];
    [(1, 4); (2, 1); (3, 0); (2, 4); (0, 4); (1, 8); (2, 5); (1, 11)];
    [(2, 1); (1, 5); (2, 2); (3, 0); (1, 8); (0, 5); (1, 9); (2, 5)];
    [(3, 0); (2, 2); (1, 6); (2, 3); (2, 5); (1, 9); (0, 6); (1, 10)];
    [(2, 4); (3, 0); (2, 3); (1, 7); (1, 11); (2, 5); (1, 10); (0, 7)] ].

(** src/Omega_h_simplex.hpp:93-230 simplex_up_template *)
Definition simplex_up_template (elem_dim bdry_dim which_bdry which_up : Z) : template_up :=
  match elem_dim, bdry_dim with
  | 3, 0 => cell simplex_up_3_0 which_bdry which_up no_up
  | 3, 1 => cell simplex_up_3_1 which_bdry which_up no_up
  | 2, 0 => cell simplex_up_2_0 which_bdry which_up no_up
  | _, _ => no_up
  end.

(** src/Omega_h_simplex.hpp:232-311 simplex_opposite_template *)
Definition simplex_opposite_template (elem_dim bdry_dim which_bdry : Z) : Z :=
  match elem_dim, bdry_dim with
  | 3, 0 => row [2; 3; 1; 0] which_bdry (-1)
  | 3, 1 => row [5; 3; 4; 1; 2; 0] which_bdry (-1)
  | 3, 2 => row [3; 2; 0; 1] which_bdry (-1)
  | 2, 0 => row [1; 2; 0] which_bdry (-1)
  | 2, 1 => row [2; 0; 1] which_bdry (-1)
  | 1, 0 => 1 - which_bdry
  | _, _ => -1
  end.

(** src/Omega_h_simplex.hpp:313-329 simplex_degree; from_dim 0 gives 1 whatever to_dim is *)
Definition simplex_degree (from_dim to_dim : Z) : Z :=
  match from_dim with
  | 0 => 1
  | 1 => row [2; 1] to_dim (-1)
  | 2 => row [3; 3; 1] to_dim (-1)
  | 3 => row [4; 6; 4; 1] to_dim (-1)
  | _ => -1
  end.

(** src/Omega_h_hypercube.hpp:26-260 hypercube_down_template; for vertices which_bdry is returned as is *)
Definition hypercube_down_template (elem_dim bdry_dim which_bdry which_vert : Z) : Z :=
  match elem_dim, bdry_dim with
  | 1, 0 => which_bdry
  | 2, 0 => which_bdry
  | 2, 1 => cell hypercube_down_2_1 which_bdry which_vert (-1)
  | 3, 0 => which_bdry
  | 3, 1 => cell hypercube_down_3_1 which_bdry which_vert (-1)
  | 3, 2 => cell hypercube_down_3_2 which_bdry which_vert (-1)
  | _, _ => -1
  end.

(** src/Omega_h_hypercube.hpp:262-492 hypercube_up_template *)
Definition hypercube_up_template (elem_dim bdry_dim which_bdry which_up : Z) : template_up :=
  match elem_dim, bdry_dim with
  | 3, 0 => cell hypercube_up_3_0 which_bdry which_up no_up
  | 3, 1 => cell hypercube_up_3_1 which_bdry which_up no_up
  | 2, 0 => cell hypercube_up_2_0 which_bdry which_up no_up
  | _, _ => no_up
  end.

(** src/Omega_h_hypercube.hpp:494-511 hypercube_degree *)
Definition hypercube_degree (from_dim to_dim : Z) : Z :=
  match from_dim with
  | 0 => row [1] to_dim (-1)
  | 1 => row [2; 1] to_dim (-1)
  | 2 => row [4; 4; 1] to_dim (-1)
  | 3 => row [8; 12; 6; 1] to_dim (-1)
  | _ => -1
  end.

(** src/Omega_h_hypercube.hpp:528-533 hypercube_split_degree *)
Definition hypercube_split_degree (parent_dim child_dim : Z) : Z := hypercube_degree parent_dim (parent_dim - child_dim).

(** src/Omega_h_hypercube.hpp:535-956 hypercube_split_template *)
Definition hypercube_split_template (parent_dim child_dim which_child which_child_vtx : Z) : Z * Z :=
  match parent_dim, child_dim with
  | 1, 0 => (1, 0)
  | 1, 1 => cell hypercube_split_1_1 which_child which_child_vtx no_split
  | 2, 0 => (2, 0)
  | 2, 1 => row [(1, which_child); (2, 0)] which_child_vtx no_split
  | 2, 2 => cell hypercube_split_2_2 which_child which_child_vtx no_split
  | 3, 0 => (3, 0)
  | 3, 1 => row [(2, which_child); (3, 0)] which_child_vtx no_split
  | 3, 2 => cell hypercube_split_3_2 which_child which_child_vtx no_split
  | 3, 3 => cell hypercube_split_3_3 which_child which_child_vtx no_split
  | _, _ => no_split
  end.

(** src/Omega_h_defines.hpp Omega_h_Family *)
Inductive family := OMEGA_H_SIMPLEX | OMEGA_H_HYPERCUBE.

(** src/Omega_h_element.hpp:10-16 element_down_template *)
Definition element_down_template (f : family) (elem_dim bdry_dim which_bdry which_vert : Z) : Z :=
  match f with
  | OMEGA_H_SIMPLEX => simplex_down_template elem_dim bdry_dim which_bdry which_vert
  | OMEGA_H_HYPERCUBE => hypercube_down_template elem_dim bdry_dim which_bdry which_vert
  end.

(** src/Omega_h_element.hpp:18-22 element_degree *)
Definition element_degree (f : family) (from_dim to_dim : Z) : Z :=
  match f with
  | OMEGA_H_SIMPLEX => simplex_degree from_dim to_dim
  | OMEGA_H_HYPERCUBE => hypercube_degree from_dim to_dim
  end.

(** src/Omega_h_element.hpp:24-30 element_up_template *)
Definition element_up_template (f : family) (elem_dim bdry_dim which_bdry which_up : Z) : template_up :=
  match f with
  | OMEGA_H_SIMPLEX => simplex_up_template elem_dim bdry_dim which_bdry which_up
  | OMEGA_H_HYPERCUBE => hypercube_up_template elem_dim bdry_dim which_bdry which_up
  end.
