(** Specification vocabulary for element templates. *)
From Verif Require Import Prelude M_Template.
Local Open Scope Z_scope.

(** number of vertices of a [d]-dimensional entity: 1 for a vertex *)
Definition nverts (f : family) (d : Z) : Z := match d with 0 => 1 | _ => element_degree f d 0 end.

(** the vertices, numbered within the element, of side [w] of dimension [d] *)
Definition side_verts (f : family) (high d w : Z) : list Z :=
  map (element_down_template f high d w) (zrange (nverts f d)).

Definition same_set (l m : list Z) : Prop := forall x, In x l <-> In x m.

(** vertices of low entity [l] of side [m] of the element, in that side's own order, named by the element *)
Definition sub_side_verts (f : family) (high mid low m l : Z) : list Z :=
  map (fun v => element_down_template f high mid m (element_down_template f mid low l v)) (zrange (nverts f low)).

(** reference coordinates of the vertices of an element (twice the unit cube for hypercubes) *)
Definition hyper_coord (v : Z) : Z * Z * Z :=
  row [(0, 0, 0); (2, 0, 0); (2, 2, 0); (0, 2, 0); (0, 0, 2); (2, 0, 2); (2, 2, 2); (0, 2, 2)] v (0, 0, 0).
Definition add3 (a b : Z * Z * Z) : Z * Z * Z :=
  let '(x, y, z) := a in let '(u, v, w) := b in (x + u, y + v, z + w).
Definition scale3 (k : Z) (a : Z * Z * Z) : Z * Z * Z := let '(x, y, z) := a in (k * x, k * y, k * z).
Definition sum3 (l : list (Z * Z * Z)) : Z * Z * Z := fold_right add3 (0, 0, 0) l.

(** the vertices of entity [w] of dimension [d] in the closure of a [high]-dimensional hypercube *)
Definition closure_verts (high d w : Z) : list Z :=
  if d =? high then zrange (nverts OMEGA_H_HYPERCUBE high) else side_verts OMEGA_H_HYPERCUBE high d w.

(** [p] is the centre of entity (d, w) *)
Definition is_centre (high d w : Z) (p : Z * Z * Z) : Prop :=
  let vs := closure_verts high d w in vs <> [] /\ scale3 (zlen vs) p = sum3 (map hyper_coord vs).
