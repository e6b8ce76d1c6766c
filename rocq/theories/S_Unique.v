(** Specification vocabulary for finding unique sides. *)
From Verif Require Import Prelude M_Template S_Template S_Align.
Local Open Scope Z_scope.

(** side [u] of element [h] has the vertices [row] *)
Definition is_side (f : family) (high low : Z) (hv2v : list Z) (h u : Z) (row : list Z) : Prop :=
  exists hrow, row_is (element_degree f high 0) hv2v h hrow /\ 0 <= u < element_degree f high low /\
  Forall2 (fun v x => zget hrow v = Ok x) (side_verts f high low u) row.

(** every row of [deg] entries has distinct entries *)
Definition rows_distinct (deg : Z) (l : list Z) : Prop := forall e row, row_is deg l e row -> NoDup row.
