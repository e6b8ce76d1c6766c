(** Specification vocabulary for downward adjacencies with codes. *)
From Verif Require Import Prelude M_Template M_Align S_Align S_Unique.
Local Open Scope Z_scope.

(** [hl2l] and [codes] are the downward adjacency of elements [hv2v] to entities [lv2v] (both given by
    vertices): the entity at each side of each element has the side's vertices, and the code aligns
    the entity's own order onto the order the element gives the side. *)
Definition reflects (f : family) (high low : Z) (hv2v lv2v hl2l codes : list Z) : Prop :=
  forall h u row, is_side f high low hv2v h u row -> exists l code lrow,
    zget hl2l (h * element_degree f high low + u) = Ok l /\ zget codes (h * element_degree f high low + u) = Ok code /\
    row_is (element_degree f low 0) lv2v l lrow /\ align_adj (element_degree f low 0) code lrow = Ok row /\ code_rotation code < element_degree f low 0.
