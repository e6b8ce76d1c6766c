(** Specification vocabulary for C83. *)
From Verif Require Import Prelude M_Array M_Par M_Graph S_Graph M_Mark S_Mark M_Amr.
Local Open Scope Z_scope.

(** The arrays fit together. *)
Record hmesh_ok (m : hmesh) (marks : list Z) : Prop := {
  ok_nelems : 0 <= h_nelems m; ok_deg : 0 <= h_deg m;
  ok_leaf : zlen (h_elem_leaf m) = h_nelems m; ok_marks : zlen marks = h_nelems m;
  ok_down : zlen (h_down m) = h_nelems m * h_deg m /\ forall b, In b (h_down m) -> 0 <= b < zlen (h_bridge_leaf m);
  ok_interior : zlen (h_interior m) = zlen (h_bridge_leaf m);
  ok_up : wf_graph (h_up m) /\ nnodes (h_up m) = zlen (h_bridge_leaf m) /\ forall e, In e (ab2b (h_up m)) -> 0 <= e < h_nelems m;
  ok_children : wf_graph (h_children m) /\ nnodes (h_children m) = zlen (h_bridge_leaf m) /\ forall b, In b (ab2b (h_children m)) -> 0 <= b < zlen (h_bridge_leaf m) }.

(** The bridge [child] is a part of an interior bridge of element [e] that has been refined. *)
Definition part_of_side (m : hmesh) (e child : Z) : Prop :=
  exists k bridge, 0 <= k < h_deg m /\ zget (h_down m) (e * h_deg m + k) = Ok bridge /\ marked (h_interior m) bridge /\ ~ marked (h_bridge_leaf m) bridge /\
  edge (h_children m) bridge child.
(** Element [c] is a finer element beside [e]: it has a part of a refined bridge of [e], and no other element has. *)
Definition finer (m : hmesh) (e c : Z) : Prop := exists child, part_of_side m e child /\ targets (h_up m) child = Ok [c].
(** Where unmarked leaves look, the part of the bridge has one element. *)
Definition one_sided (m : hmesh) (marks : list Z) : Prop :=
  forall e child, 0 <= e < h_nelems m -> marked (h_elem_leaf m) e -> ~ marked marks e -> part_of_side m e child -> exists c, targets (h_up m) child = Ok [c].

(** What has to be refined at least: marked leaves, and leaves beside finer elements that are marked. *)
Definition must (m : hmesh) (marks : list Z) (e : Z) : Prop :=
  marked (h_elem_leaf m) e /\ (marked marks e \/ exists c, finer m e c /\ marked marks c).
(** What is refined at most: also leaves beside finer elements that are refined for such a reason, or in whose entry of the new array there
    happens to be something. *)
Inductive may (m : hmesh) (marks : list Z) (before : mem Z) : Z -> Prop :=
| may_marked e : marked (h_elem_leaf m) e -> marked marks e -> may m marks before e
| may_beside e c : marked (h_elem_leaf m) e -> finer m e c -> marked marks c -> may m marks before e
| may_chain e c : marked (h_elem_leaf m) e -> finer m e c -> may m marks before c -> may m marks before e
| may_stale e c : marked (h_elem_leaf m) e -> finer m e c -> before (place c) <> 0 -> may m marks before e.
