(** C84: Separating cavities by colour and by whether they touch the boundary. *)
From Coq Require Import Sorted.
From Verif Require Import Prelude M_Array M_Map M_Graph S_Graph P_Graph M_Mark S_Mark M_Cavs S_Cavs P_Cavs P_Cavs2 X_Cavs.
Local Open Scope Z_scope.

Theorem separating_by_color_ends_and_loses_nothing : forall c old_colors new_colors fuel,
  cavs_ok c old_colors new_colors -> (Z.to_nat (nedges (keys2old c) + nedges (keys2new c)) < fuel)%nat ->
  exists rounds, separate_by_color fuel c old_colors new_colors = Ok (Some rounds) /\
  forall key olds news, targets (keys2old c) key = Ok olds -> targets (keys2new c) key = Ok news ->
    exists parts, Forall2 (has key) rounds parts /\ separates old_colors new_colors olds news parts.
Proof. exact separating_w. Qed.

Theorem cavities_of_any_size_are_separated_refuted : exists c old_colors new_colors rounds olds,
  wf_graph (keys2old c) /\ wf_graph (keys2new c) /\ nnodes (keys2old c) = nnodes (keys2new c) /\
  (forall e, In e (ab2b (keys2old c)) -> 0 <= e < zlen old_colors) /\ (forall e, In e (ab2b (keys2new c)) -> 0 <= e < zlen new_colors) /\
  targets (keys2old c) 0 = Ok olds /\ zlen olds = 128 /\
  (forall fuel, (2 <= fuel)%nat -> separate_by_color fuel c old_colors new_colors = Ok (Some rounds)) /\
  forall r, In r rounds -> targets (keys2old r) 0 = Ok [].
Proof. exact too_big_w. Qed.

Theorem cavities_are_separated_by_status : forall dim c old_bdry new_bdry old_ids new_ids kd_class_dims keys2kds,
  cavs_ok c old_bdry new_bdry -> cavs_ok c old_ids new_ids -> (forall x, In x old_bdry -> x = 0 \/ x = 1) ->
  zlen keys2kds = nnodes (keys2old c) -> (forall kd, In kd keys2kds -> 0 <= kd < zlen kd_class_dims) ->
  exists s ni ti ki fuel0, (forall fuel, (fuel0 <= fuel)%nat -> separate_cavities fuel dim c old_bdry new_bdry old_ids new_ids kd_class_dims keys2kds = Ok (Some s)) /\
  part_of c (not_bdry s) ni /\ (forall key, In key ni <-> 0 <= key < nnodes (keys2old c) /\ ~ touches c old_bdry key) /\
  part_of c (key_bdry s) ki /\ (forall key, In key ki <-> 0 <= key < nnodes (keys2old c) /\ on_bdry dim kd_class_dims keys2kds key) /\
  part_of c (touch_bdry s) ti /\ (forall key, In key ti <-> 0 <= key < nnodes (keys2old c) /\ touches c old_bdry key /\ ~ on_bdry dim kd_class_dims keys2kds key) /\
  (forall key, 0 <= key < nnodes (keys2old c) -> In key ni \/ In key ti \/ In key ki) /\
  rounds_separate (touch_bdry s) old_bdry new_bdry (touch_by_bdry s) /\ rounds_separate (key_bdry s) old_ids new_ids (key_by_class s).
Proof. exact statuses_w. Qed.

Theorem elements_that_touch_the_boundary_are_right : forall dim elem_verts deg nelems vert_class_dims,
  0 <= nelems -> 0 <= deg -> zlen elem_verts = nelems * deg -> (forall v, In v elem_verts -> 0 <= v < zlen vert_class_dims) ->
  exists r, get_elems_are_bdry dim elem_verts deg nelems vert_class_dims = Ok r /\ zlen r = nelems /\
  forall e, 0 <= e < nelems -> says r e (exists i v d, 0 <= i < deg /\ zget elem_verts (e * deg + i) = Ok v /\ zget vert_class_dims v = Ok d /\ d <> dim).
Proof. exact elems_bdry_w. Qed.

(** The hypotheses are met. *)
Example cavities_fit_colors : cavs_ok xcavs xold xnew.
Proof. exact xcavs_by_color. Qed.
Example cavities_fit_bdry : cavs_ok xcavs xold_bdry xnew_bdry.
Proof. exact xcavs_by_bdry. Qed.
Example bdry_marks_are_bits : forall x, In x xold_bdry -> x = 0 \/ x = 1.
Proof. exact xold_bdry_bits. Qed.
Example keys_have_entities : zlen xkds = nnodes (keys2old xcavs) /\ forall kd, In kd xkds -> 0 <= kd < zlen xdims.
Proof. exact (conj eq_refl xkds_in). Qed.
(** Three rounds: the colour of the first old element, the other one, and the new element of a colour that no old element has. *)
Example three_rounds : separate_by_color 20 xcavs xold xnew = Ok (Some
  [mk_cavs (of_lists [[0; 2]; []; [4; 7]; [5]]) (of_lists [[1]; [3]; [6; 7]; [5]]);
   mk_cavs (of_lists [[1; 3]; []; []; [6]]) (of_lists [[0]; []; []; [4]]);
   mk_cavs (of_lists [[]; []; []; []]) (of_lists [[2]; []; []; []])]).
Proof. vm_compute. reflexivity. Qed.
(** Keys 0 and 1 are inside, key 2 touches the boundary, key 3 is on it. *)
Example by_status : separate_cavities 20 3 xcavs xold_bdry xnew_bdry xold xnew xdims xkds = Ok (Some (mk_separated
  (mk_cavs (of_lists [[0; 1; 2; 3]; []]) (of_lists [[0; 1; 2]; [3]]))
  (mk_cavs (of_lists [[4; 7]]) (of_lists [[6; 7]]))
  (mk_cavs (of_lists [[5; 6]]) (of_lists [[4; 5]]))
  [mk_cavs (of_lists [[4]]) (of_lists [[7]]); mk_cavs (of_lists [[7]]) (of_lists [[6]])]
  [mk_cavs (of_lists [[5]]) (of_lists [[5]]); mk_cavs (of_lists [[6]]) (of_lists [[4]])])).
Proof. vm_compute. reflexivity. Qed.
(** Two triangles of which the second has a vertex on the boundary *)
Example one_touches : get_elems_are_bdry 2 [0; 1; 2; 2; 1; 3] 3 2 [2; 2; 2; 1] = Ok [0; 1].
Proof. vm_compute. reflexivity. Qed.

Print Assumptions separating_by_color_ends_and_loses_nothing.
Print Assumptions cavities_of_any_size_are_separated_refuted.
Print Assumptions cavities_are_separated_by_status.
Print Assumptions elements_that_touch_the_boundary_are_right.
