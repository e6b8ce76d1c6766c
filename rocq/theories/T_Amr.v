(** C83: the marks for refining and derefining meshes of hypercubes. *)
From Verif Require Import Prelude M_Array M_Par M_Graph S_Graph P_Graph M_Mark S_Mark M_Amr S_Amr P_Amr X_Amr.
Local Open Scope Z_scope.

(** Extending the marks does nothing undefined, whatever lies in the new array and whatever the schedule, and can end, if the parts of
    refined bridges at which leaves look have one element; otherwise it aborts. *)
Theorem extending_is_defined : forall m marks before elem_dim bridge_dim, hmesh_ok m marks -> 0 < bridge_dim < elem_dim ->
  (one_sided m marks ->
    (forall schedule, exists o, enforce_2to1_refine before schedule m elem_dim bridge_dim marks = Ok o) /\
    (exists schedule r, enforce_2to1_refine before schedule m elem_dim bridge_dim marks = Ok (Some r))) /\
  (~ one_sided m marks -> forall schedule, enforce_2to1_refine before schedule m elem_dim bridge_dim marks = Abort).
Proof. exact enforce_total_w. Qed.
(** Whenever it ends, every entry is 0 or 1: 1 for each marked leaf and for each leaf beside a finer marked element; 1 only for these, for
    leaves beside finer elements that get 1 for such a reason, and for leaves beside finer elements in whose entry something lay. *)
Theorem extending_is_right : forall m marks before schedule elem_dim bridge_dim r, hmesh_ok m marks ->
  enforce_2to1_refine before schedule m elem_dim bridge_dim marks = Ok (Some r) ->
  zlen r = h_nelems m /\ forall e, 0 <= e < h_nelems m -> (zget r e = Ok 0 /\ ~ must m marks e) \/ (zget r e = Ok 1 /\ may m marks before e).
Proof. exact enforce_right_w. Qed.
(** If the array was zero and there are no chains, that is every leaf beside a finer element that has to be refined has to be itself, the
    result is the same for every schedule: the marked leaves and the leaves beside finer marked elements. *)
Theorem extending_is_exact_without_chains : forall m marks before schedule elem_dim bridge_dim r, hmesh_ok m marks -> (forall e, before (place e) = 0) ->
  (forall e c, marked (h_elem_leaf m) e -> finer m e c -> must m marks c -> must m marks e) ->
  enforce_2to1_refine before schedule m elem_dim bridge_dim marks = Ok (Some r) -> forall e, 0 <= e < h_nelems m -> says r e (must m marks e).
Proof. exact enforce_exact_w. Qed.
(** Otherwise it does depend on the schedule, *)
Theorem result_is_the_same_for_all_schedules_refuted : exists m marks before s1 s2 r1 r2, hmesh_ok m marks /\ one_sided m marks /\ (forall l, before l = 0) /\
  enforce_2to1_refine before s1 m 2 1 marks = Ok (Some r1) /\ enforce_2to1_refine before s2 m 2 1 marks = Ok (Some r2) /\ r1 <> r2.
Proof. exact result_does_not_depend_refuted. Qed.
(** and an element can be marked although none was. *)
Theorem nothing_is_marked_without_marks_refuted : exists m marks before s r e, hmesh_ok m marks /\ one_sided m marks /\ (forall x, ~ marked marks x) /\
  enforce_2to1_refine before s m 2 1 marks = Ok (Some r) /\ marked r e.
Proof. exact nothing_from_nothing_refuted. Qed.
(** What is to be refined of any dimension: the leaves with a marked element. *)
Theorem refined_marks_are_right : forall elems_of leaf marks, wf_graph elems_of -> nnodes elems_of = zlen leaf -> (forall e, In e (ab2b elems_of) -> 0 <= e < zlen marks) ->
  exists r, mark_refined elems_of leaf marks = Ok r /\ zlen r = zlen leaf /\ forall x, 0 <= x < zlen leaf -> says r x (marked leaf x /\ exists e, edge elems_of x e /\ marked marks e).
Proof. exact refined_ok. Qed.
(** Derefining drops exactly the leaves among the children of the marked elements, whatever the schedule. *)
Theorem persisting_elements_are_right : forall children leaf marks, wf_graph children -> nnodes children = zlen leaf -> (forall c, In c (ab2b children) -> 0 <= c < zlen leaf) -> zlen marks = zlen leaf ->
  (forall schedule, exists o, mark_persisting_elems schedule children leaf marks = Ok o) /\
  (exists schedule r, mark_persisting_elems schedule children leaf marks = Ok (Some r)) /\
  forall schedule r, mark_persisting_elems schedule children leaf marks = Ok (Some r) ->
    zlen r = zlen leaf /\ forall c, 0 <= c < zlen leaf -> says r c (~ (marked leaf c /\ exists p, marked marks p /\ edge children p c)).
Proof. exact persisting_ok. Qed.
(** Of the other dimensions it drops exactly the leaves with no element that persists, *)
Theorem persisting_entities_are_right : forall elems_of leaf persists, wf_graph elems_of -> nnodes elems_of = zlen leaf -> (forall e, In e (ab2b elems_of) -> 0 <= e < zlen persists) ->
  exists r, mark_persisting_ents elems_of leaf persists = Ok r /\ zlen r = zlen leaf /\ forall x, 0 <= x < zlen leaf -> says r x (~ marked leaf x \/ exists e, edge elems_of x e /\ marked persists e).
Proof. exact ents_ok. Qed.
(** so every side of an element that persists does. *)
Theorem sides_of_persisting_elements_persist : forall elems_of leaf persists r x e, wf_graph elems_of -> nnodes elems_of = zlen leaf -> (forall e, In e (ab2b elems_of) -> 0 <= e < zlen persists) ->
  mark_persisting_ents elems_of leaf persists = Ok r -> edge elems_of x e -> marked persists e -> marked r x.
Proof. exact derefined_closed. Qed.

(** A square beside one refined twice meets the hypotheses. *)
Example a_mesh_is_ok : hmesh_ok ex_hmesh ex_hmarks /\ one_sided ex_hmesh ex_hmarks.
Proof. split; [apply ex_hmesh_ok; reflexivity|exact ex_one_sided]. Qed.
Example in_order : enforce_2to1_refine zeroed forwards ex_hmesh 2 1 ex_hmarks = Ok (Some [0; 0; 1; 0; 0; 0; 1; 0; 0; 0]).
Proof. exact runs_forwards. Qed.
Example in_the_other_order : enforce_2to1_refine zeroed backwards ex_hmesh 2 1 ex_hmarks = Ok (Some [1; 0; 1; 0; 0; 0; 1; 0; 0; 0]).
Proof. exact runs_backwards. Qed.
(** With element 7 marked, which is beside no coarser one, there is no chain. *)
Example without_chains : hmesh_ok ex_hmesh ex_far_marks /\ (forall e c, marked (h_elem_leaf ex_hmesh) e -> finer ex_hmesh e c -> must ex_hmesh ex_far_marks c -> must ex_hmesh ex_far_marks e) /\
  enforce_2to1_refine zeroed backwards ex_hmesh 2 1 ex_far_marks = Ok (Some ex_far_marks).
Proof. exact ex_no_chains. Qed.
(** A bridge whose parts have two elements is rejected. *)
Example two_elements_at_a_part : hmesh_ok ex_two_sided [0; 0; 0] /\ enforce_2to1_refine zeroed forwards ex_two_sided 3 1 [0; 0; 0] = Abort.
Proof. split; [exact ex_two_sided_ok|exact runs_two_sided]. Qed.
(** Derefining element 3, whose children are leaves, and element 1, of whose children one is not. *)
Example derefine_inner : mark_persisting_elems forwards ex_elem_children (h_elem_leaf ex_hmesh) [0; 0; 0; 1; 0; 0; 0; 0; 0; 0] = Ok (Some [1; 1; 1; 1; 1; 1; 0; 0; 0; 0]).
Proof. vm_compute. reflexivity. Qed.
Example derefine_outer : mark_persisting_elems backwards ex_elem_children (h_elem_leaf ex_hmesh) [0; 1; 0; 0; 0; 0; 0; 0; 0; 0] = Ok (Some [1; 1; 0; 1; 0; 0; 1; 1; 1; 1]).
Proof. vm_compute. reflexivity. Qed.
Example derefine_edges : mark_persisting_ents ex_up (h_bridge_leaf ex_hmesh) [1; 1; 1; 1; 1; 1; 0; 0; 0; 0] =
  Ok [1; 1; 1; 1; 1; 1; 1; 1; 1; 1; 1; 1; 1; 1; 1; 1; 1; 1; 1; 0; 0; 0; 0; 0; 0; 0; 0; 0; 0; 0; 0].
Proof. vm_compute. reflexivity. Qed.
Example refine_edges : mark_refined ex_up (h_bridge_leaf ex_hmesh) ex_hmarks =
  Ok [0; 0; 0; 0; 0; 0; 0; 0; 0; 0; 0; 0; 0; 0; 0; 0; 0; 0; 0; 1; 1; 1; 1; 0; 0; 0; 0; 0; 0; 0; 0].
Proof. vm_compute. reflexivity. Qed.

Print Assumptions extending_is_defined.
Print Assumptions extending_is_right.
Print Assumptions extending_is_exact_without_chains.
Print Assumptions result_is_the_same_for_all_schedules_refuted.
Print Assumptions nothing_is_marked_without_marks_refuted.
Print Assumptions refined_marks_are_right.
Print Assumptions persisting_elements_are_right.
Print Assumptions persisting_entities_are_right.
Print Assumptions sides_of_persisting_elements_persist.
