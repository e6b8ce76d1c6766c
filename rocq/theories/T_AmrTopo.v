(** C85: The children of refined edges, squares and cubes. *)
From Verif Require Import Prelude M_Array M_ArrayOps S_ArrayOps M_Map M_Graph S_Graph S_Scan M_Template M_AmrTopo S_AmrTopo P_AmrTopo2 X_AmrTopo.
Local Open Scope Z_scope.

Theorem counts_are_right : forall b dim refine mods, 1 <= dim <= 3 -> (forall i, 1 <= i <= dim -> covers b (zlen (refine i))) ->
  (forall i x, 1 <= i <= dim -> In x (refine i) -> x = 0 \/ x = 1) -> (forall i, 1 <= i <= dim -> collect_marked (refine i) = Ok (mods i)) ->
  (forall j, 0 <= j <= dim -> products mods j (Z.max 1 j) (dim + 1) < 2 ^ 31) ->
  exists counts, count_refined b dim refine = Ok counts /\ forall j, 0 <= j <= 3 -> zget counts j = Ok (products mods j (Z.max 1 j) (dim + 1)).
Proof. exact count_refined_w. Qed.

Theorem children_have_the_right_vertices : forall r child_dim num_children, refining_ok r -> 1 <= child_dim <= r_dim r -> num_children = products (r_mods2mds r) child_dim child_dim (r_dim r + 1) ->
  (get_refined_topology r child_dim num_children = Abort /\ stuck r child_dim) \/
  (~ stuck r child_dim /\ exists out, get_refined_topology r child_dim num_children = Ok out /\ zlen out = num_children * hypercube_degree child_dim 0 /\
   forall d mod_ md child vert, child_dim <= d <= r_dim r -> zget (r_mods2mds r d) mod_ = Ok md -> 0 <= child < hypercube_split_degree d child_dim -> 0 <= vert < hypercube_degree child_dim 0 ->
   exists ld low v, corner r d child_dim md child vert ld low /\ mid_vert r ld low v /\
     zget out ((products (r_mods2mds r) child_dim child_dim d + mod_ * hypercube_split_degree d child_dim + child) * hypercube_degree child_dim 0 + vert) = Ok v).
Proof. exact refined_topology_w. Qed.

Theorem corners_at_one_entity_are_one_vertex : forall r ld low v v', refining_ok r -> 0 <= ld <= r_dim r -> mid_vert r ld low v -> mid_vert r ld low v' -> v = v'.
Proof. exact one_vertex_w. Qed.

Theorem refined_entities_are_numbered : forall marks, (forall x, In x marks -> x = 0 \/ x = 1) ->
  exists mods inv, collect_marked marks = Ok mods /\ invert_injective_map mods (zlen marks) = Ok inv /\ NoDup mods /\ zlen inv = zlen marks /\
  (forall md, In md mods <-> zget marks md = Ok 1) /\ (forall md, In md mods -> 0 <= md < zlen inv) /\
  forall e m, zget inv e = Ok m -> (m = -1 /\ ~ In e mods) \/ (m <> -1 /\ zget mods m = Ok e).
Proof. exact numbered_w. Qed.

(** The hypotheses are met: a square beside one that was refined before, so that the middle of their common edge is there already. *)
Example hanging_ok : refining_ok (xrefining [6]).
Proof. exact xhanging_ok. Qed.
Example edges_of_hanging : products xmods 1 1 3 = 10 /\ get_refined_topology (xrefining [6]) 1 10 = Ok [0; 7; 7; 1; 0; 8; 8; 3; 3; 9; 9; 4; 7; 10; 6; 10; 9; 10; 8; 10].
Proof. split; vm_compute; reflexivity. Qed.
Example squares_of_hanging : products xmods 2 2 3 = 4 /\ get_refined_topology (xrefining [6]) 2 4 = Ok [0; 7; 10; 8; 7; 1; 6; 10; 10; 6; 4; 9; 8; 10; 9; 3].
Proof. split; vm_compute; reflexivity. Qed.
(** The middle is missing although the edge is not to be refined. *)
Example missing_ok : refining_ok (xrefining []).
Proof. exact xmissing_ok. Qed.
Example missing_aborts : get_refined_topology (xrefining []) 2 4 = Abort.
Proof. vm_compute. reflexivity. Qed.
Example marks_of_hanging : collect_marked (xrefine 1) = Ok (xmods 1) /\ collect_marked (xrefine 2) = Ok (xmods 2).
Proof. split; vm_compute; reflexivity. Qed.
Example counts_of_hanging : count_refined (OpenMP [[3; 1; 5]; [0; 2; 4; 6]]) 1 xrefine = Ok [3; 6; 0; 0] /\ count_refined Serial 2 xrefine = Ok [4; 10; 4; 0].
Proof. split; vm_compute; reflexivity. Qed.

Print Assumptions counts_are_right.
Print Assumptions children_have_the_right_vertices.
Print Assumptions corners_at_one_entity_are_one_vertex.
Print Assumptions refined_entities_are_numbered.
