(** C72: layers of ghost elements, and partitions by vertices and by elements. *)
From Verif Require Import Prelude M_Array M_Par M_Sort M_Map S_Map M_Tags M_Template M_Dist S_Dist M_Owners S_Owners M_Migrate S_Migrate M_Ghost S_Ghost P_Dist6 P_Ghost5 P_Ghost6 X_Migrate X_Ghost.
Local Open Scope Z_scope.

(** ghost_mesh adds layers: afterwards a rank has exactly the elements that are at most [want - have] steps away from those it had, a
    step leading to an element that has a vertex in common (vertices being the same if they have the same owner).  Everything else is
    as migration has it (C71), with all owners where they were.  Meshes of hypercubes get one layer at a time. *)
Theorem ghost_mesh_adds_layers : forall inv nranks m elems verts a, inverter inv -> sound nranks m -> agrees m -> covered m -> verts_of m = Ok verts -> elems_of m = Ok elems ->
  answered m elems verts a -> forall have want, 0 <= have < want -> want = have + 1 \/ dm_family m = OMEGA_H_SIMPLEX ->
  exists m' srcs src, ghost_mesh inv m a have want = Ok m' /\ migrated OMEGA_H_GHOSTED m m' srcs /\ zget srcs (dm_dim m) = Ok src /\
  has_exactly elems src (fun s => within m elems s (Z.to_nat (want - have))) /\ owners_present OMEGA_H_GHOSTED m srcs /\ sound nranks m' /\ agrees m' /\ covered m'.
Proof. exact ghost_ok. Qed.
Print Assumptions ghost_mesh_adds_layers.

(** Two or more layers at a time of quadrilaterals or hexahedra: close_down takes them for simplices, and the program ends. *)
Theorem ghost_mesh_of_hypercubes_refuted : ~ forall inv nranks m elems verts a have want, inverter inv -> sound nranks m -> agrees m -> covered m -> verts_of m = Ok verts -> elems_of m = Ok elems ->
  answered m elems verts a -> 0 <= have < want -> exists m', ghost_mesh inv m a have want = Ok m'.
Proof. exact hypercubes_abort. Qed.
Print Assumptions ghost_mesh_of_hypercubes_refuted.

(** Layers are never taken away. *)
Theorem ghost_mesh_refuses : forall inv m a have want, have < 0 \/ want <= have -> ghost_mesh inv m a have want = Abort.
Proof. exact ghost_refused. Qed.
Print Assumptions ghost_mesh_refuses.

(** partition_by_verts: a rank has exactly the elements that have a vertex it owns. *)
Theorem partition_by_verts_exact : forall inv nranks m elems verts a, inverter inv -> sound nranks m -> agrees m -> verts_of m = Ok verts -> elems_of m = Ok elems ->
  answered m elems verts a ->
  exists m' srcs src, partition_by_verts inv m a = Ok m' /\ migrated OMEGA_H_VERT_BASED m m' srcs /\ zget srcs (dm_dim m) = Ok src /\
  has_exactly elems src (fun s t j => is_owner elems t j /\ exists q, has_vertex m t j s q) /\ owners_present OMEGA_H_VERT_BASED m srcs /\ sound nranks m' /\ agrees m' /\ covered m'.
Proof. exact by_verts_ok. Qed.
Print Assumptions partition_by_verts_exact.

(** partition_by_elems: a rank has exactly the elements it owns, in the order it had them. *)
Theorem partition_by_elems_exact : forall inv nranks m elems, inverter inv -> sound nranks m -> elems_of m = Ok elems ->
  exists m' srcs src, partition_by_elems inv m = Ok m' /\ migrated OMEGA_H_ELEM_BASED m m' srcs /\ zget srcs (dm_dim m) = Ok src /\
  owned_in_order elems src /\ sound nranks m' /\ agrees m' /\ covered m'.
Proof. exact by_elems_ok. Qed.
Print Assumptions partition_by_elems_exact.

(** ** the hypotheses can be met: seven segments over three ranks *)
Example ghost_hyps_ex : inverter ex_by_sorting /\ sound 3 gx_mesh /\ agrees gx_mesh /\ covered gx_mesh /\ answered gx_mesh gx_edges gx_verts gx_asked.
Proof. exact (conj sorting_inverter gx_ok). Qed.
(** global numbers of the elements of each rank, with the ranks and indices of their owners *)
Example ghost_one_layer_ex : elems_seen (ghost_mesh ex_by_sorting gx_mesh gx_asked 0 1) = Ok ([[0; 1; 2; 3]; [2; 3; 4]; [3; 4; 5; 6]], [[0; 0; 0; 1]; [0; 1; 2]; [1; 2; 2; 2]], [[0; 1; 2; 1]; [2; 1; 1]; [1; 1; 2; 3]]).
Proof. exact gx_one_layer. Qed.
Example ghost_two_layers_ex : elems_seen (ghost_mesh ex_by_sorting gx_mesh gx_asked 0 2) =
  Ok ([[0; 1; 2; 3; 4]; [1; 2; 3; 4; 5]; [2; 3; 4; 5; 6]], [[0; 0; 0; 1; 2]; [0; 0; 1; 2; 2]; [0; 1; 2; 2; 2]], [[0; 1; 2; 2; 2]; [1; 2; 2; 2; 3]; [2; 2; 2; 3; 4]]).
Proof. exact gx_two_layers. Qed.
Example by_verts_ex : elems_seen (partition_by_verts ex_by_sorting gx_mesh gx_asked) = Ok ([[0; 1; 2; 3]; [3; 4]; [4; 5; 6]], [[0; 0; 0; 1]; [1; 1]; [1; 2; 2]], [[0; 1; 2; 0]; [0; 1]; [1; 1; 2]]).
Proof. exact gx_by_verts. Qed.
Example by_elems_ex : elems_seen (m <- ghost_mesh ex_by_sorting gx_mesh gx_asked 0 1 ;; partition_by_elems ex_by_sorting m) = Ok ([[0; 1; 2]; [3]; [4; 5; 6]], [[0; 0; 0]; [1]; [2; 2; 2]], [[0; 1; 2]; [0]; [0; 1; 2]]).
Proof. exact gx_by_elems. Qed.
Example ghost_quads_ex : sound 2 gq_mesh /\ agrees gq_mesh /\ covered gq_mesh /\ answered gq_mesh gq_quads gq_verts gq_asked.
Proof. exact gq_ok. Qed.
Example ghost_quads_one_ex : elems_seen (ghost_mesh ex_by_sorting gq_mesh gq_asked 0 1) = Ok ([[0; 1; 2]; [1; 2]], [[0; 0; 1]; [0; 1]], [[0; 1; 1]; [1; 1]]).
Proof. exact gq_one_layer. Qed.
