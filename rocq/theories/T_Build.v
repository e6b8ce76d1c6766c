(** C65: a mesh built from the vertices of its elements. *)
From Verif Require Import Prelude M_Par M_Template S_Align S_Unique S_Match M_Adj M_ArrayOps S_ArrayOps M_MeshAdj S_MeshAdj X_MeshAdj M_Build S_Build P_Build X_Build.
Local Open Scope Z_scope.

(** Whole rows of distinct, existing vertices are always accepted, whatever the interleaving of the kernels ... *)
Theorem build_accepts_elements : forall c be f dim ev2v nverts, proper_elements f dim ev2v nverts -> covers be (nverts - 1) ->
  exists o, build_from_elems2verts c be f dim ev2v nverts = Ok o.
Proof. exact built_total. Qed.
(** ... and there are interleavings that finish. *)
Theorem build_can_finish : forall be f dim ev2v nverts mem, proper_elements f dim ev2v nverts -> covers be (nverts - 1) ->
  exists first second b, build_from_elems2verts (mk_chance mem first second (fun _ _ => false)) be f dim ev2v nverts = Ok (Some b).
Proof. exact built_finishes. Qed.
(** The mesh has the given elements and vertices and, of each dimension between, every side of every
    element once; and the entities are numbered globally in their order. *)
Theorem build_makes_the_mesh : forall c be f dim ev2v nverts b, proper_elements f dim ev2v nverts -> covers be (nverts - 1) ->
  build_from_elems2verts c be f dim ev2v nverts = Ok (Some b) ->
  exists T, topology_of f dim ev2v nverts T /\ mesh_of T (b_mesh b) /\ forall d, 0 <= d <= dim -> b_globals b d = Some (zrange (t_nents T d)).
Proof. exact built_right. Qed.
(** Requests to such a mesh are answered with what the vertices of the entities say. *)
Theorem built_mesh_answers : forall T m c from to, valid_topology T -> mesh_of T m -> answerable T from to ->
  exists o, ask_adj c m from to = Ok o /\ forall r, o = Some r -> means T from to (snd r).
Proof. exact built_answers. Qed.
(** Elements that do not fill whole rows are refused. *)
Theorem build_refuses_partial_rows : forall c be f dim ev2v nverts, 1 <= dim <= 3 -> 0 <= nverts -> Z.rem (zlen ev2v) (element_degree f dim 0) <> 0 ->
  build_from_elems2verts c be f dim ev2v nverts = Abort.
Proof. exact built_refused. Qed.
Print Assumptions build_accepts_elements.
Print Assumptions build_can_finish.
Print Assumptions build_makes_the_mesh.
Print Assumptions built_mesh_answers.
Print Assumptions build_refuses_partial_rows.

Example two_tets_are_proper : proper_elements OMEGA_H_SIMPLEX 3 two_tets 5.
Proof. exact two_tets_proper. Qed.
(** the mesh of two tetrahedra that share a face: 9 edges and 7 faces *)
Example two_tets_built : match build_from_elems2verts in_turn Serial OMEGA_H_SIMPLEX 3 two_tets 5 with
  | Ok (Some b) => map (a_nents (b_mesh b)) (zrange 4) = [5; 9; 7; 2] /\ a_adjs (b_mesh b) 3 2 = Some (tets_down 3) /\ b_globals b 2 = Some [0; 1; 2; 3; 4; 5; 6]
  | _ => False end.
Proof. vm_compute. repeat split; reflexivity. Qed.
Example two_tets_not_finished : build_from_elems2verts (mk_chance (fun _ _ _ => 0) (fun _ _ => []) (fun _ _ => []) (fun _ _ => false)) Serial OMEGA_H_SIMPLEX 3 two_tets 5 = Ok None.
Proof. vm_compute. reflexivity. Qed.
(** a vertex that does not exist is not refused: it is used as an index *)
Example stray_vertex_undefined : build_from_elems2verts in_turn Serial OMEGA_H_SIMPLEX 2 stray 4 = UB.
Proof. vm_compute. reflexivity. Qed.
Example two_tets_partial_rows : build_from_elems2verts in_turn Serial OMEGA_H_SIMPLEX 3 [0; 1; 2] 5 = Abort.
Proof. vm_compute. reflexivity. Qed.
