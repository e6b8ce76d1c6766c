(** C69: picking and renumbering the entities of a mesh. *)
From Coq Require Import String.
From Verif Require Import Prelude S_Map M_Tags M_Par M_Template M_Adj M_MeshAdj S_MeshAdj X_MeshAdj M_Build S_Build M_Unmap S_Unmap P_Unmap P_Unmap2 P_Renumber X_Unmap P_Unmap3.
Local Open Scope Z_scope.

(** Whatever entities are listed, in whatever order, if their sides are listed too unmap_mesh succeeds: the new mesh is a
    complete mesh of exactly these entities, which have the vertices, sides and codes they had, and every tag is there
    with the values they had. *)
Theorem unmap_mesh_keeps_what_is_listed : forall c T m maps, valid_topology T -> mesh_of T (m_adj m) -> well_tagged T (m_tags m) -> picks T maps ->
  exists m' T', unmap_mesh c m maps = Ok (Some m') /\ listed T maps T' /\ valid_topology T' /\ mesh_of T' (m_adj m') /\
    well_tagged T' (m_tags m') /\ tags_carried (t_dim T) maps (m_tags m) (m_tags m').
Proof. exact unmap_right. Qed.
(** Listing all entities in another order is such a list; and nothing is lost: a mesh with all sides of all elements still is one. *)
Theorem unmap_mesh_renumbers : forall c T m maps ev2v, topology_of (t_family T) (t_dim T) ev2v (t_nents T 0) T -> mesh_of T (m_adj m) -> well_tagged T (m_tags m) -> reorders T maps ->
  exists m' T', unmap_mesh c m maps = Ok (Some m') /\ listed T maps T' /\ topology_of (t_family T) (t_dim T) (t_verts T' (t_dim T)) (t_nents T 0) T' /\ mesh_of T' (m_adj m') /\
    well_tagged T' (m_tags m') /\ tags_carried (t_dim T) maps (m_tags m) (m_tags m').
Proof. exact unmap_renumbers. Qed.
(** A tag need not have values; such a tag is read all the same. *)
Theorem unmap_mesh_of_any_tags_refuted : exists m, tets_adj = Ok (Some m) /\ mesh_of tets m /\ picks tets second_tet /\
  unmap_mesh in_turn (mk_tagged m (tets_tags [no_values])) second_tet = UB.
Proof. exact no_values_undefined. Qed.
Print Assumptions unmap_mesh_keeps_what_is_listed.
Print Assumptions unmap_mesh_renumbers.
Print Assumptions unmap_mesh_of_any_tags_refuted.

Example tets_are_a_mesh : valid_topology tets /\ (exists m, tets_adj = Ok (Some m) /\ mesh_of tets m) /\ well_tagged tets (tets_tags [at_tets]) /\ picks tets second_tet /\ reorders tets reversed.
Proof. exact (conj tets_valid (conj tets_mesh (conj tets_well_tagged (conj second_picked reversed_reorders)))). Qed.
Example second_tet_kept : match unmap_tets [at_tets] second_tet with
  | Ok (Some m) => map (a_nents (m_adj m)) (zrange 4) = [4; 6; 4; 1] /\ a_adjs (m_adj m) 3 2 = Some (mk_adj [] [1; 3; 0; 2] (Some [0; 0; 0; 0])) /\
      a_adjs (m_adj m) 1 0 = Some (mk_adj [] [3; 0; 0; 2; 2; 3; 1; 0; 3; 1; 1; 2] None) /\
      map (map tag_array) (t_tags (m_tags m)) = [[Some [80; 90; 20; 30; 40; 50; 60; 70]]; []; []; [Some [8]]]
  | _ => False end.
Proof. vm_compute. repeat split; reflexivity. Qed.
Example tets_reversed : match unmap_tets [at_tets] reversed with
  | Ok (Some m) => map (a_nents (m_adj m)) (zrange 4) = [5; 9; 7; 2] /\ a_adjs (m_adj m) 3 2 = Some (mk_adj [] [2; 0; 3; 1; 6; 5; 3; 4] (Some [0; 0; 0; 0; 0; 0; 5; 0])) /\
      map (map tag_array) (t_tags (m_tags m)) = [[Some [80; 90; 60; 70; 40; 50; 20; 30; 0; 10]]; []; []; [Some [8; 7]]]
  | _ => False end.
Proof. vm_compute. repeat split; reflexivity. Qed.
(** if a side is not listed nothing fails, but the element gets a side that does not exist *)
Example face_not_listed : match unmap_tets [at_tets] no_face with Ok (Some m) => a_adjs (m_adj m) 3 2 = Some (mk_adj [] [0; 2; -1; 1] (Some [0; 0; 0; 0])) | _ => False end.
Proof. vm_compute. reflexivity. Qed.
