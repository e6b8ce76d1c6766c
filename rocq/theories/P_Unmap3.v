(** Picking and renumbering the entities of a mesh: together. *)
From Coq Require Import String.
From Verif Require Import Prelude S_Map M_Tags M_Par M_Template M_Adj M_MeshAdj S_MeshAdj X_MeshAdj M_Build S_Build M_Unmap S_Unmap P_Unmap P_Unmap2 P_Renumber X_Unmap.
Local Open Scope Z_scope.

Lemma unmap_right c T m maps : valid_topology T -> mesh_of T (m_adj m) -> well_tagged T (m_tags m) -> picks T maps ->
  exists m' T', unmap_mesh c m maps = Ok (Some m') /\ listed T maps T' /\ valid_topology T' /\ mesh_of T' (m_adj m') /\
    well_tagged T' (m_tags m') /\ tags_carried (t_dim T) maps (m_tags m) (m_tags m').
Proof.
  intros HT HM HW HP. destruct (unmapped c T m maps HT HM HW HP) as (m' & E & M' & W' & C'). exists m', (T' T maps). split; [exact E|]. split; [exact (picked_listed T HT maps HP)|]. split; [exact (picked_valid T maps HT HP)|]. auto.
Qed.
Lemma unmap_renumbers c T m maps ev2v : topology_of (t_family T) (t_dim T) ev2v (t_nents T 0) T -> mesh_of T (m_adj m) -> well_tagged T (m_tags m) -> reorders T maps ->
  exists m' T', unmap_mesh c m maps = Ok (Some m') /\ listed T maps T' /\ topology_of (t_family T) (t_dim T) (t_verts T' (t_dim T)) (t_nents T 0) T' /\ mesh_of T' (m_adj m') /\
    well_tagged T' (m_tags m') /\ tags_carried (t_dim T) maps (m_tags m) (m_tags m').
Proof.
  intros HO HM HW HR. pose proof (proj1 HO) as HT. destruct (unmap_right c T m maps HT HM HW (reorders_picks T maps HT HR)) as (m' & U & E & HL & HU & R). exists m', U. split; [exact E|]. split; [exact HL|]. split; [|exact R].
  eapply (topology_renumbered T HT maps HR U HU HL). exact HO.
Qed.
Lemma no_values_undefined : exists m, tets_adj = Ok (Some m) /\ mesh_of tets m /\ picks tets second_tet /\ unmap_mesh in_turn (mk_tagged m (tets_tags [no_values])) second_tet = UB.
Proof.
  destruct tets_mesh as (m & E & M). exists m. split; [exact E|]. split; [exact M|]. split; [exact second_picked|]. assert (unmap_tets [no_values] second_tet = UB) as K by (vm_compute; reflexivity). unfold unmap_tets in K. rewrite E in K. exact K.
Qed.
