(** C79: collapsing edges of a whole mesh. *)
From Coq Require Import String Permutation.
From Verif Require Import Prelude M_Par M_Template M_Adj S_Align S_Unique M_MeshAdj S_MeshAdj X_MeshAdj S_Build M_Modify M_RefineMesh S_RefineMesh S_Patch M_Collapse S_Collapse P_Collapse6 X_RefineMesh X_Flip X_Collapse.
Local Open Scope Z_scope.

(** Collapses that can be done together, of any mesh of simplices, do nothing undefined and do not abort. *)
Theorem collapsing_is_defined : forall c c' T m globals keys rails, valid_topology T -> simplicial T -> mesh_of T m -> collapsible T globals keys rails ->
  exists o, coarsen_element_based c c' m globals keys rails = Ok o.
Proof. exact (fun c c' T m globals keys rails HT HS HM HC => collapses_total T HT HS m HM globals keys rails HC c c'). Qed.
(** The new mesh is a mesh of simplices.  Its entities are, one of each, the old ones that do not fall, each with the vertices
    that its vertices become, in the same order.  Every old entity that does not shrink is there.  By inheritance each entity
    has the values of the one that it was. *)
Theorem collapsing_is_right : forall c c' T m globals keys rails old n r0 per, valid_topology T -> simplicial T -> mesh_of T m -> collapsible T globals keys rails ->
  coarsen_element_based c c' m globals keys rails = Ok (Some (old, n, (r0, per))) -> exists T' from,
  valid_topology T' /\ mesh_of T' n /\ simplicial T' /\
  assembled T (collapse_makes T globals keys rails) (collapse_verts T globals keys rails (from 0)) from T' /\ covered T globals keys rails (from 0) T' /\ zlen per = t_dim T /\
  (forall A ncomps (data : list A), 0 <= ncomps -> zlen data = t_nents T 0 * ncomps ->
     exists l, no_products ncomps data r0 = Ok l /\ takes_from (t_nents T' 0) ncomps (fun _ => data) (fun e' => (0, from 0 e')) l) /\
  forall d r doms, zget per (d - 1) = Ok (r, doms) -> forall A ncomps (data : list A), 0 <= ncomps -> zlen data = t_nents T d * ncomps ->
     exists l, inherit_coarsen ncomps data doms r = Ok l /\ takes_from (t_nents T' d) ncomps (fun _ => data) (fun e' => (d, from d e')) l.
Proof. exact (fun c c' T m globals keys rails old n r0 per HT HS HM HC => collapses_right T HT HS m HM globals keys rails HC c c' old n r0 per). Qed.
(** There are interleavings in which it ends. *)
Theorem collapsing_can_finish : forall T m globals keys rails mem mem', valid_topology T -> simplicial T -> mesh_of T m -> collapsible T globals keys rails -> exists first second first' second' x,
  coarsen_element_based (mk_chance mem first second (fun _ _ => false)) (mk_chance mem' first' second' (fun _ _ => false)) m globals keys rails = Ok (Some x).
Proof. exact (fun T m globals keys rails mem mem' HT HS HM HC => collapses_finish T HT HS m HM globals keys rails HC mem mem'). Qed.
(** The old mesh is still the same mesh. *)
Theorem collapsing_keeps_the_old : forall c c' T m globals keys rails old n info, valid_topology T -> simplicial T -> mesh_of T m -> collapsible T globals keys rails ->
  coarsen_element_based c c' m globals keys rails = Ok (Some (old, n, info)) -> mesh_of T old.
Proof. exact (fun c c' T m globals keys rails old n info HT HS HM HC => collapses_keep T HT HS m HM globals keys rails HC c c' old n info). Qed.
Print Assumptions collapsing_is_defined.
Print Assumptions collapsing_is_right.
Print Assumptions collapsing_can_finish.
Print Assumptions collapsing_keeps_the_old.

Example strip_can_be_collapsed : valid_topology strip /\ simplicial strip /\ (exists m, strip_adj = Ok (Some m) /\ mesh_of strip m) /\ collapsible strip strip_globals gone strip_rails.
Proof. exact (conj strip_valid (conj strip_simplicial (conj strip_mesh strip_collapsible))). Qed.
(** vertices 1 and 3 went onto 0 and 4; of the four triangles 1-2-5 and 5-4-1 are left, as 0-2-5 and 5-4-0 *)
Example strip_collapsed : match collapse_strip with
  | Ok (Some (_, m, _)) => map (a_nents m) [0; 1; 2] = [4; 5; 2] /\
      a_adjs m 2 1 = Some (mk_adj [] [0; 3; 1; 4; 2; 1] (Some [0; 0; 2; 0; 2; 0])) /\
      a_adjs m 1 0 = Some (mk_adj [] [0; 1; 0; 3; 0; 2; 1; 3; 3; 2] None)
  | _ => False end.
Proof. vm_compute. repeat split; reflexivity. Qed.
Example strip_collapsed_ids : (collapsed_ids 0, collapsed_ids 1, collapsed_ids 2) = (Ok [0; 2; 4; 5], Ok [103; 105; 102; 106; 108], Ok [202; 203]).
Proof. vm_compute. reflexivity. Qed.
Print Assumptions strip_can_be_collapsed.
Print Assumptions strip_collapsed.
Print Assumptions strip_collapsed_ids.
