(** C76: replacing entities of a mesh. *)
From Coq Require Import String.
From Verif Require Import Prelude M_Par M_Template M_Adj M_MeshAdj S_MeshAdj X_MeshAdj S_Build M_Modify M_RefineMesh S_Rebuild X_Unmap X_RefineMesh.
Local Open Scope Z_scope.

(** Whatever stays and whatever is put in the place of the rest, if it fits together: the mesh that is made has exactly the
    entities that stay and those put in, at their new numbers and with their vertices, its adjacencies are right, and nothing
    undefined is done, whatever was asked of the old mesh before and however the loops interleave. *)
Theorem replacement_is_right : forall c T old r prod_verts, valid_topology T -> mesh_of T old -> fits T r prod_verts -> (forall d, 0 <= d <= t_dim T -> 0 <= nnew (r d)) ->
  exists o, rebuild c old r prod_verts = Ok o /\ forall m', o = Some m' -> exists T', valid_topology T' /\ rebuilt T r prod_verts T' /\ mesh_of T' m'.
Proof. exact replaced_right. Qed.
(** There are interleavings in which it ends. *)
Theorem replacement_can_finish : forall mem T old r prod_verts, valid_topology T -> mesh_of T old -> fits T r prod_verts -> (forall d, 0 <= d <= t_dim T -> 0 <= nnew (r d)) ->
  exists first second m', rebuild (mk_chance mem first second (fun _ _ => false)) old r prod_verts = Ok (Some m').
Proof. exact replaced_finishes. Qed.
Print Assumptions replacement_is_right.
Print Assumptions replacement_can_finish.

Example tets_replacement : exists old n info r prod_verts, refine_tets = Ok (Some (old, n, info)) /\ mesh_of tets old /\ fits tets r prod_verts /\ (forall d, 0 <= d <= 3 -> 0 <= nnew (r d)) /\ rebuild long_turns old r prod_verts = Ok (Some n).
Proof. exact tets_replaced. Qed.
Print Assumptions tets_replacement.
