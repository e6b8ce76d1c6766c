(** C77: splitting edges of a mesh. *)
From Coq Require Import String Permutation.
From Verif Require Import Prelude M_Par M_Template M_Adj S_Align S_Unique M_MeshAdj S_MeshAdj X_MeshAdj S_Build M_Modify M_RefineMesh S_RefineMesh X_Unmap P_RefineMesh8 P_RefineMesh9 X_RefineMesh.
Local Open Scope Z_scope.

(** Splitting any edges, no two of them in one element, of any mesh of simplices does nothing undefined and does not abort *)
Theorem splitting_is_defined : forall c c' T m keys, valid_topology T -> simplicial T -> mesh_of T m -> splittable T keys ->
  exists o, refine_element_based c c' m keys = Ok o.
Proof. exact (fun c c' T m keys HT HS HM HK => refines_total T HT HS m HM keys HK c c'). Qed.
(** The new mesh is a mesh of simplices.  Its entities are, one of each: the old ones without a split edge; for each entity with a
    split edge its two halves, oriented as it was; for each entity with a split edge the part between its halves.  Every new
    entity gets, by inheritance, the values of the old entity it lies in. *)
Theorem splitting_is_right : forall c c' T m keys old n info, valid_topology T -> simplicial T -> mesh_of T m -> splittable T keys ->
  refine_element_based c c' m keys = Ok (Some (old, n, info)) -> exists T' ov mid from,
  valid_topology T' /\ mesh_of T' n /\ simplicial T' /\ refined T keys ov mid from T' /\ zlen info = t_dim T + 1 /\
  forall A ncomps (data : Z -> list A) d r keys2prods, 0 <= ncomps -> (forall d, 0 <= d <= t_dim T -> zlen (data d) = t_nents T d * ncomps) -> zget info d = Ok (r, keys2prods) ->
    exists l, inherit old keys ncomps data d keys2prods r = Ok l /\ inherited (t_nents T' d) ncomps data d (from d) l.
Proof. exact (fun c c' T m keys old n info HT HS HM HK => refines_right T HT HS m HM keys HK c c' old n info). Qed.
(** There are interleavings in which it ends. *)
Theorem splitting_can_finish : forall T m keys mem mem', valid_topology T -> simplicial T -> mesh_of T m -> splittable T keys -> exists first second first' second' x,
  refine_element_based (mk_chance mem first second (fun _ _ => false)) (mk_chance mem' first' second' (fun _ _ => false)) m keys = Ok (Some x).
Proof. exact (fun T m keys mem mem' HT HS HM HK => refines_finish T HT HS m HM keys HK mem mem'). Qed.
(** The old mesh is still the same mesh *)
Theorem splitting_keeps_the_old : forall c c' T m keys old n info, valid_topology T -> simplicial T -> mesh_of T m -> splittable T keys ->
  refine_element_based c c' m keys = Ok (Some (old, n, info)) -> mesh_of T old.
Proof. exact (fun c c' T m keys old n info HT HS HM HK E => proj1 (refines_replaces T HT HS m HM keys HK c c' old n info E)). Qed.
(** Every mesh built from simplices of which no two have the same vertices is such a mesh *)
Theorem built_meshes_are_simplicial : forall dim ev2v nverts T, topology_of OMEGA_H_SIMPLEX dim ev2v nverts T ->
  (forall e e' row row', row_is (dim + 1) ev2v e row -> row_is (dim + 1) ev2v e' row' -> Permutation row row' -> e = e') -> simplicial T.
Proof. exact built_simplicial. Qed.
Print Assumptions splitting_is_defined.
Print Assumptions splitting_is_right.
Print Assumptions splitting_can_finish.
Print Assumptions splitting_keeps_the_old.
Print Assumptions built_meshes_are_simplicial.

Example tets_can_be_split : valid_topology tets /\ simplicial tets /\ (exists m, tets_adj = Ok (Some m) /\ mesh_of tets m) /\ splittable tets two_edges.
Proof. exact (conj tets_valid (conj tets_simplicial (conj tets_mesh tets_splittable))). Qed.
(** 4 tetrahedra, 13 triangles, 15 edges, 7 vertices *)
Example tets_split : match refine_tets with
  | Ok (Some (_, m, _)) => map (a_nents m) [0; 1; 2; 3] = [7; 15; 13; 4] /\
      a_adjs m 3 2 = Some (mk_adj [] [6; 2; 4; 0; 5; 4; 3; 1; 6; 9; 11; 7; 12; 11; 10; 8] (Some [5; 0; 5; 0; 0; 0; 0; 0; 0; 0; 5; 0; 0; 0; 0; 0]))
  | _ => False end.
Proof. vm_compute. split; reflexivity. Qed.
Example tets_split_ids : (refined_ids 0, refined_ids 1, refined_ids 2, refined_ids 3) =
  (Ok [0; 100; 1; 2; 3; 4; 107], Ok [100; 100; 200; 201; 101; 102; 103; 104; 105; 106; 107; 107; 204; 206; 108],
   Ok [200; 200; 201; 201; 300; 202; 203; 204; 204; 206; 206; 301; 205], Ok [300; 300; 301; 301]).
Proof. vm_compute. reflexivity. Qed.
Print Assumptions tets_can_be_split.
Print Assumptions tets_split.
Print Assumptions tets_split_ids.
