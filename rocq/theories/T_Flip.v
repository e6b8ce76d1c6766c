(** C78: swapping edges of a 2D mesh. *)
From Coq Require Import String Permutation.
From Verif Require Import Prelude M_Par M_Template M_Adj S_Align S_Unique M_MeshAdj S_MeshAdj X_MeshAdj S_Build M_Modify M_RefineMesh S_RefineMesh S_Patch M_Flip S_Flip P_Flip5 X_RefineMesh X_Flip.
Local Open Scope Z_scope.

(** Swapping any edges that can be swapped together, of any mesh of triangles, does nothing undefined and does not abort *)
Theorem swapping_is_defined : forall c c' T m keys, valid_topology T -> simplicial T -> mesh_of T m -> swappable T keys ->
  exists o, swap2d_element_based c c' m keys = Ok o.
Proof. exact (fun c c' T m keys HT HS HM HW => flips_total T HT HS m HM keys HW c c'). Qed.
(** The new mesh is a mesh of triangles.  Its entities are, one of each: all vertices; the old edges and triangles without a
    swapped edge; for each swapped edge the edge between the opposite corners and the two triangles on its sides, turned as the
    old ones.  By inheritance, what stays keeps its values and what replaces an edge gets those of the edge. *)
Theorem swapping_is_right : forall c c' T m keys old n info, valid_topology T -> simplicial T -> mesh_of T m -> swappable T keys ->
  swap2d_element_based c c' m keys = Ok (Some (old, n, info)) -> exists T' from,
  valid_topology T' /\ mesh_of T' n /\ simplicial T' /\ assembled T (swap_makes T keys) (swap_verts T) from T' /\
  exists r1 k1 r2 k2, info = [(r1, k1); (r2, k2)] /\
  forall A ncomps (data : Z -> list A), 0 <= ncomps -> (forall d, 0 <= d <= t_dim T -> zlen (data d) = t_nents T d * ncomps) ->
    (exists l, inherit_swap keys ncomps data 1 k1 r1 = Ok l /\ takes_from (t_nents T' 1) ncomps data (fun e' => swap_source 1 (from 1 e')) l) /\
    (exists l, inherit_swap keys ncomps data 2 k2 r2 = Ok l /\ takes_from (t_nents T' 2) ncomps data (fun e' => swap_source 2 (from 2 e')) l).
Proof. exact (fun c c' T m keys old n info HT HS HM HW => flips_right T HT HS m HM keys HW c c' old n info). Qed.
(** There are interleavings in which it ends. *)
Theorem swapping_can_finish : forall T m keys mem mem', valid_topology T -> simplicial T -> mesh_of T m -> swappable T keys -> exists first second first' second' x,
  swap2d_element_based (mk_chance mem first second (fun _ _ => false)) (mk_chance mem' first' second' (fun _ _ => false)) m keys = Ok (Some x).
Proof. exact (fun T m keys mem mem' HT HS HM HW => flips_finish T HT HS m HM keys HW mem mem'). Qed.
(** The old mesh is still the same mesh *)
Theorem swapping_keeps_the_old : forall c c' T m keys old n info, valid_topology T -> simplicial T -> mesh_of T m -> swappable T keys ->
  swap2d_element_based c c' m keys = Ok (Some (old, n, info)) -> mesh_of T old.
Proof. exact (fun c c' T m keys old n info HT HS HM HW => flips_replaces T HT HS m HM keys HW c c' old n info). Qed.
Print Assumptions swapping_is_defined.
Print Assumptions swapping_is_right.
Print Assumptions swapping_can_finish.
Print Assumptions swapping_keeps_the_old.

Example strip_can_be_swapped : valid_topology strip /\ simplicial strip /\ (exists m, strip_adj = Ok (Some m) /\ mesh_of strip m) /\ swappable strip diagonals.
Proof. exact (conj strip_valid (conj strip_simplicial (conj strip_mesh strip_swappable))). Qed.
(** edges 0-4 and 1-5 became 3-1 and 4-2 *)
Example strip_swapped : match swap_strip with
  | Ok (Some (_, m, _)) => map (a_nents m) [0; 1; 2] = [6; 9; 4] /\
      a_adjs m 2 1 = Some (mk_adj [] [7; 2; 4; 0; 2; 1; 8; 5; 6; 3; 5; 4] (Some [0; 0; 2; 0; 2; 0; 0; 0; 0; 0; 2; 0])) /\
      a_adjs m 1 0 = Some (mk_adj [] [0; 1; 3; 0; 3; 1; 1; 2; 4; 1; 4; 2; 2; 5; 4; 3; 5; 4] None)
  | _ => False end.
Proof. vm_compute. repeat split; reflexivity. Qed.
Example strip_swapped_ids : (swapped_ids 1, swapped_ids 2) = (Ok [100; 101; 102; 103; 104; 105; 106; 107; 108], Ok [102; 102; 105; 105]).
Proof. vm_compute. reflexivity. Qed.
Print Assumptions strip_can_be_swapped.
Print Assumptions strip_swapped.
Print Assumptions strip_swapped_ids.
