(** C80: swapping edges of a 3D mesh. *)
From Coq Require Import String Permutation.
From Verif Require Import Prelude M_Par M_Template M_Adj S_Align S_Unique M_Swap3d S_Swap3d M_MeshAdj S_MeshAdj X_MeshAdj S_Build M_Modify M_RefineMesh S_RefineMesh S_Patch M_Flip S_Recut M_Recut P_Recut6 X_RefineMesh X_Recut.
Local Open Scope Z_scope.

(** Swapping any edges that can be swapped together, each by any of its configurations, of any mesh of tets does nothing
    undefined and does not abort *)
Theorem recutting_is_defined : forall c c' T m keys configs, valid_topology T -> simplicial T -> mesh_of T m -> recuttable T keys configs ->
  exists o, swap3d_element_based c c' m keys configs = Ok o.
Proof. exact (fun c c' T m keys configs HT HS HM HX => recuts_total T HT HS m HM keys configs HX c c'). Qed.
(** The new mesh is a mesh of tets.  Its entities are, one of each: all vertices; the old edges, triangles and tets without a
    swapped edge; for each swapped edge, whose loop of vertices is cut into triangles along diagonals, the diagonals, the
    triangle of each diagonal and each end of the edge, the triangles of the loop, and the tet of each of these and each end of
    the edge, turned as the old ones.  By inheritance, what stays keeps its values and what replaces an edge gets those of the edge. *)
Theorem recutting_is_right : forall c c' T m keys configs old n info, valid_topology T -> simplicial T -> mesh_of T m -> recuttable T keys configs ->
  swap3d_element_based c c' m keys configs = Ok (Some (old, n, info)) -> exists T' from,
  valid_topology T' /\ mesh_of T' n /\ simplicial T' /\ assembled T (recut_makes T keys configs) (recut_verts T configs) from T' /\
  exists r1 k1 r2 k2 r3 k3, info = [(r1, k1); (r2, k2); (r3, k3)] /\
  forall A ncomps (data : Z -> list A), 0 <= ncomps -> (forall d, 0 <= d <= t_dim T -> zlen (data d) = t_nents T d * ncomps) ->
    (exists l, inherit_swap keys ncomps data 1 k1 r1 = Ok l /\ takes_from (t_nents T' 1) ncomps data (fun e' => recut_source 1 (from 1 e')) l) /\
    (exists l, inherit_swap keys ncomps data 2 k2 r2 = Ok l /\ takes_from (t_nents T' 2) ncomps data (fun e' => recut_source 2 (from 2 e')) l) /\
    (exists l, inherit_swap keys ncomps data 3 k3 r3 = Ok l /\ takes_from (t_nents T' 3) ncomps data (fun e' => recut_source 3 (from 3 e')) l).
Proof. exact (fun c c' T m keys configs old n info HT HS HM HX => recuts_right T HT HS m HM keys configs HX c c' old n info). Qed.
(** There are interleavings in which it ends. *)
Theorem recutting_can_finish : forall T m keys configs mem mem', valid_topology T -> simplicial T -> mesh_of T m -> recuttable T keys configs -> exists first second first' second' x,
  swap3d_element_based (mk_chance mem first second (fun _ _ => false)) (mk_chance mem' first' second' (fun _ _ => false)) m keys configs = Ok (Some x).
Proof. exact (fun T m keys configs mem mem' HT HS HM HX => recuts_finish T HT HS m HM keys configs HX mem mem'). Qed.
(** The old mesh is still the same mesh *)
Theorem recutting_keeps_the_old : forall c c' T m keys configs old n info, valid_topology T -> simplicial T -> mesh_of T m -> recuttable T keys configs ->
  swap3d_element_based c c' m keys configs = Ok (Some (old, n, info)) -> mesh_of T old.
Proof. exact (fun c c' T m keys configs old n info HT HS HM HX => recuts_replaces T HT HS m HM keys configs HX c c' old n info). Qed.
Print Assumptions recutting_is_defined.
Print Assumptions recutting_is_right.
Print Assumptions recutting_can_finish.
Print Assumptions recutting_keeps_the_old.

Example knot_can_be_recut : valid_topology knot /\ simplicial knot /\ (exists m, knot_adj = Ok (Some m) /\ mesh_of knot m) /\ recuttable knot knot_keys knot_configs.
Proof. exact (conj knot_valid (conj knot_simplicial (conj knot_mesh knot_recuttable))). Qed.
(** edge 1-0 became 2-4 with four tets; edge 6-2 became the triangle 3-0-7 with two *)
Example knot_recut : match swap_knot with
  | Ok (Some (_, m, _)) => map (a_nents m) [0; 1; 2; 3] = [8; 19; 18; 6] /\
      a_adjs m 3 2 = Some (mk_adj [] [2; 14; 0; 12; 2; 4; 1; 8; 3; 0; 15; 13; 3; 5; 10; 1; 6; 17; 11; 9; 6; 4; 7; 16] (Some [0; 4; 5; 4; 1; 3; 0; 2; 0; 0; 4; 4; 1; 2; 2; 5; 0; 4; 4; 4; 1; 2; 2; 2])) /\
      a_adjs m 1 0 = Some (mk_adj [] [2; 4; 2; 0; 0; 3; 4; 0; 0; 5; 0; 6; 7; 0; 2; 1; 1; 3; 1; 4; 5; 1; 3; 2; 5; 2; 2; 7; 3; 4; 6; 3; 3; 7; 4; 5; 7; 6] None)
  | _ => False end.
Proof. vm_compute. repeat split; reflexivity. Qed.
Example knot_recut_ids : (recut_ids 1, recut_ids 2, recut_ids 3) =
  (Ok [100; 101; 102; 103; 104; 105; 106; 107; 108; 109; 110; 111; 112; 114; 115; 116; 117; 118; 119],
   Ok [100; 100; 100; 100; 204; 205; 113; 207; 208; 209; 210; 211; 212; 213; 214; 215; 217; 219], Ok [100; 100; 100; 100; 113; 113]).
Proof. vm_compute. reflexivity. Qed.
Print Assumptions knot_can_be_recut.
Print Assumptions knot_recut.
Print Assumptions knot_recut_ids.
