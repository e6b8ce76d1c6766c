(** C41 Edge collapse. *)
From Verif Require Import Prelude M_Array M_Map M_Align M_Template M_Graph M_Adj M_Swap3d M_Coarsen S_Map S_Graph S_Adj S_Swap3d S_Coarsen P_Dead P_Coarsen X_Coarsen.
Local Open Scope Z_scope.

(** Every set of collapses removes, in each dimension, exactly: the collapsed edges, the entities that
    contain both ends of a collapse, and below the top dimension the sides of those that lack the
    target vertex. In the top dimension these are the elements that contain both ends. *)
Theorem collapse_removes : forall mesh_dim nents verts edge_up down rails dirs,
  simplex_mesh mesh_dim nents verts edge_up down -> rails_ok (nents 1) (verts 1) rails dirs ->
  exists marks, mark_dead_ents mesh_dim nents edge_up down rails dirs = Ok marks /\
  forall d, 1 <= d <= mesh_dim -> exists m, zget marks d = Ok m /\ zlen m = nents d /\ (forall b, In b m -> b = 0 \/ b = 1) /\
  forall x, zget m x = Ok 1 <-> dead_spec mesh_dim nents verts down rails dirs d x.
Proof. exact mark_dead_ents_ok. Qed.
Print Assumptions collapse_removes.

(** Each collapse is onto the other end of its edge. *)
Theorem collapse_target : forall ne ev2v rails dirs, rails_ok ne ev2v rails dirs ->
  exists ontos, get_verts_onto ev2v rails dirs = Ok ontos /\ zlen ontos = zlen rails /\
  forall k e dir, zget rails k = Ok e -> zget dirs k = Ok dir -> zget ontos k = zget ev2v (e * 2 + (1 - dir)).
Proof. exact get_verts_onto_ok. Qed.
Print Assumptions collapse_target.

(** The products of a collapse are the entities around the collapsing vertex that survive, in order,
    each with the collapsing vertex replaced by the target and all other vertices kept (in the new
    numbering of the vertices). *)
Theorem collapse_retargets : forall dim nc cv2v v2c keys2verts ontos dead old2new,
  1 <= dim <= 3 -> vert_up_ok dim cv2v v2c -> zlen cv2v = nc * (dim + 1) -> (forall c, In c (adj_ab2b v2c) -> 0 <= c < nc) -> zlen dead = nc ->
  zlen ontos = zlen keys2verts -> (forall v, In v keys2verts -> 0 <= v < zlen (adj_a2ab v2c) - 1) ->
  (forall v, In v cv2v -> 0 <= v < zlen old2new) -> (forall v, In v ontos -> 0 <= v < zlen old2new) ->
  exists doms prods, find_coarsen_domains v2c keys2verts dead = Ok doms /\ coarsen_topology cv2v ontos dim doms old2new = Ok prods /\
  forall key v w es, zget keys2verts key = Ok v -> zget ontos key = Ok w -> adj_targets v2c v = Ok es ->
  exists lo hi rows, zget (adj_a2ab doms) key = Ok lo /\ zget (adj_a2ab doms) (key + 1) = Ok hi /\ ents_between (dim + 1) prods lo hi = Ok rows /\
  Forall2 (fun c row => exists vs, verts_of (dim + 1) cv2v c = Ok vs /\ mapM (fun x => zget old2new (retarget v w x)) vs = Ok row) (filter (live dead) es) rows.
Proof. exact coarsen_retargets_ok. Qed.
Print Assumptions collapse_retargets.

Example ex_collapse_mesh : simplex_mesh 2 ex_nents ex_verts (fun _ => ex_edge_up) (fun _ => ex_down) /\ rails_ok (ex_nents 1) (ex_verts 1) [0] [0].
Proof. exact ex_mesh_ok. Qed.
Example ex_collapse_verts : vert_up_ok 2 ex_tris ex_vert_up.
Proof. exact ex_vert_up_ok. Qed.
(** triangle 0 and edges 0 and 2 go; triangle (0,2,3) becomes (1,2,3), renumbered (0,1,2) *)
Example ex_collapse_run :
  mark_dead_ents 2 ex_nents (fun _ => ex_edge_up) (fun _ => ex_down) [0] [0] = Ok [[]; [1; 0; 1; 0; 0]; [1; 0]; []] /\
  get_verts_onto ex_edges [0] [0] = Ok [1] /\
  (doms <- find_coarsen_domains ex_vert_up [0] [1; 0] ;; coarsen_topology ex_tris [1] 2 doms [-1; 0; 1; 2]) = Ok [0; 1; 2].
Proof. vm_compute. repeat split. Qed.
