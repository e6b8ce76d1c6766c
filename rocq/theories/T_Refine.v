(** C35 Edge splits. *)
From Coq Require Import Ring_theory.
From Verif Require Import Prelude M_Align M_Template M_Adj M_Refine S_Map S_Adj S_Swap3d S_Swap2d S_Coarsen S_Refine P_Refine P_RefineVol X_Coarsen X_Refine.
Local Open Scope Z_scope.

(** 3D: when the new vertex is at parameter t of the edge (a,b), each tet at the edge of signed volume V
    becomes two tets of signed volumes (1-t)V and tV, for all coordinates. *)
Theorem split_volume : forall nents verts edge_up keys2edges mids old2new,
  (forall e, In e keys2edges -> 0 <= e < nents 1) -> zlen mids = zlen keys2edges ->
  split_mesh 3 nents verts edge_up -> (forall d, 1 <= d <= 3 -> forall v, In v (verts d) -> 0 <= v < zlen old2new) ->
  exists k2p pv, refine_products 3 3 verts edge_up keys2edges mids old2new = Ok (k2p, pv) /\
  forall key e a b m doms, zget keys2edges key = Ok e -> zget (verts 1) (e * 2 + 0) = Ok a -> zget (verts 1) (e * 2 + 1) = Ok b -> a <> b -> zget mids key = Ok m -> adj_targets (edge_up 3) e = Ok doms ->
  exists lo hi ps, zget k2p key = Ok lo /\ zget k2p (key + 1) = Ok hi /\ ents_between 4 pv lo hi = Ok (unpair ps) /\
  forall (R : Type) (rO rI : R) radd rmul rsub ropp, ring_theory rO rI radd rmul rsub ropp eq -> forall t x y,
  (forall v n, In v (verts 3) -> zget old2new v = Ok n -> y n = x v) -> y m = between3 rI radd rmul rsub t (x a) (x b) ->
  Forall2 (fun dom p => exists vs, verts_of 4 (verts 3) dom = Ok vs /\
    volume rO radd rmul rsub y (fst p) = rmul (rsub rI t) (volume rO radd rmul rsub x vs) /\
    volume rO radd rmul rsub y (snd p) = rmul t (volume rO radd rmul rsub x vs)) doms ps.
Proof. exact volume_ok. Qed.
Print Assumptions split_volume.

(** 2D: the same for signed areas of triangles. *)
Theorem split_area : forall nents verts edge_up keys2edges mids old2new,
  (forall e, In e keys2edges -> 0 <= e < nents 1) -> zlen mids = zlen keys2edges ->
  split_mesh 2 nents verts edge_up -> (forall d, 1 <= d <= 2 -> forall v, In v (verts d) -> 0 <= v < zlen old2new) ->
  exists k2p pv, refine_products 2 2 verts edge_up keys2edges mids old2new = Ok (k2p, pv) /\
  forall key e a b m doms, zget keys2edges key = Ok e -> zget (verts 1) (e * 2 + 0) = Ok a -> zget (verts 1) (e * 2 + 1) = Ok b -> a <> b -> zget mids key = Ok m -> adj_targets (edge_up 2) e = Ok doms ->
  exists lo hi ps, zget k2p key = Ok lo /\ zget k2p (key + 1) = Ok hi /\ ents_between 3 pv lo hi = Ok (unpair ps) /\
  forall (R : Type) (rO rI : R) radd rmul rsub ropp, ring_theory rO rI radd rmul rsub ropp eq -> forall t x y,
  (forall v n, In v (verts 2) -> zget old2new v = Ok n -> y n = x v) -> y m = between2 rI radd rmul rsub t (x a) (x b) ->
  Forall2 (fun dom p => exists vs, verts_of 3 (verts 2) dom = Ok vs /\
    area rO rmul rsub y (fst p) = rmul (rsub rI t) (area rO rmul rsub x vs) /\
    area rO rmul rsub y (snd p) = rmul t (area rO rmul rsub x vs)) doms ps.
Proof. exact area_ok. Qed.
Print Assumptions split_area.

(** In every dimension up to that of the mesh, the products of a split edge (a,b) with new vertex m are:
    for each entity at the edge its two children, that is the entity with a, respectively b, replaced
    by m, with the same orientation; then for each entity of one dimension more at the edge the entity
    that separates its children. An edge becomes (a,m) and (m,b). *)
Theorem split_products : forall mesh_dim nents verts edge_up keys2edges mids old2new,
  split_mesh mesh_dim nents verts edge_up -> (forall e, In e keys2edges -> 0 <= e < nents 1) -> zlen mids = zlen keys2edges ->
  (forall d, 1 <= d <= mesh_dim -> forall v, In v (verts d) -> 0 <= v < zlen old2new) ->
  forall ent_dim, 1 <= ent_dim <= mesh_dim -> exists k2p pv, refine_products mesh_dim ent_dim verts edge_up keys2edges mids old2new = Ok (k2p, pv) /\
  forall key e a b m, zget keys2edges key = Ok e -> zget (verts 1) (e * 2 + 0) = Ok a -> zget (verts 1) (e * 2 + 1) = Ok b -> zget mids key = Ok m ->
  exists lo hi pairs cuts, zget k2p key = Ok lo /\ zget k2p (key + 1) = Ok hi /\ ents_between (ent_dim + 1) pv lo hi = Ok (pairs ++ cuts) /\
  (if ent_dim =? 1 then exists a' b', zget old2new a = Ok a' /\ zget old2new b = Ok b' /\ pairs = [[a'; m]; [m; b']]
   else exists doms ps, adj_targets (edge_up ent_dim) e = Ok doms /\ pairs = unpair ps /\
     Forall2 (fun dom p => exists vs, verts_of (ent_dim + 1) (verts ent_dim) dom = Ok vs /\ children ent_dim old2new vs a b m p) doms ps) /\
  (if ent_dim =? mesh_dim then cuts = []
   else exists doms, adj_targets (edge_up (ent_dim + 1)) e = Ok doms /\
     Forall2 (fun dom c => exists vs, verts_of (ent_dim + 1 + 1) (verts (ent_dim + 1)) dom = Ok vs /\ separator old2new vs a b m c) doms cuts).
Proof. exact products_ok. Qed.
Print Assumptions split_products.

(** two triangles sharing edge 2 = (2,0); the new vertex 4 *)
Example ex_split_mesh : split_mesh 2 ex_nents ex_verts (fun _ => ex_edge_up).
Proof. exact ex_split_ok. Qed.
Example ex_split_run :
  refine_products 2 2 ex_verts (fun _ => ex_edge_up) [2] [4] [0; 1; 2; 3] = Ok ([0; 4], [0; 1; 4; 1; 2; 4; 3; 0; 4; 2; 3; 4]) /\
  refine_products 2 1 ex_verts (fun _ => ex_edge_up) [2] [4] [0; 1; 2; 3] = Ok ([0; 4], [2; 4; 4; 0; 1; 4; 3; 4]).
Proof. vm_compute. split; reflexivity. Qed.
(** one tet (0,1,2,3), split at its edge (1,3) *)
Example ex_split_tet : split_mesh 3 one_tet_nents one_tet_verts one_tet_up.
Proof. exact one_tet_ok. Qed.
Example ex_split_tet_run : refine_products 3 3 one_tet_verts one_tet_up [4] [4] [0; 1; 2; 3] = Ok ([0; 2], [2; 3; 0; 4; 0; 1; 2; 4]).
Proof. vm_compute. reflexivity. Qed.
