(** Specification vocabulary for C87. *)
From Verif Require Import Prelude M_Array M_ArrayOps S_ArrayOps M_Align M_Graph M_Adj M_Parents M_Template M_Modify S_Map S_Graph S_Adj S_Modify M_AmrTopo S_AmrTopo M_AmrTransfer S_AmrTransfer M_AmrRefine.
Local Open Scope Z_scope.

(** The entities to refine of each dimension are different entities of the mesh. *)
Definition chosen (ms : mesh_view) (mods : Z -> list Z) : Prop := forall d, 0 <= d <= mesh_dim ms -> NoDup (mods d) /\ forall md, In md (mods d) -> 0 <= md < nents ms d.

(** [mods d] are the entities of dimension [d] that are marked. *)
Definition are_marked (o : old_mesh) (mods : Z -> list Z) : Prop := forall d, 0 <= d <= mesh_dim (o_ms o) -> NoDup (mods d) /\ forall md, In md (mods d) <-> zget (o_marks o d) md = Ok 1.

(** A mesh of edges, squares or cubes that is marked for refinement: arrays are as long as they should be, levels and numbers fit their types,
    the vertices of what is marked are marked. *)
Record refinable (b : backend) (o : old_mesh) : Prop := {
  rf_consistent : consistent (o_ms o);
  rf_dim : 1 <= mesh_dim (o_ms o);
  rf_degree : forall hi lo, 0 <= lo -> lo < hi -> hi <= mesh_dim (o_ms o) -> degree (o_ms o) hi lo = hypercube_degree hi lo;
  rf_marks : forall d, 0 <= d <= mesh_dim (o_ms o) -> zlen (o_marks o d) = nents (o_ms o) d /\ forall x, In x (o_marks o d) -> x = 0 \/ x = 1;
  rf_covers : forall d, 1 <= d <= mesh_dim (o_ms o) -> covers b (zlen (o_marks o d));
  rf_fits : forall mods j, are_marked o mods -> 0 <= j <= mesh_dim (o_ms o) -> products mods j (Z.max 1 j) (mesh_dim (o_ms o) + 1) < 2 ^ 31;
  rf_verts : forall d md i v, 1 <= d <= mesh_dim (o_ms o) -> zget (o_marks o d) md = Ok 1 -> 0 <= i < hypercube_degree d 0 ->
    zget (ask_down (o_ms o) d 0) (md * hypercube_degree d 0 + i) = Ok v -> zget (o_marks o 0) v = Ok 1;
  rf_kids : forall d, 1 <= d <= mesh_dim (o_ms o) -> wf_graph (o_kids o d) /\ nnodes (o_kids o d) = nents (o_ms o) d /\ forall v, In v (ab2b (o_kids o d)) -> 0 <= v < nents (o_ms o) 0;
  rf_levels : forall d, 0 <= d <= mesh_dim (o_ms o) -> zlen (o_levels o d) = nents (o_ms o) d;
  rf_level : forall d l, In l (o_levels o d) -> -1 <= l < 127;
  rf_leaves : forall d, 1 <= d <= mesh_dim (o_ms o) -> zlen (o_leaves o d) = nents (o_ms o) d;
  rf_parents : forall d, 0 <= d <= mesh_dim (o_ms o) -> parents_ok (mesh_dim (o_ms o)) (nents (o_ms o)) d (o_parents o d);
  rf_data : forall d, 0 <= d <= mesh_dim (o_ms o) -> zlen (o_data o d) = nents (o_ms o) d }.

(** The new vertex in the middle of old entity [low] of dimension [ld]: for a vertex itself; for an entity that is refined now the vertex made
    of it; for one refined before the only child vertex. *)
Definition middle (o : old_mesh) (mods : Z -> list Z) (vnum : numbering) (ld low v : Z) : Prop :=
  (ld = 0 /\ zget (old2new vnum) low = Ok v) \/
  (1 <= ld /\ In low (mods ld) /\ made_of (mesh_dim (o_ms o)) 0 mods (prods2new vnum) v ld low 0) \/
  (1 <= ld /\ ~ In low (mods ld) /\ exists old, targets (o_kids o ld) low = Ok [old] /\ zget (old2new vnum) old = Ok v).

(** A corner of a child is in the middle of an entity that is not refined now and has not exactly one child vertex. *)
Definition no_middle (o : old_mesh) (mods : Z -> list Z) : Prop := exists pd d md child vert ld which low kids,
  1 <= pd <= d /\ d <= mesh_dim (o_ms o) /\ In md (mods d) /\ 0 <= child < hypercube_split_degree d pd /\ 0 <= vert < hypercube_degree pd 0 /\
  hypercube_split_template d pd child vert = (ld, which) /\ zget (lows (o_ms o) d ld) (md * hypercube_degree d ld + which) = Ok low /\
  ~ In low (mods ld) /\ targets (o_kids o ld) low = Ok kids /\ zlen kids <> 1.

(** The new entities of dimension [pd]: those made of refined ones and those that stay, and nothing else. *)
Definition entities_right (o : old_mesh) (mods : Z -> list Z) (n : new_mesh) (pd : Z) : Prop :=
  let dim := mesh_dim (o_ms o) in
  exists num levels par data, zget (n_numbers n) pd = Ok num /\ zget (n_levels n) pd = Ok levels /\ zget (n_parents n) pd = Ok par /\ zget (n_data n) pd = Ok data /\
  new_numbers dim pd mods (prods2new num) (same2old num) (same2new num) (nents (o_ms o) pd) (nnew num) /\ renumbers (same2old num) (same2new num) (old2new num) /\
  (forall x, 0 <= x < nents (o_ms o) pd -> exists e, same_as (same2old num) (same2new num) e x) /\
  (forall e, 0 <= e < nnew num -> (exists x, same_as (same2old num) (same2new num) e x) \/ (exists d md p, made_of dim pd mods (prods2new num) e d md p)) /\
  (forall e d md p, made_of dim pd mods (prods2new num) e d md p ->
     (forall l, zget (o_levels o d) md = Ok l -> zget levels e = Ok (l + 1)) /\
     (exists dnum c, zget (n_numbers n) d = Ok dnum /\ zget (fst par) e = zget (old2new dnum) md /\ zget (snd par) e = Ok c /\ code_parent_dim c = d /\ code_which_child c = p) /\
     zget data e = zget (o_data o d) md) /\
  (forall e x, same_as (same2old num) (same2new num) e x ->
     (forall l, zget (o_levels o pd) x = Ok l -> zget levels e = Ok l) /\
     (forall q c, zget (fst (o_parents o pd)) x = Ok q -> zget (snd (o_parents o pd)) x = Ok c -> zget (snd par) e = Ok c /\
        (q < 0 -> zget (fst par) e = Ok q) /\ (0 <= q -> exists qnum, zget (n_numbers n) (code_parent_dim c) = Ok qnum /\ zget (fst par) e = zget (old2new qnum) q)) /\
     zget data e = zget (o_data o pd) x).

(** Leaves and vertices of new edges, squares and cubes. *)
Definition higher_right (o : old_mesh) (mods : Z -> list Z) (n : new_mesh) (pd : Z) : Prop :=
  let dim := mesh_dim (o_ms o) in
  exists vnum num verts leaves, zget (n_numbers n) 0 = Ok vnum /\ zget (n_numbers n) pd = Ok num /\ zget (n_verts n) (pd - 1) = Ok verts /\ zget (n_leaves n) (pd - 1) = Ok leaves /\
  (forall e d md p, made_of dim pd mods (prods2new num) e d md p -> zget leaves e = Ok 1) /\
  (forall e x, same_as (same2old num) (same2new num) e x -> In x (mods pd) -> zget leaves e = Ok 0) /\
  (forall e x l, same_as (same2old num) (same2new num) e x -> ~ In x (mods pd) -> zget (o_leaves o pd) x = Ok l -> zget leaves e = Ok l) /\
  (forall d m md child vert, pd <= d <= dim -> zget (mods d) m = Ok md -> 0 <= child < hypercube_split_degree d pd -> 0 <= vert < hypercube_degree pd 0 ->
     exists ld which low v, hypercube_split_template d pd child vert = (ld, which) /\ zget (lows (o_ms o) d ld) (md * hypercube_degree d ld + which) = Ok low /\ middle o mods vnum ld low v /\
     zget verts ((products mods pd pd d + m * hypercube_split_degree d pd + child) * hypercube_degree pd 0 + vert) = Ok v).
