(** Specification vocabulary for C85. *)
From Verif Require Import Prelude M_Array M_Graph S_Graph S_Scan M_Template M_AmrTopo.
Local Open Scope Z_scope.

(** How many entities of dimension [j] come from the refined entities of the dimensions from [lo] below [hi] *)
Definition products (mods : Z -> list Z) (j lo hi : Z) : Z := zsum (map (fun i => zlen (mods i) * hypercube_split_degree i j) (zfromto lo hi)).

(** What is asked of a mesh: refined entities are entities, and numbered in mds2mods; all has the right size and range; vertices of refined
    entities are among those to be kept as vertices. *)
Record refining_ok (r : refining) : Prop := {
  ro_dim : 1 <= r_dim r <= 3;
  ro_distinct : forall d, 0 <= d <= r_dim r -> NoDup (r_mods2mds r d);
  ro_mods : forall d md, 0 <= d <= r_dim r -> In md (r_mods2mds r d) -> 0 <= md < zlen (r_mds2mods r d);
  ro_inv : forall d e m, 0 <= d <= r_dim r -> zget (r_mds2mods r d) e = Ok m -> (m = -1 /\ ~ In e (r_mods2mds r d)) \/ (m <> -1 /\ zget (r_mods2mds r d) m = Ok e);
  ro_mids : forall d, 0 <= d <= r_dim r -> zlen (r_mods2midverts r d) = zlen (r_mods2mds r d);
  ro_lows : forall d ld, 0 <= ld <= d -> d <= r_dim r -> zlen (r_lows r d ld) = zlen (r_mds2mods r d) * hypercube_degree d ld;
  ro_low : forall d ld low, 0 <= ld <= d -> d <= r_dim r -> In low (r_lows r d ld) -> 0 <= low < zlen (r_mds2mods r ld);
  ro_kids : forall d, 1 <= d <= r_dim r -> wf_graph (r_child_verts r d) /\ nnodes (r_child_verts r d) = zlen (r_mds2mods r d) /\
    forall v, In v (ab2b (r_child_verts r d)) -> 0 <= v < zlen (r_old_verts2new_verts r);
  ro_verts : forall d md i v, 1 <= d <= r_dim r -> In md (r_mods2mds r d) -> 0 <= i < hypercube_degree d 0 -> zget (r_lows r d 0) (md * hypercube_degree d 0 + i) = Ok v -> In v (r_mods2mds r 0) }.

(** The new vertex in the middle of entity [low] of dimension [ld]: the one its refinement makes, or, if it was refined before, its only
    child vertex. *)
Definition mid_vert (r : refining) (ld low v : Z) : Prop :=
  (exists m, zget (r_mods2mds r ld) m = Ok low /\ zget (r_mods2midverts r ld) m = Ok v) \/
  (~ In low (r_mods2mds r ld) /\ exists old, targets (r_child_verts r ld) low = Ok [old] /\ zget (r_old_verts2new_verts r) old = Ok v).

(** Vertex [vert] of child [child] of refined entity [md] of dimension [d] is in the middle of entity [low] of dimension [ld]. *)
Definition corner (r : refining) (d child_dim md child vert ld low : Z) : Prop :=
  exists which, hypercube_split_template d child_dim child vert = (ld, which) /\ zget (r_lows r d ld) (md * hypercube_degree d ld + which) = Ok low.

(** There is a corner at an entity that is not refined now and has not exactly one child vertex. *)
Definition stuck (r : refining) (child_dim : Z) : Prop := exists d mod_ md child vert ld low kids,
  child_dim <= d <= r_dim r /\ zget (r_mods2mds r d) mod_ = Ok md /\ 0 <= child < hypercube_split_degree d child_dim /\ 0 <= vert < hypercube_degree child_dim 0 /\
  corner r d child_dim md child vert ld low /\ ~ In low (r_mods2mds r ld) /\ targets (r_child_verts r ld) low = Ok kids /\ zlen kids <> 1.
