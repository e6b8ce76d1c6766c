(** C56: neighbours through edges, triangles, tetrahedra and sides. *)
From Verif Require Import Prelude M_Par M_Graph S_Graph M_Align M_Adj S_Adj M_Template S_Template M_Mark S_Mark M_Across S_Across P_Across.
Local Open Scope Z_scope.

(** The hypothesis on the upward adjacency below is what invert_adj establishes. *)
Theorem invert_adj_gives_uses : forall down nl nlows m0 s1 s2 up, 0 < nl -> 0 <= nlows -> (forall l, In l (adj_ab2b down) -> 0 <= l < nlows) ->
  no_repeats (adj_ab2b down) nl -> (forall c, adj_codes down = Some c -> zlen c = zlen (adj_ab2b down)) ->
  invert_adj down nl nlows m0 s1 s2 = Ok (Some up) -> lists_uses nl nlows (adj_ab2b down) (adj_codes down) up.
Proof. exact invert_lists_uses. Qed.
(** verts_across_edges lists for each vertex the other ends of its edges, edge after edge. *)
Theorem verts_across_edges_lists : forall ev2v ne nv v2e e2v, 0 <= nv -> adj_ab2b e2v = ev2v -> zlen ev2v = ne * 2 -> lists_uses 2 nv ev2v None v2e ->
  exists g, verts_across_edges e2v v2e = Ok g /\ wf_graph g /\ nnodes g = nv /\
  (forall v, 0 <= v < nv -> targets g v = mapM (fun u => zget ev2v (u / 2 * 2 + (1 - u mod 2))) (uses_of ev2v v)).
Proof. exact verts_across_spec. Qed.
Theorem verts_across_edges_joins : forall ev2v ne nv v2e e2v g, 0 <= nv -> adj_ab2b e2v = ev2v -> zlen ev2v = ne * 2 -> lists_uses 2 nv ev2v None v2e -> verts_across_edges e2v v2e = Ok g ->
  forall v w, 0 <= v < nv -> (edge g v w <-> exists e, (zget ev2v (2 * e) = Ok v /\ zget ev2v (2 * e + 1) = Ok w) \/ (zget ev2v (2 * e) = Ok w /\ zget ev2v (2 * e + 1) = Ok v)).
Proof. exact verts_across_edge. Qed.
(** edges_across_tris lists for each edge and each triangle on it the two other edges. *)
Theorem edges_across_tris_lists : forall fe2e nf ne f2e e2f dc, 0 <= ne -> adj_ab2b f2e = fe2e -> zlen fe2e = nf * 3 -> (forall c, dc = Some c -> zlen c = zlen fe2e) -> lists_uses 3 ne fe2e dc e2f ->
  exists g, edges_across_tris f2e e2f = Ok g /\ wf_graph g /\ nnodes g = ne /\
  (forall e, 0 <= e < ne -> exists rs, mapM (next_edges fe2e) (uses_of fe2e e) = Ok rs /\ targets g e = Ok (concat rs)).
Proof. exact tris_across_spec. Qed.
(** edges_across_tets lists for each edge and each tetrahedron on it the opposite edge
    (opposite_is_complement says that the two edges have the four vertices of the tetrahedron). *)
Theorem edges_across_tets_lists : forall re2e nr ne r2e e2r dc, 0 <= ne -> adj_ab2b r2e = re2e -> zlen re2e = nr * 6 -> (forall c, dc = Some c -> zlen c = zlen re2e) -> lists_uses 6 ne re2e dc e2r ->
  exists g, edges_across_tets r2e e2r = Ok g /\ wf_graph g /\ nnodes g = ne /\
  (forall e, 0 <= e < ne -> targets g e = mapM (fun u => zget re2e (u / 6 * 6 + simplex_opposite_template 3 1 (u mod 6))) (uses_of re2e e)).
Proof. exact tets_across_spec. Qed.
(** elements_across_sides, in a mesh whose sides have at most two elements, lists for each element its
    neighbours through its sides, side after side. *)
Theorem elements_across_sides_lists : forall dim ns ne hl2l dc e2s s2e exposed, 0 <= dim -> 0 <= ns -> adj_ab2b e2s = hl2l -> zlen hl2l = ne * (dim + 1) -> (forall s, In s hl2l -> 0 <= s < ns) ->
  lists_uses (dim + 1) ns hl2l dc s2e -> zlen exposed = ns -> (forall s, 0 <= s < ns -> says exposed s (zlen (uses_of hl2l s) < 2)) ->
  (forall s, 0 <= s < ns -> zlen (uses_of hl2l s) <= 2) -> no_repeats hl2l (dim + 1) ->
  exists g, elements_across_sides dim e2s s2e exposed = Ok g /\ wf_graph g /\ nnodes g = ne /\ forall e, 0 <= e < ne -> targets g e = Ok (across_sides (dim + 1) hl2l e).
Proof. exact sides_across_spec. Qed.
(** Two elements are neighbours in this sense exactly when they are different and share a side. *)
Theorem neighbours_share_side : forall deg hl2l ne a b, 0 < deg -> zlen hl2l = ne * deg -> 0 <= a < ne -> 0 <= b < ne ->
  (In b (across_sides deg hl2l a) <-> a <> b /\ exists i j s, 0 <= i < deg /\ 0 <= j < deg /\ zget hl2l (a * deg + i) = Ok s /\ zget hl2l (b * deg + j) = Ok s).
Proof. exact across_shares. Qed.
Print Assumptions invert_adj_gives_uses.
Print Assumptions verts_across_edges_lists.
Print Assumptions verts_across_edges_joins.
Print Assumptions edges_across_tris_lists.
Print Assumptions edges_across_tets_lists.
Print Assumptions elements_across_sides_lists.
Print Assumptions neighbours_share_side.

(** A triangle fan of three triangles, seen through their edges: 0-1-2 around vertex x; edge 1 joins
    triangles 0 and 1, edge 3 joins triangles 1 and 2. *)
Definition fan_sides := mk_adj [0; 3; 6; 9] [0; 1; 2; 1; 3; 4; 3; 5; 6] (Some [0; 0; 0; 1; 0; 0; 1; 0; 0]).
Definition fan_up := mk_adj [0; 1; 3; 4; 6; 7; 8; 9] [0; 0; 1; 0; 1; 2; 1; 2; 2] (Some [0; 8; 1; 16; 8; 1; 16; 8; 16]).
Example fan_up_made : invert_adj fan_sides 3 7 (fun _ => 0) (seq 0 9) (concat (map (fun i => [i; i]) (seq 0 9))) = Ok (Some fan_up).
Proof. vm_compute. reflexivity. Qed.
Example fan_exposed : mark_exposed_sides (adj_a2ab fan_up) = Ok [1; 0; 1; 0; 1; 1; 1].
Proof. vm_compute. reflexivity. Qed.
Example fan_neighbours : elements_across_sides 2 fan_sides fan_up [1; 0; 1; 0; 1; 1; 1] = Ok (mk_graph [0; 1; 3; 4] [1; 0; 2; 1]) /\ across_sides 3 (adj_ab2b fan_sides) 1 = [0; 2].
Proof. split; vm_compute; reflexivity. Qed.
Example fan_edges : edges_across_tris fan_sides fan_up = Ok (mk_graph [0; 2; 6; 8; 12; 14; 16; 18] [1; 2; 2; 0; 3; 4; 0; 1; 4; 1; 5; 6; 1; 3; 6; 3; 3; 5]).
Proof. vm_compute. reflexivity. Qed.
Example path_verts : exists v2e, invert_adj (mk_adj [] [0; 1; 2; 1] None) 2 3 (fun _ => 0) (seq 0 4) (concat (map (fun i => [i; i]) (seq 0 4))) = Ok (Some v2e) /\
  verts_across_edges (mk_adj [] [0; 1; 2; 1] None) v2e = Ok (mk_graph [0; 1; 3; 4] [1; 0; 2; 1]).
Proof. eexists. split; vm_compute; reflexivity. Qed.
Example tet_edges : exists e2r, invert_adj (mk_adj [] [0; 1; 2; 3; 4; 5] None) 6 6 (fun _ => 0) (seq 0 6) (concat (map (fun i => [i; i]) (seq 0 6))) = Ok (Some e2r) /\
  edges_across_tets (mk_adj [] [0; 1; 2; 3; 4; 5] None) e2r = Ok (mk_graph [0; 1; 2; 3; 4; 5; 6] [5; 3; 4; 1; 2; 0]).
Proof. eexists. split; vm_compute; reflexivity. Qed.
