(** C16: graph editing. *)
From Verif Require Import Prelude M_Array M_Map S_Map M_Graph S_Graph P_Graph P_Graph2.
Local Open Scope Z_scope.

(** add_edges concatenates the target lists node by node; graphs of different size are rejected. *)
Theorem add_edges_concatenates : forall g1 g2, wf_graph g1 -> wf_graph g2 -> nnodes g1 = nnodes g2 ->
  exists g, add_edges g1 g2 = Ok g /\ wf_graph g /\ nnodes g = nnodes g1 /\
  forall v t1 t2, targets g1 v = Ok t1 -> targets g2 v = Ok t2 -> targets g v = Ok (t1 ++ t2).
Proof. exact add_edges_spec. Qed.
Theorem add_edges_rejects_mismatch : forall g1 g2, wf_graph g1 -> wf_graph g2 -> nnodes g1 <> nnodes g2 -> add_edges g1 g2 = Abort.
Proof. exact add_edges_mismatch. Qed.
Theorem wf_graph_has_targets : forall g v, wf_graph g -> 0 <= v < nnodes g -> exists t, targets g v = Ok t.
Proof. exact wf_targets. Qed.
Print Assumptions add_edges_concatenates.
Print Assumptions add_edges_rejects_mismatch.
Print Assumptions wf_graph_has_targets.

(** unmap_graph selects nodes. *)
Theorem unmap_graph_selects : forall a2b g, wf_graph g -> (forall b, In b a2b -> 0 <= b < nnodes g) ->
  exists g', unmap_graph a2b g = Ok g' /\ wf_graph g' /\ nnodes g' = zlen a2b /\
  forall a b, zget a2b a = Ok b -> targets g' a = targets g b.
Proof. exact unmap_graph_spec. Qed.
Print Assumptions unmap_graph_selects.

(** filter_graph_edges keeps exactly the marked edges, in order, provided no node keeps more than 127
    edges (the counts are stored in 8 bits). *)
Theorem filter_graph_edges_keeps_marked : forall g keep, wf_graph g -> zlen keep = zlen (ab2b g) ->
  (forall m, In m keep -> m = 0 \/ m = 1) ->
  (forall v n, marked_edges g keep v = Ok n -> n <= 127) ->
  exists g', filter_graph_edges g keep = Ok g' /\ wf_graph g' /\ nnodes g' = nnodes g /\
  forall v, 0 <= v < nnodes g -> exists t, kept_targets g keep v = Ok t /\ targets g' v = Ok t.
Proof. exact filter_graph_edges_spec. Qed.
(** Without that bound it fails: keeping all 128 edges of one node returns a graph whose offsets
    decrease and in which that node has no edge. *)
Theorem filter_graph_edges_refuted :
  exists g keep g', wf_graph g /\ zlen keep = zlen (ab2b g) /\ (forall m, In m keep -> m = 1) /\
  filter_graph_edges g keep = Ok g' /\ ~ wf_graph g' /\ targets g 0 = Ok (ab2b g) /\ targets g' 0 = Ok [].
Proof. exact filter_graph_edges_128. Qed.
Print Assumptions filter_graph_edges_keeps_marked.
Print Assumptions filter_graph_edges_refuted.

(** filter_graph_nodes keeps the marked nodes in order and the edges between them, renumbered. *)
Theorem filter_graph_nodes_induces : forall g keep, wf_graph g -> zlen keep = nnodes g ->
  (forall m, In m keep -> m = 0 \/ m = 1) -> (forall b, In b (ab2b g) -> 0 <= b < nnodes g) ->
  exists kept g', filter_graph_nodes g keep = Ok g' /\ StronglySorted Z.lt kept /\ (forall i, In i kept <-> zget keep i = Ok 1) /\
  wf_graph g' /\ nnodes g' = zlen kept /\
  forall nw old t, zget kept nw = Ok old -> targets g old = Ok t ->
  exists t', targets g' nw = Ok t' /\
    Forall2 (fun n o => zget kept n = Ok o) t' (filter (fun o => match zget keep o with Ok k => negb (k =? 0) | _ => false end) t).
Proof. exact filter_graph_nodes_spec. Qed.
Print Assumptions filter_graph_nodes_induces.

(** identity_graph has one loop per node, add_self_edges puts one in front of each target list. *)
Theorem identity_graph_loops : forall n, 0 <= n -> exists g, identity_graph n = Ok g /\ wf_graph g /\ nnodes g = n /\
  forall v, 0 <= v < n -> targets g v = Ok [v].
Proof. exact identity_spec. Qed.
Theorem add_self_edges_adds_loop : forall g, wf_graph g -> exists g', add_self_edges g = Ok g' /\ wf_graph g' /\ nnodes g' = nnodes g /\
  forall v t, targets g v = Ok t -> targets g' v = Ok (v :: t).
Proof. exact add_self_edges_spec. Qed.
Print Assumptions identity_graph_loops.
Print Assumptions add_self_edges_adds_loop.

Example graph_ex : wf_graph (mk_graph [0; 2; 2; 3] [1; 2; 0]).
Proof. exact (of_lists_wf [[1; 2]; []; [0]]). Qed.
Example add_edges_ex : add_edges (mk_graph [0; 2; 2; 3] [1; 2; 0]) (mk_graph [0; 0; 1; 2] [2; 1]) = Ok (mk_graph [0; 2; 3; 5] [1; 2; 2; 0; 1]).
Proof. reflexivity. Qed.
Example filter_ex : filter_graph_edges (mk_graph [0; 2; 2; 3] [1; 2; 0]) [0; 1; 1] = Ok (mk_graph [0; 1; 1; 2] [2; 0]).
Proof. reflexivity. Qed.
Example filter_nodes_ex : filter_graph_nodes (mk_graph [0; 2; 2; 3] [1; 2; 0]) [1; 0; 1] = Ok (mk_graph [0; 1; 2] [1; 0]).
Proof. reflexivity. Qed.
