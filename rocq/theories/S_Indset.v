(** Independent sets: a graph on global numbers, and how a distributed mesh presents it. *)
From Verif Require Import Prelude S_Dist S_Owners M_Graph S_Graph.
Local Open Scope Z_scope.

(** [h] has better quality than [g], or the same and the higher number *)
Definition beats (q : Z -> Z) (h g : Z) : Prop := q g < q h \/ (q g = q h /\ g < h).

(** neighbours are nodes, mutual, and never the node itself *)
Definition mutual (nodes : list Z) (nbrs : Z -> list Z) : Prop :=
  forall g h, In g nodes -> In h (nbrs g) -> In h nodes /\ In g (nbrs h) /\ h <> g.

(** a candidate is chosen exactly if no better neighbour is *)
Definition greedy (nodes : list Z) (q : Z -> Z) (cand : Z -> bool) (nbrs : Z -> list Z) (chosen : Z -> bool) : Prop :=
  forall g, In g nodes -> (chosen g = true <-> cand g = true /\ forall h, In h (nbrs g) -> beats q h g -> chosen h = false).

(** no two chosen nodes are neighbours; all are candidates *)
Definition independent (nodes : list Z) (cand : Z -> bool) (nbrs : Z -> list Z) (chosen : Z -> bool) : Prop :=
  forall g, In g nodes -> chosen g = true -> cand g = true /\ forall h, In h (nbrs g) -> chosen h = false.
(** every candidate that is not chosen has a chosen neighbour *)
Definition maximal (nodes : list Z) (cand : Z -> bool) (nbrs : Z -> list Z) (chosen : Z -> bool) : Prop :=
  forall g, In g nodes -> cand g = true -> chosen g = false -> exists h, In h (nbrs g) /\ chosen h = true.

(** the arrays of all ranks present the graph: every copy carries the number, quality and candidacy of its node, copies name owners
    with the same number, and the owner sees exactly the neighbours of the node (of other copies only that their lists are in range) *)
Definition presents (nodes : list Z) (q : Z -> Z) (cand : Z -> bool) (nbrs : Z -> list Z) (shared : bool) (oranks oidxs : list (list Z))
    (graphs : list graph) (quality : list (list (option Z))) (global candidates : list (list Z)) : Prop :=
  (if shared then owners_ok oranks oidxs else forall s i t, goes_to oranks s i t -> t = s) /\
  zlen graphs = zlen oranks /\ zlen quality = zlen oranks /\ per_copy oranks global /\ per_copy oranks candidates /\
  (forall s a g, zget oranks s = Ok a -> zget graphs s = Ok g ->
     wf_graph g /\ zlen (a2ab g) = zlen a + 1 /\ forall u, In u (ab2b g) -> 0 <= u < zlen a) /\
  (forall s i g, goes_to global s i g -> In g nodes /\ (exists ql, zget quality s = Ok ql /\ zget ql i = Ok (Some (q g))) /\
     exists c, goes_to candidates s i c /\ (c <> 0 <-> cand g = true)) /\
  (shared = true -> forall s i t j g, owner_is oranks oidxs s i t j -> goes_to global s i g -> goes_to global t j g) /\
  (forall t j g gr us, goes_to oranks t j t -> goes_to global t j g -> zget graphs t = Ok gr -> targets gr j = Ok us ->
     forall h, In h (nbrs g) <-> exists u, In u us /\ goes_to global t u h).
