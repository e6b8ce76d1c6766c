(** C32: the adjacencies a mesh hands out. *)
From Verif Require Import Prelude M_Par M_Template M_Align M_Adj S_Adj S_Transit S_Across M_Graph S_Graph M_Parents S_Parents P_Parents P_Parents2 M_MeshAdj S_MeshAdj P_MeshAdj P_MeshAdj2 P_MeshAdj3 P_MeshAdj4 X_MeshAdj.
Local Open Scope Z_scope.

(** For every history of set_ents and requests, whatever was asked before, in whatever order, and
    however the kernels were interleaved, an answer is the adjacency the vertices of the entities give. *)
Theorem asked_adjacency_means : forall T m0 es m from to c r, valid_topology T ->
  new_mesh (t_family T) (t_dim T) (t_nents T 0) = Ok m0 -> builds T es -> run_aevents m0 es = Ok (Some m) -> answerable T from to ->
  ask_adj c m from to = Ok (Some r) -> means T from to (snd r).
Proof. exact (fun T m0 es m from to c r HT => asked_right T HT m0 es m from to c r). Qed.
(** Two histories of the same entities give the same answers. *)
Theorem asked_adjacency_history_independent : forall T m0 es es' m m' from to c c' r r', valid_topology T ->
  new_mesh (t_family T) (t_dim T) (t_nents T 0) = Ok m0 -> builds T es -> builds T es' ->
  run_aevents m0 es = Ok (Some m) -> run_aevents m0 es' = Ok (Some m') ->
  ask_adj c m from to = Ok (Some r) -> ask_adj c' m' from to = Ok (Some r') -> snd r = snd r'.
Proof. exact (fun T m0 es es' m m' from to c c' r r' HT => asked_same T HT m0 es es' m m' from to c c' r r'). Qed.
(** Once all entities are there, no such request fails, and it finishes if the kernels are run to the end. *)
Theorem asked_adjacency_answered : forall T m0 es m from to c, valid_topology T ->
  new_mesh (t_family T) (t_dim T) (t_nents T 0) = Ok m0 -> builds T es -> run_aevents m0 es = Ok (Some m) -> complete T m -> answerable T from to ->
  exists o, ask_adj c m from to = Ok o.
Proof. exact (fun T m0 es m from to c HT => asked_total T HT m0 es m from to c). Qed.
Theorem asked_adjacency_can_finish : forall T m0 es m mem, valid_topology T ->
  new_mesh (t_family T) (t_dim T) (t_nents T 0) = Ok m0 -> builds T es -> run_aevents m0 es = Ok (Some m) -> complete T m ->
  exists first second, forall from to, answerable T from to -> exists r, ask_adj (mk_chance mem first second (fun _ _ => false)) m from to = Ok (Some r).
Proof. exact (fun T m0 es m mem HT H0 HB HR HC => asked_finishes T HT m0 es m H0 HB HR HC mem). Qed.
(** In three dimensions the faces among themselves are refused. *)
Theorem asked_faces_refused : forall T m0 es m c, valid_topology T -> t_dim T = 3 ->
  new_mesh (t_family T) (t_dim T) (t_nents T 0) = Ok m0 -> builds T es -> run_aevents m0 es = Ok (Some m) -> ask_adj c m 2 2 = Abort.
Proof. exact faces_refused. Qed.
(** Whatever the entities given, an adjacency that is present is never replaced. *)
Theorem adjacency_never_replaced : forall f dim nverts m0 es1 es2 m1 m2, new_mesh f dim nverts = Ok m0 ->
  run_aevents m0 es1 = Ok (Some m1) -> run_aevents m1 es2 = Ok (Some m2) ->
  forall from to a, a_adjs m1 from to = Some a -> a_adjs m2 from to = Some a.
Proof. exact never_replaced. Qed.

(** The graph from one dimension to another has one node per entity: its parts in order, the entities it is part of,
    or itself; and it is always given when all entities are there. *)
Theorem asked_graph_means : forall T m0 es m from to c r, valid_topology T ->
  new_mesh (t_family T) (t_dim T) (t_nents T 0) = Ok m0 -> builds T es -> run_aevents m0 es = Ok (Some m) ->
  0 <= from <= t_dim T -> 0 <= to <= t_dim T -> ask_graph c m from to = Ok (Some r) -> means_graph T from to (snd r).
Proof. exact (fun T m0 es m from to c r HT => graph_right T HT m0 es m from to c r). Qed.
Theorem asked_graph_answered : forall T m0 es m from to c, valid_topology T ->
  new_mesh (t_family T) (t_dim T) (t_nents T 0) = Ok m0 -> builds T es -> run_aevents m0 es = Ok (Some m) -> complete T m ->
  0 <= from <= t_dim T -> 0 <= to <= t_dim T -> exists o, ask_graph c m from to = Ok o.
Proof. exact (fun T m0 es m from to c HT => graph_total T HT m0 es m from to c). Qed.
Print Assumptions asked_graph_means.
Print Assumptions asked_graph_answered.

(** ask_parents gives the parents set last; ask_children the children according to the parents that
    were in force when it was called first. *)
Theorem asked_parents_current : forall dim nents es m d r, run_fevents (childless dim nents) es = Ok (Some m) -> ask_parents m d = Ok r -> snd r = parents_after d (nents d) es.
Proof. exact parents_asked. Qed.
Theorem asked_children_first : forall dim nents es m pd cd m0 s1 s2 r, run_fevents (childless dim nents) es = Ok (Some m) -> ask_children m pd cd m0 s1 s2 = Ok (Some r) ->
  let p := parents_after cd (nents cd) (before_request pd cd es) in proper_parents p pd (nents pd) -> lists_children p pd (nents pd) (snd r).
Proof. exact children_asked. Qed.
(** So setting parents later leaves children behind that are not those of the current parents. *)
Theorem asked_children_current_refuted : exists m r, run_fevents (childless 2 four) re_parented = Ok (Some m) /\ ask_children m 1 1 (fun _ => 0) (serially 4 3) (serially 4 3) = Ok (Some r) /\
  parents_after 1 4 re_parented = new_parents /\ proper_parents new_parents 1 4 /\ ~ lists_children new_parents 1 4 (snd r).
Proof. exact stale_children. Qed.
(** Without parents the children of vertices cannot be asked for: the request never returns (it leaves
    the bounds of an array). *)
Theorem asked_children_of_vertices_refuted : forall dim nents cd m0 s1 s2, 0 <= dim -> 0 <= cd <= dim -> 0 <= nents 0 -> 0 < nents cd ->
  forall r, ask_children (childless dim nents) 0 cd m0 s1 s2 <> Ok (Some r).
Proof. exact orphans_of_vertices. Qed.
Print Assumptions asked_adjacency_means.
Print Assumptions asked_adjacency_history_independent.
Print Assumptions asked_adjacency_answered.
Print Assumptions asked_adjacency_can_finish.
Print Assumptions asked_faces_refused.
Print Assumptions adjacency_never_replaced.
Print Assumptions asked_parents_current.
Print Assumptions asked_children_first.
Print Assumptions asked_children_current_refuted.
Print Assumptions asked_children_of_vertices_refuted.

(** Two tetrahedra: valid, manifold, and all requests answered alike after two different histories. *)
Example tets_ok : valid_topology tets /\ manifold tets /\ builds tets eager /\ builds tets lazy.
Proof. exact (conj tets_valid (conj tets_manifold (conj eager_builds lazy_builds))). Qed.
Example tets_dual : asked_after eager in_turn 3 3 = Ok (Some (mk_adj [0; 1; 2] [1; 0] None)) /\ asked_after lazy in_rounds 3 3 = Ok (Some (mk_adj [0; 1; 2] [1; 0] None)).
Proof. split; vm_compute; reflexivity. Qed.
Example tets_alike : map (fun p => asked_after eager in_turn (fst p) (snd p)) [(3, 0); (0, 3); (1, 3); (3, 1); (1, 1); (0, 0)] = map (fun p => asked_after lazy in_rounds (fst p) (snd p)) [(3, 0); (0, 3); (1, 3); (3, 1); (1, 1); (0, 0)]
  /\ asked_after lazy in_rounds 0 3 = Ok (Some (mk_adj [0; 1; 3; 5; 7; 8] [0; 0; 1; 0; 1; 0; 1; 1] (Some [0; 8; 16; 16; 8; 24; 24; 0]))).
Proof. split; vm_compute; reflexivity. Qed.
Example tets_graph : exists m, run_aevents (match new_mesh (t_family tets) (t_dim tets) (t_nents tets 0) with Ok m => m | _ => mk_amesh OMEGA_H_SIMPLEX 0 (fun _ => 0) (fun _ _ => None) end) eager = Ok (Some m) /\
  exists r, ask_graph in_turn m 3 0 = Ok (Some r) /\ a2ab (snd r) = [0; 4; 8].
Proof. eexists. split; [vm_compute; reflexivity|]. eexists. split; [vm_compute; reflexivity | reflexivity]. Qed.
Example parents_ex : lists_children old_parents 1 4 (mk_adj [0; 0; 2; 2; 2] [2; 3] (Some [1; 5])).
Proof.
  split; [|split; [reflexivity|]].
  - split; [|split; [reflexivity|intros c E; injection E as <-; reflexivity]]. split; [reflexivity|]. intros i lo hi E1 E2. pose proof (zget_bounds _ _ _ E2) as B. change (zlen _) with 5 in B. pose proof (zget_bounds _ _ _ E1) as B1.
    assert (i = 0 \/ i = 1 \/ i = 2 \/ i = 3) as [->|[->|[->| ->]]] by lia; cbn in E1, E2; injection E1 as <-; injection E2 as <-; lia.
  - intros p Hp. assert (p = 0 \/ p = 1 \/ p = 2 \/ p = 3) as [->|[->|[->| ->]]] by lia; split; reflexivity.
Qed.
