(** C36, C37, C38, C40: edge swaps in 3D. *)
From Verif Require Import Prelude M_SwapTables M_Swap3d M_Align M_Template S_Swap3d S_SwapMesh S_SwapChoice X_Swap3d.
From Verif Require Import P_SwapTables P_Loop P_SwapKey P_SwapTopo P_Choice.
Local Open Scope Z_scope.

(** C36 *)
Theorem swap_tables_enumerate_triangulations n : 3 <= n <= 7 -> exists count, zget swap_mesh_counts n = Ok count /\
  (forall m, 0 <= m < count -> exists E T D, config_edges n m = Ok E /\ config_tris n m = Ok T /\ triangulation n D /\ names E D /\
     zlen E = n - 3 /\ NoDup T /\ forall t, In t T <-> exists a b c, t = [a; b; c] /\ triangle n D a b c) /\
  (forall D, triangulation n D -> exists! m, 0 <= m < count /\ exists E, config_edges n m = Ok E /\ names E D).
Proof. exact (swap_tables_spec n). Qed.
Print Assumptions swap_tables_enumerate_triangulations.

Example pentagon_fan : triangulation 5 [(0, 2); (0, 3)] /\ triangle 5 [(0, 2); (0, 3)] 0 2 3.
Proof.
  unfold triangulation, triangle, joined, diagonal, cross. cbn [In fst snd]. split.
  - split; [repeat constructor; cbn [In]; intuition congruence|]. split; [intros d [<-|[<-|[]]]; cbn; lia|]. split; [|reflexivity]. intros d e [<-|[<-|[]]] [<-|[<-|[]]]; cbn; lia.
  - repeat split; try lia; tauto.
Qed.
Example heptagon_count : zget swap_mesh_counts 7 = Ok 42. Proof. reflexivity. Qed.

(** C40: the loop found is the ring of the tets, whatever the order of the tets and of their vertices *)
Theorem edge_loop_is_cyclic e2et et2t codes ev2v tv2v edge e0 e1 l tets :
  cavity e2et et2t codes ev2v tv2v edge e0 e1 l tets ->
  exists l', find_loop e2et et2t codes ev2v tv2v edge = Ok (mk_loop (zlen l) [e0; e1] l') /\ rotated l l' /\ ring_of_tets e0 e1 l' tets.
Proof. exact (find_loop_cyclic e2et et2t codes ev2v tv2v edge e0 e1 l tets). Qed.
Print Assumptions edge_loop_is_cyclic.

Example scrambled_ring : cavity ex_e2et ex_et2t ex_codes ex_ev2v ex_tv2v 0 5 6 [0; 1; 2; 3; 4] ex_tets.
Proof. exact ex_cavity. Qed.
Example scrambled_ring_loop : find_loop ex_e2et ex_et2t ex_codes ex_ev2v ex_tv2v 0 = Ok (mk_loop 5 [5; 6] [2; 3; 4; 0; 1]).
Proof. vm_compute. reflexivity. Qed.

(** C37: for all keys of a pass, in the order of the outputs *)
Theorem swap3d_refills_cavities e2et et2t codes ev2v tv2v keys2edges configs : 1 <= zlen e2et ->
  (forall edge, In edge keys2edges -> exists e0 e1 l tets config count, cavity e2et et2t codes ev2v tv2v edge e0 e1 l tets /\
     zget configs edge = Ok config /\ zget swap_mesh_counts (zlen l) = Ok count /\ 0 <= config < count) ->
  exists k2e k2f k2r oe of or,
  swap3d_keys_to_prods e2et keys2edges = Ok (k2e, k2f, k2r) /\
  swap3d_topology e2et et2t codes ev2v tv2v keys2edges configs (k2e, k2f, k2r) = Ok (oe, of, or) /\
  forall key edge, zget keys2edges key = Ok edge -> exists es fs rs, swapped e2et et2t codes ev2v tv2v edge (es, fs, rs) /\
    (exists lo hi, zget k2e key = Ok lo /\ zget k2e (key + 1) = Ok hi /\ ents_between 2 oe lo hi = Ok es) /\
    (exists lo hi, zget k2f key = Ok lo /\ zget k2f (key + 1) = Ok hi /\ ents_between 3 of lo hi = Ok fs) /\
    (exists lo hi, zget k2r key = Ok lo /\ zget k2r (key + 1) = Ok hi /\ ents_between 4 or lo hi = Ok rs).
Proof. exact (topo_all e2et et2t codes ev2v tv2v keys2edges configs). Qed.
Print Assumptions swap3d_refills_cavities.

Example scrambled_ring_swapped : exists k2p o, swap3d_keys_to_prods ex_e2et [0] = Ok k2p /\
  swap3d_topology ex_e2et ex_et2t ex_codes ex_ev2v ex_tv2v [0] [3] k2p = Ok o /\ zlen (snd o) = 6 * 4 /\ zlen (fst (fst o)) = 2 * 2.
Proof. eexists _, _. split; [vm_compute; reflexivity|]. split; [vm_compute; reflexivity|]. split; reflexivity. Qed.

(** C38 *)
Theorem swap_choice_is_best one quality length max_length e0 e1 lv : 3 <= zlen lv <= 7 ->
  exists count mesh q, zget swap_mesh_counts (zlen lv) = Ok count /\ choose one quality length max_length (mk_loop (zlen lv) [e0; e1] lv) = Ok (mesh, q) /\
  let ok := admissible one quality length max_length (mk_loop (zlen lv) [e0; e1] lv) in
  ((mesh = -1 /\ q = 0 /\ forall m q', 0 <= m < count -> ~ ok m q') \/
   (0 <= mesh < count /\ ok mesh q /\ forall m q', 0 <= m < count -> ok m q' -> q' <= q /\ (q' = q -> mesh <= m))).
Proof. exact (choose_best one quality length max_length e0 e1 lv). Qed.
Print Assumptions swap_choice_is_best.

(** every configuration is judged by the products it would make *)
Theorem swap_choice_judges_all (quality : list Z -> Z) (one : Z) e0 e1 lv m count : 3 <= zlen lv <= 7 -> zget swap_mesh_counts (zlen lv) = Ok count -> 0 <= m < count ->
  exists es fs rs, key_prods (mk_loop (zlen lv) [e0; e1] lv) m = Ok (es, fs, rs).
Proof. exact (choose_judges quality one e0 e1 lv m count). Qed.
Print Assumptions swap_choice_judges_all.

(** the reported quality is that of the tets swap3d_topology writes *)
Theorem swap_choice_quality_is_of_written_tets one quality length max_length e2et et2t codes ev2v tv2v keys2edges configs quals : 1 <= zlen e2et ->
  (forall edge, In edge keys2edges -> exists e0 e1 l tets loop config q, cavity e2et et2t codes ev2v tv2v edge e0 e1 l tets /\
     find_loop e2et et2t codes ev2v tv2v edge = Ok loop /\ choose one quality length max_length loop = Ok (config, q) /\ config <> -1 /\
     zget configs edge = Ok config /\ zget quals edge = Ok q) ->
  exists k2e k2f k2r oe of or,
  swap3d_keys_to_prods e2et keys2edges = Ok (k2e, k2f, k2r) /\
  swap3d_topology e2et et2t codes ev2v tv2v keys2edges configs (k2e, k2f, k2r) = Ok (oe, of, or) /\
  forall key edge q, zget keys2edges key = Ok edge -> zget quals edge = Ok q ->
    exists lo hi rs, zget k2r key = Ok lo /\ zget k2r (key + 1) = Ok hi /\ ents_between 4 or lo hi = Ok rs /\ worst one quality rs = q /\ 0 < q.
Proof. exact (choose_written one quality length max_length e2et et2t codes ev2v tv2v keys2edges configs quals). Qed.
Print Assumptions swap_choice_quality_is_of_written_tets.

(** tets without both vertices 0 and 2 are better here *)
Example choice_run : choose 100 (fun t => if has t 0 && has t 2 then 10 else if has t 4 then 30 else 40) (fun e => if has e 1 then 7 else 3) 5 (mk_loop 5 [5; 6] [2; 3; 4; 0; 1]) = Ok (0, 10).
Proof. vm_compute. reflexivity. Qed.
Example choice_none : choose 100 (fun _ => 50) (fun _ => 9) 5 (mk_loop 5 [5; 6] [2; 3; 4; 0; 1]) = Ok (-1, 0).
Proof. vm_compute. reflexivity. Qed.
Example choice_hypotheses : exists config q,
  choose 100 (fun t => if has t 0 && has t 2 then 10 else 30) (fun _ => 3) 5 (mk_loop 5 [5; 6] [2; 3; 4; 0; 1]) = Ok (config, q) /\ config = 1 /\ q = 30.
Proof. eexists _, _. vm_compute. auto. Qed.
