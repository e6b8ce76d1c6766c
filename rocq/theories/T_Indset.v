(** C27: the distributed independent set. *)
From Verif Require Import Prelude M_Sort M_Map M_Dist S_Dist P_Dist6 M_Owners S_Owners M_Graph S_Graph M_Indset S_Indset P_Indset X_Indset.
Local Open Scope Z_scope.

(** For every graph there is one greedy set, and every distributed mesh that presents the graph finds it on all copies. *)
Theorem find_indset_greedy : forall nodes q cand nbrs, mutual nodes nbrs ->
  exists chosen, greedy nodes q cand nbrs chosen /\
  forall inv shared oranks oidxs graphs quality global candidates fuel, inverter inv -> zlen oranks <= i32_max + 1 ->
  presents nodes q cand nbrs shared oranks oidxs graphs quality global candidates -> (length nodes < fuel)%nat ->
  exists out, find_indset fuel inv shared oranks oidxs graphs quality global candidates = Ok out /\ per_copy oranks out /\
  forall s i g, goes_to global s i g -> goes_to out s i (if chosen g then 1 else 0).
Proof. exact find_greedy. Qed.
Print Assumptions find_indset_greedy.

(** A greedy set is independent and maximal, and there is only one. *)
Theorem greedy_independent_maximal : forall nodes q cand nbrs, mutual nodes nbrs -> forall chosen, greedy nodes q cand nbrs chosen ->
  independent nodes cand nbrs chosen /\ maximal nodes cand nbrs chosen.
Proof. exact greedy_sets. Qed.
Print Assumptions greedy_independent_maximal.
Theorem greedy_is_unique : forall nodes q cand nbrs, mutual nodes nbrs -> forall chosen chosen',
  greedy nodes q cand nbrs chosen -> greedy nodes q cand nbrs chosen' -> forall g, In g nodes -> chosen g = chosen' g.
Proof. exact greedy_unique. Qed.
Print Assumptions greedy_is_unique.

(** With a NaN quality it need not end. *)
Theorem find_indset_nan_refuted : forall inv fuel, find_indset fuel inv false [[0; 0]] [[0; 1]] [nan_graph] [[None; None]] [[0; 1]] [[1; 1]] = UB.
Proof. exact nan_loops. Qed.
Print Assumptions find_indset_nan_refuted.

Example path_ex : mutual path_nodes path_nbrs /\ presents path_nodes path_q path_cand path_nbrs true path_oranks path_oidxs [path_graph; path_graph] path_quality path_global path_candidates.
Proof. exact (conj path_mutual path_presents). Qed.
Example path_found : find_indset 5 (fun _ => invert_map_by_sorting) true path_oranks path_oidxs [path_graph; path_graph] path_quality path_global path_candidates
  = Ok [[1; 0; 1]; [0; 1; 0]].
Proof. vm_compute. reflexivity. Qed.
