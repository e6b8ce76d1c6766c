(** C47, C54, C55: marking entities. *)
From Verif Require Import Prelude M_Array M_Scan M_Map S_Map M_Graph S_Graph P_Graph M_Mark S_Mark P_Mark.
Local Open Scope Z_scope.

(** ** C47 *)
(** A low entity is marked exactly when a marked high entity uses it. *)
Theorem mark_down_marks : forall g hm, wf_graph g -> (forall h, In h (ab2b g) -> 0 <= h < zlen hm) ->
  exists r, mark_down g hm = Ok r /\ zlen r = nnodes g /\ forall l, 0 <= l < nnodes g -> says r l (exists h, edge g l h /\ marked hm h).
Proof. exact mark_down_spec. Qed.
(** A high entity is marked exactly when it uses a marked low entity ... *)
Theorem mark_up_marks : forall hl2l deg nh lm, 0 <= nh -> 0 <= deg -> zlen hl2l = nh * deg -> (forall l, In l hl2l -> 0 <= l < zlen lm) ->
  exists r, mark_up hl2l deg nh lm = Ok r /\ zlen r = nh /\ forall h, 0 <= h < nh -> says r h (exists i l, 0 <= i < deg /\ zget hl2l (h * deg + i) = Ok l /\ marked lm l).
Proof. exact mark_up_spec. Qed.
(** ... respectively only marked ones. *)
Theorem mark_up_all_marks : forall hl2l deg nh lm, 0 <= nh -> 0 <= deg -> zlen hl2l = nh * deg -> (forall l, In l hl2l -> 0 <= l < zlen lm) ->
  exists r, mark_up_all hl2l deg nh lm = Ok r /\ zlen r = nh /\ forall h, 0 <= h < nh -> says r h (forall i l, 0 <= i < deg -> zget hl2l (h * deg + i) = Ok l -> marked lm l).
Proof. exact mark_up_all_spec. Qed.
(** A side is exposed exactly when fewer than two elements use it. *)
Theorem exposed_sides_marked : forall s2sc, is_fan s2sc -> exists r, mark_exposed_sides s2sc = Ok r /\ zlen r = zlen s2sc - 1 /\
  forall s lo hi, zget s2sc s = Ok lo -> zget s2sc (s + 1) = Ok hi -> says r s (hi - lo < 2).
Proof. exact exposed_spec. Qed.
Print Assumptions mark_down_marks.
Print Assumptions mark_up_marks.
Print Assumptions mark_up_all_marks.
Print Assumptions exposed_sides_marked.
(** Two triangles 0-1-2 and 2-1-3, vertex 0 marked. *)
Example tri_marks : mark_up [0; 1; 2; 2; 1; 3] 3 2 [1; 0; 0; 0] = Ok [1; 0] /\ mark_up_all [0; 1; 2; 2; 1; 3] 3 2 [1; 1; 1; 0] = Ok [1; 0] /\
  mark_down (mk_graph [0; 1; 3; 5; 6] [0; 0; 1; 0; 1; 1]) [0; 1] = Ok [0; 1; 1; 1] /\ mark_exposed_sides [0; 1; 3; 5; 6] = Ok [1; 0; 0; 1].
Proof. repeat split; vm_compute; reflexivity. Qed.

(** ** C54 *)
(** In a sorted array of at most 2^30 entries binary_search finds a position of the value if there is one. *)
Theorem binary_search_finds : forall a v, increasing a -> zlen a <= 1073741824 ->
  exists i, binary_search a v (zlen a) = Ok i /\ ((i = -1 /\ ~ In v a) \/ zget a i = Ok v).
Proof. exact binary_search_spec. Qed.
(** In a larger one the sum of the two ends can overflow. *)
Theorem binary_search_large_refuted : exists a v, increasing a /\ zlen a = 1073741825 /\ binary_search a v (zlen a) = UB.
Proof. exact search_overflow_exists. Qed.
(** A node is marked exactly when it touches an entity classified on one of the listed model entities. *)
Theorem class_closures_marked : forall dim ents pairs g nn, 0 <= dim -> zlen pairs <= 1073741824 ->
  (forall d, 0 <= d <= dim -> wf_graph (g d) /\ nnodes (g d) = nn /\ zlen (snd (ents d)) = zlen (fst (ents d)) /\ forall e, In e (ab2b (g d)) -> 0 <= e < zlen (fst (ents d))) ->
  exists r, mark_class_closures dim ents pairs g = Ok r /\ zlen r = nn /\
  forall n, 0 <= n < nn -> says r n (exists d c e, 0 <= d <= dim /\ In (d, c) pairs /\ edge (g d) n e /\ zget (fst (ents d)) e = Ok d /\ zget (snd (ents d)) e = Ok c).
Proof. exact closures_spec. Qed.
Print Assumptions binary_search_finds.
Print Assumptions binary_search_large_refuted.
Print Assumptions class_closures_marked.
Example search_meets : binary_search [10; 20; 30; 40; 50; 90; 100] 90 7 = Ok 5 /\ binary_search [10; 20; 30] 15 3 = Ok (-1).
Proof. split; vm_compute; reflexivity. Qed.
(** Three nodes and two edges; edges 0 and 1 are classified on model edges 7 and 8, node 2 on model vertex 5. *)
Example closures_meet : mark_class_closures 1 (fun d => if d =? 0 then ([1; 1; 0], [7; 8; 5]) else ([1; 1], [7; 8])) [(1, 7); (0, 5); (2, 8)]
  (fun d => if d =? 0 then mk_graph [0; 1; 2; 3] [0; 1; 2] else mk_graph [0; 1; 3; 4] [0; 0; 1; 1]) = Ok [1; 1; 1].
Proof. vm_compute. reflexivity. Qed.
Example closures_meet' : mark_class_closures 1 (fun d => if d =? 0 then ([1; 1; 0], [7; 8; 5]) else ([1; 1], [7; 8])) [(1, 7); (0, 8); (2, 8)]
  (fun d => if d =? 0 then mk_graph [0; 1; 2; 3] [0; 1; 2] else mk_graph [0; 1; 3; 4] [0; 0; 1; 1]) = Ok [1; 1; 0].
Proof. vm_compute. reflexivity. Qed.

(** ** C55 *)
(** If every element has a neighbour, mark_dual_layers marks the elements from which a walk of exactly
    nlayers steps leads to a marked element. *)
Theorem dual_layers_are_walks : forall g marks nlayers, wf_graph g -> nnodes g = zlen marks -> (forall w, In w (ab2b g) -> 0 <= w < zlen marks) -> (forall x, In x marks -> 0 <= x <= 127) ->
  (forall v, 0 <= v < nnodes g -> exists w, edge g v w) -> 0 <= nlayers ->
  exists r, mark_dual_layers g marks nlayers = Ok r /\ zlen r = zlen marks /\ forall v, 0 <= v < zlen marks -> (marked r v <-> exists w, walk g (Z.to_nat nlayers) v w /\ marked marks w).
Proof. exact layers_spec. Qed.
(** So the marked elements themselves need not stay marked ... *)
Theorem dual_layers_keep_marks_refuted : ~ (forall g marks r v, wf_graph g -> nnodes g = zlen marks -> (forall w, In w (ab2b g) -> 0 <= w < zlen marks) ->
  mark_dual_layers g marks 1 = Ok r -> marked marks v -> marked r v).
Proof. exact layers_within_refuted. Qed.
(** ... and an element without neighbours becomes marked with the least I8. *)
Theorem dual_layers_lone_element_refuted : mark_dual_layers (mk_graph [0; 1; 2] [1; 0]) [1; 0] 1 = Ok [0; 1] /\ mark_dual_layers (mk_graph [0; 0] []) [0] 1 = Ok [-128].
Proof. exact layers_drop_seed. Qed.
Print Assumptions dual_layers_are_walks.
Print Assumptions dual_layers_keep_marks_refuted.
Print Assumptions dual_layers_lone_element_refuted.
(** A strip of four elements: two layers from element 0. *)
Example layers_meet : mark_dual_layers (mk_graph [0; 1; 3; 5; 6] [1; 0; 2; 1; 3; 2]) [1; 0; 0; 0] 2 = Ok [1; 0; 1; 0].
Proof. vm_compute. reflexivity. Qed.
