(** C39: edge swaps in 2D. *)
From Coq Require Import Ring_theory.
From Verif Require Import Prelude M_Align M_Template M_Swap2d S_Swap3d S_Swap2d P_Swap2d.
Local Open Scope Z_scope.

(** C39: every swapped edge (e0,e1) becomes the edge (x,y); its two triangles become two with the same
    total signed area for all coordinates, and the same boundary edges. *)
Theorem swap2d_keeps_area_and_boundary e2et et2t codes tv2v ev2v keys2edges :
  (forall edge, In edge keys2edges -> exists e0 e1 x y tris, two_sides e2et et2t codes tv2v ev2v edge e0 e1 x y tris) ->
  exists k2e k2t oe ot, swap2d_topology e2et et2t codes tv2v ev2v keys2edges = Ok ((k2e, k2t), (oe, ot)) /\
  forall key edge, zget keys2edges key = Ok edge -> exists e0 e1 x y tris new, two_sides e2et et2t codes tv2v ev2v edge e0 e1 x y tris /\
    (exists lo hi, zget k2e key = Ok lo /\ zget k2e (key + 1) = Ok hi /\ ents_between 2 oe lo hi = Ok [[x; y]]) /\
    (exists lo hi, zget k2t key = Ok lo /\ zget k2t (key + 1) = Ok hi /\ ents_between 3 ot lo hi = Ok new) /\
    zlen new = 2 /\
    (forall (R : Type) (rO rI : R) radd rmul rsub ropp, ring_theory rO rI radd rmul rsub ropp eq -> forall c,
       sum_over rO radd (area rO rmul rsub c) new = sum_over rO radd (area rO rmul rsub c) tris) /\
    (forall p q, boundary_edge new p q <-> boundary_edge tris p q) /\
    (forall p q, interior_edge new p q <-> p = x /\ q = y \/ p = y /\ q = x) /\
    edge_users new e0 e1 = 0.
Proof. exact (swap2d_all e2et et2t codes tv2v ev2v keys2edges). Qed.
Print Assumptions swap2d_keeps_area_and_boundary.

(** two triangles, the one on the right of the edge listed first *)
Example square : two_sides [0; 2] [0; 1] [make_code false 1 1; make_code false 0 2] [2; 3; 1; 3; 0; 1] [1; 3] 0 1 3 0 2 [[2; 3; 1]; [3; 0; 1]].
Proof.
  exists 0. do 3 (split; [reflexivity|]). split; [vm_compute; reflexivity|]. split.
  - intros i t H. pose proof (zget_bounds _ _ _ H) as B. change (zlen [[2; 3; 1]; [3; 0; 1]]) with 2 in B.
    assert (i = 0 \/ i = 1) as [-> | ->] by lia; vm_compute in H; injection H as <-; eexists; (split; [vm_compute; reflexivity|]); vm_compute; repeat split; discriminate.
  - split; [repeat constructor; cbn [In]; lia|]. exists [3; 0; 1], [2; 3; 1]. cbn [same_turn In]. tauto.
Qed.
Example square_swapped : swap2d_topology [0; 2] [0; 1] [make_code false 1 1; make_code false 0 2] [2; 3; 1; 3; 0; 1] [1; 3] [0]
  = Ok (([0; 1], [0; 2]), ([0; 2], [3; 0; 2; 1; 2; 0])).
Proof. vm_compute. reflexivity. Qed.
