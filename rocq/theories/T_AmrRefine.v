(** C87: Refining a mesh of edges, squares or cubes as a whole. *)
From Coq Require Import Lia.
From Verif Require Import Prelude M_Array M_ArrayOps M_Graph M_Parents M_Template M_Modify S_Modify M_AmrTopo S_AmrTopo M_AmrTransfer S_AmrTransfer M_AmrRefine S_AmrRefine P_AmrRefine2 P_AmrRefine3 X_AmrRefine.
Local Open Scope Z_scope.

Theorem refining_a_mesh_as_a_whole : forall b o, refinable b o -> exists mods, are_marked o mods /\
  ((refine_elem_based b o = Abort /\ no_middle o mods) \/
   (~ no_middle o mods /\ exists n, refine_elem_based b o = Ok n /\ zlen (n_numbers n) = mesh_dim (o_ms o) + 1 /\
    (forall pd, 0 <= pd <= mesh_dim (o_ms o) -> entities_right o mods n pd) /\ (forall pd, 1 <= pd <= mesh_dim (o_ms o) -> higher_right o mods n pd))).
Proof. exact refine_w. Qed.

Theorem new_numbers_keep_order : forall ms pd mods marks, consistent ms -> 1 <= mesh_dim ms -> 0 <= pd <= mesh_dim ms -> chosen ms mods ->
  exists r, refine_numbers ms pd mods marks = Ok r /\ nnew r = nents ms pd + products mods pd (Z.max 1 pd) (mesh_dim ms + 1) /\
  (forall x y xn yn, x < y -> zget (old2new r) x = Ok xn -> zget (old2new r) y = Ok yn -> xn < yn) /\
  (forall e e' d md p, made_of (mesh_dim ms) pd mods (prods2new r) e d md p -> made_of (mesh_dim ms) pd mods (prods2new r) e' d md (p + 1) -> e' = e + 1) /\
  (forall e d md p rep x xn, made_of (mesh_dim ms) pd mods (prods2new r) e d md p -> represents ms pd d md rep -> zget (old2new r) x = Ok xn -> (x <= rep -> xn < e) /\ (rep < x -> e < xn)).
Proof. exact numbers_order_w. Qed.

Theorem neighbours_share_middles : forall o mods vnum ld low v v', are_marked o mods -> ld <= mesh_dim (o_ms o) -> middle o mods vnum ld low v -> middle o mods vnum ld low v' -> v = v'.
Proof. exact middle_one_w. Qed.

Print Assumptions refining_a_mesh_as_a_whole.
Print Assumptions new_numbers_keep_order.
Print Assumptions neighbours_share_middles.

(** The examples meet the hypotheses: the shared edge is refined as well; it was refined before; it was not. *)
Example both_refinable : refinable Serial (qold 1 []) /\ refinable Serial (qold 0 [6]) /\ refinable Serial (qold 0 []).
Proof. split; [|split]; apply qold_refinable; cbn; lia. Qed.
Example squares_when_all_new : match refine_elem_based Serial (qold 1 []) with Ok n => Some (n_verts n, n_leaves n, map nnew (n_numbers n)) | _ => None end =
  Some ([[0; 1; 1; 4; 0; 2; 2; 7; 4; 5; 5; 9; 7; 8; 8; 9; 1; 3; 5; 3; 8; 3; 2; 3]; [0; 1; 3; 2; 1; 4; 5; 3; 3; 5; 9; 8; 2; 3; 8; 7]],
        [[0; 1; 1; 1; 1; 1; 1; 1; 0; 1; 1; 0; 1; 1; 1; 0; 1; 1; 1]; [0; 1; 1; 1; 1; 0]], [12; 19; 6]).
Proof. vm_compute. reflexivity. Qed.
Example squares_when_hanging : match refine_elem_based Serial (qold 0 [6]) with Ok n => Some (n_verts n, n_data n, map fst (n_parents n)) | _ => None end =
  Some ([[0; 1; 1; 4; 0; 2; 2; 6; 6; 7; 7; 8; 1; 3; 10; 3; 7; 3; 2; 3]; [0; 1; 3; 2; 1; 4; 10; 3; 3; 10; 8; 7; 2; 3; 7; 6]],
        [[10; 20; 22; 30; 11; 12; 13; 25; 14; 15; 16]; [20; 20; 20; 30; 30; 30; 30; 21; 22; 22; 22; 23; 24; 25; 25; 25; 26]; [30; 30; 30; 30; 30; 31]],
        [[-1; 0; 8; 0; -1; -1; -1; 13; -1; -1; 11]; [-1; 0; 0; 0; 0; 0; 0; -1; -1; 8; 8; -1; -1; -1; 13; 13; -1]; [-1; 0; 0; 0; 0; -1]]).
Proof. vm_compute. reflexivity. Qed.
Example squares_when_missing : refine_elem_based Serial (qold 0 []) = Abort.
Proof. vm_compute. reflexivity. Qed.
