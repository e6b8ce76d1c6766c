(** C86: What refined edges, squares and cubes hand on to their children. *)
From Verif Require Import Prelude M_Array M_Parents M_Template M_AmrTopo S_AmrTopo M_AmrTransfer S_AmrTransfer P_AmrTransfer2 P_AmrTransfer3 X_AmrTransfer.
Local Open Scope Z_scope.

Theorem children_are_one_level_finer : forall dim pd mods prods2new same2old same2new nold nnew,
  new_numbers dim pd mods prods2new same2old same2new (nold pd) nnew -> refine_old dim mods nold -> forall old_levels : Z -> list Z,
  (forall d, 0 <= d <= dim -> zlen (old_levels d) = nold d) -> (forall d l, In l (old_levels d) -> -1 <= l < 127) ->
  exists new, transfer_levels dim pd mods prods2new same2old same2new old_levels nnew = Ok new /\ zlen new = nnew /\
  (forall e d md p l, made_of dim pd mods prods2new e d md p -> zget (old_levels d) md = Ok l -> zget new e = Ok (l + 1)) /\
  (forall e o l, same_as same2old same2new e o -> zget (old_levels pd) o = Ok l -> zget new e = Ok l).
Proof. exact transfer_levels_w. Qed.

Theorem children_are_leaves : forall dim pd mods prods2new same2old same2new nold nnew,
  new_numbers dim pd mods prods2new same2old same2new (nold pd) nnew -> forall old2new old_leaves : list Z,
  1 <= pd -> zlen old_leaves = nold pd -> renumbers same2old same2new old2new -> (forall o, In o (mods pd) -> In o same2old) ->
  exists new, transfer_leaves dim pd mods prods2new same2old same2new old2new old_leaves nnew = Ok new /\ zlen new = nnew /\
  (forall e d md p, made_of dim pd mods prods2new e d md p -> zget new e = Ok 1) /\
  (forall e o, same_as same2old same2new e o -> In o (mods pd) -> zget new e = Ok 0) /\
  (NoDup same2old -> forall e o l, same_as same2old same2new e o -> ~ In o (mods pd) -> zget old_leaves o = Ok l -> zget new e = Ok l).
Proof. exact transfer_leaves_w. Qed.

Theorem children_know_their_parents : forall dim pd mods prods2new same2old same2new nold nnew,
  new_numbers dim pd mods prods2new same2old same2new (nold pd) nnew -> refine_old dim mods nold -> forall (old2new : Z -> list Z) (old_parents : parents),
  parents_ok dim nold pd old_parents -> (forall d, 0 <= d <= dim -> zlen (old2new d) = nold d) ->
  exists new, transfer_parents dim pd mods prods2new same2old same2new old2new old_parents nnew = Ok new /\ zlen (fst new) = nnew /\ zlen (snd new) = nnew /\
  (forall e d md p, made_of dim pd mods prods2new e d md p ->
     zget (fst new) e = zget (old2new d) md /\ exists c, zget (snd new) e = Ok c /\ code_parent_dim c = d /\ code_which_child c = p) /\
  (forall e o q c, same_as same2old same2new e o -> zget (fst old_parents) o = Ok q -> zget (snd old_parents) o = Ok c ->
     zget (snd new) e = Ok c /\ zget (fst new) e = if q <? 0 then Ok q else zget (old2new (code_parent_dim c)) q).
Proof. exact transfer_parents_w. Qed.

Theorem children_inherit_from_their_parents : forall dim mods p2n s2o s2n old2new old_data (old_parents np : Z -> parents) nold nnew,
  1 <= dim <= 3 -> (forall d, 0 <= d <= dim -> new_numbers dim d mods (p2n d) (s2o d) (s2n d) (nold d) (nnew d)) -> refine_old dim mods nold ->
  (forall d, 0 <= d <= dim -> zlen (old_data d) = nold d) -> (forall d, 0 <= d <= dim -> zlen (old2new d) = nold d) ->
  (forall d, 0 <= d <= dim -> renumbers (s2o d) (s2n d) (old2new d)) -> (forall d o, 1 <= d <= dim -> In o (mods d) -> In o (s2o d)) ->
  (forall d, 0 <= d <= dim -> parents_ok dim nold d (old_parents d)) ->
  (forall d, 0 <= d <= dim -> transfer_parents dim d mods (p2n d) (s2o d) (s2n d) old2new (old_parents d) (nnew d) = Ok (np d)) ->
  exists new, transfer_inherit dim 1 p2n s2o s2n old_data np nnew = Ok new /\ forall pd, 0 <= pd <= dim -> exists l, zget new pd = Ok l /\ zlen l = nnew pd /\
  (forall e d md p, made_of dim pd mods (p2n pd) e d md p -> zget l e = zget (old_data d) md) /\
  (forall e o, same_as (s2o pd) (s2n pd) e o -> zget l e = zget (old_data pd) o).
Proof. exact transfer_inherit_w. Qed.

(** The same claim for tags of two components is false: the arrays for the new mesh have one entry per entity, and the copying runs out of them. *)
Theorem children_inherit_two_components_refuted : exists dim mods p2n s2o s2n old2new (old_data : Z -> list Z) (old_parents np : Z -> parents) nold nnew,
  1 <= dim <= 3 /\ (forall d, 0 <= d <= dim -> new_numbers dim d mods (p2n d) (s2o d) (s2n d) (nold d) (nnew d)) /\ refine_old dim mods nold /\
  (forall d, 0 <= d <= dim -> zlen (old_data d) = nold d * 2) /\ (forall d, 0 <= d <= dim -> zlen (old2new d) = nold d) /\
  (forall d, 0 <= d <= dim -> renumbers (s2o d) (s2n d) (old2new d)) /\ (forall d o, 1 <= d <= dim -> In o (mods d) -> In o (s2o d)) /\
  (forall d, 0 <= d <= dim -> parents_ok dim nold d (old_parents d)) /\
  (forall d, 0 <= d <= dim -> transfer_parents dim d mods (p2n d) (s2o d) (s2n d) old2new (old_parents d) (nnew d) = Ok (np d)) /\
  transfer_inherit dim 2 p2n s2o s2n old_data np nnew = UB.
Proof. exact inherit_pairs_w. Qed.

(** The hypotheses are met: the left one of two squares is refined. *)
Example left_numbering : forall d, 0 <= d <= 2 -> new_numbers 2 d tmods (tprods d) (tsame2old d) (tsame2new d) (told d) (tnew d).
Proof. exact tnumbering. Qed.
Example left_refine_old : refine_old 2 tmods told.
Proof. exact trefine_old. Qed.
Example left_renumbers : forall d, 0 <= d <= 2 -> renumbers (tsame2old d) (tsame2new d) (tsame2new d).
Proof. exact trenumbers. Qed.
Example left_stay : forall d o, 1 <= d <= 2 -> In o (tmods d) -> In o (tsame2old d).
Proof. exact tmods_stay. Qed.
Example left_parents_ok : forall d, 0 <= d <= 2 -> parents_ok 2 told d (tparents d).
Proof. exact tparents_ok. Qed.
Example left_lengths : forall d, 0 <= d <= 2 -> zlen (tlevels d) = told d /\ zlen (tdata d) = told d /\ zlen (tsame2new d) = told d /\ zlen (tpairs d) = told d * 2.
Proof. exact tlens. Qed.
Example left_levels_small : forall d l, In l (tlevels d) -> -1 <= l < 127.
Proof. exact tlevels_small. Qed.
Example levels_of_left : transfer_levels 2 1 tmods (tprods 1) (tsame2old 1) (tsame2new 1) tlevels 19 = Ok [0; 1; 1; 0; 0; 1; 1; 1; 2; 2; 1; 0; 1; 1; 0; 1; 1; 1; 1].
Proof. vm_compute. reflexivity. Qed.
Example leaves_of_left : transfer_leaves 2 1 tmods (tprods 1) (tsame2old 1) (tsame2new 1) (tsame2new 1) [1; 1; 1; 1; 1; 1; 0] 19 = Ok [0; 1; 1; 1; 0; 1; 1; 0; 1; 1; 1; 0; 1; 1; 0; 1; 1; 1; 1].
Proof. vm_compute. reflexivity. Qed.
Example parents_of_left : transfer_parents 2 1 tmods (tprods 1) (tsame2old 1) (tsame2new 1) tsame2new (tparents 1) 19 =
  Ok ([-1; 0; 0; -1; -1; 4; 4; -1; 7; 7; 14; -1; 11; 11; -1; 0; 0; 0; 0], [0; 1; 5; 0; 0; 1; 5; 0; 1; 5; 5; 0; 1; 5; 0; 2; 6; 10; 14]).
Proof. vm_compute. reflexivity. Qed.
Example inherited_of_left : transfer_inherit 2 1 tprods tsame2old tsame2new tdata tnew_parents tnew =
  Ok [[10; 11; 12; 13; 14; 15; 20; 22; 23; 25; 30]; [20; 20; 20; 21; 22; 22; 22; 23; 23; 23; 24; 25; 25; 25; 26; 30; 30; 30; 30]; [30; 30; 30; 30; 30; 31]].
Proof. vm_compute. reflexivity. Qed.

Print Assumptions children_are_one_level_finer.
Print Assumptions children_are_leaves.
Print Assumptions children_know_their_parents.
Print Assumptions children_inherit_from_their_parents.
Print Assumptions children_inherit_two_components_refuted.
