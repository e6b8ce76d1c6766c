(** C13, C14: sorting. *)
From Verif Require Import Prelude M_Array M_Sort S_Sort M_Map S_Map P_Sort P_SortSmall.
Local Open Scope Z_scope.

(** sort_by_keys returns the permutation that lists the items in lexicographic order of their key
    tuples, items with equal tuples in their original order. *)
Theorem sort_by_keys_sorts : forall keys width n, 1 <= width <= 4 -> zlen keys = n * width ->
  exists p, sort_by_keys keys width = Ok p /\ zlen p = n /\ is_perm p /\ StronglySorted (stably_before keys width) p.
Proof. exact sort_by_keys_spec. Qed.
Print Assumptions sort_by_keys_sorts.

(** ... and there is only one such permutation. *)
Theorem sort_by_keys_only : forall keys width n p q, 1 <= width <= 4 -> zlen keys = n * width ->
  sort_by_keys keys width = Ok p -> Permutation q (zrange n) -> StronglySorted (stably_before keys width) q -> q = p.
Proof. exact sort_by_keys_unique. Qed.
Print Assumptions sort_by_keys_only.

(** Other widths, and arrays whose size is not a multiple of the width, are refused. *)
Theorem sort_by_keys_refuses_width : forall keys width, ~ (1 <= width <= 4) -> sort_by_keys keys width = Abort.
Proof. exact sort_by_keys_bad_width. Qed.
Theorem sort_by_keys_refuses_remainder : forall keys width, 1 <= width <= 4 -> zlen keys mod width <> 0 -> sort_by_keys keys width = Abort.
Proof. exact sort_by_keys_remainder. Qed.
Print Assumptions sort_by_keys_refuses_width.
Print Assumptions sort_by_keys_refuses_remainder.

(** sort_small_range: positions sorted by value and then by index, the distinct values in increasing
    order, and offsets such that group g is the range of positions of the g-th distinct value. *)
Theorem sort_small_range_sorts : forall a, (forall x, In x a -> x <= i32_max) ->
  exists perm fan uniq, sort_small_range a = Ok (perm, fan, uniq) /\
  zlen perm = zlen a /\ is_perm perm /\
  StronglySorted Z.lt uniq /\ (forall v, In v uniq <-> In v a) /\
  zlen fan = zlen uniq + 1 /\ zget fan 0 = Ok 0 /\ zget fan (zlen uniq) = Ok (zlen a) /\
  (forall i x b g, zget a i = Ok x -> zget perm i = Ok b -> (zget uniq g = Ok x <-> in_group fan g b)) /\
  (forall i j x y b c, zget a i = Ok x -> zget a j = Ok y -> zget perm i = Ok b -> zget perm j = Ok c ->
     (b < c <-> x < y \/ (x = y /\ i < j))).
Proof. exact sort_small_range_spec. Qed.
Print Assumptions sort_small_range_sorts.

Example sort_by_keys_ex : sort_by_keys [2; 1;  0; 9;  2; 0;  0; 9] 2 = Ok [1; 3; 2; 0].
Proof. reflexivity. Qed.
Example sort_small_range_ex : sort_small_range [7; 3; 7; 5; 3] = Ok ([3; 0; 4; 2; 1], [0; 2; 3; 5], [3; 5; 7]).
Proof. reflexivity. Qed.
Example sort_small_range_empty : sort_small_range [] = Ok ([], [0], []).
Proof. reflexivity. Qed.
