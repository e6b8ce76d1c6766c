(** C09: the Hilbert curve. *)
From Verif Require Import Prelude M_Array M_Sort M_Hilbert S_Hilbert S_Sort S_Map P_Hilbert P_Hilbert4.
Local Open Scope Z_scope.

(** The two conversions undo each other, whatever the dimension and for every number of bits a word can hold. *)
Theorem transpose_undone : forall b n X, 1 <= n -> 1 <= b <= 64 -> words b n X ->
  exists Y, axes_to_transpose X b n = Ok Y /\ words b n Y /\ transpose_to_axes Y b n = Ok X.
Proof. exact to_transpose_and_back. Qed.
Theorem axes_undone : forall b n Y, 1 <= n -> 1 <= b <= 64 -> words b n Y ->
  exists X, transpose_to_axes Y b n = Ok X /\ words b n X /\ axes_to_transpose X b n = Ok Y.
Proof. exact to_axes_and_back. Qed.
Print Assumptions transpose_undone.
Print Assumptions axes_undone.

(** Every cell has a position, no two cells have the same one, and every position is taken. *)
Theorem cell_has_position : forall b n X, 1 <= n -> 1 <= b <= 63 -> words b n X ->
  exists D, from_cell X b n = Ok D /\ words b n D.
Proof. exact from_cell_total. Qed.
Theorem cells_differ_positions_differ : forall b n X X' D, 1 <= n -> 1 <= b <= 63 -> words b n X -> words b n X' ->
  from_cell X b n = Ok D -> from_cell X' b n = Ok D -> X = X'.
Proof. exact from_cell_injective. Qed.
Theorem position_has_cell : forall b n h, 1 <= n -> 1 <= b <= 63 -> 0 <= h < 2 ^ (b * n) ->
  exists X D, words b n X /\ from_cell X b n = Ok D /\ words b n D /\ position b D = h.
Proof. exact from_cell_surjective. Qed.
Print Assumptions cell_has_position.
Print Assumptions cells_differ_positions_differ.
Print Assumptions position_has_cell.

(** The curve starts at the origin and each step leads to a cell that shares a face with the one before. *)
Theorem curve_starts_at_origin : forall b n D, 1 <= n -> 1 <= b <= 63 -> from_cell (repeat 0 (Z.to_nat n)) b n = Ok D -> position b D = 0.
Proof. exact from_cell_first. Qed.
Theorem curve_steps_to_neighbours : forall b n X X' D D', 1 <= n -> 1 <= b <= 63 -> words b n X -> words b n X' ->
  from_cell X b n = Ok D -> from_cell X' b n = Ok D' -> position b D' = position b D + 1 -> neighbours X X'.
Proof. exact from_cell_steps. Qed.
Print Assumptions curve_starts_at_origin.
Print Assumptions curve_steps_to_neighbours.

(** Cells beyond the grid are moved to its border. *)
Theorem cell_outside_is_clamped : forall b n X, 1 <= n -> 1 <= b <= 63 -> zlen X = n -> Forall (fun x => 0 <= x) X ->
  from_cell X b n = from_cell (into_grid b X) b n.
Proof. exact from_cell_clamps. Qed.
Print Assumptions cell_outside_is_clamped.

(** Sorting points lists them in the order in which the curve visits their cells, equal cells in input order. *)
Theorem points_sorted_along_curve : forall cells dim, 1 <= dim <= 3 -> Forall (fun X => zlen X = dim /\ Forall (fun x => 0 <= x) X) cells ->
  exists hs p, mapM (fun X => D <- from_cell X 52 dim ;; Ok (position 52 D)) cells = Ok hs /\ sort_cells cells dim = Ok p /\
  zlen p = zlen cells /\ is_perm p /\ StronglySorted (visited_before hs) p.
Proof. exact sort_cells_sorts. Qed.
Print Assumptions points_sorted_along_curve.

(** the curve through the 4 x 4 grid, cell by cell *)
Example curve_4x4 : mapM (fun X => D <- from_cell X 2 2 ;; Ok (position 2 D))
  [[0; 0]; [1; 0]; [1; 1]; [0; 1]; [0; 2]; [0; 3]; [1; 3]; [1; 2]; [2; 2]; [2; 3]; [3; 3]; [3; 2]; [3; 1]; [2; 1]; [2; 0]; [3; 0]] =
  Ok [0; 1; 2; 3; 4; 5; 6; 7; 8; 9; 10; 11; 12; 13; 14; 15].
Proof. vm_compute. reflexivity. Qed.
Example curve_cells_ok : words 52 3 [5; 0; 2 ^ 52 - 1].
Proof. split; [reflexivity|]. repeat constructor; vm_compute; intros; congruence. Qed.
Example sort_cells_ex : sort_cells [[5; 7]; [2 ^ 52; 1]; [0; 0]; [2 ^ 51; 2 ^ 51]; [0; 1]] 2 = Ok [2; 4; 0; 3; 1].
Proof. vm_compute. reflexivity. Qed.
