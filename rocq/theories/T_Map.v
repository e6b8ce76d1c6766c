(** C11: array mapping. *)
From Verif Require Import Prelude M_Array M_Sort M_Map S_Map P_Array P_Map P_Map2.
Local Open Scope Z_scope.

(** unmap gathers: block a of the result is block map[a] of the input. *)
Theorem unmap_gathers : forall A a2b (b_data : list A) width, 0 <= width -> maps_into a2b b_data width ->
  exists r, unmap a2b b_data width = Ok r /\ zlen r = zlen a2b * width /\
  forall a b j, zget a2b a = Ok b -> 0 <= j < width -> zget r (a * width + j) = zget b_data (b * width + j).
Proof. exact @unmap_spec. Qed.
Print Assumptions unmap_gathers.

(** unmap of a contiguous range. *)
Theorem unmap_range_gathers : forall A begin end_ (b_data : list A) width, 0 <= width -> 0 <= begin <= end_ -> end_ * width <= zlen b_data ->
  exists r, unmap_range begin end_ b_data width = Ok r /\ zlen r = (end_ - begin) * width /\
  forall k, 0 <= k < (end_ - begin) * width -> zget r k = zget b_data (begin * width + k).
Proof. exact @unmap_range_spec. Qed.
Print Assumptions unmap_range_gathers.

(** map_into scatters into an existing array: block map[a] becomes block a, the other blocks stay. *)
Theorem map_into_scatters : forall A (a_data : list A) a2b dst width, 0 <= width ->
  zlen a_data = zlen a2b * width -> NoDup a2b -> maps_into a2b dst width ->
  exists d, map_into a_data a2b dst width = Ok d /\ zlen d = zlen dst /\
  (forall a b j, zget a2b a = Ok b -> 0 <= j < width ->
     exists x, zget a_data (a * width + j) = Ok x /\ zget d (b * width + j) = Ok (Some x)) /\
  (forall b j, ~ In b a2b -> 0 <= j < width -> zget d (b * width + j) = zget dst (b * width + j)).
Proof. exact @map_into_spec. Qed.
Print Assumptions map_into_scatters.

(** map_into checks the sizes. *)
Theorem map_into_checks_size : forall A (a_data : list A) a2b dst width,
  zlen a_data <> zlen a2b * width -> map_into a_data a2b dst width = Abort.
Proof. exact @map_into_mismatch. Qed.
Print Assumptions map_into_checks_size.

(** map_into_range copies a block of consecutive entries, leaving the rest. *)
Theorem map_into_range_copies : forall A (a_data : list A) begin end_ dst width, 0 <= width -> 0 <= begin <= end_ ->
  end_ * width <= zlen dst -> zlen a_data = (end_ - begin) * width ->
  exists d, map_into_range a_data begin end_ dst width = Ok d /\ zlen d = zlen dst /\
  (forall k x, zget a_data k = Ok x -> zget d (begin * width + k) = Ok (Some x)) /\
  (forall k, ~ (begin * width <= k < end_ * width) -> zget d k = zget dst k).
Proof. exact @map_into_range_spec. Qed.
Print Assumptions map_into_range_copies.

(** map_onto scatters into a new array filled with an initial value. *)
Theorem map_onto_scatters : forall A (a_data : list A) a2b nb init width, 0 <= width -> 0 <= nb ->
  zlen a_data = zlen a2b * width -> NoDup a2b -> (forall b, In b a2b -> 0 <= b < nb) ->
  exists r, map_onto a_data a2b nb init width = Ok r /\ zlen r = nb * width /\
  (forall a b j, zget a2b a = Ok b -> 0 <= j < width -> zget r (b * width + j) = zget a_data (a * width + j)) /\
  (forall b j, 0 <= b < nb -> ~ In b a2b -> 0 <= j < width -> zget r (b * width + j) = Ok init).
Proof. exact @map_onto_spec. Qed.
Print Assumptions map_onto_scatters.

(** add_into adds to the mapped blocks. *)
Theorem add_into_adds : forall a_data a2b dst width, 0 <= width -> zlen a_data = zlen a2b * width -> NoDup a2b ->
  maps_into a2b dst width ->
  exists d, add_into a_data a2b dst width = Ok d /\ zlen d = zlen dst /\
  (forall a b j, zget a2b a = Ok b -> 0 <= j < width ->
     exists x y, zget a_data (a * width + j) = Ok x /\ zget dst (b * width + j) = Ok y /\
       zget d (b * width + j) = Ok (y + x)) /\
  (forall b j, ~ In b a2b -> 0 <= j < width -> zget d (b * width + j) = zget dst (b * width + j)).
Proof. exact add_into_spec. Qed.
Print Assumptions add_into_adds.

(** map_value_into stores one value at all mapped places. *)
Theorem map_value_into_stores : forall T (v : T) a2b dst, (forall b, In b a2b -> 0 <= b < zlen dst) ->
  exists r, map_value_into v a2b dst = Ok r /\ zlen r = zlen dst /\
  (forall b, In b a2b -> zget r b = Ok v) /\ (forall b, ~ In b a2b -> zget r b = zget dst b).
Proof. exact @map_value_into_spec. Qed.
Print Assumptions map_value_into_stores.

(** permute and unmap with the same permutation undo each other, in both orders. *)
Theorem permute_then_unmap : forall A (a_data : list A) a2b width, 0 <= width -> zlen a_data = zlen a2b * width -> is_perm a2b ->
  exists r, permute a_data a2b width = Ok r /\ unmap a2b r width = Ok a_data.
Proof. exact @permute_unmap. Qed.
Theorem unmap_then_permute : forall A (b_data : list A) a2b width, 0 <= width -> zlen b_data = zlen a2b * width -> is_perm a2b ->
  exists r, unmap a2b b_data width = Ok r /\ permute r a2b width = Ok b_data.
Proof. exact @unmap_permute. Qed.
Print Assumptions permute_then_unmap.
Print Assumptions unmap_then_permute.

(** invert_permutation gives the inverse permutation. *)
Theorem invert_permutation_inverse : forall a2b, is_perm a2b ->
  exists b2a, invert_permutation a2b = Ok b2a /\ zlen b2a = zlen a2b /\ is_perm b2a /\
  forall a b, zget a2b a = Ok b <-> zget b2a b = Ok a.
Proof. exact invert_permutation_spec. Qed.
Print Assumptions invert_permutation_inverse.

(** compound_maps composes. *)
Theorem compound_maps_composes : forall a2b b2c, (forall b, In b a2b -> 0 <= b < zlen b2c) ->
  exists r, compound_maps a2b b2c = Ok r /\ zlen r = zlen a2b /\
  forall a b, zget a2b a = Ok b -> zget r a = zget b2c b.
Proof. exact compound_maps_spec. Qed.
Print Assumptions compound_maps_composes.

(** invert_injective_map is a left inverse, -1 outside the image. *)
Theorem invert_injective_map_left_inverse : forall a2b nb, 0 <= nb -> NoDup a2b -> (forall b, In b a2b -> 0 <= b < nb) ->
  exists r, invert_injective_map a2b nb = Ok r /\ zlen r = nb /\
  (forall a b, zget a2b a = Ok b -> zget r b = Ok a) /\
  (forall b, 0 <= b < nb -> ~ In b a2b -> zget r b = Ok (-1)).
Proof. exact invert_injective_map_spec. Qed.
Print Assumptions invert_injective_map_left_inverse.

(** mark_image marks exactly the image. *)
Theorem mark_image_exact : forall a2b nb, 0 <= nb -> (forall b, In b a2b -> 0 <= b < nb) ->
  exists r, mark_image a2b nb = Ok r /\ zlen r = nb /\
  forall b, 0 <= b < nb -> zget r b = Ok (if in_dec Z.eq_dec b a2b then 1 else 0).
Proof. exact mark_image_spec. Qed.
Print Assumptions mark_image_exact.

(** collect_marked lists exactly the marked indices in increasing order. *)
Theorem collect_marked_exact : forall marks, (forall m, In m marks -> m = 0 \/ m = 1) ->
  exists r, collect_marked marks = Ok r /\ StronglySorted Z.lt r /\ forall i, In i r <-> zget marks i = Ok 1.
Proof. exact collect_marked_full. Qed.
Theorem invert_marks_flips : forall marks i m, zget marks i = Ok m -> zget (invert_marks marks) i = Ok (if m =? 0 then 1 else 0).
Proof. exact invert_marks_spec. Qed.
Print Assumptions collect_marked_exact.
Print Assumptions invert_marks_flips.

Example unmap_ex : unmap [2; 0; 2] [10; 11; 20; 21; 30; 31] 2 = Ok [30; 31; 10; 11; 30; 31].
Proof. reflexivity. Qed.
Example unmap_ex_hyp : maps_into [2; 0; 2] [10; 11; 20; 21; 30; 31] 2.
Proof. intros b [<-|[<-|[<-|[]]]]; vm_compute; split; discriminate. Qed.
Example map_onto_ex : map_onto [10; 11; 20; 21] [2; 0] 4 7 2 = Ok [20; 21; 7; 7; 10; 11; 7; 7].
Proof. reflexivity. Qed.
Example permute_ex : permute [10; 20; 30] [2; 0; 1] 1 = Ok [20; 30; 10].
Proof. reflexivity. Qed.
Example invert_permutation_ex : invert_permutation [2; 0; 1] = Ok [1; 2; 0].
Proof. reflexivity. Qed.
Example is_perm_ex : is_perm [2; 0; 1].
Proof. apply is_perm_intro; [repeat constructor; cbn; intuition discriminate|]. intros b [<-|[<-|[<-|[]]]]; vm_compute; split; congruence. Qed.
Example compound_maps_ex : compound_maps [1; 1; 0] [5; 6] = Ok [6; 6; 5].
Proof. reflexivity. Qed.
Example invert_injective_map_ex : invert_injective_map [3; 1] 4 = Ok [-1; 1; -1; 0].
Proof. reflexivity. Qed.
Example collect_marked_ex : collect_marked [0; 1; 1; 0; 1] = Ok [1; 2; 4].
Proof. reflexivity. Qed.
Example add_into_ex : add_into [1; 2] [2; 0] [10; 20; 30] 1 = Ok [12; 20; 31].
Proof. reflexivity. Qed.
