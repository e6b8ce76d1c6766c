(** C15: fans (offset arrays). *)
From Verif Require Import Prelude M_Array M_Scan S_Scan M_Sort M_Map S_Map S_Fan P_Fan.
Local Open Scope Z_scope.

(** get_degrees and offset_scan are inverse. *)
Theorem degrees_of_offset_scan : forall d, get_degrees (offset_scan d) = Ok d.
Proof. exact degrees_of_offsets. Qed.
Theorem offset_scan_of_degrees : forall f, zget f 0 = Ok 0 -> exists d, get_degrees f = Ok d /\ offset_scan d = f.
Proof. exact offsets_of_degrees. Qed.
Theorem offset_scan_is_fan : forall d, (forall x, In x d -> 0 <= x) -> is_fan (offset_scan d).
Proof. exact offset_scan_fan. Qed.
Print Assumptions degrees_of_offset_scan.
Print Assumptions offset_scan_of_degrees.
Print Assumptions offset_scan_is_fan.

(** invert_fan lists for each item its group. *)
Theorem invert_fan_lists_groups : forall f, is_fan f ->
  exists r n, last_of f = Ok n /\ invert_fan f = Ok r /\ zlen r = n /\ forall a b, zget r b = Ok a <-> in_group f a b.
Proof. exact invert_fan_spec. Qed.
Print Assumptions invert_fan_lists_groups.

(** invert_funnel recovers the fan from the (sorted) item-to-group map. *)
Theorem invert_funnel_recovers : forall ab2a na, 0 <= na -> Sorted Z.le ab2a -> (forall x, In x ab2a -> 0 <= x < na) ->
  exists r, invert_funnel ab2a na = Ok r /\ zlen r = na + 1 /\ is_fan r /\ last_of r = Ok (zlen ab2a) /\
  forall a i, in_group r a i <-> zget ab2a i = Ok a.
Proof. exact invert_funnel_spec. Qed.
Print Assumptions invert_funnel_recovers.

(** expand copies the data of a group to its items. *)
Theorem expand_copies : forall A (a_data : list A) f width, is_fan f -> 0 <= width -> zlen a_data = (zlen f - 1) * width ->
  exists n r, last_of f = Ok n /\ expand a_data f width = Ok r /\ zlen r = n * width /\
  forall a b j, in_group f a b -> 0 <= j < width -> zget r (b * width + j) = zget a_data (a * width + j).
Proof. exact @expand_spec. Qed.
Print Assumptions expand_copies.

(** fan_reduce gives the minimum, maximum or sum of the values of each group, component by component. *)
Theorem fan_reduce_reduces : forall tmin tmax o f b_data width n, is_fan f -> 0 <= width ->
  last_of f = Ok n -> zlen b_data = n * width -> (forall x, In x b_data -> tmin <= x <= tmax) ->
  exists r, fan_reduce tmin tmax f b_data width o = Ok r /\ zlen r = (zlen f - 1) * width /\
  forall a lo hi j, zget f a = Ok lo -> zget f (a + 1) = Ok hi -> 0 <= j < width ->
  exists vs x, mapM (fun b => zget b_data (b * width + j)) (zfromto lo hi) = Ok vs /\
    zget r (a * width + j) = Ok x /\ reduced tmin tmax o vs x.
Proof. exact fan_reduce_spec. Qed.
Print Assumptions fan_reduce_reduces.

(** The sum is returned in the element type of the data: a group of 128 ones stored as I8 sums to -128. *)
Theorem fan_reduce_narrow_sum_refuted :
  exists f b_data, is_fan f /\ last_of f = Ok (zlen b_data) /\ (forall x, In x b_data -> x = 1) /\
  zsum b_data = 128 /\ fan_reduce (-128) 127 f b_data 1 OMEGA_H_SUM = Ok [-128].
Proof. exact fan_reduce_i8_overflow. Qed.
Print Assumptions fan_reduce_narrow_sum_refuted.

Example is_fan_ex : is_fan [0; 2; 2; 5].
Proof. exact (offset_scan_fan [2; 0; 3] ltac:(intros x [<-|[<-|[<-|[]]]]; lia)). Qed.
Example invert_fan_ex : invert_fan [0; 2; 2; 5] = Ok [0; 0; 2; 2; 2].
Proof. reflexivity. Qed.
Example invert_funnel_ex : invert_funnel [0; 0; 2; 2; 2] 4 = Ok [0; 2; 2; 5; 5].
Proof. reflexivity. Qed.
Example expand_ex : expand [7; 8; 9] [0; 2; 2; 5] 1 = Ok [7; 7; 9; 9; 9].
Proof. reflexivity. Qed.
Example fan_reduce_ex : fan_reduce (-100) 100 [0; 2; 2; 5] [4; 1; 3; 9; 2] 1 OMEGA_H_MIN = Ok [1; 100; 2].
Proof. reflexivity. Qed.
