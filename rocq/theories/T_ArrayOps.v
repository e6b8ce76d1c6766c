(** C42, C52, C53: array operations. *)
From Coq Require Import Permutation.
From Verif Require Import Prelude M_Array M_Sort M_ArrayOps S_ArrayOps P_ArrayOps.
Local Open Scope Z_scope.

(** ** C52 *)
(** Whatever the backend, == compares arrays of equal size entry by entry, and refuses others. *)
Theorem equality_any_backend : forall b x y, (zlen x = zlen y -> covers b (zlen x)) ->
  (zlen x = zlen y -> exists r, arrays_equal b x y = Ok r /\ (r = true <-> x = y)) /\ (zlen x <> zlen y -> arrays_equal b x y = Abort).
Proof. exact equal_spec. Qed.
Theorem get_max_any_backend : forall b tmin pmin a, covers b (zlen a) -> pmin <= tmin ->
  exists r, get_max b tmin pmin a = Ok r /\ tmin <= r /\ (forall x, In x a -> x <= r) /\ (r = tmin \/ In r a).
Proof. exact get_max_spec. Qed.
Theorem get_min_any_backend : forall b tmax pmax a, covers b (zlen a) -> tmax <= pmax ->
  exists r, get_min b tmax pmax a = Ok r /\ r <= tmax /\ (forall x, In x a -> r <= x) /\ (r = tmax \/ In r a).
Proof. exact get_min_spec. Qed.
Theorem find_last_any_backend : forall b lo_min a v, covers b (zlen a) -> lo_min <= -1 ->
  exists r, find_last b lo_min a v = Ok r /\ ((r = -1 /\ ~ In v a) \/ (zget a r = Ok v /\ forall i, r < i -> zget a i <> Ok v)).
Proof. exact find_last_spec. Qed.
Theorem is_sorted_any_backend : forall b a, covers b (zlen a - 1) ->
  exists r, is_sorted b a = Ok r /\ (r = true <-> forall i x y, zget a i = Ok x -> zget a (i + 1) = Ok y -> x <= y).
Proof. exact is_sorted_spec. Qed.
Theorem get_sum_any_backend : forall b max a, covers b (zlen a) -> zsum_abs a <= max -> get_sum b max a = Ok (fold_right Z.add 0 a).
Proof. exact get_sum_spec. Qed.
(** A sum that fits is not enough: threads may add the entries in an order that overflows. *)
Theorem get_sum_order_refuted : get_sum (OpenMP [[0; 2]; [1]]) 2147483647 [2147483647; -1; 1] = UB /\ get_sum Serial 2147483647 [2147483647; -1; 1] = Ok 2147483647.
Proof. exact omp_sum_overflow. Qed.
(** A user-declared operation with an initial value that is not neutral gives different answers. *)
Theorem custom_reduction_refuted : transform_reduce (OpenMP [[0]; [1]]) 2 10 10 (pure Z.add) (fun i => Ok i) = Ok 31 /\
  transform_reduce Serial 2 10 10 (pure Z.add) (fun i => Ok i) = Ok 11.
Proof. exact custom_init_again. Qed.
Print Assumptions equality_any_backend.
Print Assumptions get_max_any_backend.
Print Assumptions get_min_any_backend.
Print Assumptions find_last_any_backend.
Print Assumptions is_sorted_any_backend.
Print Assumptions get_sum_any_backend.
Print Assumptions get_sum_order_refuted.
Print Assumptions custom_reduction_refuted.
(** Two threads take the iterations of a loop of four out of order. *)
Definition two_threads := OpenMP [[3; 1]; [0; 2]].
Example two_threads_cover : covers two_threads 4.
Proof. unfold two_threads, covers. apply NoDup_Permutation; [repeat constructor; cbn; lia|apply zrange_NoDup|intros x; rewrite in_zrange; cbn; lia]. Qed.
Example two_threads_run : get_max two_threads (-128) (-32768) [4; 9; -3; 9] = Ok 9 /\ find_last two_threads (-2147483648) [4; 9; -3; 9] 9 = Ok 3 /\
  get_sum two_threads 2147483647 [4; 9; -3; 9] = Ok 19 /\ zsum_abs [4; 9; -3; 9] = 25.
Proof. repeat split; vm_compute; reflexivity. Qed.

(** ** C53 *)
Theorem set_component_sets : forall (A : Type) (out a : list A) ncomps comp, 0 <= comp < ncomps -> zlen out = zlen a * ncomps ->
  exists out', set_component out a ncomps comp = Ok out' /\ zlen out' = zlen out /\ component out' ncomps comp = Ok a /\
  forall c, 0 <= c < ncomps -> c <> comp -> component out' ncomps c = component out ncomps c.
Proof. exact @set_component_spec. Qed.
Theorem get_component_reads : forall (A : Type) (l : list A) ncomps comp n, 0 < ncomps -> zlen l = n * ncomps -> 0 <= comp < ncomps ->
  exists r, component l ncomps comp = Ok r /\ zlen r = n /\ forall i, 0 <= i < n -> zget r i = zget l (i * ncomps + comp).
Proof. exact @component_spec. Qed.
Theorem interleave_components : forall (A : Type) (arrays : list (list A)) n, arrays <> [] -> (forall a, In a arrays -> zlen a = n) ->
  exists out, interleave arrays = Ok out /\ zlen out = zlen arrays * n /\ forall i a, zget arrays i = Ok a -> component out (zlen arrays) i = Ok a.
Proof. exact @interleave_spec. Qed.
Theorem interleave_refuses : forall (A : Type) (arrays : list (list A)) front a, zget arrays 0 = Ok front -> In a arrays -> zlen a <> zlen front -> interleave arrays = Abort.
Proof. exact @interleave_checks. Qed.
Theorem ternary_each_selects : forall (A : Type) (cond : list Z) (a b : list A) width, 0 < width -> zlen a = zlen cond * width -> zlen b = zlen a -> zlen cond <> 0 ->
  exists c, ternary_each cond a b = Ok c /\ zlen c = zlen a /\
  forall i j m, zget cond i = Ok m -> 0 <= j < width -> zget c (i * width + j) = zget (if m =? 0 then b else a) (i * width + j).
Proof. exact @ternary_spec. Qed.
(** The width of empty arrays is computed by a division by zero, which is checked. *)
Theorem ternary_each_empty_refuted : forall A : Type, @ternary_each A [] [] [] = Abort.
Proof. exact @ternary_empty. Qed.
Print Assumptions set_component_sets.
Print Assumptions get_component_reads.
Print Assumptions interleave_components.
Print Assumptions interleave_refuses.
Print Assumptions ternary_each_selects.
Print Assumptions ternary_each_empty_refuted.
Example components_meet : set_component [1; 2; 3; 4] [7; 8] 2 1 = Ok [1; 7; 3; 8] /\ interleave [[1; 3]; [7; 8]; [5; 6]] = Ok [1; 7; 5; 3; 8; 6] /\
  ternary_each [1; 0] [1; 2; 3; 4] [5; 6; 7; 8] = Ok [1; 2; 7; 8].
Proof. repeat split; vm_compute; reflexivity. Qed.

(** ** C42 *)
Theorem coalesce_empty : forall A : Type, @coalesce A [] = Ok [].
Proof. exact @coalesce_nil. Qed.
(** Every call with an array to copy reads outside the list of arrays. *)
Theorem coalesce_reads_outside : forall (A : Type) (arrays : list (list A)), arrays <> [] -> coalesce arrays = UB.
Proof. exact @coalesce_ub. Qed.
Theorem coalesce_concatenates_refuted : ~ (forall arrays : list (list Z), coalesce arrays = Ok (concat arrays)).
Proof. exact coalesce_not_concat. Qed.
Print Assumptions coalesce_empty.
Print Assumptions coalesce_reads_outside.
Print Assumptions coalesce_concatenates_refuted.
Example coalesce_meets : [[1; 2]; [3]] <> ([] : list (list Z)) /\ coalesce [[1; 2]; [3]] = UB.
Proof. split; [discriminate|reflexivity]. Qed.
