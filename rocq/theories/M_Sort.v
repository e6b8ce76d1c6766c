(** Model of src/Omega_h_sort.cpp. *)
From Verif Require Import Prelude M_Array M_Scan.
Local Open Scope Z_scope.

(** src/Omega_h_scalar.hpp:279-284 divide_no_remainder *)
Definition divide_no_remainder (a b : Z) : res Z :=
  _ <- check (negb (b =? 0)) ;; _ <- check (Z.rem a b =? 0) ;; Ok (Z.quot a b).

(** src/Omega_h_sort.cpp:42-55 parallel_sort: std::stable_sort, thrust::stable_sort or
    pss::parallel_stable_sort; all of them are modelled by their contract, in the form of insertion
    of the items one after the other behind the items that are not greater. *)
Fixpoint insert {A} (lt : A -> A -> res bool) (x : A) (l : list A) : res (list A) :=
  match l with
  | [] => Ok [x]
  | y :: t => c <- lt x y ;; if (c : bool) then Ok (x :: y :: t) else (t' <- insert lt x t ;; Ok (y :: t'))
  end.
Definition parallel_sort {A} (lt : A -> A -> res bool) (l : list A) : res (list A) :=
  foldM (fun s x => insert lt x s) l [].

(** src/Omega_h_sort.cpp:57-69 CompareKeySets::operator() *)
Fixpoint compare_key_sets (keys : list Z) (N : Z) (is : list Z) (a b : Z) : res bool :=
  match is with
  | [] => Ok false
  | i :: is' =>
    x <- zget keys (a * N + i) ;;
    y <- zget keys (b * N + i) ;;
    if x =? y then compare_key_sets keys N is' a b else Ok (x <? y)
  end.

(** src/Omega_h_sort.cpp:71-83 sort_by_keys_tmpl *)
Definition sort_by_keys_tmpl (N : Z) (keys : list Z) : res (list Z) :=
  n <- divide_no_remainder (zlen keys) N ;;
  parallel_sort (compare_key_sets keys N (zrange N)) (zrange n).

(** src/Omega_h_sort.cpp:85-92 sort_by_keys *)
Definition sort_by_keys (keys : list Z) (width : Z) : res (list Z) :=
  if width =? 1 then sort_by_keys_tmpl 1 keys
  else if width =? 2 then sort_by_keys_tmpl 2 keys
  else if width =? 3 then sort_by_keys_tmpl 3 keys
  else if width =? 4 then sort_by_keys_tmpl 4 keys
  else Abort.

(** ArithTraits<I32>::max, the only instance of sort_small_range (src/Omega_h_sort.cpp:169-170) *)
Definition i32_max : Z := 2147483647.

(** get_min of the array, src/Omega_h_array_ops.cpp get_min: transform_reduce with init = max *)
Definition get_min (a : list Z) : Z := fold_left Z.min a i32_max.

(** src/Omega_h_sort.cpp:99-109 next_smallest_value *)
Definition next_smallest_value (a : list Z) (value : Z) : Z :=
  fold_left Z.min (map (fun x => if x >? value then x else i32_max) a) i32_max.

(** src/Omega_h_sort.cpp:111-124 number_same_values: the new contents of tmp_perm and the return value *)
Definition number_same_values (a : list Z) (value : Z) : res (list Z * Z) :=
  let tmp_perm := 0 :: transform_inclusive_scan Z.add (fun x => if x =? value then 1 else 0) a in
  l <- last_of tmp_perm ;; Ok (tmp_perm, l).

(** src/Omega_h_sort.cpp:126-134 combine_perms (tmp_perm[0] is set to 0 once more) *)
Definition combine_perms (a : list Z) (value : Z) (tmp_perm perm : list Z) (ndone : Z) : res (list Z) :=
  tmp_perm <- zset tmp_perm 0 0 ;;
  forM (zlen a) perm (fun p i =>
    x <- zget a i ;;
    if x =? value then (t <- zget tmp_perm i ;; zset p i (t + ndone)) else Ok p).

(** src/Omega_h_sort.cpp:146-155, the while loop; [fuel] bounds the number of rounds, running out of
    it stands for a loop that does not end and is given the outcome UB (theorem: it never happens). *)
Fixpoint small_range_loop (fuel : nat) (a perm : list Z) (value ndone : Z) (fan uniq : list Z)
  : res (list Z * list Z * list Z) :=
  match fuel with
  | O => UB
  | S fuel =>
    let uniq := uniq ++ [value] in
    r <- number_same_values a value ;;
    perm <- combine_perms a value (fst r) perm ndone ;;
    let ndone := ndone + snd r in
    let fan := fan ++ [ndone] in
    if ndone =? zlen a then Ok (perm, fan, uniq)
    else small_range_loop fuel a perm (next_smallest_value a value) ndone fan uniq
  end.

(** src/Omega_h_sort.cpp:136-167 sort_small_range: (perm, fan, uniq) *)
Definition sort_small_range (a : list Z) : res (list Z * list Z * list Z) :=
  let perm := repeat (-42) (length a) in
  if zlen a =? 0 then Ok (perm, [0], [])
  else small_range_loop (length a) a perm (get_min a) 0 [0] [].
