(** Model of src/Omega_h_map.cpp.  LO arithmetic does not overflow in the model.
    Kernels that write are run in index order (the parallel order is the subject of C48; where two
    iterations may write the same entry the theorems say so). *)
From Verif Require Import Prelude M_Array M_Par M_Scan M_Sort.
Local Open Scope Z_scope.

(** src/Omega_h_map.cpp:12-23 add_into *)
Definition add_into (a_data a2b b_data : list Z) (width : Z) : res (list Z) :=
  let na := zlen a2b in
  _ <- check (zlen a_data =? na * width) ;;
  forM na b_data (fun d a =>
    b <- zget a2b a ;;
    forM width d (fun d j =>
      x <- zget a_data (a * width + j) ;;
      y <- zget d (b * width + j) ;;
      zset d (b * width + j) (y + x))).

Section copies.
Context {A : Type}.

(** src/Omega_h_map.cpp:25-37 map_into *)
Definition map_into (a_data : list A) (a2b : list Z) (b_data : list (option A)) (width : Z)
  : res (list (option A)) :=
  let na := zlen a2b in
  _ <- check (zlen a_data =? na * width) ;;
  forM na b_data (fun d a => b <- zget a2b a ;; copy_block width a_data a d b).

(** src/Omega_h_map.cpp:39-44 map_value_into *)
Definition map_value_into (a_value : A) (a2b : list Z) (b_data : list A) : res (list A) :=
  forM (zlen a2b) b_data (fun d a => b <- zget a2b a ;; zset d b a_value).

(** src/Omega_h_map.cpp:46-58 map_into_range *)
Definition map_into_range (a_data : list A) (begin end_ : Z) (b_data : list (option A)) (width : Z)
  : res (list (option A)) :=
  let na := end_ - begin in
  _ <- check (zlen a_data =? na * width) ;;
  forM na b_data (fun d a => copy_block width a_data a d (begin + a)).

(** src/Omega_h_map.cpp:66-72 map_onto *)
Definition map_onto (a_data : list A) (a2b : list Z) (nb : Z) (init_val : A) (width : Z) : res (list A) :=
  out <- filled (nb * width) (Some init_val) ;;
  _ <- check (zlen out >=? zlen a_data) ;;
  out <- map_into a_data a2b out width ;;
  freeze out.

(** src/Omega_h_map.cpp:74-87 unmap *)
Definition unmap (a2b : list Z) (b_data : list A) (width : Z) : res (list A) :=
  let na := zlen a2b in
  a_data <- blank (na * width) ;;
  a_data <- forM na a_data (fun d a => b <- zget a2b a ;; copy_block width b_data b d a) ;;
  freeze a_data.

(** src/Omega_h_map.cpp:89-102 unmap_range *)
Definition unmap_range (begin end_ : Z) (b_data : list A) (width : Z) : res (list A) :=
  _ <- check (begin <=? end_) ;;
  let na := end_ - begin in
  a_data <- blank (na * width) ;;
  a_data <- forM na a_data (fun d a => copy_block width b_data (a + begin) d a) ;;
  freeze a_data.

(** src/Omega_h_map.cpp:104-119 expand_into *)
Definition expand_into (a_data : list A) (a2b : list Z) (b_data : list (option A)) (width : Z)
  : res (list (option A)) :=
  let na := zlen a2b - 1 in
  _ <- check (zlen a_data =? na * width) ;;
  forM na b_data (fun d a =>
    lo <- zget a2b a ;; hi <- zget a2b (a + 1) ;;
    foldM (fun d b => copy_block width a_data a d b) (zfromto lo hi) d).

(** src/Omega_h_map.cpp:121-128 expand *)
Definition expand (a_data : list A) (a2b : list Z) (width : Z) : res (list A) :=
  nb <- last_of a2b ;;
  b_data <- blank (nb * width) ;;
  b_data <- expand_into a_data a2b b_data width ;;
  freeze b_data.

(** src/Omega_h_map.cpp:130-137 permute *)
Definition permute (a_data : list A) (a2b : list Z) (width : Z) : res (list A) :=
  b_data <- blank (zlen a2b * width) ;;
  b_data <- map_into a_data a2b b_data width ;;
  freeze b_data.
End copies.

(** src/Omega_h_map.cpp:263-268 get_degrees *)
Definition get_degrees (offsets : list Z) : res (list Z) :=
  if zlen offsets - 1 <? 0 then UB else
  tabulate (zlen offsets - 1) (fun i => hi <- zget offsets (i + 1) ;; lo <- zget offsets i ;; Ok (hi - lo)).

(** src/Omega_h_array_ops.cpp:103-118 multiply_each *)
Definition multiply_each (a b : list Z) : res (list Z) :=
  c <- blank (zlen a) ;;
  if zlen b =? 0 then (_ <- check (zlen a =? 0) ;; freeze c) else
  width <- divide_no_remainder (zlen a) (zlen b) ;;
  c <- forM (zlen b) c (fun c i => forM width c (fun c j =>
    x <- zget a (i * width + j) ;; y <- zget b i ;; zset c (i * width + j) (Some (x * y)))) ;;
  freeze c.

(** src/Omega_h_map.cpp:139-145 multiply_fans *)
Definition multiply_fans (a2b a2c : list Z) : res (list Z) :=
  b <- get_degrees a2b ;; c <- get_degrees a2c ;; d <- multiply_each b c ;; Ok (offset_scan d).

(** src/Omega_h_map.cpp:147-158 compound_maps *)
Definition compound_maps (a2b b2c : list Z) : res (list Z) :=
  tabulate (zlen a2b) (fun a => b <- zget a2b a ;; zget b2c b).

(** src/Omega_h_map.cpp:160-165 invert_permutation *)
Definition invert_permutation (a2b : list Z) : res (list Z) :=
  b2a <- blank (zlen a2b) ;;
  b2a <- forM (zlen a2b) b2a (fun d a => b <- zget a2b a ;; zset d b (Some a)) ;;
  freeze b2a.

(** src/Omega_h_map.cpp:167-172 invert_marks *)
Definition invert_marks (marks : list Z) : list Z := map (fun m => if m =? 0 then 1 else 0) marks.

(** src/Omega_h_map.cpp:174-185 collect_marked *)
Definition collect_marked (marks : list Z) : res (list Z) :=
  let ntotal := zlen marks in
  let offsets := offset_scan marks in
  nmarked <- last_of offsets ;;
  marked <- blank nmarked ;;
  marked <- forM ntotal marked (fun d i =>
    m <- zget marks i ;;
    if m =? 0 then Ok d else (o <- zget offsets i ;; zset d o (Some i))) ;;
  freeze marked.

(** src/Omega_h_map.cpp:187-196 mark_image *)
Definition mark_image (a2b : list Z) (nb : Z) : res (list Z) :=
  out <- filled nb 0 ;;
  forM (zlen a2b) out (fun d a => b <- zget a2b a ;; zset d b 1).

(** src/Omega_h_map.cpp:198-201 inject_map *)
Definition inject_map (a2b b2a : list Z) : res (list Z) :=
  forM (zlen a2b) b2a (fun d a => b <- zget a2b a ;; zset d b a).

(** src/Omega_h_map.cpp:203-207 invert_injective_map *)
Definition invert_injective_map (a2b : list Z) (nb : Z) : res (list Z) :=
  b2a <- filled nb (-1) ;; inject_map a2b b2a.

(** src/Omega_h_map.cpp:209-227 invert_funnel *)
Definition invert_funnel (ab2a : list Z) (na : Z) : res (list Z) :=
  let nab := zlen ab2a in
  a2ab <- filled (na + 1) (-1) ;;
  a2ab <- zset a2ab 0 0 ;;
  a2ab <- forM (Z.max 0 (nab - 1)) a2ab (fun d ab =>
    a_end <- zget ab2a ab ;;
    a_start <- zget ab2a (ab + 1) ;;
    if a_end =? a_start then Ok d else zset d (a_end + 1) (ab + 1)) ;;
  a2ab <- (if nab =? 0 then Ok a2ab else (a_end <- zget ab2a (nab - 1) ;; zset a2ab (a_end + 1) nab)) ;;
  Ok (fill_right a2ab).

(** src/Omega_h_map.cpp:229-236 invert_map_by_sorting *)
Definition invert_map_by_sorting (a2b : list Z) (nb : Z) : res (list Z * list Z) :=
  ba2ab <- sort_by_keys a2b 1 ;;
  ba2b <- unmap ba2ab a2b 1 ;;
  b2ba <- invert_funnel ba2b nb ;;
  Ok (b2ba, ba2ab).

(** src/Omega_h_map.cpp:238-261 invert_map_by_atomics.  Arrays: 0 degrees, 1 positions, 2 ba2a.
    Iteration [a] of the counting kernel (:243-246) and of the filling kernel (:252-257). *)
Definition count_kernel (a2b : list Z) (a : Z) : res (prog Z) :=
  b <- zget a2b a ;; Ok (Rmw (0%nat, Z.to_nat b) (fun d => d + 1) (fun _ => Done)).
Definition fill_kernel (a2b b2ba : list Z) (a : Z) : res (prog Z) :=
  b <- zget a2b a ;;
  first <- zget b2ba b ;;
  Ok (Rmw (1%nat, Z.to_nat b) (fun d => d + 1) (fun j =>
      Wr (2%nat, Z.to_nat (first + j)) a Done)).

(** contents of array [k] with [n] entries *)
Definition array_of (m : mem Z) (k : nat) (n : Z) : list Z :=
  map (fun i => m (k, Z.to_nat i)) (zrange n).

(** Write<LO>(nb, 0) *)
Definition zeroed (m : mem Z) (k : nat) (n : Z) : mem Z :=
  fun l => if ((fst l =? k)%nat && (Z.of_nat (snd l) <? n))%bool then 0 else m l.

(** have all iterations finished? *)
Definition finished (c : mem Z * list (prog Z)) : bool :=
  forallb (fun p => match p with Done => true | _ => false end) (snd c).

(** invert_map_by_atomics where the two kernels follow the schedules [s1], [s2]; [m0] is the memory
    before the call (degrees and positions are cleared, ba2a starts with whatever was there).
    [Ok None]: a schedule stops before all iterations have finished.  Also returns the memory. *)
Definition invert_map_by_atomics (a2b : list Z) (nb : Z) (m0 : mem Z) (s1 s2 : list nat)
    : res (option (list Z * list Z * mem Z)) :=
  k1 <- mapM (count_kernel a2b) (zrange (zlen a2b)) ;;
  let c1 := run (zeroed m0 0%nat nb, k1) s1 in
  if finished c1 then
    let b2ba := offset_scan (array_of (fst c1) 0%nat nb) in
    nba <- zget b2ba nb ;;
    k2 <- mapM (fill_kernel a2b b2ba) (zrange (zlen a2b)) ;;
    let c2 := run (zeroed (fst c1) 1%nat nb, k2) s2 in
    if finished c2 then Ok (Some (b2ba, array_of (fst c2) 2%nat nba, fst c2)) else Ok None
  else Ok None.

(** src/Omega_h_map.cpp:270-280 invert_fan *)
Definition invert_fan (a2b : list Z) : res (list Z) :=
  let na := zlen a2b - 1 in
  nb <- last_of a2b ;;
  b2a <- filled nb (-1) ;;
  b2a <- forM na b2a (fun d a =>
    lo <- zget a2b a ;; hi <- zget a2b (a + 1) ;;
    if lo =? hi then Ok d else zset d lo a) ;;
  Ok (fill_right b2a).

(** src/Omega_h_map.cpp:282-288 mark_fan_preimage *)
Definition mark_fan_preimage (a2b : list Z) : res (list Z) :=
  _ <- check (zlen a2b >=? 1) ;;
  tabulate (zlen a2b - 1) (fun i =>
    lo <- zget a2b i ;; hi <- zget a2b (i + 1) ;; Ok (if lo =? hi then 0 else 1)).

(** src/Omega_h_map.cpp:290-312 fan_reduce_tmpl, for a functor given by its initial value and join
    (src/Omega_h_functors.hpp:17-51) *)
Definition fan_reduce_tmpl {A} (init : A) (join : A -> A -> A) (a2b : list Z) (b_data : list A) (width : Z)
  : res (list A) :=
  nb <- last_of a2b ;;
  _ <- check (nb * width =? zlen b_data) ;;
  let na := zlen a2b - 1 in
  a_data <- blank (na * width) ;;
  a_data <- forM na a_data (fun d a =>
    forM width d (fun d j =>
      lo <- zget a2b a ;; hi <- zget a2b (a + 1) ;;
      r <- foldM (fun r b => u <- zget b_data (b * width + j) ;; Ok (join r u)) (zfromto lo hi) init ;;
      zset d (a * width + j) (Some r))) ;;
  freeze a_data.

(** static_cast<T>(res), src/Omega_h_map.cpp:307, for an integer type T with the given limits: the value
    wraps modulo the number of values of T *)
Definition narrow (tmin tmax x : Z) : Z := tmin + (x - tmin) mod (tmax - tmin + 1).

(** src/Omega_h_map.cpp:314-325 fan_reduce for integers of a type T with the given limits.  The sum is
    accumulated in promoted_t<T> (src/Omega_h_functors.hpp:43-52; no overflow there in the model) and
    cast back to T; minimum and maximum are accumulated in T itself. *)
Inductive op := OMEGA_H_MIN | OMEGA_H_MAX | OMEGA_H_SUM.
Definition fan_reduce (tmin tmax : Z) (a2b b_data : list Z) (width : Z) (o : op) : res (list Z) :=
  match o with
  | OMEGA_H_MIN => fan_reduce_tmpl tmax Z.min a2b b_data width
  | OMEGA_H_MAX => fan_reduce_tmpl tmin Z.max a2b b_data width
  | OMEGA_H_SUM => r <- fan_reduce_tmpl 0 Z.add a2b b_data width ;; Ok (map (narrow tmin tmax) r)
  end.
