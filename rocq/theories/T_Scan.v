(** C10: prefix sums. *)
From Verif Require Import Prelude M_Par S_Par P_Par M_Scan S_Scan P_Scan.

(** The serial scan: entry i combines the transformed entries 0..i. *)
Theorem serial_scan_prefix : forall A V (op : V -> V -> V) (tr : A -> V) l i, i < length l ->
  nth_error (transform_inclusive_scan op tr l) i = total op (map tr (firstn (S i) l)).
Proof. exact @scan_nth. Qed.
Print Assumptions serial_scan_prefix.

(** offset_scan gives the n+1 exclusive prefix sums. *)
Theorem offset_scan_size : forall a, zlen (offset_scan a) = (zlen a + 1)%Z.
Proof. exact offset_scan_length. Qed.
Theorem offset_scan_prefix_sums : forall a i, (0 <= i <= zlen a)%Z ->
  zget (offset_scan a) i = Ok (zsum (firstn (Z.to_nat i) a)).
Proof. exact offset_scan_get. Qed.
Print Assumptions offset_scan_size.
Print Assumptions offset_scan_prefix_sums.

(** fill_right gives the running maximum. *)
Theorem fill_right_running_max : forall a i, (0 <= i < zlen a)%Z ->
  exists v, zget (fill_right a) i = Ok v /\
    (forall j x, (0 <= j <= i)%Z -> zget a j = Ok x -> (x <= v)%Z) /\
    (exists j, (0 <= j <= i)%Z /\ zget a j = Ok v).
Proof. exact fill_right_get. Qed.
Print Assumptions fill_right_running_max.

(** The OpenMP scan, in place (R = 0) or not (R = 2), for every number of threads and every interleaving
    of the threads' memory accesses before and after the barrier: the output is that of the
    serial scan. *)
Theorem openmp_scan_is_serial_scan : forall V (op : V -> V -> V) tr (l : list V) nthreads R regions m0 s1 s2,
  (forall x y z, op x (op y z) = op (op x y) z) ->
  0 < nthreads -> R = 0 \/ R = 2 -> l <> [] ->
  (forall i x, nth_error l i = Some x -> m0 (0, i) = x) ->
  omp_regions V op tr (length l) nthreads R = Ok regions ->
  all_done (run (m0, fst regions) s1) ->
  all_done (run (fst (run (m0, fst regions) s1), snd regions) s2) ->
  forall i v, nth_error (transform_inclusive_scan op tr l) i = Some v ->
  fst (run (fst (run (m0, fst regions) s1), snd regions) s2) (R, i) = v.
Proof. exact omp_scan_all. Qed.
Print Assumptions openmp_scan_is_serial_scan.

(** It is defined for up to 512 threads or up to 512 entries... *)
Theorem openmp_scan_defined : forall V op tr n nthreads R, nthreads <= 512 \/ n <= 512 ->
  0 < nthreads -> exists r, omp_regions V op tr n nthreads R = Ok r.
Proof. exact omp_regions_ok. Qed.
Print Assumptions openmp_scan_defined.

(** ... and overruns its table of thread sums beyond that. *)
Theorem openmp_scan_many_threads_refuted : forall V op tr R, omp_regions V op tr 513 513 R = UB.
Proof. exact omp_513. Qed.
Print Assumptions openmp_scan_many_threads_refuted.

Example offset_scan_ex : offset_scan [2; 0; 3]%Z = [0; 2; 2; 5]%Z.
Proof. reflexivity. Qed.
Example fill_right_ex : fill_right [0; -1; 3; -1; 2]%Z = [0; 0; 3; 3; 3]%Z.
Proof. reflexivity. Qed.
(* five entries, three threads, in place *)
Definition omp_ex_mem : mem nat := fun l => if fst l =? 0 then S (snd l) else 0.
Definition omp_ex_regions := (map (phase1 nat Nat.add (fun x => x) 5 3) (seq 0 3), map (phase2 nat Nat.add (fun x => x) 5 3 0) (seq 0 3)).
Definition omp_ex_s1 := [2; 0; 1; 0; 1; 2; 1; 0].
Definition omp_ex_s2 := [2; 1; 0; 2; 0; 1; 2; 1; 0; 2; 1; 0; 0; 1; 1; 1; 2; 2].
Example omp_ex :
  omp_regions nat Nat.add (fun x => x) 5 3 0 = Ok omp_ex_regions /\
  all_done (run (omp_ex_mem, fst omp_ex_regions) omp_ex_s1) /\
  all_done (run (fst (run (omp_ex_mem, fst omp_ex_regions) omp_ex_s1), snd omp_ex_regions) omp_ex_s2) /\
  map (fun i => fst (run (fst (run (omp_ex_mem, fst omp_ex_regions) omp_ex_s1), snd omp_ex_regions) omp_ex_s2) (0, i)) (seq 0 5)
    = [1; 3; 6; 10; 15].
Proof. split; [reflexivity|]. split; [repeat constructor|]. split; [repeat constructor|]. reflexivity. Qed.
