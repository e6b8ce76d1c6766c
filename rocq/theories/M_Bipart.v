(** Model of src/Omega_h_bipart.cpp.  All ranks run it together: arguments and results are vectors with
    one entry per rank.  The arrays of destination ranks and indices are one array of pairs. *)
From Verif Require Import Prelude M_Linpart M_Map M_Array M_Sort M_Comm.
Local Open Scope Z_scope.

(** src/Omega_h_bipart.cpp:17-29, one pass of the loop, on the marks already inverted (line 17). *)
Definition bi_half (marks : list (list Z)) (halfsize rank_start : Z)
    (dests : list (list (option (Z * Z)))) (linsizes : list Z)
  : res (list (list (option (Z * Z))) * list Z) :=
  let nranks := zlen marks in
  marked <- mapM collect_marked marks ;;
  let counts := map (@zlen Z) marked in
  let totals := allreduce_sum counts in
  let starts := exscan_sum counts in
  dests' <- tabulate nranks (fun rank =>
    m <- zget marked rank ;;
    total <- zget totals rank ;;
    start <- zget starts rank ;;
    d <- zget dests rank ;;
    let globals := map (fun k => start + k) (zrange (zlen m)) in
    owners <- globals_to_linear_owners globals total halfsize ;;
    map_into (map (fun o => (fst o + rank_start, snd o)) owners) m d 1) ;;
  linsizes' <- tabulate nranks (fun rank =>
    total <- zget totals rank ;;
    if (rank_start <=? rank) && (rank <? rank_start + halfsize)
    then linear_partition_size total halfsize (rank - rank_start)
    else zget linsizes rank) ;;
  Ok (dests', linsizes').

(** src/Omega_h_bipart.cpp:9-33 bi_partition; the result is what the Dist is built from: per rank, the
    destination of each item and the number of items it will hold. *)
Definition bi_partition (marks : list (list Z)) : res (list (list (Z * Z)) * list Z) :=
  let size := zlen marks in
  _ <- check (size mod 2 =? 0) ;;
  halfsize <- divide_no_remainder size 2 ;;
  dests <- mapM (fun m => blank (zlen m)) marks ;;
  let marks := map invert_marks marks in
  '(dests, linsizes) <- bi_half marks halfsize 0 dests (map (fun _ => -1) marks) ;;
  let marks := map invert_marks marks in
  '(dests, linsizes) <- bi_half marks halfsize halfsize dests linsizes ;;
  dests <- mapM freeze dests ;;
  Ok (dests, linsizes).
