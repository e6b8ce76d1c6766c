(** Model of src/Omega_h_adj.cpp:15-38,178-263: upward adjacency. *)
From Verif Require Import Prelude M_Array M_Par M_Scan M_Sort M_Map M_Align M_Graph.
Local Open Scope Z_scope.

(** src/Omega_h_adj.hpp Adj: offsets, targets and, if they exist, alignment codes *)
Record adj := mk_adj { adj_a2ab : list Z; adj_ab2b : list Z; adj_codes : option (list Z) }.

(** src/Omega_h_adj.cpp:15-38 unmap_adjacency.  The two arrays are filled by one loop in which ac and
    bc count up together.  bc_codes must exist. *)
Definition unmap_adjacency (a2b : list Z) (b2c : adj) : res adj :=
  let b2bc := adj_a2ab b2c in let bc2c := adj_ab2b b2c in
  b_degrees <- get_degrees b2bc ;;
  a_degrees <- unmap a2b b_degrees 1 ;;
  let a2ac := offset_scan a_degrees in
  nac <- last_of a2ac ;;
  ac2c <- blank nac ;;
  ac_codes <- blank nac ;;
  r <- forM (zlen a2b) (ac2c, ac_codes) (fun d a =>
    b <- zget a2b a ;; bc <- zget b2bc b ;;
    lo <- zget a2ac a ;; hi <- zget a2ac (a + 1) ;;
    foldM (fun d ac => 
      x <- zget bc2c (bc + (ac - lo)) ;; d1 <- zset (fst d) ac (Some x) ;;
      bc_codes <- match adj_codes b2c with Some l => Ok l | None => UB end ;;
      c <- zget bc_codes (bc + (ac - lo)) ;; d2 <- zset (snd d) ac (Some c) ;;
      Ok (d1, d2)) (zfromto lo hi) d) ;;
  ac2c <- freeze (fst r) ;; ac_codes <- freeze (snd r) ;;
  Ok (mk_adj a2ac ac2c (Some ac_codes)).

(** src/Omega_h_adj.cpp:184-193, the search for the least entry after [j] *)
Definition find_min_from (lh2h : list Z) (j end_ : Z) : res (Z * Z) :=
  min_h <- zget lh2h j ;;
  foldM (fun '(k_min, min_h) k => h <- zget lh2h k ;; Ok (if h <? min_h then (k, h) else (k_min, min_h)))
    (zfromto (j + 1) end_) (j, min_h).

(** src/Omega_h_adj.cpp:178-200 sort_by_high_index: both arrays are permuted *)
Definition sort_by_high_index (l2lh lh2h codes : list Z) : res (list Z * list Z) :=
  let nl := zlen l2lh - 1 in
  forM nl (lh2h, codes) (fun s l =>
    begin <- zget l2lh l ;; end_ <- zget l2lh (l + 1) ;;
    foldM (fun '(lh2h, codes) j =>
      m <- find_min_from lh2h j end_ ;;
      lh2h <- swap_entries lh2h j (fst m) ;;
      codes <- swap_entries codes j (fst m) ;;
      Ok (lh2h, codes)) (zfromto begin end_) s).

(** src/Omega_h_adj.cpp:202-229 separate_upward_with_codes, separate_upward_no_codes: iteration lh sets
    lh2h[lh] and codes[lh]; C++ integer division by zero is undefined *)
Definition separate_upward (lh2hl : list Z) (nlows_per_high : Z) (down_codes : option (list Z)) : res (list Z * list Z) :=
  r <- tabulate (zlen lh2hl) (fun lh =>
    hl <- zget lh2hl lh ;;
    if nlows_per_high =? 0 then UB else
    let h := Z.quot hl nlows_per_high in
    let which_down := Z.rem hl nlows_per_high in
    match down_codes with
    | Some down_codes => down_code <- zget down_codes hl ;; Ok (h, make_code (code_is_flipped down_code) (code_rotation down_code) which_down)
    | None => Ok (h, make_code false 0 which_down)
    end) ;;
  Ok (map fst r, map snd r).

(** src/Omega_h_adj.cpp:231-263 invert_adj (the names of the arrays are left out).  [m0], [s1], [s2]:
    memory before the call and the schedules of the two kernels of invert_map_by_atomics; [None]: a
    schedule stops before its kernel has finished. *)
Definition invert_adj (down : adj) (nlows_per_high nlows : Z) (m0 : mem Z) (s1 s2 : list nat) : res (option adj) :=
  o <- invert_map_by_atomics (adj_ab2b down) nlows m0 s1 s2 ;;
  match o with
  | None => Ok None
  | Some (l2lh, lh2hl, _) =>
    s <- separate_upward lh2hl nlows_per_high (adj_codes down) ;;
    s <- sort_by_high_index l2lh (fst s) (snd s) ;;
    Ok (Some (mk_adj l2lh (fst s) (Some (snd s))))
  end.
