(** Model of src/Omega_h_adj.cpp:294-441: matching element sides with entities. *)
From Verif Require Import Prelude M_Array M_Par M_Sort M_Map M_Template M_Align M_Unique M_Adj.
Local Open Scope Z_scope.

(** src/Omega_h_array_ops.cpp:390-396 get_component *)
Definition get_component (a : list Z) (ncomps comp : Z) : res (list Z) :=
  n <- divide_no_remainder (zlen a) ncomps ;; tabulate n (fun i => zget a (i * ncomps + comp)).

(** src/Omega_h_adj.cpp:294-355 IsMatch<deg>::eval: the code if the rows match *)
Definition is_match (deg : Z) (av2v : list Z) (a_begin : Z) (bv2v : list Z) (b_begin which_down : Z) : res (option Z) :=
  match deg with
  | 2 =>
    a1 <- zget av2v (a_begin + 1) ;; b1 <- zget bv2v (b_begin + (1 - which_down)) ;;
    Ok (if a1 =? b1 then Some (make_code false which_down 0) else None)
  | 3 =>
    a1 <- zget av2v (a_begin + 1) ;; a2 <- zget av2v (a_begin + 2) ;;
    b1 <- zget bv2v (b_begin + Z.rem (which_down + 1) 3) ;; b2 <- zget bv2v (b_begin + Z.rem (which_down + 2) 3) ;;
    Ok (if (a1 =? b1) && (a2 =? b2) then Some (make_code false (rotation_to_first 3 which_down) 0)
        else if (a1 =? b2) && (a2 =? b1) then Some (make_code true (rotation_to_first 3 which_down) 0)
        else None)
  | 4 =>
    a2 <- zget av2v (a_begin + 2) ;; b2 <- zget bv2v (b_begin + Z.rem (which_down + 2) 4) ;;
    if negb (a2 =? b2) then Ok None else
    a1 <- zget av2v (a_begin + 1) ;; a3 <- zget av2v (a_begin + 3) ;;
    b1 <- zget bv2v (b_begin + Z.rem (which_down + 1) 4) ;; b3 <- zget bv2v (b_begin + Z.rem (which_down + 3) 4) ;;
    Ok (if (a1 =? b1) && (a3 =? b3) then Some (make_code false (rotation_to_first 4 which_down) 0)
        else if (a1 =? b3) && (a3 =? b1) then Some (make_code true (rotation_to_first 4 which_down) 0)
        else None)
  | _ => Abort
  end.

(** src/Omega_h_adj.cpp:370-391, the kernel of find_matches_deg for one [a]; once a match is found and
    duplicates are allowed the loop stops *)
Definition match_kernel (deg : Z) (a2fv av2v bv2v : list Z) (v2b : adj) (allow_duplicates : bool) (a : Z) : res (Z * Z) :=
  fv <- zget a2fv a ;;
  vb_begin <- zget (adj_a2ab v2b) fv ;; vb_end <- zget (adj_a2ab v2b) (fv + 1) ;;
  found <- foldM (fun found vb =>
      match found, allow_duplicates with
      | Some _, true => Ok found
      | _, _ =>
        b <- zget (adj_ab2b v2b) vb ;;
        vb_codes <- match adj_codes v2b with Some c => Ok c | None => UB end ;;
        vb_code <- zget vb_codes vb ;;
        m <- is_match deg av2v (a * deg) bv2v (b * deg) (code_which_down vb_code) ;;
        match m with
        | None => Ok found
        | Some code => match found with Some _ => Abort | None => Ok (Some (b, code)) end
        end
      end) (zfromto vb_begin vb_end) None ;;
  match found with Some r => Ok r | None => Abort end.

(** src/Omega_h_adj.cpp:357-396 find_matches_deg; iteration [a] sets a2b[a] and codes[a] *)
Definition find_matches_deg (deg : Z) (a2fv av2v bv2v : list Z) (v2b : adj) (allow_duplicates : bool) : res (list Z * list Z) :=
  let na := zlen a2fv in
  _ <- check (na * deg =? zlen av2v) ;;
  r <- tabulate na (match_kernel deg a2fv av2v bv2v v2b allow_duplicates) ;;
  Ok (map fst r, map snd r).

(** src/Omega_h_adj.cpp:398-414 find_matches_ex *)
Definition find_matches_ex (deg : Z) (a2fv av2v bv2v : list Z) (v2b : adj) (allow_duplicates : bool) : res (list Z * list Z) :=
  if deg =? 2 then find_matches_deg 2 a2fv av2v bv2v v2b allow_duplicates
  else if deg =? 3 then find_matches_deg 3 a2fv av2v bv2v v2b allow_duplicates
  else if deg =? 4 then find_matches_deg 4 a2fv av2v bv2v v2b allow_duplicates
  else Abort.

(** src/Omega_h_adj.cpp:416-422 find_matches (allow_duplicates defaults to false, src/Omega_h_adj.hpp) *)
Definition find_matches (f : family) (dim : Z) (av2v bv2v : list Z) (v2b : adj) : res (list Z * list Z) :=
  _ <- check (dim <=? 2) ;;
  let deg := element_degree f dim 0 in
  a2fv <- get_component av2v deg 0 ;;
  find_matches_ex deg a2fv av2v bv2v v2b false.

(** src/Omega_h_adj.cpp:424-433 reflect_down(hv2v, lv2v, v2l, ...); the result has no offsets *)
Definition reflect_down_v2l (hv2v lv2v : list Z) (v2l : adj) (f : family) (high_dim low_dim : Z) : res (list Z * list Z) :=
  uv2v <- form_uses hv2v f high_dim low_dim ;;
  find_matches f low_dim uv2v lv2v v2l.

(** src/Omega_h_adj.cpp:435-441 reflect_down(hv2v, lv2v, family, nv, ...); memory and schedules as for
    invert_adj *)
Definition reflect_down (hv2v lv2v : list Z) (f : family) (nv high_dim low_dim : Z) (m0 : mem Z) (s1 s2 : list nat)
  : res (option (list Z * list Z)) :=
  let nverts_per_low := element_degree f low_dim 0 in
  let l2v := mk_adj [] lv2v None in
  o <- invert_adj l2v nverts_per_low nv m0 s1 s2 ;;
  match o with
  | None => Ok None
  | Some v2l => r <- reflect_down_v2l hv2v lv2v v2l f high_dim low_dim ;; Ok (Some r)
  end.
