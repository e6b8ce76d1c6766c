(** Model of src/Omega_h_adj.cpp:40-176: finding the unique sides of elements.  Kernels that fill one
    row of a fresh array per iteration are modelled by computing the rows and joining them. *)
From Verif Require Import Prelude M_Array M_Sort M_Map M_Template M_Align.
Local Open Scope Z_scope.

(** src/Omega_h_adj.cpp:40-66 IsFlipped; other degrees do not compile *)
Definition is_flipped (deg : Z) (adj : list Z) : res bool :=
  match deg with
  | 4 => x <- zget adj 3 ;; y <- zget adj 1 ;; Ok (x <? y)
  | 3 => x <- zget adj 2 ;; y <- zget adj 1 ;; Ok (x <? y)
  | 2 => Ok false
  | _ => Abort
  end.

(** src/Omega_h_adj.cpp:74-90, the kernel of get_codes_to_canonical_deg, on the row of one entity *)
Definition code_to_canonical (deg : Z) (row : list Z) : res Z :=
  min_v <- zget row 0 ;;
  m <- foldM (fun '(min_j, min_v) j => v <- zget row j ;; Ok (if v <? min_v then (j, v) else (min_j, min_v)))
         (zfromto 1 deg) (0, min_v) ;;
  let rotation := rotation_to_first deg (fst m) in
  tmp <- rotate_adj deg rotation row ;;
  b <- is_flipped deg tmp ;;
  Ok (make_code b rotation 0).

(** src/Omega_h_adj.cpp:68-95 get_codes_to_canonical_deg *)
Definition get_codes_to_canonical_deg (deg : Z) (ev2v : list Z) : res (list Z) :=
  ne <- divide_no_remainder (zlen ev2v) deg ;;
  tabulate ne (fun e => row <- get_row deg ev2v e ;; code_to_canonical deg row).

(** src/Omega_h_adj.cpp:97-104 get_codes_to_canonical *)
Definition get_codes_to_canonical (deg : Z) (ev2v : list Z) : res (list Z) :=
  if deg =? 4 then get_codes_to_canonical_deg 4 ev2v
  else if deg =? 3 then get_codes_to_canonical_deg 3 ev2v
  else if deg =? 2 then get_codes_to_canonical_deg 2 ev2v
  else Abort.

(** src/Omega_h_adj.cpp:108-116 are_equal *)
Fixpoint are_equal_from (canon : list Z) (a b : Z) (js : list Z) : res bool :=
  match js with
  | [] => Ok true
  | j :: js => x <- zget canon (a + j) ;; y <- zget canon (b + j) ;;
               if x =? y then are_equal_from canon a b js else Ok false
  end.
Definition are_equal (deg : Z) (canon : list Z) (e0 e1 : Z) : res bool :=
  are_equal_from canon (e0 * deg) (e1 * deg) (zrange deg).

(** src/Omega_h_adj.cpp:118-131 find_canonical_jumps *)
Definition find_canonical_jumps (deg : Z) (canon e_sorted2e : list Z) : res (list Z) :=
  let ne := zlen e_sorted2e in
  jumps <- filled ne 0 ;;
  jumps <- forM (Z.max 0 (ne - 1)) jumps (fun jumps e_sorted =>
    e0 <- zget e_sorted2e e_sorted ;; e1 <- zget e_sorted2e (e_sorted + 1) ;;
    eq <- are_equal deg canon e0 e1 ;;
    if (eq : bool) then Ok jumps else zset jumps e_sorted 1) ;;
  if zlen jumps =? 0 then Ok jumps else zset jumps (zlen jumps - 1) 1.

(** src/Omega_h_adj.cpp:133-142 find_unique_deg *)
Definition find_unique_deg (deg : Z) (uv2v : list Z) : res (list Z) :=
  codes <- get_codes_to_canonical deg uv2v ;;
  uv2v_canon <- align_ev2v deg uv2v codes ;;
  sorted2u <- sort_by_keys uv2v_canon deg ;;
  jumps <- find_canonical_jumps deg uv2v_canon sorted2u ;;
  e2sorted <- collect_marked jumps ;;
  e2u <- compound_maps e2sorted sorted2u ;;
  unmap e2u uv2v deg.

(** src/Omega_h_adj.cpp:155-176 form_uses *)
Definition form_uses (hv2v : list Z) (f : family) (high_dim low_dim : Z) : res (list Z) :=
  let nverts_per_high := element_degree f high_dim 0 in
  let nverts_per_low := element_degree f low_dim 0 in
  let nlows_per_high := element_degree f high_dim low_dim in
  nhigh <- divide_no_remainder (zlen hv2v) nverts_per_high ;;
  rows <- tabulate nhigh (fun h =>
    uses <- tabulate nlows_per_high (fun u =>
      tabulate nverts_per_low (fun uv => zget hv2v (h * nverts_per_high + element_down_template f high_dim low_dim u uv))) ;;
    Ok (concat uses)) ;;
  Ok (concat rows).

(** src/Omega_h_adj.cpp:144-153 find_unique *)
Definition find_unique (hv2v : list Z) (f : family) (high_dim low_dim : Z) : res (list Z) :=
  _ <- check (high_dim >? low_dim) ;;
  _ <- check (low_dim <=? 2) ;;
  _ <- check (Z.rem (zlen hv2v) (element_degree f high_dim 0) =? 0) ;;
  uv2v <- form_uses hv2v f high_dim low_dim ;;
  find_unique_deg (element_degree f low_dim 0) uv2v.
