(** Model of src/Omega_h_adj.cpp:443-510 transit. *)
From Verif Require Import Prelude M_Array M_Sort M_Template M_Align M_Adj.
Local Open Scope Z_scope.

(** src/Omega_h_adj.cpp:473-505, body of the loop over the lows [hl] of element [h].  [done] holds
    hl2l[hl_begin .. hl_begin+hl-1] and the codes at the same places (empty when there are none). *)
Definition transit_low (hm2m m2hm_codes ml2l : list Z) (ml_codes : option (list Z)) (f : family) (high_dim low_dim : Z) (h : Z)
    (done : list Z * list Z) (hl : Z) : res (list Z * list Z) :=
  let nmids_per_high := element_degree f high_dim (low_dim + 1) in
  let nlows_per_mid := element_degree f (low_dim + 1) low_dim in
  let '(hm, hml, canon_flipped) := element_up_template f high_dim low_dim hl 0 in
  let hm_begin := h * nmids_per_high in
  m <- zget hm2m (hm_begin + hm) ;;
  m2hm_code <- zget m2hm_codes (hm_begin + hm) ;;
  let hm2m_code := invert_alignment nlows_per_mid m2hm_code in
  let ml := align_index nlows_per_mid low_dim hml hm2m_code in
  let ml_begin := m * nlows_per_mid in
  l <- zget ml2l (ml_begin + ml) ;;
  _ <- check (forallb (fun l2 => negb (l =? l2)) (fst done)) ;;
  if low_dim =? 1 then
    codes <- match ml_codes with Some c => Ok c | None => UB end ;;
    face_edge_code <- zget codes (ml_begin + ml) ;;
    let region_edge_flipped := xorb (xorb (code_is_flipped hm2m_code) (code_rotation face_edge_code =? 1)) canon_flipped in
    Ok (fst done ++ [l], snd done ++ [make_code false (Z.b2z region_edge_flipped) 0])
  else Ok (fst done ++ [l], snd done).

(** src/Omega_h_adj.cpp:443-510 transit; iteration [h] of the kernel fills row [h] of the results *)
Definition transit (h2m m2l : adj) (f : family) (high_dim low_dim : Z) : res (list Z * option (list Z)) :=
  _ <- check (high_dim <=? 3) ;;
  let mid_dim := low_dim + 1 in
  _ <- check (mid_dim <? high_dim) ;;
  _ <- check ((low_dim =? 1) || (low_dim =? 0)) ;;
  m2hm_codes <- match adj_codes h2m with Some c => Ok c | None => UB end ;;
  let nmids_per_high := element_degree f high_dim mid_dim in
  let nlows_per_high := element_degree f high_dim low_dim in
  nhighs <- divide_no_remainder (zlen (adj_ab2b h2m)) nmids_per_high ;;
  rows <- tabulate nhighs (fun h =>
    foldM (transit_low (adj_ab2b h2m) m2hm_codes (adj_ab2b m2l) (adj_codes m2l) f high_dim low_dim h) (zrange nlows_per_high) ([], [])) ;;
  Ok (concat (map fst rows), if low_dim =? 1 then Some (concat (map snd rows)) else None).
