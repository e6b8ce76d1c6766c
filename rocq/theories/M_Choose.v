(** Model of the choice of vertices to collapse, on one rank: src/Omega_h_collapse.hpp, src/Omega_h_check_collapse.cpp,
    src/Omega_h_coarsen.cpp:17-94 and :174-190, src/Omega_h_coarsen_qualities.cpp:90-103, src/Omega_h_collapse_rail.cpp:15-67. *)
From Verif Require Import Prelude M_Array M_Par M_Map M_Template M_Align M_Adj M_Match M_Graph M_Coarsen M_MeshAdj M_RefineMesh.
Local Open Scope Z_scope.

(** src/Omega_h_collapse.hpp:11-32: DONT_COLLAPSE is 0; collapses, do_collapse and dont_collapse.  Codes are 8 bits wide; these
    operations on the lowest two bits do not leave that range. *)
Definition DONT_COLLAPSE : Z := 0.
Definition code_collapses (code col_v : Z) : bool := negb (Z.land code (Z.shiftl 1 col_v) =? 0).
Definition do_collapse (code col_v : Z) : Z := Z.lor code (Z.shiftl 1 col_v).
Definition dont_collapse (code col_v : Z) : Z := Z.land code (Z.lnot (Z.shiftl 1 col_v)).

(** src/Omega_h_coarsen.cpp:174-187 coarsen_verts: each edge may collapse the ends that are marked *)
Definition edge_codes (ev2v vert_marks : list Z) (nedges : Z) : res (list Z) :=
  tabulate nedges (fun e => foldM (fun code eev => v <- zget ev2v (e * 2 + eev) ;; m <- zget vert_marks v ;;
    Ok (if m =? 0 then code else do_collapse code eev)) [0; 1] DONT_COLLAPSE).

(** src/Omega_h_check_collapse.cpp:10-45 check_collapse_class *)
Definition check_collapse_class (ev2v verts2class_dim edges2class_dim cands2edges cand_codes : list Z) : res (list Z) :=
  tabulate (zlen cands2edges) (fun cand =>
    code <- zget cand_codes cand ;; edge <- zget cands2edges cand ;;
    v0 <- zget ev2v (edge * 2 + 0) ;; v1 <- zget ev2v (edge * 2 + 1) ;;
    cd0 <- zget verts2class_dim v0 ;; cd1 <- zget verts2class_dim v1 ;; e_cd <- zget edges2class_dim edge ;;
    Ok (if cd0 =? cd1 then (if negb (cd0 =? e_cd) then DONT_COLLAPSE else code)
        else fold_left (fun code' p => if andb (code_collapses code (fst p)) (negb (snd p =? e_cd)) then dont_collapse code' (fst p) else code') [(0, cd0); (1, cd1)] code)).

(** src/Omega_h_check_collapse.cpp:69-106 check_collapse_exposure in one dimension.  What finds the side opposite the vertex
    that stays (:92-96) is the same as in src/Omega_h_coarsen_topology.cpp:38-52. *)
Definition exposure_dim (e2c : adj) (cs2s c2dim s2dim : list Z) (cell_dim : Z) (cands2edges cand_codes : list Z) : res (list Z) :=
  ec_codes <- match adj_codes e2c with Some codes => Ok codes | None => UB end ;;
  tabulate (zlen cands2edges) (fun cand =>
    code <- zget cand_codes cand ;; e <- zget cands2edges cand ;;
    lo <- zget (adj_a2ab e2c) e ;; hi <- zget (adj_a2ab e2c) (e + 1) ;;
    foldM (fun code ec =>
      c <- zget (adj_ab2b e2c) ec ;; c_dim <- zget c2dim c ;;
      foldM (fun code eev_col =>
        if negb (code_collapses code eev_col) then Ok code
        else p <- dead_pair cell_dim (adj_ab2b e2c) ec_codes cs2s (1 - eev_col) ec ;;
             s_dim <- zget s2dim (snd p) ;; Ok (if negb (s_dim =? c_dim) then dont_collapse code eev_col else code)) [0; 1] code)
      (zfromto lo hi) code).
(** src/Omega_h_check_collapse.cpp:108-117 check_collapse_exposure.  On one rank sync_subset_array gives back what it gets. *)
Definition check_collapse_exposure (old : amesh) (class_dim : Z -> list Z) (cands2edges cand_codes : list Z) : res (list Z) :=
  foldM (fun codes cell_dim => exposure_dim (kept_adj old 1 cell_dim) (adj_ab2b (kept_adj old cell_dim (cell_dim - 1))) (class_dim cell_dim) (class_dim (cell_dim - 1)) cell_dim cands2edges codes)
    (zfromto 2 (a_dim old + 1)) cand_codes.

(** src/Omega_h_array_ops.cpp:328-333 each_neq_to with DONT_COLLAPSE *)
Definition each_candidate (codes : list Z) : list Z := map (fun code => if code =? DONT_COLLAPSE then 0 else 1) codes.
(** src/Omega_h_coarsen.cpp:31-34 and :58-61: the candidates among all edges, with their codes *)
Definition candidates (codes : list Z) : res (list Z * list Z) :=
  cands2edges <- collect_marked (each_candidate codes) ;; cand_codes <- unmap cands2edges codes 1 ;; Ok (cands2edges, cand_codes).
(** src/Omega_h_coarsen.cpp:42-49 filter_coarsen_candidates *)
Definition filter_candidates (cands2edges cand_codes : list Z) : res (list Z * list Z) :=
  new2old <- collect_marked (each_candidate cand_codes) ;; cands <- unmap new2old cands2edges 1 ;; codes <- unmap new2old cand_codes 1 ;; Ok (cands, codes).
(** src/Omega_h_coarsen_qualities.cpp:90-103 filter_coarsen_dirs *)
Definition filter_dirs (codes keep : list Z) : res (list Z) :=
  tabulate (zlen codes) (fun cand => code <- zget codes cand ;;
    foldM (fun code dir => k <- zget keep (cand * 2 + dir) ;; Ok (if k =? 0 then dont_collapse code dir else code)) [0; 1] code).
(** src/Omega_h_coarsen.cpp:65-89: how the checks by lengths, normals and qualities judge is not modelled: each is any function that
    tells, for an edge and an end of it, whether that end may go.  What they say of ends that may not go anyway does not matter.
    After each check the candidates without an end that may go are dropped, and if none is left there is nothing to coarsen. *)
Definition keep_dirs (ok : Z -> Z -> bool) (cands2edges : list Z) : list Z := flat_map (fun e => map (fun dir => if ok e dir then 1 else 0) [0; 1]) cands2edges.
Fixpoint other_checks (checks : list (Z -> Z -> bool)) (cands2edges cand_codes : list Z) : res (option (list Z * list Z)) :=
  match checks with
  | [] => Ok (Some (cands2edges, cand_codes))
  | ok :: checks =>
    codes <- filter_dirs cand_codes (keep_dirs ok cands2edges) ;;
    p <- filter_candidates cands2edges codes ;;
    if zlen (fst p) =? 0 then Ok None else other_checks checks (fst p) (snd p)
  end.

Section rails.
(** lengths and qualities are floating-point numbers; only these comparisons are made *)
Context {L Q : Type} (shorter same : L -> L -> bool) (higher : Q -> Q -> bool).
(** src/Omega_h_collapse_rail.cpp:34-56: the best edge of vertex [v] up to some place: its global number, length and quality *)
Definition better (global : Z) (length : L) (qual : Q) (best : option (Z * L * Q)) : option (Z * L * Q) :=
  match best with
  | None => Some (global, length, qual)
  | Some (best_global, best_length, best_qual) =>
    if orb (best_global =? -1) (orb (shorter length best_length) (andb (same length best_length) (higher qual best_qual))) then Some (global, length, qual) else best
  end.
(** src/Omega_h_collapse_rail.cpp:15-67 choose_rails on one rank; [qual e eev] is cand_edge_quals at the candidate that is edge
    [e].  Beside the marks and rails: the qualities by which the independent set is chosen (none: -1). *)
Definition choose_rails (v2e : adj) (nverts nedges : Z) (globals : list Z) (lengths : list L) (qual : Z -> Z -> Q) (cands2edges cand_codes : list Z) : res (list Z * list (option Q) * list Z) :=
  edges2cands <- invert_injective_map cands2edges nedges ;;
  ve_codes <- match adj_codes v2e with Some codes => Ok codes | None => UB end ;;
  best <- tabulate nverts (fun v =>
    lo <- zget (adj_a2ab v2e) v ;; hi <- zget (adj_a2ab v2e) (v + 1) ;;
    best <- foldM (fun best ve =>
      e <- zget (adj_ab2b v2e) ve ;; cand <- zget edges2cands e ;;
      if cand =? -1 then Ok best else
      ve_code <- zget ve_codes ve ;;
      let eev := code_which_down ve_code in
      cand_code <- zget cand_codes cand ;;
      _ <- check (negb (cand_code =? DONT_COLLAPSE)) ;;
      if negb (code_collapses cand_code eev) then Ok best else
      global <- zget globals e ;; length <- zget lengths e ;;
      Ok (better global length (qual e eev) best)) (zfromto lo hi) None ;;
    _ <- check (match best with None => true | Some (g, _, _) => negb (g =? -1) end) ;;
    Ok best) ;;
  Ok (map (fun b => match b with None => 0 | Some _ => 1 end) best, map (fun b => match b with None => None | Some (_, _, q) => Some q end) best,
      map (fun b => match b with None => -1 | Some (g, _, _) => g end) best).

(** src/Omega_h_coarsen.cpp:174-190 coarsen_verts, :23-40 coarsen_element_based1 and :55-94 coarsen_ghosted up to the choice of an
    independent set, on one rank.  [class_dim d] is the tag of entities of dimension [d].  In the result [Some None] says that
    there is nothing to coarsen. *)
Definition choose_collapses (c : chance) (m : amesh) (class_dim : Z -> list Z) (globals : list Z) (lengths : list L) (qual : Z -> Z -> Q) (checks : list (Z -> Z -> bool)) (vert_marks : list Z)
    : res (option (amesh * option (list Z * list (option Q) * list Z))) :=
  old <~ ask_each c m (dim_pairs (a_dim m)) ;;
  let ev2v := adj_ab2b (kept_adj old 1 0) in
  codes <- edge_codes ev2v vert_marks (a_nents m 1) ;;
  p <- candidates codes ;;
  codes <- check_collapse_class ev2v (class_dim 0) (class_dim 1) (fst p) (snd p) ;;
  if forallb (fun code => code <=? DONT_COLLAPSE) codes then Ok (Some (old, None)) else
  codes <- map_onto codes (fst p) (a_nents m 1) DONT_COLLAPSE 1 ;;
  p <- candidates codes ;;
  codes <- check_collapse_exposure old class_dim (fst p) (snd p) ;;
  p <- filter_candidates (fst p) codes ;;
  o <- other_checks checks (fst p) (snd p) ;;
  match o with
  | None => Ok (Some (old, None))
  | Some (cands2edges, cand_codes) => r <- choose_rails (kept_adj old 0 1) (a_nents m 0) (a_nents m 1) globals lengths qual cands2edges cand_codes ;; Ok (Some (old, Some r))
  end.
End rails.
