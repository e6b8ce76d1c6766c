(** Model of the numbering of new entities, src/Omega_h_modify.cpp:139-404,446-517 (ranks, owners, global
    numbers and connectivity of the new mesh are left out). *)
From Verif Require Import Prelude M_Array M_Scan M_Map M_Align M_Graph M_Adj M_Mark M_Swap3d.
Local Open Scope Z_scope.

(** what is asked of the old mesh: dim(), nents(d), ask_up(a, b), ask_down(b, a).ab2b,
    element_degree(family(), b, a), owned(d) *)
Record mesh_view := mk_mesh { mesh_dim : Z; nents : Z -> Z; ask_up : Z -> Z -> adj; ask_down : Z -> Z -> list Z; degree : Z -> Z -> Z; owned : Z -> list Z }.

(** Few<LOs, 4>: four entries, [None] for an array that does not exist() *)
Definition few := list (option (list Z)).
Definition at_ (f : few) (d : Z) : option (list Z) := match zget f d with Ok o => o | _ => None end.
Definition exists_ (f : few) (d : Z) : bool := match at_ f d with Some _ => true | None => false end.
(** using an array that does not exist *)
Definition the (f : few) (d : Z) : res (list Z) := match at_ f d with Some l => Ok l | None => UB end.

(** src/Omega_h_modify.cpp:139-147 collect_same *)
Definition collect_same (ms : mesh_view) (ent_dim : Z) (mds_are_mods : few) (keep_mods : bool) : res (list Z) :=
  if keep_mods || negb (exists_ mds_are_mods ent_dim) then Ok (zrange (nents ms ent_dim)) else
  m <- the mds_are_mods ent_dim ;; collect_marked (invert_marks m).

(** src/Omega_h_modify.cpp:163-195 get_mods2reps *)
Definition get_mods2reps (ms : mesh_view) (ent_dim mod_dim : Z) (mods2mds : list Z) : res (list Z) :=
  if mod_dim =? ent_dim then Ok mods2mds
  else if ent_dim >? mod_dim then
    let mds2ents := ask_up ms mod_dim ent_dim in
    tabulate (zlen mods2mds) (fun m => md <- zget mods2mds m ;; first <- zget (adj_a2ab mds2ents) md ;; zget (adj_ab2b mds2ents) first)
  else
    let mds2ents := ask_down ms mod_dim ent_dim in
    tabulate (zlen mods2mds) (fun m => md <- zget mods2mds m ;; zget mds2ents (md * degree ms mod_dim ent_dim)).

(** src/Omega_h_modify.cpp:210-243 get_rep_counts; the atomic additions commute, and are made in order *)
Definition get_rep_counts (ms : mesh_view) (ent_dim : Z) (mods2mds mods2reps mods2nprods : few) (same2ents : list Z) (count_non_owned : bool) : res (list Z) :=
  counts <- filled (nents ms ent_dim) 0 ;;
  _ <- check (zlen (owned ms ent_dim) =? nents ms ent_dim) ;;
  counts <- forM (zlen same2ents) counts (fun counts same_ent =>
    ent <- zget same2ents same_ent ;;
    own <- (if count_non_owned then Ok true else o <- zget (owned ms ent_dim) ent ;; Ok (truth o)) ;;
    if (own : bool) then zset counts ent 1 else Ok counts) ;;
  forM (mesh_dim ms + 1) counts (fun counts mod_dim =>
    if negb (exists_ mods2reps mod_dim) then Ok counts else
    reps <- the mods2reps mod_dim ;; nprods <- the mods2nprods mod_dim ;;
    _ <- check (zlen reps =? zlen nprods) ;;
    forM (zlen reps) counts (fun counts m =>
      rep <- zget reps m ;; n <- zget nprods m ;;
      own <- (if count_non_owned then Ok true else mds <- the mods2mds mod_dim ;; md <- zget mds m ;; o <- zget (owned ms mod_dim) md ;; Ok (truth o)) ;;
      if (own : bool) then c <- zget counts rep ;; zset counts rep (c + n) else Ok counts)).

(** src/Omega_h_modify.cpp:305-332, the kernel for one [rep]: the entries rep2md_order[mod_dim][md] it
    stores, as triples (mod_dim, md, value) *)
Definition rep_orders (ms : mesh_view) (rep_dim : Z) (mods_have_prods : Z -> bool) (mds2mods mods2nprods : few) (rep : Z) : res (list (Z * Z * Z)) :=
  start <- (if mods_have_prods rep_dim then
              inv <- the mds2mods rep_dim ;; m <- zget inv rep ;;
              if m >=? 0 then np <- the mods2nprods rep_dim ;; zget np m else Ok 0
            else Ok 0) ;;
  s <- foldM (fun s mod_dim =>
    if negb (mods_have_prods mod_dim) then Ok s else
    let up := ask_up ms rep_dim mod_dim in
    lo <- zget (adj_a2ab up) rep ;; hi <- zget (adj_a2ab up) (rep + 1) ;;
    foldM (fun s rep_md =>
      md <- zget (adj_ab2b up) rep_md ;;
      inv <- the mds2mods mod_dim ;; m <- zget inv md ;;
      if m >=? 0 then
        codes <- match adj_codes up with Some c => Ok c | None => UB end ;;
        code <- zget codes rep_md ;;
        if code_which_down code =? 0 then
          np <- the mods2nprods mod_dim ;; n <- zget np m ;;
          Ok (fst s ++ [(mod_dim, md, snd s)], snd s + n)
        else Ok s
      else Ok s) (zfromto lo hi) s) (zfromto (rep_dim + 1) (mesh_dim ms + 1)) ([], start) ;;
  Ok (fst s).

Definition store_order (w : few) (e : Z * Z * Z) : res few :=
  let '(d, md, v) := e in l <- the w d ;; l <- zset l md v ;; zset w d (Some l).

(** src/Omega_h_modify.cpp:283-338 get_rep2md_order. Each iteration makes its stores, which nobody reads
    before the end, after its last read. *)
Definition get_rep2md_order (ms : mesh_view) (rep_dim : Z) (mods2mds mods2nprods : few) (mods_have_prods : Z -> bool) : res few :=
  let used := fun d => (rep_dim <? d) && (d <=? mesh_dim ms) && mods_have_prods d in
  if negb (existsb used (zrange 4)) then Ok [None; None; None; None] else
  w <- mapM (fun d => if used d then w <- filled (nents ms d) (-1) ;; Ok (Some w) else Ok None) (zrange 4) ;;
  mds2mods <- mapM (fun d => if used d || ((d =? rep_dim) && mods_have_prods d) then mds <- the mods2mds d ;; i <- invert_injective_map mds (nents ms d) ;; Ok (Some i) else Ok None) (zrange 4) ;;
  forM (nents ms rep_dim) w (fun w rep => es <- rep_orders ms rep_dim mods_have_prods mds2mods mods2nprods rep ;; foldM store_order es w).

(** src/Omega_h_modify.cpp:347-404 assign_new_numbering: numbers of the entities that stay and of the
    products. The inner loops store offset, offset + 1, ... in the entries of the products of [mod]. *)
Definition assign_new_numbering (old2new same2old : list Z) (mods2mds mods2reps mods2prods rep2md_order : few) (keep_mods : bool) : res (list Z * list Z) :=
  same2new <- unmap same2old old2new 1 ;;
  nprods <- forM 4 0 (fun n d => match at_ mods2prods d with Some p => last_of p | None => Ok n end) ;;
  w <- blank nprods ;;
  w <- forM 4 w (fun w d =>
    match at_ mods2prods d with
    | None => Ok w
    | Some prods =>
      reps <- the mods2reps d ;;
      mods2offsets <- unmap reps old2new 1 ;;
      _ <- check (zlen reps =? zlen prods - 1) ;;
      let rep_self_count := if keep_mods then 1 else if exists_ rep2md_order d then 1 else 0 in
      forM (zlen reps) w (fun w m =>
        first <- zget mods2offsets m ;;
        md_order <- match at_ rep2md_order d with
                    | Some order => mds <- the mods2mds d ;; md <- zget mds m ;; o <- zget order md ;; _ <- check (o >=? 0) ;; Ok o
                    | None => Ok 0
                    end ;;
        let offset := first + md_order + rep_self_count in
        lo <- zget prods m ;; hi <- zget prods (m + 1) ;;
        write_block w lo (zfromto offset (offset + (hi - lo))))
    end) ;;
  prods2new <- freeze w ;;
  Ok (same2new, prods2new).

(** what modify_ents computes about numbers: p_same_ents2old_ents, p_same_ents2new_ents,
    p_prods2new_ents, p_old_ents2new_ents, and nnew_ents *)
Record numbering := mk_numbering { same2old : list Z; same2new : list Z; prods2new : list Z; old2new : list Z; nnew : Z }.

(** src/Omega_h_modify.cpp:468-517 modify_ents up to the new local numbers *)
Definition modify_ents (ms : mesh_view) (ent_dim : Z) (mods2mds mds_are_mods mods2prods : few) (keep_mods : bool) : res numbering :=
  same2old <- collect_same ms ent_dim mds_are_mods keep_mods ;;
  mods <- mapM (fun d =>
    match at_ mods2prods d with
    | Some prods =>
      if d <=? mesh_dim ms then
        mds <- the mods2mds d ;; _ <- check (zlen prods =? zlen mds + 1) ;;
        reps <- get_mods2reps ms ent_dim d mds ;; nprods <- get_degrees prods ;; Ok (Some reps, Some nprods)
      else Ok (None, None)
    | None => Ok (None, None)
    end) (zrange 4) ;;
  let mods2reps := map fst mods in
  let mods2nprods := map snd mods in
  counts <- get_rep_counts ms ent_dim mods2mds mods2reps mods2nprods same2old true ;;
  let offsets := offset_scan counts in
  nnew <- last_of offsets ;;
  order <- get_rep2md_order ms ent_dim mods2mds mods2nprods (exists_ mods2prods) ;;
  r <- assign_new_numbering offsets same2old mods2mds mods2reps mods2prods order keep_mods ;;
  old2new <- map_onto (fst r) same2old (nents ms ent_dim) (-1) 1 ;;
  Ok (mk_numbering same2old (fst r) (snd r) old2new nnew).

(** src/Omega_h_modify.cpp:446-466 modify_ents_adapt: entities of dimension key_dim are replaced, with
    everything they bound *)
Definition modify_ents_adapt (ms : mesh_view) (ent_dim key_dim : Z) (keys2kds keys2prods : list Z) : res numbering :=
  kds_are_keys <- mark_image keys2kds (nents ms key_dim) ;;
  mods <- mapM (fun d =>
    if d =? key_dim then Ok (Some keys2kds, Some kds_are_keys)
    else if (key_dim <? d) && (d <=? mesh_dim ms) then
      marks <- mark_up (ask_down ms d key_dim) (degree ms d key_dim) (nents ms d) kds_are_keys ;;
      mds <- collect_marked marks ;; Ok (Some mds, Some marks)
    else Ok (None, None)) (zrange 4) ;;
  modify_ents ms ent_dim (map fst mods) (map snd mods) (map (fun d => if d =? key_dim then Some keys2prods else None) (zrange 4)) false.
