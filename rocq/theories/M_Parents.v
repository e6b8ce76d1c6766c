(** Model of src/Omega_h_adj.cpp:265-292 and of the parts of Mesh that store parents and children:
    src/Omega_h_mesh.cpp:97-100,417-437 *)
From Verif Require Import Prelude M_Array M_Par M_Scan M_Sort M_Map M_Adj.
Local Open Scope Z_scope.

(** src/Omega_h_amr.hpp:13-15 code_which_child, code_parent_dim (I8 as a signed number) *)
Definition code_which_child (code : Z) : Z := Z.shiftr code 2.
Definition code_parent_dim (code : Z) : Z := Z.land code 3.

(** src/Omega_h_adj.hpp Parents: parent_idx and codes, one entry per child *)
Definition parents := (list Z * list Z)%type.

(** src/Omega_h_adj.cpp:265-277 filter_parents *)
Definition filter_parents (c2p : parents) (parent_dim : Z) : res (list Z) :=
  tabulate (zlen (fst c2p)) (fun c => code <- zget (snd c2p) c ;; Ok (if code_parent_dim code =? parent_dim then 1 else 0)).

(** src/Omega_h_adj.cpp:279-292 invert_parents; Children has the fields of Adj.  [Ok None]: the schedules
    stop before the kernels have finished. *)
Definition invert_parents (c2p : parents) (parent_dim nparent_dim_ents : Z) (m0 : mem Z) (s1 s2 : list nat) : res (option adj) :=
  filter <- filter_parents c2p parent_dim ;;
  rc2c <- collect_marked filter ;;
  rc2p <- unmap rc2c (fst c2p) 1 ;;
  o <- invert_map_by_atomics rc2p nparent_dim_ents m0 s1 s2 ;;
  match o with
  | None => Ok None
  | Some (p2pc, pc2rc, _) =>
    pc2c <- unmap pc2rc rc2c 1 ;;
    codes <- unmap pc2c (snd c2p) 1 ;;
    s <- sort_by_high_index p2pc pc2c codes ;;
    Ok (Some (mk_adj p2pc (fst s) (Some (snd s))))
  end.

(** the fields nents_, parents_ and children_ of Mesh; accesses are behind check_dim *)
Record fmesh := mk_fmesh { f_dim : Z; f_nents : Z -> Z; f_parents : Z -> option parents; f_children : Z -> Z -> option adj }.

(** src/Omega_h_mesh.cpp:281-289 check_dim2 *)
Definition f_check_dim2 (m : fmesh) (d : Z) : res unit :=
  _ <- check (0 <=? d) ;; _ <- check (d <=? f_dim m) ;; check (0 <=? f_nents m d).

(** src/Omega_h_mesh.cpp:97-100 set_parents *)
Definition set_parents (m : fmesh) (d : Z) (p : parents) : res fmesh :=
  _ <- f_check_dim2 m d ;;
  Ok (mk_fmesh (f_dim m) (f_nents m) (fun i => if i =? d then Some p else f_parents m i) (f_children m)).

(** src/Omega_h_mesh.cpp:417-426 ask_parents *)
Definition ask_parents (m : fmesh) (child_dim : Z) : res (fmesh * parents) :=
  _ <- f_check_dim2 m child_dim ;;
  match f_parents m child_dim with
  | Some p => Ok (m, p)
  | None =>
    parent_idx <- filled (f_nents m child_dim) (-1) ;; codes <- filled (f_nents m child_dim) 0 ;;
    m' <- set_parents m child_dim (parent_idx, codes) ;;
    Ok (m', (parent_idx, codes))
  end.

(** src/Omega_h_mesh.cpp:428-437 ask_children *)
Definition ask_children (m : fmesh) (parent_dim child_dim : Z) (m0 : mem Z) (s1 s2 : list nat) : res (option (fmesh * adj)) :=
  _ <- f_check_dim2 m parent_dim ;;
  r <- ask_parents m child_dim ;;
  let m := fst r in
  match f_children m parent_dim child_dim with
  | Some c => Ok (Some (m, c))
  | None =>
    o <- invert_parents (snd r) parent_dim (f_nents m parent_dim) m0 s1 s2 ;;
    match o with
    | None => Ok None
    | Some c => Ok (Some (mk_fmesh (f_dim m) (f_nents m) (f_parents m) (fun i j => if (i =? parent_dim) && (j =? child_dim) then Some c else f_children m i j), c))
    end
  end.

(** Histories *)
Inductive fevent := SetParents (d : Z) (p : parents) | AskParents (d : Z) | AskChildren (parent_dim child_dim : Z) (m0 : mem Z) (s1 s2 : list nat).
Definition run_fevent (m : fmesh) (e : fevent) : res (option fmesh) :=
  match e with
  | SetParents d p => m' <- set_parents m d p ;; Ok (Some m')
  | AskParents d => r <- ask_parents m d ;; Ok (Some (fst r))
  | AskChildren pd cd m0 s1 s2 => o <- ask_children m pd cd m0 s1 s2 ;; Ok (match o with Some r => Some (fst r) | None => None end)
  end.
Fixpoint run_fevents (m : fmesh) (es : list fevent) : res (option fmesh) :=
  match es with
  | [] => Ok (Some m)
  | e :: es => o <- run_fevent m e ;; match o with Some m' => run_fevents m' es | None => Ok None end
  end.
