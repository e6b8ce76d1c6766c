(** Model of the marks for refining and derefining meshes of hypercubes: src/Omega_h_amr.cpp:32-81 and
    src/Omega_h_amr_topology.cpp:12-81, on the arrays that the mesh returns. *)
From Verif Require Import Prelude M_Array M_Par M_Graph M_Mark.
Local Open Scope Z_scope.

(** What enforce_2to1_refine asks of the mesh, src/Omega_h_amr.cpp:60-66: leaves among elements and bridges, the bridges of each
    element, the elements of each bridge, which bridges are classified on the dimension of the elements, and the children of
    each bridge among the bridges (C32). *)
Record hmesh := mk_hmesh {
  h_nelems : Z; h_deg : Z;
  h_elem_leaf : list Z; h_bridge_leaf : list Z;
  h_down : list Z; h_up : graph;
  h_interior : list Z; h_children : graph }.

(** src/Omega_h_amr.cpp:45-52: the element of one child of a bridge, with its mark. *)
Definition child_elem (m : hmesh) (marks : list Z) (child : Z) : res (Z * Z) :=
  lo <- zget (a2ab (h_up m)) child ;;
  hi <- zget (a2ab (h_up m)) (child + 1) ;;
  _ <- check (hi - lo =? 1) ;;
  c <- zget (ab2b (h_up m)) lo ;;
  mk <- zget marks c ;;
  if ((0 <=? c) && (c <? h_nelems m))%bool then Ok (c, mk) else UB.

(** src/Omega_h_amr.cpp:39-54: the elements looked at for one bridge. *)
Definition bridge_elems (m : hmesh) (marks : list Z) (bridge : Z) : res (list (Z * Z)) :=
  i <- zget (h_interior m) bridge ;;
  if negb (truth i) then Ok [] else
  l <- zget (h_bridge_leaf m) bridge ;;
  if truth l then Ok [] else
  lo <- zget (a2ab (h_children m)) bridge ;;
  hi <- zget (a2ab (h_children m)) (bridge + 1) ;;
  mapM (fun c => child <- zget (ab2b (h_children m)) c ;; child_elem m marks child) (zfromto lo hi).

(** src/Omega_h_amr.cpp:37-55: the elements looked at for one element, in order. *)
Definition looked_at (m : hmesh) (marks : list Z) (elem : Z) : res (list (Z * Z)) :=
  rs <- mapM (fun b => bridge <- zget (h_down m) (elem * h_deg m + b) ;; bridge_elems m marks bridge) (zrange (h_deg m)) ;;
  Ok (concat rs).

(** Entry [e] of the array one_level_mark, which the threads share. *)
Definition place (e : Z) : loc := (0%nat, Z.to_nat e).

(** should_elem_be_refined, src/Omega_h_amr.cpp:32-54, and the store of its result, :74: the shared array is read while other
    iterations write it. *)
Fixpoint look (e : Z) (mk : Z) (cs : list (Z * Z)) : prog Z :=
  match cs with
  | [] => Wr (place e) mk Done
  | (c, cm) :: rest => Rd (place c) (fun v => look e (if (truth cm || truth v)%bool then 1 else mk) rest)
  end.

(** One iteration, src/Omega_h_amr.cpp:68-78. *)
Definition enforce_one (m : hmesh) (marks : list Z) (elem : Z) : res (prog Z) :=
  l <- zget (h_elem_leaf m) elem ;;
  if negb (truth l) then Ok (Wr (place elem) 0 Done) else
  mk <- zget marks elem ;;
  if truth mk then Ok (Wr (place elem) 1 Done) else
  cs <- looked_at m marks elem ;;
  Ok (look elem 0 cs).

Definition is_done (p : prog Z) : bool := match p with Done => true | _ => false end.

(** enforce_2to1_refine, src/Omega_h_amr.cpp:56-81.  The array is allocated without being filled (:67): its entries are those of
    [before], which can be anything.  [schedule] says which iteration makes the next access; [Ok None] if not all end.
    Simplification: what an iteration reads besides the shared array does not change, so it is read at the start. *)
Definition enforce_2to1_refine (before : mem Z) (schedule : list nat) (m : hmesh) (elem_dim bridge_dim : Z) (marks : list Z) : res (option (list Z)) :=
  _ <- check (0 <? bridge_dim) ;;
  _ <- check (bridge_dim <? elem_dim) ;;
  ps <- tabulate (h_nelems m) (enforce_one m marks) ;;
  let c := run (before, ps) schedule in
  Ok (if forallb is_done (snd c) then Some (map (fun e => fst c (place e)) (zrange (h_nelems m))) else None).

(** mark_leaf_down and mark_refined for one dimension, src/Omega_h_amr_topology.cpp:12-25; land_each is
    src/Omega_h_array_ops.cpp:352-358. [l2h] are the
    elements of each entity, and for the elements themselves each has itself. *)
Definition mark_refined (l2h : graph) (leaf marks : list Z) : res (list Z) :=
  dim_mark <- mark_down l2h marks ;;
  _ <- check (zlen leaf =? zlen dim_mark) ;;
  tabulate (zlen leaf) (fun i => a <- zget leaf i ;; b <- zget dim_mark i ;; Ok (mark (truth a && truth b))).

(** The writes of one iteration of mark_persisting_elems, src/Omega_h_amr_topology.cpp:32-43. *)
Definition drop_children (children : graph) (leaf marks : list Z) (elem : Z) : res (prog Z) :=
  mk <- zget marks elem ;;
  if negb (truth mk) then Ok Done else
  lo <- zget (a2ab children) elem ;;
  hi <- zget (a2ab children) (elem + 1) ;;
  ds <- mapM (fun idx => child <- zget (ab2b children) idx ;; l <- zget leaf child ;; Ok (if truth l then [child] else [])) (zfromto lo hi) ;;
  Ok (fold_right (fun child p => Wr (place child) 0 p) Done (concat ds)).

(** mark_persisting_elems, src/Omega_h_amr_topology.cpp:27-46: all entries are 1 at first. *)
Definition mark_persisting_elems (schedule : list nat) (children : graph) (leaf marks : list Z) : res (option (list Z)) :=
  ps <- tabulate (zlen leaf) (drop_children children leaf marks) ;;
  let c := run (fun _ => 1, ps) schedule in
  Ok (if forallb is_done (snd c) then Some (map (fun e => fst c (place e)) (zrange (zlen leaf))) else None).

(** mark_persisting_ents, src/Omega_h_amr_topology.cpp:48-69. *)
Definition mark_persisting_ents (adj_elems : graph) (leaf elem_persists : list Z) : res (list Z) :=
  tabulate (zlen leaf) (fun ent =>
    l <- zget leaf ent ;;
    if negb (truth l) then Ok 1 else
    lo <- zget (a2ab adj_elems) ent ;; hi <- zget (a2ab adj_elems) (ent + 1) ;;
    foldM (fun persists idx => e <- zget (ab2b adj_elems) idx ;; p <- zget elem_persists e ;; Ok (if truth p then 1 else persists)) (zfromto lo hi) 0).
