(** Model of src/Omega_h_mark.cpp and of binary_search in src/Omega_h_mark.hpp, on the arrays and
    graphs that the mesh returns.  Each kernel iteration sets one entry of the result. *)
From Verif Require Import Prelude M_Array M_Scan M_Sort M_Map M_Graph.
Local Open Scope Z_scope.

(** an I8 as a condition, and a condition as an I8 *)
Definition truth (x : Z) : bool := negb (x =? 0).
Definition mark (b : bool) : Z := if b then 1 else 0.

(** src/Omega_h_mark.cpp:12-19 mark_exposed_sides, from the upward offsets of the sides *)
Definition mark_exposed_sides (s2sc : list Z) : res (list Z) :=
  tabulate (zlen s2sc - 1) (fun s => lo <- zget s2sc s ;; hi <- zget s2sc (s + 1) ;; Ok (mark (hi - lo <? 2))).

(** src/Omega_h_mark.cpp:21-32 mark_down(Graph, Read<I8>) *)
Definition mark_down (l2h : graph) (high_marked : list Z) : res (list Z) :=
  tabulate (zlen (a2ab l2h) - 1) (fun l => lo <- zget (a2ab l2h) l ;; hi <- zget (a2ab l2h) (l + 1) ;;
    foldM (fun out lh => h <- zget (ab2b l2h) lh ;; m <- zget high_marked h ;; Ok (if truth m then 1 else out)) (zfromto lo hi) 0).

(** src/Omega_h_mark.cpp:49-63 mark_up, from the downward adjacency with [deg] entries per entity *)
Definition mark_up (hl2l : list Z) (deg nh : Z) (low_marked : list Z) : res (list Z) :=
  tabulate nh (fun h => forM deg 0 (fun out hhl => l <- zget hl2l (h * deg + hhl) ;; m <- zget low_marked l ;; Ok (if truth m then 1 else out))).

(** src/Omega_h_mark.cpp:72-89 mark_up_all *)
Definition mark_up_all (hl2l : list Z) (deg nh : Z) (low_marked : list Z) : res (list Z) :=
  tabulate nh (fun h => all_marked <- forM deg true (fun all_marked hhl => l <- zget hl2l (h * deg + hhl) ;; m <- zget low_marked l ;; Ok (if negb (truth m) then false else all_marked)) ;;
    Ok (mark all_marked)).

(** src/Omega_h_mark.hpp:40-59 binary_search.  LO addition that leaves the type is undefined; [fuel]
    bounds the turns of the while loop, and a loop that does not end within it counts as undefined. *)
Definition lo_max : Z := 2147483647.
Fixpoint search_loop (fuel : nat) (a : list Z) (v l r : Z) : res Z :=
  match fuel with
  | O => UB
  | S fuel =>
    if r <? l then Ok (-1) else
    if lo_max <? l + r then UB else
    let m := Z.quot (l + r) 2 in
    a_m <- zget a m ;;
    if a_m <? v then search_loop fuel a v (m + 1) r else
    if v <? a_m then search_loop fuel a v l (m - 1) else Ok m
  end.
Definition binary_search (a : list Z) (v n : Z) : res Z := search_loop (S (Z.to_nat n)) a v 0 (n - 1).

(** src/Omega_h_mark.cpp:110-131 get_eq_marks; std::sort by its contract *)
Definition get_eq_marks (eq_class_dims eq_class_ids : list Z) (neq class_dim : Z) (class_ids : list Z) : res (list Z) :=
  sorted <- parallel_sort (fun x y => Ok (x <? y)) class_ids ;;
  tabulate neq (fun eq => d <- zget eq_class_dims eq ;;
    if negb (d =? class_dim) then Ok 0 else
    c <- zget eq_class_ids eq ;; i <- binary_search sorted c (zlen sorted) ;; Ok (mark (negb (-1 =? i)))).

(** src/Omega_h_array_ops.cpp:360-366 lor_each *)
Definition lor_each (a b : list Z) : res (list Z) :=
  _ <- check (zlen a =? zlen b) ;; tabulate (zlen a) (fun i => x <- zget a i ;; y <- zget b i ;; Ok (mark (truth x || truth y))).

(** src/Omega_h_mark.cpp:150-158 get_dim_class_ids; a ClassPair is (dim, id) *)
Definition get_dim_class_ids (class_dim : Z) (class_pairs : list (Z * Z)) : list Z :=
  map snd (filter (fun p => fst p =? class_dim) class_pairs).

(** src/Omega_h_mark.cpp:174-189 mark_class_closures(Mesh*, std::vector<ClassPair>, Graph[4]), with :142-148.
    [ents d]: the arrays class_dim and class_id of the entities of dimension d;
    [nodes2ents d]: the graph from nodes to these entities. *)
Definition mark_class_closures (dim : Z) (ents : Z -> list Z * list Z) (class_pairs : list (Z * Z)) (nodes2ents : Z -> graph) : res (list Z) :=
  let nnodes := zlen (a2ab (nodes2ents dim)) - 1 in
  marks <- filled nnodes 0 ;;
  forM (dim + 1) marks (fun marks class_dim =>
    match get_dim_class_ids class_dim class_pairs with
    | [] => Ok marks
    | dim_class_ids =>
      eq_marks <- get_eq_marks (fst (ents class_dim)) (snd (ents class_dim)) (zlen (fst (ents class_dim))) class_dim dim_class_ids ;;
      class_dim_marks <- mark_down (nodes2ents class_dim) eq_marks ;;
      lor_each marks class_dim_marks
    end).

(** src/Omega_h_graph.cpp:61-67 graph_reduce *)
Definition graph_reduce (tmin tmax : Z) (a2b : graph) (b_data : list Z) (width : Z) (o : op) : res (list Z) :=
  ab_data <- unmap (ab2b a2b) b_data width ;; fan_reduce tmin tmax (a2ab a2b) ab_data width o.
(** src/Omega_h_mark.cpp:191-199 mark_dual_layers on one rank, where sync_array returns its argument *)
Definition mark_dual_layers (dual : graph) (marks : list Z) (nlayers : Z) : res (list Z) :=
  forM nlayers marks (fun marks _ => graph_reduce (-128) 127 dual marks 1 OMEGA_H_MAX).
