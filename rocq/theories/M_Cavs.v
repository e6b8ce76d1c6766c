(** Model of the separation of cavities by colour in conservation, src/Omega_h_conserve.cpp:45-115.  A cavity is what one
    key has: the old elements that go and the new elements that come. *)
From Verif Require Import Prelude M_Array M_Map M_Graph M_Mark.
Local Open Scope Z_scope.

(** struct Cavs, src/Omega_h_conserve.cpp:45-53 *)
Record cavs := mk_cavs { keys2old : graph; keys2new : graph }.

(** src/Omega_h_graph.cpp:12 *)
Definition nedges (g : graph) : Z := zlen (ab2b g).

(** src/Omega_h_conserve.cpp:79-82 and :85-88: marks on the edges of one key *)
Definition mark_color {A} (g : graph) (colors : list Z) (color : Z) (put : Z -> A) (begin end_ : Z) (keep : list A) : res (list A) :=
  foldM (fun w k => elem <- zget (ab2b g) k ;; c <- zget colors elem ;; zset w k (put (mark (c =? color)))) (zfromto begin end_) keep.

(** src/Omega_h_conserve.cpp:72-89: one iteration.  The marks of old elements are not initialised, those of new elements are 1. *)
Definition color_key (c : cavs) (old_colors new_colors : list Z) (w : list (option Z) * list Z) (key : Z) : res (list (option Z) * list Z) :=
  ob <- zget (a2ab (keys2old c)) key ;;
  oe <- zget (a2ab (keys2old c)) (key + 1) ;;
  if ob =? oe then Ok w else
  old_first <- zget (ab2b (keys2old c)) ob ;;
  color <- zget old_colors old_first ;;
  ow <- mark_color (keys2old c) old_colors color Some ob oe (fst w) ;;
  nb <- zget (a2ab (keys2new c)) key ;;
  ne <- zget (a2ab (keys2new c)) (key + 1) ;;
  nw <- mark_color (keys2new c) new_colors color (fun x => x) nb ne (snd w) ;;
  Ok (ow, nw).

(** separate_by_color_once, src/Omega_h_conserve.cpp:64-104; Cavs::size is :48-52.  The iterations run in order: each writes the
    edges of its key. *)
Definition separate_by_color_once (c : cavs) (old_colors new_colors : list Z) : res (cavs * cavs) :=
  let nkeys := nnodes (keys2old c) in
  _ <- check (nkeys =? nnodes (keys2new c)) ;;
  old_keep <- blank (nedges (keys2old c)) ;;
  new_keep <- filled (nedges (keys2new c)) 1 ;;
  w <- forM nkeys (old_keep, new_keep) (color_key c old_colors new_colors) ;;
  old_keep <- freeze (fst w) ;;
  let new_keep := snd w in
  separated_old <- filter_graph_edges (keys2old c) old_keep ;;
  separated_new <- filter_graph_edges (keys2new c) new_keep ;;
  remainder_old <- filter_graph_edges (keys2old c) (invert_marks old_keep) ;;
  remainder_new <- filter_graph_edges (keys2new c) (invert_marks new_keep) ;;
  _ <- check (nedges remainder_old + nedges separated_old =? nedges (keys2old c)) ;;
  _ <- check (nedges remainder_new + nedges separated_new =? nedges (keys2new c)) ;;
  Ok (mk_cavs separated_old separated_new, mk_cavs remainder_old remainder_new).

(** separate_by_color, src/Omega_h_conserve.cpp:110-119: a loop, [Ok None] if it has not ended after [fuel] rounds *)
Fixpoint separate_by_color (fuel : nat) (c : cavs) (old_colors new_colors : list Z) : res (option (list cavs)) :=
  match fuel with
  | O => Ok None
  | S fuel' =>
      if ((nedges (keys2old c) =? 0) && (nedges (keys2new c) =? 0))%bool then Ok (Some []) else
      r <- separate_by_color_once c old_colors new_colors ;;
      rest <- separate_by_color fuel' (snd r) old_colors new_colors ;;
      Ok (match rest with Some l => Some (fst r :: l) | None => None end)
  end.

(** src/Omega_h_conserve.cpp:121-127 get_elem_class_ids *)
Definition get_elem_class_ids (nelems : Z) (class_ids : option (list Z)) : res (list Z) :=
  match class_ids with Some ids => Ok ids | None => filled nelems 1 end.

(** src/Omega_h_conserve.cpp:129-135 get_elems_are_bdry: from the vertices of each element and the class dimensions of the vertices;
    each_eq_to is src/Omega_h_array_ops.cpp:344-350, array_cast (:583-590) keeps the values *)
Definition get_elems_are_bdry (dim : Z) (elem_verts : list Z) (deg nelems : Z) (vert_class_dims : list Z) : res (list Z) :=
  mark_up elem_verts deg nelems (invert_marks (map (fun d => mark (d =? dim)) vert_class_dims)).

(** src/Omega_h_conserve.cpp:137-140 unmap_cavs *)
Definition unmap_cavs (a2b : list Z) (c : cavs) : res cavs :=
  o <- unmap_graph a2b (keys2old c) ;; n <- unmap_graph a2b (keys2new c) ;; Ok (mk_cavs o n).

(** land_each, src/Omega_h_array_ops.cpp:352-358 *)
Definition land_each (a b : list Z) : res (list Z) :=
  _ <- check (zlen a =? zlen b) ;;
  tabulate (zlen a) (fun i => x <- zget a i ;; y <- zget b i ;; Ok (mark (truth x && truth y))).

(** What separate_cavities returns: NOT_BDRY, TOUCH_BDRY and KEY_BDRY without colours, TOUCH_BDRY by whether elements touch the boundary,
    KEY_BDRY by class identifiers.  The remaining entries of the table are these again (:165-166, :171, :177-178). *)
Record separated := mk_separated { not_bdry : cavs; touch_bdry : cavs; key_bdry : cavs; touch_by_bdry : list cavs; key_by_class : list cavs }.

(** separate_cavities, src/Omega_h_conserve.cpp:142-180, from the arrays that it asks for.  [Ok None]: a loop did not end with [fuel].
    each_gt and each_lt are src/Omega_h_array_ops.cpp:230-244. *)
Definition separate_cavities (fuel : nat) (dim : Z) (c : cavs) (old_bdry new_bdry : list Z) (old_ids new_ids : list Z) (kd_class_dims keys2kds : list Z)
  : res (option separated) :=
  n <- graph_reduce (- 2 ^ 31) (2 ^ 31 - 1) (keys2old c) old_bdry 1 OMEGA_H_SUM ;;
  let cavs_are_bdry := map (fun x => mark (0 <? x)) n in
  int_cavs <- collect_marked (invert_marks cavs_are_bdry) ;;
  nb <- unmap_cavs int_cavs c ;;
  key_dims <- unmap keys2kds kd_class_dims 1 ;;
  let keys_are_bdry := map (fun d => mark (d <? dim)) key_dims in
  bdry_cavs <- collect_marked keys_are_bdry ;;
  kb <- unmap_cavs bdry_cavs c ;;
  cavs_touch <- land_each cavs_are_bdry (invert_marks keys_are_bdry) ;;
  touch_cavs <- collect_marked cavs_touch ;;
  tb <- unmap_cavs touch_cavs c ;;
  by_class <- separate_by_color fuel kb old_ids new_ids ;;
  by_bdry <- separate_by_color fuel tb old_bdry new_bdry ;;
  Ok (match by_class, by_bdry with Some kc, Some tc => Some (mk_separated nb tb kb tc kc) | _, _ => None end).
