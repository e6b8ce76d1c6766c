(** Specification vocabulary for C84. *)
From Coq Require Import Permutation Sorted.
From Verif Require Import Prelude M_Array M_Graph S_Graph S_Mark M_Cavs.
Local Open Scope Z_scope.

(** The cavities fit the colours, and no key has more than 127 old or 127 new elements. *)
Record cavs_ok (c : cavs) (old_colors new_colors : list Z) : Prop := {
  ok_old : wf_graph (keys2old c); ok_new : wf_graph (keys2new c);
  ok_keys : nnodes (keys2old c) = nnodes (keys2new c);
  ok_old_colors : forall e, In e (ab2b (keys2old c)) -> 0 <= e < zlen old_colors;
  ok_new_colors : forall e, In e (ab2b (keys2new c)) -> 0 <= e < zlen new_colors;
  ok_old_size : forall key es, targets (keys2old c) key = Ok es -> zlen es <= 127;
  ok_new_size : forall key es, targets (keys2new c) key = Ok es -> zlen es <= 127 }.

(** In [c] key [key] has the old elements [fst p] and the new elements [snd p]. *)
Definition has (key : Z) (c : cavs) (p : list Z * list Z) : Prop := targets (keys2old c) key = Ok (fst p) /\ targets (keys2new c) key = Ok (snd p).

(** [parts] separates the cavity with old elements [olds] and new elements [news] by colour. *)
Record separates (old_colors new_colors olds news : list Z) (parts : list (list Z * list Z)) : Prop := {
  (* nothing is lost and nothing is there twice *)
  sep_old : Permutation (concat (map fst parts)) olds;
  sep_new : Permutation (concat (map snd parts)) news;
  (* all elements of a part that has an old element have its colour *)
  sep_one_old : forall p o x, In p parts -> In o (fst p) -> In x (fst p) -> zget old_colors x = zget old_colors o;
  sep_one_new : forall p o x, In p parts -> In o (fst p) -> In x (snd p) -> zget new_colors x = zget old_colors o;
  (* all elements of the colour of an old element are in one part *)
  sep_same_old : forall i j p q o x, nth_error parts i = Some p -> nth_error parts j = Some q -> In o (fst p) -> In x (fst q) -> zget old_colors x = zget old_colors o -> i = j;
  sep_same_new : forall i j p q o x, nth_error parts i = Some p -> nth_error parts j = Some q -> In o (fst p) -> In x (snd q) -> zget new_colors x = zget old_colors o -> i = j;
  (* the other new elements, of whatever colours, are in one part *)
  sep_rest : forall i j p q, nth_error parts i = Some p -> nth_error parts j = Some q -> fst p = [] -> snd p <> [] -> fst q = [] -> snd q <> [] -> i = j }.

(** [part] has the cavities of [keys], in order. *)
Definition part_of (c part : cavs) (keys : list Z) : Prop :=
  StronglySorted Z.lt keys /\ nnodes (keys2old part) = zlen keys /\ nnodes (keys2new part) = zlen keys /\
  forall i key, zget keys i = Ok key -> targets (keys2old part) i = targets (keys2old c) key /\ targets (keys2new part) i = targets (keys2new c) key.
(** One of the old elements of [key] touches the boundary. *)
Definition touches (c : cavs) (old_bdry : list Z) (key : Z) : Prop := exists e, edge (keys2old c) key e /\ marked old_bdry e.
(** The key itself is on the boundary. *)
Definition on_bdry (dim : Z) (kd_class_dims keys2kds : list Z) (key : Z) : Prop := exists kd d, zget keys2kds key = Ok kd /\ zget kd_class_dims kd = Ok d /\ d < dim.
(** The rounds separate each cavity of [part] by colour. *)
Definition rounds_separate (part : cavs) (old_colors new_colors : list Z) (rounds : list cavs) : Prop :=
  forall key olds news, targets (keys2old part) key = Ok olds -> targets (keys2new part) key = Ok news ->
    exists parts, Forall2 (has key) rounds parts /\ separates old_colors new_colors olds news parts.
