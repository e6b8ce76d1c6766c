(** Specification vocabulary of C45: what a directory tree is. *)
From Verif Require Import Prelude M_Remove.
Local Open Scope nat_scope.

(** The shape of a tree: a leaf (any non-directory) or directory number [d] with named subtrees. *)
Inductive tree :=
| Leaf
| Node (d : nat) (children : list (nat * tree)).

(** The directories of a tree, and the number of its entries, itself included. *)
Fixpoint dirs (t : tree) : list nat :=
  match t with
  | Leaf => []
  | Node d ch => d :: flat_map (fun c => dirs (snd c)) ch
  end.
Fixpoint size (t : tree) : nat :=
  match t with
  | Leaf => 1
  | Node _ ch => S (list_sum (map (fun c => size (snd c)) ch))
  end.

(** A file that remove_all takes for a non-directory: not a link, and its type reads as one. *)
Definition plain (f : fs) (i : nat) : Prop :=
  exists mode ty, f i = Some (Other mode) /\ type_of_mode mode = Some ty /\ ty <> Directory.

(** Object [i] is the root of a tree of shape [t]; its symbolic links lead directly to plain files whose
    directories satisfy [safe]. *)
Inductive is_tree (f : fs) (safe : nat -> Prop) : nat -> tree -> Prop :=
| is_leaf i : plain f i -> is_tree f safe i Leaf
| is_link i d n j : f i = Some (Link d n) -> safe d -> entry f d n = Some j -> plain f j -> is_tree f safe i Leaf
| is_node d es ch : f d = Some (Dir es) -> NoDup (map fst es) ->
    Forall2 (fun e c => fst e = fst c /\ is_tree f safe (snd e) (snd c)) es ch ->
    is_tree f safe d (Node d ch).

(** directory 0 holds "0" -> directory 1, "1" -> directory 2; directory 1 holds "0": a link to (0,"1");
   directory 2 holds "0": a regular file, object 4 *)
Definition link_fs : fs := fun i =>
  match i with
  | 0 => Some (Dir [(0, 1); (1, 2)]) | 1 => Some (Dir [(0, 3)]) | 2 => Some (Dir [(0, 4)])
  | 3 => Some (Link 0 1) | 4 => Some (Other (s_ifreg + 420)%Z) | _ => None
  end.
(** directory 1 holds "0": a regular file, object 3, and "1": a link to it *)
Definition inner_fs : fs := fun i =>
  match i with
  | 0 => Some (Dir [(0, 1)]) | 1 => Some (Dir [(0, 3); (1, 4)])
  | 3 => Some (Other (s_ifreg + 420)%Z) | 4 => Some (Link 1 0) | _ => None
  end.
