(** Vocabulary of C50. *)
From Verif Require Import Prelude.
Local Open Scope Z_scope.

(** Entry [i] of rank [r]'s array is [x]. *)
Definition holds {A} (arrays : list (list A)) (r i : Z) (x : A) : Prop :=
  exists a, zget arrays r = Ok a /\ zget a i = Ok x.
(** Number of items whose mark satisfies [f], over all ranks. *)
Definition number (f : Z -> bool) (marks : list (list Z)) : Z := zlen (filter f (concat marks)).
