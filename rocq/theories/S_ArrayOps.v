(** Specification vocabulary for reductions. *)
From Coq Require Import Permutation.
From Verif Require Import Prelude M_ArrayOps.
Local Open Scope Z_scope.

(** the threads together run each iteration once *)
Definition covers (b : backend) (n : Z) : Prop :=
  match b with Serial => True | OpenMP threads => Permutation (concat threads) (zrange n) end.
(** the sum of the absolute values *)
Definition zsum_abs (l : list Z) : Z := fold_right (fun x s => Z.abs x + s) 0 l.
