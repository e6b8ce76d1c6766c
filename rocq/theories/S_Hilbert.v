(** The Hilbert curve seen from outside: cells of a grid with 2^b cells along each of n axes, positions along the
    curve, and neighbouring cells. *)
From Verif Require Import Prelude.
Local Open Scope Z_scope.

(** n words of b bits: a cell, or a position written as n digits *)
Definition words (b n : Z) (X : list Z) : Prop := zlen X = n /\ Forall (fun x => 0 <= x < 2 ^ b) X.
(** the number with the given digits in base 2^b, most significant first *)
Definition position (b : Z) (D : list Z) : Z := fold_left (fun h d => h * 2 ^ b + d) D 0.
(** two cells that share a face: all coordinates agree but one, which differs by one *)
Definition neighbours (X Y : list Z) : Prop := exists l x y r, X = l ++ x :: r /\ Y = l ++ y :: r /\ Z.abs (x - y) = 1.
(** the cell nearest to a point given by its (non-negative) cell numbers, which may lie beyond the last cell *)
Definition into_grid (b : Z) (X : list Z) : list Z := map (fun x => Z.min x (2 ^ b - 1)) X.
(** [a] is visited before [b], or at the same place and listed before it *)
Definition visited_before (hs : list Z) (a b : Z) : Prop :=
  exists x y, zget hs a = Ok x /\ zget hs b = Ok y /\ (x < y \/ (x = y /\ a < b)).
