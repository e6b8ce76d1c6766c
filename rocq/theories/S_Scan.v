(** Specification of prefix operations. *)
From Verif Require Import Prelude.

(** Combination of a non-empty list from left to right. *)
Definition total {V} (op : V -> V -> V) (l : list V) : option V :=
  match l with [] => None | x :: l' => Some (fold_left op l' x) end.

Definition zsum (l : list Z) : Z := fold_right Z.add 0%Z l.
