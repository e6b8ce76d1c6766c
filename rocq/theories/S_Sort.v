(** Specification of sorting. *)
From Verif Require Import Prelude.
Local Open Scope Z_scope.

(** lexicographic order of tuples *)
Fixpoint lex_lt (l m : list Z) : Prop :=
  match l, m with
  | x :: l', y :: m' => x < y \/ (x = y /\ lex_lt l' m')
  | _, _ => False
  end.

(** the [i]-th tuple of [width] entries *)
Definition tuple {A} (l : list A) (width i : Z) : list A :=
  firstn (Z.to_nat width) (skipn (Z.to_nat (i * width)) l).

(** item [a] comes strictly before item [b] in the stable order of the tuples *)
Definition stably_before (keys : list Z) (width a b : Z) : Prop :=
  lex_lt (tuple keys width a) (tuple keys width b) \/ (tuple keys width a = tuple keys width b /\ a < b).

(** how many entries satisfy [P] *)
Definition count (P : Z -> bool) (l : list Z) : Z := zlen (filter P l).
