(** Specification of the pool: which blocks are live, for the client and for the underlying allocator. *)
From Verif Require Import Prelude M_Pool.
Local Open Scope Z_scope.

(** remove the entry for block [p] *)
Fixpoint drop_block (p : Z) (l : list (Z * Z)) : list (Z * Z) :=
  match l with
  | [] => []
  | (q, s) :: r => if q =? p then r else (q, s) :: drop_block p r
  end.

(** blocks (with size) that the underlying allocator has given out and not got back *)
Fixpoint underlying_live (h : list uevent) : list (Z * Z) :=
  match h with
  | [] => []
  | UMalloc s p :: h => (p, s) :: underlying_live h
  | UFree p s :: h => drop_block p (underlying_live h)
  end.
(** every free was of a live block, with the size it was allocated with *)
Fixpoint frees_valid (h : list uevent) : Prop :=
  match h with
  | [] => True
  | UMalloc s p :: h => frees_valid h
  | UFree p s :: h => In (p, s) (underlying_live h) /\ frees_valid h
  end.
(** an allocator never gives out a block that is live *)
Definition sane_malloc (malloc : list uevent -> Z -> option Z) : Prop :=
  forall h s p, malloc h s = Some p -> ~ In p (map fst (underlying_live h)).

(** blocks (with requested size) the client holds *)
Fixpoint held (t : list cevent) : list (Z * Z) :=
  match t with
  | [] => []
  | Got p s :: t => (p, s) :: held t
  | Returned p _ :: t => drop_block p (held t)
  end.

(** size classes: the power of two the size is rounded up to *)
Definition size_class (s : Z) : Z := if s <=? 1 then 1 else 2 ^ Z.log2_up s.
