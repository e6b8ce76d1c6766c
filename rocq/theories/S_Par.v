(** When a kernel is free of conflicts. *)
From Verif Require Import Prelude M_Par.

Section S.
Variable V : Type.

(** Every access of the iteration is a read of an input or an access to the iteration's own entries. *)
Inductive confined (inputs own : loc -> Prop) : prog V -> Prop :=
| c_done : confined inputs own Done
| c_rd l k : inputs l \/ own l -> (forall v, confined inputs own (k v)) -> confined inputs own (Rd l k)
| c_wr l v k : own l -> confined inputs own k -> confined inputs own (Wr l v k)
| c_rmw l f k : own l -> (forall v, confined inputs own (k v)) -> confined inputs own (Rmw l f k).

(** Iteration [i] owns [own i]; no entry has two owners and no input has an owner. *)
Definition conflict_free (inputs : loc -> Prop) (own : nat -> loc -> Prop) (ps : list (prog V)) : Prop :=
  (forall i p, nth_error ps i = Some p -> confined inputs (own i) p) /\
  (forall i j l, own i l -> own j l -> i = j) /\
  (forall i l, own i l -> ~ inputs l).
End S.
Arguments confined {V}. Arguments conflict_free {V}.
