(** Specification of sender discovery (C24). *)
From Verif Require Import Prelude.
Local Open Scope nat_scope.

(** [l] lists in increasing order every rank below [n] that has [p] among its destinations, as often
    as it has it there. *)
Definition lists_senders (dests : nat -> list nat) (n p : nat) (l : list nat) : Prop :=
  StronglySorted le l /\
  forall s, count_occ Nat.eq_dec l s = if s <? n then count_occ Nat.eq_dec (dests s) p else 0.
