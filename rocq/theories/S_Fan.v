(** Specification of reductions over the groups of a fan. *)
From Verif Require Import Prelude S_Scan M_Map.
Local Open Scope Z_scope.

(** what the reduction of a non-empty group, or of an empty one, should be; a sum must fit in the
    element type *)
Definition reduced (tmin tmax : Z) (o : op) (vs : list Z) (r : Z) : Prop :=
  match o with
  | OMEGA_H_SUM => tmin <= zsum vs <= tmax -> r = zsum vs
  | OMEGA_H_MIN => if (length vs =? 0)%nat then r = tmax else In r vs /\ forall v, In v vs -> r <= v
  | OMEGA_H_MAX => if (length vs =? 0)%nat then r = tmin else In r vs /\ forall v, In v vs -> v <= r
  end.
