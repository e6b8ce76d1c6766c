(** Specification vocabulary for C86. *)
From Verif Require Import Prelude M_Array M_Parents M_Template S_Scan M_AmrTopo S_AmrTopo M_AmrTransfer.
Local Open Scope Z_scope.

(** New entity [e] of dimension [prod_dim] is product [prod] of refined entity [md] of dimension [d]. *)
Definition made_of (dim prod_dim : Z) (mods : Z -> list Z) (prods2new : list Z) (e d md prod : Z) : Prop :=
  exists mod_, Z.max 1 prod_dim <= d <= dim /\ zget (mods d) mod_ = Ok md /\ 0 <= prod < hypercube_split_degree d prod_dim /\
  zget prods2new (products mods prod_dim (Z.max 1 prod_dim) d + mod_ * hypercube_split_degree d prod_dim + prod) = Ok e.
(** New entity [e] is old entity [old]. *)
Definition same_as (same2old same2new : list Z) (e old : Z) : Prop := exists s, zget same2new s = Ok e /\ zget same2old s = Ok old.

(** The numbering of the new entities: products and entities that stay have different numbers below [nnew]. *)
Record new_numbers (dim prod_dim : Z) (mods : Z -> list Z) (prods2new same2old same2new : list Z) (nold nnew : Z) : Prop := {
  nu_dim : 0 <= prod_dim <= dim /\ 1 <= dim <= 3;
  nu_count : zlen prods2new = products mods prod_dim (Z.max 1 prod_dim) (dim + 1);
  nu_distinct : NoDup (prods2new ++ same2new);
  nu_new : forall e, In e (prods2new ++ same2new) -> 0 <= e < nnew;
  nu_same : zlen same2old = zlen same2new;
  nu_old : forall o, In o same2old -> 0 <= o < nold;
  nu_size : 0 <= nnew }.

(** The refined entities are among the old entities. *)
Definition refine_old (dim : Z) (mods : Z -> list Z) (nold : Z -> Z) : Prop := forall d md, 1 <= d <= dim -> In md (mods d) -> 0 <= md < nold d.
(** The new number of an entity that stays. *)
Definition renumbers (same2old same2new old2new : list Z) : Prop := forall e old, same_as same2old same2new e old -> zget old2new old = Ok e.
(** Parents before: one per entity; an entity without one has a negative number there. *)
Definition parents_ok (dim : Z) (nold : Z -> Z) (d : Z) (p : parents) : Prop :=
  zlen (fst p) = nold d /\ zlen (snd p) = nold d /\
  forall e q c, zget (fst p) e = Ok q -> zget (snd p) e = Ok c -> 0 <= q -> 0 <= code_parent_dim c <= dim /\ q < nold (code_parent_dim c).
