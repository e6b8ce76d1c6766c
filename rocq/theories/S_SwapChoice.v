(** Specification vocabulary for the choice of a swap configuration. *)
From Verif Require Import Prelude M_Swap3d.
Local Open Scope Z_scope.

(** the quality of the worst of some tets, at most [one] *)
Definition worst (one : Z) (quality : list Z -> Z) (tets : list (list Z)) : Z := fold_right (fun t q => Z.min (quality t) q) one tets.

(** configuration [m] would make tets whose worst quality is [q], which is positive, and no edge longer
    than allowed *)
Definition admissible (one : Z) (quality length : list Z -> Z) (max_length : Z) (l : loop) (m q : Z) : Prop :=
  exists es fs rs, key_prods l m = Ok (es, fs, rs) /\ q = worst one quality rs /\ 0 < q /\ forall e, In e es -> length e <= max_length.
