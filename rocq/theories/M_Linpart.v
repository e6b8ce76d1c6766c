(** Model of src/Omega_h_linpart.cpp.  The narrowing casts to I32/LO are the identity on the values
    modelled (a part has fewer than 2^31 items). *)
From Verif Require Import Prelude.
Local Open Scope Z_scope.

(** C++ integer division; by zero is undefined.  All operands here are non-negative, where truncation and
    floor agree. *)
Definition cdiv (a b : Z) : res Z := if b =? 0 then UB else Ok (Z.quot a b).
Definition cmod (a b : Z) : res Z := if b =? 0 then UB else Ok (Z.rem a b).

(** src/Omega_h_linpart.cpp:16-23, the body of the kernel for one global number. *)
Definition linear_owner1 (quot rem split g : Z) : res (Z * Z) :=
  if g <? split then
    r <- cdiv g (quot + 1) ;;
    i <- cmod g (quot + 1) ;;
    Ok (r, i)
  else
    let g' := g - split in
    r <- cdiv g' quot ;;
    i <- cmod g' quot ;;
    Ok (r + rem, i).

(** src/Omega_h_linpart.cpp:8-27 globals_to_linear_owners: (rank, index) per global. *)
Definition globals_to_linear_owners (globals : list Z) (total comm_size : Z) : res (list (Z * Z)) :=
  quot <- cdiv total comm_size ;;
  rem <- cmod total comm_size ;;
  let split := (quot + 1) * rem in
  mapM (linear_owner1 quot rem split) globals.

(** src/Omega_h_linpart.cpp:29-37 linear_partition_size *)
Definition linear_partition_size (total comm_size comm_rank : Z) : res Z :=
  quot <- cdiv total comm_size ;;
  rem <- cmod total comm_size ;;
  if comm_rank <? rem then Ok (quot + 1) else Ok quot.

(** src/Omega_h_linpart.cpp:47-51 find_total_globals; the argument is, per rank, its array of
    globals.  [get_max] over an empty array yields the least GO, so the result is 0 when there
    are none (src/Omega_h_array_ops.cpp get_max, src/Omega_h_scalar.hpp ArithTraits<GO>::min). *)
Definition go_min : Z := - 2 ^ 63.
Definition find_total_globals (per_rank : list (list Z)) : Z :=
  let a := fold_left Z.max (concat per_rank) go_min in
  if a <? 0 then 0 else a + 1.
