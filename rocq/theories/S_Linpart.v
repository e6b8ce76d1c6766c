(** Specification of the linear partition: the reader's view is the table of parts laid end to end. *)
From Verif Require Import Prelude.
Local Open Scope Z_scope.

(** Size of part [r] of a balanced partition of [n] items in [p] parts: the first [n mod p] parts have
    one more. *)
Definition part_size (n p r : Z) : Z := n / p + (if r <? n mod p then 1 else 0).

(** The items in order, each named by (part, index in part): part 0 first, then part 1, ... *)
Definition laid_out (n p : Z) : list (Z * Z) :=
  flat_map (fun r => map (fun i => (r, i)) (zrange (part_size n p r))) (zrange p).
