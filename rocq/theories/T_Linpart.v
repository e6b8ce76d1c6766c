(** C06: linear partition of global numbers. *)
From Verif Require Import Prelude M_Linpart S_Linpart P_Linpart.
Local Open Scope Z_scope.

(** Each in-range global goes to the place it has when the parts are laid end to end (so the
    assignment is monotone), without division by zero. *)
Theorem linear_owners_are_laid_out : forall globals n p,
  0 <= n -> 0 < p -> Forall (fun g => 0 <= g < n) globals ->
  exists owners, globals_to_linear_owners globals n p = Ok owners /\
    Forall2 (fun g o => zget (laid_out n p) g = Ok o) globals owners.
Proof. exact linear_owners_laid_out. Qed.
Print Assumptions linear_owners_are_laid_out.

(** Over all globals the pairs are pairwise different and are exactly the (rank, index) with
    index below that rank's linear_partition_size. *)
Theorem linear_owners_bijective : forall n p, 0 <= n -> 0 < p ->
  exists owners, globals_to_linear_owners (zrange n) n p = Ok owners /\
    NoDup owners /\
    (forall r i, In (r, i) owners <->
       0 <= r < p /\ exists s, linear_partition_size n p r = Ok s /\ 0 <= i < s).
Proof. exact linear_owners_bijection. Qed.
Print Assumptions linear_owners_bijective.

(** The sizes sum to the total and differ by at most one. *)
Theorem linear_partition_sizes_balanced : forall n p, 0 <= n -> 0 < p ->
  exists sizes, mapM (linear_partition_size n p) (zrange p) = Ok sizes /\
    fold_left Z.add sizes 0 = n /\
    forall s, In s sizes -> n / p <= s <= n / p + 1.
Proof. exact part_sizes_sum. Qed.
Print Assumptions linear_partition_sizes_balanced.

(** The total computed from the distributed globals is the least one that makes all of them
    in range. *)
Theorem find_total_globals_least : forall per_rank,
  Forall (Forall (fun g => 0 <= g)) per_rank ->
  let n := find_total_globals per_rank in
  0 <= n /\ (forall l g, In l per_rank -> In g l -> g < n) /\
  (n = 0 /\ concat per_rank = [] \/ exists l, In l per_rank /\ In (n - 1) l).
Proof. exact find_total_spec. Qed.
Print Assumptions find_total_globals_least.

Example linpart_ex : globals_to_linear_owners (zrange 8) 8 3 =
  Ok [(0,0);(0,1);(0,2);(1,0);(1,1);(1,2);(2,0);(2,1)].
Proof. reflexivity. Qed.
Example linpart_ex_small : globals_to_linear_owners [1; 0] 2 5 = Ok [(1,0); (0,0)].
Proof. reflexivity. Qed.
