(** C07, C08: 128-bit integers and reproducible sums. *)
From Verif Require Import Prelude M_Int128 S_Int128 P_Int128.
Local Open Scope Z_scope.

(** C07. Conversion from a 64-bit integer. *)
Theorem int128_of_int64 : forall z, - 2 ^ 63 <= z < 2 ^ 63 ->
  wf128 (of_int64 z) /\ val128 (of_int64 z) = z.
Proof. exact wf_of_int64. Qed.
Print Assumptions int128_of_int64.

(** C07. Addition is exact, without signed overflow, when the sum fits (away from the lowest
    2^64 values, see the refutation below). *)
Theorem int128_add : forall x y, wf128 x -> wf128 y ->
  - 2 ^ 127 + 2 ^ 64 <= val128 x + val128 y < 2 ^ 127 ->
  exists z, add128 x y = Ok z /\ wf128 z /\ val128 z = val128 x + val128 y.
Proof. exact add128_exact. Qed.
Print Assumptions int128_add.

(** C07. Subtraction. *)
Theorem int128_sub : forall x y, wf128 x -> wf128 y ->
  - 2 ^ 127 <= val128 x - val128 y < 2 ^ 127 - 2 ^ 64 ->
  exists z, sub128 x y = Ok z /\ wf128 z /\ val128 z = val128 x - val128 y.
Proof. exact sub128_exact. Qed.
Print Assumptions int128_sub.

(** C07. Negation. *)
Theorem int128_neg : forall x, wf128 x -> - 2 ^ 127 + 2 ^ 64 < val128 x ->
  exists z, neg128 x = Ok z /\ wf128 z /\ val128 z = - val128 x.
Proof. exact neg128_exact. Qed.
Print Assumptions int128_neg.

(** C07. Right shift by 1..63 is floor division by a power of two (negative values too). *)
Theorem int128_shr : forall x e, wf128 x -> 1 <= e <= 63 ->
  exists z, shr128 x e = Ok z /\ wf128 z /\ val128 z = val128 x / 2 ^ e.
Proof. exact shr128_exact. Qed.
Print Assumptions int128_shr.

(** C07. Comparison. *)
Theorem int128_lt : forall x y, wf128 x -> wf128 y -> ltb128 x y = (val128 x <? val128 y).
Proof. exact ltb128_spec. Qed.
Theorem int128_eq : forall x y, wf128 x -> wf128 y -> eqb128 x y = (val128 x =? val128 y).
Proof. exact eqb128_spec. Qed.
Print Assumptions int128_lt.
Print Assumptions int128_eq.

(** C07 at the full range is false: a sum that fits in 128 bits can overflow the signed high
    word before the carry is added. *)
Theorem int128_add_full_range_refuted : exists x y, wf128 x /\ wf128 y /\
  - 2 ^ 127 <= val128 x + val128 y < 2 ^ 127 /\ add128 x y = UB.
Proof. exact add128_corner. Qed.
Print Assumptions int128_add_full_range_refuted.

(** C07. Conversion to floating point terminates and keeps the top 64 bits: k halvings, the least
    number that makes the magnitude fit in 64 bits. *)
Theorem int128_to_double : forall round x u, wf128 x -> - 2 ^ 127 + 2 ^ 64 < val128 x ->
  exists k, 0 <= k /\
   to_double round x u =
     Ok (Real (if val128 x <? 0 then - round (Z.abs (val128 x) / 2 ^ k) else round (Z.abs (val128 x) / 2 ^ k)) (u + k)) /\
   Z.abs (val128 x) / 2 ^ k < 2 ^ 64 /\ (k = 0 \/ 2 ^ 64 <= Z.abs (val128 x) / 2 ^ (k - 1)).
Proof. exact to_double_spec. Qed.
Print Assumptions int128_to_double.

(** C08. Any two distributions of the same values over any numbers of ranks, summed in any order locally
    and across ranks, and the serial sum of the values in any order, all give the same result,
    with no undefined behaviour. *)
Theorem repro_sum_order_independent : forall round parts1 ranks1 parts2 ranks2 a order,
  let ok := fun parts ranks =>
    Forall (fun p => Forall wf_real (fst p) /\ valid_order (length (fst p)) (snd p)) parts /\
    Permutation (fringe ranks) (seq 0 (length parts)) in
  ok parts1 ranks1 -> ok parts2 ranks2 ->
  Permutation (concat (map fst parts1)) a -> Permutation (concat (map fst parts2)) a ->
  valid_order (length a) order -> zlen a < 2 ^ 62 -> normal_max a ->
  exists r, repro_sum_comm round parts1 ranks1 = Ok r /\ repro_sum_comm round parts2 ranks2 = Ok r /\
    repro_sum round a order = Ok r.
Proof. exact repro_sum_independent. Qed.
Print Assumptions repro_sum_order_independent.

(** C08. The sum is the exact sum when no value has bits below the fixed-point unit and the
    total is representable. *)
Theorem repro_sum_exact_on_grid : forall round a order,
  Forall wf_real a -> valid_order (length a) order -> zlen a < 2 ^ 62 ->
  (exists v, In v a /\ man v <> 0) -> normal_max a ->
  let u := max_exponent a - 52 in
  Forall (fun v => u <= expo v) a ->
  let s := fold_right Z.add 0 (map (fun v => man v * 2 ^ (expo v - u)) a) in
  Z.abs s < 2 ^ 64 -> round (Z.abs s) = Z.abs s ->
  repro_sum round a order = Ok (Real s u).
Proof. exact repro_sum_grid. Qed.
Print Assumptions repro_sum_exact_on_grid.

(** C08 fails when all values are subnormal: the unit underflows to zero. *)
Theorem repro_sum_subnormal_refuted : exists a order, Forall wf_real a /\ valid_order (length a) order /\
  repro_sum (fun z => z) a order = UB.
Proof. exact repro_sum_subnormal. Qed.
Print Assumptions repro_sum_subnormal_refuted.

(* 1.5 + (-0.25) + 2^20, on two ranks and serially *)
Example repro_ex :
  repro_sum_comm (fun z => z)
    [([Real 3 (-1); Real 1 20], node (leaf 1%nat) (leaf 0%nat)); ([Real (-1) (-2)], leaf 0%nat)]
    (node (leaf 1%nat) (leaf 0%nat)) =
  repro_sum (fun z => z) [Real (-1) (-2); Real 3 (-1); Real 1 20]
    (node (leaf 0%nat) (node (leaf 2%nat) (node (leaf 3%nat) (leaf 1%nat)))).
Proof. reflexivity. Qed.
Example repro_ex_val :
  repro_sum (fun z => z) [Real (-1) (-2); Real 3 (-1); Real 1 20]
    (node (leaf 0%nat) (node (leaf 2%nat) (leaf 1%nat))) = Ok (Real (4194309 * 2 ^ 29) (-31)).
Proof. reflexivity. Qed.
Example repro_ex_hyp : Forall wf_real [Real (-1) (-2); Real 3 (-1); Real 1 20] /\
  normal_max [Real (-1) (-2); Real 3 (-1); Real 1 20] /\
  valid_order 3 (node (leaf 0%nat) (node (leaf 2%nat) (node (leaf 3%nat) (leaf 1%nat)))).
Proof.
  split; [repeat constructor; cbn; lia|]. split.
  - right. exists (Real 1 20). cbn. split; [tauto|]. split; [discriminate|lia].
  - exists 1%nat. cbn. apply perm_skip. 
    apply (Permutation_trans (l' := [2; 1; 3]%nat)); [apply perm_skip, perm_swap|apply perm_swap].
Qed.
Example int128_ex : add128 (of_int64 (2 ^ 63 - 1)) (of_int64 (2 ^ 63 - 1)) = Ok (Int128 0 (2 ^ 64 - 2)) /\
  sub128 (of_int64 0) (of_int64 1) = Ok (of_int64 (-1)).
Proof. split; reflexivity. Qed.
