(** C50 bisection *)
From Verif Require Import Prelude M_Bipart S_Bipart P_Bipart.
Local Open Scope Z_scope.

(** Every unmarked item goes to the first half of the ranks and every marked item to the second; every
    slot of every rank gets exactly one item; the ranks of a half get equally many items, up to one. *)
Theorem bi_partition_balances : forall marks h, 0 < h -> zlen marks = 2 * h ->
  exists dests sizes, bi_partition marks = Ok (dests, sizes) /\
  zlen dests = 2 * h /\ zlen sizes = 2 * h /\
  (forall r i m, holds marks r i m -> exists q j s, holds dests r i (q, j) /\ zget sizes q = Ok s /\ 0 <= j < s /\
     (if m =? 0 then 0 <= q < h else h <= q < 2 * h)) /\
  (forall r i o, holds dests r i o -> exists m, holds marks r i m) /\
  (forall q j s, zget sizes q = Ok s -> 0 <= j < s -> exists r i, holds dests r i (q, j)) /\
  (forall r i r' i' o, holds dests r i o -> holds dests r' i' o -> r = r' /\ i = i') /\
  (forall q s, zget sizes q = Ok s ->
     let n := if q <? h then number (fun m => m =? 0) marks else number (fun m => negb (m =? 0)) marks in
     n / h <= s <= n / h + 1).
Proof. exact bi_partition_spec. Qed.
Print Assumptions bi_partition_balances.

(** An odd number of ranks is refused. *)
Theorem bi_partition_refuses_odd : forall marks, zlen marks mod 2 <> 0 -> bi_partition marks = Abort.
Proof. exact bi_partition_odd_spec. Qed.
Print Assumptions bi_partition_refuses_odd.

(* four ranks, one of them empty *)
Example bi_partition_example : bi_partition [[1; 0; 1]; []; [0; 0]; [1]]
  = Ok ([[(2, 0); (0, 0); (2, 1)]; []; [(0, 1); (1, 0)]; [(3, 0)]], [2; 1; 2; 1]).
Proof. vm_compute. reflexivity. Qed.
