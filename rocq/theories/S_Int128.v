(** Specification vocabulary for 128-bit integers and fixed-point sums. *)
From Verif Require Import Prelude M_Int128.
Local Open Scope Z_scope.

(** The integer an Int128 stands for, and when its two words are in range. *)
Definition val128 (x : int128) : Z := high x * 2 ^ 64 + low x.
Definition wf128 (x : int128) : Prop := - 2 ^ 63 <= high x < 2 ^ 63 /\ 0 <= low x < 2 ^ 64.

(** A finite IEEE double: 53-bit significand. *)
Definition wf_real (v : real) : Prop := Z.abs (man v) < 2 ^ 53 /\ -1074 <= expo v <= 971.

(** A reduction order over [n] values: every value once, plus any number of copies of the
    initial value (one per thread). *)
Definition valid_order (n : nat) (t : tree nat) : Prop :=
  exists k, Permutation (fringe t) (seq 0 n ++ repeat n k).

(** The largest exponent of the non-zero values is not that of a subnormal number. *)
Definition normal_max (a : list real) : Prop :=
  Forall (fun v => man v = 0) a \/ exists v, In v a /\ man v <> 0 /\ -1022 <= frexp_expo v.
