(** Model of src/Omega_h_int128.hpp/.cpp and of the reproducible sums of src/Omega_h_array_ops.cpp. *)
From Verif Require Import Prelude.
Local Open Scope Z_scope.

Definition int64_ok (z : Z) : bool := (- 2 ^ 63 <=? z) && (z <? 2 ^ 63).
(** signed 64-bit arithmetic: overflow is undefined behaviour *)
Definition s64 (z : Z) : res Z := if int64_ok z then Ok z else UB.
(** unsigned 64-bit arithmetic wraps *)
Definition u64 (z : Z) : Z := z mod 2 ^ 64.

(** src/Omega_h_int128.hpp:12-14 struct Int128 *)
Record int128 := Int128 { high : Z; low : Z }.

(** src/Omega_h_int128.hpp:38-39, conversion from a 64-bit integer *)
Definition of_int64 (value : Z) : int128 :=
  Int128 (-1 * (if value <? 0 then 1 else 0)) (u64 value).

(** src/Omega_h_int128.hpp:52-59 operator+ *)
Definition add128 (lhs rhs : int128) : res int128 :=
  h <- s64 (high lhs + high rhs) ;;
  let l := u64 (low lhs + low rhs) in
  h' <- s64 (h + (if l <? low lhs then 1 else 0)) ;;
  Ok (Int128 h' l).

(** src/Omega_h_int128.hpp:61-68 binary operator- *)
Definition sub128 (lhs rhs : int128) : res int128 :=
  h <- s64 (high lhs - high rhs) ;;
  let l := u64 (low lhs - low rhs) in
  h' <- s64 (h - (if l >? low lhs then 1 else 0)) ;;
  Ok (Int128 h' l).

(** src/Omega_h_int128.hpp:70 unary operator- *)
Definition neg128 (x : int128) : res int128 := sub128 (of_int64 0) x.

(** src/Omega_h_int128.hpp:72-77 operator>>.  A shift count of 0 makes the left shift count 64,
    which is undefined, as is a count outside 0..63.  The right shift of a negative [high] is
    arithmetic (implementation-defined before C++20; so on every supported compiler). *)
Definition shr128 (x : int128) (expo : Z) : res int128 :=
  if (0 <=? expo) && (expo <? 64) && (0 <=? 64 - expo) && (64 - expo <? 64) then
    Ok (Int128 (Z.shiftr (high x) expo)
               (Z.lor (Z.shiftr (low x) expo) (u64 (Z.shiftl (u64 (high x)) (64 - expo)))))
  else UB.

(** src/Omega_h_int128.hpp:79-81 operator== *)
Definition eqb128 (lhs rhs : int128) : bool := (high lhs =? high rhs) && (low lhs =? low rhs).

(** src/Omega_h_int128.hpp:83-86 operator< *)
Definition ltb128 (lhs rhs : int128) : bool :=
  if negb (high lhs =? high rhs) then high lhs <? high rhs else low lhs <? low rhs.

(** src/Omega_h_int128.cpp:8-11 the loop of to_double: halve until the high part vanishes.  Returns the
    remaining Int128 and the number of halvings.  [fuel] exceeds any possible number of
    iterations; running out of it would show as [UB], which the theorems exclude. *)
Fixpoint halve_loop (fuel : nat) (tmp : int128) (k : Z) : res (int128 * Z) :=
  if high tmp =? 0 then Ok (tmp, k)
  else match fuel with
       | O => UB
       | S f => tmp' <- shr128 tmp 1 ;; halve_loop f tmp' (k + 1)
       end.

(** A finite double is [m * 2^e], kept as the pair (m, e). *)
Record real := Real { man : Z; expo : Z }.

(** src/Omega_h_int128.cpp:5-16 to_double with unit = 2^u.  [round] is the rounding of the
    conversion from uint64 to double ("double x = tmp.low"), left arbitrary; the final product
    with a power of two is taken as exact. *)
Definition to_double (round : Z -> Z) (x : int128) (u : Z) : res real :=
  tmp <- (if ltb128 x (of_int64 0) then neg128 x else Ok x) ;;
  '(tmp', k) <- halve_loop 128 tmp 0 ;;
  let m := round (low tmp') in
  Ok (Real (if ltb128 x (of_int64 0) then - m else m) (u + k)).

(** src/Omega_h_int128.hpp:41-44 from_double with unit = 2^u: the quotient by a power of two, truncated
    towards zero, converted to int64 (undefined when out of range).  Truncation makes the
    underflow rounding of the quotient invisible. *)
Definition trunc_div (v : real) (u : Z) : Z :=
  if u <=? expo v then man v * 2 ^ (expo v - u) else Z.quot (man v) (2 ^ (u - expo v)).
Definition from_double (v : real) (u : Z) : res int128 :=
  n <- s64 (trunc_div v u) ;; Ok (of_int64 n).

(** src/Omega_h_array_ops.cpp:507-508 std::frexp: v = f * 2^expo with 1/2 <= |f| < 1 *)
Definition frexp_expo (v : real) : Z := Z.log2 (Z.abs (man v)) + 1 + expo v.

Definition int_min : Z := - 2 ^ 31.

(** src/Omega_h_array_ops.cpp:504-509 the transform of max_exponent *)
Definition exponent_of (v : real) : Z := if man v =? 0 then int_min else frexp_expo v.

(** transform_reduce (src/Omega_h_reduce.hpp:130-160) and MPI_Allreduce combine values in an
    unspecified order and association: a tree over the values. *)
Inductive tree (A : Type) := leaf (a : A) | node (l r : tree A).
Arguments leaf {A}. Arguments node {A}.
Fixpoint fringe {A} (t : tree A) : list A :=
  match t with leaf a => [a] | node l r => fringe l ++ fringe r end.
Fixpoint reduce {A} (op : A -> A -> res A) (t : tree A) : res A :=
  match t with
  | leaf a => Ok a
  | node l r => x <- reduce op l ;; y <- reduce op r ;; op x y
  end.


(** src/Omega_h_array_ops.cpp:496-512 max_exponent; maximum is exact in any order. *)
Definition max_exponent (a : list real) : Z := fold_left Z.max (map exponent_of a) int_min.

(** [sum_order] names array positions; position [length a] stands for [init] (Int128(0)). *)
Definition fixpt (a : list real) (u : Z) (i : nat) : res int128 :=
  match nth_error a i with
  | Some v => from_double v u
  | None => Ok (of_int64 0)
  end.

Fixpoint mapT {A B} (f : A -> res B) (t : tree A) : res (tree B) :=
  match t with
  | leaf a => b <- f a ;; Ok (leaf b)
  | node l r => l' <- mapT f l ;; r' <- mapT f r ;; Ok (node l' r')
  end.

(** src/Omega_h_array_ops.cpp:518-530 int128_sum with its reduction order *)
Definition int128_sum (a : list real) (order : tree nat) (u : Z) : res int128 :=
  if (zlen a =? 0) then Ok (of_int64 0)
  else t <- mapT (fixpt a u) order ;; reduce add128 t.

Definition MANTISSA_BITS : Z := 52.   (* src/Omega_h_defines.h *)
(** exp2 of an exponent below the least subnormal is 0; dividing by it gives an infinity or NaN whose
    conversion to int64 is undefined *)
Definition min_unit_expo : Z := -1074.

(** src/Omega_h_array_ops.cpp:532-545 repro_sum(Reals) *)
Definition repro_sum (round : Z -> Z) (a : list real) (order : tree nat) : res real :=
  if zlen a =? 0 then Ok (Real 0 0) else
  let expo := max_exponent a in
  if expo =? int_min then Ok (Real 0 0) else
  let u := expo - MANTISSA_BITS in
  if u <? min_unit_expo then UB else
  s <- int128_sum a order u ;;
  to_double round s u.

(** src/Omega_h_array_ops.cpp:547-559 repro_sum(CommPtr, Reals) on all ranks: [parts] holds, per rank, the array
    and its local reduction order; [ranks] is the order in which MPI_Allreduce
    (src/Omega_h_comm.cpp:225-241) combines the ranks.  The result is the same on every rank. *)
Definition repro_sum_comm (round : Z -> Z) (parts : list (list real * tree nat)) (ranks : tree nat) : res real :=
  let expo := fold_left Z.max (map (fun p => max_exponent (fst p)) parts) int_min in
  if expo =? int_min then Ok (Real 0 0) else
  let u := expo - MANTISSA_BITS in
  if u <? min_unit_expo then UB else
  sums <- mapM (fun p => int128_sum (fst p) (snd p) u) parts ;;
  t <- mapT (fun r => match nth_error sums r with Some s => Ok s | None => UB end) ranks ;;
  s <- reduce add128 t ;;
  to_double round s u.
