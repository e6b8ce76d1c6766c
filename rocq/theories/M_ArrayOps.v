(** Model of src/Omega_h_reduce.hpp transform_reduce and of array operations of src/Omega_h_array_ops.cpp. *)
From Verif Require Import Prelude M_Array M_Sort.
Local Open Scope Z_scope.

(** The serial loop, or OpenMP: each thread's private copy starts at [priv], the thread runs some of the
    iterations in some order, and the copies are combined with the original in some order. *)
Inductive backend := Serial | OpenMP (threads : list (list Z)).

Section reduce.
Context {A : Type}.

(** src/Omega_h_reduce.hpp:171-182 (serial) and :86-104 (OpenMP, Op declared by the user: [priv] is
    the original value), :106-168 (OpenMP, built-in &&, +, max, min: [priv] is the operator's identity) *)
Definition transform_reduce (b : backend) (n : Z) (init priv : A) (op : A -> A -> res A) (transform : Z -> res A) : res A :=
  let loop := foldM (fun acc i => x <- transform i ;; op acc x) in
  match b with
  | Serial => loop (zrange n) init
  | OpenMP threads => copies <- mapM (fun its => loop its priv) threads ;; foldM op copies init
  end.
End reduce.

Definition pure {A} (op : A -> A -> A) (x y : A) : res A := Ok (op x y).

(** src/Omega_h_array_ops.cpp:11-20 operator==(Read, Read) *)
Definition arrays_equal (b : backend) (x y : list Z) : res bool :=
  _ <- check (zlen x =? zlen y) ;;
  transform_reduce b (zlen x) true true (pure andb) (fun i => u <- zget x i ;; v <- zget y i ;; Ok (u =? v)).
(** signed addition in the promoted type with largest value [max] *)
Definition add_ck (max a b : Z) : res Z := if (- max - 1 <=? a + b) && (a + b <=? max) then Ok (a + b) else UB.
(** src/Omega_h_array_ops.cpp:22-27 get_sum *)
Definition get_sum (b : backend) (max : Z) (a : list Z) : res Z := transform_reduce b (zlen a) 0 0 (add_ck max) (zget a).
(** src/Omega_h_array_ops.cpp:34-45 get_min; [tmax] is ArithTraits<T>::max(), [pmax] the largest value of promoted_t<T> *)
Definition get_min (b : backend) (tmax pmax : Z) (a : list Z) : res Z := transform_reduce b (zlen a) tmax pmax (pure Z.min) (zget a).
(** src/Omega_h_array_ops.cpp:47-58 get_max *)
Definition get_max (b : backend) (tmin pmin : Z) (a : list Z) : res Z := transform_reduce b (zlen a) tmin pmin (pure Z.max) (zget a).
(** src/Omega_h_array_ops.cpp:404-417 find_last; LO's least value is [lo_min] *)
Definition find_last (b : backend) (lo_min : Z) (a : list Z) (value : Z) : res Z :=
  transform_reduce b (zlen a) (-1) lo_min (pure Z.max) (fun i => x <- zget a i ;; Ok (if x =? value then i else -1)).
(** src/Omega_h_array_ops.cpp:419-428 is_sorted *)
Definition is_sorted (b : backend) (a : list Z) : res bool :=
  if zlen a <? 2 then Ok true else
  transform_reduce b (zlen a - 1) true true (pure andb) (fun i => x <- zget a i ;; y <- zget a (i + 1) ;; Ok (x <=? y)).

Section arrays.
Context {A : Type}.
(** src/Omega_h_array_ops.cpp:398-402 set_component *)
Definition set_component (out a : list A) (ncomps comp : Z) : res (list A) :=
  forM (zlen a) out (fun out i => x <- zget a i ;; zset out (i * ncomps + comp) x).
(** src/Omega_h_array_ops.cpp:390-396 get_component *)
Definition component (a : list A) (ncomps comp : Z) : res (list A) :=
  n <- divide_no_remainder (zlen a) ncomps ;; tabulate n (fun i => zget a (i * ncomps + comp)).
(** src/Omega_h_array_ops.cpp:430-444 interleave *)
Definition interleave (arrays : list (list A)) : res (list A) :=
  match arrays with
  | [] => Ok []
  | front :: _ =>
    let narrays := zlen arrays in let array_size := zlen front in
    _ <- mapM (fun a => check (zlen a =? array_size)) arrays ;;
    out <- blank (narrays * array_size) ;;
    out <- forM narrays out (fun out i => array <- zget arrays i ;;
      forM array_size out (fun out j => x <- zget array j ;; zset out (j * narrays + i) (Some x))) ;;
    freeze out
  end.
(** src/Omega_h_array_ops.cpp:446-464 coalesce; reading arrays[i] outside the std::vector is undefined *)
Definition coalesce (arrays : list (list A)) : res (list A) :=
  match arrays with
  | [] => Ok []
  | _ =>
    offsets <- foldM (fun offsets i => p <- zget offsets (i - 1) ;; a <- zget arrays i ;; Ok (offsets ++ [p + zlen a]))
      (zfromto 1 (zlen arrays + 1)) [0] ;;
    out_size <- zget offsets (zlen arrays) ;;
    out <- blank out_size ;;
    out <- forM (zlen arrays) out (fun out i => array <- zget arrays i ;; offset <- zget offsets i ;;
      forM (zlen array) out (fun out j => x <- zget array j ;; zset out (offset + j) (Some x))) ;;
    freeze out
  end.
(** src/Omega_h_array_ops.cpp:324-332 ternary_each *)
Definition ternary_each (cond : list Z) (a b : list A) : res (list A) :=
  _ <- check (zlen a =? zlen b) ;;
  width <- divide_no_remainder (zlen a) (zlen cond) ;;
  tabulate (zlen a) (fun i => c <- zget cond (Z.quot i width) ;; if negb (c =? 0) then zget a i else zget b i).
End arrays.
