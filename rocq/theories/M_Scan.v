(** Model of src/Omega_h_scan.hpp (serial and OpenMP versions) and src/Omega_h_int_scan.cpp. *)
From Verif Require Import Prelude M_Par.

Section scan.
Variables (A V : Type) (op : V -> V -> V) (tr : A -> V).

(** src/Omega_h_scan.hpp:222-225, the loop: [v] is the running value *)
Fixpoint scan_loop (v : V) (l : list A) : list V :=
  match l with
  | [] => []
  | x :: l' => let v' := op v (tr x) in v' :: scan_loop v' l'
  end.

(** src/Omega_h_scan.hpp:210-227 transform_inclusive_scan (serial); the result range *)
Definition transform_inclusive_scan (l : list A) : list V :=
  match l with
  | [] => []
  | x :: l' => tr x :: scan_loop (tr x) l'
  end.
End scan.
Arguments scan_loop {A V}. Arguments transform_inclusive_scan {A V}.

(** src/Omega_h_scan.hpp:195-208 inclusive_scan (serial) *)
Definition inclusive_scan (l : list Z) : list Z := transform_inclusive_scan Z.add (fun x => x) l.

(** src/Omega_h_int_scan.cpp:10-20 offset_scan.  LO overflow is not modelled. *)
Definition offset_scan (a : list Z) : list Z := 0%Z :: inclusive_scan a.

(** src/Omega_h_int_scan.cpp:25-33 fill_right: in place, maximum, identity *)
Definition fill_right (a : list Z) : list Z := transform_inclusive_scan Z.max (fun x => x) a.

(** The OpenMP version, src/Omega_h_scan.hpp:139-191 (and :89-137, its instance with op = plus and no
    transform).  Array 0 is the input range, array 1 is [thread_sums], array [R] the output
    range; [R = 0] when scanning in place. *)
Section omp.
Variables (V : Type) (op : V -> V -> V) (tr : V -> V) (n nthreads : nat) (R : nat).

(** src/Omega_h_scan.hpp:157-163 *)
Definition quotient := n / nthreads.
Definition remainder := n mod nthreads.
Definition begin_i (thread_num : nat) : nat :=
  if remainder <? thread_num then quotient * thread_num + remainder
  else (quotient + 1) * thread_num.
Definition end_i (thread_num : nat) : nat :=
  if remainder <=? thread_num then begin_i thread_num + quotient
  else begin_i thread_num + quotient + 1.

(** read the entries one after the other, combining *)
Fixpoint rd_fold (g : V -> V) (acc : V) (ls : list loc) (k : V -> prog V) : prog V :=
  match ls with
  | [] => k acc
  | l :: ls' => Rd l (fun y => rd_fold g (op acc (g y)) ls' k)
  end.

(** src/Omega_h_scan.hpp:164-171, before the barrier *)
Definition phase1 (t : nat) : prog V :=
  if begin_i t <? end_i t then
    Rd (0, begin_i t) (fun x =>
      rd_fold tr (tr x) (map (pair 0) (seq (S (begin_i t)) (end_i t - S (begin_i t)))) (fun s =>
        Wr (1, t) s Done))
  else Done.

(** src/Omega_h_scan.hpp:184-187 *)
Fixpoint scan_cells (acc : V) (is : list nat) : prog V :=
  match is with
  | [] => Done
  | i :: is' => Rd (0, i) (fun y => let acc' := op acc (tr y) in Wr (R, i) acc' (scan_cells acc' is'))
  end.

(** src/Omega_h_scan.hpp:173-188, after the barrier *)
Definition phase2 (t : nat) : prog V :=
  if begin_i t <? end_i t then
    let rest := fun v => Wr (R, begin_i t) v
                  (scan_cells v (seq (S (begin_i t)) (end_i t - S (begin_i t)))) in
    if t =? 0 then Rd (0, begin_i t) (fun x => rest (tr x))
    else Rd (1, 0) (fun s0 =>
           rd_fold (fun y => y) s0 (map (pair 1) (seq 1 (t - 1))) (fun s =>
             Rd (0, begin_i t) (fun x => rest (op s (tr x)))))
  else Done.

(** [thread_sums] has 512 entries (src/Omega_h_scan.hpp:94,148); a thread numbered 512 or
    more with a non-empty chunk writes outside it. *)
Definition max_num_threads := 512.
Definition omp_regions : res (list (prog V) * list (prog V)) :=
  if existsb (fun t => begin_i t <? end_i t) (seq max_num_threads (nthreads - max_num_threads)) then UB
  else Ok (map phase1 (seq 0 nthreads), map phase2 (seq 0 nthreads)).
End omp.
