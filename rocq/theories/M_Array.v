(** Arrays under construction.  A Write<T> made by Write<T>(size) (src/Omega_h_array.cpp:33-45) has
    indeterminate entries: [None].  Handing an array that still has such an entry to a reader is
    treated as undefined behaviour.  Negative sizes are treated as undefined (the cast to size_t at
    src/Omega_h_array.cpp:38,41 makes them huge). *)
From Verif Require Import Prelude.
Local Open Scope Z_scope.

(** src/Omega_h_array.cpp:33-45 Write<T>::Write(LO size_in) *)
Definition blank {A} (n : Z) : res (list (option A)) :=
  if n <? 0 then UB else Ok (repeat None (Z.to_nat n)).

(** src/Omega_h_array.cpp:47-57 Write<T>::Write(LO size_in, T value), fill *)
Definition filled {A} (n : Z) (v : A) : res (list A) :=
  if n <? 0 then UB else Ok (repeat v (Z.to_nat n)).

(** Read<T>(Write<T>), src/Omega_h_array.cpp:121: same storage, now read *)
Definition freeze {A} (w : list (option A)) : res (list A) :=
  mapM (fun o => match o with Some x => Ok x | None => UB end) w.

(** Read<T>::last, src/Omega_h_array.cpp:154-157 *)
Definition last_of {A} (l : list A) : res A := zget l (zlen l - 1).

(** the inner loop of the copying kernels: for (j < width) dst[b*width+j] = src[a*width+j] *)
Definition copy_block {A} (width : Z) (src : list A) (a : Z) (dst : list (option A)) (b : Z)
  : res (list (option A)) :=
  forM width dst (fun d j => x <- zget src (a * width + j) ;; zset d (b * width + j) (Some x)).
