(** Model of src/Omega_h_hilbert.hpp: the Hilbert curve between grid cells and positions along the curve. *)
From Verif Require Import Prelude M_Array M_Sort.
Local Open Scope Z_scope.

(** src/Omega_h_hilbert.hpp:36 coord_t is std::uint64_t; shifting by the width or more is undefined *)
Definition u64 (x : Z) : Z := x mod 2 ^ 64.
Definition shl (x k : Z) : res Z := if (0 <=? k) && (k <? 64) then Ok (u64 (Z.shiftl x k)) else UB.
Definition shr (x k : Z) : res Z := if (0 <=? k) && (k <? 64) then Ok (Z.shiftr x k) else UB.

(** [X[i] ^= v] *)
Definition xor_into (X : list Z) (i v : Z) : res (list Z) := x <- zget X i ;; zset X i (Z.lxor x v).

(** src/Omega_h_hilbert.hpp:54-60 and 74-80: the body shared by the loops "undo excess work" and "inverse undo" *)
Definition exchange (Q : Z) (X : list Z) (i : Z) : res (list Z) :=
  let P := u64 (Q - 1) in
  xi <- zget X i ;;
  if negb (Z.land xi Q =? 0) then xor_into X 0 P
  else
    x0 <- zget X 0 ;;
    let t := Z.land (Z.lxor x0 xi) P in
    X <- xor_into X 0 t ;;
    xor_into X i t.

(** [for (Q = 2; Q != N; Q <<= 1) f(Q)] with fuel: the loop that does not end is [UB] *)
Fixpoint loop_up (fuel : nat) (N Q : Z) (f : list Z -> Z -> res (list Z)) (X : list Z) : res (list Z) :=
  if Q =? N then Ok X
  else match fuel with
       | O => UB
       | S fuel => X <- f X Q ;; Q <- shl Q 1 ;; loop_up fuel N Q f X
       end.
(** [for (Q = M; Q > 1; Q >>= 1) f(Q)] *)
Fixpoint loop_down {A} (fuel : nat) (Q : Z) (f : A -> Z -> res A) (X : A) : res A :=
  if Q <=? 1 then Ok X
  else match fuel with
       | O => UB
       | S fuel => X <- f X Q ;; Q <- shr Q 1 ;; loop_down fuel Q f X
       end.

(** src/Omega_h_hilbert.hpp:39-64 TransposetoAxes *)
Definition transpose_to_axes (X : list Z) (b n : Z) : res (list Z) :=
  N <- shl 2 (b - 1) ;;
  xl <- zget X (n - 1) ;; t <- shr xl 1 ;;
  X <- foldM (fun X i => xp <- zget X (i - 1) ;; xor_into X i xp) (rev (zfromto 1 n)) X ;;
  X <- xor_into X 0 t ;;
  loop_up 64 N 2 (fun X Q => foldM (exchange Q) (rev (zrange n)) X) X.

(** src/Omega_h_hilbert.hpp:66-91 AxestoTranspose *)
Definition axes_to_transpose (X : list Z) (b n : Z) : res (list Z) :=
  M <- shl 1 (b - 1) ;;
  X <- loop_down 64 M (fun X Q => foldM (exchange Q) (zrange n) X) X ;;
  X <- foldM (fun X i => xp <- zget X (i - 1) ;; xor_into X i xp) (zfromto 1 n) X ;;
  t <- loop_down 64 M (fun t Q => xl <- zget X (n - 1) ;; Ok (if negb (Z.land xl Q =? 0) then Z.lxor t (u64 (Q - 1)) else t)) 0 ;;
  forM n X (fun X i => xor_into X i t).

(** src/Omega_h_hilbert.hpp:101-107 untranspose; [out] holds n words *)
Definition untranspose (X : list Z) (b n : Z) : res (list Z) :=
  forM (b * n) (repeat 0 (Z.to_nat n)) (fun out i =>
    x <- zget X (i mod n) ;;
    bit <- shr x (b - 1 - i / n) ;;
    v <- shl (Z.land bit 1) (b - 1 - i mod b) ;;
    o <- zget out (i / b) ;;
    zset out (i / b) (Z.lor o v)).

(** src/Omega_h_hilbert.hpp:133-149 the clamping of one coordinate and the conversion of a cell, given the value of
    coord_t(zero_to_2eP_coord); the floating point computation before it is not modelled *)
Definition clamp_cell (x nbits : Z) : res Z :=
  l <- shl 1 nbits ;; Ok (if l <=? x then u64 (l - 1) else x).
Definition from_cell (X : list Z) (nbits dim : Z) : res (list Z) :=
  X <- mapM (fun x => clamp_cell x nbits) X ;;
  X <- axes_to_transpose X nbits dim ;;
  untranspose X nbits dim.

(** src/Omega_h_macros.h:24 and src/Omega_h_defines.hpp:86 MANTISSA_BITS *)
Definition mantissa_bits : Z := 52.
(** src/Omega_h_hilbert.cpp:24-47 dists_from_coords_dim, from the integer cells of the points on; [static_cast<I64>]
    wraps at 2^63, and a negative result is refused *)
Definition dists_from_cells (cells : list (list Z)) (dim : Z) : res (list Z) :=
  rows <- mapM (fun X =>
    D <- from_cell X mantissa_bits dim ;;
    mapM (fun c => let sv := if 2 ^ 63 <=? c then c - 2 ^ 64 else c in _ <- check (0 <=? sv) ;; Ok sv) D) cells ;;
  Ok (concat rows).
(** src/Omega_h_hilbert.cpp:49-59 dists_from_coords, sort_coords *)
Definition sort_cells (cells : list (list Z)) (dim : Z) : res (list Z) :=
  if (dim =? 3) || (dim =? 2) || (dim =? 1) then keys <- dists_from_cells cells dim ;; sort_by_keys keys dim else Abort.
