(** Model of src/Omega_h_align.hpp and src/Omega_h_align.cpp. *)
From Verif Require Import Prelude M_Array.
Local Open Scope Z_scope.

(** conversion of an Int to I8 (two's complement) *)
Definition to_i8 (x : Z) : Z := (x + 128) mod 256 - 128.

(** src/Omega_h_align.hpp:41 *)
Definition code_is_flipped (code : Z) : bool := negb (Z.land code 1 =? 0).
(** src/Omega_h_align.hpp:43 *)
Definition code_rotation (code : Z) : Z := Z.land (Z.shiftr code 1) 3.
(** src/Omega_h_align.hpp:45 *)
Definition code_which_down (code : Z) : Z := Z.shiftr code 3.
(** src/Omega_h_align.hpp:47-50 *)
Definition make_code (is_flipped : bool) (rotation which_down : Z) : Z :=
  to_i8 (Z.lor (Z.lor (Z.shiftl which_down 3) (Z.shiftl rotation 1)) (Z.b2z is_flipped)).

(** src/Omega_h_align.hpp:52-55 *)
Definition rotate_index (nverts_per_ent index rotation : Z) : Z := Z.rem (index + rotation) nverts_per_ent.
(** src/Omega_h_align.hpp:59-61 *)
Definition invert_rotation (nverts_per_ent rotation : Z) : Z := Z.rem (nverts_per_ent - rotation) nverts_per_ent.
(** src/Omega_h_align.hpp:66 *)
Definition reverse_index (n i : Z) : Z := n - 1 - i.
(** src/Omega_h_align.hpp:68-70 *)
Definition flip_vert_index (n i : Z) : Z := if i =? 0 then 0 else 1 + reverse_index (n - 1) (i - 1).
(** src/Omega_h_align.hpp:72-74 *)
Definition flip_edge_index (n i : Z) : Z := reverse_index n i.
(** src/Omega_h_align.hpp:76-82 *)
Definition align_vert_index (n index code : Z) : Z :=
  if code_is_flipped code then flip_vert_index n (rotate_index n index (code_rotation code))
  else rotate_index n index (code_rotation code).
(** src/Omega_h_align.hpp:84-90 *)
Definition align_edge_index (n index code : Z) : Z :=
  if code_is_flipped code then flip_edge_index n (rotate_index n index (code_rotation code))
  else rotate_index n index (code_rotation code).
(** src/Omega_h_align.hpp:92-96 *)
Definition align_index (n index_dim index code : Z) : Z :=
  if index_dim =? 0 then align_vert_index n index code else align_edge_index n index code.
(** src/Omega_h_align.hpp:98-101 *)
Definition rotation_to_first (n new_first : Z) : Z := invert_rotation n new_first.
(** src/Omega_h_align.hpp:103-109 *)
Definition invert_alignment (n code : Z) : Z :=
  if code_is_flipped code then code else make_code false (invert_rotation n (code_rotation code)) 0.
(** src/Omega_h_align.hpp:114-126 compound_alignments<nverts_per_ent> *)
Definition compound_alignments_n (n code1 code2 : Z) : Z :=
  let old_first := align_vert_index n (align_vert_index n 0 code1) code2 in
  let rotation := rotation_to_first n old_first in
  let is_flipped := xorb (code_is_flipped code1) (code_is_flipped code2) in
  invert_alignment n (make_code is_flipped rotation 0).
(** src/Omega_h_align.hpp:128-132 compound_alignments *)
Definition compound_alignments (deg code1 code2 : Z) : res Z :=
  if deg =? 3 then Ok (compound_alignments_n 3 code1 code2)
  else if deg =? 2 then Ok (compound_alignments_n 2 code1 code2)
  else Abort.

Section rows.
Context {A : Type}.

(** src/Omega_h_align.hpp:134-141 rotate_adj, on one entity: the input row is entries
    in_offset .. in_offset+n-1 of [in], the output row starts at [out_offset] *)
Definition rotate_adj (n rotation : Z) (row : list A) : res (list A) :=
  out <- blank n ;;
  out <- forM n out (fun out j => x <- zget row j ;; zset out (rotate_index n j rotation) (Some x)) ;;
  freeze out.

(** src/Omega_h_scalar.hpp swap2 on two entries of an array *)
Definition swap_entries (l : list A) (i j : Z) : res (list A) :=
  x <- zget l i ;; y <- zget l j ;; l <- zset l i y ;; zset l j x.

(** src/Omega_h_align.hpp:143-171 FlipAdj, flip_adj; other degrees do not compile *)
Definition flip_adj (deg : Z) (row : list A) : res (list A) :=
  match deg with
  | 4 => swap_entries row 1 3
  | 3 => swap_entries row 1 2
  | 2 => Ok row
  | _ => Abort
  end.

(** src/Omega_h_align.hpp:173-179 align_adj *)
Definition align_adj (n code : Z) (row : list A) : res (list A) :=
  out <- rotate_adj n (code_rotation code) row ;;
  if code_is_flipped code then flip_adj n out else Ok out.

(** the [deg] entries of entity [e] *)
Definition get_row (deg : Z) (ev2v : list A) (e : Z) : res (list A) :=
  mapM (fun j => zget ev2v (e * deg + j)) (zrange deg).

(** src/Omega_h_align.cpp:7-17 align_ev2v_deg.  Iteration [e] of the kernel fills entries
    e*deg .. e*deg+deg-1 of a fresh array; the model computes the rows and joins them. *)
Definition align_ev2v_deg (deg : Z) (ev2v : list A) (codes : list Z) : res (list A) :=
  _ <- check (zlen ev2v =? zlen codes * deg) ;;
  rows <- tabulate (zlen codes) (fun e => code <- zget codes e ;; row <- get_row deg ev2v e ;; align_adj deg code row) ;;
  Ok (concat rows).

(** src/Omega_h_align.cpp:19-25 align_ev2v *)
Definition align_ev2v (deg : Z) (ev2v : list A) (codes : list Z) : res (list A) :=
  if deg =? 4 then align_ev2v_deg 4 ev2v codes
  else if deg =? 3 then align_ev2v_deg 3 ev2v codes
  else if deg =? 2 then align_ev2v_deg 2 ev2v codes
  else Abort.
End rows.
