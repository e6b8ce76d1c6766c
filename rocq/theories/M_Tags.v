(** Tags of a mesh and the quantities cached in them: src/Omega_h_mesh.cpp, src/Omega_h_tag.cpp. *)
From Coq Require Import Ascii String.
From Verif Require Import Prelude.
Local Open Scope Z_scope.

(** A name is its bytes. *)
Definition name_of (s : string) : list Z := map (fun c => Z.of_nat (nat_of_ascii c)) (list_ascii_of_string s).
Definition same_name (a b : list Z) : bool := if list_eq_dec Z.eq_dec a b then true else false.

(** src/Omega_h_defines.hpp Omega_h_Type *)
Definition OMEGA_H_I8 := 0.
Definition OMEGA_H_I32 := 2.
Definition OMEGA_H_I64 := 3.
Definition OMEGA_H_F64 := 5.
Definition VERT := 0.
Definition EDGE := 1.

(** src/Omega_h_tag.hpp TagBase and Tag<T>; the type is the number type() returns, the array may not exist; the entries of an array
    of Reals are 64-bit patterns *)
Record tag := mk_tag { tag_name : list Z; tag_type : Z; tag_ncomps : Z; tag_array : option (list Z) }.

(** src/Omega_h_mesh.hpp:97-113 the members that matter here: dim_, nents_ (four, -1 for none) and tags_ (four) *)
Record tmesh := mk_tmesh { t_dim : Z; t_nents : list Z; t_tags : list (list tag) }.

(** src/Omega_h_mesh.hpp:53-56 dim *)
Definition mdim (m : tmesh) : res Z := if (0 <=? t_dim m) && (t_dim m <=? 3) then Ok (t_dim m) else Abort.
(** src/Omega_h_mesh.cpp:281-284 check_dim *)
Definition check_dim (m : tmesh) (d : Z) : res unit :=
  if negb (0 <=? d) then Abort else
  n <- mdim m ;; if d <=? n then Ok tt else Abort.
(** src/Omega_h_mesh.cpp:223-226 has_ents *)
Definition has_ents (m : tmesh) (d : Z) : res bool := _ <- check_dim m d ;; n <- zget (t_nents m) d ;; Ok (0 <=? n).
(** src/Omega_h_mesh.cpp:286-289 check_dim2 *)
Definition check_dim2 (m : tmesh) (d : Z) : res unit :=
  _ <- check_dim m d ;; b <- has_ents m d ;; if (b : bool) then Ok tt else Abort.
(** src/Omega_h_mesh.cpp:103-106 nents *)
Definition nents (m : tmesh) (d : Z) : res Z := _ <- check_dim2 m d ;; zget (t_nents m) d.

(** src/Omega_h_mesh.cpp:271-279 tag_iter: the first tag of that name *)
Fixpoint find_tag (l : list tag) (name : list Z) : option tag :=
  match l with [] => None | t :: r => if same_name (tag_name t) name then Some t else find_tag r name end.
(** *it = ptr *)
Fixpoint replace_tag (l : list tag) (name : list Z) (new : tag) : list tag :=
  match l with [] => [] | t :: r => if same_name (tag_name t) name then new :: r else t :: replace_tag r name new end.
(** erase(it) *)
Fixpoint erase_tag (l : list tag) (name : list Z) : list tag :=
  match l with [] => [] | t :: r => if same_name (tag_name t) name then r else t :: erase_tag r name end.

(** src/Omega_h_mesh.cpp:204-208 has_tag *)
Definition has_tag (m : tmesh) (d : Z) (name : list Z) : res bool :=
  _ <- check_dim m d ;; b <- has_ents m d ;;
  if negb b then Ok false else l <- zget (t_tags m) d ;; Ok (match find_tag l name with Some _ => true | None => false end).
(** src/Omega_h_mesh.cpp:198-202 remove_tag *)
Definition remove_tag (m : tmesh) (d : Z) (name : list Z) : res tmesh :=
  b <- has_tag m d name ;;
  if negb b then Ok m else
  _ <- check_dim2 m d ;;
  l <- zget (t_tags m) d ;;
  ts <- zset (t_tags m) d (erase_tag l name) ;;
  Ok (mk_tmesh (t_dim m) (t_nents m) ts).
(** src/Omega_h_mesh.cpp:168-178 react_to_set_tag *)
Definition react_to_set_tag (m : tmesh) (d : Z) (name : list Z) : res tmesh :=
  let is_coordinates := same_name name (name_of "coordinates") in
  m <- (if (d =? VERT) && (is_coordinates || same_name name (name_of "metric")) then
          m <- remove_tag m EDGE (name_of "length") ;;
          n <- mdim m ;; remove_tag m n (name_of "quality")
        else Ok m) ;;
  if (d =? VERT) && is_coordinates then n <- mdim m ;; remove_tag m n (name_of "size") else Ok m.
(** src/Omega_h_mesh.cpp:132-160 add_tag; [None] is an array that does not exist, as in the overload at :127-130 *)
Definition add_tag (m : tmesh) (type d : Z) (name : list Z) (ncomps : Z) (array : option (list Z)) (internal : bool) : res tmesh :=
  l <- zget (t_tags m) d ;;
  let had := match find_tag l name with Some _ => true | None => false end in
  _ <- (if had then Ok tt else
        _ <- check_dim2 m d ;;
        if match name with [] => true | _ => false end then Abort else
        if negb (0 <=? ncomps) then Abort else
        if negb (ncomps <=? 127) then Abort else
        if negb (zlen l <? 127) then Abort else Ok tt) ;;
  (* the constructor TagBase, src/Omega_h_tag.cpp:5-8 *)
  if match name with [] => true | _ => false end then Abort else
  _ <- match array with
       | Some a => n <- zget (t_nents m) d ;; if negb (zlen a =? n * ncomps) then Abort else Ok tt
       | None => Ok tt
       end ;;
  let ptr := mk_tag name type ncomps array in
  ts <- zset (t_tags m) d (if had then replace_tag l name ptr else l ++ [ptr]) ;;
  let m' := mk_tmesh (t_dim m) (t_nents m) ts in
  if internal then Ok m' else react_to_set_tag m' d name.
(** src/Omega_h_mesh.cpp:162-166 set_tag; src/Omega_h_scalar.hpp:279-284 divide_no_remainder *)
Definition set_tag (m : tmesh) (type d : Z) (name : list Z) (array : list Z) (internal : bool) : res tmesh :=
  n <- nents m d ;;
  if n =? 0 then Abort else if negb (Z.rem (zlen array) n =? 0) then Abort else
  add_tag m type d name (Z.quot (zlen array) n) (Some array) internal.
(** src/Omega_h_mesh.cpp:180-188 get_tagbase *)
Definition get_tagbase (m : tmesh) (d : Z) (name : list Z) : res tag :=
  _ <- check_dim2 m d ;; l <- zget (t_tags m) d ;; match find_tag l name with Some t => Ok t | None => Abort end.
(** src/Omega_h_mesh.cpp:190-197 get_tag and get_array, src/Omega_h_tag.cpp:21-25 as *)
Definition get_array (m : tmesh) (type d : Z) (name : list Z) : res (option (list Z)) :=
  t <- get_tagbase m d name ;; if tag_type t =? type then Ok (tag_array t) else Abort.
(** src/Omega_h_mesh.cpp:210-213 ntags *)
Definition ntags (m : tmesh) (d : Z) : res Z := _ <- check_dim2 m d ;; l <- zget (t_tags m) d ;; Ok (zlen l).
(** src/Omega_h_mesh.cpp:215-220 get_tag by number *)
Definition get_tag_i (m : tmesh) (d i : Z) : res tag :=
  _ <- check_dim2 m d ;;
  if negb (0 <=? i) then Abort else
  n <- ntags m d ;;
  if negb (i <=? n) then Abort else
  l <- zget (t_tags m) d ;; zget l i.

(** src/Omega_h_mesh.cpp:374-396 ask_lengths, ask_qualities, ask_sizes.  What is measured, given the metric (or nothing) and what a
    look for the coordinates gives, is a parameter: src/Omega_h_shape.cpp:51-53, src/Omega_h_quality.cpp:47-49 and
    src/Omega_h_shape.cpp:87-93 read nothing else that can change. *)
Definition coordinates_of (m : tmesh) : res (option (list Z)) := get_array m OMEGA_H_F64 VERT (name_of "coordinates").
Definition metric_of (m : tmesh) : res (option (list Z)) := get_array m OMEGA_H_F64 VERT (name_of "metric").
Definition measured (uses_metric : bool) (measure : res (option (list Z)) -> option (list Z) -> res (list Z)) (m : tmesh) : res (list Z) :=
  if uses_metric then mt <- metric_of m ;; measure (coordinates_of m) mt
  else c <- coordinates_of m ;; measure (Ok c) None.
Definition ask_cached (uses_metric : bool) (measure : res (option (list Z)) -> option (list Z) -> res (list Z)) (name : list Z) (d : Z) (m : tmesh)
  : res (tmesh * option (list Z)) :=
  b <- has_tag m d name ;;
  m <- (if (b : bool) then Ok m else v <- measured uses_metric measure m ;; add_tag m OMEGA_H_F64 d name 1 (Some v) false) ;;
  a <- get_array m OMEGA_H_F64 d name ;; Ok (m, a).
Definition ask_lengths fl (m : tmesh) := ask_cached true fl (name_of "length") EDGE m.
Definition ask_qualities fq (m : tmesh) := n <- mdim m ;; ask_cached true fq (name_of "quality") n m.
Definition ask_sizes fs (m : tmesh) := n <- mdim m ;; ask_cached false fs (name_of "size") n m.
