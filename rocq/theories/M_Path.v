(** Model of class path, src/Omega_h_filesystem.cpp:265-350, on POSIX (preferred_separator is '/').
    A string is the list of its character codes. *)
From Verif Require Import Prelude.
Local Open Scope Z_scope.

Definition sep : Z := 47.
Definition dot : Z := 46.

(** std::string::find_last_of(c); [None] is npos *)
Fixpoint find_last_of (c : Z) (s : list Z) : option nat :=
  match s with
  | [] => None
  | x :: t =>
      match find_last_of c t with
      | Some i => Some (S i)
      | None => if x =? c then Some O else None
      end
  end.

Fixpoint str_eqb (a b : list Z) : bool :=
  match a, b with
  | [], [] => true
  | x :: a, y :: b => (x =? y) && str_eqb a b
  | _, _ => false
  end.

(** src/Omega_h_filesystem.cpp:277-281 *)
Definition filename (p : list Z) : list Z :=
  match find_last_of sep p with
  | None => p
  | Some i => skipn (i + 1) p
  end.

(** src/Omega_h_filesystem.cpp:283-287 *)
Definition parent_path (p : list Z) : list Z :=
  match find_last_of sep p with
  | None => p
  | Some i => firstn i p
  end.

(** src/Omega_h_filesystem.cpp:289-304 *)
Definition extension (p : list Z) : list Z :=
  let f := filename p in
  match find_last_of dot f with
  | None => []
  | Some i => if str_eqb f [dot] || str_eqb f [dot; dot] then []
              else if (i =? 0)%nat then [] else skipn i f
  end.

(** src/Omega_h_filesystem.cpp:307-314 *)
Definition stem (p : list Z) : list Z :=
  let f := filename p in
  match find_last_of dot f with
  | None => f
  | Some i => if str_eqb f [dot] || str_eqb f [dot; dot] then f
              else if (i =? 0)%nat then f else firstn i f
  end.

(** src/Omega_h_filesystem.cpp:316-332 operator/=, and operator/ *)
Definition join (a b : list Z) : list Z := a ++ [sep] ++ b.
