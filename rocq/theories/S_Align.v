(** Specification vocabulary for alignment codes. *)
From Verif Require Import Prelude.
Local Open Scope Z_scope.

(** The [n] corners of a polygon read in cyclic order starting anywhere, forwards or backwards. *)
Definition forwards {A} (l l' : list A) : Prop := exists a b, l = a ++ b /\ l' = b ++ a.
Definition same_polygon {A} (l l' : list A) : Prop := forwards l l' \/ forwards (rev l) l'.

(** [v] and [w] are the corners that bound edge [k] of polygon [l] *)
Definition edge_of {A} (l : list A) (k : Z) (v w : A) : Prop :=
  (zget l k = Ok v /\ zget l ((k + 1) mod zlen l) = Ok w) \/ (zget l k = Ok w /\ zget l ((k + 1) mod zlen l) = Ok v).

(** row [e] of an array that has [deg] entries per row *)
Definition row_is {A} (deg : Z) (l : list A) (e : Z) (row : list A) : Prop :=
  zlen row = deg /\ forall j, 0 <= j < deg -> exists x, zget l (e * deg + j) = Ok x /\ zget row j = Ok x.
