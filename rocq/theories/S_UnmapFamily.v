(** Specification vocabulary for C88. *)
From Verif Require Import Prelude M_Array M_Par M_Map M_Adj M_Parents S_Parents M_UnmapFamily.
Local Open Scope Z_scope.

(** the parents of the entities of dimension [d]: nobody has one if none were set *)
Definition parents_in (m : fmesh) (d : Z) : parents := match f_parents m d with Some p => p | None => orphans (f_nents m d) end.

(** A mesh and lists of entities to keep: each at most once; parents are entities of the mesh. *)
Record keeps (m : fmesh) (leaves : Z -> option (list Z)) (kept : Z -> list Z) : Prop := {
  k_dim : 1 <= f_dim m <= 3;
  k_nents : forall d, 0 <= d <= f_dim m -> 0 <= f_nents m d;
  k_kept : forall d, 0 <= d <= f_dim m -> NoDup (kept d) /\ forall e, In e (kept d) -> 0 <= e < f_nents m d;
  k_lengths : forall d, 0 <= d <= f_dim m -> zlen (fst (parents_in m d)) = f_nents m d /\ zlen (snd (parents_in m d)) = f_nents m d;
  k_parents : forall d e q c, 0 <= d <= f_dim m -> zget (fst (parents_in m d)) e = Ok q -> zget (snd (parents_in m d)) e = Ok c -> 0 <= q ->
    code_parent_dim c <= f_dim m /\ q < f_nents m (code_parent_dim c);
  k_leaves : forall d l, 0 <= d <= f_dim m -> leaves d = Some l -> zlen l = f_nents m d }.

(** Old entity [e] of dimension [d] has parent [q] of dimension [pd]; it is child number [code_which_child c]. *)
Definition child_of (m : fmesh) (d e pd q c : Z) : Prop :=
  zget (fst (parents_in m d)) e = Ok q /\ zget (snd (parents_in m d)) e = Ok c /\ 0 <= q /\ code_parent_dim c = pd.

(** New entity [e'] is old entity [e]; it keeps its parent if the parent is kept, and has none otherwise. *)
Definition parent_right (m : fmesh) (kept : Z -> list Z) (d : Z) (p : parents) : Prop :=
  zlen (fst p) = zlen (kept d) /\ zlen (snd p) = zlen (kept d) /\ forall e' e, zget (kept d) e' = Ok e ->
  (exists pd q q' c, child_of m d e pd q c /\ zget (kept pd) q' = Ok q /\ zget (fst p) e' = Ok q' /\ zget (snd p) e' = Ok c) \/
  ((forall pd q c, child_of m d e pd q c -> ~ In q (kept pd)) /\ zget (fst p) e' = Ok (-1) /\ zget (snd p) e' = Ok 0).

(** What was a leaf is one; what was none is one if it has lost all its children of its dimension. *)
Definition leaf_right (m : fmesh) (leaves : Z -> option (list Z)) (kept : Z -> list Z) (d : Z) (l : list Z) : Prop :=
  zlen l = zlen (kept d) /\ forall e' e, zget (kept d) e' = Ok e -> exists b, (match leaves d with Some old => zget old e = Ok b | None => b = 1 end) /\
  (b <> 0 -> zget l e' = Ok b) /\
  (b = 0 -> (exists x c, In x (kept d) /\ child_of m d x d e c) -> zget l e' = Ok 0) /\
  (b = 0 -> (forall x c, In x (kept d) -> ~ child_of m d x d e c) -> zget l e' = Ok 1).

(** Entities of some dimension have had their parents set or asked for. *)
Definition with_parents (m : fmesh) : Prop := exists d, 0 <= d <= f_dim m /\ f_parents m d <> None.
