(** Vocabulary for balancing; see S_Migrate.v for [copy_of] and S_Parting.v for [same_mesh] and [parted]. *)
From Verif Require Import Prelude M_Dist S_Dist S_Owners M_Migrate S_Migrate M_Ghost S_Ghost.
Local Open Scope Z_scope.

(** the items of all ranks, [sizes[r]] of them on rank [r], handed out anew: [who] lists for each rank what it gets, and every item is
    handed out exactly once *)
Definition dealt (sizes : list Z) (who : list (list (Z * Z))) : Prop :=
  zlen who = zlen sizes /\
  (forall s c r q, copy_of who s c r q -> exists n, zget sizes r = Ok n /\ 0 <= q < n) /\
  (forall r q n, zget sizes r = Ok n -> 0 <= q < n -> exists s c, copy_of who s c r q) /\
  forall s c s' c' r q, copy_of who s c r q -> copy_of who s' c' r q -> s = s' /\ c = c'.
(** what is marked goes to the second half of the ranks, the rest to the first *)
Definition by_marks (h : Z) (marks : list (list Z)) (who : list (list (Z * Z))) : Prop :=
  forall s c r q mk, copy_of who s c r q -> goes_to marks r q mk -> if mk =? 0 then 0 <= s < h else h <= s < 2 * h.
(** marks of the right sizes, for any data *)
Definition marks_all {T} (mark : list Z -> list (list T) -> list (list T) -> res (list (list Z))) : Prop :=
  forall path coords masses sizes, data_per_root sizes coords 3 -> data_per_root sizes masses 1 -> exists marks, mark path coords masses = Ok marks /\ data_per_root sizes marks 1.
(** three coordinates and a mass for each element of every mesh *)
Definition weighs {T} (nranks : Z) (weigh : dmesh -> res (list (list T) * list (list T))) : Prop :=
  forall m elems, sound nranks m -> elems_of m = Ok elems -> exists coords masses, weigh m = Ok (coords, masses) /\ data_per_root (de_nents elems) coords 3 /\ data_per_root (de_nents elems) masses 1.
(** no rank has an element twice *)
Definition each_once (m : dmesh) : Prop :=
  forall elems s x y t j, elems_of m = Ok elems -> owner_is (de_ranks elems) (de_idxs elems) s x t j -> owner_is (de_ranks elems) (de_idxs elems) s y t j -> x = y.
