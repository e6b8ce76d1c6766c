(** Vocabulary for array maps. *)
From Verif Require Import Prelude.
Local Open Scope Z_scope.

(** a permutation of 0..n-1 given as the list of images *)
Definition is_perm (p : list Z) : Prop := Permutation p (zrange (zlen p)).

(** a fan: non-empty list of offsets, starting at 0, never decreasing *)
Definition is_fan (f : list Z) : Prop :=
  zget f 0 = Ok 0 /\ (forall i lo hi, zget f i = Ok lo -> zget f (i + 1) = Ok hi -> lo <= hi).

(** item [b] belongs to group [a] of the fan *)
Definition in_group (f : list Z) (a b : Z) : Prop :=
  exists lo hi, zget f a = Ok lo /\ zget f (a + 1) = Ok hi /\ lo <= b < hi.

(** every entry of the map points to an existing block of the target array *)
Definition maps_into {A} (a2b : list Z) (b_data : list A) (width : Z) : Prop :=
  forall b, In b a2b -> 0 <= b /\ (b + 1) * width <= zlen b_data.

(** the compressed graph (offsets, sources) inverts the map [a2b] with [nb] targets: the group of [b]
    lists the sources that map to [b], every source is listed exactly once *)
Definition inverts (a2b : list Z) (nb : Z) (b2ba ba2a : list Z) : Prop :=
  is_fan b2ba /\ zlen b2ba = nb + 1 /\ zget b2ba nb = Ok (zlen a2b) /\
  zlen ba2a = zlen a2b /\ is_perm ba2a /\
  forall b i, in_group b2ba b i <-> exists a, zget ba2a i = Ok a /\ zget a2b a = Ok b.
