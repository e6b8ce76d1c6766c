(** Vocabulary for distributed exchange.  Entry [s] of a list of arrays is the array of rank [s]; item [i] of rank [s] is
    written [(s, i)]. *)
From Verif Require Import Prelude M_Par M_Map S_Map.
Local Open Scope Z_scope.

(** item [i] of rank [s] is addressed to rank [r] *)
Definition goes_to (ranks : list (list Z)) (s i r : Z) : Prop := exists a, zget ranks s = Ok a /\ zget a i = Ok r.

(** destination ranks that exist *)
Definition ranks_exist (ranks : list (list Z)) : Prop := forall s i r, goes_to ranks s i r -> 0 <= r < zlen ranks.

(** every item has a destination (rank, index), and rank [r] has [nroots[r]] places *)
Definition addressed (ranks idxs : list (list Z)) (nroots : list Z) : Prop :=
  zlen idxs = zlen ranks /\ zlen nroots = zlen ranks /\
  (forall s a b, zget ranks s = Ok a -> zget idxs s = Ok b -> zlen b = zlen a) /\
  (forall r k, zget nroots r = Ok k -> 0 <= k) /\
  (forall s i r q, goes_to ranks s i r -> goes_to idxs s i q -> exists k, zget nroots r = Ok k /\ 0 <= q < k).

(** data with [width] values per item *)
Definition data_per_item {A} (ranks : list (list Z)) (data : list (list A)) (width : Z) : Prop :=
  zlen data = zlen ranks /\ forall s a x, zget ranks s = Ok a -> zget data s = Ok x -> zlen x = zlen a * width.
(** data with [width] values per place *)
Definition data_per_root {A} (nroots : list Z) (data : list (list A)) (width : Z) : Prop :=
  zlen data = zlen nroots /\ forall r k x, zget nroots r = Ok k -> zget data r = Ok x -> zlen x = k * width.

(** block [c] of [y] is block [i] of [x] *)
Definition same_block {A} (width : Z) (y : list A) (c : Z) (x : list A) (i : Z) : Prop :=
  forall j, 0 <= j < width -> exists v, zget y (c * width + j) = Ok v /\ zget x (i * width + j) = Ok v.

(** [who] lists for each rank the items it receives: those addressed to it, each once *)
Definition routes (ranks : list (list Z)) (who : list (list (Z * Z))) : Prop :=
  zlen who = zlen ranks /\
  forall r w, zget who r = Ok w -> NoDup w /\ forall s i, In (s, i) w <-> goes_to ranks s i r.

(** what arrives is the data of those items, in that order *)
Definition delivered {A} (who : list (list (Z * Z))) (data out : list (list A)) (width : Z) : Prop :=
  zlen out = zlen who /\
  forall r w y, zget who r = Ok w -> zget out r = Ok y ->
  zlen y = zlen w * width /\
  forall c s i x, zget w c = Ok (s, i) -> zget data s = Ok x -> same_block width y c x i.

(** the items of a list come by increasing rank of the sender, then by increasing position *)
Definition by_sender (w : list (Z * Z)) : Prop :=
  forall c c' s i s' i', zget w c = Ok (s, i) -> zget w c' = Ok (s', i') -> (c < c' <-> s < s' \/ (s = s' /\ i < i')).

(** a function that inverts maps *)
Definition inverter (inv : Z -> list Z -> Z -> res (list Z * list Z)) : Prop :=
  forall r a2b nb, 0 <= nb -> (forall b, In b a2b -> 0 <= b < nb) ->
  exists b2ba ba2a, inv r a2b nb = Ok (b2ba, ba2a) /\ inverts a2b nb b2ba ba2a.

(** a function whose results come from complete runs of invert_map_by_atomics, each with its own schedule *)
Definition runs_atomics (inv : Z -> list Z -> Z -> res (list Z * list Z)) : Prop :=
  forall r a2b nb, 0 <= nb -> (forall b, In b a2b -> 0 <= b < nb) ->
  exists m0 s1 s2 b2ba ba2a m, invert_map_by_atomics a2b nb m0 s1 s2 = Ok (Some (b2ba, ba2a, m)) /\ inv r a2b nb = Ok (b2ba, ba2a).

(** the items of a list come by increasing key, then by increasing rank of the sender, then by increasing position *)
Definition by_key_then_sender (keys : list (list Z)) (w : list (Z * Z)) : Prop :=
  forall c c' s i s' i' x y, zget w c = Ok (s, i) -> zget w c' = Ok (s', i') -> goes_to keys s i x -> goes_to keys s' i' y ->
  (c < c' <-> x < y \/ (x = y /\ (s < s' \/ (s = s' /\ i < i')))).
