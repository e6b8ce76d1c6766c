(** Specification vocabulary for classification: an entity of the mesh has a class, the dimension and the identifier of the
    entity of the geometric model it is on; the identifier -1 says that it is not known. *)
From Verif Require Import Prelude M_Template S_Align M_Adj S_Adj S_Unique S_Match M_MeshAdj S_MeshAdj M_Class.
Local Open Scope Z_scope.

Notation class := (Z * Z)%type.

(** [d] is the least dimension among the classes *)
Definition least (d : Z) (cs : list class) : Prop := (exists i, In (d, i) cs) /\ forall c, In c cs -> d <= fst c.

(** What the classes [highs] of the entities around an entity say together, with the class [given] that it has so far: the
    least dimension, if the known identifiers of that dimension are one, and how many of [highs] are of that dimension; if
    they are not one, they meet in something of one dimension less, that nobody has been seen on. *)
Inductive joined (given : class) (highs : list class) : Z -> Z -> Z -> Prop :=
| joined_one : forall d id, least d (given :: highs) -> (forall i, In (d, i) (given :: highs) -> i = id \/ i = -1) -> (id = -1 \/ In (d, id) (given :: highs)) ->
    joined given highs d id (zlen (filter (fun c => fst c =? d) highs))
| joined_more : forall d i j, least d (given :: highs) -> In (d, i) (given :: highs) -> In (d, j) (given :: highs) -> i <> j -> i <> -1 -> j <> -1 ->
    joined given highs (d - 1) (-1) 0.

(** The class of an entity of dimension [e]: it is on what the entities around it join, if two of them, or more than two when
    that has more than one dimension more, are on it too; otherwise it is on something of its own dimension. *)
Definition inferred (e : Z) (given : class) (highs : list class) (c : class) : Prop :=
  exists d id n, joined given highs d id n /\
    ((d = e + 1 /\ n <> 2) \/ (e + 1 < d /\ n < 2) -> c = (e, -1)) /\ (~ ((d = e + 1 /\ n <> 2) \/ (e + 1 < d /\ n < 2)) -> c = (d, id)).

(** of the classes with the least dimension, the identifiers around are all known or none is known at all *)
Definition all_or_none (given : class) (highs : list class) : Prop :=
  forall d, least d (given :: highs) -> (forall i, In (d, i) highs -> i <> -1) \/ (forall i, In (d, i) (given :: highs) -> i = -1).

(** the entities of dimension [d + 1] that entity [e] of dimension [d] is a side of, as often as it is *)
Definition above (T : topology) (d e : Z) : list Z :=
  map (fun u => u / element_degree (t_family T) (d + 1) d) (uses_of (adj_ab2b (t_down T (d + 1))) e).

(** the class of an entity; what is given of it, if any: the dimension of the mesh and -1 stand for what is not *)
Definition has_class (t : ctags) (d e : Z) (c : class) : Prop :=
  exists dims ids, c_dims t d = Some dims /\ c_ids t d = Some ids /\ zget dims e = Ok (fst c) /\ zget ids e = Ok (snd c).
Definition given_class (T : topology) (t : ctags) (d e : Z) (c : class) : Prop :=
  match c_dims t d with Some dims => zget dims e = Ok (fst c) | None => fst c = t_dim T end /\
  match c_ids t d with Some ids => zget ids e = Ok (snd c) | None => snd c = -1 end.
(** there is a value for each entity in each tag *)
Definition whole_tags (T : topology) (t : ctags) : Prop := forall d, 0 <= d <= t_dim T ->
  (forall a, c_dims t d = Some a -> zlen a = t_nents T d) /\ (forall a, c_ids t d = Some a -> zlen a = t_nents T d).
(** a class dimension is between that of the entity and that of the mesh *)
Definition proper_dims (T : topology) (t : ctags) : Prop := forall d a x, 0 <= d <= t_dim T -> c_dims t d = Some a -> In x a -> d <= x <= t_dim T.

(** [t'] has a class for each entity: for elements what [t] gives, and below what [t] gives and the classes of the
    entities around make *)
Definition derived (T : topology) (t t' : ctags) : Prop :=
  (forall d e, 0 <= d <= t_dim T -> 0 <= e < t_nents T d -> exists c, has_class t' d e c) /\
  (forall e c, given_class T t (t_dim T) e c -> 0 <= e < t_nents T (t_dim T) -> has_class t' (t_dim T) e c) /\
  (forall d e given highs c, 0 <= d < t_dim T -> 0 <= e < t_nents T d -> given_class T t d e given -> Forall2 (has_class t' (d + 1)) (above T d e) highs ->
     has_class t' d e c -> all_or_none given highs -> inferred d given highs c).
(** around every entity the identifiers of the least dimension are all known or none is known at all *)
Definition known_around (T : topology) (t t' : ctags) : Prop := forall d e given highs, 0 <= d < t_dim T -> 0 <= e < t_nents T d ->
  given_class T t d e given -> Forall2 (has_class t' (d + 1)) (above T d e) highs -> all_or_none given highs.

(** the entities [names] of dimension [d] are those that the rows of vertices describe: elements in their order, vertices
    themselves, and others the only ones with these vertices *)
Definition describes (T : topology) (d : Z) (eqv2v names : list Z) : Prop :=
  NoDup names /\ (forall e, In e names -> 0 <= e < t_nents T d) /\
  if d =? t_dim T then names = zrange (t_nents T d) /\ zlen eqv2v = t_nents T d * element_degree (t_family T) d 0
  else if d =? 0 then names = eqv2v
  else let deg := element_degree (t_family T) d 0 in
    zlen eqv2v = zlen names * deg /\ (forall v, In v eqv2v -> 0 <= v < t_nents T 0) /\
    forall a row, row_is deg eqv2v a row -> exists e, zget names a = Ok e /\ matches deg (t_verts T d) row e /\ forall e', matches deg (t_verts T d) row e' -> e' = e.
