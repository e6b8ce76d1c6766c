(** Vocabulary for layers of ghost elements; see S_Migrate.v for [side_owner] and [copy_of]. *)
From Coq Require Import Sorting.Sorted.
From Verif Require Import Prelude M_Array M_Map M_Template S_Map S_Dist S_Owners M_Migrate S_Migrate M_Ghost.
Local Open Scope Z_scope.

(** ** vertices of an entity *)
(** vertex [v] bounds entity [x] of dimension [d] on rank [s]: directly, or by way of one of its sides *)
Fixpoint bounds (m : dmesh) (d : nat) (s x v : Z) : Prop :=
  match d with
  | O => v = x
  | S low => exists e k l, zget (dm_ents m) (Z.of_nat d) = Ok e /\
      let deg := element_degree (dm_family m) (Z.of_nat d) (Z.of_nat low) in
      0 <= k < deg /\ goes_to (de_down e) s (x * deg + k) l /\ bounds m low s l v
  end.
(** an element [x] of rank [s] has a vertex owned by vertex [q] of rank [r] *)
Definition has_vertex (m : dmesh) (s x r q : Z) : Prop :=
  exists verts v, verts_of m = Ok verts /\ bounds m (Z.to_nat (dm_dim m)) s x v /\ owner_is (de_ranks verts) (de_idxs verts) s v r q.

(** ** right answers of ask_down(dim, VERT) and ask_up(VERT, dim): the vertices that bound an element, and the elements a vertex bounds *)
Record answered (m : dmesh) (elems verts : dents) (a : asked) : Prop := {
  w_size : data_per_root (de_nents elems) (elems2verts a) (element_degree (dm_family m) (dm_dim m) 0);
  w_verts : forall s n x v, zget (de_nents elems) s = Ok n -> 0 <= x < n ->
    ((exists k, 0 <= k < element_degree (dm_family m) (dm_dim m) 0 /\ goes_to (elems2verts a) s (x * element_degree (dm_family m) (dm_dim m) 0 + k) v)
     <-> bounds m (Z.to_nat (dm_dim m)) s x v);
  w_lens : zlen (verts2uses a) = zlen (de_nents verts) /\ zlen (uses2elems a) = zlen (de_nents verts);
  w_fan : forall s f u n, zget (verts2uses a) s = Ok f -> zget (uses2elems a) s = Ok u -> zget (de_nents verts) s = Ok n ->
    is_fan f /\ zlen f = n + 1 /\ last_of f = Ok (zlen u);
  w_elems : forall s f u n v x, zget (verts2uses a) s = Ok f -> zget (uses2elems a) s = Ok u -> zget (de_nents elems) s = Ok n ->
    ((exists c, in_group f v c /\ zget u c = Ok x) <-> 0 <= x < n /\ bounds m (Z.to_nat (dm_dim m)) s x v)
}.

(** ** no loose entities: on each rank, every entity below the elements is a side of one of the next dimension *)
Definition covered (m : dmesh) : Prop :=
  forall d high low s n l, 0 <= d -> zget (dm_ents m) (d + 1) = Ok high -> zget (dm_ents m) d = Ok low -> zget (de_nents low) s = Ok n -> 0 <= l < n ->
    exists x k, 0 <= k < element_degree (dm_family m) (d + 1) d /\ goes_to (de_down high) s (x * element_degree (dm_family m) (d + 1) d + k) l.

(** ** layers: elements are named by their owner, a (rank, index) *)
(** two elements have a vertex in common *)
Definition touch (m : dmesh) (t j t' j' : Z) : Prop := exists r q, has_vertex m t j r q /\ has_vertex m t' j' r q.
(** an element is on rank [s] *)
Definition is_on (elems : dents) (s t j : Z) : Prop := exists x, owner_is (de_ranks elems) (de_idxs elems) s x t j.
(** it is an element, somewhere *)
Definition is_owner (elems : dents) (t j : Z) : Prop := exists s, is_on elems s t j.
(** it is at most [n] steps away from those on rank [s] *)
Fixpoint within (m : dmesh) (elems : dents) (s : Z) (n : nat) (t j : Z) : Prop :=
  match n with
  | O => is_on elems s t j
  | S n => exists t' j', within m elems s n t' j' /\ is_owner elems t j /\ touch m t' j' t j
  end.

(** rank [s] has exactly the elements of [P s], each once, by increasing global number *)
Definition has_exactly (elems : dents) (src : list (list (Z * Z))) (P : Z -> Z -> Z -> Prop) : Prop :=
  zlen src = zlen (de_nents elems) /\
  forall s l, zget src s = Ok l -> NoDup l /\ (forall t j, In (t, j) l <-> P s t j) /\ forall g, global_data elems g -> by_key_then_sender g l.

(** rank [s] has exactly the elements it owned, in the order it had them *)
Definition owned_in_order (elems : dents) (src : list (list (Z * Z))) : Prop :=
  zlen src = zlen (de_nents elems) /\
  forall s l, zget src s = Ok l -> exists o, StronglySorted Z.lt o /\ (forall x, In x o <-> goes_to (de_ranks elems) s x s) /\
    Forall2 (fun x p => owner_is (de_ranks elems) (de_idxs elems) s x (fst p) (snd p)) o l.
