(** Vocabulary for partitions of a mesh, and for meshes that differ in nothing but how they are distributed. *)
From Verif Require Import Prelude M_Template M_Tags M_Dist S_Dist M_Owners S_Owners M_Migrate S_Migrate M_Ghost S_Ghost M_Parting.
Local Open Scope Z_scope.

(** ** the same mesh, distributed in another way *)
(** rank [s] has an entity number [x] of dimension [d] *)
Definition present (m : dmesh) (d s x : Z) : Prop := exists e n, zget (dm_ents m) d = Ok e /\ zget (de_nents e) s = Ok n /\ 0 <= x < n.
(** two copies of one entity: they name the same owner *)
Definition same_ent (m : dmesh) (d s x t y : Z) : Prop :=
  exists e o z, zget (dm_ents m) d = Ok e /\ owner_is (de_ranks e) (de_idxs e) s x o z /\ owner_is (de_ranks e) (de_idxs e) t y o z.
(** side number [k] of entity [x] of dimension [d + 1] is [l] *)
Definition side (m : dmesh) (d s x k l : Z) : Prop :=
  0 <= d /\ exists e, zget (dm_ents m) (d + 1) = Ok e /\ 0 <= k < element_degree (dm_family m) (d + 1) d /\ goes_to (de_down e) s (x * element_degree (dm_family m) (d + 1) d + k) l.
(** the same tags in the same order, with the same values for [x] on [s] as for [x'] on [s'] *)
Definition same_tags (e e' : dents) (s x s' x' : Z) : Prop :=
  Forall2 (fun t t' => dt_name t' = dt_name t /\ dt_type t' = dt_type t /\ dt_ncomps t' = dt_ncomps t /\
    forall a b, zget (dt_data t) s = Ok a -> zget (dt_data t') s' = Ok b -> same_block (dt_ncomps t) b x' a x) (de_tags e) (de_tags e').
(** [R d s x s' x']: entity [x] of rank [s] in [m] and [x'] of rank [s'] in [m'] are copies of the same *)
Record same_mesh (m m' : dmesh) (R : Z -> Z -> Z -> Z -> Z -> Prop) : Prop := {
  i_family : dm_family m' = dm_family m;
  i_dim : dm_dim m' = dm_dim m;
  i_in : forall d s x s' x', R d s x s' x' -> present m d s x /\ present m' d s' x';
  i_left : forall d s x, present m d s x -> exists s' x', R d s x s' x';
  i_right : forall d s' x', present m' d s' x' -> exists s x, R d s x s' x';
  i_tags : forall d s x s' x' e e', R d s x s' x' -> zget (dm_ents m) d = Ok e -> zget (dm_ents m') d = Ok e' -> same_tags e e' s x s' x';
  i_sides : forall d s x s' x' k l l', R (d + 1) s x s' x' -> side m d s x k l -> side m' d s' x' k l' -> R d s l s' l';
  i_copies : forall d s x s' x' t y t' y', R d s x s' x' -> R d t y t' y' -> (same_ent m d s x t y <-> same_ent m' d s' x' t' y')
}.

(** ** partitions *)
(** an element is at most [n] steps away from those rank [s] owns, a step leading to an element with a vertex in common *)
Fixpoint near (m : dmesh) (elems : dents) (s : Z) (n : nat) (t j : Z) : Prop :=
  match n with
  | O => t = s /\ is_on elems s s j
  | S n => exists t' j', near m elems s n t' j' /\ is_owner elems t j /\ touch m t' j' t j
  end.
Definition distributed (m : dmesh) (p : parting) (layers : Z) : Prop :=
  forall elems, elems_of m = Ok elems ->
  match p with
  | OMEGA_H_ELEM_BASED => layers = 0 /\ forall s t j, is_on elems s t j -> t = s
  | OMEGA_H_GHOSTED => 0 <= layers /\ forall s t j, is_on elems s t j <-> near m elems s (Z.to_nat layers) t j
  | OMEGA_H_VERT_BASED => layers = 1 /\ forall s t j, is_on elems s t j <-> is_owner elems t j /\ exists q, has_vertex m t j s q
  end.
(** elements have as many vertices as their kind has *)
Definition answerable (m : dmesh) : Prop := exists elems verts a, elems_of m = Ok elems /\ verts_of m = Ok verts /\ answered m elems verts a.
(** [ask] answers rightly *)
Definition answers (nranks : Z) (ask : dmesh -> res asked) : Prop :=
  forall m elems verts, sound nranks m -> elems_of m = Ok elems -> verts_of m = Ok verts -> answerable m -> exists a, ask m = Ok a /\ answered m elems verts a.
(** a mesh distributed as it says it is *)
Definition parted (nranks : Z) (pm : pmesh) : Prop :=
  sound nranks (pm_mesh pm) /\ agrees (pm_mesh pm) /\ covered (pm_mesh pm) /\ answerable (pm_mesh pm) /\
  match pm_parting pm with Some p => distributed (pm_mesh pm) p (pm_layers pm) | None => True end.
(** what may be asked for: no layers, one, or any number of layers of simplices *)
Definition admissible (m : dmesh) (p : parting) (layers : Z) : Prop :=
  match p with
  | OMEGA_H_ELEM_BASED => layers = 0
  | OMEGA_H_VERT_BASED => layers = 1
  | OMEGA_H_GHOSTED => layers = 1 \/ 1 < layers /\ dm_family m = OMEGA_H_SIMPLEX
  end.
