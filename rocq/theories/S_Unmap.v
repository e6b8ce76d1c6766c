(** Specification vocabulary for picking and renumbering the entities of a mesh. *)
From Coq Require Import String.
From Verif Require Import Prelude S_Map M_Template M_Adj M_Tags M_MeshAdj S_MeshAdj M_Unmap.
Local Open Scope Z_scope.

(** [maps d] lists entities of dimension [d], each at most once; the sides of what is listed are listed *)
Definition picks (T : topology) (maps : Z -> list Z) : Prop :=
  (forall d, 0 <= d <= t_dim T -> NoDup (maps d) /\ forall e, In e (maps d) -> 0 <= e < t_nents T d) /\
  (forall d e w s, 1 <= d <= t_dim T -> In e (maps d) -> 0 <= w < element_degree (t_family T) d (d - 1) ->
     zget (adj_ab2b (t_down T d)) (e * element_degree (t_family T) d (d - 1) + w) = Ok s -> In s (maps (d - 1))).
(** all entities, in another order *)
Definition reorders (T : topology) (maps : Z -> list Z) : Prop := forall d, 0 <= d <= t_dim T -> zlen (maps d) = t_nents T d /\ is_perm (maps d).

(** [T'] has the listed entities of [T] in the order of the lists, on the same vertices and sides in the same order *)
Definition listed (T : topology) (maps : Z -> list Z) (T' : topology) : Prop :=
  t_family T' = t_family T /\ t_dim T' = t_dim T /\ (forall d, 0 <= d <= t_dim T -> t_nents T' d = zlen (maps d)) /\
  forall d e' e, 1 <= d <= t_dim T -> zget (maps d) e' = Ok e ->
    (let deg := element_degree (t_family T) d 0 in
     forall w, 0 <= w < deg -> exists v v', zget (t_verts T d) (e * deg + w) = Ok v /\ zget (t_verts T' d) (e' * deg + w) = Ok v' /\ zget (maps 0) v' = Ok v) /\
    (let deg := element_degree (t_family T) d (d - 1) in
     forall w, 0 <= w < deg ->
       (exists s s', zget (adj_ab2b (t_down T d)) (e * deg + w) = Ok s /\ zget (adj_ab2b (t_down T' d)) (e' * deg + w) = Ok s' /\ zget (maps (d - 1)) s' = Ok s) /\
       (2 <= d -> exists codes codes' code, adj_codes (t_down T d) = Some codes /\ adj_codes (t_down T' d) = Some codes' /\
          zget codes (e * deg + w) = Ok code /\ zget codes' (e' * deg + w) = Ok code)).

(** one tag array per name, of one of the four types, with the right number of values *)
Definition well_tagged (T : topology) (m : tmesh) : Prop :=
  M_Tags.t_dim m = t_dim T /\ zlen (M_Tags.t_nents m) = 4 /\ zlen (t_tags m) = 4 /\ (forall d, t_dim T < d < 4 -> zget (t_tags m) d = Ok []) /\
  forall d, 0 <= d <= t_dim T -> zget (M_Tags.t_nents m) d = Ok (t_nents T d) /\
  exists tags, zget (t_tags m) d = Ok tags /\ zlen tags <= 127 /\ NoDup (map tag_name tags) /\
    forall t, In t tags -> tag_name t <> [] /\ 0 <= tag_ncomps t <= 127 /\ In (tag_type t) [OMEGA_H_I8; OMEGA_H_I32; OMEGA_H_I64; OMEGA_H_F64] /\
      exists a, tag_array t = Some a /\ zlen a = t_nents T d * tag_ncomps t.
(** the same tag: its values are those of the listed entities *)
Definition carries (l : list Z) (t t' : tag) : Prop :=
  tag_name t' = tag_name t /\ tag_type t' = tag_type t /\ tag_ncomps t' = tag_ncomps t /\
  exists a a', tag_array t = Some a /\ tag_array t' = Some a' /\ zlen a' = zlen l * tag_ncomps t /\
    forall e' e j, zget l e' = Ok e -> 0 <= j < tag_ncomps t -> zget a' (e' * tag_ncomps t + j) = zget a (e * tag_ncomps t + j).
Definition tags_carried (dim : Z) (maps : Z -> list Z) (m m' : tmesh) : Prop :=
  forall d, 0 <= d <= dim -> exists tags tags', zget (t_tags m) d = Ok tags /\ zget (t_tags m') d = Ok tags' /\ Forall2 (carries (maps d)) tags tags'.
