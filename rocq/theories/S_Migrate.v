(** Vocabulary for moving the entities of a distributed mesh.  Entry [s] of a list is rank [s]; see S_Dist.v for [goes_to],
    [addressed], [data_per_root], [delivered] and [by_key_then_sender], and S_Owners.v for [owner_is]. *)
From Verif Require Import Prelude M_Sort M_Template M_Tags M_Dist S_Dist S_Owners M_Migrate.
Local Open Scope Z_scope.

(** ** a usable mesh *)
(** a tag with a name, at most 127 components, and values for every entity *)
Definition sound_tag (nents : list Z) (t : dtag) : Prop :=
  dt_name t <> [] /\ 1 <= dt_ncomps t <= 127 /\ data_per_root nents (dt_data t) (dt_ncomps t).
(** the entities of one dimension: every entity names an existing (rank, index) as its owner; tags have distinct names; one is "global" *)
Record sound_level (nranks : Z) (e : dents) : Prop := {
  l_nranks : zlen (de_nents e) = nranks;
  l_owners : addressed (de_ranks e) (de_idxs e) (de_nents e);
  l_exist : ranks_exist (de_ranks e);
  l_size : data_per_root (de_nents e) (de_ranks e) 1;
  l_tags : Forall (sound_tag (de_nents e)) (de_tags e);
  l_names : NoDup (map dt_name (de_tags e));
  l_few : zlen (de_tags e) <= 127;
  l_global : exists t, In t (de_tags e) /\ dt_name t = global_name /\ dt_type t = OMEGA_H_I64 /\ dt_ncomps t = 1
}.
(** [deg] sides per entity, which exist on the same rank *)
Record sound_sides (deg : Z) (high low : dents) : Prop := {
  d_size : data_per_root (de_nents high) (de_down high) deg;
  d_range : forall s c l, goes_to (de_down high) s c l -> exists n, zget (de_nents low) s = Ok n /\ 0 <= l < n;
  d_codes : match de_codes high with Some x => data_per_root (de_nents high) x deg | None => True end
}.
Record sound (nranks : Z) (m : dmesh) : Prop := {
  s_dim : 1 <= dm_dim m <= 3;
  s_ranks : 0 < nranks <= i32_max + 1;
  s_levels : zlen (dm_ents m) = dm_dim m + 1;
  s_level : forall d e, zget (dm_ents m) d = Ok e -> sound_level nranks e;
  s_sides : forall d high low, zget (dm_ents m) (d + 1) = Ok high -> zget (dm_ents m) d = Ok low -> sound_sides (element_degree (dm_family m) (d + 1) d) high low
}.

(** ** where entities come from *)
(** side [k] of entity [q] of rank [r] is owned by entity [j] of rank [t] *)
Definition side_owner (deg : Z) (high low : dents) (r q k t j : Z) : Prop :=
  0 <= k < deg /\ exists l, goes_to (de_down high) r (q * deg + k) l /\ owner_is (de_ranks low) (de_idxs low) r l t j.
(** [src] lists for each rank the (rank, index) each new entity is a copy of *)
Definition copy_of (src : list (list (Z * Z))) (s c r q : Z) : Prop := exists l, zget src s = Ok l /\ zget l c = Ok (r, q).

(** the values of the "global" tag *)
Definition global_data (e : dents) (g : list (list Z)) : Prop := exists t, In t (de_tags e) /\ dt_name t = global_name /\ dt_data t = g.

(** a rank gets exactly the owners of the sides of its new entities, each once, by increasing global number *)
Definition lows_of (deg : Z) (high low : dents) (hsrc lsrc : list (list (Z * Z))) : Prop :=
  zlen lsrc = zlen hsrc /\
  forall s l, zget lsrc s = Ok l -> NoDup l /\
    (forall t j, In (t, j) l <-> exists c r q k, copy_of hsrc s c r q /\ side_owner deg high low r q k t j) /\
    forall g, global_data low g -> by_key_then_sender g l.

(** side [k] of a new entity is the copy of the owner of side [k] of the old one *)
Definition sides_moved (deg : Z) (high low high' : dents) (hsrc lsrc : list (list (Z * Z))) : Prop :=
  data_per_root (de_nents high') (de_down high') deg /\
  (forall s c r q k t j, copy_of hsrc s c r q -> side_owner deg high low r q k t j ->
     exists x, goes_to (de_down high') s (c * deg + k) x /\ copy_of lsrc s x t j) /\
  match de_codes high, de_codes high' with
  | Some x, Some x' => delivered hsrc x x' deg
  | None, None => True
  | _, _ => False
  end.

(** tags keep name, type and number of components; every copy has the values of what it is a copy of *)
Definition tag_moved (src : list (list (Z * Z))) (t t' : dtag) : Prop :=
  dt_name t' = dt_name t /\ dt_type t' = dt_type t /\ dt_ncomps t' = dt_ncomps t /\ delivered src (dt_data t) (dt_data t') (dt_ncomps t).

(** owners are chosen anew: all copies of an entity name one of them, on the rank that has fewest entities, the lowest among equals *)
Definition owners_chosen (src : list (list (Z * Z))) (e' : dents) : Prop :=
  forall s c r q, copy_of src s c r q -> exists t x, copy_of src t x r q /\
    forall s' c', copy_of src s' c' r q -> owner_is (de_ranks e') (de_idxs e') s' c' t x /\
    exists l l', zget src t = Ok l /\ zget src s' = Ok l' /\ (zlen l < zlen l' \/ zlen l = zlen l' /\ t <= s').
(** the owning rank stays what it was; the index is that of a copy on that rank, the same for all copies, or -1 where there is none *)
Definition owners_kept (src : list (list (Z * Z))) (e e' : dents) : Prop :=
  forall r q o, goes_to (de_ranks e) r q o ->
    exists x, (forall s c, copy_of src s c r q -> owner_is (de_ranks e') (de_idxs e') s c o x) /\ (copy_of src o x r q \/ (x = -1 /\ forall y, ~ copy_of src o y r q)).
Definition keeps_owners (mode : parting) (d : Z) : bool :=
  match mode with OMEGA_H_GHOSTED => true | OMEGA_H_VERT_BASED => d =? 0 | OMEGA_H_ELEM_BASED => false end.

Record level_moved (mode : parting) (d : Z) (e e' : dents) (src : list (list (Z * Z))) : Prop := {
  v_nents : de_nents e' = map zlen src;
  v_tags : Forall2 (tag_moved src) (de_tags e) (de_tags e');
  v_sizes : data_per_root (de_nents e') (de_ranks e') 1 /\ data_per_root (de_nents e') (de_idxs e') 1;
  v_owners : if keeps_owners mode d then owners_kept src e e' else owners_chosen src e'
}.

(** ** the whole mesh: [srcs] has one entry per dimension *)
Record migrated (mode : parting) (m m' : dmesh) (srcs : list (list (list (Z * Z)))) : Prop := {
  g_family : dm_family m' = dm_family m;
  g_dim : dm_dim m' = dm_dim m;
  g_srcs : zlen srcs = dm_dim m + 1;
  g_levels : zlen (dm_ents m') = dm_dim m + 1;
  g_level : forall d e e' src, zget (dm_ents m) d = Ok e -> zget (dm_ents m') d = Ok e' -> zget srcs d = Ok src -> level_moved mode d e e' src;
  g_sides : forall d high low high' hsrc lsrc, zget (dm_ents m) (d + 1) = Ok high -> zget (dm_ents m) d = Ok low -> zget (dm_ents m') (d + 1) = Ok high' ->
    zget srcs (d + 1) = Ok hsrc -> zget srcs d = Ok lsrc ->
    lows_of (element_degree (dm_family m) (d + 1) d) high low hsrc lsrc /\ sides_moved (element_degree (dm_family m) (d + 1) d) high low high' hsrc lsrc
}.

(** what is copied exists *)
Definition sources_exist (e : dents) (src : list (list (Z * Z))) : Prop :=
  forall s c r q, copy_of src s c r q -> exists n, zget (de_nents e) r = Ok n /\ 0 <= q < n.
(** where owning ranks are kept, whatever is copied is also copied to the rank that owns it *)
Definition owners_present (mode : parting) (m : dmesh) (srcs : list (list (list (Z * Z)))) : Prop :=
  forall d e src s c r q o, keeps_owners mode d = true -> zget (dm_ents m) d = Ok e -> zget srcs d = Ok src ->
    copy_of src s c r q -> goes_to (de_ranks e) r q o -> exists y, copy_of src o y r q.

(** ** copies that agree with their owners: tag values are the same, and so are the owners of the sides *)
Definition level_agrees (e : dents) : Prop :=
  forall s i t j, owner_is (de_ranks e) (de_idxs e) s i t j ->
    owner_is (de_ranks e) (de_idxs e) t j t j /\
    forall g x y, In g (de_tags e) -> zget (dt_data g) s = Ok x -> zget (dt_data g) t = Ok y -> same_block (dt_ncomps g) x i y j.
Definition sides_agree (deg : Z) (high low : dents) : Prop :=
  forall s i t j k r q, owner_is (de_ranks high) (de_idxs high) s i t j -> (side_owner deg high low s i k r q <-> side_owner deg high low t j k r q).
Definition agrees (m : dmesh) : Prop :=
  (forall d e, zget (dm_ents m) d = Ok e -> level_agrees e) /\
  forall d high low, zget (dm_ents m) (d + 1) = Ok high -> zget (dm_ents m) d = Ok low -> sides_agree (element_degree (dm_family m) (d + 1) d) high low.
