(** C71: migration of a distributed mesh. *)
From Verif Require Import Prelude M_Array M_Par M_Sort M_Map S_Map M_Tags M_Template M_Dist S_Dist M_Owners S_Owners M_Migrate S_Migrate P_Dist6 P_Migrate6 X_Migrate.
Local Open Scope Z_scope.

(** Give every rank a list of elements, as (rank, index) pairs: migrate_mesh succeeds, and afterwards the rank has copies of these
    elements in that order ([src]).  What [migrated] says of the other dimensions is in S_Migrate.v: a rank has each entity its elements
    are bounded by exactly once, ordered by global number; downward adjacencies refer to these copies as the old ones did to the
    originals; all tags come along; all copies of one entity name the same owner.  If every kept owner has a copy, the result is
    again a usable mesh whose copies agree with their owners. *)
Theorem migrate_mesh_moves : forall inv nranks m mode ranks idxs e, inverter inv -> sound nranks m -> zget (dm_ents m) (dm_dim m) = Ok e ->
  ranks_exist ranks -> addressed ranks idxs (de_nents e) ->
  exists ds m' srcs src, make_dist inv ranks idxs (de_nents e) = Ok ds /\ migrate_mesh inv m ds mode = Ok m' /\ migrated mode m m' srcs /\
  zget srcs (dm_dim m) = Ok src /\ map (map fst) src = ranks /\ map (map snd) src = idxs /\
  (owners_present mode m srcs -> sound nranks m' /\ agrees m').
Proof. exact migrate_moves. Qed.
Print Assumptions migrate_mesh_moves.

(** Partitions by elements choose owners anew, and so always give a usable mesh. *)
Theorem migrate_mesh_elem_based : forall inv nranks m ranks idxs e, inverter inv -> sound nranks m -> zget (dm_ents m) (dm_dim m) = Ok e ->
  ranks_exist ranks -> addressed ranks idxs (de_nents e) ->
  exists ds m', make_dist inv ranks idxs (de_nents e) = Ok ds /\ migrate_mesh inv m ds OMEGA_H_ELEM_BASED = Ok m' /\ sound nranks m' /\ agrees m'.
Proof. exact migrate_elem_based. Qed.
Print Assumptions migrate_mesh_elem_based.

(** In the other two modes an entity whose owning rank gets no copy of it names the owner index -1. *)
Theorem migrate_mesh_owners_exist_refuted : ~ forall inv nranks m mode ranks idxs e, inverter inv -> sound nranks m -> zget (dm_ents m) (dm_dim m) = Ok e ->
  ranks_exist ranks -> addressed ranks idxs (de_nents e) ->
  exists ds m', make_dist inv ranks idxs (de_nents e) = Ok ds /\ migrate_mesh inv m ds mode = Ok m' /\ sound nranks m'.
Proof. exact ghosted_owner_lost. Qed.
Print Assumptions migrate_mesh_owners_exist_refuted.

(** ** the hypotheses can be met *)
Example migrate_sound_ex : inverter ex_by_sorting /\ sound 2 ex_tri_mesh /\ ranks_exist ex_new_ranks /\ addressed ex_new_ranks ex_new_idxs (de_nents ex_tris).
Proof. exact (conj sorting_inverter (conj ex_tri_sound ex_tri_addressed)). Qed.
Example migrate_elem_based_ex : exists m' verts, ex_move OMEGA_H_ELEM_BASED = Ok m' /\ zget (dm_ents m') 0 = Ok verts /\
  de_nents verts = [3; 4] /\ de_ranks verts = [[0; 0; 0]; [0; 1; 0; 1]] /\ de_idxs verts = [[0; 1; 2]; [0; 1; 1; 3]] /\ globals verts = Ok [[3; 7; 10]; [3; 5; 7; 20]].
Proof. exact ex_elem_based. Qed.
