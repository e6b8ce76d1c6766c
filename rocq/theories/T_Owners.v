(** C25 and C26: owners of shared entities and their global numbers. *)
From Verif Require Import Prelude M_Array M_Par M_Sort M_Map S_Map M_Dist S_Dist M_Linpart M_Owners S_Owners P_Dist6 P_Link P_Owners P_Owners2.
Local Open Scope Z_scope.

(** update_ownership without given ranks: all copies of an entity name one owner, which is one of them; its rank is the one that
    holds fewest copies in all, the lowest among equals. *)
Theorem update_ownership_balances : forall inv ranks idxs nroots, inverter inv -> ranks_exist ranks -> zlen ranks <= i32_max + 1 -> addressed ranks idxs nroots ->
  forall ds, make_dist inv ranks idxs nroots = Ok ds ->
  exists oranks oidxs, update_ownership ds None = Ok (oranks, oidxs) /\ per_copy ranks oranks /\ per_copy ranks oidxs /\
  forall s i r, goes_to ranks s i r -> exists t j, same_entity ranks idxs s i t j /\
    forall s' i', same_entity ranks idxs s i s' i' -> owner_is oranks oidxs s' i' t j /\
    exists n n', holds ranks t n /\ holds ranks s' n' /\ (n < n' \/ n = n' /\ t <= s').
Proof. exact (fun inv ranks idxs nroots Hi Re Ft Ad ds M => update_by_size _ _ _ _ _ (make_dist_link inv ranks idxs nroots Hi Re Ft Ad ds M)). Qed.
Print Assumptions update_ownership_balances.

(** With given owning ranks: they are kept, and all copies of an entity get one index, that of a copy that names its own rank; -1 if
    there is none. *)
Theorem update_ownership_obeys : forall inv ranks idxs nroots, inverter inv -> ranks_exist ranks -> zlen ranks <= i32_max + 1 -> addressed ranks idxs nroots ->
  forall ds, make_dist inv ranks idxs nroots = Ok ds -> forall own_ranks, per_copy ranks own_ranks ->
  exists oidxs, update_ownership ds (Some own_ranks) = Ok (own_ranks, oidxs) /\ per_copy ranks oidxs /\
  forall s i r, goes_to ranks s i r -> exists j,
    (forall s' i', same_entity ranks idxs s i s' i' -> goes_to oidxs s' i' j) /\
    ((j = -1 /\ forall s' i', same_entity ranks idxs s i s' i' -> ~ goes_to own_ranks s' i' s') \/
     exists t, same_entity ranks idxs s i t j /\ goes_to own_ranks t j t).
Proof. exact (fun inv ranks idxs nroots Hi Re Ft Ad ds M => update_by_rank _ _ _ _ _ (make_dist_link inv ranks idxs nroots Hi Re Ft Ad ds M)). Qed.
Print Assumptions update_ownership_obeys.

(** If the copies of an entity agree on a rank that has a copy, all of them name the same copy on that rank. *)
Theorem update_ownership_consistent : forall inv ranks idxs nroots, inverter inv -> ranks_exist ranks -> zlen ranks <= i32_max + 1 -> addressed ranks idxs nroots ->
  forall ds, make_dist inv ranks idxs nroots = Ok ds -> forall own_ranks, per_copy ranks own_ranks ->
  (forall s i o, goes_to own_ranks s i o -> (exists i', same_entity ranks idxs s i o i') /\ forall s' i', same_entity ranks idxs s i s' i' -> goes_to own_ranks s' i' o) ->
  exists oidxs, update_ownership ds (Some own_ranks) = Ok (own_ranks, oidxs) /\ per_copy ranks oidxs /\
  forall s i o, goes_to own_ranks s i o -> exists j, same_entity ranks idxs s i o j /\ forall s' i', same_entity ranks idxs s i s' i' -> owner_is own_ranks oidxs s' i' o j.
Proof. exact update_consistent. Qed.
Print Assumptions update_ownership_consistent.

(** The same from global numbers: copies of one entity are the entries with one global number. *)
Theorem owners_from_globals_balances : forall inv globals, inverter inv -> 0 < zlen globals <= i32_max + 1 -> Forall (Forall (fun g => 0 <= g)) globals ->
  exists oranks oidxs, owners_from_globals inv globals None = Ok (oranks, oidxs) /\ per_copy globals oranks /\ per_copy globals oidxs /\
  forall s i g, goes_to globals s i g -> exists t j, goes_to globals t j g /\
    forall s' i', goes_to globals s' i' g -> owner_is oranks oidxs s' i' t j /\
    exists n n', holds globals t n /\ holds globals s' n' /\ (n < n' \/ n = n' /\ t <= s').
Proof. exact globals_by_size. Qed.
Print Assumptions owners_from_globals_balances.
Theorem owners_from_globals_obeys : forall inv globals, inverter inv -> 0 < zlen globals <= i32_max + 1 -> Forall (Forall (fun g => 0 <= g)) globals ->
  forall own_ranks, per_copy globals own_ranks ->
  (forall s i g o, goes_to globals s i g -> goes_to own_ranks s i o -> (exists i', goes_to globals o i' g) /\ forall s' i', goes_to globals s' i' g -> goes_to own_ranks s' i' o) ->
  exists oidxs, owners_from_globals inv globals (Some own_ranks) = Ok (own_ranks, oidxs) /\ per_copy globals oidxs /\
  forall s i g o, goes_to globals s i g -> goes_to own_ranks s i o -> exists j, goes_to globals o j g /\ forall s' i', goes_to globals s' i' g -> owner_is own_ranks oidxs s' i' o j.
Proof. exact globals_consistent. Qed.
Print Assumptions owners_from_globals_obeys.

(** If no rank holds an entity twice, what comes out is a proper assignment of owners, as the functions below need it. *)
Theorem owners_from_globals_proper : forall inv globals, inverter inv -> 0 < zlen globals <= i32_max + 1 -> Forall (Forall (fun g => 0 <= g)) globals -> Forall (@NoDup Z) globals ->
  exists oranks oidxs, owners_from_globals inv globals None = Ok (oranks, oidxs) /\ per_copy globals oranks /\ owners_ok oranks oidxs /\
  forall s i t j g, owner_is oranks oidxs s i t j -> goes_to globals s i g -> goes_to globals t j g.
Proof. exact globals_owners_ok. Qed.
Print Assumptions owners_from_globals_proper.

(** reduce_data_to_owners: where every place has a copy, it gets the values of one of its copies. *)
Theorem reduce_data_to_owners_copies : forall inv ranks idxs nroots, inverter inv -> ranks_exist ranks -> zlen ranks <= i32_max + 1 -> addressed ranks idxs nroots ->
  forall ds, make_dist inv ranks idxs nroots = Ok ds -> forall A (data : list (list A)) n, 0 < n -> data_per_item ranks data n ->
  (forall r k q, zget nroots r = Ok k -> 0 <= q < k -> exists s i, goes_to ranks s i r /\ goes_to idxs s i q) ->
  exists out, reduce_data_to_owners ds data n = Ok out /\ data_per_root nroots out n /\
  forall r k q y, zget nroots r = Ok k -> 0 <= q < k -> zget out r = Ok y ->
  exists s i x, goes_to ranks s i r /\ goes_to idxs s i q /\ zget data s = Ok x /\ same_block n y q x i.
Proof. exact (fun inv ranks idxs nroots Hi Re Ft Ad ds M => @reduce_to_owners _ _ _ _ _ (make_dist_link inv ranks idxs nroots Hi Re Ft Ad ds M)). Qed.
Print Assumptions reduce_data_to_owners_copies.

(** sync_array: every copy gets its owner's values; reduce_array: every entity gets the join over all copies that name it. *)
Theorem sync_array_agrees : forall inv oranks oidxs, inverter inv -> zlen oranks <= i32_max + 1 -> owners_ok oranks oidxs ->
  forall A (a : list (list A)) width, 0 < width -> data_per_item oranks a width ->
  exists b, sync_array inv oranks oidxs a width = Ok b /\ data_per_item oranks b width /\
  forall s i t j x y, owner_is oranks oidxs s i t j -> zget a t = Ok x -> zget b s = Ok y -> same_block width y i x j.
Proof. exact @sync_agrees. Qed.
Print Assumptions sync_array_agrees.
Theorem reduce_array_joins : forall inv oranks oidxs, inverter inv -> zlen oranks <= i32_max + 1 -> owners_ok oranks oidxs ->
  forall A (init : A) join (a : list (list A)) width, 0 < width -> data_per_item oranks a width ->
  exists b, reduce_array init join inv oranks oidxs a width = Ok b /\ data_per_item oranks b width /\
  forall t j t0 y, goes_to oranks t j t0 -> zget b t = Ok y ->
  exists copies, NoDup copies /\ (forall s i, In (s, i) copies <-> owner_is oranks oidxs s i t j) /\
  forall c, 0 <= c < width -> exists vs, mapM (fun p => x <- zget a (fst p) ;; zget x (snd p * width + c)) copies = Ok vs /\ zget y (j * width + c) = Ok (fold_left join vs init).
Proof. exact @reduce_joins. Qed.
Print Assumptions reduce_array_joins.

(** globals_from_owners: the owned entities, rank by rank in local order, get 0, 1, 2, ...; every copy has its owner's number. *)
Theorem globals_from_owners_numbers : forall inv oranks oidxs, inverter inv -> zlen oranks <= i32_max + 1 -> owners_ok oranks oidxs ->
  exists g, globals_from_owners inv true oranks oidxs = Ok g /\ per_copy oranks g /\
  (forall v s i, zget (owned_list oranks) v = Ok (s, i) -> goes_to g s i v) /\
  (forall s i t j v, owner_is oranks oidxs s i t j -> (goes_to g s i v <-> goes_to g t j v)) /\
  (forall s i t, goes_to oranks s i t -> exists v, goes_to g s i v).
Proof. exact numbering_shared. Qed.
Print Assumptions globals_from_owners_numbers.
(** when nothing can be shared (each entity is its own owner) *)
Theorem globals_from_owners_unshared : forall inv oranks oidxs, (forall s i t, goes_to oranks s i t -> t = s) ->
  exists g, globals_from_owners inv false oranks oidxs = Ok g /\ per_copy oranks g /\
  (forall v s i, zget (owned_list oranks) v = Ok (s, i) -> goes_to g s i v) /\ nglobal_ents false oranks = repeat (zlen (owned_list oranks)) (length oranks).
Proof. exact numbering_unshared. Qed.
Print Assumptions globals_from_owners_unshared.
(** [owned_list] lists exactly the owned entities, each once, and nglobal_ents is its length on every rank *)
Theorem owned_list_complete : forall oranks, NoDup (owned_list oranks) /\ forall s i, In (s, i) (owned_list oranks) <-> goes_to oranks s i s.
Proof. exact (fun o => conj (owned_NoDup o) (owned_in o)). Qed.
Print Assumptions owned_list_complete.
Theorem nglobal_ents_counts : forall oranks, nglobal_ents true oranks = repeat (zlen (owned_list oranks)) (length oranks).
Proof. exact nglobal_shared. Qed.
Print Assumptions nglobal_ents_counts.

(** Three ranks sharing five entities. *)
Definition ex_globals : list (list Z) := [[0; 1; 2; 4]; [2; 1; 3]; [3; 0; 4]].
Definition ex_inv : Z -> list Z -> Z -> res (list Z * list Z) := fun _ => invert_map_by_sorting.
Example owners_ex : inverter ex_inv /\ 0 < zlen ex_globals <= i32_max + 1 /\ Forall (Forall (fun g => 0 <= g)) ex_globals.
Proof. split; [exact sorting_inverter|]. split; [vm_compute; intuition discriminate|]. repeat constructor; vm_compute; discriminate. Qed.
Example owners_from_globals_ex : owners_from_globals ex_inv ex_globals None
  = Ok ([[2; 1; 1; 2]; [1; 1; 1]; [1; 2; 2]], [[1; 1; 0; 2]; [0; 1; 2]; [2; 1; 2]]).
Proof. vm_compute. reflexivity. Qed.
Example owners_from_ranks_ex : owners_from_globals ex_inv ex_globals (Some [[0; 1; 0; 0]; [0; 1; 2]; [2; 0; 0]])
  = Ok ([[0; 1; 0; 0]; [0; 1; 2]; [2; 0; 0]], [[0; 1; 2; 3]; [2; 1; 0]; [0; 0; 3]]).
Proof. vm_compute. reflexivity. Qed.
Example globals_from_owners_ex : globals_from_owners ex_inv true [[2; 1; 1; 2]; [1; 1; 1]; [1; 2; 2]] [[1; 1; 0; 2]; [0; 1; 2]; [2; 1; 2]]
  = Ok [[3; 1; 0; 4]; [0; 1; 2]; [2; 3; 4]].
Proof. vm_compute. reflexivity. Qed.
Example owned_list_ex : owned_list [[2; 1; 1; 2]; [1; 1; 1]; [1; 2; 2]] = [(1, 0); (1, 1); (1, 2); (2, 1); (2, 2)].
Proof. vm_compute. reflexivity. Qed.

Example owners_ok_ex : exists oranks oidxs, owners_from_globals ex_inv ex_globals None = Ok (oranks, oidxs) /\ owners_ok oranks oidxs /\ zlen oranks = 3.
Proof.
  destruct owners_ex as (H1 & H2 & H3). assert (N : Forall (@NoDup Z) ex_globals) by (repeat constructor; vm_compute; intuition discriminate).
  destruct (owners_from_globals_proper ex_inv ex_globals H1 H2 H3 N) as (o & x & E & P & K & _). exists o, x. split; [exact E|]. split; [exact K|]. destruct P as [P _]. exact P.
Qed.
