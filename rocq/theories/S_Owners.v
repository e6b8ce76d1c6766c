(** Vocabulary for copies and owners; see S_Dist.v for [goes_to]. *)
From Verif Require Import Prelude S_Dist.
Local Open Scope Z_scope.

(** copy [i] of rank [s] and copy [j] of rank [t] stand for the same entity: they name the same (rank, index) *)
Definition same_entity (ranks idxs : list (list Z)) (s i t j : Z) : Prop :=
  exists r q, goes_to ranks s i r /\ goes_to idxs s i q /\ goes_to ranks t j r /\ goes_to idxs t j q.

(** arrays with one entry per copy *)
Definition per_copy (ranks x : list (list Z)) : Prop :=
  zlen x = zlen ranks /\ forall s a b, zget ranks s = Ok a -> zget x s = Ok b -> zlen b = zlen a.

(** the copy named by ([oranks], [oidxs]) at copy [i] of rank [s] is copy [j] of rank [t] *)
Definition owner_is (oranks oidxs : list (list Z)) (s i t j : Z) : Prop := goes_to oranks s i t /\ goes_to oidxs s i j.

(** rank [s] holds [n] copies *)
Definition holds (ranks : list (list Z)) (s n : Z) : Prop := exists a, zget ranks s = Ok a /\ zlen a = n.

(** every copy names an owner that owns itself *)
Definition owners_ok (oranks oidxs : list (list Z)) : Prop :=
  per_copy oranks oidxs /\
  (forall s i t j, owner_is oranks oidxs s i t j -> goes_to oranks t j t) /\
  (forall s i, goes_to oranks s i s -> goes_to oidxs s i i).

(** the owned copies, rank by rank, in local order *)
Definition owned_list (oranks : list (list Z)) : list (Z * Z) :=
  flat_map (fun s => match zget oranks s with
    | Ok a => map (pair s) (filter (fun i => match zget a i with Ok t => t =? s | _ => false end) (zrange (zlen a)))
    | _ => [] end) (zrange (zlen oranks)).
