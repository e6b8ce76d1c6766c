(** Specification vocabulary for the numbering of a modified mesh. *)
From Verif Require Import Prelude M_Array M_Align M_Adj M_Modify S_Map S_Graph S_Adj.
Local Open Scope Z_scope.

(** the upward adjacency lists, for each low entity, its uses in increasing order *)
Definition lists_uses (down : list Z) (deg nlow : Z) (up : adj) : Prop :=
  wf_adj up /\ zlen (adj_a2ab up) = nlow + 1 /\
  forall l, 0 <= l < nlow ->
    adj_targets up l = Ok (map (fun hl => hl / deg) (uses_of down l)) /\
    exists cs, adj_target_codes up l = Ok cs /\ map code_which_down cs = map (fun hl => hl mod deg) (uses_of down l).

(** adjacencies of every pair of dimensions describe one mesh *)
Definition consistent (ms : mesh_view) : Prop :=
  0 <= mesh_dim ms <= 3 /\ (forall d, 0 <= d <= mesh_dim ms -> 0 <= nents ms d /\ zlen (owned ms d) = nents ms d) /\
  forall a b, 0 <= a -> a < b -> b <= mesh_dim ms ->
    0 < degree ms b a /\ zlen (ask_down ms b a) = nents ms b * degree ms b a /\
    (forall i x, zget (ask_down ms b a) i = Ok x -> 0 <= x < nents ms a) /\
    lists_uses (ask_down ms b a) (degree ms b a) (nents ms a) (ask_up ms a b).

(** the old entity (dimension [ent_dim]) in whose place the products of entity [md] (dimension [d]) are put *)
Definition represents (ms : mesh_view) (ent_dim d md rep : Z) : Prop :=
  (d = ent_dim /\ rep = md) \/
  (d < ent_dim /\ exists others, adj_targets (ask_up ms d ent_dim) md = Ok (rep :: others)) \/
  (ent_dim < d /\ zget (ask_down ms d ent_dim) (md * degree ms d ent_dim) = Ok rep).

(** product [p] comes from entity [md] of dimension [d], which is replaced *)
Definition produced_by (mods2mds mods2prods : few) (d md p : Z) : Prop :=
  exists mds prods m, at_ mods2mds d = Some mds /\ at_ mods2prods d = Some prods /\ zget mds m = Ok md /\ in_group prods m p.

(** products are numbered through, dimension after dimension *)
Fixpoint numbered_from (start : Z) (l : few) (total : Z) : Prop :=
  match l with
  | [] => total = start
  | None :: l => numbered_from start l total
  | Some prods :: l => zget prods 0 = Ok start /\ (forall i lo hi, zget prods i = Ok lo -> zget prods (i + 1) = Ok hi -> lo <= hi) /\
                       exists mid, last_of prods = Ok mid /\ numbered_from mid l total
  end.

(** what is asked of the lists of modified entities *)
Definition modified_lists (ms : mesh_view) (mods2mds mods2prods : few) (nprods : Z) : Prop :=
  zlen mods2mds = 4 /\ zlen mods2prods = 4 /\ numbered_from 0 mods2prods nprods /\
  forall d prods, at_ mods2prods d = Some prods ->
    d <= mesh_dim ms /\ exists mds, at_ mods2mds d = Some mds /\ zlen prods = zlen mds + 1 /\ NoDup mds /\ forall md, In md mds -> 0 <= md < nents ms d.

(** the numbering [r]: [kept] are the old entities that stay *)
Definition good_numbering (ms : mesh_view) (ent_dim : Z) (mods2mds mods2prods : few) (nprods : Z) (kept : Z -> Prop) (r : numbering) : Prop :=
  (* who stays *)
  (forall x, In x (same2old r) <-> 0 <= x < nents ms ent_dim /\ kept x) /\ Sorted Z.lt (same2old r) /\
  (* the new numbers are 0, 1, ... without gaps, and nobody shares one *)
  zlen (same2new r) = zlen (same2old r) /\ zlen (prods2new r) = nprods /\
  Permutation (same2new r ++ prods2new r) (zrange (nnew r)) /\
  (* order of the old entities is kept *)
  Sorted Z.lt (same2new r) /\
  (* old entities find their new number *)
  zlen (old2new r) = nents ms ent_dim /\
  (forall i x y, zget (same2old r) i = Ok x -> zget (same2new r) i = Ok y -> zget (old2new r) x = Ok y) /\
  (forall x, 0 <= x < nents ms ent_dim -> ~ kept x -> zget (old2new r) x = Ok (-1)) /\
  (* products come right behind their representative, and in front of whatever comes behind it *)
  (forall d md p y rep, produced_by mods2mds mods2prods d md p -> represents ms ent_dim d md rep -> zget (prods2new r) p = Ok y ->
    (forall x xn, kept x -> zget (old2new r) x = Ok xn -> (x <= rep -> xn < y) /\ (rep < x -> y < xn)) /\
    (forall d' md' p' y' rep', produced_by mods2mds mods2prods d' md' p' -> represents ms ent_dim d' md' rep' -> zget (prods2new r) p' = Ok y' ->
       rep < rep' -> y < y')) /\
  (* the products of one entity are consecutive and in order *)
  (forall d md p y, produced_by mods2mds mods2prods d md p -> produced_by mods2mds mods2prods d md (p + 1) ->
     zget (prods2new r) p = Ok y -> zget (prods2new r) (p + 1) = Ok (y + 1)) /\
  (* how many there are *)
  nnew r = zlen (same2old r) + nprods.

(** adaptation: entity [x] of dimension [d] is a key or has a key on its boundary *)
Definition touches (ms : mesh_view) (key_dim : Z) (keys : list Z) (d x : Z) : Prop :=
  (d = key_dim /\ In x keys) \/
  (key_dim < d /\ exists s k, 0 <= s < degree ms d key_dim /\ zget (ask_down ms d key_dim) (x * degree ms d key_dim + s) = Ok k /\ In k keys).

(** no entity of dimension [d] has two keys on its boundary *)
Definition independent (ms : mesh_view) (key_dim : Z) (keys : list Z) (d : Z) : Prop :=
  forall x s s' k k', 0 <= s < degree ms d key_dim -> 0 <= s' < degree ms d key_dim ->
    zget (ask_down ms d key_dim) (x * degree ms d key_dim + s) = Ok k ->
    zget (ask_down ms d key_dim) (x * degree ms d key_dim + s') = Ok k' -> In k keys -> In k' keys -> k = k'.

Definition only_at (k : Z) (l : list Z) : few := map (fun d => if d =? k then Some l else None) (zrange 4).
