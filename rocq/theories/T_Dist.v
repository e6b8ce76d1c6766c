(** C23: distributed exchange.  [ranks] holds for every rank the destination ranks of its items, [idxs] their places there and
    [nroots] the number of places of every rank. *)
From Verif Require Import Prelude M_Array M_Par M_Scan M_Sort M_Map S_Map M_Sort M_Dist S_Dist P_Dist5 P_Dist6.
Local Open Scope Z_scope.

(** Any mix of complete schedules of invert_map_by_atomics satisfies the hypothesis [inverter] below; and complete schedules exist. *)
Theorem dist_atomics_inverter : forall inv, runs_atomics inv -> inverter inv.
Proof. exact atomics_inverter. Qed.
Print Assumptions dist_atomics_inverter.
Theorem invert_map_by_atomics_can_finish : forall a2b nb m0, 0 <= nb -> (forall b, In b a2b -> 0 <= b < nb) ->
  exists s1 s2 b2ba ba2a m, invert_map_by_atomics a2b nb m0 s1 s2 = Ok (Some (b2ba, ba2a, m)).
Proof. exact atomics_finish. Qed.
Print Assumptions invert_map_by_atomics_can_finish.

(** Construction succeeds: no abort, no invalid access, no message without a partner. *)
Theorem dist_made : forall inv ranks idxs nroots, inverter inv -> ranks_exist ranks -> zlen ranks <= i32_max + 1 -> addressed ranks idxs nroots ->
  exists ds, make_dist inv ranks idxs nroots = Ok ds.
Proof. exact make_dist_total. Qed.
Print Assumptions dist_made.

(** Forward: every rank receives exactly the items addressed to it, each once, all their values together, in an order that
    does not depend on the data; the items addressed to one place are contiguous. *)
Theorem dist_delivers : forall inv ranks idxs nroots, inverter inv -> ranks_exist ranks -> zlen ranks <= i32_max + 1 -> addressed ranks idxs nroots ->
  forall ds, make_dist inv ranks idxs nroots = Ok ds ->
  exists who, routes ranks who /\
  (forall A (data : list (list A)) width, 0 < width -> data_per_item ranks data width ->
    exists out, exch ds data width = Ok out /\ delivered who data out width) /\
  (forall r w k, zget who r = Ok w -> zget nroots r = Ok k ->
    exists f, is_fan f /\ zlen f = k + 1 /\ last_of f = Ok (zlen w) /\
    (exists d, zget ds r = Ok d /\ roots2items_R d = Some f) /\
    forall c s i q, zget w c = Ok (s, i) -> (in_group f q c <-> goes_to idxs s i q)).
Proof. exact dist_delivers_lemma. Qed.
Print Assumptions dist_delivers.

(** Backward: data at the places returns to every item from exactly its (rank, place). *)
Theorem dist_returns : forall inv ranks idxs nroots, inverter inv -> ranks_exist ranks -> zlen ranks <= i32_max + 1 -> addressed ranks idxs nroots ->
  forall ds, make_dist inv ranks idxs nroots = Ok ds ->
  forall A (data : list (list A)) width, 0 < width -> data_per_root nroots data width ->
  exists back, exch (invert ds) data width = Ok back /\ data_per_item ranks back width /\
  forall s i r q x y, goes_to ranks s i r -> goes_to idxs s i q -> zget data r = Ok x -> zget back s = Ok y -> same_block width y i x q.
Proof. exact dist_returns_lemma. Qed.
Print Assumptions dist_returns.

(** Reduction: the value at a place joins the values of exactly the items addressed to it, each once. *)
Theorem dist_reduces : forall inv ranks idxs nroots, inverter inv -> ranks_exist ranks -> zlen ranks <= i32_max + 1 -> addressed ranks idxs nroots ->
  forall ds, make_dist inv ranks idxs nroots = Ok ds ->
  forall A (init : A) join (data : list (list A)) width, 0 < width -> data_per_item ranks data width ->
  exists out, exch_reduce init join ds data width = Ok out /\ data_per_root nroots out width /\
  forall r k y q, zget nroots r = Ok k -> zget out r = Ok y -> 0 <= q < k ->
  exists items, NoDup items /\ (forall s i, In (s, i) items <-> goes_to ranks s i r /\ goes_to idxs s i q) /\
  forall j, 0 <= j < width -> exists vs,
    mapM (fun p => x <- zget data (fst p) ;; zget x (snd p * width + j)) items = Ok vs /\
    zget y (q * width + j) = Ok (fold_left join vs init).
Proof. exact dist_reduces_lemma. Qed.
Print Assumptions dist_reduces.

(** items2dests gives back the destinations. *)
Theorem dist_remembers : forall inv ranks idxs nroots, inverter inv -> ranks_exist ranks -> zlen ranks <= i32_max + 1 -> addressed ranks idxs nroots ->
  forall ds, make_dist inv ranks idxs nroots = Ok ds -> items2dests ds = Ok (ranks, idxs).
Proof. exact dist_remembers_lemma. Qed.
Print Assumptions dist_remembers.

(** Inverting twice changes nothing. *)
Theorem dist_invert_involutive : forall ds, invert (invert ds) = ds.
Proof. exact invert_invert. Qed.
Print Assumptions dist_invert_involutive.

(** Destination ranks only: the items arrive by increasing sender, then in the sender's order; the inverse restores the data. *)
Theorem dist_ranks_made : forall ranks, ranks_exist ranks -> zlen ranks <= i32_max + 1 -> exists ds, set_dest_ranks ranks = Ok ds.
Proof. exact ranks_total. Qed.
Print Assumptions dist_ranks_made.
Theorem dist_ranks_delivers : forall ranks, ranks_exist ranks -> zlen ranks <= i32_max + 1 -> forall ds, set_dest_ranks ranks = Ok ds ->
  exists who, routes ranks who /\ (forall r w, zget who r = Ok w -> by_sender w) /\
  forall A (data : list (list A)) width, 0 < width -> data_per_item ranks data width ->
    exists out, exch ds data width = Ok out /\ delivered who data out width.
Proof. exact ranks_delivers. Qed.
Print Assumptions dist_ranks_delivers.
Theorem dist_ranks_round_trip : forall ranks, ranks_exist ranks -> zlen ranks <= i32_max + 1 -> forall ds, set_dest_ranks ranks = Ok ds ->
  forall A (data : list (list A)) width, 0 < width -> data_per_item ranks data width ->
  exists out, exch ds data width = Ok out /\ exch (invert ds) out width = Ok data.
Proof. exact ranks_round_trip. Qed.
Print Assumptions dist_ranks_round_trip.

(** With global numbers: the items arrive by increasing global number, ties by sender and position. *)
Theorem dist_globals_deliver : forall ranks, ranks_exist ranks -> zlen ranks <= i32_max + 1 -> forall ds, set_dest_ranks ranks = Ok ds ->
  forall keys, data_per_item ranks keys 1 ->
  exists ds2, set_dest_globals ds keys = Ok ds2 /\
  (exists who, routes ranks who /\ (forall r w, zget who r = Ok w -> by_key_then_sender keys w) /\
    forall A (data : list (list A)) width, 0 < width -> data_per_item ranks data width ->
    exists out, exch ds2 data width = Ok out /\ delivered who data out width) /\
  (forall A (data : list (list A)) width, 0 < width -> data_per_item ranks data width ->
    exists out, exch ds2 data width = Ok out /\ exch (invert ds2) out width = Ok data).
Proof. exact globals_deliver. Qed.
Print Assumptions dist_globals_deliver.

(** Three ranks: rank 0 sends items to ranks 1, 0, 1, rank 1 sends to 0, 2, 0 and rank 2 has nothing to send. *)
Definition ex_ranks : list (list Z) := [[1; 0; 1]; [0; 2; 0]; []].
Definition ex_idxs : list (list Z) := [[1; 0; 1]; [2; 0; 0]; []].
Definition ex_nroots : list Z := [3; 2; 1].
Example dist_inverter_ex : inverter (fun _ => invert_map_by_sorting).
Proof. exact sorting_inverter. Qed.
Example dist_addressed_ex : ranks_exist ex_ranks /\ addressed ex_ranks ex_idxs ex_nroots.
Proof. exact addressed_ex. Qed.
Example dist_forward_ex :
  (ds <- make_dist (fun _ => invert_map_by_sorting) ex_ranks ex_idxs ex_nroots ;; exch ds [[10; 11; 20; 21; 30; 31]; [40; 41; 50; 51; 60; 61]; []] 2)
  = Ok [[20; 21; 60; 61; 40; 41]; [10; 11; 30; 31]; [50; 51]].
Proof. vm_compute. reflexivity. Qed.
Example dist_backward_ex :
  (ds <- make_dist (fun _ => invert_map_by_sorting) ex_ranks ex_idxs ex_nroots ;; exch (invert ds) [[7; 8; 9]; [5; 6]; [3]] 1)
  = Ok [[6; 7; 6]; [9; 3; 7]; []].
Proof. vm_compute. reflexivity. Qed.
Example dist_reduce_ex :
  (ds <- make_dist (fun _ => invert_map_by_sorting) ex_ranks ex_idxs ex_nroots ;; exch_reduce 0 Z.add ds [[10; 20; 30]; [40; 50; 60]; []] 1)
  = Ok [[80; 0; 40]; [0; 40]; [50]].
Proof. vm_compute. reflexivity. Qed.
Example dist_globals_ex :
  (ds <- set_dest_ranks ex_ranks ;; ds2 <- set_dest_globals ds [[4; 9; 1]; [3; 5; 9]; []] ;; exch ds2 [[10; 20; 30]; [40; 50; 60]; []] 1)
  = Ok [[40; 20; 60]; [30; 10]; [50]].
Proof. vm_compute. reflexivity. Qed.
