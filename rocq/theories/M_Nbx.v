(** Model of sources_from_destinations, src/Omega_h_comm.cpp:119-165, as a transition system: the ranks
    run asynchronously and the program calls the function any number of times in a row on the same
    communicator, as Comm::graph (src/Omega_h_comm.cpp:167-180) does.  One step is one MPI call of one
    rank.  Messages carry only their source and destination (the tag is always the same, so messages of
    different calls of the function could be confused).  Any message on the way to a rank may be
    received next; MPI_Iprobe, MPI_Testall and MPI_Test may answer "no" at any time without any effect,
    which is no step. *)
From Verif Require Import Prelude.
Local Open Scope nat_scope.

(** Where a rank is in the function. *)
Inductive stage :=
| Before                                    (** line 122: not yet in the first barrier *)
| FirstBarrier                              (** line 125: waiting in it *)
| Sending (i : nat)                         (** lines 131-134: [i] sends posted *)
| Polling (sources : list nat) (done : bool)  (** lines 139-160: [done] is locally_done_flag *)
| LastBarrier (sources : list nat).         (** line 161 *)

(** A rank: its stage in the current call, and the results of the calls already returned. *)
Record rank := Rank { at_ : stage; returned : list (list nat) }.
Definition call (r : rank) : nat := length (returned r).

(** All ranks, and the messages (source, destination) sent and not yet received. *)
Record config := Config { ranks : list rank; wire : list (nat * nat) }.

Definition start (n : nat) : config := Config (repeat (Rank Before []) n) [].

(** MPI collectives on one communicator match in the order each rank calls them: a rank gets past its
    k-th call of one of the three barriers when every rank has called that barrier k times. *)
Definition entered_first (r : rank) : nat :=
  call r + match at_ r with Before => 0 | _ => 1 end.
Definition entered_middle (r : rank) : nat :=
  call r + match at_ r with Polling _ true => 1 | LastBarrier _ => 1 | _ => 0 end.
Definition entered_last (r : rank) : nat :=
  call r + match at_ r with LastBarrier _ => 1 | _ => 0 end.

Definition set_rank (c : config) (p : nat) (r : rank) : list rank := list_set (ranks c) p r.

(** std::sort of the sources, line 162 *)
Fixpoint insert (x : nat) (l : list nat) : list nat :=
  match l with
  | [] => [x]
  | y :: t => if x <=? y then x :: l else y :: insert x t
  end.
Definition sort (l : list nat) : list nat := fold_right insert [] l.

Section Steps.
(** The destinations rank [p] passes in its [k]-th call. *)
Variable dests : nat -> nat -> list nat.

Inductive step (c : config) : config -> Prop :=
(** line 125, MPI_Barrier entered *)
| Enter p k ret : nth_error (ranks c) p = Some (Rank Before ret) -> k = length ret ->
    step c (Config (set_rank c p (Rank FirstBarrier ret)) (wire c))
(** line 125, MPI_Barrier returns *)
| Begin p k ret : nth_error (ranks c) p = Some (Rank FirstBarrier ret) -> k = length ret ->
    (forall q r, nth_error (ranks c) q = Some r -> k < entered_first r) ->
    step c (Config (set_rank c p (Rank (Sending 0) ret)) (wire c))
(** lines 132-133, MPI_Issend *)
| Issend p k ret i d : nth_error (ranks c) p = Some (Rank (Sending i) ret) -> k = length ret ->
    nth_error (dests k p) i = Some d ->
    step c (Config (set_rank c p (Rank (Sending (S i)) ret)) ((p, d) :: wire c))
(** line 131, the loop over the destinations ends; lines 135-138 *)
| Posted p k ret i : nth_error (ranks c) p = Some (Rank (Sending i) ret) -> k = length ret ->
    nth_error (dests k p) i = None ->
    step c (Config (set_rank c p (Rank (Polling [] false) ret)) (wire c))
(** lines 143-149, MPI_Iprobe finds a message, MPI_Recv takes it *)
| Receive p ret sources done s w1 w2 :
    nth_error (ranks c) p = Some (Rank (Polling sources done) ret) -> wire c = w1 ++ (s, p) :: w2 ->
    step c (Config (set_rank c p (Rank (Polling (sources ++ [s]) done) ret)) (w1 ++ w2))
(** lines 154-158, MPI_Testall succeeds: a synchronous send is complete only once it is received;
    MPI_Ibarrier *)
| LocallyDone p ret sources :
    nth_error (ranks c) p = Some (Rank (Polling sources false) ret) ->
    (forall d, ~ In (p, d) (wire c)) ->
    step c (Config (set_rank c p (Rank (Polling sources true) ret)) (wire c))
(** lines 151-152, MPI_Test succeeds: every rank has called MPI_Ibarrier; line 161, MPI_Barrier entered *)
| GloballyDone p k ret sources :
    nth_error (ranks c) p = Some (Rank (Polling sources true) ret) -> k = length ret ->
    (forall q r, nth_error (ranks c) q = Some r -> k < entered_middle r) ->
    step c (Config (set_rank c p (Rank (LastBarrier sources) ret)) (wire c))
(** line 161, MPI_Barrier returns; lines 162-163 *)
| Return p k ret sources :
    nth_error (ranks c) p = Some (Rank (LastBarrier sources) ret) -> k = length ret ->
    (forall q r, nth_error (ranks c) q = Some r -> k < entered_last r) ->
    step c (Config (set_rank c p (Rank Before (ret ++ [sort sources]))) (wire c)).

Inductive steps : config -> config -> Prop :=
| steps_refl c : steps c c
| steps_more c d e : steps c d -> step d e -> steps c e.
End Steps.
