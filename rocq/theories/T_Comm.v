(** C49 broadcasting a string; C33 futures; C24 discovering senders. *)
From Verif Require Import Prelude M_Comm P_Comm M_Future S_Future P_Future M_Nbx S_Nbx P_Nbx P_Nbx2.
Local Open Scope Z_scope.

(** C49.  Every rank ends with as many characters as rank 0's string had: the root's, then NULs. *)
Theorem bcast_string_cuts_or_pads : forall (ss : list (list Z)) root s0 s,
  zget ss 0 = Ok s0 -> zget ss root = Ok s ->
  exists out, bcast_string ss root = Ok out /\ zlen out = zlen ss /\
  forall t, In t out -> zlen t = zlen s0 /\
    forall i, 0 <= i < zlen s0 -> zget t i = if i <? zlen s then zget s i else Ok 0.
Proof. exact bcast_string_spec. Qed.
Print Assumptions bcast_string_cuts_or_pads.

(** C49.  It is the root's string when rank 0's string is as long as the root's, in particular for root 0. *)
Theorem bcast_string_delivers : forall (ss : list (list Z)) root s0 s,
  zget ss 0 = Ok s0 -> zget ss root = Ok s -> zlen s0 = zlen s ->
  bcast_string ss root = Ok (map (fun _ => s) ss).
Proof. exact bcast_string_same. Qed.
Print Assumptions bcast_string_delivers.

(** C49.  And only then. *)
Theorem bcast_string_delivers_only : forall (ss : list (list Z)) root s0 s,
  zget ss 0 = Ok s0 -> zget ss root = Ok s ->
  bcast_string ss root = Ok (map (fun _ => s) ss) -> zlen s0 = zlen s.
Proof. exact bcast_string_same_only. Qed.
Print Assumptions bcast_string_delivers_only.

(* root 0: "abc" reaches the ranks holding "" and "zzzzz" *)
Example bcast_string_root0 : bcast_string [[97; 98; 99]; []; [122; 122; 122; 122; 122]] 0
  = Ok [[97; 98; 99]; [97; 98; 99]; [97; 98; 99]].
Proof. reflexivity. Qed.

(** C49.  The unrestricted claim is false: from root 1, "xyz" arrives as "x" when rank 0 held "a". *)
Theorem bcast_string_any_root_refuted : exists ss root s,
  zget ss root = Ok s /\ bcast_string ss root <> Ok (map (fun _ => s) ss).
Proof. exact bcast_string_cut. Qed.
Print Assumptions bcast_string_any_root_refuted.

(** C33.  Whatever the order and times the requests finish in and the callbacks added meanwhile, a
    get() by a program that never asked completed() returns the callbacks applied, in order, to the
    buffer holding all the data; every later get() aborts. *)
Theorem future_get_waits : forall T (buf : list T) reqs cb es,
  Forall (fits (zlen buf)) reqs -> apart reqs -> ~ In Ask es ->
  exists f final f', history es (make buf reqs cb) = Ok f /\
    get f = Ok (apply_all (callbacks es) (cb final), f') /\ received reqs buf final /\
    forall es' f'', history es' f' = Ok f'' -> get f'' = Abort.
Proof. exact @get_after_history. Qed.
Print Assumptions future_get_waits.

(** C33.  completed() is inverted: the first time it is asked it answers true exactly if some request
    is unfinished, and get() then hands out the buffer as it is, with only the finished requests'
    data; if it answers false get() is right. *)
Theorem future_completed_is_inverted : forall T (buf : list T) reqs cb es,
  Forall (fits (zlen buf)) reqs -> apart reqs -> ~ In Ask es ->
  exists f, history es (make buf reqs cb) = Ok f /\
    (fst (completed f) = true <-> pending f <> []) /\
    (fst (completed f) = false ->
       exists final f', get (snd (completed f)) = Ok (apply_all (callbacks es) (cb final), f') /\ received reqs buf final) /\
    (fst (completed f) = true ->
       exists finished f', Permutation reqs (finished ++ pending f) /\ received finished buf (recvbuf f) /\
         get (snd (completed f)) = Ok (apply_all (callbacks es) (cb (recvbuf f)), f')).
Proof. exact @completed_inverted. Qed.
Print Assumptions future_completed_is_inverted.

(** C33.  Futures made from data at hand are complete and yield it. *)
Theorem future_of_data : forall T (buf : list T),
  (exists f', get (make_write buf) = Ok (buf, f')) /\ (exists f', get (make_read buf) = Ok (buf, f')) /\
  fst (completed (make_write buf)) = true /\ fst (completed (make_read buf)) = true.
Proof. exact @made_ready. Qed.
Print Assumptions future_of_data.

(** C33.  The claim that completed() returns true only if every request has finished is false: here it
    does at once, and get() returns the buffer without the message. *)
Theorem future_completed_refuted : exists (buf : list Z) req f f',
  fits (zlen buf) req /\ completed (make buf [req] (fun b => b)) = (true, f) /\ get f = Ok (buf, f') /\
  ~ received [req] buf buf.
Proof. exact completed_stale. Qed.
Print Assumptions future_completed_refuted.

(* two messages arrive in the other order, a callback is added in between *)
Example future_two_messages :
  (f <- history [Net 1; AddCb (map (Z.mul 2)); Net 0] (make [0; 0; 0] [(0, [5]); (1, [6; 7])] (fun b => b)) ;;
   r <- get f ;; Ok (fst r)) = Ok [10; 12; 14].
Proof. reflexivity. Qed.
Example future_two_messages_fit : Forall (fits 3) [(0, [5]); (1, [6; 7])] /\ apart [(0, [5]); (1, [6; 7])].
Proof.
  split; [repeat constructor; cbn; lia|]. repeat constructor. unfold covers. cbn. intros p. lia.
Qed.

(** C24.  In every execution, for any number of successive calls, what a rank's call returns is the
    sorted list of the ranks that named it a destination in that same call, with multiplicity. *)
Theorem senders_discovered : forall dests n c p r k l,
  (forall k q d, In d (dests k q) -> (d < n)%nat) -> steps dests (start n) c ->
  nth_error (ranks c) p = Some r -> nth_error (returned r) k = Some l ->
  lists_senders (dests k) n p l.
Proof. exact nbx_correct. Qed.
Print Assumptions senders_discovered.

(** C24.  No execution gets stuck: from every reachable configuration all ranks can still finish any
    number of calls. *)
Theorem senders_discovery_never_stuck : forall dests n c K,
  (forall k q d, In d (dests k q) -> (d < n)%nat) -> steps dests (start n) c ->
  exists c', steps dests c c' /\ length (ranks c') = n /\
    forall p r, nth_error (ranks c') p = Some r -> (K <= length (returned r))%nat.
Proof. exact nbx_finishes. Qed.
Print Assumptions senders_discovery_never_stuck.

(* three ranks, two calls with different destinations: such executions exist *)
Definition example_dests (k p : nat) : list nat :=
  match k, p with O, O => [1; 2; 1] | O, 1 => [0] | O, 2 => [0] | _, O => [2] | _, _ => [] end%nat.
Example senders_example :
  (forall k q d, In d (example_dests k q) -> (d < 3)%nat) /\
  (exists c, steps example_dests (start 3) c /\ length (ranks c) = 3%nat /\
     forall p r, nth_error (ranks c) p = Some r -> (2 <= length (returned r))%nat) /\
  lists_senders (example_dests 0%nat) 3 1 [0; 0]%nat /\ lists_senders (example_dests 0%nat) 3 0 [1; 2]%nat /\
  lists_senders (example_dests 1%nat) 3 2 [0]%nat.
Proof.
  assert (H : forall k q d, In d (example_dests k q) -> (d < 3)%nat)
    by (intros [|k] [|[|[|q]]] d; cbn; intuition lia).
  split; [exact H|]. split; [exact (nbx_finishes example_dests 3 (start 3) 2 H (steps_refl _ _))|].
  repeat split; try (repeat constructor); intros [|[|[|s]]]; reflexivity.
Qed.
