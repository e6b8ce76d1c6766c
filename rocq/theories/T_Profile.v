(** C46 profiling history.  A call path is the list of open names, innermost first. *)
From Verif Require Import Prelude M_Profile S_Profile P_Profile P_Profile2 P_Profile3.
Local Open Scope nat_scope.

(** After any sequence of starts and stops without an excess stop: the current frame is the one of the
    calls still open; there is exactly one frame for every call path ever started and no other; its call
    count is the number of starts of that path and its runtime the sum of the finished calls of it. *)
Theorem profile_is_call_tree : forall events s, Forall proper events -> story_of events = Some s ->
  exists h, foldM do_event events new_history = Ok h /\
  frame_path h (current_frame h) (map fst (open s)) /\
  (forall i, i < length (frames h) -> exists p, frame_path h (Some i) p) /\
  (forall p, In p (started s) <-> exists i, frame_path h (Some i) p) /\
  (forall i j p, frame_path h (Some i) p -> frame_path h (Some j) p -> i = j) /\
  (forall i f p, nth_error (frames h) i = Some f -> frame_path h (Some i) p ->
     number_of_calls f = times_started s p /\ total_runtime f = time_spent s p).
Proof. exact history_spec. Qed.
Print Assumptions profile_is_call_tree.

(** An excess stop reads a frame that does not exist. *)
Theorem profile_excess_stop_undefined : forall events, Forall proper events -> story_of events = None ->
  foldM do_event events new_history = UB.
Proof. exact excess_spec. Qed.
Print Assumptions profile_excess_stop_undefined.

(** The pre-order walk visits every frame exactly once, callers before callees. *)
Theorem profile_walk_visits_once : forall events h, Forall proper events -> foldM do_event events new_history = Ok h ->
  exists order, walk h = Ok order /\ Permutation order (seq 0 (length (frames h))) /\
  forall a x b, order = a ++ x :: b ->
    exists f, nth_error (frames h) x = Some f /\ match parent f with None => True | Some p => In p a end.
Proof. exact walk_spec. Qed.
Print Assumptions profile_walk_visits_once.

(** The depth printed for a frame is the number of calls around it. *)
Theorem profile_depths : forall events h, Forall proper events -> foldM do_event events new_history = Ok h ->
  exists ds, compute_depths h = Ok ds /\ length ds = length (frames h) /\
  forall i d p, nth_error ds i = Some d -> frame_path h (Some i) p -> length p = S d.
Proof. exact depths_reach. Qed.
Print Assumptions profile_depths.

(** The inverted history has a frame for every sequence of innermost calls [q] that occurs, found by
    descending from the innermost name, and gives the total calls and self time of the frames whose
    path begins with [q]. *)
Theorem profile_invert : forall events h ps junk, Forall proper events -> foldM do_event events new_history = Ok h -> are_paths h ps ->
  exists g, invert junk h = Ok g /\ forall q, q <> [] ->
  ((exists i, frame_path g (Some i) (rev q)) <-> exists p, In p ps /\ begins q p) /\
  forall i f, frame_path g (Some i) (rev q) -> nth_error (frames g) i = Some f ->
    Z.of_nat (number_of_calls f) = sum_where (beginsb q) calls_value (combine ps (frames h)) /\
    total_runtime f = sum_where (beginsb q) (self_value (combine ps (frames h))) (combine ps (frames h)).
Proof. exact invert_reach. Qed.
Print Assumptions profile_invert.

(* main calls a twice, then b, which calls a; b still runs *)
Definition example_events : list event :=
  [Start [109] 0; Start [97] 1; Stop 3; Start [97] 4; Stop 8; Start [98] 10; Start [97] 11; Stop 12]%Z.
Example profile_example : Forall proper example_events /\
  story_of example_events = Some (Story [([98], 10); ([109], 0)]%Z
    [[[109]]; [[97]; [109]]; [[97]; [109]]; [[98]; [109]]; [[97]; [98]; [109]]]%Z
    [([[97]; [109]], 2); ([[97]; [109]], 4); ([[97]; [98]; [109]], 1)]%Z).
Proof. split; [repeat constructor; intros [H|[]]; discriminate|reflexivity]. Qed.
Definition example_history : history := Eval vm_compute in
  match foldM do_event example_events new_history with Ok h => h | _ => new_history end.
Example profile_example_run : foldM do_event example_events new_history = Ok example_history /\ current_frame example_history = Some 2 /\
  map number_of_calls (frames example_history) = [1; 2; 1; 1] /\ map total_runtime (frames example_history) = [0; 6; 0; 1]%Z /\
  walk example_history = Ok [0; 1; 2; 3] /\ compute_depths example_history = Ok [0; 1; 1; 2].
Proof. repeat split; vm_compute; reflexivity. Qed.
Example profile_example_paths : are_paths example_history [[[109]]; [[97]; [109]]; [[98]; [109]]; [[97]; [98]; [109]]]%Z.
Proof.
  split; [reflexivity|]. intros [|[|[|[|[|i]]]]] p E; try discriminate E; injection E as <-;
    repeat (eapply path_frame; [vm_compute; reflexivity|vm_compute; reflexivity|cbn [parent]]); apply path_root.
Qed.
Example profile_example_invert : (g <- invert None example_history ;; Ok (map number_of_calls (frames g))) = Ok [1; 3; 2; 1; 1; 1; 1].
Proof. vm_compute. reflexivity. Qed.
