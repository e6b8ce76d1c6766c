(** C30 and C31: tags as named tables, and the quantities cached in them. *)
From Coq Require Import String.
From Verif Require Import Prelude M_Tags S_Tags P_Tags P_Tags2.
Local Open Scope Z_scope.

(** After any history the table holds, for every name, what was stored last. *)
Theorem tags_hold_last_stored : forall m0 ops m, untagged m0 -> foldM run_op ops m0 = Ok m ->
  t_dim m = t_dim m0 /\ t_nents m = t_nents m0 /\
  forall d n, 0 <= d <= t_dim m0 -> (exists k, zget (t_nents m0) d = Ok k /\ 0 <= k) ->
  match stored (t_dim m0) (rev ops) d n with
  | Some (ty, a) => has_tag m d n = Ok true /\ get_array m ty d n = Ok a /\ exists t, get_tagbase m d n = Ok t /\ tag_name t = n /\ tag_type t = ty
  | None => has_tag m d n = Ok false /\ get_tagbase m d n = Abort
  end.
Proof. exact history. Qed.
Print Assumptions tags_hold_last_stored.

(** Tags are numbered in the order they came in; the number one past the last is not rejected but read out of bounds. *)
Theorem tags_numbered_in_order : forall m0 ops m, untagged m0 -> foldM run_op ops m0 = Ok m ->
  forall d, 0 <= d <= t_dim m0 -> (exists k, zget (t_nents m0) d = Ok k /\ 0 <= k) ->
  NoDup (order (t_dim m0) ops d) /\ ntags m d = Ok (zlen (order (t_dim m0) ops d)) /\
  (forall i n, zget (order (t_dim m0) ops d) i = Ok n -> exists t, get_tag_i m d i = Ok t /\ get_tagbase m d n = Ok t /\ tag_name t = n) /\
  (forall i, i < 0 \/ zlen (order (t_dim m0) ops d) < i -> get_tag_i m d i = Abort) /\
  get_tag_i m d (zlen (order (t_dim m0) ops d)) = UB.
Proof. exact numbered. Qed.
Print Assumptions tags_numbered_in_order.

(** Storing succeeds while there are fewer than 127 tags, with a name, at most 127 components and an array of the right size. *)
Theorem add_tag_succeeds : forall m0 ops m type d n nc a internal k, untagged m0 -> foldM run_op ops m0 = Ok m -> 0 <= d <= t_dim m0 -> zget (t_nents m0) d = Ok k -> 0 <= k ->
  n <> [] -> 0 <= nc <= 127 -> zlen (order (t_dim m0) ops d) < 127 -> (forall x, a = Some x -> zlen x = k * nc) ->
  exists m', add_tag m type d n nc a internal = Ok m'.
Proof. exact add_succeeds. Qed.
Print Assumptions add_tag_succeeds.

(** Cached quantities are what would be measured now, for histories that change coordinates and metric only by storing them without
    the internal flag and do not write the caches themselves. *)
Theorem asked_quantities_fresh : forall fl fq fs m0 evs m, untagged m0 -> forallb (honest_event (t_dim m0)) evs = true -> foldM (run_event fl fq fs) evs m0 = Ok m ->
  (forall m' a, ask_lengths fl m = Ok (m', a) -> exists v, a = Some v /\ measured true fl m = Ok v /\ measured true fl m' = Ok v) /\
  (forall m' a, ask_qualities fq m = Ok (m', a) -> exists v, a = Some v /\ measured true fq m = Ok v /\ measured true fq m' = Ok v) /\
  (forall m' a, ask_sizes fs m = Ok (m', a) -> exists v, a = Some v /\ measured false fs m = Ok v /\ measured false fs m' = Ok v).
Proof. exact asks_fresh. Qed.
Print Assumptions asked_quantities_fresh.

(** Removing the metric, or storing it with the internal flag, leaves stale answers. *)
Theorem asked_lengths_stale_after_remove_refuted : exists m m', foldM (run_event stale_measure stale_measure stale_measure) (stale_start ++ [Op (Remove 0 (name_of "metric"))]) stale_mesh = Ok m /\
  ask_lengths stale_measure m = Ok (m', Some [3; 4]) /\ measured true stale_measure m = Abort.
Proof. exact stale_removed. Qed.
Print Assumptions asked_lengths_stale_after_remove_refuted.
Theorem asked_lengths_stale_after_internal_refuted : exists m m', foldM (run_event stale_measure stale_measure stale_measure) (stale_start ++ [Op (Set_ OMEGA_H_F64 0 (name_of "metric") [5; 6] true)]) stale_mesh = Ok m /\
  ask_lengths stale_measure m = Ok (m', Some [3; 4]) /\ measured true stale_measure m = Ok [5; 6].
Proof. exact stale_internal. Qed.
Print Assumptions asked_lengths_stale_after_internal_refuted.

Example stale_mesh_untagged : untagged stale_mesh.
Proof. exact stale_untagged. Qed.
Example fresh_ex : exists m m', forallb (honest_event 1) (stale_start ++ [Op (Set_ OMEGA_H_F64 0 (name_of "metric") [5; 6] false)]) = true /\
  foldM (run_event stale_measure stale_measure stale_measure) (stale_start ++ [Op (Set_ OMEGA_H_F64 0 (name_of "metric") [5; 6] false)]) stale_mesh = Ok m /\
  ask_lengths stale_measure m = Ok (m', Some [5; 6]).
Proof. exact fresh_set. Qed.
Definition tag_history : list tag_op :=
  [Add OMEGA_H_I32 0 [97] 1 (Some [1; 2]) false; Add OMEGA_H_F64 1 (name_of "length") 1 (Some [8; 9]) false; Add OMEGA_H_I8 0 [98] 2 (Some [1; 2; 3; 4]) false;
   Set_ OMEGA_H_I64 0 [97] [5; 6] false; Add OMEGA_H_F64 0 (name_of "coordinates") 1 (Some [0; 1]) false; Remove 0 [98]].
Example tag_history_ex : exists m, foldM run_op tag_history stale_mesh = Ok m /\ order 1 tag_history 0 = [[97]; name_of "coordinates"] /\ order 1 tag_history 1 = [] /\
  stored 1 (rev tag_history) 0 [97] = Some (OMEGA_H_I64, Some [5; 6]) /\ stored 1 (rev tag_history) 1 (name_of "length") = None.
Proof. eexists. vm_compute. repeat split; reflexivity. Qed.
