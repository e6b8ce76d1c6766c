(** C04, C05: reference counted storage and its tracking. *)
From Verif Require Import Prelude S_Scan M_SharedAlloc S_SharedAlloc P_SharedAlloc P_SharedAlloc2.
Local Open Scope Z_scope.

(** For every sensible sequence of constructions, copies, moves, assignments between different variables and
    destructions (without tracking): nothing goes wrong; while a variable refers to a storage, that storage is allocated, has its size,
    and its use count is the number of variables that refer to it; a storage was freed iff no variable
    refers to it any more, and no storage is freed twice. *)
Theorem storage_freed_exactly_once : forall cs, sensible_all ideal0 cs ->
  exists s, exec_all init_state cs = Ok s /\
  let i := ideal_all ideal0 cs in
  (forall h k, nth_error (vars i) h = Some (Refers k) -> nth_error (handles s) h = Some (Some (HPtr k)) /\
     exists r, deref s k = Ok r /\ a_use_count r = users i k /\ nth_error (made i) k = Some (a_size r)) /\
  NoDup (freed s) /\
  (forall k, In k (freed s) <-> (k < length (made i))%nat /\ ~ exists h, nth_error (vars i) h = Some (Refers k)).
Proof. exact handles_sound. Qed.
Print Assumptions storage_freed_exactly_once.

(** A copy made while a parallel region is entered changes no count and still knows the size. *)
Theorem parallel_copy_keeps_size : forall s a r s' v, entering_parallel s = true -> deref s a = Ok r -> copy s (HPtr a) = Ok (s', v) -> 0 <= a_size r ->
  s' = s /\ handle_size s' v = Ok (a_size r).
Proof. exact parallel_copy_size. Qed.
Print Assumptions parallel_copy_keeps_size.

(** Outside the sensible sequences: assigning a handle to itself uses freed memory, moving one while a parallel
    region is entered leaks the storage, and the identity array is just the null handle. *)
Theorem self_assignment_refuted : exec_all init_state [New 8; CopyA 0%nat 0%nat] = UB.
Proof. exact self_assign. Qed.
Theorem self_move_refuted : exists s, exec_all init_state [New 8; CopyC 0%nat; MoveA 0%nat 0%nat] = Ok s /\ handles s = [Some HNull; Some (HPtr 0%nat)] /\ freed s = [].
Proof. exact self_move. Qed.
Theorem parallel_move_leaks_refuted : exists s,
  exec_all init_state [New 8; SetParallel true; MoveC 0%nat; SetParallel false; Destroy 0%nat; Destroy 1%nat] = Ok s /\
  handles s = [None; None] /\ freed s = [] /\ exists r, deref s 0%nat = Ok r.
Proof. exact parallel_move_leaks. Qed.
Theorem identity_size_refuted : forall s size, 0 <= size -> handle_size s (identity size) = UB.
Proof. exact identity_size_ub. Qed.
Print Assumptions self_assignment_refuted.
Print Assumptions self_move_refuted.
Print Assumptions parallel_move_leaks_refuted.
Print Assumptions identity_size_refuted.

(** Tracking: the byte total is the sum of the sizes of the storages that some variable refers to... *)
Theorem tracked_total_exact : forall cs s, sensible_all ideal0 cs -> (s0 <- start_tracking init_state ;; exec_all s0 cs) = Ok s ->
  exists g, ga s = Some g /\
  g_total g = zsum (map snd (filter (fun x => existsb (refers_to (fst x)) (vars (ideal_all ideal0 cs)))
                      (combine (seq 0 (length (made (ideal_all ideal0 cs)))) (made (ideal_all ideal0 cs))))).
Proof. exact tracked_bytes. Qed.
Print Assumptions tracked_total_exact.

(** While storages come and go like a stack of at most two, nothing goes wrong and the list, walked from its
    first entry, visits exactly the live storages, oldest first. *)
Theorem tracked_list_exact : forall cs, sensible_all ideal0 cs -> stack_of_two ideal0 cs ->
  exists s, (s0 <- start_tracking init_state ;; exec_all s0 cs) = Ok s /\ tracked s = Ok (live (ideal_all ideal0 cs)).
Proof. exact tracked_stack. Qed.
Print Assumptions tracked_list_exact.

(** Beyond that the list of tracked allocations misses live ones, and the links dangle. *)
Theorem tracked_list_refuted : exists cs s, sensible_all ideal0 cs /\ run_tracked cs = Ok s /\
  tracked s = Ok [0; 2]%nat /\ vars (ideal_all ideal0 cs) = [Refers 0; Refers 1; Refers 2].
Proof. exact tracked_wrong. Qed.
Theorem tracking_use_after_free_refuted : exists cs, sensible_all ideal0 cs /\ run_tracked cs = UB.
Proof. exact tracked_dangling. Qed.
Print Assumptions tracked_list_refuted.
Print Assumptions tracking_use_after_free_refuted.

(* two storages; one shared by three variables at some time, then dropped *)
Definition handles_ex := [New 8; CopyC 0; SetParallel true; CopyC 1; SetParallel false; New 16; MoveC 3; CopyA 3 0; Destroy 2; CopyA 0 4; MoveA 1 3; Destroy 1]%nat.
Example handles_ex_sensible : sensible_all ideal0 handles_ex.
Proof. cbn. repeat split; discriminate. Qed.
Example handles_ex_result : ideal_all ideal0 handles_ex = {| made := [8; 16]; par := false; vars := [Refers 1; Gone; Gone; Nothing; Refers 1] |}.
Proof. reflexivity. Qed.
Example handles_ex_freed : (s <- exec_all init_state handles_ex ;; Ok (freed s)) = Ok [0%nat].
Proof. vm_compute. reflexivity. Qed.
Example tracked_ex : (s <- run_tracked [New 8; CopyC 0%nat; Destroy 0%nat; New 24; Destroy 2%nat] ;; Ok (match ga s with Some g => g_total g | None => -1 end)) = Ok 8.
Proof. vm_compute. reflexivity. Qed.
(* two storages, the younger dropped, another made, both dropped, and one more *)
Definition stack_ex := [New 8; CopyC 0; New 16; Destroy 2; New 24; CopyA 1 3; Destroy 1; MoveC 3; Destroy 4; Destroy 0; New 32]%nat.
Example stack_ex_sensible : sensible_all ideal0 stack_ex.
Proof. cbn. repeat split; discriminate. Qed.
Example stack_ex_stack : stack_of_two ideal0 stack_ex.
Proof. cbn. repeat split; first [left; reflexivity|right; left; split; [reflexivity|cbn; repeat constructor]|right; right; eexists; reflexivity]. Qed.
Example stack_ex_live : live (ideal_all ideal0 (firstn 6 stack_ex)) = [0; 2]%nat /\ live (ideal_all ideal0 stack_ex) = [3]%nat.
Proof. split; reflexivity. Qed.
