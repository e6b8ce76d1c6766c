(** C03: the memory pool.  [malloc] is any underlying allocator that never gives out a live block;
    [pool_run malloc cs] makes the calls [cs] on a fresh pool and records what the client sees. *)
From Verif Require Import Prelude M_Pool S_Pool P_Pool.
Local Open Scope Z_scope.

(** In every history the blocks held by the client are pairwise different, each is a live block of the
    underlying allocator with at least the requested size, and whatever has been released to the underlying
    allocator was live and released once with its own size. *)
Theorem pool_blocks_live_and_distinct : forall malloc cs p t, sane_malloc malloc -> pool_run malloc cs = Ok (p, t) ->
  NoDup (map fst (held t)) /\
  (forall d s, In (d, s) (held t) -> exists s', In (d, s') (underlying_live (hist p)) /\ s <= s') /\
  frees_valid (hist p) /\ NoDup (map fst (underlying_live (hist p))).
Proof. exact pool_live_ok. Qed.
Print Assumptions pool_blocks_live_and_distinct.

(** The next block handed out is not one the client holds, and is large enough. *)
Theorem pool_allocate_fresh : forall malloc cs p t size, sane_malloc malloc -> pool_run malloc cs = Ok (p, t) -> size <= 2 ^ 63 ->
  allocate malloc p size <> UB /\
  forall p' d, allocate malloc p size = Ok (p', d) -> ~ In d (map fst (held t)) /\
    exists s', In (d, s') (underlying_live (hist p')) /\ size <= s'.
Proof. exact pool_allocate_ok. Qed.
Print Assumptions pool_allocate_fresh.

(** An allocation is refused only if the underlying allocator refuses it while nothing but the blocks held by the
    client (rounded up to powers of two) is allocated. *)
Theorem pool_allocate_refused : forall malloc cs p t size, sane_malloc malloc -> pool_run malloc cs = Ok (p, t) -> size <= 2 ^ 63 ->
  allocate malloc p size = Abort ->
  exists h, malloc h (size_class size) = None /\ Permutation (underlying_live h) (map (fun x => (fst x, size_class (snd x))) (held t)).
Proof. exact pool_allocate_fails_only. Qed.
Print Assumptions pool_allocate_refused.

(** deallocate succeeds for a held block of the same size class and aborts otherwise. *)
Theorem pool_deallocate_checks : forall malloc cs p t d size, sane_malloc malloc -> pool_run malloc cs = Ok (p, t) -> size <= 2 ^ 63 ->
  ((exists s, In (d, s) (held t) /\ size_class s = size_class size) -> exists q, deallocate p d size = Ok q) /\
  (~ (exists s, In (d, s) (held t) /\ size_class s = size_class size) -> deallocate p d size = Abort).
Proof. exact pool_deallocate_ok. Qed.
Print Assumptions pool_deallocate_checks.

(** Destroying the pool gives every block back exactly once. *)
Theorem pool_destroy_releases_all : forall malloc cs p t, sane_malloc malloc -> pool_run malloc cs = Ok (p, t) ->
  frees_valid (destroy p) /\ underlying_live (destroy p) = [].
Proof. exact pool_destroy_ok. Qed.
Print Assumptions pool_destroy_releases_all.

(** No undefined behaviour for sizes up to 2^63; beyond, the shift is undefined. *)
Theorem pool_no_ub : forall malloc cs, sane_malloc malloc -> Forall small_call cs -> pool_run malloc cs <> UB.
Proof. exact pool_run_no_ub. Qed.
Theorem pool_huge_size_refuted : forall size, 2 ^ 63 < size -> shift_for size = UB.
Proof. exact shift_for_ub. Qed.
Print Assumptions pool_no_ub.
Print Assumptions pool_huge_size_refuted.

(* an allocator that hands out new addresses until 3 blocks are live *)
Definition malloc_ex (h : list uevent) (s : Z) : option Z :=
  if zlen (underlying_live h) <? 3 then Some (1000 + fold_left Z.max (map fst (underlying_live h)) 0) else None.
Example pool_ex : pool_run malloc_ex [Allocate 5; Allocate 7; Deallocate 1000 6; Allocate 8; Allocate 3; Deallocate 2000 8; Allocate 100]
  = Ok ({| used_blocks := [[]; []; [3000]; [1000]; []; []; []; [4000]] ++ repeat [] 56;
           free_blocks := repeat [] 64;
           hist := [UMalloc 128 4000; UFree 2000 8; UMalloc 4 3000; UMalloc 8 2000; UMalloc 8 1000] |},
        [Got 4000 100; Returned 2000 8; Got 3000 3; Got 1000 8; Returned 1000 6; Got 2000 7; Got 1000 5]).
Proof. reflexivity. Qed.
Example malloc_ex_sane : sane_malloc malloc_ex.
Proof. exact (fresh_above_sane (fun h => zlen (underlying_live h) <? 3)). Qed.
Example pool_ex_bad_free : pool_run malloc_ex [Allocate 5; Deallocate 1000 9] = Abort.
Proof. reflexivity. Qed.
