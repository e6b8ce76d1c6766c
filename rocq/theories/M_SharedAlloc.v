(** Model of src/Omega_h_shared_alloc.{hpp,cpp}: reference counted array storage and its tracking list. *)
From Verif Require Import Prelude.
Local Open Scope Z_scope.

(** a pointer to an Alloc: null or the number of the allocation (numbers are not reused) *)
Definition aptr := option nat.

(** src/Omega_h_shared_alloc.hpp:21-36 struct Alloc; the links are [None] while uninitialised *)
Record alloc_rec := { a_size : Z; a_use_count : Z; a_prev : option aptr; a_next : option aptr }.

(** src/Omega_h_shared_alloc.hpp:43-49 struct Allocs (without the high water records) *)
Record allocs := { g_first : aptr; g_last : aptr; g_total : Z; g_high : Z }.

(** src/Omega_h_shared_alloc.hpp:51-53,58-73 SharedAlloc::alloc: null, a true pointer, or a number with one of
    the three low bits set *)
Inductive handle := HNull | HPtr (a : nat) | HTag (bits : Z).

Definition IN_PARALLEL : Z := 1.
Definition IS_IDENTITY : Z := 2.

(** All the storage records ever made ([None]: deleted), in order of creation, the tracking data, the flag
    entering_parallel, and the handle variables of the program ([None]: destroyed). *)
Record mstate := { heap : list (option alloc_rec); ga : option allocs; entering_parallel : bool; handles : list (option handle);
                   freed : list nat (* calls to maybe_pooled_device_free, newest first *) }.

Definition init_state : mstate := {| heap := []; ga := None; entering_parallel := false; handles := []; freed := [] |}.

(** dereferencing a pointer to a deleted record is undefined *)
Definition deref (s : mstate) (a : nat) : res alloc_rec :=
  match nth_error (heap s) a with
  | Some (Some r) => Ok r
  | _ => UB
  end.
Definition set_heap (s : mstate) (h : list (option alloc_rec)) : mstate :=
  {| heap := h; ga := ga s; entering_parallel := entering_parallel s; handles := handles s; freed := freed s |}.
Definition set_ga (s : mstate) (g : allocs) : mstate :=
  {| heap := heap s; ga := Some g; entering_parallel := entering_parallel s; handles := handles s; freed := freed s |}.
Definition set_handles (s : mstate) (h : list (option handle)) : mstate :=
  {| heap := heap s; ga := ga s; entering_parallel := entering_parallel s; handles := h; freed := freed s |}.
Definition store (s : mstate) (a : nat) (r : alloc_rec) : res mstate :=
  _ <- deref s a ;; Ok (set_heap s (list_set (heap s) a (Some r))).
Definition with_count (r : alloc_rec) (c : Z) := {| a_size := a_size r; a_use_count := c; a_prev := a_prev r; a_next := a_next r |}.
Definition with_prev (r : alloc_rec) (p : aptr) := {| a_size := a_size r; a_use_count := a_use_count r; a_prev := Some p; a_next := a_next r |}.
Definition with_next (r : alloc_rec) (p : aptr) := {| a_size := a_size r; a_use_count := a_use_count r; a_prev := a_prev r; a_next := Some p |}.
Definition with_first (g : allocs) (p : aptr) := {| g_first := p; g_last := g_last g; g_total := g_total g; g_high := g_high g |}.
Definition with_last (g : allocs) (p : aptr) := {| g_first := g_first g; g_last := p; g_total := g_total g; g_high := g_high g |}.
Definition with_total (g : allocs) (t : Z) := {| g_first := g_first g; g_last := g_last g; g_total := t; g_high := g_high g |}.
Definition with_high (g : allocs) (t : Z) := {| g_first := g_first g; g_last := g_last g; g_total := g_total g; g_high := t |}.

(** src/Omega_h_shared_alloc.cpp:13-20 start_tracking_allocations *)
Definition start_tracking (s : mstate) : res mstate :=
  match ga s with
  | Some _ => Abort
  | None => Ok (set_ga s {| g_first := None; g_last := None; g_total := 0; g_high := 0 |})
  end.

(** the loop [for (a = first; a; a = a->next)], with fuel *)
Fixpoint walk (fuel : nat) (s : mstate) (p : aptr) : res (list nat) :=
  match p with
  | None => Ok []
  | Some a =>
      match fuel with
      | O => UB (* the loop does not end *)
      | S f => r <- deref s a ;;
               match a_next r with
               | None => UB
               | Some n => l <- walk f s n ;; Ok (a :: l)
               end
      end
  end.
(** the records visited from ga->first *)
Definition tracked (s : mstate) : res (list nat) :=
  match ga s with
  | None => UB
  | Some g => walk (S (length (heap s))) s (g_first g)
  end.

(** src/Omega_h_shared_alloc.cpp:76-113 Alloc::init together with [new Alloc]: returns the new record's number.
    The underlying allocation is assumed to succeed. The new high water records are collected by the walk in 108-110. *)
Definition new_alloc (s : mstate) (size : Z) : res (mstate * nat) :=
  let a := length (heap s) in
  let s := set_heap s (heap s ++ [Some {| a_size := size; a_use_count := 1; a_prev := None; a_next := None |}]) in
  match ga s with
  | None => Ok (s, a)
  | Some g =>
      let old_last := g_last g in
      s <- store s a {| a_size := size; a_use_count := 1; a_prev := Some old_last; a_next := Some None |} ;;
      s <- match old_last with
           | Some l => r <- deref s l ;; store s l (with_next r (Some a))
           | None => Ok (set_ga s (with_last (with_first g (Some a)) (Some a)))
           end ;;
      match ga s with
      | None => UB
      | Some g =>
          let g := with_total g (g_total g + size) in
          let s := set_ga s g in
          if g_high g <? g_total g then
            _ <- tracked s ;;
            Ok (set_ga s (with_high g (g_total g)), a)
          else Ok (s, a)
      end
  end.

(** src/Omega_h_shared_alloc.cpp:58-74 Alloc::~Alloc, and release of the record by [delete] *)
Definition delete_alloc (s : mstate) (a : nat) : res mstate :=
  r <- deref s a ;;
  s <- match ga s with
       | None => Ok s
       | Some g =>
           match a_next r, a_prev r with
           | Some next, Some prev =>
               s <- match next with
                    | None => Ok (set_ga s (with_last g prev))
                    | Some n => rn <- deref s n ;; store s n (with_prev rn prev)
                    end ;;
               s <- match prev with
                    | None => match ga s with
                              | Some g => Ok (set_ga s (with_first g next))
                              | None => UB
                              end
                    | Some p => rp <- deref s p ;; store s p (with_next rp next)
                    end ;;
               match ga s with
               | Some g => Ok (set_ga s (with_total g (g_total g - a_size r)))
               | None => UB
               end
           | _, _ => UB
           end
       end ;;
  Ok {| heap := list_set (heap s) a None; ga := ga s; entering_parallel := entering_parallel s; handles := handles s; freed := a :: freed s |}.

(** src/Omega_h_shared_alloc.hpp:118-126 clear *)
Definition clear (s : mstate) (h : handle) : res mstate :=
  match h with
  | HPtr a =>
      r <- deref s a ;;
      s <- store s a (with_count r (a_use_count r - 1)) ;;
      if a_use_count r - 1 =? 0 then delete_alloc s a else Ok s
  | _ => Ok s
  end.

(** src/Omega_h_shared_alloc.hpp:74-88 copy: the new value of this->alloc *)
Definition copy (s : mstate) (other : handle) : res (mstate * handle) :=
  match other with
  | HPtr a =>
      r <- deref s a ;;
      if entering_parallel s then Ok (s, HTag (Z.lor (Z.shiftl (a_size r) 3) IN_PARALLEL))
      else s <- store s a (with_count r (a_use_count r + 1)) ;; Ok (s, HPtr a)
  | _ => Ok (s, other)
  end.

(** src/Omega_h_shared_alloc.hpp:90-105 move: the new value of this->alloc; the other becomes null *)
Definition move (s : mstate) (other : handle) : res (mstate * handle) :=
  match other with
  | HPtr a =>
      if entering_parallel s then
        r <- deref s a ;;
        s <- store s a (with_count r (a_use_count r - 1)) ;;
        Ok (s, HTag (Z.lor (Z.shiftl (a_size r) 3) IN_PARALLEL))
      else Ok (s, HPtr a)
  | _ => Ok (s, other)
  end.

(** src/Omega_h_shared_alloc.cpp:127-133 identity: (size << 3) & IS_IDENTITY, cast to a pointer *)
Definition identity (size : Z) : handle :=
  let v := Z.land (Z.shiftl size 3) IS_IDENTITY in if v =? 0 then HNull else HTag v.

(** src/Omega_h_shared_alloc.hpp:127-141 size *)
Definition handle_size (s : mstate) (h : handle) : res Z :=
  match h with
  | HNull => UB
  | HPtr a => r <- deref s a ;; Ok (a_size r)
  | HTag v => if Z.land v IN_PARALLEL =? 0 then UB else Ok (Z.shiftr v 3)
  end.

(** Statements of a program that uses handle variables (numbered in order of construction):
    construction with new storage, copy and move construction, copy and move assignment, destruction; and the
    flag that parallel_for sets while it copies its functor (src/Omega_h_for.hpp). *)
Inductive stmt :=
| New (size : Z) | CopyC (g : nat) | MoveC (g : nat) | CopyA (h g : nat) | MoveA (h g : nat) | Destroy (h : nat)
| SetParallel (b : bool).

(** reading a variable that does not exist is not a program; [UB] *)
Definition var (s : mstate) (h : nat) : res handle :=
  match nth_error (handles s) h with
  | Some (Some v) => Ok v
  | _ => UB
  end.

Definition exec (s : mstate) (c : stmt) : res mstate :=
  match c with
  | New size => '(s, a) <- new_alloc s size ;; Ok (set_handles s (handles s ++ [Some (HPtr a)]))
  | CopyC g => vg <- var s g ;; '(s, v) <- copy s vg ;; Ok (set_handles s (handles s ++ [Some v]))
  | MoveC g => vg <- var s g ;; '(s, v) <- move s vg ;;
      Ok (set_handles s (list_set (handles s) g (Some HNull) ++ [Some v]))
  | CopyA h g => (* hpp:107-111 *)
      vh <- var s h ;; s <- clear s vh ;; vg <- var s g ;; '(s, v) <- copy s vg ;;
      Ok (set_handles s (list_set (handles s) h (Some v)))
  | MoveA h g => (* hpp:112-116 *)
      vh <- var s h ;; s <- clear s vh ;; vg <- var s g ;; '(s, v) <- move s vg ;;
      Ok (set_handles s (list_set (list_set (handles s) h (Some v)) g (Some HNull)))
  | Destroy h => vh <- var s h ;; s <- clear s vh ;; Ok (set_handles s (list_set (handles s) h None))
  | SetParallel b => Ok {| heap := heap s; ga := ga s; entering_parallel := b; handles := handles s; freed := freed s |}
  end.
Definition exec_all (s : mstate) (cs : list stmt) : res mstate := foldM exec cs s.
