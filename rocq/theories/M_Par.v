(** Shared-memory parallel loops.  Model of parallel_for / for_each (src/Omega_h_for.hpp:60-110) and of
    the atomics (src/Omega_h_atomics.hpp:12-60) at the granularity of single memory accesses:
    each loop iteration is a thread, a schedule names the thread that performs the next access.
    (A real machine runs several iterations on one thread, one after the other: those are some of
    the schedules.)  Memory is sequentially consistent.  Bounds are not part of this file. *)
From Verif Require Import Prelude.

(** A location: which array, which entry. *)
Definition loc := (nat * nat)%type.
Definition loc_eqb (a b : loc) : bool := (fst a =? fst b) && (snd a =? snd b).

Section prog.
Variable V : Type.

Definition mem := loc -> V.
Definition upd (m : mem) (l : loc) (v : V) : mem := fun l' => if loc_eqb l l' then v else m l'.

(** The memory accesses of one iteration. *)
Inductive prog :=
| Done
| Rd (l : loc) (k : V -> prog)             (* load *)
| Wr (l : loc) (v : V) (k : prog)          (* store *)
| Rmw (l : loc) (f : V -> V) (k : V -> prog).  (* atomic read-modify-write, continues with the old value *)

(** One access. *)
Definition step1 (m : mem) (p : prog) : mem * prog :=
  match p with
  | Done => (m, Done)
  | Rd l k => (m, k (m l))
  | Wr l v k => (upd m l v, k)
  | Rmw l f k => (upd m l (f (m l)), k (m l))
  end.

(** Thread [i] performs its next access (nothing if there is no such thread or it is done). *)
Definition step (c : mem * list prog) (i : nat) : mem * list prog :=
  match nth_error (snd c) i with
  | Some p => let '(m', p') := step1 (fst c) p in (m', list_set (snd c) i p')
  | None => c
  end.

Definition run (c : mem * list prog) (schedule : list nat) : mem * list prog := fold_left step schedule c.

Definition all_done (c : mem * list prog) : Prop := Forall (fun p => p = Done) (snd c).

(** A whole iteration alone. *)
Fixpoint solo (m : mem) (p : prog) : mem :=
  match p with
  | Done => m
  | Rd l k => solo m (k (m l))
  | Wr l v k => solo (upd m l v) k
  | Rmw l f k => solo (upd m l (f (m l))) (k (m l))
  end.

(** The serial loop. *)
Definition serial (m : mem) (ps : list prog) : mem := fold_left solo ps m.

End prog.
Arguments Done {V}. Arguments Rd {V}. Arguments Wr {V}. Arguments Rmw {V}.
Arguments step1 {V}. Arguments step {V}. Arguments run {V}. Arguments all_done {V}.
Arguments solo {V}. Arguments serial {V}. Arguments upd {V}.
