(** What handle variables refer to, independently of counts and pointers. *)
From Verif Require Import Prelude M_SharedAlloc.
Local Open Scope Z_scope.

(** a variable: refers to the k-th storage, refers to none, or was destroyed *)
Inductive target := Refers (k : nat) | Nothing | Gone.

(** storages made so far, in a parallel region?, and the variables *)
Record ideal := { made : list Z (* sizes *); par : bool; vars : list target }.
Definition ideal0 : ideal := {| made := []; par := false; vars := [] |}.

Definition value (i : ideal) (h : nat) : target := nth h (vars i) Gone.

Definition ideal_exec (i : ideal) (c : stmt) : ideal :=
  match c with
  | New size => {| made := made i ++ [size]; par := par i; vars := vars i ++ [Refers (length (made i))] |}
  | CopyC g => {| made := made i; par := par i; vars := vars i ++ [if par i then Nothing else value i g] |}
  | MoveC g => {| made := made i; par := par i; vars := list_set (vars i) g Nothing ++ [value i g] |}
  | CopyA h g => {| made := made i; par := par i; vars := list_set (vars i) h (value i g) |}
  | MoveA h g => {| made := made i; par := par i; vars := list_set (list_set (vars i) h (value i g)) g Nothing |}
  | Destroy h => {| made := made i; par := par i; vars := list_set (vars i) h Gone |}
  | SetParallel b => {| made := made i; par := b; vars := vars i |}
  end.

(** A sensible statement: variables exist; assignment is between different variables; while a parallel region
    is being entered handles are only copied and destroyed. *)
Definition sensible (i : ideal) (c : stmt) : Prop :=
  match c with
  | New size => par i = false
  | CopyC g => value i g <> Gone
  | MoveC g => value i g <> Gone /\ par i = false
  | CopyA h g | MoveA h g => value i h <> Gone /\ value i g <> Gone /\ h <> g /\ par i = false
  | Destroy h => value i h <> Gone
  | SetParallel _ => True
  end.
Fixpoint sensible_all (i : ideal) (cs : list stmt) : Prop :=
  match cs with
  | [] => True
  | c :: r => sensible i c /\ sensible_all (ideal_exec i c) r
  end.
Definition ideal_all (i : ideal) (cs : list stmt) : ideal := fold_left ideal_exec cs i.

Definition refers_to (k : nat) (t : target) : bool := match t with Refers j => (j =? k)%nat | _ => false end.
(** the number of variables that refer to storage [k] *)
Definition users (i : ideal) (k : nat) : Z := zlen (filter (refers_to k) (vars i)).

(** the storages some variable refers to, oldest first *)
Definition live (i : ideal) : list nat := filter (fun k => existsb (refers_to k) (vars i)) (seq 0 (length (made i))).
(** A history in which storages come and go like a stack of at most two: every statement leaves the live
    storages as they are, makes one while at most one other is live, or drops the youngest one. *)
Fixpoint stack_of_two (i : ideal) (cs : list stmt) : Prop :=
  match cs with
  | [] => True
  | c :: r =>
      let i' := ideal_exec i c in
      (live i' = live i \/ (live i' = live i ++ [length (made i)] /\ (length (live i') <= 2)%nat) \/ (exists k, live i = live i' ++ [k]))
      /\ stack_of_two i' r
  end.
