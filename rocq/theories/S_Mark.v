(** Specification vocabulary for markings. *)
From Verif Require Import Prelude M_Graph S_Graph.
Local Open Scope Z_scope.

(** entry [i] of the marking says whether [P] holds: 1 or 0 *)
Definition says (marks : list Z) (i : Z) (P : Prop) : Prop := (zget marks i = Ok 1 /\ P) \/ (zget marks i = Ok 0 /\ ~ P).
(** entry [i] of a marking is set *)
Definition marked (marks : list Z) (i : Z) : Prop := exists m, zget marks i = Ok m /\ m <> 0.
(** an edge of a graph *)
Definition edge (g : graph) (v w : Z) : Prop := exists ts, targets g v = Ok ts /\ In w ts.
(** a walk of exactly [n] edges *)
Fixpoint walk (g : graph) (n : nat) (v w : Z) : Prop :=
  match n with O => v = w | S n => exists u, edge g v u /\ walk g n u w end.
(** entries never decrease *)
Definition increasing (a : list Z) : Prop := forall i j x y, zget a i = Ok x -> zget a j = Ok y -> i <= j -> x <= y.
