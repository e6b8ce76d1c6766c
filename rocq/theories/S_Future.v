(** Specification vocabulary for futures (C33). *)
From Verif Require Import Prelude.
Local Open Scope Z_scope.

(** Position [p] is written by the receive request [r] = (first position, values). *)
Definition covers {T} (r : Z * list T) (p : Z) : Prop := fst r <= p < fst r + zlen (snd r).

(** The requests stay in a buffer of [n] entries and no two of them write the same position. *)
Definition fits {T} (n : Z) (r : Z * list T) : Prop := 0 <= fst r /\ fst r + zlen (snd r) <= n.
Definition apart {T} (reqs : list (Z * list T)) : Prop :=
  ForallOrdPairs (fun r s => forall p, covers r p -> ~ covers s p) reqs.

(** [after] is [before] with the values of every request of [reqs] in place, and nothing else changed. *)
Definition received {T} (reqs : list (Z * list T)) (before after : list T) : Prop :=
  zlen after = zlen before /\
  (forall r j v, In r reqs -> zget (snd r) j = Ok v -> zget after (fst r + j) = Ok v) /\
  (forall p, (forall r, In r reqs -> ~ covers r p) -> zget after p = zget before p).

(** Callbacks apply in the order they were added. *)
Definition apply_all {T} (cbs : list (T -> T)) (x : T) : T := fold_left (fun y c => c y) cbs x.
