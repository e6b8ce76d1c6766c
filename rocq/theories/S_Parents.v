(** Specification vocabulary for parents and children. *)
From Verif Require Import Prelude M_Adj S_Adj M_Parents.
Local Open Scope Z_scope.

(** the children of entity [p] of dimension [parent_dim], in increasing order: low two bits of the code
    say of which dimension the parent is *)
Definition children_of (c2p : parents) (parent_dim p : Z) : list Z :=
  filter (fun c => match zget (fst c2p) c, zget (snd c2p) c with Ok q, Ok code => (code_parent_dim code =? parent_dim) && (q =? p) | _, _ => false end) (zrange (zlen (fst c2p))).

(** [ch] lists for each entity of dimension [parent_dim] its children, with their codes *)
Definition lists_children (c2p : parents) (parent_dim n : Z) (ch : adj) : Prop :=
  wf_adj ch /\ zlen (adj_a2ab ch) = n + 1 /\
  forall p, 0 <= p < n -> adj_targets ch p = Ok (children_of c2p parent_dim p) /\ adj_target_codes ch p = mapM (zget (snd c2p)) (children_of c2p parent_dim p).

(** one code per child, and children that name an entity of dimension [parent_dim] name an existing one *)
Definition proper_parents (c2p : parents) (parent_dim n : Z) : Prop :=
  zlen (snd c2p) = zlen (fst c2p) /\
  forall c p code, zget (fst c2p) c = Ok p -> zget (snd c2p) c = Ok code -> code_parent_dim code = parent_dim -> 0 <= p < n.

(** what ask_parents gives when no parents were set *)
Definition orphans (n : Z) : parents := (repeat (-1) (Z.to_nat n), repeat 0 (Z.to_nat n)).

(** the parents of entities of dimension [child_dim] after a history: the ones given last *)
Definition parents_after (child_dim n : Z) (es : list fevent) : parents :=
  fold_left (fun now e => match e with SetParents d p => if d =? child_dim then p else now | _ => now end) es (orphans n).

(** the part of a history before the children were asked for first *)
Fixpoint before_request (parent_dim child_dim : Z) (es : list fevent) : list fevent :=
  match es with
  | [] => []
  | AskChildren pd cd m0 s1 s2 :: es =>
    if (pd =? parent_dim) && (cd =? child_dim) then [] else AskChildren pd cd m0 s1 s2 :: before_request parent_dim child_dim es
  | e :: es => e :: before_request parent_dim child_dim es
  end.

(** a mesh without parents *)
Definition childless (dim : Z) (nents : Z -> Z) : fmesh := mk_fmesh dim nents (fun _ => None) (fun _ _ => None).
