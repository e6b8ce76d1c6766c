(** Specification vocabulary for the choice of vertices to collapse. *)
From Coq Require Import String.
From Verif Require Import Prelude S_Unique M_Tags M_MeshAdj S_MeshAdj S_RefineMesh.
Local Open Scope Z_scope.

Section choose.
(** the mesh, and for each dimension the dimensions of what its entities are classified on *)
Context (T : topology) (class_dim : Z -> list Z).

Definition same_class (d e d' e' : Z) : Prop := exists x, zget (class_dim d) e = Ok x /\ zget (class_dim d') e' = Ok x.
(** moving vertex [v] along edge [k] onto vertex [w] keeps the classification: [v] is classified on the same dimension as the
    edge, and wherever an entity with both vertices shrinks, its side without [w], which is lost, is classified on the same
    dimension as itself *)
Definition keeps_class (k v w : Z) : Prop :=
  same_class 0 v 1 k /\
  forall d c row s srow, 2 <= d <= t_dim T -> ent_verts T d c row -> In v row -> In w row -> ent_verts T (d - 1) s srow -> incl srow row -> ~ In w srow -> same_class (d - 1) s d c.
(** edge [k] goes from [v] to [w], or from [w] to [v]; [v] is its end [i] *)
Definition end_of (k i v w : Z) : Prop := i = 0 /\ ent_verts T 1 k [v; w] \/ i = 1 /\ ent_verts T 1 k [w; v].
(** [v], the end [i] of edge [k], is marked, and may go along the edge by classification and by all the other checks *)
Definition may_go (marks : list Z) (checks : list (Z -> Z -> bool)) (v k i : Z) : Prop :=
  (exists b, zget marks v = Ok b /\ b <> 0) /\ (exists w, end_of k i v w /\ keeps_class k v w) /\ forall ok, In ok checks -> ok k i = true.
End choose.

(** lengths are compared as numbers are: [shorter] is irreflexive and transitive, [same] means that neither is shorter, and so
    for qualities *)
Record compares {L Q} (shorter same : L -> L -> bool) (higher : Q -> Q -> bool) : Prop := {
  n_irr : forall a, shorter a a = false;
  n_trans : forall a b c, shorter a b = true -> shorter b c = true -> shorter a c = true;
  n_same : forall a b, same a b = true <-> shorter a b = false /\ shorter b a = false;
  n_same_trans : forall a b c, same a b = true -> same b c = true -> same a c = true;
  n_high_irr : forall a, higher a a = false;
  n_high_trans : forall a b c, higher a b = true -> higher b c = true -> higher a c = true }.

(** the edge of a vertex is the shortest of those along which it may go, and of those that are as short none gives better
    quality *)
Definition best {L Q} (shorter same : L -> L -> bool) (higher : Q -> Q -> bool) (lengths : list L) (qual : Z -> Z -> Q) (may : Z -> Z -> Prop) (k i : Z) : Prop :=
  forall k' i' len len', may k' i' -> zget lengths k = Ok len -> zget lengths k' = Ok len' ->
  shorter len' len = false /\ (same len' len = true -> higher (qual k' i') (qual k i) = false).

Section chosen.
Context (T : topology) (class_dim : Z -> list Z) (marks : list Z) (checks : list (Z -> Z -> bool)) (globals : list Z).
Context {L Q : Type} (shorter same : L -> L -> bool) (higher : Q -> Q -> bool) (lengths : list L) (qual : Z -> Z -> Q).
(** the edge [k] along which [v] is to go, with [v] as its end [i], is one along which it may go and the best of these *)
Definition good_choice (v k i : Z) : Prop :=
  may_go T class_dim marks checks v k i /\ (compares shorter same higher -> best shorter same higher lengths qual (may_go T class_dim marks checks v) k i).
(** the marks, qualities and rails: those of a good choice where there is one, 0, none and -1 elsewhere *)
Definition chosen (cands : list Z) (quals : list (option Q)) (rails : list Z) : Prop :=
  zlen cands = t_nents T 0 /\ zlen quals = t_nents T 0 /\ zlen rails = t_nents T 0 /\ forall v, 0 <= v < t_nents T 0 ->
  (exists k i g, good_choice v k i /\ zget cands v = Ok 1 /\ zget quals v = Ok (Some (qual k i)) /\ zget globals k = Ok g /\ zget rails v = Ok g) \/
  (forall k i, ~ may_go T class_dim marks checks v k i) /\ zget cands v = Ok 0 /\ zget quals v = Ok None /\ zget rails v = Ok (-1).
End chosen.
