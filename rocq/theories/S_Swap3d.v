(** Specification vocabulary for edge swaps: triangulations of a polygon, rings of tets, volumes. *)
From Verif Require Import Prelude.
From Coq Require Import Permutation.
Local Open Scope Z_scope.

(** ** polygons with vertices 0 .. n-1 *)
(** a diagonal joins two vertices that are not neighbours on the polygon *)
Definition diagonal (n : Z) (d : Z * Z) : Prop := 0 <= fst d /\ fst d + 1 < snd d < n /\ ~ (fst d = 0 /\ snd d = n - 1).
(** two diagonals cross when their ends alternate around the polygon *)
Definition cross (d e : Z * Z) : Prop := fst d < fst e < snd d /\ snd d < snd e \/ fst e < fst d < snd e /\ snd e < snd d.
(** a triangulation is given by n - 3 different diagonals that do not cross *)
Definition triangulation (n : Z) (D : list (Z * Z)) : Prop :=
  NoDup D /\ (forall d, In d D -> diagonal n d) /\ (forall d e, In d D -> In e D -> ~ cross d e) /\ zlen D = n - 3.
(** its triangles are the triples each two of which are joined by a side of the polygon or a diagonal *)
Definition joined (n : Z) (D : list (Z * Z)) (a b : Z) : Prop := b = a + 1 \/ (a = 0 /\ b = n - 1) \/ In (a, b) D.
Definition triangle (n : Z) (D : list (Z * Z)) (a b c : Z) : Prop :=
  0 <= a /\ a < b < c /\ c < n /\ joined n D a b /\ joined n D b c /\ joined n D a c.
(** a list of edges (pairs of vertices, in either direction) names the diagonals [D] *)
Definition names (E : list (list Z)) (D : list (Z * Z)) : Prop :=
  (forall e, In e E -> exists a b, e = [a; b]) /\ forall a b, a < b -> (In (a, b) D <-> In [a; b] E \/ In [b; a] E).

(** ** tets around an edge *)
(** the even rearrangements of four vertices *)
Definition same_orientation (t u : list Z) : Prop :=
  match t with
  | [a; b; c; d] =>
    In u [[a; b; c; d]; [a; c; d; b]; [a; d; b; c]; [b; a; d; c]; [b; d; c; a]; [b; c; a; d];
          [c; a; b; d]; [c; b; d; a]; [c; d; a; b]; [d; a; c; b]; [d; c; b; a]; [d; b; a; c]]
  | _ => False
  end.

(** the successive pairs of a cycle *)
Definition cycle (l : list Z) : list (Z * Z) := match l with [] => [] | a :: t => combine l (t ++ [a]) end.

(** the tets around the edge (e0,e1): in some order, (e0,e1,l_0,l_1), (e0,e1,l_1,l_2), ..., each with
    its vertices listed in any order of the same orientation *)
Definition ring_of_tets (e0 e1 : Z) (l : list Z) (tets : list (list Z)) : Prop :=
  NoDup (e0 :: e1 :: l) /\
  exists pairs, Permutation pairs (cycle l) /\ Forall2 (fun t p => same_orientation [e0; e1; fst p; snd p] t) tets pairs.

(** the number of tets that have [x], [y] and [z] among their vertices; a face is on the boundary when
    exactly one has *)
Definition has (t : list Z) (x : Z) : bool := existsb (Z.eqb x) t.
Definition users (tets : list (list Z)) (x y z : Z) : Z := zlen (filter (fun t => has t x && has t y && has t z) tets).
Definition boundary_face (tets : list (list Z)) (x y z : Z) : Prop := NoDup [x; y; z] /\ users tets x y z = 1.
Definition interior_face (tets : list (list Z)) (x y z : Z) : Prop := NoDup [x; y; z] /\ users tets x y z = 2.

(** ** signed volume over any commutative ring *)
Section volume.
Context {R : Type} (rO rI : R) (radd rmul rsub : R -> R -> R) (ropp : R -> R).
(** determinant of the three edge vectors at the first vertex (six times the volume) *)
Definition det3 (u v w : R * R * R) : R :=
  let '(u0, u1, u2) := u in let '(v0, v1, v2) := v in let '(w0, w1, w2) := w in
  radd (radd (rmul u0 (rsub (rmul v1 w2) (rmul v2 w1))) (rmul u1 (rsub (rmul v2 w0) (rmul v0 w2)))) (rmul u2 (rsub (rmul v0 w1) (rmul v1 w0))).
Definition sub3 (a b : R * R * R) : R * R * R :=
  let '(a0, a1, a2) := a in let '(b0, b1, b2) := b in (rsub a0 b0, rsub a1 b1, rsub a2 b2).
Definition volume (coords : Z -> R * R * R) (t : list Z) : R :=
  match t with
  | [a; b; c; d] => let o := coords a in det3 (sub3 (coords b) o) (sub3 (coords c) o) (sub3 (coords d) o)
  | _ => rO
  end.
Definition sum_over (f : list Z -> R) (l : list (list Z)) : R := fold_right (fun t s => radd (f t) s) rO l.
End volume.

(** entity [i] of an array of [k] vertices per entity, and the entities from [lo] to [hi] *)
Definition verts_of (k : Z) (a : list Z) (i : Z) : res (list Z) := mapM (fun j => zget a (i * k + j)) (zrange k).
Definition ents_between (k : Z) (a : list Z) (lo hi : Z) : res (list (list Z)) := mapM (verts_of k a) (zfromto lo hi).

(** the same cyclic list, started elsewhere *)
Definition rotated (l l' : list Z) : Prop := exists P S, l = P ++ S /\ l' = S ++ P.

(** the alignment code of an edge in a tet tells where the vertices of the edge are among those of the
    tet: vertex [eev] of the edge is vertex [rot xor eev] of the tet's edge number [which] *)
Definition code_aligns (e0 e1 : Z) (t : list Z) (which rot : Z) (down : Z -> Z -> Z) : Prop :=
  0 <= which < 6 /\ 0 <= rot < 2 /\ zget t (down which (Z.lxor rot 0)) = Ok e0 /\ zget t (down which (Z.lxor rot 1)) = Ok e1.

(** the three vertices [x], [y], [z], in some order, are listed; two vertices, in some order, are listed *)
Definition lists3 (fs : list (list Z)) (x y z : Z) : Prop :=
  exists f, In f fs /\ In f [[x; y; z]; [x; z; y]; [y; x; z]; [y; z; x]; [z; x; y]; [z; y; x]].
Definition lists2 (es : list (list Z)) (x y : Z) : Prop := In [x; y] es \/ In [y; x] es.
(** two vertices belong to a common tet *)
Definition share (tets : list (list Z)) (x y : Z) : Prop := exists t, In t tets /\ In x t /\ In y t.
