(** Specification vocabulary for the classification of box meshes. *)
From Coq Require Import String.
From Verif Require Import Prelude M_ArrayOps S_ArrayOps S_Scan M_Template S_Align S_Adj M_Adj M_MeshAdj S_MeshAdj M_Build S_Build S_Simplify M_Box S_Box.
Local Open Scope Z_scope.

(** along an axis with [n] cells, points stand all at the beginning (0), all at the end (2) or otherwise (1) *)
Definition stand (n : Z) (xs : list Z) (digit : Z) : Prop :=
  (digit = 0 /\ forall x, In x xs -> x = 0) \/ (digit = 2 /\ forall x, In x xs -> x = 2 * n) \/
  (digit = 1 /\ (exists x, In x xs /\ x <> 0) /\ exists x, In x xs /\ x <> 2 * n).

(** the part of the box that points are on: a digit for each axis makes the identifier, and the number of axes along which the
    part extends its dimension *)
Definition on_part (dim : Z) (n : Z -> Z) (pts : list point) (id class_dim : Z) : Prop :=
  exists digit, (forall a, 0 <= a < dim -> stand (n a) (map (axis a) pts) (digit a)) /\
    id = zsum (map (fun a => digit a * 3 ^ a) (zrange dim)) /\ class_dim = zsum (map (fun a => if digit a =? 1 then 1 else 0) (zrange dim)).

(** the vertices of an entity of dimension [d] *)
Definition entity_row (T : topology) (d e : Z) (row : list Z) : Prop :=
  0 <= e < t_nents T d /\ if d =? 0 then row = [e] else row_is (element_degree (t_family T) d 0) (t_verts T d) e row.

(** [tags]: for each dimension the identifiers and the dimensions of the parts of the box that the entities are on *)
Definition entity_class (tags : list (list Z * list Z)) (d e id class_dim : Z) : Prop :=
  exists ids dims, zget tags d = Ok (ids, dims) /\ zget ids e = Ok id /\ zget dims e = Ok class_dim.
Definition classified (n : Z -> Z) (T : topology) (place : Z -> point) (tags : list (list Z * list Z)) : Prop :=
  zlen tags = t_dim T + 1 /\
  forall d, 0 <= d <= t_dim T -> exists ids dims, zget tags d = Ok (ids, dims) /\ zlen ids = t_nents T d /\ zlen dims = t_nents T d /\
    forall e row, entity_row T d e row -> exists id class_dim, zget ids e = Ok id /\ zget dims e = Ok class_dim /\ on_part (t_dim T) n (map place row) id class_dim.

(** the points are on the surface of the box at the beginning or the end of axis [a], and not on an edge of the box *)
Definition on_side (dim : Z) (n : Z -> Z) (a : Z) (upper : bool) (pts : list point) : Prop :=
  stand (n a) (map (axis a) pts) (if upper then 2 else 0) /\ forall b, 0 <= b < dim -> b <> a -> stand (n b) (map (axis b) pts) 1.
Definition in_body (dim : Z) (n : Z -> Z) (pts : list point) : Prop := forall a, 0 <= a < dim -> stand (n a) (map (axis a) pts) 1.
Definition side_name (a : Z) (upper : bool) : string := ((match a with 0 => "x" | 1 => "y" | _ => "z" end) ++ (if upper then "+" else "-"))%string.

(** classes are consistent with the mesh: an entity is on a part of at least its dimension; a side is on the surface if it
    has one element and in the body if it has two; and what is part of an entity is on the same part of the box or on one of
    smaller dimension *)
Definition class_fits (T : topology) (tags : list (list Z * list Z)) : Prop :=
  (forall d e id class_dim, 0 <= d <= t_dim T -> entity_class tags d e id class_dim -> d <= class_dim <= t_dim T) /\
  (forall s id class_dim, entity_class tags (t_dim T - 1) s id class_dim ->
     (zlen (uses_of (adj_ab2b (t_down T (t_dim T))) s) = 1 /\ class_dim = t_dim T - 1) \/ (zlen (uses_of (adj_ab2b (t_down T (t_dim T))) s) = 2 /\ class_dim = t_dim T)) /\
  (forall d e row d' e' row' id class_dim id' class_dim', 0 <= d <= t_dim T -> 0 <= d' <= t_dim T -> entity_row T d e row -> entity_row T d' e' row' -> (forall v, In v row' -> In v row) ->
     entity_class tags d e id class_dim -> entity_class tags d' e' id' class_dim' -> class_dim' <= class_dim /\ (class_dim' = class_dim -> id' = id)).
