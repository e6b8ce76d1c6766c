(** Specification vocabulary for meshes of boxes. *)
From Verif Require Import Prelude M_ArrayOps S_ArrayOps S_Scan M_Template S_Align S_Adj M_Adj M_MeshAdj S_MeshAdj M_Build S_Build S_Simplify M_Box.
Local Open Scope Z_scope.

Definition point : Type := Z * Z * Z.
Definition axis (a : Z) (p : point) : Z := let '(x, y, z) := p in match a with 0 => x | 1 => y | _ => z end.
Definition plus (p q : point) : point := let '(x, y, z) := p in let '(x', y', z') := q in (x + x', y + y', z + z').
Definition twice (p : point) : point := let '(x, y, z) := p in (2 * x, 2 * y, 2 * z).

(** [place v] is where vertex [v] is, in halves of the width of a cell; what is not an axis of the mesh is 0 *)
Definition places (dim nverts : Z) (coords : list Z) (place : Z -> point) : Prop :=
  zlen coords = nverts * dim /\
  forall v a, 0 <= v < nverts -> (0 <= a < dim -> zget coords (v * dim + a) = Ok (axis a (place v))) /\ (dim <= a < 3 -> axis a (place v) = 0).

(** twice the length, eight times the area or 48 times the volume, signed, of a simplex with these corners: its size
    in terms of half cells times the factorial of the dimension *)
Definition size (dim : Z) (pts : list point) : Z :=
  match dim, pts with
  | 1, [a; b] => axis 0 (minus b a)
  | 2, [a; b; c] => axis 0 (minus b a) * axis 1 (minus c a) - axis 1 (minus b a) * axis 0 (minus c a)
  | 3, _ => volume6 pts
  | _, _ => 0
  end.
(** the corners of the cell whose first corner is [b], in the order of the reference element *)
Definition cell_corners (dim : Z) (b : point) : list point := map (fun p => plus b (twice (corner p))) (zrange (2 ^ dim)).

(** a simplex with positive size, or exactly a cell *)
Definition right_side_out (f : family) (dim : Z) (pts : list point) : Prop :=
  match f with OMEGA_H_SIMPLEX => 0 < size dim pts | OMEGA_H_HYPERCUBE => exists b, pts = cell_corners dim b end.

(** all points are on one side of the box that has [n a] cells along axis [a] *)
Definition on_surface (dim : Z) (n : Z -> Z) (pts : list point) : Prop :=
  exists a, 0 <= a < dim /\ ((forall p, In p pts -> axis a p = 0) \/ (forall p, In p pts -> axis a p = 2 * n a)).

(** the vertices of a side of an element *)
Definition side_row (T : topology) (s : Z) (row : list Z) : Prop :=
  if t_dim T =? 1 then row = [s] else row_is (element_degree (t_family T) (t_dim T - 1) 0) (t_verts T (t_dim T - 1)) s row.

Definition volume (dim : Z) (n : Z -> Z) : Z := fold_right Z.mul 1 (map n (zrange dim)).
Definition factorial (dim : Z) : Z := match dim with 1 => 1 | 2 => 2 | 3 => 6 | _ => 0 end.

(** the mesh [T] with its vertices at [place] fills the box, without gaps *)
Record fills_box (n : Z -> Z) (T : topology) (place : Z -> point) : Prop := {
  fb_inside : forall v a, 0 <= v < t_nents T 0 -> 0 <= a < t_dim T -> 0 <= axis a (place v) <= 2 * n a;
  fb_apart : forall v w, 0 <= v < t_nents T 0 -> 0 <= w < t_nents T 0 -> place v = place w -> v = w;
  (** the elements are right side out, and together as large as the box *)
  fb_upright : forall e row, row_is (element_degree (t_family T) (t_dim T) 0) (t_verts T (t_dim T)) e row -> right_side_out (t_family T) (t_dim T) (map place row);
  fb_total : match t_family T with
    | OMEGA_H_SIMPLEX => exists rows, concat rows = t_verts T (t_dim T) /\ (forall r, In r rows -> zlen r = t_dim T + 1) /\
        zsum (map (fun r => size (t_dim T) (map place r)) rows) = factorial (t_dim T) * (2 ^ t_dim T * volume (t_dim T) n)
    | OMEGA_H_HYPERCUBE => t_nents T (t_dim T) = volume (t_dim T) n end;
  (** a side on the surface has one element, any other has two *)
  fb_sides : forall s row, 0 <= s < t_nents T (t_dim T - 1) -> side_row T s row ->
    (on_surface (t_dim T) n (map place row) /\ zlen (uses_of (adj_ab2b (t_down T (t_dim T))) s) = 1) \/
    (~ on_surface (t_dim T) n (map place row) /\ zlen (uses_of (adj_ab2b (t_down T (t_dim T))) s) = 2) }.

(** the cells of the box along each axis, and its dimension: an axis with no cells is missing *)
Definition box_dim (ny nz : Z) : Z := if ny =? 0 then 1 else if nz =? 0 then 2 else 3.
Definition cells_along (nx ny nz a : Z) : Z := match a with 0 => nx | 1 => ny | _ => nz end.

(** however long a loop is, the threads together run each iteration once *)
Definition loops_covered (be : Z -> backend) : Prop := forall k, 0 <= k -> covers (be k) k.

(** [p] is a mesh of the box: its elements with all their sides, at coordinates that fill the box, numbered in order *)
Definition is_box_mesh (f : family) (nx ny nz : Z) (p : placed) : Prop :=
  exists ev2v T place, topology_of f (box_dim ny nz) ev2v (t_nents T 0) T /\ mesh_of T (b_mesh (p_built p)) /\
    places (box_dim ny nz) (t_nents T 0) (p_coords p) place /\ fills_box (cells_along nx ny nz) T place /\
    forall d, 0 <= d <= box_dim ny nz -> b_globals (p_built p) d = Some (zrange (t_nents T d)).
