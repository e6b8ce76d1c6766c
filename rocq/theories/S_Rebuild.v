(** Specification vocabulary for meshes of which a part is replaced. *)
From Coq Require Import String.
From Verif Require Import Prelude M_Template M_Tags M_Modify M_Adj S_Align S_Unique M_MeshAdj S_MeshAdj S_Unmap.
Local Open Scope Z_scope.

(** new numbers for the old entities that stay and for [nprods] products: 0, 1, ..., nobody shares one *)
Record renumbers (n : Z) (r : numbering) : Prop := {
  rn_len : zlen (same2new r) = zlen (same2old r);
  rn_all : Permutation (same2new r ++ prods2new r) (zrange (nnew r));
  rn_olds : zlen (old2new r) = n;
  rn_same : forall i x y, zget (same2old r) i = Ok x -> zget (same2new r) i = Ok y -> zget (old2new r) x = Ok y }.

(** [e'] is, in the new numbering, the entity with vertices [row']: an old one that stays, its vertices renumbered, or a product *)
Definition new_row (T : topology) (r : Z -> numbering) (prod_verts : Z -> list Z) (d e' : Z) (row' : list Z) : Prop :=
  let deg := element_degree (t_family T) d 0 in
  (exists e row, In e (same2old (r d)) /\ zget (old2new (r d)) e = Ok e' /\ row_is deg (t_verts T d) e row /\ Forall2 (fun v v' => zget (old2new (r 0)) v = Ok v') row row') \/
  (exists p, zget (prods2new (r d)) p = Ok e' /\ row_is deg (prod_verts d) p row').

(** what is asked of the change: whole numberings; what stays, stays with its sides; products have distinct vertices that
    exist, and each of their sides is exactly one entity of the new mesh *)
Record fits (T : topology) (r : Z -> numbering) (prod_verts : Z -> list Z) : Prop := {
  f_numbers : forall d, 0 <= d <= t_dim T -> renumbers (t_nents T d) (r d);
  f_keep : picks T (fun d => same2old (r d));
  f_verts : forall d, 1 <= d <= t_dim T -> zlen (prod_verts d) = zlen (prods2new (r d)) * element_degree (t_family T) d 0 /\
    rows_distinct (element_degree (t_family T) d 0) (prod_verts d) /\ forall v, In v (prod_verts d) -> 0 <= v < nnew (r 0);
  f_sides : forall d p u row, 2 <= d <= t_dim T -> is_side (t_family T) d (d - 1) (prod_verts d) p u row ->
    exists s srow, new_row T r prod_verts (d - 1) s srow /\ same_polygon srow row /\
    forall s' srow', new_row T r prod_verts (d - 1) s' srow' -> same_polygon srow' row -> s' = s }.

(** [T'] has what stays and the products, at their new numbers *)
Definition rebuilt (T : topology) (r : Z -> numbering) (prod_verts : Z -> list Z) (T' : topology) : Prop :=
  t_family T' = t_family T /\ t_dim T' = t_dim T /\ (forall d, 0 <= d <= t_dim T -> t_nents T' d = nnew (r d)) /\
  forall d e' row', 1 <= d <= t_dim T -> row_is (element_degree (t_family T) d 0) (t_verts T' d) e' row' <-> new_row T r prod_verts d e' row'.
