(** Specification vocabulary for meshes assembled from old entities and new ones. *)
From Coq Require Import String.
From Verif Require Import Prelude S_Unique M_Tags M_MeshAdj S_MeshAdj S_RefineMesh.
Local Open Scope Z_scope.

(** [T'] has exactly one entity for every origin [o] that [makes] allows, with the vertices that [verts] says; [from] tells the
    origin of each entity of [T'] *)
Record assembled {O : Type} (T : topology) (makes : Z -> O -> Prop) (verts : Z -> O -> list Z -> Prop) (from : Z -> Z -> O) (T' : topology) : Prop := {
  as_family : t_family T' = t_family T;
  as_dim : t_dim T' = t_dim T;
  as_made : forall d e', 0 <= d <= t_dim T -> 0 <= e' < t_nents T' d -> makes d (from d e') /\ exists row', ent_verts T' d e' row' /\ verts d (from d e') row';
  as_once : forall d o, 0 <= d <= t_dim T -> makes d o -> exists e', 0 <= e' < t_nents T' d /\ from d e' = o /\ forall e'', 0 <= e'' < t_nents T' d -> from d e'' = o -> e'' = e' }.

(** values of the new entities of dimension [d]: those of the old entity [source] names *)
Definition takes_from {A} (nents' ncomps : Z) (data : Z -> list A) (source : Z -> Z * Z) (l : list A) : Prop :=
  zlen l = nents' * ncomps /\ forall e' j, 0 <= e' < nents' -> 0 <= j < ncomps ->
  zget l (e' * ncomps + j) = zget (data (fst (source e'))) (snd (source e') * ncomps + j).
