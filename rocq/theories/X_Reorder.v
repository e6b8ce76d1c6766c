(** Example data for C70: the two tetrahedra of X_MeshAdj with coordinates and global numbers. *)
From Coq Require Import String.
From Verif Require Import Prelude S_Map M_Tags M_Par M_Template M_Adj M_MeshAdj S_MeshAdj P_MeshAdj X_MeshAdj S_Build M_Unmap S_Unmap X_Unmap M_Reorder S_Reorder.
Local Open Scope Z_scope.

(** keys: the coordinates themselves, so that points are sorted by the first and then by the next *)
Definition by_axes (coords : list Z) (_ : Z) : res (list Z) := Ok coords.
Definition tet_coords : list Z := [3; 0; 0; 1; 0; 0; 1; 2; 0; 0; 5; 5; 2; 2; 2].
Definition tet_globals (d : Z) : list Z := if d =? 0 then [40; 30; 20; 10; 0] else if d =? 1 then [8; 8; 7; 7; 6; 6; 5; 5; 4] else if d =? 2 then [1; 2; 3; 4; 5; 6; 7] else [9; 3].
Definition numbered_tags : tmesh :=
  mk_tmesh 3 [5; 9; 7; 2] [[global_of (tet_globals 0); mk_tag (name_of "coordinates") OMEGA_H_F64 3 (Some tet_coords)]; [global_of (tet_globals 1)]; [global_of (tet_globals 2)]; [global_of (tet_globals 3); at_tets]].
Definition with_tets (f : tagged_mesh -> res (option tagged_mesh)) : res (option tagged_mesh) :=
  o <- tets_adj ;; match o with Some a => f (mk_tagged a numbered_tags) | None => Ok None end.

Lemma axes_give_keys : gives_keys by_axes.
Proof. intros coords dim n _ L. exists coords. split; [reflexivity|exact L]. Qed.
Lemma numbered_well_tagged : well_tagged tets numbered_tags.
Proof.
  split; [reflexivity|]. split; [reflexivity|]. split; [reflexivity|]. split; [change (t_dim tets) with 3; lia|]. intros d Hd. change (t_dim tets) with 3 in Hd. assert (d = 0 \/ d = 1 \/ d = 2 \/ d = 3) as [->|[->|[->| ->]]] by lia.
  all: split; [reflexivity|]; eexists; split; [reflexivity|]; split; [vm_compute; discriminate|]; split; [cbn [map tag_name global_of at_tets]; repeat (apply NoDup_cons; [intros H; repeat (destruct H as [H|H]; [discriminate|]); destruct H|]); constructor|].
  all: intros t H; repeat (destruct H as [<-|H]; [split; [discriminate|]; split; [cbn; lia|]; split; [cbn; auto|]; eexists; split; reflexivity|]); destruct H.
Qed.
Lemma numbered_globals : has_globals 3 numbered_tags /\ globals_are 3 numbered_tags tet_globals.
Proof.
  split; intros d Hd; assert (d = 0 \/ d = 1 \/ d = 2 \/ d = 3) as [->|[->|[->| ->]]] by lia; eexists; [eexists|eexists|eexists|eexists|..]; (split; [reflexivity|left; reflexivity]).
Qed.
