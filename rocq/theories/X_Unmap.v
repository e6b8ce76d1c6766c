(** Example data for C69: the two tetrahedra of X_MeshAdj with tags; one of them is kept, or all entities are reversed. *)
From Coq Require Import String Permutation.
From Verif Require Import Prelude S_Map M_Tags M_Par M_Template M_Adj M_MeshAdj S_MeshAdj P_MeshAdj X_MeshAdj S_Build M_Unmap S_Unmap P_Renumber.
Local Open Scope Z_scope.

Definition at_verts : tag := mk_tag (name_of "xy") OMEGA_H_F64 2 (Some [0; 10; 20; 30; 40; 50; 60; 70; 80; 90]).
Definition at_tets : tag := mk_tag (name_of "id") OMEGA_H_I32 1 (Some [7; 8]).
Definition no_values : tag := mk_tag (name_of "nothing") OMEGA_H_I32 1 None.
Definition tets_tags (l : list tag) : tmesh := mk_tmesh 3 [5; 9; 7; 2] [[at_verts]; []; []; l].
Definition tets_adj : res (option amesh) := m <- new_mesh OMEGA_H_SIMPLEX 3 5 ;; run_aevents m lazy.
Definition unmap_tets (l : list tag) (maps : Z -> list Z) : res (option tagged_mesh) :=
  o <- tets_adj ;; match o with Some a => unmap_mesh in_turn (mk_tagged a (tets_tags l)) maps | None => Ok None end.

(** the second tetrahedron, with its parts in some order *)
Definition second_tet (d : Z) : list Z := if d =? 0 then [4; 1; 2; 3] else if d =? 1 then [8; 7; 6; 5; 4; 3] else if d =? 2 then [3; 4; 5; 6] else [1].
(** without one of the faces *)
Definition no_face (d : Z) : list Z := if d =? 2 then [4; 5; 6] else second_tet d.
(** everything, last first *)
Definition reversed (d : Z) : list Z := rev (zrange (t_nents tets d)).

Lemma tets_mesh : exists m, tets_adj = Ok (Some m) /\ mesh_of tets m.
Proof.
  unfold tets_adj. eexists. split; [vm_compute; reflexivity|]. do 2 eexists. split; [reflexivity|]. split; [exact lazy_builds|]. split; [vm_compute; reflexivity|]. intros d Hd. change (t_dim tets) with 3 in Hd.
  assert (d = 0 \/ d = 1 \/ d = 2 \/ d = 3) as [->|[->|[->| ->]]] by lia; vm_compute; discriminate.
Qed.
Lemma tets_well_tagged : well_tagged tets (tets_tags [at_tets]).
Proof.
  split; [reflexivity|]. split; [reflexivity|]. split; [reflexivity|]. split; [change (t_dim tets) with 3; lia|]. intros d Hd. change (t_dim tets) with 3 in Hd. assert (d = 0 \/ d = 1 \/ d = 2 \/ d = 3) as [->|[->|[->| ->]]] by lia.
  all: split; [reflexivity|]; eexists; split; [reflexivity|]; split; [vm_compute; discriminate|].
  2, 3: split; [constructor|intros ? []].
  - split; [repeat constructor; intros []|]. intros t [<-|[]]. split; [discriminate|]. split; [cbn; lia|]. split; [cbn; auto|]. eexists. split; reflexivity.
  - split; [repeat constructor; intros []|]. intros t [<-|[]]. split; [discriminate|]. split; [cbn; lia|]. split; [cbn; auto|]. eexists. split; reflexivity.
Qed.
Lemma second_picked : picks tets second_tet.
Proof.
  split.
  - intros d Hd. change (t_dim tets) with 3 in Hd. assert (d = 0 \/ d = 1 \/ d = 2 \/ d = 3) as [->|[->|[->| ->]]] by lia; (split; [cbn; repeat constructor; cbn; intuition lia|]); cbn; intros e He; intuition lia.
  - intros d e w s Hd He Hw Es. assert (forallb (fun d => forallb (fun e => forallb (fun w => match zget (adj_ab2b (t_down tets d)) (e * element_degree (t_family tets) d (d - 1) + w) with Ok s => existsb (Z.eqb s) (second_tet (d - 1)) | _ => true end)
      (zrange (element_degree (t_family tets) d (d - 1)))) (second_tet d)) (zfromto 1 4) = true) as H by (vm_compute; reflexivity). rewrite forallb_forall in H. specialize (H d ltac:(apply in_zfromto; change (t_dim tets) with 3 in Hd; lia)).
    rewrite forallb_forall in H. specialize (H e He). rewrite forallb_forall in H. specialize (H w ltac:(apply in_zrange; exact Hw)). rewrite Es in H. apply existsb_exists in H as (x & Hx & Ex). apply Z.eqb_eq in Ex as ->. exact Hx.
Qed.
Lemma reversed_reorders : reorders tets reversed.
Proof.
  intros d Hd. unfold reversed. assert (0 <= t_nents tets d) as N by (cbn; destruct (d =? 3), (d =? 2), (d =? 1); lia). assert (zlen (rev (zrange (t_nents tets d))) = t_nents tets d) as L by (unfold zlen; rewrite rev_length; apply zlen_zrange, N).
  split; [exact L|]. unfold is_perm. rewrite L. symmetry. apply Permutation_rev.
Qed.
