(** Meshes built from their elements are fit for splitting edges. *)
From Coq Require Import String Permutation Sorted.
From Verif Require Import Prelude M_Array P_Array M_Par M_Scan S_Scan P_Scan P_Fan S_Sort M_Sort M_Map S_Map P_Map P_Map2 M_Template S_Template P_Template M_Align S_Align P_Align M_Graph S_Graph P_Graph M_Unique S_Unique P_Unique M_Adj S_Adj P_Adj S_Transit P_Transit S_Across P_Across
  M_Match S_Match P_Match M_Tags M_MeshAdj S_MeshAdj P_MeshAdj P_MeshAdj2 P_MeshAdj3 M_Build S_Build P_Build P_Box S_Unmap P_Unmap P_Mark P_Coarsen
  M_Modify S_Modify P_Modify P_Modify2 S_Swap3d S_Swap2d S_Coarsen M_Refine S_Refine P_Refine P_SwapTopo M_RefineMesh S_RefineMesh S_Rebuild P_Rebuild P_Rebuild2 P_Rebuild3 P_RefineMesh1 P_RefineMesh2 P_RefineMesh3 P_RefineMesh4 P_RefineMesh5 P_RefineMesh6 P_RefineMesh7 P_RefineMesh8.
Local Open Scope Z_scope.


Lemma edge_in_face u : 0 <= u < simplex_degree 3 1 -> exists w, 0 <= w < simplex_degree 3 2 /\ incl (side_verts OMEGA_H_SIMPLEX 3 1 u) (side_verts OMEGA_H_SIMPLEX 3 2 w).
Proof.
  intros Hu. assert (forallb (fun u => existsb (fun w => forallb (fun x => existsb (Z.eqb x) (side_verts OMEGA_H_SIMPLEX 3 2 w)) (side_verts OMEGA_H_SIMPLEX 3 1 u)) (zrange (simplex_degree 3 2))) (zrange (simplex_degree 3 1)) = true) as H by (vm_compute; reflexivity).
  rewrite forallb_forall in H. specialize (H u ltac:(apply in_zrange; exact Hu)). apply existsb_exists in H as (w & Hw & H). exists w. split; [apply in_zrange; exact Hw|]. intros x Hx. rewrite forallb_forall in H. specialize (H x Hx). apply existsb_exists in H as (y & Iy & E). apply Z.eqb_eq in E. subst. exact Iy.
Qed.
Lemma zget_list_incl (hrow vs vs' row row' : list Z) : incl vs vs' -> Forall2 (fun v x => zget hrow v = Ok x) vs row -> Forall2 (fun v x => zget hrow v = Ok x) vs' row' -> incl row row'.
Proof.
  intros I F F' x Hx. destruct (zget_list_in _ _ _ _ F Hx) as (v & Iv & Ev). destruct (Forall2_in_l _ _ _ v F' (I v Iv)) as (y & Iy & Ey). congruence.
Qed.
Lemma built_simplicial dim ev2v nverts T : topology_of OMEGA_H_SIMPLEX dim ev2v nverts T ->
  (forall e e' row row', row_is (dim + 1) ev2v e row -> row_is (dim + 1) ev2v e' row' -> Permutation row row' -> e = e') -> simplicial T.
Proof.
  intros (V & Ef & Ed & En & Ev & SO) HD. pose proof (v_dim T V) as D3. assert (forall d, 1 <= d <= 3 -> element_degree OMEGA_H_SIMPLEX d 0 = d + 1) as DG by (intros d Hd; assert (d = 1 \/ d = 2 \/ d = 3) as [->|[->| ->]] by lia; reflexivity).
  constructor; [exact Ef| |].
  - intros d e e' row row' Hd R R' P. rewrite ent_high in R, R' by lia. destruct (Z.eq_dec d dim) as [->|].
    + rewrite Ev in R, R'. exact (HD e e' row row' R R' P).
    + destruct (SO d ltac:(lia)) as [S1 S2]. rewrite (DG d) in S1, S2 by lia. destruct (S1 e row R) as (h & u & SD). destruct (S2 h u row SD) as (x & _ & Hx). rewrite (Hx e), (Hx e'); [reflexivity| |].
      * exists row'. split; [exact R'|]. apply perm_polygon; [apply Permutation_sym, P|rewrite (proj1 R'); lia].
      * exists row. split; [exact R|]. apply perm_polygon; [apply Permutation_refl|rewrite (proj1 R); lia].
  - intros d e row Hd R. rewrite ent_high in R by lia. destruct (SO d ltac:(lia)) as [S1 _]. rewrite (DG d) in S1 by lia. destruct (S1 e row R) as (h & u & hrow & Rh & Hu & F2). rewrite (DG dim) in Rh by lia. destruct (Z.eq_dec (d + 1) dim) as [E|].
    + exists h, hrow. split; [apply ent_high; [lia|]; rewrite E, Ev; exact Rh|]. intros x Hx. destruct (zget_list_in _ _ _ _ F2 Hx) as (v & _ & Exv). eapply zget_In, Exv.
    + assert (d = 1 /\ dim = 3) as [-> ->] by lia. change (element_degree OMEGA_H_SIMPLEX 3 1) with (simplex_degree 3 1) in Hu. destruct (edge_in_face u Hu) as (w & Hw & I). destruct (SO 2 ltac:(lia)) as [_ S2].
      destruct (side_exists OMEGA_H_SIMPLEX 3 2 ev2v h w hrow ltac:(lia) ltac:(lia) Rh Hw) as (srow & SD). destruct (S2 h w srow SD) as (x & (xrow & Rx & Px) & _). exists x, xrow. split; [apply ent_high; [lia|]; exact Rx|].
      destruct SD as (hr & Rh' & _ & F3). assert (hr = hrow) as -> by (apply (row_is_unique _ _ _ _ _ Rh' Rh)). intros y Hy. eapply Permutation_in; [apply Permutation_sym, polygon_perm, Px|]. apply (zget_list_incl hrow _ _ row srow I F2 F3 y Hy).
Qed.
