(** Example data for C76 and C77: two tetrahedra glued along a face, an edge of each split. *)
From Coq Require Import String Permutation Sorted.
From Verif Require Import Prelude M_Array P_Array M_Par M_Scan S_Scan P_Scan P_Fan S_Sort M_Sort M_Map S_Map P_Map P_Map2 M_Template S_Template P_Template M_Align S_Align P_Align M_Graph S_Graph P_Graph M_Unique S_Unique P_Unique M_Adj S_Adj P_Adj S_Transit P_Transit S_Across P_Across
  M_Match S_Match P_Match M_Tags M_MeshAdj S_MeshAdj P_MeshAdj P_MeshAdj2 P_MeshAdj3 M_Build S_Build P_Build P_Box S_Unmap P_Unmap P_Mark P_Coarsen
  M_Modify S_Modify P_Modify P_Modify2 S_Swap3d S_Swap2d S_Coarsen M_Refine S_Refine P_Refine P_SwapTopo M_RefineMesh S_RefineMesh S_Rebuild P_Rebuild P_Rebuild2 P_Rebuild3 P_RefineMesh1 P_RefineMesh2 P_RefineMesh3 P_RefineMesh4 P_RefineMesh5 P_RefineMesh6 P_RefineMesh7 P_RefineMesh8 X_MeshAdj X_Unmap.
Local Open Scope Z_scope.


Definition long_turns : chance := mk_chance (fun _ _ _ => 7) (fun _ _ => serially 60 3) (fun _ _ => serially 60 3) (fun _ _ => false).
(** edges 0-1 and 4-2 *)
Definition two_edges : list Z := [0; 7].
Definition refine_tets : res (option (amesh * amesh * list (numbering * list Z))) := o <- tets_adj ;; match o with Some m => refine_element_based long_turns long_turns m two_edges | None => Ok None end.
(** one number for every entity of dimension [d]: [100 * d + e] *)
Definition tets_ids (d : Z) : list Z := map (fun e => 100 * d + e) (zrange (t_nents tets d)).
Definition refined_ids (d : Z) : res (list Z) := o <- refine_tets ;; match o with Some (old, _, info) => i <- zget info d ;; inherit old two_edges 1 tets_ids d (snd i) (fst i) | None => UB end.

Definition tets_rows (d : Z) : list (list Z) := map (fun e => match verts_of (d + 1) (tets_verts d) e with Ok r => r | _ => [] end) (zrange (t_nents tets d)).
Lemma tets_row d e row : 1 <= d <= 3 -> ent_verts tets d e row -> zget (tets_rows d) e = Ok row /\ 0 <= e < t_nents tets d.
Proof.
  intros Hd R. assert (forallb (fun d => forallb (fun e => match verts_of (d + 1) (tets_verts d) e with Ok _ => true | _ => false end) (zrange (t_nents tets d))) (zfromto 1 4) = true) as H by (vm_compute; reflexivity). rewrite forallb_forall in H. specialize (H d ltac:(apply in_zfromto; lia)). rewrite forallb_forall in H.
  rewrite ent_high in R by lia. assert (0 <= e < t_nents tets d) as He. { apply (row_is_range (d + 1) (t_verts tets d) (t_nents tets d) e row ltac:(lia)); [|exact R]. assert (d = 1 \/ d = 2 \/ d = 3) as [->|[->| ->]] by lia; reflexivity. }
  split; [|exact He]. specialize (H e ltac:(apply in_zrange; exact He)). unfold tets_rows. rewrite zget_map, zget_zrange by exact He. cbn [bind]. destruct (verts_of (d + 1) (tets_verts d) e) as [vs| |] eqn:E; [|discriminate|discriminate]. apply verts_row in E; [|lia]. rewrite (row_is_unique _ _ _ _ _ R E). reflexivity.
Qed.
Definition has (row : list Z) (x : Z) : bool := existsb (Z.eqb x) row.
Lemma has_in row x : has row x = true <-> In x row.
Proof. unfold has. rewrite existsb_exists. split; [intros (y & I & E); apply Z.eqb_eq in E; subst; exact I|intros I; exists x; split; [exact I|apply Z.eqb_refl]]. Qed.
Definition covers_row (row row' : list Z) : bool := forallb (has row') row.
Lemma covers_incl row row' : covers_row row row' = true <-> incl row row'.
Proof. unfold covers_row. rewrite forallb_forall. split; intros H x Hx; apply has_in, H, Hx. Qed.
Lemma tets_simplicial : simplicial tets.
Proof.
  constructor; [reflexivity| |].
  - change (t_dim tets) with 3. intros d e e' row row' Hd R R' P. destruct (tets_row d e row Hd R) as [E He]. destruct (tets_row d e' row' Hd R') as [E' He'].
    assert (forallb (fun d => forallb (fun e => forallb (fun e' => match zget (tets_rows d) e, zget (tets_rows d) e' with Ok row, Ok row' => orb (e =? e') (negb (covers_row row row')) | _, _ => false end) (zrange (t_nents tets d))) (zrange (t_nents tets d))) (zfromto 1 4) = true) as H by (vm_compute; reflexivity).
    rewrite forallb_forall in H. specialize (H d ltac:(apply in_zfromto; lia)). rewrite forallb_forall in H. specialize (H e ltac:(apply in_zrange; exact He)). rewrite forallb_forall in H. specialize (H e' ltac:(apply in_zrange; exact He')). rewrite E, E' in H. apply orb_prop in H as [H|H]; [apply Z.eqb_eq, H|]. exfalso. apply negb_true_iff in H. assert (covers_row row row' = true) as C by (apply covers_incl; intros x; apply Permutation_in, P). congruence.
  - change (t_dim tets) with 3. intros d e row Hd R. destruct (tets_row d e row ltac:(lia) R) as [E He].
    assert (forallb (fun d => forallb (fun row => existsb (fun e' => match verts_of (d + 1 + 1) (tets_verts (d + 1)) e' with Ok row' => covers_row row row' | _ => false end) (zrange (t_nents tets (d + 1)))) (tets_rows d)) (zfromto 1 3) = true) as H by (vm_compute; reflexivity).
    rewrite forallb_forall in H. specialize (H d ltac:(apply in_zfromto; lia)). rewrite forallb_forall in H. specialize (H row (zget_In _ _ _ E)). apply existsb_exists in H as (e' & _ & H). destruct (verts_of (d + 1 + 1) (tets_verts (d + 1)) e') as [row'| |] eqn:V; [|discriminate|discriminate]. apply verts_row in V; [|lia]. exists e', row'. split; [apply ent_high; [lia|exact V]|apply covers_incl, H].
Qed.
Lemma tets_splittable : splittable tets two_edges.
Proof.
  constructor.
  - repeat constructor; cbn; intuition lia.
  - change (t_nents tets 1) with 9. intros k [<-|[<-|[]]]; lia.
  - change (t_dim tets) with 3. intros e k k' Ik Ik' (row & a & b & R & Rk & Ia & Ib) (row' & a' & b' & R' & Rk' & Ia' & Ib'). pose proof (ent_unique tets 3 e row row' ltac:(lia) R R') as <-. destruct (tets_row 3 e row ltac:(lia) R) as [E He]. destruct (tets_row 1 k _ ltac:(lia) Rk) as [Ek _]. destruct (tets_row 1 k' _ ltac:(lia) Rk') as [Ek' _].
    assert (forallb (fun row => forallb (fun k => forallb (fun k' => match zget (tets_rows 1) k, zget (tets_rows 1) k' with Ok ab, Ok ab' => orb (k =? k') (negb (andb (covers_row ab row) (covers_row ab' row))) | _, _ => false end) two_edges) two_edges) (tets_rows 3) = true) as H by (vm_compute; reflexivity).
    rewrite forallb_forall in H. specialize (H row (zget_In _ _ _ E)). rewrite forallb_forall in H. specialize (H k Ik). rewrite forallb_forall in H. specialize (H k' Ik'). rewrite Ek, Ek' in H. apply orb_prop in H as [H|H]; [apply Z.eqb_eq, H|]. exfalso. apply negb_true_iff in H. assert (covers_row [a; b] row = true) as C1 by (apply covers_incl; intros x [<-|[<-|[]]]; assumption). assert (covers_row [a'; b'] row = true) as C2 by (apply covers_incl; intros x [<-|[<-|[]]]; assumption). rewrite C1, C2 in H. discriminate.
Qed.
Lemma tets_replaced : exists old n info r PV, refine_tets = Ok (Some (old, n, info)) /\ mesh_of tets old /\ fits tets r PV /\ (forall d, 0 <= d <= 3 -> 0 <= nnew (r d)) /\ rebuild long_turns old r PV = Ok (Some n).
Proof.
  unfold refine_tets. destruct tets_mesh as (m & Em & M). assert (match tets_adj with Ok (Some m) => match refine_element_based long_turns long_turns m two_edges with Ok (Some _) => true | _ => false end | _ => false end = true) as H by (vm_compute; reflexivity).
  rewrite Em in *. cbn [bind]. destruct (refine_element_based long_turns long_turns m two_edges) as [[[[old n] info]|]| |] eqn:E; try discriminate. destruct (refines_replaces tets tets_valid tets_simplicial m M two_edges tets_splittable _ _ old n info E) as (MO & r & PV & HF & HN & ER). exists old, n, info, r, PV. auto.
Qed.
Lemma replaced_right c T old r PV : valid_topology T -> mesh_of T old -> fits T r PV -> (forall d, 0 <= d <= t_dim T -> 0 <= nnew (r d)) ->
  exists o, rebuild c old r PV = Ok o /\ forall m', o = Some m' -> exists T', valid_topology T' /\ rebuilt T r PV T' /\ mesh_of T' m'.
Proof. intros HT HM HF HN. destruct (rebuild_all T HT r PV HF HN c old (mesh_ready T old HT HM)) as (o & E & H & _). exists o. auto. Qed.
Lemma replaced_finishes mem T old r PV : valid_topology T -> mesh_of T old -> fits T r PV -> (forall d, 0 <= d <= t_dim T -> 0 <= nnew (r d)) ->
  exists first second m', rebuild (mk_chance mem first second (fun _ _ => false)) old r PV = Ok (Some m').
Proof.
  intros HT HM HF HN. destruct (rebuild_schedules T HT r PV HF HN mem) as (first & second & FS). specialize (FS (fun _ _ => false)). cbv zeta in FS. exists first, second. destruct (rebuild_all T HT r PV HF HN (mk_chance mem first second (fun _ _ => false)) old (mesh_ready T old HT HM)) as (o & E & _ & H). destruct o as [m'|]; [|destruct (H FS); reflexivity]. eauto.
Qed.
