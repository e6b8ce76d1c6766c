(** Example data for C80: an edge inside four tetrahedra and one inside three, swapped. *)
From Coq Require Import String Permutation Sorted.
From Verif Require Import Prelude M_Array P_Array M_Par M_Scan S_Scan P_Scan P_Fan S_Sort M_Sort M_Map S_Map P_Map P_Map2 M_Template S_Template P_Template M_Align S_Align P_Align M_Graph S_Graph P_Graph M_Unique S_Unique P_Unique M_Adj S_Adj P_Adj S_Transit P_Transit S_Across P_Across
  M_Match S_Match P_Match M_Tags M_MeshAdj S_MeshAdj P_MeshAdj P_MeshAdj2 P_MeshAdj3 M_Build S_Build P_Build P_Box S_Unmap P_Unmap P_Mark P_Coarsen P_Mark
  M_Modify S_Modify P_Modify P_Modify2 M_SwapTables M_Swap3d S_Swap3d S_SwapMesh P_SwapTables P_Loop P_SwapVolume P_SwapKey S_Coarsen M_Refine S_Refine P_Refine P_SwapTopo M_RefineMesh S_RefineMesh S_Rebuild P_Rebuild P_Rebuild2 P_Rebuild3 P_RefineMesh1 P_RefineMesh2 P_RefineMesh3 P_RefineMesh4 P_RefineMesh5 P_RefineMesh6 P_RefineMesh7 P_RefineMesh8 S_Patch P_Patch M_Flip P_Flip2 P_Flip3 P_Flip4 P_Flip5 S_Recut M_Recut P_Recut1 P_Recut2 P_Recut3 P_Recut4 P_Recut5 P_Recut6 P_Parents M_ArrayOps X_MeshAdj X_RefineMesh.
Local Open Scope Z_scope.

Definition knot_verts (d : Z) : list Z :=
  if d =? 3 then [0; 1; 2; 3; 0; 1; 3; 4; 0; 1; 4; 5; 0; 1; 5; 2; 2; 6; 0; 3; 2; 6; 3; 7; 2; 6; 7; 0]
  else if d =? 2 then [0; 1; 2; 0; 3; 1; 0; 4; 1; 0; 5; 1; 0; 2; 3; 5; 0; 2; 2; 6; 0; 7; 2; 0; 3; 0; 4; 6; 0; 3; 4; 0; 5; 6; 7; 0; 1; 2; 3; 1; 5; 2; 1; 3; 4; 1; 4; 5; 2; 3; 6; 3; 2; 7; 2; 7; 6; 6; 3; 7]
  else [1; 0; 2; 0; 0; 3; 4; 0; 0; 5; 0; 6; 7; 0; 2; 1; 1; 3; 1; 4; 5; 1; 3; 2; 5; 2; 6; 2; 2; 7; 3; 4; 6; 3; 3; 7; 4; 5; 7; 6].
Definition knot_down (d : Z) : adj :=
  if d =? 3 then mk_adj [] [0; 1; 12; 4; 1; 2; 14; 8; 2; 3; 15; 10; 3; 0; 13; 5; 6; 16; 9; 4; 16; 18; 19; 17; 18; 6; 11; 7] (Some [1; 1; 0; 5; 0; 1; 0; 0; 0; 1; 0; 0; 0; 0; 0; 0; 1; 1; 0; 0; 0; 1; 0; 0; 0; 0; 0; 0])
  else if d =? 2 then mk_adj [] [0; 7; 1; 2; 8; 0; 3; 9; 0; 4; 10; 0; 1; 11; 2; 4; 1; 12; 13; 5; 1; 14; 1; 6; 2; 3; 15; 5; 2; 16; 3; 4; 18; 19; 6; 5; 7; 11; 8; 10; 12; 7; 8; 15; 9; 9; 18; 10; 11; 16; 13; 11; 14; 17; 14; 19; 13; 16; 17; 19]
    (Some [2; 2; 0; 0; 2; 0; 2; 2; 0; 0; 0; 0; 2; 2; 2; 2; 2; 2; 2; 2; 2; 2; 0; 2; 2; 2; 2; 2; 0; 2; 0; 0; 2; 2; 0; 0; 2; 2; 2; 2; 0; 0; 0; 0; 2; 0; 0; 0; 2; 2; 0; 0; 0; 2; 0; 0; 0; 0; 0; 0])
  else mk_adj [] (knot_verts 1) None.
Definition knot : topology := mk_topology OMEGA_H_SIMPLEX 3 (fun d => if d =? 3 then 7 else if d =? 2 then 20 else if d =? 1 then 20 else 8) knot_verts knot_down.
Definition knot_events : list aevent := [SetEnts 1 (knot_down 1); SetEnts 2 (knot_down 2); SetEnts 3 (knot_down 3)].
Definition knot_adj : res (option amesh) := m <- new_mesh OMEGA_H_SIMPLEX 3 8 ;; run_aevents m knot_events.
(** edge 1-0, inside four tets, is to be recut by the second configuration; edge 6-2, inside three, by the only one *)
Definition knot_keys : list Z := [0; 13].
Definition knot_configs : list Z := 1 :: repeat 0 19.
Definition knot_turns : chance := mk_chance (fun _ _ _ => 7) (fun _ _ => serially 60 3) (fun _ _ => serially 60 3) (fun _ _ => false).
Definition swap_knot : res (option (amesh * amesh * list (numbering * list Z))) := o <- knot_adj ;; match o with Some m => swap3d_element_based knot_turns knot_turns m knot_keys knot_configs | None => Ok None end.
Definition knot_ids (d : Z) : list Z := map (fun e => 100 * d + e) (zrange (t_nents knot d)).
Definition recut_ids (d : Z) : res (list Z) := o <- swap_knot ;; match o with Some (old, _, info) => i <- zget info (d - 1) ;; inherit_swap knot_keys 1 knot_ids d (snd i) (fst i) | None => UB end.

Lemma knot_valid : valid_topology knot.
Proof.
  assert (forall d, 1 <= d <= 3 -> d = 1 \/ d = 2 \/ d = 3) as C3 by lia.
  assert (forall d, 1 <= d <= 3 -> zlen (knot_verts d) = t_nents knot d * element_degree OMEGA_H_SIMPLEX d 0 /\ rows_distinct (element_degree OMEGA_H_SIMPLEX d 0) (knot_verts d) /\ forall v, In v (knot_verts d) -> 0 <= v < 8) as V.
  { intros d Hd. destruct (C3 d Hd) as [->|[->| ->]]; (split; [vm_compute; reflexivity|split]).
    1: apply (rows_distinct_check _ _ 20); vm_compute; reflexivity. 2: apply (rows_distinct_check _ _ 20); vm_compute; reflexivity. 3: apply (rows_distinct_check _ _ 7); vm_compute; reflexivity.
    all: match goal with |- forall v, In v ?l -> _ => assert (forallb (fun v => andb (0 <=? v) (v <? 8)) l = true) as H by (vm_compute; reflexivity); rewrite forallb_forall in H; intros v Hv; specialize (H v Hv); apply andb_prop in H as [H1 H2]; apply Z.leb_le in H1; apply Z.ltb_lt in H2; lia end. }
  split.
  - cbn. lia.
  - cbn. intros d Hd. destruct (d =? 3); [lia|]. destruct (d =? 2); [lia|]. destruct (d =? 1); lia.
  - cbn. exact V.
  - reflexivity.
  - cbn [t_dim t_family t_verts t_down t_nents knot]. intros d Hd. assert (d = 2 \/ d = 3) as [->| ->] by lia.
    + destruct (V 2 ltac:(lia)) as (V1 & V2 & V3). destruct (unique_reflect (knot_verts 2) (knot_verts 1) OMEGA_H_SIMPLEX 2 1 20 8 (fun _ => 7) (serially 60 3) (serially 60 3)) as (o & E & Ho); try lia; try assumption; [vm_compute; reflexivity|].
      do 2 eexists. split; [reflexivity|]. split; [vm_compute; reflexivity|]. split; [vm_compute; reflexivity|]. unfold reflects; change (2 - 1) with 1; change (3 - 1) with 2. match goal with |- forall h u row, _ -> exists l code lrow, zget ?a _ = _ /\ zget ?b _ = _ /\ _ => refine (proj2 (proj2 (Ho a b _))) end. vm_compute in E. injection E as <-. reflexivity.
    + destruct (V 3 ltac:(lia)) as (V1 & V2 & V3). destruct (unique_reflect (knot_verts 3) (knot_verts 2) OMEGA_H_SIMPLEX 3 2 7 8 (fun _ => 7) (serially 60 3) (serially 60 3)) as (o & E & Ho); try lia; try assumption; [vm_compute; reflexivity|].
      do 2 eexists. split; [reflexivity|]. split; [vm_compute; reflexivity|]. split; [vm_compute; reflexivity|]. unfold reflects; change (2 - 1) with 1; change (3 - 1) with 2. match goal with |- forall h u row, _ -> exists l code lrow, zget ?a _ = _ /\ zget ?b _ = _ /\ _ => refine (proj2 (proj2 (Ho a b _))) end. vm_compute in E. injection E as <-. reflexivity.
Qed.
Lemma knot_mesh : exists m, knot_adj = Ok (Some m) /\ mesh_of knot m.
Proof.
  unfold knot_adj. eexists. split; [vm_compute; reflexivity|]. eexists. exists knot_events. split; [reflexivity|]. split; [|split; [vm_compute; reflexivity|]].
  - intros d a [E|[E|[E|[]]]]; injection E as <- <-; reflexivity.
  - intros d Hd. change (t_dim knot) with 3 in Hd. assert (d = 0 \/ d = 1 \/ d = 2 \/ d = 3) as [->|[->|[->| ->]]] by lia; vm_compute; discriminate.
Qed.
Definition knot_rows (d : Z) : list (list Z) := map (fun e => match verts_of (d + 1) (knot_verts d) e with Ok r => r | _ => [] end) (zrange (t_nents knot d)).
Lemma knot_row d e row : 1 <= d <= 3 -> ent_verts knot d e row -> zget (knot_rows d) e = Ok row /\ 0 <= e < t_nents knot d.
Proof.
  intros Hd R. assert (forallb (fun d => forallb (fun e => match verts_of (d + 1) (knot_verts d) e with Ok _ => true | _ => false end) (zrange (t_nents knot d))) (zfromto 1 4) = true) as H by (vm_compute; reflexivity). rewrite forallb_forall in H. specialize (H d ltac:(apply in_zfromto; lia)). rewrite forallb_forall in H.
  rewrite ent_high in R by lia. assert (0 <= e < t_nents knot d) as He. { apply (row_is_range (d + 1) (t_verts knot d) (t_nents knot d) e row ltac:(lia)); [|exact R]. assert (d = 1 \/ d = 2 \/ d = 3) as [->|[->| ->]] by lia; reflexivity. }
  split; [|exact He]. specialize (H e ltac:(apply in_zrange; exact He)). unfold knot_rows. rewrite zget_map, zget_zrange by exact He. cbn [bind]. destruct (verts_of (d + 1) (knot_verts d) e) as [vs| |] eqn:E; [|discriminate|discriminate]. apply verts_row in E; [|lia]. rewrite (row_is_unique _ _ _ _ _ R E). reflexivity.
Qed.
Lemma row_knot d e row : 1 <= d <= 3 -> verts_of (d + 1) (knot_verts d) e = Ok row -> ent_verts knot d e row.
Proof. intros Hd E. apply ent_high; [lia|]. apply verts_row; [lia|exact E]. Qed.
Lemma knot_simplicial : simplicial knot.
Proof.
  constructor; [reflexivity| |].
  - change (t_dim knot) with 3. intros d e e' row row' Hd R R' P. destruct (knot_row d e row Hd R) as [E He]. destruct (knot_row d e' row' Hd R') as [E' He'].
    assert (forallb (fun d => forallb (fun e => forallb (fun e' => match zget (knot_rows d) e, zget (knot_rows d) e' with Ok row, Ok row' => orb (e =? e') (negb (covers_row row row')) | _, _ => false end) (zrange (t_nents knot d))) (zrange (t_nents knot d))) (zfromto 1 4) = true) as H by (vm_compute; reflexivity).
    rewrite forallb_forall in H. specialize (H d ltac:(apply in_zfromto; lia)). rewrite forallb_forall in H. specialize (H e ltac:(apply in_zrange; exact He)). rewrite forallb_forall in H. specialize (H e' ltac:(apply in_zrange; exact He')). rewrite E, E' in H. apply orb_prop in H as [H|H]; [apply Z.eqb_eq, H|]. exfalso. apply negb_true_iff in H. assert (covers_row row row' = true) as C by (apply covers_incl; intros x; apply Permutation_in, P). congruence.
  - change (t_dim knot) with 3. intros d e row Hd R. destruct (knot_row d e row ltac:(lia) R) as [E He].
    assert (forallb (fun d => forallb (fun row => existsb (fun e' => match verts_of (d + 1 + 1) (knot_verts (d + 1)) e' with Ok row' => covers_row row row' | _ => false end) (zrange (t_nents knot (d + 1)))) (knot_rows d)) (zfromto 1 3) = true) as H by (vm_compute; reflexivity).
    rewrite forallb_forall in H. specialize (H d ltac:(apply in_zfromto; lia)). rewrite forallb_forall in H. specialize (H row (zget_In _ _ _ E)). apply existsb_exists in H as (e' & _ & H). destruct (verts_of (d + 1 + 1) (knot_verts (d + 1)) e') as [row'| |] eqn:V; [|discriminate|discriminate]. apply verts_row in V; [|lia]. exists e', row'. split; [apply ent_high; [lia|exact V]|apply covers_incl, H].
Qed.
Lemma knot_has e k : has_edge knot 3 e k -> exists row ab, zget (knot_rows 3) e = Ok row /\ zget (knot_rows 1) k = Ok ab /\ covers_row ab row = true /\ 0 <= e < 7.
Proof.
  intros (row & a & b & R & Rk & Ia & Ib). destruct (knot_row 3 e row ltac:(lia) R) as [E He]. destruct (knot_row 1 k _ ltac:(lia) Rk) as [Ek _]. exists row, [a; b]. split; [exact E|]. split; [exact Ek|]. split; [apply covers_incl; intros x [<-|[<-|[]]]; assumption|exact He].
Qed.
Lemma knot_splittable : splittable knot knot_keys.
Proof.
  constructor.
  - repeat constructor; cbn; intuition lia.
  - change (t_nents knot 1) with 20. intros k [<-|[<-|[]]]; lia.
  - change (t_dim knot) with 3. intros e k k' Ik Ik' H H'. apply knot_has in H as (row & ab & E1 & E2 & C & _). apply knot_has in H' as (row' & ab' & E1' & E2' & C' & _). assert (row' = row) as -> by congruence.
    assert (forallb (fun row => forallb (fun k => forallb (fun k' => match zget (knot_rows 1) k, zget (knot_rows 1) k' with Ok ab, Ok ab' => orb (k =? k') (negb (andb (covers_row ab row) (covers_row ab' row))) | _, _ => false end) knot_keys) knot_keys) (knot_rows 3) = true) as H by (vm_compute; reflexivity).
    rewrite forallb_forall in H. specialize (H row (zget_In _ _ _ E1)). rewrite forallb_forall in H. specialize (H k Ik). rewrite forallb_forall in H. specialize (H k' Ik'). rewrite E2, E2' in H. apply orb_prop in H as [H|H]; [apply Z.eqb_eq, H|]. rewrite C, C' in H. discriminate.
Qed.
Lemma knot_of e : has_edge knot 3 e 0 -> e = 0 \/ e = 1 \/ e = 2 \/ e = 3.
Proof.
  intros H. apply knot_has in H as (row & ab & E1 & E2 & C & B). vm_compute in E2. injection E2 as <-. assert (e = 0 \/ e = 1 \/ e = 2 \/ e = 3 \/ e = 4 \/ e = 5 \/ e = 6) as [->|[->|[->|[->|[->|[->| ->]]]]]] by lia; auto; exfalso; vm_compute in E1; injection E1 as <-; discriminate.
Qed.
Lemma knot_of' e : has_edge knot 3 e 13 -> e = 4 \/ e = 5 \/ e = 6.
Proof.
  intros H. apply knot_has in H as (row & ab & E1 & E2 & C & B). vm_compute in E2. injection E2 as <-. assert (e = 0 \/ e = 1 \/ e = 2 \/ e = 3 \/ e = 4 \/ e = 5 \/ e = 6) as [->|[->|[->|[->|[->|[->| ->]]]]]] by lia; auto; exfalso; vm_compute in E1; injection E1 as <-; discriminate.
Qed.
Ltac tet_row := apply row_knot; [lia|reflexivity].
Lemma first_ring : ring_around knot 0 1 0 [3; 2; 5; 4].
Proof.
  split; [tet_row|]. split; [repeat constructor; cbn; intuition lia|]. split; [cbv; split; discriminate|]. split; [|split].
  - intros t H. apply knot_of in H as [->|[->|[->| ->]]].
    + exists 3, 2, [0; 1; 2; 3]. split; [cbn; auto|]. split; [tet_row|cbn; auto].
    + exists 4, 3, [0; 1; 3; 4]. split; [cbn; auto|]. split; [tet_row|cbn; auto].
    + exists 5, 4, [0; 1; 4; 5]. split; [cbn; auto|]. split; [tet_row|cbn; auto].
    + exists 2, 5, [0; 1; 5; 2]. split; [cbn; auto|]. split; [tet_row|cbn; auto].
  - intros x y [E|[E|[E|[E|[]]]]]; injection E as <- <-.
    + exists 0, [0; 1; 2; 3]. split; [tet_row|cbn; auto].
    + exists 3, [0; 1; 5; 2]. split; [tet_row|cbn; auto].
    + exists 2, [0; 1; 4; 5]. split; [tet_row|cbn; auto].
    + exists 1, [0; 1; 3; 4]. split; [tet_row|cbn; auto].
  - exists 0, [0; 1; 2; 3], 3, 2, [5; 4]. split; [reflexivity|]. split; [tet_row|]. split; [cbn; auto|]. intros t H. apply knot_of in H. lia.
Qed.
Lemma second_ring : ring_around knot 13 6 2 [3; 0; 7].
Proof.
  split; [tet_row|]. split; [repeat constructor; cbn; intuition lia|]. split; [cbv; split; discriminate|]. split; [|split].
  - intros t H. apply knot_of' in H as [->|[->| ->]].
    + exists 3, 0, [2; 6; 0; 3]. split; [cbn; auto|]. split; [tet_row|cbn; auto].
    + exists 7, 3, [2; 6; 3; 7]. split; [cbn; auto|]. split; [tet_row|cbn; auto].
    + exists 0, 7, [2; 6; 7; 0]. split; [cbn; auto|]. split; [tet_row|cbn; auto].
  - intros x y [E|[E|[E|[]]]]; injection E as <- <-.
    + exists 4, [2; 6; 0; 3]. split; [tet_row|cbn; auto].
    + exists 6, [2; 6; 7; 0]. split; [tet_row|cbn; auto].
    + exists 5, [2; 6; 3; 7]. split; [tet_row|cbn; auto].
  - exists 4, [2; 6; 0; 3], 3, 0, [7]. split; [reflexivity|]. split; [tet_row|]. split; [cbn; auto|]. intros t H. apply knot_of' in H. lia.
Qed.
Lemma first_cut : cut_along 4 1 [(1, 3)].
Proof.
  split; [eexists; split; [vm_compute; reflexivity|lia]|]. split.
  - split; [repeat constructor; intros []|]. split; [intros d [<-|[]]; cbv; repeat split; intuition discriminate|]. split; [|reflexivity]. intros d e [<-|[]] [<-|[]] H. unfold cross in H. cbn in H. lia.
  - eexists. split; [vm_compute; reflexivity|]. split; [intros e [<-|[]]; eauto|]. intros a b H. cbn. split.
    + intros [E|[]]. injection E as <- <-. auto.
    + intros [[E|[]]|[E|[]]]; injection E as <- <-; [auto|lia].
Qed.
Lemma second_cut : cut_along 3 0 [].
Proof.
  split; [eexists; split; [vm_compute; reflexivity|lia]|]. split.
  - split; [constructor|]. split; [intros d []|]. split; [intros d e []|reflexivity].
  - eexists. split; [vm_compute; reflexivity|]. split; [intros e []|]. intros a b H. cbn. tauto.
Qed.
Lemma knot_new k x y : In k knot_keys -> new_edge knot knot_configs k x y -> k = 0 /\ x = 2 /\ y = 4.
Proof.
  intros [<-|[<-|[]]] (e0 & e1 & l & D & a & b & (R & m & Em & (_ & TR & E & EE & NE)) & I & X & Y).
  - destruct (ring_unique _ _ _ _ _ _ _ _ first_ring R) as (<- & <- & <-). vm_compute in Em. injection Em as <-. vm_compute in EE. injection EE as <-. assert (a < b) as L by (destruct TR as (_ & Q & _); specialize (Q _ I); unfold diagonal in Q; cbn in Q; lia).
    apply (proj2 NE a b L) in I as [[Q|[]]|[Q|[]]]; injection Q as <- <-; [|lia]. vm_compute in X, Y. injection X as <-. injection Y as <-. auto.
  - destruct (ring_unique _ _ _ _ _ _ _ _ second_ring R) as (<- & <- & <-). vm_compute in Em. injection Em as <-. vm_compute in EE. injection EE as <-. assert (a < b) as L by (destruct TR as (_ & Q & _); specialize (Q _ I); unfold diagonal in Q; cbn in Q; lia).
    apply (proj2 NE a b L) in I as [[]|[]].
Qed.
Lemma knot_three k e0 e1 x y z : In k knot_keys -> ring_around knot k e0 e1 [x; y; z] -> k = 13 /\ [x; y; z] = [3; 0; 7].
Proof.
  intros [<-|[<-|[]]] R.
  - destruct (ring_unique _ _ _ _ _ _ _ _ first_ring R) as (_ & _ & Q). discriminate.
  - destruct (ring_unique _ _ _ _ _ _ _ _ second_ring R) as (_ & _ & Q). auto.
Qed.
Lemma knot_recuttable : recuttable knot knot_keys knot_configs.
Proof.
  constructor.
  - reflexivity.
  - exact knot_splittable.
  - intros k [<-|[<-|[]]]; do 4 eexists; (split; [first [apply first_ring|apply second_ring]|]); (eexists; split; [vm_compute; reflexivity|]); [apply first_cut|apply second_cut].
  - intros k x y e row Ik H R P. destruct (knot_row 1 e row ltac:(lia) R) as [E He]. exfalso. destruct (knot_new k x y Ik H) as (-> & -> & ->).
    assert (forallb (fun row => negb (covers_row row [2; 4])) (knot_rows 1) = true) as K by (vm_compute; reflexivity). rewrite forallb_forall in K. specialize (K row (zget_In _ _ _ E)). apply negb_true_iff in K.
    assert (covers_row row [2; 4] = true) as C by (apply covers_incl; intros v; apply Permutation_in, P). congruence.
  - intros k x y k' x' y' Ik Ik' H H' P. destruct (knot_new k x y Ik H) as (-> & _), (knot_new k' x' y' Ik' H') as (-> & _). reflexivity.
  - intros k e0 e1 x y z e row Ik H R P. destruct (knot_row 2 e row ltac:(lia) R) as [E He]. destruct (knot_three k e0 e1 x y z Ik H) as [_ Q]. rewrite Q in P.
    assert (forallb (fun row => negb (covers_row row [3; 0; 7])) (knot_rows 2) = true) as K by (vm_compute; reflexivity). rewrite forallb_forall in K. specialize (K row (zget_In _ _ _ E)). apply negb_true_iff in K.
    assert (covers_row row [3; 0; 7] = true) as C by (apply covers_incl; intros v; apply Permutation_in, P). congruence.
  - intros k e0 e1 x y z k' e0' e1' x' y' z' Ik Ik' H H' P. destruct (knot_three k e0 e1 x y z Ik H) as [-> _], (knot_three k' e0' e1' x' y' z' Ik' H') as [-> _]. reflexivity.
Qed.
