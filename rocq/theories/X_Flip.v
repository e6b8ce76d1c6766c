(** Example data for C78: a strip of four triangles, two of its edges swapped. *)
From Coq Require Import String Permutation Sorted.
From Verif Require Import Prelude M_Array P_Array M_Par M_Scan S_Scan P_Scan P_Fan S_Sort M_Sort M_Map S_Map P_Map P_Map2 M_Template S_Template P_Template M_Align S_Align P_Align M_Graph S_Graph P_Graph M_Unique S_Unique P_Unique M_Adj S_Adj P_Adj S_Transit P_Transit S_Across P_Across
  M_Match S_Match P_Match M_Tags M_MeshAdj S_MeshAdj P_MeshAdj P_MeshAdj2 P_MeshAdj3 M_Build S_Build P_Build P_Box S_Unmap P_Unmap P_Mark P_Coarsen P_Mark
  M_Modify S_Modify P_Modify P_Modify2 S_Swap3d M_Swap2d S_Swap2d P_Swap2d S_Coarsen M_Refine S_Refine P_Refine P_SwapTopo M_RefineMesh S_RefineMesh S_Rebuild P_Rebuild P_Rebuild2 P_Rebuild3 P_RefineMesh1 P_RefineMesh2 P_RefineMesh3 P_RefineMesh4 P_RefineMesh5 P_RefineMesh6 P_RefineMesh7 P_RefineMesh8 S_Patch P_Patch M_Flip S_Flip P_Flip1 P_Flip2 P_Flip3 P_Flip4 P_Flip5 P_Parents M_ArrayOps X_MeshAdj X_RefineMesh.
Local Open Scope Z_scope.

Definition strip_verts (d : Z) : list Z := if d =? 2 then [0; 1; 4; 4; 3; 0; 1; 2; 5; 5; 4; 1] else [0; 1; 3; 0; 0; 4; 1; 2; 4; 1; 1; 5; 2; 5; 4; 3; 5; 4].
Definition strip_down (d : Z) : adj := if d =? 2 then mk_adj [] [0; 4; 2; 7; 1; 2; 3; 6; 5; 8; 4; 5] (Some [0; 2; 2; 0; 0; 0; 0; 0; 2; 0; 0; 0]) else mk_adj [] (strip_verts 1) None.
Definition strip : topology := mk_topology OMEGA_H_SIMPLEX 2 (fun d => if d =? 2 then 4 else if d =? 1 then 9 else 6) strip_verts strip_down.
Definition strip_events : list aevent := [SetEnts 1 (strip_down 1); SetEnts 2 (strip_down 2)].
Definition strip_adj : res (option amesh) := m <- new_mesh OMEGA_H_SIMPLEX 2 6 ;; run_aevents m strip_events.
(** edges 0-4 and 1-5 *)
Definition diagonals : list Z := [2; 5].
Definition swap_strip : res (option (amesh * amesh * list (numbering * list Z))) := o <- strip_adj ;; match o with Some m => swap2d_element_based long_turns long_turns m diagonals | None => Ok None end.
Definition strip_ids (d : Z) : list Z := map (fun e => 100 * d + e) (zrange (t_nents strip d)).
Definition swapped_ids (d : Z) : res (list Z) := o <- swap_strip ;; match o with Some (old, _, info) => i <- zget info (d - 1) ;; inherit_swap diagonals 1 strip_ids d (snd i) (fst i) | None => UB end.

Lemma strip_valid : valid_topology strip.
Proof.
  assert (forall d, 1 <= d <= 2 -> zlen (strip_verts d) = t_nents strip d * element_degree OMEGA_H_SIMPLEX d 0 /\ rows_distinct (element_degree OMEGA_H_SIMPLEX d 0) (strip_verts d) /\ forall v, In v (strip_verts d) -> 0 <= v < 6) as V.
  { intros d Hd. assert (d = 1 \/ d = 2) as [->| ->] by lia; (split; [vm_compute; reflexivity|split]).
    1: apply (rows_distinct_check _ _ 9); vm_compute; reflexivity. 2: apply (rows_distinct_check _ _ 4); vm_compute; reflexivity.
    all: intros v Hv; cbn in Hv; intuition lia. }
  split.
  - cbn. lia.
  - cbn. intros d Hd. destruct (d =? 2); [lia|]. destruct (d =? 1); lia.
  - cbn. exact V.
  - reflexivity.
  - cbn [t_dim t_family t_verts t_down t_nents strip]. intros d Hd. assert (d = 2) as -> by lia.
    destruct (V 2 ltac:(lia)) as (V1 & V2 & V3). destruct (unique_reflect (strip_verts 2) (strip_verts 1) OMEGA_H_SIMPLEX 2 1 4 6 (fun _ => 7) (serially 18 3) (serially 18 3)) as (o & E & Ho); try lia; try assumption; [vm_compute; reflexivity|].
    do 2 eexists. split; [reflexivity|]. split; [vm_compute; reflexivity|]. split; [vm_compute; reflexivity|]. unfold reflects; change (2 - 1) with 1. match goal with |- forall h u row, _ -> exists l code lrow, zget ?a _ = _ /\ zget ?b _ = _ /\ _ => refine (proj2 (proj2 (Ho a b _))) end. vm_compute in E. injection E as <-. reflexivity.
Qed.
Lemma strip_mesh : exists m, strip_adj = Ok (Some m) /\ mesh_of strip m.
Proof.
  unfold strip_adj. eexists. split; [vm_compute; reflexivity|]. eexists. exists strip_events. split; [reflexivity|]. split; [|split; [vm_compute; reflexivity|]].
  - intros d a [E|[E|[]]]; injection E as <- <-; reflexivity.
  - intros d Hd. change (t_dim strip) with 2 in Hd. assert (d = 0 \/ d = 1 \/ d = 2) as [->|[->| ->]] by lia; vm_compute; discriminate.
Qed.
Definition strip_rows (d : Z) : list (list Z) := map (fun e => match verts_of (d + 1) (strip_verts d) e with Ok r => r | _ => [] end) (zrange (t_nents strip d)).
Lemma strip_row d e row : 1 <= d <= 2 -> ent_verts strip d e row -> zget (strip_rows d) e = Ok row /\ 0 <= e < t_nents strip d.
Proof.
  intros Hd R. assert (forallb (fun d => forallb (fun e => match verts_of (d + 1) (strip_verts d) e with Ok _ => true | _ => false end) (zrange (t_nents strip d))) (zfromto 1 3) = true) as H by (vm_compute; reflexivity). rewrite forallb_forall in H. specialize (H d ltac:(apply in_zfromto; lia)). rewrite forallb_forall in H.
  rewrite ent_high in R by lia. assert (0 <= e < t_nents strip d) as He. { apply (row_is_range (d + 1) (t_verts strip d) (t_nents strip d) e row ltac:(lia)); [|exact R]. assert (d = 1 \/ d = 2) as [->| ->] by lia; reflexivity. }
  split; [|exact He]. specialize (H e ltac:(apply in_zrange; exact He)). unfold strip_rows. rewrite zget_map, zget_zrange by exact He. cbn [bind]. destruct (verts_of (d + 1) (strip_verts d) e) as [vs| |] eqn:E; [|discriminate|discriminate]. apply verts_row in E; [|lia]. rewrite (row_is_unique _ _ _ _ _ R E). reflexivity.
Qed.
Lemma row_strip d e row : 1 <= d <= 2 -> verts_of (d + 1) (strip_verts d) e = Ok row -> ent_verts strip d e row.
Proof. intros Hd E. apply ent_high; [lia|]. apply verts_row; [lia|exact E]. Qed.
Lemma strip_simplicial : simplicial strip.
Proof.
  constructor; [reflexivity| |].
  - change (t_dim strip) with 2. intros d e e' row row' Hd R R' P. destruct (strip_row d e row Hd R) as [E He]. destruct (strip_row d e' row' Hd R') as [E' He'].
    assert (forallb (fun d => forallb (fun e => forallb (fun e' => match zget (strip_rows d) e, zget (strip_rows d) e' with Ok row, Ok row' => orb (e =? e') (negb (covers_row row row')) | _, _ => false end) (zrange (t_nents strip d))) (zrange (t_nents strip d))) (zfromto 1 3) = true) as H by (vm_compute; reflexivity).
    rewrite forallb_forall in H. specialize (H d ltac:(apply in_zfromto; lia)). rewrite forallb_forall in H. specialize (H e ltac:(apply in_zrange; exact He)). rewrite forallb_forall in H. specialize (H e' ltac:(apply in_zrange; exact He')). rewrite E, E' in H. apply orb_prop in H as [H|H]; [apply Z.eqb_eq, H|]. exfalso. apply negb_true_iff in H. assert (covers_row row row' = true) as C by (apply covers_incl; intros x; apply Permutation_in, P). congruence.
  - change (t_dim strip) with 2. intros d e row Hd R. destruct (strip_row d e row ltac:(lia) R) as [E He].
    assert (forallb (fun d => forallb (fun row => existsb (fun e' => match verts_of (d + 1 + 1) (strip_verts (d + 1)) e' with Ok row' => covers_row row row' | _ => false end) (zrange (t_nents strip (d + 1)))) (strip_rows d)) (zfromto 1 2) = true) as H by (vm_compute; reflexivity).
    rewrite forallb_forall in H. specialize (H d ltac:(apply in_zfromto; lia)). rewrite forallb_forall in H. specialize (H row (zget_In _ _ _ E)). apply existsb_exists in H as (e' & _ & H). destruct (verts_of (d + 1 + 1) (strip_verts (d + 1)) e') as [row'| |] eqn:V; [|discriminate|discriminate]. apply verts_row in V; [|lia]. exists e', row'. split; [apply ent_high; [lia|exact V]|apply covers_incl, H].
Qed.
Lemma strip_has e k : has_edge strip 2 e k -> exists row ab, zget (strip_rows 2) e = Ok row /\ zget (strip_rows 1) k = Ok ab /\ covers_row ab row = true /\ 0 <= e < 4.
Proof.
  intros (row & a & b & R & Rk & Ia & Ib). destruct (strip_row 2 e row ltac:(lia) R) as [E He]. destruct (strip_row 1 k _ ltac:(lia) Rk) as [Ek _]. exists row, [a; b]. split; [exact E|]. split; [exact Ek|]. split; [apply covers_incl; intros x [<-|[<-|[]]]; assumption|exact He].
Qed.
Lemma strip_splittable : splittable strip diagonals.
Proof.
  constructor.
  - repeat constructor; cbn; intuition lia.
  - change (t_nents strip 1) with 9. intros k [<-|[<-|[]]]; lia.
  - change (t_dim strip) with 2. intros e k k' Ik Ik' H H'. apply strip_has in H as (row & ab & E1 & E2 & C & _). apply strip_has in H' as (row' & ab' & E1' & E2' & C' & _). assert (row' = row) as -> by congruence.
    assert (forallb (fun row => forallb (fun k => forallb (fun k' => match zget (strip_rows 1) k, zget (strip_rows 1) k' with Ok ab, Ok ab' => orb (k =? k') (negb (andb (covers_row ab row) (covers_row ab' row))) | _, _ => false end) diagonals) diagonals) (strip_rows 2) = true) as H by (vm_compute; reflexivity).
    rewrite forallb_forall in H. specialize (H row (zget_In _ _ _ E1)). rewrite forallb_forall in H. specialize (H k Ik). rewrite forallb_forall in H. specialize (H k' Ik'). rewrite E2, E2' in H. apply orb_prop in H as [H|H]; [apply Z.eqb_eq, H|]. rewrite C, C' in H. discriminate.
Qed.
Lemma first_diamond : diamond strip 2 0 4 3 1 1 0.
Proof.
  split; [apply row_strip; [lia|reflexivity]|]. split; [exists [4; 3; 0]; split; [apply row_strip; [lia|reflexivity]|cbn; auto]|]. split; [exists [0; 1; 4]; split; [apply row_strip; [lia|reflexivity]|cbn; auto]|].
  intros e H. apply strip_has in H as (row & ab & E1 & E2 & C & B). vm_compute in E2. injection E2 as <-. assert (e = 0 \/ e = 1 \/ e = 2 \/ e = 3) as [->|[->|[->| ->]]] by lia; auto; exfalso; vm_compute in E1; injection E1 as <-; discriminate.
Qed.
Lemma second_diamond : diamond strip 5 1 5 4 2 3 2.
Proof.
  split; [apply row_strip; [lia|reflexivity]|]. split; [exists [5; 4; 1]; split; [apply row_strip; [lia|reflexivity]|cbn; auto]|]. split; [exists [1; 2; 5]; split; [apply row_strip; [lia|reflexivity]|cbn; auto]|].
  intros e H. apply strip_has in H as (row & ab & E1 & E2 & C & B). vm_compute in E2. injection E2 as <-. assert (e = 0 \/ e = 1 \/ e = 2 \/ e = 3) as [->|[->|[->| ->]]] by lia; auto; exfalso; vm_compute in E1; injection E1 as <-; discriminate.
Qed.
Lemma strip_opposite k a b x y t u : In k diagonals -> diamond strip k a b x y t u -> k = 2 /\ [x; y] = [3; 1] \/ k = 5 /\ [x; y] = [4; 2].
Proof.
  intros [<-|[<-|[]]] H; [left|right]; (split; [reflexivity|]).
  - destruct (dia_unique strip strip_valid strip_simplicial eq_refl _ _ _ _ _ _ _ _ _ _ _ _ _ first_diamond H) as (_ & _ & <- & <- & _). reflexivity.
  - destruct (dia_unique strip strip_valid strip_simplicial eq_refl _ _ _ _ _ _ _ _ _ _ _ _ _ second_diamond H) as (_ & _ & <- & <- & _). reflexivity.
Qed.
Lemma strip_swappable : swappable strip diagonals.
Proof.
  constructor.
  - reflexivity.
  - exact strip_splittable.
  - intros k [<-|[<-|[]]]; do 6 eexists; [apply first_diamond|apply second_diamond].
  - intros k a b x y t u e row Ik H R P. destruct (strip_row 1 e row ltac:(lia) R) as [E He]. exfalso.
    assert (forallb (fun row => negb (covers_row row [3; 1]) && negb (covers_row row [4; 2])) (strip_rows 1) = true) as K by (vm_compute; reflexivity). rewrite forallb_forall in K. specialize (K row (zget_In _ _ _ E)). apply andb_prop in K as [K1 K2]. apply negb_true_iff in K1, K2.
    assert (covers_row row [x; y] = true) as C by (apply covers_incl; intros v; apply Permutation_in, P). destruct (strip_opposite k a b x y t u Ik H) as [[_ Q]|[_ Q]]; rewrite Q in C; congruence.
  - intros k a b x y t u k' a' b' x' y' t' u' Ik Ik' H H' P. destruct (strip_opposite k a b x y t u Ik H) as [[-> Q]|[-> Q]], (strip_opposite k' a' b' x' y' t' u' Ik' H') as [[-> Q']|[-> Q']]; try reflexivity; exfalso; rewrite Q, Q' in P.
    + assert (In 3 [4; 2]) as I by (apply (Permutation_in _ P); cbn; auto). cbn in I. lia.
    + assert (In 4 [3; 1]) as I by (apply (Permutation_in _ P); cbn; auto). cbn in I. lia.
Qed.
