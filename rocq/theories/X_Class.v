(** Example data for classification. *)
From Verif Require Import Prelude M_Template M_Align S_Align S_Unique P_Unique P_Align M_Adj S_Adj S_Match M_MeshAdj S_MeshAdj P_MeshAdj P_MeshAdj3 X_MeshAdj M_ArrayOps M_Build S_Build M_Box M_Class S_Class X_Unmap.
Local Open Scope Z_scope.

Definition class_tags (dims ids : list (Z * list Z)) : ctags :=
  let look := fun (l : list (Z * list Z)) d => match find (fun p => fst p =? d) l with Some p => Some (snd p) | None => None end in
  mk_ctags (look dims) (look ids).
(** both tags in each dimension of the result of deriving from these *)
Definition derive_in (om : res (option amesh)) (t : ctags) (dim : Z) : res (option (list (option (list Z) * option (list Z)))) :=
  o <- om ;; match o with None => Ok None | Some m =>
    r <~ finalize_classification in_turn m t ;; Ok (Some (map (fun d => (c_dims (snd r) d, c_ids (snd r) d)) (zrange (dim + 1)))) end.

(** two edges in a row, and the same with the edges in the other order *)
Definition row_verts (flip : bool) : list Z := if flip then [1; 2; 0; 1] else [0; 1; 1; 2].
Definition row_line (flip : bool) : topology := mk_topology OMEGA_H_SIMPLEX 1 (fun d => if d =? 0 then 3 else if d =? 1 then 2 else 0) (fun d => if d =? 1 then row_verts flip else []) (fun _ => mk_adj [] (row_verts flip) None).
Definition row_mesh (flip : bool) : res (option amesh) := m <- new_mesh OMEGA_H_SIMPLEX 1 3 ;; run_aevents m [SetEnts 1 (mk_adj [] (row_verts flip) None)].
(** the edge between 0 and 1 is on curve 5, of the other it is not known *)
Definition row_tags (flip : bool) : ctags := class_tags [] [(1, if flip then [-1; 5] else [5; -1])].

Lemma row_valid flip : valid_topology (row_line flip).
Proof.
  split; cbn [t_dim t_nents t_verts t_down t_family row_line].
  - lia.
  - intros d Hd. destruct (d =? 0); [lia|]. destruct (d =? 1); lia.
  - intros d Hd. assert (d = 1) as -> by lia. cbn [Z.eqb]. split; [destruct flip; reflexivity|]. split.
    + destruct flip; apply (rows_distinct_check _ _ 2); vm_compute; reflexivity.
    + intros v Hv. destruct flip; cbn in Hv; intuition lia.
  - reflexivity.
  - intros d Hd. lia.
Qed.
Lemma row_is_mesh flip m : row_mesh flip = Ok (Some m) -> mesh_of (row_line flip) m.
Proof.
  intros E. unfold row_mesh in E. apply bind_ok in E as (m0 & E0 & E). exists m0, [SetEnts 1 (mk_adj [] (row_verts flip) None)]. split; [exact E0|]. split; [|split; [exact E|]].
  - intros d a H. cbn in H. destruct H as [H|[]]. injection H as <- <-. reflexivity.
  - vm_compute in E0. injection E0 as <-. destruct flip; vm_compute in E; injection E as <-; intros d Hd; change (t_dim (row_line _)) with 1 in Hd; assert (d = 0 \/ d = 1) as [->| ->] by lia; vm_compute; discriminate.
Qed.
Lemma derive_in_read om t dim l : derive_in om t dim = Ok (Some l) -> exists m r, om = Ok (Some m) /\ finalize_classification in_turn m t = Ok (Some r) /\ l = map (fun d => (c_dims (snd r) d, c_ids (snd r) d)) (zrange (dim + 1)).
Proof.
  unfold derive_in. intros E. apply bind_ok in E as (o & Eo & E). destruct o as [m|]; [|discriminate]. unfold bindo in E. apply bind_ok in E as (r & Er & E). destruct r as [r|]; [|discriminate]. injection E as <-. exists m, r. auto.
Qed.
(** the same mesh and the same classes of edges, and another class of the vertex in the middle *)
Lemma order_matters : exists m m' r r', row_mesh false = Ok (Some m) /\ mesh_of (row_line false) m /\ row_mesh true = Ok (Some m') /\ mesh_of (row_line true) m' /\
  finalize_classification in_turn m (row_tags false) = Ok (Some r) /\ finalize_classification in_turn m' (row_tags true) = Ok (Some r') /\
  has_class (snd r) 1 0 (1, 5) /\ has_class (snd r) 1 1 (1, -1) /\ has_class (snd r') 1 1 (1, 5) /\ has_class (snd r') 1 0 (1, -1) /\ has_class (snd r) 0 1 (0, -1) /\ has_class (snd r') 0 1 (1, 5).
Proof.
  assert (derive_in (row_mesh false) (row_tags false) 1 = Ok (Some [(Some [0; 0; 0], Some [-1; -1; -1]); (Some [1; 1], Some [5; -1])])) as E1 by (vm_compute; reflexivity).
  assert (derive_in (row_mesh true) (row_tags true) 1 = Ok (Some [(Some [0; 1; 0], Some [-1; 5; -1]); (Some [1; 1], Some [-1; 5])])) as E2 by (vm_compute; reflexivity).
  apply derive_in_read in E1 as (m & r & A1 & A2 & A3). apply derive_in_read in E2 as (m' & r' & B1 & B2 & B3). change (zrange (1 + 1)) with [0; 1] in A3, B3. cbn [map] in A3, B3. injection A3 as A3 A4 A5 A6. injection B3 as B3 B4 B5 B6.
  exists m, m', r, r'. split; [exact A1|]. split; [apply row_is_mesh, A1|]. split; [exact B1|]. split; [apply row_is_mesh, B1|]. split; [exact A2|]. split; [exact B2|].
  repeat apply conj; eexists _, _; (split; [symmetry; eassumption|]; split; [symmetry; eassumption|]; split; reflexivity).
Qed.
(** the mesh of three squares in a row *)
Definition three_squares : res (option (amesh * list Z)) :=
  o <- build_box_internal in_turn in_turn (fun _ => Serial) OMEGA_H_HYPERCUBE 3 1 0 false ;;
  match o with None => Ok None | Some p => r <~ ask_adj in_turn (b_mesh (p_built p)) 2 0 ;; Ok (Some (fst r, adj_ab2b (snd r))) end.

Lemma two_regions_hyps : valid_topology tets /\ (exists m, tets_adj = Ok (Some m) /\ mesh_of tets m) /\ whole_tags tets (class_tags [] [(3, [1; 2])]) /\ proper_dims tets (class_tags [] [(3, [1; 2])]) /\ (exists ids, c_ids (class_tags [] [(3, [1; 2])]) (t_dim tets) = Some ids /\ ~ In (-1) ids).
Proof.
  split; [exact tets_valid|]. split; [exact tets_mesh|]. split; [|split].
  - intros d Hd. split; [intros a E; discriminate|]. change (t_dim tets) with 3 in Hd. assert (d = 0 \/ d = 1 \/ d = 2 \/ d = 3) as [->|[->|[->| ->]]] by lia; intros a E; try discriminate. injection E as <-. reflexivity.
  - intros d a x Hd E. discriminate.
  - eexists. split; [reflexivity|]. intros [H|[H|[]]]; discriminate.
Qed.
Definition equal_order_in (om : res (option amesh)) (d : Z) (eqv2v ids : list Z) : res (option (option (list Z) * option (list Z))) :=
  o <- om ;; match o with None => Ok None | Some m => r <~ classify_equal_order in_turn m (class_tags [] []) d eqv2v ids ;; Ok (Some (c_dims (snd r) d, c_ids (snd r) d)) end.
Lemma given_face_found : describes tets 2 [3; 1; 2] [3] /\ equal_order_in tets_adj 2 [3; 1; 2] [7] = Ok (Some (Some [3; 3; 3; 2; 3; 3; 3], Some [-1; -1; -1; 7; -1; -1; -1])).
Proof.
  split; [|vm_compute; reflexivity]. split; [repeat constructor; intros []|]. split; [intros e [<-|[]]; change (t_nents tets 2) with 7; lia|]. change (2 =? t_dim tets) with false. change (2 =? 0) with false. cbv beta iota zeta. change (element_degree (t_family tets) 2 0) with 3.
  split; [reflexivity|]. split; [intros v Hv; change (t_nents tets 0) with 5; cbn in Hv; intuition lia|]. intros a row Hr. pose proof (row_is_range 3 [3; 1; 2] 1 a row ltac:(lia) eq_refl Hr) as Ha. assert (a = 0) as -> by lia.
  assert (row = [3; 1; 2]) as ->. { apply (row_is_unique 3 [3; 1; 2] 0); [exact Hr|]. split; [reflexivity|]. intros j Hj. assert (j = 0 \/ j = 1 \/ j = 2) as [Ej|[Ej|Ej]] by lia; subst j; eexists; split; reflexivity. }
  exists 3. split; [reflexivity|]. change (t_verts tets 2) with (tets_verts 2).
  assert (forall e, 0 <= e < 7 -> row_is 3 (tets_verts 2) e (firstn 3 (skipn (Z.to_nat (e * 3)) (tets_verts 2)))) as RW.
  { intros e He. assert (e = 0 \/ e = 1 \/ e = 2 \/ e = 3 \/ e = 4 \/ e = 5 \/ e = 6) as X by lia. destruct X as [X|[X|[X|[X|[X|[X|X]]]]]]; subst e; (split; [reflexivity|]; intros j Hj; assert (j = 0 \/ j = 1 \/ j = 2) as [Ej|[Ej|Ej]] by lia; subst j; eexists; split; reflexivity). }
  split; [exists [2; 1; 3]; split; [exact (RW 3 ltac:(lia))|right; exists [], [3; 1; 2]; split; reflexivity]|].
  intros e' (rb & Hb & Hp). pose proof (row_is_range 3 (tets_verts 2) 7 e' rb ltac:(lia) eq_refl Hb) as He.
  assert (forallb (fun e => (e =? 3) || negb (forallb (fun x => existsb (Z.eqb x) [3; 1; 2]) (firstn 3 (skipn (Z.to_nat (e * 3)) (tets_verts 2))))) (zrange 7) = true) as CK by (vm_compute; reflexivity). rewrite forallb_forall in CK. specialize (CK e' ltac:(apply in_zrange; exact He)).
  apply orb_true_iff in CK as [CK|CK]; [apply Z.eqb_eq, CK|]. exfalso. apply negb_true_iff in CK. rewrite (row_is_unique _ _ _ _ _ (RW e' He) Hb) in CK.
  assert (forallb (fun x => existsb (Z.eqb x) [3; 1; 2]) rb = true) as CT; [|congruence]. apply forallb_forall. intros x Hx. apply existsb_exists. exists x. split; [|apply Z.eqb_refl].
  destruct Hp as [(u & w & E1 & E2)|(u & w & E1 & E2)]; rewrite E2; apply in_or_app; [|apply in_rev in Hx]; rewrite E1 in Hx; apply in_app_or in Hx; tauto.
Qed.
