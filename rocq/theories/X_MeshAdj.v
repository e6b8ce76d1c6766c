(** Example data for C32: two tetrahedra glued along a face, as found by find_unique and reflect_down. *)
From Verif Require Import Prelude M_Par M_Template S_Template P_Template M_Align S_Align M_Unique S_Unique P_Unique M_Match P_Match M_Adj S_Adj S_Transit M_Parents S_Parents P_Parents M_Graph M_MeshAdj S_MeshAdj P_MeshAdj P_MeshAdj2 P_MeshAdj3.
Local Open Scope Z_scope.

Definition tets_verts (d : Z) : list Z :=
  if d =? 3 then [0; 1; 2; 3; 4; 2; 1; 3] else if d =? 2 then [0; 2; 1; 0; 1; 3; 2; 0; 3; 2; 1; 3; 4; 1; 2; 1; 4; 3; 4; 2; 3]
  else [0; 1; 2; 0; 0; 3; 1; 2; 3; 1; 1; 4; 2; 3; 4; 2; 3; 4].
Definition tets_down (d : Z) : adj :=
  if d =? 3 then mk_adj [] [0; 1; 3; 2; 4; 6; 3; 5] (Some [0; 0; 5; 0; 0; 0; 0; 0])
  else if d =? 2 then mk_adj [] [1; 3; 0; 0; 4; 2; 1; 2; 6; 3; 4; 6; 5; 3; 7; 5; 8; 4; 7; 6; 8] (Some [2; 2; 2; 0; 2; 2; 0; 0; 2; 2; 2; 2; 2; 0; 2; 0; 2; 0; 0; 0; 0])
  else mk_adj [] (tets_verts 1) None.
Definition tets : topology := mk_topology OMEGA_H_SIMPLEX 3 (fun d => if d =? 3 then 2 else if d =? 2 then 7 else if d =? 1 then 9 else 5) tets_verts tets_down.
Definition serially (n k : nat) : list nat := flat_map (fun i => repeat i k) (seq 0 n).
Definition in_turn : chance := mk_chance (fun _ _ _ => 7) (fun _ _ => serially 24 3) (fun _ _ => serially 24 3) (fun _ _ => false).
Definition in_rounds : chance := mk_chance (fun _ _ _ => -1) (fun _ _ => rev (serially 24 3)) (fun _ _ => rev (seq 0 24) ++ seq 0 24 ++ seq 0 24) (fun _ _ => true).

Lemma tets_valid : valid_topology tets.
Proof.
  assert (forall d, 1 <= d <= 3 -> d = 1 \/ d = 2 \/ d = 3) as C3 by lia.
  assert (forall d, 1 <= d <= 3 -> zlen (tets_verts d) = t_nents tets d * element_degree OMEGA_H_SIMPLEX d 0 /\ rows_distinct (element_degree OMEGA_H_SIMPLEX d 0) (tets_verts d) /\ forall v, In v (tets_verts d) -> 0 <= v < 5) as V.
  { intros d Hd. destruct (C3 d Hd) as [->|[->| ->]]; (split; [vm_compute; reflexivity|split]).
    1: apply (rows_distinct_check _ _ 9); vm_compute; reflexivity. 2: apply (rows_distinct_check _ _ 7); vm_compute; reflexivity. 3: apply (rows_distinct_check _ _ 2); vm_compute; reflexivity.
    all: intros v Hv; cbn in Hv; intuition lia. }
  split.
  - cbn. lia.
  - cbn. intros d Hd. destruct (d =? 3); [lia|]. destruct (d =? 2); [lia|]. destruct (d =? 1); lia.
  - cbn. exact V.
  - reflexivity.
  - cbn [t_dim t_family t_verts t_down t_nents tets]. intros d Hd. assert (d = 2 \/ d = 3) as [->| ->] by lia.
    + destruct (V 2 ltac:(lia)) as (V1 & V2 & V3). destruct (unique_reflect (tets_verts 2) (tets_verts 1) OMEGA_H_SIMPLEX 2 1 7 5 (fun _ => 7) (serially 18 3) (serially 18 3)) as (o & E & Ho); try lia; try assumption; [vm_compute; reflexivity|].
      do 2 eexists. split; [reflexivity|]. split; [vm_compute; reflexivity|]. split; [vm_compute; reflexivity|]. unfold reflects; change (2 - 1) with 1; change (3 - 1) with 2. match goal with |- forall h u row, _ -> exists l code lrow, zget ?a _ = _ /\ zget ?b _ = _ /\ _ => refine (proj2 (proj2 (Ho a b _))) end. vm_compute in E. injection E as <-. reflexivity.
    + destruct (V 3 ltac:(lia)) as (V1 & V2 & V3). destruct (unique_reflect (tets_verts 3) (tets_verts 2) OMEGA_H_SIMPLEX 3 2 2 5 (fun _ => 7) (serially 21 3) (serially 21 3)) as (o & E & Ho); try lia; try assumption; [vm_compute; reflexivity|].
      do 2 eexists. split; [reflexivity|]. split; [vm_compute; reflexivity|]. split; [vm_compute; reflexivity|]. unfold reflects; change (2 - 1) with 1; change (3 - 1) with 2. match goal with |- forall h u row, _ -> exists l code lrow, zget ?a _ = _ /\ zget ?b _ = _ /\ _ => refine (proj2 (proj2 (Ho a b _))) end. vm_compute in E. injection E as <-. reflexivity.
Qed.
Lemma tets_manifold : manifold tets.
Proof.
  intros s Hs. assert (forallb (fun s => zlen (uses_of (adj_ab2b (tets_down 3)) s) <=? 2) (zrange 7) = true) as H by (vm_compute; reflexivity). rewrite forallb_forall in H.
  change (t_nents tets (t_dim tets - 1)) with 7 in Hs. specialize (H s ltac:(apply in_zrange; exact Hs)). apply Z.leb_le in H. exact H.
Qed.

(** two histories: one asks in between, the other only at the end *)
Definition eager : list aevent := [SetEnts 1 (tets_down 1); Ask 0 1 in_turn; Ask 0 0 in_rounds; SetEnts 2 (tets_down 2); Ask 2 0 in_turn; SetEnts 3 (tets_down 3); Ask 1 1 in_rounds; Ask 3 0 in_turn].
Definition lazy : list aevent := [SetEnts 3 (tets_down 3); SetEnts 1 (tets_down 1); SetEnts 2 (tets_down 2)].
Definition asked_after (es : list aevent) (c : chance) (from to : Z) : res (option adj) :=
  m <- new_mesh OMEGA_H_SIMPLEX 3 5 ;; o <- run_aevents m es ;;
  match o with None => Ok None | Some m => o <- ask_adj c m from to ;; Ok (match o with Some r => Some (snd r) | None => None end) end.
Lemma eager_builds : builds tets eager.
Proof. intros d a H. unfold eager in H. cbn in H. decompose [or] H; try contradiction; try discriminate; match goal with E : SetEnts _ _ = SetEnts _ _ |- _ => injection E as <- <-; reflexivity end. Qed.
Lemma lazy_builds : builds tets lazy.
Proof. intros d a H. unfold lazy in H. cbn in H. decompose [or] H; try contradiction; match goal with E : SetEnts _ _ = SetEnts _ _ |- _ => injection E as <- <-; reflexivity end. Qed.

(** the faces among themselves are refused in three dimensions *)
Lemma derive_faces ask c m : a_dim m = 3 -> 0 <= a_nents m 2 -> derive_adj ask c m 2 2 = Abort.
Proof.
  intros HD L. unfold derive_adj. rewrite check_dim_ok by lia. cbn [bind]. rewrite check_dim2_ok by lia. cbn [bind]. rewrite HD. reflexivity.
Qed.
Lemma faces_refused T m0 es m c : valid_topology T -> t_dim T = 3 -> start T = Ok m0 -> builds T es -> run_aevents m0 es = Ok (Some m) -> ask_adj c m 2 2 = Abort.
Proof.
  intros HT HD H0 HB HR. apply start_inv in H0; [|exact HT]. pose proof (run_inv T HT es m0 m H0 HB HR) as I. destruct I as [I1 I2 I3 I4 I5 I6].
  unfold ask_adj. generalize 5%nat. intros fuel. cbn [ask_within]. destruct (Z_le_dec 0 (a_nents m 2)) as [L|L].
  - rewrite check_dim2_ok by lia. cbn [bind]. destruct (a_adjs m 2 2) as [a|] eqn:E.
    + apply I6 in E; try lia. unfold val, acrossv in E. rewrite HD in E. discriminate.
    + rewrite derive_faces by lia. reflexivity.
  - unfold check_dim2, has_ents, check. rewrite check_dim_ok by lia. cbn [bind]. destruct (Z.leb_spec 0 (a_nents m 2)); [lia|]. reflexivity.
Qed.

(** parents: edges 0..3; first edges 2 and 3 are halves of edge 1, then of edge 0 *)
Definition old_parents : parents := ([-1; -1; 1; 1], [0; 0; 1; 5]).
Definition new_parents : parents := ([-1; -1; 0; 0], [0; 0; 1; 5]).
Definition four : Z -> Z := fun _ => 4.
Definition re_parented : list fevent := [SetParents 1 old_parents; AskChildren 1 1 (fun _ => 0) (serially 4 3) (serially 4 3); SetParents 1 new_parents].
Lemma stale_children : exists m r, run_fevents (childless 2 four) re_parented = Ok (Some m) /\ ask_children m 1 1 (fun _ => 0) (serially 4 3) (serially 4 3) = Ok (Some r) /\
  parents_after 1 4 re_parented = new_parents /\ proper_parents new_parents 1 4 /\ ~ lists_children new_parents 1 4 (snd r).
Proof.
  eexists. eexists. split; [reflexivity|]. split; [vm_compute; reflexivity|]. split; [reflexivity|]. split.
  - split; [reflexivity|]. intros c p code E1 E2 E3. pose proof (zget_bounds _ _ _ E1) as B. change (zlen (fst new_parents)) with 4 in B. assert (c = 0 \/ c = 1 \/ c = 2 \/ c = 3) as [->|[->|[->| ->]]] by lia; cbn in E1, E2; injection E1 as <-; injection E2 as <-; cbn in E3; lia.
  - intros (_ & _ & K). destruct (K 0 ltac:(lia)) as [E _]. vm_compute in E. discriminate.
Qed.

(** without parents, asking for the children of vertices goes out of bounds: the default code names dimension 0 *)
Lemma orphans_of_vertices dim nents cd m0 s1 s2 : 0 <= dim -> 0 <= cd <= dim -> 0 <= nents 0 -> 0 < nents cd -> forall r, ask_children (childless dim nents) 0 cd m0 s1 s2 <> Ok (Some r).
Proof.
  intros Hd Hc H0 Hn r E. unfold ask_children in E. apply bind_ok in E as (_ & _ & E). apply bind_ok in E as (q & Eq & E). unfold ask_parents in Eq. apply bind_ok in Eq as (_ & _ & Eq). cbn [childless f_parents f_nents] in Eq.
  unfold M_Array.filled in Eq. destruct (Z.ltb_spec (nents cd) 0); [lia|]. cbn [bind] in Eq. apply bind_ok in Eq as (m & Em & Eq). unfold set_parents in Em. apply bind_ok in Em as (_ & _ & Em). injection Em as <-. injection Eq as <-. cbn [fst snd f_children f_nents childless f_parents f_dim] in E.
  apply bind_ok in E as (o & E & Eo). destruct o as [ch|]; [|discriminate]. set (p := orphans (nents cd)) in *. change (repeat (-1) (Z.to_nat (nents cd)), repeat 0 (Z.to_nat (nents cd))) with p in E. unfold invert_parents in E.
  assert (zlen (snd p) = zlen (fst p)) as HL by (unfold p, orphans, zlen; cbn [fst snd]; rewrite !repeat_length; reflexivity).
  destruct (filter_parents_spec p 0 HL) as (mk & Ek & Lk & Bk & Gk). rewrite Ek in E. cbn [bind] in E. destruct (P_Map2.collect_marked_full mk Bk) as (rc & Er & Sr & Gr). rewrite Er in E. cbn [bind] in E.
  assert (zlen (fst p) = nents cd) as Lp by (unfold p, orphans, zlen; cbn [fst]; rewrite repeat_length; lia).
  assert (forall c, 0 <= c < nents cd -> zget (fst p) c = Ok (-1) /\ zget (snd p) c = Ok 0) as Hp.
  { intros c Hcc. assert (forall l : list Z, forall x, zlen l = nents cd -> (forall y, In y l -> y = x) -> zget l c = Ok x) as K. { intros l x Ll Hl. destruct (zget_in_range l c ltac:(lia)) as (y & Ey). rewrite Ey. f_equal. apply Hl. eapply zget_In; exact Ey. }
    split; apply K; try lia; unfold p, orphans; cbn [fst snd]; intros y Hy; apply repeat_spec in Hy; exact Hy. }
  assert (forall c, In c rc <-> 0 <= c < nents cd) as Hrc. { intros c. rewrite Gr, Gk. split; [intros (code & Ec & _); pose proof (zget_bounds _ _ _ Ec); lia|intros Hcc; exists 0; split; [apply Hp, Hcc|reflexivity]]. }
  destruct (unmap1 rc (fst p)) as (rp & Erp & Lrp & Grp). { intros c Hcc. apply Hrc in Hcc. lia. } rewrite Erp in E. cbn [bind] in E.
  assert (In 0 rc) as H0rc by (apply Hrc; lia). apply P_Map.In_zget in H0rc as (i & Ei). pose proof (zget_bounds _ _ _ Ei) as Bi.
  assert (zget rp i = Ok (-1)) as Erpi by (rewrite (Grp i 0 Ei); apply Hp; lia).
  apply bind_ok in E as (o' & Einv & E). unfold M_Map.invert_map_by_atomics in Einv. apply bind_ok in Einv as (k1 & _ & Einv). destruct (M_Map.finished _); [|injection Einv as <-; discriminate].
  apply bind_ok in Einv as (nba & _ & Einv). apply bind_ok in Einv as (k2 & Ek2 & _). apply mapM_ok in Ek2. assert (In i (zrange (zlen rp))) as Hin by (apply in_zrange; lia).
  clear - Ek2 Hin Erpi. induction Ek2 as [|x y l l' Hxy F IH]; [contradiction|]. destruct Hin as [->|Hin]; [|auto]. unfold M_Map.fill_kernel in Hxy. rewrite Erpi in Hxy. cbn [bind] in Hxy. apply bind_ok in Hxy as (z & Ez & _). apply zget_bounds in Ez. lia.
Qed.
