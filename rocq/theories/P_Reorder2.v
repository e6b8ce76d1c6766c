(** Renumbering along a curve and by global numbers; building a box. *)
From Coq Require Import String Permutation Sorted.
From Verif Require Import Prelude M_Array M_Par M_Scan S_ArrayOps M_Sort S_Sort P_Sort M_Map S_Map M_Template S_Template P_Template M_Graph S_Graph P_Graph M_Unique S_Unique P_Unique M_Adj S_Adj
  M_ArrayOps M_Tags S_Tags P_Tags P_Tags2 M_MeshAdj S_MeshAdj P_MeshAdj P_MeshAdj2 P_MeshAdj3 M_Build S_Build P_Build M_Box S_Box P_Box P_Box4 M_BoxClass S_BoxClass P_BoxClass M_Unmap S_Unmap P_Unmap P_Unmap2 P_Renumber M_Reorder S_Reorder P_Reorder.
Local Open Scope Z_scope.

Lemma find_in l t : NoDup (map tag_name l) -> In t l -> find_tag l (tag_name t) = Some t.
Proof.
  induction l as [|x l IH]; intros N I; [destruct I|]. cbn [map] in N. apply NoDup_cons_iff in N as [Nx N]. cbn [find_tag]. destruct I as [->|I]; [rewrite same_name_refl; reflexivity|].
  destruct (same_name (tag_name x) (tag_name t)) eqn:E; [|exact (IH N I)]. exfalso. apply same_name_spec in E. apply Nx. rewrite E. apply in_map, I.
Qed.
Lemma get_array_ok T m d tags t a : valid_topology T -> well_tagged T m -> 0 <= d <= t_dim T -> zget (t_tags m) d = Ok tags -> In t tags -> tag_array t = Some a -> get_array m (tag_type t) d (tag_name t) = Ok (Some a).
Proof.
  intros HT HW Hd Et It Ea. destruct (well_valid T m HT HW) as [V N]. pose proof HW as (W1 & _ & _ & _ & W5). destruct (W5 d Hd) as (_ & tg & Etg & _ & ND & _). rewrite Et in Etg. injection Etg as <-. unfold get_array, get_tagbase.
  rewrite (P_Tags.check_dim2_ok m d V); [|lia|rewrite (N d Hd); apply (v_nents T HT d Hd)]. cbn [bind]. rewrite Et. cbn [bind]. rewrite (find_in tags t ND It). cbn [bind]. rewrite Z.eqb_refl. f_equal. exact Ea.
Qed.

Lemma carried_in l tags tags' t : Forall2 (carries l) tags tags' -> In t tags -> exists t', In t' tags' /\ carries l t t'.
Proof. induction 1 as [|x y lx ly C _ IH]; intros I; [destruct I|]. destruct I as [->|I]; [exists y; split; [left; reflexivity|exact C]|]. destruct (IH I) as (t' & I' & C'). exists t'. split; [right; exact I'|exact C']. Qed.

Lemma curve_ordered keys c c' T m tags0 nc coords k : valid_topology T -> mesh_of T (m_adj m) -> well_tagged T (m_tags m) -> has_globals (t_dim T) (m_tags m) ->
  zget (t_tags (m_tags m)) 0 = Ok tags0 -> In (mk_tag (name_of "coordinates") OMEGA_H_F64 nc (Some coords)) tags0 -> keys coords (t_dim T) = Ok k -> zlen k = t_nents T 0 * t_dim T ->
  exists m' U maps order, reorder_by_hilbert keys c c' m = Ok (Some m') /\ StronglySorted (stably_before k (t_dim T)) order /\ reorders T maps /\ listed T maps U /\ follows_verts T U maps order /\
    valid_topology U /\ mesh_of U (m_adj m') /\ well_tagged U (m_tags m') /\ tags_renumbered T maps (m_tags m) (m_tags m').
Proof.
  intros HT HM HW HG E0 I0 Ek Lk. pose proof (v_dim T HT) as HD. unfold reorder_by_hilbert. rewrite (i_dim T _ (proj1 (mesh_ready T _ HT HM))).
  pose proof (get_array_ok T (m_tags m) 0 tags0 _ coords HT HW ltac:(lia) E0 I0 eq_refl) as EA. cbn [tag_type tag_name] in EA. rewrite EA. cbn [bind]. rewrite Ek. cbn [bind].
  destruct (sort_by_keys_spec k (t_dim T) (t_nents T 0) ltac:(lia) Lk) as (order & Eo & Lo & Po & So). rewrite Eo. cbn [bind].
  destruct (vert_reordered c c' T m order HT HM HW Lo Po) as (m1 & U & maps & E1 & HR & HL & HF & HU & M1 & W1 & C1). unfold bindo. rewrite E1. cbn [bind]. rewrite (i_dim U _ (proj1 (mesh_ready U _ HU M1))).
  assert (t_dim U = t_dim T) as DU by apply HL. assert (has_globals (t_dim U) (m_tags m1)) as HG1.
  { intros d Hd. rewrite DU in Hd. destruct (HG d Hd) as (tags & g & Et & Ig). destruct (C1 d Hd) as (tg & tg' & Etg & Etg' & F2). rewrite Et in Etg. injection Etg as <-. clear - Etg' F2 Ig.
    destruct (carried_in _ _ _ _ F2 Ig) as (t' & It' & (C1 & C2 & C3 & a & a' & _ & Ea' & _)). exists tg', a'. split; [exact Etg'|]. destruct t'. cbn in *. subst. exact It'. }
  destruct (globals_numbered U (m_tags m1) HU W1 HG1) as (tm & Etm & Wm & Km). rewrite Etm. cbn [bind]. exists (mk_tagged (m_adj m1) tm), U, maps, order. split; [reflexivity|]. split; [exact So|]. split; [exact HR|]. split; [exact HL|]. split; [exact HF|]. split; [exact HU|]. split; [exact M1|]. split; [exact Wm|].
  intros d Hd. destruct (C1 d Hd) as (tags & tags' & Et & Et' & F2). destruct (Km d ltac:(lia)) as (tg & Etg & Em). rewrite Et' in Etg. injection Etg as <-. exists tags, (filter not_global tags'). split; [exact Et|]. split; [apply carries_filter, F2|]. cbn [m_tags]. rewrite Em.
  destruct HL as (_ & _ & HN & _). rewrite (HN d Hd), (proj1 (HR d Hd)). reflexivity.
Qed.

(** ** By global numbers *)
Lemma globally_ordered c T m g : valid_topology T -> mesh_of T (m_adj m) -> well_tagged T (m_tags m) -> globals_are (t_dim T) (m_tags m) g ->
  exists m' U maps, reorder_by_globals c m = Ok (Some m') /\ reorders T maps /\ listed T maps U /\ (forall d, 0 <= d <= t_dim T -> StronglySorted (stably_before (g d) 1) (maps d)) /\
    valid_topology U /\ mesh_of U (m_adj m') /\ well_tagged U (m_tags m') /\ tags_carried (t_dim T) maps (m_tags m) (m_tags m').
Proof.
  intros HT HM HW HG. pose proof (v_dim T HT) as HD. unfold reorder_by_globals. rewrite (i_dim T _ (proj1 (mesh_ready T _ HT HM))).
  assert (forall d, 0 <= d <= t_dim T -> exists o, global_order (m_tags m) d = Ok o /\ zlen o = t_nents T d /\ is_perm o /\ StronglySorted (stably_before (g d) 1) o) as K.
  { intros d Hd. destruct (HG d Hd) as (tags & Et & It). unfold global_order. pose proof (get_array_ok T (m_tags m) d tags _ (g d) HT HW Hd Et It eq_refl) as EA. cbn [tag_type tag_name global_of] in EA. rewrite EA. cbn [bind].
    apply sort_by_keys_spec; [lia|]. destruct HW as (_ & _ & _ & _ & W5). destruct (W5 d Hd) as (_ & tg & Etg & _ & _ & H). rewrite Et in Etg. injection Etg as <-. destruct (H _ It) as (_ & _ & _ & a & Ea & La). cbn in Ea, La. injection Ea as <-. exact La. }
  destruct (mapM_total (global_order (m_tags m)) (zrange (t_dim T + 1))) as (os & Eos). { intros d Hd. apply in_zrange in Hd. destruct (K d ltac:(lia)) as (o & E & _). eauto. }
  rewrite Eos. cbn [bind]. set (maps := fun d => match zget os d with Ok l => l | _ => [] end). assert (forall d, 0 <= d <= t_dim T -> global_order (m_tags m) d = Ok (maps d)) as KM.
  { intros d Hd. destruct (mapM_nth _ _ _ (Z.to_nat d) d Eos) as (o & Eo & No). { apply (zget_ok (zrange (t_dim T + 1)) d d). apply zget_zrange. lia. }
    assert (zget os d = Ok o) as Ez by (apply zget_ok; split; [lia|exact No]). unfold maps. rewrite Ez. exact Eo. }
  assert (reorders T maps) as HR. { intros d Hd. destruct (K d Hd) as (o & E & L & P & _). rewrite (KM d Hd) in E. injection E as <-. split; assumption. }
  pose proof (reorders_picks T maps HT HR) as HP. destruct (unmapped c T m maps HT HM HW HP) as (m' & E' & M' & W' & C'). exists m', (T' T maps), maps. split; [exact E'|]. split; [exact HR|].
  split; [exact (picked_listed T HT maps HP)|]. split. { intros d Hd. destruct (K d Hd) as (o & E & _ & _ & So). rewrite (KM d Hd) in E. injection E as <-. exact So. }
  split; [exact (picked_valid T maps HT HP)|]. auto.
Qed.

(** ** Boxes *)
Lemma box_tagged T p : valid_topology T -> mesh_of T (b_mesh (p_built p)) -> zlen (p_coords p) = t_nents T 0 * t_dim T -> (forall d, 0 <= d <= t_dim T -> b_globals (p_built p) d = Some (zrange (t_nents T d))) ->
  let tm := m_tags (with_tags_of p) in well_tagged T tm /\ has_globals (t_dim T) tm /\
  zget (t_tags tm) 0 = Ok [global_of (zrange (t_nents T 0)); mk_tag (name_of "coordinates") OMEGA_H_F64 (t_dim T) (Some (p_coords p))] /\
  forall d, 1 <= d <= t_dim T -> zget (t_tags tm) d = Ok [global_of (zrange (t_nents T d))].
Proof.
  intros HT HM LC HG tm. pose proof (v_dim T HT) as HD. pose proof (mesh_ready T _ HT HM) as R. pose proof (i_dim T _ (proj1 R)) as ED.
  assert (zget (t_tags tm) 0 = Ok [global_of (zrange (t_nents T 0)); mk_tag (name_of "coordinates") OMEGA_H_F64 (t_dim T) (Some (p_coords p))]) as K0.
  { unfold tm, with_tags_of. cbn [m_tags t_tags]. rewrite ED, (HG 0) by lia. replace (0 <=? t_dim T) with true by lia. reflexivity. }
  assert (forall d, 1 <= d <= t_dim T -> zget (t_tags tm) d = Ok [global_of (zrange (t_nents T d))]) as K1.
  { intros d Hd. unfold tm, with_tags_of. cbn [m_tags t_tags]. rewrite ED. assert (d = 1 \/ d = 2 \/ d = 3) as [->|[->| ->]] by lia; [replace (1 <=? t_dim T) with true by lia; rewrite (HG 1) by lia|replace (2 <=? t_dim T) with true by lia; rewrite (HG 2) by lia|replace (3 <=? t_dim T) with true by lia; rewrite (HG 3) by lia]; reflexivity. }
  split; [|split; [|split; assumption]].
  - split; [exact ED|]. split; [reflexivity|]. split; [reflexivity|]. split.
    { intros d Hd. unfold tm, with_tags_of. cbn [m_tags t_tags]. rewrite ED. assert (d = 2 \/ d = 3) as [->| ->] by lia; [replace (2 <=? t_dim T) with false by lia|replace (3 <=? t_dim T) with false by lia]; reflexivity. }
    intros d Hd. split.
    { unfold tm, with_tags_of. cbn [m_tags M_Tags.t_nents]. rewrite zget_map, zget_zrange by lia. cbn [bind]. f_equal. apply ready_nents; assumption. }
    pose proof (v_nents T HT d Hd) as Nn. assert (forall t, t = global_of (zrange (t_nents T d)) -> tag_name t <> [] /\ 0 <= tag_ncomps t <= 127 /\ In (tag_type t) [OMEGA_H_I8; OMEGA_H_I32; OMEGA_H_I64; OMEGA_H_F64] /\
      exists a, tag_array t = Some a /\ zlen a = t_nents T d * tag_ncomps t) as KG.
    { intros t ->. cbn [global_of tag_name tag_ncomps tag_type tag_array]. split; [discriminate|]. split; [lia|]. split; [right; right; left; reflexivity|]. eexists. split; [reflexivity|]. rewrite zlen_zrange by lia. lia. }
    destruct (Z.eq_dec d 0) as [->|Ne].
    + eexists. split; [exact K0|]. split; [unfold zlen; cbn; lia|]. split.
      { cbn [map tag_name global_of]. apply NoDup_cons; [intros [E|[]]; discriminate|]. apply NoDup_cons; [intros []|constructor]. }
      intros t [<-|[<-|[]]]; [apply KG; reflexivity|]. cbn [tag_name tag_ncomps tag_type tag_array]. split; [discriminate|]. split; [lia|]. split; [do 3 right; left; reflexivity|]. eexists. split; [reflexivity|exact LC].
    + eexists. split; [apply K1; lia|]. split; [unfold zlen; cbn; lia|]. split; [cbn [map]; apply NoDup_cons; [intros []|constructor]|]. intros t [<-|[]]. apply KG. reflexivity.
  - intros d Hd. destruct (Z.eq_dec d 0) as [->|Ne]; [exists [global_of (zrange (t_nents T 0)); mk_tag (name_of "coordinates") OMEGA_H_F64 (t_dim T) (Some (p_coords p))]|exists [global_of (zrange (t_nents T d))]]; [exists (zrange (t_nents T 0))|exists (zrange (t_nents T d))]; (split; [first [exact K0|apply K1; lia]|left; reflexivity]).
Qed.

Lemma class_dims_mesh_of T c coords nel ds : forall m r, mesh_of T m -> classify_dims c m coords nel ds = Ok (Some r) -> mesh_of T (fst r).
Proof.
  induction ds as [|d ds IH]; intros m r HM E; cbn [classify_dims] in E; [injection E as <-; exact HM|].
  apply bindo_some in E as (cs & E1 & E). apply bind_ok in E as (tags & _ & E). apply bindo_some in E as (rest & E3 & E). injection E as <-. cbn [fst]. apply (IH _ _ ) in E3; [exact E3|].
  destruct (negb (d =? 0)); [|injection E1 as <-; exact HM]. unfold exact_average_field in E1. apply bind_ok in E1 as (_ & _ & E1). apply bindo_some in E1 as (a & Ea & E1). apply bind_ok in E1 as (o & _ & E1). injection E1 as <-. exact (ask_mesh_of T _ _ _ _ _ HM Ea).
Qed.

Lemma coordinates_moved T maps m tags0 tags' nc coords : zget (t_tags m) 0 = Ok tags0 -> In (mk_tag (name_of "coordinates") OMEGA_H_F64 nc (Some coords)) tags0 -> forall kept, Forall2 (carries (maps 0)) (filter not_global tags0) kept -> tags' = kept ++ [global_of (zrange (t_nents T 0))] ->
  exists coords', In (mk_tag (name_of "coordinates") OMEGA_H_F64 nc (Some coords')) tags' /\ zlen coords' = zlen (maps 0) * nc /\
    forall e' e j, zget (maps 0) e' = Ok e -> 0 <= j < nc -> zget coords' (e' * nc + j) = zget coords (e * nc + j).
Proof.
  intros E0 I kept F2 ->. assert (In (mk_tag (name_of "coordinates") OMEGA_H_F64 nc (Some coords)) (filter not_global tags0)) as I' by (apply filter_In; split; [exact I|reflexivity]).
  destruct (carried_in _ _ _ _ F2 I') as (t' & It & (C1 & C2 & C3 & a & a' & Ea & Ea' & L & K)). cbn in C1, C2, C3, Ea, L, K. injection Ea as <-. exists a'. split; [|split; assumption]. apply in_app_iff. left. destruct t'. cbn in *. subst. exact It.
Qed.
Lemma places_moved T (HT : valid_topology T) maps (HR : reorders T maps) U (HU : valid_topology U) (HL : listed T maps U) coords coords' place : places (t_dim T) (t_nents T 0) coords place -> zlen coords' = zlen (maps 0) * t_dim T ->
  (forall e' e j, zget (maps 0) e' = Ok e -> 0 <= j < t_dim T -> zget coords' (e' * t_dim T + j) = zget coords (e * t_dim T + j)) -> places (t_dim T) (t_nents U 0) coords' (place' maps place).
Proof.
  intros [PL PP] L K. pose proof (v_dim T HT) as HD. pose proof HL as (_ & _ & HN & _). split; [rewrite (HN 0) by lia; exact L|]. intros v a Hv. destruct (old_ok T HT maps HR U HL 0 v ltac:(lia) Hv) as [E B]. destruct (PP _ a B) as [P1 P2]. unfold place'. split.
  - intros Ha. rewrite (K v _ a E Ha). apply P1, Ha.
  - exact P2.
Qed.

Section box.
Context (nx ny nz : Z) (Hx : 0 < nx) (Hy : 0 <= ny) (Hz : 0 <= nz) (keys : list Z -> Z -> res (list Z)) (HK : gives_keys keys).
Lemma box_from c1 c2 c3 f p : is_box_mesh f nx ny nz p -> exists m r,
  reorder_by_hilbert keys c1 c2 (with_tags_of p) = Ok (Some m) /\ exists coords, get_array (m_tags m) OMEGA_H_F64 0 (name_of "coordinates") = Ok (Some coords) /\
  classify_box c3 (m_adj m) coords nx ny nz = Ok (Some r) /\ is_whole_box f nx ny nz (mk_tagged (fst r) (m_tags m), snd r, get_box_class_sets (a_dim (m_adj m))).
Proof.
  intros (ev2v & T & place & HT & HM & HP & HF & HG). pose proof HT as (V & F & D & _). rewrite <- D in HG. pose proof HP as HP'. rewrite <- D in HP'. pose proof (v_dim T V) as HD.
  destruct (box_tagged T p V HM (proj1 HP') HG) as (W & G & K0 & K1). destruct (HK (p_coords p) (t_dim T) (t_nents T 0) HD (proj1 HP')) as (k & Ek & Lk).
  assert (In (mk_tag (name_of "coordinates") OMEGA_H_F64 (t_dim T) (Some (p_coords p))) [global_of (zrange (t_nents T 0)); mk_tag (name_of "coordinates") OMEGA_H_F64 (t_dim T) (Some (p_coords p))]) as IC by (right; left; reflexivity).
  destruct (curve_ordered keys c1 c2 T (with_tags_of p) _ (t_dim T) (p_coords p) k V HM W G K0 IC Ek Lk) as (m & U & maps & order & E & So & HR & HL & FV & VU & MU & WU & TR).
  exists m. destruct (TR 0 ltac:(lia)) as (tags & kept & Et & F2 & Et'). rewrite K0 in Et. injection Et as <-.
  destruct (coordinates_moved T maps _ _ _ _ _ K0 IC kept F2 eq_refl) as (co & Ico & Lco & Kco). pose proof (places_moved T V maps HR U VU HL _ _ place HP' Lco Kco) as PU.
  assert (t_dim U = t_dim T) as DU by apply HL. assert (t_nents U 0 = t_nents T 0) as NU by (apply (same_nents T maps HR U HL); lia).
  pose proof (topology_renumbered T V maps HR U VU HL _ _ _ _ HT) as TU. rewrite <- NU in TU. pose proof (fills_renumbered T V maps HR U VU HL place _ HF) as FU.
  assert (get_array (m_tags m) OMEGA_H_F64 0 (name_of "coordinates") = Ok (Some co)) as EG by exact (get_array_ok U (m_tags m) 0 _ _ co VU WU ltac:(lia) Et' Ico eq_refl).
  rewrite D in PU. destruct (box_classified c3 f nx ny nz U (m_adj m) _ co _ Hx Hy Hz TU MU PU FU) as (a & classes & EC & CL & CF). exists (a, classes). split; [exact E|]. exists co. split; [exact EG|]. split; [exact EC|].
  exists (t_verts U (box_dim ny nz)), U, (place' maps place), co, (kept ++ [global_of (zrange (t_nents T 0))]). cbn [fst snd m_adj m_tags]. split; [exact TU|]. split; [|split; [exact WU|]].
  { unfold classify_box in EC. apply bind_ok in EC as (_ & _ & EC). exact (class_dims_mesh_of U _ _ _ _ _ _ MU EC). }
  split; [exact Et'|]. split; [rewrite <- D; exact Ico|]. split; [exact PU|]. split; [exact FU|]. split.
  - intros d Hd. rewrite <- D in Hd. destruct (TR d Hd) as (tags & kept' & _ & _ & Ed). eexists. split; [exact Ed|]. apply in_app_iff. right. left. rewrite (same_nents T maps HR U HL d Hd). reflexivity.
  - split; [exact CL|]. split; [exact CF|]. rewrite (i_dim U _ (proj1 (mesh_ready U _ VU MU))), DU, D. reflexivity.
Qed.
Lemma whole_box c c' c1 c2 c3 be f symmetric : loops_covered be -> exists o, build_box keys c c' c1 c2 c3 be f nx ny nz symmetric = Ok o /\ forall r, o = Some r -> is_whole_box f nx ny nz r.
Proof.
  intros HB. unfold build_box. destruct (box_outcome nx ny nz Hx Hy Hz c c' be f symmetric HB) as (o & Eo & Ko). rewrite Eo. unfold bindo at 1. cbn [bind]. destruct o as [p|]; [|exists None; split; [reflexivity|discriminate]].
  destruct (box_from c1 c2 c3 f p (Ko p eq_refl)) as (m & r & E & co & EG & EC & W). unfold bindo. rewrite E. cbn [bind]. rewrite EG. cbn [bind]. rewrite EC. cbn [bind]. eexists. split; [reflexivity|]. intros r' H. injection H as <-. exact W.
Qed.
Lemma whole_box_finishes c1 c2 c3 be f symmetric mem mem' : loops_covered be -> exists first second first' second' r,
  build_box keys (mk_chance mem first second (fun _ _ => false)) (mk_chance mem' first' second' (fun _ _ => false)) c1 c2 c3 be f nx ny nz symmetric = Ok (Some r).
Proof.
  intros HB. destruct (box_finishes nx ny nz Hx Hy Hz be f symmetric mem mem' HB) as (f1 & s1 & f2 & s2 & p & E). exists f1, s1, f2, s2. unfold build_box. unfold bindo at 1. rewrite E. cbn [bind].
  destruct (box_from c1 c2 c3 f p (box_right nx ny nz _ _ be f symmetric p Hx Hy Hz HB E)) as (m & r & E' & co & EG & EC & W). unfold bindo. rewrite E'. cbn [bind]. rewrite EG. cbn [bind]. rewrite EC. cbn [bind]. eexists. reflexivity.
Qed.
End box.
