(** Renumbering a mesh by an order of its vertices. *)
From Coq Require Import String Permutation Sorted.
From Verif Require Import Prelude M_Array M_Par M_Scan M_Sort S_Sort P_Sort M_Map S_Map P_Map P_Map2 P_Invert M_Graph S_Graph P_Graph M_Template S_Template P_Template M_Align S_Align P_Align M_Unique S_Unique P_Unique M_Adj S_Adj P_Adj S_Transit P_Transit
  M_ArrayOps P_ArrayOps P_Coarsen P_Match M_Tags S_Tags P_Tags P_Tags2 M_MeshAdj S_MeshAdj P_MeshAdj P_MeshAdj2 P_MeshAdj3 M_Build S_Build P_Build P_Box M_Unmap S_Unmap P_Unmap P_Unmap2 P_Renumber M_Box M_BoxClass M_Reorder S_Reorder.
From Verif Require P_Owners2.
Local Open Scope Z_scope.

(** ** Inverting a map: one list of sources per target *)
Lemma inverted_lists a2b nb : 0 <= nb -> (forall b, In b a2b -> 0 <= b < nb) ->
  exists r, invert_map_by_sorting a2b nb = Ok r /\ mk_graph (fst r) (snd r) = of_lists (map (uses_of a2b) (zrange nb)).
Proof.
  intros Hn HB. destruct (invert_map_by_sorting_spec a2b nb Hn HB) as (b2ba & ba2a & E & (IF & L1 & E2 & L2 & PM & G) & S). exists (b2ba, ba2a). split; [exact E|]. cbn [fst snd].
  assert (wf_graph (mk_graph b2ba ba2a)) as W. { split; [exact IF|]. cbn [a2ab ab2b]. unfold last_of. rewrite L1. replace (nb + 1 - 1) with nb by lia. rewrite E2. congruence. }
  destruct (wf_lists _ W) as (L & EL). rewrite EL. f_equal. assert (zlen L = nb) as LL. { rewrite <- nnodes_of_lists, <- EL. unfold nnodes. cbn [a2ab]. lia. }
  apply list_eq_zget; [rewrite zlen_map, zlen_zrange by lia; exact LL|]. intros b Hb. rewrite zget_map, zget_zrange by lia. cbn [bind]. destruct (zget_in_range L b Hb) as (t & Et). rewrite Et. f_equal.
  pose proof (targets_of_lists L b t Et) as TT. rewrite <- EL in TT. unfold targets in TT. cbn [a2ab ab2b] in TT. apply bind_ok in TT as (lo & Elo & TT). apply bind_ok in TT as (hi & Ehi & TT).
  assert (forall i, lo <= i < hi <-> in_group b2ba b i) as GI. { intros i. split; [intros H; exists lo, hi; auto|]. intros (lo' & hi' & A & B & C). congruence. }
  apply sorted_ext.
  - pose proof (zfromto_sorted lo hi) as SZ. assert (forall js, (forall j, In j js -> lo <= j < hi) -> StronglySorted Z.lt js -> forall t, mapM (zget ba2a) js = Ok t -> StronglySorted Z.lt t) as K.
    { clear - S GI. intros js HJ SJ. induction SJ as [|j js SJ IH FJ]; intros t Et; cbn [mapM] in Et; [injection Et as <-; constructor|]. apply bind_ok in Et as (x & Ex & Et). apply bind_ok in Et as (t0 & Et0 & Et). injection Et as <-.
      constructor; [apply IH; [intros; apply HJ; right; assumption|exact Et0]|]. apply Forall_forall. intros y Hy. apply mapM_ok in Et0. clear IH. rewrite Forall_forall in FJ.
      assert (exists j', In j' js /\ zget ba2a j' = Ok y) as (j' & Hj' & Ey). { clear - Et0 Hy. induction Et0 as [|a b la lb H _ IH]; [destruct Hy|]. destruct Hy as [<-|Hy]; [exists a; split; [left; reflexivity|exact H]|]. destruct (IH Hy) as (j' & I & E'). exists j'. split; [right; exact I|exact E']. }
      apply (S b j j' x y); [apply GI, HJ; left; reflexivity|apply GI, HJ; right; exact Hj'|apply FJ; exact Hj'|exact Ex|exact Ey]. }
    apply (K (zfromto lo hi)); [intros j Hj; apply in_zfromto in Hj; exact Hj|exact SZ|exact TT].
  - apply uses_of_sorted.
  - intros x. rewrite uses_of_in. apply mapM_ok in TT. split.
    + intros Hx. assert (exists j', In j' (zfromto lo hi) /\ zget ba2a j' = Ok x) as (j' & Hj' & Ey). { clear - TT Hx. induction TT as [|a b la lb H _ IH]; [destruct Hx|]. destruct Hx as [<-|Hy]; [exists a; split; [left; reflexivity|exact H]|]. destruct (IH Hy) as (j' & I & E'). exists j'. split; [right; exact I|exact E']. }
      apply in_zfromto in Hj'. apply GI in Hj'. apply G in Hj' as (a & A & B). congruence.
    + intros Hx. assert (In x ba2a) as Ix. { eapply Permutation_in; [symmetry; exact PM|]. apply in_zrange. rewrite L2. exact (zget_bounds _ _ _ Hx). } apply P_Unmap.In_zget in Ix as (i & Ei). assert (In i (zfromto lo hi)) as Ii. { apply in_zfromto, GI, G. eauto. }
      clear - TT Ii Ei. induction TT as [|a b la lb H _ IH]; [destruct Ii|]. destruct Ii as [->|Ii]; [left; congruence|right; exact (IH Ii)].
Qed.

(** ** The order of the entities *)
Section order.
Context (e2fv : list Z) (nv : Z) (HE : forall v, In v e2fv -> 0 <= v < nv) (vo : list Z) (LV : zlen vo = nv) (PV : is_perm vo).
Definition in_order : list Z := concat (map (uses_of e2fv) vo).
Lemma vo_in v : In v vo <-> 0 <= v < nv.
Proof. rewrite <- LV, <- in_zrange. split; intros H; [exact (Permutation_in _ PV H)|exact (Permutation_in _ (Permutation_sym PV) H)]. Qed.
Lemma in_order_in e : In e in_order <-> 0 <= e < zlen e2fv.
Proof.
  unfold in_order. rewrite in_concat. split.
  - intros (l & Hl & He). apply in_map_iff in Hl as (v & <- & _). apply uses_of_in in He. exact (zget_bounds _ _ _ He).
  - intros He. destruct (zget_in_range e2fv e He) as (v & Ev). exists (uses_of e2fv v). split; [apply in_map, vo_in, HE, (zget_In _ _ _ Ev)|]. apply uses_of_in, Ev.
Qed.
Lemma nodup_concat_map (f : Z -> list Z) l : NoDup l -> (forall v, NoDup (f v)) -> (forall v w x, In x (f v) -> In x (f w) -> v = w) -> NoDup (concat (map f l)).
Proof.
  intros N F D. induction N as [|v l Nv N IH]; [constructor|]. cbn [map concat]. apply P_Owners2.NoDup_app_intro; [apply F|exact IH|]. intros x Hx I. apply in_concat in I as (t & It & Ix). apply in_map_iff in It as (w & <- & Iw). rewrite (D v w x Hx Ix) in Nv. contradiction.
Qed.
Lemma in_order_perm : zlen in_order = zlen e2fv /\ is_perm in_order.
Proof.
  assert (Permutation in_order (zrange (zlen e2fv))) as P.
  { apply NoDup_Permutation; [|apply zrange_NoDup|].
    - apply nodup_concat_map; [eapply Permutation_NoDup; [symmetry; exact PV|apply zrange_NoDup]| |].
      + intros v. apply NoDup_filter, zrange_NoDup.
      + intros v w x A B. apply uses_of_in in A. apply uses_of_in in B. congruence.
    - intros e. rewrite in_order_in, in_zrange. reflexivity. }
  assert (zlen in_order = zlen e2fv) as L. { unfold zlen at 1. rewrite (Permutation_length P), zrange_length. pose proof (zlen_nonneg e2fv). lia. }
  split; [exact L|]. unfold is_perm. rewrite L. exact P.
Qed.
Definition earlier (l : list Z) (a b : Z) : Prop := exists p q v w, zget l p = Ok v /\ zget l q = Ok w /\ zget e2fv a = Ok v /\ zget e2fv b = Ok w /\ (p < q \/ (p = q /\ a < b)).
Lemma zget_next {A} (x : A) l p y : zget l p = Ok y -> zget (x :: l) (p + 1) = Ok y.
Proof. intros E. pose proof (zget_bounds _ _ _ E). change (x :: l) with ([x] ++ l). rewrite zget_app_r by (cbn; lia). change (zlen [x]) with 1. replace (p + 1 - 1) with p by lia. exact E. Qed.
Lemma sorted_app {A} (R : A -> A -> Prop) l m : StronglySorted R l -> StronglySorted R m -> (forall x y, In x l -> In y m -> R x y) -> StronglySorted R (l ++ m).
Proof.
  intros SL SM H. induction SL as [|x l SL IH F]; [exact SM|]. cbn [app]. constructor; [apply IH; intros; apply H; [right|]; assumption|]. apply Forall_app. split; [exact F|]. apply Forall_forall. intros y Hy. apply H; [left; reflexivity|exact Hy].
Qed.
Lemma sorted_weaken {A} (R S : A -> A -> Prop) l : (forall x y, In x l -> In y l -> R x y -> S x y) -> StronglySorted R l -> StronglySorted S l.
Proof.
  intros H SL. induction SL as [|x l SL IH F]; constructor; [apply IH; intros; apply H; [right|right|]; assumption|]. rewrite Forall_forall in *. intros y Hy. apply H; [left; reflexivity|right; exact Hy|apply F, Hy].
Qed.
Lemma in_order_sorted : StronglySorted (earlier vo) in_order.
Proof.
  unfold in_order. clear LV PV. induction vo as [|v l IH]; [constructor|]. cbn [map concat]. apply sorted_app.
  - eapply sorted_weaken; [|apply uses_of_sorted]. intros a b A B H. apply uses_of_in in A. apply uses_of_in in B. exists 0, 0, v, v. auto 10.
  - eapply sorted_weaken; [|exact IH]. intros a b _ _ (p & q & x & y & E1 & E2 & E3 & E4 & H). exists (p + 1), (q + 1), x, y. split; [apply zget_next, E1|]. split; [apply zget_next, E2|]. split; [exact E3|]. split; [exact E4|]. lia.
  - intros a b A B. apply uses_of_in in A. apply in_concat in B as (t & It & B). apply in_map_iff in It as (w & <- & Iw). apply uses_of_in in B. apply P_Unmap.In_zget in Iw as (q & Eq). exists 0, (q + 1), v, w. split; [reflexivity|]. split; [apply zget_next, Eq|].
    split; [exact A|]. split; [exact B|]. pose proof (zget_bounds _ _ _ Eq). left. lia.
Qed.
Lemma in_order_graph : mapM (zget (map (uses_of e2fv) (zrange nv))) vo = Ok (map (uses_of e2fv) vo).
Proof. apply mapM_map_ok. intros v Hv. apply vo_in in Hv. rewrite zget_map, zget_zrange by lia. reflexivity. Qed.
End order.

(** ** One dimension *)
Lemma ask_mesh_of T c m from to r : mesh_of T m -> ask_adj c m from to = Ok (Some r) -> mesh_of T (fst r).
Proof.
  intros (m0 & es & E0 & HB & HR & HC) E. exists m0, (es ++ [Ask from to c]). split; [exact E0|]. split.
  - intros d a H. apply in_app_iff in H as [H|[H|[]]]; [exact (HB d a H)|discriminate].
  - split; [|intros d Hd; destruct (ask_keeps 6 c m from to r E) as (_ & N & _); rewrite N; exact (HC d Hd)]. rewrite (run_app es _ _ _ HR). cbn [run_aevents run_aevent]. unfold bindo. rewrite E. reflexivity.
Qed.
Definition first_verts (T : topology) (d : Z) : list Z := match component (t_verts T d) (element_degree (t_family T) d 0) 0 with Ok l => l | _ => [] end.
Lemma first_verts_ok T d : valid_topology T -> 1 <= d <= t_dim T -> component (t_verts T d) (element_degree (t_family T) d 0) 0 = Ok (first_verts T d) /\ zlen (first_verts T d) = t_nents T d /\
  (forall e, 0 <= e < t_nents T d -> zget (first_verts T d) e = zget (t_verts T d) (e * element_degree (t_family T) d 0)) /\ forall v, In v (first_verts T d) -> 0 <= v < t_nents T 0.
Proof.
  intros V Hd. pose proof (v_dim T V) as HD. pose proof (degree_pos (t_family T) d 0 ltac:(lia) ltac:(lia)) as P. destruct (v_verts T V d Hd) as (L & _ & B). destruct (component_spec (t_verts T d) (element_degree (t_family T) d 0) 0 (t_nents T d) P L ltac:(lia)) as (r & E & Lr & G).
  unfold first_verts. rewrite E. split; [reflexivity|]. split; [exact Lr|]. assert (forall e, 0 <= e < t_nents T d -> zget r e = zget (t_verts T d) (e * element_degree (t_family T) d 0)) as G' by (intros e He; rewrite G by exact He; f_equal; lia).
  split; [exact G'|]. intros v Hv. apply P_Unmap.In_zget in Hv as (e & Ee). pose proof (zget_bounds _ _ _ Ee) as Be. rewrite G' in Ee by lia. apply B, (zget_In _ _ _ Ee).
Qed.
Lemma last_offset L : last_of (a2ab (of_lists L)) = Ok (zlen (ab2b (of_lists L))).
Proof. exact (proj2 (of_lists_wf L)). Qed.

Section mesh.
Context (T : topology) (HT : valid_topology T) (vo : list Z) (LV : zlen vo = t_nents T 0) (PV : is_perm vo).
Definition ent_order (d : Z) : list Z := in_order (first_verts T d) vo.
Lemma ent_order_perm d : 1 <= d <= t_dim T -> zlen (ent_order d) = t_nents T d /\ is_perm (ent_order d).
Proof. intros Hd. destruct (first_verts_ok T d HT Hd) as (_ & L & _ & B). rewrite <- L. apply (in_order_perm _ (t_nents T 0) B vo LV PV). Qed.
Lemma ent_order_ok c m d : mesh_of T m -> 1 <= d <= t_dim T -> exists m', ent_order_from_vert_order c m d vo = Ok (Some (m', ent_order d)) /\ mesh_of T m'.
Proof.
  intros HM Hd. pose proof (v_dim T HT) as HD. pose proof (mesh_ready T m HT HM) as R. unfold ent_order_from_vert_order, find_entities_of_first_vertices.
  assert (forall m, ready T m -> forall d, 0 <= d <= t_dim T -> check_dim2 m d = Ok tt /\ a_nents m d = t_nents T d) as CK.
  { intros m1 R1 d1 H1. pose proof (ready_nents T m1 d1 R1 H1) as N1. split; [|exact N1]. apply check_dim2_ok; [rewrite (i_dim T m1 (proj1 R1)); exact H1|rewrite N1; apply (v_nents T HT d1 H1)]. }
  destruct (CK m R 0 ltac:(lia)) as [C0 N0]. rewrite C0. cbn [bind]. rewrite LV, N0, Z.eqb_refl. cbn [check bind]. destruct (down_answer T c m d 0 HT R ltac:(lia) ltac:(lia)) as (m' & a & E & R' & MD).
  unfold bindo at 1 2. rewrite E. cbn [bind fst snd]. change (a = mk_adj [] (t_verts T d) None) in MD. subst a. cbn [adj_ab2b]. rewrite (i_family T m (proj1 R)).
  destruct (first_verts_ok T d HT Hd) as (EF & LF & _ & BF). rewrite EF. cbn [bind]. destruct (CK m' R' 0 ltac:(lia)) as [C0' N0']. rewrite C0', N0'. cbn [bind].
  destruct (inverted_lists (first_verts T d) (t_nents T 0) (v_nents T HT 0 ltac:(lia)) BF) as (r & Er & EL). rewrite Er. cbn [bind fst snd]. rewrite EL. cbn [fst snd].
  destruct (CK m' R' d ltac:(lia)) as [Cd Nd]. pose proof (v_nents T HT 0 ltac:(lia)) as Nn.
  assert (forall L, zlen L = t_nents T 0 -> zlen (a2ab (of_lists L)) = t_nents T 0 + 1) as LA. { intros L EQ. pose proof (nnodes_of_lists L) as Q. unfold nnodes in Q. lia. }
  rewrite LA by (rewrite zlen_map, zlen_zrange by lia; reflexivity). rewrite N0', Z.eqb_refl. cbn [check bind]. rewrite last_offset. cbn [bind]. rewrite Cd. cbn [bind].
  assert (zlen (ab2b (of_lists (map (uses_of (first_verts T d)) (zrange (t_nents T 0))))) = t_nents T d) as LE.
  { assert (zlen (zrange (t_nents T 0)) = t_nents T 0) as LZ by (apply zlen_zrange; lia). destruct (in_order_perm (first_verts T d) (t_nents T 0) BF (zrange (t_nents T 0)) LZ) as [Q _]; [unfold is_perm; rewrite LZ; reflexivity|]. rewrite <- LF, <- Q. reflexivity. }
  rewrite LE, Nd, Z.eqb_refl. cbn [check bind].
  rewrite (unmap_graph_lists vo _ (map (uses_of (first_verts T d)) vo)); [|intros b Hb; rewrite zlen_map, zlen_zrange by lia; apply (vo_in (t_nents T 0) vo LV PV), Hb|apply (in_order_graph (first_verts T d) (t_nents T 0) BF vo LV PV)]. cbn [bind].
  rewrite LA by (rewrite zlen_map; exact LV). rewrite Z.eqb_refl. cbn [check bind]. rewrite last_offset. cbn [bind]. destruct (ent_order_perm d Hd) as [LO _]. change (ab2b (of_lists (map (uses_of (first_verts T d)) vo))) with (ent_order d). rewrite LO, Z.eqb_refl. cbn [check bind].
  exists m'. split; [reflexivity|]. exact (ask_mesh_of T c m d 0 (m', _) HM E).
Qed.
Definition orders (d : Z) : list Z := if d =? 0 then vo else if d <=? t_dim T then ent_order d else [].
Lemma ent_orders_ok c : forall n k m maps, Z.of_nat n = t_dim T + 1 - k -> 1 <= k -> mesh_of T m -> (forall d, 0 <= d < k -> maps d = orders d) ->
  exists m' maps', ent_orders c m vo maps (zfromto k (t_dim T + 1)) = Ok (Some (m', maps')) /\ mesh_of T m' /\ forall d, 0 <= d <= t_dim T -> maps' d = orders d.
Proof.
  induction n as [|n IH]; intros k m maps Hn Hk HM HK.
  - rewrite zfromto_nil by lia. exists m, maps. split; [reflexivity|]. split; [exact HM|]. intros d Hd. apply HK. lia.
  - rewrite zfromto_cons by lia. cbn [ent_orders]. destruct (ent_order_ok c m k HM ltac:(lia)) as (m' & E & HM'). unfold bindo. rewrite E. cbn [bind fst snd].
    apply (IH (k + 1) m' (fun d => if d =? k then ent_order k else maps d)); [lia|lia|exact HM'|]. intros d Hd. destruct (Z.eqb_spec d k) as [->|Ne]; [|apply HK; lia].
    unfold orders. replace (k =? 0) with false by lia. replace (k <=? t_dim T) with true by lia. reflexivity.
Qed.
Lemma orders_reorder : reorders T orders.
Proof.
  intros d Hd. unfold orders. destruct (Z.eqb_spec d 0) as [->|Ne]; [split; [exact LV|exact PV]|]. replace (d <=? t_dim T) with true by lia. apply ent_order_perm. lia.
Qed.
End mesh.

Lemma perm_pos l a b x : is_perm l -> zget l a = Ok x -> zget l b = Ok x -> a = b.
Proof.
  intros P Ea Eb. assert (NoDup l) as N by (eapply Permutation_NoDup; [symmetry; exact P|apply zrange_NoDup]). apply zget_ok in Ea as [B1 Ea]. apply zget_ok in Eb as [B2 Eb]. apply Z2Nat.inj; [lia|lia|]. eapply NoDup_nth_error; [exact N| |congruence].
  apply nth_error_Some. rewrite Ea. discriminate.
Qed.
Lemma orders_follow T vo maps U : valid_topology T -> zlen vo = t_nents T 0 -> is_perm vo -> (forall d, 0 <= d <= t_dim T -> maps d = orders T vo d) -> listed T maps U -> follows_verts T U maps vo.
Proof.
  intros HT LV PV HM HL. pose proof (v_dim T HT) as HD. assert (maps 0 = vo) as M0 by (rewrite HM by lia; reflexivity). split; [exact M0|]. intros d i j a b v w Hd Hij Ea Eb deg Ev Ew. unfold deg in *. clear deg.
  pose proof HL as (_ & _ & _ & H). destruct (H d i a Hd Ea) as [HVa _]. destruct (H d j b Hd Eb) as [HVb _]. cbv zeta in HVa, HVb. pose proof (degree_pos (t_family T) d 0 ltac:(lia) ltac:(lia)) as P.
  destruct (HVa 0 ltac:(lia)) as (va & va' & A1 & A2 & A3). destruct (HVb 0 ltac:(lia)) as (vb & vb' & B1 & B2 & B3). rewrite Z.add_0_r in *. rewrite Ev in A2. injection A2 as <-. rewrite Ew in B2. injection B2 as <-. rewrite M0 in A3, B3.
  rewrite HM in Ea, Eb by lia. unfold orders in Ea, Eb. replace (d =? 0) with false in * by lia. replace (d <=? t_dim T) with true in * by lia.
  destruct (first_verts_ok T d HT Hd) as (_ & LF & GF & BF). destruct (ent_order_perm T HT vo LV PV d Hd) as [LO PO].
  assert (forall e x, zget (ent_order T vo d) e = Ok x -> 0 <= x < t_nents T d) as BO. { intros e x Ex. rewrite <- LO. apply in_zrange. eapply Permutation_in; [exact PO|]. exact (zget_In _ _ _ Ex). }
  pose proof (strongly_zget _ i j a b (in_order_sorted (first_verts T d) (t_nents T 0) BF vo) Ea Eb Hij) as (p & q & x & y & E1 & E2 & E3 & E4 & HH).
  rewrite (GF a (BO i a Ea)), A1 in E3. injection E3 as <-. rewrite (GF b (BO j b Eb)), B1 in E4. injection E4 as <-. rewrite (perm_pos vo p v va PV E1 A3), (perm_pos vo q w vb PV E2 B3) in HH. exact HH.
Qed.
Lemma vert_reordered c c' T m vo : valid_topology T -> mesh_of T (m_adj m) -> well_tagged T (m_tags m) -> zlen vo = t_nents T 0 -> is_perm vo ->
  exists m' U maps, reorder_mesh_by_verts c c' m vo = Ok (Some m') /\ reorders T maps /\ listed T maps U /\ follows_verts T U maps vo /\ valid_topology U /\ mesh_of U (m_adj m') /\
    well_tagged U (m_tags m') /\ tags_carried (t_dim T) maps (m_tags m) (m_tags m').
Proof.
  intros HT HM HW LV PV. pose proof (v_dim T HT) as HD. unfold reorder_mesh_by_verts. rewrite (i_dim T _ (proj1 (mesh_ready T _ HT HM))).
  destruct (ent_orders_ok T HT vo LV PV c (Z.to_nat (t_dim T)) 1 (m_adj m) (fun d => if d =? 0 then vo else []) ltac:(lia) ltac:(lia) HM) as (a & maps & E & HA & EM).
  { intros d Hd. assert (d = 0) as -> by lia. reflexivity. }
  unfold bindo. rewrite E. cbn [bind fst snd]. assert (reorders T maps) as HR. { intros d Hd. rewrite (EM d Hd). apply (orders_reorder T HT vo LV PV d Hd). }
  pose proof (reorders_picks T maps HT HR) as HP. destruct (unmapped c' T (mk_tagged a (m_tags m)) maps HT HA HW HP) as (m' & E' & M' & W' & C'). exists m', (T' T maps), maps. split; [exact E'|]. split; [exact HR|].
  pose proof (picked_listed T HT maps HP) as HL. split; [exact HL|]. split; [exact (orders_follow T vo maps _ HT LV PV EM HL)|]. split; [exact (picked_valid T maps HT HP)|]. auto.
Qed.

(** ** Numbering *)
Lemma carries_filter l tags tags' : Forall2 (carries l) tags tags' -> Forall2 (carries l) (filter not_global tags) (filter not_global tags').
Proof.
  induction 1 as [|t t' ts ts' C _ IH]; [constructor|]. cbn [filter]. assert (not_global t' = not_global t) as -> by (unfold not_global; rewrite (proj1 C); reflexivity). destruct (not_global t); [constructor; assumption|exact IH].
Qed.
Lemma globals_numbered T m : valid_topology T -> well_tagged T m -> has_globals (t_dim T) m ->
  exists m', foldM number_entities (zrange (t_dim T + 1)) m = Ok m' /\ well_tagged T m' /\
    forall d, 0 <= d <= t_dim T -> exists tags, zget (t_tags m) d = Ok tags /\ zget (t_tags m') d = Ok (filter not_global tags ++ [global_of (zrange (t_nents T d))]).
Proof.
  intros HT HW HG. pose proof (v_dim T HT) as HD. destruct (well_valid T m HT HW) as [V N]. pose proof HW as (W1 & W2 & W3 & W4 & W5).
  destruct (forM_invariant (fun i m' => valid m' /\ alike m m' /\ forall d, tags_at m' d = if (0 <=? d) && (d <? i) then filter not_global (tags_at m d) ++ [global_of (zrange (t_nents T d))] else tags_at m d)
    (t_dim T + 1) m (fun m d => number_entities m d) ltac:(lia)) as (m' & E & V' & A' & TA).
  - split; [exact V|]. split; [split; reflexivity|]. intros d. replace ((0 <=? d) && (d <? 0)) with false by (symmetry; apply andb_false_iff; rewrite Z.leb_gt, Z.ltb_ge; lia). reflexivity.
  - intros i m1 Hi (V1 & [A1 A2] & T1). unfold number_entities. destruct (remove_ok m1 i (name_of "global") V1 ltac:(lia)) as (m2 & E2 & [A3 A4] & V2 & T2). rewrite E2. cbn [bind].
    assert (nents_at m2 i = t_nents T i) as N2 by (unfold nents_at; rewrite A4, A2; exact (N i ltac:(lia))). pose proof (v_nents T HT i ltac:(lia)) as Ni.
    unfold M_Tags.nents. rewrite (P_Tags.check_dim2_ok m2 i V2) by lia. cbn [bind]. rewrite (nents_at_ok m2 i V2) by lia. cbn [bind]. rewrite N2.
    assert (tags_at m2 i = filter not_global (tags_at m i)) as T2i. { rewrite T2, T1. replace ((0 <=? i) && (i <? i)) with false by (symmetry; apply andb_false_iff; rewrite Z.ltb_ge; lia). apply filter_ext. intros t. rewrite Z.eqb_refl. reflexivity. }
    destruct (W5 i ltac:(lia)) as (_ & tags & Et & Lt & ND & Ht). assert (tags_at m i = tags) as Eta by (unfold tags_at; rewrite Et; reflexivity).
    destruct (HG i ltac:(lia)) as (tags0 & g & Et0 & Ig). rewrite Et in Et0. injection Et0 as <-.
    assert (find_tag (filter not_global tags) (name_of "global") = None) as FN. { apply find_none. intros I. apply in_map_iff in I as (t & Et1 & It). apply filter_In in It as [_ It]. unfold not_global in It. rewrite Et1, same_name_refl in It. discriminate. }
    assert (zlen (filter not_global tags) < 127) as Lf. { clear - Ig Lt. assert (zlen (filter not_global tags) < zlen tags); [|lia]. clear Lt. induction tags as [|t tags IH]; [destruct Ig|]. cbn [filter]. destruct Ig as [->|Ig].
      - cbn. assert (forall l, zlen (filter not_global l) <= zlen l) as K. { intros l. induction l as [|x l IHl]; [apply Z.le_refl|]. cbn [filter]. destruct (not_global x); rewrite ?zlen_cons; lia. } specialize (K tags). change (zlen (filter not_global tags) < zlen (global_of g :: tags)). rewrite zlen_cons. lia.
      - specialize (IH Ig). destruct (not_global t); rewrite ?zlen_cons; lia. }
    destruct (add_ok m2 OMEGA_H_I64 i (name_of "global") 1 (Some (zrange (t_nents T i))) false V2 ltac:(lia) ltac:(lia) ltac:(discriminate)) as (m3 & E3). { intros _. rewrite T2i, Eta. split; [lia|exact Lf]. } { intros x Ex. injection Ex as <-. rewrite N2, zlen_zrange by lia. lia. }
    exists m3. split; [exact E3|]. destruct (add_inv m2 _ _ _ _ _ _ m3 V2 E3) as (_ & _ & [B1 B2] & V3 & _ & _ & TA3). split; [exact V3|]. split; [split; congruence|]. intros d. rewrite TA3.
    assert (forall x d', derived (M_Tags.t_dim m2) (name_of "global") d' x = false) as DF. { intros x d'. unfold derived. reflexivity. }
    rewrite filter_all. 2: { intros x _. rewrite DF. rewrite andb_false_r. reflexivity. }
    destruct (Z.eqb_spec d i) as [->|Ne].
    + replace ((0 <=? i) && (i <? i + 1)) with true by (symmetry; apply andb_true_iff; rewrite Z.leb_le, Z.ltb_lt; lia). rewrite T2i, Eta. unfold put. cbn [tag_name]. rewrite FN. reflexivity.
    + rewrite T2, T1. rewrite filter_all by (intros x _; replace (d =? i) with false by lia; reflexivity). assert ((d <? i + 1) = (d <? i)) as -> by (destruct (Z.ltb_spec d i), (Z.ltb_spec d (i + 1)); lia). reflexivity.
  - exists m'. split; [exact E|]. assert (forall d, 0 <= d <= t_dim T -> exists tags, zget (t_tags m) d = Ok tags /\ zget (t_tags m') d = Ok (filter not_global tags ++ [global_of (zrange (t_nents T d))])) as K.
    { intros d Hd. exists (tags_at m d). split; [apply tags_at_ok; [exact V|lia]|]. rewrite (tags_at_ok m' d V') by (destruct A'; lia). rewrite TA. replace ((0 <=? d) && (d <? t_dim T + 1)) with true by (symmetry; apply andb_true_iff; rewrite Z.leb_le, Z.ltb_lt; lia). reflexivity. }
    split; [|exact K]. destruct A' as [A1 A2]. pose proof V' as (_ & L1 & L2 & V4). split; [congruence|]. split; [exact L1|]. split; [exact L2|]. split.
    + intros d Hd. specialize (TA d). replace ((0 <=? d) && (d <? t_dim T + 1)) with false in TA by (symmetry; apply andb_false_iff; rewrite Z.ltb_ge; lia). destruct (zget_in_range (t_tags m') d ltac:(lia)) as (x & Ex). rewrite Ex. f_equal.
      unfold tags_at in TA. rewrite Ex, (W4 d Hd) in TA. exact TA.
    + intros d Hd. rewrite A2. destruct (W5 d Hd) as (EN & tags & Et & Lt & ND & Ht). split; [exact EN|]. destruct (K d Hd) as (tg & Etg & Etm). rewrite Et in Etg. injection Etg as <-. exists (filter not_global tags ++ [global_of (zrange (t_nents T d))]). split; [exact Etm|].
      pose proof (v_nents T HT d Hd) as Nd. split; [|split].
      * destruct (HG d Hd) as (tags0 & g & Et0 & Ig). rewrite Et in Et0. injection Et0 as <-. rewrite zlen_app. change (zlen [global_of (zrange (t_nents T d))]) with 1.
        assert (zlen (filter not_global tags) < zlen tags); [|lia]. clear - Ig. assert (forall l, zlen (filter not_global l) <= zlen l) as K. { intros l. induction l as [|x l IHl]; [apply Z.le_refl|]. cbn [filter]. destruct (not_global x); rewrite ?zlen_cons; lia. }
        induction tags as [|t tags IH]; [destruct Ig|]. cbn [filter]. destruct Ig as [->|Ig]; [change (zlen (filter not_global tags) < zlen (global_of g :: tags)); rewrite zlen_cons; specialize (K tags); lia|]. specialize (IH Ig). destruct (not_global t); rewrite ?zlen_cons; lia.
      * specialize (V4 d). unfold tags_at in V4. rewrite Etm in V4. exact (proj1 V4).
      * intros t It. apply in_app_iff in It as [It|[<-|[]]]; [apply Ht; apply filter_In in It; tauto|]. split; [discriminate|]. split; [cbn; lia|]. split; [cbn; auto|]. eexists. split; [reflexivity|]. cbn [tag_ncomps global_of]. rewrite zlen_zrange by lia. lia.
Qed.
