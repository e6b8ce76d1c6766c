From Verif Require Import Prelude M_Array M_Par M_Scan P_Scan M_Sort M_Map S_Map P_Map P_Map2 M_Template S_Template P_Template M_Align S_Align P_Align S_Unique P_Unique M_Adj S_Adj P_Adj P_Match M_Transit S_Transit P_Transit M_Mark S_Mark P_Mark M_Across S_Across P_Across M_Graph S_Graph P_Graph M_MeshAdj S_MeshAdj.
Local Open Scope Z_scope.

Lemma bindo_some {A B} (m : res (option A)) (f : A -> res (option B)) b : bindo m f = Ok (Some b) -> exists a, m = Ok (Some a) /\ f a = Ok (Some b).
Proof. unfold bindo. intros H. apply bind_ok in H as ([a|] & E & H); [eauto|discriminate]. Qed.
Lemma check_true b : check b = Ok tt -> b = true.
Proof. destruct b; [reflexivity|discriminate]. Qed.

(** ** consequences of [reflects] *)
Lemma polygon_same_set {A} (l m : list A) : same_polygon l m -> forall x, In x l <-> In x m.
Proof.
  intros [(a & b & -> & ->)|(a & b & E & ->)] x; rewrite !in_app_iff; [tauto|]. rewrite (in_rev l), E, in_app_iff. tauto.
Qed.
Lemma high_deg f h : 1 <= h <= 3 -> 2 <= element_degree f h 0.
Proof. intros H. assert (h = 1 \/ h = 2 \/ h = 3) as [->|[->| ->]] by lia; destruct f; vm_compute; discriminate. Qed.

Section reflects.
Context (f : family) (high low : Z) (hv2v lv2v hl2l codes : list Z) (nh nl : Z).
Context (Hlow : 1 <= low < high) (Hhigh : high <= 3) (Hv : zlen hv2v = nh * element_degree f high 0) (Hd : rows_distinct (element_degree f high 0) hv2v).
Context (Hlv : zlen lv2v = nl * element_degree f low 0) (Hlen : zlen hl2l = nh * element_degree f high low) (HR : reflects f high low hv2v lv2v hl2l codes).

Lemma place p l : zget hl2l p = Ok l -> exists row lrow code, is_side f high low hv2v (p / element_degree f high low) (p mod element_degree f high low) row /\
  row_is (element_degree f low 0) lv2v l lrow /\ align_adj (element_degree f low 0) code lrow = Ok row.
Proof.
  intros E. pose proof (zget_bounds _ _ _ E) as B. set (deg := element_degree f high low) in *. pose proof (degree_pos f high low ltac:(lia) Hhigh) as Hp. fold deg in Hp.
  pose proof (Z.div_mod p deg ltac:(lia)) as DM. pose proof (Z.mod_pos_bound p deg Hp) as MB. assert (0 <= p / deg < nh) as HB by (split; [apply Z.div_pos; lia|apply Z.div_lt_upper_bound; lia]).
  pose proof (high_deg f high ltac:(lia)) as HD.
  pose proof (row_is_tuple (element_degree f high 0) hv2v nh (p / deg) ltac:(lia) Hv HB) as R.
  destruct (side_exists f high low hv2v (p / deg) (p mod deg) _ ltac:(lia) Hhigh R MB) as (row & HS).
  destruct (HR (p / deg) (p mod deg) row HS) as (l' & code & lrow & E1 & E2 & E3 & E4 & _). fold deg in E1. replace (p / deg * deg + p mod deg) with p in E1 by lia.
  assert (l' = l) as -> by congruence. eauto 6.
Qed.
Lemma reflects_range l : In l hl2l -> 0 <= l < nl.
Proof.
  intros H. apply In_zget in H as (p & E). destruct (place p l E) as (row & lrow & code & _ & R & _). pose proof (low_degree f low ltac:(lia)). eapply row_is_range; [|exact Hlv|exact R]. lia.
Qed.
Lemma reflects_no_repeats : no_repeats hl2l (element_degree f high low).
Proof.
  intros p q l Ep Eq E. destruct (place p l Ep) as (row & lrow & code & S1 & R1 & A1). destruct (place q l Eq) as (row' & lrow' & code' & S2 & R2 & A2).
  rewrite (row_is_unique _ _ _ _ _ R2 R1) in A2. pose proof (low_degree f low ltac:(lia)) as LD.
  pose proof (polygon_same_set _ _ (polygon_spec _ _ _ _ LD (proj1 R1) A1)) as P1. pose proof (polygon_same_set _ _ (polygon_spec _ _ _ _ LD (proj1 R1) A2)) as P2.
  rewrite <- E in S2. destruct S1 as (hr & Hr & U1 & F1), S2 as (hr' & Hr' & U2 & F2). rewrite (row_is_unique _ _ _ _ _ Hr' Hr) in F2. pose proof (Hd _ _ Hr) as ND.
  set (deg := element_degree f high low) in *.
  assert (forall a b ra rb, Forall2 (fun v x => zget hr v = Ok x) a ra -> Forall2 (fun v x => zget hr v = Ok x) b rb -> (forall x, In x ra -> In x rb) -> forall v, In v a -> In v b) as K.
  { intros a b ra rb FA FB HI v Hin. destruct (In_zget _ _ Hin) as (i & Ei). destruct (Forall2_zget _ _ _ FA i v Ei) as (x & Ex & Vx). destruct (In_zget rb x (HI x ltac:(eapply zget_In; exact Ex))) as (j & Ej).
    assert (Forall2 (fun x v => zget hr v = Ok x) rb b) as FB' by (clear -FB; induction FB; constructor; auto).
    destruct (Forall2_zget _ _ _ FB' j x Ej) as (w & Ew & Vw). rewrite (NoDup_zget hr v w x ND Vx Vw). eapply zget_In; exact Ew. }
  assert (p mod deg = q mod deg) as EM.
  { apply (sides_distinct f high low); try assumption; try lia. intros v. split; eapply K; try eassumption; intros x; rewrite <- P1, <- P2; auto. }
  pose proof (degree_pos f high low ltac:(lia) Hhigh) as Hp. fold deg in Hp. pose proof (Z.div_mod p deg ltac:(lia)). pose proof (Z.div_mod q deg ltac:(lia)). nia.
Qed.
End reflects.

Lemma distinct_no_repeats deg l n : 0 < deg -> zlen l = n * deg -> rows_distinct deg l -> no_repeats l deg.
Proof.
  intros Hd Hl HD p q x Ep Eq E. pose proof (zget_bounds _ _ _ Ep) as B.
  assert (0 <= p / deg < n) as HB by (split; [apply Z.div_pos; lia|apply Z.div_lt_upper_bound; lia]).
  pose proof (row_is_tuple deg l n (p / deg) ltac:(lia) Hl HB) as R. pose proof (HD _ _ R) as ND.
  pose proof (Z.div_mod p deg ltac:(lia)) as DP. pose proof (Z.div_mod q deg ltac:(lia)) as DQ. pose proof (Z.mod_pos_bound p deg Hd) as MP. pose proof (Z.mod_pos_bound q deg Hd) as MQ.
  assert (p mod deg = q mod deg); [|nia].
  apply (NoDup_zget _ _ _ x ND); rewrite <- (row_zget _ _ _ _ _ R) by lia; [replace (p / deg * deg + p mod deg) with p by lia; exact Ep|replace (p / deg * deg + q mod deg) with q by nia; exact Eq].
Qed.

(** ** the adjacencies of a topology *)
Definition downv (T : topology) (h l : Z) : res adj :=
  if l =? h - 1 then Ok (t_down T h) else if l =? 0 then Ok (mk_adj [] (t_verts T h) None)
  else r <- transit (t_down T h) (t_down T (l + 1)) (t_family T) h l ;; Ok (mk_adj [] (fst r) (snd r)).
Definition upv (deg n : Z) (d : adj) : adj :=
  let U := map (uses_of (adj_ab2b d)) (zrange n) in
  mk_adj (offset_scan (map zlen U)) (map (fun u => u / deg) (concat U)) (Some (map (use_code deg (adj_codes d)) (concat U))).
Definition upv_of (T : topology) (l h : Z) : res adj :=
  d <- downv T h l ;; Ok (upv (element_degree (t_family T) h l) (t_nents T l) d).
Definition acrossv (T : topology) (d : Z) : res adj :=
  let dim := t_dim T in
  if d =? dim then
    e2s <- downv T dim (dim - 1) ;; s2e <- upv_of T (dim - 1) dim ;; exposed <- mark_exposed_sides (adj_a2ab s2e) ;;
    g <- elements_across_sides dim e2s s2e exposed ;; Ok (of_graph g)
  else if d =? 0 then
    e2v <- downv T 1 0 ;; v2e <- upv_of T 0 1 ;; g <- verts_across_edges e2v v2e ;; Ok (of_graph g)
  else if d =? 1 then
    _ <- check (2 <=? dim) ;; f2e <- downv T 2 1 ;; e2f <- upv_of T 1 2 ;; g <- edges_across_tris f2e e2f ;;
    if dim =? 3 then
      r2e <- downv T 3 1 ;; e2r <- upv_of T 1 3 ;; g' <- edges_across_tets r2e e2r ;; g'' <- add_edges g g' ;; Ok (of_graph g'')
    else Ok (of_graph g)
  else Abort.
Definition val (T : topology) (from to : Z) : res adj :=
  if to <? from then downv T from to else if from <? to then upv_of T from to else acrossv T from.

Section topology.
Context (T : topology) (HT : valid_topology T).
Let f := t_family T.

Lemma down_facts h l : 0 <= l < h -> h <= t_dim T -> exists d, downv T h l = Ok d /\ means_down T h l d /\ adj_a2ab d = [] /\
  zlen (adj_ab2b d) = t_nents T h * element_degree f h l /\ (forall x, In x (adj_ab2b d) -> 0 <= x < t_nents T l) /\ no_repeats (adj_ab2b d) (element_degree f h l) /\
  (forall c, adj_codes d = Some c -> zlen c = zlen (adj_ab2b d)).
Proof.
  intros Hl Hh. pose proof (v_dim T HT) as HD. unfold means_down.
  destruct (v_verts T HT h ltac:(lia)) as (Vl & Vd & Vr). fold f in Vl, Vd.
  assert (forall d, d = mk_adj [] (t_verts T h) None -> adj_a2ab d = [] /\ zlen (adj_ab2b d) = t_nents T h * element_degree f h 0 /\ (forall x, In x (adj_ab2b d) -> 0 <= x < t_nents T 0) /\ no_repeats (adj_ab2b d) (element_degree f h 0) /\
    (forall c, adj_codes d = Some c -> zlen c = zlen (adj_ab2b d))) as KV.
  { intros d ->. cbn [adj_a2ab adj_ab2b adj_codes]. split; [reflexivity|]. split; [exact Vl|]. split; [exact Vr|]. split; [|discriminate]. pose proof (high_deg f h ltac:(lia)). eapply distinct_no_repeats; [lia|exact Vl|exact Vd]. }
  assert (forall d ab codes, 1 <= l -> d = mk_adj [] ab (Some codes) -> zlen ab = t_nents T h * element_degree f h l -> zlen codes = zlen ab -> reflects f h l (t_verts T h) (t_verts T l) ab codes ->
    adj_a2ab d = [] /\ zlen (adj_ab2b d) = t_nents T h * element_degree f h l /\ (forall x, In x (adj_ab2b d) -> 0 <= x < t_nents T l) /\ no_repeats (adj_ab2b d) (element_degree f h l) /\
    (forall c, adj_codes d = Some c -> zlen c = zlen (adj_ab2b d))) as KR.
  { intros d ab codes H1 -> E1 E2 R. destruct (v_verts T HT l ltac:(lia)) as (Ll & Ld & Lr). fold f in Ll, Ld. cbn [adj_a2ab adj_ab2b adj_codes]. split; [reflexivity|]. split; [exact E1|].
    split; [intros x; apply (reflects_range f h l (t_verts T h) (t_verts T l) ab codes (t_nents T h) (t_nents T l)); auto; lia|].
    split; [apply (reflects_no_repeats f h l (t_verts T h) (t_verts T l) ab codes (t_nents T h)); auto; lia|]. intros c E. congruence. }
  unfold downv. destruct (Z.eqb_spec l (h - 1)) as [El|Nl].
  - exists (t_down T h). split; [reflexivity|]. destruct (Z.eqb_spec l 0) as [->|].
    + assert (h = 1) as -> by lia. pose proof (v_edges T HT) as E. split; [exact E|]. apply KV, E.
    + destruct (v_down T HT h ltac:(lia)) as (ab & codes & E1 & E2 & E3 & E4). fold f in E2, E4. rewrite <- El in E2, E4. split; [exists ab, codes; auto|]. apply (KR _ ab codes); auto. lia.
  - destruct (Z.eqb_spec l 0) as [->|].
    + exists (mk_adj [] (t_verts T h) None). split; [reflexivity|]. split; [reflexivity|]. apply KV. reflexivity.
    + assert (h = 3) as -> by lia. assert (l = 1) as -> by lia. change (1 + 1) with 2.
      destruct (v_down T HT 3 ltac:(lia)) as (ab & codes & E1 & E2 & E3 & E4). destruct (v_down T HT 2 ltac:(lia)) as (ab' & codes' & E1' & E2' & E3' & E4').
      change (3 - 1) with 2 in *. change (2 - 1) with 1 in *. fold f in E2, E4, E2', E4'. rewrite E1, E1'. fold f.
      destruct (transit_edges_spec f (t_verts T 3) (t_verts T 2) (t_verts T 1) ab codes ab' codes' (t_nents T 3) Vl Vd E2 E4 E4') as (he & hc & Et & L1 & L2 & R).
      rewrite Et. cbn [bind fst snd]. exists (mk_adj [] he (Some hc)). split; [reflexivity|].
      split; [exists he, hc; repeat split; auto; congruence|]. apply (KR _ he hc); auto; [lia|congruence].
Qed.

Lemma upv_lists deg n hl2l dc d : 0 <= n -> adj_ab2b d = hl2l -> adj_codes d = dc -> (forall c, dc = Some c -> zlen c = zlen hl2l) -> lists_uses deg n hl2l dc (upv deg n d).
Proof.
  intros Hn <- <- Hc. unfold upv, lists_uses. set (U := map (uses_of (adj_ab2b d)) (zrange n)).
  assert (zlen U = n) as LU by (unfold U; rewrite zlen_map, zlen_zrange; lia).
  assert (forall g : Z -> Z, mk_graph (offset_scan (map zlen U)) (map g (concat U)) = of_lists (map (map g) U)) as G by (intros g; unfold of_lists; rewrite map_zlen_map, concat_map_map; reflexivity).
  assert (forall (g : Z -> Z) l, 0 <= l < n -> targets (mk_graph (offset_scan (map zlen U)) (map g (concat U))) l = Ok (map g (uses_of (adj_ab2b d) l))) as HTg.
  { intros g l Hl. rewrite G. apply targets_of_lists. rewrite zget_map. unfold U. rewrite zget_uses by lia. reflexivity. }
  cbn [adj_a2ab adj_ab2b adj_codes]. split; [|split; [|split; [discriminate|]]].
  - pose proof (of_lists_wf (map (map (fun u => u / deg)) U)) as W. rewrite <- G in W. destruct W as [W1 W2]. cbn [a2ab ab2b] in W1, W2. split; [exact W1|]. split; [exact W2|]. cbn [adj_codes adj_ab2b]. intros c E. injection E as <-. rewrite !zlen_map. reflexivity.
  - rewrite offset_scan_length, zlen_map, LU. reflexivity.
  - intros l Hl. unfold adj_targets, adj_target_codes. cbn [adj_a2ab adj_ab2b adj_codes]. split; apply HTg, Hl.
Qed.

Lemma up_facts l h : 0 <= l < h -> h <= t_dim T -> exists d up, downv T h l = Ok d /\ upv_of T l h = Ok up /\ means_up T l h up /\ lists_uses (element_degree f h l) (t_nents T l) (adj_ab2b d) (adj_codes d) up /\
  forall m0 s1 s2, exists o, invert_adj d (element_degree f h l) (t_nents T l) m0 s1 s2 = Ok o /\ forall u, o = Some u -> u = up.
Proof.
  intros Hl Hh. destruct (down_facts h l Hl Hh) as (d & Ed & Md & Ad & Ld & Rd & Nd & Cd). pose proof (v_dim T HT). pose proof (v_nents T HT l ltac:(lia)) as Hn.
  exists d, (upv (element_degree f h l) (t_nents T l) d). split; [exact Ed|]. split; [unfold upv_of; rewrite Ed; reflexivity|].
  pose proof (upv_lists (element_degree f h l) (t_nents T l) (adj_ab2b d) (adj_codes d) d Hn eq_refl eq_refl Cd) as HU.
  split; [exists d; auto|]. split; [exact HU|]. intros m0 s1 s2. pose proof (degree_pos f h l ltac:(lia) ltac:(lia)) as Hp.
  destruct (invert_adj_spec d _ _ m0 s1 s2 Hp Hn Rd Nd Cd) as (o & Eo & _). exists o. split; [exact Eo|]. intros u ->.
  apply (invert_lists_uses d _ _ m0 s1 s2 u Hp Hn Rd Nd Cd) in Eo. rewrite (up_form _ _ _ _ _ Hn Eo). reflexivity.
Qed.
End topology.
