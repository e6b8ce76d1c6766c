From Verif Require Import Prelude M_Array M_Par M_Scan S_Scan M_Sort S_Sort M_Map S_Map M_Dist S_Dist M_Owners S_Owners P_Array P_Scan P_Map P_Map2 P_Fan P_Invert P_Dist P_Dist2 P_Dist3 P_Dist4 P_Dist5 P_Dist6 P_Link P_Link2 P_Owners M_Migrate P_Migrate P_Migrate2.
Local Open Scope Z_scope.

Lemma find_copy_first (ranks idxs : list Z) rank es : (forall e, In e es -> 0 <= e < zlen ranks) -> zlen idxs = zlen ranks ->
  (exists e, In e es /\ zget ranks e = Ok rank) ->
  exists e v, In e es /\ zget ranks e = Ok rank /\ zget idxs e = Ok v /\ find_copy ranks idxs rank es = Ok v.
Proof.
  intros B L. induction es as [|e es IH]; intros (x & Hx & Hr); [destruct Hx|]. cbn [find_copy].
  destruct (zget_in_range ranks e (B e (or_introl eq_refl))) as (er & He). rewrite He. cbn [bind]. destruct (Z.eqb_spec er rank) as [->|N].
  - destruct (zget_in_range idxs e) as (v & Hv); [rewrite L; apply B; left; reflexivity|]. exists e, v. split; [left; reflexivity|]. auto.
  - destruct IH as (e' & v & H1 & H2 & H3 & H4); [intros; apply B; right; assumption| |exists e', v; split; [right; exact H1|]; auto].
    destruct Hx as [<-|Hx]; [congruence|]. eauto.
Qed.

(** filling an array group by group *)
Lemma fill_groups fe fu n (rs : list Z) (g : Z -> Z -> Z -> res Z) (P : Z -> Z -> Z -> Prop) : is_fan fu -> last_of fu = Ok n -> zlen fe = zlen fu ->
  (forall q u lo hi, in_group fu q u -> zget fe q = Ok lo -> zget fe (q + 1) = Ok hi -> exists rank v, zget rs u = Ok rank /\ g rank lo hi = Ok v /\ P q u v) ->
  exists w l, (w <- blank n ;; forM (zlen fe - 1) w (fun w q =>
    eb <- zget fe q ;; ee <- zget fe (q + 1) ;; ub <- zget fu q ;; ue <- zget fu (q + 1) ;;
    foldM (fun w u => rank <- zget rs u ;; idx <- g rank eb ee ;; zset w u (Some idx)) (zfromto ub ue) w)) = Ok w /\ freeze w = Ok l /\ zlen l = n /\
  forall q u, in_group fu q u -> exists v, zget l u = Ok v /\ P q u v.
Proof.
  intros Ff Ll Le Hg. destruct (fan_last fu Ff) as (n' & En' & Hn & L1). assert (n' = n) as -> by congruence.
  rewrite blank_ok by lia. cbn [bind]. set (w0 := repeat None (Z.to_nat n) : list (option Z)).
  assert (zlen w0 = n) as L0 by (unfold w0; rewrite zlen_repeat; lia).
  destruct (forM_invariant (fun q (w : list (option Z)) => zlen w = n /\ forall q' u, q' < q -> in_group fu q' u -> exists v, zget w u = Ok (Some v) /\ P q' u v) (zlen fe - 1) w0
    (fun w q => eb <- zget fe q ;; ee <- zget fe (q + 1) ;; ub <- zget fu q ;; ue <- zget fu (q + 1) ;;
       foldM (fun w u => rank <- zget rs u ;; idx <- g rank eb ee ;; zset w u (Some idx)) (zfromto ub ue) w)) as (w & Ew & Lw & Gw); [lia| | |].
  - split; [exact L0|]. intros q' u Hq (lo & hi & H1 & _). apply zget_bounds in H1. lia.
  - intros q w Hq (Lw & Gw). destruct (zget_in_range fe q ltac:(lia)) as (eb & Heb). destruct (zget_in_range fe (q + 1) ltac:(lia)) as (ee & Hee).
    destruct (zget_in_range fu q ltac:(lia)) as (ub & Hub). destruct (zget_in_range fu (q + 1) ltac:(lia)) as (ue & Hue).
    rewrite Heb, Hee, Hub, Hue. cbn [bind].
    pose proof (fan_mono fu q (q + 1) _ _ Ff Hub Hue ltac:(lia)) as M. pose proof (fan_nonneg fu q ub Ff Hub) as N0.
    destruct (fromto_invariant (fun x (w' : list (option Z)) => zlen w' = n /\ (forall q' u, q' < q -> in_group fu q' u -> exists v, zget w' u = Ok (Some v) /\ P q' u v) /\
        forall u, ub <= u < x -> exists v, zget w' u = Ok (Some v) /\ P q u v) (fun w u => rank <- zget rs u ;; idx <- g rank eb ee ;; zset w u (Some idx)) ub ue w M) as (w' & Ew & Lw' & G1 & G2).
    + split; [exact Lw|]. split; [exact Gw|]. intros u Hu. lia.
    + intros u w' Hu (Lw' & G1 & G2). assert (in_group fu q u) as Gu by (exists ub, ue; auto). destruct (Hg q u eb ee Gu Heb Hee) as (rank & v & Erk & Ev & Pv). rewrite Erk. cbn [bind]. rewrite Ev. cbn [bind].
      destruct (in_group_range fu n q u Ff Ll Gu) as [Bu _]. destruct (zset_in_range w' u (Some v)) as (w2 & E2); [lia|]. exists w2. split; [exact E2|]. split; [rewrite (zset_zlen _ _ _ _ E2); exact Lw'|]. split.
      * intros q' u' Hq' Gu'. destruct (G1 q' u' Hq' Gu') as (v' & Hv' & Pv'). exists v'. split; [|exact Pv']. rewrite (zset_get_ne _ _ _ _ _ E2); [exact Hv'|]. intros ->.
        pose proof (in_group_unique fu q q' _ Ff Gu Gu'). lia.
      * intros u' Hu'. destruct (Z.eq_dec u' u) as [->|Ne]; [exists v; split; [apply (zset_get_eq _ _ _ _ E2)|exact Pv]|].
        destruct (G2 u' ltac:(lia)) as (v' & Hv' & Pv'). exists v'. split; [|exact Pv']. rewrite (zset_get_ne _ _ _ _ _ E2); [exact Hv'|lia].
    + exists w'. split; [exact Ew|]. split; [exact Lw'|]. intros q' u Hq' Gu. destruct (Z.eq_dec q' q) as [->|Ne]; [|apply (G1 q' u); [lia|exact Gu]].
      apply G2. destruct Gu as (lo & hi & H1 & H2 & H3). assert (lo = ub) as -> by congruence. assert (hi = ue) as -> by congruence. exact H3.
  - exists w. destruct (freeze_total w) as (l & El & Lf & Gf).
    + intros i Hi. destruct (in_group_exists fu n i Ff Ll ltac:(lia)) as (q & Gq). destruct (in_group_range fu n q i Ff Ll Gq) as [_ Bq].
      destruct (Gw q i ltac:(lia) Gq) as (v & Hv & _). eauto.
    + exists l. split; [exact Ew|]. split; [exact El|]. split; [lia|]. intros q u Gq. destruct (in_group_range fu n q u Ff Ll Gq) as [_ Bq].
      destruct (Gw q u ltac:(lia) Gq) as (v & Hv & Pv). exists v. split; [apply Gf; exact Hv|exact Pv].
Qed.

Section conn.
Context (uses new : list dist) (cu cn : Z -> Z -> Z) (ranks idxs : list (list Z)) (nroots : list Z) (src : list (list (Z * Z))).
Hypothesis Ku : link uses cu ranks idxs nroots.
Hypothesis Kn : link new cn (map (map fst) src) (map (map snd) src) nroots.
Hypothesis Ls : zlen src = zlen ranks.
Hypothesis Cov : forall s i t j, owner_is ranks idxs s i t j -> exists l, zget src s = Ok l /\ In (t, j) l.

Lemma src_fst s k t : goes_to (map (map fst) src) s k t <-> exists l j, zget src s = Ok l /\ zget l k = Ok (t, j).
Proof.
  split.
  - intros (a & Ha & Hs). apply zget_map_inv in Ha as (l & Hl & ->). apply zget_map_inv in Hs as ([s0 q] & Hq & ->). eauto.
  - intros (l & q & Hl & Hq). exists (map fst l). split; [apply zget_map_ok; exact Hl|]. rewrite (zget_map_ok _ _ _ _ Hq). reflexivity.
Qed.
Lemma src_snd s k j : goes_to (map (map snd) src) s k j <-> exists l t, zget src s = Ok l /\ zget l k = Ok (t, j).
Proof.
  split.
  - intros (a & Ha & Hs). apply zget_map_inv in Ha as (l & Hl & ->). apply zget_map_inv in Hs as ([s0 q0] & Hq & ->). eauto.
  - intros (l & s' & Hl & Hq). exists (map snd l). split; [apply zget_map_ok; exact Hl|]. rewrite (zget_map_ok _ _ _ _ Hq). reflexivity.
Qed.

Lemma form_new_conn_ok : exists conn, form_new_conn new (invert uses) = Ok conn /\ per_copy ranks conn /\
  forall s i t j, owner_is ranks idxs s i t j -> exists k l, goes_to conn s i k /\ zget src s = Ok l /\ zget l k = Ok (t, j).
Proof.
  destruct (served _ _ _ _ _ Ku) as (whoU & RU & _ & KU & SU & VU). destruct (served _ _ _ _ _ Kn) as (whoN & RN & XN & KN & SN & VN).
  destruct (server_view _ _ _ _ _ Kn) as (_ & _ & _ & _ & _ & En & _).
  pose proof (k_len _ _ _ _ _ Ku) as Lu. pose proof (k_len _ _ _ _ _ Kn) as Ln. rewrite zlen_map in Ln.
  unfold form_new_conn. rewrite En. cbn [bind]. set (own := map zrange (map zlen (map (map fst) src))).
  assert (forall s l, zget src s = Ok l -> zget own s = Ok (zrange (zlen l))) as Go.
  { intros s l Hl. unfold own. rewrite (zget_map_ok _ _ _ (zlen (map fst l))), zlen_map; [reflexivity|]. rewrite (zget_map_ok _ _ _ (map fst l)); [reflexivity|]. apply zget_map_ok. exact Hl. }
  assert (data_per_item (map (map fst) src) own 1) as Do.
  { split; [unfold own; rewrite !zlen_map; reflexivity|]. intros s a x Ha Hx. apply zget_map_inv in Ha as (l & Hl & ->). rewrite (Go s l Hl) in Hx. injection Hx as <-.
    rewrite zlen_map, zlen_zrange by apply zlen_nonneg. lia. }
  destruct (XN Z own 1 ltac:(lia) Do) as (new_idxs & Ei & Li & Gi). rewrite Ei. cbn [bind].
  (* on one rank *)
  destruct (tabulate_rel (zlen (invert new)) (fun r => d <- zget (invert new) r ;;
    du <- zget (invert uses) r ;;
    new_idxs <- zget new_idxs r ;;
    serv_ents2ranks <- items2ranks d ;;
    serv_uses2ranks <- items2ranks du ;;
    nserv_uses <- nitems du ;;
    match roots2items_F du, roots2items_F d with
    | Some old_owners2serv_uses, Some old_owners2serv_ents =>
      w <- blank nserv_uses ;;
      w <- forM (zlen old_owners2serv_ents - 1) w (fun w old_owner =>
        ebegin <- zget old_owners2serv_ents old_owner ;; eend <- zget old_owners2serv_ents (old_owner + 1) ;;
        ubegin <- zget old_owners2serv_uses old_owner ;; uend <- zget old_owners2serv_uses (old_owner + 1) ;;
        foldM (fun w serv_use =>
          rank <- zget serv_uses2ranks serv_use ;;
          idx <- find_copy serv_ents2ranks new_idxs rank (zfromto ebegin eend) ;;
          zset w serv_use (Some idx)) (zfromto ubegin uend) w) ;;
      freeze w
    | _, _ => UB
    end) (fun t y => exists w, zget whoU t = Ok w /\ zlen y = zlen w /\ forall c s i j, zget w c = Ok (s, i) -> goes_to idxs s i j -> exists k l, zget y c = Ok k /\ zget src s = Ok l /\ zget l k = Ok (t, j)))
    as (sv & Esv & Lsv & Gsv); [apply zlen_nonneg| |].
  { unfold invert at 1. rewrite zlen_map. intros t Ht. destruct (zget_in_range new t Ht) as (d & Hd). destruct (zget_in_range uses t ltac:(lia)) as (du & Hdu).
    destruct (zget_in_range new_idxs t) as (ni & Hni); [rewrite Li, (proj1 RN), zlen_map; lia|].
    unfold invert. rewrite (zget_map_ok _ _ _ _ Hd), (zget_map_ok _ _ _ _ Hdu), Hni. cbn [bind].
    destruct (VN t d Hd) as (wn & k & fn & Hwn & Hk & Efn & Ffn & Lfn & Lln & _ & Ern & Gwn). destruct (VU t du Hdu) as (wu & k' & fu & Hwu & Hk' & Efu & Ffu & Lfu & Llu & Enu & Eru & Gwu).
    assert (k' = k) as -> by congruence. rewrite Ern, Eru, Enu. cbn [bind]. cbn [invert1 roots2items_F]. rewrite Efn, Efu.
    destruct (Gi t wn ni Hwn Hni) as [Lni Gni].
    destruct (fill_groups fn fu (zlen wu) (map fst wu) (fun rank eb ee => find_copy (map fst wn) ni rank (zfromto eb ee))
      (fun q u v => forall s i, zget wu u = Ok (s, i) -> exists l, zget src s = Ok l /\ zget l v = Ok (t, q)) Ffu Llu ltac:(lia)) as (w & l & Ew & Ef & Ll & Gl).
    { intros q u lo hi Gu Hlo Hhi. destruct (in_group_range fu _ q u Ffu Llu Gu) as [Bu _]. destruct (zget_in_range wu u Bu) as ([s i] & Hu).
      exists s. destruct (Gwu u s i Hu) as [H1 H2]. pose proof (proj1 (H2 q) Gu) as Hq.
      destruct (Cov s i t q (conj H1 Hq)) as (ls & Hls & Il). apply P_Map.In_zget in Il as (kk & Hkk).
      assert (forall e, lo <= e < hi -> in_group fn q e) as Ge by (intros e He; exists lo, hi; auto).
      destruct (find_copy_first (map fst wn) ni s (zfromto lo hi)) as (e & v & He & Hes & Hev & Efc).
      - intros e He. apply in_zfromto in He. rewrite zlen_map. eapply (in_group_range fn _ q e Ffn Lln). auto.
      - rewrite zlen_map. lia.
      - assert (In (s, kk) wn) as Ie by (apply (proj2 RN t wn Hwn); apply src_fst; eauto). apply P_Map.In_zget in Ie as (e & He). exists e.
        destruct (Gwn e s kk He) as [_ G2]. assert (in_group fn q e) as (lo' & hi' & Q1 & Q2 & Q3) by (apply G2; apply src_snd; eauto).
        assert (lo' = lo) as -> by congruence. assert (hi' = hi) as -> by congruence. split; [apply in_zfromto; exact Q3|]. rewrite (zget_map_ok _ _ _ _ He). reflexivity.
      - exists v. split; [rewrite (zget_map_ok _ _ _ _ Hu); reflexivity|]. split; [exact Efc|]. intros s' i' Hu'. assert ((s', i') = (s, i)) as [= -> ->] by congruence. exists ls. split; [exact Hls|].
        apply zget_map_inv in Hes as ([s2 k2] & He2 & E2). cbn in E2. subst s2. destruct (Gwn e s k2 He2) as [N1 N2]. apply in_zfromto in He.
        pose proof (proj1 (N2 q) (Ge e He)) as M2. apply src_snd in M2 as (l2 & t2 & Hl2 & Hq2). assert (l2 = ls) as -> by congruence.
        apply src_fst in N1 as (l3 & q3 & Hl3 & Hq3). assert (l3 = ls) as -> by congruence. assert ((t, q3) = (t2, q)) as [= <- ->] by congruence.
        destruct (Gni e s k2 _ He2 (Go s ls Hls) 0 ltac:(lia)) as (vv & V1 & V2). rewrite !Z.mul_1_r, !Z.add_0_r in V1, V2. rewrite zget_zrange in V2 by (eapply zget_bounds; eauto).
        assert (v = k2) as -> by congruence. exact Hq3. }
    exists l. apply bind_ok in Ew as (w0 & Eb & Ew). rewrite Eb. cbn [bind].
    split.
    - rewrite Ew. cbn [bind]. exact Ef.
    - exists wu. split; [exact Hwu|]. split; [exact Ll|]. intros c s i j Hc Hj. destruct (Gwu c s i Hc) as [_ H2]. destruct (Gl j c (proj2 (H2 j) Hj)) as (v & Hv & Pv).
      destruct (Pv s i Hc) as (ls & Hls & Hlv). exists v, ls. auto. }
  unfold on_ranks. rewrite Esv. cbn [bind].
  (* back to the uses *)
  pose (un := map (fun d => Dist (roots2items_F d) (items2content_F d) (msgs2content_F d) (comm_F d) None (items2content_R d) (msgs2content_R d) (comm_R d)) uses).
  assert (map clear_roots1 (invert uses) = invert un) as -> by (unfold un, invert; rewrite !map_map; reflexivity).
  pose proof (k_world _ _ _ _ _ Ku) as W.
  destruct (retarget uses cu un W) as [Cu Wu]; [apply zlen_map| |].
  { intros r d e Hd He. unfold un in He. rewrite (zget_map_ok _ _ _ _ Hd) in He. injection He as <-. cbn. do 6 (split; [reflexivity|]). split; [eapply wf_pR; eauto|exact I]. }
  pose proof (wf_invert _ _ Wu) as Wi. assert (zlen (invert un) = zlen uses) as Liu by (unfold invert, un; rewrite !zlen_map; reflexivity).
  destruct (exch_ok (invert un) _ Wi sv 1 ltac:(lia)) as (conn & Ec & Lc & Sc & Gc).
  { rewrite Lsv, Liu. unfold invert. rewrite zlen_map. lia. }
  { intros t d x Hd Hx. apply zget_map_inv in Hd as (e & He & ->). exists (zlen x). split; [|lia]. destruct (Gsv t x Hx) as (w & Hw & Lx & _).
    rewrite (nsrcs_cases _ _ Wi t (invert1 e)) by (apply zget_map_ok; exact He). unfold un in He. apply zget_map_inv in He as (d & Hd & ->). cbn [invert1 roots2items_F roots2items_R].
    rewrite (proj1 (invert_traffic un cu Wu t)), Cu, <- (SU t w Hw), Lx. reflexivity. }
  exists conn. split; [exact Ec|]. split.
  { split; [lia|]. intros s a y Ha Hy. rewrite (Sc s y Hy), (proj2 (invert_traffic un cu Wu s)), Cu, (k_sent _ _ _ _ _ Ku s a Ha). lia. }
  intros s i t j [H1 H2]. pose proof H1 as (a & Ha & Hi). destruct (zget_in_range uses s) as (d & Hd); [rewrite Lu; eapply zget_bounds; eauto|].
  destruct (zget_in_range sv t) as (x & Hx); [rewrite Lsv; unfold invert; rewrite zlen_map, Ln, Ls; exact (k_exist _ _ _ _ _ Ku s i t H1)|].
  destruct (Gsv t x Hx) as (w & Hw & Lx & Gx). assert (In (s, i) w) as Iw by (apply (proj2 RU t w Hw); exact H1). apply P_Map.In_zget in Iw as (c & Hc).
  destruct (Gx c s i j Hc H2) as (k & l & Hk & Hl & Hlk). exists k, l. split; [|auto].
  destruct (zget_in_range conn s) as (y & Hy); [rewrite Lc, Liu; eapply zget_bounds; eauto|]. exists y. split; [exact Hy|].
  apply (KU t w c s i Hw) in Hc. pose proof Hc as (_ & dt & _ & _ & _ & Hdt & _).
  assert (item_link un cu s i t c) as Lk.
  { apply (item_link_same uses un); [apply zlen_map|exact Cu| |exact Hc]. intros r d0 e Hd0 He. unfold un in He. rewrite (zget_map_ok _ _ _ _ Hd0) in He. injection He as <-. split; reflexivity. }
  apply (item_link_flip _ _ _ _ _ _ Wu) in Lk.
  pose proof (Gc t c s i (invert1 (Dist (roots2items_F dt) (items2content_F dt) (msgs2content_F dt) (comm_F dt) None (items2content_R dt) (msgs2content_R dt) (comm_R dt))) c x y 0 Lk) as G.
  rewrite !Z.mul_1_r, !Z.add_0_r in G. rewrite G; [exact Hk| |reflexivity|exact Hx|exact Hy|lia]. unfold invert, un. rewrite map_map, (zget_map_ok _ _ _ _ Hdt). reflexivity.
Qed.
End conn.
