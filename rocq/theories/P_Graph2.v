From Verif Require Import Prelude M_Array M_Par M_Scan S_Scan M_Sort M_Map S_Map S_Fan P_Array P_Scan P_Map P_Map2 P_Fan M_Graph S_Graph P_Graph.
Local Open Scope Z_scope.

(** ** filter_graph_edges *)
Fixpoint sel (k l : list Z) : list Z :=
  match k, l with m :: k, x :: l => if m =? 0 then sel k l else x :: sel k l | _, _ => [] end.
Definition mk (keep : list Z) (e : Z) : bool := match zget keep e with Ok k => negb (k =? 0) | _ => false end.

Lemma sel_mid k : forall x (P PK R RK : list Z), zlen P = zlen PK -> zlen x = zlen k ->
  mapM (zget (P ++ x ++ R)) (filter (mk (PK ++ k ++ RK)) (zfromto (zlen P) (zlen P + zlen x))) = Ok (sel k x).
Proof.
  induction k as [|m k IH]; intros x P PK R RK HP Hx.
  - rewrite zlen_nil in Hx. destruct x as [|a x]; [|rewrite zlen_cons in Hx; pose proof (zlen_nonneg x); lia].
    rewrite zfromto_nil by (rewrite zlen_nil; lia). reflexivity.
  - destruct x as [|a x]; [rewrite zlen_cons, zlen_nil in Hx; pose proof (zlen_nonneg k); lia|]. rewrite !zlen_cons in Hx.
    pose proof (zlen_nonneg x). rewrite zfromto_cons by (rewrite zlen_cons; lia). cbn [filter sel].
    assert (mk (PK ++ (m :: k) ++ RK) (zlen P) = negb (m =? 0)) as ->.
    { unfold mk. rewrite zget_app_r by lia. replace (zlen P - zlen PK) with 0 by lia. reflexivity. }
    specialize (IH x (P ++ [a]) (PK ++ [m]) R RK). rewrite <- !app_assoc in IH. cbn [app] in IH. rewrite !zlen_app in IH.
    change (zlen [a]) with 1 in IH. change (zlen [m]) with 1 in IH. specialize (IH ltac:(lia) ltac:(lia)).
    cbn [app]. replace (zlen P + zlen (a :: x)) with (zlen P + 1 + zlen x) by (rewrite zlen_cons; lia).
    destruct (m =? 0); cbn [negb]; [exact IH|]. cbn [mapM]. rewrite zget_app_r by lia. rewrite Z.sub_diag.
    change (zget (a :: x ++ R) 0) with (Ok a). cbn [bind]. rewrite IH. reflexivity.
Qed.

Lemma zlen_sel k : forall l, zlen k = zlen l -> (forall m, In m k -> m = 0 \/ m = 1) -> zlen (sel k l) = zsum k.
Proof.
  induction k as [|m k IH]; intros [|x l] Hl Hm; try reflexivity; rewrite ?zlen_cons, ?zlen_nil in Hl; try (pose proof (zlen_nonneg k); lia).
  cbn [sel]. change (zsum (m :: k)) with (m + zsum k). specialize (IH l ltac:(lia) ltac:(intros; apply Hm; right; assumption)).
  destruct (Hm m ltac:(left; reflexivity)) as [->| ->]; cbn [Z.eqb]; rewrite ?zlen_cons, IH; lia.
Qed.

Fixpoint zipsel (K L : list (list Z)) : list (list Z) :=
  match K, L with k :: K, l :: L => sel k l :: zipsel K L | _, _ => [] end.
Lemma zipsel_concat K : forall L, map zlen K = map zlen L -> concat (zipsel K L) = sel (concat K) (concat L).
Proof.
  assert (forall k l k' l', zlen k = zlen l -> sel (k ++ k') (l ++ l') = sel k l ++ sel k' l') as A.
  { induction k as [|m k IH]; intros [|x l] k' l' H; try reflexivity; rewrite ?zlen_cons, ?zlen_nil in H;
      try (pose proof (zlen_nonneg k); lia); try (pose proof (zlen_nonneg l); lia).
    cbn [app sel]. rewrite IH by lia. destruct (m =? 0); reflexivity. }
  induction K as [|k K IH]; intros [|l L] H; try reflexivity; try discriminate. cbn [map] in H.
  injection H as H1 H2. cbn [zipsel concat]. rewrite A by exact H1. rewrite IH by exact H2. reflexivity.
Qed.
Lemma zipsel_zlen K : forall L, map zlen K = map zlen L -> zlen (zipsel K L) = zlen L.
Proof.
  induction K as [|k K IH]; intros [|l L] H; try reflexivity; try discriminate. cbn [map] in H. injection H as _ H.
  cbn [zipsel]. rewrite !zlen_cons, IH by exact H. reflexivity.
Qed.
Lemma zipsel_get K : forall L v k l, zget K v = Ok k -> zget L v = Ok l -> zget (zipsel K L) v = Ok (sel k l).
Proof.
  intros L v k l H1 H2. apply zget_ok in H1 as [H0 H1]. apply zget_ok in H2 as [_ H2]. apply zget_ok. split; [lia|].
  revert K L H1 H2. generalize (Z.to_nat v). clear. induction n as [|n IH]; intros [|l0 L] [|m0 M] H1 H2; try discriminate; cbn in *; [congruence|auto].
Qed.

Lemma marked_at_most_len k : (forall m, In m k -> m = 0 \/ m = 1) -> 0 <= zsum k.
Proof. intros H. apply zsum_nonneg, Forall_forall. intros x Hx. destruct (H x Hx); lia. Qed.

Lemma filter_lists K L : map zlen K = map zlen L -> (forall m, In m (concat K) -> m = 0 \/ m = 1) ->
  (forall k, In k K -> zsum k <= 127) -> filter_graph_edges (of_lists L) (concat K) = Ok (of_lists (zipsel K L)).
Proof.
  intros HKL Hm Hs. unfold filter_graph_edges. cbn [a2ab ab2b of_lists].
  assert (zlen (concat K) = zlen (concat L)) as Hc by (rewrite <- !zsum_zlen, HKL; reflexivity).
  assert (zlen K = zlen L) as HLK by (rewrite <- (zlen_map zlen K), HKL, zlen_map; reflexivity).
  destruct (fan_reduce_spec (-128) 127 OMEGA_H_SUM (offset_scan (map zlen L)) (concat K) 1 (zlen (concat K))) as (r & E & Lr & G).
  - apply (of_lists_wf L).
  - lia.
  - rewrite offset_scan_last, zsum_zlen, Hc. reflexivity.
  - lia.
  - intros x Hx. destruct (Hm x Hx); lia.
  - rewrite E. cbn [bind]. rewrite (collect_marked_spec _ Hm). cbn [bind].
    assert (mapM (zget (concat L)) (marked_indices (concat K)) = Ok (sel (concat K) (concat L))) as HE.
    { pose proof (sel_mid (concat K) (concat L) [] [] [] [] eq_refl (eq_sym Hc)) as H. rewrite !app_nil_r in H. cbn [app] in H.
      change (zlen (@nil Z)) with 0 in H. rewrite Z.add_0_l in H. rewrite <- H. f_equal. unfold marked_indices.
      rewrite Hc. unfold zfromto. rewrite Z.sub_0_r. rewrite (map_ext _ (fun k => k)) by (intros; lia). rewrite map_id. reflexivity. }
    rewrite (unmap1 _ _ (sel (concat K) (concat L))); [|intros b Hb; apply marked_indices_in in Hb as (m & Hb & _); apply zget_bounds in Hb; lia|exact HE].
    cbn [bind]. unfold of_lists. rewrite zipsel_concat by exact HKL. f_equal. f_equal. f_equal.
    apply list_eq_zget; [rewrite Lr, offset_scan_length, !zlen_map, zipsel_zlen by exact HKL; lia|].
    rewrite Lr, offset_scan_length, zlen_map. intros i Hi.
    destruct (zget_in_range L i) as (l & Hl); [lia|]. destruct (zget_in_range K i) as (k & Hk); [lia|].
    rewrite zget_map, (zipsel_get K L i k l Hk Hl). cbn [bind].
    apply split_at in Hl as (P & R & EL & Ei). destruct (offs_at P l R) as [H1 H2]. rewrite <- EL, <- Ei in H1, H2.
    destruct (G i _ _ 0 H1 H2 ltac:(lia)) as (vs & x & Hvs & Hx & HR). replace (i * 1 + 0) with i in Hx by lia. rewrite Hx. f_equal.
    assert (vs = k) as ->.
    { apply split_at in Hk as (P' & R' & EK & Ei').
      assert (zlen (concat P) = zlen (concat P') /\ zlen l = zlen k) as [HP' Hlk].
      { rewrite EL, EK, !map_app in HKL. assert (length P = length P') as HPP by (unfold zlen in *; lia).
        pose proof (f_equal (firstn (length P)) HKL) as F1. rewrite !firstn_app, !map_length in F1.
        rewrite HPP, Nat.sub_diag in F1. cbn [firstn] in F1. rewrite !app_nil_r in F1. rewrite !firstn_all2 in F1 by (rewrite map_length; lia).
        split; [rewrite <- !zsum_zlen; congruence|]. rewrite F1 in HKL. apply app_inv_head in HKL. cbn in HKL. congruence. }
      assert (mapM (zget (concat K)) (zfromto (zlen (concat P)) (zlen (concat P) + zlen l)) = Ok k) as HM.
      { rewrite EK, concat_app. cbn [concat]. rewrite HP', Hlk. apply mapM_zget_mid. }
      rewrite <- (mapM_ext (fun b => zget (concat K) (b * 1 + 0)) (zget (concat K))) in HM by (intros; f_equal; lia). congruence. }
    assert (In k K) as HkK by (eapply zget_In; eauto).
    assert (forall m, In m k -> m = 0 \/ m = 1) as Hmk by (intros m Hmm; apply Hm; apply in_concat; eauto).
    rewrite HR.
    + symmetry. apply zlen_sel; [|exact Hmk]. apply split_at in Hk as (P' & R' & EK & Ei').
      rewrite EL, EK, !map_app in HKL. assert (length P = length P') as HPP by (unfold zlen in *; lia).
      apply (f_equal (fun q => nth_error q (length P))) in HKL. rewrite !nth_error_app2 in HKL by (rewrite map_length; lia).
      rewrite !map_length, HPP, Nat.sub_diag in HKL. cbn in HKL. congruence.
    + pose proof (marked_at_most_len k Hmk). specialize (Hs k HkK). lia.
Qed.

Lemma kept_lists K L v k l : map zlen K = map zlen L -> zget K v = Ok k -> zget L v = Ok l ->
  kept_targets (of_lists L) (concat K) v = Ok (sel k l) /\ marked_edges (of_lists L) (concat K) v = Ok (zlen (sel k l)).
Proof.
  intros HKL Hk Hl. apply split_at in Hk as (P' & R' & EK & Ei'). apply split_at in Hl as (P & R & EL & Ei).
  assert (zlen (concat P) = zlen (concat P') /\ zlen l = zlen k) as [HP' Hlk].
  { rewrite EL, EK, !map_app in HKL. assert (length P = length P') as HPP by (unfold zlen in *; lia).
    pose proof (f_equal (firstn (length P)) HKL) as F1. rewrite !firstn_app, !map_length in F1.
    rewrite HPP, Nat.sub_diag in F1. cbn [firstn] in F1. rewrite !app_nil_r in F1. rewrite !firstn_all2 in F1 by (rewrite map_length; lia).
    split; [rewrite <- !zsum_zlen; congruence|]. rewrite F1 in HKL. apply app_inv_head in HKL. cbn in HKL. congruence. }
  unfold kept_targets, marked_edges. destruct (offs_at P l R) as [H1 H2]. rewrite <- EL, <- Ei in H1, H2. cbn [a2ab ab2b of_lists]. rewrite H1, H2. cbn [bind].
  assert (mapM (zget (concat L)) (filter (mk (concat K)) (zfromto (zlen (concat P)) (zlen (concat P) + zlen l))) = Ok (sel k l)) as HM.
  { rewrite EL, EK, !concat_app. cbn [concat]. apply sel_mid; assumption. }
  split; [exact HM|]. f_equal. apply mapM_length in HM. unfold zlen. f_equal. symmetry. exact HM.
Qed.

Lemma filter_graph_edges_spec g keep : wf_graph g -> zlen keep = zlen (ab2b g) -> (forall m, In m keep -> m = 0 \/ m = 1) ->
  (forall v n, marked_edges g keep v = Ok n -> n <= 127) ->
  exists g', filter_graph_edges g keep = Ok g' /\ wf_graph g' /\ nnodes g' = nnodes g /\
  forall v, 0 <= v < nnodes g -> exists t, kept_targets g keep v = Ok t /\ targets g' v = Ok t.
Proof.
  intros Hw Hl Hm H127. destruct (wf_lists g Hw) as (L & ->). cbn [ab2b of_lists] in Hl.
  destruct (split_lists (map zlen L)) with (l := keep) as (K & HKL & HC).
  { intros x Hx. apply in_map_iff in Hx as (y & <- & _). apply zlen_nonneg. }
  { rewrite zsum_zlen. lia. }
  subst keep. exists (of_lists (zipsel K L)).
  assert (zlen K = zlen L) as HLK by (rewrite <- (zlen_map zlen K), HKL, zlen_map; reflexivity).
  split; [apply filter_lists; [exact HKL|exact Hm|]|].
  - intros k Hk. assert (forall m, In m k -> m = 0 \/ m = 1) as Hmk by (intros m Hmm; apply Hm; apply in_concat; eauto).
    apply In_zget in Hk as (v & Hk). destruct (zget_in_range L v) as (l & Hl'). { apply zget_bounds in Hk. lia. }
    destruct (kept_lists K L v k l HKL Hk Hl') as [_ HM]. specialize (H127 _ _ HM). rewrite zlen_sel in H127; [exact H127| |exact Hmk].
    assert (zget (map zlen K) v = zget (map zlen L) v) as HH by (rewrite HKL; reflexivity). rewrite !zget_map, Hk, Hl' in HH. cbn in HH. congruence.
  - split; [apply of_lists_wf|]. split; [rewrite !nnodes_of_lists; apply zipsel_zlen, HKL|]. rewrite nnodes_of_lists. intros v Hv.
    destruct (zget_in_range L v Hv) as (l & Hl'). destruct (zget_in_range K v ltac:(lia)) as (k & Hk).
    exists (sel k l). split; [apply kept_lists; assumption|]. apply targets_of_lists, zipsel_get; assumption.
Qed.

Lemma filter_graph_edges_128 :
  exists g keep g', wf_graph g /\ zlen keep = zlen (ab2b g) /\ (forall m, In m keep -> m = 1) /\
  filter_graph_edges g keep = Ok g' /\ ~ wf_graph g' /\ targets g 0 = Ok (ab2b g) /\ targets g' 0 = Ok [].
Proof.
  set (L := [repeat 0 128%nat]). exists (of_lists L), (repeat 1 128%nat).
  exists (mk_graph [0; -128] (repeat 0 128%nat)).
  split; [apply of_lists_wf|]. split; [reflexivity|]. split; [intros m H; apply repeat_spec in H; exact H|].
  split; [vm_compute; reflexivity|]. split; [|split; vm_compute; reflexivity].
  intros [[_ H] _]. specialize (H 0 0 (-128) eq_refl eq_refl). lia.
Qed.

(** ** filter_graph_nodes *)
Lemma count_run (src keep : list Z) js xs n0 : mapM (zget src) js = Ok xs -> (forall x, In x xs -> 0 <= x < zlen keep) ->
  foldM (fun n e => o <- zget src e ;; k <- zget keep o ;; Ok (if k =? 0 then n else n + 1)) js n0 = Ok (n0 + zlen (filter (mk keep) xs)).
Proof.
  revert xs n0. induction js as [|j js IH]; intros xs n0 H Hr; cbn [mapM] in H.
  - injection H as <-. cbn [foldM filter]. rewrite zlen_nil, Z.add_0_r. reflexivity.
  - apply bind_ok in H as (y & Hy & H). apply bind_ok in H as (ys & Hys & H). injection H as <-.
    cbn [foldM]. rewrite Hy. cbn [bind]. destruct (zget_in_range keep y) as (k & Hk); [apply Hr; left; reflexivity|]. rewrite Hk. cbn [bind].
    rewrite (IH ys) by (try exact Hys; intros; apply Hr; right; assumption). cbn [filter].
    assert (mk keep y = negb (k =? 0)) as -> by (unfold mk; rewrite Hk; reflexivity).
    destruct (k =? 0); cbn [negb]; f_equal; rewrite ?zlen_cons; lia.
Qed.

Lemma fill_run (src keep old2new : list Z) : forall js xs ys P m, mapM (zget src) js = Ok xs ->
  (forall x, In x xs -> 0 <= x < zlen keep) -> mapM (zget old2new) (filter (mk keep) xs) = Ok ys ->
  foldM (fun s e => let '(d, ne) := s in
      o <- zget src e ;; k <- zget keep o ;;
      if k =? 0 then Ok (d, ne)
      else (on <- zget old2new o ;; d <- zset d ne (Some on) ;; Ok (d, ne + 1))) js (part P (length ys + m), zlen P)
  = Ok (part (P ++ ys) m, zlen P + zlen ys).
Proof.
  induction js as [|j js IH]; intros xs ys P m H Hr HY; cbn [mapM] in H.
  - injection H as <-. cbn in HY. injection HY as <-. cbn [foldM length plus]. rewrite app_nil_r, zlen_nil, Z.add_0_r. reflexivity.
  - apply bind_ok in H as (y & Hy & H). apply bind_ok in H as (xs' & Hxs & H). injection H as <-.
    cbn [foldM]. rewrite Hy. cbn [bind]. destruct (zget_in_range keep y) as (k & Hk); [apply Hr; left; reflexivity|]. rewrite Hk. cbn [bind].
    cbn [filter] in HY. assert (mk keep y = negb (k =? 0)) as EM by (unfold mk; rewrite Hk; reflexivity). rewrite EM in HY.
    destruct (k =? 0); cbn [negb] in HY; cbn [bind].
    + apply (IH xs'); [exact Hxs|intros; apply Hr; right; assumption|exact HY].
    + cbn [mapM] in HY. apply bind_ok in HY as (n & Hn & HY). apply bind_ok in HY as (ys' & HY' & HY). injection HY as <-.
      rewrite Hn. cbn [bind length plus]. rewrite push. cbn [bind].
      replace (zlen P + 1) with (zlen (P ++ [n])) by (rewrite zlen_app; reflexivity).
      rewrite (IH xs' ys') by (try assumption; intros; apply Hr; right; assumption). rewrite <- app_assoc. f_equal. f_equal.
      rewrite zlen_app, !zlen_cons, zlen_nil. lia.
Qed.

Lemma filter_graph_nodes_spec g keep : wf_graph g -> zlen keep = nnodes g -> (forall m, In m keep -> m = 0 \/ m = 1) ->
  (forall b, In b (ab2b g) -> 0 <= b < nnodes g) ->
  exists kept g', filter_graph_nodes g keep = Ok g' /\ StronglySorted Z.lt kept /\ (forall i, In i kept <-> zget keep i = Ok 1) /\
  wf_graph g' /\ nnodes g' = zlen kept /\
  forall nw old t, zget kept nw = Ok old -> targets g old = Ok t ->
  exists t', targets g' nw = Ok t' /\
    Forall2 (fun n o => zget kept n = Ok o) t' (filter (fun o => match zget keep o with Ok k => negb (k =? 0) | _ => false end) t).
Proof.
  intros Hw Hl Hm Hb. destruct (wf_lists g Hw) as (L & ->). rewrite nnodes_of_lists in *. cbn [ab2b of_lists] in Hb.
  set (kept := marked_indices keep).
  assert (StronglySorted Z.lt kept) as Hsort by (apply filter_sorted, zrange_sorted).
  assert (forall i, In i kept <-> zget keep i = Ok 1) as Hin.
  { intros i. unfold kept. rewrite marked_indices_in. split.
    - intros (m & E & Hm0). destruct (Hm m (zget_In _ _ _ E)); subst; [lia|exact E].
    - intros E. exists 1. split; [exact E|lia]. }
  assert (NoDup kept) as Hnd.
  { clear -Hsort. induction Hsort as [|x l H IH F]; constructor; [|exact IH]. intros Hx. eapply Forall_forall in F; eauto. lia. }
  assert (forall b, In b kept -> 0 <= b < zlen L) as Hkr by (intros b H; apply Hin, zget_bounds in H; lia).
  destruct (invert_injective_map_spec kept (zlen L) (zlen_nonneg L) Hnd Hkr) as (o2n & Eo & Lo & Go & _).
  assert (forall x, In x L -> forall o, In o x -> 0 <= o < zlen keep) as HrL.
  { intros x Hx o Ho. rewrite Hl. apply Hb, in_concat. eauto. }
  destruct (mapM_total (fun x => mapM (zget o2n) (filter (mk keep) x)) L) as (D & ED).
  { intros x Hx. apply mapM_total. intros o Ho. apply filter_In in Ho as [Ho _]. apply zget_in_range. rewrite Lo, <- Hl. eapply HrL; eauto. }
  destruct (mapM_total (zget D) kept) as (R & ER).
  { intros b Hbk. apply zget_in_range. unfold zlen in *. rewrite (mapM_length _ _ _ ED). apply Hkr, Hbk. }
  assert (map zlen D = map (fun x => zlen (filter (mk keep) x)) L) as HD.
  { apply mapM_ok in ED. clear -ED. induction ED as [|x y xs ys H _ IH]; [reflexivity|]. cbn [map]. rewrite IH. f_equal. unfold zlen. rewrite (mapM_length _ _ _ H). reflexivity. }
  exists kept, (of_lists R). split; [|split; [exact Hsort|split; [exact Hin|split; [apply of_lists_wf|split]]]].
  - unfold filter_graph_nodes. rewrite nnodes_of_lists. cbn [a2ab ab2b of_lists].
    rewrite (collect_marked_spec _ Hm). fold kept. cbn [bind].
    assert (tabulate (zlen L) (fun old => lo <- zget (offset_scan (map zlen L)) old ;; hi <- zget (offset_scan (map zlen L)) (old + 1) ;;
       foldM (fun n e => o <- zget (concat L) e ;; k <- zget keep o ;; Ok (if k =? 0 then n else n + 1)) (zfromto lo hi) 0) = Ok (map zlen D)) as ET.
    { apply (proj2 (tabulate_ok (zlen L) _ _ (zlen_nonneg L))). split.
      - rewrite zlen_map. unfold zlen. rewrite (mapM_length _ _ _ ED). reflexivity.
      - intros i Hi. destruct (zget_in_range L i Hi) as (x & Hx). assert (In x L) as HxL by (eapply zget_In; eauto). rewrite HD, zget_map, Hx. cbn [bind].
        apply split_at in Hx as (P & S & EL & Ei). destruct (offs_at P x S) as [H1 H2]. rewrite <- EL, <- Ei in H1, H2. rewrite H1, H2. cbn [bind].
        exists (zlen (filter (mk keep) x)). split; [|reflexivity].
        rewrite (count_run (concat L) keep _ x 0); [reflexivity| |apply HrL, HxL]. rewrite EL, concat_app. cbn [concat]. apply mapM_zget_mid. }
    rewrite ET. cbn [bind].
    rewrite (unmap1 kept (map zlen D) (map zlen R)).
    2: { intros b Hbk. rewrite zlen_map. unfold zlen. rewrite (mapM_length _ _ _ ED). apply Hkr, Hbk. }
    2: { clear -ER. revert R ER. induction kept as [|b a2b IH]; intros R E; cbn [mapM] in *; [injection E as <-; reflexivity|].
         apply bind_ok in E as (y & Hy & E). apply bind_ok in E as (ys & Hys & E). injection E as <-. rewrite zget_map, Hy. cbn [bind].
         rewrite (IH ys Hys). reflexivity. }
    cbn [bind]. rewrite offset_scan_last, zsum_zlen. cbn [bind]. rewrite Eo. cbn [bind]. rewrite blank_concat. cbn [bind].
    replace (zlen kept) with (zlen R) by (unfold zlen; rewrite (mapM_length _ _ _ ER); reflexivity).
    rewrite fill_lists; [cbn [bind]; rewrite freeze_part; reflexivity|].
    intros P y S E m. destruct (offs_at P y S) as [H1 H2]. rewrite <- E in H1, H2.
    assert (zget R (zlen P) = Ok y) as HR by (rewrite E, zget_app_r by lia; rewrite Z.sub_diag; reflexivity).
    destruct (zget_in_range kept (zlen P)) as (old & Hold). { apply zget_bounds in HR. unfold zlen in *. rewrite <- (mapM_length _ _ _ ER). lia. }
    destruct (mapM_get _ _ _ _ _ ER Hold) as (y' & Hy' & HDo). assert (y' = y) as -> by congruence.
    destruct (zget_in_range L old) as (x & Hx); [apply Hkr; eapply zget_In; eauto|].
    destruct (mapM_get _ _ _ _ _ ED Hx) as (y'' & Hy'' & HF). assert (y'' = y) as -> by congruence.
    rewrite Hold, H1. cbn [bind]. assert (In x L) as HxL by (eapply zget_In; eauto). apply split_at in Hx as (Q & T & EL & Eold). destruct (offs_at Q x T) as [H3 H4].
    rewrite <- EL, <- Eold in H3, H4. rewrite H3, H4. cbn [bind].
    rewrite (fill_run (concat L) keep o2n _ x y); [reflexivity| |apply HrL, HxL|exact HF].
    rewrite EL, concat_app. cbn [concat]. apply mapM_zget_mid.
  - rewrite nnodes_of_lists. unfold zlen. rewrite (mapM_length _ _ _ ER). reflexivity.
  - intros nw old t Hold Ht. apply targets_lists in Ht. destruct (mapM_get _ _ _ _ _ ER Hold) as (y & Hy & HDo).
    destruct (mapM_get _ _ _ _ _ ED Ht) as (y' & Hy' & HF). assert (y' = y) as -> by congruence.
    exists y. split; [apply targets_of_lists, Hy|]. change (Forall2 (fun n o => zget kept n = Ok o) y (filter (mk keep) t)).
    apply mapM_ok in HF. assert (forall o, In o (filter (mk keep) t) -> In o kept) as Hk.
    { intros o Ho. apply filter_In in Ho as [_ Ho]. unfold mk in Ho. unfold kept. apply marked_indices_in. destruct (zget keep o); try discriminate. exists a. split; [reflexivity|]. lia. }
    clear -HF Hk Go Hnd. induction HF as [|o n os ns Hon _ IH]; constructor; [|apply IH; intros; apply Hk; right; assumption].
    destruct (In_zget _ _ (Hk o ltac:(left; reflexivity))) as (i & Hi). specialize (Go i o Hi). congruence.
Qed.
