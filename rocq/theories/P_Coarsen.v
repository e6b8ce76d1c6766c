(** The surviving entities around collapsing vertices and the products they become. *)
From Coq Require Import Sorted.
From Verif Require Import Prelude M_Array M_Scan M_Map M_Align M_Template M_Graph M_Adj M_Swap3d M_Coarsen S_Map S_Graph S_Adj S_Swap3d S_Coarsen P_Array P_Map P_Map2 P_Fan P_Invert P_Mark P_Graph P_Adj P_SwapTopo P_Dead.
Local Open Scope Z_scope.

Lemma sorted_ext (l m : list Z) : StronglySorted Z.lt l -> StronglySorted Z.lt m -> (forall x, In x l <-> In x m) -> l = m.
Proof.
  intros Hl. revert m. induction Hl as [|a l Hl IH Ha]; intros m Hm H.
  - destruct m as [|b m]; [reflexivity|]. exfalso. apply (H b). left. reflexivity.
  - destruct Hm as [|b m Hm Hb]; [exfalso; apply (H a); left; reflexivity|]. rewrite Forall_forall in Ha, Hb.
    assert (a = b) as ->. { destruct (proj1 (H a) (or_introl eq_refl)) as [E|E]; [congruence|]. destruct (proj2 (H b) (or_introl eq_refl)) as [E'|E']; [congruence|]. specialize (Hb a E). specialize (Ha b E'). lia. }
    f_equal. apply IH; [exact Hm|]. intros x. split; intros Hx.
    + destruct (proj1 (H x) (or_intror Hx)) as [<-|K]; [specialize (Ha b Hx); lia | exact K].
    + destruct (proj2 (H x) (or_intror Hx)) as [<-|K]; [specialize (Hb b Hx); lia | exact K].
Qed.
Lemma zfromto_sorted lo hi : StronglySorted Z.lt (zfromto lo hi).
Proof.
  unfold zfromto. pose proof (zrange_sorted (hi - lo)) as H. induction H as [|a l _ IH Ha]; cbn [map]; constructor; [exact IH|]. rewrite Forall_forall in *. intros x Hx. apply in_map_iff in Hx as (y & <- & Hy). specialize (Ha y Hy). lia.
Qed.
Lemma mapM_sorted (r js sub : list Z) : StronglySorted Z.lt r -> StronglySorted Z.lt js -> mapM (zget r) js = Ok sub -> StronglySorted Z.lt sub.
Proof.
  intros Hr Hj. revert sub. induction Hj as [|j js Hj IH Ha]; intros sub E; cbn [mapM] in E; [injection E as <-; constructor|]. apply bind_ok in E as (x & Ex & E). apply bind_ok in E as (sub' & Es & E). injection E as <-. constructor; [apply IH, Es|].
  rewrite Forall_forall in *. intros y Hy. destruct (mapM_in_inv _ _ _ _ Es Hy) as (k & Ek & Hk). apply (strongly_zget r j k x y Hr Ex Ek). apply Ha, Hk.
Qed.
Lemma mapM_gets {A} (d d' : list A) r js sub : mapM (zget d) r = Ok d' -> mapM (zget r) js = Ok sub -> mapM (zget d') js = mapM (zget d) sub.
Proof.
  intros Ed. revert sub. induction js as [|j js IH]; intros sub E; cbn [mapM] in E; [injection E as <-; reflexivity|]. apply bind_ok in E as (x & Ex & E). apply bind_ok in E as (sub' & Es & E). injection E as <-. cbn [mapM]. rewrite (IH sub' Es).
  destruct (P_Graph.mapM_get _ _ _ _ _ Ed Ex) as (y & Ey & Ex'). rewrite Ey, Ex'. reflexivity.
Qed.
Lemma combine_filter {A} (f : Z -> res Z) (g : Z -> res A) (P : Z -> bool) (Q : Z -> bool) js es cs : (forall i e, In i js -> f i = Ok e -> P i = Q e) -> mapM f js = Ok es -> mapM g js = Ok cs ->
  exists es' cs', mapM f (filter P js) = Ok es' /\ mapM g (filter P js) = Ok cs' /\ length es' = length cs' /\ combine es' cs' = filter (fun p => Q (fst p)) (combine es cs).
Proof.
  revert es cs. induction js as [|j js IH]; intros es cs H Ef Eg; cbn [mapM] in Ef, Eg; [injection Ef as <-; injection Eg as <-; exists [], []; auto|].
  apply bind_ok in Ef as (e & Ee & Ef). apply bind_ok in Ef as (es0 & Ees & Ef). injection Ef as <-. apply bind_ok in Eg as (c & Ec & Eg). apply bind_ok in Eg as (cs0 & Ecs & Eg). injection Eg as <-.
  destruct (IH es0 cs0 (fun i e Hi => H i e (or_intror Hi)) Ees Ecs) as (es' & cs' & E1 & E2 & L & E3). cbn [filter combine fst]. rewrite <- (H j e (or_introl eq_refl) Ee). destruct (P j).
  - exists (e :: es'), (c :: cs'). cbn [mapM]. rewrite Ee, Ec, E1, E2. cbn [bind length combine]. rewrite E3. auto.
  - exists es', cs'. auto.
Qed.

Lemma in_group_mono f a a' b b' : is_fan f -> in_group f a b -> in_group f a' b' -> b <= b' -> a <= a'.
Proof.
  intros Hf (lo & hi & E1 & E2 & H) (lo' & hi' & E1' & E2' & H') Hb. destruct (Z_le_gt_dec a a') as [|G]; [assumption|]. pose proof (fan_mono f (a' + 1) a hi' lo Hf E2' E1 ltac:(lia)). lia.
Qed.

Lemma domains_ok v2e codes keys2verts dead : wf_adj v2e -> adj_codes v2e = Some codes -> (forall v, In v keys2verts -> 0 <= v < zlen (adj_a2ab v2e) - 1) -> (forall e, In e (adj_ab2b v2e) -> 0 <= e < zlen dead) ->
  exists doms dcodes, find_coarsen_domains v2e keys2verts dead = Ok doms /\ wf_adj doms /\ zlen (adj_a2ab doms) = zlen keys2verts + 1 /\ adj_codes doms = Some dcodes /\
  forall key v es cs, zget keys2verts key = Ok v -> adj_targets v2e v = Ok es -> adj_target_codes v2e v = Ok cs ->
  exists es' cs', adj_targets doms key = Ok es' /\ adj_target_codes doms key = Ok cs' /\ length es' = length cs' /\ combine es' cs' = filter (fun p => live dead (fst p)) (combine es cs).
Proof.
  intros W Ec Hk Hd. destruct (unmap_adjacency_spec keys2verts v2e codes W Ec Hk) as (k2e & Eu & Wk & Lk & Ht).
  assert (exists kcodes, adj_codes k2e = Some kcodes) as (kcodes & Ekc). { unfold unmap_adjacency in Eu. repeat (apply bind_ok in Eu as (? & _ & Eu)). injection Eu as <-. eexists. reflexivity. }
  assert (forall e, In e (adj_ab2b k2e) -> 0 <= e < zlen dead) as Hd'.
  { intros e He. apply In_zget in He as (i & Ei). destruct Wk as (Wk1 & Wk2 & _). pose proof (zget_bounds _ _ _ Ei) as Bi. destruct (in_group_exists (adj_a2ab k2e) (zlen (adj_ab2b k2e)) i Wk1 Wk2 Bi) as (key & Hg).
    destruct (in_group_range _ _ _ _ Wk1 Wk2 Hg) as [_ Hkr]. destruct (zget_in_range keys2verts key) as (v & Ev); [lia|]. destruct (Ht key v Ev) as [T1 _].
    destruct (wf_targets (mk_graph (adj_a2ab v2e) (adj_ab2b v2e)) v) as (ts & Ets). { destruct W as (Wa & Wb & _). split; [exact Wa | exact Wb]. } { unfold nnodes. cbn [a2ab]. apply Hk. eapply zget_In, Ev. }
    pose proof Ets as Ets'. apply targets_split in Ets' as (lo0 & hi0 & _ & _ & B3'). cbn [a2ab ab2b] in B3'.
    fold (adj_targets v2e v) in Ets. rewrite Ets in T1. unfold adj_targets in T1. apply targets_split in T1 as (lo & hi & B1 & B2 & B3). cbn [a2ab ab2b] in *. destruct Hg as (lo' & hi' & G1 & G2 & G3). assert (lo' = lo) as -> by congruence. assert (hi' = hi) as -> by congruence.
    destruct (mapM_in _ _ _ i B3) as (y & Ey & Hy); [apply in_zfromto; exact G3|]. assert (y = e) as -> by congruence. destruct (mapM_in_inv _ _ _ _ B3' Hy) as (p & Ep & _). apply Hd. eapply zget_In, Ep. }
  unfold find_coarsen_domains. rewrite Eu. cbn [bind]. rewrite Ekc. cbn [bind]. pose proof Wk as (Wk1 & Wk2 & Wk3). specialize (Wk3 kcodes Ekc).
  destruct (invert_fan_spec (adj_a2ab k2e) Wk1) as (ke2k & n & En & Ei & Ln & Gi). rewrite Ei. cbn [bind]. assert (n = zlen (adj_ab2b k2e)) as -> by (unfold last_of in En; congruence).
  destruct (mapM_total (zget (invert_marks dead)) (adj_ab2b k2e)) as (lv & Elv). { intros e He. apply zget_in_range. unfold invert_marks. rewrite zlen_map. apply Hd', He. }
  rewrite (unmap1 _ _ lv); [| intros e He; unfold invert_marks; rewrite zlen_map; apply Hd', He | exact Elv]. cbn [bind].
  assert (forall i e, zget (adj_ab2b k2e) i = Ok e -> (zget lv i = Ok 1 <-> live dead e = true)) as HL.
  { intros i e Hi. destruct (P_Graph.mapM_get _ _ _ _ _ Elv Hi) as (y & Ey & Ey'). rewrite Ey. destruct (zget_in_range dead e) as (m & Em); [apply Hd'; eapply zget_In, Hi|]. rewrite (invert_marks_spec dead e m Em) in Ey'. injection Ey' as <-. unfold live. rewrite Em. destruct (m =? 0); split; congruence. }
  destruct (collect_marked_full lv) as (r & Er & Sr & Hr). { intros m Hm. destruct (mapM_in_inv _ _ _ _ Elv Hm) as (e & Ee & _). unfold invert_marks in Ee. apply zget_In in Ee. apply in_map_iff in Ee as (z & <- & _). destruct (z =? 0); auto. }
  rewrite Er. cbn [bind].
  assert (zlen lv = zlen (adj_ab2b k2e)) as Llv. { unfold zlen. rewrite (mapM_length _ _ _ Elv). reflexivity. }
  assert (forall i, In i r -> 0 <= i < zlen (adj_ab2b k2e)) as Rr. { intros i Hi. apply Hr in Hi. apply zget_bounds in Hi. lia. }
  destruct (mapM_total (zget ke2k) r) as (lk & Elk). { intros i Hi. apply zget_in_range. rewrite Ln. apply Rr, Hi. }
  destruct (mapM_total (zget kcodes) r) as (lc & Elc). { intros i Hi. apply zget_in_range. rewrite Wk3. apply Rr, Hi. }
  destruct (mapM_total (zget (adj_ab2b k2e)) r) as (le & Ele). { intros i Hi. apply zget_in_range. apply Rr, Hi. }
  rewrite (unmap1 r ke2k lk), (unmap1 r kcodes lc), (unmap1 r (adj_ab2b k2e) le) by (try assumption; intros i Hi; rewrite ?Ln, ?Wk3; apply Rr, Hi). cbn [bind].
  destruct (invert_funnel_spec lk (zlen keys2verts)) as (f & Ef & Lf & Ff & Lst & Gf).
  { apply zlen_nonneg. }
  { apply Sorted_zget_le. intros i x y Ex Ey. assert (zlen lk = zlen r) as Llk by (unfold zlen; rewrite (mapM_length _ _ _ Elk); reflexivity). pose proof (zget_bounds _ _ _ Ex). pose proof (zget_bounds _ _ _ Ey). destruct (zget_in_range r i) as (b & Eb); [lia|]. destruct (zget_in_range r (i + 1)) as (b' & Eb'); [lia|].
    destruct (P_Graph.mapM_get _ _ _ _ _ Elk Eb) as (x' & Ex' & Gx). destruct (P_Graph.mapM_get _ _ _ _ _ Elk Eb') as (y' & Ey' & Gy). assert (x' = x) as -> by congruence. assert (y' = y) as -> by congruence. apply Gi in Gx, Gy.
    pose proof (strongly_zget r i (i + 1) b b' Sr Eb Eb' ltac:(lia)). apply (in_group_mono _ _ _ _ _ Wk1 Gx Gy). lia. }
  { intros x Hx. destruct (mapM_in_inv _ _ _ _ Elk Hx) as (b & Eb & _). apply Gi in Eb. destruct (in_group_range _ _ _ _ Wk1 Wk2 Eb) as [_ B]. lia. }
  rewrite Ef. cbn [bind]. eexists _, lc. split; [reflexivity|].
  assert (zlen lk = zlen r /\ zlen lc = zlen r /\ zlen le = zlen r) as (Llk & Llc & Lle) by (unfold zlen; rewrite (mapM_length _ _ _ Elk), (mapM_length _ _ _ Elc), (mapM_length _ _ _ Ele); auto).
  split. { split; [exact Ff|]. cbn [adj_a2ab adj_ab2b adj_codes]. split; [unfold last_of in Lst; rewrite Lst; f_equal; lia|]. intros c E. injection E as <-. lia. }
  split; [exact Lf|]. split; [reflexivity|].
  intros key v es cs Ev Es Ecs. destruct (Ht key v Ev) as [T1 T2]. rewrite Es in T1. rewrite Ecs in T2. unfold adj_target_codes in T2. rewrite Ekc in T2. unfold adj_targets in T1. apply targets_split in T1 as (LO & HI & B1 & B2 & B3). apply targets_split in T2 as (LO' & HI' & C1 & C2 & C3). cbn [a2ab ab2b] in *. assert (LO' = LO) as -> by congruence. assert (HI' = HI) as -> by congruence.
  pose proof (zget_bounds _ _ _ Ev) as Bk. destruct (zget_in_range f key) as (lo & El); [lia|]. destruct (zget_in_range f (key + 1)) as (hi & Eh); [lia|].
  assert (forall i, lo <= i < hi <-> zget lk i = Ok key) as Gk. { intros i. rewrite <- Gf. split; [intros Hi; exists lo, hi; auto | intros (lo' & hi' & A1 & A2 & A3); assert (lo' = lo) as -> by congruence; assert (hi' = hi) as -> by congruence; exact A3]. }
  destruct (mapM_total (zget r) (zfromto lo hi)) as (sub & Esub). { intros i Hi. apply in_zfromto in Hi. apply Gk in Hi. apply zget_bounds in Hi. apply zget_in_range. lia. }
  assert (sub = filter (fun i => match zget (adj_ab2b k2e) i with Ok e => live dead e | _ => false end) (zfromto LO HI)) as EQ.
  { apply sorted_ext; [apply (mapM_sorted r (zfromto lo hi)); [exact Sr | apply zfromto_sorted | exact Esub] | apply filter_sorted, zfromto_sorted|]. intros x. rewrite filter_In, in_zfromto. split.
    - intros Hx. destruct (mapM_in_inv _ _ _ _ Esub Hx) as (i & Ei' & Hi). apply in_zfromto in Hi. apply Gk in Hi. destruct (P_Graph.mapM_get _ _ _ _ _ Elk Ei') as (k' & Ek' & Gx). assert (k' = key) as -> by congruence. apply Gi in Gx. destruct Gx as (lo' & hi' & A1 & A2 & A3). assert (lo' = LO) as -> by congruence. assert (hi' = HI) as -> by congruence.
      split; [exact A3|]. assert (In x r) as Hxr by (eapply zget_In, Ei'). destruct (zget_in_range (adj_ab2b k2e) x (Rr x Hxr)) as (e & Ee). rewrite Ee. apply (HL x e Ee). apply Hr, Hxr.
    - intros [Hx Hl]. destruct (zget (adj_ab2b k2e) x) as [e| |] eqn:Ee; try discriminate. apply (HL x e Ee) in Hl. apply Hr in Hl. apply In_zget in Hl as (i & Ei'). destruct (P_Graph.mapM_get _ _ _ _ _ Elk Ei') as (k' & Ek' & Gx). assert (zget ke2k x = Ok key) as Gx' by (apply Gi; exists LO, HI; auto). assert (k' = key) as -> by congruence. apply Gk in Ek'.
      destruct (mapM_in _ _ _ i Esub) as (y & Ey & Hy); [apply in_zfromto; exact Ek'|]. assert (y = x) as -> by congruence. exact Hy. }
  destruct (combine_filter (zget (adj_ab2b k2e)) (zget kcodes) (fun i => match zget (adj_ab2b k2e) i with Ok e => live dead e | _ => false end) (live dead) (zfromto LO HI) es cs) as (es' & cs' & D1 & D2 & D3 & D4); [intros i e _ Ee; rewrite Ee; reflexivity | exact B3 | exact C3 |].
  exists es', cs'. unfold adj_targets, adj_target_codes, targets. cbn [adj_a2ab adj_ab2b adj_codes a2ab ab2b]. rewrite El, Eh. cbn [bind]. rewrite (mapM_gets _ _ _ _ _ Ele Esub), (mapM_gets _ _ _ _ _ Elc Esub), EQ. auto.
Qed.

(** ** products *)
Lemma write_block_app {A} (a b : list A) : forall d p, write_block d p (a ++ b) = (d' <- write_block d p a ;; write_block d' (p + zlen a) b).
Proof.
  induction a as [|x a IH]; intros d p; cbn [app write_block bind]; [rewrite zlen_nil, Z.add_0_r; reflexivity|]. destruct (zset d p (Some x)) as [d'| |]; cbn [bind]; try reflexivity. rewrite IH, zlen_cons. destruct (write_block d' (p + 1) a); cbn [bind]; try reflexivity. f_equal. lia.
Qed.
Lemma write_rows {A} (g : Z -> res (list A)) k : forall rows lo hi, mapM g (zfromto lo hi) = Ok rows -> (forall r, In r rows -> zlen r = k) -> forall out,
  foldM (fun out kc => row <- g kc ;; write_block out (kc * k) row) (zfromto lo hi) out = write_block out (lo * k) (concat rows).
Proof.
  induction rows as [|r rows IH]; intros lo hi E H out.
  - destruct (Z_lt_le_dec lo hi) as [Hl|Hl]; [rewrite zfromto_cons in E by exact Hl; cbn [mapM] in E; apply bind_ok in E as (? & _ & E); apply bind_ok in E as (? & _ & E); discriminate | rewrite zfromto_nil by lia; reflexivity].
  - destruct (Z_lt_le_dec lo hi) as [Hl|Hl]; [|rewrite zfromto_nil in E by lia; discriminate]. rewrite zfromto_cons in * by exact Hl. cbn [mapM] in E. apply bind_ok in E as (r' & Er & E). apply bind_ok in E as (rows' & Ers & E). injection E as -> ->. cbn [foldM concat]. rewrite Er. cbn [bind]. rewrite write_block_app.
    destruct (write_block out (lo * k) r) as [d| |]; cbn [bind]; try reflexivity. rewrite (IH (lo + 1) hi Ers) by (intros; apply H; right; assumption). f_equal. rewrite (H r) by (left; reflexivity). ring.
Qed.

Lemma nth_error_mapM {A B} (f : A -> res B) l r i x : mapM f l = Ok r -> nth_error l i = Some x -> exists y, nth_error r i = Some y /\ f x = Ok y.
Proof. intros E H. destruct (mapM_nth _ _ _ _ _ E H) as (y & Ey & En). eauto. Qed.

Lemma coarsen_ok nccv cv2v ontos dim doms dcodes old2new : nccv = simplex_degree dim 0 -> 0 <= nccv -> wf_adj doms -> adj_codes doms = Some dcodes -> zlen (adj_a2ab doms) = zlen ontos + 1 ->
  (forall key w p c code, zget ontos key = Ok w -> in_group (adj_a2ab doms) key p -> zget (adj_ab2b doms) p = Ok c -> zget dcodes p = Ok code -> exists row, coarsen_prod nccv cv2v old2new w c code = Ok row /\ zlen row = nccv) ->
  exists out, coarsen_topology cv2v ontos dim doms old2new = Ok out /\
  forall key w lo hi, zget ontos key = Ok w -> zget (adj_a2ab doms) key = Ok lo -> zget (adj_a2ab doms) (key + 1) = Ok hi ->
  exists rows, mapM (fun p => c <- zget (adj_ab2b doms) p ;; code <- zget dcodes p ;; coarsen_prod nccv cv2v old2new w c code) (zfromto lo hi) = Ok rows /\ ents_between nccv out lo hi = Ok rows.
Proof.
  intros En Hk W Ec Ln Hp. pose proof W as (W1 & W2 & W3). specialize (W3 dcodes Ec). destruct doms as [a2ab_ ab2b_ codes_]. cbn [adj_a2ab adj_ab2b adj_codes] in *. subst codes_.
  set (g := fun w p => c <- zget ab2b_ p ;; code <- zget dcodes p ;; coarsen_prod nccv cv2v old2new w c code).
  set (G := fun key => w <- zget ontos key ;; lo <- zget a2ab_ key ;; hi <- zget a2ab_ (key + 1) ;; mapM (g w) (zfromto lo hi)).
  assert (forall key w lo hi, zget ontos key = Ok w -> zget a2ab_ key = Ok lo -> zget a2ab_ (key + 1) = Ok hi -> exists rows, mapM (g w) (zfromto lo hi) = Ok rows /\ (forall r, In r rows -> zlen r = nccv) /\ zlen rows = hi - lo) as HG.
  { intros key w lo hi Ew El Eh. pose proof (proj2 W1 key lo hi El Eh) as Hlh. assert (forall p, lo <= p < hi -> exists row, g w p = Ok row /\ zlen row = nccv) as Hgp.
    { intros p Hpr. assert (in_group a2ab_ key p) as Hgr by (exists lo, hi; auto). destruct (in_group_range a2ab_ (zlen ab2b_) key p W1 W2 Hgr) as [Bp _]. destruct (zget_in_range ab2b_ p Bp) as (c & Ecp). destruct (zget_in_range dcodes p) as (code & Ecode); [lia|].
      destruct (Hp key w p c code Ew Hgr Ecp Ecode) as (row & Er & Lr). exists row. unfold g. rewrite Ecp. cbn [bind]. rewrite Ecode. cbn [bind]. auto. }
    destruct (mapM_total (g w) (zfromto lo hi)) as (rows & Erows). { intros p Hi. apply in_zfromto in Hi. destruct (Hgp p Hi) as (row & E & _). eauto. }
    exists rows. split; [exact Erows|]. split.
    - intros r Hr. destruct (mapM_in_inv _ _ _ _ Erows Hr) as (p & E & Hi). apply in_zfromto in Hi. destruct (Hgp p Hi) as (row & E' & L). congruence.
    - unfold zlen. rewrite (mapM_length _ _ _ Erows). unfold zfromto. rewrite map_length, zrange_length. lia. }
  destruct (mapM_total G (zrange (zlen ontos))) as (L & EL).
  { intros key Hi. apply in_zrange in Hi. destruct (zget_in_range ontos key Hi) as (w & Ew). destruct (zget_in_range a2ab_ key) as (lo & El); [lia|]. destruct (zget_in_range a2ab_ (key + 1)) as (hi & Eh); [lia|]. destruct (HG key w lo hi Ew El Eh) as (rows & E & _). exists rows. unfold G. rewrite Ew. cbn [bind]. rewrite El. cbn [bind]. rewrite Eh. cbn [bind]. exact E. }
  assert (forall j, 0 <= j < zlen ontos -> exists w lo hi rows, zget ontos j = Ok w /\ zget a2ab_ j = Ok lo /\ zget a2ab_ (j + 1) = Ok hi /\ nth_error L (Z.to_nat j) = Some rows /\ mapM (g w) (zfromto lo hi) = Ok rows /\ (forall r, In r rows -> zlen r = nccv) /\ zlen rows = hi - lo) as HL.
  { intros j Hj. destruct (zget_in_range ontos j Hj) as (w & Ew). destruct (zget_in_range a2ab_ j) as (lo & El); [lia|]. destruct (zget_in_range a2ab_ (j + 1)) as (hi & Eh); [lia|]. destruct (HG j w lo hi Ew El Eh) as (rows & E & H1 & H2).
    assert (nth_error (zrange (zlen ontos)) (Z.to_nat j) = Some j) as Ej. { rewrite zrange_nth by lia. f_equal. lia. } destruct (nth_error_mapM _ _ _ _ _ EL Ej) as (y & Ey & Gy). unfold G in Gy. rewrite Ew in Gy. cbn [bind] in Gy. rewrite El in Gy. cbn [bind] in Gy. rewrite Eh in Gy. cbn [bind] in Gy. assert (y = rows) as -> by congruence. exists w, lo, hi, rows. auto 10. }
  assert (zlen L = zlen ontos) as LL. { unfold zlen. rewrite (mapM_length _ _ _ EL), zrange_length. unfold zlen. lia. }
  assert (offset_scan (map zlen L) = a2ab_) as EO.
  { destruct (offsets_of_degrees a2ab_ (proj1 W1)) as (d & Ed & Eo). rewrite <- Eo. f_equal. destruct (get_degrees_spec a2ab_) as (d' & Ed' & Ld & Gd); [pose proof (zlen_nonneg ontos); lia|]. assert (d' = d) as -> by congruence.
    apply list_eq_zget; [rewrite zlen_map; lia|]. intros j Hj. rewrite zlen_map in Hj. destruct (HL j) as (w & lo & hi & rows & _ & El & Eh & Er & _ & _ & Lr); [lia|]. rewrite (Gd j lo hi El Eh), zget_map. assert (zget L j = Ok rows) as -> by (apply zget_ok; split; [lia | exact Er]). cbn [bind]. congruence. }
  assert (forall ts, In ts L -> forall t, In t ts -> zlen t = nccv) as HLk.
  { intros ts Hts. apply In_nth_error in Hts as (j & Ej). assert (j < length L)%nat as Hj by (apply nth_error_Some; congruence). destruct (HL (Z.of_nat j)) as (w & lo & hi & rows & _ & _ & _ & Er & _ & Hr & _); [unfold zlen in *; lia|]. rewrite Nat2Z.id in Er. assert (rows = ts) as -> by congruence. exact Hr. }
  assert (zlen (flat nccv L) = zlen ab2b_ * nccv) as LF. { rewrite zlen_flat by exact HLk. f_equal. pose proof (offset_scan_last (map zlen L)) as Hls. rewrite EO in Hls. unfold last_of in Hls. congruence. }
  exists (flat nccv L). split.
  - unfold coarsen_topology. cbn [adj_codes adj_a2ab adj_ab2b]. rewrite <- En. cbn [bind]. unfold last_of. rewrite W2. cbn [bind]. rewrite <- LF. rewrite blank_ok by apply zlen_nonneg. cbn [bind].
    assert (forall j, (j <= length L)%nat -> forM (Z.of_nat j) (repeat None (Z.to_nat (zlen (flat nccv L)))) (fun out key => v_onto <- zget ontos key ;; lo <- zget a2ab_ key ;; hi <- zget a2ab_ (key + 1) ;;
      foldM (fun out kc => c <- zget ab2b_ kc ;; kc_code <- zget dcodes kc ;; row <- coarsen_prod nccv cv2v old2new v_onto c kc_code ;; write_block out (kc * nccv) row) (zfromto lo hi) out)
      = Ok (map Some (flat nccv (firstn j L)) ++ repeat None (length (flat nccv (skipn j L))))) as K.
    { induction j as [|j IH]; intros Hj; [cbn [firstn skipn flat map concat app]; unfold zlen; rewrite Nat2Z.id; reflexivity|].
      unfold forM in *. replace (Z.of_nat (S j)) with (Z.of_nat j + 1) by lia. rewrite zrange_succ by lia. rewrite foldM_app, IH by lia. cbn [bind foldM].
      destruct (HL (Z.of_nat j)) as (w & lo & hi & rows & Ew & El & Eh & Er & Em & Hr & Lr); [unfold zlen in *; lia|]. rewrite Nat2Z.id in Er. rewrite Ew. cbn [bind]. rewrite El. cbn [bind]. rewrite Eh. cbn [bind].
      rewrite (foldM_ext' _ (fun out kc => row <- g w kc ;; write_block out (kc * nccv) row)) by (intros s x _; unfold g; destruct (zget ab2b_ x); cbn [bind]; try reflexivity; destruct (zget dcodes x); reflexivity).
      rewrite (write_rows (g w) nccv rows lo hi Em Hr). destruct (block_step nccv L j rows [] HLk Er) as (p & Ep & Wb). rewrite EO, El in Ep. injection Ep as <-. rewrite Wb. reflexivity. }
    specialize (K (length L) (Nat.le_refl _)). replace (zlen ontos) with (Z.of_nat (length L)) by (unfold zlen in *; lia). rewrite K. cbn [bind]. rewrite firstn_all, skipn_all. cbn [flat map concat length repeat]. rewrite app_nil_r. apply (proj2 (freeze_ok _ _) eq_refl).
  - intros key w lo hi Ew El Eh. pose proof (zget_bounds _ _ _ Ew) as Bk. destruct (HL key Bk) as (w' & lo' & hi' & rows & Ew' & El' & Eh' & Er & Em & _). assert (w' = w) as -> by congruence. assert (lo' = lo) as -> by congruence. assert (hi' = hi) as -> by congruence.
    exists rows. split; [exact Em|]. destruct (flat_ents nccv L (Z.to_nat key) rows Hk HLk Er) as (lo2 & hi2 & F1 & F2 & F3). rewrite EO in F1, F2. rewrite Z2Nat.id in F1, F2 by lia. congruence.
Qed.

Lemma coarsen_prod_ok dim cv2v old2new v w c code vs : 0 <= dim <= 3 -> verts_of (dim + 1) cv2v c = Ok vs -> 0 <= code_which_down code <= dim -> zget cv2v (c * (dim + 1) + code_which_down code) = Ok v -> distinct_verts dim cv2v c ->
  (forall x, In x vs -> 0 <= x < zlen old2new) -> 0 <= w < zlen old2new ->
  exists row, coarsen_prod (dim + 1) cv2v old2new w c code = Ok row /\ zlen row = dim + 1 /\ mapM (fun x => zget old2new (retarget v w x)) vs = Ok row.
Proof.
  intros Hd Ev Hc Ecol Hdist Hx Hw. destruct (mapM_total (fun x => zget old2new (retarget v w x)) vs) as (row & Er).
  { intros x Hi. apply zget_in_range. unfold retarget. destruct (x =? v); [exact Hw | exact (Hx x Hi)]. }
  assert (zlen vs = dim + 1) as Lv. { unfold verts_of, tabulate in Ev. unfold zlen. rewrite (mapM_length _ _ _ Ev), zrange_length. lia. }
  exists row. split; [|split; [unfold zlen; rewrite (mapM_length _ _ _ Er); exact Lv | exact Er]].
  unfold coarsen_prod. apply tabulate_ok; [lia|]. split; [unfold zlen; rewrite (mapM_length _ _ _ Er); exact Lv|].
  intros j Hj. unfold verts_of in Ev. apply (tabulate_ok (dim + 1) (fun j => zget cv2v (c * (dim + 1) + j))) in Ev; [|lia]. destruct Ev as [_ Ev]. destruct (Ev j Hj) as (x & Ecx & Ex).
  assert (exists y, zget old2new (retarget v w x) = Ok y /\ zget row j = Ok y) as (y & Ey & Erj).
  { apply zget_ok in Ex as [Bx Nx]. destruct (nth_error_mapM _ _ _ _ _ Er Nx) as (y & Ny & Ey). exists y. split; [exact Ey|]. apply zget_ok. split; [exact Bx | exact Ny]. }
  exists y. split; [|exact Erj]. rewrite <- Ey. unfold retarget. destruct (j =? code_which_down code) eqn:Ej.
  - apply Z.eqb_eq in Ej. subst j. cbn [bind]. assert (x = v) as -> by congruence. rewrite Z.eqb_refl. reflexivity.
  - apply Z.eqb_neq in Ej. rewrite Ecx. cbn [bind]. destruct (x =? v) eqn:Exv; [|reflexivity]. apply Z.eqb_eq in Exv. subst x. exfalso. apply Ej. eapply Hdist; eauto. lia.
Qed.

Lemma map_fst_filter_combine {A B} (f : A -> bool) (es : list A) (cs : list B) : length es = length cs -> map fst (filter (fun p => f (fst p)) (combine es cs)) = filter f es.
Proof.
  revert cs. induction es as [|e es IH]; intros [|c cs] H; try discriminate; [reflexivity|]. cbn [combine filter fst]. injection H as H. destruct (f e); cbn [map fst]; rewrite IH by exact H; reflexivity.
Qed.
Lemma map_fst_combine {A B} (es : list A) (cs : list B) : length es = length cs -> map fst (combine es cs) = es.
Proof. revert cs. induction es as [|e es IH]; intros [|c cs] H; try discriminate; [reflexivity|]. cbn [combine map fst]. f_equal. apply IH. injection H as H. exact H. Qed.

(** an adjacency pair sits at some position of the group *)
Lemma pair_position a codes v es cs c code : adj_codes a = Some codes -> adj_targets a v = Ok es -> adj_target_codes a v = Ok cs -> In (c, code) (combine es cs) ->
  exists p, in_group (adj_a2ab a) v p /\ zget (adj_ab2b a) p = Ok c /\ zget codes p = Ok code.
Proof.
  intros Ec E1 E2 Hi. unfold adj_targets in E1. unfold adj_target_codes in E2. rewrite Ec in E2. apply targets_split in E1 as (lo & hi & A1 & A2 & A3). apply targets_split in E2 as (lo' & hi' & B1 & B2 & B3). cbn [a2ab ab2b] in *. assert (lo' = lo) as -> by congruence. assert (hi' = hi) as -> by congruence.
  apply In_nth_error in Hi as (i & Ei). assert (nth_error es i = Some c /\ nth_error cs i = Some code) as [F1 F2].
  { clear - Ei. revert es cs Ei. induction i as [|i IH]; intros [|e es] [|k cs] E; try discriminate; cbn in E |- *; [injection E as <- <-; auto | apply IH, E]. }
  assert (i < length (zfromto lo hi))%nat as Hl. { rewrite <- (mapM_length _ _ _ A3). apply nth_error_Some. congruence. }
  destruct (nth_error (zfromto lo hi) i) as [p|] eqn:Ep; [|apply nth_error_None in Ep; lia]. destruct (nth_error_mapM _ _ _ _ _ A3 Ep) as (y & Ny & Ey). destruct (nth_error_mapM _ _ _ _ _ B3 Ep) as (z & Nz & Ez).
  exists p. split; [|split; congruence]. exists lo, hi. apply nth_error_In, in_zfromto in Ep. auto.
Qed.
(** and conversely *)
Lemma position_pair a codes v p c code es cs : adj_codes a = Some codes -> adj_targets a v = Ok es -> adj_target_codes a v = Ok cs -> in_group (adj_a2ab a) v p -> zget (adj_ab2b a) p = Ok c -> zget codes p = Ok code ->
  In (c, code) (combine es cs).
Proof.
  intros Ec E1 E2 (lo0 & hi0 & G1 & G2 & G3) Ecp Ecode. unfold adj_targets in E1. unfold adj_target_codes in E2. rewrite Ec in E2. apply targets_split in E1 as (lo & hi & A1 & A2 & A3). apply targets_split in E2 as (lo' & hi' & B1 & B2 & B3). cbn [a2ab ab2b] in *. assert (lo' = lo) as -> by congruence. assert (hi' = hi) as -> by congruence. assert (lo0 = lo) as -> by congruence. assert (hi0 = hi) as -> by congruence.
  assert (In p (zfromto lo hi)) as Hp by (apply in_zfromto; exact G3). apply In_nth_error in Hp as (i & Ei). destruct (nth_error_mapM _ _ _ _ _ A3 Ei) as (y & Ny & Ey). destruct (nth_error_mapM _ _ _ _ _ B3 Ei) as (z & Nz & Ez). assert (y = c) as -> by congruence. assert (z = code) as -> by congruence.
  clear - Ny Nz. revert es cs Ny Nz. induction i as [|i IH]; intros [|e es] [|k cs] E1 E2; try discriminate; cbn in E1, E2 |- *; [injection E1 as <-; injection E2 as <-; auto | right; apply IH; assumption].
Qed.

Lemma coarsen_retargets_ok dim nc cv2v v2c keys2verts ontos dead old2new : 1 <= dim <= 3 -> vert_up_ok dim cv2v v2c -> zlen cv2v = nc * (dim + 1) -> (forall c, In c (adj_ab2b v2c) -> 0 <= c < nc) -> zlen dead = nc ->
  zlen ontos = zlen keys2verts -> (forall v, In v keys2verts -> 0 <= v < zlen (adj_a2ab v2c) - 1) -> (forall v, In v cv2v -> 0 <= v < zlen old2new) -> (forall v, In v ontos -> 0 <= v < zlen old2new) ->
  exists doms prods, find_coarsen_domains v2c keys2verts dead = Ok doms /\ coarsen_topology cv2v ontos dim doms old2new = Ok prods /\
  forall key v w es, zget keys2verts key = Ok v -> zget ontos key = Ok w -> adj_targets v2c v = Ok es ->
  exists lo hi rows, zget (adj_a2ab doms) key = Ok lo /\ zget (adj_a2ab doms) (key + 1) = Ok hi /\ ents_between (dim + 1) prods lo hi = Ok rows /\
  Forall2 (fun c row => exists vs, verts_of (dim + 1) cv2v c = Ok vs /\ mapM (fun x => zget old2new (retarget v w x)) vs = Ok row) (filter (live dead) es) rows.
Proof.
  intros Hd (W & codes & Ec & HV) Lc Hnc Ldead Lo Hk Hcv Hon.
  assert (simplex_degree dim 0 = dim + 1) as Edeg. { assert (dim = 1 \/ dim = 2 \/ dim = 3) as [->|[->| ->]] by lia; reflexivity. }
  destruct (domains_ok v2c codes keys2verts dead W Ec Hk) as (doms & dcodes & Edom & Wd & Ld & Edc & Hdom). { intros e He. rewrite Ldead. auto. }
  assert (forall v, 0 <= v < zlen (adj_a2ab v2c) - 1 -> exists es cs, adj_targets v2c v = Ok es /\ adj_target_codes v2c v = Ok cs /\ length es = length cs) as HT.
  { intros v Hv. destruct W as (W1 & W2 & W3). specialize (W3 codes Ec). destruct (wf_targets (mk_graph (adj_a2ab v2c) (adj_ab2b v2c)) v) as (es & E1); [split; assumption | exact Hv |]. destruct (wf_targets (mk_graph (adj_a2ab v2c) codes) v) as (cs & E2); [split; cbn [a2ab ab2b]; [assumption | rewrite W3; exact W2] | exact Hv |].
    exists es, cs. split; [exact E1|]. split; [unfold adj_target_codes; rewrite Ec; exact E2|]. apply targets_split in E1 as (lo & hi & A1 & A2 & A3). apply targets_split in E2 as (lo' & hi' & B1 & B2 & B3). cbn [a2ab ab2b] in *. assert (lo' = lo) as -> by congruence. assert (hi' = hi) as -> by congruence. rewrite (mapM_length _ _ _ A3), (mapM_length _ _ _ B3). reflexivity. }
  assert (forall c, 0 <= c < nc -> exists vs, verts_of (dim + 1) cv2v c = Ok vs /\ forall x, In x vs -> 0 <= x < zlen old2new) as HVs.
  { intros c Hc. destruct (mapM_total (fun j => zget cv2v (c * (dim + 1) + j)) (zrange (dim + 1))) as (vs & Evs). { intros j Hj. apply in_zrange in Hj. apply zget_in_range. rewrite Lc. nia. }
    exists vs. split; [exact Evs|]. intros x Hx. destruct (mapM_in_inv _ _ _ _ Evs Hx) as (j & Ej & _). apply Hcv. eapply zget_In, Ej. }
  assert (forall key v w c code, zget keys2verts key = Ok v -> zget ontos key = Ok w -> forall es' cs', adj_targets doms key = Ok es' -> adj_target_codes doms key = Ok cs' -> In (c, code) (combine es' cs') ->
     exists vs row, verts_of (dim + 1) cv2v c = Ok vs /\ coarsen_prod (dim + 1) cv2v old2new w c code = Ok row /\ zlen row = dim + 1 /\ mapM (fun x => zget old2new (retarget v w x)) vs = Ok row) as HP.
  { intros key v w c code Ev Ew es' cs' E1 E2 Hi. destruct (HT v) as (es & cs & F1 & F2 & _); [apply Hk; eapply zget_In, Ev|]. destruct (Hdom key v es cs Ev F1 F2) as (es2 & cs2 & G1 & G2 & _ & G3). assert (es2 = es') as -> by congruence. assert (cs2 = cs') as -> by congruence.
    rewrite G3 in Hi. apply filter_In in Hi as [Hi _]. destruct (pair_position v2c codes v es cs c code Ec F1 F2 Hi) as (p & P1 & P2 & P3). destruct (HV v p c code P1 P2 P3) as (V1 & V2 & V3).
    destruct (HVs c) as (vs & Evs & Bvs); [apply Hnc; eapply zget_In, P2|]. destruct (coarsen_prod_ok dim cv2v old2new v w c code vs) as (row & R1 & R2 & R3); try assumption; [lia | apply Hon; eapply zget_In, Ew |]. exists vs, row. auto. }
  destruct (coarsen_ok (dim + 1) cv2v ontos dim doms dcodes old2new) as (prods & Epr & Hpr); [congruence | lia | exact Wd | exact Edc | lia | |].
  { intros key w p c code Ew Hg Ecp Ecode. destruct (zget_in_range keys2verts key) as (v & Ev); [rewrite <- Lo; eapply zget_bounds, Ew|]. destruct (HT v) as (es & cs & F1 & F2 & _); [apply Hk; eapply zget_In, Ev|]. destruct (Hdom key v es cs Ev F1 F2) as (es' & cs' & G1 & G2 & _).
    destruct (HP key v w c code Ev Ew es' cs' G1 G2) as (vs & row & _ & R1 & R2 & _); [eapply position_pair; eauto|]. eauto. }
  exists doms, prods. split; [exact Edom|]. split; [exact Epr|]. intros key v w es Ev Ew E1.
  destruct (HT v) as (es0 & cs & F1 & F2 & Lec); [apply Hk; eapply zget_In, Ev|]. assert (es0 = es) as -> by congruence. destruct (Hdom key v es cs Ev F1 F2) as (es' & cs' & G1 & G2 & G3 & G4).
  assert (es' = filter (live dead) es) as Ees. { rewrite <- (map_fst_filter_combine (live dead) es cs Lec), <- G4. symmetry. apply map_fst_combine, G3. }
  pose proof G1 as G1'. pose proof G2 as G2'. unfold adj_targets in G1'. unfold adj_target_codes in G2'. rewrite Edc in G2'. apply targets_split in G1' as (lo & hi & A1 & A2 & A3). apply targets_split in G2' as (lo' & hi' & B1 & B2 & B3). cbn [a2ab ab2b] in *. assert (lo' = lo) as -> by congruence. assert (hi' = hi) as -> by congruence.
  destruct (Hpr key w lo hi Ew A1 A2) as (rows & Em & Eb). exists lo, hi, rows. split; [exact A1|]. split; [exact A2|]. split; [exact Eb|]. rewrite <- Ees.
  assert (forall c code, In (c, code) (combine es' cs') -> exists vs row, verts_of (dim + 1) cv2v c = Ok vs /\ coarsen_prod (dim + 1) cv2v old2new w c code = Ok row /\ mapM (fun x => zget old2new (retarget v w x)) vs = Ok row) as HP'.
  { intros c code Hi. destruct (HP key v w c code Ev Ew es' cs' G1 G2 Hi) as (vs & row & R1 & R2 & _ & R3). eauto. }
  clear - Em A3 B3 HP'. revert es' cs' rows A3 B3 Em HP'. induction (zfromto lo hi) as [|p l IH]; intros es' cs' rows A B E HP; cbn [mapM] in A, B, E.
  - injection A as <-. injection E as <-. constructor.
  - apply bind_ok in A as (c & Ecp & A). apply bind_ok in A as (es2 & A & Ea). injection Ea as <-. apply bind_ok in B as (code & Ecode & B). apply bind_ok in B as (cs2 & B & Eb). injection Eb as <-. rewrite Ecp in E. cbn [bind] in E. rewrite Ecode in E. cbn [bind] in E. apply bind_ok in E as (row & Er & E). apply bind_ok in E as (rows2 & E & Ee). injection Ee as <-.
    constructor; [|eapply IH; try eassumption; intros; apply HP; right; assumption]. destruct (HP c code) as (vs & row' & R1 & R2 & R3); [left; reflexivity|]. assert (row' = row) as -> by congruence. eauto.
Qed.

Lemma get_verts_onto_ok ne ev2v rails dirs : rails_ok ne ev2v rails dirs -> exists ontos, get_verts_onto ev2v rails dirs = Ok ontos /\ zlen ontos = zlen rails /\
  forall k e dir, zget rails k = Ok e -> zget dirs k = Ok dir -> zget ontos k = zget ev2v (e * 2 + (1 - dir)).
Proof.
  intros (L1 & L2 & H1 & H2). unfold get_verts_onto. destruct (mapM_total (fun key => e <- zget rails key ;; eev <- zget dirs key ;; zget ev2v (e * 2 + (1 - eev))) (zrange (zlen rails))) as (r & Er).
  { intros k Hk. apply in_zrange in Hk. destruct (zget_in_range rails k Hk) as (e & Ee). destruct (zget_in_range dirs k) as (d & Ed); [lia|]. rewrite Ee. cbn [bind]. rewrite Ed. cbn [bind]. apply zget_in_range. pose proof (H1 e (zget_In _ _ _ Ee)). pose proof (H2 d (zget_In _ _ _ Ed)). lia. }
  exists r. split; [exact Er|]. apply (tabulate_ok (zlen rails)) in Er; [|apply zlen_nonneg]. destruct Er as [Lr Hr]. split; [exact Lr|]. intros k e dir Ee Ed. destruct (Hr k (zget_bounds _ _ _ Ee)) as (a & Ea & Er). rewrite Ee in Ea. cbn [bind] in Ea. rewrite Ed in Ea. cbn [bind] in Ea. congruence.
Qed.
