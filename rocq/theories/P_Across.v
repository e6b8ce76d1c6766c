From Verif Require Import Prelude M_Array P_Array M_Par M_Scan S_Scan P_Scan M_Sort M_Map S_Map P_Map P_Map2 S_Fan P_Fan M_Graph S_Graph P_Graph M_Align M_Adj S_Adj P_Adj M_Template S_Template P_Template M_Mark S_Mark P_Mark M_Across S_Across.
Local Open Scope Z_scope.

(** ** writing rows one after the other *)
Fixpoint write_row {A} (out : list (option A)) (p : Z) (row : list A) : res (list (option A)) :=
  match row with [] => Ok out | x :: t => out <- zset out p (Some x) ;; write_row out (p + 1) t end.
Lemma zset_mid {A} (P : list A) x y R : zset (P ++ x :: R) (zlen P) y = Ok (P ++ y :: R).
Proof.
  unfold zset. rewrite zlen_app, zlen_cons. pose proof (zlen_nonneg P). pose proof (zlen_nonneg R). destruct (Z.leb_spec 0 (zlen P)); [|lia]. destruct (Z.ltb_spec (zlen P) (zlen P + (zlen R + 1))); [|lia].
  cbn [andb]. f_equal. unfold zlen. rewrite Nat2Z.id. clear. induction P as [|a P IH]; cbn [app length list_set]; [reflexivity|]. rewrite IH. reflexivity.
Qed.
Lemma write_row_ok {A} (row : list A) : forall P R, write_row (P ++ repeat None (length row) ++ R) (zlen P) row = Ok (P ++ map Some row ++ R).
Proof.
  induction row as [|x t IH]; intros P R; cbn [write_row length repeat app map]; [reflexivity|]. rewrite zset_mid. cbn [bind].
  specialize (IH (P ++ [Some x]) R). rewrite zlen_app in IH. change (zlen [Some x]) with 1 in IH. rewrite <- !app_assoc in IH. exact IH.
Qed.
Lemma fill_lists (L : list (list Z)) (body : list (option Z) -> Z -> res (list (option Z))) :
  (forall a row p out, zget L a = Ok row -> zget (offset_scan (map zlen L)) a = Ok p -> body out a = write_row out p row) ->
  exists w, (out <- blank (zsum (map zlen L)) ;; forM (zlen L) out body) = Ok w /\ freeze w = Ok (concat L).
Proof.
  intros Hb. rewrite zsum_zlen. rewrite blank_ok by apply zlen_nonneg. cbn [bind]. replace (Z.to_nat (zlen (concat L))) with (length (concat L)) by (unfold zlen; lia).
  assert (forall k, (k <= length L)%nat -> foldM body (zrange (Z.of_nat k)) (repeat None (length (concat L))) = Ok (map Some (concat (firstn k L)) ++ repeat None (length (concat (skipn k L))))) as K.
  { induction k as [|k IH]; intros Hk; [reflexivity|]. replace (Z.of_nat (S k)) with (Z.of_nat k + 1) by lia. rewrite zrange_succ by lia. rewrite foldM_app, IH by lia. cbn [bind foldM].
    destruct (zget_in_range L (Z.of_nat k)) as (row & Er); [unfold zlen; lia|]. destruct (offset_scan_step (map zlen L) (Z.of_nat k) (zlen row)) as (p & Hp & _); [rewrite zget_map, Er; reflexivity|].
    rewrite (Hb _ row p _ Er Hp). apply split_at in Er as (P & R & -> & EP). assert (k = length P) as -> by (unfold zlen in EP; lia).
    assert (firstn (length P) (P ++ row :: R) = P) as -> by (rewrite firstn_app, firstn_all, Nat.sub_diag; apply app_nil_r).
    assert (skipn (length P) (P ++ row :: R) = row :: R) as -> by (rewrite skipn_app, skipn_all, Nat.sub_diag; reflexivity).
    assert (firstn (S (length P)) (P ++ row :: R) = P ++ [row]) as -> by (rewrite firstn_app, firstn_all2 by lia; replace (S (length P) - length P)%nat with 1%nat by lia; reflexivity).
    assert (skipn (S (length P)) (P ++ row :: R) = R) as -> by (rewrite skipn_app, skipn_all2 by lia; replace (S (length P) - length P)%nat with 1%nat by lia; reflexivity).
    assert (p = zlen (concat P)) as ->. { destruct (offs_at P row R) as [H1 _]. unfold zlen in *. rewrite H1 in Hp. congruence. }
    cbn [concat]. rewrite app_length, repeat_app. pose proof (write_row_ok row (map Some (concat P)) (repeat None (length (concat R)))) as W. rewrite zlen_map in W. rewrite W. cbn [bind].
    rewrite concat_app. cbn [concat]. rewrite app_nil_r, map_app, <- app_assoc. reflexivity. }
  unfold forM. eexists. split; [unfold zlen; apply (K (length L)); lia|]. rewrite firstn_all, skipn_all. cbn [concat length repeat]. rewrite app_nil_r. apply freeze_ok. reflexivity.
Qed.

(** ** the entries of an adjacency that lists uses *)
Lemma adj_graph_wf up : wf_adj up -> wf_graph (mk_graph (adj_a2ab up) (adj_ab2b up)).
Proof. intros (H1 & H2 & _). split; [exact H1|exact H2]. Qed.
Lemma adj_codes_wf up c : wf_adj up -> adj_codes up = Some c -> wf_graph (mk_graph (adj_a2ab up) c).
Proof. intros (H1 & H2 & H3) E. split; [exact H1|]. cbn [a2ab ab2b]. unfold last_of. rewrite (H3 c E). exact H2. Qed.


Lemma graph_lists g n (F : Z -> list Z) : wf_graph g -> zlen (a2ab g) = n + 1 -> (forall v, 0 <= v < n -> targets g v = Ok (F v)) -> g = of_lists (map F (zrange n)).
Proof.
  intros Hg Hn HF. pose proof (zget_bounds _ _ _ (proj1 (proj1 Hg))) as B. destruct (wf_lists g Hg) as (L & ->). f_equal.
  assert (zlen L = n) as HL. { pose proof (nnodes_of_lists L) as H. unfold nnodes in H. lia. }
  apply list_eq_zget; [rewrite zlen_map, zlen_zrange by lia; exact HL|]. intros i Hi. rewrite zget_map, zget_zrange by lia. cbn [bind]. apply targets_lists, HF. lia.
Qed.
Lemma concat_map_map {A B} (f : A -> B) (U : list (list A)) : concat (map (map f) U) = map f (concat U).
Proof. symmetry. apply concat_map. Qed.
Lemma map_zlen_map {A B} (f : A -> B) (U : list (list A)) : map zlen (map (map f) U) = map zlen U.
Proof. rewrite map_map. apply map_ext. intros; apply zlen_map. Qed.

Lemma up_form deg nlows hl2l dc up : 0 <= nlows -> lists_uses deg nlows hl2l dc up ->
  let U := map (uses_of hl2l) (zrange nlows) in
  up = mk_adj (offset_scan (map zlen U)) (map (fun u => u / deg) (concat U)) (Some (map (use_code deg dc) (concat U))).
Proof.
  intros Hn (Hw & Hl & Hc & HT) U.
  pose proof (graph_lists (mk_graph (adj_a2ab up) (adj_ab2b up)) nlows (fun l => map (fun u => u / deg) (uses_of hl2l l)) (adj_graph_wf up Hw) Hl ltac:(intros v Hv; apply (HT v Hv))) as E1.
  rewrite <- (map_map (uses_of hl2l) (map (fun u => u / deg))) in E1. fold U in E1. unfold of_lists in E1. rewrite map_zlen_map, concat_map_map in E1.
  destruct (adj_codes up) as [c|] eqn:Ec.
  - pose proof (graph_lists (mk_graph (adj_a2ab up) c) nlows (fun l => map (use_code deg dc) (uses_of hl2l l)) (adj_codes_wf up c Hw Ec) Hl) as E2.
    rewrite <- (map_map (uses_of hl2l) (map (use_code deg dc))) in E2. fold U in E2. unfold of_lists in E2. rewrite map_zlen_map, concat_map_map in E2.
    specialize (E2 ltac:(intros v Hv; pose proof (proj2 (HT v Hv)) as K; unfold adj_target_codes in K; rewrite Ec in K; exact K)).
    destruct up as [x y z]. cbn [adj_a2ab adj_ab2b adj_codes] in *. injection E1 as -> ->. injection E2 as ->. congruence.
  - congruence.
Qed.

Lemma mapM_zip {A B} (W : list A) (F : Z -> res B) (h : A -> res B) : (forall i u, zget W i = Ok u -> F i = h u) -> tabulate (zlen W) F = mapM h W.
Proof.
  intros H. unfold tabulate. assert (forall P R, W = P ++ R -> mapM F (zfromto (zlen P) (zlen W)) = mapM h R) as K.
  { intros P R. revert P. induction R as [|u R IH]; intros P E.
    - rewrite app_nil_r in E. subst P. rewrite zfromto_nil by lia. reflexivity.
    - assert (zlen P < zlen W) by (rewrite E, zlen_app, zlen_cons; pose proof (zlen_nonneg R); lia). rewrite zfromto_cons by lia. cbn [mapM].
      rewrite (H (zlen P) u) by (rewrite E, zget_app_r, Z.sub_diag by lia; reflexivity). specialize (IH (P ++ [u]) ltac:(rewrite <- app_assoc; exact E)). rewrite zlen_app in IH. change (zlen [u]) with 1 in IH. rewrite IH. reflexivity. }
  specialize (K [] W eq_refl). change (zlen []) with 0 in K. rewrite zfromto_0 in K. exact K.
Qed.
Lemma in_uses_concat hl2l nlows u : In u (concat (map (uses_of hl2l) (zrange nlows))) -> exists l, 0 <= l < nlows /\ zget hl2l u = Ok l.
Proof. intros H. apply in_concat in H as (x & Hx & Hu). apply in_map_iff in Hx as (l & <- & Hl). apply in_zrange in Hl. apply uses_of_in in Hu. eauto. Qed.
Lemma mapM_concat_rows {A B} (h : A -> res B) (U : list (list A)) r : mapM h (concat U) = Ok r -> exists R, mapM (mapM h) U = Ok R /\ concat R = r /\ map zlen R = map zlen U.
Proof.
  revert r. induction U as [|x U IH]; intros r E; [exists []; cbn in *; injection E as <-; auto|]. cbn [concat] in E. rewrite mapM_app in E. apply bind_ok in E as (a & Ea & E). apply bind_ok in E as (b & Eb & E).
  injection E as <-. destruct (IH b Eb) as (R & R1 & R2 & R3). exists (a :: R). cbn [mapM]. rewrite Ea, R1. split; [reflexivity|]. cbn [concat map]. rewrite R2, R3. split; [reflexivity|]. f_equal. unfold zlen. rewrite (mapM_length _ _ _ Ea). reflexivity.
Qed.
Lemma rows_graph (U : list (list Z)) (h : Z -> res Z) : (forall u, In u (concat U) -> exists y, h u = Ok y) ->
  exists r, mapM h (concat U) = Ok r /\ wf_graph (mk_graph (offset_scan (map zlen U)) r) /\ nnodes (mk_graph (offset_scan (map zlen U)) r) = zlen U /\
  forall v us, zget U v = Ok us -> targets (mk_graph (offset_scan (map zlen U)) r) v = mapM h us.
Proof.
  intros H. destruct (mapM_total h (concat U) H) as (r & E). exists r. split; [exact E|]. destruct (mapM_concat_rows h U r E) as (R & R1 & R2 & R3).
  assert (mk_graph (offset_scan (map zlen U)) r = of_lists R) as -> by (unfold of_lists; rewrite R3, R2; reflexivity).
  split; [apply of_lists_wf|]. split; [rewrite nnodes_of_lists; unfold zlen; rewrite (mapM_length _ _ _ R1); reflexivity|].
  intros v us Hv. destruct (mapM_get _ _ _ _ _ R1 Hv) as (y & Y1 & Y2). rewrite (targets_of_lists R v y Y1). symmetry. exact Y2.
Qed.
Lemma zget_uses hl2l nlows l : 0 <= l < nlows -> zget (map (uses_of hl2l) (zrange nlows)) l = Ok (uses_of hl2l l).
Proof. intros H. rewrite zget_map, zget_zrange by exact H. reflexivity. Qed.

Lemma verts_across_spec ev2v ne nv v2e e2v : 0 <= nv -> adj_ab2b e2v = ev2v -> zlen ev2v = ne * 2 -> lists_uses 2 nv ev2v None v2e ->
  exists g, verts_across_edges e2v v2e = Ok g /\ wf_graph g /\ nnodes g = nv /\
  (forall v, 0 <= v < nv -> targets g v = mapM (fun u => zget ev2v (u / 2 * 2 + (1 - u mod 2))) (uses_of ev2v v)).
Proof.
  intros Hn Ee Hl HU. unfold verts_across_edges. rewrite Ee. pose proof (up_form _ _ _ _ _ Hn HU) as Ef. cbv zeta in Ef. set (U := map (uses_of ev2v) (zrange nv)) in *. rewrite Ef. unfold codes_of. cbn [adj_codes adj_ab2b adj_a2ab bind].
  rewrite zlen_map. rewrite (mapM_zip (concat U) _ (fun u => zget ev2v (u / 2 * 2 + (1 - u mod 2)))).
  - destruct (rows_graph U (fun u => zget ev2v (u / 2 * 2 + (1 - u mod 2)))) as (r & -> & W & N & T).
    + intros u Hu. apply in_uses_concat in Hu as (l & Hl' & Eu). apply zget_bounds in Eu. apply zget_in_range. lia.
    + cbn [bind]. eexists. split; [reflexivity|]. split; [exact W|]. split; [rewrite N; unfold U; rewrite zlen_map, zlen_zrange; lia|]. intros v Hv. apply T, zget_uses, Hv.
  - intros i u Ei. rewrite !zget_map, Ei. cbn [bind]. assert (In u (concat U)) as Hu by (eapply zget_In, Ei). apply in_uses_concat in Hu as (l & _ & Eu). apply zget_bounds in Eu.
    destruct (use_code_fields 2 None u ltac:(lia) ltac:(lia) ltac:(discriminate)) as [-> _]. reflexivity.
Qed.
Lemma verts_across_edge ev2v ne nv v2e e2v g : 0 <= nv -> adj_ab2b e2v = ev2v -> zlen ev2v = ne * 2 -> lists_uses 2 nv ev2v None v2e -> verts_across_edges e2v v2e = Ok g ->
  forall v w, 0 <= v < nv -> (edge g v w <-> exists e, (zget ev2v (2 * e) = Ok v /\ zget ev2v (2 * e + 1) = Ok w) \/ (zget ev2v (2 * e) = Ok w /\ zget ev2v (2 * e + 1) = Ok v)).
Proof.
  intros Hn Ee Hl HU Eg v w Hv. destruct (verts_across_spec ev2v ne nv v2e e2v Hn Ee Hl HU) as (g' & Eg' & _ & _ & T). assert (g' = g) as -> by congruence. specialize (T v Hv). unfold edge. split.
  - intros (ts & Ht & Hin). rewrite T in Ht. destruct (mapM_in_inv _ _ _ _ Ht Hin) as (u & Eu & Hu). apply uses_of_in in Hu. pose proof (zget_bounds _ _ _ Hu). exists (u / 2).
    assert (u mod 2 = 0 \/ u mod 2 = 1) as [M|M] by lia; rewrite M in Eu; [left|right]; split.
    + replace (2 * (u / 2)) with u by lia. exact Hu.
    + replace (2 * (u / 2) + 1) with (u / 2 * 2 + (1 - 0)) by lia. exact Eu.
    + replace (2 * (u / 2)) with (u / 2 * 2 + (1 - 1)) by lia. exact Eu.
    + replace (2 * (u / 2) + 1) with u by lia. exact Hu.
  - intros (e & He).
    assert (exists u, zget ev2v u = Ok v /\ zget ev2v (u / 2 * 2 + (1 - u mod 2)) = Ok w) as (u & U1 & U2).
    { destruct He as [[H1 H2]|[H1 H2]]; [exists (2 * e)|exists (2 * e + 1)]; (split; [assumption|]).
      - replace (2 * e / 2 * 2 + (1 - (2 * e) mod 2)) with (2 * e + 1) by lia. exact H2.
      - replace ((2 * e + 1) / 2 * 2 + (1 - (2 * e + 1) mod 2)) with (2 * e) by lia. exact H1. }
    destruct (mapM_total (fun u => zget ev2v (u / 2 * 2 + (1 - u mod 2))) (uses_of ev2v v)) as (ts & Et).
    { intros u' Hu'. apply uses_of_in in Hu'. apply zget_bounds in Hu'. apply zget_in_range. lia. }
    exists ts. split; [congruence|]. destruct (mapM_in _ _ _ u Et ltac:(apply uses_of_in, U1)) as (w' & W1 & W2). congruence.
Qed.

(** ** rows written by loops *)
Lemma concat_at (U : list (list Z)) a us p i u : zget U a = Ok us -> zget (offset_scan (map zlen U)) a = Ok p -> zget us i = Ok u -> zget (concat U) (p + i) = Ok u.
Proof.
  intros Ha Hp Hi. apply split_at in Ha as (P & R & -> & ->). destruct (offs_at P us R) as [H1 _]. assert (p = zlen (concat P)) as -> by congruence. pose proof (zget_bounds _ _ _ Hi).
  rewrite concat_app. cbn [concat]. rewrite zget_app_r by lia. replace (zlen (concat P) + i - zlen (concat P)) with i by lia. rewrite zget_app_l by lia. exact Hi.
Qed.
Lemma offs_next (U : list (list Z)) a us p : zget U a = Ok us -> zget (offset_scan (map zlen U)) a = Ok p -> zget (offset_scan (map zlen U)) (a + 1) = Ok (p + zlen us).
Proof. intros Ha Hp. apply split_at in Ha as (P & R & -> & ->). destruct (offs_at P us R) as [H1 H2]. assert (p = zlen (concat P)) as -> by congruence. exact H2. Qed.
Lemma row_fold {A} (F : Z -> res A) (row : list A) : forall p out, (forall i x, zget row i = Ok x -> F (p + i) = Ok x) ->
  foldM (fun out er => x <- F er ;; zset out er (Some x)) (zfromto p (p + zlen row)) out = write_row out p row.
Proof.
  induction row as [|x t IH]; intros p out H; [rewrite zfromto_nil by (rewrite zlen_nil; lia); reflexivity|]. rewrite zlen_cons. pose proof (zlen_nonneg t). rewrite zfromto_cons by lia. cbn [foldM write_row].
  pose proof (H 0 x eq_refl) as Hx0. rewrite Z.add_0_r in Hx0. rewrite Hx0. cbn [bind]. destruct (zset out p (Some x)) as [o| |]; cbn [bind]; try reflexivity.
  replace (p + (zlen t + 1)) with (p + 1 + zlen t) by lia. apply IH. intros i y Hi. pose proof (zget_bounds _ _ _ Hi). replace (p + 1 + i) with (p + (i + 1)) by lia. apply H.
  change (x :: t) with ([x] ++ t). rewrite zget_app_r by (change (zlen [x]) with 1; lia). change (zlen [x]) with 1. replace (i + 1 - 1) with i by lia. exact Hi.
Qed.
Lemma tets_across_spec re2e nr ne r2e e2r dc : 0 <= ne -> adj_ab2b r2e = re2e -> zlen re2e = nr * 6 -> (forall c, dc = Some c -> zlen c = zlen re2e) -> lists_uses 6 ne re2e dc e2r ->
  exists g, edges_across_tets r2e e2r = Ok g /\ wf_graph g /\ nnodes g = ne /\
  (forall e, 0 <= e < ne -> targets g e = mapM (fun u => zget re2e (u / 6 * 6 + simplex_opposite_template 3 1 (u mod 6))) (uses_of re2e e)).
Proof.
  intros Hn Ee Hl Hdc HU. unfold edges_across_tets. rewrite Ee. pose proof (up_form _ _ _ _ _ Hn HU) as Ef. cbv zeta in Ef. set (U := map (uses_of re2e) (zrange ne)) in *. rewrite Ef. unfold codes_of. cbn [adj_codes adj_ab2b adj_a2ab bind].
  rewrite zlen_map. set (h := fun u => zget re2e (u / 6 * 6 + simplex_opposite_template 3 1 (u mod 6))).
  assert (forall w, 0 <= w < 6 -> 0 <= simplex_opposite_template 3 1 w < 6) as Hop by (intros w Hw; apply (proj1 (opposite_complement 3 1 w ltac:(lia) ltac:(lia) Hw))).
  assert (forall u, In u (concat U) -> 0 <= u < zlen re2e) as HR. { intros u Hu. apply in_uses_concat in Hu as (l & Hl' & Eu). apply zget_bounds in Eu. exact Eu. }
  assert (forall u, In u (concat U) -> exists y, h u = Ok y) as Hh. { intros u Hu. specialize (HR u Hu). apply zget_in_range. specialize (Hop (u mod 6) ltac:(lia)). lia. }
  destruct (rows_graph U h Hh) as (r & Er & W & N & T). destruct (mapM_concat_rows h U r Er) as (R & R1 & R2 & R3).
  assert (zlen U = ne) as LU by (unfold U; rewrite zlen_map, zlen_zrange; lia).
  assert (zlen (concat U) = zsum (map zlen R)) as -> by (rewrite R3; symmetry; apply zsum_zlen).
  assert (zlen (offset_scan (map zlen U)) - 1 = zlen R) as -> by (rewrite offset_scan_length, <- R3, !zlen_map; lia).
  set (body := fun ee2e e => _). destruct (fill_lists R body) as (w & Ew & Fw).
  - intros a row p out Ha Hp. rewrite R3 in Hp. assert (zlen R = zlen U) as LR by (unfold zlen; rewrite (mapM_length _ _ _ R1); reflexivity).
    pose proof (zget_bounds _ _ _ Ha) as Ba. destruct (zget_in_range U a ltac:(lia)) as (us & Eus). destruct (mapM_get _ _ _ _ _ R1 Eus) as (row' & A1 & A2). assert (row' = row) as -> by congruence.
    assert (zlen row = zlen us) as Lrow by (unfold zlen; rewrite (mapM_length _ _ _ A2); reflexivity).
    unfold body. rewrite Hp. cbn [bind]. rewrite (offs_next _ _ _ _ Eus Hp). cbn [bind]. rewrite <- Lrow.
    rewrite (foldM_ext' _ (fun out er => x <- (r0 <- zget (map (fun u => u / 6) (concat U)) er ;; code <- zget (map (use_code 6 dc) (concat U)) er ;; zget re2e (r0 * 6 + simplex_opposite_template 3 1 (code_which_down code))) ;; zset out er (Some x))).
    2: { intros s x _. destruct (zget (map (fun u => u / 6) (concat U)) x); cbn [bind]; try reflexivity. destruct (zget (map (use_code 6 dc) (concat U)) x); reflexivity. }
    apply row_fold. intros i x Hi. pose proof (zget_bounds _ _ _ Hi). destruct (zget_in_range us i ltac:(lia)) as (u & Eu). destruct (mapM_get _ _ _ _ _ A2 Eu) as (x' & X1 & X2). assert (x' = x) as -> by congruence.
    rewrite !zget_map, (concat_at _ _ _ _ _ _ Eus Hp Eu). cbn [bind]. assert (In u (concat U)) as Hu by (eapply zget_In, concat_at; eauto). specialize (HR u Hu).
    destruct (use_code_fields 6 dc u ltac:(lia) ltac:(lia) ltac:(intros c Ec; rewrite (Hdc c Ec); lia)) as [-> _]. exact X2.
  - apply bind_ok in Ew as (b & Eb & Ew). rewrite Eb. cbn [bind]. rewrite Ew. cbn [bind]. rewrite Fw, R2. cbn [bind]. eexists. split; [reflexivity|]. split; [exact W|]. split; [rewrite N; exact LU|].
    intros e He. apply T, zget_uses, He.
Qed.

Lemma two_fold (F G : Z -> res Z) (row : list Z) : forall n p out, zlen row = 2 * n -> 0 <= n -> (forall i, 0 <= i < n -> exists x y, F i = Ok x /\ G i = Ok y /\ zget row (2 * i) = Ok x /\ zget row (2 * i + 1) = Ok y) ->
  forM n out (fun out i => e1 <- F i ;; e2 <- G i ;; out <- zset out (p + i * 2 + 0) (Some e1) ;; zset out (p + i * 2 + 1) (Some e2)) = write_row out p row.
Proof.
  intros n p out Hr Hn H. unfold forM.
  assert (forall P S k, row = P ++ S -> zlen P = 2 * k -> 0 <= k -> forall out, foldM (fun out i => e1 <- F i ;; e2 <- G i ;; out <- zset out (p + i * 2 + 0) (Some e1) ;; zset out (p + i * 2 + 1) (Some e2)) (zfromto k n) out = write_row out (p + 2 * k) S) as K.
  { intros P S. remember (length S) as m eqn:Em. revert P S Em. induction m as [m IH] using lt_wf_ind. intros P S Em k E HP Hk o. destruct S as [|x [|y S]].
    - rewrite app_nil_r in E. subst P. rewrite zfromto_nil by lia. reflexivity.
    - exfalso. rewrite E, zlen_app in Hr. change (zlen [x]) with 1 in Hr. lia.
    - assert (k < n) by (rewrite E, zlen_app, !zlen_cons in Hr; pose proof (zlen_nonneg S); lia). rewrite zfromto_cons by lia. cbn [foldM write_row]. destruct (H k ltac:(lia)) as (x' & y' & H1 & H2 & H3 & H4).
      assert (x' = x) as -> by (rewrite E, zget_app_r in H3 by lia; replace (2 * k - zlen P) with 0 in H3 by lia; vm_compute in H3; congruence).
      assert (y' = y) as -> by (rewrite E, zget_app_r in H4 by lia; replace (2 * k + 1 - zlen P) with 1 in H4 by lia; vm_compute in H4; congruence).
      rewrite H1, H2. cbn [bind]. replace (p + k * 2 + 0) with (p + 2 * k) by lia. destruct (zset o (p + 2 * k) (Some x)) as [o1| |]; cbn [bind]; try reflexivity.
      replace (p + k * 2 + 1) with (p + 2 * k + 1) by lia. destruct (zset o1 (p + 2 * k + 1) (Some y)) as [o2| |]; cbn [bind]; try reflexivity.
      rewrite (IH (length S) ltac:(cbn in Em; lia) (P ++ [x; y]) S eq_refl (k + 1)); [f_equal; lia|rewrite <- app_assoc; exact E|rewrite zlen_app; change (zlen [x; y]) with 2; lia|lia]. }
  specialize (K [] row 0 eq_refl ltac:(reflexivity) ltac:(lia) out). rewrite zfromto_0 in K. rewrite K. f_equal. lia.
Qed.

Lemma mapM_pairs (h : Z -> res (list Z)) us rs : mapM h us = Ok rs -> (forall u l, h u = Ok l -> zlen l = 2) ->
  zlen (concat rs) = 2 * zlen us /\ forall i u l j, zget us i = Ok u -> h u = Ok l -> 0 <= j < 2 -> zget (concat rs) (2 * i + j) = zget l j.
Proof.
  intros E H2. apply mapM_ok in E. induction E as [|u l us rs Hu _ [IH1 IH2]]; [split; [reflexivity|]; intros i u l j Hi; apply zget_bounds in Hi; change (zlen []) with 0 in Hi; lia|].
  cbn [concat]. rewrite zlen_app, zlen_cons. pose proof (H2 u l Hu) as Ll. split; [lia|]. intros i u' l' j Hi Hl Hj. pose proof (zget_bounds _ _ _ Hi) as Bi. destruct (Z.eq_dec i 0) as [->|Hne].
  - assert (u' = u) as -> by (vm_compute in Hi; congruence). assert (l' = l) as -> by congruence. rewrite zget_app_l by lia. reflexivity.
  - rewrite zget_app_r by lia. rewrite Ll. replace (2 * i + j - 2) with (2 * (i - 1) + j) by lia. apply (IH2 (i - 1) u' l' j); auto. change (u :: us) with ([u] ++ us) in Hi. rewrite zget_app_r in Hi by (change (zlen [u]) with 1; lia). exact Hi.
Qed.
Lemma tris_across_spec fe2e nf ne f2e e2f dc : 0 <= ne -> adj_ab2b f2e = fe2e -> zlen fe2e = nf * 3 -> (forall c, dc = Some c -> zlen c = zlen fe2e) -> lists_uses 3 ne fe2e dc e2f ->
  exists g, edges_across_tris f2e e2f = Ok g /\ wf_graph g /\ nnodes g = ne /\
  (forall e, 0 <= e < ne -> exists rs, mapM (next_edges fe2e) (uses_of fe2e e) = Ok rs /\ targets g e = Ok (concat rs)).
Proof.
  intros Hn Ee Hl Hdc HU. unfold edges_across_tris. rewrite Ee. pose proof (up_form _ _ _ _ _ Hn HU) as Ef. cbv zeta in Ef. set (U := map (uses_of fe2e) (zrange ne)) in *. rewrite Ef. unfold codes_of. cbn [adj_codes adj_ab2b adj_a2ab bind].
  assert (zlen U = ne) as LU by (unfold U; rewrite zlen_map, zlen_zrange; lia).
  destruct (get_degrees_spec (offset_scan (map zlen U))) as (d & Ed & Ld & Gd); [rewrite offset_scan_length, zlen_map; pose proof (zlen_nonneg U); lia|].
  assert (d = map zlen U) as ->.
  { apply list_eq_zget; [rewrite Ld, offset_scan_length, !zlen_map; lia|]. intros a Ha. rewrite Ld, offset_scan_length, zlen_map in Ha. destruct (zget_in_range U a ltac:(lia)) as (us & Eus).
    destruct (offset_scan_step (map zlen U) a (zlen us)) as (p & P1 & P2); [rewrite zget_map, Eus; reflexivity|]. rewrite (Gd a p (p + zlen us) P1 P2), zget_map, Eus. cbn [bind]. f_equal. lia. }
  rewrite Ed. cbn [bind].
  assert (forall u, In u (concat U) -> 0 <= u < zlen fe2e) as HR. { intros u Hu. apply in_uses_concat in Hu as (l & Hl' & Eu). apply zget_bounds in Eu. exact Eu. }
  assert (forall u l, next_edges fe2e u = Ok l -> zlen l = 2) as H2. { intros u l E. unfold next_edges in E. apply bind_ok in E as (a & _ & E). apply bind_ok in E as (b & _ & E). injection E as <-. reflexivity. }
  assert (forall u, In u (concat U) -> exists y, next_edges fe2e u = Ok y) as Hh.
  { intros u Hu. specialize (HR u Hu). unfold next_edges. destruct (zget_in_range fe2e (u / 3 * 3 + (u mod 3 + 1) mod 3) ltac:(lia)) as (a & ->). destruct (zget_in_range fe2e (u / 3 * 3 + (u mod 3 + 2) mod 3) ltac:(lia)) as (b & ->). cbn. eauto. }
  destruct (mapM_total (fun us => rs <- mapM (next_edges fe2e) us ;; Ok (concat rs)) U) as (R & ER).
  { intros us Hus. destruct (mapM_total (next_edges fe2e) us) as (rs & ->); [|cbn; eauto]. intros u Hu. apply Hh, in_concat. eauto. }
  assert (zlen R = zlen U) as LR by (unfold zlen; rewrite (mapM_length _ _ _ ER); reflexivity).
  assert (map zlen R = map (fun d => d * 2) (map zlen U)) as MR.
  { clear - ER H2. apply mapM_ok in ER. induction ER as [|us row U R H _ IH]; [reflexivity|]. cbn [map]. rewrite IH. f_equal. apply bind_ok in H as (rs & Ers & H). injection H as <-. rewrite (proj1 (mapM_pairs _ _ _ Ers H2)). lia. }
  rewrite <- MR. rewrite offset_scan_last. cbn [bind]. assert (zlen (offset_scan (map zlen U)) - 1 = zlen R) as -> by (rewrite offset_scan_length, zlen_map; lia).
  set (body := fun ee2e e => _). destruct (fill_lists R body) as (w & Ew & Fw).
  - intros a row q out Ha Hq. pose proof (zget_bounds _ _ _ Ha) as Ba. destruct (zget_in_range U a ltac:(lia)) as (us & Eus). destruct (mapM_get _ _ _ _ _ ER Eus) as (row' & A1 & A2). assert (row' = row) as -> by congruence.
    apply bind_ok in A2 as (rs & Ers & A2). assert (concat rs = row) as Erow by congruence. clear A2. destruct (mapM_pairs _ _ _ Ers H2) as [P1 P2]. rewrite Erow in *.
    destruct (offset_scan_step (map zlen U) a (zlen us)) as (p & Hp & Hp1); [rewrite zget_map, Eus; reflexivity|].
    unfold body. rewrite Hp. cbn [bind]. rewrite Hp1. cbn [bind]. rewrite Hq. cbn [bind]. replace (p + zlen us - p) with (zlen us) by lia.
    set (F := fun i => f <- zget (map (fun u => u / 3) (concat U)) (p + i) ;; code <- zget (map (use_code 3 dc) (concat U)) (p + i) ;; zget fe2e (f * 3 + Z.rem (code_which_down code + 1) 3)).
    set (G := fun i => f <- zget (map (fun u => u / 3) (concat U)) (p + i) ;; code <- zget (map (use_code 3 dc) (concat U)) (p + i) ;; zget fe2e (f * 3 + Z.rem (code_which_down code + 2) 3)).
    rewrite <- (two_fold F G row (zlen us) q out P1 (zlen_nonneg us)).
    + unfold forM. apply foldM_ext'. intros s i _. unfold F, G. destruct (zget (map (fun u => u / 3) (concat U)) (p + i)); cbn [bind]; try reflexivity. destruct (zget (map (use_code 3 dc) (concat U)) (p + i)); reflexivity.
    + intros i Hi. destruct (zget_in_range us i Hi) as (u & Eu). assert (In u (concat U)) as Hu by (eapply zget_In, concat_at; eauto). destruct (Hh u Hu) as (l & El). pose proof (P2 i u l 0 Eu El ltac:(lia)) as Q0. pose proof (P2 i u l 1 Eu El ltac:(lia)) as Q1.
      unfold next_edges in El. apply bind_ok in El as (x & Ex & El). apply bind_ok in El as (y & Ey & El). injection El as <-. rewrite Z.add_0_r in Q0. exists x, y. unfold F, G. rewrite !zget_map, (concat_at _ _ _ _ _ _ Eus Hp Eu). cbn [bind].
      specialize (HR u Hu). destruct (use_code_fields 3 dc u ltac:(lia) ltac:(lia) ltac:(intros c Ec; rewrite (Hdc c Ec); lia)) as [-> _]. rewrite !Z.rem_mod_nonneg by lia. split; [exact Ex|]. split; [exact Ey|]. split; [exact Q0|exact Q1].
  - apply bind_ok in Ew as (b & Eb & Ew). rewrite Eb. cbn [bind]. rewrite Ew. cbn [bind]. rewrite Fw. cbn [bind]. change (mk_graph (offset_scan (map zlen R)) (concat R)) with (of_lists R). eexists. split; [reflexivity|].
    split; [apply of_lists_wf|]. split; [rewrite nnodes_of_lists; lia|]. intros e He. destruct (mapM_get _ _ _ e (uses_of fe2e e) ER ltac:(apply zget_uses, He)) as (row & A1 & A2). apply bind_ok in A2 as (rs & Ers & A2).
    exists rs. split; [exact Ers|]. rewrite (targets_of_lists R e row A1). congruence.
Qed.

(** ** elements across sides *)
Lemma write_row_app {A} (a b : list A) : forall out p, write_row out p (a ++ b) = (out <- write_row out p a ;; write_row out (p + zlen a) b).
Proof.
  induction a as [|x a IH]; intros out p; [cbn [app write_row bind]; rewrite zlen_nil, Z.add_0_r; reflexivity|]. cbn [app write_row]. destruct (zset out p (Some x)) as [o| |]; cbn [bind]; try reflexivity.
  rewrite IH, zlen_cons. replace (p + 1 + zlen a) with (p + (zlen a + 1)) by lia. reflexivity.
Qed.
Section sides.
Variables (deg ns nelems : Z) (hl2l : list Z) (dc : option (list Z)) (up : adj) (exposed : list Z).
Hypothesis Hdeg : 0 < deg.
Hypothesis Hns : 0 <= ns.
Hypothesis Hl : zlen hl2l = nelems * deg.
Hypothesis Hr : forall s, In s hl2l -> 0 <= s < ns.
Hypothesis HU : lists_uses deg ns hl2l dc up.
Hypothesis HE : zlen exposed = ns /\ forall s, 0 <= s < ns -> says exposed s (zlen (uses_of hl2l s) < 2).
Hypothesis HM : forall s, 0 <= s < ns -> zlen (uses_of hl2l s) <= 2.
Hypothesis HN : no_repeats hl2l deg.

Definition through (e es : Z) : list Z := match zget hl2l es with Ok s => filter (fun e' => negb (e' =? e)) (map (fun u => u / deg) (uses_of hl2l s)) | _ => [] end.

Lemma through_cases e es s : 0 <= e < nelems -> e * deg <= es < e * deg + deg -> zget hl2l es = Ok s ->
  exists x, zget exposed s = Ok x /\
  ((truth x = true /\ through e es = []) \/
   (truth x = false /\ exists p first other, zget (adj_a2ab up) s = Ok p /\ zget (adj_ab2b up) p = Ok first /\
      zget (adj_ab2b up) (if first =? e then p + 1 else p) = Ok other /\ through e es = [other])).
Proof.
  intros He Hes Es. assert (0 <= s < ns) as Hs by (apply Hr; eapply zget_In, Es). assert (es / deg = e) as Ede by (symmetry; apply (Z.div_unique es deg e (es - e * deg)); nia).
  destruct (proj2 HE s Hs) as [[Ex Hx]|[Ex Hx]].
  - exists 1. split; [exact Ex|]. left. split; [reflexivity|]. unfold through. rewrite Es.
    assert (In es (uses_of hl2l s)) as Hin by (apply uses_of_in, Es). destruct (uses_of hl2l s) as [|u [|u' t]]; [reflexivity| |rewrite !zlen_cons in Hx; pose proof (zlen_nonneg t); lia].
    destruct Hin as [->|[]]. cbn [map filter]. rewrite Ede, Z.eqb_refl. reflexivity.
  - exists 0. split; [exact Ex|]. right. split; [reflexivity|]. pose proof (up_form _ _ _ _ _ Hns HU) as Ef. cbv zeta in Ef. set (U := map (uses_of hl2l) (zrange ns)) in *.
    pose proof (zget_uses hl2l ns s Hs) as Eus. fold U in Eus. destruct (offset_scan_step (map zlen U) s (zlen (uses_of hl2l s))) as (p & Hp & _); [rewrite zget_map, Eus; reflexivity|].
    assert (In es (uses_of hl2l s)) as Hin by (apply uses_of_in, Es). pose proof (HM s Hs) as H2. unfold through. rewrite Es.
    destruct (uses_of hl2l s) as [|u1 [|u2 [|u3 t]]] eqn:EU; [change (zlen []) with 0 in Hx; lia|change (zlen [u1]) with 1 in Hx; lia| |rewrite !zlen_cons in H2; pose proof (zlen_nonneg t); lia].
    assert (zget hl2l u1 = Ok s) as E1 by (apply uses_of_in; rewrite EU; left; reflexivity). assert (zget hl2l u2 = Ok s) as E2 by (apply uses_of_in; rewrite EU; right; left; reflexivity).
    assert (u1 <> u2) as Hne. { pose proof (uses_of_sorted hl2l s) as K. rewrite EU in K. apply StronglySorted_inv in K as [_ K]. inversion K; subst. lia. }
    assert (u1 / deg <> u2 / deg) as Hd. { intros F. apply Hne, (HN u1 u2 s); assumption. }
    rewrite Ef. cbn [adj_a2ab adj_ab2b]. exists p, (u1 / deg). rewrite Hp.
    pose proof (concat_at U s [u1; u2] p 0 u1 ltac:(exact Eus) Hp eq_refl) as C0. pose proof (concat_at U s [u1; u2] p 1 u2 ltac:(exact Eus) Hp eq_refl) as C1. rewrite Z.add_0_r in C0.
    cbn [map filter]. destruct (Z.eqb_spec (u1 / deg) e) as [F1|F1]; cbn [negb].
    + destruct (Z.eqb_spec (u2 / deg) e) as [F2|F2]; [lia|]. cbn [negb]. exists (u2 / deg). rewrite !zget_map, C0, C1. auto.
    + assert (u2 / deg = e) as F2. { destruct Hin as [->|[->|[]]]; [congruence|exact Ede]. } rewrite F2, Z.eqb_refl. cbn [negb]. exists (u1 / deg). rewrite !zget_map, C0. auto.
Qed.
Lemma count_row e l : 0 <= e < nelems -> (forall es, In es l -> e * deg <= es < e * deg + deg) -> forall n,
  foldM (fun n es => side <- zget hl2l es ;; x <- zget exposed side ;; Ok (if negb (truth x) then n + 1 else n)) l n = Ok (n + zlen (flat_map (through e) l)).
Proof.
  intros He. induction l as [|es l IH]; intros Hi n; [cbn [foldM flat_map]; f_equal; change (zlen []) with 0; lia|]. pose proof (Hi es (or_introl eq_refl)) as Hes.
  destruct (zget_in_range hl2l es ltac:(nia)) as (s & Es). cbn [foldM flat_map]. rewrite Es. cbn [bind]. destruct (through_cases e es s He Hes Es) as (x & Ex & Hc). rewrite Ex. cbn [bind]. rewrite IH by (intros; apply Hi; right; assumption). f_equal. rewrite zlen_app.
  destruct Hc as [(T & ->)|(T & p & f & o & _ & _ & _ & ->)]; rewrite T; cbn [negb]; [change (zlen []) with 0|change (zlen [o]) with 1]; lia.
Qed.
Lemma fill_row e l : 0 <= e < nelems -> (forall es, In es l -> e * deg <= es < e * deg + deg) -> forall out k,
  foldM (fun s es =>
      side <- zget hl2l es ;; x <- zget exposed side ;;
      if negb (truth x) then
        side_elem <- zget (adj_a2ab up) side ;;
        first <- zget (adj_ab2b up) side_elem ;;
        other <- zget (adj_ab2b up) (if first =? e then side_elem + 1 else side_elem) ;;
        out <- zset (fst s) (snd s) (Some other) ;;
        Ok (out, snd s + 1)
      else Ok s) l (out, k) = (out <- write_row out k (flat_map (through e) l) ;; Ok (out, k + zlen (flat_map (through e) l))).
Proof.
  intros He. induction l as [|es l IH]; intros Hi out k; [cbn [foldM flat_map write_row bind]; change (zlen []) with 0; rewrite Z.add_0_r; reflexivity|]. pose proof (Hi es (or_introl eq_refl)) as Hes.
  destruct (zget_in_range hl2l es ltac:(nia)) as (s & Es). cbn [foldM flat_map]. rewrite Es. cbn [bind]. destruct (through_cases e es s He Hes Es) as (x & Ex & Hc). rewrite Ex. cbn [bind].
  destruct Hc as [(T & ->)|(T & p & f & o & P1 & P2 & P3 & ->)]; rewrite T; cbn [negb].
  - cbn [bind app]. apply IH. intros; apply Hi; right; assumption.
  - rewrite P1. cbn [bind]. rewrite P2. cbn [bind]. rewrite P3. cbn [bind fst snd app write_row]. destruct (zset out k (Some o)) as [o'| |]; cbn [bind]; try reflexivity. rewrite IH by (intros; apply Hi; right; assumption).
    rewrite zlen_cons. replace (k + (zlen (flat_map (through e) l) + 1)) with (k + 1 + zlen (flat_map (through e) l)) by lia. reflexivity.
Qed.
End sides.

Lemma through_across deg hl2l e : 0 < deg -> flat_map (through deg hl2l e) (zfromto (e * deg) (e * deg + deg)) = across_sides deg hl2l e.
Proof.
  intros Hd. unfold across_sides, zfromto. replace (e * deg + deg - e * deg) with deg by lia. rewrite flat_map_concat_map, map_map, <- flat_map_concat_map. reflexivity.
Qed.
Lemma sides_across_spec dim ns ne hl2l dc e2s s2e exposed : 0 <= dim -> 0 <= ns -> adj_ab2b e2s = hl2l -> zlen hl2l = ne * (dim + 1) -> (forall s, In s hl2l -> 0 <= s < ns) ->
  lists_uses (dim + 1) ns hl2l dc s2e -> zlen exposed = ns -> (forall s, 0 <= s < ns -> says exposed s (zlen (uses_of hl2l s) < 2)) ->
  (forall s, 0 <= s < ns -> zlen (uses_of hl2l s) <= 2) -> no_repeats hl2l (dim + 1) ->
  exists g, elements_across_sides dim e2s s2e exposed = Ok g /\ wf_graph g /\ nnodes g = ne /\ forall e, 0 <= e < ne -> targets g e = Ok (across_sides (dim + 1) hl2l e).
Proof.
  intros Hd Hns Ee Hl Hr HU HE1 HE2 HM HN. unfold elements_across_sides. rewrite Ee. assert (0 <= ne) as Hne by (pose proof (zlen_nonneg hl2l); nia). set (deg := dim + 1) in *. assert (0 < deg) as Hdeg by lia.
  unfold divide_no_remainder, check. destruct (Z.eqb_spec deg 0); [lia|]. cbn [negb bind]. rewrite Hl, Z.rem_mul, Z.quot_mul by lia. cbn [Z.eqb bind].
  set (R := map (across_sides deg hl2l) (zrange ne)). assert (zlen R = ne) as LR by (unfold R; rewrite zlen_map, zlen_zrange; lia).
  assert (forall e es, In es (zfromto (e * deg) (e * deg + deg)) -> e * deg <= es < e * deg + deg) as Hin by (intros e es H; apply in_zfromto in H; exact H).
  unfold tabulate. rewrite (mapM_map_ok _ (fun e => zlen (across_sides deg hl2l e))).
  2: { intros e He. apply in_zrange in He. rewrite (count_row deg ns ne hl2l dc s2e exposed Hdeg Hns Hl Hr HU (conj HE1 HE2) HM HN e _ He (Hin e)). rewrite (through_across deg hl2l e Hdeg). f_equal. }
  cbn [bind]. assert (map (fun e => zlen (across_sides deg hl2l e)) (zrange ne) = map zlen R) as -> by (unfold R; rewrite map_map; reflexivity). rewrite offset_scan_last. cbn [bind]. rewrite <- LR.
  set (body := fun out elem => _). destruct (fill_lists R body) as (w & Ew & Fw).
  - intros a row p out Ha Hp. unfold body. rewrite Hp. cbn [bind]. pose proof (zget_bounds _ _ _ Ha) as Ba. unfold R in Ha. rewrite zget_map, zget_zrange in Ha by lia. cbn [bind] in Ha. injection Ha as <-.
    rewrite (fill_row deg ns ne hl2l dc s2e exposed Hdeg Hns Hl Hr HU (conj HE1 HE2) HM HN a _ ltac:(lia) (Hin a)). rewrite (through_across deg hl2l a Hdeg). destruct (write_row out p (across_sides deg hl2l a)); reflexivity.
  - apply bind_ok in Ew as (b & Eb & Ew). rewrite Eb. cbn [bind]. rewrite Ew. cbn [bind]. rewrite Fw. cbn [bind]. change (mk_graph (offset_scan (map zlen R)) (concat R)) with (of_lists R). eexists. split; [reflexivity|].
    split; [apply of_lists_wf|]. split; [rewrite nnodes_of_lists; reflexivity|]. intros e He. apply targets_of_lists. unfold R. rewrite zget_map, zget_zrange by lia. reflexivity.
Qed.
Lemma across_symmetric deg hl2l ne a b : 0 < deg -> zlen hl2l = ne * deg -> In b (across_sides deg hl2l a) -> 0 <= a < ne -> In a (across_sides deg hl2l b) /\ a <> b /\ 0 <= b < ne.
Proof.
  intros Hd Hl H Ha. unfold across_sides in H. apply in_flat_map in H as (i & Hi & H). apply in_zrange in Hi. destruct (zget hl2l (a * deg + i)) as [s| |] eqn:Es; try destruct H.
  apply filter_In in H as [H Hb]. apply in_map_iff in H as (u & <- & Hu). apply uses_of_in in Hu. pose proof (zget_bounds _ _ _ Hu) as Bu. assert (u / deg <> a) as Hne by (destruct (Z.eqb_spec (u / deg) a); [discriminate|assumption]).
  pose proof (Z.div_mod u deg ltac:(lia)) as Eu. pose proof (Z.mod_pos_bound u deg Hd) as Mu. split; [|split; [congruence|]].
  - unfold across_sides. apply in_flat_map. exists (u mod deg). split; [apply in_zrange, Mu|]. replace (u / deg * deg + u mod deg) with u by lia. rewrite Hu. apply filter_In. split.
    + apply in_map_iff. exists (a * deg + i). split; [symmetry; apply (Z.div_unique (a * deg + i) deg a i); [left; exact Hi|nia]|]. apply uses_of_in, Es.
    + destruct (Z.eqb_spec a (u / deg)); [congruence|reflexivity].
  - split; [apply Z.div_pos; lia|apply Z.div_lt_upper_bound; nia].
Qed.
Lemma across_shares deg hl2l ne a b : 0 < deg -> zlen hl2l = ne * deg -> 0 <= a < ne -> 0 <= b < ne ->
  (In b (across_sides deg hl2l a) <-> a <> b /\ exists i j s, 0 <= i < deg /\ 0 <= j < deg /\ zget hl2l (a * deg + i) = Ok s /\ zget hl2l (b * deg + j) = Ok s).
Proof.
  intros Hd Hl Ha Hb. split.
  - intros H. destruct (across_symmetric deg hl2l ne a b Hd Hl H Ha) as (_ & Hne & _). split; [exact Hne|]. unfold across_sides in H. apply in_flat_map in H as (i & Hi & H). apply in_zrange in Hi. destruct (zget hl2l (a * deg + i)) as [s| |] eqn:Es; try destruct H.
    apply filter_In in H as [H _]. apply in_map_iff in H as (u & <- & Hu). apply uses_of_in in Hu. pose proof (Z.div_mod u deg ltac:(lia)) as Eu. pose proof (Z.mod_pos_bound u deg Hd) as Mu.
    exists i, (u mod deg), s. split; [exact Hi|]. split; [exact Mu|]. split; [exact Es|]. replace (u / deg * deg + u mod deg) with u by lia. exact Hu.
  - intros (Hne & i & j & s & Hi & Hj & E1 & E2). unfold across_sides. apply in_flat_map. exists i. split; [apply in_zrange, Hi|]. rewrite E1. apply filter_In. split; [|destruct (Z.eqb_spec b a); [congruence|reflexivity]].
    apply in_map_iff. exists (b * deg + j). split; [symmetry; apply (Z.div_unique (b * deg + j) deg b j); [left; exact Hj|nia]|]. apply uses_of_in, E2.
Qed.
Lemma invert_lists_uses down nl nlows m0 s1 s2 up : 0 < nl -> 0 <= nlows -> (forall l, In l (adj_ab2b down) -> 0 <= l < nlows) ->
  no_repeats (adj_ab2b down) nl -> (forall c, adj_codes down = Some c -> zlen c = zlen (adj_ab2b down)) ->
  invert_adj down nl nlows m0 s1 s2 = Ok (Some up) -> lists_uses nl nlows (adj_ab2b down) (adj_codes down) up.
Proof.
  intros H1 H2 H3 H4 H5 E. destruct (invert_adj_spec down nl nlows m0 s1 s2 H1 H2 H3 H4 H5) as (o & Eo & Ho). assert (o = Some up) as -> by congruence. destruct (Ho up eq_refl) as (K1 & K2 & K3).
  split; [exact K1|]. split; [exact K2|]. split; [|exact K3]. unfold invert_adj in E. apply bind_ok in E as (o & _ & E). destruct o as [[[f lh] m]|]; [|discriminate]. apply bind_ok in E as (s & _ & E). apply bind_ok in E as (s' & _ & E). injection E as <-. discriminate.
Qed.
