(** Collapsing edges: domains and products. *)
From Coq Require Import String Permutation Sorted.
From Verif Require Import Prelude M_Array P_Array M_Par M_Scan P_Fan S_Sort M_Sort M_Map S_Map P_Map P_Map2 M_Template S_Template P_Template M_Align S_Align P_Align M_Graph S_Graph P_Graph M_Unique S_Unique P_Unique M_Adj S_Adj P_Adj S_Transit P_Transit S_Across P_Across
  M_Match S_Match P_Match M_Tags M_MeshAdj S_MeshAdj P_MeshAdj P_MeshAdj2 P_MeshAdj3 M_Build S_Build P_Build P_Box M_Unmap S_Unmap P_Unmap P_Renumber P_Mark M_Swap3d M_Coarsen S_Coarsen P_Dead P_Coarsen
  M_Modify S_Modify P_Modify P_Modify2 S_Swap3d M_RefineMesh S_RefineMesh S_Rebuild P_Rebuild P_Rebuild2 P_Rebuild3 P_RefineMesh1 P_RefineMesh2 P_RefineMesh4 P_RefineMesh5 P_Flip4 S_Patch P_Patch M_Collapse S_Collapse P_Collapse1 P_Collapse2 P_Collapse3 P_Collapse4.
Local Open Scope Z_scope.

Lemma block_len {A} (l : list A) : forall out p out', write_block out p l = Ok out' -> zlen out' = zlen out.
Proof. induction l as [|x l IH]; intros out p out' E; cbn [write_block] in E; [injection E as <-; reflexivity|]. apply bind_ok in E as (o & E1 & E2). rewrite (IH _ _ _ E2). unfold zset in E1. destruct (_ && _); [|discriminate]. injection E1 as <-. unfold zlen. rewrite list_set_length. reflexivity. Qed.
Lemma fold_len {A B} (f : list A -> B -> res (list A)) : (forall o i o', f o i = Ok o' -> zlen o' = zlen o) -> forall l o o', foldM f l o = Ok o' -> zlen o' = zlen o.
Proof. intros H l. induction l as [|x l IH]; intros o o' E; cbn [foldM] in E; [injection E as <-; reflexivity|]. apply bind_ok in E as (o1 & E1 & E2). rewrite (IH _ _ E2). exact (H _ _ _ E1). Qed.
Lemma coarsen_len cv2v ontos d doms n old2new out : coarsen_topology cv2v ontos d doms old2new = Ok out -> last_of (adj_a2ab doms) = Ok n -> 0 <= n -> 0 <= simplex_degree d 0 -> zlen out = n * simplex_degree d 0.
Proof.
  intros E En Hn Hd. unfold coarsen_topology in E. apply bind_ok in E as (codes & _ & E). rewrite En in E. cbn [bind] in E. rewrite blank_ok in E by nia. cbn [bind] in E. apply bind_ok in E as (o & E1 & E2). apply freeze_ok in E2. unfold forM in E1. apply fold_len in E1.
  - rewrite E2 in E1. rewrite zlen_map, zlen_repeat in E1. nia.
  - intros o0 i o' E0. apply bind_ok in E0 as (v & _ & E0). apply bind_ok in E0 as (lo & _ & E0). apply bind_ok in E0 as (hi & _ & E0). apply fold_len in E0; [exact E0|]. intros o2 j o3 E3. apply bind_ok in E3 as (c & _ & E3). apply bind_ok in E3 as (k & _ & E3). apply bind_ok in E3 as (row & _ & E3). eapply block_len, E3.
Qed.
Lemma mapM_look (old2new : list Z) (f g : Z -> Z) vs row : mapM (fun x => zget old2new (f x)) vs = Ok row -> (forall x, In x vs -> f x = g x) -> row = map (fun x => look old2new (g x)) vs.
Proof.
  revert row. induction vs as [|x vs IH]; intros row E H; cbn [mapM] in E; [injection E as <-; reflexivity|]. apply bind_ok in E as (y & E1 & E). apply bind_ok in E as (ys & E2 & E). injection E as <-. cbn [map]. f_equal; [|apply IH; [exact E2|intros z I; apply H; right; exact I]]. unfold look. rewrite <- (H x (or_introl eq_refl)), E1. reflexivity.
Qed.

Section found.
Context (T : topology) (HT : valid_topology T) (HS : simplicial T) (old : amesh) (HR : ready T old).
Context (HA : forall a b, 0 <= a <= t_dim T -> 0 <= b <= t_dim T -> a <> b -> P_MeshAdj.val T a b = Ok (kept_adj old a b)).
Local Notation D := (t_dim T).
Context (globals keys rails : list Z) (HC : collapsible T globals keys rails).
Local Notation falls := (falls T globals keys rails).
Local Notation onto := (onto T old globals rails).
Lemma products_found d m old2new : 1 <= d <= D -> zlen m = t_nents T d -> (forall b, In b m -> b = 0 \/ b = 1) -> (forall x row, ent_verts T d x row -> zget m x = Ok 1 <-> falls d row) -> zlen old2new = t_nents T 0 ->
  exists doms L, find_coarsen_domains (kept_adj old 0 d) keys m = Ok doms /\ is_fan (adj_a2ab doms) /\ zlen (adj_a2ab doms) = zlen keys + 1 /\ last_of (adj_a2ab doms) = Ok (zlen (adj_ab2b doms)) /\
    coarsen_topology (adj_ab2b (kept_adj old d 0)) (map onto keys) d doms old2new = Ok (concat L) /\ NoDup (adj_ab2b doms) /\
    (forall e, In e (adj_ab2b doms) <-> exists row, ent_verts T d e row /\ ~ falls d row /\ exists v, In v keys /\ In v row) /\
    Forall2 (fun e prow => exists row, ent_verts T d e row /\ prow = map (fun v => look old2new (img keys onto v)) row) (adj_ab2b doms) L.
Proof.
  intros Hd Lm Bm Mm LO. pose proof (v_dim T HT) as HD. destruct (verts_up T HT HS old HA d Hd) as (W & codes & Ec & HV). destruct (vert_uses T HT HS old HA d Hd) as (_ & LU & _ & _).
  assert (forall v, In v keys -> 0 <= v < zlen (adj_a2ab (kept_adj old 0 d)) - 1) as KB by (intros v I; pose proof (key_range T HT HS globals keys rails HC v I); lia).
  assert (zlen (t_verts T d) = t_nents T d * (d + 1)) as LV by (destruct (v_verts T HT d Hd) as (L & _); rewrite (deg0 T HS d) in L by lia; exact L).
  assert (simplex_degree d 0 = d + 1) as Sd by (assert (d = 1 \/ d = 2 \/ d = 3) as [->|[->| ->]] by lia; reflexivity).
  destruct (domains_ok _ codes keys m W Ec KB) as (doms & dcodes & E1 & W' & L1 & Edc & HD1). { intros e I. rewrite Lm. apply (in_up T HT HS old HA d e Hd I). }
  destruct (coarsen_retargets_ok d (t_nents T d) (t_verts T d) (kept_adj old 0 d) keys (map onto keys) m old2new ltac:(lia) (verts_up T HT HS old HA d Hd) LV) as (doms' & out & E1' & E2 & HP); try assumption.
  { intros c I. apply (in_up T HT HS old HA d c Hd I). } { apply zlen_map. } { intros v I. rewrite LO. destruct (v_verts T HT d Hd) as (_ & _ & B). apply B, I. } { intros v I. rewrite LO. apply in_map_iff in I as (k & <- & I). apply (goes_facts T HT HS globals keys rails HC k _ (on_ok T HT HS old HA globals keys rails HC k I)). }
  assert (doms' = doms) as -> by congruence. clear E1'. pose proof W' as (W1 & W2 & W3). pose proof (coarsen_len _ _ _ _ _ _ _ E2 W2 (zlen_nonneg _) ltac:(lia)) as Lout. rewrite Sd in Lout. set (n := zlen (adj_ab2b doms)) in *.
  set (L := map (tuple out (d + 1)) (zrange n)). assert (concat L = out) as EL by (apply tuples_concat; [lia|apply zlen_nonneg|exact Lout]).
  assert (zlen L = n) as LL by (unfold L; rewrite zlen_map, zlen_zrange; unfold n; pose proof (zlen_nonneg (adj_ab2b doms)); lia).
  (* where an entry is *)
  assert (forall p e, zget (adj_ab2b doms) p = Ok e -> exists key v row prow, in_group (adj_a2ab doms) key p /\ zget keys key = Ok v /\ ent_verts T d e row /\ In v row /\ ~ falls d row /\ verts_of (d + 1) out p = Ok prow /\ prow = map (fun v => look old2new (img keys onto v)) row /\
     forall p', in_group (adj_a2ab doms) key p' -> zget (adj_ab2b doms) p' = Ok e -> p' = p) as AT.
  { intros p e Ep. pose proof (zget_bounds _ _ _ Ep) as Bp. destruct (in_group_exists _ _ p W1 W2 Bp) as (key & G). pose proof G as (lo & hi & G1 & G2 & G3). pose proof (zget_bounds _ _ _ G1) as B1. pose proof (zget_bounds _ _ _ G2) as B2. destruct (zget_in_range keys key ltac:(lia)) as (v & Ev). pose proof (zget_In _ _ _ Ev) as Iv.
    destruct (at_vert T HT HS old HA d v Hd ltac:(apply (key_range T HT HS globals keys rails HC v Iv))) as (es & Et & Nes & HI). assert (zget (map onto keys) key = Ok (onto v)) as Eo by (rewrite zget_map, Ev; reflexivity). destruct (HP key v (onto v) es Ev Eo Et) as (lo' & hi' & rows & F1 & F2 & F3 & F4). assert (lo' = lo) as -> by congruence. assert (hi' = hi) as -> by congruence.
    assert (exists cs, adj_target_codes (kept_adj old 0 d) v = Ok cs /\ length es = length cs) as (cs & Ecs & Lcs). { destruct W as (X1 & X2 & X3). specialize (X3 codes Ec). destruct (wf_targets (mk_graph (adj_a2ab (kept_adj old 0 d)) codes) v) as (cs & Ecs); [split; cbn [a2ab ab2b]; [assumption|rewrite X3; exact X2]|cbn; apply KB, Iv|]. exists cs. split; [unfold adj_target_codes; rewrite Ec; exact Ecs|]. apply targets_split in Ecs as (l1 & h1 & C1 & C2 & C3). pose proof Et as Et'. apply targets_split in Et' as (l2 & h2 & D1 & D2 & D3). cbn [a2ab ab2b] in *. assert (l2 = l1) as -> by congruence. assert (h2 = h1) as -> by congruence. rewrite (mapM_length _ _ _ C3), (mapM_length _ _ _ D3). reflexivity. }
    destruct (HD1 key v es cs Ev Et Ecs) as (es' & cs' & A1 & A2 & A3 & A4). assert (es' = filter (live m) es) as Ees by (rewrite <- (map_fst_filter_combine (live m) es cs Lcs), <- A4; symmetry; apply map_fst_combine, A3). rewrite <- Ees in F4. apply targets_split in A1 as (l1 & h1 & C1 & C2 & C3). cbn [a2ab ab2b] in *. assert (l1 = lo) as -> by congruence. assert (h1 = hi) as -> by congruence.
    assert (forall q, lo <= q < hi -> exists x rw, zget (adj_ab2b doms) q = Ok x /\ nth_error es' (Z.to_nat (q - lo)) = Some x /\ verts_of (d + 1) out q = Ok rw /\ nth_error rows (Z.to_nat (q - lo)) = Some rw) as AQ.
    { intros q Hq. assert (nth_error (zfromto lo hi) (Z.to_nat (q - lo)) = Some q) as Nq by (unfold zfromto; rewrite nth_error_map, zrange_nth by lia; cbn; f_equal; lia). destruct (nth_error_mapM _ _ _ _ _ C3 Nq) as (x & X1 & X2). destruct (nth_error_mapM _ _ _ _ _ F3 Nq) as (rw & Y1 & Y2). exists x, rw. auto. }
    destruct (AQ p G3) as (x & prow & X1 & X2 & X3 & X4). assert (x = e) as -> by congruence. assert (In e (filter (live m) es)) as Ie by (rewrite <- Ees; eapply nth_error_In, X2). apply filter_In in Ie as [Ie Live]. apply HI in Ie as (row & R & Ir).
    assert (exists vs, verts_of (d + 1) (t_verts T d) e = Ok vs /\ mapM (fun x => zget old2new (retarget v (onto v) x)) vs = Ok prow) as (vs & V1 & V2). { refine (Forall2_at _ _ _ F4 (p - lo) e prow _ _); apply zget_ok; (split; [lia|]); assumption. }
    assert (vs = row) as ->. { apply (ent_unique T d e _ _ ltac:(lia)); [|exact R]. apply ent_high; [lia|]. apply verts_row; [lia|exact V1]. }
    exists key, v, row, prow. split; [exact G|]. split; [exact Ev|]. split; [exact R|]. split; [exact Ir|]. split; [|split; [exact X3|split]].
    - intros Fa. apply (Mm e row R) in Fa. unfold live in Live. rewrite Fa in Live. discriminate.
    - apply (mapM_look old2new (retarget v (onto v)) (img keys onto) row prow V2). intros y Iy. unfold retarget. destruct (Z.eqb_spec y v) as [->|N]; [rewrite img_key by exact Iv; reflexivity|]. rewrite img_not; [reflexivity|]. intros K. apply N. apply (one_goer T HT HS globals keys rails HC d e row y v ltac:(lia) R); assumption.
    - intros p' (lo' & hi' & P1 & P2 & P3) Ep'. assert (lo' = lo) as -> by congruence. assert (hi' = hi) as -> by congruence. destruct (AQ p' P3) as (x & rw & Y1 & Y2 & _). assert (x = e) as -> by congruence. assert (NoDup es') as Ne by (rewrite Ees; apply NoDup_filter, Nes). assert (Z.to_nat (p - lo) = Z.to_nat (p' - lo)) as EN by (apply (proj1 (NoDup_nth_error es') Ne); [apply nth_error_Some; congruence|congruence]). lia. }
  exists doms, L. split; [exact E1|]. split; [exact W1|]. split; [exact L1|]. split; [exact W2|]. split; [rewrite (old_verts T HT old HA d) by lia; rewrite EL; exact E2|]. split; [|split].
  - apply NoDup_nth_error. intros i j Hi Eij. destruct (nth_error (adj_ab2b doms) i) as [e|] eqn:Ei; [|apply nth_error_None in Ei; lia]. symmetry in Eij. assert (j < length (adj_ab2b doms))%nat as Hj by (apply nth_error_Some; congruence).
    assert (zget (adj_ab2b doms) (Z.of_nat i) = Ok e) as Zi by (apply zget_ok; split; [lia|rewrite Nat2Z.id; exact Ei]). assert (zget (adj_ab2b doms) (Z.of_nat j) = Ok e) as Zj by (apply zget_ok; split; [lia|rewrite Nat2Z.id; exact Eij]).
    destruct (AT _ _ Zi) as (key & v & row & _ & G & Ev & R & Iv & _ & _ & _ & U). destruct (AT _ _ Zj) as (key' & v' & row' & _ & G' & Ev' & R' & Iv' & _). pose proof (ent_unique T d e _ _ ltac:(lia) R R') as <-. pose proof (one_goer T HT HS globals keys rails HC d e row v v' ltac:(lia) R Iv Iv' (zget_In _ _ _ Ev) (zget_In _ _ _ Ev')) as <-. pose proof (NoDup_zget _ _ _ _ (c_once _ _ _ _ HC) Ev Ev') as <-. specialize (U _ G' Zj). lia.
  - intros e. split.
    + intros I. apply P_Map.In_zget in I as (p & Ep). destruct (AT p e Ep) as (key & v & row & _ & _ & Ev & R & Iv & Nf & _). exists row. split; [exact R|]. split; [exact Nf|]. exists v. split; [eapply zget_In, Ev|exact Iv].
    + intros (row & R & Nf & v & Iv & Ir). destruct (P_Map.In_zget _ _ Iv) as (key & Ev). destruct (at_vert T HT HS old HA d v Hd ltac:(apply (key_range T HT HS globals keys rails HC v Iv))) as (es & Et & _ & HI).
      assert (exists cs, adj_target_codes (kept_adj old 0 d) v = Ok cs /\ length es = length cs) as (cs & Ecs & Lcs). { destruct W as (X1 & X2 & X3). specialize (X3 codes Ec). destruct (wf_targets (mk_graph (adj_a2ab (kept_adj old 0 d)) codes) v) as (cs & Ecs); [split; cbn [a2ab ab2b]; [assumption|rewrite X3; exact X2]|cbn; apply KB, Iv|]. exists cs. split; [unfold adj_target_codes; rewrite Ec; exact Ecs|]. apply targets_split in Ecs as (l1 & h1 & C1 & C2 & C3). pose proof Et as Et'. apply targets_split in Et' as (l2 & h2 & D1 & D2 & D3). cbn [a2ab ab2b] in *. assert (l2 = l1) as -> by congruence. assert (h2 = h1) as -> by congruence. rewrite (mapM_length _ _ _ C3), (mapM_length _ _ _ D3). reflexivity. }
      destruct (HD1 key v es cs Ev Et Ecs) as (es' & cs' & A1 & A2 & A3 & A4). assert (es' = filter (live m) es) as Ees by (rewrite <- (map_fst_filter_combine (live m) es cs Lcs), <- A4; symmetry; apply map_fst_combine, A3).
      assert (In e es') as Ie. { rewrite Ees. apply filter_In. split; [apply HI; eauto|]. pose proof (ent_range T HT HS d e row ltac:(lia) R) as He. destruct (zget_in_range m e ltac:(lia)) as (b & Eb). unfold live. rewrite Eb. destruct (Bm b (zget_In _ _ _ Eb)) as [->| ->]; [reflexivity|]. exfalso. apply Nf, (Mm e row R), Eb. }
      apply targets_split in A1 as (l1 & h1 & C1 & C2 & C3). cbn [a2ab ab2b] in *. destruct (mapM_in_inv _ _ _ _ C3 Ie) as (p & Ep & _). eapply zget_In, Ep.
  - apply Forall2_of; [rewrite LL; reflexivity|]. intros p e prow Ep El. destruct (AT p e Ep) as (key & v & row & prow' & _ & _ & R & _ & _ & V & E & _). exists row. split; [exact R|]. rewrite <- E. apply verts_row in V; [|lia]. rewrite <- EL in V.
    assert (forall rw, In rw L -> zlen rw = d + 1) as LR. { intros rw I. unfold L in I. apply in_map_iff in I as (q & <- & Iq). apply in_zrange in Iq. apply (row_is_tuple (d + 1) out n q ltac:(lia) Lout Iq). }
    apply (row_concat (d + 1) L p prow' ltac:(lia) LR) in V. congruence.
Qed.
End found.
