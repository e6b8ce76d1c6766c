From Verif Require Import Prelude M_Array M_Par M_Scan S_Scan M_Sort M_Map S_Map S_Fan P_Array P_Scan P_Map P_Map2 P_Fan M_Graph S_Graph.
Local Open Scope Z_scope.

(** ** graphs as lists of target lists *)
Definition of_lists (L : list (list Z)) : graph := mk_graph (offset_scan (map zlen L)) (concat L).

Lemma zsum_zlen (L : list (list Z)) : zsum (map zlen L) = zlen (concat L).
Proof. induction L as [|x L IH]; [reflexivity|]. cbn [map concat]. rewrite zlen_app, <- IH. reflexivity. Qed.

Lemma offs_at P (x : list Z) R :
  zget (offset_scan (map zlen (P ++ x :: R))) (zlen P) = Ok (zlen (concat P)) /\
  zget (offset_scan (map zlen (P ++ x :: R))) (zlen P + 1) = Ok (zlen (concat P) + zlen x).
Proof.
  destruct (offset_scan_step (map zlen (P ++ x :: R)) (zlen P) (zlen x)) as (s & H1 & H2).
  { rewrite zget_map, zget_app_r by lia. rewrite Z.sub_diag. reflexivity. }
  assert (s = zlen (concat P)) as ->.
  { rewrite offset_scan_get in H1 by (rewrite zlen_map, zlen_app, zlen_cons; pose proof (zlen_nonneg P); pose proof (zlen_nonneg R); lia).
    injection H1 as <-. rewrite map_app, firstn_app. unfold zlen at 1. rewrite Nat2Z.id, map_length.
    rewrite firstn_all2 by (rewrite map_length; unfold zlen; lia).
    replace (Z.to_nat (zlen P) - length P)%nat with 0%nat by (unfold zlen; lia). cbn [firstn]. rewrite app_nil_r. apply zsum_zlen. }
  split; assumption.
Qed.

Lemma split_at {A} (L : list A) v x : zget L v = Ok x -> exists P R, L = P ++ x :: R /\ v = zlen P.
Proof.
  intros H. apply zget_ok in H as [H0 H]. apply nth_error_split in H as (P & R & -> & Hl).
  exists P, R. split; [reflexivity|]. unfold zlen. lia.
Qed.

Lemma mapM_zget_mid {A} (P x R : list A) : mapM (zget (P ++ x ++ R)) (zfromto (zlen P) (zlen P + zlen x)) = Ok x.
Proof.
  revert P. induction x as [|a x IH]; intros P.
  - rewrite zfromto_nil by (rewrite zlen_nil; lia). reflexivity.
  - pose proof (zlen_nonneg x). rewrite zfromto_cons by (rewrite zlen_cons; lia). cbn [mapM app].
    rewrite zget_app_r by lia. rewrite Z.sub_diag. cbn [zget]. change (zget (a :: x ++ R) 0) with (Ok a). cbn [bind].
    specialize (IH (P ++ [a])). rewrite <- app_assoc in IH. cbn [app] in IH. rewrite zlen_app in IH. change (zlen [a]) with 1 in IH.
    replace (zlen P + zlen (a :: x)) with (zlen P + 1 + zlen x) by (rewrite zlen_cons; lia). rewrite IH. reflexivity.
Qed.

Lemma targets_of_lists L v x : zget L v = Ok x -> targets (of_lists L) v = Ok x.
Proof.
  intros H. apply split_at in H as (P & R & -> & ->). unfold targets, of_lists; cbn [a2ab ab2b].
  destruct (offs_at P x R) as [H1 H2]. rewrite H1, H2. cbn [bind].
  rewrite concat_app. cbn [concat]. apply mapM_zget_mid.
Qed.

Lemma of_lists_wf L : wf_graph (of_lists L).
Proof.
  split; cbn [a2ab ab2b of_lists].
  - apply offset_scan_fan. intros x H. apply in_map_iff in H as (l & <- & _). apply zlen_nonneg.
  - rewrite offset_scan_last, zsum_zlen. reflexivity.
Qed.

Lemma split_lists d : (forall x, In x d -> 0 <= x) -> forall l : list Z, zsum d = zlen l ->
  exists L, map zlen L = d /\ concat L = l.
Proof.
  induction d as [|x d IH]; intros H l Hl; [change (zsum []) with 0 in Hl|change (zsum (x :: d)) with (x + zsum d) in Hl].
  - exists []. split; [reflexivity|]. destruct l; [reflexivity|]. rewrite zlen_cons in Hl. pose proof (zlen_nonneg l). lia.
  - assert (0 <= x) as Hx by (apply H; left; reflexivity).
    assert (0 <= zsum d) by (apply zsum_nonneg, Forall_forall; intros y Hy; apply H; right; exact Hy).
    assert (x <= zlen l) as Hle by lia.
    destruct (IH ltac:(intros; apply H; right; assumption) (skipn (Z.to_nat x) l)) as (L & HL & HC).
    { unfold zlen in *. rewrite skipn_length. lia. }
    exists (firstn (Z.to_nat x) l :: L). cbn [map concat]. rewrite HL, HC, firstn_skipn. split; [|reflexivity].
    f_equal. unfold zlen in *. rewrite firstn_length. lia.
Qed.

Lemma wf_lists g : wf_graph g -> exists L, g = of_lists L.
Proof.
  intros [Hf Hl]. destruct g as [f t]; cbn [a2ab ab2b] in *.
  destruct (offsets_of_degrees f (proj1 Hf)) as (d & Ed & Eo).
  destruct (split_lists d) with (l := t) as (L & HL & HC).
  - intros x Hx. apply In_zget in Hx as (i & Hi). destruct (offset_scan_step d i x Hi) as (s & H1 & H2).
    rewrite Eo in H1, H2. pose proof (proj2 Hf i _ _ H1 H2). lia.
  - rewrite <- Eo, offset_scan_last in Hl. congruence.
  - exists L. unfold of_lists. rewrite HL, HC, Eo. reflexivity.
Qed.

Lemma nnodes_of_lists L : nnodes (of_lists L) = zlen L.
Proof. unfold nnodes, of_lists; cbn [a2ab]. rewrite offset_scan_length, zlen_map. lia. Qed.

Lemma wf_targets g v : wf_graph g -> 0 <= v < nnodes g -> exists t, targets g v = Ok t.
Proof.
  intros H Hv. destruct (wf_lists g H) as (L & ->). rewrite nnodes_of_lists in Hv.
  destruct (zget_in_range L v Hv) as (t & Ht). exists t. apply targets_of_lists, Ht.
Qed.
Lemma targets_lists L v t : targets (of_lists L) v = Ok t -> zget L v = Ok t.
Proof.
  intros H. unfold targets, of_lists in H. cbn [a2ab ab2b] in H. assert (H' := H). apply bind_ok in H as (lo & Hlo & H).
  apply bind_ok in H as (hi & Hhi & H). apply zget_bounds in Hlo. apply zget_bounds in Hhi.
  rewrite offset_scan_length, zlen_map in *. destruct (zget_in_range L v) as (x & Hx); [lia|].
  pose proof (targets_of_lists L v x Hx) as E. change (targets (of_lists L) v = Ok t) in H'. congruence.
Qed.

(** ** pushing into a blank array *)
Definition part (P : list Z) (m : nat) : list (option Z) := map Some P ++ repeat None m.
Lemma push P m x : zset (part P (S m)) (zlen P) (Some x) = Ok (part (P ++ [x]) m).
Proof.
  unfold zset, part. pose proof (zlen_nonneg P). rewrite (proj2 (Z.leb_le 0 (zlen P))) by lia.
  rewrite (proj2 (Z.ltb_lt _ _)) by (rewrite zlen_app, zlen_map, zlen_repeat; lia). cbn [andb]. f_equal.
  rewrite map_app, <- app_assoc. cbn [map app repeat]. unfold zlen. rewrite Nat2Z.id.
  clear. induction P as [|p P IH]; [reflexivity|]. cbn [map app length list_set]. f_equal. exact IH.
Qed.

Lemma copy_run src : forall js xs P m, mapM (zget src) js = Ok xs ->
  foldM (copy_next src) js (part P (length xs + m), zlen P) = Ok (part (P ++ xs) m, zlen P + zlen xs).
Proof.
  induction js as [|j js IH]; intros xs P m H; cbn [mapM] in H.
  - injection H as <-. cbn [foldM length plus]. rewrite app_nil_r, zlen_nil, Z.add_0_r. reflexivity.
  - apply bind_ok in H as (y & Hy & H). apply bind_ok in H as (ys & Hys & H). injection H as <-.
    cbn [foldM copy_next]. rewrite Hy. cbn [bind length plus]. rewrite push. cbn [bind].
    replace (zlen P + 1) with (zlen (P ++ [y])) by (rewrite zlen_app; reflexivity).
    rewrite (IH _ _ _ Hys), <- app_assoc. f_equal. f_equal. rewrite zlen_app, zlen_cons, zlen_cons, zlen_nil. lia.
Qed.

Lemma zrange_app_cons n k : 0 <= n -> 0 <= k -> zrange (n + (k + 1)) = zrange n ++ n :: map (fun i => n + 1 + i) (zrange k).
Proof.
  intros Hn Hk. apply list_eq_zget.
  - rewrite zlen_app, zlen_cons, zlen_map, !zlen_zrange by lia. lia.
  - rewrite zlen_zrange by lia. intros i Hi. rewrite zget_zrange by lia.
    destruct (Z.lt_ge_cases i n).
    + rewrite zget_app_l by (rewrite zlen_zrange by lia; lia). rewrite zget_zrange by lia. reflexivity.
    + rewrite zget_app_r by (rewrite zlen_zrange by lia; lia). rewrite zlen_zrange by lia.
      destruct (Z.eq_dec i n) as [->|Hne]; [rewrite Z.sub_diag; reflexivity|].
      change (n :: ?l) with ([n] ++ l). change (zlen [n]) with 1 in *. rewrite zget_app_r by (change (zlen [n]) with 1; lia). change (zlen [n]) with 1.
      rewrite zget_map, zget_zrange by lia. cbv beta iota. cbn [bind]. f_equal. lia.
Qed.

Lemma fill_lists (R : list (list Z)) body :
  (forall P x S, R = P ++ x :: S -> forall m, body (part (concat P) (length x + m)) (zlen P) = Ok (part (concat P ++ x) m)) ->
  forM (zlen R) (part [] (length (concat R))) body = Ok (part (concat R) 0).
Proof.
  intros H. unfold forM.
  assert (forall S P, R = P ++ S -> foldM body (map (fun i => zlen P + i) (zrange (zlen S))) (part (concat P) (length (concat S))) = Ok (part (concat R) 0)) as K.
  { induction S as [|x S IH]; intros P E.
    - cbn. rewrite E, app_nil_r. reflexivity.
    - rewrite zlen_cons. replace (zlen S + 1) with (0 + (zlen S + 1)) by lia. rewrite zrange_app_cons by (pose proof (zlen_nonneg S); lia).
      change (zrange 0) with (@nil Z). cbn [app map foldM concat]. rewrite app_length, Z.add_0_r, (H P x S E). cbn [bind].
      specialize (IH (P ++ [x])). rewrite <- app_assoc in IH. specialize (IH E). rewrite concat_app in IH. cbn [concat] in IH.
      rewrite app_nil_r in IH. rewrite <- IH. rewrite map_map. f_equal. apply map_ext. intros i. rewrite zlen_app. change (zlen [x]) with 1. lia. }
  specialize (K R [] eq_refl). cbn [concat] in K. rewrite <- K. f_equal. symmetry. rewrite <- (map_id (zrange (zlen R))) at 2. apply map_ext. intros i. change (zlen (@nil (list Z))) with 0. lia.
Qed.

Lemma blank_part n : 0 <= n -> @blank Z n = Ok (part [] (Z.to_nat n)).
Proof. intros H. rewrite blank_ok by lia. reflexivity. Qed.
Lemma freeze_part l : freeze (part l 0) = Ok l.
Proof. unfold part. cbn. rewrite app_nil_r. apply freeze_ok. reflexivity. Qed.
Lemma blank_concat (L : list (list Z)) : @blank Z (zlen (concat L)) = Ok (part [] (length (concat L))).
Proof. rewrite blank_part by apply zlen_nonneg. unfold zlen. rewrite Nat2Z.id. reflexivity. Qed.

(** ** add_edges *)
Fixpoint zipapp (L M : list (list Z)) : list (list Z) :=
  match L, M with l :: L, m :: M => (l ++ m) :: zipapp L M | _, _ => [] end.
Lemma zipapp_app L1 : forall M1 L2 M2, length L1 = length M1 -> zipapp (L1 ++ L2) (M1 ++ M2) = zipapp L1 M1 ++ zipapp L2 M2.
Proof. induction L1 as [|l L1 IH]; intros [|m M1] L2 M2 H; try discriminate; [reflexivity|]. cbn. f_equal. apply IH. cbn in H. lia. Qed.
Lemma zipapp_zlen L : forall M, zlen L = zlen M -> zlen (zipapp L M) = zlen L.
Proof.
  induction L as [|l L IH]; intros [|m M] H; try reflexivity; [rewrite zlen_cons, zlen_nil in H; pose proof (zlen_nonneg L); lia|].
  cbn [zipapp]. rewrite !zlen_cons in *. rewrite IH; lia.
Qed.
Lemma zipapp_get L : forall M v l m, zget L v = Ok l -> zget M v = Ok m -> zget (zipapp L M) v = Ok (l ++ m).
Proof.
  intros M v l m H1 H2. apply zget_ok in H1 as [H0 H1]. apply zget_ok in H2 as [_ H2]. apply zget_ok. split; [lia|].
  revert L M H1 H2. generalize (Z.to_nat v). clear. induction n as [|n IH]; intros [|l0 L] [|m0 M] H1 H2; try discriminate; cbn in *; [congruence|auto].
Qed.
Lemma add_each_lens L M : zlen L = zlen M -> add_each (map zlen L) (map zlen M) = Ok (map zlen (zipapp L M)).
Proof.
  intros H. unfold add_each. rewrite !zlen_map. rewrite (proj2 (Z.eqb_eq _ _) H). cbn [check bind].
  pose proof (zlen_nonneg L). unfold tabulate.
  assert (forall i, In i (zrange (zlen L)) -> (x <- zget (map zlen L) i ;; y <- zget (map zlen M) i ;; Ok (x + y)) = Ok (nth (Z.to_nat i) (map zlen (zipapp L M)) 0)) as E.
  { intros i Hi. apply in_zrange in Hi. destruct (zget_in_range L i Hi) as (l & Hl). destruct (zget_in_range M i ltac:(lia)) as (m & Hm).
    rewrite !zget_map, Hl, Hm. cbn [bind]. pose proof (zipapp_get L M i l m Hl Hm) as Hz. apply zget_ok in Hz as [_ Hz].
    f_equal. symmetry. apply nth_error_nth. rewrite nth_error_map, Hz. cbn. rewrite zlen_app. reflexivity. }
  rewrite (mapM_map_ok _ _ _ E). f_equal. symmetry.
  rewrite (zrange_as_map (map zlen (zipapp L M)) 0) at 1. rewrite zlen_map, zipapp_zlen by exact H. reflexivity.
Qed.

Lemma zipapp_split L : forall M P x S, zlen L = zlen M -> zipapp L M = P ++ x :: S ->
  exists L1 l L2 M1 m M2, L = L1 ++ l :: L2 /\ M = M1 ++ m :: M2 /\ x = l ++ m /\ P = zipapp L1 M1 /\ zlen L1 = zlen P /\ zlen M1 = zlen P.
Proof.
  induction L as [|l L IH]; intros M P x S HL E; [destruct P; discriminate|].
  destruct M as [|m M]; [destruct P; discriminate|]. cbn [zipapp] in E. rewrite !zlen_cons in HL. destruct P as [|p P].
  - cbn in E. injection E as <- <-. exists [], l, L, [], m, M. repeat split; reflexivity.
  - cbn [app] in E. injection E as E1 E2. destruct (IH M P x S ltac:(lia) E2) as (L1 & l' & L2 & M1 & m' & M2 & -> & -> & -> & -> & H1 & H2).
    exists (l :: L1), l', L2, (m :: M1), m', M2. cbn [app zipapp]. rewrite E1, !zlen_cons. repeat split; lia.
Qed.

Lemma add_edges_lists L M : zlen L = zlen M -> add_edges (of_lists L) (of_lists M) = Ok (of_lists (zipapp L M)).
Proof.
  intros H. unfold add_edges. cbn [a2ab ab2b of_lists]. rewrite !degrees_of_offsets. cbn [bind].
  rewrite add_each_lens by exact H. cbn [bind]. rewrite offset_scan_last, zsum_zlen. cbn [bind]. rewrite blank_concat. cbn [bind].
  replace (zlen (offset_scan (map zlen L)) - 1) with (zlen (zipapp L M)) by (rewrite offset_scan_length, zlen_map, zipapp_zlen by exact H; lia).
  rewrite fill_lists.
  - cbn [bind]. rewrite freeze_part. reflexivity.
  - intros P x S E m. destruct (offs_at P x S) as [H1 H2]. rewrite <- E in H1, H2.
    destruct (zipapp_split L M P x S H E) as (L1 & l & L2 & M1 & m' & M2 & -> & -> & -> & EP & HL1 & HM1).
    destruct (offs_at L1 l L2) as [H3 H4]. destruct (offs_at M1 m' M2) as [H5 H6]. rewrite HL1 in H3, H4. rewrite HM1 in H5, H6.
    rewrite H1, H2, H3, H4, H5, H6. cbn [bind].
    rewrite app_length, <- Nat.add_assoc.
    rewrite (copy_run _ _ l); [|rewrite concat_app; cbn [concat]; apply mapM_zget_mid]. cbn [bind].
    rewrite <- (zlen_app (concat P) l).
    rewrite (copy_run _ _ m'); [|rewrite concat_app; cbn [concat]; apply mapM_zget_mid]. cbn [bind snd fst].
    rewrite !zlen_app. rewrite (proj2 (Z.eqb_eq _ _)) by lia. cbn [check bind]. rewrite app_assoc. reflexivity.
Qed.

Lemma add_edges_spec g1 g2 : wf_graph g1 -> wf_graph g2 -> nnodes g1 = nnodes g2 ->
  exists g, add_edges g1 g2 = Ok g /\ wf_graph g /\ nnodes g = nnodes g1 /\
  forall v t1 t2, targets g1 v = Ok t1 -> targets g2 v = Ok t2 -> targets g v = Ok (t1 ++ t2).
Proof.
  intros H1 H2 Hn. destruct (wf_lists g1 H1) as (L & ->). destruct (wf_lists g2 H2) as (M & ->).
  rewrite !nnodes_of_lists in Hn. exists (of_lists (zipapp L M)). split; [apply add_edges_lists, Hn|]. split; [apply of_lists_wf|].
  split; [rewrite !nnodes_of_lists; apply zipapp_zlen, Hn|].
  intros v t1 t2 E1 E2. apply targets_of_lists, zipapp_get; apply targets_lists; assumption.
Qed.

Lemma add_edges_mismatch g1 g2 : wf_graph g1 -> wf_graph g2 -> nnodes g1 <> nnodes g2 -> add_edges g1 g2 = Abort.
Proof.
  intros H1 H2 Hn. destruct (wf_lists g1 H1) as (L & ->). destruct (wf_lists g2 H2) as (M & ->). rewrite !nnodes_of_lists in Hn.
  unfold add_edges. cbn [a2ab ab2b of_lists]. rewrite !degrees_of_offsets. cbn [bind]. unfold add_each. rewrite !zlen_map.
  destruct (Z.eqb_spec (zlen L) (zlen M)); [contradiction|]. reflexivity.
Qed.

(** ** identity, self edges *)
Lemma concat_singletons {A} (l : list A) : concat (map (fun i => [i]) l) = l.
Proof. induction l; cbn; [reflexivity|congruence]. Qed.
Lemma identity_lists n : 0 <= n -> identity_graph n = Ok (of_lists (map (fun i => [i]) (zrange n))).
Proof.
  intros H. unfold identity_graph. destruct (Z.ltb_spec n 0); [lia|]. f_equal. unfold of_lists. f_equal; [|symmetry; apply concat_singletons].
  apply list_eq_zget; [rewrite offset_scan_length, !zlen_map, !zlen_zrange; lia|]. rewrite zlen_zrange by lia. intros i Hi.
  rewrite zget_zrange by lia. symmetry. rewrite offset_scan_get by (rewrite !zlen_map, zlen_zrange; lia). f_equal.
  rewrite map_map. cbn. change (fun x : Z => zlen [x]) with (fun _ : Z => 1).
  assert (forall (l : list Z) k, (k <= length l)%nat -> zsum (firstn k (map (fun _ => 1) l)) = Z.of_nat k) as K.
  { induction l as [|a l IH]; intros [|k] Hk; cbn [firstn map length] in *; try lia; try reflexivity. change (1 + zsum (firstn k (map (fun _ => 1) l)) = Z.of_nat (S k)). rewrite IH by lia. lia. }
  rewrite K; [lia|]. rewrite zrange_length. lia.
Qed.
Lemma identity_spec n : 0 <= n -> exists g, identity_graph n = Ok g /\ wf_graph g /\ nnodes g = n /\ forall v, 0 <= v < n -> targets g v = Ok [v].
Proof.
  intros H. eexists. split; [apply identity_lists, H|]. split; [apply of_lists_wf|]. split; [rewrite nnodes_of_lists, zlen_map, zlen_zrange; lia|].
  intros v Hv. apply targets_of_lists. rewrite zget_map, zget_zrange by lia. reflexivity.
Qed.
Lemma add_self_edges_spec g : wf_graph g -> exists g', add_self_edges g = Ok g' /\ wf_graph g' /\ nnodes g' = nnodes g /\
  forall v t, targets g v = Ok t -> targets g' v = Ok (v :: t).
Proof.
  intros H. assert (0 <= nnodes g) as Hn by (destruct (wf_lists g H) as (L & ->); rewrite nnodes_of_lists; apply zlen_nonneg).
  destruct (identity_spec (nnodes g) Hn) as (i & E & Wi & Ni & Ti). unfold add_self_edges. rewrite E. cbn [bind].
  destruct (add_edges_spec i g Wi H Ni) as (g' & E' & W' & N' & T'). exists g'. split; [exact E'|]. split; [exact W'|]. split; [lia|].
  intros v t Ht. apply (T' v [v] t); [|exact Ht]. apply Ti. unfold targets in Ht. apply bind_ok in Ht as (lo & Hlo & Ht).
  apply bind_ok in Ht as (hi & Hhi & _). apply zget_bounds in Hlo. apply zget_bounds in Hhi. unfold nnodes. lia.
Qed.

(** ** unmap_graph *)
Lemma copy_run2 src : forall xs lo0 P m, (forall i x, zget xs i = Ok x -> zget src (lo0 + i) = Ok x) -> forall lo, lo = zlen P ->
  foldM (fun d ac => x <- zget src (lo0 + (ac - lo)) ;; zset d ac (Some x)) (zfromto lo (lo + zlen xs)) (part P (length xs + m)) = Ok (part (P ++ xs) m).
Proof.
  intros xs lo0 P m H lo ->.
  assert (forall ys P', forall o, o = zlen P' - zlen P -> (forall i x, zget ys i = Ok x -> zget src (lo0 + o + i) = Ok x) ->
    foldM (fun d ac => x <- zget src (lo0 + (ac - zlen P)) ;; zset d ac (Some x)) (zfromto (zlen P') (zlen P' + zlen ys)) (part P' (length ys + m)) = Ok (part (P' ++ ys) m)) as K.
  { induction ys as [|y ys IH]; intros P' o Ho Hg.
    - rewrite zfromto_nil by (rewrite zlen_nil; lia). cbn. rewrite app_nil_r. reflexivity.
    - pose proof (zlen_nonneg ys). rewrite zfromto_cons by (rewrite zlen_cons; lia). cbn [foldM length plus].
      specialize (Hg 0 y eq_refl) as Hy. replace (lo0 + (zlen P' - zlen P)) with (lo0 + o + 0) by lia. rewrite Hy. cbn [bind]. rewrite push. cbn [bind].
      replace (zlen P' + 1) with (zlen (P' ++ [y])) by (rewrite zlen_app; reflexivity).
      replace (zlen P' + zlen (y :: ys)) with (zlen (P' ++ [y]) + zlen ys) by (rewrite zlen_app, !zlen_cons, zlen_nil; lia).
      rewrite (IH (P' ++ [y]) (o + 1)); [rewrite <- app_assoc; reflexivity|rewrite zlen_app; change (zlen [y]) with 1; lia|].
      intros i x Hi. pose proof (zget_bounds _ _ _ Hi). specialize (Hg (i + 1) x). replace (lo0 + (o + 1) + i) with (lo0 + o + (i + 1)) by lia. apply Hg.
      change (y :: ys) with ([y] ++ ys). rewrite zget_app_r by (change (zlen [y]) with 1; lia). change (zlen [y]) with 1. replace (i + 1 - 1) with i by lia. exact Hi. }
  apply (K xs P 0); [lia|]. intros i x Hi. rewrite Z.add_0_r. apply H, Hi.
Qed.

Lemma mapM_total {A B} (f : A -> res B) l : (forall x, In x l -> exists y, f x = Ok y) -> exists r, mapM f l = Ok r.
Proof.
  induction l as [|x l IH]; intros H; [exists []; reflexivity|]. destruct (H x ltac:(left; reflexivity)) as (y & Hy).
  destruct IH as (r & Hr); [intros; apply H; right; assumption|]. exists (y :: r). cbn [mapM]. rewrite Hy, Hr. reflexivity.
Qed.
Lemma mapM_get {A B} (f : A -> res B) l r i x : mapM f l = Ok r -> zget l i = Ok x -> exists y, zget r i = Ok y /\ f x = Ok y.
Proof.
  intros E Hx. apply mapM_ok in E. apply zget_ok in Hx as [H0 Hx].
  assert (exists y, nth_error r (Z.to_nat i) = Some y /\ f x = Ok y) as (y & Hy & Hf).
  { revert Hx. generalize (Z.to_nat i). induction E as [|u v us vs Huv _ IH]; intros [|n] Hx; try discriminate; cbn in *; [injection Hx as <-; eauto|eauto]. }
  exists y. split; [apply zget_ok; split; [lia|exact Hy]|exact Hf].
Qed.

Lemma unmap1 {A} a2b (d : list A) (r : list A) : (forall b, In b a2b -> 0 <= b < zlen d) -> mapM (zget d) a2b = Ok r -> unmap a2b d 1 = Ok r.
Proof.
  intros H E. destruct (unmap_spec a2b d 1) as (r' & E' & L & G); [lia| |].
  - intros b Hb. specialize (H b Hb). lia.
  - rewrite E'. f_equal. pose proof (mapM_length _ _ _ E) as Hlen. apply list_eq_zget; [unfold zlen in *; lia|]. intros i Hi.
    destruct (zget_in_range a2b i) as (b & Hb); [unfold zlen in *; lia|].
    specialize (G i b 0 Hb ltac:(lia)). replace (i * 1 + 0) with i in G by lia. replace (b * 1 + 0) with b in G by lia.
    destruct (mapM_get _ _ _ _ _ E Hb) as (y & Hy & Hf). rewrite G, Hf, Hy. reflexivity.
Qed.

Lemma unmap_graph_lists a2b L R : (forall b, In b a2b -> 0 <= b < zlen L) -> mapM (zget L) a2b = Ok R ->
  unmap_graph a2b (of_lists L) = Ok (of_lists R).
Proof.
  intros H E. unfold unmap_graph. cbn [a2ab ab2b of_lists]. rewrite degrees_of_offsets. cbn [bind].
  pose proof (mapM_length _ _ _ E) as Hlen.
  rewrite (unmap1 a2b (map zlen L) (map zlen R)).
  2: { intros b Hb. rewrite zlen_map. apply H, Hb. }
  2: { clear -E. revert R E. induction a2b as [|b a2b IH]; intros R E; cbn [mapM] in *; [injection E as <-; reflexivity|].
       apply bind_ok in E as (y & Hy & E). apply bind_ok in E as (ys & Hys & E). injection E as <-. rewrite zget_map, Hy. cbn [bind].
       rewrite (IH ys Hys). reflexivity. }
  cbn [bind]. rewrite offset_scan_last, zsum_zlen. cbn [bind]. rewrite blank_concat. cbn [bind].
  replace (zlen a2b) with (zlen R) by (unfold zlen; lia). rewrite fill_lists; [cbn [bind]; rewrite freeze_part; reflexivity|].
  intros P x S ER m. destruct (offs_at P x S) as [H1 H2]. rewrite <- ER in H1, H2.
  assert (zget R (zlen P) = Ok x) as HR by (rewrite ER, zget_app_r by lia; rewrite Z.sub_diag; reflexivity).
  destruct (zget_in_range a2b (zlen P)) as (b & Hb). { apply zget_bounds in HR. unfold zlen in *. lia. }
  assert (zget L b = Ok x) as HL.
  { clear -E Hb HR. apply mapM_ok in E. apply zget_ok in Hb as [_ Hb]. apply zget_ok in HR as [_ HR]. revert Hb HR. generalize (Z.to_nat (zlen P)).
    induction E as [|u v us vs Huv _ IH]; intros [|n] Hb HR; try discriminate; cbn in *; [congruence|eauto]. }
  rewrite Hb, H1, H2. cbn [bind]. apply split_at in HL as (Q & T & EQ & Eb). destruct (offs_at Q x T) as [H3 _].
  rewrite EQ, Eb. rewrite H3. cbn [bind]. apply copy_run2; [|reflexivity].
  intros i y Hi. rewrite concat_app. cbn [concat]. pose proof (zget_bounds _ _ _ Hi). rewrite zget_app_r by lia.
  rewrite zget_app_l by lia. replace (zlen (concat Q) + i - zlen (concat Q)) with i by lia. exact Hi.
Qed.

Lemma unmap_graph_spec a2b g : wf_graph g -> (forall b, In b a2b -> 0 <= b < nnodes g) ->
  exists g', unmap_graph a2b g = Ok g' /\ wf_graph g' /\ nnodes g' = zlen a2b /\
  forall a b, zget a2b a = Ok b -> targets g' a = targets g b.
Proof.
  intros H Hr. destruct (wf_lists g H) as (L & ->). rewrite nnodes_of_lists in Hr.
  destruct (mapM_total (zget L) a2b) as (R & E). { intros b Hb. apply zget_in_range, Hr, Hb. }
  exists (of_lists R). split; [apply unmap_graph_lists; assumption|]. split; [apply of_lists_wf|].
  split; [rewrite nnodes_of_lists; unfold zlen; rewrite (mapM_length _ _ _ E); reflexivity|].
  intros a b Hb. destruct (mapM_get _ _ _ _ _ E Hb) as (y & Hy & Hf). rewrite (targets_of_lists R a y Hy), (targets_of_lists L b y Hf). reflexivity.
Qed.
