From Verif Require Import Prelude M_Array M_Par M_Scan S_Scan M_Sort S_Sort M_Map S_Map M_Dist S_Dist M_Comm M_Linpart S_Linpart M_Owners S_Owners P_Array P_Scan P_Map P_Fan P_Dist P_Dist2 P_Dist3 P_Dist4 P_Dist5 P_Dist6 P_Link.
Local Open Scope Z_scope.

(** ** the loops *)
Section loops.
Context (clients2ranks clients idxs : list Z) (R I : Z -> Z).

Lemma owner_by_rank_spec own_ranks (O : Z -> Z) scs :
  (forall sc, In sc scs -> exists client, zget clients sc = Ok client /\ zget clients2ranks client = Ok (R sc) /\ zget own_ranks sc = Ok (O sc) /\ zget idxs sc = Ok (I sc)) ->
  exists o, owner_by_rank clients2ranks clients own_ranks idxs scs = Ok o /\
  ((o = -1 /\ forall sc, In sc scs -> O sc <> R sc) \/ exists sc, In sc scs /\ O sc = R sc /\ o = I sc).
Proof.
  induction scs as [|sc scs IH]; intros V; cbn [owner_by_rank].
  - exists (-1). split; [reflexivity|]. left. split; [reflexivity|]. intros ? [].
  - destruct (V sc (or_introl eq_refl)) as (client & E1 & E2 & E3 & E4). rewrite E1. cbn [bind]. rewrite E2, E3. cbn [bind].
    destruct (Z.eqb_spec (O sc) (R sc)) as [E|N].
    + exists (I sc). split; [exact E4|]. right. exists sc. split; [left; reflexivity|auto].
    + destruct IH as (o & Eo & Ho); [intros; apply V; right; assumption|]. exists o. split; [exact Eo|].
      destruct Ho as [[-> H]|(sc' & I' & H)]; [left|right; exists sc'; split; [right; assumption|assumption]].
      split; [reflexivity|]. intros x [<-|Hx]; auto.
Qed.

Definition step ns := fun (st : Z * Z * Z) sc =>
    let '(own_rank, nown, own_idx) := st in
    client <- zget clients sc ;; nclient <- zget ns client ;; client_rank <- zget clients2ranks client ;;
    if ((own_rank =? -1) || (nclient <? nown) || ((nclient =? nown) && (client_rank <? own_rank)))%bool then
      copy_idx <- zget idxs sc ;; Ok (client_rank, nclient, copy_idx)
    else Ok st.

Lemma size_fold ns (N : Z -> Z) scs : forall st,
  (forall sc, In sc scs -> 0 <= R sc /\ exists client, zget clients sc = Ok client /\ zget ns client = Ok (N sc) /\ zget clients2ranks client = Ok (R sc) /\ zget idxs sc = Ok (I sc)) ->
  exists st', foldM (step ns) scs st = Ok st' /\
  (st' = st \/ exists sc, In sc scs /\ st' = (R sc, N sc, I sc)) /\
  (forall sc, In sc scs -> let '(r, n, _) := st' in r <> -1 /\ (n < N sc \/ n = N sc /\ r <= R sc)) /\
  (let '(r0, n0, _) := st in r0 <> -1 -> let '(r, n, _) := st' in r <> -1 /\ (n < n0 \/ n = n0 /\ r <= r0)).
Proof.
  induction scs as [|sc scs IH]; intros [[r0 n0] i0] V; cbn [foldM].
  - exists (r0, n0, i0). split; [reflexivity|]. split; [left; reflexivity|]. split; [intros ? []|]. intros; split; [assumption|right; lia].
  - destruct (V sc (or_introl eq_refl)) as (P & client & E1 & E2 & E3 & E4). unfold step at 1. rewrite E1. cbn [bind]. rewrite E2, E3. cbn [bind].
    assert (forall sc0, In sc0 scs -> 0 <= R sc0 /\ exists client, zget clients sc0 = Ok client /\ zget ns client = Ok (N sc0) /\ zget clients2ranks client = Ok (R sc0) /\ zget idxs sc0 = Ok (I sc0)) as V' by (intros; apply V; right; assumption).
    destruct ((r0 =? -1) || (N sc <? n0) || ((N sc =? n0) && (R sc <? r0)))%bool eqn:B.
    + rewrite E4. cbn [bind]. destruct (IH (R sc, N sc, I sc) V') as ([[r n] i] & E & H1 & H2 & H3). exists (r, n, i). split; [exact E|].
      specialize (H3 ltac:(lia)). split; [right; destruct H1 as [->|(x & ? & ?)]; [exists sc; split; [left; reflexivity|reflexivity]|exists x; split; [right; assumption|assumption]]|].
      split; [intros x [<-|Hx]; [exact H3|apply H2; exact Hx]|]. intros Hr. lia.
    + destruct (IH (r0, n0, i0) V') as ([[r n] i] & E & H1 & H2 & H3). exists (r, n, i). split; [exact E|].
      apply Bool.orb_false_iff in B as [B B3]. apply Bool.orb_false_iff in B as [B1 B2]. apply Z.eqb_neq in B1. specialize (H3 B1).
      split; [destruct H1 as [->|(x & ? & ?)]; [left; reflexivity|right; exists x; split; [right; assumption|assumption]]|].
      split; [|intros _; exact H3]. intros x [<-|Hx]; [|apply H2; exact Hx]. split; [lia|].
      apply Bool.andb_false_iff in B3. lia.
Qed.

Lemma owner_by_size_spec ns (N : Z -> Z) scs :
  (forall sc, In sc scs -> 0 <= R sc /\ exists client, zget clients sc = Ok client /\ zget ns client = Ok (N sc) /\ zget clients2ranks client = Ok (R sc) /\ zget idxs sc = Ok (I sc)) ->
  exists o, owner_by_size clients2ranks clients ns idxs scs = Ok o /\
  ((scs = [] /\ o = (-1, -1)) \/ exists sc, In sc scs /\ o = (R sc, I sc) /\ forall x, In x scs -> N sc < N x \/ N sc = N x /\ R sc <= R x).
Proof.
  intros V. unfold owner_by_size. destruct (size_fold ns N scs (-1, -1, -1) V) as ([[r n] i] & E & H1 & H2 & _).
  change (foldM _ scs (-1, -1, -1)) with (foldM (step ns) scs (-1, -1, -1)). rewrite E. cbn [bind]. exists (r, i). split; [reflexivity|].
  destruct scs as [|sc0 scs]; [left; destruct H1 as [[= -> -> ->]|(x & [] & _)]; auto|]. right.
  destruct H1 as [[= -> -> ->]|(x & Hx & [= -> -> ->])]; [destruct (H2 sc0 (or_introl eq_refl)); congruence|].
  exists x. split; [exact Hx|]. split; [reflexivity|]. intros y Hy. apply (H2 y Hy).
Qed.
End loops.

(** ** what the server of an entity sees *)
Section server.
Context (ranks idxs : list (list Z)) (nroots : list Z) (ds : list dist) (cnt : Z -> Z -> Z).
Hypothesis made : link ds cnt ranks idxs nroots.
Let Had := k_addr _ _ _ _ _ made.
Let ok := k_exist _ _ _ _ _ made.

Lemma goes_to_fun (x : list (list Z)) s i a b : goes_to x s i a -> goes_to x s i b -> a = b.
Proof. intros (u & U1 & U2) (v & V1 & V2). congruence. Qed.

Lemma idx_total s i r : goes_to ranks s i r -> exists q, goes_to idxs s i q.
Proof.
  destruct Had as (A1 & A2 & A3 & A4 & A5). intros (a & Ha & Hi).
  destruct (zget_in_range idxs s) as (b & Hb); [rewrite A1; eapply zget_bounds; eauto|].
  destruct (zget_in_range b i) as (q & Hq); [rewrite (A3 s a b Ha Hb); eapply zget_bounds; eauto|]. exists q, b. auto.
Qed.

(** the copies of one entity, as its server lists them *)
Lemma server_lists who r w k q f lo hi : routes ranks who -> zget who r = Ok w -> zget nroots r = Ok k ->
  is_fan f -> last_of f = Ok (zlen w) -> (forall c s i q, zget w c = Ok (s, i) -> (in_group f q c <-> goes_to idxs s i q)) ->
  zget f q = Ok lo -> zget f (q + 1) = Ok hi ->
  (forall c, In c (zfromto lo hi) -> exists s i, zget w c = Ok (s, i) /\ goes_to ranks s i r /\ goes_to idxs s i q) /\
  (forall s i, goes_to ranks s i r -> goes_to idxs s i q -> exists c, In c (zfromto lo hi) /\ zget w c = Ok (s, i)).
Proof.
  intros [Lw Rw] Hw Hk Ff Ll G Hlo Hhi. destruct (Rw r w Hw) as [Nw Iw].
  pose proof (fan_nonneg _ _ _ Ff Hlo) as Nlo. unfold last_of in Ll. pose proof (zget_bounds _ _ _ Hhi) as Bh.
  pose proof (fan_mono _ (q + 1) (zlen f - 1) _ _ Ff Hhi Ll ltac:(lia)) as Uhi.
  split.
  - intros c Hc. apply in_zfromto in Hc. destruct (zget_in_range w c ltac:(lia)) as ([s i] & Hsi). exists s, i. split; [exact Hsi|].
    split; [apply Iw; eapply zget_In; eauto|]. apply (G c s i q Hsi). exists lo, hi. auto.
  - intros s i H1 H2. apply Iw in H1. apply In_zget in H1 as (c & Hc). exists c. split; [|exact Hc]. apply in_zfromto.
    destruct (proj2 (G c s i q Hc) H2) as (lo' & hi' & X1 & X2 & X3). assert (lo' = lo) as -> by congruence. assert (hi' = hi) as -> by congruence. exact X3.
Qed.

Lemma serv_idxs_ok who (out : list (list Z)) r w y c s i : routes ranks who -> delivered who (map zrange (map zlen ranks)) out 1 ->
  zget who r = Ok w -> zget out r = Ok y -> zget w c = Ok (s, i) -> zget y c = Ok i.
Proof.
  intros [Lw Rw] [Lo Go] Hw Hy Hc. destruct (Go r w y Hw Hy) as [Ly Gy].
  destruct (proj1 (proj2 (Rw r w Hw) s i) (zget_In _ _ _ Hc)) as (a & Ha & Hi).
  destruct (Gy c s i (zrange (zlen a)) Hc) with (j := 0) as (v & V1 & V2); [|lia|].
  - rewrite (zget_map_ok _ _ _ (zlen a)); [reflexivity|]. apply zget_map_ok. exact Ha.
  - replace (c * 1 + 0) with c in V1 by lia. replace (i * 1 + 0) with i in V2 by lia. rewrite zget_zrange in V2 by (eapply zget_bounds; eauto). congruence.
Qed.
Lemma serv_data_ok who (x out : list (list Z)) r w y c s i v : routes ranks who -> delivered who x out 1 ->
  zget who r = Ok w -> zget out r = Ok y -> zget w c = Ok (s, i) -> goes_to x s i v -> zget y c = Ok v.
Proof.
  intros [Lw Rw] [Lo Go] Hw Hy Hc (b & Hb & Hv). destruct (Go r w y Hw Hy) as [Ly Gy].
  destruct (Gy c s i b Hc Hb 0 ltac:(lia)) as (u & V1 & V2).
  replace (c * 1 + 0) with c in V1 by lia. replace (i * 1 + 0) with i in V2 by lia. congruence.
Qed.
Lemma iota_sizes : data_per_item ranks (map zrange (map zlen ranks)) 1.
Proof.
  split; [rewrite !zlen_map; reflexivity|]. intros s a x Ha Hx. apply zget_map_inv in Hx as (n & Hn & ->). apply zget_map_inv in Hn as (a' & Ha' & ->).
  assert (a' = a) as -> by congruence. rewrite zlen_zrange by apply zlen_nonneg. lia.
Qed.

(** values chosen at the servers reach the copies *)
Lemma choice_returns (own : list (list Z)) : data_per_root nroots own 1 ->
  exists back, exch (invert ds) own 1 = Ok back /\ per_copy ranks back /\
  forall s i r q v, goes_to ranks s i r -> goes_to idxs s i q -> goes_to own r q v -> goes_to back s i v.
Proof.
  intros D. destruct (link_returns ds cnt ranks idxs nroots made Z own 1 ltac:(lia) D) as (back & Eb & [Lb Sb] & Gb).
  exists back. split; [exact Eb|]. split; [split; [exact Lb|]; intros s a b Ha Hb; rewrite (Sb s a b Ha Hb); lia|].
  intros s i r q v H1 H2 (x & Hx & Hv). pose proof H1 as (a & Ha & Hi). destruct (zget_in_range back s) as (y & Hy); [rewrite Lb; eapply zget_bounds; eauto|].
  destruct (Gb s i r q x y H1 H2 Hx Hy 0 ltac:(lia)) as (u & V1 & V2). replace (i * 1 + 0) with i in V1 by lia. replace (q * 1 + 0) with q in V2 by lia.
  exists y. split; [exact Hy|congruence].
Qed.

Lemma update_by_size : exists oranks oidxs, update_ownership ds None = Ok (oranks, oidxs) /\ per_copy ranks oranks /\ per_copy ranks oidxs /\
  forall s i r, goes_to ranks s i r -> exists t j, same_entity ranks idxs s i t j /\
    forall s' i', same_entity ranks idxs s i s' i' -> owner_is oranks oidxs s' i' t j /\
    exists n n', holds ranks t n /\ holds ranks s' n' /\ (n < n' \/ n = n' /\ t <= s').
Proof.
  destruct (server_view _ _ _ _ _ made) as (who & Rw & Dl & Fan & L & Nc & Msg & Ag & _ & _). pose proof Had as (A1 & A2 & A3 & A4 & A5).
  unfold update_ownership. rewrite Nc. cbn [bind]. destruct (Dl _ _ 1 ltac:(lia) iota_sizes) as (si & Esi & Dsi). rewrite Esi. cbn [bind].
  destruct (Ag _ (map zlen ranks) ltac:(apply zlen_map)) as (cn & Ecn & Lcn & Gcn). rewrite Ecn. cbn [bind].
  pose (size := fun t => match zget ranks t with Ok a => zlen a | _ => 0 end).
  destruct (tabulate_rel (zlen ds) (fun r =>
      d <- zget ds r ;; idxs <- zget si r ;; ns <- zget cn r ;; clients <- items2msgs (invert1 d) ;;
      match roots2items_R d with
      | None => UB
      | Some f => tabulate (zlen f - 1) (fun o => lo <- zget f o ;; hi <- zget f (o + 1) ;;
          owner_by_size (msgs2ranks (invert1 d)) clients ns idxs (zfromto lo hi))
      end)
    (fun r y => exists k, zget nroots r = Ok k /\ zlen y = k /\ forall q t j, zget y q = Ok (t, j) ->
       (forall s i, goes_to ranks s i r -> goes_to idxs s i q ->
         (goes_to ranks t j r /\ goes_to idxs t j q) /\ (size t < size s \/ size t = size s /\ t <= s)))) as (owns & Eo & Lo & Go); [apply zlen_nonneg| |].
  { intros r Hr. destruct (zget_in_range ds r Hr) as (d & Hd). destruct (zget_in_range si r) as (ix & Hix); [rewrite (proj1 Dsi), (proj1 Rw); lia|].
    destruct (zget_in_range cn r ltac:(lia)) as (ns & Hns). destruct (zget_in_range who r) as (w & Hw); [rewrite (proj1 Rw); lia|].
    destruct (Msg r d w Hd Hw) as (m & Em & Lm & Gm). destruct (zget_in_range nroots r ltac:(lia)) as (k & Hk).
    destruct (Fan r w k Hw Hk) as (f & Ff & Lf & Ll & (d' & Hd' & Ef) & G). assert (d' = d) as -> by congruence.
    rewrite Hd, Hix, Hns. cbn [bind]. rewrite Em. cbn [bind]. rewrite Ef.
    destruct (tabulate_rel (zlen f - 1) (fun o => lo <- zget f o ;; hi <- zget f (o + 1) ;; owner_by_size (msgs2ranks (invert1 d)) m ns ix (zfromto lo hi))
      (fun q o => let '(t, j) := o in forall s i, goes_to ranks s i r -> goes_to idxs s i q ->
         (goes_to ranks t j r /\ goes_to idxs t j q) /\ (size t < size s \/ size t = size s /\ t <= s))) as (y & Ey & Ly & Gy); [pose proof (A4 r k Hk); lia| |].
    - intros q Hq. destruct (zget_in_range f q ltac:(lia)) as (lo & Hlo). destruct (zget_in_range f (q + 1) ltac:(lia)) as (hi & Hhi).
      rewrite Hlo, Hhi. cbn [bind]. destruct (server_lists who r w k q f lo hi Rw Hw Hk Ff Ll G Hlo Hhi) as [S1 S2].
      destruct (owner_by_size_spec (msgs2ranks (invert1 d)) m ix (fun c => match zget w c with Ok (s, _) => s | _ => 0 end) (fun c => match zget w c with Ok (_, i) => i | _ => 0 end)
        ns (fun c => match zget w c with Ok (s, _) => size s | _ => 0 end) (zfromto lo hi)) as (o & Eo & Ho).
      { intros c Hc. destruct (S1 c Hc) as (s & i & Hsi & H1 & H2). rewrite Hsi. pose proof H1 as (a & Ha & _). pose proof (zget_bounds _ _ _ Ha) as Bs. split; [lia|].
        destruct (Gm c s i Hsi) as (j & Hj & Hs). exists j. split; [exact Hj|]. split.
        - rewrite (Gcn r d ns j s Hd Hns Hs). unfold size. rewrite (zget_map_ok _ _ _ _ Ha), Ha. reflexivity.
        - split; [exact Hs|]. eapply serv_idxs_ok; eauto. }
      exists o. split; [exact Eo|]. destruct o as [t j]. intros s i H1 H2. destruct (S2 s i H1 H2) as (c & Ic & Hc).
      destruct Ho as [[E0 _]|(c0 & Ic0 & [= -> ->] & Hmin)]; [rewrite E0 in Ic; destruct Ic|].
      destruct (S1 c0 Ic0) as (s0 & i0 & Hc0 & G1 & G2). specialize (Hmin c Ic). rewrite Hc, Hc0 in *. auto.
    - exists y. split; [exact Ey|]. exists k. split; [exact Hk|]. split; [lia|]. intros q t j Hq. exact (Gy q (t, j) Hq). }
  rewrite Eo. cbn [bind].
  assert (forall (g : Z * Z -> Z), data_per_root nroots (map (map g) owns) 1) as Dr.
  { intros g. split; [rewrite zlen_map; lia|]. intros r k x Hk Hx. apply zget_map_inv in Hx as (y & Hy & ->). destruct (Go r y Hy) as (k' & Hk' & Ly & _). rewrite zlen_map.
    assert (k' = k) as -> by congruence. lia. }
  destruct (choice_returns _ (Dr fst)) as (oranks & E1 & P1 & G1). destruct (choice_returns _ (Dr snd)) as (oidxs & E2 & P2 & G2).
  rewrite E1. cbn [bind]. rewrite E2. cbn [bind]. exists oranks, oidxs. split; [reflexivity|]. split; [exact P1|]. split; [exact P2|].
  intros s i r Hr. destruct (idx_total s i r Hr) as (q & Hq). destruct (A5 s i r q Hr Hq) as (k & Hk & Bq).
  destruct (zget_in_range owns r) as (y & Hy); [rewrite Lo, L, <- A2; eapply zget_bounds; eauto|]. destruct (Go r y Hy) as (k' & Hk' & Ly & K). assert (k' = k) as -> by congruence.
  destruct (zget_in_range y q ltac:(lia)) as ([t j] & Htj). exists t, j. destruct (K q t j Htj s i Hr Hq) as [[T1 T2] _].
  split; [exists r, q; auto|]. intros s' i' (r' & q' & B1 & B2 & B3 & B4). pose proof (goes_to_fun _ _ _ _ _ B1 Hr) as ->. pose proof (goes_to_fun _ _ _ _ _ B2 Hq) as ->.
  destruct (K q t j Htj s' i' B3 B4) as [_ Min]. split.
  - split; [apply (G1 s' i' r q t B3 B4)|apply (G2 s' i' r q j B3 B4)]; (eexists; split; [apply zget_map_ok; exact Hy|]); rewrite (zget_map_ok _ _ _ _ Htj); reflexivity.
  - destruct T1 as (a & Ha & _). destruct B3 as (a' & Ha' & _). exists (zlen a), (zlen a'). split; [exists a; auto|]. split; [exists a'; auto|].
    unfold size in Min. rewrite Ha, Ha' in Min. exact Min.
Qed.

Lemma update_by_rank own_ranks : per_copy ranks own_ranks -> exists oidxs, update_ownership ds (Some own_ranks) = Ok (own_ranks, oidxs) /\ per_copy ranks oidxs /\
  forall s i r, goes_to ranks s i r -> exists j,
    (forall s' i', same_entity ranks idxs s i s' i' -> goes_to oidxs s' i' j) /\
    ((j = -1 /\ forall s' i', same_entity ranks idxs s i s' i' -> ~ goes_to own_ranks s' i' s') \/
     exists t, same_entity ranks idxs s i t j /\ goes_to own_ranks t j t).
Proof.
  intros [Lor Hor]. destruct (server_view _ _ _ _ _ made) as (who & Rw & Dl & Fan & L & Nc & Msg & Ag & _ & _). pose proof Had as (A1 & A2 & A3 & A4 & A5).
  unfold update_ownership. rewrite Nc. cbn [bind]. destruct (Dl _ _ 1 ltac:(lia) iota_sizes) as (si & Esi & Dsi). rewrite Esi. cbn [bind].
  assert (data_per_item ranks own_ranks 1) as Dor by (split; [exact Lor|]; intros s a x Ha Hx; rewrite (Hor s a x Ha Hx); lia).
  destruct (Dl _ _ 1 ltac:(lia) Dor) as (sr & Esr & Dsr). rewrite Esr. cbn [bind].
  assert (forall s i r, goes_to ranks s i r -> exists o, goes_to own_ranks s i o) as Ot.
  { intros s i r (a & Ha & Hi). destruct (zget_in_range own_ranks s) as (b & Hb); [rewrite Lor; eapply zget_bounds; eauto|].
    destruct (zget_in_range b i) as (q & Hq); [rewrite (Hor s a b Ha Hb); eapply zget_bounds; eauto|]. exists q, b. auto. }
  pose (own := fun p : Z * Z => match zget own_ranks (fst p) with Ok b => match zget b (snd p) with Ok o => o | _ => 0 end | _ => 0 end).
  assert (forall s i o, goes_to own_ranks s i o -> own (s, i) = o) as Own.
  { intros s i o (b & Hb & Ho). unfold own. cbn. rewrite Hb, Ho. reflexivity. }
  destruct (tabulate_rel (zlen ds) (fun r =>
      d <- zget ds r ;; idxs <- zget si r ;; rs <- zget sr r ;; clients <- items2msgs (invert1 d) ;;
      match roots2items_R d with
      | None => UB
      | Some f => tabulate (zlen f - 1) (fun o => lo <- zget f o ;; hi <- zget f (o + 1) ;;
          owner_by_rank (msgs2ranks (invert1 d)) clients rs idxs (zfromto lo hi))
      end)
    (fun r y => exists k, zget nroots r = Ok k /\ zlen y = k /\ forall q j, zget y q = Ok j ->
       (j = -1 /\ forall s i, goes_to ranks s i r -> goes_to idxs s i q -> ~ goes_to own_ranks s i s) \/
       exists t, goes_to ranks t j r /\ goes_to idxs t j q /\ goes_to own_ranks t j t)) as (owns & Eo & Lo & Go); [apply zlen_nonneg| |].
  { intros r Hr. destruct (zget_in_range ds r Hr) as (d & Hd). destruct (zget_in_range si r) as (ix & Hix); [rewrite (proj1 Dsi), (proj1 Rw); lia|].
    destruct (zget_in_range sr r) as (rs & Hrs); [rewrite (proj1 Dsr), (proj1 Rw); lia|]. destruct (zget_in_range who r) as (w & Hw); [rewrite (proj1 Rw); lia|].
    destruct (Msg r d w Hd Hw) as (m & Em & Lm & Gm). destruct (zget_in_range nroots r ltac:(lia)) as (k & Hk).
    destruct (Fan r w k Hw Hk) as (f & Ff & Lf & Ll & (d' & Hd' & Ef) & G). assert (d' = d) as -> by congruence.
    rewrite Hd, Hix, Hrs. cbn [bind]. rewrite Em. cbn [bind]. rewrite Ef.
    destruct (tabulate_rel (zlen f - 1) (fun o => lo <- zget f o ;; hi <- zget f (o + 1) ;; owner_by_rank (msgs2ranks (invert1 d)) m rs ix (zfromto lo hi))
      (fun q j => (j = -1 /\ forall s i, goes_to ranks s i r -> goes_to idxs s i q -> ~ goes_to own_ranks s i s) \/
       exists t, goes_to ranks t j r /\ goes_to idxs t j q /\ goes_to own_ranks t j t)) as (y & Ey & Ly & Gy); [pose proof (A4 r k Hk); lia| |].
    - intros q Hq. destruct (zget_in_range f q ltac:(lia)) as (lo & Hlo). destruct (zget_in_range f (q + 1) ltac:(lia)) as (hi & Hhi).
      rewrite Hlo, Hhi. cbn [bind]. destruct (server_lists who r w k q f lo hi Rw Hw Hk Ff Ll G Hlo Hhi) as [S1 S2].
      destruct (owner_by_rank_spec (msgs2ranks (invert1 d)) m ix (fun c => match zget w c with Ok (s, _) => s | _ => 0 end) (fun c => match zget w c with Ok (_, i) => i | _ => 0 end)
        rs (fun c => match zget w c with Ok p => own p | _ => 0 end) (zfromto lo hi)) as (o & Eo & Ho).
      { intros c Hc. destruct (S1 c Hc) as (s & i & Hsi & H1 & H2). rewrite Hsi.
        destruct (Gm c s i Hsi) as (j & Hj & Hs). exists j. split; [exact Hj|]. split; [exact Hs|]. destruct (Ot s i r H1) as (oo & Hoo). rewrite (Own s i oo Hoo).
        split; [eapply serv_data_ok; eauto|]. eapply serv_idxs_ok; eauto. }
      exists o. split; [exact Eo|]. destruct Ho as [[-> Hn]|(c & Ic & E & ->)].
      + left. split; [reflexivity|]. intros s i H1 H2 H3. destruct (S2 s i H1 H2) as (c & Ic & Hc). apply (Hn c Ic). rewrite Hc. apply Own, H3.
      + right. destruct (S1 c Ic) as (s & i & Hsi & H1 & H2). rewrite Hsi in *. exists s. split; [exact H1|]. split; [exact H2|].
        destruct (Ot s i r H1) as (oo & Hoo). rewrite (Own s i oo Hoo) in E. congruence.
    - exists y. split; [exact Ey|]. exists k. split; [exact Hk|]. split; [lia|]. exact Gy. }
  rewrite Eo. cbn [bind].
  assert (data_per_root nroots owns 1) as Dr.
  { split; [lia|]. intros r k x Hk Hx. destruct (Go r x Hx) as (k' & Hk' & Ly & _). assert (k' = k) as -> by congruence. lia. }
  destruct (choice_returns _ Dr) as (oidxs & E2 & P2 & G2). rewrite E2. cbn [bind]. exists oidxs. split; [reflexivity|]. split; [exact P2|].
  intros s i r Hr. destruct (idx_total s i r Hr) as (q & Hq). destruct (A5 s i r q Hr Hq) as (k & Hk & Bq).
  destruct (zget_in_range owns r) as (y & Hy); [rewrite Lo, L, <- A2; eapply zget_bounds; eauto|]. destruct (Go r y Hy) as (k' & Hk' & Ly & K). assert (k' = k) as -> by congruence.
  destruct (zget_in_range y q ltac:(lia)) as (j & Hj). exists j. split.
  - intros s' i' (r' & q' & B1 & B2 & B3 & B4). pose proof (goes_to_fun _ _ _ _ _ B1 Hr) as ->. pose proof (goes_to_fun _ _ _ _ _ B2 Hq) as ->.
    apply (G2 s' i' r q j B3 B4). exists y. auto.
  - destruct (K q j Hj) as [[-> Hn]|(t & T1 & T2 & T3)].
    + left. split; [reflexivity|]. intros s' i' (r' & q' & B1 & B2 & B3 & B4). pose proof (goes_to_fun _ _ _ _ _ B1 Hr) as ->. pose proof (goes_to_fun _ _ _ _ _ B2 Hq) as ->. auto.
    + right. exists t. split; [exists r, q; auto|exact T3].
Qed.

(** ** data of the owners *)
Lemma reduce_to_owners {A} (data : list (list A)) n : 0 < n -> data_per_item ranks data n ->
  (forall r k q, zget nroots r = Ok k -> 0 <= q < k -> exists s i, goes_to ranks s i r /\ goes_to idxs s i q) ->
  exists out, reduce_data_to_owners ds data n = Ok out /\ data_per_root nroots out n /\
  forall r k q y, zget nroots r = Ok k -> 0 <= q < k -> zget out r = Ok y ->
  exists s i x, goes_to ranks s i r /\ goes_to idxs s i q /\ zget data s = Ok x /\ same_block n y q x i.
Proof.
  intros Hn Dd Cov. destruct (server_view _ _ _ _ _ made) as (who & Rw & Dl & Fan & L & Nc & Msg & Ag & _ & _). pose proof Had as (A1 & A2 & A3 & A4 & A5).
  destruct (Dl _ data n Hn Dd) as (sd & Esd & Lsd & Gsd). unfold reduce_data_to_owners. rewrite Esd. cbn [bind].
  destruct (tabulate_rel (zlen ds) (fun r => d <- zget ds r ;; x <- zget sd r ;;
    match roots2items_R d with
    | None => UB
    | Some f => rows <- tabulate (zlen f - 1) (fun owner => b <- zget f owner ;; tabulate n (fun c => zget x (b * n + c))) ;;
      Ok (concat rows)
    end)
    (fun r y => exists k, zget nroots r = Ok k /\ zlen y = k * n /\ forall q, 0 <= q < k -> 
       exists s i x, goes_to ranks s i r /\ goes_to idxs s i q /\ zget data s = Ok x /\ same_block n y q x i)) as (out & Eo & Lo & Go); [apply zlen_nonneg| |].
  { intros r Hr. destruct (zget_in_range ds r Hr) as (d & Hd). destruct (zget_in_range sd r) as (x & Hx); [rewrite Lsd, (proj1 Rw); lia|].
    destruct (zget_in_range who r) as (w & Hw); [rewrite (proj1 Rw); lia|]. destruct (zget_in_range nroots r ltac:(lia)) as (k & Hk).
    destruct (Fan r w k Hw Hk) as (f & Ff & Lf & Ll & (d' & Hd' & Ef) & G). assert (d' = d) as -> by congruence.
    rewrite Hd, Hx. cbn [bind]. rewrite Ef. pose proof (A4 r k Hk) as Nk. destruct (Gsd r w x Hw Hx) as [Lx Gx].
    destruct (tabulate_rel (zlen f - 1) (fun owner => b <- zget f owner ;; tabulate n (fun c => zget x (b * n + c)))
      (fun q row => zlen row = n /\ exists s i xs, goes_to ranks s i r /\ goes_to idxs s i q /\ zget data s = Ok xs /\ 
         forall j, 0 <= j < n -> exists v, zget row j = Ok v /\ zget xs (i * n + j) = Ok v)) as (rows & Er & Lr & Gr); [lia| |].
    - intros q Hq. destruct (zget_in_range f q ltac:(lia)) as (lo & Hlo). destruct (zget_in_range f (q + 1) ltac:(lia)) as (hi & Hhi).
      destruct (server_lists who r w k q f lo hi Rw Hw Hk Ff Ll G Hlo Hhi) as [S1 S2]. rewrite Hlo. cbn [bind].
      destruct (Cov r k q Hk ltac:(lia)) as (s1 & i1 & C1 & C2). destruct (S2 s1 i1 C1 C2) as (c1 & Ic1 & _). apply in_zfromto in Ic1.
      destruct (S1 lo) as (s & i & Hsi & T1 & T2); [apply in_zfromto; lia|]. pose proof T1 as (a & Ha & Hi).
      destruct (zget_in_range data s) as (xs & Hxs); [rewrite (proj1 Dd); eapply zget_bounds; eauto|].
      pose proof (Gx lo s i xs Hsi Hxs) as B.
      destruct (tabulate_rel n (fun c => zget x (lo * n + c)) (fun j v => zget xs (i * n + j) = Ok v)) as (row & Erow & Lrow & Grow); [lia| |].
      + intros j Hj. destruct (B j Hj) as (v & V1 & V2). eauto.
      + exists row. split; [exact Erow|]. split; [exact Lrow|]. exists s, i, xs. split; [exact T1|]. split; [exact T2|]. split; [exact Hxs|].
        intros j Hj. destruct (zget_in_range row j ltac:(lia)) as (v & Hv). exists v. split; [exact Hv|exact (Grow j v Hv)].
    - rewrite Er. cbn [bind]. exists (concat rows). split; [reflexivity|]. exists k. split; [exact Hk|].
      assert (forall row, In row rows -> zlen row = n) as Rn by (intros row Hrow; apply In_zget in Hrow as (q & Hq); apply (Gr q row Hq)).
      assert (zlen (concat rows) = zlen rows * n) as Lc.
      { clear -Rn. induction rows as [|x l IH]; [reflexivity|]. cbn [concat]. rewrite zlen_app, zlen_cons, (Rn x (or_introl eq_refl)), IH by (intros; apply Rn; right; assumption). lia. }
      split; [rewrite Lc, Lr, Lf; f_equal; lia|].
      intros q Hq. destruct (zget_in_range rows q ltac:(lia)) as (row & Hrow). destruct (Gr q row Hrow) as (_ & s & i & xs & T1 & T2 & T3 & T4).
      exists s, i, xs. split; [exact T1|]. split; [exact T2|]. split; [exact T3|]. intros j Hj. destruct (T4 j Hj) as (v & V1 & V2). exists v. split; [|exact V2].
      rewrite <- V1. clear -Rn Hrow Hj Hn. revert q Hrow. induction rows as [|x l IH]; intros q Hq; [apply zget_bounds in Hq; cbn in Hq; lia|].
      pose proof (zget_bounds _ _ _ Hq) as Bq. cbn [concat]. change (x :: l) with ([x] ++ l) in Hq. destruct (Z.eq_dec q 0) as [->|Nq].
      + cbn in Hq. injection Hq as ->. rewrite zget_app_l; [reflexivity|]. rewrite (Rn row (or_introl eq_refl)). lia.
      + rewrite zget_app_r in Hq by (cbn; lia). change (zlen [x]) with 1 in Hq. rewrite zget_app_r by (rewrite (Rn x (or_introl eq_refl)); nia).
        rewrite (Rn x (or_introl eq_refl)). rewrite <- (IH ltac:(intros; apply Rn; right; assumption) (q - 1) Hq). f_equal. lia. }
  exists out. split; [exact Eo|]. split.
  - split; [lia|]. intros r k x Hk Hx. destruct (Go r x Hx) as (k' & Hk' & Ly & _). assert (k' = k) as -> by congruence. exact Ly.
  - intros r k q y Hk Hq Hy. destruct (Go r y Hy) as (k' & Hk' & Ly & K). assert (k' = k) as -> by congruence. auto.
Qed.
End server.
