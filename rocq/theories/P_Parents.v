From Verif Require Import Prelude M_Array M_Par M_Scan P_Scan M_Sort M_Map S_Map P_Map P_Map2 P_Fan P_Invert M_Adj S_Adj P_Adj M_Graph S_Graph P_Graph M_Parents S_Parents.
From Coq Require Import Sorting.Sorted.
Local Open Scope Z_scope.

Lemma filter_parents_spec c2p pd : zlen (snd c2p) = zlen (fst c2p) ->
  exists m, filter_parents c2p pd = Ok m /\ zlen m = zlen (fst c2p) /\ (forall x, In x m -> x = 0 \/ x = 1) /\ forall c, zget m c = Ok 1 <-> exists code, zget (snd c2p) c = Ok code /\ code_parent_dim code = pd.
Proof.
  intros HL. unfold filter_parents. pose proof (zlen_nonneg (fst c2p)) as Hn.
  set (g := fun c => match zget (snd c2p) c with Ok code => if code_parent_dim code =? pd then 1 else 0 | _ => 0 end).
  unfold tabulate. rewrite (mapM_map_ok _ g).
  2: { intros c Hc. apply in_zrange in Hc. unfold g. destruct (zget_in_range (snd c2p) c ltac:(lia)) as (x & ->). reflexivity. }
  eexists. split; [reflexivity|]. split; [rewrite zlen_map, zlen_zrange; lia|]. split.
  - intros x Hx. apply in_map_iff in Hx as (c & <- & _). unfold g. destruct (zget (snd c2p) c); auto. destruct (_ =? _); auto.
  - intros c. split.
    + intros E. pose proof (zget_bounds _ _ _ E) as B. rewrite zlen_map, zlen_zrange in B by lia. rewrite zget_map, zget_zrange in E by lia. cbn [bind] in E. unfold g in E. destruct (zget (snd c2p) c) as [code| |]; try discriminate. destruct (Z.eqb_spec (code_parent_dim code) pd); [eauto|discriminate].
    + intros (code & E & Hc). pose proof (zget_bounds _ _ _ E) as B. rewrite zget_map, zget_zrange by lia. cbn [bind]. unfold g. rewrite E, Hc, Z.eqb_refl. reflexivity.
Qed.

Lemma unmap1 a2b (b : list Z) : (forall x, In x a2b -> 0 <= x < zlen b) -> exists r, unmap a2b b 1 = Ok r /\ zlen r = zlen a2b /\ forall a x, zget a2b a = Ok x -> zget r a = zget b x.
Proof.
  intros H. destruct (unmap_spec a2b b 1 ltac:(lia)) as (r & E & L & G).
  - intros x Hx. specialize (H x Hx). lia.
  - exists r. split; [exact E|]. split; [lia|]. intros a x Hx. specialize (G a x 0 Hx ltac:(lia)). rewrite !Z.mul_1_r, !Z.add_0_r in G. exact G.
Qed.

Lemma children_of_in c2p pd p c : zlen (snd c2p) = zlen (fst c2p) -> (In c (children_of c2p pd p) <-> zget (fst c2p) c = Ok p /\ exists code, zget (snd c2p) c = Ok code /\ code_parent_dim code = pd).
Proof.
  intros HL. unfold children_of. rewrite filter_In, in_zrange. split.
  - intros [_ H]. destruct (zget (fst c2p) c) as [q| |]; try discriminate. destruct (zget (snd c2p) c) as [code| |]; try discriminate. apply andb_prop in H as [H1 H2]. apply Z.eqb_eq in H1, H2. subst. eauto.
  - intros [H (code & H1 & H2)]. split; [eapply zget_bounds; exact H|]. rewrite H, H1, H2, !Z.eqb_refl. reflexivity.
Qed.
Lemma children_sorted c2p pd p : StronglySorted Z.lt (children_of c2p pd p).
Proof. apply filter_sorted, zrange_sorted. Qed.

Lemma invert_parents_spec c2p pd n m0 s1 s2 : 0 <= n -> proper_parents c2p pd n ->
  exists o, invert_parents c2p pd n m0 s1 s2 = Ok o /\ forall ch, o = Some ch -> lists_children c2p pd n ch.
Proof.
  intros Hn [HL HP]. unfold invert_parents. destruct (filter_parents_spec c2p pd HL) as (mk & Em & Lm & Bm & Gm). rewrite Em. cbn [bind].
  destruct (collect_marked_full mk Bm) as (rc2c & Ec & Sc & Gc). rewrite Ec. cbn [bind].
  assert (forall c, In c rc2c <-> exists code, zget (snd c2p) c = Ok code /\ code_parent_dim code = pd) as Hrc by (intros c; rewrite Gc; apply Gm).
  assert (forall c, In c rc2c -> 0 <= c < zlen (fst c2p)) as Rrc. { intros c Hc. apply Hrc in Hc as (code & E & _). rewrite <- HL. eapply zget_bounds; exact E. }
  destruct (unmap1 rc2c (fst c2p) Rrc) as (rc2p & Er & Lr & Gr). rewrite Er. cbn [bind].
  destruct (invert_map_by_atomics_spec rc2p n m0 s1 s2 Hn) as (o & Eo & Ho).
  { intros p Hp. apply In_zget in Hp as (i & Ei). pose proof (zget_bounds _ _ _ Ei) as B. destruct (zget_in_range rc2c i ltac:(lia)) as (c & Eci). rewrite (Gr i c Eci) in Ei. destruct (proj1 (Hrc c) (zget_In _ _ _ Eci)) as (code & E1 & E2). eapply HP; eassumption. }
  rewrite Eo. cbn [bind]. destruct o as [[[f pc2rc] m]|]; [|exists None; split; [reflexivity|discriminate]].
  destruct (Ho f pc2rc m eq_refl) as [(If & Lf & Lastf & Lb & Pb & Gb) _].
  assert (forall i, In i pc2rc <-> 0 <= i < zlen rc2c) as Hin by (intros i; rewrite (is_perm_in pc2rc i Pb); lia).
  destruct (unmap1 pc2rc rc2c) as (H & EH & LH & GH). { intros i Hi. apply Hin, Hi. } rewrite EH. cbn [bind].
  assert (forall c, In c H -> In c rc2c) as HHr. { intros c Hc. apply In_zget in Hc as (i & Ei). pose proof (zget_bounds _ _ _ Ei) as B. destruct (zget_in_range pc2rc i ltac:(lia)) as (k & Ek). rewrite (GH i k Ek) in Ei. eapply zget_In; exact Ei. }
  destruct (unmap1 H (snd c2p)) as (C & EC & LC & GC). { intros c Hc. rewrite HL. apply Rrc, HHr, Hc. } rewrite EC. cbn [bind].
  assert (last_of f = Ok (zlen H)) as HlH. { unfold last_of. rewrite LH, Lb, Lf. replace (n + 1 - 1) with n by lia. exact Lastf. }
  destruct (sort_by_high_spec f H C If HlH LC) as (H' & C' & Es & (s & t & A1 & A2 & A3 & A4 & A5 & A6) & HS).
  rewrite Es. cbn [bind fst snd]. eexists. split; [reflexivity|]. intros ch Hch. assert (ch = mk_adj f H' (Some C')) as -> by congruence. clear Hch.
  split; [|split; [exact Lf|]].
  { split; [exact If|]. cbn [adj_a2ab adj_ab2b adj_codes]. split; [unfold last_of in HlH; rewrite A4; exact HlH|]. intros c Ecc. injection Ecc as <-. congruence. }
  intros p Hp. unfold adj_targets, adj_target_codes, targets. cbn [adj_a2ab adj_ab2b adj_codes a2ab ab2b].
  destruct (zget_in_range f p ltac:(lia)) as (lo & Hlo). destruct (zget_in_range f (p + 1) ltac:(lia)) as (hi & Hhi). rewrite Hlo, Hhi. cbn [bind].
  pose proof (fan_nonneg f p lo If Hlo) as Hlo0. pose proof (fan_mono f p (p + 1) lo hi If Hlo Hhi ltac:(lia)) as Hlohi.
  pose proof (fan_mono f (p + 1) (zlen f - 1) hi (zlen H) If Hhi HlH ltac:(lia)) as HhiH.
  destruct (mapM_total (zget H') (zfromto lo hi)) as (xs & Exs). { intros i Hi. apply in_zfromto in Hi. apply zget_in_range. lia. }
  destruct (mapM_total (zget C') (zfromto lo hi)) as (cs & Ecs). { intros i Hi. apply in_zfromto in Hi. apply zget_in_range. lia. }
  assert (length xs = length cs) as Lxc by (rewrite (mapM_length _ _ _ Exs), (mapM_length _ _ _ Ecs); reflexivity).
  assert (forall i, lo <= i < hi -> in_group f p i) as Hgr by (intros i Hi; exists lo, hi; auto).
  assert (forall i, in_group f p i -> lo <= i < hi) as Hgr'. { intros i (lo' & hi' & B1 & B2 & B3). assert (lo' = lo) by congruence. assert (hi' = hi) by congruence. subst. exact B3. }
  assert (forall i, in_group f p i -> in_group f p (s i)) as Hs. { intros i Hi. destruct (A3 i) as [<-|(a & B1 & B2)]; [exact Hi|]. rewrite (in_group_unique f p a i If Hi B1). exact B2. }
  assert (forall i, in_group f p i -> in_group f p (t i)) as Ht. { intros i Hi. destruct (A3 (t i)) as [e|(a & B1 & B2)]; [rewrite A1 in e; rewrite e; exact Hi|]. rewrite A1 in B2. rewrite (in_group_unique f p a i If Hi B2). exact B1. }
  assert (forall i x, in_group f p i -> zget H' i = Ok x -> exists k, zget pc2rc (s i) = Ok k /\ zget rc2c k = Ok x /\ zget (fst c2p) x = Ok p /\ zget C' i = zget (snd c2p) x) as Hent.
  { intros i x Hi Hx. destruct (A6 i) as [B1 B2]. rewrite B1 in Hx. destruct (proj1 (Gb p (s i)) (Hs i Hi)) as (k & D1 & D2). exists k. split; [exact D1|]. rewrite (GH (s i) k D1) in Hx. split; [exact Hx|].
    split; [rewrite <- (Gr k x Hx); exact D2|]. rewrite B2. apply GC. rewrite (GH (s i) k D1). exact Hx. }
  set (code_at := fun c => match zget (snd c2p) c with Ok x => x | _ => 0 end). set (U := children_of c2p pd p).
  assert (forall c, In c U -> zget (snd c2p) c = Ok (code_at c)) as HUc. { intros c Hc. apply children_of_in in Hc as (_ & code & E & _); [|exact HL]. unfold code_at. rewrite E. reflexivity. }
  assert (forall i x, in_group f p i -> zget H' i = Ok x -> In x U /\ zget C' i = Ok (code_at x)) as Hent2.
  { intros i x Hi Hx. destruct (Hent i x Hi Hx) as (k & B1 & B2 & B3 & B4). assert (In x U) as HxU by (apply children_of_in; [exact HL|]; split; [exact B3|]; apply Hrc; eapply zget_In; exact B2). split; [exact HxU|]. rewrite B4. apply HUc, HxU. }
  assert (combine xs cs = map (fun c => (c, code_at c)) U) as Eq.
  { apply sorted_set_unique.
    - intros q. rewrite (mapM_pairs H' C' _ _ _ Exs Ecs q). rewrite in_map_iff. split.
      + intros (i & Hi & Hp1 & Hp2). apply in_zfromto in Hi. destruct (Hent2 i _ (Hgr i Hi) Hp1) as [B1 B2]. exists (fst q). split; [destruct q as [q1 q2]; cbn [fst snd] in *; congruence|exact B1].
      + intros (c & <- & Hc). cbn [fst snd]. pose proof Hc as Hc'. apply children_of_in in Hc' as [E1 E2]; [|exact HL]. apply Hrc in E2. apply In_zget in E2 as (k & Ek). pose proof (zget_bounds _ _ _ Ek) as Bk.
        assert (In k pc2rc) as Hk by (apply Hin; lia). apply In_zget in Hk as (i & Ei). assert (in_group f p i) as Hig. { apply Gb. exists k. split; [exact Ei|]. rewrite (Gr k c Ek). exact E1. }
        exists (t i). split; [apply in_zfromto, Hgr', Ht, Hig|]. destruct (A6 (t i)) as [B1 B2]. rewrite A1 in B1, B2. assert (zget H i = Ok c) as EHi by (rewrite (GH i k Ei); exact Ek). rewrite B1, B2, EHi. split; [reflexivity|]. rewrite (GC i c EHi). apply HUc, Hc.
    - eapply mapM_pairs_sorted; [|  |exact Exs|exact Ecs].
      + unfold zfromto. generalize (zrange_sorted (hi - lo)). generalize (zrange (hi - lo)). intros l0. induction 1 as [|x l0 HS0 IH F]; cbn; constructor; [exact IH|].
        apply Forall_forall. intros y Hy. apply in_map_iff in Hy as (z & <- & Hz). rewrite Forall_forall in F. specialize (F z Hz). lia.
      + intros i j x y Hi Hj Hij Hx Hy. apply in_zfromto in Hi, Hj. pose proof (HS p i j x y (Hgr i Hi) (Hgr j Hj) Hij Hx Hy) as Hle.
        destruct (Hent i x (Hgr i Hi) Hx) as (k & B1 & B2 & _). destruct (Hent j y (Hgr j Hj) Hy) as (k' & D1 & D2 & _).
        destruct (Z.eq_dec x y) as [<-|]; [|lia]. exfalso. assert (NoDup rc2c) as NDc.
        { clear - Sc. induction Sc as [|a l Sl IHl F]; constructor; [|exact IHl]. intros Ha. rewrite Forall_forall in F. specialize (F a Ha). lia. }
        pose proof (NoDup_zget rc2c k k' x NDc B2 D2) as <-.
        pose proof (NoDup_zget pc2rc (s i) (s j) k (is_perm_NoDup _ Pb) B1 D1) as Hsij. assert (t (s i) = t (s j)) as Ht' by congruence. rewrite !A2 in Ht'. lia.
    - assert (forall V, StronglySorted Z.lt V -> StronglySorted (fun p q : Z * Z => fst p < fst q) (map (fun c => (c, code_at c)) V)) as HV.
      { intros V SV. induction SV as [|x V SV IH F]; cbn [map]; constructor; [exact IH|]. apply Forall_forall. intros q Hq. apply in_map_iff in Hq as (y & <- & Hy). cbn [fst]. rewrite Forall_forall in F. apply F, Hy. }
      apply HV, children_sorted. }
  assert (map fst (combine xs cs) = xs /\ map snd (combine xs cs) = cs) as [M1 M2].
  { clear - Lxc. revert cs Lxc. induction xs as [|x xs IH]; intros [|c cs] L; try discriminate; [split; reflexivity|]. cbn in *. destruct (IH cs ltac:(lia)) as [-> ->]. split; reflexivity. }
  rewrite Eq, map_map in M1, M2. cbn [fst snd] in M1, M2. rewrite map_id in M1. rewrite Exs, Ecs. split; [f_equal; symmetry; exact M1|].
  rewrite (mapM_map_ok _ code_at); [f_equal; symmetry; exact M2|]. exact HUc.
Qed.
