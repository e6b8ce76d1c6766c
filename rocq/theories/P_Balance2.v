(** Proofs about Mesh::balance. *)
From Verif Require Import Prelude M_Array M_Par M_Scan M_Sort M_Map M_Tags M_Template M_Linpart M_Bipart M_Dist M_Owners S_Sort S_Map S_Dist S_Owners M_Migrate S_Migrate M_Ghost S_Ghost M_Parting S_Parting M_Balance S_Balance.
From Verif Require Import P_Sort P_Map P_Fan P_Dist P_Dist2 P_Dist3 P_Dist5 P_Dist6 P_Owners P_Link P_Migrate2 P_Migrate4 P_Migrate5 P_Migrate6 P_Ghost4 P_Ghost5 P_Parting P_Parting2 P_Parting3 P_Balance.
Local Open Scope Z_scope.

(** ** items in another order *)
Definition with_order (d : dist) (p : list Z) : dist :=
  Dist (roots2items_F d) (Some p) (msgs2content_F d) (comm_F d) (roots2items_R d) (items2content_R d) (msgs2content_R d) (comm_R d).
Section relink.
Context (ds ds2 : list dist) (cnt : Z -> Z -> Z).
Hypothesis L2 : zlen ds2 = zlen ds.
Hypothesis G2 : forall s d e, zget ds s = Ok d -> zget ds2 s = Ok e -> exists p, e = with_order d p /\ is_perm p /\ zlen p = sent (map comm_F ds) cnt s.

Lemma relink_kept {B} (f : dist -> B) : (forall d p, f (with_order d p) = f d) -> map f ds2 = map f ds.
Proof using L2 G2.
  intros Hf. apply list_eq_zget; [rewrite !zlen_map; exact L2|]. intros s Hs. rewrite zlen_map in Hs. destruct (zget_in_range ds2 s ltac:(lia)) as (e & He). destruct (zget_in_range ds s ltac:(lia)) as (d & Hd). destruct (G2 s d e Hd He) as (p & -> & _). rewrite (zget_map_ok _ _ _ _ He), (zget_map_ok _ _ _ _ Hd), Hf. reflexivity.
Qed.
Lemma relink_old s e : zget ds2 s = Ok e -> exists d p, zget ds s = Ok d /\ e = with_order d p /\ is_perm p /\ zlen p = sent (map comm_F ds) cnt s.
Proof using L2 G2.
  intros He. destruct (zget_in_range ds s) as (d & Hd); [rewrite <- L2; eapply zget_bounds; eauto|]. destruct (G2 s d e Hd He) as (p & H). exists d, p. auto.
Qed.
Context (src : list (list (Z * Z))) (nroots : list Z).
Hypothesis K : link ds cnt (map (map fst) src) (map (map snd) src) nroots.
Lemma relinked : exists src2, link ds2 cnt (map (map fst) src2) (map (map snd) src2) nroots /\ zlen src2 = zlen src /\
  forall s l l2, zget src s = Ok l -> zget src2 s = Ok l2 -> (forall x, In x l2 <-> In x l) /\ (NoDup l -> NoDup l2).
Proof using K L2 G2.
  destruct K as [W L Sn NR Dst Gf Pm Re (A1 & A2 & A3 & A4 & A5)]. rewrite zlen_map in L, A2. pose proof (relink_kept comm_F (fun _ _ => eq_refl)) as Ec.
  assert (forall s l, zget src s = Ok l -> sent (map comm_F ds) cnt s = zlen l) as Sl by (intros s l Hl; rewrite (Sn s (map fst l) (zget_map_ok _ _ _ _ Hl)), zlen_map; reflexivity).
  destruct (rank_choice (zlen src) (fun s l2 => forall l d e, zget src s = Ok l -> zget ds s = Ok d -> zget ds2 s = Ok e -> zlen l2 = zlen l /\
    (forall i x, zget l2 i = Ok x -> exists i0 c, content_of (items2content_F d) i0 c /\ content_of (items2content_F e) i c /\ zget l i0 = Ok x))) as (src2 & Lw & Gw); [apply zlen_nonneg| |].
  { intros s Bs. destruct (zget_in_range src s Bs) as (l & Hl). destruct (zget_in_range ds s ltac:(lia)) as (d & Hd). destruct (zget_in_range ds2 s ltac:(lia)) as (e & He). destruct (G2 s d e Hd He) as (p & -> & Pp & Lp). pose proof (wf_pF _ _ W s d Hd) as Po. rewrite (Sl s l Hl) in Lp, Po.
    destruct (rank_choice (zlen l) (fun i x => exists i0 c, content_of (items2content_F d) i0 c /\ zget p i = Ok c /\ zget l i0 = Ok x)) as (l2 & Ll2 & Gl2); [apply zlen_nonneg| |].
    - intros i Bi. destruct (zget_in_range p i ltac:(lia)) as (c & Hc). assert (0 <= c < zlen l) as Bc by (rewrite <- Lp; apply (is_perm_in _ _ Pp); eapply zget_In; eauto). destruct (perm_ok_onto _ _ c Po Bc) as (i0 & C0 & B0). destruct (zget_in_range l i0 B0) as (x & Hx). exists x, i0, c. auto.
    - exists l2. intros l' d' e' Hl' Hd' He'. assert (l' = l) as -> by congruence. assert (d' = d) as -> by congruence. assert (e' = with_order d p) as -> by congruence. split; [exact Ll2|]. intros i x Hx. destruct (Gl2 i x Hx) as (i0 & c & H1 & H2 & H3). exists i0, c. auto. }
  assert (forall s i r i', item_link ds2 cnt s i r i' -> exists i0 l l2 x, item_link ds cnt s i0 r i' /\ zget src s = Ok l /\ zget src2 s = Ok l2 /\ zget l i0 = Ok x /\ zget l2 i = Ok x) as Il.
  { intros s i r i' (e & e' & c & c' & He & He' & C1 & Lk & C2). destruct (relink_old _ _ He) as (d & p & Hd & -> & Pp & Lp). destruct (relink_old _ _ He') as (d' & p' & Hd' & -> & _). rewrite Ec in Lk. pose proof (zget_bounds _ _ _ Hd) as Bs. destruct (zget_in_range src s ltac:(lia)) as (l & Hl). destruct (zget_in_range src2 s ltac:(lia)) as (l2 & Hl2). destruct (Gw s l2 Hl2 l d _ Hl Hd He) as [Ll2 Gi].
    cbn [with_order items2content_F items2content_R content_of] in *. rewrite (Sl s l Hl) in Lp. destruct (zget_in_range l2 i) as (x & Hx); [rewrite Ll2, <- Lp; eapply zget_bounds; eauto|]. destruct (Gi i x Hx) as (i0 & c0 & C0 & C3 & Hx0). cbn in C3. assert (c0 = c) as -> by congruence. exists i0, l, l2, x. split; [|auto]. exists d, d', c, c'. auto. }
  assert (forall s l l2, zget src s = Ok l -> zget src2 s = Ok l2 -> (forall x, In x l2 <-> In x l) /\ (NoDup l -> NoDup l2)) as Same.
  { intros s l l2 Hl Hl2. pose proof (zget_bounds _ _ _ Hl) as Bs. destruct (zget_in_range ds s ltac:(lia)) as (d & Hd). destruct (zget_in_range ds2 s ltac:(lia)) as (e & He). destruct (Gw s l2 Hl2 l d e Hl Hd He) as [Ll2 Gi]. destruct (G2 s d e Hd He) as (p & -> & Pp & Lp). pose proof (wf_pF _ _ W s d Hd) as Po. rewrite (Sl s l Hl) in Lp, Po. cbn in Gi.
    assert (forall i0 c c', content_of (items2content_F d) i0 c -> content_of (items2content_F d) i0 c' -> c = c') as Cf by (intros i0 c c'; unfold content_of; destruct (items2content_F d); congruence).
    assert (forall i0 i1 c, content_of (items2content_F d) i0 c -> content_of (items2content_F d) i1 c -> i0 = i1) as Ci. { intros i0 i1 c. unfold content_of. unfold perm_ok in Po. destruct (items2content_F d) as [q|]; [|congruence]. intros H1 H2. exact (NoDup_zget _ _ _ _ (is_perm_NoDup _ (proj1 Po)) H1 H2). }
    split.
    - intros x. split; intros I; apply In_zget in I as (i & Hi).
      + destruct (Gi i x Hi) as (i0 & c & _ & _ & H). eapply zget_In; eauto.
      + destruct (perm_ok_total _ _ i Po (zget_bounds _ _ _ Hi)) as (c & C0 & Bc). assert (exists j, zget p j = Ok c) as (j & Hj) by (apply In_zget, (is_perm_in _ _ Pp); lia). destruct (zget_in_range l2 j) as (x' & Hx'); [rewrite Ll2, <- Lp; eapply zget_bounds; eauto|]. destruct (Gi j x' Hx') as (i0 & c0 & H1 & H2 & H3). assert (c0 = c) as -> by congruence. rewrite (Ci _ _ _ H1 C0) in H3. assert (x' = x) as -> by congruence. eapply zget_In; eauto.
    - intros N. apply NoDup_zget_inv. intros i j x Hi Hj. destruct (Gi i x Hi) as (i0 & c0 & H1 & H2 & H3). destruct (Gi j x Hj) as (j0 & c1 & H4 & H5 & H6). pose proof (NoDup_zget _ _ _ _ N H3 H6) as ->. pose proof (Cf _ _ _ H1 H4) as ->. exact (NoDup_zget _ _ _ _ (is_perm_NoDup _ Pp) H2 H5). }
  assert (forall s i r q, copy_of src2 s i r q -> exists i0, copy_of src s i0 r q) as Back.
  { intros s i r q (l2 & Hl2 & Hi). destruct (zget_in_range src s) as (l & Hl); [rewrite <- Lw; eapply zget_bounds; eauto|]. apply zget_In in Hi. apply (proj1 (Same s l l2 Hl Hl2)) in Hi. destruct (In_zget _ _ Hi) as (i0 & Hi0). exists i0, l. auto. }
  assert (forall s i r, goes_to (map (map fst) src2) s i r -> exists q, copy_of src2 s i r q) as Fst. { intros s i r (a & Ha & Hi). apply zget_map_inv in Ha as (l2 & Hl2 & ->). apply zget_map_inv in Hi as ([r' q] & Hi & ->). exists q, l2. auto. }
  exists src2. split; [|split; [exact Lw|exact Same]]. constructor.
  - constructor; rewrite ?Ec.
    + rewrite (relink_kept msgs2content_F (fun _ _ => eq_refl)), (relink_kept msgs2content_R (fun _ _ => eq_refl)). apply (wf_wired _ _ W).
    + intros r e He. destruct (relink_old _ _ He) as (d & p & Hd & -> & _). exact (wf_inv _ _ W r d Hd).
    + intros r e He. destruct (relink_old _ _ He) as (d & p & Hd & -> & Pp & Lp). cbn. auto.
    + intros r e He. destruct (relink_old _ _ He) as (d & p & Hd & -> & _). exact (wf_pR _ _ W r d Hd).
    + intros r e He. destruct (relink_old _ _ He) as (d & p & Hd & -> & _). exact (wf_fF _ _ W r d Hd).
    + intros r e He. destruct (relink_old _ _ He) as (d & p & Hd & -> & _). exact (wf_fR _ _ W r d Hd).
  - rewrite zlen_map. lia.
  - intros s a Ha. apply zget_map_inv in Ha as (l2 & Hl2 & ->). rewrite Ec, zlen_map. pose proof (zget_bounds _ _ _ Hl2) as Bs. destruct (zget_in_range src s ltac:(lia)) as (l & Hl). destruct (zget_in_range ds s ltac:(lia)) as (d & Hd). destruct (zget_in_range ds2 s ltac:(lia)) as (e & He). rewrite (Sl s l Hl). symmetry. apply (Gw s l2 Hl2 l d e Hl Hd He).
  - intros s e He. destruct (relink_old _ _ He) as (d & p & Hd & -> & _). exact (NR s d Hd).
  - intros s i r i' Lk. destruct (Il _ _ _ _ Lk) as (i0 & l & l2 & x & Lk0 & Hl & Hl2 & Hx & Hx2). destruct (Dst _ _ _ _ Lk0) as (a & Ha & Hi). rewrite (zget_map_ok _ _ _ _ Hl) in Ha. injection Ha as <-. rewrite (zget_map_ok _ _ _ _ Hx) in Hi. exists (map fst l2). split; [apply zget_map_ok, Hl2|]. rewrite (zget_map_ok _ _ _ _ Hx2). exact Hi.
  - intros r e k He Hk. destruct (relink_old _ _ He) as (d & p & Hd & -> & _). destruct (Gf r d k Hd Hk) as (f & Ef & Lf & Ff & Ll & G). exists f. split; [exact Ef|]. split; [exact Lf|]. split; [exact Ff|]. rewrite Ec. split; [exact Ll|].
    intros s i i' q Lk. destruct (Il _ _ _ _ Lk) as (i0 & l & l2 & x & Lk0 & Hl & Hl2 & Hx & Hx2). rewrite <- (G s i0 i' q Lk0). unfold goes_to. split; intros (a & Ha & Hi).
    + rewrite (zget_map_ok _ _ _ _ Hl2) in Ha. injection Ha as <-. rewrite (zget_map_ok _ _ _ _ Hx2) in Hi. exists (map snd l). split; [apply zget_map_ok, Hl|]. rewrite (zget_map_ok _ _ _ _ Hx). exact Hi.
    + rewrite (zget_map_ok _ _ _ _ Hl) in Ha. injection Ha as <-. rewrite (zget_map_ok _ _ _ _ Hx) in Hi. exists (map snd l2). split; [apply zget_map_ok, Hl2|]. rewrite (zget_map_ok _ _ _ _ Hx2). exact Hi.
  - intros r e He. destruct (relink_old _ _ He) as (d & p & Hd & -> & _). exact (Pm r d Hd).
  - intros s i r H. apply Fst in H as (q & C). apply Back in C as (i0 & C). apply copy_ranks in C as [C _]. rewrite zlen_map, Lw. apply Re in C. rewrite zlen_map in C. exact C.
  - split; [rewrite !zlen_map; reflexivity|]. split; [rewrite zlen_map; lia|]. split; [|split].
    + intros s a b Ha Hb. apply zget_map_inv in Ha as (l2 & Hl2 & ->). rewrite (zget_map_ok _ _ _ _ Hl2) in Hb. injection Hb as <-. rewrite !zlen_map. reflexivity.
    + exact A4.
    + intros s i r q H1 H2. assert (copy_of src2 s i r q) as C by (apply copy_ranks; split; assumption). apply Back in C as (i0 & C). apply copy_ranks in C as [C1 C2]. eauto.
Qed.
End relink.

Lemma globals_set ds cnt src nroots g : link ds cnt (map (map fst) src) (map (map snd) src) nroots -> data_per_root nroots g 1 ->
  exists o2n src2, set_dest_globals (invert ds) g = Ok o2n /\ link (invert o2n) cnt (map (map fst) src2) (map (map snd) src2) nroots /\ zlen src2 = zlen src /\
  forall s l l2, zget src s = Ok l -> zget src2 s = Ok l2 -> (forall x, In x l2 <-> In x l) /\ (NoDup l -> NoDup l2).
Proof.
  intros K Dg. destruct (link_returns ds cnt _ _ _ K _ g 1 ltac:(lia) Dg) as (c & Ec & [Lc Gc] & _). unfold set_dest_globals. rewrite Ec. cbn [bind]. pose proof (k_len _ _ _ _ _ K) as Ld. assert (zlen (invert ds) = zlen ds) as Li by apply zlen_map.
  destruct (tabulate_rel (zlen (invert ds)) (fun r => d <- zget (invert ds) r ;; c0 <- zget c r ;; p <- sort_by_keys c0 1 ;; Ok (Dist (roots2items_F d) (items2content_F d) (msgs2content_F d) (comm_F d) None (Some p) (msgs2content_R d) (comm_R d)))
    (fun r e => forall d, zget ds r = Ok d -> exists p, invert1 e = with_order d p /\ is_perm p /\ zlen p = sent (map comm_F ds) cnt r)) as (o2n & Eo & Lo & Go); [apply zlen_nonneg| |].
  - intros r Br. destruct (zget_in_range ds r ltac:(lia)) as (d & Hd). destruct (zget_in_range c r ltac:(lia)) as (c0 & Hc0). destruct (zget_in_range (map (map fst) src) r ltac:(lia)) as (a & Ha). unfold invert at 1. rewrite (zget_map_ok _ _ _ _ Hd), Hc0. cbn [bind].
    destruct (sort_by_keys_spec c0 1 (zlen a)) as (p & Ep & Lp & Pp & _); [lia|eapply Gc; eauto|]. rewrite Ep. cbn [bind]. eexists. split; [reflexivity|]. intros d' Hd'. assert (d' = d) as -> by congruence. exists p. split; [|split; [exact Pp|rewrite (k_sent _ _ _ _ _ K r a Ha); exact Lp]].
    unfold with_order, invert1. cbn. rewrite (k_noroot _ _ _ _ _ K r d Hd). reflexivity.
  - rewrite Eo. exists o2n. assert (zlen (invert o2n) = zlen ds) as H1 by (unfold invert in *; rewrite zlen_map; lia).
    assert (forall s d e, zget ds s = Ok d -> zget (invert o2n) s = Ok e -> exists p, e = with_order d p /\ is_perm p /\ zlen p = sent (map comm_F ds) cnt s) as H2. { intros s d e Hd He. unfold invert in He. apply zget_map_inv in He as (e0 & He0 & ->). exact (Go s e0 He0 d Hd). }
    destruct (relinked ds (invert o2n) cnt H1 H2 src nroots K) as (src2 & K2 & L2 & S2). exists src2. auto.
Qed.

Lemma globals_ok nranks elems : sound_level nranks elems -> exists g, globals elems = Ok g /\ data_per_root (de_nents elems) g 1.
Proof.
  intros Se. destruct (l_global _ _ Se) as (g & Ig & Ng & Tg & Cg). exists (dt_data g). split.
  - unfold globals. rewrite <- Ng, (find_dtag_in _ g (l_names _ _ Se) Ig), Tg. reflexivity.
  - pose proof (l_tags _ _ Se) as F. rewrite Forall_forall in F. destruct (F g Ig) as (_ & _ & D). rewrite Cg in D. exact D.
Qed.

(** ** the migration *)
Lemma migrate_to_ok inv nranks m elems who : inverter inv -> sound nranks m -> elems_of m = Ok elems -> dealt (de_nents elems) who ->
  exists m' srcs src, migrate_to inv m elems (map (map fst) who) (map (map snd) who) = Ok m' /\ migrated OMEGA_H_ELEM_BASED m m' srcs /\ zget srcs (dm_dim m) = Ok src /\ zlen src = nranks /\
  (forall s l l', zget who s = Ok l -> zget src s = Ok l' -> NoDup l' /\ forall x, In x l' <-> In x l) /\ sound nranks m' /\ agrees m' /\ covered m'.
Proof.
  intros Hinv Sm He (Lw & Rw & Ew & Uw). pose proof (s_level _ _ Sm _ _ He) as Se. pose proof (l_nranks _ _ Se) as Ne. pose proof (s_ranks _ _ Sm) as Br. set (ranks := map (map fst) who). set (idxs := map (map snd) who).
  assert (zlen ranks = nranks) as Lr by (unfold ranks; rewrite zlen_map; lia).
  assert (forall s i r, goes_to ranks s i r -> exists q, copy_of who s i r q) as Fst. { intros s i r (a & Ha & Hi). unfold ranks in Ha. apply zget_map_inv in Ha as (l2 & Hl2 & ->). apply zget_map_inv in Hi as ([r' q] & Hi & ->). exists q, l2. auto. }
  assert (ranks_exist ranks) as Re. { intros s i r H. apply Fst in H as (q & C). destruct (Rw _ _ _ _ C) as (n & Hn & _). apply zget_bounds in Hn. lia. }
  assert (addressed ranks idxs (de_nents elems)) as Ad.
  { split; [unfold idxs, ranks; rewrite !zlen_map; reflexivity|]. split; [lia|]. split; [|split].
    - intros s a b Ha Hb. unfold ranks in Ha. unfold idxs in Hb. apply zget_map_inv in Ha as (l2 & Hl2 & ->). rewrite (zget_map_ok _ _ _ _ Hl2) in Hb. injection Hb as <-. rewrite !zlen_map. reflexivity.
    - apply (l_owners _ _ Se).
    - intros s i r q H1 H2. apply (Rw s i). apply copy_ranks. split; assumption. }
  destruct (make_dist_total inv ranks idxs (de_nents elems) Hinv Re ltac:(lia) Ad) as (ds & Eds). pose proof (make_dist_link inv ranks idxs (de_nents elems) Hinv Re ltac:(lia) Ad ds Eds) as K. unfold migrate_to. rewrite Eds. cbn [bind].
  destruct (globals_ok nranks elems Se) as (g & Eg & Dg). rewrite Eg. cbn [bind]. destruct (globals_set ds _ who _ g K Dg) as (o2n & src & -> & K2 & Ls & Same). cbn [bind].
  destruct (migrate_link inv nranks m OMEGA_H_ELEM_BASED Hinv Sm _ _ src elems He K2) as (m' & srcs & Em & Hs & Mv).
  assert (owners_present OMEGA_H_ELEM_BASED m srcs) as Pr by (intros d e src0 s c r q k Hk; discriminate).
  assert (sources_exist elems src) as Ex by exact (copy_range elems _ _ src K2).
  destruct (migrated_usable nranks OMEGA_H_ELEM_BASED m m' srcs elems src Sm Mv He Hs ltac:(lia) Ex Pr) as [Sm' Am'].
  exists m', srcs, src. split; [exact Em|]. split; [exact Mv|]. split; [exact Hs|]. split; [lia|]. split; [|split; [exact Sm'|split; [exact Am'|exact (moved_covered nranks _ _ _ _ Sm Mv)]]].
  intros s l l' Hl Hl'. destruct (Same s l l' Hl Hl') as [I N]. split; [|exact I]. apply N. apply NoDup_zget_inv. intros i j [r q] Hi Hj. apply (Uw s i s j r q); exists l; auto.
Qed.
