From Verif Require Import Prelude M_Array M_Scan S_Scan M_Sort M_Map S_Map M_Dist P_Array P_Scan P_Map P_Fan.
Local Open Scope Z_scope.

Lemma tabulate_rel {A} n (f : Z -> res A) (P : Z -> A -> Prop) : 0 <= n ->
  (forall i, 0 <= i < n -> exists y, f i = Ok y /\ P i y) ->
  exists out, tabulate n f = Ok out /\ zlen out = n /\ forall i y, zget out i = Ok y -> P i y.
Proof.
  intros Hn H.
  assert (exists out, tabulate n f = Ok out) as (out & E).
  { unfold tabulate. assert (forall l, (forall i, In i l -> 0 <= i < n) -> exists o, mapM f l = Ok o) as K.
    { induction l as [|i l IH]; intros Hl; [exists []; reflexivity|]. destruct (H i (Hl i (or_introl eq_refl))) as (y & Ey & _).
      destruct IH as (o & Eo); [intros; apply Hl; right; assumption|]. exists (y :: o). cbn. rewrite Ey, Eo. reflexivity. }
    apply K. intros i Hi. apply in_zrange, Hi. }
  exists out. split; [exact E|]. apply tabulate_ok in E as [L G]; [|exact Hn]. split; [exact L|].
  intros i y Hy. pose proof (zget_bounds _ _ _ Hy) as B. rewrite L in B. destruct (G i B) as (z & Ez & Hz).
  destruct (H i B) as (w & Ew & Pw). congruence.
Qed.

(** * The communication layer: a world of matched graphs and offsets *)

Record wired (gs : list graph_comm) (sd rd : list (list Z)) (cnt : Z -> Z -> Z) : Prop := {
  w_sd : forall s g, zget gs s = Ok g -> zget sd s = Ok (offset_scan (map (cnt s) (destinations g)));
  w_rd : forall s g, zget gs s = Ok g -> zget rd s = Ok (offset_scan (map (fun r => cnt r s) (sources g)));
  w_nds : forall s g, zget gs s = Ok g -> NoDup (destinations g);
  w_ndr : forall s g, zget gs s = Ok g -> NoDup (sources g);
  w_dst : forall s g r, zget gs s = Ok g -> In r (destinations g) -> exists h, zget gs r = Ok h /\ In s (sources h);
  w_src : forall s g r, zget gs s = Ok g -> In r (sources g) -> exists h, zget gs r = Ok h /\ In s (destinations h);
  w_pos : forall s g r, zget gs s = Ok g -> In r (destinations g) -> 0 < cnt s r
}.

Lemma map_graph_inverse gs s g : zget (map graph_inverse gs) s = Ok g <-> exists h, zget gs s = Ok h /\ g = graph_inverse h.
Proof.
  rewrite zget_map. split.
  - destruct (zget gs s) as [h| |] eqn:E; cbn; try discriminate. intros [= <-]. eauto.
  - intros (h & -> & ->). reflexivity.
Qed.

Lemma wired_inverse gs sd rd cnt : wired gs sd rd cnt -> wired (map graph_inverse gs) rd sd (fun s r => cnt r s).
Proof.
  intros W. constructor.
  - intros s g Hg. apply map_graph_inverse in Hg as (h & Hh & ->). cbn. apply (w_rd _ _ _ _ W); exact Hh.
  - intros s g Hg. apply map_graph_inverse in Hg as (h & Hh & ->). cbn. apply (w_sd _ _ _ _ W); exact Hh.
  - intros s g Hg. apply map_graph_inverse in Hg as (h & Hh & ->). cbn. eapply w_ndr; eauto.
  - intros s g Hg. apply map_graph_inverse in Hg as (h & Hh & ->). cbn. eapply w_nds; eauto.
  - intros s g r Hg Hr. apply map_graph_inverse in Hg as (h & Hh & ->). cbn in Hr. destruct (w_src _ _ _ _ W _ _ _ Hh Hr) as (k & Hk & I).
    exists (graph_inverse k). split; [apply map_graph_inverse; eauto|exact I].
  - intros s g r Hg Hr. apply map_graph_inverse in Hg as (h & Hh & ->). cbn in Hr. destruct (w_dst _ _ _ _ W _ _ _ Hh Hr) as (k & Hk & I).
    exists (graph_inverse k). split; [apply map_graph_inverse; eauto|exact I].
  - intros s g r Hg Hr. apply map_graph_inverse in Hg as (h & Hh & ->). cbn in Hr. destruct (w_src _ _ _ _ W _ _ _ Hh Hr) as (k & Hk & I). eapply w_pos; eauto.
Qed.

Lemma find_msg_first l : forall x g i, zget l g = Ok x -> NoDup l -> find_msg l x 0 i = Ok (i + g).
Proof.
  induction l as [|y l IH]; intros x g i Hg Hn; [apply zget_bounds in Hg; cbn in Hg; lia|].
  pose proof (zget_bounds _ _ _ Hg) as B. cbn [find_msg]. destruct (Z.eq_dec g 0) as [->|Hg0].
  - cbn in Hg. injection Hg as ->. rewrite Z.eqb_refl. cbn. f_equal. lia.
  - assert (zget l (g - 1) = Ok x) as Hg'.
    { apply zget_ok in Hg as [_ Hg]. replace (Z.to_nat g) with (S (Z.to_nat (g - 1))) in Hg by lia. cbn in Hg. apply zget_ok. split; [lia|exact Hg]. }
    inversion Hn; subst. destruct (Z.eqb_spec y x) as [->|_]; [exfalso; apply zget_In in Hg'; auto|].
    rewrite (IH x (g - 1) (i + 1) Hg'); [f_equal; lia|assumption].
Qed.

Lemma occurrences_none x l : ~ In x l -> occurrences x l = 0.
Proof.
  unfold occurrences. induction l as [|y l IH]; intros H; [reflexivity|]. cbn [filter].
  destruct (Z.eqb_spec x y) as [->|_]; [exfalso; apply H; left; reflexivity|]. apply IH. intros I; apply H; right; exact I.
Qed.
Lemma occurrences_one x l : NoDup l -> In x l -> occurrences x l = 1.
Proof.
  unfold occurrences. induction l as [|y l IH]; intros Hn H; [destruct H|]. cbn [filter]. inversion Hn; subst.
  destruct (Z.eqb_spec x y) as [->|Ne].
  - rewrite zlen_cons. pose proof (occurrences_none y l) as E. unfold occurrences in E. rewrite E by assumption. lia.
  - apply IH; [assumption|]. destruct H; [congruence|assumption].
Qed.
Lemma nodup_before {A} (l : list A) j x : NoDup l -> zget l j = Ok x -> ~ In x (firstn (Z.to_nat j) l).
Proof.
  intros Hn Hj I. apply zget_ok in Hj as [Hj0 Hj]. apply nth_error_split in Hj as (l1 & l2 & E & L).
  rewrite E, <- L, firstn_app, firstn_all, Nat.sub_diag in I. cbn in I. rewrite app_nil_r in I.
  rewrite E in Hn. apply NoDup_remove_2 in Hn. apply Hn, in_or_app. left; exact I.
Qed.

Section link.
Context (gs : list graph_comm) (sd rd : list (list Z)) (cnt : Z -> Z -> Z).
Hypothesis W : wired gs sd rd cnt.

Lemma match_msg_ok r h j s : zget gs r = Ok h -> zget (sources h) j = Ok s ->
  exists g i, zget gs s = Ok g /\ zget (destinations g) i = Ok r /\ match_msg gs r j = Ok (s, i).
Proof.
  intros Hr Hj. destruct (w_src _ _ _ _ W r h s Hr (zget_In _ _ _ Hj)) as (g & Hg & I).
  apply In_zget in I as (i & Hi). exists g, i. split; [exact Hg|]. split; [exact Hi|].
  unfold match_msg. rewrite Hr. cbn [bind]. rewrite Hj. cbn [bind]. rewrite Hg. cbn [bind].
  rewrite occurrences_none by (apply nodup_before; [eapply w_ndr; eauto|exact Hj]).
  rewrite (find_msg_first _ r i 0 Hi) by (eapply w_nds; eauto). reflexivity.
Qed.

Lemma all_expected_ok : all_expected gs = Ok tt.
Proof.
  unfold all_expected.
  rewrite (mapM_map_ok _ (fun s => match zget gs s with Ok g => map (fun _ => tt) (destinations g) | _ => [] end)); [reflexivity|].
  intros s Hs. apply in_zrange in Hs. destruct (zget_in_range gs s Hs) as (g & Hg). rewrite Hg. cbn [bind].
  apply mapM_map_ok. intros r Hr. destruct (w_dst _ _ _ _ W s g r Hg Hr) as (h & Hh & I). rewrite Hh. cbn [bind].
  rewrite !occurrences_one; [reflexivity| | | |]; eauto using w_nds, w_ndr.
Qed.

(** the content block [c] of rank [s] travels to the content block [c'] of rank [r] *)
Definition linked (s c r c' : Z) : Prop :=
  exists g h i j lo lo' k, zget gs s = Ok g /\ zget gs r = Ok h /\
    zget (destinations g) i = Ok r /\ zget (sources h) j = Ok s /\
    zget (offset_scan (map (cnt s) (destinations g))) i = Ok lo /\
    zget (offset_scan (map (fun q => cnt q r) (sources h))) j = Ok lo' /\
    0 <= k < cnt s r /\ c = lo + k /\ c' = lo' + k.

Definition sent (s : Z) : Z := match zget gs s with Ok g => zsum (map (cnt s) (destinations g)) | _ => 0 end.
Definition received (r : Z) : Z := match zget gs r with Ok h => zsum (map (fun s => cnt s r) (sources h)) | _ => 0 end.

Lemma sfan s g : zget gs s = Ok g -> is_fan (offset_scan (map (cnt s) (destinations g))).
Proof.
  intros Hg. apply offset_scan_fan. intros x Hx. apply in_map_iff in Hx as (r & <- & Hr). pose proof (w_pos _ _ _ _ W s g r Hg Hr). lia.
Qed.
Lemma rfan r h : zget gs r = Ok h -> is_fan (offset_scan (map (fun s => cnt s r) (sources h))).
Proof.
  intros Hg. apply offset_scan_fan. intros x Hx. apply in_map_iff in Hx as (s & <- & Hs).
  destruct (w_src _ _ _ _ W r h s Hg Hs) as (k & Hk & I). pose proof (w_pos _ _ _ _ W s k r Hk I). lia.
Qed.
Lemma sstep s g i r : zget (destinations g) i = Ok r ->
  exists lo, zget (offset_scan (map (cnt s) (destinations g))) i = Ok lo /\ zget (offset_scan (map (cnt s) (destinations g))) (i + 1) = Ok (lo + cnt s r).
Proof. intros H. apply offset_scan_step. rewrite zget_map, H. reflexivity. Qed.
Lemma rstep r h j s : zget (sources h) j = Ok s ->
  exists lo, zget (offset_scan (map (fun s => cnt s r) (sources h))) j = Ok lo /\ zget (offset_scan (map (fun s => cnt s r) (sources h))) (j + 1) = Ok (lo + cnt s r).
Proof. intros H. apply offset_scan_step. rewrite zget_map, H. reflexivity. Qed.

Lemma linked_sent s c r c' : linked s c r c' -> exists g i, zget gs s = Ok g /\ zget (destinations g) i = Ok r /\
  in_group (offset_scan (map (cnt s) (destinations g))) i c /\ 0 <= c < sent s.
Proof.
  intros (g & h & i & j & lo & lo' & k & Hg & Hh & Hi & Hj & Elo & Elo' & Hk & -> & ->).
  exists g, i. split; [exact Hg|]. split; [exact Hi|]. destruct (sstep s g i r Hi) as (lo2 & E1 & E2).
  assert (lo2 = lo) as -> by congruence.
  assert (in_group (offset_scan (map (cnt s) (destinations g))) i (lo + k)) as G by (exists lo, (lo + cnt s r); repeat split; auto; lia).
  split; [exact G|]. unfold sent. rewrite Hg. eapply in_group_range; [apply sfan, Hg|apply offset_scan_last|exact G].
Qed.

Lemma linked_total s c : 0 <= c < sent s -> exists r c', linked s c r c'.
Proof.
  unfold sent. intros Hc. destruct (zget gs s) as [g| |] eqn:Hg; [|lia|lia].
  destruct (in_group_exists _ _ c (sfan s g Hg) (offset_scan_last _) Hc) as (i & lo & hi & Hlo & Hhi & B).
  pose proof (zget_bounds _ _ _ Hlo) as Bi. pose proof (zget_bounds _ _ _ Hhi) as Bi'. rewrite offset_scan_length, zlen_map in Bi'.
  destruct (zget_in_range (destinations g) i) as (r & Hi); [lia|].
  destruct (sstep s g i r Hi) as (lo2 & E1 & E2). assert (lo2 = lo) as -> by congruence. assert (hi = lo + cnt s r) as -> by congruence.
  destruct (w_dst _ _ _ _ W s g r Hg (zget_In _ _ _ Hi)) as (h & Hh & I). apply In_zget in I as (j & Hj).
  destruct (rstep r h j s Hj) as (lo' & E3 & _).
  exists r, (lo' + (c - lo)). exists g, h, i, j, lo, lo', (c - lo). repeat split; auto; lia.
Qed.

Lemma linked_fun s c r c' r2 c2 : linked s c r c' -> linked s c r2 c2 -> r = r2 /\ c' = c2.
Proof.
  intros L1 L2. destruct (linked_sent _ _ _ _ L1) as (g1 & i1 & A1 & B1 & G1 & _).
  destruct (linked_sent _ _ _ _ L2) as (g2 & i2 & A2 & B2 & G2 & _).
  assert (g2 = g1) as -> by congruence. pose proof (in_group_unique _ _ _ _ (sfan s g1 A1) G1 G2) as <-.
  assert (r2 = r) as -> by congruence. split; [reflexivity|].
  destruct L1 as (g & h & i & j & lo & lo' & k & Hg & Hh & Hi & Hj & Elo & Elo' & Hk & E1 & E2).
  destruct L2 as (g' & h' & i' & j' & mo & mo' & k' & Hg' & Hh' & Hi' & Hj' & Emo & Emo' & Hk' & E1' & E2').
  assert (g' = g) as -> by congruence. assert (h' = h) as -> by congruence.
  assert (i' = i) as -> by exact (NoDup_zget _ _ _ _ (w_nds _ _ _ _ W _ _ Hg) Hi' Hi).
  assert (j' = j) as -> by exact (NoDup_zget _ _ _ _ (w_ndr _ _ _ _ W _ _ Hh) Hj' Hj).
  assert (mo = lo) as -> by congruence. assert (mo' = lo') as -> by congruence. lia.
Qed.
End link.

Lemma linked_flip gs cnt s c r c' : linked gs cnt s c r c' -> linked (map graph_inverse gs) (fun s r => cnt r s) r c' s c.
Proof.
  intros (g & h & i & j & lo & lo' & k & Hg & Hh & Hi & Hj & Elo & Elo' & Hk & -> & ->).
  exists (graph_inverse h), (graph_inverse g), j, i, lo', lo, k.
  split; [apply map_graph_inverse; eauto|]. split; [apply map_graph_inverse; eauto|]. cbn. repeat split; auto; lia.
Qed.
Lemma map_graph_inverse2 gs : map graph_inverse (map graph_inverse gs) = gs.
Proof. rewrite map_map. rewrite <- (map_id gs) at 2. apply map_ext. intros [? ?]; reflexivity. Qed.
Lemma linked_flip_inv gs cnt s c r c' : linked (map graph_inverse gs) (fun s r => cnt r s) r c' s c -> linked gs cnt s c r c'.
Proof. intros L. apply linked_flip in L. rewrite map_graph_inverse2 in L. exact L. Qed.
Lemma sent_inverse gs cnt r : sent (map graph_inverse gs) (fun s r => cnt r s) r = received gs cnt r.
Proof. unfold sent, received. rewrite zget_map. destruct (zget gs r); reflexivity. Qed.

Lemma linked_from gs sd rd cnt r c' : wired gs sd rd cnt -> 0 <= c' < received gs cnt r -> exists s c, linked gs cnt s c r c'.
Proof.
  intros W H. rewrite <- sent_inverse in H. destruct (linked_total _ _ _ _ (wired_inverse _ _ _ _ W) r c' H) as (s & c & L).
  exists s, c. apply linked_flip_inv, L.
Qed.
Lemma linked_inj gs sd rd cnt s c r c' s2 c2 : wired gs sd rd cnt -> linked gs cnt s c r c' -> linked gs cnt s2 c2 r c' -> s = s2 /\ c = c2.
Proof. intros W L1 L2. eapply (linked_fun _ _ _ _ (wired_inverse _ _ _ _ W)); apply linked_flip; eassumption. Qed.
Lemma linked_received gs sd rd cnt s c r c' : wired gs sd rd cnt -> linked gs cnt s c r c' -> 0 <= c' < received gs cnt r.
Proof.
  intros W L. apply linked_flip in L. destruct (linked_sent _ _ _ _ (wired_inverse _ _ _ _ W) _ _ _ _ L) as (_ & _ & _ & _ & _ & H).
  rewrite sent_inverse in H. exact H.
Qed.

Lemma check_msgs_ok (ds : list Z) width size : (forall x, In x ds -> 0 < x) -> 0 < width -> size = zsum ds * width ->
  check_msgs (offset_scan ds) (zlen ds) width size = Ok tt.
Proof.
  intros Hp Hw ->. unfold check_msgs. rewrite (mapM_map_ok _ (fun _ => tt)); [reflexivity|].
  intros i Hi. apply in_zrange in Hi. destruct (zget_in_range ds i Hi) as (x & Hx).
  destruct (offset_scan_step ds i x Hx) as (lo & E1 & E2). rewrite E1, E2. cbn [bind].
  assert (is_fan (offset_scan ds)) as F by (apply offset_scan_fan; intros y Hy; apply Hp in Hy; lia).
  pose proof (fan_nonneg _ _ _ F E1). pose proof (Hp x (zget_In _ _ _ Hx)).
  pose proof (offset_scan_last ds) as El. unfold last_of in El.
  pose proof (fan_mono _ (i + 1) (zlen (offset_scan ds) - 1) _ _ F E2 El) as M. rewrite offset_scan_length in M. specialize (M ltac:(lia)).
  unfold check. rewrite (proj2 (Z.leb_le 0 (lo * width)) ltac:(nia)). cbn [bind].
  rewrite (proj2 (Z.ltb_lt 0 ((lo + x - lo) * width)) ltac:(nia)). cbn [bind].
  rewrite (proj2 (Z.leb_le (lo * width + (lo + x - lo) * width) (zsum ds * width)) ltac:(nia)). reflexivity.
Qed.

(** what one rank receives *)
Lemma alltoallv_spec {A} gs sd rd cnt (buf : list (list A)) width : wired gs sd rd cnt -> 0 < width ->
  zlen buf = zlen gs -> (forall s b, zget buf s = Ok b -> zlen b = sent gs cnt s * width) ->
  exists out, alltoallv gs buf sd rd width = Ok out /\ zlen out = zlen gs /\
  (forall r y, zget out r = Ok y -> zlen y = received gs cnt r * width) /\
  (forall s c r c' b y q, linked gs cnt s c r c' -> zget buf s = Ok b -> zget out r = Ok y -> 0 <= q < width ->
     zget y (c' * width + q) = zget b (c * width + q)).
Proof.
  intros W Hw Lb Hb. unfold alltoallv.
  rewrite (mapM_map_ok _ (fun _ => tt)).
  2:{ intros s Hs. apply in_zrange in Hs. destruct (zget_in_range gs s Hs) as (g & Hg). destruct (zget_in_range buf s ltac:(lia)) as (b & Eb).
      rewrite Hg, Eb, (w_sd _ _ _ _ W s g Hg). cbn [bind]. rewrite offset_scan_last. cbn [bind].
      pose proof (Hb s b Eb) as L. unfold sent in L. rewrite Hg in L. unfold check. rewrite (proj2 (Z.eqb_eq _ _) L). cbn [bind].
      replace (zlen (destinations g)) with (zlen (map (cnt s) (destinations g))) by apply zlen_map.
      apply check_msgs_ok; [|exact Hw|exact L]. intros x Hx. apply in_map_iff in Hx as (r & <- & Hr). eapply w_pos; eauto. }
  cbn [bind]. rewrite (all_expected_ok gs sd rd cnt W). cbn [bind].
  match goal with |- context [tabulate (zlen gs) ?f] => set (F := f) end.
  assert (forall r h, zget gs r = Ok h -> exists y, F r = Ok y /\ zlen y = received gs cnt r * width /\
    forall s c c' b q, linked gs cnt s c r c' -> zget buf s = Ok b -> 0 <= q < width -> zget y (c' * width + q) = zget b (c * width + q)) as K.
  { intros r h Hh. unfold F. rewrite Hh, (w_rd _ _ _ _ W r h Hh). cbn [bind]. rewrite offset_scan_last. cbn [bind].
    set (degs := map (fun s => cnt s r) (sources h)).
    assert (zsum degs = received gs cnt r) as Er by (unfold received; rewrite Hh; reflexivity). rewrite Er.
    pose proof (rfan _ _ _ _ W r h Hh) as Fr. fold degs in Fr.
    assert (0 <= received gs cnt r) as Rn.
    { rewrite <- Er. pose proof (offset_scan_last degs) as El. unfold last_of in El. eapply fan_nonneg; eauto. }
    rewrite blank_ok by nia. cbn [bind].
    assert (zlen (sources h) = zlen degs) as Ls by (unfold degs; rewrite zlen_map; reflexivity).
    assert (forall x, In x degs -> 0 < x) as Dp.
    { intros x Hx. apply in_map_iff in Hx as (s & <- & Hs). destruct (w_src _ _ _ _ W r h s Hh Hs) as (k & Hk & I). eapply w_pos; eauto. }
    rewrite Ls. rewrite check_msgs_ok; [|exact Dp|exact Hw|rewrite Er; reflexivity]. cbn [bind].
    set (dst := repeat _ _). assert (zlen dst = received gs cnt r * width) as Ld by (unfold dst; rewrite zlen_repeat; nia).
    match goal with |- context [forM (zlen degs) dst ?f] => set (body := f) end.
    pose (good := fun (d : list (option A)) j k => forall s i g b slo rlo q, zget (sources h) j = Ok s -> zget gs s = Ok g ->
        zget (destinations g) i = Ok r -> zget buf s = Ok b -> zget (offset_scan (map (cnt s) (destinations g))) i = Ok slo ->
        zget (offset_scan degs) j = Ok rlo -> 0 <= q < width ->
        exists x, zget b ((slo + k) * width + q) = Ok x /\ zget d ((rlo + k) * width + q) = Ok (Some x)).
    destruct (forM_invariant (fun t d => zlen d = zlen dst /\ forall j k x, 0 <= j < t -> zget degs j = Ok x -> 0 <= k < x -> good d j k)
       (zlen degs) dst body) as (d & Ed & Ld' & Gd).
    { apply zlen_nonneg. }
    { split; [reflexivity|]. intros j k x Hj; lia. }
    { intros j d Hj [Ldj Gj]. destruct (zget_in_range (sources h) j ltac:(lia)) as (s & Hs).
      destruct (match_msg_ok _ _ _ _ W r h j s Hh Hs) as (g & i & Hg & Hi & Em). unfold body. rewrite Em. cbn [bind].
      destruct (zget_in_range buf s) as (b & Eb). { rewrite Lb. eapply zget_bounds; eauto. }
      rewrite Eb, (w_sd _ _ _ _ W s g Hg). cbn [bind].
      destruct (sstep cnt s g i r Hi) as (slo & S1 & S2). rewrite S1, S2. cbn [bind].
      destruct (rstep cnt r h j s Hs) as (rlo & R1 & R2). fold degs in R1, R2. rewrite R1, R2. cbn [bind].
      replace ((slo + cnt s r - slo) * width =? (rlo + cnt s r - rlo) * width) with true by (symmetry; apply Z.eqb_eq; lia).
      replace (rlo + cnt s r - rlo) with (cnt s r) by lia.
      pose proof (w_pos _ _ _ _ W s g r Hg (zget_In _ _ _ Hi)) as Pc.
      pose proof (fan_nonneg _ _ _ (sfan _ _ _ _ W s g Hg) S1) as Sn. pose proof (fan_nonneg _ _ _ Fr R1) as Rn1.
      assert (slo + cnt s r <= sent gs cnt s) as Su.
      { unfold sent. rewrite Hg. pose proof (offset_scan_last (map (cnt s) (destinations g))) as El. unfold last_of in El.
        eapply fan_mono; [exact (sfan _ _ _ _ W s g Hg)|exact S2|exact El|]. pose proof (zget_bounds _ _ _ S2). lia. }
      assert (rlo + cnt s r <= received gs cnt r) as Ru.
      { rewrite <- Er. pose proof (offset_scan_last degs) as El. unfold last_of in El.
        eapply fan_mono; [exact Fr|exact R2|exact El|]. pose proof (zget_bounds _ _ _ R2). lia. }
      pose proof (Hb s b Eb) as Lbs.
      assert (zget degs j = Ok (cnt s r)) as Dj by (unfold degs; rewrite zget_map, Hs; reflexivity).
      destruct (forM_invariant (fun t d' => zlen d' = zlen dst /\
          (forall k, 0 <= k < t -> forall q, 0 <= q < width -> exists x, zget b ((slo + k) * width + q) = Ok x /\ zget d' ((rlo + k) * width + q) = Ok (Some x)) /\
          (forall p, p < rlo * width -> zget d' p = zget d p))
          (cnt s r) d (fun recvbuf k => copy_block width b (slo + k) recvbuf (rlo + k))) as (d' & Ed' & Ld2 & Gd2 & Fd2).
      { lia. }
      { split; [exact Ldj|]. split; [intros; lia|reflexivity]. }
      { intros k d1 Hk (L1 & G1 & F1).
        destruct (copy_block_ok width b (slo + k) d1 (rlo + k)) as (d2 & E2 & L2 & G2 & F2); [lia|lia|nia|lia|nia|].
        exists d2. split; [exact E2|]. split; [congruence|]. split.
        - intros k' Hk' q Hq. destruct (Z.eq_dec k' k) as [->|Ne]; [apply G2; exact Hq|].
          destruct (G1 k' ltac:(lia) q Hq) as (x & X1 & X2). exists x. split; [exact X1|]. rewrite F2 by nia. exact X2.
        - intros p Hp. rewrite F2 by nia. apply F1; exact Hp. }
      exists d'. split; [exact Ed'|]. split; [exact Ld2|].
      intros j' k x Hj' Hx Hk. destruct (Z.eq_dec j' j) as [->|Ne].
      - assert (x = cnt s r) as -> by congruence. intros s' i' g' b' slo' rlo' q A1 A2 A3 A4 A5 A6 Hq.
        assert (s' = s) as -> by congruence. assert (g' = g) as -> by congruence. assert (b' = b) as -> by congruence.
        assert (i' = i) as -> by exact (NoDup_zget _ _ _ _ (w_nds _ _ _ _ W _ _ Hg) A3 Hi).
        assert (slo' = slo) as -> by congruence. assert (rlo' = rlo) as -> by congruence. apply Gd2; auto.
      - intros s' i' g' b' slo' rlo' q A1 A2 A3 A4 A5 A6 Hq.
        destruct (Gj j' k x ltac:(lia) Hx Hk s' i' g' b' slo' rlo' q A1 A2 A3 A4 A5 A6 Hq) as (v & V1 & V2). exists v. split; [exact V1|].
        rewrite Fd2; [exact V2|]. destruct (offset_scan_step degs j' x Hx) as (lo2 & O1 & O2). assert (lo2 = rlo') as -> by congruence.
        pose proof (fan_mono _ (j' + 1) j _ _ Fr O2 R1 ltac:(lia)). nia. }
    rewrite Ed. cbn [bind].
    assert (forall c', 0 <= c' < received gs cnt r -> exists s c b g h' i j lo lo' k, c' = lo' + k /\ c = lo + k /\ 0 <= k < cnt s r /\ zget buf s = Ok b /\
       zget gs s = Ok g /\ zget gs r = Ok h' /\ zget (destinations g) i = Ok r /\ zget (sources h') j = Ok s /\
       zget (offset_scan (map (cnt s) (destinations g))) i = Ok lo /\ zget (offset_scan (map (fun q => cnt q r) (sources h'))) j = Ok lo') as Cov.
    { intros c' Hc'. destruct (linked_from gs sd rd cnt r c' W Hc') as (s & c & g & h' & i & j & lo & lo' & k & Q1 & Q2 & Q3 & Q4 & Q5 & Q6 & Q7 & Q8 & Q9).
      destruct (zget_in_range buf s) as (b & Eb); [rewrite Lb; eapply zget_bounds; eauto|].
      exists s, c, b, g, h', i, j, lo, lo', k. repeat split; auto; lia. }
    destruct (freeze_blocks width (received gs cnt r) d) as (y & Ey & Ly & Gy); [lia|lia|congruence| |].
    { intros c' q Hc' Hq. destruct (Cov c' Hc') as (s & c & b & g & h' & i & j & lo & lo' & k & -> & -> & Hk & Eb & Q1 & Q2 & Q3 & Q4 & Q5 & Q6).
      assert (h' = h) as -> by congruence. fold degs in Q6.
      destruct (Gd j k (cnt s r)) with (s := s) (i := i) (g := g) (b := b) (slo := lo) (rlo := lo') (q := q) as (x & X1 & X2); auto.
      - pose proof (zget_bounds _ _ _ Q4). lia.
      - unfold degs. rewrite zget_map, Q4. reflexivity.
      - eauto. }
    exists y. split; [exact Ey|]. split; [exact Ly|].
    intros s c c' b q (g & h' & i & j & lo & lo' & k & Q1 & Q2 & Q3 & Q4 & Q5 & Q6 & Q7 & -> & ->) Eb Hq.
    assert (h' = h) as -> by congruence. fold degs in Q6.
    destruct (Gd j k (cnt s r)) with (s := s) (i := i) (g := g) (b := b) (slo := lo) (rlo := lo') (q := q) as (x & X1 & X2); auto.
    + pose proof (zget_bounds _ _ _ Q4). lia.
    + unfold degs. rewrite zget_map, Q4. reflexivity.
    + rewrite X1. apply Gy. exact X2. }
  destruct (tabulate_rel (zlen gs) F (fun r y => zlen y = received gs cnt r * width /\
    forall s c c' b q, linked gs cnt s c r c' -> zget buf s = Ok b -> 0 <= q < width -> zget y (c' * width + q) = zget b (c * width + q)))
    as (out & Eo & Lo & Go); [apply zlen_nonneg| |].
  { intros r Hr. destruct (zget_in_range gs r Hr) as (h & Hh). exact (K r h Hh). }
  exists out. split; [exact Eo|]. split; [exact Lo|]. split.
  - intros r y Hy. apply (Go r y Hy).
  - intros s c r c' b y q L Eb Hy Hq. destruct (Go r y Hy) as [_ G]. eapply G; eauto.
Qed.
