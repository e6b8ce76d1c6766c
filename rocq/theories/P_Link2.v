From Verif Require Import Prelude M_Array M_Par M_Scan S_Scan M_Sort S_Sort M_Map S_Map M_Dist S_Dist P_Array P_Scan P_Map P_Map2 P_Fan P_Dist P_Dist2 P_Dist3 P_Dist4 P_Dist5 P_Dist6 P_Link.
Local Open Scope Z_scope.

(** ** distributors with the same items *)
Lemma item_link_same ds ds2 cnt s i r i' : zlen ds2 = zlen ds -> map comm_F ds2 = map comm_F ds ->
  (forall r d e, zget ds r = Ok d -> zget ds2 r = Ok e -> items2content_F e = items2content_F d /\ items2content_R e = items2content_R d) ->
  (item_link ds2 cnt s i r i' <-> item_link ds cnt s i r i').
Proof.
  intros L C H. split.
  - intros (d & d' & c & c' & Hd & Hd' & C1 & Lk & C2). destruct (zget_in_range ds s) as (e & He); [rewrite <- L; eapply zget_bounds; eauto|].
    destruct (zget_in_range ds r) as (e' & He'); [rewrite <- L; eapply zget_bounds; eauto|].
    destruct (H s e d He Hd) as [E1 _]. destruct (H r e' d' He' Hd') as [_ E2]. rewrite E1 in C1. rewrite E2 in C2. rewrite C in Lk. exists e, e', c, c'. auto.
  - intros (d & d' & c & c' & Hd & Hd' & C1 & Lk & C2). destruct (zget_in_range ds2 s) as (e & He); [rewrite L; eapply zget_bounds; eauto|].
    destruct (zget_in_range ds2 r) as (e' & He'); [rewrite L; eapply zget_bounds; eauto|].
    destruct (H s d e Hd He) as [E1 _]. destruct (H r d' e' Hd' He') as [_ E2]. rewrite <- E1 in C1. rewrite <- E2 in C2. rewrite <- C in Lk. exists e, e', c, c'. auto.
Qed.

Lemma tabulate_ext {A} n (f g : Z -> res A) : (forall i, 0 <= i < n -> f i = g i) -> tabulate n f = tabulate n g.
Proof. intros H. unfold tabulate. apply mapM_ext. intros i Hi. apply H, in_zrange, Hi. Qed.
Lemma map_zget_ext {A B} (f : A -> B) (l m : list A) : zlen m = zlen l -> (forall r x y, zget l r = Ok x -> zget m r = Ok y -> f y = f x) -> map f m = map f l.
Proof.
  intros L H. apply list_eq_zget; [rewrite !zlen_map; exact L|]. rewrite zlen_map. intros r Hr.
  destruct (zget_in_range m r Hr) as (y & Hy). destruct (zget_in_range l r ltac:(lia)) as (x & Hx). rewrite (zget_map_ok _ _ _ _ Hy), (zget_map_ok _ _ _ _ Hx). f_equal. eauto.
Qed.

(** exchanging from roots is expanding, then exchanging *)
Section rooted.
Context (ds dsr : list dist) (fans : list (list Z)).
Hypothesis NR : forall r d, zget ds r = Ok d -> roots2items_F d = None.
Hypothesis Lf : zlen fans = zlen ds.
Hypothesis Er : set_roots2items ds fans = Ok dsr.

Lemma rooted_get : zlen dsr = zlen ds /\ forall r d f, zget ds r = Ok d -> zget fans r = Ok f -> zget dsr r = Ok (set_roots2items1 d f).
Proof.
  unfold set_roots2items in Er. apply tabulate_ok in Er as [L G]; [|apply zlen_nonneg]. split; [exact L|]. intros r d f Hd Hf.
  destruct (G r) as (e & E & E'); [eapply zget_bounds; eauto|]. rewrite Hd, Hf in E. cbn [bind] in E. congruence.
Qed.
Lemma rooted_inv r e : zget dsr r = Ok e -> exists d f, zget ds r = Ok d /\ zget fans r = Ok f /\ e = set_roots2items1 d f.
Proof.
  destruct rooted_get as [L G]. intros He. pose proof (zget_bounds _ _ _ He). destruct (zget_in_range ds r ltac:(lia)) as (d & Hd). destruct (zget_in_range fans r ltac:(lia)) as (f & Hf).
  exists d, f. split; [exact Hd|]. split; [exact Hf|]. specialize (G r d f Hd Hf). congruence.
Qed.

Lemma rooted_exch {A} (data es : list (list A)) width : zlen data = zlen ds -> zlen es = zlen ds ->
  (forall r f x e, zget fans r = Ok f -> zget data r = Ok x -> zget es r = Ok e -> expand x f width = Ok e) ->
  exch dsr data width = exch ds es width.
Proof.
  intros Ld Le He. destruct rooted_get as [L G]. unfold exch. rewrite L.
  assert (forall B (g : dist -> B), (forall d f, g (set_roots2items1 d f) = g d) -> map g dsr = map g ds) as M.
  { intros B g Hg. apply map_zget_ext; [exact L|]. intros r d e Hd Hr. destruct (rooted_inv r e Hr) as (d' & f & Hd' & _ & ->). assert (d' = d) as -> by congruence. apply Hg. }
  rewrite (M _ comm_F), (M _ msgs2content_F), (M _ msgs2content_R) by reflexivity.
  rewrite (tabulate_ext (zlen ds) (fun r => d <- zget dsr r ;; x <- zget data r ;; pack1 d x width) (fun r => d <- zget ds r ;; x <- zget es r ;; pack1 d x width)).
  - destruct (tabulate (zlen ds) (fun r => d <- zget ds r ;; x <- zget es r ;; pack1 d x width)) as [c| |]; [|reflexivity|reflexivity]. cbn [bind].
    destruct (alltoallv _ _ _ _ _) as [c2| |]; [|reflexivity|reflexivity]. cbn [bind]. apply tabulate_ext. intros r Hr.
    destruct (zget_in_range ds r Hr) as (d & Hd). destruct (zget_in_range fans r ltac:(lia)) as (f & Hf). rewrite (G r d f Hd Hf), Hd. reflexivity.
  - intros r Hr. destruct (zget_in_range ds r Hr) as (d & Hd). destruct (zget_in_range fans r ltac:(lia)) as (f & Hf). rewrite (G r d f Hd Hf), Hd. cbn [bind].
    destruct (zget_in_range data r ltac:(lia)) as (x & Hx). destruct (zget_in_range es r ltac:(lia)) as (e & Hee). rewrite Hx, Hee. cbn [bind].
    unfold pack1. cbn [roots2items_F items2content_F set_roots2items1]. rewrite (He r f x e Hf Hx Hee), (NR r d Hd). reflexivity.
Qed.
End rooted.

(** ** the copies that owners send out, sorted by keys, seen from the copies *)
Section sorted_copies.
Context (uranks fans : list (list Z)) (nroots : list Z).
Hypothesis ok : ranks_exist uranks.
Hypothesis fits : zlen uranks <= i32_max + 1.
Hypothesis Lf : zlen fans = zlen uranks.
Hypothesis Ln : zlen nroots = zlen uranks.
Hypothesis Ff : forall s a f k, zget uranks s = Ok a -> zget fans s = Ok f -> zget nroots s = Ok k -> is_fan f /\ last_of f = Ok (zlen a) /\ zlen f = k + 1.

Lemma sorted_copies_link keys : data_per_root nroots keys 1 ->
  exists ds0 dsr ds3 cnt lsrc who, set_dest_ranks uranks = Ok ds0 /\ set_roots2items ds0 fans = Ok dsr /\ set_dest_globals dsr keys = Ok ds3 /\
  link (invert ds3) cnt (map (map fst) lsrc) (map (map snd) lsrc) nroots /\
  routes uranks who /\ zlen lsrc = zlen uranks /\
  (forall r l w, zget lsrc r = Ok l -> zget who r = Ok w -> zlen l = zlen w /\
     forall k s i, zget w k = Ok (s, i) -> exists q f, zget l k = Ok (s, q) /\ zget fans s = Ok f /\ in_group f q i) /\
  forall r w k k' s i s' i' f f' q q' x y, zget who r = Ok w -> zget w k = Ok (s, i) -> zget w k' = Ok (s', i') ->
    zget fans s = Ok f -> in_group f q i -> goes_to keys s q x -> zget fans s' = Ok f' -> in_group f' q' i' -> goes_to keys s' q' y ->
    (k < k' <-> x < y \/ (x = y /\ (s < s' \/ (s = s' /\ i < i')))).
Proof.
  intros [Lk Hk]. destruct (ranks_total uranks ok fits) as (ds0 & E0). exists ds0.
  destruct (ranks_facts uranks ok fits ds0 E0) as (L0 & W0 & Sn0 & NR0 & Dst0). set (cnt := count_to uranks) in *.
  destruct (tabulate_rel (zlen uranks) (fun r => x <- zget keys r ;; f <- zget fans r ;; expand x f 1)
    (fun r e => exists a f x, zget uranks r = Ok a /\ zget fans r = Ok f /\ zget keys r = Ok x /\ expand x f 1 = Ok e /\ zlen e = zlen a /\ forall q i, in_group f q i -> zget e i = zget x q)) as (es & Ees & Les & Ges); [apply zlen_nonneg| |].
  { intros r Hr. destruct (zget_in_range uranks r Hr) as (a & Ha). destruct (zget_in_range keys r ltac:(lia)) as (x & Hx). destruct (zget_in_range fans r ltac:(lia)) as (f & Hf).
    destruct (zget_in_range nroots r ltac:(lia)) as (k & Hkk). destruct (Ff r a f k Ha Hf Hkk) as (F1 & F2 & F3). rewrite Hx, Hf. cbn [bind].
    destruct (expand_spec x f 1 F1 ltac:(lia)) as (n & e & En & Ee & Le & Ge); [rewrite (Hk r k x Hkk Hx); lia|]. assert (n = zlen a) as -> by congruence.
    exists e. split; [exact Ee|]. exists a, f, x. split; [exact Ha|]. split; [reflexivity|]. split; [reflexivity|]. split; [exact Ee|]. split; [rewrite Le; apply Z.mul_1_r|]. intros q i Hi. specialize (Ge q i 0 Hi ltac:(lia)). rewrite Z.mul_1_r, Z.add_0_r, Z.mul_1_r, Z.add_0_r in Ge. exact Ge. }
  assert (data_per_item uranks es 1) as De.
  { split; [exact Les|]. intros s a x Ha Hx. destruct (Ges s x Hx) as (a' & f & y & Ha' & _ & _ & _ & E & _). assert (a' = a) as -> by congruence. lia. }
  destruct (globals_facts uranks ok fits ds0 E0 es De) as (ds2 & E2 & L2 & W2 & Sn2 & NR2 & PF & Dst2 & Ord). fold cnt in W2, Sn2, Dst2, Ord.
  destruct (tabulate_rel (zlen ds0) (fun r => d <- zget ds0 r ;; f <- zget fans r ;; Ok (set_roots2items1 d f)) (fun r e => exists d f, zget ds0 r = Ok d /\ zget fans r = Ok f /\ e = set_roots2items1 d f)) as (dsr & Er & Lr & Gr); [apply zlen_nonneg| |].
  { intros r Hr. destruct (zget_in_range ds0 r Hr) as (d & Hd). destruct (zget_in_range fans r ltac:(lia)) as (f & Hf). rewrite Hd, Hf. cbn [bind]. eexists. split; [reflexivity|]. eauto. }
  change (set_roots2items ds0 fans = Ok dsr) in Er. exists dsr.
  assert (exch dsr keys 1 = exch ds0 es 1) as Ex.
  { apply (rooted_exch ds0 dsr fans (fun r d H => proj1 (NR0 r d H)) ltac:(lia) Er); [lia|lia|]. intros r f x e Hf Hx He.
    destruct (Ges r e He) as (a & f' & x' & _ & Hf' & Hx' & E & _). congruence. }
  (* the distributor with roots is the one without, plus roots *)
  assert (exists ds3, set_dest_globals dsr keys = Ok ds3 /\ zlen ds3 = zlen ds2 /\ forall r e, zget ds3 r = Ok e -> exists d f, zget ds2 r = Ok d /\ zget fans r = Ok f /\ e = set_roots2items1 d f) as (ds3 & E3 & L3 & G3).
  { unfold set_dest_globals in E2 |- *. rewrite Ex. apply bind_ok in E2 as (c & Ec & E2). rewrite Ec. cbn [bind].
    apply tabulate_ok in E2 as [_ G2]; [|apply zlen_nonneg].
    destruct (tabulate_rel (zlen dsr) (fun r => d <- zget dsr r ;; c <- zget c r ;; p <- sort_by_keys c 1 ;;
        Ok (Dist (roots2items_F d) (items2content_F d) (msgs2content_F d) (comm_F d) None (Some p) (msgs2content_R d) (comm_R d)))
      (fun r e => exists d f, zget ds2 r = Ok d /\ zget fans r = Ok f /\ e = set_roots2items1 d f)) as (ds3 & E3 & L3 & G3); [apply zlen_nonneg| |].
    - intros r Hr. destruct (G2 r ltac:(lia)) as (d2 & Ed2 & Hd2). destruct (zget_in_range dsr r Hr) as (dr & Hdr). destruct (Gr r dr Hdr) as (d & f & Hd & Hf & ->).
      rewrite Hd in Ed2. cbn [bind] in Ed2. apply bind_ok in Ed2 as (cc & Ecc & Ed2). apply bind_ok in Ed2 as (p & Ep & Ed2). injection Ed2 as <-.
      rewrite Hdr, Ecc. cbn [bind]. rewrite Ep. cbn [bind]. eexists. split; [reflexivity|]. exists (Dist (roots2items_F d) (items2content_F d) (msgs2content_F d) (comm_F d) None (Some p) (msgs2content_R d) (comm_R d)), f.
      split; [exact Hd2|]. split; [exact Hf|]. reflexivity.
    - exists ds3. split; [exact E3|]. split; [lia|exact G3]. }
  exists ds3.
  destruct (who_exists uranks ds2 cnt W2 L2 Sn2 (fun s d H => proj1 (NR2 s d H)) Dst2) as (who & Rw & Kw & Sw & _).
  pose proof (proj1 Rw) as Lw.
  (* the root of each item *)
  assert (exists rts, zlen rts = zlen uranks /\ forall s a, zget uranks s = Ok a -> exists t f, zget rts s = Ok t /\ zget fans s = Ok f /\ zlen t = zlen a /\ forall q i, zget t i = Ok q <-> in_group f q i) as (rts & Lrt & Grt).
  { destruct (mapM_rel invert_fan fans (fun s f t => exists a, zget uranks s = Ok a /\ zlen t = zlen a /\ forall q i, zget t i = Ok q <-> in_group f q i)) as (rts & _ & Lrt & Grt).
    - intros s f Hf. destruct (zget_in_range uranks s) as (a & Ha); [rewrite <- Lf; eapply zget_bounds; eauto|].
      destruct (zget_in_range nroots s) as (k & Hkk); [rewrite Ln, <- Lf; eapply zget_bounds; eauto|]. destruct (Ff s a f k Ha Hf Hkk) as (F1 & F2 & F3).
      destruct (invert_fan_spec f F1) as (t & n & En & Et & Lt & Gt). assert (n = zlen a) as -> by congruence. exists t. split; [exact Et|]. exists a. split; [exact Ha|]. split; [exact Lt|].
      exact Gt.
    - exists rts. split; [lia|]. intros s a Ha. destruct (zget_in_range rts s) as (t & Ht); [rewrite Lrt, Lf; eapply zget_bounds; eauto|].
      destruct (zget_in_range fans s) as (f & Hf); [rewrite Lf; eapply zget_bounds; eauto|]. destruct (Grt s f t Hf Ht) as (a' & Ha' & H1 & H2). assert (a' = a) as -> by congruence. exists t, f. auto. }
  pose (root := fun s i => match zget rts s with Ok t => match zget t i with Ok q => q | _ => 0 end | _ => 0 end).
  pose (lsrc := map (map (fun p : Z * Z => (fst p, root (fst p) (snd p)))) who).
  assert (forall s i r, goes_to uranks s i r -> exists f, zget fans s = Ok f /\ in_group f (root s i) i) as Rt.
  { intros s i r (a & Ha & Hi). destruct (Grt s a Ha) as (t & f & Ht & Hf & Lt & Gt). exists f. split; [exact Hf|]. apply Gt. unfold root. rewrite Ht.
    destruct (zget_in_range t i) as (q & Hq); [rewrite Lt; eapply zget_bounds; eauto|]. rewrite Hq. reflexivity. }
  assert (zlen lsrc = zlen uranks) as Ll by (unfold lsrc; rewrite zlen_map; lia).
  assert (forall r w k s i, zget who r = Ok w -> zget w k = Ok (s, i) -> goes_to uranks s i r) as Wg.
  { intros r w k s i Hw Hks. apply (proj2 Rw r w Hw). eapply zget_In; eauto. }
  exists (fun s r => cnt r s), lsrc, who. split; [exact E0|]. split; [exact Er|]. split; [exact E3|].
  assert (map comm_F ds3 = map comm_F ds2 /\ map comm_F (invert ds3) = map comm_F (invert ds2)) as [C3 C3'].
  { split; [apply map_zget_ext; [exact L3|]; intros r d e Hd He; destruct (G3 r e He) as (d' & f & Hd' & _ & ->); assert (d' = d) as -> by congruence; reflexivity|].
    unfold invert. rewrite !map_map. apply map_zget_ext; [exact L3|]. intros r d e Hd He. destruct (G3 r e He) as (d' & f & Hd' & _ & ->). assert (d' = d) as -> by congruence. reflexivity. }
  assert (forall r k s i, item_link (invert ds3) (fun s r => cnt r s) r k s i <-> item_link ds2 cnt s i r k) as Il.
  { intros r k s i. rewrite (item_link_same (invert ds2) (invert ds3)).
    - split; intros H; [|apply item_link_flip; [exact W2|exact H]]. apply item_link_flip in H; [|apply wf_invert, W2]. rewrite invert_invert in H. exact H.
    - unfold invert. rewrite !zlen_map. exact L3.
    - exact C3'.
    - intros x d e Hd He. apply zget_map_inv in Hd as (d1 & Hd1 & ->). apply zget_map_inv in He as (e1 & He1 & ->). destruct (G3 x e1 He1) as (d' & f & Hd' & _ & ->).
      assert (d' = d1) as -> by congruence. split; reflexivity. }
  assert (forall r w k s i, zget who r = Ok w -> zget w k = Ok (s, i) -> exists l, zget lsrc r = Ok l /\ zget l k = Ok (s, root s i)) as Wl.
  { intros r w k s i Hw Hks. exists (map (fun p : Z * Z => (fst p, root (fst p) (snd p))) w). split; [apply zget_map_ok; exact Hw|]. rewrite (zget_map_ok _ _ _ _ Hks). reflexivity. }
  assert (forall r l k s q, zget lsrc r = Ok l -> zget l k = Ok (s, q) -> exists w i, zget who r = Ok w /\ zget w k = Ok (s, i) /\ q = root s i) as Lw'.
  { intros r l k s q Hl Hq. apply zget_map_inv in Hl as (w & Hw & ->). apply zget_map_inv in Hq as ([s0 i0] & Hi & [= -> ->]). exists w, i0. auto. }
  split; [|split; [exact Rw|split; [exact Ll|split]]].
  - assert (forall r k s, goes_to (map (map fst) lsrc) r k s <-> exists l q, zget lsrc r = Ok l /\ zget l k = Ok (s, q)) as G1.
    { intros r k s. split.
      - intros (a & Ha & Hs). apply zget_map_inv in Ha as (l & Hl & ->). apply zget_map_inv in Hs as ([s0 q] & Hq & ->). eauto.
      - intros (l & q & Hl & Hq). exists (map fst l). split; [apply zget_map_ok; exact Hl|]. rewrite (zget_map_ok _ _ _ _ Hq). reflexivity. }
    assert (forall r k q, goes_to (map (map snd) lsrc) r k q <-> exists l s, zget lsrc r = Ok l /\ zget l k = Ok (s, q)) as G2.
    { intros r k q. split.
      - intros (a & Ha & Hs). apply zget_map_inv in Ha as (l & Hl & ->). apply zget_map_inv in Hs as ([s0 q0] & Hq & ->). eauto.
      - intros (l & s & Hl & Hq). exists (map snd l). split; [apply zget_map_ok; exact Hl|]. rewrite (zget_map_ok _ _ _ _ Hq). reflexivity. }
    constructor.
    + destruct (retarget (invert ds2) (fun s r => cnt r s) (invert ds3) (wf_invert _ _ W2)) as [_ W3]; [unfold invert; rewrite !zlen_map; exact L3| |exact W3].
      intros r d e Hd He. apply zget_map_inv in Hd as (d1 & Hd1 & ->). apply zget_map_inv in He as (e1 & He1 & ->). destruct (G3 r e1 He1) as (d' & f & Hd' & Hf & ->).
      assert (d' = d1) as -> by congruence. cbn. do 6 (split; [reflexivity|]). rewrite (proj2 (invert_traffic ds2 cnt W2 r)).
      split; [eapply wf_pF; eauto|]. destruct (zget_in_range uranks r) as (a & Ha); [rewrite <- L2; eapply zget_bounds; eauto|]. rewrite (Sn2 r a Ha).
      destruct (zget_in_range nroots r) as (k & Hkk); [rewrite Ln, <- L2; eapply zget_bounds; eauto|]. destruct (Ff r a f k Ha Hf Hkk) as (F1 & F2 & F3). auto.
    + unfold invert. rewrite !zlen_map. lia.
    + intros r a Ha. apply zget_map_inv in Ha as (l & Hl & ->). apply zget_map_inv in Hl as (w & Hw & ->). rewrite !zlen_map, C3', (proj1 (invert_traffic ds2 cnt W2 r)). symmetry. apply Sw. exact Hw.
    + intros r d Hd. apply zget_map_inv in Hd as (e & He & ->). destruct (G3 r e He) as (d & f & Hd & _ & ->). cbn. apply (NR2 r d Hd).
    + intros r k s i H. apply Il in H. pose proof H as (d2 & d2' & _ & _ & _ & Hd2' & _). destruct (zget_in_range who r) as (w & Hw); [rewrite Lw, <- L2; eapply zget_bounds; eauto|].
      apply (Kw r w k s i Hw) in H. destruct (Wl r w k s i Hw H) as (l & Hl & Hlk). apply G1. eauto.
    + intros s d k Hd Hkk. apply zget_map_inv in Hd as (e & He & ->). destruct (G3 s e He) as (d & f & Hd & Hf & ->). cbn. exists f. split; [reflexivity|].
      destruct (zget_in_range uranks s) as (a & Ha); [rewrite <- L2; eapply zget_bounds; eauto|]. destruct (Ff s a f k Ha Hf Hkk) as (F1 & F2 & F3). split; [exact F3|]. split; [exact F1|].
      split; [rewrite C3', (proj2 (invert_traffic ds2 cnt W2 s)), (Sn2 s a Ha); exact F2|].
      intros r i' i q H. apply Il in H. pose proof H as (d2 & d2' & _ & _ & _ & Hd2' & _). destruct (zget_in_range who r) as (w & Hw); [rewrite Lw, <- L2; eapply zget_bounds; eauto|].
      apply (Kw r w i' s i Hw) in H. destruct (Rt s i r (Wg r w i' s i Hw H)) as (f' & Hf' & Hg). assert (f' = f) as -> by congruence. rewrite G2. split.
      * intros (l & s' & Hl & Hlk). destruct (Lw' r l i' s' q Hl Hlk) as (w' & i0 & Hw' & Hi0 & ->). assert (w' = w) as -> by congruence. assert ((s', i0) = (s, i)) as [= -> ->] by congruence. exact Hg.
      * intros Hq. pose proof (in_group_unique f _ _ _ F1 Hg Hq) as <-. destruct (Wl r w i' s i Hw H) as (l & Hl & Hlk). eauto.
    + intros r d Hd. apply zget_map_inv in Hd as (e & He & ->). destruct (G3 r e He) as (d & f & Hd & _ & ->). cbn. apply (PF r d Hd).
    + intros r k s H. apply G1 in H as (l & q & Hl & Hq). destruct (Lw' r l k s q Hl Hq) as (w & i & Hw & Hi & _). destruct (Wg r w k s i Hw Hi) as (a & Ha & _). rewrite zlen_map, Ll. eapply zget_bounds; eauto.
    + split; [rewrite !zlen_map; reflexivity|]. split; [rewrite zlen_map; lia|]. split; [|split].
      * intros s a b Ha Hb. apply zget_map_inv in Ha as (l & Hl & ->). apply zget_map_inv in Hb as (l' & Hl' & ->). assert (l' = l) as -> by congruence. rewrite !zlen_map. reflexivity.
      * intros r k Hkk. destruct (zget_in_range uranks r) as (a & Ha); [rewrite <- Ln; eapply zget_bounds; eauto|]. destruct (zget_in_range fans r) as (f & Hf); [rewrite Lf, <- Ln; eapply zget_bounds; eauto|].
        destruct (Ff r a f k Ha Hf Hkk) as (F1 & F2 & F3). destruct (fan_last f F1) as (_ & _ & _ & ?). lia.
      * intros r k s q H1 H2. apply G1 in H1 as (l & q' & Hl & Hq). apply G2 in H2 as (l' & s' & Hl' & Hq'). assert (l' = l) as -> by congruence. assert ((s', q) = (s, q')) as [= -> ->] by congruence.
        destruct (Lw' r l k s q' Hl Hq) as (w & i & Hw & Hi & ->). pose proof (Wg r w k s i Hw Hi) as Hg. destruct (Rt s i r Hg) as (f & Hf & Hgf). destruct Hg as (a & Ha & _).
        destruct (zget_in_range nroots s) as (n & Hn); [rewrite Ln; eapply zget_bounds; eauto|]. exists n. split; [exact Hn|]. destruct (Ff s a f n Ha Hf Hn) as (F1 & F2 & F3). destruct (in_group_range f _ _ _ F1 F2 Hgf) as [_ ?]. lia.
  - intros r l w Hl Hw. apply zget_map_inv in Hl as (w' & Hw' & ->). assert (w' = w) as -> by congruence. rewrite zlen_map. split; [reflexivity|]. intros k s i Hks.
    destruct (Rt s i r (Wg r w k s i Hw Hks)) as (f & Hf & Hg). exists (root s i), f. split; [rewrite (zget_map_ok _ _ _ _ Hks); reflexivity|]. auto.
  - intros r w k k' s i s' i' f f' q q' x y Hw H1 H2 Hf Hg Hx Hf' Hg' Hy.
    assert (forall s i f q x, zget fans s = Ok f -> in_group f q i -> goes_to keys s q x -> goes_to es s i x) as Ke.
    { intros s0 i0 f0 q0 x0 Hf0 Hg0 (y0 & Hy0 & Hx0). destruct (zget_in_range es s0) as (e & He); [rewrite Les, <- Lf; eapply zget_bounds; eauto|].
      destruct (Ges s0 e He) as (a & f1 & x1 & _ & Hf1 & Hx1 & _ & _ & Ge). assert (f1 = f0) as -> by congruence. assert (x1 = y0) as -> by congruence. exists e. split; [exact He|]. rewrite (Ge q0 i0 Hg0). exact Hx0. }
    apply (Kw r w k s i Hw) in H1. apply (Kw r w k' s' i' Hw) in H2. apply (Ord r k k' s i s' i' x y H1 H2); eapply Ke; eauto.
Qed.
End sorted_copies.
