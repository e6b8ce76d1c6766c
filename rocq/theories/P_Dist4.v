From Verif Require Import Prelude M_Array M_Scan S_Scan M_Sort S_Sort M_Map S_Map M_Dist S_Dist P_Array P_Scan P_Map P_Fan P_Sort P_SortSmall P_Dist P_Dist2 P_Dist3.
Local Open Scope Z_scope.

Lemma ranks_exist_in ranks : ranks_exist ranks -> forall s a x, zget ranks s = Ok a -> In x a -> 0 <= x < zlen ranks.
Proof. intros H s a x Ha Hx. apply In_zget in Hx as (i & Hi). apply (H s i). exists a. auto. Qed.

(** * Who receives what on a well-formed world whose senders have no roots *)
Section who.
Context (ranks : list (list Z)) (ds : list dist) (cnt : Z -> Z -> Z).
Hypothesis W : wf_world ds cnt.
Hypothesis Lds : zlen ds = zlen ranks.
Hypothesis Sn : forall s a, zget ranks s = Ok a -> sent (map comm_F ds) cnt s = zlen a.
Hypothesis NoR : forall s d, zget ds s = Ok d -> roots2items_F d = None.
Hypothesis Dst : forall s i r i', item_link ds cnt s i r i' -> goes_to ranks s i r.

Lemma data_sizes {A} (data : list (list A)) width : data_per_item ranks data width ->
  forall s d x, zget ds s = Ok d -> zget data s = Ok x -> exists k, nsrcs d = Ok k /\ zlen x = k * width.
Proof.
  intros [Ld Hd] s d x Ed Ex. destruct (zget_in_range ranks s) as (a & Ha); [rewrite <- Lds; eapply zget_bounds; eauto|].
  exists (zlen a). split; [|eapply Hd; eauto]. rewrite (nsrcs_cases ds cnt W s d Ed), (NoR s d Ed), (Sn s a Ha). reflexivity.
Qed.

Lemma who_exists : exists who, routes ranks who /\
  (forall r w i' s i, zget who r = Ok w -> (zget w i' = Ok (s, i) <-> item_link ds cnt s i r i')) /\
  (forall r w, zget who r = Ok w -> zlen w = received (map comm_F ds) cnt r) /\
  forall A (data : list (list A)) width, 0 < width -> data_per_item ranks data width ->
    exists out, exch ds data width = Ok out /\ delivered who data out width.
Proof.
  pose (pairs := map (fun s => match zget ranks s with Ok a => map (pair s) (zrange (zlen a)) | _ => [] end) (zrange (zlen ranks))).
  assert (forall s a, zget ranks s = Ok a -> zget pairs s = Ok (map (pair s) (zrange (zlen a)))) as Gp.
  { intros s a Ha. unfold pairs. rewrite zget_map, zget_zrange by (eapply zget_bounds; eauto). cbn [bind]. rewrite Ha. reflexivity. }
  assert (zlen pairs = zlen ranks) as Lp by (unfold pairs; rewrite zlen_map, zlen_zrange by apply zlen_nonneg; reflexivity).
  assert (data_per_item ranks pairs 1) as Dp.
  { split; [exact Lp|]. intros s a x Ha Hx. rewrite (Gp s a Ha) in Hx. injection Hx as <-. rewrite zlen_map, zlen_zrange by apply zlen_nonneg. lia. }
  destruct (exch_ok ds cnt W pairs 1 ltac:(lia) ltac:(lia) (data_sizes pairs 1 Dp)) as (who & Ew & Lw & Sw & Gw).
  assert (forall r w i' s i, zget who r = Ok w -> (zget w i' = Ok (s, i) <-> item_link ds cnt s i r i')) as K.
  { assert (forall r w i' s i, zget who r = Ok w -> item_link ds cnt s i r i' -> zget w i' = Ok (s, i)) as K1.
    { intros r w i' s i Hw L. pose proof L as L0. destruct L0 as (d & _ & _ & _ & Ed & _).
      destruct (zget_in_range ranks s) as (a & Ha); [rewrite <- Lds; eapply zget_bounds; eauto|].
      pose proof (Gw s i r i' d i _ w 0 L Ed ltac:(rewrite (NoR s d Ed); reflexivity) (Gp s a Ha) Hw ltac:(lia)) as G.
      replace (i' * 1 + 0) with i' in G by lia. replace (i * 1 + 0) with i in G by lia. rewrite G.
      destruct (item_link_range ds cnt W _ _ _ _ L) as [B _]. rewrite (Sn s a Ha) in B. rewrite zget_map, zget_zrange by lia. reflexivity. }
    intros r w i' s i Hw. split; [|apply K1; exact Hw]. intros Hi.
    pose proof (zget_bounds _ _ _ Hi) as B. rewrite (Sw r w Hw) in B.
    destruct (zget_in_range ds r) as (d & Ed); [rewrite <- Lw; eapply zget_bounds; eauto|].
    destruct (item_link_total _ _ (wf_invert _ _ W) r (invert1 d) i') as (s2 & i2 & L).
    { apply zget_map_ok. exact Ed. }
    { unfold invert. rewrite map_map. change (map (fun x => comm_F (invert1 x)) ds) with (map comm_R ds).
      rewrite (comm_R_map ds cnt W), sent_inverse. lia. }
    apply item_link_flip in L; [|apply wf_invert, W]. 
    assert (invert (invert ds) = ds) as Eii by (unfold invert; rewrite map_map; rewrite <- (map_id ds) at 2; apply map_ext; intros []; reflexivity).
    rewrite Eii in L. change (fun s r : Z => cnt s r) with cnt in L. pose proof (K1 r w i' s2 i2 Hw L) as H2. assert ((s2, i2) = (s, i)) as [= -> ->] by congruence. exact L. }
  exists who. split; [|split; [exact K|split]].
  - split; [congruence|]. intros r w Hw. split.
    + apply NoDup_zget_inv. intros i' j' [s i] H1 H2. apply (K r w i' s i Hw) in H1. apply (K r w j' s i Hw) in H2.
      eapply item_link_fun in H1 as [_ E]; [|exact W|exact H2]. congruence.
    + intros s i. split.
      * intros H. apply In_zget in H as (i' & H). apply (K r w i' s i Hw) in H. eapply Dst; eauto.
      * intros (a & Ha & Hi). destruct (zget_in_range ds s) as (d & Ed); [rewrite Lds; eapply zget_bounds; eauto|].
        destruct (item_link_total ds cnt W s d i Ed) as (r' & i' & L); [rewrite (Sn s a Ha); eapply zget_bounds; eauto|].
        destruct (Dst s i r' i' L) as (a' & Ha' & Hi'). assert (r' = r) as -> by congruence.
        apply (K r w i' s i Hw) in L. eapply zget_In; eauto.
  - intros r w Hw. rewrite (Sw r w Hw). lia.
  - intros A data width Hwd Dd. destruct Dd as [Ld Hd].
    destruct (exch_ok ds cnt W data width Hwd ltac:(lia) (data_sizes data width (conj Ld Hd))) as (out & Eo & Lo & So & Go).
    exists out. split; [exact Eo|]. split; [congruence|]. intros r w y Hw Hy. split; [rewrite (So r y Hy), (Sw r w Hw); lia|].
    intros c s i x Hc Hx j Hj. apply (K r w c s i Hw) in Hc. pose proof Hc as L0. destruct L0 as (d & _ & _ & _ & Ed & _).
    assert (zget y (c * width + j) = zget x (i * width + j)) as E.
    { eapply Go; eauto. rewrite (NoR s d Ed). reflexivity. }
    destruct (item_link_range ds cnt W _ _ _ _ Hc) as [B _]. destruct (zget_in_range ranks s) as (a & Ha); [rewrite <- Lds; eapply zget_bounds; eauto|].
    rewrite (Sn s a Ha) in B. destruct (zget_in_range x (i * width + j)) as (v & Hv); [rewrite (Hd s a x Ha Hx); nia|].
    exists v. split; congruence.
Qed.
End who.

(** * set_dest_ranks: where the items go *)
Section dest.
Context (ranks : list (list Z)) (ds : list dist).
Hypothesis ok : ranks_exist ranks.
Hypothesis fits : zlen ranks <= i32_max + 1.
Hypothesis made : set_dest_ranks ranks = Ok ds.
Let cnt := count_to ranks.

Lemma made_ok : zlen ds = zlen ranks /\ wf_world ds cnt /\
  (forall s d a, zget ds s = Ok d -> zget ranks s = Ok a -> exists p f u, d =
     Dist None (Some p) f (GraphComm (filter (fun t => match zget ranks t with Ok b => inb s b | _ => false end) (zrange (zlen ranks))) u)
          None None (msgs2content_R d) (graph_inverse (comm_F d)) /\ final a p f u) /\
  (forall s a, zget ranks s = Ok a -> sent (map comm_F ds) cnt s = zlen a).
Proof.
  destruct (set_dest_ranks_ok ranks (ranks_exist_in ranks ok) fits) as (ds' & E & K). assert (ds' = ds) as -> by congruence. exact K.
Qed.

Lemma link_content s c r c' i d a : linked (map comm_F ds) cnt s c r c' -> zget ds s = Ok d -> zget ranks s = Ok a ->
  content_of (items2content_F d) i c -> zget a i = Ok r /\
  exists h j lo', zget ds r = Ok h /\ zget (sources (comm_F h)) j = Ok s /\
    zget (offset_scan (map (fun q => cnt q r) (sources (comm_F h)))) j = Ok lo' /\ c' = lo' + earlier a i r.
Proof.
  intros L Hd Ha C. destruct made_ok as (Ln & W & Gd & Sn). destruct (Gd s d a Hd Ha) as (p & f & u & E & F).
  destruct (linked_sent _ _ _ _ (wf_wired _ _ W) _ _ _ _ L) as (g & k & Hg & Hk & G & B).
  rewrite E in C. cbn in C. rewrite (zget_map_ok _ _ _ _ Hd) in Hg. injection Hg as <-.
  destruct (degrees_final a p f u (a_fits ranks (ranks_exist_in ranks ok) fits s a Ha) F) as (_ & Ef & _).
  assert (map (cnt s) (destinations (comm_F d)) = map (same a) u) as Em.
  { rewrite E. cbn. apply map_ext. intros x. unfold cnt, count_to. rewrite Ha. reflexivity. }
  rewrite Em, <- Ef in G. destruct F as (F1 & F2 & F3 & F4 & F5 & F6 & F7 & F8).
  destruct (zget_in_range a i) as (x & Hx); [rewrite <- F1; eapply zget_bounds; eauto|].
  rewrite (F8 i x Hx) in C. injection C as C. rewrite E in Hk. cbn in Hk. destruct (F7 k r Hk) as [G1 G2].
  pose proof (rank_range a i x Hx) as R. destruct G as (lo & hi & Hlo & Hhi & Bc). rewrite Hlo in G1. injection G1 as ->. rewrite Hhi in G2. injection G2 as ->.
  assert (x = r) as ->.
  { destruct (Z.lt_trichotomy x r) as [H1|[H1|H1]]; [|exact H1|].
    - pose proof (upto_below a x r H1). lia.
    - pose proof (upto_below a r x H1). lia. }
  split; [exact Hx|].
  destruct L as (g & h & i0 & j & lo & lo' & k0 & Q1 & Q2 & Q3 & Q4 & Q5 & Q6 & Q7 & Q8 & Q9).
  rewrite (zget_map_ok _ _ _ _ Hd) in Q1. injection Q1 as <-. apply zget_map_inv in Q2 as (hd & Hhd & ->).
  exists hd, j, lo'. split; [exact Hhd|]. split; [exact Q4|]. split; [exact Q6|]. rewrite Q9. f_equal.
  rewrite E in Q3. cbn in Q3. assert (i0 = k) as -> by (eapply NoDup_zget; eauto using sorted_NoDup).
  rewrite Em, <- Ef, Hlo in Q5. injection Q5 as <-. unfold rank in C. lia.
Qed.

Lemma link_dest (ds2 : list dist) : zlen ds2 = zlen ds -> map comm_F ds2 = map comm_F ds ->
  (forall s d e, zget ds s = Ok d -> zget ds2 s = Ok e -> items2content_F e = items2content_F d) ->
  forall s i r i', item_link ds2 cnt s i r i' -> goes_to ranks s i r.
Proof.
  intros L2 Ec Ei s i r i' (e & e' & c & c' & He & He' & C1 & L & C2). rewrite Ec in L. destruct made_ok as (Ln & W & Gd & Sn).
  pose proof (zget_bounds _ _ _ He) as B. destruct (zget_in_range ds s ltac:(lia)) as (d & Hd). destruct (zget_in_range ranks s ltac:(lia)) as (a & Ha).
  rewrite (Ei s d e Hd He) in C1. destruct (link_content s c r c' i d a L Hd Ha C1) as [K _]. exists a. auto.
Qed.

Lemma no_roots s d : zget ds s = Ok d -> roots2items_F d = None /\ items2content_R d = None /\ roots2items_R d = None.
Proof.
  intros Hd. destruct made_ok as (Ln & W & Gd & Sn). destruct (zget_in_range ranks s) as (a & Ha); [rewrite <- Ln; eapply zget_bounds; eauto|].
  destruct (Gd s d a Hd Ha) as (p & f & u & E & _). rewrite E. auto.
Qed.

Lemma arrival_order s i r c s2 i2 c2 : item_link ds cnt s i r c -> item_link ds cnt s2 i2 r c2 -> (c < c2 <-> s < s2 \/ (s = s2 /\ i < i2)).
Proof.
  intros (d & h & k & k' & Hd & Hh & C1 & L & C2) (d2 & h2 & k2 & k2' & Hd2 & Hh2 & D1 & M & D2).
  destruct made_ok as (Ln & W & Gd & Sn).
  assert (h2 = h) as -> by congruence. destruct (no_roots r h Hh) as (_ & Er & _). rewrite Er in C2, D2. cbn in C2, D2. subst k' k2'.
  destruct (zget_in_range ranks s) as (a & Ha); [rewrite <- Ln; eapply zget_bounds; eauto|].
  destruct (zget_in_range ranks s2) as (a2 & Ha2); [rewrite <- Ln; eapply zget_bounds; eauto|].
  destruct (link_content _ _ _ _ i d a L Hd Ha C1) as (Hi & h1 & j & lo & Q1 & Q2 & Q3 & ->).
  destruct (link_content _ _ _ _ i2 d2 a2 M Hd2 Ha2 D1) as (Hi2 & h2 & j2 & lo2 & P1 & P2 & P3 & ->).
  assert (h1 = h) as -> by congruence. assert (h2 = h) as -> by congruence.
  assert (StronglySorted Z.lt (sources (comm_F h))) as HS.
  { destruct (zget_in_range ranks r) as (b & Hb); [rewrite <- Ln; eapply zget_bounds; eauto|].
    destruct (Gd r h b Hh Hb) as (p & f & u & E & _). rewrite E. cbn. apply sorted_filter, zrange_sorted. }
  assert (forall b i r, zget b i = Ok r -> earlier b i r < same b r) as EL.
  { intros b k0 x Hx. rewrite <- earlier_all. apply earlier_lt; [exact Hx|]. pose proof (zget_bounds _ _ _ Hx). lia. }
  assert (forall b i r, 0 <= earlier b i r) as EN by (intros; apply count_nonneg).
  pose proof (rfan _ _ _ _ (wf_wired _ _ W) r (comm_F h) (zget_map_ok _ _ _ _ Hh)) as Fr.
  assert (forall j j2 s s2 lo lo2 e e2 a, zget (sources (comm_F h)) j = Ok s -> zget (sources (comm_F h)) j2 = Ok s2 ->
    zget (offset_scan (map (fun q => cnt q r) (sources (comm_F h)))) j = Ok lo -> zget (offset_scan (map (fun q => cnt q r) (sources (comm_F h)))) j2 = Ok lo2 ->
    zget ranks s = Ok a -> e < same a r -> 0 <= e2 -> s < s2 -> lo + e < lo2 + e2) as Mono.
  { intros x x2 t t2 l l2 e e2 b X1 X2 X3 X4 X5 X6 X7 X8. destruct (Z.lt_trichotomy x x2) as [H|[H|H]].
    - destruct (offset_scan_step (map (fun q => cnt q r) (sources (comm_F h))) x (cnt t r)) as (l' & Y1 & Y2); [apply (zget_map_ok (fun q => cnt q r)); exact X1|].
      assert (l' = l) as -> by congruence. pose proof (fan_mono _ (x + 1) x2 _ _ Fr Y2 X4 ltac:(lia)). unfold cnt, count_to in H0. rewrite X5 in H0. lia.
    - subst x2. assert (t2 = t) by congruence. lia.
    - pose proof (strongly_sorted_zget _ x2 x _ _ HS X2 X1 H). lia. }
  destruct (Z.lt_trichotomy s s2) as [H|[H|H]].
  - split; [left; exact H|]. intros _. eapply (Mono j j2); eauto.
  - subst s2. assert (a2 = a) as -> by congruence. assert (j2 = j) as -> by (eapply NoDup_zget; eauto using sorted_NoDup).
    assert (lo2 = lo) as -> by congruence. destruct (Z.lt_trichotomy i i2) as [H'|[H'|H']].
    + pose proof (earlier_lt a i i2 r Hi H'). split; [right; split; [reflexivity|exact H']|lia].
    + subst i2. split; lia.
    + pose proof (earlier_lt a i2 i r Hi2 H'). split; lia.
  - assert (lo2 + earlier a2 i2 r < lo + earlier a i r) by (eapply (Mono j2 j); eauto). split; lia.
Qed.
End dest.
