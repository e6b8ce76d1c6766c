From Verif Require Import Prelude M_Array M_Par M_Scan S_Scan M_Sort S_Sort M_Map S_Map M_Dist S_Dist P_Array P_Scan P_Map P_Map2 P_Fan P_Dist P_Dist2 P_Dist3 P_Dist4 P_Dist5 P_Dist6.
Local Open Scope Z_scope.

(** * Distributors that take items to places on other ranks, however they were made *)
Record link (ds : list dist) (cnt : Z -> Z -> Z) (ranks idxs : list (list Z)) (nroots : list Z) : Prop := {
  k_world : wf_world ds cnt;
  k_len : zlen ds = zlen ranks;
  k_sent : forall s a, zget ranks s = Ok a -> sent (map comm_F ds) cnt s = zlen a;
  k_noroot : forall s d, zget ds s = Ok d -> roots2items_F d = None;
  k_dest : forall s i r i', item_link ds cnt s i r i' -> goes_to ranks s i r;
  k_fan : forall r d k, zget ds r = Ok d -> zget nroots r = Ok k -> exists f, roots2items_R d = Some f /\ zlen f = k + 1 /\ is_fan f /\
     last_of f = Ok (received (map comm_F ds) cnt r) /\
     forall s i i' q, item_link ds cnt s i r i' -> (goes_to idxs s i q <-> in_group f q i');
  k_perm : forall r d, zget ds r = Ok d -> exists p, items2content_R d = Some p;
  k_exist : ranks_exist ranks;
  k_addr : addressed ranks idxs nroots
}.

Lemma invert_invert ds : invert (invert ds) = ds.
Proof. unfold invert. rewrite map_map. rewrite <- (map_id ds) at 2. apply map_ext. intros []. reflexivity. Qed.
Lemma invert_traffic ds cnt : wf_world ds cnt ->
  forall r, sent (map comm_F (invert ds)) (fun s r => cnt r s) r = received (map comm_F ds) cnt r /\
            received (map comm_F (invert ds)) (fun s r => cnt r s) r = sent (map comm_F ds) cnt r.
Proof.
  intros W r. assert (map comm_F (invert ds) = map graph_inverse (map comm_F ds)) as EF.
  { unfold invert. rewrite map_map. exact (comm_R_map ds cnt W). }
  rewrite EF. split; [apply sent_inverse|]. pose proof (sent_inverse (map graph_inverse (map comm_F ds)) (fun s r => cnt r s) r) as E.
  rewrite map_graph_inverse2 in E. symmetry. exact E.
Qed.

Section made.
Context (inv : Z -> list Z -> Z -> res (list Z * list Z)) (ranks idxs : list (list Z)) (nroots : list Z).
Hypothesis Hinv : inverter inv.
Hypothesis ok : ranks_exist ranks.
Hypothesis fits : zlen ranks <= i32_max + 1.
Hypothesis Had : addressed ranks idxs nroots.
Context (ds : list dist).
Hypothesis made : make_dist inv ranks idxs nroots = Ok ds.

Lemma made_perm r d : zget ds r = Ok d -> exists p, items2content_R d = Some p.
Proof.
  intros Hd. revert made. unfold make_dist, set_dest_idxs. intros M. apply bind_ok in M as (ds1 & _ & M). apply bind_ok in M as (c & _ & M).
  apply tabulate_ok in M as [L G]; [|apply zlen_nonneg]. destruct (G r) as (e & E & E'); [rewrite <- L; eapply zget_bounds; eauto|].
  assert (e = d) as -> by congruence. repeat (apply bind_ok in E as (? & _ & E)). destruct x2 as [a2ab ab2b]. injection E as <-. cbn. eauto.
Qed.
Lemma make_dist_link : link ds (count_to ranks) ranks idxs nroots.
Proof.
  destruct (make_dist_ok inv ranks idxs nroots Hinv ok fits Had) as (ds1 & ds' & E1 & E2 & L & W & Ec & Sn & NR & Dst & Sm & Gf). assert (ds' = ds) as -> by congruence.
  constructor; auto. exact made_perm.
Qed.
End made.

Section link.
Context (ds : list dist) (cnt : Z -> Z -> Z) (ranks idxs : list (list Z)) (nroots : list Z).
Hypothesis K : link ds cnt ranks idxs nroots.

(** ** what the server of a place sees *)
Lemma server_view : exists who, routes ranks who /\
  (forall A (data : list (list A)) width, 0 < width -> data_per_item ranks data width ->
    exists out, exch ds data width = Ok out /\ delivered who data out width) /\
  (forall r w k, zget who r = Ok w -> zget nroots r = Ok k ->
    exists f, is_fan f /\ zlen f = k + 1 /\ last_of f = Ok (zlen w) /\
    (exists d, zget ds r = Ok d /\ roots2items_R d = Some f) /\
    forall c s i q, zget w c = Ok (s, i) -> (in_group f q c <-> goes_to idxs s i q)) /\
  zlen ds = zlen ranks /\ mapM nitems ds = Ok (map zlen ranks) /\
  (forall r d w, zget ds r = Ok d -> zget who r = Ok w -> exists m, items2msgs (invert1 d) = Ok m /\ zlen m = zlen w /\
     forall c s i, zget w c = Ok (s, i) -> exists j, zget m c = Ok j /\ zget (msgs2ranks (invert1 d)) j = Ok s) /\
  (forall A (x : list A), zlen x = zlen ranks -> exists out, allgather (map comm_F ds) x = Ok out /\ zlen out = zlen ranks /\
     forall r d y j s, zget ds r = Ok d -> zget out r = Ok y -> zget (msgs2ranks (invert1 d)) j = Ok s -> zget y j = zget x s) /\
  (forall r w i' s i, zget who r = Ok w -> (zget w i' = Ok (s, i) <-> item_link ds cnt s i r i')) /\
  (forall r w, zget who r = Ok w -> zlen w = received (map comm_F ds) cnt r).
Proof.
  destruct K as [W L Sn NR Dst Gf Pm _ _].
  destruct (who_exists ranks ds cnt W L Sn NR Dst) as (who & Rw & Kw & Sw & Xw). exists who. split; [exact Rw|]. split; [exact Xw|].
  split.
  { intros r w k Hw Hk. destruct (zget_in_range ds r) as (d & Hd); [rewrite L, <- (proj1 Rw); eapply zget_bounds; eauto|].
    destruct (Gf r d k Hd Hk) as (f & Ef & Lf & Ff & Ll & G). exists f. split; [exact Ff|]. split; [exact Lf|].
    split; [rewrite (Sw r w Hw); exact Ll|]. split; [eauto|].
    intros c s i q Hc. apply (Kw r w c s i Hw) in Hc. rewrite (G s i c q Hc). tauto. }
  split; [exact L|]. split.
  { destruct (mapM_rel nitems ds (fun s d y => exists a, zget ranks s = Ok a /\ y = zlen a)) as (o & Eo & Lo & Go).
    - intros s d Hd. destruct (zget_in_range ranks s) as (a & Ha); [rewrite <- L; eapply zget_bounds; eauto|]. exists (zlen a). split; [|eauto].
      unfold nitems. rewrite (msgs_last ds cnt W s d Hd), (Sn s a Ha). reflexivity.
    - rewrite Eo. f_equal. apply list_eq_zget; [rewrite zlen_map; lia|]. intros s Hs. destruct (zget_in_range o s Hs) as (y & Hy).
      destruct (zget_in_range ds s ltac:(lia)) as (d & Hd). destruct (Go s d y Hd Hy) as (a & Ha & ->). rewrite Hy, (zget_map_ok _ _ _ _ Ha). reflexivity. }
  pose proof (wf_wired _ _ W) as Ww.
  assert (forall r d, zget ds r = Ok d -> msgs2ranks (invert1 d) = sources (comm_F d)) as Mr.
  { intros r d Hd. unfold msgs2ranks. cbn. rewrite (wf_inv _ _ W r d Hd). reflexivity. }
  split; [|split; [|split; [exact Kw|exact Sw]]].
  - intros r d w Hd Hw. destruct (Pm r d Hd) as (p & Ep).
    pose proof (w_rd _ _ _ _ Ww r (comm_F d) (zget_map_ok _ _ _ _ Hd)) as Ef. rewrite (zget_map_ok _ _ _ _ Hd) in Ef. injection Ef as Ef.
    pose proof (rfan _ _ _ _ Ww r (comm_F d) (zget_map_ok _ _ _ _ Hd)) as Ff. rewrite <- Ef in Ff.
    destruct (invert_fan_spec _ Ff) as (m & n & En & Em & Lm & Gm).
    assert (n = received (map comm_F ds) cnt r) as ->.
    { rewrite Ef, offset_scan_last in En. unfold received. rewrite (zget_map_ok _ _ _ _ Hd). congruence. }
    pose proof (wf_pR _ _ W r d Hd) as P. rewrite Ep in P. destruct P as [P Lp].
    unfold items2msgs, content2msgs. cbn [invert1 items2content_F msgs2content_F]. rewrite Ep, Em. cbn [bind].
    destruct (unmap_spec p m 1 ltac:(lia)) as (x & Ex & Lx & Gx); [apply perm_maps_into; [lia|exact P|lia]|]. exists x. split; [exact Ex|].
    split; [rewrite Lx, Lp, (Sw r w Hw); lia|]. intros c s i Hc. apply (Kw r w c s i Hw) in Hc.
    destruct Hc as (d1 & d2 & c1 & c2 & Hd1 & Hd2 & C1 & Lk & C2). assert (d2 = d) as -> by congruence. rewrite Ep in C2. cbn in C2.
    apply linked_flip in Lk. destruct (linked_sent _ _ _ _ (wired_inverse _ _ _ _ Ww) _ _ _ _ Lk) as (g & j & Hg & Hj & G & _).
    apply map_graph_inverse in Hg as (h & Hh & ->). rewrite (zget_map_ok _ _ _ _ Hd) in Hh. injection Hh as <-. cbn in Hj, G. rewrite <- Ef in G.
    exists j. split; [|rewrite (Mr r d Hd); exact Hj]. pose proof (Gx c c2 0 C2 ltac:(lia)) as Gc. replace (c * 1 + 0) with c in Gc by lia. rewrite Gc.
    rewrite Z.mul_1_r, Z.add_0_r. apply Gm, G.
  - intros A x Lx. unfold allgather. rewrite (all_expected_ok _ _ _ _ Ww). cbn [bind].
    destruct (tabulate_rel (zlen (map comm_F ds)) (fun r => gr <- zget (map comm_F ds) r ;; tabulate (zlen (sources gr)) (fun j => '(s, i) <- match_msg (map comm_F ds) r j ;; zget x s))
      (fun r y => exists d, zget ds r = Ok d /\ forall j s, zget (sources (comm_F d)) j = Ok s -> zget y j = zget x s)) as (out & Eo & Lo & Go); [apply zlen_nonneg| |].
    + rewrite zlen_map. intros r Hr. destruct (zget_in_range ds r Hr) as (d & Hd). rewrite (zget_map_ok _ _ _ _ Hd). cbn [bind].
      destruct (tabulate_rel (zlen (sources (comm_F d))) (fun j => '(s, i) <- match_msg (map comm_F ds) r j ;; zget x s)
        (fun j v => exists s, zget (sources (comm_F d)) j = Ok s /\ zget x s = Ok v)) as (y & Ey & Ly & Gy); [apply zlen_nonneg| |].
      * intros j Hj. destruct (zget_in_range _ j Hj) as (s & Hs). destruct (match_msg_ok _ _ _ _ Ww r (comm_F d) j s (zget_map_ok _ _ _ _ Hd) Hs) as (g & i & Hg & _ & Em).
        rewrite Em. cbn [bind]. apply zget_bounds in Hg. rewrite zlen_map in Hg. destruct (zget_in_range x s ltac:(lia)) as (v & Hv). exists v. eauto.
      * exists y. split; [exact Ey|]. exists d. split; [exact Hd|]. intros j s Hs. destruct (zget_in_range y j) as (v & Hv); [rewrite Ly; eapply zget_bounds; eauto|].
        destruct (Gy j v Hv) as (s' & Hs' & Hv'). congruence.
    + rewrite zlen_map in Lo. exists out. split; [exact Eo|]. split; [lia|]. intros r d y j s Hd Hy Hj. destruct (Go r y Hy) as (d' & Hd' & H).
      assert (d' = d) as -> by congruence. rewrite (Mr r d Hd) in Hj. auto.
Qed.

(** ** data of the places reaches the items *)
Lemma link_returns : forall A (data : list (list A)) width, 0 < width -> data_per_root nroots data width ->
  exists back, exch (invert ds) data width = Ok back /\ data_per_item ranks back width /\
  forall s i r q x y, goes_to ranks s i r -> goes_to idxs s i q -> zget data r = Ok x -> zget back s = Ok y -> same_block width y i x q.
Proof.
  intros A data width Hw [Ld Hd]. destruct K as [W L Sn NR Dst Gf Pm Re (A1 & A2 & A3 & A4 & A5)].
  pose proof (wf_invert ds cnt W) as W2. assert (zlen (invert ds) = zlen ds) as Li by apply zlen_map.
  assert (forall r d k, zget ds r = Ok d -> zget nroots r = Ok k -> nsrcs (invert1 d) = Ok k) as Ns.
  { intros r d k Hd1 Hk. destruct (Gf r d k Hd1 Hk) as (f & Ef & Lf & _). unfold nsrcs. cbn. rewrite Ef. f_equal. lia. }
  destruct (exch_ok (invert ds) _ W2 data width Hw ltac:(lia)) as (back & Eb & Lb & Sb & Gb).
  { intros r d x Ed Ex. apply zget_map_inv in Ed as (e & He & ->). destruct (zget_in_range nroots r) as (k & Hk); [rewrite <- Ld; eapply zget_bounds; eauto|].
    exists k. split; [eapply Ns; eauto|eapply Hd; eauto]. }
  exists back. split; [exact Eb|]. split.
  { split; [lia|]. intros s a x Ha Hx. rewrite (Sb s x Hx), (proj2 (invert_traffic ds cnt W s)), (Sn s a Ha). reflexivity. }
  intros s i r q x y Hr Hq Hx Hy j Hj. pose proof Hr as Hr0. destruct Hr0 as (a & Ha & Hi). pose proof (zget_bounds _ _ _ Ha) as Bs.
  destruct (zget_in_range ds s ltac:(lia)) as (d & Ed).
  destruct (item_link_total ds cnt W s d i Ed) as (r' & i' & Lk); [rewrite (Sn s a Ha); eapply zget_bounds; eauto|].
  destruct (Dst s i r' i' Lk) as (a' & Ha' & Hi'). assert (r' = r) as -> by congruence.
  pose proof Lk as L0. destruct L0 as (_ & e & _ & _ & _ & Ee & _).
  destruct (A5 s i r q Hr Hq) as (k & Hk & Bq). destruct (Gf r e k Ee Hk) as (f & Ef & Lf & Ff & _ & G).
  pose proof (proj1 (G s i i' q Lk) Hq) as Gr.
  assert (zget y (i * width + j) = zget x (q * width + j)) as E.
  { eapply (Gb r i' s i (invert1 e) q x y j); [apply item_link_flip; [exact W|exact Lk]|apply zget_map_ok; exact Ee| |exact Hx|exact Hy|exact Hj].
    cbn. rewrite Ef. exact Gr. }
  destruct (zget_in_range x (q * width + j)) as (v & Hv); [rewrite (Hd r k x Hk Hx); nia|]. exists v. split; congruence.
Qed.
End link.
