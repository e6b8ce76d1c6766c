From Verif Require Import Prelude M_Array M_Par M_Scan S_Scan M_Sort S_Sort M_Map S_Map M_Dist S_Dist P_Array P_Scan P_Map P_Fan P_Sort P_SortSmall P_Invert P_Dist P_Dist2 P_Dist3 P_Dist4.
Local Open Scope Z_scope.

Lemma invert_invert ds : invert (invert ds) = ds.
Proof. unfold invert. rewrite map_map. rewrite <- (map_id ds) at 2. apply map_ext. intros []; reflexivity. Qed.

(** ** changing what happens to received content *)
Lemma retarget ds cnt ds2 : wf_world ds cnt -> zlen ds2 = zlen ds ->
  (forall r d e, zget ds r = Ok d -> zget ds2 r = Ok e ->
     roots2items_F e = roots2items_F d /\ items2content_F e = items2content_F d /\ msgs2content_F e = msgs2content_F d /\ comm_F e = comm_F d /\
     msgs2content_R e = msgs2content_R d /\ comm_R e = comm_R d /\
     perm_ok (items2content_R e) (received (map comm_F ds) cnt r) /\ fan_ok (roots2items_R e) (received (map comm_F ds) cnt r)) ->
  map comm_F ds2 = map comm_F ds /\ wf_world ds2 cnt.
Proof.
  intros W L H.
  assert (forall B (f : dist -> B), (forall r d e, zget ds r = Ok d -> zget ds2 r = Ok e -> f e = f d) -> map f ds2 = map f ds) as M.
  { intros B f Hf. apply list_eq_zget; [rewrite !zlen_map; exact L|]. rewrite zlen_map. intros r Hr.
    destruct (zget_in_range ds2 r Hr) as (e & He). destruct (zget_in_range ds r ltac:(lia)) as (d & Hd).
    rewrite (zget_map_ok _ _ _ _ He), (zget_map_ok _ _ _ _ Hd), (Hf r d e Hd He). reflexivity. }
  assert (map comm_F ds2 = map comm_F ds) as E1 by (apply M; intros r d e Hd He; apply (H r d e Hd He)).
  split; [exact E1|].
  assert (forall r e, zget ds2 r = Ok e -> exists d, zget ds r = Ok d) as Q.
  { intros r e He. pose proof (zget_bounds _ _ _ He). apply zget_in_range. lia. }
  constructor.
  - rewrite E1. rewrite (M _ msgs2content_F) by (intros r d e Hd He; apply (H r d e Hd He)).
    rewrite (M _ msgs2content_R) by (intros r d e Hd He; apply (H r d e Hd He)). apply W.
  - intros r e He. destruct (Q r e He) as (d & Hd). destruct (H r d e Hd He) as (_ & _ & _ & -> & _ & -> & _). eapply wf_inv; eauto.
  - intros r e He. destruct (Q r e He) as (d & Hd). destruct (H r d e Hd He) as (_ & -> & _). rewrite E1. eapply wf_pF; eauto.
  - intros r e He. destruct (Q r e He) as (d & Hd). rewrite E1. apply (H r d e Hd He).
  - intros r e He. destruct (Q r e He) as (d & Hd). destruct (H r d e Hd He) as (-> & _). rewrite E1. eapply wf_fF; eauto.
  - intros r e He. destruct (Q r e He) as (d & Hd). rewrite E1. apply (H r d e Hd He).
Qed.

Section made.
Context (inv : Z -> list Z -> Z -> res (list Z * list Z)) (ranks idxs : list (list Z)) (nroots : list Z).
Hypothesis Hinv : inverter inv.
Hypothesis ok : ranks_exist ranks.
Hypothesis fits : zlen ranks <= i32_max + 1.
Hypothesis Had : addressed ranks idxs nroots.
Let cnt := count_to ranks.

Lemma make_dist_ok : exists ds1 ds, set_dest_ranks ranks = Ok ds1 /\ make_dist inv ranks idxs nroots = Ok ds /\
  zlen ds = zlen ranks /\ wf_world ds cnt /\ map comm_F ds = map comm_F ds1 /\
  (forall s a, zget ranks s = Ok a -> sent (map comm_F ds) cnt s = zlen a) /\
  (forall s d, zget ds s = Ok d -> roots2items_F d = None) /\
  (forall s i r i', item_link ds cnt s i r i' -> goes_to ranks s i r) /\
  (forall s d e, zget ds1 s = Ok d -> zget ds s = Ok e -> items2content_F e = items2content_F d /\ msgs2content_F e = msgs2content_F d /\ comm_F e = comm_F d) /\
  (forall r d k, zget ds r = Ok d -> zget nroots r = Ok k -> exists f, roots2items_R d = Some f /\ zlen f = k + 1 /\ is_fan f /\
     last_of f = Ok (received (map comm_F ds) cnt r) /\
     forall s i i' q, item_link ds cnt s i r i' -> (goes_to idxs s i q <-> in_group f q i')).
Proof.
  destruct Had as (A1 & A2 & A3 & A4 & A5).
  destruct (set_dest_ranks_ok ranks (ranks_exist_in ranks ok) fits) as (ds1 & E1 & L1 & W & Gd & Sn). fold cnt in W, Sn.
  assert (forall s d, zget ds1 s = Ok d -> roots2items_F d = None /\ items2content_R d = None /\ roots2items_R d = None) as NR by exact (no_roots ranks ds1 ok fits E1).
  assert (forall s i r i', item_link ds1 cnt s i r i' -> goes_to ranks s i r) as Dst.
  { apply (link_dest ranks ds1 ok fits E1 ds1); [reflexivity|reflexivity|]. intros s d e H1 H2. congruence. }
  destruct (who_exists ranks ds1 cnt W L1 Sn (fun s d H => proj1 (NR s d H)) Dst) as (who & Rw & Kw & Sw & Xw).
  assert (data_per_item ranks idxs 1) as Di by (split; [exact A1|]; intros s a x Ha Hx; rewrite (A3 s a x Ha Hx); lia).
  destruct (Xw Z idxs 1 ltac:(lia) Di) as (c & Ec & Lc & Gc).
  unfold make_dist. rewrite E1. cbn [bind]. unfold set_dest_idxs. rewrite Ec. cbn [bind].
  assert (forall r x, zget c r = Ok x -> exists w, zget who r = Ok w /\ zlen x = zlen w /\
    forall i' s i, zget w i' = Ok (s, i) -> forall q, zget x i' = Ok q <-> goes_to idxs s i q) as Kc.
  { intros r x Hx. destruct (zget_in_range who r) as (w & Hw); [rewrite <- Lc; eapply zget_bounds; eauto|].
    destruct (Gc r w x Hw Hx) as [Lx Gx]. exists w. split; [exact Hw|]. split; [lia|]. intros i' s i Hi' q.
    pose proof (proj1 (Kw r w i' s i Hw) Hi') as Li. destruct (Dst s i r i' Li) as (a & Ha & _).
    destruct (zget_in_range idxs s) as (b & Hb); [rewrite A1; eapply zget_bounds; eauto|].
    destruct (Gx i' s i b Hi' Hb 0 ltac:(lia)) as (v & V1 & V2). replace (i' * 1 + 0) with i' in V1 by lia. replace (i * 1 + 0) with i in V2 by lia.
    rewrite V1. unfold goes_to. split; [intros [= <-]; exists b; auto|]. intros (b' & Hb' & Hq). congruence. }
  destruct Rw as [Lw Rw].
  destruct (tabulate_rel (zlen ds1) (fun r => d <- zget ds1 r ;; c <- zget c r ;; nr <- zget nroots r ;; '(a2ab, ab2b) <- inv r c nr ;;
      Ok (Dist (roots2items_F d) (items2content_F d) (msgs2content_F d) (comm_F d) (Some a2ab) (Some ab2b) (msgs2content_R d) (comm_R d)))
    (fun r e => exists d x k f p, zget ds1 r = Ok d /\ zget c r = Ok x /\ zget nroots r = Ok k /\ inverts x k f p /\
      e = Dist (roots2items_F d) (items2content_F d) (msgs2content_F d) (comm_F d) (Some f) (Some p) (msgs2content_R d) (comm_R d)))
    as (ds & Ed & Ld & Ge); [apply zlen_nonneg| |].
  { intros r Hr. destruct (zget_in_range ds1 r Hr) as (d & Hd). destruct (zget_in_range c r ltac:(lia)) as (x & Hx).
    destruct (zget_in_range nroots r ltac:(lia)) as (k & Hk). rewrite Hd, Hx, Hk. cbn [bind].
    destruct (Hinv r x k (A4 r k Hk)) as (f & p & Ei & Hi).
    { intros q Hq. apply In_zget in Hq as (i' & Hq). destruct (Kc r x Hx) as (w & Hw & Lx & Kx).
      destruct (zget_in_range w i') as ([s i] & Hsi); [rewrite <- Lx; eapply zget_bounds; eauto|].
      pose proof (proj1 (Kx i' s i Hsi q) Hq) as G. pose proof (proj1 (Kw r w i' s i Hw) Hsi) as Li.
      destruct (A5 s i r q (Dst _ _ _ _ Li) G) as (k' & Hk' & B). congruence. }
    rewrite Ei. cbn [bind]. eexists. split; [reflexivity|]. exists d, x, k, f, p. auto. }
  exists ds1, ds. split; [reflexivity|]. split; [exact Ed|]. split; [lia|].
  destruct (retarget ds1 cnt ds W ltac:(lia)) as [Ecm W2].
  { intros r d e Hd He. destruct (Ge r e He) as (d' & x & k & f & p & Hd' & Hx & Hk & Iv & ->). assert (d' = d) as -> by congruence. cbn.
    destruct (Kc r x Hx) as (w & Hw & Lx & _). rewrite <- (Sw r w Hw), <- Lx. destruct Iv as (I1 & I2 & I3 & I4 & I5 & I6).
    split; [reflexivity|]. split; [reflexivity|]. split; [reflexivity|]. split; [reflexivity|]. split; [reflexivity|]. split; [reflexivity|].
    split; [split; [exact I5|exact I4]|]. split; [exact I1|]. unfold last_of. rewrite I2. replace (k + 1 - 1) with k by lia. exact I3. }
  split; [exact W2|]. split; [exact Ecm|]. split; [intros s a Ha; rewrite Ecm; apply Sn; exact Ha|].
  split.
  { intros s e He. destruct (Ge s e He) as (d & x & k & f & p & Hd & _ & _ & _ & ->). cbn. apply (NR s d Hd). }
  assert (forall s d e, zget ds1 s = Ok d -> zget ds s = Ok e -> items2content_F e = items2content_F d /\ msgs2content_F e = msgs2content_F d /\ comm_F e = comm_F d) as Sm.
  { intros s d e Hd He. destruct (Ge s e He) as (d' & x & k & f & p & Hd' & _ & _ & _ & ->). assert (d' = d) as -> by congruence. auto. }
  split.
  { apply (link_dest ranks ds1 ok fits E1 ds); [lia|exact Ecm|]. intros s d e Hd He. apply (Sm s d e Hd He). }
  split; [exact Sm|].
  intros r e k He Hk. destruct (Ge r e He) as (d & x & k' & f & p & Hd & Hx & Hk' & Iv & ->). assert (k' = k) as -> by congruence.
  destruct Iv as (I1 & I2 & I3 & I4 & I5 & I6). exists f. split; [reflexivity|]. split; [exact I2|]. split; [exact I1|].
  destruct (Kc r x Hx) as (w & Hw & Lx & Kx).
  split; [unfold last_of; rewrite I2; replace (k + 1 - 1) with k by lia; rewrite I3, Ecm, <- (Sw r w Hw); f_equal; exact Lx|].
  intros s i i' q (e1 & e2 & c1 & c2 & He1 & He2 & C1 & Lk & C2). assert (e2 = Dist (roots2items_F d) (items2content_F d) (msgs2content_F d) (comm_F d) (Some f) (Some p) (msgs2content_R d) (comm_R d)) as -> by congruence.
  cbn in C2. rewrite Ecm in Lk.
  destruct (zget_in_range ds1 s) as (d1 & Hd1); [rewrite <- Ld; eapply zget_bounds; eauto|].
  assert (item_link ds1 cnt s i r c2) as L0.
  { exists d1, d, c1, c2. split; [exact Hd1|]. split; [exact Hd|]. destruct (Sm s d1 e1 Hd1 He1) as (Ei & _). rewrite <- Ei. split; [exact C1|].
    split; [exact Lk|]. destruct (NR r d Hd) as (_ & -> & _). reflexivity. }
  apply (Kw r w c2 s i Hw) in L0. rewrite I6. rewrite <- (Kx c2 s i L0 q). split; [intros H; exists c2; auto|].
  intros (c3 & P3 & X3). congruence.
Qed.

(** ** the theorems *)
Lemma make_dist_total : exists ds, make_dist inv ranks idxs nroots = Ok ds.
Proof. destruct make_dist_ok as (ds1 & ds & _ & E & _). eauto. Qed.

Context (ds : list dist).
Hypothesis made : make_dist inv ranks idxs nroots = Ok ds.

Lemma dist_delivers_lemma : exists who, routes ranks who /\
  (forall A (data : list (list A)) width, 0 < width -> data_per_item ranks data width ->
    exists out, exch ds data width = Ok out /\ delivered who data out width) /\
  (forall r w k, zget who r = Ok w -> zget nroots r = Ok k ->
    exists f, is_fan f /\ zlen f = k + 1 /\ last_of f = Ok (zlen w) /\
    (exists d, zget ds r = Ok d /\ roots2items_R d = Some f) /\
    forall c s i q, zget w c = Ok (s, i) -> (in_group f q c <-> goes_to idxs s i q)).
Proof.
  destruct make_dist_ok as (ds1 & ds' & E1 & E2 & L & W & Ec & Sn & NR & Dst & Sm & Gf). assert (ds' = ds) as -> by congruence.
  destruct (who_exists ranks ds cnt W L Sn NR Dst) as (who & Rw & Kw & Sw & Xw). exists who. split; [exact Rw|]. split; [exact Xw|].
  intros r w k Hw Hk. destruct (zget_in_range ds r) as (d & Hd); [rewrite L, <- (proj1 Rw); eapply zget_bounds; eauto|].
  destruct (Gf r d k Hd Hk) as (f & Ef & Lf & Ff & Ll & G). exists f. split; [exact Ff|]. split; [exact Lf|].
  split; [rewrite (Sw r w Hw); exact Ll|]. split; [eauto|].
  intros c s i q Hc. apply (Kw r w c s i Hw) in Hc. rewrite (G s i c q Hc). tauto.
Qed.

Lemma dist_returns_lemma : forall A (data : list (list A)) width, 0 < width -> data_per_root nroots data width ->
  exists back, exch (invert ds) data width = Ok back /\ data_per_item ranks back width /\
  forall s i r q x y, goes_to ranks s i r -> goes_to idxs s i q -> zget data r = Ok x -> zget back s = Ok y -> same_block width y i x q.
Proof.
  intros A data width Hw [Ld Hd]. destruct Had as (A1 & A2 & A3 & A4 & A5).
  destruct make_dist_ok as (ds1 & ds' & E1 & E2 & L & W & Ec & Sn & NR & Dst & Sm & Gf). assert (ds' = ds) as -> by congruence.
  pose proof (wf_invert ds cnt W) as W2. assert (zlen (invert ds) = zlen ds) as Li by apply zlen_map.
  assert (forall r d k, zget ds r = Ok d -> zget nroots r = Ok k -> nsrcs (invert1 d) = Ok k) as Ns.
  { intros r d k Hd1 Hk. destruct (Gf r d k Hd1 Hk) as (f & Ef & Lf & _). unfold nsrcs. cbn. rewrite Ef. f_equal. lia. }
  destruct (exch_ok (invert ds) _ W2 data width Hw ltac:(lia)) as (back & Eb & Lb & Sb & Gb).
  { intros r d x Ed Ex. apply zget_map_inv in Ed as (e & He & ->). destruct (zget_in_range nroots r) as (k & Hk); [rewrite <- Ld; eapply zget_bounds; eauto|].
    exists k. split; [eapply Ns; eauto|eapply Hd; eauto]. }
  assert (forall s a, zget ranks s = Ok a -> received (map comm_F (invert ds)) (fun s r => cnt r s) s = zlen a) as Rv.
  { intros s a Ha. rewrite <- (Sn s a Ha). assert (map comm_F (invert ds) = map graph_inverse (map comm_F ds)) as EF.
    { unfold invert. rewrite map_map. exact (comm_R_map ds cnt W). }
    rewrite EF. pose proof (sent_inverse (map graph_inverse (map comm_F ds)) (fun s r => cnt r s) s) as E. rewrite map_graph_inverse2 in E. symmetry. exact E. }
  exists back. split; [exact Eb|]. split.
  { split; [lia|]. intros s a x Ha Hx. rewrite (Sb s x Hx), (Rv s a Ha). reflexivity. }
  intros s i r q x y Hr Hq Hx Hy j Hj. pose proof Hr as Hr0. destruct Hr0 as (a & Ha & Hi). pose proof (zget_bounds _ _ _ Ha) as Bs.
  destruct (zget_in_range ds s ltac:(lia)) as (d & Ed).
  destruct (item_link_total ds cnt W s d i Ed) as (r' & i' & Lk); [rewrite (Sn s a Ha); eapply zget_bounds; eauto|].
  destruct (Dst s i r' i' Lk) as (a' & Ha' & Hi'). assert (r' = r) as -> by congruence.
  pose proof Lk as L0. destruct L0 as (_ & e & _ & _ & _ & Ee & _).
  destruct (A5 s i r q Hr Hq) as (k & Hk & Bq). destruct (Gf r e k Ee Hk) as (f & Ef & Lf & Ff & _ & G).
  pose proof (proj1 (G s i i' q Lk) Hq) as Gr.
  assert (zget y (i * width + j) = zget x (q * width + j)) as E.
  { eapply (Gb r i' s i (invert1 e) q x y j); [apply item_link_flip; [exact W|exact Lk]|apply zget_map_ok; exact Ee| |exact Hx|exact Hy|exact Hj].
    cbn. rewrite Ef. exact Gr. }
  destruct (zget_in_range x (q * width + j)) as (v & Hv); [rewrite (Hd r k x Hk Hx); nia|]. exists v. split; congruence.
Qed.

Lemma dist_reduces_lemma : forall A (init : A) join (data : list (list A)) width, 0 < width -> data_per_item ranks data width ->
  exists out, exch_reduce init join ds data width = Ok out /\ data_per_root nroots out width /\
  forall r k y q, zget nroots r = Ok k -> zget out r = Ok y -> 0 <= q < k ->
  exists items, NoDup items /\ (forall s i, In (s, i) items <-> goes_to ranks s i r /\ goes_to idxs s i q) /\
  forall j, 0 <= j < width -> exists vs,
    mapM (fun p => x <- zget data (fst p) ;; zget x (snd p * width + j)) items = Ok vs /\
    zget y (q * width + j) = Ok (fold_left join vs init).
Proof.
  intros A init join data width Hw Dd. destruct Had as (A1 & A2 & A3 & A4 & A5).
  destruct make_dist_ok as (ds1 & ds' & E1 & E2 & L & W & Ec & Sn & NR & Dst & Sm & Gf). assert (ds' = ds) as -> by congruence.
  destruct (who_exists ranks ds cnt W L Sn NR Dst) as (who & (Lw & Rw) & Kw & Sw & Xw).
  destruct (Xw A data width Hw Dd) as (items & Ei & Li & Gi).
  pose proof (data_sizes ranks ds cnt W L Sn NR data width Dd) as Ds. destruct Dd as [Ld Hd].
  destruct (exch_reduce_ok ds cnt W init join data width Hw ltac:(lia) Ds) as (out & items' & Ei' & Eo & Lo & Go).
  { intros r d Hd1. destruct (zget_in_range nroots r) as (k & Hk); [rewrite A2, <- L; eapply zget_bounds; eauto|].
    destruct (Gf r d k Hd1 Hk) as (f & Ef & _). eauto. }
  assert (items' = items) as -> by congruence. exists out. split; [exact Eo|].
  assert (forall r k y, zget nroots r = Ok k -> zget out r = Ok y -> exists d f w x, zget ds r = Ok d /\ roots2items_R d = Some f /\ zlen f = k + 1 /\ is_fan f /\
     last_of f = Ok (zlen w) /\ zget who r = Ok w /\ zget items r = Ok x /\
     (forall s i i' q, item_link ds cnt s i r i' -> (goes_to idxs s i q <-> in_group f q i'))) as K.
  { intros r k y Hk Hy. pose proof (zget_bounds _ _ _ Hy) as B. destruct (zget_in_range ds r ltac:(lia)) as (d & Hd1).
    destruct (Gf r d k Hd1 Hk) as (f & Ef & Lf & Ff & Ll & G). destruct (zget_in_range who r ltac:(lia)) as (w & Hw1).
    destruct (zget_in_range items r ltac:(lia)) as (x & Hx). exists d, f, w, x. rewrite <- (Sw r w Hw1) in Ll. auto 10. }
  split.
  { split; [lia|]. intros r k y Hk Hy. destruct (K r k y Hk Hy) as (d & f & w & x & Hd1 & Ef & Lf & _ & _ & _ & Hx & _).
    destruct (Go r d f y x Hd1 Ef Hx Hy) as [-> _]. rewrite Lf. f_equal. lia. }
  intros r k y q Hk Hy Bq. destruct (K r k y Hk Hy) as (d & f & w & x & Hd1 & Ef & Lf & Ff & Ll & Hw1 & Hx & G).
  destruct (zget_in_range f q ltac:(lia)) as (lo & Hlo). destruct (zget_in_range f (q + 1) ltac:(lia)) as (hi & Hhi).
  destruct (Go r d f y x Hd1 Ef Hx Hy) as [_ Gy].
  pose proof (fan_nonneg _ _ _ Ff Hlo) as Nlo. unfold last_of in Ll. pose proof (fan_mono _ (q + 1) (zlen f - 1) _ _ Ff Hhi Ll ltac:(lia)) as Uhi.
  assert (exists its, mapM (zget w) (zfromto lo hi) = Ok its) as (its & Eits).
  { destruct (mapM_rel (zget w) (zfromto lo hi) (fun _ _ _ => True)) as (o & Eo' & _); [|eauto].
    intros i c Hc. apply zget_In, in_zfromto in Hc. destruct (zget_in_range w c ltac:(lia)) as (v & Hv). eauto. }
  destruct (Rw r w Hw1) as [Nw Iw].
  assert (forall p, In p its <-> exists c, lo <= c < hi /\ zget w c = Ok p) as Iits.
  { intros p. apply mapM_ok in Eits. split.
    - intros Hp. apply In_nth_error in Hp as (m & Hm). destruct (nth_error (zfromto lo hi) m) as [c|] eqn:Ec'.
      + exists c. split; [apply in_zfromto; eapply nth_error_In; eauto|].
        clear -Eits Hm Ec'. revert m Hm Ec'. induction Eits; intros [|m] Hm Ec'; cbn in *; try discriminate; [congruence|eauto].
      + apply nth_error_None in Ec'. apply Forall2_len in Eits. assert (nth_error its m <> None) as H by congruence. apply nth_error_Some in H. lia.
    - intros (c & Bc & Hc). apply in_zfromto in Bc. clear -Eits Bc Hc. induction Eits; [destruct Bc|]. destruct Bc as [->|Bc]; [left; congruence|right; auto]. }
  exists its. split; [|split].
  - apply mapM_ok in Eits. clear -Eits Nw. assert (NoDup (zfromto lo hi)) as N.
    { unfold zfromto. apply FinFun.Injective_map_NoDup; [intros ? ? ?; lia|apply zrange_NoDup]. }
    induction Eits as [|c p l m Hc Hl IH]; constructor; inversion N; subst; auto.
    intros I. apply H1. assert (exists c', In c' l /\ zget w c' = Ok p) as (c' & I' & Hc').
    { clear -Hl I. induction Hl; [destruct I|]. destruct I as [->|I]; [eexists; split; [left; reflexivity|assumption]|].
      destruct (IHHl I) as (c' & ? & ?). exists c'. split; [right; assumption|assumption]. }
    rewrite (NoDup_zget _ _ _ _ Nw Hc Hc'). exact I'.
  - intros s i. rewrite Iits. split.
    + intros (c & Bc & Hc). split; [apply Iw; eapply zget_In; eauto|]. apply (G s i c q); [apply (Kw r w c s i Hw1); exact Hc|].
      exists lo, hi. auto.
    + intros [H1 H2]. apply Iw in H1. apply In_zget in H1 as (c & Hc). exists c. split; [|exact Hc].
      pose proof (proj1 (G s i c q (proj1 (Kw r w c s i Hw1) Hc)) H2) as (lo' & hi' & X1 & X2 & X3). congruence.
  - intros j Hj. destruct (Gy q lo hi j Hlo Hhi Hj) as (vs & Ev & Ey). exists vs. split; [|exact Ey].
    rewrite <- Ev. clear Ev Ey. destruct (Gi r w x Hw1 Hx) as [_ Gx].
    assert (forall l m, mapM (zget w) l = Ok m -> mapM (fun p => x <- zget data (fst p) ;; zget x (snd p * width + j)) m = mapM (fun b => zget x (b * width + j)) l) as Q.
    { induction l as [|c l IH]; intros m Hm; cbn in Hm; [injection Hm as <-; reflexivity|].
      apply bind_ok in Hm as ([s i] & Hc & Hm). apply bind_ok in Hm as (m' & Hm' & Hm). injection Hm as <-. cbn [mapM].
      assert (In (s, i) w) as Is by (eapply zget_In; eauto). apply Iw in Is as (a & Ha & _).
      destruct (zget_in_range data s) as (xs & Hxs); [rewrite Ld; eapply zget_bounds; eauto|].
      destruct (Gx c s i xs Hc Hxs j Hj) as (v & V1 & V2). cbn [fst snd]. rewrite Hxs. cbn [bind]. rewrite V1, V2. cbn [bind]. rewrite (IH m' Hm'). reflexivity. }
    apply Q, Eits.
Qed.

Lemma dist_remembers_lemma : items2dests ds = Ok (ranks, idxs).
Proof.
  destruct make_dist_ok as (ds1 & ds' & E1 & E2 & L & W & Ec & Sn & NR & Dst & Sm & Gf). assert (ds' = ds) as -> by congruence.
  pose proof Had as (A1 & A2 & A3 & A4 & A5). unfold items2dests.
  assert (mapM items2ranks ds = Ok ranks) as ->.
  { destruct (mapM_rel items2ranks ds (fun s d y => zget ranks s = Ok y)) as (o & Eo & Lo & Go).
    - intros s d Hd. destruct (zget_in_range ranks s) as (a & Ha); [rewrite <- L; eapply zget_bounds; eauto|]. exists a. split; [|exact Ha].
      destruct (made_ok ranks ds1 ok fits E1) as (L1 & W1 & Gd & _). destruct (zget_in_range ds1 s) as (e & He); [rewrite L1; eapply zget_bounds; eauto|].
      destruct (Gd s e a He Ha) as (p & f & u & Ee & F). destruct (Sm s e d He Hd) as (S1 & S2 & S3).
      unfold items2ranks, items2msgs, content2msgs, msgs2ranks. rewrite S1, S2, S3, Ee. cbn [items2content_F msgs2content_F comm_F destinations].
      assert (is_fan f) as Ff.
      { destruct (degrees_final a p f u (a_fits ranks (ranks_exist_in ranks ok) fits s a Ha) F) as (_ & -> & _). apply offset_scan_fan.
        intros x Hx. apply in_map_iff in Hx as (v & <- & _). apply count_nonneg. }
      destruct (invert_fan_spec f Ff) as (m & nn & Enn & Em & Lm & Gm). rewrite Em. cbn [bind].
      assert (is_perm p) as Pp by (eapply final_perm; eauto using a_fits, ranks_exist_in).
      destruct F as (F1 & F2 & F3 & F4 & F5 & F6 & F7 & F8).
      assert (nn = zlen a) as -> by (unfold last_of in Enn; rewrite F4 in Enn; replace (zlen u + 1 - 1) with (zlen u) in Enn by lia; congruence).
      destruct (unmap_spec p m 1 ltac:(lia)) as (x & Ex & Lx & Gx); [apply perm_maps_into; [lia|exact Pp|lia]|]. rewrite Ex. cbn [bind].
      unfold compound_maps. apply tabulate_ok; [apply zlen_nonneg|]. split; [lia|]. intros i Hi.
      destruct (zget_in_range a i ltac:(lia)) as (r & Hr). exists r. split; [|exact Hr].
      pose proof (Gx i (rank a i r) 0 (F8 i r Hr) ltac:(lia)) as Gi. replace (i * 1 + 0) with i in Gi by lia. rewrite Gi. rewrite Z.mul_1_r, Z.add_0_r.
      assert (In r u) as Iu by (apply F2; eapply zget_In; eauto). apply In_zget in Iu as (g & Hg). destruct (F7 g r Hg) as [G1 G2].
      assert (zget m (rank a i r) = Ok g) as ->.
      { apply Gm. exists (below a r), (upto a r). split; [exact G1|]. split; [exact G2|]. apply rank_range, Hr. }
      cbn [bind]. exact Hg.
    - rewrite Eo. f_equal. apply list_eq_zget; [lia|]. intros i Hi. destruct (zget_in_range o i Hi) as (y & Hy). rewrite Hy.
      destruct (zget_in_range ds i ltac:(lia)) as (d & Hd). symmetry. eapply Go; eauto. }
  cbn [bind]. unfold items2dest_idxs.
  destruct (mapM_rel (fun d => n <- ndests d ;; Ok (zrange n)) ds (fun r d y => exists k, zget nroots r = Ok k /\ y = zrange k)) as (io & Eio & Lio & Gio).
  { intros r d Hd. destruct (zget_in_range nroots r) as (k & Hk); [rewrite A2, <- L; eapply zget_bounds; eauto|].
    destruct (Gf r d k Hd Hk) as (f & Ef & Lf & _). unfold ndests, nsrcs. cbn. rewrite Ef. cbn [bind]. exists (zrange k). split; [|eauto].
    do 2 f_equal. lia. }
  rewrite Eio. cbn [bind].
  assert (forall r y, zget io r = Ok y -> exists k, zget nroots r = Ok k /\ y = zrange k) as Gi.
  { intros r y Hy. destruct (zget_in_range ds r) as (d & Hd); [rewrite <- Lio; eapply zget_bounds; eauto|]. eapply Gio; eauto. }
  destruct (dist_returns_lemma Z io 1 ltac:(lia)) as (back & Eb & [Lb Sb] & Gb).
  { split; [lia|]. intros r k x Hk Hx. destruct (Gi r x Hx) as (k' & Hk' & ->). assert (k' = k) as -> by congruence.
    rewrite zlen_zrange by (eapply A4; eauto). lia. }
  rewrite Eb. cbn [bind]. do 2 f_equal. apply list_eq_zget; [lia|]. intros s Hs.
  destruct (zget_in_range back s Hs) as (y & Hy). destruct (zget_in_range idxs s ltac:(lia)) as (b & Hb). destruct (zget_in_range ranks s ltac:(lia)) as (a & Ha).
  rewrite Hy, Hb. f_equal. pose proof (Sb s a y Ha Hy). pose proof (A3 s a b Ha Hb). apply list_eq_zget; [lia|]. intros i Hi.
  destruct (zget_in_range a i ltac:(lia)) as (r & Hr). destruct (zget_in_range b i ltac:(lia)) as (q & Hq).
  assert (goes_to ranks s i r) as G1 by (exists a; auto). assert (goes_to idxs s i q) as G2 by (exists b; auto).
  destruct (A5 s i r q G1 G2) as (k & Hk & Bq). destruct (zget_in_range io r) as (x & Hx); [rewrite Lio, L, <- A2; eapply zget_bounds; eauto|].
  destruct (Gb s i r q x y G1 G2 Hx Hy 0 ltac:(lia)) as (v & V1 & V2). replace (i * 1 + 0) with i in V1 by lia. replace (q * 1 + 0) with q in V2 by lia.
  destruct (Gi r x Hx) as (k' & Hk' & ->). assert (k' = k) as -> by congruence. rewrite zget_zrange in V2 by lia. congruence.
Qed.
End made.
