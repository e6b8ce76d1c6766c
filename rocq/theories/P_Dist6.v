From Verif Require Import Prelude M_Array M_Par S_Par M_Scan S_Scan M_Sort S_Sort M_Map S_Map M_Dist S_Dist P_Array P_Scan P_Map P_Fan P_Sort P_SortSmall P_Par P_Invert P_Dist P_Dist2 P_Dist3 P_Dist4 P_Dist5.
Local Open Scope Z_scope.

(** ** inverters *)
Lemma sorting_inverter : inverter (fun _ => invert_map_by_sorting).
Proof.
  intros r a2b nb H1 H2. destruct (invert_map_by_sorting_spec a2b nb H1 H2) as (f & p & E & I & _). eauto.
Qed.
Lemma atomics_inverter inv : runs_atomics inv -> inverter inv.
Proof.
  intros H r a2b nb H1 H2. destruct (H r a2b nb H1 H2) as (m0 & s1 & s2 & f & p & m & E1 & E2).
  destruct (invert_map_by_atomics_spec a2b nb m0 s1 s2 H1 H2) as (o & E & K). assert (o = Some (f, p, m)) as -> by congruence.
  destruct (K f p m eq_refl) as [I _]. eauto.
Qed.

(** some schedule runs both kernels to the end *)
Lemma atomics_finish a2b nb m0 : 0 <= nb -> (forall b, In b a2b -> 0 <= b < nb) ->
  exists s1 s2 b2ba ba2a m, invert_map_by_atomics a2b nb m0 s1 s2 = Ok (Some (b2ba, ba2a, m)).
Proof.
  intros H1 H2.
  assert (forall c : mem Z * list (prog Z), all_done c -> finished c = true) as K.
  { intros c Hc. unfold finished. apply forallb_forall. intros p Hp. unfold all_done in Hc. rewrite Forall_forall in Hc. rewrite (Hc p Hp). reflexivity. }
  destruct (count_kernels a2b nb H2) as (k1 & E1 & _).
  destruct (serial_complete_schedule _ (zeroed m0 0%nat nb) k1) as (s1 & D1 & _). apply K in D1. exists s1.
  destruct (invert_map_by_atomics_spec a2b nb m0 s1 [] H1 H2) as (o & E & _).
  unfold invert_map_by_atomics in *. rewrite E1 in *. cbn [bind] in *. rewrite D1 in *. cbv zeta in *.
  set (f := offset_scan _) in *. apply bind_ok in E as (nba & En & E). apply bind_ok in E as (k2 & E2 & _).
  rewrite En. cbn [bind]. rewrite E2. cbn [bind].
  destruct (serial_complete_schedule _ (zeroed (fst (run (zeroed m0 0%nat nb, k1) s1)) 1%nat nb) k2) as (s2 & D2 & _). apply K in D2. exists s2.
  rewrite D2. eauto.
Qed.

(** ** destinations without places *)
Lemma sorted_zget {A} (R : A -> A -> Prop) l i j x y : StronglySorted R l -> zget l i = Ok x -> zget l j = Ok y -> i < j -> R x y.
Proof.
  intros HS. revert i j. induction HS as [|h l HS IH F]; intros i j Hi Hj Hlt.
  - apply zget_bounds in Hi. cbn in Hi. lia.
  - pose proof (zget_bounds _ _ _ Hi). change (h :: l) with ([h] ++ l) in Hi, Hj.
    rewrite (zget_app_r [h] l j) in Hj by (cbn; lia). change (zlen [h]) with 1 in Hj.
    destruct (Z.eq_dec i 0) as [->|Hi0].
    + cbn in Hi. injection Hi as <-. rewrite Forall_forall in F. apply F. eapply zget_In; eauto.
    + rewrite (zget_app_r [h] l i) in Hi by (cbn; lia). change (zlen [h]) with 1 in Hi. eapply IH; eauto. lia.
Qed.

Section ranks.
Context (ranks : list (list Z)).
Hypothesis ok : ranks_exist ranks.
Hypothesis fits : zlen ranks <= i32_max + 1.
Let cnt := count_to ranks.

Lemma ranks_total : exists ds, set_dest_ranks ranks = Ok ds.
Proof. destruct (set_dest_ranks_ok ranks (ranks_exist_in ranks ok) fits) as (ds & E & _). eauto. Qed.

Context (ds : list dist).
Hypothesis made : set_dest_ranks ranks = Ok ds.

Lemma ranks_facts : zlen ds = zlen ranks /\ wf_world ds cnt /\
  (forall s a, zget ranks s = Ok a -> sent (map comm_F ds) cnt s = zlen a) /\
  (forall s d, zget ds s = Ok d -> roots2items_F d = None /\ items2content_R d = None /\ roots2items_R d = None) /\
  (forall s i r i', item_link ds cnt s i r i' -> goes_to ranks s i r).
Proof.
  destruct (made_ok ranks ds ok fits made) as (L & W & _ & Sn). split; [exact L|]. split; [exact W|]. split; [exact Sn|].
  split; [exact (no_roots ranks ds ok fits made)|].
  apply (link_dest ranks ds ok fits made ds); [reflexivity|reflexivity|]. intros s d e H1 H2. congruence.
Qed.

Lemma ranks_delivers : exists who, routes ranks who /\ (forall r w, zget who r = Ok w -> by_sender w) /\
  forall A (data : list (list A)) width, 0 < width -> data_per_item ranks data width ->
    exists out, exch ds data width = Ok out /\ delivered who data out width.
Proof.
  destruct ranks_facts as (L & W & Sn & NR & Dst).
  destruct (who_exists ranks ds cnt W L Sn (fun s d H => proj1 (NR s d H)) Dst) as (who & Rw & Kw & Sw & Xw). exists who.
  split; [exact Rw|]. split; [|exact Xw]. intros r w Hw c c' s i s' i' H1 H2.
  apply (arrival_order ranks ds ok fits made s i r c s' i' c'); [apply (Kw r w c s i Hw)|apply (Kw r w c' s' i' Hw)]; assumption.
Qed.

Lemma round_trip_of ds2 : zlen ds2 = zlen ranks -> wf_world ds2 cnt ->
  (forall s a, zget ranks s = Ok a -> sent (map comm_F ds2) cnt s = zlen a) ->
  (forall s d, zget ds2 s = Ok d -> roots2items_F d = None /\ roots2items_R d = None) ->
  (forall s i r i', item_link ds2 cnt s i r i' -> goes_to ranks s i r) ->
  forall A (data : list (list A)) width, 0 < width -> data_per_item ranks data width ->
  exists out, exch ds2 data width = Ok out /\ exch (invert ds2) out width = Ok data.
Proof.
  clear made. intros L W Sn NR Dst A data width Hw Dd.
  pose proof (data_sizes ranks ds2 cnt W L Sn (fun s d H => proj1 (NR s d H)) data width Dd) as Ds. destruct Dd as [Ld Hd].
  destruct (exch_ok ds2 cnt W data width Hw ltac:(lia) Ds) as (out & Eo & Lo & So & Go).
  exists out. split; [exact Eo|]. pose proof (wf_invert ds2 cnt W) as W2. assert (zlen (invert ds2) = zlen ds2) as Li by apply zlen_map.
  assert (forall r, sent (map comm_F (invert ds2)) (fun s r => cnt r s) r = received (map comm_F ds2) cnt r /\
                    received (map comm_F (invert ds2)) (fun s r => cnt r s) r = sent (map comm_F ds2) cnt r) as SR.
  { intros r. assert (map comm_F (invert ds2) = map graph_inverse (map comm_F ds2)) as EF.
    { unfold invert. rewrite map_map. exact (comm_R_map ds2 cnt W). }
    rewrite EF. split; [apply sent_inverse|]. pose proof (sent_inverse (map graph_inverse (map comm_F ds2)) (fun s r => cnt r s) r) as E.
    rewrite map_graph_inverse2 in E. symmetry. exact E. }
  destruct (exch_ok (invert ds2) _ W2 out width Hw ltac:(lia)) as (back & Eb & Lb & Sb & Gb).
  { intros r d x Ed Ex. exists (received (map comm_F ds2) cnt r). split; [|apply (So r x Ex)].
    rewrite (nsrcs_cases (invert ds2) _ W2 r d Ed), <- (proj1 (SR r)).
    apply zget_map_inv in Ed as (e & He & ->). cbn [roots2items_F invert1]. rewrite (proj2 (NR r e He)). reflexivity. }
  rewrite Eb. f_equal. apply list_eq_zget; [lia|]. intros s Hs.
  destruct (zget_in_range back s Hs) as (y & Hy). destruct (zget_in_range data s ltac:(lia)) as (x & Hx).
  destruct (zget_in_range ranks s ltac:(lia)) as (a & Ha). destruct (zget_in_range ds2 s ltac:(lia)) as (d & Hds).
  rewrite Hy, Hx. f_equal. assert (zlen y = zlen a * width) as Ly by (rewrite (Sb s y Hy), (proj2 (SR s)), (Sn s a Ha); reflexivity).
  pose proof (Hd s a x Ha Hx) as Lx. apply list_eq_zget; [lia|]. intros b Hb.
  assert (b = b / width * width + b mod width) as Eb' by (rewrite Z.mul_comm; apply Z.div_mod; lia).
  assert (0 <= b mod width < width) as Bm by (apply Z.mod_pos_bound; lia).
  assert (0 <= b / width < zlen a) as Bi by (split; [apply Z.div_pos; lia|apply Z.div_lt_upper_bound; nia]).
  destruct (item_link_total ds2 cnt W s d (b / width) Hds) as (r & i' & Lk); [rewrite (Sn s a Ha); exact Bi|].
  pose proof Lk as L0. destruct L0 as (_ & e & _ & _ & _ & Ee & _). destruct (zget_in_range out r) as (o & Ho); [rewrite Lo; eapply zget_bounds; eauto|].
  rewrite Eb'.
  rewrite (Gb r i' s (b / width) (invert1 e) i' o y (b mod width)); [|apply item_link_flip; [exact W|exact Lk]|apply zget_map_ok; exact Ee| |exact Ho|exact Hy|exact Bm].
  - apply (Go s (b / width) r i' d (b / width) x o (b mod width) Lk Hds); [|exact Hx|exact Ho|exact Bm].
    rewrite (proj1 (NR s d Hds)). reflexivity.
  - cbn. rewrite (proj2 (NR r e Ee)). reflexivity.
Qed.

Lemma ranks_round_trip : forall A (data : list (list A)) width, 0 < width -> data_per_item ranks data width ->
  exists out, exch ds data width = Ok out /\ exch (invert ds) out width = Ok data.
Proof.
  destruct ranks_facts as (L & W & Sn & NR & Dst). apply round_trip_of; auto. intros s d H. destruct (NR s d H) as (? & ? & ?). auto.
Qed.

(** ** sorted by global numbers *)
Lemma globals_facts keys : data_per_item ranks keys 1 ->
  exists ds2, set_dest_globals ds keys = Ok ds2 /\ zlen ds2 = zlen ranks /\ wf_world ds2 cnt /\
  (forall s a, zget ranks s = Ok a -> sent (map comm_F ds2) cnt s = zlen a) /\
  (forall s d, zget ds2 s = Ok d -> roots2items_F d = None /\ roots2items_R d = None) /\
  (forall s d, zget ds2 s = Ok d -> exists p, items2content_F d = Some p) /\
  (forall s i r i', item_link ds2 cnt s i r i' -> goes_to ranks s i r) /\
  forall r k k' s i s' i' x y, item_link ds2 cnt s i r k -> item_link ds2 cnt s' i' r k' -> goes_to keys s i x -> goes_to keys s' i' y ->
    (k < k' <-> x < y \/ (x = y /\ (s < s' \/ (s = s' /\ i < i')))).
Proof.
  intros Dk. destruct ranks_facts as (L1 & W & Sn & NR & Dst).
  destruct (who_exists ranks ds cnt W L1 Sn (fun s d H => proj1 (NR s d H)) Dst) as (who1 & Rw1 & Kw1 & Sw1 & Xw1).
  destruct (Xw1 Z keys 1 ltac:(lia) Dk) as (c & Ec & Lc & Gc). destruct Dk as [Lk Hk].
  unfold set_dest_globals. rewrite Ec. cbn [bind].
  assert (forall r x, zget c r = Ok x -> exists w, zget who1 r = Ok w /\ zlen x = zlen w /\
    forall i' s i, zget w i' = Ok (s, i) -> forall q, zget x i' = Ok q <-> goes_to keys s i q) as Kc.
  { intros r x Hx. destruct (zget_in_range who1 r) as (w & Hw); [rewrite <- Lc; eapply zget_bounds; eauto|].
    destruct (Gc r w x Hw Hx) as [Lx Gx]. exists w. split; [exact Hw|]. split; [lia|]. intros i' s i Hi' q.
    pose proof (proj1 (Kw1 r w i' s i Hw) Hi') as Li. destruct (Dst s i r i' Li) as (a & Ha & _).
    destruct (zget_in_range keys s) as (b & Hb); [rewrite Lk; eapply zget_bounds; eauto|].
    destruct (Gx i' s i b Hi' Hb 0 ltac:(lia)) as (v & V1 & V2). replace (i' * 1 + 0) with i' in V1 by lia. replace (i * 1 + 0) with i in V2 by lia.
    rewrite V1. unfold goes_to. split; [intros [= <-]; exists b; auto|]. intros (b' & Hb' & Hq). congruence. }
  destruct Rw1 as [Lw1 Rw1].
  destruct (tabulate_rel (zlen ds) (fun r => d <- zget ds r ;; c <- zget c r ;; p <- sort_by_keys c 1 ;;
      Ok (Dist (roots2items_F d) (items2content_F d) (msgs2content_F d) (comm_F d) None (Some p) (msgs2content_R d) (comm_R d)))
    (fun r e => exists d x p, zget ds r = Ok d /\ zget c r = Ok x /\ zlen p = zlen x /\ is_perm p /\ StronglySorted (stably_before x 1) p /\
      e = Dist (roots2items_F d) (items2content_F d) (msgs2content_F d) (comm_F d) None (Some p) (msgs2content_R d) (comm_R d)))
    as (ds2 & Ed & Ld & Ge); [apply zlen_nonneg| |].
  { intros r Hr. destruct (zget_in_range ds r Hr) as (d & Hd). destruct (zget_in_range c r ltac:(lia)) as (x & Hx). rewrite Hd, Hx. cbn [bind].
    destruct (sort_by_keys_spec x 1 (zlen x)) as (p & Ep & Lp & Pp & Sp); [lia|lia|]. rewrite Ep. cbn [bind].
    eexists. split; [reflexivity|]. exists d, x, p. auto 10. }
  exists ds2. split; [exact Ed|].
  destruct (retarget ds cnt ds2 W ltac:(lia)) as [Ecm W2].
  { intros r d e Hd He. destruct (Ge r e He) as (d' & x & p & Hd' & Hx & Lp & Pp & _ & ->). assert (d' = d) as -> by congruence. cbn.
    destruct (Kc r x Hx) as (w & Hw & Lx & _). rewrite <- (Sw1 r w Hw), <- Lx.
    split; [reflexivity|]. split; [reflexivity|]. split; [reflexivity|]. split; [reflexivity|]. split; [reflexivity|]. split; [reflexivity|].
    split; [split; [exact Pp|exact Lp]|exact Logic.I]. }
  assert (forall s a, zget ranks s = Ok a -> sent (map comm_F ds2) cnt s = zlen a) as Sn2 by (intros s a Ha; rewrite Ecm; apply Sn; exact Ha).
  assert (forall s d e, zget ds s = Ok d -> zget ds2 s = Ok e -> items2content_F e = items2content_F d) as Sm.
  { intros s d e Hd He. destruct (Ge s e He) as (d' & x & p & Hd' & _ & _ & _ & _ & ->). assert (d' = d) as -> by congruence. reflexivity. }
  assert (forall s d, zget ds2 s = Ok d -> roots2items_F d = None /\ roots2items_R d = None) as NR2.
  { intros s e He. destruct (Ge s e He) as (d & x & p & Hd & _ & _ & _ & _ & ->). cbn. split; [apply (NR s d Hd)|reflexivity]. }
  assert (forall s i r i', item_link ds2 cnt s i r i' -> goes_to ranks s i r) as Dst2.
  { apply (link_dest ranks ds ok fits made ds2); [lia|exact Ecm|exact Sm]. }
  assert (forall s d, zget ds2 s = Ok d -> exists p, items2content_F d = Some p) as PF.
  { intros s e He. destruct (zget_in_range ds s) as (d & Hd); [rewrite <- Ld; eapply zget_bounds; eauto|]. rewrite (Sm s d e Hd He).
    destruct (made_ok ranks ds ok fits made) as (Ln & _ & Gd & _). destruct (zget_in_range ranks s) as (a & Ha); [rewrite <- Ln; eapply zget_bounds; eauto|].
    destruct (Gd s d a Hd Ha) as (p & f & u & E & _). rewrite E. exists p. reflexivity. }
  split; [lia|]. split; [exact W2|]. split; [exact Sn2|]. split; [exact NR2|]. split; [exact PF|]. split; [exact Dst2|].
  intros r k k' s i s' i' x y H1 H2 G1 G2.
  assert (forall s i k, item_link ds2 cnt s i r k -> exists e p cc, zget ds2 r = Ok e /\ items2content_R e = Some p /\ zget p k = Ok cc /\ item_link ds cnt s i r cc) as Q.
  { intros s0 i0 k0 (e1 & e2 & c1 & c2 & He1 & He2 & C1 & Lk1 & C2). destruct (Ge r e2 He2) as (d & xx & p & Hd & _ & _ & _ & _ & Ee).
    exists e2, p, c2. rewrite Ee in *. cbn in C2 |- *. split; [congruence|]. split; [reflexivity|]. split; [exact C2|].
    destruct (zget_in_range ds s0) as (d1 & Hd1); [rewrite <- Ld; eapply zget_bounds; eauto|].
    exists d1, d, c1, c2. split; [exact Hd1|]. split; [exact Hd|]. rewrite <- (Sm s0 d1 e1 Hd1 He1). split; [exact C1|].
    rewrite <- Ecm. split; [exact Lk1|]. destruct (NR r d Hd) as (_ & -> & _). reflexivity. }
  destruct (Q s i k H1) as (e & p & cc & He & Ep & P1 & M1). destruct (Q s' i' k' H2) as (e' & p' & cc' & He' & Ep' & P2 & M2).
  assert (e' = e) as -> by congruence. assert (p' = p) as -> by congruence.
  destruct (Ge r e He) as (d & xx & p0 & Hd & Hx & Lp & Pp & Ss & Ee). assert (p0 = p) as -> by (rewrite Ee in Ep; cbn in Ep; congruence).
  destruct (Kc r xx Hx) as (w1 & Hw1 & Lx & Kx).
  pose proof (proj2 (Kx cc s i (proj2 (Kw1 r w1 cc s i Hw1) M1) x) G1) as V1.
  pose proof (proj2 (Kx cc' s' i' (proj2 (Kw1 r w1 cc' s' i' Hw1) M2) y) G2) as V2.
  rewrite <- (arrival_order ranks ds ok fits made s i r cc s' i' cc' M1 M2).
  assert (forall a b va vb, zget xx a = Ok va -> zget xx b = Ok vb -> (stably_before xx 1 a b <-> va < vb \/ va = vb /\ a < b)) as SB.
  { intros a b va vb Ha Hb. assert (forall q v, zget xx q = Ok v -> tuple xx 1 q = [v]) as T1.
    { intros q v Hq. unfold tuple. rewrite Z.mul_1_r. apply zget_ok in Hq as [Bq Hq]. clear -Hq. change (Z.to_nat 1) with 1%nat.
      revert Hq. generalize (Z.to_nat q). intros n. revert n. induction xx as [|z l IH]; intros [|n] Hq; cbn in *; try discriminate; [congruence|]. exact (IH n Hq). }
    unfold stably_before. rewrite (T1 a va Ha), (T1 b vb Hb). cbn. split.
    - intros [[H|[_ []]]|[[= H] H']]; auto.
    - intros [H|[-> H]]; auto. }
  assert (forall k k' a b va vb, zget p k = Ok a -> zget p k' = Ok b -> zget xx a = Ok va -> zget xx b = Ok vb -> k < k' -> va < vb \/ va = vb /\ a < b) as Sf.
  { intros k0 k1 a b va vb Ha Hb Hva Hvb Hlt. apply (SB a b va vb Hva Hvb). exact (sorted_zget _ _ k0 k1 a b Ss Ha Hb Hlt). }
  split.
  - intros Hlt. exact (Sf k k' cc cc' x y P1 P2 V1 V2 Hlt).
  - intros H. destruct (Z.lt_trichotomy k k') as [Hlt|[->|Hgt]]; [exact Hlt| |].
    + assert (cc' = cc) as -> by congruence. assert (y = x) as -> by congruence. lia.
    + pose proof (Sf k' k cc' cc y x P2 P1 V2 V1 Hgt). lia.
Qed.

Lemma globals_deliver keys : data_per_item ranks keys 1 ->
  exists ds2, set_dest_globals ds keys = Ok ds2 /\
  (exists who, routes ranks who /\ (forall r w, zget who r = Ok w -> by_key_then_sender keys w) /\
    forall A (data : list (list A)) width, 0 < width -> data_per_item ranks data width ->
    exists out, exch ds2 data width = Ok out /\ delivered who data out width) /\
  (forall A (data : list (list A)) width, 0 < width -> data_per_item ranks data width ->
    exists out, exch ds2 data width = Ok out /\ exch (invert ds2) out width = Ok data).
Proof.
  intros Dk. destruct (globals_facts keys Dk) as (ds2 & Ed & L2 & W2 & Sn2 & NR2 & _ & Dst2 & Ord). exists ds2. split; [exact Ed|].
  split; [|apply round_trip_of; auto].
  destruct (who_exists ranks ds2 cnt W2 L2 Sn2 (fun s d H => proj1 (NR2 s d H)) Dst2) as (who & Rw & Kw & Sw & Xw). exists who.
  split; [exact Rw|]. split; [|exact Xw]. intros r w Hw k k' s i s' i' x y H1 H2 G1 G2.
  apply (Kw r w k s i Hw) in H1. apply (Kw r w k' s' i' Hw) in H2. eapply Ord; eauto.
Qed.
End ranks.

Lemma addressed_ex : ranks_exist [[1; 0; 1]; [0; 2; 0]; []] /\ addressed [[1; 0; 1]; [0; 2; 0]; []] [[1; 0; 1]; [2; 0; 0]; []] [3; 2; 1].
Proof.
  assert (forall {A} (l : list A) i x, zget l i = Ok x -> In i (zrange (zlen l))) as K.
  { intros A l i x H. apply in_zrange. eapply zget_bounds; eauto. }
  split.
  - intros s i r (a & Ha & Hi). apply zget_In in Ha. apply zget_In in Hi. cbn in Ha.
    decompose [or] Ha; subst; cbn in Hi; decompose [or] Hi; subst; try contradiction; cbn; lia.
  - split; [reflexivity|]. split; [reflexivity|]. split; [|split].
    + intros s a b Ha Hb. pose proof (K _ _ _ _ Ha) as I. vm_compute in I. decompose [or] I; subst; try contradiction; vm_compute in Ha, Hb; inversion Ha; inversion Hb; subst; reflexivity.
    + intros r k Hk. apply zget_In in Hk. cbn in Hk. decompose [or] Hk; subst; try contradiction; lia.
    + intros s i r q (a & Ha & Hi) (b & Hb & Hq). pose proof (K _ _ _ _ Ha) as I. vm_compute in I.
      decompose [or] I; subst; try contradiction; vm_compute in Ha, Hb; inversion Ha; inversion Hb; subst;
        pose proof (K _ _ _ _ Hi) as J; vm_compute in J; decompose [or] J; subst; try contradiction; vm_compute in Hi, Hq; inversion Hi; inversion Hq; subst;
        eexists; (split; [reflexivity|lia]).
Qed.
