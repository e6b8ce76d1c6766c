(** Proofs about the graph from owned vertices to elements, and the elements a rank uses. *)
From Verif Require Import Prelude M_Array M_Par M_Scan M_Sort M_Map M_Tags M_Template M_Dist M_Owners M_Migrate M_Ghost S_Map S_Dist S_Owners S_Migrate S_Ghost.
From Verif Require Import P_Array P_Scan P_Map P_Fan P_Dist P_Dist2 P_Dist3 P_Dist5 P_Owners P_Link P_Link2 P_Migrate P_Migrate2 P_Migrate4 P_Migrate5 P_Ghost.
Local Open Scope Z_scope.

Lemma on_ranks_rel {A B} (x : list A) (f : Z -> A -> res B) (R : Z -> A -> B -> Prop) : (forall r a, zget x r = Ok a -> exists b, f r a = Ok b /\ R r a b) ->
  exists y, on_ranks x f = Ok y /\ zlen y = zlen x /\ forall r a b, zget x r = Ok a -> zget y r = Ok b -> R r a b.
Proof.
  intros H. unfold on_ranks. destruct (tabulate_rel (zlen x) (fun r => a <- zget x r ;; f r a) (fun r b => exists a, zget x r = Ok a /\ R r a b)) as (y & E & L & G); [apply zlen_nonneg| |].
  - intros r Hr. destruct (zget_in_range x r Hr) as (a & Ha). destruct (H r a Ha) as (b & Eb & Rb). rewrite Ha. cbn [bind]. exists b. eauto.
  - exists y. split; [exact E|]. split; [exact L|]. intros r a b Ha Hb. destruct (G r b) as (a' & Ha' & Rb); [exact Hb|]. assert (a' = a) as -> by congruence. exact Rb.
Qed.

(** values of entities, seen from their uses *)
Lemma expand_uses (fans : list (list Z)) (ns us : list Z) x : zlen fans = zlen ns -> zlen us = zlen ns ->
  (forall r f n u, zget fans r = Ok f -> zget ns r = Ok n -> zget us r = Ok u -> is_fan f /\ zlen f = n + 1 /\ last_of f = Ok u) -> data_per_root ns x 1 ->
  exists y, on_ranks x (fun r x => f <- zget fans r ;; expand x f 1) = Ok y /\ data_per_root us y 1 /\
  forall s c t, goes_to y s c t <-> exists v f, zget fans s = Ok f /\ in_group f v c /\ goes_to x s v t.
Proof.
  intros L1 L2 Hf [L3 Hx].
  destruct (on_ranks_rel x (fun r x => f <- zget fans r ;; expand x f 1) (fun r a b => exists f u, zget fans r = Ok f /\ zget us r = Ok u /\ is_fan f /\ last_of f = Ok u /\ zlen b = u /\ forall v c, in_group f v c -> zget b c = zget a v)) as (y & E & L & G).
  - intros r a Ha. pose proof (zget_bounds _ _ _ Ha) as B. destruct (zget_in_range fans r ltac:(lia)) as (f & Ef). destruct (zget_in_range ns r ltac:(lia)) as (n & En). destruct (zget_in_range us r ltac:(lia)) as (u & Eu).
    destruct (Hf r f n u Ef En Eu) as (F1 & F2 & F3). pose proof (Hx r n a En Ha) as La. destruct (expand_spec a f 1 F1 ltac:(lia) ltac:(lia)) as (n' & b & H1 & H2 & H3 & H4). assert (n' = u) as -> by congruence.
    exists b. split; [rewrite Ef; exact H2|]. exists f, u. repeat (split; [assumption|]). split; [lia|]. intros v c Hg. specialize (H4 v c 0 Hg ltac:(lia)). rewrite !Z.mul_1_r, !Z.add_0_r in H4. exact H4.
  - exists y. split; [exact E|]. split.
    + split; [lia|]. intros r u b Hu Hb. destruct (zget_in_range x r) as (a & Ha); [rewrite <- L; eapply zget_bounds; eauto|]. destruct (G r a b Ha Hb) as (f & u' & _ & Hu' & _ & _ & Lb & _). assert (u' = u) as -> by congruence. lia.
    + intros s c t. split.
      * intros (b & Hb & Hc). destruct (zget_in_range x s) as (a & Ha); [rewrite <- L; eapply zget_bounds; eauto|]. destruct (G s a b Ha Hb) as (f & u & Ef & _ & F1 & F2 & Lb & Gb).
        destruct (in_group_exists f u c F1 F2) as (v & Hv); [rewrite <- Lb; eapply zget_bounds; eauto|]. exists v, f. split; [exact Ef|]. split; [exact Hv|]. exists a. split; [exact Ha|]. rewrite <- (Gb v c Hv). exact Hc.
      * intros (v & f & Ef & Hv & a & Ha & Ht). destruct (zget_in_range y s) as (b & Hb); [rewrite L; eapply zget_bounds; eauto|]. destruct (G s a b Ha Hb) as (f' & u & Ef' & _ & F1 & F2 & Lb & Gb). assert (f' = f) as -> by congruence.
        exists b. split; [exact Hb|]. rewrite (Gb v c Hv). exact Ht.
Qed.
Lemma unmap_uses (uses : list (list Z)) (ns : list Z) x : zlen uses = zlen ns -> data_per_root ns x 1 -> (forall r u n c i, zget uses r = Ok u -> zget ns r = Ok n -> zget u c = Ok i -> 0 <= i < n) ->
  exists y, on_ranks uses (fun r uses => x <- zget x r ;; unmap uses x 1) = Ok y /\ data_per_root (map zlen uses) y 1 /\
  forall s c t, goes_to y s c t <-> exists i, goes_to uses s c i /\ goes_to x s i t.
Proof.
  intros L1 [L2 Hx] B.
  destruct (on_ranks_rel uses (fun r uses => x <- zget x r ;; unmap uses x 1) (fun r u b => exists a, zget x r = Ok a /\ zlen b = zlen u /\ forall c i, zget u c = Ok i -> zget b c = zget a i)) as (y & E & L & G).
  - intros r u Hu. pose proof (zget_bounds _ _ _ Hu) as Br. destruct (zget_in_range x r ltac:(lia)) as (a & Ha). destruct (zget_in_range ns r ltac:(lia)) as (n & Hn). pose proof (Hx r n a Hn Ha) as La.
    destruct (unmap_spec u a 1 ltac:(lia)) as (b & Eb & Lb & Gb). { intros i Hi. apply In_zget in Hi as (c & Hc). pose proof (B r u n c i Hu Hn Hc). lia. }
    exists b. split; [rewrite Ha; exact Eb|]. exists a. split; [exact Ha|]. split; [lia|]. intros c i Hc. specialize (Gb c i 0 Hc ltac:(lia)). rewrite !Z.mul_1_r, !Z.add_0_r in Gb. exact Gb.
  - exists y. split; [exact E|]. split.
    + split; [rewrite zlen_map; exact L|]. intros r u b Hu Hb. apply zget_map_inv in Hu as (u' & Hu & ->). destruct (G r u' b Hu Hb) as (_ & _ & Lb & _). lia.
    + intros s c t. split.
      * intros (b & Hb & Hc). destruct (zget_in_range uses s) as (u & Hu); [rewrite <- L; eapply zget_bounds; eauto|]. destruct (G s u b Hu Hb) as (a & Ha & Lb & Gb). destruct (zget_in_range u c) as (i & Hi); [rewrite <- Lb; eapply zget_bounds; eauto|].
        exists i. split; [exists u; auto|]. exists a. split; [exact Ha|]. rewrite <- (Gb c i Hi). exact Hc.
      * intros (i & (u & Hu & Hi) & (a & Ha & Ht)). destruct (zget_in_range y s) as (b & Hb); [rewrite L; eapply zget_bounds; eauto|]. destruct (G s u b Hu Hb) as (a' & Ha' & Lb & Gb). assert (a' = a) as -> by congruence. exists b. split; [exact Hb|]. rewrite (Gb c i Hi). exact Ht.
Qed.

(** the copies of items in the inverted link, as seen by the servers *)
Lemma dests_ok ds cnt ranks idxs nroots : link ds cnt ranks idxs nroots ->
  exists who fans, routes ranks who /\ items2dests (invert ds) = Ok (map (map fst) who, map (map snd) who) /\ roots2items (invert ds) = Ok fans /\ zlen fans = zlen ranks /\
  mapM nitems ds = Ok (map zlen ranks) /\
  (forall A (data : list (list A)) width, 0 < width -> data_per_item ranks data width -> exists out, exch ds data width = Ok out /\ delivered who data out width) /\
  forall r w f, zget who r = Ok w -> zget fans r = Ok f -> exists k, zget nroots r = Ok k /\ is_fan f /\ zlen f = k + 1 /\ last_of f = Ok (zlen w) /\
    forall c s i q, zget w c = Ok (s, i) -> (in_group f q c <-> owner_is ranks idxs s i r q).
Proof.
  intros K. destruct (served _ _ _ _ _ K) as (who & Rw & Xw & _ & _ & Vw). destruct (server_view _ _ _ _ _ K) as (_ & _ & _ & _ & Lds & En & _). pose proof Rw as [Lw Gw].
  destruct (mapM_rel (fun d => match roots2items_F d with Some f => Ok f | None => UB end) (invert ds) (fun r d f => roots2items_F d = Some f)) as (fans & Ef & Lf & Gf).
  { intros r d Hd. apply zget_map_inv in Hd as (e & He & ->). destruct (Vw r e He) as (w & k & f & _ & _ & E & _). exists f. change (roots2items_F (invert1 e)) with (roots2items_R e). rewrite E. auto. }
  assert (zlen (invert ds) = zlen ds) as Li by apply zlen_map.
  exists who, fans. split; [exact Rw|]. split; [|split; [exact Ef|]].
  - unfold items2dests. assert (mapM items2ranks (invert ds) = Ok (map (map fst) who)) as ->.
    { destruct (mapM_rel items2ranks (invert ds) (fun r d x => exists w, zget who r = Ok w /\ x = map fst w)) as (xs & Ex & Lx & Gx).
      { intros r d Hd. apply zget_map_inv in Hd as (e & He & ->). destruct (Vw r e He) as (w & k & f & Hw & _ & _ & _ & _ & _ & _ & E & _). rewrite E. eauto. }
      rewrite Ex. f_equal. apply list_eq_zget; [rewrite zlen_map; lia|]. intros r Hr. destruct (zget_in_range xs r Hr) as (x & Hx). destruct (zget_in_range (invert ds) r ltac:(lia)) as (d & Hd). destruct (Gx r d x Hd Hx) as (w & Hw & ->). rewrite Hx, (zget_map_ok _ _ _ _ Hw). reflexivity. }
    cbn [bind]. unfold items2dest_idxs. rewrite invert_invert.
    assert (mapM (fun d => n <- ndests d ;; Ok (zrange n)) (invert ds) = Ok (map zrange (map zlen ranks))) as ->.
    { apply mapM_ok. apply mapM_ok in En. unfold invert. revert En. generalize (map zlen ranks) as ns. pose proof (k_noroot _ _ _ _ _ K) as NR. clear - NR. intros ns En.
      assert (forall d, In d ds -> roots2items_F d = None) as N by (intros d H; apply In_zget in H as (r & Hr); eauto). clear NR. induction En as [|d n ds ns H En IH]; cbn; constructor; [|apply IH; intros; apply N; right; assumption].
      assert (ndests (invert1 d) = Ok n) as ->; [|reflexivity]. unfold ndests, nsrcs. replace (invert1 (invert1 d)) with d by (destruct d; reflexivity). rewrite (N d (or_introl eq_refl)). exact H. }
    cbn [bind]. destruct (Xw Z (map zrange (map zlen ranks)) 1 ltac:(lia)) as (out & Eo & Do1 & Do2).
    { split; [rewrite !zlen_map; reflexivity|]. intros s a x Ha Hx. apply zget_map_inv in Hx as (n & Hn & ->). apply zget_map_inv in Hn as (a' & Ha' & ->). assert (a' = a) as -> by congruence. rewrite zlen_zrange by apply zlen_nonneg. lia. }
    rewrite Eo. cbn [bind]. do 2 f_equal. apply list_eq_zget; [rewrite zlen_map; exact Do1|]. intros r Hr. destruct (zget_in_range out r Hr) as (y & Hy). destruct (zget_in_range who r ltac:(lia)) as (w & Hw). rewrite Hy, (zget_map_ok _ _ _ _ Hw). f_equal.
    destruct (Do2 r w y Hw Hy) as [Ly Gy]. apply list_eq_zget; [rewrite zlen_map; lia|]. intros c Hc. destruct (zget_in_range w c ltac:(lia)) as ([s i] & Hsi). rewrite (zget_map_ok _ _ _ _ Hsi). cbn [snd].
    destruct (Gw r w Hw) as (_ & G2). destruct (proj1 (G2 s i) (zget_In _ _ _ Hsi)) as (a & Ha & Hi). pose proof (zget_bounds _ _ _ Hi) as Bi.
    assert (zget (map zrange (map zlen ranks)) s = Ok (zrange (zlen a))) as Hz. { apply zget_map_ok, zget_map_ok, Ha. }
    destruct (Gy c s i _ Hsi Hz 0 ltac:(lia)) as (v & V1 & V2). rewrite !Z.mul_1_r, !Z.add_0_r in V1, V2. rewrite V1. rewrite zget_zrange in V2 by lia. congruence.
  - split; [lia|]. split; [exact En|]. split; [exact Xw|]. intros r w f Hw Hf. pose proof (zget_bounds _ _ _ Hf) as B. destruct (zget_in_range (invert ds) r ltac:(lia)) as (d & Hd). pose proof (Gf r d f Hd Hf) as Rf. apply zget_map_inv in Hd as (e & He & ->).
    destruct (Vw r e He) as (w' & k & f' & Hw' & Hk & E & F1 & F2 & F3 & _ & _ & G). assert (w' = w) as -> by congruence. change (roots2items_F (invert1 e)) with (roots2items_R e) in Rf. assert (f' = f) as -> by congruence.
    exists k. repeat (split; [assumption|]). intros c s i q Hc. destruct (G c s i Hc) as [G1 G2]. rewrite G2. split; [intros H; split; assumption|intros [_ H]; exact H].
Qed.
