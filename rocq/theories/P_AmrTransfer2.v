(** Proofs for C86, continued: levels, leaves and parents. *)
From Coq Require Import Lia.
From Verif Require Import Prelude M_Array M_Par M_Scan S_Scan M_Sort M_Map S_Map M_Align M_Adj M_Parents M_Template P_Array P_Map P_Map2 P_Align P_Graph P_Mark M_AmrTopo S_AmrTopo P_AmrTopo P_AmrTopo2 M_AmrTransfer S_AmrTransfer P_AmrTransfer.
Local Open Scope Z_scope.

Lemma NoDup_split {A} (l l' : list A) : NoDup (l ++ l') -> NoDup l /\ NoDup l' /\ (forall x, In x l -> ~ In x l').
Proof.
  induction l as [|a l IH]; intros H; [split; [constructor|]; split; [exact H|intros x []]|]. inversion H as [|? ? N H']; subst. destruct (IH H') as (A1 & A2 & A3). rewrite in_app_iff in N. split; [constructor; [tauto|exact A1]|]. split; [exact A2|].
  intros x [<-|Hx]; [tauto|apply A3, Hx].
Qed.

Lemma tab_total {A} n (f : Z -> res A) : 0 <= n -> (forall i, 0 <= i < n -> exists x, f i = Ok x) -> exists r, tabulate n f = Ok r /\ zlen r = n /\ forall i, 0 <= i < n -> zget r i = f i.
Proof.
  intros Hn H. destruct (tabulate_says n f (fun i x => f i = Ok x) Hn) as (r & E & L & G); [intros i Hi; destruct (H i Hi) as (x & E); eauto|]. exists r. split; [exact E|]. split; [exact L|]. intros i Hi. destruct (G i Hi) as (x & A1 & A2). congruence.
Qed.

Section one.
Variables dim pd : Z.
Variable mods : Z -> list Z.
Variables prods2new same2old same2new : list Z.
Variable nold : Z -> Z.
Variable nnew : Z.
Hypothesis N : new_numbers dim pd mods prods2new same2old same2new (nold pd) nnew.
Hypothesis R : refine_old dim mods nold.

Lemma n_parts : NoDup prods2new /\ NoDup same2new /\ (forall e, In e prods2new -> ~ In e same2new).
Proof. apply NoDup_split, (nu_distinct _ _ _ _ _ _ _ _ N). Qed.
Lemma made_in e d md p : made_of dim pd mods prods2new e d md p -> In e prods2new.
Proof. intros (m & _ & _ & _ & H). eapply zget_In; exact H. Qed.
Lemma same_in e o : same_as same2old same2new e o -> In e same2new.
Proof. intros (s & H & _). eapply zget_In; exact H. Qed.

Lemma prods_step {U T} (inj : U -> T) (val : Z -> Z -> Z -> res U) (w : list T) : zlen w = nnew ->
  (forall d m p, Z.max 1 pd <= d <= dim -> 0 <= m < zlen (mods d) -> 0 <= p < hypercube_split_degree d pd -> exists v, val d m p = Ok v) ->
  exists w', for_prods dim pd (fun d => zlen (mods d)) (fun w d m p i => v <- val d m p ;; e <- zget prods2new i ;; zset w e (inj v)) w = Ok w' /\ zlen w' = nnew /\
  (forall e d md p, made_of dim pd mods prods2new e d md p -> exists m v, zget (mods d) m = Ok md /\ val d m p = Ok v /\ zget w' e = Ok (inj v)) /\
  (forall e, ~ In e prods2new -> zget w' e = zget w e).
Proof.
  intros HL HV. destruct n_parts as (N1 & _ & _). destruct (nu_dim _ _ _ _ _ _ _ _ N) as (D1 & D2).
  destruct (prods_scatter pd mods dim inj val prods2new w) as (w' & E & L & G & F); [exact D1|exact D2|apply (nu_count _ _ _ _ _ _ _ _ N)|exact N1| |exact HV|].
  { intros e He. rewrite HL. apply (nu_new _ _ _ _ _ _ _ _ N), in_or_app. left. exact He. }
  exists w'. split; [exact E|]. split; [lia|]. split; [|exact F]. intros e d md p (m & Hd & Hm & Hp & He). pose proof (zget_bounds _ _ _ Hm) as Bm. destruct (HV d m p Hd Bm Hp) as (v & V). exists m, v. split; [exact Hm|]. split; [exact V|]. exact (G d m p e v Hd Bm Hp V He).
Qed.
(* an entry that is a product has come from some iteration *)
Lemma idx_split : forall l off i, (forall d, In d l -> 0 <= hypercube_split_degree d pd) -> off <= i < off + total pd mods l -> exists q, In q (plist pd mods off l) /\ qi q = i.
Proof. intros l off i H Hi. assert (I : In i (map qi (plist pd mods off l))) by (rewrite plist_ids by exact H; apply in_zfromto; exact Hi). apply in_map_iff in I as (q & A & B). eauto. Qed.
Lemma plist_place lo : forall hi q, lo <= hi -> In q (plist pd mods 0 (zfromto lo hi)) ->
  lo <= qd q < hi /\ 0 <= qm q < zlen (mods (qd q)) /\ 0 <= qp q < hypercube_split_degree (qd q) pd /\ qi q = products mods pd lo (qd q) + qm q * hypercube_split_degree (qd q) pd + qp q.
Proof.
  intros hi q Hh. revert q. pattern hi. apply (Z.right_induction _ ltac:(intros ? ? ->; reflexivity) lo); [| |exact Hh]; clear hi Hh.
  - intros q H. rewrite zfromto_nil in H by lia. destruct H.
  - intros hi Hh IH q H. unfold Z.succ in *. rewrite zfromto_snoc in H by lia. rewrite plist_app in H. apply in_app_or in H as [H|H]; [destruct (IH q H) as (A & B); split; [lia|exact B]|].
    cbn [plist] in H. rewrite app_nil_r in H. apply plane_in in H as (A & B & C & D). rewrite A. split; [lia|]. split; [exact B|]. split; [exact C|]. rewrite D. unfold products, total, S_Scan.zsum. ring.
Qed.
Lemma prods_made e : In e prods2new -> exists d md p, made_of dim pd mods prods2new e d md p.
Proof.
  intros H. apply In_zget in H as (i & Hi). pose proof (zget_bounds _ _ _ Hi) as Bi. rewrite (nu_count _ _ _ _ _ _ _ _ N) in Bi. destruct (nu_dim _ _ _ _ _ _ _ _ N) as (D1 & D2).
  destruct (idx_split (zfromto (Z.max 1 pd) (dim + 1)) 0 i) as (q & Hq & Ei). { intros d Hd. apply in_zfromto in Hd. apply degrees0; lia. } { exact Bi. }
  apply plist_place in Hq as (A & B & C & D); [|lia]. destruct (zget_in_range (mods (qd q)) (qm q) B) as (md & Hmd). exists (qd q), md, (qp q), (qm q). split; [lia|]. split; [exact Hmd|]. split; [exact C|]. rewrite <- D, Ei. exact Hi.
Qed.
Lemma prods_some {U} (val : Z -> Z -> Z -> res U) (w : list (option U)) : zlen w = nnew -> allsome w ->
  (forall d m p, Z.max 1 pd <= d <= dim -> 0 <= m < zlen (mods d) -> 0 <= p < hypercube_split_degree d pd -> exists v, val d m p = Ok v) ->
  exists w', for_prods dim pd (fun d => zlen (mods d)) (fun w d m p i => v <- val d m p ;; e <- zget prods2new i ;; zset w e (Some v)) w = Ok w' /\ zlen w' = nnew /\ allsome w' /\
  (forall e d md p, made_of dim pd mods prods2new e d md p -> exists m v, zget (mods d) m = Ok md /\ val d m p = Ok v /\ zget w' e = Ok (Some v)) /\
  (forall e, ~ In e prods2new -> zget w' e = zget w e).
Proof.
  intros HL HS HV. destruct (prods_step Some val w HL HV) as (w' & E & L & G & F). exists w'. split; [exact E|]. split; [exact L|]. split; [|split; [exact G|exact F]].
  intros i Hi. destruct (in_dec Z.eq_dec i prods2new) as [I|I]; [|rewrite F by exact I; apply HS; lia]. destruct (prods_made i I) as (d & md & p & M). destruct (G i d md p M) as (m & v & _ & _ & Gv). eauto.
Qed.
Lemma same_step {T} (a : list T) (w : list (option T)) : zlen a = zlen same2new -> zlen w = nnew -> allsome w ->
  exists w', map_into a same2new w 1 = Ok w' /\ zlen w' = nnew /\ allsome w' /\ (forall s e x, zget same2new s = Ok e -> zget a s = Ok x -> zget w' e = Ok (Some x)) /\ (forall e, ~ In e same2new -> zget w' e = zget w e).
Proof.
  intros HL HW HS. destruct n_parts as (_ & N2 & _). destruct (map_into1 a same2new w HL N2) as (w' & E & L & A & B & C); [|exact HS|].
  { intros x Hx. rewrite HW. apply (nu_new _ _ _ _ _ _ _ _ N), in_or_app. right. exact Hx. } exists w'. split; [exact E|]. split; [lia|auto].
Qed.
Lemma same_unmap {T} (b : list T) : zlen b = nold pd -> exists r, unmap same2old b 1 = Ok r /\ zlen r = zlen same2new /\ (forall s o, zget same2old s = Ok o -> zget r s = zget b o).
Proof.
  intros HL. destruct (unmap1 same2old b) as (r & E & L & G). { intros x Hx. rewrite HL. apply (nu_old _ _ _ _ _ _ _ _ N), Hx. } exists r. split; [exact E|]. split; [rewrite L; apply (nu_same _ _ _ _ _ _ _ _ N)|exact G].
Qed.

Lemma transfer_levels_w (old_levels : Z -> list Z) :
  (forall d, 0 <= d <= dim -> zlen (old_levels d) = nold d) -> (forall d l, In l (old_levels d) -> -1 <= l < 127) ->
  exists new, transfer_levels dim pd mods prods2new same2old same2new old_levels nnew = Ok new /\ zlen new = nnew /\
  (forall e d md p l, made_of dim pd mods prods2new e d md p -> zget (old_levels d) md = Ok l -> zget new e = Ok (l + 1)) /\
  (forall e o l, same_as same2old same2new e o -> zget (old_levels pd) o = Ok l -> zget new e = Ok l).
Proof.
  intros HL HB. destruct (nu_dim _ _ _ _ _ _ _ _ N) as (D1 & D2). destruct n_parts as (N1 & N2 & N3). unfold transfer_levels.
  destruct (filled_some nnew (-1)) as (w0 & -> & L0 & S0); [apply (nu_size _ _ _ _ _ _ _ _ N)|]. cbn [bind].
  destruct (prods_some (fun d m _ => old_idx <- zget (mods d) m ;; old_level <- zget (old_levels d) old_idx ;; Ok (to_i8 (old_level + 1))) w0 L0 S0) as (w1 & E1 & L1 & S1 & G1 & F1).
  { intros d m p Hd Hm _. destruct (zget_in_range (mods d) m Hm) as (md & Emd). rewrite Emd. cbn [bind]. destruct (zget_in_range (old_levels d) md) as (l & ->); [rewrite HL by lia; apply R; [lia|eapply zget_In; exact Emd]|]. cbn [bind]. eauto. }
  rewrite E1. cbn [bind]. destruct (same_unmap (old_levels pd)) as (sd & -> & Ls & Gs); [apply HL; lia|]. cbn [bind].
  destruct (same_step sd w1 Ls L1 S1) as (w2 & -> & L2 & S2 & G2 & F2). cbn [bind]. destruct (allsome_freeze w2 S2) as (new & -> & Ln & Gn). exists new. split; [reflexivity|]. split; [lia|]. split.
  - intros e d md p l M Hl. apply Gn. rewrite F2 by (apply N3; eapply made_in; exact M). destruct (G1 e d md p M) as (m & v & Em & Ev & ->). do 2 f_equal. rewrite Em in Ev. cbn [bind] in Ev. rewrite Hl in Ev. cbn [bind] in Ev. inversion Ev. unfold to_i8. apply zget_In in Hl. apply HB in Hl. rewrite Z.mod_small; lia.
  - intros e o l (s & Hs & Ho) Hl. apply Gn. apply (G2 s); [exact Hs|]. rewrite (Gs s o Ho). exact Hl.
Qed.

Lemma transfer_leaves_w (old2new old_leaves : list Z) :
  1 <= pd -> zlen old_leaves = nold pd -> renumbers same2old same2new old2new -> (forall o, In o (mods pd) -> In o same2old) ->
  exists new, transfer_leaves dim pd mods prods2new same2old same2new old2new old_leaves nnew = Ok new /\ zlen new = nnew /\
  (forall e d md p, made_of dim pd mods prods2new e d md p -> zget new e = Ok 1) /\
  (forall e o, same_as same2old same2new e o -> In o (mods pd) -> zget new e = Ok 0) /\
  (NoDup same2old -> forall e o l, same_as same2old same2new e o -> ~ In o (mods pd) -> zget old_leaves o = Ok l -> zget new e = Ok l).
Proof.
  intros HP HL HR HM. destruct (nu_dim _ _ _ _ _ _ _ _ N) as (D1 & D2). destruct n_parts as (N1 & N2 & N3). unfold transfer_leaves.
  destruct (filled_some nnew (-1)) as (w0 & -> & L0 & S0); [apply (nu_size _ _ _ _ _ _ _ _ N)|]. cbn [bind].
  destruct (same_unmap old_leaves HL) as (sd & -> & Ls & Gs). cbn [bind]. destruct (same_step sd w0 Ls L0 S0) as (w1 & -> & L1 & S1 & G1 & F1). cbn [bind].
  destruct (prods_some (fun _ _ _ => Ok 1) w1 L1 S1) as (w2 & E2 & L2 & S2 & G2 & F2); [eauto|]. cbn [bind] in E2. rewrite E2. cbn [bind].
  assert (SA : forall o, In o same2old -> exists e, same_as same2old same2new e o).
  { intros o Ho. apply In_zget in Ho as (s & Hs). destruct (zget_in_range same2new s) as (e & He); [rewrite <- (nu_same _ _ _ _ _ _ _ _ N); eapply zget_bounds; exact Hs|]. exists e, s. auto. }
  destruct (unmap1 (mods pd) old2new) as (mn & -> & Lm & Gm). { intros o Ho. destruct (SA o (HM o Ho)) as (e & He). eapply zget_bounds. apply HR, He. } cbn [bind].
  assert (MN : forall e, In e mn <-> exists o, In o (mods pd) /\ same_as same2old same2new e o).
  { intros e. split.
    - intros H. apply In_zget in H as (i & Hi). pose proof (zget_bounds _ _ _ Hi) as Bi. rewrite Lm in Bi. destruct (zget_in_range (mods pd) i Bi) as (o & Ho). rewrite (Gm i o Ho) in Hi. exists o. split; [eapply zget_In; exact Ho|]. destruct (SA o) as (e' & He'); [apply HM; eapply zget_In; exact Ho|]. rewrite (HR _ _ He') in Hi. inversion Hi; subst. exact He'.
    - intros (o & Ho & Hs). apply In_zget in Ho as (i & Hi). apply HR in Hs. rewrite <- (Gm i o Hi) in Hs. eapply zget_In; exact Hs. }
  replace (zlen (mods pd)) with (zlen mn). destruct (const_scatter mn 0 w2) as (w3 & -> & L3 & S3 & G3 & F3); [|exact S2|].
  { intros e He. apply MN in He as (o & _ & Hs). rewrite L2. apply (nu_new _ _ _ _ _ _ _ _ N), in_or_app. right. eapply same_in; exact Hs. }
  cbn [bind]. destruct (allsome_freeze w3 S3) as (new & -> & Ln & Gn). exists new. split; [reflexivity|]. split; [lia|]. split; [|split].
  - intros e d md p M. apply Gn. rewrite F3. { destruct (G2 e d md p M) as (m & v & _ & Ev & ->). congruence. } intros H. apply MN in H as (o & _ & Hs). apply same_in in Hs. exact (N3 e (made_in _ _ _ _ M) Hs).
  - intros e o Hs Ho. apply Gn, G3, MN. eauto.
  - intros ND e o l Hs Ho Hl. apply Gn. rewrite F3.
    + destruct Hs as (s & Hs & Hso). rewrite F2; [apply (G1 s); [exact Hs|rewrite (Gs s o Hso); exact Hl]|]. intros I. exact (N3 e I (zget_In _ _ _ Hs)).
    + intros H. apply MN in H as (o' & Ho' & Hs'). destruct Hs as (s & A & B), Hs' as (s' & A' & B'). assert (s = s') by (eapply NoDup_zget; [exact N2|exact A|exact A']). subst s'. apply Ho. congruence.
Qed.

Lemma code_ok prod d : 0 <= prod < hypercube_split_degree d pd -> 1 <= d <= 3 -> 0 <= pd <= d -> code_parent_dim (amr_make_code prod d) = d /\ code_which_child (amr_make_code prod d) = prod.
Proof.
  intros Hp Hd Hpd. assert (T : hypercube_split_degree d pd <= 12). { assert (C : d = 1 \/ d = 2 \/ d = 3) by lia. assert (D : pd = 0 \/ pd = 1 \/ pd = 2 \/ pd = 3) by lia. destruct C as [->|[->| ->]], D as [->|[->|[->| ->]]]; (vm_compute; discriminate) || lia. }
  assert (C : d = 1 \/ d = 2 \/ d = 3) by lia. assert (P : In prod (zrange 12)) by (apply in_zrange; lia). cbv -[In amr_make_code code_parent_dim code_which_child] in P.
  destruct C as [->|[->| ->]]; repeat (destruct P as [<-|P]; [split; vm_compute; reflexivity|]); destruct P.
Qed.

Lemma transfer_parents_w (old2new : Z -> list Z) (old_parents : parents) :
  parents_ok dim nold pd old_parents -> (forall d, 0 <= d <= dim -> zlen (old2new d) = nold d) ->
  exists new, transfer_parents dim pd mods prods2new same2old same2new old2new old_parents nnew = Ok new /\ zlen (fst new) = nnew /\ zlen (snd new) = nnew /\
  (forall e d md p, made_of dim pd mods prods2new e d md p ->
     zget (fst new) e = zget (old2new d) md /\ exists c, zget (snd new) e = Ok c /\ code_parent_dim c = d /\ code_which_child c = p) /\
  (forall e o q c, same_as same2old same2new e o -> zget (fst old_parents) o = Ok q -> zget (snd old_parents) o = Ok c ->
     zget (snd new) e = Ok c /\ zget (fst new) e = if q <? 0 then Ok q else zget (old2new (code_parent_dim c)) q).
Proof.
  intros (HP1 & HP2 & HP) HO. destruct (nu_dim _ _ _ _ _ _ _ _ N) as (D1 & D2). destruct n_parts as (N1 & N2 & N3). unfold transfer_parents.
  destruct (filled_some nnew (-1)) as (wp & -> & Lp & Sp); [apply (nu_size _ _ _ _ _ _ _ _ N)|]. cbn [bind].
  destruct (filled_some nnew 0) as (wc & -> & Lc & Sc); [apply (nu_size _ _ _ _ _ _ _ _ N)|]. cbn [bind].
  destruct (same_unmap (fst old_parents) HP1) as (sp & -> & Lsp & Gsp). cbn [bind]. destruct (same_unmap (snd old_parents) HP2) as (sc & -> & Lsc & Gsc). cbn [bind].
  assert (SQ : forall s, 0 <= s < zlen sp -> exists o q c, zget same2old s = Ok o /\ zget sp s = Ok q /\ zget sc s = Ok c /\ zget (fst old_parents) o = Ok q /\ zget (snd old_parents) o = Ok c).
  { intros s Hs. destruct (zget_in_range same2old s) as (o & Ho); [rewrite (nu_same _ _ _ _ _ _ _ _ N); lia|]. destruct (zget_in_range sp s) as (q & Hq); [lia|]. destruct (zget_in_range sc s) as (c & Hc); [lia|]. exists o, q, c. rewrite <- (Gsp s o Ho), <- (Gsc s o Ho). auto. }
  match goal with |- context [tabulate (zlen sp) ?f] => destruct (tab_total (zlen sp) f (zlen_nonneg _)) as (sp2 & -> & Lsp2 & Gsp2) end. { intros s Hs. destruct (SQ s Hs) as (o & q & c & _ & -> & Ec & Eq' & Ec'). cbn [bind]. destruct (Z.ltb_spec q 0) as [_|Hq]; [eauto|]. rewrite Ec. cbn [bind]. destruct (HP o q c Eq' Ec' Hq) as (A & B). apply zget_in_range. rewrite HO by exact A. lia. }
  cbn [bind]. destruct (same_step sp2 wp) as (wp1 & -> & Lp1 & Sp1 & Gp1 & Fp1); [lia|exact Lp|exact Sp|]. cbn [bind].
  destruct (same_step sc wc) as (wc1 & -> & Lc1 & Sc1 & Gc1 & Fc1); [lia|exact Lc|exact Sc|]. cbn [bind].
  destruct (prods_some (fun d m _ => md <- zget (mods d) m ;; zget (old2new d) md) wp1 Lp1 Sp1) as (wp2 & Ep2 & Lp2 & Sp2 & Gp2 & Fp2).
  { intros d m p Hd Hm _. destruct (zget_in_range (mods d) m Hm) as (md & Emd). rewrite Emd. cbn [bind]. apply zget_in_range. rewrite HO by lia. apply R; [lia|eapply zget_In; exact Emd]. }
  rewrite Ep2. cbn [bind]. destruct (prods_some (fun d m p => Ok (amr_make_code p d)) wc1 Lc1 Sc1) as (wc2 & Ec2 & Lc2 & Sc2 & Gc2 & Fc2); [eauto|]. cbn [bind] in Ec2. rewrite Ec2. cbn [bind].
  destruct (allsome_freeze wp2 Sp2) as (np & -> & Ln & Gn). destruct (allsome_freeze wc2 Sc2) as (nc & -> & Lnc & Gnc). cbn [bind]. exists (np, nc). split; [reflexivity|]. cbn [fst snd]. split; [lia|]. split; [lia|]. split.
  - intros e d md p M. destruct (Gp2 e d md p M) as (m & v & Em & Ev & Gv). rewrite Em in Ev. cbn [bind] in Ev. split; [rewrite Ev; apply Gn, Gv|]. destruct (Gc2 e d md p M) as (m' & c & _ & Ec & Gv'). inversion Ec; subst c. exists (amr_make_code p d). split; [apply Gnc, Gv'|]. destruct M as (_ & Hd & _ & Hp & _). apply code_ok; [exact Hp|lia|lia].
  - intros e o q c (s & Hs & Hso) Hq Hc. assert (NP : ~ In e prods2new) by (intros I; exact (N3 e I (zget_In _ _ _ Hs))). split.
    + apply Gnc. rewrite Fc2 by exact NP. apply (Gc1 s); [exact Hs|]. rewrite (Gsc s o Hso). exact Hc.
    + assert (Bs : 0 <= s < zlen sp) by (rewrite Lsp; eapply zget_bounds; exact Hs). specialize (Gsp2 s Bs). rewrite (Gsp s o Hso), Hq, (Gsc s o Hso), Hc in Gsp2. cbn [bind] in Gsp2.
      destruct (zget_in_range sp2 s) as (x & Hx); [lia|]. rewrite Hx in Gsp2. rewrite (Gn e x); [|rewrite Fp2 by exact NP; apply (Gp1 s); [exact Hs|exact Hx]]. exact Gsp2.
Qed.
End one.
