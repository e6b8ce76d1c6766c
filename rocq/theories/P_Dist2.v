From Verif Require Import Prelude M_Array M_Scan S_Scan M_Sort M_Map S_Map M_Dist P_Array P_Scan P_Map P_Fan P_Dist.
Local Open Scope Z_scope.

(** * exch on a well-formed world *)

Definition content_of (o : option (list Z)) (i c : Z) : Prop := match o with Some p => zget p i = Ok c | None => i = c end.
Definition root_of (o : option (list Z)) (q i : Z) : Prop := match o with Some f => in_group f q i | None => q = i end.

Definition perm_ok (o : option (list Z)) (n : Z) : Prop := match o with Some p => is_perm p /\ zlen p = n | None => True end.
Definition fan_ok (o : option (list Z)) (n : Z) : Prop := match o with Some f => is_fan f /\ last_of f = Ok n | None => True end.

Record wf_world (ds : list dist) (cnt : Z -> Z -> Z) : Prop := {
  wf_wired : wired (map comm_F ds) (map msgs2content_F ds) (map msgs2content_R ds) cnt;
  wf_inv : forall r d, zget ds r = Ok d -> comm_R d = graph_inverse (comm_F d);
  wf_pF : forall r d, zget ds r = Ok d -> perm_ok (items2content_F d) (sent (map comm_F ds) cnt r);
  wf_pR : forall r d, zget ds r = Ok d -> perm_ok (items2content_R d) (received (map comm_F ds) cnt r);
  wf_fF : forall r d, zget ds r = Ok d -> fan_ok (roots2items_F d) (sent (map comm_F ds) cnt r);
  wf_fR : forall r d, zget ds r = Ok d -> fan_ok (roots2items_R d) (received (map comm_F ds) cnt r)
}.

Definition item_link (ds : list dist) (cnt : Z -> Z -> Z) (s i r i' : Z) : Prop :=
  exists d d' c c', zget ds s = Ok d /\ zget ds r = Ok d' /\
    content_of (items2content_F d) i c /\ linked (map comm_F ds) cnt s c r c' /\ content_of (items2content_R d') i' c'.

Lemma zget_map_ok {A B} (f : A -> B) l i x : zget l i = Ok x -> zget (map f l) i = Ok (f x).
Proof. intros H. rewrite zget_map, H. reflexivity. Qed.
Lemma zget_map_inv {A B} (f : A -> B) l i y : zget (map f l) i = Ok y -> exists x, zget l i = Ok x /\ y = f x.
Proof. rewrite zget_map. destruct (zget l i) as [x| |]; cbn; try discriminate. intros [= <-]. eauto. Qed.

Lemma comm_R_map ds cnt : wf_world ds cnt -> map comm_R ds = map graph_inverse (map comm_F ds).
Proof.
  intros W. rewrite map_map. apply map_ext_in. intros d Hd. apply In_zget in Hd as (r & Hr). eapply wf_inv; eauto.
Qed.

Lemma wf_invert ds cnt : wf_world ds cnt -> wf_world (invert ds) (fun s r => cnt r s).
Proof.
  intros W. unfold invert.
  assert (map comm_F (map invert1 ds) = map graph_inverse (map comm_F ds)) as EF by (rewrite map_map; apply (comm_R_map ds cnt W)).
  assert (forall r, sent (map comm_F (map invert1 ds)) (fun s r => cnt r s) r = received (map comm_F ds) cnt r) as ES by (intros; rewrite EF; apply sent_inverse).
  assert (forall r, received (map comm_F (map invert1 ds)) (fun s r => cnt r s) r = sent (map comm_F ds) cnt r) as ER.
  { intros. rewrite EF. pose proof (sent_inverse (map graph_inverse (map comm_F ds)) (fun s r => cnt r s) r) as E.
    rewrite map_graph_inverse2 in E. symmetry. exact E. }
  constructor.
  - rewrite EF. rewrite (map_map invert1 msgs2content_F), (map_map invert1 msgs2content_R). apply (wired_inverse _ _ _ _ (wf_wired _ _ W)).
  - intros r d Hd. apply zget_map_inv in Hd as (e & He & ->). cbn. rewrite (wf_inv _ _ W r e He). destruct (comm_F e); reflexivity.
  - intros r d Hd. rewrite ES. apply zget_map_inv in Hd as (e & He & ->). cbn. eapply wf_pR; eauto.
  - intros r d Hd. rewrite ER. apply zget_map_inv in Hd as (e & He & ->). cbn. eapply wf_pF; eauto.
  - intros r d Hd. rewrite ES. apply zget_map_inv in Hd as (e & He & ->). cbn. eapply wf_fR; eauto.
  - intros r d Hd. rewrite ER. apply zget_map_inv in Hd as (e & He & ->). cbn. eapply wf_fF; eauto.
Qed.

Lemma item_link_flip ds cnt s i r i' : wf_world ds cnt -> item_link ds cnt s i r i' -> item_link (invert ds) (fun s r => cnt r s) r i' s i.
Proof.
  intros W (d & d' & c & c' & Hd & Hd' & C1 & L & C2).
  exists (invert1 d'), (invert1 d), c', c. split; [apply zget_map_ok; exact Hd'|]. split; [apply zget_map_ok; exact Hd|]. split; [exact C2|].
  split; [|exact C1]. unfold invert. rewrite map_map. change (map (fun x => comm_F (invert1 x)) ds) with (map comm_R ds).
  rewrite (comm_R_map ds cnt W). apply linked_flip, L.
Qed.

Lemma perm_ok_total o n i : perm_ok o n -> 0 <= i < n -> exists c, content_of o i c /\ 0 <= c < n.
Proof.
  destruct o as [p|]; cbn; [|intros _ H; exists i; auto]. intros [P <-] H. destruct (zget_in_range p i H) as (c & Hc).
  exists c. split; [exact Hc|]. apply (is_perm_in _ _ P). eapply zget_In; eauto.
Qed.
Lemma perm_ok_onto o n c : perm_ok o n -> 0 <= c < n -> exists i, content_of o i c /\ 0 <= i < n.
Proof.
  destruct o as [p|]; cbn; [|intros _ H; exists c; auto]. intros [P <-] H. apply (is_perm_in _ _ P) in H. apply In_zget in H as (i & Hi).
  exists i. split; [exact Hi|]. eapply zget_bounds; eauto.
Qed.
Lemma perm_ok_fun o i c c' : content_of o i c -> content_of o i c' -> c = c'.
Proof. destruct o; cbn; congruence. Qed.
Lemma perm_ok_inj o n i i' c : perm_ok o n -> content_of o i c -> content_of o i' c -> i = i'.
Proof. destruct o as [p|]; cbn; [|congruence]. intros [P _] A B. eapply NoDup_zget; eauto. apply is_perm_NoDup, P. Qed.
Lemma perm_ok_range o n i c : perm_ok o n -> content_of o i c -> 0 <= c < n -> 0 <= i < n.
Proof. destruct o as [p|]; cbn; [|intros _ <- H; exact H]. intros [P <-] A _. eapply zget_bounds; eauto. Qed.

Section items.
Context (ds : list dist) (cnt : Z -> Z -> Z).
Hypothesis W : wf_world ds cnt.
Let gs := map comm_F ds.

Lemma item_link_total s d i : zget ds s = Ok d -> 0 <= i < sent gs cnt s -> exists r i', item_link ds cnt s i r i'.
Proof.
  intros Hd Hi. destruct (perm_ok_total _ _ i (wf_pF _ _ W s d Hd) Hi) as (c & C1 & Bc).
  destruct (linked_total _ _ _ _ (wf_wired _ _ W) s c Bc) as (r & c' & L).
  pose proof (linked_received _ _ _ _ _ _ _ _ (wf_wired _ _ W) L) as Bc'.
  assert (exists d', zget ds r = Ok d') as (d' & Hd').
  { destruct L as (g & h & _ & _ & _ & _ & _ & _ & Hh & _). apply zget_map_inv in Hh as (d' & Hd' & _). eauto. }
  destruct (perm_ok_onto _ _ c' (wf_pR _ _ W r d' Hd') Bc') as (i' & C2 & _).
  exists r, i', d, d', c, c'. auto.
Qed.
Lemma item_link_fun s i r i' r2 i2 : item_link ds cnt s i r i' -> item_link ds cnt s i r2 i2 -> r = r2 /\ i' = i2.
Proof.
  intros (d & d' & c & c' & Hd & Hd' & C1 & L & C2) (e & e' & k & k' & He & He' & K1 & M & K2).
  assert (e = d) as -> by congruence. pose proof (perm_ok_fun _ _ _ _ C1 K1) as <-.
  destruct (linked_fun _ _ _ _ (wf_wired _ _ W) _ _ _ _ _ _ L M) as [<- <-]. split; [reflexivity|].
  assert (e' = d') as -> by congruence. eapply perm_ok_inj; eauto. eapply wf_pR; eauto.
Qed.
Lemma item_link_range s i r i' : item_link ds cnt s i r i' -> 0 <= i < sent gs cnt s /\ 0 <= i' < received gs cnt r.
Proof.
  intros (d & d' & c & c' & Hd & Hd' & C1 & L & C2).
  pose proof (linked_received _ _ _ _ _ _ _ _ (wf_wired _ _ W) L) as Bc'.
  destruct (linked_sent _ _ _ _ (wf_wired _ _ W) _ _ _ _ L) as (_ & _ & _ & _ & _ & Bc).
  split; eapply perm_ok_range; eauto; [eapply wf_pF|eapply wf_pR]; eauto.
Qed.

Lemma msgs_last s d : zget ds s = Ok d -> last_of (msgs2content_F d) = Ok (sent gs cnt s).
Proof.
  intros Hd. pose proof (w_sd _ _ _ _ (wf_wired _ _ W) s (comm_F d) (zget_map_ok _ _ _ _ Hd)) as E.
  rewrite (zget_map_ok _ _ _ _ Hd) in E. injection E as ->. rewrite offset_scan_last. unfold sent, gs. rewrite (zget_map_ok _ _ _ _ Hd). reflexivity.
Qed.
Lemma sent_nonneg s d : zget ds s = Ok d -> 0 <= sent gs cnt s.
Proof.
  intros Hd. pose proof (msgs_last s d Hd) as E. pose proof (w_sd _ _ _ _ (wf_wired _ _ W) s (comm_F d) (zget_map_ok _ _ _ _ Hd)) as E'.
  rewrite (zget_map_ok _ _ _ _ Hd) in E'. injection E' as E'. rewrite E' in E. unfold last_of in E.
  eapply fan_nonneg; [|exact E]. eapply (sfan _ _ _ _ (wf_wired _ _ W)). apply zget_map_ok. exact Hd.
Qed.
Lemma nsrcs_cases s d : zget ds s = Ok d -> nsrcs d = Ok (match roots2items_F d with Some f => zlen f - 1 | None => sent gs cnt s end).
Proof. intros Hd. unfold nsrcs. destruct (roots2items_F d); [reflexivity|]. apply msgs_last, Hd. Qed.

Lemma pack_ok {A} s d (x : list A) width n : zget ds s = Ok d -> 0 < width -> nsrcs d = Ok n -> zlen x = n * width ->
  exists y, pack1 d x width = Ok y /\ zlen y = sent gs cnt s * width /\
  forall q i c j, root_of (roots2items_F d) q i -> content_of (items2content_F d) i c -> 0 <= j < width ->
    zget y (c * width + j) = zget x (q * width + j).
Proof.
  intros Hd Hw Hn Lx. rewrite (nsrcs_cases s d Hd) in Hn. injection Hn as Hn. pose proof (sent_nonneg s d Hd) as Sn.
  assert (exists z, match roots2items_F d with Some f => expand x f width | None => Ok x end = Ok z /\ zlen z = sent gs cnt s * width /\
    forall q i j, root_of (roots2items_F d) q i -> 0 <= j < width -> zget z (i * width + j) = zget x (q * width + j)) as (z & Ez & Lz & Gz).
  { pose proof (wf_fF _ _ W s d Hd) as F. destruct (roots2items_F d) as [f|]; cbn in *.
    - destruct F as [F El]. destruct (expand_spec x f width F ltac:(lia)) as (m & z & Em & Ez & Lz & Gz); [rewrite Lx; lia|].
      exists z. split; [exact Ez|]. split; [unfold gs; rewrite Lz; f_equal; congruence|]. intros q i j G Hj. apply Gz; auto.
    - exists x. split; [reflexivity|]. split; [rewrite Lx, <- Hn; reflexivity|]. intros q i j -> _. reflexivity. }
  unfold pack1. rewrite Ez. cbn [bind]. pose proof (wf_pF _ _ W s d Hd) as P. fold gs in P. destruct (items2content_F d) as [p|]; cbn in *.
  - destruct P as [P Lp]. destruct (permute_spec z p width ltac:(lia)) as (y & Ey & Ly & Gy); [rewrite Lp; exact Lz|exact P|].
    exists y. split; [exact Ey|]. split; [lia|]. intros q i c j R C Hj. rewrite (Gy i c j C Hj). apply Gz; auto.
  - exists z. split; [reflexivity|]. split; [exact Lz|]. intros q i c j R <- Hj. apply Gz; auto.
Qed.

Lemma unpack_ok {A} r d (x : list A) width : zget ds r = Ok d -> 0 < width -> zlen x = received gs cnt r * width ->
  exists y, unpack1 d x width = Ok y /\ zlen y = received gs cnt r * width /\
  forall i c j, content_of (items2content_R d) i c -> 0 <= j < width -> zget y (i * width + j) = zget x (c * width + j).
Proof.
  intros Hd Hw Lx. unfold unpack1. pose proof (wf_pR _ _ W r d Hd) as P. fold gs in P. destruct (items2content_R d) as [p|]; cbn in *.
  - destruct P as [P Lp]. destruct (unmap_spec p x width ltac:(lia)) as (y & Ey & Ly & Gy); [apply perm_maps_into; [lia|exact P|rewrite Lp; exact Lx]|].
    exists y. split; [exact Ey|]. split; [rewrite Ly, Lp; reflexivity|]. intros i c j C Hj. apply Gy; auto.
  - exists x. split; [reflexivity|]. split; [exact Lx|]. intros i c j <- _. reflexivity.
Qed.

Lemma exch_ok {A} (data : list (list A)) width : 0 < width -> zlen data = zlen ds ->
  (forall s d x, zget ds s = Ok d -> zget data s = Ok x -> exists n, nsrcs d = Ok n /\ zlen x = n * width) ->
  exists out, exch ds data width = Ok out /\ zlen out = zlen ds /\
  (forall r y, zget out r = Ok y -> zlen y = received gs cnt r * width) /\
  (forall s i r i' d q x y j, item_link ds cnt s i r i' -> zget ds s = Ok d -> root_of (roots2items_F d) q i ->
     zget data s = Ok x -> zget out r = Ok y -> 0 <= j < width -> zget y (i' * width + j) = zget x (q * width + j)).
Proof.
  intros Hw Ld Hd. unfold exch.
  destruct (tabulate_rel (zlen ds) (fun r => d <- zget ds r ;; x <- zget data r ;; pack1 d x width)
    (fun s y => zlen y = sent gs cnt s * width /\ forall d x q i c j, zget ds s = Ok d -> zget data s = Ok x ->
       root_of (roots2items_F d) q i -> content_of (items2content_F d) i c -> 0 <= j < width -> zget y (c * width + j) = zget x (q * width + j)))
    as (c1 & E1 & L1 & G1); [apply zlen_nonneg| |].
  { intros s Hs. destruct (zget_in_range ds s Hs) as (d & Ed). destruct (zget_in_range data s ltac:(lia)) as (x & Ex).
    destruct (Hd s d x Ed Ex) as (n & En & Lx). destruct (pack_ok s d x width n Ed Hw En Lx) as (y & Ey & Ly & Gy).
    exists y. rewrite Ed, Ex. cbn [bind]. split; [exact Ey|]. split; [exact Ly|]. intros d' x' q i c j Hd' Hx'.
    assert (d' = d) as -> by congruence. assert (x' = x) as -> by congruence. apply Gy. }
  rewrite E1. cbn [bind].
  destruct (alltoallv_spec gs _ _ cnt c1 width (wf_wired _ _ W) Hw) as (c2 & E2 & L2 & S2 & G2).
  { unfold gs. rewrite zlen_map. exact L1. }
  { intros s b Hb. apply G1, Hb. }
  fold gs. rewrite E2. cbn [bind]. unfold gs in L2. rewrite zlen_map in L2.
  destruct (tabulate_rel (zlen ds) (fun r => d <- zget ds r ;; x <- zget c2 r ;; unpack1 d x width)
    (fun r y => zlen y = received gs cnt r * width /\ forall d x i c j, zget ds r = Ok d -> zget c2 r = Ok x ->
       content_of (items2content_R d) i c -> 0 <= j < width -> zget y (i * width + j) = zget x (c * width + j)))
    as (out & E3 & L3 & G3); [apply zlen_nonneg| |].
  { intros r Hr. destruct (zget_in_range ds r Hr) as (d & Ed). destruct (zget_in_range c2 r ltac:(lia)) as (x & Ex).
    destruct (unpack_ok r d x width Ed Hw (S2 r x Ex)) as (y & Ey & Ly & Gy). exists y. rewrite Ed, Ex. cbn [bind].
    split; [exact Ey|]. split; [exact Ly|]. intros d' x' i c j Hd' Hx'.
    assert (d' = d) as -> by congruence. assert (x' = x) as -> by congruence. apply Gy. }
  exists out. split; [exact E3|]. split; [exact L3|]. split; [intros r y Hy; apply (G3 r y Hy)|].
  intros s i r i' d q x y j (e & d' & c & c' & He & Hd' & C1 & L & C2) Ed R Ex Ey Hj. assert (e = d) as -> by congruence.
  destruct (zget_in_range c1 s) as (b & Eb); [rewrite L1; eapply zget_bounds; eauto|].
  destruct (zget_in_range c2 r) as (b2 & Eb2); [rewrite L2; eapply zget_bounds; eauto|].
  destruct (G3 r y Ey) as [_ H3]. rewrite (H3 d' b2 i' c' j Hd' Eb2 C2 Hj).
  rewrite (G2 s c r c' b b2 j L Eb Eb2 Hj).
  destruct (G1 s b Eb) as [_ H1]. apply (H1 d x q i c j Ed Ex R C1 Hj).
Qed.

Lemma exch_reduce_ok {A} (init : A) join (data : list (list A)) width : 0 < width -> zlen data = zlen ds ->
  (forall s d x, zget ds s = Ok d -> zget data s = Ok x -> exists n, nsrcs d = Ok n /\ zlen x = n * width) ->
  (forall r d, zget ds r = Ok d -> exists f, roots2items_R d = Some f) ->
  exists out items, exch ds data width = Ok items /\ exch_reduce init join ds data width = Ok out /\ zlen out = zlen ds /\
  forall r d f y x, zget ds r = Ok d -> roots2items_R d = Some f -> zget items r = Ok x -> zget out r = Ok y -> zlen y = (zlen f - 1) * width /\
    forall q lo hi j, zget f q = Ok lo -> zget f (q + 1) = Ok hi -> 0 <= j < width ->
    exists vs, mapM (fun b => zget x (b * width + j)) (zfromto lo hi) = Ok vs /\ zget y (q * width + j) = Ok (fold_left join vs init).
Proof.
  intros Hw Ld Hd Hf. destruct (exch_ok data width Hw Ld Hd) as (items & E & L & S & G). unfold exch_reduce. rewrite E. cbn [bind].
  destruct (tabulate_rel (zlen ds) (fun r => d <- zget ds r ;; x <- zget items r ;;
      match roots2items_R d with Some f => fan_reduce_tmpl init join f x width | None => UB end)
    (fun r y => forall d f x, zget ds r = Ok d -> roots2items_R d = Some f -> zget items r = Ok x -> zlen y = (zlen f - 1) * width /\
    forall q lo hi j, zget f q = Ok lo -> zget f (q + 1) = Ok hi -> 0 <= j < width ->
    exists vs, mapM (fun b => zget x (b * width + j)) (zfromto lo hi) = Ok vs /\ zget y (q * width + j) = Ok (fold_left join vs init)))
    as (out & Eo & Lo & Go); [apply zlen_nonneg| |].
  { intros r Hr. destruct (zget_in_range ds r Hr) as (d & Ed). destruct (zget_in_range items r ltac:(lia)) as (x & Ex). rewrite Ed, Ex. cbn [bind].
    destruct (Hf r d Ed) as (f & Ef). rewrite Ef. pose proof (wf_fR _ _ W r d Ed) as F. rewrite Ef in F. cbn in F. destruct F as [F El]. fold gs in El.
    destruct (fan_reduce_tmpl_spec init join f x width _ F ltac:(lia) El (S r x Ex)) as (y & Ey & Ly & Gy).
    exists y. split; [exact Ey|]. intros d' f' x' Hd' Hf' Hx'. assert (d' = d) as -> by congruence. assert (x' = x) as -> by congruence.
    assert (f' = f) as -> by congruence. split; [exact Ly|]. intros q lo hi j A1 A2 A3. apply Gy; auto. }
  exists out, items. split; [reflexivity|]. split; [exact Eo|]. split; [exact Lo|].
  intros r d f y x Ed Ef Ex Ey. apply (Go r y Ey d f x Ed Ef Ex).
Qed.
End items.
