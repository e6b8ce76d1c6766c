(** Proofs for C86. *)
From Coq Require Import Lia.
From Verif Require Import Prelude M_Array M_Par M_Scan S_Scan M_Sort M_Map S_Map M_Align M_Adj M_Parents M_Template P_Array P_Map P_Map2 P_Align P_Graph P_Mark M_AmrTopo S_AmrTopo P_AmrTopo P_AmrTopo2 M_AmrTransfer S_AmrTransfer.
Local Open Scope Z_scope.

Lemma degrees0 d pd : 0 <= pd <= d -> 1 <= d <= 3 -> 0 <= hypercube_split_degree d pd.
Proof. intros H1 H2. assert (C : d = 1 \/ d = 2 \/ d = 3) by lia. assert (D : pd = 0 \/ pd = 1 \/ pd = 2 \/ pd = 3) by lia. destruct C as [->|[->| ->]], D as [->|[->|[->| ->]]]; (vm_compute; discriminate) || lia. Qed.

Section loops.
Variable pd : Z.
Variable mods : Z -> list Z.
Let np d := hypercube_split_degree d pd.
Let nmods d := zlen (mods d).
Local Notation quad := (Z * Z * Z * Z)%type.
Definition qd (q : quad) := fst (fst (fst q)).
Definition qm (q : quad) := snd (fst (fst q)).
Definition qp (q : quad) := snd (fst q).
Definition qi (q : quad) := snd q.
Definition plane (off d : Z) : list quad := flat_map (fun m => map (fun p => (d, m, p, off + (m * np d + p))) (zrange (np d))) (zrange (nmods d)).
Fixpoint plist (off : Z) (l : list Z) : list quad := match l with [] => [] | d :: l' => plane off d ++ plist (off + np d * nmods d) l' end.
Definition total (l : list Z) : Z := zsum (map (fun i => zlen (mods i) * np i) l).

Lemma flat_loop {S} (body : S -> Z -> Z -> Z -> Z -> res S) : forall l s off,
  foldM (fun (st : S * Z) mod_dim =>
    let nprods_per_mod := hypercube_split_degree mod_dim pd in
    let offset := snd st in
    s <- forM (nmods mod_dim) (fst st) (fun s mod_ => forM nprods_per_mod s (fun s prod => body s mod_dim mod_ prod (offset + (mod_ * nprods_per_mod + prod)))) ;;
    Ok (s, offset + nprods_per_mod * nmods mod_dim)) l (s, off) =
  (s' <- foldM (fun s q => body s (qd q) (qm q) (qp q) (qi q)) (plist off l) s ;; Ok (s', off + total l)).
Proof.
  induction l as [|d l IH]; intros s off; [cbn; rewrite Z.add_0_r; reflexivity|]. cbn [foldM plist fst snd]. cbv zeta in *. rewrite foldM_app.
  assert (E : forM (nmods d) s (fun s mod_ => forM (np d) s (fun s prod => body s d mod_ prod (off + (mod_ * np d + prod)))) = foldM (fun s q => body s (qd q) (qm q) (qp q) (qi q)) (plane off d) s).
  { unfold plane, forM. rewrite foldM_flat_map. apply foldM_ext. intros m s' _. rewrite foldM_map. reflexivity. }
  unfold np at 1 2 in E. rewrite E. destruct (foldM _ (plane off d) s) as [s'| |]; [|reflexivity..]. cbn [bind]. rewrite IH. destruct (foldM _ (plist _ l) s') as [s2| |]; [|reflexivity..]. cbn [bind]. do 2 f_equal.
  unfold total, zsum. cbn [map fold_right]. unfold np, nmods. ring.
Qed.

Lemma plane_ids off d : 0 <= np d -> map qi (plane off d) = zfromto off (off + nmods d * np d).
Proof.
  intros Hp. unfold plane. pose proof (zlen_nonneg (mods d)) as Hn. fold (nmods d) in Hn. revert Hn. generalize (nmods d) as n. intros n Hn. pattern n. apply natlike_ind; [| |exact Hn]; clear n Hn.
  - cbn. rewrite zfromto_nil by lia. reflexivity.
  - intros n Hn IH. unfold Z.succ. rewrite zrange_succ by exact Hn. rewrite flat_map_app, map_app, IH. cbn [flat_map]. rewrite app_nil_r, map_map.
    rewrite (zfromto_app off (off + n * np d) (off + (n + 1) * np d)) by nia. f_equal. unfold zfromto. replace (off + (n + 1) * np d - (off + n * np d)) with (np d) by ring. apply map_ext. intros p. unfold qi. cbn [snd]. ring.
Qed.
Lemma total_nonneg l : (forall d, In d l -> 0 <= np d) -> 0 <= total l.
Proof.
  unfold total, zsum. induction l as [|d l IH]; intros H; [cbn; lia|]. cbn [map fold_right]. specialize (IH (fun x Hx => H x (or_intror Hx))). pose proof (H d (or_introl eq_refl)). pose proof (zlen_nonneg (mods d)). nia.
Qed.
Lemma plist_ids : forall l off, (forall d, In d l -> 0 <= np d) -> map qi (plist off l) = zfromto off (off + total l).
Proof.
  induction l as [|d l IH]; intros off H; [cbn; rewrite zfromto_nil by lia; reflexivity|]. cbn [plist]. pose proof (H d (or_introl eq_refl)) as Hd. pose proof (zlen_nonneg (mods d)) as Hn. fold (nmods d) in Hn. pose proof (total_nonneg l (fun x Hx => H x (or_intror Hx))) as Ht.
  rewrite map_app, plane_ids, IH by (exact Hd || (intros x Hx; apply H; right; exact Hx)). rewrite (Z.mul_comm (np d)).
  replace (off + total (d :: l)) with (off + nmods d * np d + total l) by (unfold total, zsum; cbn [map fold_right]; unfold nmods; ring). rewrite <- zfromto_app by nia. reflexivity.
Qed.
Lemma plane_in off d q : In q (plane off d) <-> qd q = d /\ 0 <= qm q < nmods d /\ 0 <= qp q < np d /\ qi q = off + (qm q * np d + qp q).
Proof.
  unfold plane. rewrite in_flat_map. split.
  - intros (m & Hm & H). apply in_zrange in Hm. apply in_map_iff in H as (p & <- & Hp). apply in_zrange in Hp. cbn. auto.
  - destruct q as [[[d' m] p] i]. cbn. intros (-> & Hm & Hp & ->). exists m. split; [apply in_zrange; exact Hm|]. apply in_map_iff. exists p. split; [reflexivity|apply in_zrange; exact Hp].
Qed.
Lemma plist_app : forall l l' off, plist off (l ++ l') = plist off l ++ plist (off + total l) l'.
Proof.
  induction l as [|d l IH]; intros l' off; [cbn; rewrite Z.add_0_r; reflexivity|]. cbn [app plist]. rewrite IH, <- app_assoc. do 3 f_equal. unfold total, zsum. cbn [map fold_right]. unfold nmods. ring.
Qed.
Lemma plist_in l off q : In q (plist off l) -> exists d, In d l /\ qd q = d /\ 0 <= qm q < nmods d /\ 0 <= qp q < np d.
Proof.
  revert off. induction l as [|d l IH]; intros off H; [destruct H|]. cbn [plist] in H. apply in_app_or in H as [H|H].
  - apply plane_in in H as (A & B & C & _). exists d. split; [left; reflexivity|auto].
  - destruct (IH _ H) as (d' & A & B). exists d'. split; [right; exact A|exact B].
Qed.
Lemma plist_has lo hi d m p : lo <= d < hi -> 0 <= m < nmods d -> 0 <= p < np d -> In (d, m, p, total (zfromto lo d) + m * np d + p) (plist 0 (zfromto lo hi)).
Proof.
  intros Hd Hm Hp. rewrite (zfromto_app lo d hi), (zfromto_cons d) by lia. rewrite plist_app. apply in_or_app. right. cbn [plist]. apply in_or_app. left. apply plane_in. unfold qd, qm, qp, qi. cbn [fst snd]. split; [reflexivity|]. split; [exact Hm|]. split; [exact Hp|]. ring.
Qed.

Lemma prods_scatter {U T} dim (inj : U -> T) (val : Z -> Z -> Z -> res U) prods2new (w : list T) :
  0 <= pd <= dim -> 1 <= dim <= 3 -> zlen prods2new = products mods pd (Z.max 1 pd) (dim + 1) -> NoDup prods2new -> (forall e, In e prods2new -> 0 <= e < zlen w) ->
  (forall d m p, Z.max 1 pd <= d <= dim -> 0 <= m < zlen (mods d) -> 0 <= p < hypercube_split_degree d pd -> exists v, val d m p = Ok v) ->
  exists w', for_prods dim pd (fun d => zlen (mods d)) (fun w d m p i => v <- val d m p ;; e <- zget prods2new i ;; zset w e (inj v)) w = Ok w' /\ zlen w' = zlen w /\
  (forall d m p e v, Z.max 1 pd <= d <= dim -> 0 <= m < zlen (mods d) -> 0 <= p < hypercube_split_degree d pd -> val d m p = Ok v ->
     zget prods2new (products mods pd (Z.max 1 pd) d + m * hypercube_split_degree d pd + p) = Ok e -> zget w' e = Ok (inj v)) /\
  (forall e, ~ In e prods2new -> zget w' e = zget w e).
Proof.
  intros H1 H2 HL HN HR HV. unfold for_prods. rewrite (flat_loop (fun w d m p i => v <- val d m p ;; e <- zget prods2new i ;; zset w e (inj v))).
  set (l := zfromto (Z.max 1 pd) (dim + 1)). assert (Hl : forall d, In d l -> Z.max 1 pd <= d <= dim) by (intros d Hd; apply in_zfromto in Hd; lia).
  assert (Hnp : forall d, In d l -> 0 <= np d) by (intros d Hd; apply Hl in Hd; apply degrees0; lia).
  assert (HI : map qi (plist 0 l) = zrange (zlen prods2new)). { rewrite plist_ids by exact Hnp. rewrite Z.add_0_l, zfromto_0, HL. reflexivity. }
  assert (PQ : forall q, In q (plist 0 l) -> exists e v, zget prods2new (qi q) = Ok e /\ val (qd q) (qm q) (qp q) = Ok v).
  { intros q Hq. destruct (zget_in_range prods2new (qi q)) as (e & E). { apply in_zrange. rewrite <- HI. apply in_map, Hq. }
    destruct (plist_in _ _ _ Hq) as (d & A & B & C & D). rewrite B. destruct (HV d (qm q) (qp q) (Hl d A) C D) as (v & V). eauto. }
  assert (PS : exists ps, map fst ps = map (fun q => match zget prods2new (qi q) with Ok e => e | _ => 0 end) (plist 0 l) /\
    (forall w, foldM (fun s q => v <- val (qd q) (qm q) (qp q) ;; e <- zget prods2new (qi q) ;; zset s e (inj v)) (plist 0 l) w = foldM (fun d (x : Z * T) => zset d (fst x) (snd x)) ps w) /\
    (forall q e v, In q (plist 0 l) -> zget prods2new (qi q) = Ok e -> val (qd q) (qm q) (qp q) = Ok v -> In (e, inj v) ps)).
  { clear HI. induction (plist 0 l) as [|q t IH]; [exists []; split; [reflexivity|split; [reflexivity|intros ? ? ? []]]|].
    destruct (IH (fun x Hx => PQ x (or_intror Hx))) as (ps & A & B & C). destruct (PQ q (or_introl eq_refl)) as (e & v & E & V). exists ((e, inj v) :: ps). split; [cbn [map fst]; rewrite E, A; reflexivity|]. split.
    - intros w0. cbn [foldM]. rewrite V, E. cbn [bind fst snd]. destruct (zset w0 e (inj v)); [cbn [bind]; apply B|reflexivity..].
    - intros q' e' v' [<-|Hq] E' V'; [left; congruence|right; exact (C q' e' v' Hq E' V')]. }
  destruct PS as (ps & A & B & C).
  assert (AF : map fst ps = prods2new).
  { rewrite A. rewrite <- (map_map qi (fun i => match zget prods2new i with Ok e => e | _ => 0 end)), HI. apply list_eq_zget; [rewrite zlen_map, zlen_zrange by apply zlen_nonneg; reflexivity|].
    intros i Hi. rewrite zlen_map, zlen_zrange in Hi by apply zlen_nonneg. rewrite zget_map, zget_zrange by exact Hi. cbn [bind]. destruct (zget_in_range prods2new i Hi) as (e & ->). reflexivity. }
  destruct (point_scatter snd fst ps w) as (w' & E & L & G & F); [rewrite AF; exact HN|intros x Hx; apply HR; rewrite <- AF; apply in_map, Hx|].
  exists w'. rewrite B, E. cbn [bind fst]. split; [reflexivity|]. split; [exact L|]. split.
  - intros d m p e v Hd Hm Hp V E2. assert (IQ : In (d, m, p, total (zfromto (Z.max 1 pd) d) + m * np d + p) (plist 0 l)) by (apply plist_has; [lia|exact Hm|exact Hp]).
    exact (G (e, inj v) (C _ e v IQ E2 V)).
  - intros e N. apply F. rewrite AF. exact N.
Qed.
End loops.

Definition allsome {T} (w : list (option T)) : Prop := forall i, 0 <= i < zlen w -> exists x, zget w i = Ok (Some x).
Lemma allsome_freeze {T} (w : list (option T)) : allsome w -> exists l, freeze w = Ok l /\ zlen l = zlen w /\ (forall i x, zget w i = Ok (Some x) -> zget l i = Ok x).
Proof.
  intros H. destruct (freeze_total w H) as (l & A & B & C). exists l. split; [exact A|]. split; [exact B|]. intros i x G. apply C, G.
Qed.
Lemma filled_some {T} n (v : T) : 0 <= n -> exists w, filled n (Some v) = Ok w /\ zlen w = n /\ allsome w.
Proof.
  intros H. exists (repeat (Some v) (Z.to_nat n)). rewrite filled_ok by exact H. assert (L : zlen (repeat (Some v) (Z.to_nat n)) = n) by (rewrite zlen_repeat; lia). split; [reflexivity|]. split; [exact L|].
  intros i Hi. exists v. apply zget_repeat. lia.
Qed.
Lemma unmap1 {T} (a2b : list Z) (b : list T) : (forall x, In x a2b -> 0 <= x < zlen b) -> exists r, unmap a2b b 1 = Ok r /\ zlen r = zlen a2b /\ (forall a x, zget a2b a = Ok x -> zget r a = zget b x).
Proof.
  intros H. destruct (unmap_spec a2b b 1) as (r & E & L & G); [lia|intros x Hx; specialize (H x Hx); lia|]. exists r. split; [exact E|]. split; [lia|]. intros a x Ha. specialize (G a x 0 Ha). rewrite !Z.mul_1_r, !Z.add_0_r in G. apply G. lia.
Qed.
Lemma map_into1 {T} (a : list T) (a2b : list Z) (w : list (option T)) : zlen a = zlen a2b -> NoDup a2b -> (forall x, In x a2b -> 0 <= x < zlen w) -> allsome w ->
  exists w', map_into a a2b w 1 = Ok w' /\ zlen w' = zlen w /\ allsome w' /\ (forall s e x, zget a2b s = Ok e -> zget a s = Ok x -> zget w' e = Ok (Some x)) /\ (forall e, ~ In e a2b -> zget w' e = zget w e).
Proof.
  intros HL HN HR HS. destruct (map_into_spec a a2b w 1) as (w' & E & L & G & F); [lia|lia|exact HN|intros x Hx; specialize (HR x Hx); lia|]. exists w'. split; [exact E|]. split; [exact L|].
  assert (G' : forall s e, zget a2b s = Ok e -> exists x, zget a s = Ok x /\ zget w' e = Ok (Some x)). { intros s e Hs. destruct (G s e 0 Hs) as (x & A & B); [lia|]. rewrite Z.mul_1_r, Z.add_0_r in A, B. eauto. }
  assert (F' : forall e, ~ In e a2b -> zget w' e = zget w e). { intros e N. specialize (F e 0 N). rewrite !Z.mul_1_r, !Z.add_0_r in F. apply F. lia. }
  split; [|split; [|exact F']].
  - intros i Hi. destruct (in_dec Z.eq_dec i a2b) as [Hin|N]; [|rewrite F' by exact N; apply HS; lia]. apply In_zget in Hin as (s & Hs). destruct (G' s i Hs) as (x & _ & B). eauto.
  - intros s e x Hs Hx. destruct (G' s e Hs) as (y & A & B). congruence.
Qed.
Lemma const_scatter {T} (l : list Z) (v : T) w : (forall e, In e l -> 0 <= e < zlen w) -> allsome w ->
  exists w', forM (zlen l) (w : list (option T)) (fun w m => i <- zget l m ;; zset w i (Some v)) = Ok w' /\ zlen w' = zlen w /\ allsome w' /\
  (forall e, In e l -> zget w' e = Ok (Some v)) /\ (forall e, ~ In e l -> zget w' e = zget w e).
Proof.
  intros HR HS. destruct (forM_invariant (fun k w' => zlen w' = zlen w /\ allsome w' /\ (forall e m, 0 <= m < k -> zget l m = Ok e -> zget w' e = Ok (Some v)) /\ (forall e, ~ In e l -> zget w' e = zget w e)) (zlen l) w (fun w m => i <- zget l m ;; zset w i (Some v))) as (w' & E & L & S & A & B).
  - apply zlen_nonneg.
  - split; [reflexivity|]. split; [exact HS|]. split; [intros; lia|reflexivity].
  - intros k w1 Hk (L & S & A & B). destruct (zget_in_range l k Hk) as (e & E). rewrite E. cbn [bind]. assert (Ie : 0 <= e < zlen w1) by (rewrite L; apply HR; eapply zget_In; exact E).
    destruct (zset_in_range w1 e (Some v) Ie) as (w2 & E2). exists w2. split; [exact E2|]. pose proof (zset_zlen _ _ _ _ E2) as L2. split; [lia|].
    assert (C : forall e', zget w2 e' = if e' =? e then Ok (Some v) else zget w1 e'). { intros e'. destruct (Z.eqb_spec e' e) as [->|N]; [eapply zset_get_eq; exact E2|eapply zset_get_ne; [exact E2|congruence]]. }
    split; [|split].
    + intros i Hi. rewrite C. destruct (i =? e); [eauto|apply S; lia].
    + intros e' m Hm G. rewrite C. destruct (Z.eqb_spec e' e) as [->|N]; [reflexivity|]. apply (A e' m); [|exact G]. assert (m <> k) by (intros ->; congruence). lia.
    + intros e' N. rewrite C. destruct (Z.eqb_spec e' e) as [->|_]; [|apply B, N]. exfalso. apply N. eapply zget_In; exact E.
  - exists w'. split; [exact E|]. split; [exact L|]. split; [exact S|]. split; [|exact B]. intros e He. apply In_zget in He as (m & Hm). exact (A e m (zget_bounds _ _ _ Hm) Hm).
Qed.
