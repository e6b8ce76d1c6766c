(** Proofs about the elements around vertices of a distributed mesh. *)
From Verif Require Import Prelude M_Array M_Par M_Scan M_Sort M_Map M_Tags M_Template M_Dist M_Owners M_Migrate M_Ghost S_Map S_Dist S_Owners S_Migrate S_Ghost.
From Verif Require Import P_Array P_Scan P_Map P_Fan P_Dist P_Dist2 P_Dist3 P_Dist5 P_Owners P_Link P_Link2 P_Migrate P_Migrate2 P_Migrate4 P_Migrate5 P_Ghost P_Ghost2.
Local Open Scope Z_scope.

Lemma level_idxs nranks e : sound_level nranks e -> data_per_root (de_nents e) (de_idxs e) 1.
Proof.
  intros Sl. destruct (l_owners _ _ Sl) as (A1 & A2 & A3 & A4 & A5). pose proof (l_size _ _ Sl) as [L Sr]. split; [lia|]. intros r k x Hk Hx. destruct (zget_in_range (de_ranks e) r) as (a & Ha); [rewrite <- A2; eapply zget_bounds; eauto|]. rewrite (A3 r a x Ha Hx). exact (Sr r k a Hk Ha).
Qed.
Lemma level_globals nranks e : sound_level nranks e -> exists g, globals e = Ok (dt_data g) /\ data_per_root (de_nents e) (dt_data g) 1 /\ forall g', global_data e g' -> g' = dt_data g.
Proof.
  intros Sl. destruct (l_global _ _ Sl) as (g & Ig & Ng & Tg & Cg). exists g. split; [|split].
  - unfold globals. rewrite <- Ng, (find_dtag_in _ g (l_names _ _ Sl) Ig), Tg. reflexivity.
  - pose proof (l_tags _ _ Sl) as F. rewrite Forall_forall in F. destruct (F g Ig) as (_ & _ & D). rewrite Cg in D. exact D.
  - intros g' (g2 & I2 & N2 & <-). assert (Some g2 = Some g) as [= ->]; [|reflexivity]. rewrite <- (find_dtag_in _ g2 (l_names _ _ Sl) I2), <- (find_dtag_in _ g (l_names _ _ Sl) Ig). congruence.
Qed.

Section around.
Context (inv : Z -> list Z -> Z -> res (list Z * list Z)) (nranks : Z) (m : dmesh) (elems verts : dents) (a : asked).
Hypothesis Hinv : inverter inv.
Hypothesis Sm : sound nranks m.
Hypothesis Hv : verts_of m = Ok verts.
Hypothesis He : elems_of m = Ok elems.
Hypothesis Wa : answered m elems verts a.

Let Sv : sound_level nranks verts := s_level _ _ Sm _ _ Hv.
Let Se : sound_level nranks elems := s_level _ _ Sm _ _ He.

(** vertex [q] of rank [r] owns a vertex of the element with owner ([t], [j]) *)
Definition around (r q t j : Z) : Prop := exists u x, owner_is (de_ranks elems) (de_idxs elems) u x t j /\ has_vertex m u x r q.

Record around_graph (g : remote_graph) : Prop := {
  ag_len : zlen (locals2edges g) = nranks /\ zlen (edge_ranks g) = nranks /\ zlen (edge_idxs g) = nranks;
  ag_fan : forall r f er ei k, zget (locals2edges g) r = Ok f -> zget (edge_ranks g) r = Ok er -> zget (edge_idxs g) r = Ok ei -> zget (de_nents verts) r = Ok k ->
    is_fan f /\ zlen f = k + 1 /\ last_of f = Ok (zlen er) /\ zlen ei = zlen er;
  ag_edges : forall r f er ei q t j, zget (locals2edges g) r = Ok f -> zget (edge_ranks g) r = Ok er -> zget (edge_idxs g) r = Ok ei ->
    ((exists c, in_group f q c /\ zget er c = Ok t /\ zget ei c = Ok j) <-> around r q t j)
}.

Lemma own_graph_ok : exists g, get_own_verts2own_elems inv m a = Ok g /\ around_graph g.
Proof using Hinv Sm Hv He Wa Sv Se.
  unfold get_own_verts2own_elems. rewrite Hv, He. cbn [bind]. pose proof (l_nranks _ _ Sv) as Nv. pose proof (l_nranks _ _ Se) as Ne. pose proof (s_ranks _ _ Sm) as Br. destruct (w_lens _ _ _ _ Wa) as [W1 W2].
  pose proof (w_fan _ _ _ _ Wa) as Wf. pose proof (w_elems _ _ _ _ Wa) as We.
  (* elements of the uses *)
  assert (forall r u n c i, zget (uses2elems a) r = Ok u -> zget (de_nents elems) r = Ok n -> zget u c = Ok i -> exists v f, zget (verts2uses a) r = Ok f /\ in_group f v c /\ 0 <= i < n /\ bounds m (Z.to_nat (dm_dim m)) r i v) as Use.
  { intros r u n c i Hu Hn Hc. pose proof (zget_bounds _ _ _ Hu) as B. destruct (zget_in_range (verts2uses a) r ltac:(lia)) as (f & Hf). destruct (zget_in_range (de_nents verts) r ltac:(lia)) as (k & Hk). destruct (Wf r f u k Hf Hu Hk) as (F1 & F2 & F3).
    destruct (in_group_exists f _ c F1 F3) as (v & Hg); [eapply zget_bounds; eauto|]. exists v, f. split; [exact Hf|]. split; [exact Hg|]. apply (We r f u n v i Hf Hu Hn). eauto. }
  unfold get_local_elem_uses2own_elems.
  destruct (unmap_uses (uses2elems a) (de_nents elems) (de_ranks elems) ltac:(lia) (l_size _ _ Se)) as (er & Eer & Der & Ger). { intros r u n c i Hu Hn Hc. destruct (Use r u n c i Hu Hn Hc) as (_ & _ & _ & _ & B & _). exact B. }
  destruct (unmap_uses (uses2elems a) (de_nents elems) (de_idxs elems) ltac:(lia) (level_idxs _ _ Se)) as (ei & Eei & Dei & Gei). { intros r u n c i Hu Hn Hc. destruct (Use r u n c i Hu Hn Hc) as (_ & _ & _ & _ & B & _). exact B. }
  rewrite Eer. cbn [bind]. rewrite Eei. cbn [bind]. unfold get_local_elem_uses2own_verts.
  (* owned vertices of the uses *)
  assert (forall r f n u, zget (verts2uses a) r = Ok f -> zget (de_nents verts) r = Ok n -> zget (map zlen (uses2elems a)) r = Ok u -> is_fan f /\ zlen f = n + 1 /\ last_of f = Ok u) as Ff.
  { intros r f n u Hf Hn Hu. apply zget_map_inv in Hu as (u' & Hu & ->). exact (Wf r f u' n Hf Hu Hn). }
  destruct (expand_uses (verts2uses a) (de_nents verts) (map zlen (uses2elems a)) (de_ranks verts) W1 ltac:(rewrite zlen_map; exact W2) Ff (l_size _ _ Sv)) as (vr & Evr & Dvr & Gvr).
  destruct (expand_uses (verts2uses a) (de_nents verts) (map zlen (uses2elems a)) (de_idxs verts) W1 ltac:(rewrite zlen_map; exact W2) Ff (level_idxs _ _ Sv)) as (vi & Evi & Dvi & Gvi).
  rewrite Evr. cbn [bind]. rewrite Evi. cbn [bind].
  assert (zlen vr = nranks) as Lvr by (destruct Dvr as [E _]; rewrite zlen_map in E; lia). assert (zlen vi = nranks) as Lvi by (destruct Dvi as [E _]; rewrite zlen_map in E; lia).
  destruct (l_owners _ _ Sv) as (A1 & A2 & A3 & A4 & A5).
  assert (forall s c r q, owner_is vr vi s c r q <-> exists v f, zget (verts2uses a) s = Ok f /\ in_group f v c /\ owner_is (de_ranks verts) (de_idxs verts) s v r q) as Ow.
  { intros s c r q. split.
    - intros [H1 H2]. apply Gvr in H1 as (v & f & Hf & Hg & H1). apply Gvi in H2 as (v' & f' & Hf' & Hg' & H2). assert (f' = f) as -> by congruence.
      destruct (zget_in_range (uses2elems a) s) as (u & Hu); [rewrite W2, <- W1; eapply zget_bounds; eauto|]. destruct (zget_in_range (de_nents verts) s) as (k & Hk); [rewrite <- W1; eapply zget_bounds; eauto|]. destruct (Wf s f u k Hf Hu Hk) as (F1 & _).
      pose proof (in_group_unique f v v' c F1 Hg Hg') as <-. exists v, f. split; [exact Hf|]. split; [exact Hg|]. split; assumption.
    - intros (v & f & Hf & Hg & H1 & H2). split; [apply Gvr|apply Gvi]; eauto. }
  assert (ranks_exist vr) as Rv. { intros s c r H. apply Gvr in H as (v & f & _ & _ & H). pose proof (l_exist _ _ Sv s v r H). lia. }
  assert (addressed vr vi (de_nents verts)) as Av.
  { split; [lia|]. split; [lia|]. split; [|split; [exact A4|]].
    - intros s x y Hx Hy. destruct (zget_in_range (map zlen (uses2elems a)) s) as (u & Hu); [rewrite zlen_map, W2, Nv, <- Lvr; eapply zget_bounds; eauto|]. rewrite (proj2 Dvr s u x Hu Hx), (proj2 Dvi s u y Hu Hy). reflexivity.
    - intros s c r q H1 H2. destruct (proj1 (Ow s c r q) (conj H1 H2)) as (v & f & _ & _ & O1 & O2). exact (A5 s v r q O1 O2). }
  destruct (make_dist_ok inv vr vi (de_nents verts) Hinv Rv ltac:(lia) Av) as (ds1 & ds & _ & Em & _). rewrite Em. cbn [bind].
  pose proof (make_dist_link inv vr vi (de_nents verts) Hinv Rv ltac:(lia) Av ds Em) as K.
  destruct (dests_ok _ _ _ _ _ K) as (who & fans & Rw & _ & Er & Lf & _ & Xw & Gw). destruct Rw as [Lw Rw].
  assert (forall x : list (list Z), data_per_root (map zlen (uses2elems a)) x 1 -> data_per_item vr x 1) as Di.
  { intros x [L1 G1]. rewrite zlen_map in L1. split; [lia|]. intros s p y Hp Hy. destruct (zget_in_range (map zlen (uses2elems a)) s) as (u & Hu); [rewrite zlen_map, <- L1; eapply zget_bounds; eauto|]. rewrite (G1 s u y Hu Hy), (proj2 Dvr s u p Hu Hp). lia. }
  destruct (Xw Z er 1 ltac:(lia) (Di er Der)) as (gr & Egr & Dgr1 & Dgr2). destruct (Xw Z ei 1 ltac:(lia) (Di ei Dei)) as (gi & Egi & Dgi1 & Dgi2).
  unfold exch_remotes. cbn [fst snd]. rewrite Egr. cbn [bind]. rewrite Egi. cbn [bind]. rewrite Er. cbn [bind].
  exists (RemoteGraph fans gr gi). split; [reflexivity|]. constructor; cbn [locals2edges edge_ranks edge_idxs].
  - lia.
  - intros r f x y k Hf Hx Hy Hk. destruct (zget_in_range who r) as (w & Hw); [rewrite Lw, <- Lf; eapply zget_bounds; eauto|]. destruct (Gw r w f Hw Hf) as (k' & Hk' & F1 & F2 & F3 & _). assert (k' = k) as -> by congruence.
    split; [exact F1|]. split; [exact F2|]. destruct (Dgr2 r w x Hw Hx) as [L1 _]. destruct (Dgi2 r w y Hw Hy) as [L2 _]. split; [rewrite F3; f_equal; lia|lia].
  - intros r f x y q t j Hf Hx Hy. destruct (zget_in_range who r) as (w & Hw); [rewrite Lw, <- Lf; eapply zget_bounds; eauto|]. destruct (Gw r w f Hw Hf) as (k & Hk & F1 & F2 & F3 & F4).
    destruct (Dgr2 r w x Hw Hx) as [L1 G1]. destruct (Dgi2 r w y Hw Hy) as [L2 G2]. destruct (Rw r w Hw) as [_ Ir].
    assert (forall c s i v, zget w c = Ok (s, i) -> (zget x c = Ok v <-> goes_to er s i v)) as X1.
    { intros c s i v Hc. destruct (proj1 (Ir s i) (zget_In _ _ _ Hc)) as (p & Hp & _). destruct (zget_in_range er s) as (d & Hd); [destruct (Di er Der) as [E _]; rewrite E; eapply zget_bounds; eauto|]. destruct (G1 c s i d Hc Hd 0 ltac:(lia)) as (v' & V1 & V2). rewrite !Z.mul_1_r, !Z.add_0_r in V1, V2.
      split; [intros H; exists d; split; [exact Hd|congruence]|intros (d' & Hd' & H); congruence]. }
    assert (forall c s i v, zget w c = Ok (s, i) -> (zget y c = Ok v <-> goes_to ei s i v)) as Y1.
    { intros c s i v Hc. destruct (proj1 (Ir s i) (zget_In _ _ _ Hc)) as (p & Hp & _). destruct (zget_in_range ei s) as (d & Hd); [destruct (Di ei Dei) as [E _]; rewrite E; eapply zget_bounds; eauto|]. destruct (G2 c s i d Hc Hd 0 ltac:(lia)) as (v' & V1 & V2). rewrite !Z.mul_1_r, !Z.add_0_r in V1, V2.
      split; [intros H; exists d; split; [exact Hd|congruence]|intros (d' & Hd' & H); congruence]. }
    split.
    + intros (c & Hg & Ht & Hj). destruct (in_group_range f _ q c F1 F3 Hg) as [Bc _]. destruct (zget_in_range w c ltac:(lia)) as ([s i] & Hc).
      apply (X1 c s i t Hc) in Ht. apply (Y1 c s i j Hc) in Hj. apply (F4 c s i q Hc) in Hg. apply Ow in Hg as (v & f' & Hf' & Hg' & Ov). apply Ger in Ht as (e & (u & Hu & He1) & Ht). apply Gei in Hj as (e' & (u' & Hu' & He1') & Hj). assert (u' = u) as -> by congruence. assert (e' = e) as -> by congruence.
      destruct (zget_in_range (de_nents elems) s) as (n & Hn); [rewrite Ne, <- Nv, <- W2; eapply zget_bounds; eauto|]. destruct (proj1 (We s f' u n v e Hf' Hu Hn)) as [Be Hb]; [eauto|]. exists s, e. split; [split; assumption|]. exists verts, v. auto.
    + intros (s & e & [O1 O2] & verts' & v & Hv' & Hb & Ov). assert (verts' = verts) as -> by congruence.
      destruct O1 as (p & Hp & Hpe). pose proof (l_size _ _ Se) as [S1 S2]. destruct (zget_in_range (de_nents elems) s) as (n & Hn); [rewrite <- S1; eapply zget_bounds; eauto|].
      assert (0 <= e < n) as Be. { pose proof (zget_bounds _ _ _ Hpe) as B. rewrite (S2 s n p Hn Hp) in B. lia. }
      assert (0 <= s < nranks) as Bs by (rewrite <- Ne; eapply zget_bounds; eauto).
      destruct (zget_in_range (verts2uses a) s ltac:(lia)) as (f' & Hf'). destruct (zget_in_range (uses2elems a) s ltac:(lia)) as (u & Hu). destruct (proj2 (We s f' u n v e Hf' Hu Hn) (conj Be Hb)) as (c' & Hg' & Hc').
      assert (owner_is vr vi s c' r q) as Ou by (apply Ow; eauto). pose proof (proj2 (Ir s c') (proj1 Ou)) as Iw. apply In_zget in Iw as (c & Hc). exists c. split; [apply (F4 c s c' q Hc); exact Ou|].
      split; [apply (X1 c s c' t Hc), Ger|apply (Y1 c s c' j Hc), Gei]; exists e; (split; [exists u; auto|]); [exists p; auto|exact O2].
Qed.

(** the elements used by each rank *)
Lemma push_elem_uses_ok g vd cv vsrc : around_graph g -> link vd cv (map (map fst) vsrc) (map (map snd) vsrc) (de_nents verts) ->
  exists er ei, push_elem_uses inv g (invert vd) = Ok (er, ei) /\ zlen er = nranks /\ zlen ei = nranks /\ (forall s x y, zget er s = Ok x -> zget ei s = Ok y -> zlen y = zlen x) /\
  (forall s i t, goes_to er s i t -> exists j, owner_is er ei s i t j) /\
  forall s t j, (exists i, owner_is er ei s i t j) <-> exists c r q, copy_of vsrc s c r q /\ around r q t j.
Proof using Hinv Sm Hv Sv.
  intros [[G1 [G2 G3]] Gf Ge] K. pose proof (l_nranks _ _ Sv) as Nv. pose proof (s_ranks _ _ Sm) as Br.
  destruct (dests_ok _ _ _ _ _ K) as (who & fans & [Lw Rw] & Ed & Er & Lf & En & _ & Gw). rewrite zlen_map in *.
  assert (zlen vsrc = nranks) as Lsv by (destruct (k_addr _ _ _ _ _ K) as (_ & A & _); rewrite zlen_map in A; lia).
  unfold push_elem_uses. rewrite Er. cbn [bind]. rewrite Ed. cbn [bind].
  destruct (on_ranks_rel fans (fun r f => u <- zget (locals2edges g) r ;; er <- zget (edge_ranks g) r ;; ei <- zget (edge_idxs g) r ;; vr <- zget (map (map fst) who) r ;; vi <- zget (map (map snd) who) r ;; push_elem_uses1 u er ei f vr vi)
    (fun r f items => forall t j s i, In (t, j, (s, i)) items <-> exists q, copy_of vsrc s i r q /\ around r q t j)) as (items & Ei & Li & Gi).
  { intros r f Hf. pose proof (zget_bounds _ _ _ Hf) as B. destruct (zget_in_range (locals2edges g) r ltac:(lia)) as (u & Hu). destruct (zget_in_range (edge_ranks g) r ltac:(lia)) as (er & Her). destruct (zget_in_range (edge_idxs g) r ltac:(lia)) as (ei & Hei). destruct (zget_in_range who r ltac:(lia)) as (w & Hw).
    destruct (Gw r w f Hw Hf) as (k & Hk & F1 & F2 & F3 & F4). destruct (Gf r u er ei k Hu Her Hei Hk) as (U1 & U2 & U3 & U4).
    destruct (push_elem_uses1_ok u er ei f (map fst w) (map snd w) U1 F1 ltac:(lia) U3 ltac:(rewrite zlen_map; exact F3) U4 ltac:(rewrite !zlen_map; reflexivity)) as (its & E & G).
    exists its. split; [rewrite Hu, Her, Hei, (zget_map_ok _ _ _ _ Hw), (zget_map_ok _ _ _ _ Hw); exact E|]. intros t j s i. rewrite G. unfold item_at. cbn [fst snd]. split.
    - intros (q & su & sv & H1 & H2 & T1 & T2 & V1 & V2). apply zget_map_inv in V1 as ([s1 i1] & V1 & ->). apply zget_map_inv in V2 as ([s2 i2] & V2 & ->). rewrite V1 in V2. injection V2 as -> ->. cbn [fst snd].
      exists q. split; [apply copy_ranks, (F4 sv s2 i2 q V1), H2|]. apply (Ge r u er ei q t j Hu Her Hei). eauto.
    - intros (q & Hc & Ha). apply (Ge r u er ei q t j Hu Her Hei) in Ha as (su & H1 & T1 & T2). apply copy_ranks in Hc. destruct (Rw r w Hw) as [_ Ir]. pose proof (proj2 (Ir s i) (proj1 Hc)) as Iw. apply In_zget in Iw as (sv & Hsv).
      exists q, su, sv. split; [exact H1|]. split; [apply (F4 sv s i q Hsv), Hc|]. split; [exact T1|]. split; [exact T2|]. split; rewrite (zget_map_ok _ _ _ _ Hsv); reflexivity. }
  rewrite Ei. cbn [bind]. rewrite invert_invert, En. cbn [bind].
  set (vr := map (map (fun x : Z * Z * (Z * Z) => fst (snd x))) items). set (vi := map (map (fun x : Z * Z * (Z * Z) => snd (snd x))) items).
  assert (zlen items = nranks) as Lit by lia.
  assert (forall r c s i, owner_is vr vi r c s i <-> exists its t j, zget items r = Ok its /\ zget its c = Ok (t, j, (s, i))) as Ow.
  { intros r c s i. split.
    - intros [(x & Hx & H1) (y & Hy & H2)]. apply zget_map_inv in Hx as (its & Hi & ->). apply zget_map_inv in Hy as (its' & Hi' & ->). assert (its' = its) as -> by congruence. apply zget_map_inv in H1 as ([[t j] [s1 i1]] & H1 & ->). apply zget_map_inv in H2 as (z & H2 & ->). assert (z = (t, j, (s1, i1))) as -> by congruence. cbn. eauto 6.
    - intros (its & t & j & Hi & Hc). split; eexists; (split; [apply (zget_map_ok _ _ _ _ Hi)|]; rewrite (zget_map_ok _ _ _ _ Hc); reflexivity). }
  assert (forall r c s, goes_to vr r c s -> exists its t j i, zget items r = Ok its /\ zget its c = Ok (t, j, (s, i))) as Gv.
  { intros r c s (x & Hx & H1). apply zget_map_inv in Hx as (its & Hi & ->). apply zget_map_inv in H1 as ([[t j] [s1 i1]] & H1 & ->). cbn. eauto 8. }
  assert (forall r c its t j s i, zget items r = Ok its -> zget its c = Ok (t, j, (s, i)) -> exists q, copy_of vsrc s i r q /\ around r q t j) as Git.
  { intros r c its t j s i Hi Hc. destruct (zget_in_range fans r) as (f & Hf); [rewrite <- Li; eapply zget_bounds; eauto|]. apply (Gi r f its Hf Hi). apply zget_In in Hc. exact Hc. }
  assert (ranks_exist vr) as Rv. { intros r c s H. apply Gv in H as (its & t & j & i & Hi & Hc). destruct (Git _ _ _ _ _ _ _ Hi Hc) as (q & (l & Hl & _) & _). pose proof (zget_bounds _ _ _ Hl). unfold vr. rewrite zlen_map. lia. }
  assert (addressed vr vi (map zlen (map (map fst) vsrc))) as Av.
  { unfold vr, vi. split; [rewrite !zlen_map; reflexivity|]. split; [rewrite !zlen_map; lia|]. split; [|split].
    - intros r x y Hx Hy. apply zget_map_inv in Hx as (its & Hi & ->). apply zget_map_inv in Hy as (its' & Hi' & ->). assert (its' = its) as -> by congruence. rewrite !zlen_map. reflexivity.
    - intros r k Hk. apply zget_map_inv in Hk as (x & _ & ->). apply zlen_nonneg.
    - intros r c s i H1 H2. destruct (proj1 (Ow r c s i) (conj H1 H2)) as (its & t & j & Hi & Hc). destruct (Git _ _ _ _ _ _ _ Hi Hc) as (q & (l & Hl & Hq) & _). exists (zlen l). split; [|eapply zget_bounds; eauto].
      rewrite (zget_map_ok _ _ _ (map fst l)), zlen_map; [reflexivity|]. apply zget_map_ok. exact Hl. }
  assert (zlen vr <= i32_max + 1) as Fit by (unfold vr; rewrite zlen_map; lia).
  destruct (make_dist_ok inv vr vi _ Hinv Rv Fit Av) as (ds1 & ds & _ & Em & _). rewrite Em. cbn [bind]. pose proof (make_dist_link inv vr vi _ Hinv Rv Fit Av ds Em) as K2.
  destruct (dests_ok _ _ _ _ _ K2) as (who2 & _ & [Lw2 Rw2] & _ & _ & _ & _ & Xw2 & _). unfold exch_remotes. cbn [fst snd].
  assert (forall (h : Z * Z * (Z * Z) -> Z), data_per_item vr (map (map h) items) 1) as Di.
  { intros h. unfold vr. split; [rewrite !zlen_map; reflexivity|]. intros s x y Hx Hy. apply zget_map_inv in Hx as (its & Hi & ->). apply zget_map_inv in Hy as (its' & Hi' & ->). assert (its' = its) as -> by congruence. rewrite !zlen_map. lia. }
  destruct (Xw2 Z (map (map (fun x => fst (fst x))) items) 1 ltac:(lia) (Di _)) as (er & Eer & Der1 & Der2). destruct (Xw2 Z (map (map (fun x => snd (fst x))) items) 1 ltac:(lia) (Di _)) as (ei & Eei & Dei1 & Dei2).
  rewrite Eer. cbn [bind]. rewrite Eei. cbn [bind]. exists er, ei. split; [reflexivity|].
  assert (zlen vr = nranks) as Lvr by (unfold vr; rewrite zlen_map; exact Lit). split; [lia|]. split; [lia|].
  assert (forall s x y, zget er s = Ok x -> zget ei s = Ok y -> exists w, zget who2 s = Ok w /\ zlen x = zlen w /\ zlen y = zlen w /\
    forall c r p its t j si, zget w c = Ok (r, p) -> zget items r = Ok its -> zget its p = Ok (t, j, si) -> zget x c = Ok t /\ zget y c = Ok j) as Val.
  { intros s x y Hx Hy. destruct (zget_in_range who2 s) as (w & Hw); [rewrite <- Der1; eapply zget_bounds; eauto|]. exists w. destruct (Der2 s w x Hw Hx) as [X1 X2]. destruct (Dei2 s w y Hw Hy) as [Y1 Y2]. split; [exact Hw|]. split; [lia|]. split; [lia|].
    intros c r p its t j si Hc Hi Hp. destruct (X2 c r p _ Hc (zget_map_ok _ _ _ _ Hi) 0 ltac:(lia)) as (v1 & V1 & V1'). destruct (Y2 c r p _ Hc (zget_map_ok _ _ _ _ Hi) 0 ltac:(lia)) as (v2 & V2 & V2'). rewrite !Z.mul_1_r, !Z.add_0_r in V1, V1', V2, V2'.
    rewrite (zget_map_ok _ _ _ _ Hp) in V1'. rewrite (zget_map_ok _ _ _ _ Hp) in V2'. cbn in V1', V2'. split; congruence. }
  split; [|split].
  - intros s x y Hx Hy. destruct (Val s x y Hx Hy) as (w & _ & H1 & H2 & _). lia.
  - intros s i t (x & Hx & Hi). destruct (zget_in_range ei s) as (y & Hy); [rewrite Dei1, <- Der1; eapply zget_bounds; eauto|]. destruct (Val s x y Hx Hy) as (w & _ & H1 & H2 & _). destruct (zget_in_range y i) as (j & Hj); [rewrite H2, <- H1; eapply zget_bounds; eauto|].
    exists j. split; [exists x; auto|exists y; auto].
  - intros s t j. split.
    + intros (c & (x & Hx & Ht) & (y & Hy & Hj)). destruct (Val s x y Hx Hy) as (w & Hw & L1 & L2 & Vc). destruct (zget_in_range w c) as ([r p] & Hc); [rewrite <- L1; eapply zget_bounds; eauto|].
      destruct (Rw2 s w Hw) as [_ Ir]. pose proof (proj1 (Ir r p) (zget_In _ _ _ Hc)) as Gr. destruct (Gv r p s Gr) as (its & t' & j' & i & Hi & Hp). destruct (Vc c r p its t' j' _ Hc Hi Hp) as [V1 V2]. assert (t' = t) as -> by congruence. assert (j' = j) as -> by congruence.
      destruct (Git _ _ _ _ _ _ _ Hi Hp) as (q & C1 & C2). eauto.
    + intros (i & r & q & Hc & Ha). assert (exists f its, zget fans r = Ok f /\ zget items r = Ok its) as (f & its & Hf & Hi).
      { pose proof (proj1 (copy_ranks _ _ _ _ _) Hc) as O. pose proof (k_exist _ _ _ _ _ K s i r (proj1 O)) as B. rewrite zlen_map in B. destruct (zget_in_range fans r ltac:(lia)) as (f & Hf). destruct (zget_in_range items r ltac:(lia)) as (its & Hi). eauto. }
      pose proof (proj2 (Gi r f its Hf Hi t j s i) (ex_intro _ q (conj Hc Ha))) as I. apply In_zget in I as (p & Hp).
      assert (goes_to vr r p s) as Gr by (apply (proj1 (proj2 (Ow r p s i) ltac:(eauto)))).
      destruct Hc as (l & Hl & _). pose proof (zget_bounds _ _ _ Hl) as Bs. destruct (zget_in_range who2 s ltac:(lia)) as (w & Hw). destruct (zget_in_range er s ltac:(lia)) as (x & Hx). destruct (zget_in_range ei s ltac:(lia)) as (y & Hy).
      destruct (Val s x y Hx Hy) as (w' & Hw' & _ & _ & Vc). assert (w' = w) as -> by congruence. destruct (Rw2 s w Hw) as [_ Ir]. pose proof (proj2 (Ir r p) Gr) as I. apply In_zget in I as (c & Hcw). destruct (Vc c r p its t j _ Hcw Hi Hp) as [V1 V2]. exists c. split; [exists x|exists y]; auto.
Qed.

Lemma around_owner r q t j : around r q t j -> exists n, zget (de_nents elems) t = Ok n /\ 0 <= j < n /\ 0 <= t < nranks.
Proof using Sm He Se.
  intros (u & x & [O1 O2] & _). destruct (l_owners _ _ Se) as (_ & _ & _ & _ & A5). destruct (A5 u x t j O1 O2) as (n & Hn & B). exists n. split; [exact Hn|]. split; [exact B|]. pose proof (l_nranks _ _ Se) as L. rewrite <- L. eapply zget_bounds; eauto.
Qed.

(** the new element copies around the vertices of [vsrc] *)
Lemma close_up_ok g vd cv vsrc : around_graph g -> link vd cv (map (map fst) vsrc) (map (map snd) vsrc) (de_nents verts) ->
  exists ed ce esrc, close_up inv m g vd = Ok ed /\ link ed ce (map (map fst) esrc) (map (map snd) esrc) (de_nents elems) /\
  has_exactly elems esrc (fun s t j => exists c r q, copy_of vsrc s c r q /\ around r q t j).
Proof using Hinv Sm Hv He Sv Se.
  intros Hg K. unfold close_up. rewrite He. cbn [bind]. destruct (push_elem_uses_ok g vd cv vsrc Hg K) as (er & ei & Ep & L1 & L2 & L3 & Ex & Us). rewrite Ep. cbn [bind]. pose proof (l_nranks _ _ Se) as Ne. pose proof (s_ranks _ _ Sm) as Br.
  assert (ranks_exist er) as Re. { intros s i t H. destruct (Ex s i t H) as (j & O). destruct (proj1 (Us s t j) ltac:(eauto)) as (c & r & q & _ & A). destruct (around_owner _ _ _ _ A) as (_ & _ & _ & B). lia. }
  assert (addressed er ei (de_nents elems)) as Ae.
  { split; [lia|]. split; [lia|]. split; [exact L3|]. split; [exact (proj1 (proj2 (proj2 (proj2 (l_owners _ _ Se)))))|]. intros s i t j H1 H2. destruct (proj1 (Us s t j) ltac:(exists i; split; assumption)) as (c & r & q & _ & A). destruct (around_owner _ _ _ _ A) as (n & Hn & B & _). eauto. }
  destruct (make_dist_ok inv er ei _ Hinv Re ltac:(lia) Ae) as (ds1 & ds & _ & Em & _). rewrite Em. cbn [bind]. pose proof (make_dist_link inv er ei _ Hinv Re ltac:(lia) Ae ds Em) as Ku.
  destruct (level_globals _ _ Se) as (gl & Eg & Dg & Ug). rewrite Eg. cbn [bind]. destruct (get_new_copies_ok ds _ er ei _ Ku ltac:(lia) (dt_data gl) Dg) as (ed & ce & esrc & E1 & K1 & Ls & Gs).
  exists ed, ce, esrc. split; [exact E1|]. split; [exact K1|]. split; [lia|]. intros s l Hl. destruct (Gs s l Hl) as (H1 & H2 & H3). split; [exact H1|]. split; [intros t j; rewrite H2; apply Us|]. intros g' Hg'. rewrite (Ug g' Hg'). exact H3.
Qed.
End around.
