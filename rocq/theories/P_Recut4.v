(** Swapping edges of a 3D mesh: the new mesh fits together. *)
From Coq Require Import String Permutation Sorted.
From Verif Require Import Prelude M_Array P_Array M_Par M_Scan S_Scan P_Scan P_Fan S_Sort M_Sort M_Map S_Map P_Map P_Map2 M_Template S_Template P_Template M_Align S_Align P_Align M_Graph S_Graph P_Graph M_Unique S_Unique P_Unique M_Adj S_Adj P_Adj S_Transit P_Transit S_Across P_Across
  M_Match S_Match P_Match M_Tags M_MeshAdj S_MeshAdj P_MeshAdj P_MeshAdj2 P_MeshAdj3 M_Build S_Build P_Build P_Box S_Unmap P_Unmap P_Mark P_Coarsen P_Mark
  M_Modify S_Modify P_Modify P_Modify2 M_SwapTables M_Swap3d S_Swap3d S_SwapMesh P_SwapTables P_Loop P_SwapVolume P_SwapKey S_Coarsen M_Refine S_Refine P_Refine P_SwapTopo M_RefineMesh S_RefineMesh S_Rebuild P_Rebuild P_Rebuild2 P_Rebuild3 P_RefineMesh1 P_RefineMesh2 P_RefineMesh3 P_RefineMesh4 P_RefineMesh5 P_RefineMesh6 P_RefineMesh7 P_RefineMesh8 S_Patch P_Patch M_Flip P_Flip2 P_Flip3 S_Recut P_Recut1 P_Recut2 P_Recut3.
Local Open Scope Z_scope.

Lemma F2_flat {X B C} (R : B -> C -> Prop) (f : X -> list B) (h : X -> list C) l : (forall x, In x l -> Forall2 R (f x) (h x)) -> Forall2 R (flat_map f l) (flat_map h l).
Proof. induction l as [|x l IH]; intros H; [constructor|]. cbn [flat_map]. apply Forall2_app; [apply H; left; reflexivity|apply IH; intros; apply H; right; assumption]. Qed.
Lemma map_flat {X B C} (f : B -> C) (h : X -> list B) l : map f (flat_map h l) = flat_map (fun x => map f (h x)) l.
Proof. induction l as [|x l IH]; [reflexivity|]. cbn [flat_map]. rewrite map_app, IH. reflexivity. Qed.
Lemma map_single {B C} (f : B -> C) l : map f l = flat_map (fun x => [f x]) l.
Proof. induction l as [|x l IH]; [reflexivity|]. cbn. rewrite IH. reflexivity. Qed.
Lemma eq_maps {B C X} (f : B -> X) (h : C -> X) l : forall m, map f l = map h m -> Forall2 (fun o q => f q = h o /\ In o m /\ In q l) m l.
Proof.
  induction l as [|x l IH]; intros [|y m] E; try discriminate; [constructor|]. injection E as E1 E2. constructor; [cbn; auto|]. eapply Forall2_weaken; [|apply IH, E2]. intros o q (H1 & H2 & H3). cbn. auto.
Qed.

Section whole.
Context (T : topology) (HT : valid_topology T) (HS : simplicial T) (keys configs : list Z) (HX : recuttable T keys configs).
Context (g : Z -> swap_data) (G : forall k, In k keys -> is_data T configs k (g k)).
Let D3 : t_dim T = 3 := x_dim T keys configs HX.
Let HK : splittable T keys := x_apart T keys configs HX.
Local Notation F := (F g).
Local Notation A := (A g).
Local Notation N := (N g).
Local Notation no_key := (P_Recut3.no_key T keys).
Local Notation n0 := (t_nents T 0).
Definition ko (k d : Z) : list recut_origin := key_origs k (sd_E (g k)) (sd_T (g k)) d.
Definition origs (d : Z) : list recut_origin := flat_map (fun k => ko k d) keys.
Definition L (d : Z) : list (list Z) := flat_map (fun k => map (map (F k)) (A k d)) keys.
Lemma tri_ext n D D' a b c : (forall p, In p D <-> In p D') -> triangle n D a b c -> triangle n D' a b c.
Proof. intros H. unfold triangle, joined. rewrite !H. tauto. Qed.
Lemma ko_in k d o : In k keys -> In o (ko k d) <-> key_of o = k /\ recut_makes T keys configs d o /\ forall e, o <> Stands e.
Proof.
  intros I. pose proof (id_cut T configs k (g k) (G k I)) as C. pose proof (id_one T configs k (g k) (G k I)) as U. pose proof (id_tris T configs k (g k) (G k I)) as TT. split.
  - unfold ko, key_origs. destruct (Z.eqb_spec d 1) as [->|]; [|destruct (Z.eqb_spec d 2) as [->|]; [|destruct (Z.eqb_spec d 3) as [->|]; [|intros []]]].
    + intros H. apply in_flat_map in H as (e & Ie & [<-|[]]). split; [reflexivity|]. split; [|discriminate]. split; [reflexivity|]. split; [exact I|]. do 4 eexists. split; [exact C|]. rewrite <- surjective_pairing. apply in_map, Ie.
    + intros H. apply in_app_or in H as [H|H].
      * apply in_flat_map in H as (e & Ie & [<-|[<-|[]]]); (split; [reflexivity|]); (split; [|discriminate]); (split; [reflexivity|]); (split; [exact I|]); (split; [tauto|]); do 4 eexists; (split; [exact C|]); rewrite <- surjective_pairing; apply in_map, Ie.
      * apply in_flat_map in H as (t & It & H). pose proof It as J. apply TT in J as (a & b & c & -> & Ht). destruct H as [<-|[]]. split; [reflexivity|]. split; [|discriminate]. split; [reflexivity|]. split; [exact I|]. do 4 eexists. split; [exact C|exact Ht].
    + intros H. apply in_flat_map in H as (t & It & H). pose proof It as J. apply TT in J as (a & b & c & -> & Ht). destruct H as [<-|[<-|[]]]; (split; [reflexivity|]); (split; [|discriminate]); (split; [reflexivity|]); (split; [exact I|]); (split; [tauto|]); do 4 eexists; (split; [exact C|exact Ht]).
  - intros (E & M & NS). destruct o as [e|k' a b|k' a b s|k' a b c|k' a b c s]; [exfalso; apply (NS e); reflexivity| | | |]; cbn in E; subst k'.
    + destruct M as (-> & _ & e0 & e1 & l & D & R & J). destruct (U _ _ _ _ R) as (_ & _ & _ & UD). apply UD, in_map_iff in J as (e & En & Ie). apply in_flat_map. exists e. split; [exact Ie|]. left. rewrite En. reflexivity.
    + destruct M as (-> & _ & Hs & e0 & e1 & l & D & R & J). destruct (U _ _ _ _ R) as (_ & _ & _ & UD). apply UD, in_map_iff in J as (e & En & Ie). apply in_or_app. left. apply in_flat_map. exists e. split; [exact Ie|]. unfold walls_of. rewrite En. cbn. destruct Hs as [->| ->]; auto.
    + destruct M as (-> & _ & e0 & e1 & l & D & R & J). destruct (U _ _ _ _ R) as (_ & _ & -> & UD). apply (tri_ext _ _ _ _ _ _ UD) in J. apply in_or_app. right. apply in_flat_map. exists [a; b; c]. split; [apply TT; eauto|left; reflexivity].
    + destruct M as (-> & _ & Hs & e0 & e1 & l & D & R & J). destruct (U _ _ _ _ R) as (_ & _ & -> & UD). apply (tri_ext _ _ _ _ _ _ UD) in J. apply in_flat_map. exists [a; b; c]. split; [apply TT; eauto|]. cbn. destruct Hs as [->| ->]; auto.
Qed.
Lemma origs_in d o : In o (origs d) <-> recut_makes T keys configs d o /\ forall e, o <> Stands e.
Proof.
  unfold origs. rewrite in_flat_map. split.
  - intros (k & I & H). apply (ko_in k d o I) in H. tauto.
  - intros [M NS]. assert (In (key_of o) keys) as I by (destruct o as [e|k a b|k a b s|k a b c|k a b c s]; [exfalso; apply (NS e); reflexivity| | | |]; cbn in *; tauto). exists (key_of o). split; [exact I|]. apply ko_in; auto.
Qed.
Definition rel (d : Z) (o : recut_origin) (row : list Z) : Prop := exists k q, In k keys /\ In o (ko k d) /\ In q (A k d) /\ row = map (F k) q /\ chars (N k) q = labels_of (N k) o.
Lemma rel_all d : 1 <= d <= 3 -> Forall2 (rel d) (origs d) (L d).
Proof.
  intros Hd. apply F2_flat. intros k I. apply F2_map. pose proof (ro_origs _ _ _ (g_ok T keys configs g G k I) k d Hd) as E. apply eq_maps in E. eapply Forall2_weaken; [|exact E]. intros o q (H1 & H2 & H3). exists k, q. auto.
Qed.
Lemma ko_nodup k d : In k keys -> 1 <= d <= 3 -> NoDup (ko k d).
Proof. intros I Hd. apply (NoDup_map_inv (labels_of (N k))). unfold ko. rewrite <- (ro_origs _ _ _ (g_ok T keys configs g G k I) k d Hd). apply (ro_once _ _ _ (g_ok T keys configs g G k I) d Hd). Qed.
Lemma origs_0 d : ~ 1 <= d <= 3 -> origs d = [].
Proof. intros Hd. unfold origs. clear - Hd. induction keys as [|k l IH]; [reflexivity|]. cbn [flat_map]. rewrite IH. unfold ko, key_origs. destruct (Z.eqb_spec d 1); [lia|]. destruct (Z.eqb_spec d 2); [lia|]. destruct (Z.eqb_spec d 3); [lia|]. reflexivity. Qed.
Lemma origs_nodup d : NoDup (origs d).
Proof.
  assert (1 <= d <= 3 \/ ~ 1 <= d <= 3) as [Hd|Hd] by lia; [|rewrite origs_0 by exact Hd; constructor]. apply (NoDup_tagged key_of); [apply (k_once T keys HK)|intros k I; apply ko_nodup; assumption|]. intros k o I H. apply (ko_in k d o I) in H. apply H.
Qed.
Lemma get_F k i : 0 <= i < N k -> zget (sd_l (g k)) i = Ok (F k i). Proof. apply get_lab. Qed.
(** rows are what the origins ask for *)
Lemma verts_all d : 1 <= d <= 3 -> Forall2 (recut_verts T configs d) (origs d) (L d).
Proof.
  intros Hd. apply F2_flat. intros k I. pose proof (id_cut T configs k (g k) (G k I)) as C. pose proof (g_ok T keys configs g G k I) as RO.
  assert (forall e, In e (sd_E (g k)) -> exists a b, e = [a; b] /\ zget (sd_l (g k)) (fst (norm e)) = Ok (F k (Z.min a b)) /\ zget (sd_l (g k)) (snd (norm e)) = Ok (F k (Z.max a b)) /\ Permutation [F k a; F k b] [F k (Z.min a b); F k (Z.max a b)]) as HE.
  { intros e Ie. destruct (ro_E2 _ _ _ RO e Ie) as (a & b & ->). pose proof (ro_En _ _ _ RO) as EN. rewrite forallb_forall in EN. pose proof (in_labels_ok _ _ (EN _ Ie)) as B. assert (0 <= a < N k) as Ba by (apply B; cbn; tauto). assert (0 <= b < N k) as Bb by (apply B; cbn; tauto).
    exists a, b. split; [reflexivity|]. cbn [norm fst snd]. split; [apply get_F; lia|]. split; [apply get_F; lia|]. destruct (Z_lt_dec a b); [rewrite Z.min_l, Z.max_r by lia; apply Permutation_refl|rewrite Z.min_r, Z.max_l by lia; apply perm_swap]. }
  assert (forall t, In t (sd_T (g k)) -> exists a b c, t = [a; b; c] /\ zget (sd_l (g k)) a = Ok (F k a) /\ zget (sd_l (g k)) b = Ok (F k b) /\ zget (sd_l (g k)) c = Ok (F k c)) as HTr.
  { intros t It. destruct (ro_T3 _ _ _ RO t It) as (a & b & c & ->). pose proof (ro_Tn _ _ _ RO) as TN. rewrite forallb_forall in TN. pose proof (in_labels_ok _ _ (TN _ It)) as B. exists a, b, c. split; [reflexivity|]. split; [|split]; apply get_F, B; cbn; tauto. }
  assert (d = 1 \/ d = 2 \/ d = 3) as [->|[->| ->]] by lia; unfold ko, key_origs, P_Recut3.A, made; cbn [Z.eqb Pos.eqb].
  - rewrite map_single. apply F2_flat. intros e Ie. destruct (HE e Ie) as (a & b & -> & E1 & E2 & P). constructor; [|constructor]. do 6 eexists. split; [exact C|]. split; [exact E1|]. split; [exact E2|exact P].
  - rewrite map_app, map_flat. apply Forall2_app.
    + apply F2_flat. intros e Ie. destruct (HE e Ie) as (a & b & -> & E1 & E2 & P). cbn [edge_tris map app walls_of]. constructor; [|constructor; [|constructor]]; do 6 eexists; (split; [exact C|]); (split; [exact E1|]); (split; [exact E2|]); cbn [Z.eqb]; [rewrite F_n|rewrite F_n1]; apply (Permutation_app_tail [_] P).
    + rewrite map_single. apply F2_flat. intros t It. destruct (HTr t It) as (a & b & c & -> & E1 & E2 & E3). constructor; [|constructor]. do 7 eexists. split; [exact C|]. split; [exact E1|]. split; [exact E2|]. split; [exact E3|reflexivity].
  - rewrite map_flat. apply F2_flat. intros t It. destruct (HTr t It) as (a & b & c & -> & E1 & E2 & E3). cbn [tri_wedges wedges_of map]. constructor; [|constructor; [|constructor]]; do 7 eexists; (split; [exact C|]); (split; [exact E1|]); (split; [exact E2|]); (split; [exact E3|]); cbn [Z.eqb Pos.eqb]; [rewrite F_n|rewrite F_n1]; reflexivity.
Qed.
Lemma L_in d row : In row (L d) <-> exists k q, In k keys /\ In q (A k d) /\ row = map (F k) q.
Proof.
  unfold L. rewrite in_flat_map. split; [intros (k & I & H); apply in_map_iff in H as (q & <- & Iq); eauto|]. intros (k & q & I & Iq & ->). exists k. split; [exact I|]. apply in_map, Iq.
Qed.
Lemma rm_map k y q : In k keys -> In y q -> (forall i, In i q -> 0 <= i < N k + 2) -> rm (F k y) (map (F k) q) = map (F k) (rm y q).
Proof.
  intros I Iy B. assert (0 <= y < N k + 2) as By by (apply B, Iy). clear Iy. induction q as [|x q IH]; [reflexivity|]. unfold rm in *. cbn [map filter]. rewrite IH by (intros; apply B; right; assumption). destruct (Z.eqb_spec (F k x) (F k y)) as [E|E], (Z.eqb_spec x y) as [E'|E']; cbn [negb]; try reflexivity; [|congruence]. exfalso. apply E', (F_inj T keys configs g G k x y I); [apply B; left; reflexivity|exact By|exact E].
Qed.

Context (r : Z -> numbering).
Context (R0 : r 0 = same_numbers n0).
Context (RN : forall d, 0 <= d <= 3 -> renumbers (t_nents T d) (r d)).
Context (KO : forall d x, 0 <= d <= 3 -> In x (same2old (r d)) <-> 0 <= x < t_nents T d /\ no_key d x).
Context (KN : forall d, 0 <= d <= 3 -> NoDup (same2old (r d))).
Context (PO : forall d, 0 <= d <= 3 -> zlen (prods2new (r d)) = zlen (origs d)).
Local Notation nv := (look (old2new (r 0))).
Local Notation kept := (kept_ent T r).
Lemma nv_id d e row : 0 <= d <= 3 -> ent_verts T d e row -> map nv row = row.
Proof. intros Hd R. rewrite R0. cbn [old2new same_numbers]. apply look_rows. apply (ent_facts T HT HS d e row ltac:(lia) R). Qed.
Lemma re_picks : S_Unmap.picks T (fun d => same2old (r d)).
Proof. apply (keyless_picks T HT HS keys); [intros d Hd; apply KN; lia|intros d x Hd; apply KO; lia]. Qed.
Lemma h_rn d : 0 <= d <= t_dim T -> renumbers (t_nents T d) (r d). Proof. intros Hd. apply RN. lia. Qed.
Lemma h_n0 : prods2new (r 0) = []. Proof. rewrite R0. reflexivity. Qed.
Lemma h_len d : 1 <= d <= t_dim T -> zlen (L d) = zlen (prods2new (r d)).
Proof. intros Hd. rewrite (PO d) by lia. pose proof (Forall2_len _ _ _ (rel_all d ltac:(lia))) as E. unfold zlen. lia. Qed.
Lemma h_rows d row : 1 <= d <= t_dim T -> In row (L d) -> zlen row = d + 1 /\ NoDup row /\ forall v, In v row -> 0 <= v < nnew (r 0).
Proof.
  intros Hd H. apply L_in in H as (k & q & I & Iq & ->). destruct (ro_row _ _ _ (g_ok T keys configs g G k I) d q ltac:(lia) Iq) as (Lq & Nq & B & _). rewrite zlen_map. split; [exact Lq|]. split; [apply (F_nodup T keys configs g G k q I B Nq)|]. rewrite R0. cbn [nnew same_numbers]. intros v Hv. apply in_map_iff in Hv as (i & <- & Hi). specialize (B i Hi).
  destruct (id_ring T configs k (g k) (G k I)) as (Rk & Nd & Hn & _ & RT & _). destruct (ent_facts T HT HS 1 k _ ltac:(lia) Rk) as (_ & _ & Bk). fold (N k) in Hn.
  assert (i = N k \/ i = N k + 1 \/ 0 <= i < N k) as [->|[->|Hi']] by lia; [rewrite F_n; apply Bk; cbn; tauto|rewrite F_n1; apply Bk; cbn; tauto|].
  assert (In (F k i) (map fst (cycle (sd_l (g k))))) as J by (rewrite cycle_fst; eapply zget_In, get_F, Hi'). apply in_map_iff in J as ([x y] & E & Ip). cbn in E. subst x. destruct (RT _ _ Ip) as (t & tv & Rt & St). destruct (ring_has T k _ _ _ _ _ _ _ (id_ring T configs k (g k) (G k I)) Ip Rt St) as [_ P]. destruct (ent_facts T HT HS 3 t tv ltac:(lia) Rt) as (_ & _ & Bt). apply Bt, (Permutation_in _ (Permutation_sym P)). cbn. tauto.
Qed.
Lemma h_once d p p' row row' : 1 <= d <= t_dim T -> zget (L d) p = Ok row -> zget (L d) p' = Ok row' -> Permutation row row' -> p = p'.
Proof.
  intros Hd E E' P. pose proof (rel_all d ltac:(lia)) as FA. pose proof (Forall2_len _ _ _ FA) as LF.
  destruct (zget_in_range (origs d) p) as (o & Eo); [pose proof (zget_bounds _ _ _ E) as B; unfold zlen in *; lia|]. destruct (zget_in_range (origs d) p') as (o' & Eo'); [pose proof (zget_bounds _ _ _ E') as B; unfold zlen in *; lia|].
  pose proof (P_Rebuild.Forall2_at _ _ _ FA p o row Eo E) as (k & q & I & Io & Iq & -> & C). pose proof (P_Rebuild.Forall2_at _ _ _ FA p' o' row' Eo' E') as (k' & q' & I' & Io' & Iq' & -> & C').
  pose proof (same_key T HT HS keys configs HX g G k k' d q q' I I' ltac:(lia) Iq Iq' P) as <-. destruct (ro_row _ _ _ (g_ok T keys configs g G k I) d q ltac:(lia) Iq) as (_ & Nq & B & _). destruct (ro_row _ _ _ (g_ok T keys configs g G k I) d q' ltac:(lia) Iq') as (_ & Nq' & B' & _).
  apply (map_perm_inv (F k) (fun i => 0 <= i < N k + 2)) in P; [|intros x y Hx Hy; apply (F_inj T keys configs g G k x y I Hx Hy)|apply Forall_forall, B|apply Forall_forall, B'|exact Nq|exact Nq']. apply (chars_perm (N k)) in P. rewrite C, C' in P.
  assert (o = o') as <-. { pose proof (ro_once _ _ _ (g_ok T keys configs g G k I) d ltac:(lia)) as ON. rewrite (ro_origs _ _ _ (g_ok T keys configs g G k I) k d ltac:(lia)) in ON. fold (ko k d) in ON. clear - ON Io Io' P. induction (ko k d) as [|o1 os IH]; [contradiction|]. cbn [map] in ON. apply NoDup_cons_iff in ON as [N1 N2]. destruct Io as [->|Io], Io' as [->|Io']; [reflexivity|exfalso; apply N1; rewrite P; apply in_map, Io'|exfalso; apply N1; rewrite <- P; apply in_map, Io|apply IH; assumption]. }
  apply (P_Map.NoDup_zget _ _ _ _ (origs_nodup d) Eo Eo').
Qed.
Lemma h_new d row e row0 : 1 <= d <= t_dim T -> In row (L d) -> kept d e row0 -> ~ Permutation row (map nv row0).
Proof.
  intros Hd H [Ie R] P. rewrite (nv_id d e row0 ltac:(lia) R) in P. apply KO in Ie as [_ NK]; [|lia]. apply L_in in H as (k & q & I & Iq & ->). exact (fresh T HT HS keys configs HX g G k d q e row0 I ltac:(lia) Iq R P NK).
Qed.
Lemma old_kept k q : In k keys -> oldish (N k) q = true -> NoDup q -> q <> [] -> zlen q <= 4 -> ~ (In (N k) q /\ In (N k + 1) q) -> exists s srow, kept (zlen q - 1) s srow /\ Permutation (map nv srow) (map (F k) q).
Proof.
  intros I O Nq Eq Lq NB. destruct (sub_old T HT HS keys configs HX g G k q I O Nq Eq NB) as (s & srow & Rs & Ps & NK & _). assert (1 <= zlen q) as Lq1 by (destruct q; [congruence|rewrite zlen_cons; pose proof (zlen_nonneg q); lia]).
  exists s, srow. split; [split; [|exact Rs]|rewrite (nv_id (zlen q - 1) s srow ltac:(lia) Rs); exact Ps]. apply KO; [lia|]. split; [apply (ent_range T HT HS (zlen q - 1) s srow ltac:(lia) Rs)|exact NK].
Qed.
Lemma h_sides d row z : 2 <= d <= t_dim T -> In row (L d) -> In z row -> (exists srow, In srow (L (d - 1)) /\ Permutation srow (rm z row)) \/ (exists s srow, kept (d - 1) s srow /\ Permutation (map nv srow) (rm z row)).
Proof.
  intros Hd H Iz. apply L_in in H as (k & q & I & Iq & ->). apply in_map_iff in Iz as (y & <- & Iy). destruct (ro_row _ _ _ (g_ok T keys configs g G k I) d q ltac:(lia) Iq) as (Lq & Nq & B & NB & _). rewrite (rm_map k y q I Iy B).
  destruct (ro_sides _ _ _ (g_ok T keys configs g G k I) d q y ltac:(lia) Iq Iy) as [(s & Is & Ps)|O].
  - left. exists (map (F k) s). split; [apply L_in; exists k, s; auto|apply Permutation_map, Ps].
  - right. pose proof (rm_len y q Nq Iy) as Lr. destruct (old_kept k (rm y q) I O) as (s & srow & K & Ps); [apply rm_nodup, Nq|intros E; rewrite E in Lr; unfold zlen in Lr at 1; cbn in Lr; lia|lia|intros [J1 J2]; apply rm_in in J1, J2; apply NB; tauto|]. replace (zlen (rm y q) - 1) with (d - 1) in K by lia. eauto.
Qed.
Lemma h_up d row : 1 <= d < t_dim T -> In row (L d) -> (exists row', In row' (L (d + 1)) /\ incl row row') \/ (exists e' row', kept (d + 1) e' row' /\ incl row (map nv row')).
Proof.
  intros Hd H. left. apply L_in in H as (k & q & I & Iq & ->). destruct (ro_up _ _ _ (g_ok T keys configs g G k I) d q ltac:(lia) Iq) as (q' & Iq' & Inc). exists (map (F k) q'). split; [apply L_in; exists k, q'; auto|]. intros v Hv. apply in_map_iff in Hv as (i & <- & Hi). apply in_map, Inc, Hi.
Qed.
Lemma h_kept_up d e row : 1 <= d < t_dim T -> kept d e row -> (exists row', In row' (L (d + 1)) /\ incl (map nv row) row') \/ (exists e' row', kept (d + 1) e' row' /\ incl (map nv row) (map nv row')).
Proof.
  intros Hd [Ie R]. rewrite (nv_id d e row ltac:(lia) R). apply KO in Ie as [He NK]; [|lia]. destruct (s_pure T HS d e row ltac:(lia) R) as (e' & row' & R' & Inc). pose proof (ent_range T HT HS (d + 1) e' row' ltac:(lia) R') as He'.
  destruct (keyed T HT HS keys HK (d + 1) e' ltac:(lia) He') as [(k & Ik & Hk)|NK'].
  - assert (exists t tv, ent_verts T 3 t tv /\ has_edge T 3 t k /\ incl row tv) as (t & tv & Rt & Ht & It).
    { assert (d = 1 \/ d = 2) as [->| ->] by lia; [|exists e', row'; auto]. change (1 + 1) with 2 in *. destruct (s_pure T HS 2 e' row' ltac:(lia) R') as (t & tv & Rt & Inc2). change (2 + 1) with 3 in Rt. exists t, tv. split; [exact Rt|]. split; [|intros v Hv; apply Inc2, Inc, Hv].
      destruct Hk as (row1 & a & b & R1 & Rk & Ia & Ib). assert (row1 = row') as -> by (apply (ent_unique T 2 e'); [lia|assumption|assumption]). exists tv, a, b. auto. }
    destruct (tet_old T keys configs g G k t tv Ik Rt Ht) as (lt & Il & P). destruct (old_tet T keys configs g G k lt Ik Il) as (_ & _ & _ & _ & _ & L4 & Nl & Bl).
    destruct (id_ring T configs k (g k) (G k Ik)) as (Rk & Nd & Hn & _). fold (N k) in Hn.
    assert (exists v, (v = N k \/ v = N k + 1) /\ ~ In (F k v) row) as (v & Hv & NV).
    { destruct (in_dec Z.eq_dec (F k (N k)) row) as [I1|I1]; [|exists (N k); auto]. destruct (in_dec Z.eq_dec (F k (N k + 1)) row) as [I2|I2]; [|exists (N k + 1); auto]. exfalso. apply (NK k Ik). exists row, (sd_0 (g k)), (sd_1 (g k)). rewrite F_n in I1. rewrite F_n1 in I2. auto. }
    assert (incl row (map (F k) (rm v lt))) as IR. { intros w Hw. pose proof (Permutation_in _ P (It w Hw)) as J. apply in_map_iff in J as (i & <- & Hi). apply in_map, rm_in. split; [exact Hi|]. intros ->. contradiction. }
    assert (In v lt) as Iv. { unfold old_labels in Il. apply in_map_iff in Il as (p & <- & _). cbn. destruct Hv; auto. }
    assert (d = 1 \/ d = 2) as [->| ->] by lia; [right|left].
    + pose proof (rm_len v lt Nl Iv) as Lr. destruct (old_kept k (rm v lt) Ik) as (s & srow & K & Ps); [unfold oldish; apply existsb_exists; exists lt; split; [exact Il|apply sub_ok; intros x Hx; apply rm_in in Hx; tauto]|apply rm_nodup, Nl|intros E; rewrite E in Lr; unfold zlen in Lr at 1; cbn in Lr; lia|lia|intros [J1 J2]; apply rm_in in J1, J2; destruct Hv; subst v; tauto|].
      replace (zlen (rm v lt) - 1) with (1 + 1) in K by lia. exists s, srow. split; [exact K|]. intros w Hw. apply (Permutation_in _ (Permutation_sym Ps)), IR, Hw.
    + destruct (ro_old _ _ _ (g_ok T keys configs g G k Ik) lt v Il Hv) as (q & Iq & Iq'). exists (map (F k) q). split; [apply L_in; exists k, q; auto|]. intros w Hw. apply IR in Hw. apply in_map_iff in Hw as (i & <- & Hi). apply in_map, Iq', Hi.
  - right. exists e', row'. split; [split; [apply KO; [lia|]; split; assumption|exact R']|]. rewrite (nv_id (d + 1) e' row' ltac:(lia) R'). exact Inc.
Qed.
Lemma re_fits : fits T r (PVL L).
Proof. exact (patch_fits T HT HS r L h_rn re_picks h_len h_rows h_once h_new h_sides). Qed.
End whole.
