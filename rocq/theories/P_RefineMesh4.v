(** Where the products come from. *)
From Coq Require Import String Permutation.
From Verif Require Import Prelude M_Array P_Array M_Par M_Scan S_Scan S_Sort M_Sort M_Map S_Map P_Map P_Map2 M_Template S_Template P_Template M_Align S_Align P_Align M_Graph S_Graph P_Graph M_Unique S_Unique P_Unique M_Adj S_Adj P_Adj S_Transit P_Transit S_Across P_Across
  M_Match S_Match P_Match M_Tags M_MeshAdj S_MeshAdj P_MeshAdj P_MeshAdj2 P_MeshAdj3 M_Build S_Build P_Build P_Box S_Unmap P_Unmap P_Mark P_Coarsen
  M_Modify S_Modify P_Modify P_Modify2 S_Swap3d S_Swap2d S_Coarsen M_Refine S_Refine P_Refine P_SwapTopo M_RefineMesh S_RefineMesh S_Rebuild P_Rebuild P_RefineMesh1 P_RefineMesh2 P_RefineMesh3.
Local Open Scope Z_scope.

Definition look (l : list Z) (x : Z) : Z := match zget l x with Ok y => y | _ => -1 end.
Fixpoint assoc {A} (l : list (Z * A)) (k : Z) (none : A) : A := match l with [] => none | p :: l => if fst p =? k then snd p else assoc l k none end.
Lemma assoc_at {A} : forall (ks : list Z) (vs : list A) none i k v, NoDup ks -> zget ks i = Ok k -> zget vs i = Ok v -> assoc (combine ks vs) k none = v.
Proof.
  intros ks. induction ks as [|k0 ks IH]; intros vs none i k v N E1 E2; [pose proof (zget_bounds _ _ _ E1) as B; unfold zlen in B; cbn in B; lia|]. destruct vs as [|v0 vs]; [pose proof (zget_bounds _ _ _ E2) as B; unfold zlen in B; cbn in B; lia|].
  inversion N as [|? ? Nx Nr]; subst. cbn [combine assoc fst snd]. pose proof (zget_bounds _ _ _ E1) as B. assert (i = 0 \/ 0 < i) as [->|Hi] by lia.
  - cbn in E1, E2. injection E1 as ->. injection E2 as ->. rewrite Z.eqb_refl. reflexivity.
  - assert (forall {X} (x : X) l, zget (x :: l) i = zget l (i - 1)) as Z1. { intros X x l. change (x :: l) with ([x] ++ l). rewrite zget_app_r by (unfold zlen; cbn; lia). f_equal. } rewrite Z1 in E1, E2. destruct (Z.eqb_spec k0 k) as [->|]; [exfalso; apply Nx; eapply zget_In, E1|]. apply (IH vs none (i - 1)); assumption.
Qed.
Lemma NoDup_tagged {A} (tag : A -> Z) (f : Z -> list A) l : NoDup l -> (forall k, In k l -> NoDup (f k)) -> (forall k x, In k l -> In x (f k) -> tag x = k) -> NoDup (flat_map f l).
Proof.
  intros N F H. induction l as [|k l IH]; [constructor|]. inversion N as [|? ? Nx Nr]; subst. cbn [flat_map]. assert (NoDup (flat_map f l)) as IH' by (apply IH; [exact Nr|intros; apply F; right; assumption|intros; apply H; [right; assumption|assumption]]).
  assert (forall x, In x (f k) -> ~ In x (flat_map f l)) as A1. { intros x Hx Hy. apply in_flat_map in Hy as (k' & I' & Hx'). apply Nx. rewrite <- (H k x (or_introl eq_refl) Hx), (H k' x (or_intror I') Hx'). exact I'. }
  pose proof (F k (or_introl eq_refl)) as Nk. clear - IH' A1 Nk. induction (f k) as [|x m IHm]; [exact IH'|]. inversion Nk as [|? ? Nx Nr]; subst. cbn [app]. constructor; [|apply IHm; [intros y Hy; apply A1; right; exact Hy|exact Nr]]. intros I. apply in_app_or in I as [I|I]; [contradiction|]. apply (A1 x (or_introl eq_refl) I).
Qed.
Lemma Forall2_flat {A B C} (R : B -> C -> Prop) (f : A -> list B) : forall l L, Forall2 (fun a m => Forall2 R (f a) m) l L -> Forall2 R (flat_map f l) (concat L).
Proof. intros l L H. induction H as [|a m l L H1 _ IH]; [constructor|]. cbn. apply Forall2_app; assumption. Qed.
Lemma verts_row k (l : list Z) e vs : 0 <= k -> verts_of k l e = Ok vs -> row_is k l e vs.
Proof.
  intros Hk E. unfold verts_of in E. apply mapM_ok in E. pose proof (Forall2_len _ _ _ E) as L. split; [unfold zlen; rewrite <- L, zrange_length; lia|]. intros j Hj. destruct (zget_in_range vs j) as (x & Ex); [unfold zlen; rewrite <- L, zrange_length; lia|].
  exists x. split; [|exact Ex]. assert (zget (zrange k) j = Ok j) as Ej by (apply zget_zrange; lia). exact (P_Rebuild.Forall2_at _ _ _ E j j x Ej Ex).
Qed.
Lemma concat_row k (rows : list (list Z)) p row : 0 < k -> (forall r, In r rows -> zlen r = k) -> zget rows p = Ok row -> row_is k (concat rows) p row.
Proof.
  intros Hk. revert p. induction rows as [|r rows IH]; intros p W E; [pose proof (zget_bounds _ _ _ E) as B; unfold zlen in B; cbn in B; lia|]. pose proof (W r (or_introl eq_refl)) as Lr. pose proof (zget_bounds _ _ _ E) as B. assert (p = 0 \/ 0 < p) as [->|Hp] by lia.
  - cbn in E. injection E as ->. split; [exact Lr|]. intros j Hj. cbn [concat]. rewrite Z.mul_0_l, Z.add_0_l, zget_app_l by lia. destruct (zget_in_range row j) as (x & Ex); [lia|]. eauto.
  - assert (zget rows (p - 1) = Ok row) as E'. { change (r :: rows) with ([r] ++ rows) in E. rewrite zget_app_r in E by (unfold zlen; cbn; lia). exact E. } destruct (IH (p - 1)) as [L H]; [intros; apply W; right; assumption|exact E'|]. split; [exact L|]. intros j Hj. destruct (H j Hj) as (x & Ex & Ey). exists x. split; [|exact Ey]. cbn [concat]. rewrite zget_app_r by nia. rewrite <- Ex. f_equal. lia.
Qed.
Lemma row_concat k (rows : list (list Z)) p row : 0 < k -> (forall r, In r rows -> zlen r = k) -> row_is k (concat rows) p row -> zget rows p = Ok row.
Proof.
  intros Hk W R. assert (zlen (concat rows) = zlen rows * k) as L by (apply P_Refine.zlen_concat_const; exact W). pose proof (row_is_range k _ (zlen rows) p row Hk L R) as B. destruct (zget_in_range rows p B) as (row' & E). pose proof (concat_row k rows p row' Hk W E) as R'. rewrite (row_is_unique _ _ _ _ _ R R'). exact E.
Qed.

Section origins.
Context (T : topology) (HT : valid_topology T) (HS : simplicial T) (old : amesh) (HR : ready T old).
Context (HA : forall a b, 0 <= a <= t_dim T -> 0 <= b <= t_dim T -> a <> b -> P_MeshAdj.val T a b = Ok (kept_adj old a b)).
Context (keys : list Z) (HK : splittable T keys).
Local Notation D := (t_dim T).
Definition doms (d k : Z) : list Z := if d =? 1 then [k] else map (fun u => u / simplex_degree d 1) (uses_of (adj_ab2b (kept_adj old d 1)) k).
Lemma doms_in d k c : 1 <= d <= D -> In k keys -> In c (doms d k) <-> has_edge T d c k.
Proof.
  intros Hd I. unfold doms. destruct (Z.eqb_spec d 1) as [->|].
  - rewrite (has_1 T HT HS). cbn. split; [intros [<-|[]]; split; [reflexivity|apply (k_edges T keys HK), I]|intros [-> _]; auto].
  - destruct (edge_down T HT HS old HA d ltac:(lia)) as (ab & codes & E & _). rewrite E. cbn [adj_ab2b]. apply (uses_has T HT HS old HA d ab codes); [lia|exact E].
Qed.
Lemma doms_nodup d k : 1 <= d <= D -> NoDup (doms d k).
Proof.
  intros Hd. unfold doms. destruct (Z.eqb_spec d 1) as [->|]; [repeat constructor; intros []|]. destruct (down_facts T HT d 1 ltac:(lia) ltac:(lia)) as (dn & E & _ & _ & _ & _ & N & _). rewrite (old_down T old HA d 1) in E by lia. injection E as <-. rewrite (sdeg T HS) in N.
  assert (NoDup (uses_of (adj_ab2b (kept_adj old d 1)) k)) as NU by (apply NoDup_filter, zrange_NoDup).
  assert (forall u, In u (uses_of (adj_ab2b (kept_adj old d 1)) k) -> zget (adj_ab2b (kept_adj old d 1)) u = Ok k) as HU by (intros u; apply uses_of_in).
  induction (uses_of (adj_ab2b (kept_adj old d 1)) k) as [|u l IH]; [constructor|]. inversion NU as [|? ? Nx Nr]; subst. cbn [map]. constructor; [|apply IH; [exact Nr|intros; apply HU; right; assumption]].
  intros I. apply in_map_iff in I as (u' & Eq & I'). apply Nx. rewrite (N u u' k); [exact I'|apply HU; left; reflexivity|apply HU; right; exact I'|symmetry; exact Eq].
Qed.
Definition pairs_of (d k : Z) : list origin := if d =? 0 then [] else if d =? 1 then [Half k k 1; Half k k 0] else flat_map (fun e => [Half e k 0; Half e k 1]) (doms d k).
Definition cuts_of (d k : Z) : list origin := if d =? D then [] else map (fun e => Cut e k) (doms (d + 1) k).
Definition orig (d k : Z) : list origin := pairs_of d k ++ cuts_of d k.
Definition origs (d : Z) : list origin := flat_map (orig d) keys.
Definition is_kept (o : origin) : Prop := match o with Kept _ => True | _ => False end.

Lemma orig_in d k o : 0 <= d <= D -> In k keys -> In o (orig d k) <-> makes T keys d o /\ ~ is_kept o /\ match o with Kept _ => 0 | Half _ k' _ => k' | Cut _ k' => k' end = k.
Proof.
  intros Hd I. unfold orig. rewrite in_app_iff.
  assert (In o (pairs_of d k) <-> exists e s, o = Half e k s /\ 1 <= d /\ has_edge T d e k /\ (s = 0 \/ s = 1)) as HP.
  { unfold pairs_of. destruct (Z.eqb_spec d 0) as [->|]; [split; [intros []|intros (e & s & _ & ? & _); lia]|]. destruct (Z.eqb_spec d 1) as [->|].
    - split; [intros [<-|[<-|[]]]; [exists k, 1|exists k, 0]; (split; [reflexivity|]); (split; [lia|]); (split; [apply (has_1 T HT HS); split; [reflexivity|apply (k_edges T keys HK), I]|auto])|].
      intros (e & s & -> & _ & H & Hs). apply (has_1 T HT HS) in H as [-> _]. cbn. destruct Hs as [->| ->]; auto.
    - rewrite in_flat_map. split.
      + intros (e & He & Ho). apply (doms_in d k e) in He; [|lia|exact I]. destruct Ho as [<-|[<-|[]]]; [exists e, 0|exists e, 1]; auto 6 with zarith.
      + intros (e & s & -> & _ & H & Hs). exists e. split; [apply doms_in; [lia|exact I|exact H]|]. cbn. destruct Hs as [->| ->]; auto. }
  assert (In o (cuts_of d k) <-> exists e, o = Cut e k /\ d < D /\ has_edge T (d + 1) e k) as HC.
  { unfold cuts_of. destruct (Z.eqb_spec d D) as [->|]; [split; [intros []|intros (e & _ & ? & _); lia]|]. rewrite in_map_iff. split.
    - intros (e & <- & He). exists e. split; [reflexivity|]. split; [lia|]. apply doms_in in He; [exact He|lia|exact I].
    - intros (e & -> & _ & H). exists e. split; [reflexivity|]. apply doms_in; [lia|exact I|exact H]. }
  rewrite HP, HC. split.
  - intros [(e & s & -> & H1 & H2 & H3)|(e & -> & H1 & H2)]; cbn; auto.
  - destruct o as [e|e k' s|e k']; cbn; intros (M & NK & E); [tauto| |]; subst k'; [left; exists e, s; tauto|right; exists e; tauto].
Qed.
Lemma origs_in d o : 0 <= d <= D -> In o (origs d) <-> makes T keys d o /\ ~ is_kept o.
Proof.
  intros Hd. unfold origs. rewrite in_flat_map. split.
  - intros (k & I & H). apply orig_in in H; [tauto|exact Hd|exact I].
  - intros [M NK]. exists (match o with Kept _ => 0 | Half _ k' _ => k' | Cut _ k' => k' end). assert (In (match o with Kept _ => 0 | Half _ k' _ => k' | Cut _ k' => k' end) keys) as I by (destruct o; cbn in *; tauto). split; [exact I|]. apply orig_in; auto.
Qed.
Lemma origs_nodup d : 0 <= d <= D -> NoDup (origs d).
Proof.
  intros Hd. unfold origs. apply (NoDup_tagged (fun o => match o with Kept _ => 0 | Half _ k' _ => k' | Cut _ k' => k' end)); [apply (k_once T keys HK)| |intros k o I H; apply orig_in in H; tauto].
  intros k I. unfold orig. assert (NoDup (pairs_of d k)) as N1.
  { unfold pairs_of. destruct (d =? 0) eqn:E0; [constructor|]. apply Z.eqb_neq in E0. destruct (Z.eqb_spec d 1) as [->|]; [repeat constructor; cbn; intuition congruence|].
    apply (NoDup_tagged (fun o => match o with Half e _ _ => e | _ => 0 end)); [apply doms_nodup; lia| |intros e o _ [<-|[<-|[]]]; reflexivity]. intros e _. repeat constructor; cbn; intuition congruence. }
  assert (NoDup (cuts_of d k)) as N2. { unfold cuts_of. destruct (Z.eqb_spec d D); [constructor|]. apply FinFun.Injective_map_NoDup; [intros x y E; congruence|apply doms_nodup; lia]. }
  assert (forall o, In o (pairs_of d k) -> ~ In o (cuts_of d k)) as DJ.
  { intros o H1 H2. unfold cuts_of in H2. destruct (d =? D); [destruct H2|]. apply in_map_iff in H2 as (e & <- & _). unfold pairs_of in H1. destruct (d =? 0); [destruct H1|]. destruct (d =? 1); [cbn in H1; intuition congruence|]. apply in_flat_map in H1 as (e' & _ & [?|[?|[]]]); congruence. }
  clear - N1 N2 DJ. induction (pairs_of d k) as [|x m IHm]; [exact N2|]. inversion N1 as [|? ? Nx Nr]; subst. cbn [app]. constructor; [|apply IHm; [exact Nr|intros y Hy; apply DJ; right; exact Hy]]. intros J. apply in_app_or in J as [J|J]; [contradiction|]. apply (DJ x (or_introl eq_refl) J).
Qed.

Section products.
Context (mids old2new : list Z) (Hmids : zlen mids = zlen keys) (Hnew : zlen old2new = t_nents T 0).
Definition mid (k : Z) : Z := assoc (combine keys mids) k (-1).
Lemma mid_at i k m : zget keys i = Ok k -> zget mids i = Ok m -> mid k = m.
Proof. apply assoc_at, (k_once T keys HK). Qed.
Lemma replaced_map a m vs cs : mapM (replaced old2new a m) vs = Ok cs -> cs = map (fun x => if x =? a then m else look old2new x) vs.
Proof.
  revert cs. induction vs as [|v vs IH]; intros cs E; cbn [mapM] in E; [injection E as <-; reflexivity|]. apply bind_ok in E as (y & Ey & E). apply bind_ok in E as (ys & Eys & E). injection E as <-. cbn [map]. f_equal; [|apply IH, Eys]. unfold replaced in Ey. unfold look. destruct (v =? a); [congruence|]. rewrite Ey. reflexivity.
Qed.
Lemma others_map vs cs : mapM (zget old2new) vs = Ok cs -> cs = map (look old2new) vs.
Proof.
  revert cs. induction vs as [|v vs IH]; intros cs E; cbn [mapM] in E; [injection E as <-; reflexivity|]. apply bind_ok in E as (y & Ey & E). apply bind_ok in E as (ys & Eys & E). injection E as <-. cbn [map]. f_equal; [|apply IH, Eys]. unfold look. rewrite Ey. reflexivity.
Qed.
Lemma targets_doms d k ds : 2 <= d <= D -> In k keys -> adj_targets (kept_adj old 1 d) k = Ok ds -> ds = doms d k.
Proof.
  intros Hd I E. destruct (edge_ups T HT HS old HA d Hd) as (ab & codes & Ea & _ & _ & _ & U). destruct (U k (k_edges T keys HK k I)) as [U1 _]. rewrite U1 in E. injection E as <-. unfold doms. destruct (Z.eqb_spec d 1); [lia|]. rewrite Ea. reflexivity.
Qed.
Definition verts (d : Z) : list Z := adj_ab2b (kept_adj old d 0).
Lemma split_verts : split_mesh D (t_nents T) verts (fun d => kept_adj old 1 d).
Proof.
  destruct (split_ok T HT HS old HA) as (A1 & A2 & A3). pose proof (v_dim T HT). split; [exact A1|]. unfold verts. split; [intros d Hd; rewrite (old_verts T HT old HA d Hd); apply A2, Hd|]. intros d Hd. rewrite !(old_verts T HT old HA) by lia. apply A3, Hd.
Qed.
Lemma rows_made d : 1 <= d <= D -> exists L, refine_products D d verts (fun d => kept_adj old 1 d) keys mids old2new = Ok (offset_scan (map zlen L), flat (d + 1) L) /\
  zlen L = zlen keys /\ (forall ts, In ts L -> forall t, In t ts -> zlen t = d + 1) /\ Forall2 (fun k rows => Forall2 (made_of T (look old2new) mid d) (orig d k) rows) keys L.
Proof.
  intros Hd. pose proof (v_dim T HT) as HD.
  destruct (products_flat D (t_nents T) verts (fun d => kept_adj old 1 d) keys mids old2new split_verts (k_edges T keys HK) Hmids) with (ent_dim := d) as (L & E & LL & W & HP); [|exact Hd|].
  { intros d' Hd' v Hv. unfold verts in Hv. rewrite (old_verts T HT old HA d' Hd') in Hv. rewrite Hnew. apply (v_verts T HT d' Hd'), Hv. }
  exists L. split; [exact E|]. split; [exact LL|]. split; [exact W|]. apply P_Rebuild.Forall2_of; [congruence|]. intros i k rows Ek Er. pose proof (zget_In _ _ _ Ek) as I. pose proof (zget_bounds _ _ _ Ek) as Bi.
  destruct (key_row T HT HS keys HK k I) as (a & b & Rk & Hab). destruct (row_ends T old HA k a b Rk) as [Ea Eb]. destruct (zget_in_range mids i) as (m & Em); [lia|]. pose proof (mid_at i k m Ek Em) as Hm.
  assert (forall d' e vs, 1 <= d' <= D -> verts_of (d' + 1) (verts d') e = Ok vs -> ent_verts T d' e vs) as VR. { intros d' e vs Hd' Ev. unfold verts in Ev. rewrite (old_verts T HT old HA d' Hd') in Ev. apply ent_high; [lia|]. apply verts_row; [lia|exact Ev]. }
  destruct (HP i k a b m Ek) as (pairs & cuts & N & P1 & P2); try assumption; [unfold verts; rewrite (old_verts T HT old HA) by lia; exact Ea|unfold verts; rewrite (old_verts T HT old HA) by lia; exact Eb|].
  assert (rows = pairs ++ cuts) as ->. { pose proof (zget_nat L (Z.to_nat i) (pairs ++ cuts) N) as Q. rewrite Z2Nat.id in Q by lia. congruence. }
  unfold orig. apply Forall2_app.
  - unfold pairs_of. destruct (Z.eqb_spec d 0); [lia|]. destruct (Z.eqb_spec d 1) as [->|].
    + destruct P1 as (a' & b' & Ea' & Eb' & ->). constructor; [|constructor; [|constructor]]; exists [a; b], a, b; (split; [exact Rk|]); (split; [exact Rk|]); cbn [Z.eqb map]; unfold oriented_as; cbn [Z.eqb]; rewrite Hm; unfold look; rewrite ?Ea', ?Eb', Z.eqb_refl.
      * destruct (Z.eqb_spec a b); [contradiction|reflexivity].
      * destruct (Z.eqb_spec b a); [congruence|reflexivity].
    + destruct P1 as (ds & ps & Ed & -> & F). apply targets_doms in Ed; [|lia|exact I]. subst ds. unfold unpair. clear - F VR Rk Hm Hd. induction F as [|e p ds ps H _ IH]; [constructor|]. cbn [flat_map map concat app]. destruct H as (vs & Ev & (ca & cb & C1 & C2 & O1 & O2)). apply VR in Ev; [|lia]. apply replaced_map in C1, C2. subst ca cb.
      constructor; [exists vs, a, b; split; [exact Ev|]; split; [exact Rk|]; cbn [Z.eqb]; rewrite Hm; exact O1|]. constructor; [exists vs, a, b; split; [exact Ev|]; split; [exact Rk|]; cbn [Z.eqb]; rewrite Hm; exact O2|exact IH].
  - unfold cuts_of. destruct (Z.eqb_spec d D) as [->|]; [subst cuts; constructor|]. destruct P2 as (ds & Ed & F). apply targets_doms in Ed; [|lia|exact I]. subst ds.
    assert (forall e vs, verts_of (d + 1 + 1) (verts (d + 1)) e = Ok vs -> ent_verts T (d + 1) e vs) as VR' by (intros e vs; apply VR; lia).
    clear - F VR' Rk Hm. induction F as [|e c ds cs H _ IH]; [constructor|]. cbn [map]. constructor; [|exact IH]. destruct H as (vs & Ev & (os & Eo & P)). apply VR' in Ev. apply others_map in Eo. subst os. exists vs, a, b. split; [exact Ev|]. split; [exact Rk|]. rewrite Hm. exact P.
Qed.
End products.
End origins.
