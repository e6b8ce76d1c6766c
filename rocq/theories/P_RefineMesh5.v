(** What splitting edges makes fits together. *)
From Coq Require Import String Permutation Sorted.
From Verif Require Import Prelude M_Array P_Array M_Par M_Scan S_Scan S_Sort M_Sort M_Map S_Map P_Map P_Map2 M_Template S_Template P_Template M_Align S_Align P_Align M_Graph S_Graph P_Graph M_Unique S_Unique P_Unique M_Adj S_Adj P_Adj S_Transit P_Transit S_Across P_Across
  M_Match S_Match P_Match M_Tags M_MeshAdj S_MeshAdj P_MeshAdj P_MeshAdj2 P_MeshAdj3 M_Build S_Build P_Build P_Box S_Unmap P_Unmap P_Mark P_Coarsen
  M_Modify S_Modify P_Modify P_Modify2 S_Swap3d S_Swap2d S_Coarsen M_Refine S_Refine P_Refine P_SwapTopo M_RefineMesh S_RefineMesh S_Rebuild P_Rebuild P_Rebuild2 P_RefineMesh1 P_RefineMesh2 P_RefineMesh3 P_RefineMesh4.
Local Open Scope Z_scope.

Lemma strict_nodup (l : list Z) : Sorted Z.lt l -> NoDup l.
Proof.
  intros S. apply Sorted_StronglySorted in S; [|intros x y z; lia]. induction S as [|x l S IH F]; constructor; [|exact IH]. intros I. rewrite Forall_forall in F. specialize (F x I). lia.
Qed.
Lemma map_perm_inv (f : Z -> Z) (P : Z -> Prop) l m : (forall x y, P x -> P y -> f x = f y -> x = y) -> Forall P l -> Forall P m -> NoDup l -> NoDup m -> Permutation (map f l) (map f m) -> Permutation l m.
Proof.
  intros J Fl Fm Nl Nm Pm. rewrite Forall_forall in *. apply NoDup_Permutation; try assumption. intros x. split; intros I.
  - assert (In (f x) (map f m)) as Q by (apply (Permutation_in _ Pm), in_map, I). apply in_map_iff in Q as (y & E & Iy). rewrite (J x y); auto.
  - assert (In (f x) (map f l)) as Q by (apply (Permutation_in _ (Permutation_sym Pm)), in_map, I). apply in_map_iff in Q as (y & E & Iy). rewrite (J x y); auto.
Qed.
Lemma map_nodup (f : Z -> Z) (P : Z -> Prop) l : (forall x y, P x -> P y -> f x = f y -> x = y) -> Forall P l -> NoDup l -> NoDup (map f l).
Proof.
  intros J F N. induction N as [|x l Nx N IH]; [constructor|]. inversion F as [|? ? Px Fl]; subst. cbn. constructor; [|apply IH, Fl]. intros I. apply in_map_iff in I as (y & E & Iy). rewrite Forall_forall in Fl. rewrite (J y x) in Iy; auto.
Qed.

Section fit.
Context (T : topology) (HT : valid_topology T) (HS : simplicial T) (old : amesh) (HR : ready T old).
Context (HA : forall a b, 0 <= a <= t_dim T -> 0 <= b <= t_dim T -> a <> b -> P_MeshAdj.val T a b = Ok (kept_adj old a b)).
Context (keys : list Z) (HK : splittable T keys).
Local Notation D := (t_dim T).
Local Notation F := (t_family T).
Local Notation origs := (origs T old keys).
Context (r : Z -> numbering) (L : Z -> list (list (list Z))).
Context (G : forall d, 0 <= d <= D -> exists k2p, good_numbering (view old) d (only_at 1 keys) (only_at 1 k2p) (zlen (origs d)) (fun x => ~ exists k, In k keys /\ has_edge T d x k) (r d)).
Local Notation nv := (look (old2new (r 0))).
Local Notation md := (mid keys (prods2new (r 0))).
Context (HL : forall d, 1 <= d <= D -> (forall ts, In ts (L d) -> forall t, In t ts -> zlen t = d + 1) /\ Forall2 (fun k rows => Forall2 (made_of T nv md d) (orig T old d k) rows) keys (L d)).
Definition PV (d : Z) : list Z := flat (d + 1) (L d).

Lemma kept_iff d x : 0 <= d <= D -> In x (same2old (r d)) <-> 0 <= x < t_nents T d /\ forall k, In k keys -> ~ has_edge T d x k.
Proof.
  intros Hd. destruct (G d Hd) as (k2p & G1 & _). rewrite G1. unfold view. cbn [nents]. rewrite (old_nents T old HR d Hd). split; intros [A B]; (split; [exact A|]).
  - intros k I H. apply B. eauto.
  - intros (k & I & H). apply (B k I H).
Qed.
Lemma rn d : 0 <= d <= D -> renumbers (t_nents T d) (r d).
Proof.
  intros Hd. destruct (G d Hd) as (k2p & G1 & G2 & G3 & G4 & G5 & G6 & G7 & G8 & _). unfold view in G7. cbn [nents] in G7. rewrite (old_nents T old HR d Hd) in G7. constructor; assumption.
Qed.
Lemma nn d : 0 <= d <= D -> 0 <= nnew (r d).
Proof. intros Hd. destruct (G d Hd) as (k2p & _ & _ & _ & _ & _ & _ & _ & _ & _ & _ & _ & E). rewrite E. pose proof (zlen_nonneg (same2old (r d))). pose proof (zlen_nonneg (origs d)). lia. Qed.
Lemma nprods d : 0 <= d <= D -> zlen (prods2new (r d)) = zlen (origs d).
Proof. intros Hd. destruct (G d Hd) as (k2p & _ & _ & _ & G4 & _). exact G4. Qed.
Lemma olds_nodup d : 0 <= d <= D -> NoDup (same2old (r d)).
Proof. intros Hd. destruct (G d Hd) as (k2p & _ & G2 & _). apply strict_nodup, G2. Qed.
Lemma dim0 : 0 <= 0 <= D. Proof. pose proof (v_dim T HT). lia. Qed.
Lemma all_verts x : 0 <= x < t_nents T 0 -> In x (same2old (r 0)).
Proof. intros Hx. apply kept_iff; [apply dim0|]. split; [exact Hx|]. intros k _. apply (has_0 T HT HS). Qed.
Lemma nv_at x : 0 <= x < t_nents T 0 -> zget (old2new (r 0)) x = Ok (nv x) /\ In (nv x) (same2new (r 0)).
Proof.
  intros Hx. destruct (kept_number (t_nents T 0) (r 0) (rn 0 dim0) x (all_verts x Hx)) as (i & y & E1 & E2 & E3 & _). unfold look. rewrite E3. split; [reflexivity|]. eapply zget_In, E2.
Qed.
Lemma nv_inj x y : 0 <= x < t_nents T 0 -> 0 <= y < t_nents T 0 -> nv x = nv y -> x = y.
Proof. intros Hx Hy E. destruct (nv_at x Hx) as [E1 _]. destruct (nv_at y Hy) as [E2 _]. apply (kept_apart (t_nents T 0) (r 0) (rn 0 dim0) x y (nv x)); [apply all_verts, Hx|apply all_verts, Hy|exact E1|rewrite E; exact E2]. Qed.
Lemma orig_0 k : orig T old 0 k = [Cut k k].
Proof. unfold orig, pairs_of, cuts_of, doms. assert (0 <> D) as N by (pose proof (v_dim T HT) as H; clear - H; lia). destruct (Z.eqb_spec 0 D); [contradiction|reflexivity]. Qed.
Lemma origs_0 : origs 0 = map (fun k => Cut k k) keys.
Proof. unfold P_RefineMesh4.origs. assert (forall l, flat_map (orig T old 0) l = map (fun k => Cut k k) l) as E; [|apply E]. intros l. induction l as [|k l IH]; [reflexivity|]. cbn [flat_map map]. rewrite orig_0, IH. reflexivity. Qed.
Lemma nmids : zlen (prods2new (r 0)) = zlen keys. Proof. rewrite (nprods 0 dim0), origs_0, zlen_map. reflexivity. Qed.
Lemma md_at i k : zget keys i = Ok k -> zget (prods2new (r 0)) i = Ok (md k).
Proof. intros E. pose proof (zget_bounds _ _ _ E) as B. destruct (zget_in_range (prods2new (r 0)) i) as (m & Em); [rewrite nmids; exact B|]. rewrite (mid_at T keys HK (prods2new (r 0)) i k m E Em). exact Em. Qed.
Lemma md_in k : In k keys -> In (md k) (prods2new (r 0)).
Proof. intros I. apply P_Map.In_zget in I as (i & E). eapply zget_In, md_at, E. Qed.
Lemma md_inj k k' : In k keys -> In k' keys -> md k = md k' -> k = k'.
Proof. intros I I' E. apply P_Map.In_zget in I as (i & Ei). apply P_Map.In_zget in I' as (j & Ej). pose proof (md_at i k Ei) as Mi. pose proof (md_at j k' Ej) as Mj. rewrite E in Mi. assert (i = j) as -> by (apply (NoDup_zget _ _ _ _ (prods_nodup _ _ (rn 0 dim0)) Mi Mj)). congruence. Qed.
Lemma nv_md x k : 0 <= x < t_nents T 0 -> In k keys -> nv x <> md k.
Proof. intros Hx I E. apply (apart (t_nents T 0) (r 0) (rn 0 dim0) (nv x)); [apply nv_at, Hx|rewrite E; apply md_in, I]. Qed.
Lemma in_verts B d e row : 0 <= d <= D -> ent_verts T d e row -> incl B row -> Forall (fun x => 0 <= x < t_nents T 0) B.
Proof. intros Hd R I. apply Forall_forall. intros x Hx. destruct (ent_facts T HT HS d e row Hd R) as (_ & _ & B0). apply B0, I, Hx. Qed.
Lemma pset_verts d k B : pset T keys d k B -> Forall (fun x => 0 <= x < t_nents T 0) B.
Proof. intros (_ & _ & _ & a & b & d' & e & row & _ & _ & Hd & R & I). apply (in_verts B d' e row); [lia|exact R|]. intros x Hx. apply I. right; right. exact Hx. Qed.

(** the rows of the products *)
Lemma rows_len d : 1 <= d <= D -> zlen (concat (L d)) = zlen (origs d) /\ (forall row, In row (concat (L d)) -> zlen row = d + 1) /\ PV d = concat (concat (L d)) /\ Forall2 (made_of T nv md d) (origs d) (concat (L d)).
Proof.
  intros Hd. destruct (HL d Hd) as [W M]. pose proof (Forall2_flat _ _ _ _ M) as M'. split; [pose proof (Forall2_len _ _ _ M') as E; unfold P_RefineMesh4.origs, zlen; lia|]. split; [intros row I; apply in_concat in I as (ts & I1 & I2); exact (W ts I1 row I2)|]. split; [|exact M'].
  unfold PV, flat. clear. induction (L d) as [|ts l IH]; [reflexivity|]. cbn [map concat]. rewrite concat_app, IH. reflexivity.
Qed.
Lemma prod_row d p row : 1 <= d <= D -> row_is (d + 1) (PV d) p row -> zget (concat (L d)) p = Ok row /\ exists o, zget (origs d) p = Ok o /\ made_of T nv md d o row.
Proof.
  intros Hd R. destruct (rows_len d Hd) as (Ll & W & E & M). rewrite E in R. apply row_concat in R; [|lia|exact W]. split; [exact R|]. destruct (zget_in_range (origs d) p) as (o & Eo); [rewrite <- Ll; eapply zget_bounds, R|]. exists o. split; [exact Eo|]. exact (Forall2_at _ _ _ M p o row Eo R).
Qed.
Lemma row_prod d p o : 1 <= d <= D -> zget (origs d) p = Ok o -> exists row, row_is (d + 1) (PV d) p row /\ made_of T nv md d o row.
Proof.
  intros Hd Eo. destruct (rows_len d Hd) as (Ll & W & E & M). destruct (zget_in_range (concat (L d)) p) as (row & Er); [rewrite Ll; eapply zget_bounds, Eo|]. exists row. rewrite E. split; [apply concat_row; [lia|exact W|exact Er]|exact (Forall2_at _ _ _ M p o row Eo Er)].
Qed.
Lemma origs_makes d p o : 0 <= d <= D -> zget (origs d) p = Ok o -> makes T keys d o /\ forall e, o <> Kept e.
Proof. intros Hd E. apply zget_In in E. apply (origs_in T HT HS old HA keys HK) in E as [M N]; [|exact Hd]. split; [exact M|]. intros e ->. apply N. exact Logic.I. Qed.
Lemma prod_shape d p row : 1 <= d <= D -> row_is (d + 1) (PV d) p row -> exists o k B, zget (origs d) p = Ok o /\ shape T keys d o k B /\ Permutation row (md k :: map nv B).
Proof.
  intros Hd R. destruct (prod_row d p row Hd R) as (_ & o & Eo & M). destruct (origs_makes d p o ltac:(lia) Eo) as [Mk NK]. destruct (shape_of T HT HS keys d o ltac:(lia) Mk NK) as (k & B & S & HM). exists o, k, B. auto.
Qed.
(** a new entity: a kept one, or a product *)
Lemma new_cases d e' row' : 1 <= d <= D -> new_row T r PV d e' row' <->
  (exists i e row, zget (same2old (r d)) i = Ok e /\ zget (same2new (r d)) i = Ok e' /\ ent_verts T d e row /\ row' = map nv row) \/
  (exists p o, zget (prods2new (r d)) p = Ok e' /\ zget (origs d) p = Ok o /\ row_is (d + 1) (PV d) p row').
Proof.
  intros Hd. pose proof (v_dim T HT) as HD. unfold new_row. cbv zeta. rewrite (deg0 T HS d) by lia. split.
  - intros [(e & row & I & En & R & F2)|(p & Ep & R)].
    + left. destruct (kept_number _ _ (rn d ltac:(lia)) e I) as (i & y & E1 & E2 & E3 & _). exists i, e, row. split; [exact E1|]. split; [congruence|]. split; [apply ent_high; [lia|exact R]|]. apply (renamed r). exact F2.
    + right. destruct (prod_row d p row' Hd R) as (_ & o & Eo & _). eauto 6.
  - intros [(i & e & row & E1 & E2 & R & ->)|(p & o & Ep & Eo & R)]; [left|right; eauto]. exists e, row. split; [eapply zget_In, E1|]. split; [apply (rn_same _ _ (rn d ltac:(lia)) i); assumption|]. split; [apply ent_high in R; [exact R|lia]|].
    destruct (ent_facts T HT HS d e row ltac:(lia) R) as (_ & _ & B0). apply Forall2_of; [rewrite zlen_map; reflexivity|]. intros j a b Ea Eb. rewrite zget_map, Ea in Eb. injection Eb as <-. apply nv_at, B0. eapply zget_In, Ea.
Qed.
Lemma new_once d e1 e2 row1 row2 : 1 <= d <= D -> new_row T r PV d e1 row1 -> new_row T r PV d e2 row2 -> Permutation row1 row2 -> e1 = e2.
Proof.
  intros Hd N1 N2 P. pose proof (v_dim T HT) as HD. apply new_cases in N1; [|exact Hd]. apply new_cases in N2; [|exact Hd].
  assert (forall e row p row', ent_verts T d e row -> row_is (d + 1) (PV d) p row' -> ~ Permutation (map nv row) row') as X.
  { intros e row p row' R R' Q. destruct (prod_shape d p row' Hd R') as (o & k & B & _ & S & Q'). assert (In (md k) (map nv row)) as J by (apply (Permutation_in _ (Permutation_sym Q)), (Permutation_in _ (Permutation_sym Q')); left; reflexivity).
    apply in_map_iff in J as (x & E & Ix). destruct (ent_facts T HT HS d e row ltac:(lia) R) as (_ & _ & B0). apply (nv_md x k (B0 x Ix) (proj1 S) E). }
  destruct N1 as [(i & e & row & E1 & E2 & R & ->)|(p & o & Ep & Eo & R)], N2 as [(j & e' & row' & E3 & E4 & R' & ->)|(q & o' & Eq & Eo' & R')].
  - assert (e = e') as <-. { apply (P_RefineMesh1.once T HS d e e' row row'); try assumption; [lia|]. apply (map_perm_inv nv (fun x => 0 <= x < t_nents T 0)); try assumption.
      - intros x y; apply nv_inj.
      - apply (in_verts row d e row); [lia|assumption|apply incl_refl].
      - apply (in_verts row' d e' row'); [lia|assumption|apply incl_refl].
      - apply (ent_facts T HT HS d e row ltac:(lia) R).
      - apply (ent_facts T HT HS d e' row' ltac:(lia) R'). }
    assert (i = j) as <- by (apply (NoDup_zget _ _ _ _ (olds_nodup d ltac:(lia)) E1 E3)). congruence.
  - exfalso. apply (X e row q row2 R R' P).
  - exfalso. apply (X e' row' p row1 R' R). apply Permutation_sym, P.
  - destruct (prod_shape d p row1 Hd R) as (o1 & k & B & Eo1 & S & Q). destruct (prod_shape d q row2 Hd R') as (o2 & k' & B' & Eo2 & S' & Q'). assert (o1 = o) as -> by congruence. assert (o2 = o') as -> by congruence.
    pose proof (shape_pset T HT HS keys d o k B ltac:(lia) S) as PS. pose proof (shape_pset T HT HS keys d o' k' B' ltac:(lia) S') as PS'. pose proof (pset_verts d k B PS) as FB. pose proof (pset_verts d k' B' PS') as FB'.
    assert (Permutation (md k :: map nv B) (md k' :: map nv B')) as QQ by (apply (Permutation_trans (Permutation_sym Q)), (Permutation_trans P), Q').
    assert (k = k') as <-. { assert (In (md k) (md k' :: map nv B')) as J by (apply (Permutation_in _ QQ); left; reflexivity). destruct J as [J|J]; [apply md_inj; [apply (proj1 PS)|apply (proj1 PS')|symmetry; exact J]|]. exfalso. apply in_map_iff in J as (x & E & Ix). rewrite Forall_forall in FB'. apply (nv_md x k (FB' x Ix) (proj1 PS) E). }
    apply Permutation_cons_inv in QQ. apply (map_perm_inv nv (fun x => 0 <= x < t_nents T 0)) in QQ; try assumption; [|intros x y; apply nv_inj|apply (proj1 (proj2 PS))|apply (proj1 (proj2 PS'))].
    assert (o = o') as <- by (apply (shape_once T HT HS keys d o o' k B B'); try assumption; lia). assert (p = q) as <- by (apply (NoDup_zget _ _ _ _ (origs_nodup T HT HS old HA keys HK d ltac:(lia)) Eo Eo')). congruence.
Qed.
Lemma new_prod d k B : 1 <= d <= D -> pset T keys d k B -> exists e' row', new_row T r PV d e' row' /\ Permutation row' (md k :: map nv B).
Proof.
  intros Hd PS. destruct (pset_shape T HT HS keys d k B ltac:(lia) PS) as (o & S & M). assert (In o (origs d)) as I. { apply (origs_in T HT HS old HA keys HK); [lia|]. split; [exact M|]. destruct o; cbn; [destruct S as [_ []]|tauto|tauto]. }
  apply P_Map.In_zget in I as (p & Eo). destruct (row_prod d p o Hd Eo) as (row' & R & Mo). destruct (zget_in_range (prods2new (r d)) p) as (e' & Ee); [rewrite (nprods d) by lia; eapply zget_bounds, Eo|].
  exists e', row'. split; [apply new_cases; [exact Hd|]; right; eauto|]. destruct (shape_of T HT HS keys d o ltac:(lia) M) as (k' & B' & S' & HM). { intros e ->. apply (proj2 S). }
  assert (k' = k) as ->. { destruct o as [e|e k1 s|e k1]; [destruct S as [_ []]| |]; destruct S as [_ (-> & _)], S' as [_ (-> & _)]; reflexivity. }
  apply (Permutation_trans (HM _ _ _ Mo)). apply perm_skip, Permutation_map.
  destruct (shape_ends T HT HS keys d o k B ltac:(lia) S) as (a & b & Rk & C). destruct (shape_ends T HT HS keys d o k B' ltac:(lia) S') as (a' & b' & Rk' & C'). pose proof (ent_unique T 1 k _ _ ltac:(lia) Rk Rk') as E. injection E as <- <-.
  destruct o as [e|e k1 s|e k1]; [contradiction| |].
  - destruct C as (_ & row & R1 & C), C' as (_ & row1 & R2 & C'). assert (row1 = row) as -> by (apply (ent_unique T d e); [lia|assumption|assumption]). destruct C as [(-> & P & _)|(-> & P & _)], C' as [(E & P' & _)|(E & P' & _)]; try discriminate; apply (Permutation_cons_inv (a := _) (Permutation_trans (Permutation_sym P') P)).
  - destruct C as (_ & _ & row & R1 & P & _), C' as (_ & _ & row1 & R2 & P' & _). assert (row1 = row) as -> by (apply (ent_unique T (d + 1) e); [lia|assumption|assumption]). pose proof (Permutation_trans (Permutation_sym P') P) as Q. apply Permutation_cons_inv, Permutation_cons_inv in Q. exact Q.
Qed.
Lemma new_kept d e row : 1 <= d <= D -> ent_verts T d e row -> (forall k, In k keys -> ~ has_edge T d e k) -> exists e', new_row T r PV d e' (map nv row).
Proof.
  intros Hd R NK. pose proof (v_dim T HT) as HD. assert (In e (same2old (r d))) as I by (apply kept_iff; [lia|]; split; [apply (ent_range T HT HS d e row ltac:(lia) R)|exact NK]). destruct (kept_number _ _ (rn d ltac:(lia)) e I) as (i & y & E1 & E2 & _). exists y. apply new_cases; [exact Hd|]. left. eauto 8.
Qed.
Lemma new_facts d e' row' : 1 <= d <= D -> new_row T r PV d e' row' -> NoDup row' /\ zlen row' = d + 1 /\ forall v, In v row' -> 0 <= v < nnew (r 0).
Proof.
  intros Hd N. pose proof (v_dim T HT) as HD. apply new_cases in N; [|exact Hd]. assert (forall x, 0 <= x < t_nents T 0 -> 0 <= nv x < nnew (r 0)) as RV by (intros x Hx; apply (new_iff _ _ (rn 0 dim0)); left; apply nv_at, Hx).
  destruct N as [(i & e & row & _ & _ & R & ->)|(p & o & Ep & Eo & R)].
  - destruct (ent_facts T HT HS d e row ltac:(lia) R) as (N & L0 & B0). split; [apply (map_nodup nv (fun x => 0 <= x < t_nents T 0)); [intros x y; apply nv_inj|apply (in_verts row d e row); [lia|exact R|apply incl_refl]|exact N]|]. split; [rewrite zlen_map; exact L0|]. intros v Hv. apply in_map_iff in Hv as (x & <- & Ix). apply RV, B0, Ix.
  - destruct (prod_shape d p row' Hd R) as (o1 & k & B & _ & S & Q). pose proof (shape_pset T HT HS keys d o1 k B ltac:(lia) S) as PS. pose proof (pset_verts d k B PS) as FB. destruct PS as (Ik & NB & LB & _). split; [|split; [exact (proj1 R)|]].
    + apply (Permutation_NoDup (Permutation_sym Q)). constructor; [|apply (map_nodup nv (fun x => 0 <= x < t_nents T 0)); [intros x y; apply nv_inj|exact FB|exact NB]]. intros J. apply in_map_iff in J as (x & E & Ix). rewrite Forall_forall in FB. apply (nv_md x k (FB x Ix) Ik E).
    + intros v Hv. apply (Permutation_in _ Q) in Hv. destruct Hv as [<-|Hv]; [apply (new_iff _ _ (rn 0 dim0)); right; apply md_in, Ik|]. apply in_map_iff in Hv as (x & <- & Ix). rewrite Forall_forall in FB. apply RV, FB, Ix.
Qed.
(** sides of products *)
Lemma side_drops d u : 2 <= d <= 3 -> 0 <= u < simplex_degree d (d - 1) -> NoDup (side_verts OMEGA_H_SIMPLEX d (d - 1) u) /\ zlen (side_verts OMEGA_H_SIMPLEX d (d - 1) u) = d /\ forall v, In v (side_verts OMEGA_H_SIMPLEX d (d - 1) u) -> 0 <= v <= d.
Proof.
  intros Hd Hu. assert (d = 2 \/ d = 3) as [->| ->] by lia.
  - change (simplex_degree 2 (2 - 1)) with 3 in Hu. assert (u = 0 \/ u = 1 \/ u = 2) as [->|[->| ->]] by lia; (split; [vm_compute; repeat constructor; cbn; intuition congruence|]); (split; [reflexivity|]); intros v Hv; vm_compute in Hv; intuition lia.
  - change (simplex_degree 3 (3 - 1)) with 4 in Hu. assert (u = 0 \/ u = 1 \/ u = 2 \/ u = 3) as [->|[->|[->| ->]]] by lia; (split; [vm_compute; repeat constructor; cbn; intuition congruence|]); (split; [reflexivity|]); intros v Hv; vm_compute in Hv; intuition lia.
Qed.
Lemma side_is_rm d hrow u row : 2 <= d <= 3 -> zlen hrow = d + 1 -> NoDup hrow -> 0 <= u < simplex_degree d (d - 1) -> Forall2 (fun v x => zget hrow v = Ok x) (side_verts OMEGA_H_SIMPLEX d (d - 1) u) row ->
  exists y, In y hrow /\ Permutation row (rm y hrow).
Proof.
  intros Hd Lh Nh Hu F2. destruct (side_drops d u Hd Hu) as (Ns & Ls & _). assert (NoDup row) as Nr by (eapply zget_list_perm; eassumption). assert (zlen row = d) as Lr by (apply Forall2_len in F2; unfold zlen in *; lia).
  destruct (missing hrow row Nh ltac:(lia)) as (y & Iy & Jy). exists y. split; [exact Iy|]. apply incl_same; [exact Nr|apply rm_nodup, Nh| |rewrite (rm_len y hrow Nh Iy); lia]. intros x Hx. destruct (zget_list_in _ _ _ _ F2 Hx) as (v & _ & Ev). apply rm_in. split; [eapply zget_In, Ev|]. intros ->. contradiction.
Qed.
Lemma rm_perm_eq y l m : Permutation l m -> Permutation (rm y l) (rm y m).
Proof.
  intros P. unfold rm. induction P; cbn; [constructor| | |eapply Permutation_trans; eassumption].
  - destruct (negb (x =? y)); [apply perm_skip|]; assumption.
  - destruct (negb (y0 =? y)), (negb (x =? y)); try apply Permutation_refl. apply perm_swap.
Qed.
Lemma rm_cons_eq y l : ~ In y l -> rm y (y :: l) = l.
Proof. intros N. unfold rm at 1. cbn. rewrite Z.eqb_refl. cbn. apply rm_notin, N. Qed.
Lemma rm_map x B : 0 <= x < t_nents T 0 -> Forall (fun x => 0 <= x < t_nents T 0) B -> rm (nv x) (map nv B) = map nv (rm x B).
Proof.
  intros Hx FB. induction FB as [|z B Hz FB IH]; [reflexivity|]. unfold rm in *. cbn. rewrite IH. destruct (Z.eqb_spec (nv z) (nv x)) as [E|E], (Z.eqb_spec z x) as [E'|E']; cbn; try reflexivity; [exfalso; apply E', nv_inj; assumption|subst; congruence].
Qed.
Lemma side_new d p hrow y : 2 <= d <= D -> row_is (d + 1) (PV d) p hrow -> In y hrow -> exists s srow, new_row T r PV (d - 1) s srow /\ Permutation srow (rm y hrow).
Proof.
  intros Hd R Iy. pose proof (v_dim T HT) as HD. destruct (prod_shape d p hrow ltac:(lia) R) as (o & k & B & _ & S & Q). pose proof (shape_pset T HT HS keys d o k B ltac:(lia) S) as PS. pose proof (pset_verts d k B PS) as FB. pose proof FB as FB'. rewrite Forall_forall in FB'.
  assert (~ In (md k) (map nv B)) as NM by (intros J; apply in_map_iff in J as (x & E & Ix); apply (nv_md x k (FB' x Ix) (proj1 PS) E)).
  apply (Permutation_in _ Q) in Iy. pose proof (rm_perm_eq y _ _ Q) as Qr. destruct Iy as [<-|Iy].
  - destruct (base_kept T HT HS keys HK d k B ltac:(lia) PS) as (s & srow & Rs & P & NK). destruct (new_kept (d - 1) s srow ltac:(lia) Rs NK) as (e' & N). exists e', (map nv srow). split; [exact N|]. apply (Permutation_trans (Permutation_map nv P)), Permutation_sym, (Permutation_trans Qr). rewrite rm_cons_eq by exact NM. apply Permutation_refl.
  - apply in_map_iff in Iy as (x & <- & Ix). destruct (new_prod (d - 1) k (rm x B) ltac:(lia) (side_pset T keys d k B x PS Ix)) as (e' & row' & N & P). exists e', row'. split; [exact N|]. apply (Permutation_trans P), Permutation_sym, (Permutation_trans Qr). unfold rm at 1. cbn [filter]. destruct (Z.eqb_spec (md k) (nv x)) as [E|E]; [exfalso; apply (nv_md x k (FB' x Ix) (proj1 PS)); symmetry; exact E|]. cbn [negb]. apply perm_skip. fold (rm (nv x) (map nv B)). rewrite rm_map by auto. apply Permutation_refl.
Qed.
Lemma kept_sides : S_Unmap.picks T (fun d => same2old (r d)).
Proof.
  pose proof (v_dim T HT) as HD. split; [intros d Hd; split; [apply olds_nodup, Hd|]; intros e I; apply kept_iff in I; tauto|]. intros d e w s Hd I Hw Es. apply kept_iff in I as [He NK]; [|lia]. destruct (Z.eq_dec d 1) as [->|].
  - change (1 - 1) with 0 in *. apply all_verts. rewrite (v_edges T HT) in Es. cbn [adj_ab2b] in Es. destruct (v_verts T HT 1 ltac:(lia)) as (_ & _ & B0). apply B0. eapply zget_In, Es.
  - destruct (v_down T HT d ltac:(lia)) as (ab & codes & E & L1 & L2 & RF). rewrite E in Es. cbn [adj_ab2b] in Es. destruct (ent_row T HT HS d e ltac:(lia) He) as (row & R). pose proof (proj1 (ent_high T d e row ltac:(lia)) R) as R'. rewrite <- (deg0 T HS d) in R' by lia.
    destruct (side_exists F d (d - 1) (t_verts T d) e w row ltac:(lia) ltac:(lia) R' Hw) as (srow & SD). pose proof SD as (hr & Rh & _ & F2). assert (hr = row) as -> by (apply (row_is_unique _ _ _ _ _ Rh R')). destruct (RF e w srow SD) as (l & code & lrow & El & _ & Rl & Al & _). assert (l = s) as -> by congruence. rewrite (deg0 T HS (d - 1)) in Rl, Al by lia.
    assert (ent_verts T (d - 1) s lrow) as Rs by (apply ent_high; [lia|exact Rl]). apply kept_iff; [lia|]. split; [apply (ent_range T HT HS (d - 1) s lrow ltac:(lia) Rs)|]. intros k Ik H. apply (NK k Ik). destruct H as (row1 & a & b & R1 & Rk & Ia & Ib). assert (row1 = lrow) as -> by (apply (ent_unique T (d - 1) s); [lia|assumption|assumption]).
    exists row, a, b. split; [exact R|]. split; [exact Rk|]. pose proof (polygon_perm _ _ (polygon_spec (d - 1 + 1) code lrow srow ltac:(lia) (proj1 Rl) Al)) as P. split; (eapply zget_In; apply (zget_list_in row _ _ _ F2); eapply Permutation_in; [exact P|assumption]) || (match goal with |- In ?x _ => destruct (zget_list_in row _ _ x F2) as (v & _ & Ev); [apply (Permutation_in _ P); assumption|eapply zget_In, Ev] end).
Qed.
Lemma fits_all : fits T r PV.
Proof.
  pose proof (v_dim T HT) as HD. constructor; [exact rn|exact kept_sides| |].
  - intros d Hd. rewrite (deg0 T HS d) by lia. destruct (rows_len d Hd) as (L1 & W & E & _). assert (zlen (PV d) = zlen (prods2new (r d)) * (d + 1)) as LP by (rewrite E, (zlen_concat_const (d + 1) _ W), L1, (nprods d) by lia; reflexivity).
    assert (forall p row, row_is (d + 1) (PV d) p row -> exists e', new_row T r PV d e' row) as K. { intros p row R. destruct (zget_in_range (prods2new (r d)) p) as (e' & Ee); [apply (row_is_range (d + 1) (PV d) _ p row ltac:(lia) LP R)|]. exists e'. right. exists p. rewrite (deg0 T HS d) by lia. auto. }
    split; [exact LP|]. split.
    + intros p row R. destruct (K p row R) as (e' & N). apply (new_facts d e' row Hd N).
    + intros v Hv. destruct (In_row (d + 1) (PV d) _ v ltac:(lia) LP Hv) as (p & row & R & _ & Iv). destruct (K p row R) as (e' & N). apply (new_facts d e' row Hd N), Iv.
  - intros d p u row Hd (hrow & R & Hu & F2). rewrite (deg0 T HS d) in R by lia. rewrite (s_family T HS) in Hu, F2. change (element_degree OMEGA_H_SIMPLEX d (d - 1)) with (simplex_degree d (d - 1)) in Hu.
    assert (exists e', new_row T r PV d e' hrow) as (e' & Nh). { destruct (prod_row d p hrow ltac:(lia) R) as (_ & o & Eo & _). destruct (zget_in_range (prods2new (r d)) p) as (e' & Ee); [rewrite (nprods d) by lia; eapply zget_bounds, Eo|]. exists e'. right. exists p. rewrite (deg0 T HS d) by lia. auto. }
    destruct (new_facts d e' hrow ltac:(lia) Nh) as (NDh & Lh & _). destruct (side_is_rm d hrow u row ltac:(lia) Lh NDh Hu F2) as (y & Iy & P). destruct (side_new d p hrow y Hd R Iy) as (s & srow & N & Ps). exists s, srow. split; [exact N|].
    assert (Permutation srow row) as Q by (apply (Permutation_trans Ps), Permutation_sym, P). destruct (new_facts (d - 1) s srow ltac:(lia) N) as (_ & Ls & _). split; [apply perm_polygon; [exact Q|lia]|]. intros s' srow' N' SP. apply (new_once (d - 1) s' s srow' srow ltac:(lia) N' N). apply (Permutation_trans (polygon_perm _ _ SP)), Permutation_sym, Q.
Qed.

(** the new mesh *)
Section made.
Context (T' : topology) (RB : rebuilt T r PV T').
Lemma made_ent d e' row' : 1 <= d <= D -> ent_verts T' d e' row' <-> new_row T r PV d e' row'.
Proof. intros Hd. pose proof (v_dim T HT). destruct RB as (_ & _ & _ & H4). rewrite ent_high by lia. rewrite <- (deg0 T HS d) by lia. apply H4, Hd. Qed.
Lemma made_simplicial : simplicial T'.
Proof.
  destruct RB as (B1 & B2 & B3 & B4). pose proof (v_dim T HT) as HD. constructor.
  - rewrite B1. apply (s_family T HS).
  - rewrite B2. intros d e e' row row' Hd R R' P. apply (made_ent d _ _ Hd) in R. apply (made_ent d _ _ Hd) in R'. exact (new_once d e e' row row' Hd R R' P).
  - rewrite B2. intros d e' row' Hd R. apply (made_ent d _ _ ltac:(lia)) in R. apply new_cases in R; [|lia].
    assert (forall k B, pset T keys (d + 1) k B -> incl row' (md k :: map nv B) -> exists e'' row'', ent_verts T' (d + 1) e'' row'' /\ incl row' row'') as K.
    { intros k B PS I. destruct (new_prod (d + 1) k B ltac:(lia) PS) as (e'' & row'' & N & P). exists e'', row''. split; [apply made_ent; [lia|exact N]|]. intros x Hx. apply (Permutation_in _ (Permutation_sym P)), I, Hx. }
    destruct R as [(i & e & row & E1 & E2 & R & ->)|(p & o & Ep & Eo & R)].
    + assert (In e (same2old (r d))) as I by (eapply zget_In, E1). apply kept_iff in I as [He NK]; [|lia]. destruct (kept_up T HT HS keys HK d e row ltac:(lia) R NK) as [(e1 & row1 & R1 & Inc & NK1)|(k & PS)].
      * destruct (new_kept (d + 1) e1 row1 ltac:(lia) R1 NK1) as (e'' & N). exists e'', (map nv row1). split; [apply made_ent; [lia|exact N]|]. intros x Hx. apply in_map_iff in Hx as (y & <- & Iy). apply in_map, Inc, Iy.
      * apply (K k row PS). intros x Hx. right. exact Hx.
    + destruct (prod_shape d p row' ltac:(lia) R) as (o1 & k & B & _ & S & Q). pose proof (shape_pset T HT HS keys d o1 k B ltac:(lia) S) as PS. destruct (pset_up T HT HS keys d k B ltac:(lia) PS) as (B' & PS' & Inc). apply (K k B' PS'). intros x Hx. apply (Permutation_in _ Q) in Hx. destruct Hx as [<-|Hx]; [left; reflexivity|right]. apply in_map_iff in Hx as (y & <- & Iy). apply in_map, Inc, Iy.
Qed.
Definition from (d e' : Z) : origin := assoc (combine (same2new (r d) ++ prods2new (r d)) (map Kept (same2old (r d)) ++ origs d)) e' (Kept (-1)).
Lemma from_same d i e e' : 0 <= d <= D -> zget (same2old (r d)) i = Ok e -> zget (same2new (r d)) i = Ok e' -> from d e' = Kept e.
Proof.
  intros Hd E E'. unfold from. apply assoc_at with (i := i); [apply (all_nodup _ _ (rn d Hd))|rewrite zget_app_l by (eapply zget_bounds, E'); exact E'|]. rewrite zget_app_l by (rewrite zlen_map; eapply zget_bounds, E). rewrite zget_map, E. reflexivity.
Qed.
Lemma from_prod d p o e' : 0 <= d <= D -> zget (origs d) p = Ok o -> zget (prods2new (r d)) p = Ok e' -> from d e' = o.
Proof.
  intros Hd E E'. pose proof (zget_bounds _ _ _ E) as B. unfold from. apply assoc_at with (i := zlen (same2old (r d)) + p); [apply (all_nodup _ _ (rn d Hd))| |].
  - rewrite zget_app_r by (rewrite (rn_len _ _ (rn d Hd)); lia). rewrite (rn_len _ _ (rn d Hd)). replace (zlen (same2old (r d)) + p - zlen (same2old (r d))) with p by lia. exact E'.
  - rewrite zget_app_r by (rewrite zlen_map; lia). rewrite zlen_map. replace (zlen (same2old (r d)) + p - zlen (same2old (r d))) with p by lia. exact E.
Qed.
Lemma who d e' : 0 <= d <= D -> 0 <= e' < nnew (r d) -> (exists i e, zget (same2old (r d)) i = Ok e /\ zget (same2new (r d)) i = Ok e' /\ from d e' = Kept e) \/ (exists p o, zget (origs d) p = Ok o /\ zget (prods2new (r d)) p = Ok e' /\ from d e' = o).
Proof.
  intros Hd He. apply (new_iff _ _ (rn d Hd)) in He as [I|I]; apply P_Map.In_zget in I as (i & Ei); pose proof (zget_bounds _ _ _ Ei) as B; [left|right].
  - destruct (zget_in_range (same2old (r d)) i) as (e & Ee); [rewrite <- (rn_len _ _ (rn d Hd)); exact B|]. exists i, e. split; [exact Ee|]. split; [exact Ei|]. eapply from_same; eassumption.
  - destruct (zget_in_range (origs d) i) as (o & Eo); [rewrite <- (nprods d Hd); exact B|]. exists i, o. split; [exact Eo|]. split; [exact Ei|]. eapply from_prod; eassumption.
Qed.
Lemma made_refined : refined T keys nv md from T'.
Proof.
  destruct RB as (B1 & B2 & B3 & B4). pose proof (v_dim T HT) as HD. constructor; [exact B1|exact B2| |].
  - intros d e' Hd He. rewrite (B3 d Hd) in He. destruct (who d e' Hd He) as [(i & e & E1 & E2 & ->)|(p & o & E1 & E2 & ->)].
    + assert (In e (same2old (r d))) as I by (eapply zget_In, E1). apply kept_iff in I as [Hr NK]; [|exact Hd]. split; [split; assumption|]. destruct (Z.eq_dec d 0) as [->|].
      * exists [e']. split; [split; [rewrite (B3 0 dim0); exact He|reflexivity]|]. exists [e]. split; [split; [exact Hr|reflexivity]|]. cbn [map]. unfold look. rewrite (rn_same _ _ (rn 0 dim0) i e e' E1 E2). reflexivity.
      * destruct (ent_row T HT HS d e Hd Hr) as (row & R). exists (map nv row). split; [apply made_ent; [lia|]; apply new_cases; [lia|]; left; eauto 8|exists row; auto].
    + destruct (origs_makes d p o Hd E1) as [M _]. split; [exact M|]. destruct (Z.eq_dec d 0) as [->|].
      * rewrite origs_0 in E1. rewrite zget_map in E1. destruct (zget keys p) as [k| |] eqn:Ek; [|discriminate|discriminate]. cbn in E1. injection E1 as <-. pose proof (md_at p k Ek) as Em. assert (md k = e') as Hm by congruence. exists [e']. split; [split; [rewrite (B3 0 dim0); exact He|reflexivity]|].
        destruct (key_row T HT HS keys HK k (zget_In _ _ _ Ek)) as (a & b & Rk & Hab). exists [a; b], a, b. split; [exact Rk|]. split; [exact Rk|]. cbn. rewrite Z.eqb_refl. cbn. rewrite Z.eqb_refl. rewrite andb_false_r. cbn. rewrite Hm. apply Permutation_refl.
      * destruct (row_prod d p o ltac:(lia) E1) as (row & R & Mo). exists row. split; [|exact Mo]. apply made_ent; [lia|]. apply new_cases; [lia|]. right. eauto.
  - intros d o Hd M. assert (forall e'', 0 <= e'' < t_nents T' d -> 0 <= e'' < nnew (r d)) as RG by (intros e'' H; rewrite (B3 d Hd) in H; exact H). destruct o as [e|e k s|e k].
    + destruct M as [He NK]. assert (In e (same2old (r d))) as I by (apply kept_iff; auto). destruct (kept_number _ _ (rn d Hd) e I) as (i & y & E1 & E2 & _ & Hy). exists y. split; [rewrite (B3 d Hd); exact Hy|]. split; [eapply from_same; eassumption|]. intros e'' He'' Ef. destruct (who d e'' Hd (RG e'' He'')) as [(j & e2 & F1 & F2 & F3)|(p & o & F1 & F2 & F3)].
      * rewrite F3 in Ef. injection Ef as ->. assert (i = j) as <- by (apply (NoDup_zget _ _ _ _ (olds_nodup d Hd) E1 F1)). congruence.
      * exfalso. rewrite F3 in Ef. subst o. apply (proj2 (origs_makes d p _ Hd F1) e). reflexivity.
    + assert (In (Half e k s) (origs d)) as I by (apply (origs_in T HT HS old HA keys HK); [exact Hd|split; [exact M|cbn; tauto]]). apply P_Map.In_zget in I as (p & Ep). destruct (zget_in_range (prods2new (r d)) p) as (y & Ey); [rewrite (nprods d Hd); eapply zget_bounds, Ep|]. exists y. split; [rewrite (B3 d Hd); apply (new_iff _ _ (rn d Hd)); right; eapply zget_In, Ey|]. split; [eapply from_prod; eassumption|].
      intros e'' He'' Ef. destruct (who d e'' Hd (RG e'' He'')) as [(j & e2 & F1 & F2 & F3)|(q & o & F1 & F2 & F3)]; rewrite F3 in Ef; [discriminate|]. subst o. assert (p = q) as <- by (apply (NoDup_zget _ _ _ _ (origs_nodup T HT HS old HA keys HK d Hd) Ep F1)). congruence.
    + assert (In (Cut e k) (origs d)) as I by (apply (origs_in T HT HS old HA keys HK); [exact Hd|split; [exact M|cbn; tauto]]). apply P_Map.In_zget in I as (p & Ep). destruct (zget_in_range (prods2new (r d)) p) as (y & Ey); [rewrite (nprods d Hd); eapply zget_bounds, Ep|]. exists y. split; [rewrite (B3 d Hd); apply (new_iff _ _ (rn d Hd)); right; eapply zget_In, Ey|]. split; [eapply from_prod; eassumption|].
      intros e'' He'' Ef. destruct (who d e'' Hd (RG e'' He'')) as [(j & e2 & F1 & F2 & F3)|(q & o & F1 & F2 & F3)]; rewrite F3 in Ef; [discriminate|]. subst o. assert (p = q) as <- by (apply (NoDup_zget _ _ _ _ (origs_nodup T HT HS old HA keys HK d Hd) Ep F1)). congruence.
Qed.
End made.
End fit.
