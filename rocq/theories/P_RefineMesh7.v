(** Splitting the edges of a mesh: the values of tags. *)
From Coq Require Import String Permutation Sorted.
From Verif Require Import Prelude M_Array P_Array M_Par M_Scan S_Scan P_Scan P_Fan S_Sort M_Sort M_Map S_Map P_Map P_Map2 M_Template S_Template P_Template M_Align S_Align P_Align M_Graph S_Graph P_Graph M_Unique S_Unique P_Unique M_Adj S_Adj P_Adj S_Transit P_Transit S_Across P_Across
  M_Match S_Match P_Match M_Tags M_MeshAdj S_MeshAdj P_MeshAdj P_MeshAdj2 P_MeshAdj3 M_Build S_Build P_Build P_Box S_Unmap P_Unmap P_Mark P_Coarsen
  M_Modify S_Modify P_Modify P_Modify2 S_Swap3d S_Swap2d S_Coarsen M_Refine S_Refine P_Refine P_SwapTopo M_RefineMesh S_RefineMesh S_Rebuild P_Rebuild P_Rebuild2 P_Rebuild3 P_RefineMesh1 P_RefineMesh2 P_RefineMesh3 P_RefineMesh4 P_RefineMesh5 P_RefineMesh6.
Local Open Scope Z_scope.


Section copies.
Context {A : Type}.
Implicit Types (data : list A) (w : list (option A)).
Fixpoint nf (p : Z) (l : list Z) : list (Z * Z) := match l with [] => [] | x :: l => (x, p) :: nf (p + 1) l end.
Lemma nf_in : forall l p a b, In (a, b) (nf p l) <-> exists j, zget l j = Ok a /\ b = p + j.
Proof.
  induction l as [|x l IH]; intros p a b; cbn [nf In]; [split; [intros []|intros (j & E & _); apply zget_bounds in E; cbn in E; lia]|]. rewrite IH. split.
  - intros [E|(j & E & ->)]; [injection E as -> <-; exists 0; split; [reflexivity|lia]|]. exists (j + 1). split; [|lia]. pose proof (zget_bounds _ _ _ E). change (x :: l) with ([x] ++ l). rewrite zget_app_r by (cbn; lia). change (zlen [x]) with 1. replace (j + 1 - 1) with j by lia. exact E.
  - intros (j & E & ->). pose proof (zget_bounds _ _ _ E) as B. destruct (Z.eq_dec j 0) as [->|]; [left; cbn in E; injection E as ->; f_equal; lia|right]. exists (j - 1). split; [|lia]. change (x :: l) with ([x] ++ l) in E. rewrite zget_app_r in E by (cbn; lia). exact E.
Qed.
Lemma nf_fold ncomps data : forall l w p, foldM (fun s x => w <- copy_block ncomps data x (fst s) (snd s) ;; Ok (w, snd s + 1)) l (w, p) = (w <- scatter ncomps data (nf p l) w ;; Ok (w, p + zlen l)).
Proof.
  induction l as [|x l IH]; intros w p; [cbn; rewrite Z.add_0_r; reflexivity|]. cbn [nf]. unfold scatter in *. cbn [foldM fst snd]. destruct (copy_block ncomps data x w p) as [w'| |]; cbn [bind]; try reflexivity. rewrite IH. destruct (foldM _ (nf (p + 1) l) w') as [w''| |]; cbn [bind]; try reflexivity. do 2 f_equal. unfold zlen. cbn [length]. lia.
Qed.
Definition rep (times : Z) (l : list Z) : list Z := flat_map (fun x => map (fun _ => x) (zrange times)) l.
Lemma inherit_scatter times ncomps e2d data lo hi prod w ds : mapM (zget e2d) (zfromto lo hi) = Ok ds -> inherit_domains times ncomps e2d data lo hi prod w = scatter ncomps data (nf prod (rep times ds)) w.
Proof.
  intros E. unfold inherit_domains.
  assert (forall is ds s, mapM (zget e2d) is = Ok ds -> foldM (fun s edge_dom => dom <- zget e2d edge_dom ;; foldM (fun s _ => w <- copy_block ncomps data dom (fst s) (snd s) ;; Ok (w, snd s + 1)) (zrange times) s) is s =
    foldM (fun s x => w <- copy_block ncomps data x (fst s) (snd s) ;; Ok (w, snd s + 1)) (rep times ds) s) as K.
  { clear. induction is as [|i is IH]; intros ds s E; cbn [mapM] in E; [injection E as <-; reflexivity|]. apply bind_ok in E as (x & Ex & E). apply bind_ok in E as (ds' & Ed & E). injection E as <-. cbn [foldM rep flat_map]. rewrite Ex. cbn [bind]. rewrite foldM_app. rewrite foldM_map. destruct (foldM _ (zrange times) s) as [s'| |]; cbn [bind]; try reflexivity. apply IH, Ed. }
  rewrite (K _ _ _ E), nf_fold. destruct (scatter _ _ _ w) as [w'| |]; reflexivity.
Qed.
Lemma scatter_fun width data (f : Z -> Z) pairs : forall w, 0 <= width ->
  (forall a b, In (a, b) pairs -> 0 <= a /\ (a + 1) * width <= zlen data /\ 0 <= b /\ (b + 1) * width <= zlen w /\ f b = a) ->
  exists w', scatter width data pairs w = Ok w' /\ zlen w' = zlen w /\
  (forall b j, In b (map snd pairs) -> 0 <= j < width -> exists x, zget data (f b * width + j) = Ok x /\ zget w' (b * width + j) = Ok (Some x)) /\
  (forall b j, ~ In b (map snd pairs) -> 0 <= j < width -> zget w' (b * width + j) = zget w (b * width + j)).
Proof.
  induction pairs as [|[a b] pairs IH]; intros w Hw Hr; cbn [map snd] in *.
  - exists w. split; [reflexivity|]. split; [reflexivity|]. split; [intros ? ? []|reflexivity].
  - destruct (Hr a b) as (R1 & R2 & R3 & R4 & R5); [left; reflexivity|]. destruct (copy_block_ok width data a w b) as (d1 & E1 & L1 & G1 & F1); auto.
    destruct (IH d1) as (d & E & L & G & F); auto. { intros a' b' Hin. rewrite L1. apply Hr. right; exact Hin. }
    exists d. unfold scatter in *. cbn [foldM fst snd]. rewrite E1. cbn [bind]. split; [exact E|]. split; [congruence|]. split.
    + intros b' j I Hj. destruct (in_dec Z.eq_dec b' (map snd pairs)) as [I'|NI]; [apply G; assumption|]. destruct I as [<-|I]; [|contradiction]. rewrite F by assumption. rewrite R5. apply G1, Hj.
    + intros b' j Hni Hj. rewrite F by (auto; intros C; apply Hni; right; exact C). apply F1. assert (b <> b') as Hne by (intros ->; apply Hni; left; reflexivity). nia.
Qed.
End copies.

Section data.
Context (T : topology) (HT : valid_topology T) (HS : simplicial T) (old : amesh) (HR : ready T old).
Context (HA : forall a b, 0 <= a <= t_dim T -> 0 <= b <= t_dim T -> a <> b -> P_MeshAdj.val T a b = Ok (kept_adj old a b)).
Context (keys : list Z) (HK : splittable T keys).
Local Notation D := (t_dim T).
Local Notation F := (t_family T).
Local Notation origs := (origs T old keys).
Local Notation orig := (orig T old).
Local Notation k2p := (k2p T old keys).
Local Notation doms := (doms old).
Lemma graph_doms d : 1 <= d <= D -> exists g, edge_graph old d = Ok g /\ forall k, In k keys -> exists lo hi, zget (a2ab g) k = Ok lo /\ zget (a2ab g) (k + 1) = Ok hi /\ mapM (zget (ab2b g)) (zfromto lo hi) = Ok (doms d k) /\ hi - lo = zlen (doms d k).
Proof.
  intros Hd. unfold edge_graph. pose proof (v_dim T HT) as HD. destruct (Z.eqb_spec d 1) as [->|].
  - unfold identity_graph. rewrite (old_nents T old HR 1) by lia. destruct (Z.ltb_spec (t_nents T 1) 0) as [H|H]; [pose proof (v_nents T HT 1 ltac:(lia)); lia|]. eexists. split; [reflexivity|]. intros k I. pose proof (k_edges T keys HK k I) as Hk. exists k, (k + 1). cbn [a2ab ab2b]. rewrite !zget_zrange by lia. split; [reflexivity|]. split; [reflexivity|].
    rewrite zfromto_cons by lia. rewrite zfromto_nil by lia. cbn [mapM]. rewrite zget_zrange by lia. unfold P_RefineMesh4.doms. cbn. split; [reflexivity|lia].
  - eexists. split; [reflexivity|]. intros k I. destruct (edge_ups T HT HS old HA d ltac:(lia)) as (ab & codes & Ea & _ & _ & _ & U). destruct (U k (k_edges T keys HK k I)) as [U1 _]. pose proof (targets_doms T HT HS old HA keys HK d k _ ltac:(lia) I U1) as E. unfold adj_targets, targets in U1. cbn [a2ab ab2b] in U1. apply bind_ok in U1 as (lo & E1 & U1). apply bind_ok in U1 as (hi & E2 & U1).
    exists lo, hi. cbn [to_graph a2ab ab2b]. split; [exact E1|]. split; [exact E2|]. split; [rewrite U1; f_equal; exact E|].
    destruct (key_has T HT HS keys HK k d I ltac:(lia)) as (c & Hc). apply (doms_in T HT HS old HA keys HK d k c ltac:(lia) I) in Hc. rewrite <- E in Hc |- *. assert (zlen (zfromto lo hi) = zlen (map (fun u => u / simplex_degree d 1) (uses_of ab k))) as Lz. { revert U1. clear. revert lo. intros lo U. apply mapM_length in U. unfold zlen. lia. }
    destruct (Z_le_dec lo hi); [rewrite zlen_zfromto in Lz by assumption; exact Lz|]. exfalso. rewrite zfromto_nil in Lz by lia. destruct (map _ _); [destruct Hc|]. unfold zlen in Lz. cbn in Lz. lia.
Qed.
Lemma pairs_sources d k : 1 <= d -> map (fun o => snd (source d o)) (pairs_of old d k) = rep 2 (doms d k).
Proof.
  intros Hd. unfold pairs_of. destruct (Z.eqb_spec d 0); [lia|]. destruct (Z.eqb_spec d 1) as [->|]; [reflexivity|]. induction (doms d k) as [|e l IH]; [reflexivity|]. cbn [flat_map rep app map]. rewrite IH. reflexivity.
Qed.
Lemma cuts_sources d k : d <> D -> map (fun o => snd (source d o)) (cuts_of T old d k) = doms (d + 1) k.
Proof. intros Hd. unfold cuts_of. destruct (Z.eqb_spec d D); [contradiction|]. rewrite map_map. cbn. apply map_id. Qed.
Lemma origs_index d b o : 0 <= d <= D -> zget (origs d) b = Ok o -> exists i k lo j, zget keys i = Ok k /\ zget (k2p d) i = Ok lo /\ zget (k2p d) (i + 1) = Ok (lo + zlen (orig d k)) /\ zget (orig d k) j = Ok o /\ b = lo + j.
Proof.
  intros Hd E. pose proof (zget_In _ _ _ E) as I. unfold P_RefineMesh4.origs in I. apply in_flat_map in I as (k & Ik & Io). apply P_Map.In_zget in Ik as (i & Ei). apply P_Map.In_zget in Io as (j & Ej). destruct (k2p_at T old HA keys d i k Ei) as (lo & E1 & E2 & _ & E3).
  exists i, k, lo, j. split; [exact Ei|]. split; [exact E1|]. split; [exact E2|]. split; [exact Ej|]. apply (NoDup_zget _ _ _ _ (origs_nodup T HT HS old HA keys HK d Hd) E (E3 j o Ej)).
Qed.

Definition half (o : origin) : Prop := match o with Half _ _ _ => True | _ => False end.
Definition cut (o : origin) : Prop := match o with Cut _ _ => True | _ => False end.
Lemma pairs_half d k o : In o (pairs_of old d k) -> half o.
Proof. unfold pairs_of. destruct (d =? 0); [intros []|]. destruct (d =? 1); [intros [<-|[<-|[]]]; exact Logic.I|]. intros I. apply in_flat_map in I as (e & _ & [<-|[<-|[]]]); exact Logic.I. Qed.
Lemma cuts_cut d k o : In o (cuts_of T old d k) -> cut o.
Proof. unfold cuts_of. destruct (d =? D); [intros []|]. intros I. apply in_map_iff in I as (e & <- & _). exact Logic.I. Qed.
Lemma orig_pair d k j o : zget (orig d k) j = Ok o -> half o -> zget (pairs_of old d k) j = Ok o.
Proof.
  intros E H. unfold P_RefineMesh4.orig in E. destruct (Z_lt_dec j (zlen (pairs_of old d k))) as [B|B]; [rewrite zget_app_l in E by exact B; exact E|]. exfalso. rewrite zget_app_r in E by lia. apply zget_In, cuts_cut in E. destruct o; contradiction.
Qed.
Lemma orig_cut d k j o : zget (orig d k) j = Ok o -> cut o -> zget (cuts_of T old d k) (j - zlen (pairs_of old d k)) = Ok o.
Proof.
  intros E H. unfold P_RefineMesh4.orig in E. destruct (Z_lt_dec j (zlen (pairs_of old d k))) as [B|B]; [|rewrite zget_app_r in E by lia; exact E]. exfalso. pose proof (zget_bounds _ _ _ E). rewrite zget_app_l in E by exact B. apply zget_In, pairs_half in E. destruct o; contradiction.
Qed.
Lemma source_range d b o : 0 <= d <= D -> zget (origs d) b = Ok o -> 0 <= fst (source d o) <= D /\ 0 <= snd (source d o) < t_nents T (fst (source d o)).
Proof.
  intros Hd E. apply zget_In in E. apply (origs_in T HT HS old HA keys HK d o Hd) in E as [M N]. assert (forall d e k, 0 <= d <= D -> has_edge T d e k -> 0 <= e < t_nents T d) as K by (intros d' e k Hd' (row & a & b' & R & _); apply (ent_range T HT HS d' e row Hd' R)).
  destruct o as [e|e k s|e k]; cbn [source fst snd]; [destruct N; exact Logic.I| |].
  - destruct M as (_ & _ & H & _). split; [exact Hd|]. exact (K d e k Hd H).
  - destruct M as (Hlt & _ & H). split; [clear - Hlt Hd; lia|]. apply (K (d + 1) e k); [clear - Hlt Hd; lia|exact H].
Qed.

Section values.
Context {A : Type} (ncomps : Z) (Hc : 0 <= ncomps) (data : Z -> list A) (Hdata : forall d, 0 <= d <= D -> zlen (data d) = t_nents T d * ncomps).
Definition src (d b : Z) : Z := match zget (origs d) b with Ok o => snd (source d o) | _ => 0 end.
Definition put (d : Z) (sel : origin -> Prop) (w w' : list (option A)) : Prop := zlen w' = zlen w /\
  (forall b o j, zget (origs d) b = Ok o -> sel o -> 0 <= j < ncomps -> exists x, zget (data (fst (source d o))) (snd (source d o) * ncomps + j) = Ok x /\ zget w' (b * ncomps + j) = Ok (Some x)) /\
  (forall b o j, zget (origs d) b = Ok o -> ~ sel o -> 0 <= j < ncomps -> zget w' (b * ncomps + j) = zget w (b * ncomps + j)).
Lemma put_scatter d d' (sel : origin -> Prop) pairs w : 0 <= d <= D -> zlen w = zlen (origs d) * ncomps -> (forall o, sel o -> fst (source d o) = d') ->
  (forall a b, In (a, b) pairs -> exists o, zget (origs d) b = Ok o /\ sel o /\ snd (source d o) = a) -> (forall b o, zget (origs d) b = Ok o -> sel o -> In (snd (source d o), b) pairs) ->
  exists w', scatter ncomps (data d') pairs w = Ok w' /\ put d sel w w'.
Proof.
  intros Hd Lw Hs H1 H2. destruct (scatter_fun ncomps (data d') (src d) pairs w Hc) as (w' & E & L & G & K).
  { intros a b I. destruct (H1 a b I) as (o & Eo & So & Ea). destruct (source_range d b o Hd Eo) as [R1 R2]. rewrite (Hs o So) in R1, R2. pose proof (zget_bounds _ _ _ Eo) as B. rewrite (Hdata d' R1), Lw. rewrite Ea in R2. unfold src. rewrite Eo. clear - R2 B Hc Ea. repeat split; try lia; nia. }
  exists w'. split; [exact E|]. split; [exact L|]. split.
  - intros b o j Eo So Hj. rewrite (Hs o So). assert (src d b = snd (source d o)) as Es by (unfold src; rewrite Eo; reflexivity). rewrite <- Es. apply G; [|exact Hj]. apply in_map_iff. exists (snd (source d o), b). split; [reflexivity|apply H2; assumption].
  - intros b o j Eo So Hj. apply K; [|exact Hj]. intros I. apply in_map_iff in I as ([a b'] & Eb & I). cbn in Eb. subst b'. destruct (H1 a b I) as (o' & Eo' & So' & _). assert (o' = o) as -> by congruence. contradiction.
Qed.
Definition pair_list (d i : Z) : list (Z * Z) := match zget keys i, zget (k2p d) i with Ok k, Ok lo => nf lo (rep 2 (doms d k)) | _, _ => [] end.
Definition cut_list (d i : Z) : list (Z * Z) := match zget keys i, zget (k2p d) i with Ok k, Ok lo => nf (lo + zlen (pairs_of old d k)) (rep 1 (doms (d + 1) k)) | _, _ => [] end.
Lemma pairs_put d w : 1 <= d <= D -> zlen w = zlen (origs d) * ncomps -> exists g w', edge_graph old d = Ok g /\ inherit_pairs g ncomps (data d) keys (k2p d) w = Ok w' /\ put d half w w'.
Proof.
  intros Hd Lw. destruct (graph_doms d Hd) as (g & Eg & HG). exists g. destruct (put_scatter d d half (flat_map (pair_list d) (zrange (zlen keys))) w) as (w' & E & P); [lia|exact Lw|intros [| |] []; reflexivity| | |].
  - intros a b I. apply in_flat_map in I as (i & _ & I). unfold pair_list in I. destruct (zget keys i) as [k| |] eqn:Ek; [|destruct I|destruct I]. destruct (k2p_at T old HA keys d i k Ek) as (lo & E1 & _ & _ & E3). rewrite E1 in I. apply nf_in in I as (j & Ej & ->). rewrite <- (pairs_sources d k) in Ej by lia. rewrite zget_map in Ej. destruct (zget (pairs_of old d k) j) as [o| |] eqn:Eo; [|discriminate|discriminate]. cbn in Ej. injection Ej as <-.
    exists o. split; [apply E3; unfold P_RefineMesh4.orig; rewrite zget_app_l by (eapply zget_bounds, Eo); exact Eo|]. split; [eapply pairs_half, zget_In, Eo|reflexivity].
  - intros b o Eo So. destruct (origs_index d b o ltac:(lia) Eo) as (i & k & lo & j & Ek & E1 & _ & Ej & ->). apply in_flat_map. exists i. split; [apply in_zrange; eapply zget_bounds, Ek|]. unfold pair_list. rewrite Ek, E1. apply nf_in. exists j. split; [|reflexivity]. rewrite <- (pairs_sources d k) by lia. rewrite zget_map, (orig_pair d k j o Ej So). reflexivity.
  - exists w'. split; [exact Eg|]. split; [|exact P]. rewrite <- E. unfold inherit_pairs, forM, scatter. rewrite foldM_flat_map. apply foldM_ext. intros i s Hi. apply in_zrange in Hi. destruct (zget_in_range keys i Hi) as (k & Ek). destruct (k2p_at T old HA keys d i k Ek) as (lo & E1 & _). unfold pair_list. rewrite Ek, E1. cbn [bind]. destruct (HG k (zget_In _ _ _ Ek)) as (l & h & G1 & G2 & G3 & _). rewrite G1, G2. cbn [bind]. apply inherit_scatter, G3.
Qed.
Lemma rep_1 l : rep 1 l = l.
Proof. induction l as [|x l IH]; [reflexivity|]. cbn [rep flat_map]. change (map (fun _ => x) (zrange 1)) with [x]. cbn [app]. f_equal. exact IH. Qed.
Lemma cuts_put d w : 0 <= d < D -> zlen w = zlen (origs d) * ncomps -> exists g w', edge_graph old (d + 1) = Ok g /\ inherit_cuts g ncomps (data (d + 1)) keys (k2p d) w = Ok w' /\ put d cut w w'.
Proof.
  intros Hd Lw. destruct (graph_doms (d + 1) ltac:(lia)) as (g & Eg & HG). exists g. destruct (put_scatter d (d + 1) cut (flat_map (cut_list d) (zrange (zlen keys))) w) as (w' & E & P); [lia|exact Lw|intros [| |] []; reflexivity| | |].
  - intros a b I. apply in_flat_map in I as (i & _ & I). unfold cut_list in I. destruct (zget keys i) as [k| |] eqn:Ek; [|destruct I|destruct I]. destruct (k2p_at T old HA keys d i k Ek) as (lo & E1 & _ & _ & E3). rewrite E1 in I. apply nf_in in I as (j & Ej & ->). rewrite rep_1 in Ej. rewrite <- (cuts_sources d k) in Ej by lia. rewrite zget_map in Ej. destruct (zget (cuts_of T old d k) j) as [o| |] eqn:Eo; [|discriminate|discriminate]. cbn in Ej. injection Ej as <-.
    exists o. pose proof (zget_bounds _ _ _ Eo). split; [rewrite <- Z.add_assoc; apply E3; unfold P_RefineMesh4.orig; rewrite zget_app_r by lia; replace (zlen (pairs_of old d k) + j - zlen (pairs_of old d k)) with j by lia; exact Eo|]. split; [eapply cuts_cut, zget_In, Eo|reflexivity].
  - intros b o Eo So. destruct (origs_index d b o ltac:(lia) Eo) as (i & k & lo & j & Ek & E1 & _ & Ej & ->). apply in_flat_map. exists i. split; [apply in_zrange; eapply zget_bounds, Ek|]. unfold cut_list. rewrite Ek, E1. apply nf_in. exists (j - zlen (pairs_of old d k)). split; [|lia]. rewrite rep_1, <- (cuts_sources d k) by lia. rewrite zget_map, (orig_cut d k j o Ej So). reflexivity.
  - exists w'. split; [exact Eg|]. split; [|exact P]. rewrite <- E. unfold inherit_cuts, forM, scatter. rewrite foldM_flat_map. apply foldM_ext. intros i s Hi. apply in_zrange in Hi. destruct (zget_in_range keys i Hi) as (k & Ek). destruct (k2p_at T old HA keys d i k Ek) as (lo & E1 & E2 & _). unfold cut_list. rewrite Ek, E1. cbn [bind]. destruct (HG k (zget_In _ _ _ Ek)) as (l & h & G1 & G2 & G3 & G4). rewrite G1, G2. cbn [bind]. rewrite E2. cbn [bind].
    rewrite <- (cuts_sources d k) in G4 by lia. rewrite zlen_map in G4. replace (lo + zlen (orig d k) - (h - l)) with (lo + zlen (pairs_of old d k)) by (unfold P_RefineMesh4.orig; rewrite zlen_app; lia). apply inherit_scatter, G3.
Qed.
Lemma prod_values d : 0 <= d <= D -> exists w l, (w <- blank (zlen (origs d) * ncomps) ;; w <- (if 0 <? d then g <- edge_graph old d ;; inherit_pairs g ncomps (data d) keys (k2p d) w else Ok w) ;; (if d <? D then g <- edge_graph old (d + 1) ;; inherit_cuts g ncomps (data (d + 1)) keys (k2p d) w else Ok w)) = Ok w /\ freeze w = Ok l /\
  zlen l = zlen (origs d) * ncomps /\ forall b o j, zget (origs d) b = Ok o -> 0 <= j < ncomps -> zget l (b * ncomps + j) = zget (data (fst (source d o))) (snd (source d o) * ncomps + j).
Proof.
  intros Hd. pose proof (zlen_nonneg (origs d)) as N. rewrite blank_ok by (clear - N Hc; nia). cbn [bind]. set (w0 := repeat _ _). assert (zlen w0 = zlen (origs d) * ncomps) as L0 by (unfold w0; rewrite zlen_repeat; clear - N Hc; nia). clearbody w0.
  assert (exists w1, (if 0 <? d then g <- edge_graph old d ;; inherit_pairs g ncomps (data d) keys (k2p d) w0 else Ok w0) = Ok w1 /\ zlen w1 = zlen w0 /\ forall b o j, zget (origs d) b = Ok o -> half o -> 0 <= j < ncomps -> exists x, zget (data (fst (source d o))) (snd (source d o) * ncomps + j) = Ok x /\ zget w1 (b * ncomps + j) = Ok (Some x)) as (w1 & E1 & L1 & G1).
  { destruct (Z.ltb_spec 0 d).
    - destruct (pairs_put d w0 ltac:(lia) L0) as (g & w1 & Eg & E & L1 & G1 & _). rewrite Eg. cbn [bind]. eauto.
    - exists w0. split; [reflexivity|]. split; [reflexivity|]. intros b o j Eo Ho. exfalso. apply zget_In in Eo. apply (origs_in T HT HS old HA keys HK d o Hd) in Eo as [M _]. destruct o; try contradiction. destruct M as [M _]. lia. }
  rewrite E1. cbn [bind].
  assert (exists w2, (if d <? D then g <- edge_graph old (d + 1) ;; inherit_cuts g ncomps (data (d + 1)) keys (k2p d) w1 else Ok w1) = Ok w2 /\ zlen w2 = zlen w0 /\ forall b o j, zget (origs d) b = Ok o -> 0 <= j < ncomps -> exists x, zget (data (fst (source d o))) (snd (source d o) * ncomps + j) = Ok x /\ zget w2 (b * ncomps + j) = Ok (Some x)) as (w2 & E2 & L2 & G2).
  { assert (forall b o, zget (origs d) b = Ok o -> half o \/ (cut o /\ d < D)) as HC. { intros b o Eo. apply zget_In in Eo. apply (origs_in T HT HS old HA keys HK d o Hd) in Eo as [M Nk]. destruct o as [e|e k s|e k]; [destruct Nk; exact Logic.I|left; exact Logic.I|right]. split; [exact Logic.I|apply (proj1 M)]. }
    destruct (Z.ltb_spec d D).
    - destruct (cuts_put d w1 ltac:(lia) ltac:(congruence)) as (g & w2 & Eg & E & L2 & G2 & K2). rewrite Eg. cbn [bind]. exists w2. split; [exact E|]. split; [congruence|]. intros b o j Eo Hj. destruct (HC b o Eo) as [Ho|[Ho _]]; [|apply G2; assumption]. rewrite (K2 b o j Eo) by (try assumption; destruct o; cbn in *; tauto). apply G1; assumption.
    - exists w1. split; [reflexivity|]. split; [congruence|]. intros b o j Eo Hj. destruct (HC b o Eo) as [Ho|[_ Ho]]; [apply G1; assumption|lia]. }
  exists w2. destruct (freeze_blocks ncomps (zlen (origs d)) w2 N Hc ltac:(congruence)) as (l & El & Ll & Gl).
  { intros b j Hb Hj. destruct (zget_in_range (origs d) b Hb) as (o & Eo). destruct (G2 b o j Eo Hj) as (x & _ & Ex). eauto. }
  exists l. split; [exact E2|]. split; [exact El|]. split; [exact Ll|]. intros b o j Eo Hj. destruct (G2 b o j Eo Hj) as (x & Ex & Ex'). rewrite Ex. apply Gl, Ex'.
Qed.
End values.
End data.
