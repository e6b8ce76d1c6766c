(** Collapsing edges: the operation. *)
From Coq Require Import String Permutation Sorted.
From Verif Require Import Prelude M_Array P_Array M_Par M_Scan P_Fan S_Sort M_Sort M_Map S_Map P_Map P_Map2 M_Template S_Template P_Template M_Align S_Align P_Align M_Graph S_Graph P_Graph M_Unique S_Unique P_Unique M_Adj S_Adj P_Adj S_Transit P_Transit S_Across P_Across
  M_Match S_Match P_Match M_Tags M_MeshAdj S_MeshAdj P_MeshAdj P_MeshAdj2 P_MeshAdj3 M_Build S_Build P_Build P_Box S_Unmap P_Unmap P_Mark M_Swap3d M_Coarsen S_Coarsen P_Dead P_Coarsen
  M_Modify S_Modify P_Modify P_Modify2 S_Swap3d M_RefineMesh S_RefineMesh S_Rebuild P_Rebuild P_Rebuild2 P_Rebuild3 P_RefineMesh1 P_RefineMesh2 P_RefineMesh4 P_RefineMesh5 P_RefineMesh6 P_RefineMesh8 P_Flip4 S_Patch P_Patch M_Collapse S_Collapse P_Collapse1 P_Collapse2 P_Collapse3 P_Collapse4 P_Collapse5.
Local Open Scope Z_scope.

Lemma choice3 {A} (P : Z -> A -> Prop) n : 1 <= n <= 3 -> (forall d, 1 <= d <= n -> exists a, P d a) -> exists f, forall d, 1 <= d <= n -> P d (f d).
Proof.
  intros Hn H. destruct (H 1 ltac:(lia)) as (a1 & P1). destruct (Z_le_dec 2 n) as [H2|H2]; [destruct (H 2 ltac:(lia)) as (a2 & P2); destruct (Z_le_dec 3 n) as [H3|H3]; [destruct (H 3 ltac:(lia)) as (a3 & P3)|]|].
  - exists (fun d => if d =? 1 then a1 else if d =? 2 then a2 else a3). intros d Hd. assert (d = 1 \/ d = 2 \/ d = 3) as [->|[->| ->]] by lia; assumption.
  - exists (fun d => if d =? 1 then a1 else a2). intros d Hd. assert (d = 1 \/ d = 2) as [->| ->] by lia; assumption.
  - exists (fun _ => a1). intros d Hd. assert (d = 1) as -> by lia. assumption.
Qed.
Lemma collapse_dims c old keys ontos dead r0 r doms PV : forall dims low new, (forall d, In d dims -> exists m, zget dead d = Ok m /\ find_coarsen_domains (kept_adj old 0 d) keys m = Ok (doms d) /\
    coarsen_topology (adj_ab2b (kept_adj old d 0)) ontos d (doms d) (old2new r0) = Ok (PV d) /\ modify_ents_adapt (view old) d 0 keys (adj_a2ab (doms d)) = Ok (r d)) ->
  (forall i d, zget dims i = Ok d -> d = low + 1 + i) ->
  coarsen_dims c old keys ontos dead r0 new (old2new (r low)) dims = bindo (rebuild_dims c old new r PV dims) (fun m => Ok (Some (m, map (fun d => (r d, doms d)) dims))).
Proof.
  induction dims as [|d dims IH]; intros low new H S; [reflexivity|]. pose proof (S 0 d eq_refl) as Ed. rewrite Z.add_0_r in Ed. cbn [coarsen_dims rebuild_dims map]. destruct (H d (or_introl eq_refl)) as (m & E1 & E2 & E3 & E4). rewrite E1. cbn [bind]. rewrite E2. cbn [bind]. rewrite E3. cbn [bind]. rewrite E4. cbn [bind]. replace (d - 1) with low by lia.
  destruct (modify_conn c (kept_adj old d low) new d (PV d) (r d) (old2new (r low))) as [[m'|]| |]; try reflexivity. unfold bindo at 1. cbn [bind]. rewrite (IH d m').
  - unfold bindo. cbn [bind]. destruct (rebuild_dims c old m' r PV dims) as [[m1|]| |]; reflexivity.
  - intros d' I. apply H. right. exact I.
  - intros i d' E. assert (zget (d :: dims) (i + 1) = Ok d') as E'. { pose proof (zget_bounds _ _ _ E). change (d :: dims) with ([d] ++ dims). rewrite zget_app_r by (unfold zlen; cbn; lia). change (zlen [d]) with 1. replace (i + 1 - 1) with i by lia. exact E. } apply S in E'. lia.
Qed.
Lemma dims_at n i d : 1 <= n -> zget (zfromto 1 (n + 1)) i = Ok d -> d = 0 + 1 + i.
Proof.
  intros Hn E. pose proof (zget_bounds _ _ _ E) as B. rewrite zlen_zfromto in B by lia. unfold zfromto in E. rewrite zget_map in E. replace (n + 1 - 1) with n in * by lia. rewrite (zget_zrange n i) in E by lia. cbn [bind] in E. assert (1 + i = d) as <- by congruence. lia.
Qed.
Lemma zeros_fan n : 0 <= n -> filled (n + 1) 0 = Ok (steps_of n 0).
Proof. intros Hn. rewrite filled_ok by lia. f_equal. apply list_eq_zget; [rewrite zlen_repeat; destruct (steps_facts n 0 Hn ltac:(lia)) as (_ & -> & _); lia|]. intros i Hi. rewrite zlen_repeat in Hi. rewrite steps_get by lia. rewrite Z.mul_0_r. apply zget_ok. split; [lia|]. apply nth_error_repeat. lia. Qed.
Lemma transfer_ok {A} n ncomps (data : list A) r origs pl : renumbers n r -> 0 <= nnew r -> 0 <= ncomps -> zlen data = n * ncomps -> (forall x, In x (same2old r) -> 0 <= x < n) -> zlen (prods2new r) = zlen origs -> zlen pl = zlen origs * ncomps ->
  (forall p e j, zget origs p = Ok e -> 0 <= j < ncomps -> zget pl (p * ncomps + j) = zget data (e * ncomps + j)) -> forall from d, (forall e', 0 <= e' < nnew r -> (exists i e, zget (same2old r) i = Ok e /\ zget (same2new r) i = Ok e' /\ from e' = e) \/ (exists p e, zget origs p = Ok e /\ zget (prods2new r) p = Ok e' /\ from e' = e)) ->
  exists l, transfer_common ncomps data r (prods2new r) pl = Ok l /\ takes_from (nnew r) ncomps (fun _ : Z => data) (fun e' => (d, from e')) l.
Proof.
  intros RN NN Hc Hdata B Np Lp Gp from d CC. destruct (unmap_spec (same2old r) data ncomps Hc) as (sl & Es & Ls & Gs). { intros b Hb. apply B in Hb. rewrite Hdata. split; [lia|nia]. }
  destruct (join_spec ncomps n r true pl sl RN NN Hc ltac:(rewrite Np; exact Lp) Ls) as (l & Ej & Ll & J1 & J2). unfold join in Ej. rewrite (total_eq _ _ RN NN) in Ej. exists l. split.
  - unfold transfer_common. apply bind_ok in Ej as (v0 & F0 & Ej). rewrite F0. cbn [bind]. apply bind_ok in Ej as (v2 & F2 & Ej). apply bind_ok in F2 as (v1 & F1 & F2). rewrite F1. cbn [bind]. rewrite Es. cbn [bind]. rewrite F2. cbn [bind]. exact Ej.
  - split; [exact Ll|]. intros e' j He Hj. cbn [fst snd]. destruct (CC e' He) as [(i & e & E2 & E3 & ->)|(p & e & E2 & E3 & ->)].
    + destruct (J1 i e' j E3 Hj) as (x & X1 & X2). rewrite X2, <- X1. apply Gs; assumption.
    + destruct (J2 p e' j E3 Hj) as (x & X1 & X2). rewrite X2, <- X1. apply Gp; assumption.
Qed.

Section final.
Context (T : topology) (HT : valid_topology T) (HS : simplicial T) (m : amesh) (HM : mesh_of T m) (globals keys rails : list Z) (HC : collapsible T globals keys rails).
Local Notation D := (t_dim T).
Local Notation makes := (collapse_makes T globals keys rails).
Local Notation verts := (collapse_verts T globals keys rails).
Lemma collapse_reduces c fin (Hfin : fin = true -> finishes T c) : good fin (ask_each c m (dim_pairs D)) /\
  (forall o, ask_each c m (dim_pairs D) = Ok (Some o) -> exists r doms PV, fits T r PV /\ (forall d, 0 <= d <= D -> 0 <= nnew (r d)) /\ ready T o /\
    (forall c', coarsen_element_based c c' m globals keys rails = bindo (rebuild c' o r PV) (fun n => Ok (Some (o, n, (r 0, map (fun d => (r d, doms d)) (zfromto 1 (D + 1))))))) /\
    exists from, (forall T', rebuilt T r PV T' -> simplicial T' /\ assembled T makes (verts (from 0)) from T' /\ covered T globals keys rails (from 0) T') /\
    forall A ncomps (data : list A) d, 0 <= d <= D -> 0 <= ncomps -> zlen data = t_nents T d * ncomps ->
      exists l, (if d =? 0 then no_products ncomps data (r 0) else inherit_coarsen ncomps data (doms d) (r d)) = Ok l /\ takes_from (nnew (r d)) ncomps (fun _ => data) (fun e' => (d, from d e')) l).
Proof.
  pose proof (v_dim T HT) as HD. pose proof (mesh_ready T m HT HM) as RM. destruct (asked_first T HT fin c Hfin m RM) as [Gd Q]. split; [exact Gd|]. intros old E. destruct (Q old E) as [HR HA].
  destruct (marks_found T HT HS old HR HA globals keys rails HC) as (dead & ED & HDd). pose proof (zlen_nonneg keys) as Hn. destruct (steps_facts (zlen keys) 0 Hn ltac:(lia)) as (F0 & L0 & E0). rewrite Z.mul_0_r in E0.
  destruct (numbers_found T HT HS old HR HA globals keys rails HC 0 (steps_of (zlen keys) 0) 0 ltac:(lia) F0 L0 E0) as (r0 & M0 & RN0 & P0 & N0 & NN0 & K0).
  set (on := onto T old globals rails) in *.
  destruct (choice3 (fun d (x : adj * list (list Z) * numbering) => let '(dm, L, r) := x in exists mk, zget dead d = Ok mk /\ find_coarsen_domains (kept_adj old 0 d) keys mk = Ok dm /\ coarsen_topology (adj_ab2b (kept_adj old d 0)) (map on keys) d dm (old2new r0) = Ok (concat L) /\
      modify_ents_adapt (view old) d 0 keys (adj_a2ab dm) = Ok r /\ NoDup (adj_ab2b dm) /\
      (forall e, In e (adj_ab2b dm) <-> exists row, ent_verts T d e row /\ ~ falls T globals keys rails d row /\ exists v, In v keys /\ In v row) /\
      Forall2 (fun e prow => exists row, ent_verts T d e row /\ prow = map (fun v => look (old2new r0) (img keys on v)) row) (adj_ab2b dm) L /\
      renumbers (t_nents T d) r /\ zlen (prods2new r) = zlen (adj_ab2b dm) /\ NoDup (same2old r) /\ 0 <= nnew r /\ forall x, In x (same2old r) <-> exists row, ent_verts T d x row /\ keyless keys row) D HD) as (f & Hf).
  { intros d Hd. destruct (HDd d Hd) as (mk & A1 & A2 & A3 & A4). destruct (products_found T HT HS old HA globals keys rails HC d mk (old2new r0) Hd A2 A3 A4) as (dm & L & B1 & B2 & B3 & B4 & B5 & B6 & B7 & B8).
    { destruct RN0. assumption. }
    destruct (numbers_found T HT HS old HR HA globals keys rails HC d (adj_a2ab dm) _ ltac:(lia) B2 B3 B4) as (r & C1 & C2 & C3 & C4 & C5 & C6). exists (dm, L, r). exists mk. auto 20. }
  assert (forall d e row, 1 <= d <= D -> ent_verts T d e row -> falls T globals keys rails d row \/ ~ falls T globals keys rails d row) as FD.
  { intros d e row Hd R. destruct (HDd d Hd) as (mk & A1 & A2 & A3 & A4). pose proof (ent_range T HT HS d e row ltac:(lia) R) as He. destruct (zget_in_range mk e ltac:(lia)) as (b & Eb). destruct (A3 b (zget_In _ _ _ Eb)) as [->| ->]; [right|left; apply (A4 e row R), Eb]. intros Fa. apply (A4 e row R) in Fa. congruence. }
  set (doms := fun d => fst (fst (f d))). set (L := fun d => snd (fst (f d))). set (r := fun d => if d =? 0 then r0 else snd (f d)). set (origs := fun d => if d =? 0 then [] else adj_ab2b (doms d)).
  assert (forall d, 1 <= d <= D -> exists mk, zget dead d = Ok mk /\ find_coarsen_domains (kept_adj old 0 d) keys mk = Ok (doms d) /\ coarsen_topology (adj_ab2b (kept_adj old d 0)) (map on keys) d (doms d) (old2new r0) = Ok (concat (L d)) /\
      modify_ents_adapt (view old) d 0 keys (adj_a2ab (doms d)) = Ok (r d) /\ NoDup (origs d) /\
      (forall e, In e (origs d) <-> exists row, ent_verts T d e row /\ ~ falls T globals keys rails d row /\ exists v, In v keys /\ In v row) /\
      Forall2 (fun e prow => exists row, ent_verts T d e row /\ prow = map (fun v => look (old2new r0) (img keys on v)) row) (origs d) (L d) /\
      renumbers (t_nents T d) (r d) /\ zlen (prods2new (r d)) = zlen (origs d) /\ NoDup (same2old (r d)) /\ 0 <= nnew (r d) /\ forall x, In x (same2old (r d)) <-> exists row, ent_verts T d x row /\ keyless keys row) as HH.
  { intros d Hd. specialize (Hf d Hd). unfold doms, L, r, origs. destruct (Z.eqb_spec d 0) as [->|_]; [lia|]. unfold doms. destruct (f d) as [[dm LL] rr]. cbn [fst snd]. exact Hf. }
  assert (r 0 = r0) as Er0 by reflexivity. assert (origs 0 = []) as O0 by reflexivity. assert (forall d, 1 <= d <= D -> origs d = adj_ab2b (doms d)) as OD by (intros d Hd; unfold origs; destruct (Z.eqb_spec d 0); [lia|reflexivity]). clearbody r origs doms L. clear Hf f. subst r0.
  assert (forall d, 0 <= d <= D -> renumbers (t_nents T d) (r d)) as RN by (intros d Hd; destruct (Z.eq_dec d 0) as [->|]; [exact RN0|]; destruct (HH d ltac:(lia)) as (mk & H); tauto).
  assert (forall d x, 0 <= d <= D -> In x (same2old (r d)) <-> exists row, ent_verts T d x row /\ keyless keys row) as KO by (intros d x Hd; destruct (Z.eq_dec d 0) as [->|]; [apply K0|]; destruct (HH d ltac:(lia)) as (mk & _ & _ & _ & _ & _ & _ & _ & _ & _ & _ & _ & H); apply H).
  assert (forall d, 0 <= d <= D -> NoDup (same2old (r d))) as KN by (intros d Hd; destruct (Z.eq_dec d 0) as [->|]; [exact N0|]; destruct (HH d ltac:(lia)) as (mk & H); tauto).
  assert (forall d, 0 <= d <= D -> zlen (prods2new (r d)) = zlen (origs d)) as PO by (intros d Hd; destruct (Z.eq_dec d 0) as [->|]; [rewrite O0; exact P0|]; destruct (HH d ltac:(lia)) as (mk & H); tauto).
  assert (forall d, 0 <= d <= D -> 0 <= nnew (r d)) as NN by (intros d Hd; destruct (Z.eq_dec d 0) as [->|]; [exact NN0|]; destruct (HH d ltac:(lia)) as (mk & H); tauto).
  assert (forall d e, 1 <= d <= D -> In e (origs d) <-> exists row, ent_verts T d e row /\ ~ falls T globals keys rails d row /\ exists v, In v keys /\ In v row) as OI by (intros d e Hd; destruct (HH d Hd) as (mk & _ & _ & _ & _ & _ & H & _); apply H).
  assert (forall d, 1 <= d <= D -> NoDup (origs d)) as ON by (intros d Hd; destruct (HH d ltac:(lia)) as (mk & H); tauto).
  assert (forall v, In v keys -> goes T globals keys rails v (on v)) as Hon by (intros v; apply (on_ok T HT HS old HA globals keys rails HC)).
  assert (forall d, 1 <= d <= D -> Forall2 (fun e prow => exists row, ent_verts T d e row /\ prow = map (to_new keys on r) row) (origs d) (L d)) as FO by (intros d Hd; destruct (HH d Hd) as (mk & _ & _ & _ & _ & _ & _ & H & _); exact H).
  exists r, doms, (PVL L). split; [eapply collapse_fits; eassumption|]. split; [exact NN|]. split; [exact HR|]. split.
  - intros c'. unfold coarsen_element_based. rewrite (i_dim T m (proj1 RM)), (i_family T m (proj1 RM)). rewrite E. unfold bindo at 1. cbn [bind]. rewrite (rails_found T HT HS old HA globals keys rails HC). cbn [bind fst snd]. rewrite ED. cbn [bind]. rewrite (ontos_found T HT HS old HA globals keys rails HC). cbn [bind]. fold on. rewrite (zeros_fan (zlen keys) Hn). cbn [bind]. rewrite M0. cbn [bind].
    unfold rebuild. rewrite (old_family T old HR), (old_dim T old HR). destruct (new_mesh (t_family T) D (nnew (r 0))) as [new| |]; try reflexivity. cbn [bind].
    rewrite (collapse_dims c' old keys (map on keys) dead (r 0) r doms (PVL L) (zfromto 1 (D + 1)) 0 new).
    + destruct (rebuild_dims c' old new r (PVL L) (zfromto 1 (D + 1))) as [[n|]| |]; reflexivity.
    + intros d I. apply in_zfromto in I. destruct (HH d ltac:(lia)) as (mk & H1 & H2 & H3 & H4 & _). exists mk. split; [exact H1|]. split; [exact H2|]. split; [exact H3|exact H4].
    + intros i d Ei. exact (dims_at _ _ _ (proj1 HD) Ei).
  - exists (came r origs). split.
    + intros T' RB. split; [eapply collapse_simplicial; eassumption|]. split; [eapply collapse_assembled; eassumption|eapply collapse_covered; eassumption].
    + intros A ncomps data d Hd Hc Hdata.
      assert (forall e', 0 <= e' < nnew (r d) -> (exists i e, zget (same2old (r d)) i = Ok e /\ zget (same2new (r d)) i = Ok e' /\ came r origs d e' = e) \/ (exists p e, zget (origs d) p = Ok e /\ zget (prods2new (r d)) p = Ok e' /\ came r origs d e' = e)) as CC by (intros e' He; eapply came_cases; eassumption).
      assert (forall x, In x (same2old (r d)) -> 0 <= x < t_nents T d) as B by (intros x Ix; apply KO in Ix as (row & R & _); [|exact Hd]; apply (ent_range T HT HS d x row Hd R)).
      destruct (Z.eqb_spec d 0) as [->|Nd].
      * unfold no_products. pose proof (PO 0 ltac:(lia)) as Pz. rewrite O0 in *. assert (prods2new (r 0) = []) as Ep by (destruct (prods2new (r 0)); [reflexivity|unfold zlen in Pz; cbn in Pz; lia]).
        destruct (transfer_ok (t_nents T 0) ncomps data (r 0) [] [] (RN 0 Hd) (NN 0 Hd) Hc Hdata B Pz ltac:(reflexivity) ltac:(intros p e j Ee; pose proof (zget_bounds _ _ _ Ee) as Be; unfold zlen in Be; cbn in Be; lia) (came r origs 0) 0 CC) as (l & El & Tl). rewrite Ep in El. eauto.
      * unfold inherit_coarsen. rewrite <- (OD d) by lia. destruct (unmap_spec (origs d) data ncomps Hc) as (pl & Ep & Lp & Gp). { intros b Hb. apply OI in Hb as (row & R & _); [|lia]. pose proof (ent_range T HT HS d b row Hd R). rewrite Hdata. split; [lia|nia]. }
        rewrite Ep. cbn [bind]. exact (transfer_ok (t_nents T d) ncomps data (r d) (origs d) pl (RN d Hd) (NN d Hd) Hc Hdata B (PO d Hd) Lp Gp (came r origs d) d CC).
Qed.
Lemma collapses_total c c' : exists o, coarsen_element_based c c' m globals keys rails = Ok o.
Proof.
  destruct (collapse_reduces c false ltac:(discriminate)) as [(o & E & _) Q]. destruct o as [old|].
  - destruct (Q old E) as (r & doms & PV & HF & HN & HR & ER & _). destruct (rebuild_all T HT r PV HF HN c' old HR) as (n & En & _). rewrite ER, En. unfold bindo. cbn [bind]. destruct n; eauto.
  - exists None. unfold coarsen_element_based. rewrite (i_dim T m (proj1 (mesh_ready T m HT HM))), E. reflexivity.
Qed.
Lemma collapses_keep c c' old n info : coarsen_element_based c c' m globals keys rails = Ok (Some (old, n, info)) -> mesh_of T old.
Proof.
  intros E. destruct (collapse_reduces c false ltac:(discriminate)) as [(o & Eo & _) Q]. destruct o as [old'|].
  - destruct (Q old' Eo) as (r & doms & PV & HF & HN & HR & ER & _). specialize (ER c'). rewrite E in ER. symmetry in ER. apply bindo_some in ER as (n' & En & ER). injection ER as <- <- <-. eapply mesh_each; eassumption.
  - exfalso. unfold coarsen_element_based in E. rewrite (i_dim T m (proj1 (mesh_ready T m HT HM))), Eo in E. discriminate.
Qed.
Lemma collapses_right c c' old n r0 per : coarsen_element_based c c' m globals keys rails = Ok (Some (old, n, (r0, per))) -> exists T' from,
  valid_topology T' /\ mesh_of T' n /\ simplicial T' /\ assembled T makes (verts (from 0)) from T' /\ covered T globals keys rails (from 0) T' /\ zlen per = D /\
  (forall A ncomps (data : list A), 0 <= ncomps -> zlen data = t_nents T 0 * ncomps -> exists l, no_products ncomps data r0 = Ok l /\ takes_from (t_nents T' 0) ncomps (fun _ => data) (fun e' => (0, from 0 e')) l) /\
  forall d r doms, zget per (d - 1) = Ok (r, doms) ->
  forall A ncomps (data : list A), 0 <= ncomps -> zlen data = t_nents T d * ncomps -> exists l, inherit_coarsen ncomps data doms r = Ok l /\ takes_from (t_nents T' d) ncomps (fun _ => data) (fun e' => (d, from d e')) l.
Proof.
  pose proof (v_dim T HT) as HD. intros E. destruct (collapse_reduces c false ltac:(discriminate)) as [(o & Eo & _) Q]. destruct o as [old'|].
  - destruct (Q old' Eo) as (r & doms & PV & HF & HN & HR & ER & from & H1 & H2). specialize (ER c'). rewrite E in ER. symmetry in ER. apply bindo_some in ER as (n' & En & ER). injection ER as <- <- <- <-. destruct (rebuild_all T HT r PV HF HN c' old' HR) as (x & Ex & HX & _). assert (x = Some n') as -> by congruence. destruct (HX n' eq_refl) as (T' & V & RB & M).
    exists T', from. split; [exact V|]. split; [exact M|]. destruct (H1 T' RB) as (S & R & C). split; [exact S|]. split; [exact R|]. split; [exact C|]. destruct RB as (_ & _ & N & _). split; [rewrite zlen_map, zlen_zfromto by lia; lia|]. split.
    + intros A ncomps data Hc Hdata. rewrite (N 0) by lia. exact (H2 A ncomps data 0 ltac:(lia) Hc Hdata).
    + intros d r1 doms1 Er A ncomps data Hc Hdata. rewrite zget_map in Er. destruct (zget (zfromto 1 (D + 1)) (d - 1)) as [d1| |] eqn:Ed; try discriminate. cbn [bind] in Er. injection Er as <- <-. pose proof (dims_at _ _ _ (proj1 HD) Ed) as Ed1. pose proof (zget_bounds _ _ _ Ed) as B. rewrite zlen_zfromto in B by lia. assert (d1 = d) as -> by lia. rewrite (N d) by lia. specialize (H2 A ncomps data d ltac:(lia) Hc Hdata). destruct (Z.eqb_spec d 0); [lia|exact H2].
  - exfalso. unfold coarsen_element_based in E. rewrite (i_dim T m (proj1 (mesh_ready T m HT HM))), Eo in E. discriminate.
Qed.
Lemma collapses_finish mem mem' : exists first second first' second' x,
  coarsen_element_based (mk_chance mem first second (fun _ _ => false)) (mk_chance mem' first' second' (fun _ _ => false)) m globals keys rails = Ok (Some x).
Proof.
  destruct (finishing_chance T mem HT) as (first & second & HF). set (c := mk_chance mem first second (fun _ _ => false)) in *. destruct (collapse_reduces c true (fun _ => HF)) as [(o & Eo & Ho) Q]. destruct (Ho eq_refl) as (old & ->).
  destruct (Q old Eo) as (r & doms & PV & Fi & HN & HR & ER & _). destruct (rebuild_schedules T HT r PV Fi HN mem') as (first' & second' & FS). specialize (FS (fun _ _ => false)). cbv zeta in FS. exists first, second, first', second'. fold c.
  destruct (rebuild_all T HT r PV Fi HN (mk_chance mem' first' second' (fun _ _ => false)) old HR) as (n & En & _ & Hn). rewrite ER, En. destruct n as [n|]; [|destruct (Hn FS); reflexivity]. eexists. reflexivity.
Qed.
End final.
