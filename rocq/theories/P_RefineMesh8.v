(** Splitting the edges of a mesh: together. *)
From Coq Require Import String Permutation Sorted.
From Verif Require Import Prelude M_Array P_Array M_Par M_Scan S_Scan P_Scan P_Fan S_Sort M_Sort M_Map S_Map P_Map P_Map2 M_Template S_Template P_Template M_Align S_Align P_Align M_Graph S_Graph P_Graph M_Unique S_Unique P_Unique M_Adj S_Adj P_Adj S_Transit P_Transit S_Across P_Across
  M_Match S_Match P_Match M_Tags M_MeshAdj S_MeshAdj P_MeshAdj P_MeshAdj2 P_MeshAdj3 M_Build S_Build P_Build P_Box S_Unmap P_Unmap P_Mark P_Coarsen
  M_Modify S_Modify P_Modify P_Modify2 S_Swap3d S_Swap2d S_Coarsen M_Refine S_Refine P_Refine P_SwapTopo M_RefineMesh S_RefineMesh S_Rebuild P_Rebuild P_Rebuild2 P_Rebuild3 P_RefineMesh1 P_RefineMesh2 P_RefineMesh3 P_RefineMesh4 P_RefineMesh5 P_RefineMesh6 P_RefineMesh7.
Local Open Scope Z_scope.


Section together.
Context (T : topology) (HT : valid_topology T) (HS : simplicial T) (old : amesh) (HR : ready T old).
Context (HA : forall a b, 0 <= a <= t_dim T -> 0 <= b <= t_dim T -> a <> b -> P_MeshAdj.val T a b = Ok (kept_adj old a b)).
Context (keys : list Z) (HK : splittable T keys).
Local Notation D := (t_dim T).
Local Notation F := (t_family T).
Local Notation origs := (origs T old keys).
Local Notation k2p := (k2p T old keys).
Context (r : Z -> numbering) (L : Z -> list (list (list Z))).
Context (G : forall d, 0 <= d <= D -> exists k2p, good_numbering (view old) d (only_at 1 keys) (only_at 1 k2p) (zlen (origs d)) (fun x => ~ exists k, In k keys /\ has_edge T d x k) (r d)).
Context (HL : forall d, 1 <= d <= D -> (forall ts, In ts (L d) -> forall t, In t ts -> zlen t = d + 1) /\ Forall2 (fun k rows => Forall2 (made_of T (look (old2new (r 0))) (mid keys (prods2new (r 0))) d) (orig T old d k) rows) keys (L d)).
Lemma FIT : fits T r (PV L). Proof. eapply fits_all; eassumption. Qed.
Lemma NN d : 0 <= d <= D -> 0 <= nnew (r d). Proof. eapply nn; eassumption. Qed.
Lemma RN d : 0 <= d <= D -> renumbers (t_nents T d) (r d). Proof. eapply rn; eassumption. Qed.
Lemma inherit_right {A} ncomps (data : Z -> list A) d : 0 <= d <= D -> 0 <= ncomps -> (forall d, 0 <= d <= D -> zlen (data d) = t_nents T d * ncomps) ->
  exists l, inherit old keys ncomps data d (k2p d) (r d) = Ok l /\ inherited (nnew (r d)) ncomps data d (from T old keys r d) l.
Proof.
  intros Hd Hc Hdata. unfold inherit. destruct (k2p_facts T old keys d) as (_ & _ & El). rewrite El. cbn [bind]. rewrite (old_dim T old HR).
  destruct (prod_values T HT HS old HR HA keys HK ncomps Hc data Hdata d Hd) as (w & pl & Ew & Ef & Lp & Gp). apply bind_ok in Ew as (w0 & E0 & Ew). rewrite E0. cbn [bind]. apply bind_ok in Ew as (w1 & E1 & Ew). rewrite E1. cbn [bind]. rewrite Ew. cbn [bind]. rewrite Ef. cbn [bind].
  assert (forall x, In x (same2old (r d)) -> 0 <= x < t_nents T d) as B by (intros x Hx; eapply kept_iff in Hx; try eassumption; tauto).
  destruct (unmap_spec (same2old (r d)) (data d) ncomps Hc) as (sl & Es & Ls & Gs). { intros b Hb. apply B in Hb. rewrite (Hdata d Hd). clear - Hb Hc. split; [lia|nia]. }
  assert (zlen (prods2new (r d)) = zlen (origs d)) as Np by (eapply nprods; eassumption).
  destruct (join_spec ncomps (t_nents T d) (r d) true pl sl (RN d Hd) (NN d Hd) Hc ltac:(rewrite Np; exact Lp) Ls) as (l & Ej & Ll & J1 & J2). unfold join in Ej. rewrite (total_eq _ _ (RN d Hd) (NN d Hd)) in Ej. exists l. split.
  - apply bind_ok in Ej as (v0 & F0 & Ej). rewrite F0. cbn [bind]. apply bind_ok in Ej as (v2 & F2 & Ej). apply bind_ok in F2 as (v1 & F1 & F2). rewrite F1. cbn [bind]. rewrite Es. cbn [bind]. rewrite F2. cbn [bind]. exact Ej.
  - split; [exact Ll|]. intros e' j He Hj. assert ((exists i e, zget (same2old (r d)) i = Ok e /\ zget (same2new (r d)) i = Ok e' /\ from T old keys r d e' = Kept e) \/ (exists p o, zget (origs d) p = Ok o /\ zget (prods2new (r d)) p = Ok e' /\ from T old keys r d e' = o)) as [(i & e & E2 & E3 & ->)|(p & o & E2 & E3 & ->)] by (eapply who; eassumption).
    + cbn [source fst snd]. destruct (J1 i e' j E3 Hj) as (x & X1 & X2). rewrite X2, <- X1. apply Gs; assumption.
    + destruct (J2 p e' j E3 Hj) as (x & X1 & X2). rewrite X2, <- X1. apply Gp; assumption.
Qed.
Lemma new_right m' T' : rebuilt T r (PV L) T' -> valid_topology T' -> mesh_of T' m' ->
  simplicial T' /\ refined T keys (look (old2new (r 0))) (mid keys (prods2new (r 0))) (from T old keys r) T'.
Proof. intros RB V M. split; [exact (made_simplicial T HT HS old HR HA keys HK r L G HL T' RB)|exact (made_refined T HT HS old HR HA keys HK r L G HL T' RB)]. Qed.
End together.

Lemma run_more : forall es es' m m', run_aevents m es = Ok (Some m') -> run_aevents m (es ++ es') = run_aevents m' es'.
Proof. induction es as [|e es IH]; intros es' m m' E; cbn [run_aevents app] in *; [injection E as <-; reflexivity|]. apply bindo_some in E as (m1 & E1 & E). rewrite E1. unfold bindo. cbn [bind]. apply IH, E. Qed.
Lemma mesh_asked T c m from to r : valid_topology T -> mesh_of T m -> ask_adj c m from to = Ok (Some r) -> mesh_of T (fst r).
Proof.
  intros HT M E. destruct (ready_next T HT c m from to r (mesh_ready T m HT M) E) as ([_ C] & _). destruct M as (m0 & es & E0 & HB & HR & _). exists m0, (es ++ [Ask from to c]). split; [exact E0|]. split; [intros d a I; apply in_app_or in I as [I|[I|[]]]; [apply HB, I|discriminate]|]. split; [|exact C].
  rewrite (run_more es _ m0 m HR). cbn [run_aevents run_aevent]. rewrite E. reflexivity.
Qed.
Lemma mesh_each T c : valid_topology T -> forall l m old, mesh_of T m -> ask_each c m l = Ok (Some old) -> mesh_of T old.
Proof.
  intros HT. induction l as [|p l IH]; intros m old M E; cbn [ask_each] in E; [injection E as <-; exact M|]. apply bindo_some in E as (x & E1 & E). apply (IH (fst x)); [eapply mesh_asked; eassumption|exact E].
Qed.
Section final.
Context (T : topology) (HT : valid_topology T) (HS : simplicial T) (m : amesh) (HM : mesh_of T m) (keys : list Z) (HK : splittable T keys).
Local Notation D := (t_dim T).
Lemma reduces c fin (Hfin : fin = true -> finishes T c) : good fin (ask_each c m (dim_pairs D)) /\
  (forall o, ask_each c m (dim_pairs D) = Ok (Some o) -> exists r k2ps PV, fits T r PV /\ (forall d, 0 <= d <= D -> 0 <= nnew (r d)) /\ ready T o /\
    (forall c', refine_element_based c c' m keys = bindo (rebuild c' o r PV) (fun n => Ok (Some (o, n, map (fun d => (r d, k2ps d)) (zfromto 0 (D + 1)))))) /\
    exists ov mid from, (forall n T', rebuilt T r PV T' -> valid_topology T' -> mesh_of T' n -> simplicial T' /\ refined T keys ov mid from T') /\
    forall A ncomps (data : Z -> list A) d, 0 <= d <= D -> 0 <= ncomps -> (forall d, 0 <= d <= D -> zlen (data d) = t_nents T d * ncomps) ->
      exists l, inherit o keys ncomps data d (k2ps d) (r d) = Ok l /\ inherited (nnew (r d)) ncomps data d (from d) l).
Proof.
  pose proof (mesh_ready T m HT HM) as RM. destruct (asked_first T HT fin c Hfin m RM) as [Gd Q]. split; [exact Gd|]. intros old E. destruct (Q old E) as [HR HA]. destruct (numbers_found T HT HS old HR HA keys HK) as (r & L & H1 & H2 & H3).
  assert (forall d, 0 <= d <= D -> exists k2p, good_numbering (view old) d (only_at 1 keys) (only_at 1 k2p) (zlen (origs T old keys d)) (fun x => ~ exists k, In k keys /\ has_edge T d x k) (r d)) as G by (intros d Hd; eexists; apply (H1 d Hd)).
  exists r, (k2p T old keys), (PV L). split; [eapply FIT; eassumption|]. split; [intros d Hd; eapply NN; eassumption|]. split; [exact HR|]. split.
  - intros c'. unfold refine_element_based. rewrite (i_dim T m (proj1 RM)), (i_family T m (proj1 RM)). rewrite E. unfold bindo at 1. cbn [bind]. pose proof (v_dim T HT) as HD. destruct (H1 0 ltac:(lia)) as [E0 _]. rewrite <- (k2p_0 T HT old keys), E0. cbn [bind].
    rewrite (zfromto_cons 0 (D + 1)) by lia. apply (refine_after T HT old HR HA keys r L); [intros d Hd; apply (H1 d Hd)|exact H2].
  - exists (look (old2new (r 0))), (mid keys (prods2new (r 0))), (from T old keys r). split.
    + intros n T' RB V M. eapply new_right; eassumption.
    + intros A ncomps data d Hd Hc Hdata. eapply inherit_right; eassumption.
Qed.
Lemma refines_total c c' : exists o, refine_element_based c c' m keys = Ok o.
Proof.
  destruct (reduces c false ltac:(discriminate)) as [(o & E & _) Q]. destruct o as [old|].
  - destruct (Q old E) as (r & k2ps & PV & HF & HN & HR & ER & _). destruct (rebuild_all T HT r PV HF HN c' old HR) as (n & En & _). rewrite ER, En. unfold bindo. cbn [bind]. destruct n; eauto.
  - exists None. unfold refine_element_based. rewrite (i_dim T m (proj1 (mesh_ready T m HT HM))), E. reflexivity.
Qed.
Lemma refines_replaces c c' old n info : refine_element_based c c' m keys = Ok (Some (old, n, info)) -> mesh_of T old /\
  exists r PV, fits T r PV /\ (forall d, 0 <= d <= D -> 0 <= nnew (r d)) /\ rebuild c' old r PV = Ok (Some n).
Proof.
  intros E. destruct (reduces c false ltac:(discriminate)) as [(o & Eo & _) Q]. destruct o as [old'|].
  - destruct (Q old' Eo) as (r & k2ps & PV & HF & HN & HR & ER & _). specialize (ER c'). rewrite E in ER. symmetry in ER. apply bindo_some in ER as (n' & En & ER). injection ER as <- <- <-. split; [eapply mesh_each; eassumption|eauto].
  - exfalso. unfold refine_element_based in E. rewrite (i_dim T m (proj1 (mesh_ready T m HT HM))), Eo in E. discriminate.
Qed.
Lemma refines_right c c' old n info : refine_element_based c c' m keys = Ok (Some (old, n, info)) -> exists T' ov mid from,
  valid_topology T' /\ mesh_of T' n /\ simplicial T' /\ refined T keys ov mid from T' /\ zlen info = D + 1 /\
  forall A ncomps (data : Z -> list A) d r k2p, 0 <= ncomps -> (forall d, 0 <= d <= D -> zlen (data d) = t_nents T d * ncomps) -> zget info d = Ok (r, k2p) ->
    exists l, inherit old keys ncomps data d k2p r = Ok l /\ inherited (t_nents T' d) ncomps data d (from d) l.
Proof.
  intros E. destruct (reduces c false ltac:(discriminate)) as [(o & Eo & _) Q]. destruct o as [old'|].
  - destruct (Q old' Eo) as (r & k2ps & PV & HF & HN & HR & ER & ov & mid & from & H1 & H2). specialize (ER c'). rewrite E in ER. symmetry in ER. apply bindo_some in ER as (n' & En & ER). injection ER as <- <- <-. destruct (rebuild_all T HT r PV HF HN c' old' HR) as (x & Ex & HX & _). assert (x = Some n') as -> by congruence. destruct (HX n' eq_refl) as (T' & V & RB & M).
    exists T', ov, mid, from. split; [exact V|]. split; [exact M|]. destruct (H1 n' T' RB V M) as [S R]. split; [exact S|]. split; [exact R|]. pose proof (v_dim T HT) as HD. split; [rewrite zlen_map, zlen_zfromto by lia; lia|].
    intros A ncomps data d r' k' Hc Hdata Ei. pose proof (zget_bounds _ _ _ Ei) as B. rewrite zlen_map, zlen_zfromto in B by lia. rewrite zfromto_0, zget_map, zget_zrange in Ei by lia. injection Ei as <- <-. destruct RB as (_ & _ & N & _). rewrite (N d) by lia. apply H2; try assumption. lia.
  - exfalso. unfold refine_element_based in E. rewrite (i_dim T m (proj1 (mesh_ready T m HT HM))), Eo in E. discriminate.
Qed.
Lemma refines_finish mem mem' : exists first second first' second' x,
  refine_element_based (mk_chance mem first second (fun _ _ => false)) (mk_chance mem' first' second' (fun _ _ => false)) m keys = Ok (Some x).
Proof.
  destruct (finishing_chance T mem HT) as (first & second & HF). set (c := mk_chance mem first second (fun _ _ => false)) in *. destruct (reduces c true (fun _ => HF)) as [(o & Eo & Ho) Q]. destruct (Ho eq_refl) as (old & ->).
  destruct (Q old Eo) as (r & k2ps & PV & Fi & HN & HR & ER & _). destruct (rebuild_schedules T HT r PV Fi HN mem') as (first' & second' & FS). specialize (FS (fun _ _ => false)). cbv zeta in FS. exists first, second, first', second'. fold c.
  destruct (rebuild_all T HT r PV Fi HN (mk_chance mem' first' second' (fun _ _ => false)) old HR) as (n & En & _ & Hn). rewrite ER, En. destruct n as [n|]; [|destruct (Hn FS); reflexivity]. eexists. reflexivity.
Qed.
End final.
